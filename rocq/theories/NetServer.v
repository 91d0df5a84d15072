(** Proofs about the connections a server has accepted, which may be closed at any time: as PairServer.v. *)
From Verif Require Import Base BaseFacts BuilderFacts Codec Spec Ids IdsFacts Payload Builder Emit EmitFacts Ipc SpecIpc IpcFacts IpcChanFacts IpcUsers IpcLoops IpcTasks IpcIds IpcReplies IpcStreams IpcClaims IpcMore IpcFlow IpcLimits IpcRemoved Pair SpecPair PairFacts PairServer.
From Coq Require Import ZifyBool ZifyNat ZifyN.

Section Server.
  Context (cf : config) (armed : bool) (ctr : N).
  Hypothesis replies_only : only_replies cf.
  Local Notation runs' := (runs cf 1 armed [] ctr).
  Record site (s : ep) (tr : list obs) : Prop := mk_site {
    z_lis : e_lis s = []; z_chans : e_chans s = []; z_streams : e_streams s = []; z_conns : e_conns s = [mk_conn LRun armed false] \/ e_conns s = [mk_conn LDone armed false];
    z_tasks : forall i tk, nth_error (e_tasks s) i = Some tk -> exists e, tk_job tk = Some (ctx0 e, e) /\ serving tr i (ctx0 e) (tk_st tk)
  }.
  Lemma site_set s tr i tk e st os s' : site s tr -> nth_error (e_tasks s) i = Some tk -> tk_job tk = Some (ctx0 e, e) -> serving (tr ++ os) i (ctx0 e) st ->
    (s' = set_task i st s \/ s' = set_task i st (next_id s) \/ exists x, s' = set_task i st (unlisten x s)) -> site s' (tr ++ os).
  Proof.
    intros [A B C D T] Hi Hj Hs Hs'.
    assert (E : e_lis s' = [] /\ e_chans s' = e_chans s /\ e_streams s' = e_streams s /\ e_conns s' = e_conns s /\ e_tasks s' = e_tasks (set_task i st s)).
    { destruct Hs' as [->|[->|(x & ->)]]; autorewrite with ep; rewrite ?A; repeat split; unfold set_task; autorewrite with ep; rewrite ?Hi; reflexivity. }
    destruct E as (E1 & E2 & E3 & E4 & E5). constructor; try congruence.
    intros j tj. rewrite E5, nth_set_task, Hi. cbn [option_map]. destruct (Nat.eqb_spec j i) as [->|N].
    - intros Q. injection Q as <-. exists e. cbn [tk_job tk_st]. auto.
    - intros Q. destruct (T j tj Q) as (e' & F & G). exists e'. split; [exact F|]. apply serving_app. exact G.
  Qed.
  Ltac setit := eapply site_set; [eassumption|eassumption|reflexivity| |first [left; reflexivity|right; left; reflexivity|right; right; eexists; reflexivity]].

  Lemma site_step s tr l s' os : site s tr -> step cf s l = Some (s', os) -> site s' (tr ++ os).
  Proof.
    intros V H. pose proof V as [A B C D T]. destruct l as [i a|n e|n|n|n|h|].
    - cbn [step] in H. unfold task_step in H. destruct (nth_error (e_tasks s) i) as [[job st]|] eqn:Hi; [|discriminate].
      destruct (T _ _ Hi) as (e & Hj & Hs). cbn [tk_job tk_st] in *. subst job.
      destruct st as [p|? ? ?|ctx a0 [k|c k|c k|ok]|c0 x0 k0|c0 x0 r0 k0|h0 k0|h0 r0 k0|x| |]; cbn [serving] in Hs; try (destruct Hs; fail); try discriminate H.
      + destruct a as [t v| | |]; try discriminate H. destruct Hs as [r| |rq k Hc Hk|k Hk]; unfold run_prog in H; cbn zeta in H.
        * destruct (answer_ok cf (ctx0 e) (nth_id t (e_ctr s)) r) as (a & Ha). rewrite Ha in H. apply some_pair in H. destruct H as [<- <-].
          setit. reflexivity.
        * apply some_pair in H. destruct H as [<- <-]. setit. cbn. apply in_or_app. right. left. reflexivity.
        * destruct (rq_payload rq) as [d|er|cr]; apply some_pair in H; destruct H as [<- <-].
          -- setit. cbn. auto.
          -- setit. cbn. auto.
          -- setit. cbn. apply in_or_app. right. left. reflexivity.
        * apply some_pair in H. destruct H as [<- <-]. setit. cbn. auto.
      + destruct Hs as [-> Hk]. destruct a as [t v|io| |]; try discriminate H; apply some_pair in H; destruct H as [<- <-]; (setit; cbn; auto).
      + destruct a as [t v|io| |]; try discriminate H; apply some_pair in H; destruct H as [<- <-]; (setit; destruct ok; exact I).
      + destruct a; try discriminate H. apply some_pair in H. destruct H as [<- <-]. setit. exact I.
    - cbn [step] in H. destruct D as [D|D]; rewrite D in H; destruct n as [|[|n]]; cbn [nth_error cn_loop] in H; try discriminate H.
      assert (HE : forall (h : event_handler callback) sc, (forall cb : callback, eh_get h (ev_name e) = Some cb -> forall ctx e, replier ctx (cb ctx e)) ->
          site (fst (handle_event s 0 h sc e)) (tr ++ OReceived 0 e :: snd (handle_event s 0 h sc e))).
      { intros h sc Hh. unfold handle_event. cbn [fst snd]. constructor; autorewrite with ep; auto. intros j tk Q. rewrite nth_snoc in Q.
        destruct (Nat.eqb_spec j (length (e_tasks s))) as [->|N].
        - injection Q as <-. exists e. split; [reflexivity|]. cbn [tk_st serving]. destruct (eh_get h (ev_name e)) eqn:Eg; [eauto|constructor].
        - destruct (T _ _ Q) as (e' & F & G). exists e'. split; [exact F|]. apply serving_app. exact G. }
      unfold receive in H. rewrite A in H. cbn [lookup] in H.
      replace (match ev_ref e with Some _ => None | None => None end) with (@None nat) in H by (destruct (ev_ref e); reflexivity).
      destruct (etype_eqb (ev_type e) End).
      + apply some_pair in H. destruct H as [<- <-]. constructor; auto. intros j tk Q. destruct (T _ _ Q) as (e' & F & G). exists e'. split; [exact F|]. apply serving_app. exact G.
      + destruct (match ev_ns e with Some ns => lookup bytes_eqb ns (cf_namespaces cf) | None => None end) as [nsp|] eqn:En.
        * specialize (HE (ns_handler nsp) (ev_ns e)). destruct (handle_event s 0 (ns_handler nsp) (ev_ns e) e) as [s1 o1]. apply some_pair in H. destruct H as [<- <-].
          apply HE. intros cb Hcb. eapply (replies_only (ev_ns e)). unfold callbacks. destruct (ev_ns e); [|discriminate]. rewrite En. exact Hcb.
        * specialize (HE (cf_handler cf) None). destruct (handle_event s 0 (cf_handler cf) None e) as [s1 o1]. apply some_pair in H. destruct H as [<- <-].
          apply HE. intros cb Hcb. eapply (replies_only None). exact Hcb.
    - cbn [step] in H. destruct D as [D|D]; rewrite D in H; destruct n as [|[|n]]; discriminate H.
    - cbn [step] in H. destruct D as [D|D]; rewrite D in H; destruct n as [|[|n]]; cbn [nth_error cn_loop] in H; try discriminate H.
      apply some_pair in H. destruct H as [<- <-]. constructor; unfold set_loop; rewrite ?D; cbn; rewrite ?D; auto.
      intros j tk Q. destruct (T _ _ Q) as (e' & F & G). exists e'. split; [exact F|]. apply serving_app. exact G.
    - cbn [step] in H. destruct D as [D|D]; rewrite D in H; destruct n as [|[|n]]; discriminate H.
    - cbn [step] in H. rewrite C in H. destruct h; discriminate H.
    - cbn [step] in H. apply some_pair in H. destruct H as [<- <-]. constructor; autorewrite with ep; auto. intros j tk Q. rewrite app_nil_r. auto.
  Qed.
  Lemma inv_site ls s tr : runs' ls s tr -> site s tr.
  Proof.
    apply (run_ind cf _ (fun ls s tr => site s tr)).
    - constructor; try reflexivity; [left; reflexivity|]. intros [|i] tk Q; discriminate Q.
    - intros l0 s0 tr0 l s' os IH _ H. eapply site_step; eauto.
  Qed.

  (** everything sent answers something handled *)
  Lemma site_sends ls s tr : runs' ls s tr -> forall j ctx a, In (OSent j ctx a) tr ->
    exists sc q, In (OCalled 0 j ctx sc q) tr /\ ctx = ctx0 q /\ ev_ref a = Some (ev_id q).
  Proof.
    apply (run_ind cf _ (fun ls s tr => forall j ctx a, In (OSent j ctx a) tr -> exists sc q, In (OCalled 0 j ctx sc q) tr /\ ctx = ctx0 q /\ ev_ref a = Some (ev_id q))).
    - intros j ctx a [].
    - intros l0 s0 tr0 l s' os IH HR H j ctx a Q.
      apply in_app_or in Q. destruct Q as [Q|Q].
      + destruct (IH _ _ _ Q) as (sc & q & B & C & D). exists sc, q. split; [apply in_or_app; auto|]. auto.
      + pose proof (inv_site _ _ _ HR) as V.
        assert (S : exists st0, nth_error (e_tasks s0) j = Some st0 /\ exists pu, tk_st st0 = TSend ctx a pu).
        { step_cases H; cbn [In] in Q; repeat (destruct Q as [Q|Q]); try discriminate Q; try contradiction; injection Q as <- <- <-; eauto. }
        destruct S as (tk & S1 & pu & S2). destruct (z_tasks _ _ V _ _ S1) as (q & J & Sv). pose proof (inv_task _ _ _ _ _ _ _ _ HR j) as TT. rewrite S1 in TT. destruct TT as [TT1 TT2].
        rewrite J in TT1, TT2. destruct TT1 as (n & sc & N1 & N2 & N3). rewrite S2 in Sv, TT2.
        assert (n = 0%nat) by (injection N1; auto). subst n.
        exists sc, q. destruct pu as [k|c k|c k|ok]; cbn [serving] in Sv; try (destruct Sv; fail).
        * destruct Sv as [-> _]. split; [apply in_or_app; auto|]. split; [reflexivity|]. cbn in TT2. destruct TT2 as [[TT2 _] _]. exact TT2.
        * subst ctx. split; [apply in_or_app; auto|]. split; [reflexivity|]. cbn in TT2. destruct TT2 as (x & r & E1 & _ & _ & E2 & _). injection E1 as <-. destruct E2 as [E2 _]. rewrite E2. reflexivity.
  Qed.

  (** the events handled are those received, End events left out *)
  Lemma site_calls ls s tr : runs' ls s tr -> map snd (calls tr) = filter not_end (got tr).
  Proof.
    apply (run_ind cf _ (fun ls s tr => map snd (calls tr) = filter not_end (got tr))); [reflexivity|].
    intros l0 s0 tr0 l s' os IH HR H.
    rewrite calls_app, got_app, map_app, filter_app, IH. f_equal. pose proof (inv_site _ _ _ HR) as [A B C D T].
    destruct l as [i a|n e|n|n|n|h|].
    - step_cases H; reflexivity.
    - cbn [step] in H. destruct (nth_error (e_conns s0) n) as [cn|]; [|discriminate]. destruct (cn_loop cn); try discriminate. unfold receive in H. rewrite A in H. cbn [lookup] in H.
      replace (match ev_ref e with Some _ => None | None => None end) with (@None nat) in H by (destruct (ev_ref e); reflexivity). unfold handle_event in H.
      destruct (etype_eqb (ev_type e) End) eqn:Q; [|destruct (match ev_ns e with Some ns => lookup bytes_eqb ns (cf_namespaces cf) | None => None end)];
        apply some_pair in H; destruct H as [_ <-]; cbn; unfold not_end; rewrite Q; reflexivity.
    - cbn [step] in H. destruct D as [D|D]; rewrite D in H; destruct n as [|[|n]]; discriminate H.
    - cbn [step] in H. destruct D as [D|D]; rewrite D in H; destruct n as [|[|n]]; cbn [nth_error cn_loop] in H; try discriminate H. apply some_pair in H. destruct H as [_ <-]. reflexivity.
    - cbn [step] in H. destruct D as [D|D]; rewrite D in H; destruct n as [|[|n]]; discriminate H.
    - cbn [step] in H. rewrite C in H. destruct h; discriminate H.
    - cbn [step] in H. apply some_pair in H. destruct H as [<- <-]. reflexivity.
  Qed.
  (** what a handler's task can be doing when nothing goes on *)
  Lemma site_rest ls s tr j tk : runs' ls s tr -> nth_error (e_tasks s) j = Some tk -> stuck cf s j -> tk_st tk = TDone \/ (tk_st tk = TDead /\ In (OPanicked j) tr).
  Proof.
    intros HR Hj St. pose proof (inv_site _ _ _ HR) as [A B C D T]. destruct (T _ _ Hj) as (e & Hjob & Hs).
    unfold stuck in St. cbn [step] in St. unfold task_step in St. rewrite Hj, Hjob in St.
    destruct (tk_st tk) as [p|? ? ?|ctx a0 [k|c k|c k|ok]|? ? ?|? ? ? ?|? ?|? ? ?|x| |]; cbn [serving] in Hs; try (destruct Hs; fail); auto; exfalso.
    - specialize (St (mk_instant 0 0) 0). destruct Hs as [r| |rq k Hc Hk|k Hk]; cbn [run_prog] in St.
      + destruct (answer_ok cf (ctx0 e) (nth_id (mk_instant 0 0) (e_ctr s)) r) as (a & Ha). rewrite Ha in St. discriminate.
      + discriminate.
      + destruct (rq_payload rq); discriminate.
      + discriminate.
    - specialize (St (mk_instant 0 0) 0). discriminate.
    - specialize (St (mk_instant 0 0) 0). discriminate.
    - specialize (St (mk_instant 0 0) 0). discriminate.
  Qed.
End Server.
