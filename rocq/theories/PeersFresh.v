(** Proofs about user code that awaits replies only through contexts without reference. *)
From Verif Require Import Base BaseFacts BuilderFacts Codec Spec Ids IdsFacts Payload Builder Emit EmitFacts Ipc SpecIpc IpcFacts IpcChanFacts IpcUsers IpcLoops IpcTasks IpcIds IpcReplies IpcStreams IpcClaims IpcMore IpcFlow IpcLimits IpcRemoved IpcFate Pair SpecPair PairFacts PairServer PairEnd PairRest Bounded SpecBounded BoundedFacts SpecOrder OrderFacts SpecPeers PeersFacts PeersRest.
From Coq Require Import ZifyBool ZifyNat ZifyN.

Definition fresh_st (st : tstate) : Prop :=
  match st with
  | TRun p => asks_fresh p
  | TRegister _ e w => ev_ref e = None /\ match w with WantReply k => forall o, asks_fresh (k o) | WantStream k => forall o, asks_fresh (k o) end
  | TSend _ e pu => match pu with ForEmit k => forall o, asks_fresh (k o) | ForAwait _ k => ev_ref e = None /\ forall o, asks_fresh (k o) | ForStream _ k => ev_ref e = None /\ forall o, asks_fresh (k o) | ForAnswer _ => True end
  | TWait _ _ k | TGot _ _ _ k => forall o, asks_fresh (k o)
  | TNext _ k | TNextGot _ _ k => forall o, asks_fresh (k o)
  | TForget _ | TDone | TDead => True
  end.
Section Fresh.
  Context (cf : config) (nc : nat) (armed : bool) (ps : list prog) (ctr : N).
  Hypothesis PH : fresh_handlers cf.
  Hypothesis PP : Forall asks_fresh ps.
  Local Notation runs' := (runs cf nc armed ps ctr).
  Definition fresh (s : ep) : Prop := forall i st, tst s i = Some st -> fresh_st st.
  Lemma fresh_set s i tk st s1 : fresh s -> nth_error (e_tasks s) i = Some tk -> fresh_st st -> e_tasks s1 = e_tasks s -> fresh (set_task i st s1).
  Proof.
    intros T Hi TS E3 j sj. unfold tst. rewrite nth_set_task, E3, Hi. cbn [option_map]. destruct (Nat.eqb_spec j i) as [->|].
    - cbn. intros Q. injection Q as <-. exact TS.
    - exact (T j sj).
  Qed.
  Lemma fresh_same s s' : fresh s -> e_tasks s' = e_tasks s -> fresh s'.
  Proof. intros T E i st. unfold tst. rewrite E. exact (T i st). Qed.
  Lemma fresh_call s n e (h : event_handler callback) sc : fresh s -> (forall cb : callback, eh_get h (ev_name e) = Some cb -> forall ctx x, asks_fresh (cb ctx x)) -> fresh (fst (handle_event s n h sc e)).
  Proof.
    intros T HH i st. unfold handle_event. cbn [fst]. unfold tst, add_task. cbn [e_tasks]. rewrite nth_snoc. destruct (Nat.eqb_spec i (length (e_tasks s))); [|exact (T i st)]. cbn. intros Q. injection Q as <-. cbn.
    destruct (eh_get h (ev_name e)) eqn:Eh; [|constructor]. exact (HH _ eq_refl _ _).
  Qed.
  Ltac ts T Hi := eapply fresh_set; [exact T|exact Hi| |autorewrite with ep; reflexivity].
  Lemma fresh_step s l s' os : fresh s -> step cf s l = Some (s', os) -> fresh s'.
  Proof.
    intros T H. destruct l as [i a|n e|n|n|n|h|].
    - cbn [step] in H. unfold task_step in H. destruct (nth_error (e_tasks s) i) as [[job st]|] eqn:Hi; [|discriminate].
      assert (TS : fresh_st st) by (apply (T i); unfold tst; rewrite Hi; reflexivity). cbn [tk_job tk_st] in *.
      destruct st as [p|ctx e [k|k]|ctx e [k|c k|c k|ok]|c x k|c x e k|h k|h oe k|x| |]; cbn [fresh_st] in TS; try (destruct a; discriminate H).
      + destruct a as [t v| | |]; try discriminate H. unfold run_prog in H. cbn zeta in H. destruct TS as [r| |rq k Hk|rq k TH Hk|rq k TH Hk|h k Hk|n k Hk|k Hk|q k Hq Hk].
        * destruct job as [[ctx x]|]; [|apply some_pair in H; destruct H as [<- <-]; ts T Hi; exact I].
          destruct (answer_event cf ctx (nth_id t (e_ctr s)) r) as [a| |] eqn:Ea; try discriminate H. apply some_pair in H. destruct H as [<- <-].
          ts T Hi. exact I.
        * apply some_pair in H. destruct H as [<- <-]. ts T Hi. exact I.
        * destruct (rq_payload rq) as [d|er|cr]; apply some_pair in H; destruct H as [<- <-]; ts T Hi; try exact I; try exact Hk; exact (Hk _).
        * destruct (rq_payload rq) as [d|er|cr]; apply some_pair in H; destruct H as [<- <-]; ts T Hi; try exact I; try exact (Hk _). split; [exact TH|exact Hk].
        * destruct (rq_payload rq) as [d|er|cr]; apply some_pair in H; destruct H as [<- <-]; ts T Hi; try exact I; try exact (Hk _). split; [exact TH|exact Hk].
        * destruct (nth_error (e_streams s) h) as [y|]; [|discriminate]. destruct (st_state y); try discriminate H; apply some_pair in H; destruct H as [<- <-]; ts T Hi; try exact (Hk _); try exact Hk; exact I.
        * destruct (nth_error (e_conns s) n) as [cn|]; [|discriminate]. destruct (cn_armed cn); apply some_pair in H; destruct H as [<- <-]; ts T Hi; exact (Hk _).
        * apply some_pair in H. destruct H as [<- <-]. ts T Hi. exact (Hk _).
        * apply some_pair in H. destruct H as [<- <-].
          intros j sj. unfold tst. rewrite nth_set_task. unfold add_task. cbn [e_tasks]. rewrite nth_error_app1 by (apply nth_error_Some; congruence). rewrite Hi. cbn [option_map].
          destruct (Nat.eqb_spec j i) as [->|N].
          -- cbn. intros Q. injection Q as <-. exact Hk.
          -- rewrite nth_snoc. destruct (Nat.eqb_spec j (length (e_tasks s))); [|exact (T j sj)]. cbn. intros Q. injection Q as <-. exact Hq.
      + destruct a as [t v| | |]; try discriminate H. apply some_pair in H. destruct H as [<- <-]. destruct TS. ts T Hi. split; assumption.
      + destruct a as [t v| | |]; try discriminate H. apply some_pair in H. destruct H as [<- <-]. destruct TS. ts T Hi. split; assumption.
      + destruct a as [t v|io| |]; try discriminate H; apply some_pair in H; destruct H as [<- <-]; ts T Hi; exact (TS _).
      + destruct TS as [KE Hk]. destruct a as [t v|io| |]; try discriminate H; apply some_pair in H; destruct H as [<- <-]; ts T Hi; try exact (Hk _); exact Hk.
      + destruct TS as [KE Hk]. destruct a as [t v|io| |]; try discriminate H; apply some_pair in H; destruct H as [<- <-]; ts T Hi; exact (Hk _).
      + destruct a as [t v|io| |]; try discriminate H; apply some_pair in H; destruct H as [<- <-]; ts T Hi; destruct ok; [destruct job as [[? ?]|]| |destruct job as [[? ?]|]|]; exact I.
      + destruct a as [t v|io| |]; try discriminate H.
        * destruct (nth_error (e_chans s) c) as [ch|]; [|discriminate]. destruct (ch_buf ch) as [|b1 b].
          -- destruct (has_sender s c); [discriminate|]. apply some_pair in H. destruct H as [<- <-]. ts T Hi. exact (TS _).
          -- apply some_pair in H. destruct H as [<- <-]. ts T Hi. exact TS.
        * apply some_pair in H. destruct H as [<- <-]. ts T Hi. exact (TS _).
        * apply some_pair in H. destruct H as [<- <-]. ts T Hi. exact (TS _).
      + destruct a as [t v|io| |]; try discriminate H. cbn zeta in H.
        destruct (reply_result (cf_env cf) e); apply some_pair in H; destruct H as [<- <-]; ts T Hi; try exact (TS _); exact I.
      + destruct a as [t v|io| |]; try discriminate H.
        * destruct (nth_error (e_streams s) h) as [y|]; [|discriminate]. destruct (nth_error (e_chans s) (st_chan y)) as [ch|]; [|discriminate]. destruct (ch_buf ch) as [|b1 b].
          -- destruct (has_sender s (st_chan y)); [discriminate|]. apply some_pair in H. destruct H as [<- <-]. ts T Hi. exact TS.
          -- cbn zeta in H. destruct (etype_eqb (ev_type b1) End); apply some_pair in H; destruct H as [<- <-]; ts T Hi; try exact (TS _); exact TS.
        * destruct (nth_error (e_streams s) h) as [y|]; [|discriminate]. apply some_pair in H. destruct H as [<- <-]. ts T Hi. exact (TS _).
        * apply some_pair in H. destruct H as [<- <-]. ts T Hi. exact (TS _).
      + destruct a as [t v|io| |]; try discriminate H. destruct (nth_error (e_streams s) h) as [y|]; [|discriminate]. cbn zeta in H. apply some_pair in H. destruct H as [<- <-]. ts T Hi. exact (TS _).
      + destruct a as [t v|io| |]; try discriminate H. apply some_pair in H. destruct H as [<- <-]. ts T Hi. exact I.
    - cbn [step] in H. destruct (nth_error (e_conns s) n) as [cn|]; [|discriminate]. destruct (cn_loop cn); try discriminate H. injection H as H. unfold receive in H.
      destruct (match ev_ref e with Some r => lookup N.eqb r (e_lis s) | None => None end) as [c|].
      + injection H as <- <-. apply fresh_same with (s := s); [exact T|autorewrite with ep; reflexivity].
      + destruct (etype_eqb (ev_type e) End); [injection H as <- <-; exact T|].
        destruct (match ev_ns e with Some ns => lookup bytes_eqb ns (cf_namespaces cf) | None => None end) as [nsp|] eqn:En.
        * destruct (ev_ns e) as [ns|]; [|discriminate]. assert (Q := fresh_call s n e (ns_handler nsp) (Some ns) T).
          destruct (handle_event s n (ns_handler nsp) (Some ns) e) as [s2 o2]. injection H as <- <-. apply Q.
          intros cb Hcb. apply (PH (Some ns) (ev_name e)). cbn. rewrite En. exact Hcb.
        * assert (Q := fresh_call s n e (cf_handler cf) None T). destruct (handle_event s n (cf_handler cf) None e) as [s2 o2]. injection H as <- <-. apply Q.
          intros cb Hcb. apply (PH None (ev_name e)). exact Hcb.
    - cbn [step] in H. destruct (nth_error (e_conns s) n) as [cn|]; [|discriminate]. destruct (cn_loop cn) as [|c e|]; try discriminate H. unfold place in H. destruct (nth_error (e_chans s) c) as [ch|]; [|discriminate]. destruct (ch_open ch).
      + destruct (Nat.ltb _ _); [|discriminate]. apply some_pair in H; destruct H as [<- <-]. apply fresh_same with (s := s); [exact T|autorewrite with ep; reflexivity].
      + assert (T1 : fresh (set_loop n LRun s)) by (apply fresh_same with (s := s); [exact T|autorewrite with ep; reflexivity]).
        assert (Q := fresh_call _ n e (cf_handler cf) None T1). destruct (handle_event (set_loop n LRun s) n (cf_handler cf) None e) as [s2 o2]. apply some_pair in H; destruct H as [<- <-]. apply Q.
        intros cb Hcb. apply (PH None (ev_name e)). exact Hcb.
    - cbn [step] in H. destruct (nth_error (e_conns s) n) as [cn|]; [|discriminate]. destruct (cn_loop cn); try discriminate H. apply some_pair in H; destruct H as [<- <-]. apply fresh_same with (s := s); [exact T|autorewrite with ep; reflexivity].
    - cbn [step] in H. destruct (nth_error (e_conns s) n) as [cn|]; [|discriminate]. destruct (cn_signal cn); [|discriminate]. apply some_pair in H; destruct H as [<- <-]. apply fresh_same with (s := s); [exact T|autorewrite with ep; reflexivity].
    - cbn [step] in H. destruct (nth_error (e_streams s) h) as [y|]; [|discriminate]. destruct (st_state y); try discriminate H; apply some_pair in H; destruct H as [<- <-]; (apply fresh_same with (s := s); [exact T|autorewrite with ep; reflexivity]).
    - cbn [step] in H. apply some_pair in H; destruct H as [<- <-]. exact T.
  Qed.
  Lemma inv_fresh ls s tr : runs' ls s tr -> fresh s.
  Proof.
    apply (run_ind cf _ (fun ls s tr => fresh s)).
    - intros i st. unfold tst. cbn. rewrite nth_error_map. destruct (nth_error ps i) as [q|] eqn:E; [|discriminate]. cbn. intros Q. injection Q as <-. cbn. rewrite Forall_forall in PP. apply PP. eapply nth_error_In. exact E.
    - intros l0 s0 tr0 l s' os IH HR H. eapply fresh_step; eauto.
  Qed.
  (** what awaits a reply refers to nothing *)
  Lemma listens_fresh ls s tr : runs' ls s tr -> forall i x c, In (OListen i x c) tr ->
    (exists ctx e pu, tst s i = Some (TSend ctx e pu) /\ ev_id e = x /\ tchan (TSend ctx e pu) = Some c)
    \/ (exists ctx e, (In (OSent i ctx e) tr \/ In (OCut i ctx e) tr) /\ ev_id e = x /\ ev_ref e = None).
  Proof.
    apply (run_ind cf _ (fun ls s tr => forall i x c, In (OListen i x c) tr -> (exists ctx e pu, tst s i = Some (TSend ctx e pu) /\ ev_id e = x /\ tchan (TSend ctx e pu) = Some c)
       \/ (exists ctx e, (In (OSent i ctx e) tr \/ In (OCut i ctx e) tr) /\ ev_id e = x /\ ev_ref e = None))); [intros i x c []|].
    intros l0 s0 tr0 l s' os IH HR H i x c Q. apply in_app_or in Q. destruct Q as [Q|Q].
    - destruct (IH _ _ _ Q) as [(ctx & e & pu & A & B & C)|(ctx & e & A & B & C)].
      + assert (D : (forall a, l <> LTask i a) \/ exists a, l = LTask i a) by (destruct l as [j a| | | | | |]; try (left; discriminate); destruct (Nat.eq_dec j i) as [->|]; [right; eauto|left; congruence]).
        destruct D as [D|(a & ->)].
        * left. exists ctx, e, pu. rewrite (tst_kept _ _ _ _ _ _ H D) by congruence. auto.
        * right. exists ctx, e. pose proof (inv_fresh _ _ _ HR i _ A) as T. unfold tst in A. destruct (nth_error (e_tasks s0) i) as [tk|] eqn:Hi; [|discriminate]. cbn in A. injection A as A.
          cbn [step] in H. unfold task_step in H. rewrite Hi, A in H.
          split; [|split; [exact B|]].
          -- destruct pu as [k|d k|d k|ok]; try discriminate C; destruct a; try discriminate H; apply some_pair in H; destruct H as [_ <-];
               first [left; apply in_or_app; right; left; reflexivity|right; apply in_or_app; right; left; reflexivity].
          -- destruct pu as [k|d k|d k|ok]; try discriminate C; apply T.
      + right. exists ctx, e. split; [|auto]. destruct A as [A|A]; [left|right]; apply in_or_app; auto.
    - destruct (listen_step _ _ _ _ _ _ _ _ H Q) as (a & ctx & e & w & pu & _ & _ & B & _ & _ & A & C). left. exists ctx, e, pu. auto.
  Qed.
End Fresh.

Section Two.
  Context (cf : side -> config) (ps : side -> list prog) (ctr : side -> N).
  Hypothesis PH : forall sd, fresh_handlers (cf sd).
  Hypothesis PP : forall sd, Forall asks_fresh (ps sd).
  Local Notation pruns' := (pruns cf ps ctr (fun _ => [])).
  Lemma fresh_freely ls p tr : pruns' ls p tr -> good_clocks ls -> (forall sd, few_events (p_ep p sd)) -> asks_freely tr.
  Proof.
    intros HR GC FE sd i x c c' q HL HQ Ex. destruct (project _ _ _ _ _ _ _ HR sd) as (la & RA & GA & _ & _ & NC). specialize (GA GC).
    destruct (project _ _ _ _ _ _ _ HR (other sd)) as (lb & RB & _).
    pose proof (inv_idents _ _ _ _ _ _ _ _ RA GA (FE sd)) as ID.
    destruct (queued_ref _ _ _ _ _ _ _ _ RB c' q) as (i' & x' & _ & RF).
    { unfold queued. apply in_flat_map. eexists. split; [exact HQ|]. cbn. rewrite Nat.eqb_refl. left. reflexivity. }
    pose proof (queued_received _ _ _ _ _ _ _ _ _ _ _ RB HQ) as RC.
    assert (W : In q (wired (at_side sd tr))).
    { pose proof (wires _ _ _ _ _ _ _ HR (other sd)) as W. cbn [app] in W. rewrite other_other in W. rewrite <- W. apply in_or_app. left. apply in_got. eauto. }
    apply in_wired in W. destruct W as (j & ctx & a & W & ->). rewrite drop_id in Ex. rewrite drop_ref in RF.
    destruct (listens_fresh _ _ _ _ _ (PH sd) (PP sd) _ _ _ RA _ _ _ HL) as [(cx & e & pu & A & B & _)|(cx & e & A & B & C)].
    - apply (j_once _ _ ID _ _ x A); [cbn; congruence|]. rewrite <- Ex. eapply sent_ended; eauto.
    - destruct A as [A|A].
      + pose proof (ended_same _ _ _ x (j_nodup _ _ ID) W A (or_introl Ex) (or_introl B)) as Q. injection Q as <- <- <-. congruence.
      + assert (existsb is_cut (at_side sd tr) = true) by (apply existsb_exists; eexists; split; [exact A|reflexivity]). congruence.
  Qed.
End Two.
