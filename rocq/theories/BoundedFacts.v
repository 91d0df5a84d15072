(** Proofs about endpoints joined by a connection of finite capacity. *)
From Verif Require Import Base BaseFacts BuilderFacts Codec Spec Ids IdsFacts Payload Builder Emit EmitFacts Ipc SpecIpc IpcFacts IpcChanFacts IpcUsers IpcLoops IpcTasks IpcIds IpcReplies IpcStreams IpcClaims IpcMore IpcFlow IpcLimits IpcRemoved IpcFate Pair SpecPair PairFacts PairServer PairEnd PairRest Bounded SpecBounded.
From Coq Require Import ZifyBool ZifyNat ZifyN.

Lemma bstep_pstep cap cf p l r : bstep cap cf p l = Some r -> pstep cf p l = Some r.
Proof. unfold bstep. destruct (pstep cf p l) as [[p' os]|]; [|discriminate]. destruct l; [|auto]. destruct (_ && _); [discriminate|auto]. Qed.
Lemma brun_prun cap cf ls : forall p r, brun cap cf p ls = Some r -> prun cf p ls = Some r.
Proof.
  induction ls as [|l ls IH]; intros p r H; cbn [brun prun] in *; [exact H|].
  destruct (bstep cap cf p l) as [[p1 o1]|] eqn:E; [|discriminate]. rewrite (bstep_pstep _ _ _ _ _ E).
  destruct (brun cap cf p1 ls) as [[p2 o2]|] eqn:E2; [|discriminate]. rewrite (IH _ _ E2). exact H.
Qed.

(** ** Endpoints with plain code *)
Definition known (tr : list obs) (r : option N) : Prop := match r with None => True | Some x => exists n e, In (OReceived n e) tr /\ ev_id e = x end.
Lemma known_app tr os r : known tr r -> known (tr ++ os) r.
Proof. destruct r as [x|]; cbn; [|auto]. intros (n & e & A & B). exists n, e. split; [apply in_or_app; auto|exact B]. Qed.
Definition tame_st (own : option N) (tr : list obs) (st : tstate) : Prop :=
  match st with
  | TRun p => plain_code own p
  | TRegister _ e (WantReply k) => known tr (ev_ref e) /\ forall o, plain_code own (k o)
  | TSend _ e (ForEmit k) => known tr (ev_ref e) /\ forall o, plain_code own (k o)
  | TSend _ e (ForAwait _ k) => known tr (ev_ref e) /\ forall o, plain_code own (k o)
  | TSend _ e (ForAnswer _) => known tr (ev_ref e)
  | TWait _ _ k | TGot _ _ _ k => forall o, plain_code own (k o)
  | TForget _ | TDone | TDead => True
  | _ => False
  end.
Lemma tame_st_app own tr os st : tame_st own tr st -> tame_st own (tr ++ os) st.
Proof. destruct st as [p|? ? [k|k]|? ? [k|c k|c k|ok]| | | | | | |]; cbn; try tauto; intuition (apply known_app; assumption). Qed.
Definition tame_task (tr : list obs) (tk : task) : Prop :=
  match tk_job tk with Some (ctx, _) => known tr (c_ref ctx) | None => True end /\ exists own, known tr own /\ tame_st own tr (tk_st tk).
Lemma tame_task_app tr os tk : tame_task tr tk -> tame_task (tr ++ os) tk.
Proof.
  intros (A & own & B & C). split; [destruct (tk_job tk) as [[ctx x]|]; [apply known_app; exact A|exact I]|].
  exists own. split; [apply known_app; exact B|apply tame_st_app; exact C].
Qed.
Record tame (s : ep) (tr : list obs) : Prop := mk_tame {
  t_streams : e_streams s = [];
  t_conns : exists l arm, e_conns s = [mk_conn l arm false] /\ l <> LDone;
  t_tasks : forall i tk, nth_error (e_tasks s) i = Some tk -> tame_task tr tk;
  t_sent : forall i ctx e, In (OSent i ctx e) tr -> known tr (ev_ref e)
}.
Section Tame.
  Context (cf : config) (armed : bool) (ps : list prog) (ctr : N).
  Hypothesis PH : plain_handlers cf.
  Hypothesis PP : Forall (plain_code None) ps.
  Local Notation runs' := (runs cf 1 armed ps ctr).
  Lemma tame_upd s tr s' os : tame s tr -> e_streams s' = e_streams s -> (exists l arm, e_conns s' = [mk_conn l arm false] /\ l <> LDone) ->
    (forall i tk, nth_error (e_tasks s') i = Some tk -> nth_error (e_tasks s) i = Some tk \/ tame_task (tr ++ os) tk) ->
    (forall i ctx e, In (OSent i ctx e) os -> known tr (ev_ref e)) -> tame s' (tr ++ os).
  Proof.
    intros T E C K N. constructor.
    - rewrite E. exact (t_streams _ _ T).
    - exact C.
    - intros i tk Q. destruct (K _ _ Q) as [Q'|Q']; [|exact Q']. apply tame_task_app. exact (t_tasks _ _ T _ _ Q').
    - intros i ctx e Q. apply in_app_or in Q. apply known_app. destruct Q as [Q|Q]; [exact (t_sent _ _ T _ _ _ Q)|eauto].
  Qed.
  (** the acting task changes its state *)
  Lemma tame_set s tr i tk own st s1 os : tame s tr -> nth_error (e_tasks s) i = Some tk -> known tr own -> tame_st own (tr ++ os) st ->
    e_streams s1 = e_streams s -> e_conns s1 = e_conns s -> e_tasks s1 = e_tasks s ->
    (forall i ctx e, In (OSent i ctx e) os -> known tr (ev_ref e)) -> tame (set_task i st s1) (tr ++ os).
  Proof.
    intros T Hi KO TS E1 E2 E3 N. apply tame_upd with (s := s); auto.
    - autorewrite with ep. exact E1.
    - autorewrite with ep. rewrite E2. exact (t_conns _ _ T).
    - intros j tj. rewrite nth_set_task, E3, Hi. cbn [option_map]. destruct (Nat.eqb_spec j i) as [->|]; [|auto].
      intros Q. injection Q as <-. right. destruct (t_tasks _ _ T _ _ Hi) as (A & _). split; [cbn [tk_job]; destruct (tk_job tk) as [[? ?]|]; [apply known_app; exact A|exact I]|].
      exists own. split; [apply known_app; exact KO|exact TS].
  Qed.
  Lemma known_ref tr own rq x d : known tr own -> through own rq -> known tr (ev_ref (event_for rq x d)).
  Proof. intros K [E|E]; unfold event_for; cbn; rewrite E; [exact I|exact K]. Qed.
  Ltac nosent := let Q := fresh in cbn; intros ? ? ? Q; repeat (destruct Q as [Q|Q]; [discriminate Q|]); destruct Q.
  Ltac ts T Hi KO := eapply tame_set; [exact T|exact Hi|exact KO| |autorewrite with ep; reflexivity|autorewrite with ep; reflexivity|autorewrite with ep; reflexivity|try (solve [nosent])].
  Lemma tame_call s tr n e (h : event_handler callback) sc : tame s (tr ++ [OReceived n e]) -> (forall cb : callback, eh_get h (ev_name e) = Some cb -> forall ctx x, plain_code (c_ref ctx) (cb ctx x)) ->
    (exists n' e', In (OReceived n' e') (tr ++ [OReceived n e]) /\ ev_id e' = ev_id e) ->
    tame (fst (handle_event s n h sc e)) ((tr ++ [OReceived n e]) ++ snd (handle_event s n h sc e)).
  Proof.
    intros T HH KE. unfold handle_event. cbn [fst snd]. apply tame_upd with (s := s); auto.
    - exact (t_conns _ _ T).
    - intros j tj. unfold add_task. cbn [e_tasks]. rewrite nth_snoc. destruct (Nat.eqb_spec j (length (e_tasks s))); [|auto]. intros Q. injection Q as <-. right. split.
      + cbn. destruct KE as (n' & e' & A & B). exists n', e'. split; [apply in_or_app; left; exact A|exact B].
      + exists (Some (ev_id e)). split; [destruct KE as (n' & e' & A & B); exists n', e'; split; [apply in_or_app; left; exact A|exact B]|]. cbn.
        destruct (eh_get h (ev_name e)) eqn:Eh; [|constructor]. exact (HH _ eq_refl (mk_context n (Some (ev_id e))) e).
    - nosent.
  Qed.
  Lemma tame_step s tr l s' os : tame s tr -> step cf s l = Some (s', os) -> (forall n, l <> LClosed n) ->
    (forall n c e, option_map cn_loop (nth_error (e_conns s) n) = Some (LSend c e) -> exists n' e', In (OReceived n' e') tr /\ ev_id e' = ev_id e) -> tame s' (tr ++ os).
  Proof.
    intros T H NC LS. destruct l as [i a|n e|n|n|n|h|].
    - cbn [step] in H. unfold task_step in H. destruct (nth_error (e_tasks s) i) as [[job st]|] eqn:Hi; [|discriminate].
      destruct (t_tasks _ _ T _ _ Hi) as (KJ & own & KO & TS). cbn [tk_job tk_st] in *.
      destruct st as [p|ctx e [k|k]|ctx e [k|c k|c k|ok]|c x k|c x e k|h k|h oe k|x| |]; cbn [tame_st] in TS; try contradiction; try (destruct a; discriminate H).
      + destruct a as [t v| | |]; try discriminate H. unfold run_prog in H. cbn zeta in H. destruct TS as [r| |rq k TH Hk|rq k TH Hk|k Hk|q k Hq Hk].
        * destruct job as [[ctx x]|]; [|apply some_pair in H; destruct H as [<- <-]; ts T Hi KO; exact I].
          destruct (answer_event cf ctx (nth_id t (e_ctr s)) r) as [a| |] eqn:Ea; try discriminate H. apply some_pair in H. destruct H as [<- <-].
          ts T Hi KO. cbn [tame_st]. apply known_app.
          assert (ev_ref a = c_ref ctx) as -> by (destruct r; cbn in Ea; injection Ea as <-; reflexivity). exact KJ.
        * apply some_pair in H. destruct H as [<- <-]. ts T Hi KO. exact I.
        * destruct (rq_payload rq) as [d|er|cr]; apply some_pair in H; destruct H as [<- <-]; ts T Hi KO; try exact I.
          -- cbn [tame_st]. split; [apply known_app; eapply known_ref; eauto|exact Hk].
          -- exact (Hk _).
        * destruct (rq_payload rq) as [d|er|cr]; apply some_pair in H; destruct H as [<- <-]; ts T Hi KO; try exact I.
          -- cbn [tame_st]. split; [apply known_app; eapply known_ref; eauto|exact Hk].
          -- exact (Hk _).
        * apply some_pair in H. destruct H as [<- <-]. ts T Hi KO. exact (Hk _).
        * apply some_pair in H. destruct H as [<- <-]. apply tame_upd with (s := s); auto.
          -- autorewrite with ep. reflexivity.
          -- autorewrite with ep. exact (t_conns _ _ T).
          -- intros j tj. rewrite nth_set_task. unfold add_task. cbn [e_tasks]. rewrite nth_error_app1 by (apply nth_error_Some; congruence). rewrite Hi. cbn [option_map].
             destruct (Nat.eqb_spec j i) as [->|N].
             ++ intros Q. injection Q as <-. right. rewrite app_nil_r. split; [exact KJ|]. exists own. auto.
             ++ rewrite nth_snoc. destruct (Nat.eqb_spec j (length (e_tasks s))); [|auto]. intros Q. injection Q as <-. right. rewrite app_nil_r. split; [exact I|]. exists own. auto.
          -- intros ? ? ? [].
      + destruct a as [t v| | |]; try discriminate H. apply some_pair in H. destruct H as [<- <-]. ts T Hi KO.
        cbn [tame_st]. destruct TS. split; [apply known_app; assumption|assumption].
      + destruct TS as [KE Hk]. destruct a as [t v|io| |]; try discriminate H; apply some_pair in H; destruct H as [<- <-]; ts T Hi KO; try exact (Hk _).
        cbn. intros ? ? ? [Q|[]]. injection Q as <- <- <-. exact KE.
      + destruct TS as [KE Hk]. destruct a as [t v|io| |]; try discriminate H; apply some_pair in H; destruct H as [<- <-]; ts T Hi KO; try exact (Hk _); try exact Hk.
        cbn. intros ? ? ? [Q|[]]. injection Q as <- <- <-. exact KE.
      + destruct a as [t v|io| |]; try discriminate H; apply some_pair in H; destruct H as [<- <-]; ts T Hi KO; try (destruct ok; [destruct job as [[? ?]|]|]; exact I).
        cbn. intros ? ? ? [Q|[]]. injection Q as <- <- <-. exact TS.
      + destruct a as [t v|io| |]; try discriminate H.
        * destruct (nth_error (e_chans s) c) as [ch|]; [|discriminate]. destruct (ch_buf ch) as [|b1 b].
          -- destruct (has_sender s c); [discriminate|]. apply some_pair in H. destruct H as [<- <-]. ts T Hi KO. exact (TS _).
          -- apply some_pair in H. destruct H as [<- <-]. ts T Hi KO. exact TS.
        * apply some_pair in H. destruct H as [<- <-]. ts T Hi KO. exact (TS _).
        * apply some_pair in H. destruct H as [<- <-]. ts T Hi KO. exact (TS _).
      + destruct a as [t v|io| |]; try discriminate H. cbn zeta in H.
        destruct (reply_result (cf_env cf) e); apply some_pair in H; destruct H as [<- <-]; ts T Hi KO; try exact (TS _); exact I.
      + destruct a as [t v|io| |]; try discriminate H. apply some_pair in H. destruct H as [<- <-]. ts T Hi KO. exact I.
    - cbn [step] in H. destruct (t_conns _ _ T) as (lo & arm & C & NL). rewrite C in H. destruct n as [|n]; [|destruct n; discriminate]. cbn [nth_error cn_loop] in H.
      destruct lo; try discriminate H. injection H as H. unfold receive in H.
      assert (T1 : tame s (tr ++ [OReceived 0 e])) by (apply tame_upd with (s := s); auto; [exact (t_conns _ _ T)|nosent]).
      assert (KE : exists n' e', In (OReceived n' e') (tr ++ [OReceived 0 e]) /\ ev_id e' = ev_id e) by (exists 0%nat, e; split; [apply in_or_app; right; left; reflexivity|reflexivity]).
      assert (APP : forall o, (tr ++ [OReceived 0 e]) ++ o = tr ++ OReceived 0 e :: o) by (intros o; rewrite <- app_assoc; reflexivity).
      destruct (match ev_ref e with Some r => lookup N.eqb r (e_lis s) | None => None end) as [c|].
      + injection H as <- <-. apply tame_upd with (s := s); auto.
        * autorewrite with ep. reflexivity.
        * unfold set_loop. rewrite C. cbn. rewrite ?C. exists (LSend c e), arm. split; [reflexivity|discriminate].
        * intros j tj. autorewrite with ep. auto.
        * nosent.
      + destruct (etype_eqb (ev_type e) End).
        * injection H as <- <-. rewrite <- APP. apply tame_upd with (s := s); auto; [exact (t_conns _ _ T)|nosent].
        * destruct (match ev_ns e with Some ns => lookup bytes_eqb ns (cf_namespaces cf) | None => None end) as [nsp|] eqn:En.
          -- destruct (ev_ns e) as [ns|]; [|discriminate]. assert (Q := tame_call s tr 0 e (ns_handler nsp) (Some ns) T1).
             destruct (handle_event s 0 (ns_handler nsp) (Some ns) e) as [s2 o2]. injection H as <- <-. rewrite <- APP. apply Q; [|exact KE].
             intros cb Hcb. apply (PH (Some ns) (ev_name e)). cbn. rewrite En. exact Hcb.
          -- assert (Q := tame_call s tr 0 e (cf_handler cf) None T1). destruct (handle_event s 0 (cf_handler cf) None e) as [s2 o2]. injection H as <- <-. rewrite <- APP. apply Q; [|exact KE].
             intros cb Hcb. apply (PH None (ev_name e)). exact Hcb.
    - cbn [step] in H. destruct (t_conns _ _ T) as (lo & arm & C & NL). rewrite C in H. destruct n as [|n]; [|destruct n; discriminate]. cbn [nth_error cn_loop] in H.
      destruct lo as [|c e|]; try discriminate H. unfold place in H. destruct (nth_error (e_chans s) c) as [ch|]; [|discriminate]. destruct (ch_open ch).
      + destruct (Nat.ltb _ _); [|discriminate]. injection H as <- <-. apply tame_upd with (s := s); auto.
        * autorewrite with ep. reflexivity.
        * unfold set_loop, set_chan. cbn [e_conns]. rewrite C. cbn. rewrite ?C. exists LRun, arm. split; [reflexivity|discriminate].
        * intros j tj. autorewrite with ep. auto.
        * nosent.
      + unfold handle_event in H. cbn zeta in H. apply some_pair in H. destruct H as [<- <-]. apply tame_upd with (s := s); auto.
        * unfold add_task. cbn [e_streams]. autorewrite with ep. reflexivity.
        * unfold add_task. cbn [e_conns]. unfold set_loop. rewrite C. cbn. rewrite ?C. exists LRun, arm. split; [reflexivity|discriminate].
        * intros j tj. unfold add_task. cbn [e_tasks]. autorewrite with ep. destruct (Nat.eqb_spec j (length (e_tasks s))); [|auto]. intros Q. injection Q as <-. right.
          destruct (LS 0%nat c e) as (n' & e' & A & B); [rewrite C; reflexivity|].
          assert (K : known (tr ++ [OCalled 0 (length (e_tasks s)) (mk_context 0 (Some (ev_id e))) None e]) (Some (ev_id e))) by (exists n', e'; split; [apply in_or_app; left; exact A|exact B]).
          split; [exact K|]. exists (Some (ev_id e)). split; [exact K|]. cbn.
          destruct (eh_get (cf_handler cf) (ev_name e)) eqn:Eh; [|constructor]. exact (PH None _ _ Eh (mk_context 0 (Some (ev_id e))) e).
        * nosent.
    - destruct (NC n eq_refl).
    - cbn [step] in H. destruct (t_conns _ _ T) as (lo & arm & C & NL). rewrite C in H. destruct n as [|n]; [|destruct n; discriminate]. discriminate H.
    - cbn [step] in H. rewrite (t_streams _ _ T) in H. destruct h; discriminate H.
    - injection H as <- <-. apply tame_upd with (s := s); auto; [exact (t_conns _ _ T)|intros ? ? ? []].
  Qed.
  Lemma inv_tame ls s tr : runs' ls s tr -> no_close ls -> tame s tr.
  Proof.
    apply (run_ind cf _ (fun ls s tr => no_close ls -> tame s tr)).
    - intros _. constructor; cbn; auto.
      + exists LRun, armed. split; [reflexivity|discriminate].
      + intros i tk Q. rewrite nth_error_map in Q. destruct (nth_error ps i) as [p|] eqn:Ep; [|discriminate]. injection Q as <-. split; [exact I|]. exists None. split; [exact I|]. cbn.
        rewrite Forall_forall in PP. apply PP. eapply nth_error_In. exact Ep.
      + intros ? ? ? [].
    - intros l0 s0 tr0 l s' os IH HR H NC. apply tame_step with (s := s0) (l := l); auto.
      + apply IH. intros n Q. apply (NC n). apply in_or_app. auto.
      + intros n ->. apply (NC n). apply in_or_app. right. left. reflexivity.
      + intros n c e Q. pose proof (inv_loop _ _ _ _ _ _ _ _ HR n) as L. change (option_map cn_loop (nth_error (e_conns s0) n) = Some (LSend c e)) in Q. rewrite Q in L. destruct L as (a & b & -> & _).
        exists n, e. split; [apply in_or_app; right; left; reflexivity|reflexivity].
  Qed.
End Tame.

Section Progress.
  Context (cap : nat) (cf : side -> config) (ps : side -> list prog) (ctr : side -> N).
  Hypothesis PH : forall sd, plain_handlers (cf sd).
  Hypothesis PP : forall sd, Forall (plain_code None) (ps sd).
  Local Notation pruns' := (pruns cf ps ctr (fun _ => [])).
  Lemma side_tame ls p tr sd : pruns' ls p tr -> tame (p_ep p sd) (at_side sd tr).
  Proof. intros H. destruct (project _ _ _ _ _ _ _ H sd) as (ls' & R & _ & _ & NC & _). exact (inv_tame _ _ _ _ (PH sd) (PP sd) _ _ _ R NC). Qed.
  Lemma asked_first ls p tr sd n e x : pruns' ls p tr -> In (OReceived n e) (at_side sd tr) -> ev_ref e = Some x -> In x (ended (at_side sd tr)).
  Proof.
    intros H Q R. assert (W1 := wires _ _ _ _ _ _ _ H sd). assert (W2 := wires _ _ _ _ _ _ _ H (other sd)). cbn [app] in W1, W2. rewrite other_other in W2.
    assert (G : In e (wired (at_side (other sd) tr))) by (rewrite <- W1; apply in_or_app; left; apply in_got; eauto).
    apply in_wired in G. destruct G as (j & ctx & a & G1 & ->). rewrite drop_ref in R.
    assert (K := t_sent _ _ (side_tame _ _ _ (other sd) H) _ _ _ G1). rewrite R in K. destruct K as (n' & e' & K1 & <-).
    assert (G : In e' (wired (at_side sd tr))) by (rewrite <- W2; apply in_or_app; left; apply in_got; eauto).
    apply in_wired in G. destruct G as (j' & ctx' & a' & G2 & ->). rewrite drop_id. eapply sent_ended; eauto.
  Qed.
  (** Nothing goes on by itself but sends that are held up; whoever is sent to so is not reading. *)
  Record held_up (p : pair) (full : side -> Prop) : Prop := {
    hu_next : forall l, goes_on l = true -> pstep cf p l = None \/ exists sd i a ctx e pu, l = PDo sd (LTask i a) /\ tst (p_ep p sd) i = Some (TSend ctx e pu) /\ full (other sd);
    hu_full : forall sd, full sd -> lp (p_ep p sd) 0 <> Some LRun }.
  Lemma still_task p full sd i st : held_up p full -> tst (p_ep p sd) i = Some st ->
    (forall t v, step (cf sd) (p_ep p sd) (LTask i (AStep t v)) = None) \/ (exists ctx e pu, st = TSend ctx e pu /\ full (other sd)).
  Proof.
    intros ST Hi. destruct (hu_next _ _ ST (PDo sd (LTask i (AStep (mk_instant 0 0) 0))) eq_refl) as [N|(sd' & i' & a & ctx & e & pu & E & B & C)].
    2: { right. injection E as <- <- <-. rewrite Hi in B. injection B as ->. eauto 6. }
    assert (D : (exists ctx e pu, st = TSend ctx e pu) \/ forall ctx e pu, st <> TSend ctx e pu) by (destruct st; try (right; intros; discriminate); left; eauto).
    destruct D as [(ctx & e & pu & ->)|D].
    - left. exfalso. unfold pstep in N. cbn [own_label step] in N. unfold task_step in N. unfold tst in Hi. destruct (nth_error (e_tasks (p_ep p sd)) i) as [tk|]; [|discriminate]. cbn in Hi. injection Hi as Hi. rewrite Hi in N.
      destruct pu; discriminate N.
    - left. intros t v. destruct (hu_next _ _ ST (PDo sd (LTask i (AStep t v))) eq_refl) as [M|(sd' & i' & a & ctx & e & pu & E & B & C)].
      + unfold pstep in M. cbn [own_label] in M. destruct (step (cf sd) (p_ep p sd) (LTask i (AStep t v))) as [[s' os]|] eqn:E; [|reflexivity]. rewrite (step_uncut _ _ _ _ _ _ _ E) in M. discriminate M.
      + exfalso. injection E as <- <- <-. rewrite Hi in B. injection B as ->. exact (D _ _ _ eq_refl).
  Qed.
  Lemma still_place p full sd : held_up p full -> step (cf sd) (p_ep p sd) (LPlace 0) = None.
  Proof.
    intros ST. destruct (step (cf sd) (p_ep p sd) (LPlace 0)) as [[s' os]|] eqn:E; [|reflexivity]. exfalso.
    destruct (hu_next _ _ ST (PDo sd (LPlace 0)) eq_refl) as [B|(? & ? & ? & ? & ? & ? & B & _)]; [|discriminate B]. unfold pstep in B. cbn [own_label] in B. rewrite E in B. rewrite (place_uncut _ _ _ _ _ E) in B. discriminate B.
  Qed.
  Lemma still_read p full sd arm : held_up p full -> e_conns (p_ep p sd) = [mk_conn LRun arm false] -> p_in p sd = [].
  Proof.
    intros ST C. destruct (p_in p sd) as [|e w] eqn:E; [reflexivity|exfalso]. destruct (hu_next _ _ ST (PDeliver sd) eq_refl) as [B|(? & ? & ? & ? & ? & ? & B & _)]; [|discriminate B].
    unfold pstep in B. rewrite E in B. cbn [step] in B. rewrite C in B. cbn [nth_error cn_loop] in B. destruct (receive (cf sd) (p_ep p sd) 0 e) as [s' os]. discriminate B.
  Qed.
  Theorem progress_held ls p tr full : pruns' ls p tr -> good_clocks ls -> (forall sd, few_events (p_ep p sd)) -> held_up p full ->
    forall sd, p_in p sd = [] /\ lp (p_ep p sd) 0 = Some LRun /\ forall i st, tst (p_ep p sd) i = Some st -> finished_or_waiting (p_ep p sd) st.
  Proof.
    intros H GC FE ST.
    (* the loops are not blocked *)
    assert (LR : forall sd, exists arm, e_conns (p_ep p sd) = [mk_conn LRun arm false]).
    { intros sd. assert (T := side_tame _ _ _ sd H). destruct (t_conns _ _ T) as (lo & arm & C & NL). exists arm. destruct lo as [|c e|]; [exact C| |congruence]. exfalso.
      destruct (project _ _ _ _ _ _ _ H sd) as (ls' & R & GC' & _ & NC & _). assert (U := inv_users _ _ _ _ _ _ _ _ R).
      assert (El : option_map cn_loop (nth_error (e_conns (p_ep p sd)) 0) = Some (LSend c e)) by (rewrite C; reflexivity).
      destruct (u_loop _ U _ _ _ El) as (r & _ & Cd). unfold cid in Cd. destruct (nth_error (e_chans (p_ep p sd)) c) as [ch|] eqn:Hc; [|discriminate].
      assert (PL := still_place _ _ sd ST). cbn [step] in PL. rewrite C in PL. cbn [nth_error cn_loop] in PL. unfold place in PL. rewrite Hc in PL.
      destruct (ch_open ch) eqn:Eo; [|discriminate PL]. destruct (Nat.ltb_spec (length (ch_buf ch)) 8); [discriminate PL|].
      assert (CT := inv_chan _ _ _ _ _ _ _ _ R c). rewrite Hc in CT. destruct CT as (C1 & (i & C2) & _ & rest & C3 & C4). rewrite Eo in C1. specialize (C4 Eo). subst rest.
      destruct (ch_buf ch) as [|e1 b] eqn:Eb; [cbn in *; lia|].
      destruct (inv_fate _ _ _ _ _ _ _ _ R _ _ _ C2) as [(st & F1 & F2)|[(h & F)|(F & _)]]; [| |rewrite C1 in F; discriminate F].
      - assert (TI : tid st = Some (ch_id ch)) by (destruct (u_task _ U _ _ _ F1 F2) as (ch' & A & B & _); congruence).
        destruct (still_task _ _ _ _ _ ST F1) as [SK|(ctx & e2 & pu & -> & _)].
        + specialize (SK (mk_instant 0 0) 0). cbn [step] in SK. unfold task_step in SK. unfold tst in F1. destruct (nth_error (e_tasks (p_ep p sd)) i) as [tk|] eqn:Hi; [|discriminate]. cbn in F1. injection F1 as F1. rewrite F1 in SK.
          destruct st as [?|? ? ?|? ? [?|?|?|?]|d rid k|d rid e2 k|?|?|?| |]; try discriminate F2; cbn in F2; injection F2 as ->; try discriminate SK.
          * rewrite Hc, Eb in SK. discriminate SK.
          * cbn zeta in SK. destruct (reply_result (cf_env (cf sd)) e2); discriminate SK.
        + (* the request has not been sent: no reply can have arrived *)
          assert (J := inv_idents _ _ _ _ _ _ _ _ R (GC' GC) (FE sd)). apply (j_once _ _ J _ _ (ev_id e2) F1 eq_refl).
          assert (Q : In e1 (queued c (at_side sd tr))) by (rewrite C3; apply in_or_app; right; left; reflexivity).
          destruct (queued_ref _ _ _ _ _ _ _ _ R _ _ Q) as (i' & x' & L1 & L2).
          assert (x' = ch_id ch). { assert (CT := inv_chan _ _ _ _ _ _ _ _ R c). rewrite Hc in CT. destruct CT as (_ & _ & CT & _). exact (CT _ _ L1). } subst x'.
          assert (ev_id e2 = ch_id ch) as -> by (destruct pu; cbn in F2, TI; congruence).
          destruct (in_flat_map (queued_on c) (at_side sd tr) e1) as [FM _]. destruct (FM Q) as (o & O1 & O2). destruct o; try contradiction. cbn in O2. destruct (Nat.eqb c0 c); [|contradiction]. destruct O2 as [->|[]].
          eapply asked_first; [exact H| |exact L2]. eapply queued_received; eauto.
      - (* no streams *)
        assert (SV := opened_stream _ _ _ _ _ _ _ _ R _ _ _ _ F). destruct SV as (y0 & SV & _). rewrite (t_streams _ _ T) in SV. destruct h; discriminate SV. }
    assert (WE : forall sd, p_in p sd = []) by (intros sd; destruct (LR sd) as (arm & C); eapply still_read; eauto).
    intros sd. split; [apply WE|]. destruct (LR sd) as (arm & C). split; [unfold lp; rewrite C; reflexivity|].
    intros i st Hi. assert (T := side_tame _ _ _ sd H). destruct (still_task _ _ _ _ _ ST Hi) as [SK|(ctx & e & pu & _ & L)]; [|exfalso; apply (hu_full _ _ ST _ L); destruct (LR (other sd)) as (arm' & C'); unfold lp; rewrite C'; reflexivity].
    unfold tst in Hi. destruct (nth_error (e_tasks (p_ep p sd)) i) as [[job st0]|] eqn:Ht; [|discriminate]. cbn in Hi. injection Hi as ->.
    destruct (t_tasks _ _ T _ _ Ht) as (_ & own & KO & TS). cbn [tk_st] in TS.
    specialize (SK (mk_instant 0 0) 0). cbn [step] in SK. unfold task_step in SK. rewrite Ht in SK. cbn [tk_st tk_job] in SK.
    destruct st as [q|ctx e [k|k]|ctx e [k|c k|c k|ok]|c x k|c x e k|h k|h oe k|x| |]; cbn [tame_st] in TS; try contradiction; try discriminate SK.
    - exfalso. unfold run_prog in SK. cbn zeta in SK. destruct TS as [r| |rq k TH Hk|rq k TH Hk|k Hk|q k Hq Hk]; try discriminate SK.
      + destruct job as [[cx x]|]; [|discriminate SK]. destruct (answer_ok (cf sd) cx (nth_id (mk_instant 0 0) (e_ctr (p_ep p sd))) r) as [a Ea]. rewrite Ea in SK. discriminate SK.
      + destruct (rq_payload rq); discriminate SK.
      + destruct (rq_payload rq); discriminate SK.
    - right. right. exists c, x, k. split; [reflexivity|]. destruct (nth_error (e_chans (p_ep p sd)) c) as [ch|] eqn:Hc; [destruct (ch_buf ch) eqn:Eb; [cbn; congruence|discriminate SK]|].
      exfalso. destruct (project _ _ _ _ _ _ _ H sd) as (ls' & R & _). assert (U := inv_users _ _ _ _ _ _ _ _ R).
      assert (F1 : tst (p_ep p sd) i = Some (TWait c x k)) by (unfold tst; rewrite Ht; reflexivity). destruct (u_task _ U _ _ c F1 eq_refl) as (ch & Q & _). congruence.
    - exfalso. cbn zeta in SK. destruct (reply_result (cf_env (cf sd)) e); discriminate SK.
    - left. reflexivity.
    - right. left. reflexivity.
  Qed.
  Hypothesis CAP : (0 < cap)%nat.
  Lemma still_held p : still cap cf p -> held_up p (fun sd => (cap <= length (p_in p sd))%nat).
  Proof.
    intros ST. constructor.
    - intros l G. specialize (ST l G). unfold bstep in ST. destruct (pstep cf p l) as [[p' os]|] eqn:E; [|left; reflexivity]. right. destruct l as [sd l|sd]; [|discriminate ST].
      destruct (existsb is_sent os) eqn:Es; [|discriminate ST]. cbn [andb] in ST. destruct (Nat.ltb_spec (length (p_in p (other sd))) cap) as [L|L]; [discriminate ST|].
      unfold pstep in E. destruct (own_label l); [|discriminate E]. destruct (step (cf sd) (p_ep p sd) l) as [[s' os']|] eqn:E1; [|discriminate E]. destruct (existsb is_cut os'); [discriminate E|]. injection E as <- <-.
      apply existsb_exists in Es. destruct Es as (q & Q1 & Q2). apply in_map_iff in Q1. destruct Q1 as (o & <- & Q1). unfold is_sent in Q2. cbn [snd] in Q2. destruct o; try discriminate Q2.
      assert (N : In (ev_id e) (ended os')) by (eapply sent_ended; eauto). destruct (step_ended _ _ _ _ _ E1) as [Q|(i' & a & ->)]; [rewrite Q in N; destruct N|].
      cbn [step] in E1. destruct (tst (p_ep p sd) i') as [st|] eqn:Hi; [|unfold task_step in E1; unfold tst in Hi; destruct (nth_error (e_tasks (p_ep p sd)) i'); discriminate].
      destruct (task_step_fid _ _ _ _ _ _ _ E1 Hi) as (st' & _ & [(D & _)|[(D & _)|(ctx1 & e1 & pu1 & D & _)]]); [rewrite D in N; destruct N..|]. subst st. exists sd, i', a, ctx1, e1, pu1. auto.
    - intros sd L R. assert (N := ST (PDeliver sd) eq_refl). unfold bstep, pstep in N. destruct (p_in p sd) as [|e w]; [cbn in L; lia|]. cbn [step] in N. unfold lp in R.
      destruct (nth_error (e_conns (p_ep p sd)) 0) as [cn|]; [|discriminate]. cbn in R. injection R as R. rewrite R in N. destruct (receive (cf sd) (p_ep p sd) 0 e); discriminate N.
  Qed.
  Theorem progress ls p tr : brun cap cf (pair_new ps ctr (fun _ => [])) ls = Some (p, tr) -> good_clocks ls -> (forall sd, few_events (p_ep p sd)) -> still cap cf p ->
    forall sd, p_in p sd = [] /\ lp (p_ep p sd) 0 = Some LRun /\ forall i st, tst (p_ep p sd) i = Some st -> finished_or_waiting (p_ep p sd) st.
  Proof. intros HB GC FE ST. exact (progress_held _ _ _ _ (brun_prun _ _ _ _ _ HB) GC FE (still_held _ ST)). Qed.
End Progress.
