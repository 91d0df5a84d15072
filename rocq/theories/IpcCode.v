(** Proofs about endpoints: user code runs as it is written. *)
From Verif Require Import Base BaseFacts BuilderFacts Codec Spec Ids IdsFacts Payload Builder Emit EmitFacts Ipc SpecIpc SpecCode IpcFacts IpcChanFacts IpcUsers IpcLoops IpcIds IpcTasks.
From Coq Require Import ZifyBool ZifyNat ZifyN.

Lemma acts_app i a b : acts i (a ++ b) = acts i a ++ acts i b.
Proof. unfold acts. induction a as [|o a IH]; cbn; [reflexivity|]. rewrite IH. destruct (act i o); reflexivity. Qed.
Lemma acts_quiet i os : existsb (by_task i) os = false -> acts i os = [].
Proof.
  unfold acts. induction os as [|o os IH]; cbn; [reflexivity|]. intros H. apply orb_false_iff in H. destruct H as [H1 H2]. rewrite (IH H2).
  destruct o; cbn in *; rewrite ?H1; reflexivity.
Qed.
Lemma requested_for rq x d : rq_payload rq = Ok d -> requested rq (event_for rq x d).
Proof. intros H. split; [exact H|]. split; [reflexivity|]. split; [reflexivity|]. split; reflexivity. Qed.

(** where task [i], started with [p0], stands, having done [A] *)
Definition code (cf : config) (A : list obs) (i : nat) (job : option (context * event)) (p0 : prog) (st : tstate) : Prop :=
  match st with
  | TRun p => executes i p0 A p
  | TRegister ctx e (WantReply k) => exists rq, executes i p0 A (PAwait rq k) /\ ctx = rq_ctx rq /\ requested rq e
  | TRegister ctx e (WantStream k) => exists rq, executes i p0 A (PStream rq k) /\ ctx = rq_ctx rq /\ requested rq e
  | TSend ctx e (ForEmit k) => exists rq, executes i p0 A (PEmit rq k) /\ ctx = rq_ctx rq /\ requested rq e
  | TSend ctx e (ForAwait c k) => exists rq os, A = os ++ [OListen i (ev_id e) c] /\ executes i p0 os (PAwait rq k) /\ ctx = rq_ctx rq /\ requested rq e
  | TSend ctx e (ForStream c k) => exists rq os, A = os ++ [OListen i (ev_id e) c] /\ executes i p0 os (PStream rq k) /\ ctx = rq_ctx rq /\ requested rq e
  | TSend ctx e (ForAnswer ok) => exists x r os, job = Some (ctx, x) /\ A = os ++ [OReturned i r] /\ executes i p0 os (PRet r) /\ answers cf x r e
  | TWait c y k | TGot c y _ k => exists rq e os, y = ev_id e /\ A = os ++ [OListen i (ev_id e) c; OSent i (rq_ctx rq) e] /\ executes i p0 os (PAwait rq k) /\ requested rq e
  | TNext h k | TNextGot h _ k => executes i p0 A (PNext h k)
  | TForget _ | TDone | TDead => exists os1 p1 os2, A = os1 ++ os2 /\ executes i p0 os1 p1 /\ over cf i job p1 os2
  end.
Lemma code_written cf A i job p0 st : code cf A i job p0 st -> as_written cf i job p0 A.
Proof.
  unfold as_written. destruct st as [p|ctx e [k|k]|ctx e [k|c k|c k|ok]|c y k|c y e k|h k|h oe k|y| |]; cbn [code].
  - intros X. exists A, p, []. rewrite app_nil_r. split; [reflexivity|]. split; [exact X|]. left. constructor.
  - intros (rq & X & _ & _). exists A, (PAwait rq k), []. rewrite app_nil_r. split; [reflexivity|]. split; [exact X|]. left. constructor.
  - intros (rq & X & _ & _). exists A, (PStream rq k), []. rewrite app_nil_r. split; [reflexivity|]. split; [exact X|]. left. constructor.
  - intros (rq & X & _ & _). exists A, (PEmit rq k), []. rewrite app_nil_r. split; [reflexivity|]. split; [exact X|]. left. constructor.
  - intros (rq & os & -> & X & -> & R). exists os, (PAwait rq k), [OListen i (ev_id e) c]. split; [reflexivity|]. split; [exact X|]. left. constructor. exact R.
  - intros (rq & os & -> & X & -> & R). exists os, (PStream rq k), [OListen i (ev_id e) c]. split; [reflexivity|]. split; [exact X|]. left. constructor. exact R.
  - intros (x & r & os & -> & -> & X & R). exists os, (PRet r), [OReturned i r]. split; [reflexivity|]. split; [exact X|]. right. constructor.
  - intros (rq & e & os & -> & -> & X & R). exists os, (PAwait rq k). eexists. split; [reflexivity|]. split; [exact X|]. left. constructor. exact R.
  - intros (rq & e' & os & -> & -> & X & R). exists os, (PAwait rq k). eexists. split; [reflexivity|]. split; [exact X|]. left. constructor. exact R.
  - intros X. exists A, (PNext h k), []. rewrite app_nil_r. split; [reflexivity|]. split; [exact X|]. left. constructor.
  - intros X. exists A, (PNext h k), []. rewrite app_nil_r. split; [reflexivity|]. split; [exact X|]. left. constructor.
  - intros (os1 & p1 & os2 & H). exists os1, p1, os2. intuition.
  - intros (os1 & p1 & os2 & H). exists os1, p1, os2. intuition.
  - intros (os1 & p1 & os2 & H). exists os1, p1, os2. intuition.
Qed.
Lemma ex_more i p os p1 os1 p2 os' : executes i p os p1 -> operation i p1 os1 p2 -> os' = os ++ os1 -> executes i p os' p2.
Proof. intros A B ->. econstructor; eauto. Qed.
Ltac mine := unfold acts; cbn [filter act]; rewrite ?Nat.eqb_refl, ?app_nil_r; try reflexivity.
Ltac op := first [exact (ex_nil _ _)|econstructor].

Lemma code_step cf tr s i a s' os tk p0 st' : task_step cf s i a = Some (s', os) -> nth_error (e_tasks s) i = Some tk ->
  (forall ctx x, tk_job tk = Some (ctx, x) -> exists n, ctx = mk_context n (Some (ev_id x))) ->
  code cf (acts i tr) i (tk_job tk) p0 (tk_st tk) -> nth_error (e_tasks s') i = Some (mk_task (tk_job tk) st') ->
  code cf (acts i (tr ++ os)) i (tk_job tk) p0 st'.
Proof.
  intros Ht Et J C Hi. rewrite acts_app. unfold task_step in Ht. rewrite Et in Ht. destruct tk as [job st]. cbn [tk_job tk_st] in *.
  assert (L : (i <> length (e_tasks s))%nat) by (pose proof (proj1 (nth_error_Some (e_tasks s) i)); rewrite Et in *; intuition (try congruence; try lia)).
  assert (G : forall s1 st1, set_task i st1 s1 = s' -> nth_error (e_tasks s1) i <> None -> st' = st1).
  { intros s1 st1 <- N. rewrite nth_set_task, Nat.eqb_refl in Hi. destruct (nth_error (e_tasks s1) i); [|congruence]. inversion Hi. reflexivity. }
  destruct st as [p|ctx e w|ctx e pu|d rid k|d rid e k|h1 k|h1 oe k|rid| |]; destruct a; try discriminate Ht.
  - (* TRun *)
    unfold run_prog in Ht. cbn zeta in Ht. cbn [code] in C. destruct p as [r| |rq k|rq k|rq k|h k|n k|k|q k].
    + destruct job as [[ctx x]|].
      * destruct (answer_event cf ctx (nth_id t (e_ctr s)) r) as [e|er|] eqn:Ea; try discriminate Ht. apply some_pair in Ht. destruct Ht as [E <-].
        apply G in E; [|autorewrite with ep; congruence]. subst st'. cbn [code]. destruct (J _ _ eq_refl) as (n & ->). exists x, r, (acts i tr).
        split; [reflexivity|]. split; [mine|]. split; [exact C|]. eapply answer_answers; eauto.
      * apply some_pair in Ht. destruct Ht as [E <-]. apply G in E; [|autorewrite with ep; congruence]. subst st'. exists (acts i tr), (PRet r), [OReturned i r].
        split; [mine|]. split; [exact C|constructor].
    + apply some_pair in Ht. destruct Ht as [E <-]. apply G in E; [|autorewrite with ep; congruence]. subst st'. exists (acts i tr), PPanic, [OPanicked i]. split; [mine|]. split; [exact C|constructor].
    + destruct (rq_payload rq) as [d|er|cr] eqn:Ep; apply some_pair in Ht; destruct Ht as [E <-]; (apply G in E; [|autorewrite with ep; congruence]); subst st'; cbn [code].
      * exists rq. split; [mine; exact C|]. auto using requested_for.
      * eapply ex_more; [exact C|apply op_emit_bad; exact Ep|mine].
      * exists (acts i tr), (PEmit rq k), [OPanicked i]. split; [mine|]. split; [exact C|]. eapply ov_payload; eauto.
    + destruct (rq_payload rq) as [d|er|cr] eqn:Ep; apply some_pair in Ht; destruct Ht as [E <-]; (apply G in E; [|autorewrite with ep; congruence]); subst st'; cbn [code].
      * exists rq. split; [mine; exact C|]. auto using requested_for.
      * eapply ex_more; [exact C|apply op_await_bad; exact Ep|mine].
      * exists (acts i tr), (PAwait rq k), [OPanicked i]. split; [mine|]. split; [exact C|]. eapply ov_payload; eauto.
    + destruct (rq_payload rq) as [d|er|cr] eqn:Ep; apply some_pair in Ht; destruct Ht as [E <-]; (apply G in E; [|autorewrite with ep; congruence]); subst st'; cbn [code].
      * exists rq. split; [mine; exact C|]. auto using requested_for.
      * eapply ex_more; [exact C|apply op_stream_bad; exact Ep|mine].
      * exists (acts i tr), (PStream rq k), [OPanicked i]. split; [mine|]. split; [exact C|]. eapply ov_payload; eauto.
    + destruct (nth_error (e_streams s) h) as [x|]; [|discriminate]. destruct (st_state x); try discriminate Ht; apply some_pair in Ht; destruct Ht as [E <-];
        (apply G in E; [|autorewrite with ep; congruence]); subst st'; cbn [code].
      * mine; exact C.
      * eapply ex_more; [exact C|apply op_next|mine].
      * exists (acts i tr), (PNext h k), [OPanicked i]. split; [mine|]. split; [exact C|constructor].
    + destruct (nth_error (e_conns s) n) as [c|]; [|discriminate]. destruct (cn_armed c); apply some_pair in Ht; destruct Ht as [E <-];
        (apply G in E; [|autorewrite with ep; congruence]); subst st'; cbn [code]; (eapply ex_more; [exact C|apply op_stop|mine]).
    + apply some_pair in Ht. destruct Ht as [E <-]. apply G in E; [|autorewrite with ep; congruence]. subst st'. cbn [code]. eapply ex_more; [exact C|apply op_env|mine].
    + apply some_pair in Ht. destruct Ht as [E <-]. apply G in E; [|autorewrite with ep; rewrite (proj2 (Nat.eqb_neq _ _) L); congruence]. subst st'. cbn [code]. eapply ex_more; [exact C|apply op_spawn|mine].
  - apply some_pair in Ht. destruct Ht as [E <-]. apply G in E; [|autorewrite with ep; congruence]. subst st'. cbn [code] in *.
    destruct w as [k|k]; destruct C as (rq & C & Ec & R); exists rq, (acts i tr); (split; [mine|]); auto.
  - (* TSend *)
    destruct pu as [k|c k|c k|ok]; apply some_pair in Ht; destruct Ht as [E <-]; (apply G in E; [|autorewrite with ep; congruence]); subst st'; cbn [code] in C.
    + destruct C as (rq & C & -> & R). cbn [code]. eapply ex_more; [exact C|apply op_emit; exact R|mine].
    + destruct C as (rq & os & Eo & C & -> & R). exists rq, e, os. split; [reflexivity|]. split; [rewrite Eo, <- app_assoc; mine|]. auto.
    + destruct C as (rq & os & Eo & C & -> & R). cbn [code]. eapply ex_more; [exact C|apply op_stream; exact R|]. rewrite Eo, <- app_assoc. mine.
    + destruct C as (x & r & os & -> & Eo & C & R).
      assert (X : exists os1 p1 os2, acts i tr ++ acts i [OSent i ctx e] = os1 ++ os2 /\ executes i p0 os1 p1 /\ over cf i (Some (ctx, x)) p1 os2).
      { exists os, (PRet r), [OReturned i r; OSent i ctx e]. split; [rewrite Eo, <- app_assoc; mine|]. split; [exact C|]. eapply ov_answer; eauto. }
      destruct ok; exact X.
  - destruct pu as [k0|c k0|c k0|ok]; apply some_pair in Ht; destruct Ht as [E <-]; (apply G in E; [|autorewrite with ep; congruence]); subst st'; cbn [code] in C.
    + destruct C as (rq & C & -> & R). cbn [code]. eapply ex_more; [exact C|apply op_emit_cut; [exact R|right; eauto]|mine].
    + destruct C as (rq & os & Eo & C & -> & R). cbn [code]. eapply ex_more; [exact C|apply op_await_cut; [exact R|right; eauto]|]. rewrite Eo, <- app_assoc. mine.
    + destruct C as (rq & os & Eo & C & -> & R). cbn [code]. eapply ex_more; [exact C|apply op_stream_cut; [exact R|right; eauto]|]. rewrite Eo, <- app_assoc. mine.
    + destruct C as (x & r & os & -> & Eo & C & R).
      assert (X : exists os1 p1 os2, acts i tr ++ acts i [OCut i ctx e] = os1 ++ os2 /\ executes i p0 os1 p1 /\ over cf i (Some (ctx, x)) p1 os2).
      { exists os, (PRet r), [OReturned i r; OCut i ctx e]. split; [rewrite Eo, <- app_assoc; mine|]. split; [exact C|]. eapply ov_answer_cut; eauto. }
      destruct ok; exact X.
  - destruct pu as [k0|c k0|c k0|ok]; try discriminate Ht; apply some_pair in Ht; destruct Ht as [E <-]; (apply G in E; [|autorewrite with ep; congruence]); subst st'; cbn [code] in C.
    + destruct C as (rq & C & -> & R). cbn [code]. eapply ex_more; [exact C|apply op_emit_cut; [exact R|left; reflexivity]|mine].
    + destruct C as (rq & os & Eo & C & -> & R). cbn [code]. eapply ex_more; [exact C|apply op_await_cut; [exact R|left; reflexivity]|]. rewrite Eo, <- app_assoc. mine.
    + destruct C as (rq & os & Eo & C & -> & R). cbn [code]. eapply ex_more; [exact C|apply op_stream_cut; [exact R|left; reflexivity]|]. rewrite Eo, <- app_assoc. mine.
  - (* TWait *)
    cbn [code] in C. destruct C as (rq & e & os0 & -> & Eo & C & R). destruct (nth_error (e_chans s) d) as [ch|]; [|discriminate]. destruct (ch_buf ch) as [|y b].
    + destruct (has_sender s d); [discriminate|]. apply some_pair in Ht. destruct Ht as [E <-]. apply G in E; [|autorewrite with ep; congruence]. subst st'. cbn [code].
      eapply ex_more; [exact C|apply op_await; exact R|]. rewrite Eo, <- app_assoc. mine.
    + apply some_pair in Ht. destruct Ht as [E <-]. apply G in E; [|autorewrite with ep; congruence]. subst st'. exists rq, e, os0. split; [reflexivity|]. split; [mine; exact Eo|auto].
  - cbn [code] in C. destruct C as (rq & e & os0 & -> & Eo & C & R). apply some_pair in Ht. destruct Ht as [E <-]. apply G in E; [|autorewrite with ep; congruence]. subst st'. cbn [code].
    eapply ex_more; [exact C|apply op_await; exact R|]. rewrite Eo, <- app_assoc. mine.
  - cbn [code] in C. destruct C as (rq & e & os0 & -> & Eo & C & R). apply some_pair in Ht. destruct Ht as [E <-]. apply G in E; [|autorewrite with ep; congruence]. subst st'. cbn [code].
    eapply ex_more; [exact C|apply op_await; exact R|]. rewrite Eo, <- app_assoc. mine.
  - (* TGot *)
    cbn [code] in C. destruct C as (rq & e0 & os0 & -> & Eo & C & R). cbn zeta in Ht. destruct (reply_result (cf_env cf) e); apply some_pair in Ht; destruct Ht as [E <-];
      (apply G in E; [|autorewrite with ep; congruence]); subst st'; cbn [code].
    + eapply ex_more; [exact C|apply op_await; exact R|]. rewrite Eo, <- app_assoc. mine.
    + eapply ex_more; [exact C|apply op_await; exact R|]. rewrite Eo, <- app_assoc. mine.
    + exists os0, (PAwait rq k), [OListen i (ev_id e0) d; OSent i (rq_ctx rq) e0; OPanicked i]. split; [rewrite Eo, <- app_assoc; mine|]. split; [exact C|]. apply ov_await. exact R.
  - (* TNext *)
    cbn [code] in C. destruct (nth_error (e_streams s) h1) as [x|]; [|discriminate]. destruct (nth_error (e_chans s) (st_chan x)) as [ch|]; [|discriminate]. destruct (ch_buf ch) as [|y b].
    + destruct (has_sender s (st_chan x)); [discriminate|]. apply some_pair in Ht. destruct Ht as [E <-]. apply G in E; [|autorewrite with ep; congruence]. subst st'. cbn [code]. mine; exact C.
    + destruct (etype_eqb (ev_type y) End); apply some_pair in Ht; destruct Ht as [E <-]; (apply G in E; [|autorewrite with ep; congruence]); subst st'; cbn [code].
      * mine; exact C.
      * eapply ex_more; [exact C|apply op_next|mine].
  - cbn [code] in C. destruct (nth_error (e_streams s) h1) as [x|]; [|discriminate]. apply some_pair in Ht. destruct Ht as [E <-]. apply G in E; [|autorewrite with ep; congruence]. subst st'. cbn [code].
    eapply ex_more; [exact C|apply op_next|mine].
  - cbn [code] in C. apply some_pair in Ht. destruct Ht as [E <-]. apply G in E; [|autorewrite with ep; congruence]. subst st'. cbn [code]. eapply ex_more; [exact C|apply op_next|mine].
  - cbn [code] in C. destruct (nth_error (e_streams s) h1) as [x|]; [|discriminate]. apply some_pair in Ht. destruct Ht as [E <-]. apply G in E; [|autorewrite with ep; congruence]. subst st'. cbn [code].
    eapply ex_more; [exact C|apply op_next|]. destruct oe; mine.
  - cbn [code] in C. apply some_pair in Ht. destruct Ht as [E <-]. apply G in E; [|autorewrite with ep; congruence]. subst st'. cbn [code]. mine. exact C.
Qed.


Section Code.
  Context (cf : config) (nc : nat) (armed : bool) (ps : list prog) (ctr : N).
  Definition coded (s : ep) (tr : list obs) (i : nat) (job : option (context * event)) (p0 : prog) : Prop :=
    exists st, nth_error (e_tasks s) i = Some (mk_task job st) /\ code cf (acts i tr) i job p0 st.
  Lemma coded_step ls s tr l s' os i job p0 : runs cf nc armed ps ctr ls s tr -> step cf s l = Some (s', os) -> coded s tr i job p0 -> coded s' (tr ++ os) i job p0.
  Proof.
    intros HR H (st & E & C). destruct (step_task _ _ _ _ _ i H) as [l N E'|a tk st1 E1 Ht E2|l q E1 -> E'|l n' sc' e' E1 E2 E'].
    - exists st. split; [congruence|]. rewrite acts_app, (acts_quiet _ _ N), app_nil_r. exact C.
    - rewrite E in E1. inversion E1. subst tk. cbn [tk_job] in *. exists st1. split; [exact E2|]. pose proof (code_step cf tr s i a s' os (mk_task job st) p0 st1 Ht E) as X. cbn [tk_job tk_st] in X. apply X; [|exact C|exact E2].
      intros ctx x ->. pose proof (inv_task _ _ _ _ _ _ _ _ HR i) as T. rewrite E in T. destruct T as [(n & sc & Q & _) _]. eauto.
    - assert (nth_error (e_tasks s) i = None) by (apply nth_error_None; lia). congruence.
    - assert (nth_error (e_tasks s) i = None) by (apply nth_error_None; lia). congruence.
  Qed.
  Lemma coded_written s tr i job p0 : coded s tr i job p0 -> as_written cf i job p0 (acts i tr).
  Proof. intros (st & _ & C). eapply code_written; eauto. Qed.
  Lemma fresh_acts ls s tr i : runs cf nc armed ps ctr ls s tr -> nth_error (e_tasks s) i = None -> acts i tr = [].
  Proof. intros HR E. pose proof (inv_task _ _ _ _ _ _ _ _ HR i) as T. rewrite E in T. apply acts_quiet. exact T. Qed.
  Lemma user_coded ls s tr : runs cf nc armed ps ctr ls s tr -> forall i p, nth_error ps i = Some p -> coded s tr i None p.
  Proof.
    apply (run_ind cf _ (fun ls s tr => forall i p, nth_error ps i = Some p -> coded s tr i None p)).
    - intros i p E. exists (TRun p). cbn [ep_new e_tasks]. rewrite nth_error_map, E. split; [reflexivity|constructor].
    - clear ls s tr. intros ls s tr l s' os IH HR H i p E. eapply coded_step; eauto.
  Qed.
  Lemma handler_coded ls s tr : runs cf nc armed ps ctr ls s tr -> forall n i ctx sc e, In (OCalled n i ctx sc e) tr -> coded s tr i (Some (ctx, e)) (handler_code cf ctx sc e).
  Proof.
    apply (run_ind cf _ (fun ls s tr => forall n i ctx sc e, In (OCalled n i ctx sc e) tr -> coded s tr i (Some (ctx, e)) (handler_code cf ctx sc e))); [cbn; tauto|].
    clear ls s tr. intros ls s tr l s' os IH HR H n i ctx sc e Hin. apply in_app_or in Hin. destruct Hin as [Hin|Hin]; [eapply coded_step; eauto|].
    pose proof (called_code _ _ _ _ _ _ _ _ _ _ H Hin) as E. exists (TRun (handler_code cf ctx sc e)). split; [exact E|]. cbn [code]. rewrite acts_app.
    destruct (step_task _ _ _ _ _ i H) as [l N E'|a tk st1 E1 Ht E2|l q E1 -> E'|l n' sc' e' E1 E2 E'].
    - destruct (quiet_sent _ _ N) as (_ & _ & C). destruct (C _ _ _ _ Hin).
    - exfalso. unfold task_step in Ht. rewrite E1 in Ht. clear - Ht Hin.
      destruct (tk_st tk); destruct a; try discriminate Ht; unfold run_prog, answer_event in Ht; cbn zeta in Ht;
        repeat (match type of Ht with context[match ?x with _ => _ end] => destruct x eqn:? end; try discriminate Ht);
        apply some_pair in Ht; destruct Ht as [_ <-]; cbn [In] in Hin; intuition discriminate.
    - destruct Hin.
    - rewrite (fresh_acts _ _ _ _ HR) by (apply nth_error_None; lia). replace (acts i os) with (@nil obs) by (destruct E2 as [-> | ->]; reflexivity). constructor.
  Qed.

  (** the code every task was started with *)
  Record origin (s : ep) (tr : list obs) (table : nat -> prog) : Prop := mk_origin {
    o_coded : forall i tk, nth_error (e_tasks s) i = Some tk -> coded s tr i (tk_job tk) (table i);
    o_user : forall i p, nth_error ps i = Some p -> table i = p /\ exists st, nth_error (e_tasks s) i = Some (mk_task None st);
    o_handler : forall n i ctx sc e, In (OCalled n i ctx sc e) tr -> table i = handler_code cf ctx sc e;
    o_spawned : forall i tk, nth_error (e_tasks s) i = Some tk -> (length ps <= i)%nat -> tk_job tk = None ->
      exists j k os rest, (j < i)%nat /\ executes j (table j) os (PSpawn (table i) k) /\ acts j tr = os ++ rest }.
  Lemma spawn_step s l s' os : step cf s l = Some (s', os) -> forall q, nth_error (e_tasks s') (length (e_tasks s)) = Some (mk_task None (TRun q)) -> os = [] ->
    exists j k, (j < length (e_tasks s))%nat /\ tst s j = Some (TRun (PSpawn q k)).
  Proof.
    intros H q E Eo. assert (Hn : nth_error (e_tasks s) (length (e_tasks s)) = None) by (apply nth_error_None; lia).
    assert (X : forall i st0, nth_error (e_tasks (set_task i st0 s)) (length (e_tasks s)) = Some (mk_task None (TRun q)) -> False).
    { intros i st0 Q. rewrite nth_set_task in Q. destruct (Nat.eqb_spec (length (e_tasks s)) i); [|congruence]. subst i. rewrite Hn in Q. discriminate. }
    destruct l as [i a|m e|m|m|m|h|].
    - exists i. cbn [step] in H. unfold task_step in H. destruct (nth_error (e_tasks s) i) as [tk|] eqn:Et; [|discriminate].
      assert (L : (i < length (e_tasks s))%nat) by (apply nth_error_Some; congruence).
      destruct (tk_st tk) as [p|ctx e w|ctx e pu|d rid k|d rid e k|h1 k|h1 oe k|rid| |] eqn:Es; destruct a; try discriminate H; unfold run_prog, answer_event in H; cbn zeta in H;
        repeat (match type of H with context[match ?x with _ => _ end] => destruct x eqn:? end; try discriminate H);
        apply some_pair in H; destruct H as [<- Eo']; try (subst os; discriminate);
        try (exfalso; autorewrite with ep in E; rewrite Hn in E; destruct (Nat.eqb_spec (length (e_tasks s)) i); [lia|discriminate E]).
      autorewrite with ep in E. rewrite Nat.eqb_refl in E. destruct (Nat.eqb_spec (length (e_tasks s)) i); [lia|]. inversion E. subst. eexists. split; [exact L|].
      unfold tst. rewrite Et. cbn. rewrite Es. reflexivity.
    - exfalso. step_cases H; try discriminate; autorewrite with ep in E; congruence.
    - exfalso. step_cases H; try discriminate; autorewrite with ep in E; congruence.
    - exfalso. step_cases H; try discriminate; autorewrite with ep in E; congruence.
    - exfalso. step_cases H; try discriminate; autorewrite with ep in E; congruence.
    - exfalso. step_cases H; try discriminate; autorewrite with ep in E; congruence.
    - exfalso. step_cases H; try discriminate; autorewrite with ep in E; congruence.
  Qed.
  Lemma tasks_stay s l s' os i tk : step cf s l = Some (s', os) -> nth_error (e_tasks s) i = Some tk -> exists st, nth_error (e_tasks s') i = Some (mk_task (tk_job tk) st).
  Proof.
    intros H E. destruct (step_task _ _ _ _ _ i H) as [l N E'|a tk' st1 E1 Ht E2|l q E1 -> E'|l n' sc' e' E1 E2 E'].
    - exists (tk_st tk). rewrite E', E. destruct tk; reflexivity.
    - exists st1. congruence.
    - assert (nth_error (e_tasks s) i = None) by (apply nth_error_None; lia). congruence.
    - assert (nth_error (e_tasks s) i = None) by (apply nth_error_None; lia). congruence.
  Qed.
  Lemma origins ls s tr : runs cf nc armed ps ctr ls s tr -> exists table, origin s tr table.
  Proof.
    apply (run_ind cf _ (fun ls s tr => exists table, origin s tr table)).
    { exists (fun i => nth i ps (PRet (inl []))). constructor.
      - intros i tk E. cbn [ep_new e_tasks] in E. rewrite nth_error_map in E. destruct (nth_error ps i) as [p|] eqn:Ep; [|discriminate]. cbn in E. inversion E. cbn [tk_job].
        exists (TRun p). split; [cbn [ep_new e_tasks]; rewrite nth_error_map, Ep; reflexivity|]. cbn [code]. rewrite (nth_error_nth _ _ (PRet (inl [])) Ep). constructor.
      - intros i p E. split; [exact (nth_error_nth _ _ _ E)|]. exists (TRun p). cbn [ep_new e_tasks]. rewrite nth_error_map, E. reflexivity.
      - cbn. tauto.
      - intros i tk E L. exfalso. cbn [ep_new e_tasks] in E. rewrite nth_error_map in E. rewrite (proj2 (nth_error_None _ _) L) in E. discriminate. }
    clear ls s tr. intros ls s tr l s' os (tab & O) HR H.
    assert (HR' : runs cf nc armed ps ctr (ls ++ [l]) s' (tr ++ os)).
    { unfold runs in *. rewrite run_app, HR. cbn. rewrite H, app_nil_r. reflexivity. }
    set (n := length (e_tasks s)).
    assert (Hn : nth_error (e_tasks s) n = None) by (apply nth_error_None; lia).
    assert (Old : forall i, nth_error (e_tasks s) i = None -> i <> n -> nth_error (e_tasks s') i = None).
    { intros i E D. destruct (step_task _ _ _ _ _ i H) as [l N E'|a tk st1 E1 Ht E2|l q E1 -> E'|l n' sc' e' E1 E2 E']; try congruence; exfalso; apply D; exact E1. }
    assert (LP : (length ps <= n)%nat).
    { destruct (le_lt_dec (length ps) n) as [Q|Q]; [exact Q|]. destruct (nth_error ps n) as [p|] eqn:Eq; [|apply nth_error_None in Eq; lia].
      destruct (o_user _ _ _ O _ _ Eq) as [_ (st & E)]. congruence. }
    (* the code of the task started by this step, if any *)
    assert (New : exists q, (forall tk, nth_error (e_tasks s') n = Some tk -> coded s' (tr ++ os) n (tk_job tk) q
        /\ (tk_job tk = None -> exists j k os1 rest, (j < n)%nat /\ executes j (tab j) os1 (PSpawn q k) /\ acts j (tr ++ os) = os1 ++ rest)
        /\ (forall m ctx sc e, In (OCalled m n ctx sc e) (tr ++ os) -> q = handler_code cf ctx sc e))).
    { destruct (step_task _ _ _ _ _ n H) as [l N E'|a tk st1 E1 Ht E2|l q E1 Eo E'|l n' sc' e' E1 E2 E'].
      - exists PPanic. intros tk E. congruence.
      - congruence.
      - exists q. intros tk E. rewrite E' in E. inversion E. subst tk. cbn [tk_job]. split; [|split].
        + exists (TRun q). split; [exact E'|]. cbn [code]. rewrite acts_app, (fresh_acts _ _ _ _ HR Hn). subst os. constructor.
        + intros _. destruct (spawn_step _ _ _ _ H q E' Eo) as (j & k & Lj & Tj). unfold tst in Tj. destruct (nth_error (e_tasks s) j) as [tk|] eqn:Ej; [|discriminate]. cbn in Tj. inversion Tj as [Es].
          destruct (o_coded _ _ _ O _ _ Ej) as (st & Est & C). rewrite Ej in Est. assert (Es' : st = tk_st tk) by (injection Est as Q; rewrite Q; reflexivity). rewrite Es' in C. rewrite Es in C. cbn [code] in C.
          exists j, k, (acts j tr), (acts j os). split; [exact Lj|]. split; [exact C|apply acts_app].
        + intros m ctx sc e Q. exfalso. pose proof (inv_task _ _ _ _ _ _ _ _ HR' n) as T. rewrite E' in T. destruct T as [T _]. cbn in T. exact (T _ _ _ _ Q).
      - set (ctx := mk_context n' (Some (ev_id e'))) in *. exists (handler_code cf ctx sc' e'). intros tk E. rewrite E' in E. inversion E. subst tk. cbn [tk_job].
        assert (Hin : In (OCalled n' n ctx sc' e') (tr ++ os)) by (apply in_or_app; right; destruct E2 as [-> | ->]; cbn; auto).
        split; [exact (handler_coded _ _ _ HR' _ _ _ _ _ Hin)|]. split; [discriminate|].
        intros m ctx1 sc1 e1 Q. pose proof (inv_task _ _ _ _ _ _ _ _ HR' n) as T. rewrite E' in T. destruct T as [T _]. cbn in T. destruct T as (m0 & sc0 & _ & _ & T).
        destruct (T _ _ _ _ Q) as (_ & -> & -> & ->). destruct (T _ _ _ _ Hin) as (_ & _ & -> & _). reflexivity. }
    destruct New as (q & New). exists (fun i => if Nat.eqb i n then q else tab i).
    assert (Was : forall i tk, nth_error (e_tasks s') i = Some tk -> i <> n -> exists tk0, nth_error (e_tasks s) i = Some tk0 /\ tk_job tk0 = tk_job tk).
    { intros i tk E D. destruct (nth_error (e_tasks s) i) as [tk0|] eqn:E0; [|rewrite (Old _ E0 D) in E; discriminate]. exists tk0. split; [reflexivity|].
      destruct (tasks_stay _ _ _ _ _ _ H E0) as (st & E1). rewrite E in E1. inversion E1. reflexivity. }
    constructor.
    - intros i tk E. destruct (Nat.eqb_spec i n) as [->|D]; [apply New; exact E|]. destruct (Was _ _ E D) as (tk0 & E0 & <-). eapply coded_step; eauto. apply (o_coded _ _ _ O). exact E0.
    - intros i p E. destruct (o_user _ _ _ O _ _ E) as [-> (st & E0)]. destruct (Nat.eqb_spec i n) as [->|D]; [congruence|]. split; [reflexivity|]. destruct (tasks_stay _ _ _ _ _ _ H E0) as (st' & E1). eauto.
    - intros m i ctx sc e Q. destruct (handler_coded _ _ _ HR' _ _ _ _ _ Q) as (st & Est & _). destruct (Nat.eqb_spec i n) as [->|D]; [exact (proj2 (proj2 (New _ Est)) _ _ _ _ Q)|].
      apply in_app_or in Q. destruct Q as [Q|Q]; [exact (o_handler _ _ _ O _ _ _ _ _ Q)|]. exfalso. destruct (Was _ _ Est D) as (tk0 & E0 & _).
      destruct (step_task _ _ _ _ _ i H) as [l N E'|a tk st1 E1 Ht E2|l q' E1 -> E'|l n' sc' e' E1 E2 E'].
      + destruct (quiet_sent _ _ N) as (_ & _ & C). destruct (C _ _ _ _ Q).
      + unfold task_step in Ht. rewrite E1 in Ht. clear - Ht Q.
        destruct (tk_st tk); destruct a; try discriminate Ht; unfold run_prog, answer_event in Ht; cbn zeta in Ht;
          repeat (match type of Ht with context[match ?x with _ => _ end] => destruct x eqn:? end; try discriminate Ht);
          apply some_pair in Ht; destruct Ht as [_ <-]; cbn [In] in Q; intuition discriminate.
      + destruct Q.
      + apply D; exact E1.
    - intros i tk E L J. destruct (Nat.eqb_spec i n) as [->|D].
      + destruct (New _ E) as (_ & X & _). destruct (X J) as (j & k & os1 & rest & Lj & A & B). exists j, k, os1, rest. split; [exact Lj|]. destruct (Nat.eqb_spec j n); [lia|]. auto.
      + destruct (Was _ _ E D) as (tk0 & E0 & J0). rewrite <- J0 in J. destruct (o_spawned _ _ _ O _ _ E0 L J) as (j & k & os1 & rest & Lj & A & B).
        assert (i < n)%nat by (apply nth_error_Some; congruence). exists j, k, os1, (rest ++ acts j os). destruct (Nat.eqb_spec j n); [lia|]. split; [exact Lj|]. split; [exact A|]. rewrite acts_app, B, app_assoc. reflexivity.
  Qed.
  Lemma all_started ls s tr : runs cf nc armed ps ctr ls s tr -> forall i tk, nth_error (e_tasks s) i = Some tk -> exists p, started cf ps tr i (tk_job tk) p /\ as_written cf i (tk_job tk) p (acts i tr).
  Proof.
    intros HR. destruct (origins _ _ _ HR) as (tab & O). intros i tk E. exists (tab i). split; [|apply (coded_written s); apply (o_coded _ _ _ O); exact E].
    revert tk E. induction i as [i IH] using lt_wf_ind. intros tk E. pose proof (inv_task _ _ _ _ _ _ _ _ HR i) as T. rewrite E in T. destruct T as [T _].
    destruct (tk_job tk) as [[ctx e]|] eqn:J; cbn in T.
    - destruct T as (n & sc & _ & Q & _). rewrite (o_handler _ _ _ O _ _ _ _ _ Q). econstructor. exact Q.
    - destruct (nth_error ps i) as [p|] eqn:Ep; [destruct (o_user _ _ _ O _ _ Ep) as [-> _]; constructor; exact Ep|]. apply nth_error_None in Ep.
      destruct (o_spawned _ _ _ O _ _ E Ep J) as (j & k & os & rest & L & A & B). destruct (nth_error (e_tasks s) j) as [tj|] eqn:Ej; [|exfalso; apply nth_error_None in Ej; assert (i < length (e_tasks s))%nat by (apply nth_error_Some; congruence); lia].
      eapply st_spawned; [exact Ep|exact T|exact (IH _ L _ Ej)|exact A|exact B].
  Qed.
End Code.
