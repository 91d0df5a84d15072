(** Properties of endpoints: user code runs as it is written: C78. *)
From Coq Require Import Strings.String.
From Verif Require Import Base BaseFacts Codec Spec Ids Payload Builder Emit Ipc SpecIpc SpecCode IpcFacts IpcTasks IpcCode PropsDispatch PropsReplies.

(** ** C78 *)
(** what a task of the user has done is what its program says, operation by operation *)
Theorem C78_user_tasks : forall cf nc armed ps ctr ls s tr i p, runs cf nc armed ps ctr ls s tr -> nth_error ps i = Some p -> as_written cf i None p (acts i tr).
Proof. intros. eapply coded_written, user_coded; eauto. Qed.
Print Assumptions C78_user_tasks.
(** the same for every handler called; after it has returned, and only then, its answer is sent *)
Theorem C78_handlers : forall cf nc armed ps ctr ls s tr n i ctx sc e, runs cf nc armed ps ctr ls s tr -> In (OCalled n i ctx sc e) tr ->
  as_written cf i (Some (ctx, e)) (handler_code cf ctx sc e) (acts i tr).
Proof. intros. eapply coded_written, handler_coded; eauto. Qed.
Print Assumptions C78_handlers.
(** nothing is done without a program that says so: whoever did something runs the code of a user's task, of a handler, or
    code that such a program has spawned *)
Theorem C78_everything_is_written : forall cf nc armed ps ctr ls s tr i o, runs cf nc armed ps ctr ls s tr -> In o tr -> act i o = true ->
  exists job p, started cf ps tr i job p /\ as_written cf i job p (acts i tr).
Proof.
  intros cf nc armed ps ctr ls s tr i o H Hin A. destruct (nth_error (e_tasks s) i) as [tk|] eqn:E.
  - destruct (all_started _ _ _ _ _ _ _ _ H _ _ E) as (p & P). eauto.
  - exfalso. pose proof (fresh_acts _ _ _ _ _ _ _ _ _ H E) as Q. unfold acts in Q. assert (X : In o (filter (act i) tr)) by (apply filter_In; auto). rewrite Q in X. destruct X.
Qed.
Print Assumptions C78_everything_is_written.
(** in particular every event ever sent, or begun to be sent, is what some emit call of the program asked for, or the
    automatic answer to a handled event *)
Theorem C78_every_event_was_asked_for : forall cf nc armed ps ctr ls s tr i ctx e, runs cf nc armed ps ctr ls s tr -> In (OSent i ctx e) tr \/ In (OCut i ctx e) tr ->
  exists job p os p1, started cf ps tr i job p /\ executes i p os p1 /\
  ((exists rq, ctx = rq_ctx rq /\ requested rq e /\ ((exists k, p1 = PEmit rq k) \/ (exists k, p1 = PAwait rq k) \/ (exists k, p1 = PStream rq k)))
   \/ exists n sc x r, In (OCalled n i ctx sc x) tr /\ p1 = PRet r /\ answers cf x r e).
Proof.
  intros cf nc armed ps ctr ls s tr i ctx e H Hin.
  assert (A : exists o, In o (acts i tr) /\ (o = OSent i ctx e \/ o = OCut i ctx e)).
  { destruct Hin as [Hin|Hin]; eexists; (split; [apply filter_In; split; [exact Hin|cbn; apply Nat.eqb_refl]|auto]). }
  destruct A as (o & Hin' & Ho). assert (Ha : act i o = true) by (destruct Ho as [-> | ->]; cbn; apply Nat.eqb_refl).
  assert (Htr : In o tr) by (apply filter_In in Hin'; tauto).
  destruct (nth_error (e_tasks s) i) as [tk|] eqn:E.
  2:{ exfalso. pose proof (fresh_acts _ _ _ _ _ _ _ _ _ H E) as Q. rewrite Q in Hin'. destruct Hin'. }
  destruct (all_started _ _ _ _ _ _ _ _ H _ _ E) as (p & S & os1 & p1 & os2 & Eo & X & B).
  pose proof (inv_task _ _ _ _ _ _ _ _ H i) as T. rewrite E in T. destruct T as [T _].
  assert (J : forall c x, tk_job tk = Some (c, x) -> exists n sc, In (OCalled n i c sc x) tr).
  { intros c x Q. rewrite Q in T. destruct T as (n & sc & _ & T & _). eauto. }
  revert S J B. generalize (tk_job tk) as job. intros job S J B. rewrite Eo in Hin'. apply in_app_or in Hin'. exists job, p.
  destruct Hin' as [Hin'|Hin'].
  - clear B Eo. induction X as [p|p os p1 os1 p2 X IH P]; [destruct Hin'|]. apply in_app_or in Hin'. destruct Hin' as [Q|Q]; [auto|].
    exists os, p1. split; [exact S|]. split; [exact X|]. left.
    destruct P; cbn [In] in Q; try (exfalso; intuition (try discriminate; subst; intuition discriminate));
      (exists rq; assert (Z : ctx = rq_ctx rq /\ e = e0) by (destruct Ho as [-> | ->]; intuition (try discriminate); match goal with Q : _ = _ |- _ => inversion Q; auto end); destruct Z as [-> ->]; eauto 8).
  - exists os1, p1. split; [exact S|]. split; [exact X|]. destruct B as [B|B]; [left|].
    + destruct B; cbn [In] in Hin'; try (exfalso; intuition (try discriminate; subst; intuition discriminate)).
      exists rq. assert (Z : ctx = rq_ctx rq /\ e = e0) by (destruct Ho as [-> | ->]; intuition (try discriminate); match goal with Q : _ = _ |- _ => inversion Q; auto end). destruct Z as [-> ->]. eauto 8.
    + assert (Z : forall r c x a o', job = Some (c, x) -> answers cf x r a -> In o [OReturned i r; o'] -> (o' = OSent i c a \/ o' = OCut i c a) ->
        exists n sc x' r', In (OCalled n i ctx sc x') tr /\ PRet r = PRet r' /\ answers cf x' r' e).
      { intros r c x a o' Ej An Q Eo'. destruct (J _ _ Ej) as (n & sc & C). exists n, sc, x, r.
        assert (ctx = c /\ e = a) as [-> ->]; [|auto].
        destruct Q as [Q|[Q|[]]]; destruct Ho as [-> | ->]; try discriminate; destruct Eo' as [-> | ->]; inversion Q; auto. }
      destruct B as [r|c x r a Ej An|c x r a Ej An| |rq p' c Ec Ep|rq k e0 c R|h k]; cbn [In] in Hin'.
      * exfalso. destruct Ho as [-> | ->]; intuition discriminate.
      * right. apply (Z r c x a (OSent i c a)); [exact Ej|exact An|exact Hin'|auto].
      * right. apply (Z r c x a (OCut i c a)); [exact Ej|exact An|exact Hin'|auto].
      * exfalso. destruct Ho as [-> | ->]; intuition discriminate.
      * exfalso. destruct Ho as [-> | ->]; intuition discriminate.
      * left. exists rq. assert (Y : ctx = rq_ctx rq /\ e = e0) by (destruct Ho as [-> | ->]; intuition (try discriminate); match goal with Q : _ = _ |- _ => inversion Q; auto end). destruct Y as [-> ->]. eauto 8.
      * exfalso. destruct Ho as [-> | ->]; intuition discriminate.
Qed.
Print Assumptions C78_every_event_was_asked_for.
(** a task that emits one payload which cannot be encoded and then one that can, spawning another task in between *)
Definition rq78 (name : string) (d : outcome bytes) : request := mk_request ctx0 None (str name) d.
Definition prog78 : prog := PEmit (rq78 "bad" (Err SendError)) (fun _ => PSpawn (PEmit (rq78 "second" (Ok [x02])) (fun _ => PRet (inl []))) (PEmit (rq78 "first" (Ok [x01])) (fun _ => PRet (inl [])))).
Example C78_case : exists s e1 e2, runs ex_cf 1 true [prog78] 0
    [LTask 0 go; LTask 0 go; LTask 0 go; LTask 1 go; LTask 1 (AFail WriteZero); LTask 0 go; LRecv 0 (ev 5 None (str "fail") []); LTask 2 go; LTask 2 go] s
    [OCut 1 ctx0 e2; OSent 0 ctx0 e1; OReceived 0 (ev 5 None (str "fail") []); OCalled 0 2 (mk_context 0 (Some 5)) None (ev 5 None (str "fail") []); OReturned 2 (inr Timeout);
     OSent 2 (mk_context 0 (Some 5)) (event_new (nth_id at1 2) None ERROR_EVENT_NAME (match error_enc (mk_err_data 500 (str "Timeout")) with Ok b => b | _ => [] end) (Some 5) Error)]
  /\ requested (rq78 "first" (Ok [x01])) e1 /\ requested (rq78 "second" (Ok [x02])) e2.
Proof. eexists _, _, _. split; [vm_compute; reflexivity|]. split; (split; [reflexivity|]; split; [reflexivity|]; split; [reflexivity|]; split; reflexivity). Qed.
