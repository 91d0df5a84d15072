(** Properties of endpoints, first part: which code a received event reaches and how it is answered: C33, C34, C36, C37. *)
From Coq Require Import Strings.String.
From Verif Require Import Base BaseFacts Codec Spec Ids Payload Builder Emit Ipc SpecIpc IpcFacts IpcChanFacts IpcUsers IpcLoops IpcIds IpcTasks.

(** ** A configuration for the examples *)
(** "ping" answers with two emits and its payload, "fail" fails, "ask" asks back; namespace "ns" has "ping" only. *)
Definition ping : callback := fun ctx e =>
  PEmit (mk_request ctx None (str "pong") (Ok [x01])) (fun _ => PEmit (mk_request ctx (Some (str "ns")) (str "pong") (Ok [x02])) (fun _ => PRet (inl (ev_data e)))).
Definition fail : callback := fun _ _ => PRet (inr Timeout).
Definition ns_ping : callback := fun _ _ => PRet (inl [xaa]).
Definition ex_env : env := mk_env true 1000.
Definition ex_cf : config := mk_config [(str "ping", ping); (str "fail", fail); (ERROR_EVENT_NAME, default_error ex_env)]
  [(str "ns", mk_namespace (str "ns") [(str "ping", ns_ping)])] (fun _ => str "Timeout") ex_env.
Definition at1 : instant := mk_instant 1 0.
Definition go : action := AStep at1 0.
Definition ev (rid : N) (ns : option bytes) (name : bytes) (d : bytes) : event := event_new rid ns name d None Initiator.
Definition reply (rid : N) (r : N) (t : etype) (d : bytes) : event := event_new rid None (str "r") d (Some r) t.

(** ** C33 *)
Theorem C33_where_events_go : forall cf nc armed ps ctr ls s tr, runs cf nc armed ps ctr ls s tr ->
  forall n before e after, tr = before ++ OReceived n e :: after -> placed cf n before e after.
Proof. exact all_placed. Qed.
Print Assumptions C33_where_events_go.
(** one place only: whatever is delivered, dropped or handled is the event the same connection read last *)
Theorem C33_one_place : forall cf nc armed ps ctr ls s tr, runs cf nc armed ps ctr ls s tr ->
  forall n before e o after, tr = before ++ o :: after -> delivery n e o -> last_about n before = Some (OReceived n e).
Proof. exact all_from_received. Qed.
Print Assumptions C33_one_place.
(** the code that is called: the callback registered for that name in that scope, or one that answers with nothing *)
Theorem C33_handler_called : forall cf s l s' os n i ctx sc e, step cf s l = Some (s', os) -> In (OCalled n i ctx sc e) os ->
  exists tk, nth_error (e_tasks s') i = Some tk /\ tk_job tk = Some (ctx, e) /\ nth_error (e_tasks s) i = None
    /\ tk_st tk = TRun (match eh_get (callbacks cf sc) (ev_name e) with Some cb => cb ctx e | None => PRet (inl []) end).
Proof.
  intros cf s l s' os n i ctx sc e H Hin. eexists. split; [exact (called_code _ _ _ _ _ _ _ _ _ _ H Hin)|]. split; [reflexivity|]. split; [|reflexivity].
  destruct (step_task _ _ _ _ _ i H) as [l N E|a tk st E1 Ht E2|l q E1 -> E|l n' sc' e' E1 E2 E].
  - destruct (quiet_sent _ _ N) as (_ & _ & C). destruct (C _ _ _ _ Hin).
  - destruct (called_not_step _ _ _ _ _ _ _ _ _ _ _ Ht Hin).
  - destruct Hin.
  - apply nth_error_None. lia.
Qed.
Print Assumptions C33_handler_called.
Example C33_case : exists s tr, runs ex_cf 1 true [PAwait (mk_request (mk_context 0 None) None (str "q") (Ok [])) (fun _ => PRet (inl []))] 0
    [LTask 0 go; LTask 0 go; LTask 0 go;                                             (* the request is sent, its id is nth_id at1 0 *)
     LRecv 0 (ev 77 (Some (str "ns")) (str "ping") []); LRecv 0 (ev 78 (Some (str "no")) (str "ping") []); LRecv 0 (reply 79 5 End []);
     LRecv 0 (reply 80 (nth_id at1 0) Response [x05]); LPlace 0; LRecv 0 (reply 81 (nth_id at1 0) End []); LTask 0 ATimeout; LPlace 0] s tr
  /\ filter (about 0) tr = [OReceived 0 (ev 77 (Some (str "ns")) (str "ping") []); OCalled 0 1 (mk_context 0 (Some 77)) (Some (str "ns")) (ev 77 (Some (str "ns")) (str "ping") []);
      OReceived 0 (ev 78 (Some (str "no")) (str "ping") []); OCalled 0 2 (mk_context 0 (Some 78)) None (ev 78 (Some (str "no")) (str "ping") []);
      OReceived 0 (reply 79 5 End []); OIgnored 0 (reply 79 5 End []);
      OReceived 0 (reply 80 (nth_id at1 0) Response [x05]); OQueued 0 0 (reply 80 (nth_id at1 0) Response [x05]);
      OReceived 0 (reply 81 (nth_id at1 0) End []); OCalled 0 3 (mk_context 0 (Some 81)) None (reply 81 (nth_id at1 0) End [])].
Proof. eexists _, _. split; [vm_compute; reflexivity|vm_compute; reflexivity]. Qed.

(** ** C34 *)
Theorem C34_unknown_namespace_reaches_global_handler : forall cf nc armed ps ctr ls s tr n before e after ns, runs cf nc armed ps ctr ls s tr ->
  tr = before ++ OReceived n e :: after -> ev_ns e = Some ns -> (forall x, ~ In (ns, x) (cf_namespaces cf)) -> listener_of before e = None -> ev_type e <> End ->
  exists i, next_about n after = Some (OCalled n i (mk_context n (Some (ev_id e))) None e).
Proof.
  intros cf nc armed ps ctr ls s tr n before e after ns H Q En Hns Hl Ht. pose proof (all_placed _ _ _ _ _ _ _ _ H _ _ _ _ Q) as P. unfold placed in P. rewrite Hl in P.
  assert (S : scope_of cf e = None).
  { unfold scope_of. rewrite En. destruct (existsb (fun kv => bytes_eqb ns (fst kv)) (cf_namespaces cf)) eqn:X; [|reflexivity].
    apply existsb_exists in X. destruct X as ([k v] & A & B). cbn in B. apply bytes_eqb_spec in B. subst k. destruct (Hns _ A). }
  rewrite S in P. destruct (ev_type e); try congruence; exact P.
Qed.
Print Assumptions C34_unknown_namespace_reaches_global_handler.
(** the specification says "ignored": for every configuration with a global handler and every event of that name sent to an
    unregistered namespace, the handler runs *)
Theorem C34_ignored_refuted : forall cf e ns cb, eh_get (cf_handler cf) (ev_name e) = Some cb -> ev_ns e = Some ns ->
  (forall x, ~ In (ns, x) (cf_namespaces cf)) -> ev_ref e = None -> ev_type e <> End ->
  exists s tr tk, runs cf 1 false [] 0 [LRecv 0 e] s tr /\ tr = [OReceived 0 e; OCalled 0 0 (mk_context 0 (Some (ev_id e))) None e]
    /\ nth_error (e_tasks s) 0 = Some tk /\ tk_st tk = TRun (cb (mk_context 0 (Some (ev_id e))) e).
Proof.
  intros cf e ns cb Hg En Hns Hr Ht.
  assert (L : lookup bytes_eqb ns (cf_namespaces cf) = None).
  { destruct (lookup bytes_eqb ns (cf_namespaces cf)) eqn:X; [|reflexivity]. exfalso. revert Hns X. induction (cf_namespaces cf) as [|[k v] m IH]; cbn; [discriminate|].
    intros Hns X. destruct (bytes_eqb ns k) eqn:B; [apply bytes_eqb_spec in B; subst; apply (Hns v); auto|]. apply IH; auto. intros x Hx. apply (Hns x). auto. }
  assert (T : etype_eqb (ev_type e) End = false) by (destruct (ev_type e); (reflexivity || congruence)).
  unfold runs. cbn [run step ep_new e_conns repeat nth_error cn_loop]. unfold receive. rewrite Hr, T, En, L. unfold handle_event. rewrite Hg. cbn. eexists _, _, _. repeat split; reflexivity.
Qed.
Print Assumptions C34_ignored_refuted.
Example C34_case : exists e ns, eh_get (cf_handler ex_cf) (ev_name e) = Some ping /\ ev_ns e = Some ns /\ (forall x, ~ In (ns, x) (cf_namespaces ex_cf)) /\ ev_ref e = None /\ ev_type e <> End.
Proof.
  exists (ev 77 (Some (str "no")) (str "ping") []), (str "no"). split; [reflexivity|]. split; [reflexivity|]. split; [|split; [reflexivity|discriminate]].
  intros x [Q|[]]. vm_compute in Q. discriminate.
Qed.

(** ** C36 *)
(** Task [i] handles [e]. Before its handler has returned nothing final is sent by it. After that at most one final event,
    and that is the last it sends; exactly one when nothing is left to do. *)
Theorem C36_one_final_answer : forall cf nc armed ps ctr ls s tr n i ctx sc e, runs cf nc armed ps ctr ls s tr ->
  In (OCalled n i ctx sc e) tr -> no_write_failure ls ->
  (returned i tr = [] -> Forall (fun p => final (snd p) = false) (sent i tr))
  /\ (forall r rs, returned i tr = r :: rs -> rs = [] /\ exists pre post, sent i tr = pre ++ post /\ Forall (fun p => final (snd p) = false) pre
        /\ (post = [] \/ exists a, post = [(ctx, a)] /\ answers cf e r a)
        /\ (stuck cf s i -> post <> [])).
Proof.
  intros cf nc armed ps ctr ls s tr n i ctx sc e H Hc NF. destruct (one_answer _ _ _ _ _ _ _ _ _ _ _ _ _ H Hc NF) as [_ A]. split.
  - intros E. rewrite E in A. exact A.
  - intros r rs E. rewrite E in A. destruct rs; [|contradiction]. split; [reflexivity|]. destruct A as (pre & P & [[A B]|(a & A & B)]).
    + exists pre, []. rewrite app_nil_r. repeat split; auto.
    + exists pre, [(ctx, a)]. split; [exact A|]. split; [exact P|]. split; [eauto|discriminate].
Qed.
Print Assumptions C36_one_final_answer.
(** with write failures: still at most one, as the last, and only after the handler returned *)
Theorem C36_at_most_one_final_answer : forall cf nc armed ps ctr ls s tr n i ctx sc e, runs cf nc armed ps ctr ls s tr -> In (OCalled n i ctx sc e) tr ->
  exists pre post, sent i tr = pre ++ post /\ Forall (fun p => final (snd p) = false) pre
    /\ (post = [] \/ exists r a, returned i tr = [r] /\ post = [(ctx, a)] /\ answers cf e r a).
Proof. exact at_most_one. Qed.
Print Assumptions C36_at_most_one_final_answer.
(** a handler can always return, whatever it returns, and then the task can always go on: its answer is not dropped *)
Theorem C36_answer_not_blocked : forall cf nc armed ps ctr ls s tr i, runs cf nc armed ps ctr ls s tr ->
  (forall r, option_map tk_st (nth_error (e_tasks s) i) = Some (TRun (PRet r)) -> forall t v, exists s' os, step cf s (LTask i (AStep t v)) = Some (s', os) /\ returned i os = [r])
  /\ (forall n ctx sc e, In (OCalled n i ctx sc e) tr -> returned i tr <> [] -> step cf s (LTask i ADrop) = None).
Proof.
  intros cf nc armed ps ctr ls s tr i H. split.
  - intros r E t v. cbn [step]. unfold task_step. destruct (nth_error (e_tasks s) i) as [[j st]|]; [|discriminate]. cbn in E. inversion E; subst st. cbn [tk_st tk_job run_prog].
    destruct j as [[ctx x]|]; [destruct r|]; cbn; eexists _, _; (split; [reflexivity|]); cbn; rewrite Nat.eqb_refl; reflexivity.
  - intros n ctx sc e Hc Hr. destruct (called_job _ _ _ _ _ _ _ _ _ _ _ _ _ H Hc) as (st & Ht & _ & S). cbn [step]. unfold task_step. rewrite Ht. cbn [tk_st].
    destruct st as [p|c0 e0 w|c0 e0 pu|d rid k|d rid e0 k|h k|h oe k|rid| |]; cbn [state_trace] in S; try reflexivity; try (exfalso; apply Hr; apply S; fail).
    destruct pu; try reflexivity; exfalso; apply Hr; apply S.
Qed.
Print Assumptions C36_answer_not_blocked.
(** without a handler of that name: nothing but the answer is sent, and what is answered is the empty response *)
Theorem C36_no_handler_empty_answer : forall cf nc armed ps ctr ls s tr n i ctx sc e, runs cf nc armed ps ctr ls s tr ->
  In (OCalled n i ctx sc e) tr -> eh_get (callbacks cf sc) (ev_name e) = None -> no_write_failure ls ->
  (returned i tr = [] \/ returned i tr = [inl []])
  /\ (sent i tr = [] \/ exists a, sent i tr = [(ctx, a)] /\ answers cf e (inl []) a) /\ (stuck cf s i -> sent i tr <> []).
Proof.
  intros cf nc armed ps ctr ls s tr n i ctx sc e H Hc Hg NF. destruct (no_handler_inv _ _ _ _ _ _ _ _ H _ _ _ _ _ Hc Hg) as (R & st & T & S).
  destruct (one_answer _ _ _ _ _ _ _ _ _ _ _ _ _ H Hc NF) as [_ A].
  assert (NS : forall p, st = TRun (PRet p) -> ~ stuck cf s i).
  { intros p E K. destruct (proj1 (C36_answer_not_blocked _ _ _ _ _ _ _ _ i H) p) with (t := at1) (v := 0) as (s' & os & Q & _); [rewrite <- E; exact T|].
    specialize (K at1 0). congruence. }
  split; [exact R|].
  assert (L : (length (sent i tr) <= 1)%nat).
  { destruct st as [p|c0 e0 w|c0 e0 pu|d rid k|d rid e0 k|h k|h oe k|rid| |]; try contradiction; try exact S.
    - destruct S as (_ & -> & _). cbn. lia.
    - destruct pu; try contradiction. destruct S as [-> _]. cbn. lia. }
  destruct R as [R|R]; rewrite R in A.
  - assert (sent i tr = [] /\ ~ stuck cf s i) as [E NK].
    { destruct st as [p|c0 e0 w|c0 e0 pu|d rid k|d rid e0 k|h k|h oe k|rid| |]; try contradiction.
      - destruct S as (-> & E & _). split; [exact E|]. exact (NS _ eq_refl).
      - destruct pu; try contradiction. destruct S as (_ & S). congruence.
      - exfalso. destruct (called_job _ _ _ _ _ _ _ _ _ _ _ _ _ H Hc) as (st & Ht & _ & S'). unfold tst in T. rewrite Ht in T. cbn in T. inversion T; subst. destruct S' as (? & ? & ? & ? & ? & _ & _ & _ & S' & _). congruence.
      - exfalso. destruct (called_job _ _ _ _ _ _ _ _ _ _ _ _ _ H Hc) as (st & Ht & _ & S'). unfold tst in T. rewrite Ht in T. cbn in T. inversion T; subst. destruct S' as (? & ? & ? & S' & _). congruence. }
    split; [auto|]. intros K. contradiction.
  - destruct A as (pre & P & [[A B]|(a & A & B)]).
    + assert (E : sent i tr = []).
      { destruct st as [p|c0 e0 w|c0 e0 pu|d rid k|d rid e0 k|h k|h oe k|rid| |]; try contradiction; try (apply S).
        - destruct pu; try contradiction. apply S.
        - exfalso. destruct (called_job _ _ _ _ _ _ _ _ _ _ _ _ _ H Hc) as (st & Ht & _ & S'). unfold tst in T. rewrite Ht in T. cbn in T. inversion T; subst st.
          destruct S' as (ctx1 & x & r & pre1 & a1 & Ej & Ey & Eo & Er & An & F & [D|(_ & k & D)]); [|destruct (NF _ _ D)]. rewrite A in D. rewrite D in P.
          apply Forall_app in P. destruct P as [_ P]. inversion P as [|? ? P1 _]. cbn in P1. destruct An as (_ & _ & An). destruct r as [b|er]; [|discriminate Eo]. unfold final in P1. destruct An as (An & _). rewrite An in P1. discriminate.
        - exfalso. destruct (called_job _ _ _ _ _ _ _ _ _ _ _ _ _ H Hc) as (st & Ht & _ & S'). unfold tst in T. rewrite Ht in T. cbn in T. inversion T; subst st.
          destruct S' as (r & pre1 & a1 & Er & An & F & [D|(_ & k & D)]); [|destruct (NF _ _ D)]. rewrite A in D. rewrite D in P.
          apply Forall_app in P. destruct P as [_ P]. inversion P as [|? ? P1 _]. cbn in P1. destruct An as (_ & _ & An). unfold final in P1. destruct r as [b|er]; destruct An as (An & _); rewrite An in P1; discriminate. }
      split; [auto|]. intros K. contradiction.
    + rewrite A in L. rewrite app_length in L. cbn in L. destruct pre; [|cbn in L; lia]. cbn in A. split; [right; eauto|]. intros _ Q. rewrite Q in A. discriminate.
Qed.
Print Assumptions C36_no_handler_empty_answer.
(** a handler that emits twice and answers, one that fails, an unregistered name *)
Example C36_case : exists s tr, runs ex_cf 1 false [] 0
    [LRecv 0 (ev 70 None (str "ping") [x09]); LRecv 0 (ev 71 None (str "fail") []); LRecv 0 (ev 72 None (str "what") [x08]);
     LTask 1 go; LTask 0 go; LTask 0 go; LTask 2 go; LTask 1 go; LTask 0 go; LTask 0 go; LTask 2 go; LTask 0 go; LTask 2 go; LTask 0 go; LTask 0 go] s tr
  /\ map (fun p => (ev_type (snd p), ev_ref (snd p), ev_data (snd p))) (sent 0 tr) = [(Response, Some 70, [x01]); (Response, Some 70, [x02]); (End, Some 70, [x09])]
  /\ map (fun p => (ev_type (snd p), ev_ref (snd p))) (sent 1 tr) = [(Error, Some 71)]
  /\ map (fun p => (ev_type (snd p), ev_ref (snd p), ev_data (snd p))) (sent 2 tr) = [(End, Some 72, [])]
  /\ stuck ex_cf s 0 /\ stuck ex_cf s 1 /\ stuck ex_cf s 2.
Proof. eexists _, _. split; [vm_compute; reflexivity|]. repeat split; try (vm_compute; reflexivity). Qed.

(** ** C37 *)
(** Whatever task [i] sends through a context is a response to the event the context belongs to, an initiator if it belongs
    to none, or the automatic answer; and the context a handler is given belongs to the event it handles. *)
Theorem C37_emits_are_replies : forall cf nc armed ps ctr ls s tr i ctx e, runs cf nc armed ps ctr ls s tr -> In (OSent i ctx e) tr \/ In (OCut i ctx e) tr ->
  (ev_ref e = c_ref ctx /\ ev_type e = match c_ref ctx with Some _ => Response | None => Initiator end)
  \/ (exists n sc x r, In (OCalled n i ctx sc x) tr /\ answers cf x r e).
Proof.
  intros cf nc armed ps ctr ls s tr i ctx e H Hin. destruct (ended_emitted _ _ _ _ _ _ _ _ H _ _ _ Hin) as [A|(n & sc & x & r & A & _ & B)]; [left; exact A|right; exists n, sc, x, r; auto].
Qed.
Print Assumptions C37_emits_are_replies.
Theorem C37_handler_context : forall cf nc armed ps ctr ls s tr n i ctx sc e, runs cf nc armed ps ctr ls s tr -> In (OCalled n i ctx sc e) tr ->
  c_conn ctx = n /\ c_ref ctx = Some (ev_id e).
Proof. intros cf nc armed ps ctr ls s tr n i ctx sc e H Hc. destruct (called_job _ _ _ _ _ _ _ _ _ _ _ _ _ H Hc) as (_ & _ & -> & _). auto. Qed.
Print Assumptions C37_handler_context.
(** two emits of a handler and one of a client *)
Example C37_case : exists s tr, runs ex_cf 1 true [PEmit (mk_request (mk_context 0 None) None (str "q") (Ok [])) (fun _ => PRet (inl []))] 0
    [LTask 0 go; LTask 0 go; LRecv 0 (ev 70 None (str "ping") [x09]); LTask 1 go; LTask 1 go] s tr
  /\ In (OSent 0 (mk_context 0 None) (event_new (nth_id at1 0) None (str "q") [] None Initiator)) tr
  /\ In (OSent 1 (mk_context 0 (Some 70)) (event_new (nth_id at1 1) None (str "pong") [x01] (Some 70) Response)) tr.
Proof. eexists _, _. split; [vm_compute; reflexivity|]. split; vm_compute; auto 6. Qed.
