(** C74: handlers run concurrently; the receive loop waits for none of them, and a panic stays in its task. *)
From Coq Require Import Lia Strings.String.
From Verif Require Import Base BaseFacts Codec Spec Ids Payload Builder Emit EmitFacts Ipc SpecIpc SpecConc IpcFacts IpcChanFacts IpcUsers IpcLoops IpcConc.
Open Scope nat_scope.

(** Whatever the tasks are doing after any history - waiting for replies, for streams, never going on at all -, a loop that
    reads can read any number of events for handlers in a row; each handler is started at once, in order, as a task of its
    own, without any of the earlier ones making a step. *)
Theorem C74_any_number_of_handlers :
  forall cf nc armed ps ctr ls s tr n es, runs cf nc armed ps ctr ls s tr -> (exists e, step cf s (LRecv n e) <> None) ->
  Forall (for_handlers tr) es ->
  exists s', run cf s (map (LRecv n) es) = Some (s', dispatched cf n (List.length (e_tasks s)) es) /\
    (forall i, List.length (e_tasks s) <= i < List.length (e_tasks s) + List.length es -> handler_runs s' i) /\
    forall i, i < List.length (e_tasks s) -> nth_error (e_tasks s') i = nth_error (e_tasks s) i.
Proof.
  intros cf nc armed ps ctr ls s tr n es R (e0 & E0) F.
  assert (L : exists c, nth_error (e_conns s) n = Some c /\ cn_loop c = LRun).
  { cbn [step] in E0. destruct (nth_error (e_conns s) n) as [c|]; [|congruence]. exists c. split; [reflexivity|]. destruct (cn_loop c); congruence. }
  destruct (dispatch_all cf es s n L) as (s' & H & new & N1 & N2 & N3).
  { eapply Forall_impl; [|exact F]. intros e [A B]. split; [|exact B]. rewrite (lis_of cf nc armed ps ctr ls s tr e R). exact A. }
  exists s'. split; [exact H|]. split.
  - intros i Hi. unfold handler_runs. rewrite N1, nth_error_app2 by lia. destruct (nth_error new (i - List.length (e_tasks s))) as [tk|] eqn:E.
    + rewrite Forall_forall in N3. destruct (N3 _ (nth_error_In _ _ E)) as [J [p P]]. eauto.
    + apply nth_error_None in E. lia.
  - intros i Hi. rewrite N1. apply nth_error_app1. exact Hi.
Qed.

(** Nothing a task does - a handler or the user's own code - keeps any connection's loop from what it could do. *)
Theorem C74_tasks_never_block_loops :
  forall cf s i a s' os l, step cf s (LTask i a) = Some (s', os) -> by_loop l -> step cf s l <> None -> step cf s' l <> None.
Proof. intros cf s i a s' os l. apply tasks_never_block. Qed.

(** A panic ends its task and nothing else: connections, streams and the other tasks stay as they are, and whatever could
    happen elsewhere can still happen. *)
Theorem C74_panics_are_contained :
  forall cf nc armed ps ctr ls s tr i a s' os, runs cf nc armed ps ctr ls s tr -> step cf s (LTask i a) = Some (s', os) -> In (OPanicked i) os ->
  (forall b, step cf s' (LTask i b) = None) /\
  e_conns s' = e_conns s /\ e_streams s' = e_streams s /\ (forall j, j <> i -> nth_error (e_tasks s') j = nth_error (e_tasks s) j) /\
  forall l, (forall b, l <> LTask i b) -> step cf s l <> None -> step cf s' l <> None.
Proof.
  intros cf nc armed ps ctr ls s tr i a s' os R H P. split.
  - assert (T : exists tk, nth_error (e_tasks s) i = Some tk) by (cbn [step] in H; unfold task_step in H; destruct (nth_error (e_tasks s) i); [eauto | discriminate]).
    destruct T as (tk & T). assert (D : exists tk', nth_error (e_tasks s') i = Some tk' /\ tk_st tk' = TDead).
    { destruct (panic_is cf _ _ _ _ _ H P) as [->|(c & id & e & k & Es & ->)].
      - unfold set_task. rewrite T. cbn. rewrite (put_eq _ _ _ _ T). eexists. split; reflexivity.
      - unfold set_task. assert (T' : nth_error (e_tasks (close_chan c (unlisten id s))) i = Some tk) by (unfold close_chan; destruct (nth_error (e_chans (unlisten id s)) c); exact T).
        rewrite T'. cbn. rewrite (put_eq _ _ _ _ T'). eexists. split; reflexivity. }
    destruct D as (tk' & D1 & D2). intros b. cbn [step]. unfold task_step. rewrite D1, D2. reflexivity.
  - eapply panics_contained; eauto. eapply inv_users; eauto.
Qed.

(** A connection on which one handler waits for a reply that never comes and one is about to panic. *)
Definition cf74 : config := mk_config [(str "ask", fun ctx e => PAwait (mk_request ctx None (str "q") (Ok [])) (fun _ => PRet (inl []))); (str "boom", fun _ _ => PPanic)] [] (fun _ => []) (mk_env true 1000).
Definition at74 : action := AStep (mk_instant 1 0) 0.
Definition ev74 (rid : N) (name : bytes) : event := event_new rid None name [] None Initiator.
Definition run74 : list label := [LRecv 0 (ev74 7 (str "ask")); LTask 0 at74; LTask 0 at74; LTask 0 at74; LRecv 0 (ev74 8 (str "boom"))].
Example C74_case : exists s tr, runs cf74 1 true [] 0 run74 s tr /\ step cf74 s (LTask 0 at74) = None /\
  (exists e, step cf74 s (LRecv 0 e) <> None) /\ Forall (for_handlers tr) [ev74 9 (str "ask"); ev74 10 (str "boom"); ev74 11 (str "ask")] /\
  exists s' os, step cf74 s (LTask 1 at74) = Some (s', os) /\ In (OPanicked 1) os /\ step cf74 s' (LTask 0 ATimeout) <> None.
Proof.
  eexists. eexists. split; [vm_compute; reflexivity|]. split; [vm_compute; reflexivity|].
  split; [exists (ev74 9 (str "ask")); vm_compute; discriminate|].
  split; [repeat constructor; discriminate|].
  eexists. eexists. split; [vm_compute; reflexivity|]. split; [left; reflexivity | vm_compute; discriminate].
Qed.

Print Assumptions C74_any_number_of_handlers.
Print Assumptions C74_tasks_never_block_loops.
Print Assumptions C74_panics_are_contained.
