(** Properties of endpoints, third part: lost connections (C58), what timeouts cover (C59), pools of connections (C60), ids of
    the events sent (C61). *)
From Coq Require Import Strings.String.
From Verif Require Import Base BaseFacts Codec Spec Ids Payload Builder Emit Ipc SpecIpc SpecMore IpcFacts IpcChanFacts IpcUsers IpcLoops IpcIds IpcTasks IpcReplies IpcStreams IpcClaims IpcMore IpcFlow IpcLimits IpcRemoved IpcLost PropsDispatch PropsReplies.

(** ** C58 *)
(** a request whose connections are all gone and for which nothing had arrived: nothing but its timer (or its owner) ends it *)
Theorem C58_loss_is_not_reported : forall cf nc armed ps ctr ls s tr i c x k, runs cf nc armed ps ctr ls s tr -> good_clock ls -> few_events s -> never_handled x tr ->
  all_down nc tr -> awaiting s i c x k -> queued c tr = [] ->
  stuck cf s i
  /\ (exists s', step cf s (LTask i ATimeout) = Some (s', [OGone c; OReply i x (Some (Err Timeout))]))
  /\ forall ls2 s' os j r, run cf s ls2 = Some (s', os) -> good_clock (ls ++ ls2) -> few_events s' -> never_handled x (tr ++ os) -> In (OReply j x r) os ->
       j = i /\ (r = None \/ r = Some (Err Timeout)).
Proof.
  intros cf nc armed ps ctr ls s tr i c x k H GC FE NH AD T Q. split; [eapply waits_on; eauto|]. split.
  - unfold awaiting in T. cbn [step]. unfold task_step. destruct (nth_error (e_tasks s) i) as [tk|]; [|discriminate]. cbn in T. injection T as ->. eexists. reflexivity.
  - intros ls2 s' os j r R GC2 FE2 NH2 Hin. pose proof (inv_ask _ _ _ _ _ _ _ _ H _ _ T) as AK. cbn in AK. destruct AK as ((L & ctx & q & AS & Aq) & _). rewrite <- Aq in *.
    eapply (lost_pending cf nc armed ps ctr); eauto.
Qed.
Print Assumptions C58_loss_is_not_reported.
(** whatever requests end with after the loss, made before or after it: a reply that was already queued, the timeout, or the error of their own send *)
Theorem C58_outcomes_after_loss : forall cf nc armed ps ctr ls s tr ls2 s' os i x r, runs cf nc armed ps ctr ls s tr -> all_down nc tr -> run cf s ls2 = Some (s', os) ->
  good_clock (ls ++ ls2) -> few_events s' -> never_handled x (tr ++ os) -> In (OReply i x r) os ->
  (exists n c e, In (OQueued n c e) tr /\ ev_ref e = Some x /\ r = Some (reply_result (cf_env cf) e))
  \/ r = None \/ r = Some (Err Timeout) \/ (exists io ctx q, r = Some (Err (IoError io)) /\ In (OCut i ctx q) (tr ++ os) /\ ev_id q = x).
Proof. exact lost_results. Qed.
Print Assumptions C58_outcomes_after_loss.
(** a stream yields what had been queued for it and then at most a timeout: the loss does not end it *)
Theorem C58_streams_do_not_end : forall cf nc armed ps ctr ls s tr ls2 s' os j h x c, runs cf nc armed ps ctr ls s tr -> all_down nc tr -> run cf s ls2 = Some (s', os) ->
  good_clock (ls ++ ls2) -> few_events s' -> never_handled x (tr ++ os) -> In (OOpened j h x c) (tr ++ os) -> no_end (queued c tr) ->
  exists l more, queued c tr = l ++ more /\ (items h (tr ++ os) = yields l \/ items h (tr ++ os) = yields l ++ [Some (Err Timeout)]).
Proof. exact lost_stream. Qed.
Print Assumptions C58_streams_do_not_end.
(** nothing is read from a lost connection any more, no handler is started for it *)
Theorem C58_lost_is_quiet : forall cf nc armed ps ctr ls s tr ls2 s' os n, runs cf nc armed ps ctr ls s tr -> In (OClosed n) tr \/ In (OAborted n) tr -> run cf s ls2 = Some (s', os) ->
  (forall e, ~ In (OReceived n e) os) /\ (forall c e, ~ In (OQueued n c e) os) /\ (forall i ctx sc e, ~ In (OCalled n i ctx sc e) os).
Proof. intros cf nc armed ps ctr ls s tr ls2 s' os n H D R. exact (down_quiet _ _ _ _ _ ls2 _ _ _ _ _ n H D R). Qed.
Print Assumptions C58_lost_is_quiet.
(** The receive loop is the only reader of a connection's read half; after a read failed it does not read again: neither an event nor a
    second failure is ever got from that connection, whatever happens later. *)
Theorem C29_loop_never_reads_again : forall cf nc armed ps ctr ls s tr ls2 s' os n, runs cf nc armed ps ctr ls s tr -> In (OClosed n) tr -> run cf s ls2 = Some (s', os) ->
  (forall e, ~ In (LRecv n e) ls2) /\ ~ In (LClosed n) ls2 /\ (forall e, step cf s' (LRecv n e) = None) /\ step cf s' (LClosed n) = None.
Proof.
  intros cf nc armed ps ctr ls s tr ls2 s' os n H D R. assert (L : lp s n = Some LDone) by (eapply down_done; eauto). clear H D ls tr.
  revert s s' os L R. induction ls2 as [|l ls2 IH]; intros s s' os L R; cbn [run] in R.
  - injection R as <- <-. unfold lp in L. cbn [step]. destruct (nth_error (e_conns s) n) as [c|]; [|discriminate]. cbn in L. injection L as L. rewrite L. cbn. tauto.
  - destruct (step cf s l) as [[s1 o1]|] eqn:E1; [|discriminate]. destruct (run cf s1 ls2) as [[s2 o2]|] eqn:E2; [|discriminate]. injection R as <- <-.
    destruct (done_stays _ _ _ _ _ n E1 L) as (L1 & _). destruct (IH _ _ _ L1 E2) as (A & B & C & D).
    assert (N : forall e, l <> LRecv n e /\ l <> LClosed n).
    { intros e. unfold lp in L. destruct (nth_error (e_conns s) n) as [c|] eqn:Ec; [|discriminate]. cbn in L. injection L as L.
      split; intros ->; cbn [step] in E1; rewrite Ec, L in E1; discriminate. }
    split; [intros e [Q|Q]; [exact (proj1 (N e) Q)|exact (A e Q)]|]. split; [|tauto].
    intros [Q|Q]; [exact (proj2 (N (event_initiator 0 None [] [])) Q)|exact (B Q)].
Qed.
Print Assumptions C29_loop_never_reads_again.
Definition loss58 : list label := [LTask 0 go; LTask 0 go; LTask 0 go; LClosed 0].
Example C58_case : exists s tr k s' os, runs ex_cf 1 true [asker] 0 loss58 s tr /\ good_clock loss58 /\ few_events s /\ never_handled x0 tr /\ all_down 1 tr /\ awaiting s 0 0 x0 k /\ queued 0 tr = []
  /\ run ex_cf s [LTask 0 ATimeout] = Some (s', os) /\ In (OReply 0 x0 (Some (Err Timeout))) os.
Proof.
  eexists _, [OListen 0 x0 0; OSent 0 ctx0 sent0; OClosed 0], _, _, _. split; [vm_compute; reflexivity|]. split; [clock|]. split; [vm_compute; discriminate|]. split; [unhandled|].
  split; [intros n L; assert (n = 0%nat) as -> by lia; left; cbn; tauto|]. split; [reflexivity|]. split; [reflexivity|]. split; [reflexivity|]. cbn. tauto.
Qed.
(** the reply was queued before the connection was lost: it is still delivered; on a stream the item, then the timeout *)
Definition loss58b : list label := [LTask 0 go; LTask 0 go; LTask 0 go; LRecv 0 (reply 80 x0 Response [x05]); LPlace 0; LClosed 0].
Example C58_queued_case : exists s tr s' os, runs ex_cf 1 true [asker] 0 loss58b s tr /\ all_down 1 tr /\ run ex_cf s [LTask 0 go; LTask 0 go] = Some (s', os)
  /\ In (OReply 0 x0 (Some (Ok (reply 80 x0 Response [x05])))) os.
Proof.
  eexists _, [OListen 0 x0 0; OSent 0 ctx0 sent0; OReceived 0 (reply 80 x0 Response [x05]); OQueued 0 0 (reply 80 x0 Response [x05]); OClosed 0], _, _. split; [vm_compute; reflexivity|].
  split; [intros n L; assert (n = 0%nat) as -> by lia; left; cbn; tauto|]. split; [vm_compute; reflexivity|]. cbn. tauto.
Qed.
Example C58_stream_case : exists s tr s' os, runs ex_cf 1 true [streamer 2] 0 loss58b s tr /\ all_down 1 tr /\ run ex_cf s [LTask 0 go; LTask 0 go; LTask 0 go; LTask 0 ATimeout] = Some (s', os)
  /\ items 0 (tr ++ os) = [Some (Ok (reply 80 x0 Response [x05])); Some (Err Timeout)].
Proof.
  eexists _, [OListen 0 x0 0; OSent 0 ctx0 sent0; OOpened 0 0 x0 0; OReceived 0 (reply 80 x0 Response [x05]); OQueued 0 0 (reply 80 x0 Response [x05]); OClosed 0], _, _. split; [vm_compute; reflexivity|].
  split; [intros n L; assert (n = 0%nat) as -> by lia; left; cbn; tauto|]. split; [vm_compute; reflexivity|]. reflexivity.
Qed.

(** ** C59 *)
(** when await_reply answers, its request has been sent completely, unless it answers with the send's own error (or was dropped while sending) *)
Theorem C59_outcome_after_sending : forall cf nc armed ps ctr ls s a i x r b, runs cf nc armed ps ctr ls s (a ++ OReply i x r :: b) ->
  exists ctx q, ev_id q = x /\ (In (OSent i ctx q) a \/ (In (OCut i ctx q) a /\ (r = None \/ exists io, r = Some (Err (IoError io))))).
Proof. exact outcome_after_sending. Qed.
Print Assumptions C59_outcome_after_sending.
(** so a Timeout is answered only after the whole request was written: the timer does not run while sending *)
Theorem C59_timeout_only_after_sending : forall cf nc armed ps ctr ls s a i x b, runs cf nc armed ps ctr ls s (a ++ OReply i x (Some (Err Timeout)) :: b) ->
  exists ctx q, In (OSent i ctx q) a /\ ev_id q = x.
Proof.
  intros cf nc armed ps ctr ls s a i x b H. destruct (outcome_after_sending _ _ _ _ _ _ _ _ _ _ _ _ H) as (ctx & q & E & [S|(_ & [Q|(io & Q)])]); [eauto|discriminate..].
Qed.
Print Assumptions C59_timeout_only_after_sending.
Theorem C59_item_after_sending : forall cf nc armed ps ctr ls s a j h r b, runs cf nc armed ps ctr ls s (a ++ OItem j h (Some r) :: b) ->
  exists i x c ctx q, In (OOpened i h x c) a /\ In (OSent i ctx q) a /\ ev_id q = x.
Proof. exact item_after_sending. Qed.
Print Assumptions C59_item_after_sending.
(** a reply never looks like a timeout: Timeout means that nothing was taken from the queue *)
Theorem C59_replies_are_not_timeouts : forall E e, reply_result E e <> Err Timeout.
Proof. intros E e Q. destruct (reply_result_errors _ _ _ Q) as [(d & X)|[X|(k & X)]]; discriminate. Qed.
Print Assumptions C59_replies_are_not_timeouts.
Definition slow59 : list label := [LTask 0 go; LTask 0 go].
Example C59_case : exists s tr, runs ex_cf 1 true [asker] 0 slow59 s tr /\ (exists e pu, option_map tk_st (nth_error (e_tasks s) 0) = Some (TSend ctx0 e pu))
  /\ exists s' a, runs ex_cf 1 true [asker] 0 (slow59 ++ [LTask 0 go; LTask 0 ATimeout]) s' (a ++ [OReply 0 x0 (Some (Err Timeout))]).
Proof. eexists _, _. split; [vm_compute; reflexivity|]. split; [eexists _, _; reflexivity|]. eexists _, [_; _; _]. vm_compute. reflexivity. Qed.
Example C59_stream_case : exists s a, runs ex_cf 1 true [streamer 2] 0 [LTask 0 go; LTask 0 go; LTask 0 go; LTask 0 go; LTask 0 ATimeout] s (a ++ [OItem 0 0 (Some (Some (Err Timeout)))]).
Proof. eexists _, [_; _; _; _]. vm_compute. reflexivity. Qed.

(** ** C60 *)
(** the reply to a request may come over any connection of the pool *)
Theorem C60_reply_over_any_connection : forall cf nc armed ps ctr ls s tr i c x k n cn e t v, runs cf nc armed ps ctr ls s tr -> good_clock ls -> few_events s -> never_handled x tr ->
  awaiting s i c x k -> queued c tr = [] -> nth_error (e_conns s) n = Some cn -> cn_loop cn = LRun -> ev_ref e = Some x -> (forall cr, reply_result (cf_env cf) e <> Crash cr) ->
  exists s' os, run cf s [LRecv n e; LPlace n; LTask i (AStep t v); LTask i (AStep t v)] = Some (s', os) /\ In (OReply i x (Some (reply_result (cf_env cf) e))) os
    /\ option_map tk_st (nth_error (e_tasks s') i) = Some (TRun (k (Some (reply_result (cf_env cf) e)))).
Proof. intros cf nc armed ps ctr ls s tr i c x k n cn e t v H GC FE NH T Q En EL. eapply any_connection; eauto. unfold lp. rewrite En. cbn. congruence. Qed.
Print Assumptions C60_reply_over_any_connection.
(** stop() stops the connection it is called on and no other *)
Theorem C60_stop_is_per_connection : forall cf nc armed ps ctr ls s tr n, runs cf nc armed ps ctr ls s tr -> In (OAborted n) tr -> armed = true /\ exists i, In (OStop i n true) tr.
Proof. exact abort_own. Qed.
Print Assumptions C60_stop_is_per_connection.
(** a connection that was not itself closed or stopped is still read, or has a reply in hand that it waits to place, whatever happened to the others *)
Theorem C60_others_go_on : forall cf nc armed ps ctr ls s tr n, runs cf nc armed ps ctr ls s tr -> (n < nc)%nat -> ~ In (OClosed n) tr -> ~ In (OAborted n) tr ->
  (forall e, exists s' os, step cf s (LRecv n e) = Some (s', OReceived n e :: os)) \/ exists e a b, tr = a ++ OReceived n e :: b /\ next_about n b = None.
Proof. exact still_reading. Qed.
Print Assumptions C60_others_go_on.
(** sent over connection 0, which is then stopped; connection 1 brings the reply *)
Definition pool60 : list label := [LTask 0 go; LTask 0 go; LTask 0 go; LTask 1 go; LAbort 0].
Example C60_case : exists s tr k, runs ex_cf 2 true [asker; PStop 0 (fun _ => PRet (inl []))] 0 pool60 s tr /\ good_clock pool60 /\ few_events s /\ never_handled x0 tr /\ awaiting s 0 0 x0 k /\ queued 0 tr = []
  /\ In (OAborted 0) tr /\ ~ In (OClosed 1) tr /\ ~ In (OAborted 1) tr /\ (exists cn, nth_error (e_conns s) 1 = Some cn /\ cn_loop cn = LRun)
  /\ exists s' os, run ex_cf s [LRecv 1 (reply 80 x0 Response [x05]); LPlace 1; LTask 0 go; LTask 0 go] = Some (s', os) /\ In (OReply 0 x0 (Some (Ok (reply 80 x0 Response [x05])))) os.
Proof.
  eexists _, [OListen 0 x0 0; OSent 0 ctx0 sent0; OStop 1 0 true; OAborted 0], _. split; [vm_compute; reflexivity|]. split; [clock|]. split; [vm_compute; discriminate|]. split; [unhandled|].
  split; [reflexivity|]. split; [reflexivity|]. split; [cbn; tauto|]. split; [cbn; intuition discriminate|]. split; [cbn; intuition discriminate|]. split; [eexists; split; reflexivity|].
  eexists _, _. split; [vm_compute; reflexivity|]. cbn. tauto.
Qed.

(** ** C61 *)
(** no two sends of an endpoint, by whichever task and over whichever connection, completed or not, carry the same event id *)
Theorem C61_sent_ids_distinct : forall cf nc armed ps ctr ls s tr p q o o' x, runs cf nc armed ps ctr ls s tr -> good_clock ls -> few_events s ->
  nth_error tr p = Some o -> nth_error tr q = Some o' -> started o = Some x -> started o' = Some x -> p = q.
Proof. intros cf nc armed ps ctr ls s tr p q o o' x H GC FE. apply distinct_positions. exact (j_nodup _ _ (inv_idents _ _ _ _ _ _ _ _ H GC FE)). Qed.
Print Assumptions C61_sent_ids_distinct.
(** every event sent is sent once *)
Theorem C61_no_event_sent_twice : forall cf nc armed ps ctr ls s a b c i j ctx ctx' e, runs cf nc armed ps ctr ls s (a ++ OSent i ctx e :: b ++ OSent j ctx' e :: c) -> good_clock ls -> few_events s -> False.
Proof.
  intros cf nc armed ps ctr ls s a b c i j ctx ctx' e H GC FE.
  assert (length a = length a + S (length b))%nat; [|lia]. eapply (C61_sent_ids_distinct _ _ _ _ _ _ _ _ _ _ _ _ _ H GC FE).
  - rewrite nth_error_app2 by lia. rewrite Nat.sub_diag. reflexivity.
  - rewrite nth_error_app2 by lia. replace (length a + S (length b) - length a)%nat with (S (length b)) by lia. cbn [nth_error]. rewrite nth_error_app2 by lia. rewrite Nat.sub_diag. reflexivity.
  - reflexivity.
  - reflexivity.
Qed.
Print Assumptions C61_no_event_sent_twice.
Example C61_case : exists s tr, runs ex_cf 1 true [asker; asker] 0 [LTask 0 go; LTask 1 go; LTask 1 go; LTask 1 go; LTask 0 go; LTask 0 go] s tr
  /\ good_clock [LTask 0 go; LTask 1 go; LTask 1 go; LTask 1 go; LTask 0 go; LTask 0 go] /\ few_events s /\ map started tr = [None; Some (nth_id at1 1); None; Some x0] /\ nth_id at1 1 <> x0.
Proof. eexists _, _. split; [vm_compute; reflexivity|]. split; [clock|]. split; [vm_compute; discriminate|]. split; [reflexivity|]. vm_compute. discriminate. Qed.
