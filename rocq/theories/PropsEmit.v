(** Properties of emitting and of reply streams at the level of single polls: C47, C48, and parts of C42, C43. *)
From Coq Require Import Strings.String.
From Verif Require Import Base Codec Spec Ids Emit SpecEmit EmitFacts EmitPollFacts.

Definition quiet_world : world := mk_world 5 [] 0 [x07] None.
Definition order_a : order := mk_order (mk_context 0 None) None (str "alpha") (Ok (repeat xaa 20)) None Initiator.
Definition order_b : order := mk_order (mk_context 0 (Some 9)) (Some (str "ns")) (str "b") (Ok [x01; x02]) (Some 9) Response.
Definition now : instant := mk_instant 1000 7.

(** ** C47: [os] emit calls on one connection, run in any order, poll by poll, with any answers of the connection. *)
Theorem C47_emits_do_not_interleave : forall os w ls s rs, w_lock w = None ->
  clean (all_fresh w os) ls -> emit_run (all_fresh w os) ls = Some (s, rs) -> exists ord part, layout os w s rs ord part.
Proof. exact run_layout. Qed.
Print Assumptions C47_emits_do_not_interleave.

(** whatever is complete at some time keeps its place: emits that finish before another one is first polled come first *)
Theorem C47_order_of_completion : forall os w ls1 ls2 s1 rs1 s2 rs2, w_lock w = None ->
  emit_run (all_fresh w os) ls1 = Some (s1, rs1) -> clean (all_fresh w os) ls1 ->
  emit_run s1 ls2 = Some (s2, rs2) -> clean s1 ls2 ->
  exists ord1 part1 ord2 part2, layout os w s1 rs1 ord1 part1 /\ layout os w s2 (rs1 ++ rs2) (ord1 ++ ord2) part2.
Proof. exact run_layout_ordered. Qed.
Print Assumptions C47_order_of_completion.

(** without any assumption on the run (write errors, dropped futures): one contiguous piece per emit *)
Theorem C47_contiguous_pieces : forall os w ls s rs, w_lock w = None ->
  emit_run (all_fresh w os) ls = Some (s, rs) -> exists ps, pieces os w s rs ps.
Proof. exact run_pieces. Qed.
Print Assumptions C47_contiguous_pieces.

(** an event cut in its data swallows as many of the following bytes as are missing *)
Theorem C47_cut_event_swallows_what_follows : forall E e cut lost m1 m2, rust_event e -> enough_mem E e -> fits e -> normal e ->
  into_bytes e = Ok (cut ++ lost) -> 10 + header_size (ev_header e) <= blen cut -> blen m1 = blen lost ->
  exists d, ev_data e = d ++ lost /\ decode E (cut ++ m1 ++ m2) = Ok (mk_event (ev_header e) (d ++ m1), m2).
Proof. exact cut_swallows. Qed.
Print Assumptions C47_cut_event_swallows_what_follows.

(** two emits interleaved as far as possible: the second one waits for the mutex *)
Example C47_case : exists ls s rs, emit_run (all_fresh quiet_world [order_a; order_b]) ls = Some (s, rs)
  /\ clean (all_fresh quiet_world [order_a; order_b]) ls
  /\ rs = [(0%nat, Waiting); (1%nat, Waiting); (0%nat, Waiting); (1%nat, Waiting); (0%nat, Ready (Ok (nth_id now 5))); (1%nat, Ready (Ok (nth_id now 6)))]
  /\ fst (read_events (mk_env true 1000000) 5 (skipn 1 (w_out (y_world s))))
     = [event_new (nth_id now 5) None (str "alpha") (repeat xaa 20) None Initiator;
        event_new (nth_id now 6) (Some (str "ns")) (str "b") [x01; x02] (Some 9) Response].
Proof.
  exists [YPoll 0 now [Accept 30; NotReady]; YPoll 1 now [Accept 100; Accept 1]; YPoll 0 now [Accept 5; Accept 1; NotReady]; YPoll 1 now [];
          YPoll 0 now [Accept 100; Accept 1]; YPoll 1 now [Accept 100; Accept 1]].
  eexists _, _. split; [vm_compute; reflexivity|]. split; [|split; vm_compute; reflexivity].
  repeat split; try (repeat constructor; fail).
Qed.

(** the first emit is cancelled after 35 of its 53 bytes: the peer reads no event at all of what was sent completely *)
Theorem C47_cancelled_emit_refuted : exists os ls s rs e b,
  emit_run (all_fresh (mk_world 5 [] 0 [] None) os) ls = Some (s, rs) /\ In (YDrop 0) ls
  /\ In (1%nat, Ready (Ok (ev_id e))) rs /\ into_bytes e = Ok b /\ rust_event e
  /\ (exists cut, w_out (y_world s) = cut ++ b)
  /\ ~ In e (fst (read_events (mk_env true 1000000) 5 (w_out (y_world s)))).
Proof.
  exists [order_a; order_b], [YPoll 0 now [Accept 35]; YDrop 0; YPoll 1 now [Accept 1000; Accept 1]].
  eexists _, _, (event_new (nth_id now 6) (Some (str "ns")) (str "b") [x01; x02] (Some 9) Response), _.
  split; [vm_compute; reflexivity|]. split; [right; left; reflexivity|]. split; [right; left; vm_compute; reflexivity|].
  split; [vm_compute; reflexivity|]. split.
  { split; [split; [|split; [|split]]|].
    - vm_compute. reflexivity.
    - intros r H. vm_compute in H. inversion H. reflexivity.
    - intros x H. vm_compute in H. inversion H. apply Utf8Facts.utf8_valid_iff. reflexivity.
    - apply Utf8Facts.utf8_valid_iff. reflexivity.
    - vm_compute. discriminate. }
  split.
  { exists (match into_bytes (event_new (nth_id now 5) None (str "alpha") (repeat xaa 20) None Initiator) with Ok l => firstn 35 l | _ => [] end).
    vm_compute. reflexivity. }
  vm_compute. intros [H|H]; [discriminate H|exact H].
Qed.
Print Assumptions C47_cancelled_emit_refuted.

(** ** C48 *)
(** the futures made by emit and emit_to, and by the framework's own answers (End and Error events; [ty]); making them leaves counter,
    listeners and connection as they are *)
Theorem C48_emit_is_lazy : forall w ctx ns ons name ty p,
  (exists o, ctx_emit w ctx name p = (w, future_of o) /\ o_ns o = None /\ o_name o = name /\ o_payload o = p
     /\ o_ref o = c_ref ctx /\ o_type o = (match c_ref ctx with Some _ => Response | None => Initiator end))
  /\ (exists o, ctx_emit_to w ctx ns name p = (w, future_of o) /\ o_ns o = Some ns /\ o_name o = name /\ o_payload o = p
     /\ o_ref o = c_ref ctx /\ o_type o = (match c_ref ctx with Some _ => Response | None => Initiator end))
  /\ (exists o, ctx_emit_raw w ctx name ons ty p = (w, future_of o) /\ o_ns o = ons /\ o_name o = name /\ o_payload o = p /\ o_ref o = c_ref ctx /\ o_type o = ty).
Proof.
  intros w ctx ns ons name ty p. cut (forall A B C : Prop, A /\ B -> C -> A /\ B /\ C); [|tauto]. intros X. apply X.
  2: { exists (mk_order ctx ons name p (c_ref ctx) ty). split; [reflexivity|]. repeat split. }
  clear X. destruct ctx as [conn [r|]]; split.
  - exists (mk_order (mk_context conn (Some r)) None name p (Some r) Response). split; [reflexivity|]. repeat split.
  - exists (mk_order (mk_context conn (Some r)) (Some ns) name p (Some r) Response). split; [reflexivity|]. repeat split.
  - exists (mk_order (mk_context conn None) None name p None Initiator). split; [reflexivity|]. repeat split.
  - exists (mk_order (mk_context conn None) (Some ns) name p None Initiator). split; [reflexivity|]. repeat split.
Qed.
Print Assumptions C48_emit_is_lazy.

Theorem C48_failing_payload_emit : forall i o e tr em, o_payload o = Err e -> polls_emit i (future_of o) tr em ->
  Forall unchanged tr /\ (tr = [] \/ map snd tr = Ready (Err e) :: repeat (Ready (Err InvalidState)) (length tr - 1)).
Proof. exact failing_emit. Qed.
Print Assumptions C48_failing_payload_emit.
Theorem C48_failing_payload_await_reply : forall E i o e tr wm, o_payload o = Err e -> polls_await E i (await_reply (future_of o)) tr wm ->
  Forall unchanged tr /\ (tr = [] \/ map snd tr = Ready (Err e) :: repeat (Ready (Err InvalidState)) (length tr - 1)).
Proof. exact failing_await. Qed.
Print Assumptions C48_failing_payload_await_reply.
Theorem C48_failing_payload_stream_replies : forall i o e tr om, o_payload o = Err e -> polls_open i (stream_replies (future_of o)) tr om ->
  Forall unchanged tr /\ (tr = [] \/ map snd tr = Ready (Err e) :: repeat (Ready (Err InvalidState)) (length tr - 1)).
Proof. exact failing_open. Qed.
Print Assumptions C48_failing_payload_stream_replies.

Theorem C48_one_event_per_emit : forall i o d tr em, o_payload o = Ok d -> polls_emit i (future_of o) tr em -> tr <> [] ->
  exists e b more, event_of o e /\ into_bytes e = Ok (b ++ more) /\ wrote_all tr b /\ created tr = 1 /\ Forall same_listeners tr
    /\ (exists t w w' r tr', tr = (w, w', r) :: tr' /\ ev_id e = nth_id t (w_ctr w))
    /\ (forall w w' id, In (w, w', Ready (Ok id)) tr -> id = ev_id e /\ more = []).
Proof. exact emits_once. Qed.
Print Assumptions C48_one_event_per_emit.

Theorem C48_await_reply_listens_on_the_event_sent : forall E i o d w w' r tr wm, o_payload o = Ok d ->
  polls_await E i (await_reply (future_of o)) ((w, w', r) :: tr) wm ->
  exists e b more t, event_of o e /\ ev_id e = nth_id t (w_ctr w)
    /\ into_bytes e = Ok (b ++ more) /\ wrote_all ((w, w', r) :: tr) b /\ created ((w, w', r) :: tr) = 1
    /\ Forall (listens_only (ev_id e)) ((w, w', r) :: tr)
    /\ (r = Waiting -> lookup N.eqb (ev_id e) (w_lis w') = Some (w_chans w) /\ w_chans w' = S (w_chans w))
    /\ (forall u u' x, In (u, u', Ready (Ok x)) ((w, w', r) :: tr) -> lookup N.eqb (ev_id e) (w_lis u') = None /\ more = []).
Proof. exact awaits_once. Qed.
Print Assumptions C48_await_reply_listens_on_the_event_sent.

Theorem C48_stream_replies_listens_on_the_event_sent : forall i o d w w' r tr om, o_payload o = Ok d ->
  polls_open i (stream_replies (future_of o)) ((w, w', r) :: tr) om ->
  exists e b more t, event_of o e /\ ev_id e = nth_id t (w_ctr w)
    /\ into_bytes e = Ok (b ++ more) /\ wrote_all ((w, w', r) :: tr) b /\ created ((w, w', r) :: tr) = 1
    /\ lookup N.eqb (ev_id e) (w_lis w') = Some (w_chans w) /\ w_chans w' = S (w_chans w)
    /\ Forall (listens_only (ev_id e)) ((w, w', r) :: tr) /\ Forall same_listeners tr
    /\ (forall u u' x, In (u, u', Ready (Ok x)) ((w, w', r) :: tr) -> rs_id x = ev_id e /\ more = []).
Proof. exact opens_once. Qed.
Print Assumptions C48_stream_replies_listens_on_the_event_sent.

(** a request polled three times: 10 bytes accepted, the rest accepted, the reply arrives *)
Definition some_reply : event := event_new 77 None (str "r") [x05] (Some (nth_id now 5)) Response.
Example C48_case : exists w1 w2 w3 wm, polls_await (mk_env true 1000000) 0 (await_reply (future_of order_a))
  [(quiet_world, w1, Waiting); (w1, w2, Waiting); (w2, w3, Ready (Ok some_reply))] wm
  /\ w_lis w1 = [(nth_id now 5, 0%nat)] /\ blen (w_out w1) = 11 /\ w_lis w3 = [] /\ blen (w_out w3) = 53.
Proof.
  eexists _, _, _, _. split.
  - eapply pa_cons with (t := now) (l := [Accept 10; NotReady]) (a := NoReply); [vm_compute; reflexivity|].
    eapply pa_cons with (t := now) (l := [Accept 1000; Accept 1]) (a := NoReply); [vm_compute; reflexivity|].
    eapply pa_cons with (t := now) (l := []) (a := (Reply some_reply)); [vm_compute; reflexivity|]. apply pa_nil.
  - vm_compute. auto.
Qed.

(** ** C42, C43 seen from one stream: [a] is what channel and timer answer at each poll *)
Theorem C42_stream_polls : forall id ch tr s2, polls_next (mk_stream id ch true None) tr s2 ->
  map snd tr = stream_results (map (fun x => fst (fst (fst x))) tr)
  /\ forall a w w' r, In (a, w, w', r) tr ->
       w' = w \/ (unlistened id w w' /\ (r = Ready (Ok None) \/ exists e, r = Ready (Ok (Some (Ok e))) /\ ev_type e = End)).
Proof.
  intros id ch tr s2 H.
  assert (L : live (mk_stream id ch true None)) by (right; split; reflexivity).
  exact (conj (stream_trace tr _ s2 L H) (stream_worlds tr _ s2 id L eq_refl H)).
Qed.
Print Assumptions C42_stream_polls.

Theorem C43_stream_after_timeout : forall id ch w tr s1 s2, poll_next w (mk_stream id ch true None) TimerFired = (w, s1, Ready (Ok (Some (Err Timeout)))) ->
  polls_next s1 tr s2 -> map snd tr = repeat (Ready (Crash PanicResumed)) (length tr) /\ Forall (fun x => let '(a, w, w', r) := x in w' = w) tr.
Proof.
  intros id ch w tr s1 s2 H Ht. cbn in H. inversion H; subst. refine (stream_poisoned tr _ s2 _ Ht). reflexivity.
Qed.
Print Assumptions C43_stream_after_timeout.
Theorem C43_error_reply_is_an_item : forall id ch w e, ev_type e = Error ->
  poll_next w (mk_stream id ch true None) (Reply e) = (w, mk_stream id ch true None, Ready (Ok (Some (Ok e)))).
Proof. intros id ch w e H. cbn. rewrite H. reflexivity. Qed.
Print Assumptions C43_error_reply_is_an_item.

(** ** C41 seen from one future: when an answer is reported, the listener is gone *)
Theorem C41_error_reply_unregisters : forall E i o d w w' r tr wm, o_payload o = Ok d ->
  polls_await E i (await_reply (future_of o)) ((w, w', r) :: tr) wm ->
  exists t, forall u u' x, In (u, u', Ready (Err (ErrorEvent x))) ((w, w', r) :: tr) -> lookup N.eqb (nth_id t (w_ctr w)) (w_lis u') = None.
Proof. exact error_unlistens. Qed.
Print Assumptions C41_error_reply_unregisters.
(** a stream: with the End event, or else with the poll that first reports the end of the stream *)
Theorem C41_stream_end_unregisters : forall id ch tr s2, polls_next (mk_stream id ch true None) tr s2 ->
  (forall a w w' e, In (a, w, w', Ready (Ok (Some (Ok e)))) tr -> ev_type e = End -> unlistened id w w')
  /\ (forall a w w', In (a, w, w', Ready (Ok None)) tr -> (forall a w w' e, In (a, w, w', Ready (Ok (Some (Ok e)))) tr -> ev_type e <> End) ->
        exists a w w', In (a, w, w', Ready (Ok None)) tr /\ unlistened id w w').
Proof. intros id ch tr s2 H. apply (stream_unlistens tr (mk_stream id ch true None) s2 id); [right; split; reflexivity | reflexivity | exact H]. Qed.
Print Assumptions C41_stream_end_unregisters.
Definition end_reply : event := event_new 78 None (str "end") [] (Some (nth_id now 5)) End.
Example C41_stream_case : exists w', polls_next (mk_stream (nth_id now 5) 0 true None) [(Reply some_reply, quiet_world, quiet_world, Ready (Ok (Some (Ok some_reply)))); (Reply end_reply, quiet_world, w', Ready (Ok (Some (Ok end_reply))))] (mk_stream (nth_id now 5) 0 false None).
Proof. eexists. eapply pn_cons; [vm_compute; reflexivity|]. eapply pn_cons; [vm_compute; reflexivity|]. apply pn_nil. Qed.
