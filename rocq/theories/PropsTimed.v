(** Properties of the timers of requests and reply streams: C63. Times are counted in timer ticks. *)
From Coq Require Import Strings.String.
From Verif Require Import Base BaseFacts Reader Codec Spec Ids Payload Emit SpecEmit EmitFacts EmitPollFacts Timed SpecTimed TimedFacts PropsEmit.
From Coq Require Import ZifyBool ZifyNat ZifyN.

(** Any sequence of polls of a request: first it is being sent and answers nothing, however long that takes. Then it has
    failed with an I/O error, or the timer starts in the poll [p] in which the request is sent, and nothing more is written. *)
Theorem C63_request : forall E i o d default ds tr y, o_payload o = Ok d -> lock_kept i None tr ->
  polls_timed E i (request_of o default ds) tr y -> tr <> [] ->
  exists e enc pre post, event_of o e /\ into_bytes e = Ok enc /\ tr = pre ++ post
    /\ Forall (fun p => tp_res p = Waiting) pre /\ ~ is_sent i enc pre
    /\ (post = []
        \/ (exists p post' k, post = p :: post' /\ tp_res p = Ready (Err (IoError k)) /\ Forall (fun q => tp_res q = Ready (Crash PanicResumed)) post')
        \/ (exists p post', post = p :: post' /\ is_sent i enc (pre ++ [p]) /\ wrote_all (steps_of post') []
            /\ waiting_answers E (tp_now p + timeout_of default ds) post)).
Proof.
  intros E i o d default ds tr y Ho LK H N. destruct (request_story _ _ _ _ _ _ _ _ Ho LK H) as [ -> |(e & enc & He & Hb & pre & post & -> & F & NS & C)]; [contradiction|].
  exists e, enc, pre, post. split; [exact He|]. split; [exact Hb|]. split; [reflexivity|]. split; [exact F|]. split.
  - intros (W & tr' & p & Q1 & Q2). apply Q2. eapply NS; [exact Q1|exact W|reflexivity].
  - destruct C as [C|[C|(p & post' & b2 & -> & C1 & C2 & C3 & C4 & C5)]]; [left; exact C|right; left; exact C|]. right. right. exists p, post'. cbn in C2. subst b2.
    split; [reflexivity|]. split; [|split; assumption]. split; [exact C1|]. exists pre, p. split; [reflexivity|exact C3].
Qed.
Print Assumptions C63_request.

(** A request never times out early: at most at the given time after it was sent completely. *)
Theorem C63_no_early_timeout : forall E i o d default ds tr y k p, o_payload o = Ok d -> lock_kept i None tr ->
  polls_timed E i (request_of o default ds) tr y -> nth_error tr k = Some p -> tp_res p = Ready (Err Timeout) ->
  exists e enc j q, event_of o e /\ into_bytes e = Ok enc /\ (j <= k)%nat /\ nth_error tr j = Some q /\ is_sent i enc (firstn (S j) tr)
    /\ tp_now q + timeout_of default ds <= tp_now p.
Proof.
  intros E i o d default ds tr y k p Ho LK H Hk Hr.
  assert (N : tr <> []) by (intros ->; destruct k; discriminate).
  destruct (C63_request _ _ _ _ _ _ _ _ Ho LK H N) as (e & enc & pre & post & He & Hb & -> & F & NS & C).
  assert (L : (length pre <= k)%nat).
  { destruct (Nat.le_gt_cases (length pre) k) as [L|L]; [exact L|]. rewrite nth_error_app1 in Hk by lia. apply nth_error_In in Hk. rewrite Forall_forall in F. rewrite (F _ Hk) in Hr. discriminate. }
  rewrite nth_error_app2 in Hk by lia.
  destruct C as [ -> |[(q & post' & kk & -> & R & P)|(q & post' & -> & Sn & _ & W)]].
  - destruct (k - length pre)%nat; discriminate.
  - destruct (k - length pre)%nat as [|n]; cbn in Hk; [inversion Hk; subst; congruence|]. apply nth_error_In in Hk. rewrite Forall_forall in P. rewrite (P _ Hk) in Hr. discriminate.
  - exists e, enc, (length pre), q. split; [exact He|]. split; [exact Hb|]. split; [exact L|]. split; [rewrite nth_error_app2, Nat.sub_diag by lia; reflexivity|].
    split; [replace (firstn (S (length pre)) (pre ++ q :: post')) with (pre ++ [q]) by (rewrite firstn_app, firstn_all2 by lia; replace (S (length pre) - length pre)%nat with 1%nat by lia; reflexivity); exact Sn|].
    clear - W Hk Hr. set (dl := tp_now q + timeout_of default ds) in *. clearbody dl. set (l := q :: post') in *. clearbody l. revert Hk. generalize (k - length pre)%nat as n. intros n. revert l W.
    induction n as [|n IH]; intros [|a l] W Hn; try discriminate; cbn in Hn; cbn in W; destruct W as [W1 W2].
    + inversion Hn; subst a. unfold waiting_answer in W1. rewrite Hr in W1. destruct (tp_chan p) as [|e0|].
      * destruct (dl <=? tp_now p) eqn:Q; [lia|discriminate].
      * destruct (dl <=? tp_now p) eqn:Q; [lia|]. cbn [andb] in W1. exfalso. unfold reply_result in W1. destruct (etype_eqb (ev_type e0) Error); [|discriminate].
        destruct (error_dec E (ev_data e0)) as [x|x|x] eqn:D; try discriminate. injection W1 as W1. subst x. revert D. unfold error_dec, sread_int, sread_exact, vec_alloc.
        repeat (cbn [bind]; match goal with |- context[match ?x with _ => _ end] => destruct x eqn:? end; try discriminate); cbn [bind]; discriminate.
      * destruct (dl <=? tp_now p) eqn:Q; [lia|discriminate].
    + destruct (tp_res a); [exact (IH _ W2 Hn)|]. apply nth_error_In in Hn. rewrite Forall_forall in W2. rewrite (W2 _ Hn) in Hr. discriminate.
Qed.
Print Assumptions C63_no_early_timeout.

(** with_timeout after the first poll changes nothing *)
Theorem C63_late_with_timeout : forall E i x tr x' d tr' y, tr <> [] -> polls_timed E i x tr x' ->
  polls_timed E i (with_timeout d x') tr' y -> exists y', polls_timed E i x' tr' y'.
Proof. intros E i x tr x' d tr' y N H H'. destruct tr as [|p tr]; [contradiction|]. eapply late_timeout; [eapply captured_after; exact H|exact H']. Qed.
Print Assumptions C63_late_with_timeout.

(** The stream of stream_replies has the timeout of its request. *)
Theorem C63_stream_timeout : forall i o default ds tr y w w' s, polls_opening i (stream_request_of o default ds) tr y ->
  In (w, w', Ready (Ok s)) tr -> new_stream s (timeout_of default ds).
Proof. exact opened. Qed.
Print Assumptions C63_stream_timeout.

(** Each item has its own timer. It starts at the first poll for the item (poll [j]), not before: time passing between two items
    while nobody polls does not count. It goes on at later polls for the same item (poll [k]), also if next() was dropped in between. *)
Theorem C63_item_results : forall s0 timeout tr s j k q p, new_stream s0 timeout -> polls_items s0 tr s ->
  (j <= k)%nat -> nth_error tr j = Some q -> nth_error tr k = Some p -> item_starts tr j -> waited tr j k ->
  item_answer (tp_now q + timeout) p.
Proof. intros s0 timeout tr s j k q p. apply item_results. Qed.
Print Assumptions C63_item_results.

Theorem C63_item_timeout_not_early : forall s0 timeout tr s k p, new_stream s0 timeout -> polls_items s0 tr s ->
  nth_error tr k = Some p -> tp_res p = Ready (Ok (Some (Err Timeout))) ->
  exists j q, (j <= k)%nat /\ nth_error tr j = Some q /\ item_starts tr j /\ waited tr j k /\ tp_now q + timeout <= tp_now p.
Proof. intros s0 timeout tr s k p. apply item_timeout. Qed.
Print Assumptions C63_item_timeout_not_early.

(** with_timeout(50): 10 bytes at time 100, the rest at 130, nothing at 179, timed out at 180 *)
Example C63_case : exists w1 w2 y, let tr :=
    [mk_tp 100 CEmpty false quiet_world w1 Waiting; mk_tp 130 CEmpty false w1 w2 Waiting; mk_tp 179 CEmpty false w2 w2 Waiting; mk_tp 180 CEmpty false w2 w2 (Ready (Err Timeout))] in
  polls_timed (mk_env true 1000000) 0 (request_of order_a 60000 [9; 50]) tr y /\ lock_kept 0 None tr /\ o_payload order_a = Ok (repeat xaa 20) /\ timeout_of 60000 [9; 50] = 50.
Proof.
  eexists _, _, _. cbv zeta. split; [|vm_compute; repeat split; auto; discriminate].
  eapply pt_cons with (t := PropsEmit.now) (l := [Accept 10; NotReady]); [vm_compute; reflexivity|].
  eapply pt_cons with (t := PropsEmit.now) (l := [Accept 1000; Accept 1]); [vm_compute; reflexivity|].
  eapply pt_cons with (t := PropsEmit.now) (l := []); [vm_compute; reflexivity|].
  eapply pt_cons with (t := PropsEmit.now) (l := []); [vm_compute; reflexivity|]. apply pt_nil.
Qed.
(** timeout 50: an item at 100, then nobody polls until 1000, nothing at 1049, timed out at 1050 *)
Example C63_stream_case : exists s, let s0 := mk_ts 50 None (mk_stream 8 0 true None) in let w := quiet_world in let tr :=
    [mk_tp 90 CEmpty true w w Waiting; mk_tp 100 (CEvent some_reply) true w w (Ready (Ok (Some (Ok some_reply)))); mk_tp 1000 CEmpty true w w Waiting;
     mk_tp 1049 CEmpty true w w Waiting; mk_tp 1050 CEmpty true w w (Ready (Ok (Some (Err Timeout))))] in
  polls_items s0 tr s /\ new_stream s0 50 /\ item_starts tr 2 /\ waited tr 2 4.
Proof.
  eexists. cbv zeta. split; [|split; [|split]].
  - do 5 (eapply pi_cons; [vm_compute; reflexivity|]). apply pi_nil.
  - eexists _, _. reflexivity.
  - right. exists 1%nat. eexists. split; [reflexivity|]. split; [reflexivity|]. exists some_reply. split; [reflexivity|discriminate].
  - intros m p Hm Hp. destruct m as [|[|[|[|m]]]]; [lia|lia|inversion Hp; reflexivity|inversion Hp; reflexivity|lia].
Qed.
