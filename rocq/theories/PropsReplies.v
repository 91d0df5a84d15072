(** Properties of endpoints, second part: requests, their replies and reply streams: C38-C45; stopping: C51.
    All are read off the traces of observations; [runs cf nc armed ps ctr ls s tr] ranges over every configuration, number of
    connections, user program, schedule and everything the peers can send. *)
From Coq Require Import Strings.String.
From Verif Require Import Base BaseFacts Codec Spec Ids Payload Builder Emit Ipc SpecIpc IpcFacts IpcChanFacts IpcUsers IpcLoops IpcIds IpcTasks IpcReplies IpcStreams IpcClaims IpcMore IpcFlow IpcLimits IpcRemoved IpcSenders PropsDispatch.

(** ** For the examples *)
Definition ctx0 : context := mk_context 0 None.
Definition q0 : request := mk_request ctx0 None (str "q") (Ok []).
Definition x0 : N := nth_id at1 0.
Definition sent0 : event := event_new x0 None (str "q") [] None Initiator.
(** a task that asks and awaits one reply *)
Definition asker : prog := PAwait q0 (fun _ => PRet (inl [])).
(** a task that opens a stream and polls it [n] times *)
Fixpoint poll (n h : nat) : prog := match n with O => PRet (inl []) | S m => PNext h (fun _ => poll m h) end.
Definition streamer (n : nat) : prog := PStream q0 (fun r => match r with Some (Ok h) => poll n h | _ => PRet (inl []) end).
Definition err_reply (rid : N) : event := reply rid x0 Error (match error_enc (mk_err_data 500 (str "no")) with Ok b => b | _ => [] end).
Lemma at1_ok : rust_instant at1. Proof. split; reflexivity. Qed.
Ltac clock := let H := fresh in intros ? ? ? H; cbn [In app] in H; repeat (destruct H as [H|H]; [inversion H; subst; exact at1_ok || discriminate H|]); destruct H.
Ltac unhandled := let H := fresh in intros ? ? ? ? ? H; cbn [In app] in H; repeat (destruct H as [H|H]; [inversion H; subst; vm_compute; discriminate || discriminate H|]); destruct H.

(** ** C38 *)
Theorem C38_reply_belongs_to_request : forall cf nc armed ps ctr ls s tr i x e, runs cf nc armed ps ctr ls s tr -> In (OReply i x (Some (Ok e))) tr ->
  ev_ref e = Some x /\ ev_type e <> Error /\ received tr e /\ exists ctx q, In (OSent i ctx q) tr /\ ev_id q = x.
Proof.
  intros cf nc armed ps ctr ls s tr i x e H Hin. destruct (results _ _ _ _ _ _ _ _ H _ _ _ Hin) as (c & _ & _ & R). unfold reported in R.
  destruct (taken c tr) as [|y [|? ?]] eqn:T.
  - exfalso. destruct R as [R|[R|[R|(io & ctx & q & R & _)]]]; discriminate.
  - destruct R as (R & A & B). unfold reply_result in R. destruct (etype_eqb (ev_type y) Error) eqn:Ty.
    + exfalso. inversion R as [Q]. destruct (error_dec (cf_env cf) (ev_data y)); discriminate.
    + inversion R; subst y. split; [exact A|]. split; [intros Q; rewrite Q in Ty; discriminate|]. split; [|exact B]. eapply (taken_received _ _ _ _ _ _ _ _ c); [exact H|]. rewrite T. left. reflexivity.
  - destruct R.
Qed.
Print Assumptions C38_reply_belongs_to_request.
Theorem C38_error_reply : forall cf nc armed ps ctr ls s tr i x d, runs cf nc armed ps ctr ls s tr -> In (OReply i x (Some (Err (ErrorEvent d)))) tr ->
  exists e, received tr e /\ ev_ref e = Some x /\ ev_type e = Error /\ error_dec (cf_env cf) (ev_data e) = Ok d.
Proof.
  intros cf nc armed ps ctr ls s tr i x d H Hin. destruct (results _ _ _ _ _ _ _ _ H _ _ _ Hin) as (c & _ & _ & R). unfold reported in R.
  destruct (taken c tr) as [|y [|? ?]] eqn:T.
  - exfalso. destruct R as [R|[R|[R|(io & ctx & q & R & _)]]]; discriminate.
  - destruct R as (R & A & B). unfold reply_result in R. destruct (etype_eqb (ev_type y) Error) eqn:Ty; [|discriminate]. exists y. split; [|split; [exact A|split]].
    + eapply (taken_received _ _ _ _ _ _ _ _ c); [exact H|]. rewrite T. left. reflexivity.
    + destruct (ev_type y); (reflexivity || discriminate).
    + destruct (error_dec (cf_env cf) (ev_data y)) as [d'|e'|] eqn:D; inversion R; subst; try reflexivity. exfalso.
      destruct (error_dec_errors _ _ _ D) as [Q|[k Q]]; discriminate.
  - destruct R.
Qed.
Print Assumptions C38_error_reply.
(** the other way round: what the first event put into a request's queue turns into *)
Theorem C38_first_reply_decides : forall cf nc armed ps ctr ls s tr i x r, runs cf nc armed ps ctr ls s tr -> In (OReply i x (Some r)) tr ->
  exists c, In (OListen i x c) tr /\
  match taken c tr with
  | [] => r = Err Timeout \/ r = Err SendError \/ exists io ctx e, r = Err (IoError io) /\ In (OCut i ctx e) tr /\ ev_id e = x
  | e :: _ => hd_error (queued c tr) = Some e /\
      match ev_type e with
      | Error => match error_dec (cf_env cf) (ev_data e) with Ok d => r = Err (ErrorEvent d) | Err er => r = Err er | Crash _ => False end
      | _ => r = Ok e
      end
  end.
Proof.
  intros cf nc armed ps ctr ls s tr i x r H Hin. destruct (results _ _ _ _ _ _ _ _ H _ _ _ Hin) as (c & L & _ & R). exists c. split; [exact L|]. unfold reported in R.
  destruct (chan_prefix _ _ _ _ _ _ _ _ c H) as (rest & P). destruct (taken c tr) as [|y [|? ?]] eqn:T; [| |destruct R].
  - destruct R as [R|[R|[R|(io & ctx & q & R & B)]]]; try discriminate; inversion R; subst; auto. right; right. exists io, ctx, q. auto.
  - rewrite P. split; [reflexivity|]. destruct R as (R & _). inversion R as [Q]. unfold reply_result.
    destruct (ev_type y) eqn:Ty; cbn [etype_eqb]; try reflexivity. destruct (error_dec (cf_env cf) (ev_data y)) as [d'|e'|] eqn:D; try reflexivity.
    exfalso. subst r. unfold reply_result in Hin. rewrite Ty in Hin. change (etype_eqb Error Error) with true in Hin. cbv iota in Hin. rewrite D in Hin. clear - H Hin.
    (* a crash is not reported *)
    revert Hin. change (~ In (OReply i x (Some (Crash c0))) tr). revert H. apply (run_ind cf _ (fun ls s tr => ~ In (OReply i x (Some (Crash c0))) tr)); [cbn; tauto|].
    clear. intros ls s tr l s' os IH _ H Q. apply in_app_or in Q. destruct Q as [Q|Q]; [exact (IH Q)|]. clear IH.
    destruct l as [j a|m e|m|m|m|h|]; try (step_cases H; cbn [In] in Q; intuition discriminate).
Qed.
Print Assumptions C38_first_reply_decides.
Theorem C38_stream_items_belong_to_request : forall cf nc armed ps ctr ls s tr i j h x c e, runs cf nc armed ps ctr ls s tr ->
  In (OOpened i h x c) tr -> In (OItem j h (Some (Some (Ok e)))) tr -> ev_ref e = Some x /\ received tr e.
Proof. intros cf nc armed ps ctr ls s tr i j h x c e H Ho Hi. eapply stream_items; eauto. eapply items_in. exact Hi. Qed.
Print Assumptions C38_stream_items_belong_to_request.
(** an event for another request is not taken for the reply; then the reply arrives *)
Definition run38 : list label := [LTask 0 go; LTask 0 go; LTask 0 go; LRecv 0 (reply 79 5 Response []); LRecv 0 (reply 80 x0 Response [x05]); LPlace 0; LTask 0 go; LTask 0 go].
Example C38_case : exists s a, runs ex_cf 1 true [asker] 0 run38 s (a ++ [OReply 0 x0 (Some (Ok (reply 80 x0 Response [x05])))]).
Proof. eexists _, [_; _; _; _; _; _; _; _; _]. vm_compute. reflexivity. Qed.
Example C38_error_case : exists s a, runs ex_cf 1 true [asker] 0 [LTask 0 go; LTask 0 go; LTask 0 go; LRecv 0 (err_reply 80); LPlace 0; LTask 0 go; LTask 0 go] s
  (a ++ [OReply 0 x0 (Some (Err (ErrorEvent (mk_err_data 500 (str "no")))))]).
Proof. eexists _, [_; _; _; _; _; _; _]. vm_compute. reflexivity. Qed.
Definition run42 : list label := [LTask 0 go; LTask 0 go; LTask 0 go; LRecv 0 (reply 80 x0 Response [x05]); LPlace 0; LTask 0 go; LTask 0 go; LRecv 0 (reply 81 x0 Response [x05]); LTask 0 go; LPlace 0;
  LRecv 0 (reply 82 x0 End []); LPlace 0; LTask 0 go; LTask 0 go; LTask 0 go; LTask 0 go; LTask 0 go].
Definition tr42 (e1 e2 e3 : event) : list obs :=
  [OListen 0 x0 0; OSent 0 ctx0 sent0; OOpened 0 0 x0 0; OReceived 0 e1; OQueued 0 0 e1; OTaken 0 e1; OItem 0 0 (Some (Some (Ok e1))); OReceived 0 e2; OQueued 0 0 e2; OReceived 0 e3; OQueued 0 0 e3;
   OTaken 0 e2; OItem 0 0 (Some (Some (Ok e2))); OTaken 0 e3; OUnlisten x0; OGone 0; OItem 0 0 (Some (Some (Ok e3))); OItem 0 0 (Some None)].
Example C38_stream_case : exists s, runs ex_cf 1 true [streamer 4] 0 run42 s (tr42 (reply 80 x0 Response [x05]) (reply 81 x0 Response [x05]) (reply 82 x0 End [])).
Proof. eexists. vm_compute. reflexivity. Qed.

(** ** C39 *)
(** the listener of a request is registered before any byte of the request is sent *)
Theorem C39_listens_before_sending : forall cf nc armed ps ctr ls s tr i x c a b, runs cf nc armed ps ctr ls s tr -> good_clock ls -> few_events s ->
  tr = a ++ OListen i x c :: b -> forall j ctx e, In (OSent j ctx e) a \/ In (OCut j ctx e) a -> ev_id e <> x.
Proof.
  intros cf nc armed ps ctr ls s tr i x c a b H GC FE E j ctx e Hin Q. apply (listens_first _ _ _ _ _ _ _ _ H GC FE _ _ _ _ _ E). subst x.
  unfold ended. apply in_flat_map. destruct Hin as [Hin|Hin]; (eexists; split; [exact Hin|left; reflexivity]).
Qed.
Print Assumptions C39_listens_before_sending.
Theorem C39_requests_listen_first : forall cf nc armed ps ctr ls s a i ctx e b, runs cf nc armed ps ctr ls s (a ++ OSent i ctx e :: b) -> good_clock ls -> few_events s ->
  (forall r, In (OReply i (ev_id e) r) (a ++ OSent i ctx e :: b) -> exists c, In (OListen i (ev_id e) c) a)
  /\ (forall h c j, In (OOpened j h (ev_id e) c) (a ++ OSent i ctx e :: b) -> exists k, In (OListen k (ev_id e) c) a).
Proof.
  intros cf nc armed ps ctr ls s a i ctx e b H GC FE. split; [intros r Q; eapply asked_first; eauto|].
  intros h c j Q. destruct (stream_request _ _ _ _ _ _ _ _ _ _ _ _ H Q) as (k & L & _). exists k. apply in_app_or in L. destruct L as [L|[L|L]]; [exact L|discriminate|]. exfalso.
  apply in_split in L. destruct L as (b1 & b2 & ->). refine (C39_listens_before_sending _ _ _ _ _ _ _ _ k (ev_id e) c (a ++ OSent i ctx e :: b1) b2 H GC FE _ i ctx e _ eq_refl).
  - rewrite <- app_assoc. reflexivity.
  - left. apply in_or_app. right. left. reflexivity.
Qed.
Print Assumptions C39_requests_listen_first.
(** while the receiver exists, every event for the request goes into its queue; the loop may still hold it or be aborted, and
    only if the receiver is dropped meanwhile it goes to a handler *)
Theorem C39_no_reply_missed : forall cf nc armed ps ctr ls s a n e b i x c, runs cf nc armed ps ctr ls s (a ++ OReceived n e :: b) -> good_clock ls -> few_events s ->
  In (OListen i x c) a -> ~ gone a c -> never_handled x a -> ev_ref e = Some x ->
  next_about n b = None \/ next_about n b = Some (OAborted n) \/ next_about n b = Some (OQueued n c e)
  \/ exists b1 j b2, b = b1 ++ OCalled n j (mk_context n (Some (ev_id e))) None e :: b2 /\ next_about n b1 = None /\ gone (a ++ b1) c.
Proof. exact not_missed. Qed.
Print Assumptions C39_no_reply_missed.
(** the reply overtakes the task: it arrives before the send has returned *)
Example C39_case : exists s, runs ex_cf 1 true [asker] 0 [LTask 0 go; LTask 0 go; LRecv 0 (reply 80 x0 Response [x05]); LTask 0 go; LPlace 0; LTask 0 go; LTask 0 go] s
    ([OListen 0 x0 0] ++ OReceived 0 (reply 80 x0 Response [x05]) :: [OSent 0 ctx0 sent0; OQueued 0 0 (reply 80 x0 Response [x05]); OTaken 0 (reply 80 x0 Response [x05]); OUnlisten x0; OGone 0;
      OReply 0 x0 (Some (Ok (reply 80 x0 Response [x05])))])
  /\ good_clock [LTask 0 go; LTask 0 go; LRecv 0 (reply 80 x0 Response [x05]); LTask 0 go; LPlace 0; LTask 0 go; LTask 0 go] /\ few_events s /\ ~ gone [OListen 0 x0 0] 0 /\ never_handled x0 [OListen 0 x0 0].
Proof. eexists. split; [vm_compute; reflexivity|]. split; [clock|]. split; [vm_compute; discriminate|]. split; [intros [Q|[]]; discriminate|unhandled]. Qed.

(** a request is not given up with SendError while a receive loop holds a reply for it: whatever was received for it before
    or after is lost only when that connection is stopped *)
Theorem C39_no_send_error_over_a_reply : forall cf nc armed ps ctr ls s a n e b i x c, runs cf nc armed ps ctr ls s (a ++ OReceived n e :: b) -> good_clock ls -> few_events s ->
  In (OListen i x c) (a ++ OReceived n e :: b) -> listener_of a e = Some c -> In (OReply i x (Some (Err SendError))) (a ++ OReceived n e :: b) ->
  next_about n b = Some (OAborted n).
Proof.
  intros cf nc armed ps ctr ls s a n e b i x c H GC FE L El R. destruct (send_errors _ _ _ _ _ _ _ _ H _ _ R) as (d & L' & _ & _ & T & A).
  destruct (j_unique _ _ (inv_idents _ _ _ _ _ _ _ _ H GC FE) _ _ _ _ _ L L') as [_ <-]. destruct (A _ _ _ _ eq_refl El) as [Q|Q]; [exact Q|]. rewrite T in Q. destruct Q.
Qed.
Print Assumptions C39_no_send_error_over_a_reply.
(** a reply stream does not say that there are no more items before it has handed out every reply received for it, unless it
    got an End event or the connection that received the reply was stopped *)
Theorem C39_no_end_over_a_reply : forall cf nc armed ps ctr ls s a n e b i j h x c, runs cf nc armed ps ctr ls s (a ++ OReceived n e :: b) ->
  In (OOpened j h x c) (a ++ OReceived n e :: b) -> listener_of a e = Some c -> In (OItem i h (Some None)) (a ++ OReceived n e :: b) ->
  next_about n b = Some (OAborted n) \/ In e (taken c (a ++ OReceived n e :: b)) \/ exists z, In z (taken c (a ++ OReceived n e :: b)) /\ ev_type z = End.
Proof.
  intros cf nc armed ps ctr ls s a n e b i j h x c H O El R. destruct (opened_stream _ _ _ _ _ _ _ _ H _ _ _ _ O) as (y & Ey & _ & <-).
  destruct (nothing_more _ _ _ _ _ _ _ _ H) as (_ & _ & N). destruct (N _ _ R) as (y' & Ey' & S). assert (y' = y) by congruence. subst y'.
  destruct S as [S|[_ S]]; [auto|]. destruct (S _ _ _ _ eq_refl El); auto.
Qed.
Print Assumptions C39_no_end_over_a_reply.
(** a handler removes the listener (C40) while the loop holds the reply: only after the connection is stopped the request fails *)
Definition run39 : list label :=
  [LTask 0 go; LTask 0 go; LTask 0 go; LRecv 0 (ev x0 None (str "nothing") []); LTask 2 go; LTask 2 go; LRecv 0 (reply 80 x0 Response [x05]); LTask 2 go; LTask 1 go; LAbort 0; LTask 0 go].
Definition late39 : event := reply 80 x0 Response [x05].
Example C39_lost_case : exists s sent1 a b, a = [OListen 0 x0 0; OSent 0 ctx0 sent0; OReceived 0 (ev x0 None (str "nothing") []);
      OCalled 0 2 (mk_context 0 (Some x0)) None (ev x0 None (str "nothing") []); OReturned 2 (inl []); OSent 2 (mk_context 0 (Some x0)) sent1]
  /\ b = [OUnlisten x0; OStop 1 0 true; OAborted 0; OGone 0; OReply 0 x0 (Some (Err SendError))]
  /\ runs ex_cf 1 true [asker; PStop 0 (fun _ => PRet (inl []))] 0 run39 s (a ++ OReceived 0 late39 :: b)
  /\ good_clock run39 /\ few_events s /\ listener_of a late39 = Some 0%nat.
Proof.
  eexists _, _, _, _. split; [reflexivity|]. split; [reflexivity|]. split; [vm_compute; reflexivity|]. split; [clock|]. split; [vm_compute; discriminate|vm_compute; reflexivity].
Qed.

(** the same for a stream, which hands out the reply first *)
Example C39_end_case : exists s sent1 a b, a = [OListen 0 x0 0; OSent 0 ctx0 sent0; OOpened 0 0 x0 0; OReceived 0 (ev x0 None (str "nothing") []);
      OCalled 0 1 (mk_context 0 (Some x0)) None (ev x0 None (str "nothing") []); OReturned 1 (inl []); OSent 1 (mk_context 0 (Some x0)) sent1]
  /\ b = [OUnlisten x0; OQueued 0 0 late39; OTaken 0 late39; OItem 0 0 (Some (Some (Ok late39))); OUnlisten x0; OGone 0; OItem 0 0 (Some None)]
  /\ runs ex_cf 1 true [streamer 2] 0 [LTask 0 go; LTask 0 go; LTask 0 go; LRecv 0 (ev x0 None (str "nothing") []); LTask 1 go; LTask 1 go; LRecv 0 late39; LTask 1 go; LTask 0 go; LPlace 0;
       LTask 0 go; LTask 0 go; LTask 0 go; LTask 0 go] s (a ++ OReceived 0 late39 :: b)
  /\ listener_of a late39 = Some 0%nat.
Proof. eexists _, _, _, _. split; [reflexivity|]. split; [reflexivity|]. split; [vm_compute; reflexivity|vm_compute; reflexivity]. Qed.

(** ** C40 *)
(** a completed handler has removed the listener of its event's id, whoever made that id *)
Theorem C40_completed_handler_removes_listener : forall cf nc armed ps ctr ls s tr n i ctx sc e b, runs cf nc armed ps ctr ls s tr -> In (OCalled n i ctx sc e) tr -> returned i tr = [inl b] ->
  stuck cf s i -> In (OUnlisten (ev_id e)) tr.
Proof. exact completed_removes. Qed.
Print Assumptions C40_completed_handler_removes_listener.
(** a request waiting without listener fails with SendError *)
Theorem C40_request_without_listener_fails : forall cf nc armed ps ctr ls s tr i x c k t v, runs cf nc armed ps ctr ls s tr ->
  option_map tk_st (nth_error (e_tasks s) i) = Some (TWait c x k) -> (forall m e, In (OReceived m e) tr -> ev_ref e <> Some x) -> registered tr x = None ->
  exists s', step cf s (LTask i (AStep t v)) = Some (s', [OGone c; OReply i x (Some (Err SendError))]).
Proof. intros cf nc armed ps ctr ls s tr i x c k t v H T NR RG. destruct (removed_fails _ _ _ _ _ _ _ _ i x c k t v H T NR RG) as (s' & A & _). eauto. Qed.
Print Assumptions C40_request_without_listener_fails.
(** the peer can cancel any waiting request: one event with its id and an unregistered name *)
Theorem C40_peer_cancels_request : forall cf nc armed ps ctr ls s tr i x c k n cn e0 t v, runs cf nc armed ps ctr ls s tr ->
  option_map tk_st (nth_error (e_tasks s) i) = Some (TWait c x k) -> (forall m e, In (OReceived m e) tr -> ev_ref e <> Some x) ->
  nth_error (e_conns s) n = Some cn -> cn_loop cn = LRun ->
  ev_id e0 = x -> ev_ref e0 = None -> ev_ns e0 = None -> ev_type e0 <> End -> eh_get (cf_handler cf) (ev_name e0) = None ->
  let j := length (e_tasks s) in
  exists s' os, run cf s [LRecv n e0; LTask j (AStep t v); LTask j (AStep t v); LTask j (AStep t v); LTask i (AStep t v)] = Some (s', os)
    /\ In (OReply i x (Some (Err SendError))) os /\ registered (tr ++ os) x = None.
Proof.
  intros cf nc armed ps ctr ls s tr i x c k n cn e0 t v H T NR Ec El. intros. eapply cancelled; eauto. unfold lp. rewrite Ec. cbn. congruence.
Qed.
Print Assumptions C40_peer_cancels_request.
(** and a reply that arrives later is handled like an event nobody asked for *)
Theorem C40_late_reply_unsolicited : forall cf nc armed ps ctr ls s tr i x c ls2 s' m n e after, runs cf nc armed ps ctr ls s tr -> In (OListen i x c) tr -> registered tr x = None ->
  run cf s ls2 = Some (s', m ++ OReceived n e :: after) -> good_clock (ls ++ ls2) -> few_events s' -> ev_ref e = Some x -> ev_type e <> End ->
  exists j, next_about n after = Some (OCalled n j (mk_context n (Some (ev_id e))) (scope_of cf e) e).
Proof.
  intros cf nc armed ps ctr ls s tr i x c ls2 s' m n e after H HL RG H2 GC FE Er Et. pose proof (unsolicited _ _ _ _ _ _ _ _ _ _ _ _ _ _ _ _ _ H HL RG H2 GC FE Er) as L.
  pose proof (run_more _ _ _ _ _ _ _ _ _ _ _ H H2) as HR. rewrite app_assoc in HR. pose proof (all_placed _ _ _ _ _ _ _ _ HR _ _ _ _ eq_refl) as P. unfold placed in P. rewrite L in P.
  destruct (ev_type e); try congruence; exact P.
Qed.
Print Assumptions C40_late_reply_unsolicited.
Definition run40 : list label := [LTask 0 go; LTask 0 go; LTask 0 go; LRecv 0 (ev x0 None (str "what") []); LTask 1 go; LTask 1 go; LTask 1 go; LTask 0 go; LRecv 0 (reply 80 x0 Response [x05])].
Example C40_case : exists s a, runs ex_cf 1 true [asker] 0 run40 s
   (a ++ [OReply 0 x0 (Some (Err SendError)); OReceived 0 (reply 80 x0 Response [x05]); OCalled 0 2 (mk_context 0 (Some 80)) None (reply 80 x0 Response [x05])]) /\ good_clock run40 /\ few_events s.
Proof. eexists _, [_; _; _; _; _; _; _; _]. split; [vm_compute; reflexivity|]. split; [unfold run40; clock|vm_compute; discriminate]. Qed.
Example C40_case_state : exists s tr, runs ex_cf 1 true [asker] 0 [LTask 0 go; LTask 0 go; LTask 0 go] s tr /\ (exists k, option_map tk_st (nth_error (e_tasks s) 0) = Some (TWait 0 x0 k))
  /\ (forall m e, In (OReceived m e) tr -> ev_ref e <> Some x0) /\ nth_error (e_conns s) 0 = Some (mk_conn LRun true false) /\ eh_get (cf_handler ex_cf) (str "what") = None.
Proof.
  eexists _, _. split; [vm_compute; reflexivity|]. split; [eexists; reflexivity|]. split; [|split; reflexivity].
  intros m e Q. cbn [In] in Q. destruct Q as [Q|[Q|[]]]; discriminate.
Qed.

(** ** C41 *)
Theorem C41_answered_request_unregistered : forall cf nc armed ps ctr ls s tr i x r, runs cf nc armed ps ctr ls s tr -> good_clock ls -> few_events s -> In (OReply i x (Some r)) tr ->
  (exists e, r = Ok e) \/ (exists d, r = Err (ErrorEvent d)) -> registered tr x = None.
Proof.
  intros cf nc armed ps ctr ls s tr i x r H GC FE Hin Hr. destruct (results _ _ _ _ _ _ _ _ H _ _ _ Hin) as (c & L & _ & R). unfold reported in R.
  destruct (taken c tr) as [|y [|? ?]] eqn:T; [| |destruct R].
  - exfalso. destruct R as [R|[R|[R|(io & ctx & q & R & _)]]]; inversion R; subst; destruct Hr as [[? Hr]|[? Hr]]; discriminate.
  - eapply (unregistered_reply _ _ _ _ _ _ _ _ i x r y H GC FE Hin). intros c' L'. pose proof (inv_idents _ _ _ _ _ _ _ _ H GC FE) as J.
    destruct (j_unique _ _ J _ _ _ _ _ L' L) as [_ ->]. exact T.
Qed.
Print Assumptions C41_answered_request_unregistered.
Theorem C41_ended_stream_unregistered : forall cf nc armed ps ctr ls s tr j i h x c e, runs cf nc armed ps ctr ls s tr -> good_clock ls -> few_events s -> In (OOpened j h x c) tr ->
  In (OItem i h (Some (Some (Ok e)))) tr -> ev_type e = End -> registered tr x = None.
Proof. intros cf nc armed ps ctr ls s tr j i h x c e H GC FE Ho Hi Et. eapply unregistered_end; eauto. right. eauto. Qed.
Print Assumptions C41_ended_stream_unregistered.
(** timeouts, dropped and failed requests, streams that have not delivered their last item: the listener is still there, at
    any later time *)
Theorem C41_failed_request_stays_registered : forall cf nc armed ps ctr ls s tr i x c, runs cf nc armed ps ctr ls s tr -> good_clock ls -> few_events s -> In (OListen i x c) tr -> never_handled x tr ->
  ( In (OReply i x None) tr \/ In (OReply i x (Some (Err Timeout))) tr \/ (exists j ctx e, In (OCut j ctx e) tr /\ ev_id e = x)
    \/ (exists j h, In (OOpened j h x c) tr /\ forall r, In r (items h tr) -> r <> None /\ forall e, r = Some (Ok e) -> ev_type e <> End) ) -> registered tr x = Some c.
Proof.
  intros cf nc armed ps ctr ls s tr i x c H GC FE L NH Q. eapply failed_stays; eauto. destruct Q as [Q|[Q|[Q|(j & h & A & B)]]]; auto. right; right; right. exists j, h. split; [exact A|].
  intros r Hr [E|(e & E & T)]; destruct (B _ Hr) as [B1 B2]; [contradiction|]. exact (B2 _ E T).
Qed.
Print Assumptions C41_failed_request_stays_registered.
Example C41_answered : exists s a, runs ex_cf 1 true [asker] 0 run38 s (a ++ [OReply 0 x0 (Some (Ok (reply 80 x0 Response [x05])))]) /\ good_clock run38 /\ few_events s.
Proof. eexists _, [_; _; _; _; _; _; _; _; _]. split; [vm_compute; reflexivity|]. split; [unfold run38; clock|vm_compute; discriminate]. Qed.
Example C41_ended : exists s, runs ex_cf 1 true [streamer 4] 0 run42 s (tr42 (reply 80 x0 Response [x05]) (reply 81 x0 Response [x05]) (reply 82 x0 End [])) /\ good_clock run42 /\ few_events s.
Proof. eexists. split; [vm_compute; reflexivity|]. split; [unfold run42; clock|vm_compute; discriminate]. Qed.
(** a request that times out, one that is dropped while sending, one whose write fails, a stream that is dropped *)
Definition run41 : list label := [LTask 0 go; LTask 0 go; LTask 0 go; LTask 0 ATimeout; LTask 1 go; LTask 1 go; LTask 1 ADrop; LTask 2 go; LTask 2 go; LTask 2 (AFail WriteZero); LTask 3 go; LTask 3 go; LTask 3 go; LDropStream 0].
Example C41_failed : exists s tr, runs ex_cf 1 true [asker; asker; asker; streamer 1] 0 run41 s tr /\ good_clock run41 /\ few_events s /\ (forall n i ctx sc e, ~ In (OCalled n i ctx sc e) tr)
  /\ In (OReply 0 x0 (Some (Err Timeout))) tr /\ In (OReply 1 (nth_id at1 1) None) tr /\ In (OReply 2 (nth_id at1 2) (Some (Err (IoError WriteZero)))) tr /\ In (OOpened 3 0 (nth_id at1 3) 3) tr /\ items 0 tr = [].
Proof.
  eexists _, _. split; [vm_compute; reflexivity|]. split; [unfold run41; clock|]. split; [vm_compute; discriminate|]. split.
  - intros n i ctx sc e Q. cbn [In] in Q. repeat (destruct Q as [Q|Q]; [discriminate|]). destruct Q.
  - split; [vm_compute; tauto|]. split; [vm_compute; tauto|]. split; [vm_compute; tauto|]. split; [vm_compute; tauto|]. vm_compute. reflexivity.
Qed.

(** ** C42 *)
(** what a stream has yielded: a prefix of the events put into its queue, each once and in order; after the first End event
    nothing but "no more items" (see [stream_history]) *)
Theorem C42_stream_yields_queue_in_order : forall cf nc armed ps ctr ls s tr i h x c, runs cf nc armed ps ctr ls s tr -> In (OOpened i h x c) tr ->
  exists l more, queued c tr = l ++ more /\ stream_history l (items h tr).
Proof. exact history. Qed.
Print Assumptions C42_stream_yields_queue_in_order.
(** one connection: the events received for the request since it was made, in the order received *)
Theorem C42_stream_yields_received_in_order : forall cf armed ps ctr ls s a i x c b j h, runs cf 1 armed ps ctr ls s (a ++ OListen i x c :: b) -> good_clock ls -> few_events s ->
  never_handled x (a ++ OListen i x c :: b) -> In (OOpened j h x c) (a ++ OListen i x c :: b) ->
  exists l more, received_for 0 x b = l ++ more /\ stream_history l (items h (a ++ OListen i x c :: b)).
Proof. intros cf armed ps ctr ls s a i x c b j h H. apply (stream_prefix _ _ _ _ _ _ _ _ _ _ _ _ _ _ H eq_refl). Qed.
Print Assumptions C42_stream_yields_received_in_order.
(** nothing is lost: when the stream is polled and neither it nor the receive loop can go on, it has yielded all of them *)
Theorem C42_stream_yields_everything : forall cf armed ps ctr ls s a i x c b j h t k, runs cf 1 armed ps ctr ls s (a ++ OListen i x c :: b) -> good_clock ls -> few_events s ->
  never_handled x (a ++ OListen i x c :: b) -> In (OOpened j h x c) (a ++ OListen i x c :: b) -> ~ In (OAborted 0) (a ++ OListen i x c :: b) ->
  option_map tk_st (nth_error (e_tasks s) t) = Some (TNext h k) -> stuck cf s t -> step cf s (LPlace 0) = None ->
  items h (a ++ OListen i x c :: b) = yields (received_for 0 x b).
Proof. intros cf armed ps ctr ls s a i x c b j h t k H GC FE NH HO NA T ST NP. exact (proj1 (stream_all _ _ _ _ _ _ _ _ _ _ _ _ _ _ _ _ H eq_refl GC FE NH HO NA T ST NP)). Qed.
Print Assumptions C42_stream_yields_everything.
(** several connections: for each of them order and completeness of what it has put into the queue *)
Theorem C42_each_connection_in_order : forall cf nc armed ps ctr ls s n i x c a b, runs cf nc armed ps ctr ls s (a ++ OListen i x c :: b) -> good_clock ls -> few_events s ->
  never_handled x (a ++ OListen i x c :: b) -> exists rest, received_for n x b = queued_by n c b ++ rest
  /\ (~ gone (a ++ OListen i x c :: b) c -> ~ In (OAborted n) (a ++ OListen i x c :: b) -> (length rest <= 1)%nat).
Proof.
  intros cf nc armed ps ctr ls s n i x c a b H GC FE NH. destruct (flow _ _ _ _ _ n i x c _ _ _ H GC FE NH a b eq_refl) as (rest & A & B). exists rest. split; [exact A|]. intros G Q.
  apply gone_iff_not in G. rewrite (B G Q). unfold held. destruct (lp s n) as [[|d e|]|]; cbn; try lia. destruct (Nat.eqb d c); cbn; lia.
Qed.
Print Assumptions C42_each_connection_in_order.
Example C42_case : exists s, runs ex_cf 1 true [streamer 4] 0 run42 s (tr42 (reply 80 x0 Response [x05]) (reply 81 x0 Response [x05]) (reply 82 x0 End []))
  /\ good_clock run42 /\ few_events s /\ never_handled x0 (tr42 (reply 80 x0 Response [x05]) (reply 81 x0 Response [x05]) (reply 82 x0 End []))
  /\ items 0 (tr42 (reply 80 x0 Response [x05]) (reply 81 x0 Response [x05]) (reply 82 x0 End [])) = yields [reply 80 x0 Response [x05]; reply 81 x0 Response [x05]; reply 82 x0 End []] ++ [None].
Proof. eexists. split; [vm_compute; reflexivity|]. split; [unfold run42; clock|]. split; [vm_compute; discriminate|]. split; [unfold tr42; unhandled|reflexivity]. Qed.
(** a stream that is polled and has nothing to yield yet *)
Definition run42w : list label := [LTask 0 go; LTask 0 go; LTask 0 go; LRecv 0 (reply 80 x0 Response [x05]); LPlace 0; LTask 0 go; LTask 0 go; LTask 0 go].
Example C42_case_waiting : exists s k, runs ex_cf 1 true [streamer 4] 0 run42w s ([] ++ OListen 0 x0 0 :: [OSent 0 ctx0 sent0; OOpened 0 0 x0 0; OReceived 0 (reply 80 x0 Response [x05]);
    OQueued 0 0 (reply 80 x0 Response [x05]); OTaken 0 (reply 80 x0 Response [x05]); OItem 0 0 (Some (Some (Ok (reply 80 x0 Response [x05]))))])
  /\ good_clock run42w /\ few_events s /\ option_map tk_st (nth_error (e_tasks s) 0) = Some (TNext 0 k) /\ stuck ex_cf s 0 /\ step ex_cf s (LPlace 0) = None.
Proof.
  eexists _, _. split; [vm_compute; reflexivity|]. split; [unfold run42w; clock|]. split; [vm_compute; discriminate|]. split; [reflexivity|]. split; [intros t v; reflexivity|reflexivity].
Qed.

(** ** C43 *)
(** without End event in its queue a stream yields what is in the queue, Error events included, as ordinary items, and after
    that only a Timeout *)
Theorem C43_errors_are_items : forall cf nc armed ps ctr ls s tr j h x c, runs cf nc armed ps ctr ls s tr -> good_clock ls -> few_events s -> never_handled x tr -> In (OOpened j h x c) tr ->
  no_end (queued c tr) -> exists l more, queued c tr = l ++ more /\ (items h tr = yields l \/ items h tr = yields l ++ [Some (Err Timeout)]).
Proof. exact not_ending. Qed.
Print Assumptions C43_errors_are_items.
(** a failing handler sends nothing after (or instead of) its Error answer, in particular no End event *)
Theorem C43_failing_handler_sends_no_end : forall cf nc armed ps ctr ls s tr n i ctx sc e er, runs cf nc armed ps ctr ls s tr -> In (OCalled n i ctx sc e) tr -> returned i tr = [inr er] ->
  exists pre post, sent i tr = pre ++ post /\ Forall (fun p => final (snd p) = false) pre /\ (post = [] \/ exists a, post = [(ctx, a)] /\ ev_type a = Error /\ ev_ref a = Some (ev_id e)).
Proof.
  intros cf nc armed ps ctr ls s tr n i ctx sc e er H Hc R. destruct (at_most_one _ _ _ _ _ _ _ _ _ _ _ _ _ H Hc) as (pre & post & A & B & C). exists pre, post. split; [exact A|]. split; [exact B|].
  destruct C as [C|(r & a & Q & C & D)]; [auto|]. right. exists a. rewrite R in Q. inversion Q; subst r. destruct D as (D1 & _ & D2 & _). auto.
Qed.
Print Assumptions C43_failing_handler_sends_no_end.
Theorem C43_polling_after_timeout_panics : forall cf nc armed ps ctr ls s tr j h i k t v s' os, runs cf nc armed ps ctr ls s tr -> In (OItem j h (Some (Some (Err Timeout)))) tr ->
  option_map tk_st (nth_error (e_tasks s) i) = Some (TRun (PNext h k)) -> step cf s (LTask i (AStep t v)) = Some (s', os) ->
  os = [OPanicked i] /\ option_map tk_st (nth_error (e_tasks s') i) = Some TDead.
Proof. exact poll_panics. Qed.
Print Assumptions C43_polling_after_timeout_panics.
Definition run43 : list label := [LTask 0 go; LTask 0 go; LTask 0 go; LRecv 0 (err_reply 80); LPlace 0; LTask 0 go; LTask 0 go; LTask 0 go; LTask 0 ATimeout; LTask 0 go].
Definition tr43 : list obs := [OListen 0 x0 0; OSent 0 ctx0 sent0; OOpened 0 0 x0 0; OReceived 0 (err_reply 80); OQueued 0 0 (err_reply 80); OTaken 0 (err_reply 80); OItem 0 0 (Some (Some (Ok (err_reply 80))));
    OGone 0; OItem 0 0 (Some (Some (Err Timeout))); OPanicked 0].
Example C43_case : exists s, runs ex_cf 1 true [streamer 4] 0 run43 s tr43 /\ good_clock run43 /\ few_events s /\ never_handled x0 tr43 /\ no_end (queued 0 tr43)
  /\ items 0 tr43 = [Some (Ok (err_reply 80)); Some (Err Timeout)].
Proof.
  eexists. split; [vm_compute; reflexivity|]. split; [unfold run43; clock|]. split; [vm_compute; discriminate|]. split; [unfold tr43; unhandled|]. split; [|reflexivity].
  repeat constructor; discriminate.
Qed.

(** ** C44 *)
Theorem C44_at_most_8_buffered : forall cf nc armed ps ctr ls s tr c, runs cf nc armed ps ctr ls s tr -> (length (queued c tr) <= length (taken c tr) + 8)%nat.
Proof. exact bounded. Qed.
Print Assumptions C44_at_most_8_buffered.
(** connection [n] has read [e] for a request with 8 events waiting: whatever happens, it does nothing else (in particular
    reads nothing) until one of them is taken, the receiver dropped or the connection stopped *)
Theorem C44_full_queue_blocks_connection : forall cf nc armed ps ctr ls s a n e b c ls2 s' os, runs cf nc armed ps ctr ls s (a ++ OReceived n e :: b) -> next_about n b = None -> listener_of a e = Some c ->
  ~ gone (a ++ OReceived n e :: b) c -> length (queued c (a ++ OReceived n e :: b)) = (length (taken c (a ++ OReceived n e :: b)) + 8)%nat ->
  run cf s ls2 = Some (s', os) -> (forall x, ~ In (OTaken c x) os) -> ~ In (OGone c) os -> ~ In (OAborted n) os -> next_about n os = None.
Proof. intros cf nc armed ps ctr ls s a n e b c ls2 s' os H N L G Q R. eapply blocked; eauto. eapply holding; eauto. Qed.
Print Assumptions C44_full_queue_blocks_connection.
(** and with room, or without receiver, it can go on *)
Theorem C44_otherwise_goes_on : forall cf nc armed ps ctr ls s a n e b c, runs cf nc armed ps ctr ls s (a ++ OReceived n e :: b) -> next_about n b = None -> listener_of a e = Some c ->
  (gone (a ++ OReceived n e :: b) c -> exists s' j, step cf s (LPlace n) = Some (s', [OCalled n j (mk_context n (Some (ev_id e))) None e]))
  /\ (~ gone (a ++ OReceived n e :: b) c -> (length (queued c (a ++ OReceived n e :: b)) < length (taken c (a ++ OReceived n e :: b)) + 8)%nat -> exists s', step cf s (LPlace n) = Some (s', [OQueued n c e])).
Proof. intros cf nc armed ps ctr ls s a n e b c H N L. eapply unblocked; eauto. eapply holding; eauto. Qed.
Print Assumptions C44_otherwise_goes_on.
Definition eight (n : nat) : list label := flat_map (fun k => [LRecv 0 (reply (N.of_nat k + 100) x0 Response []); LPlace 0]) (seq 0 n).
Definition run44 : list label := [LTask 0 go; LTask 0 go; LTask 0 go] ++ eight 8 ++ [LRecv 0 (reply 120 x0 End [])].
Example C44_case : exists s a, runs ex_cf 1 true [streamer 4] 0 run44 s (a ++ OReceived 0 (reply 120 x0 End []) :: []) /\ listener_of a (reply 120 x0 End []) = Some 0%nat
  /\ length (queued 0 (a ++ OReceived 0 (reply 120 x0 End []) :: [])) = 8%nat /\ taken 0 (a ++ OReceived 0 (reply 120 x0 End []) :: []) = []
  /\ step ex_cf s (LPlace 0) = None /\ (forall e, step ex_cf s (LRecv 0 e) = None) /\ step ex_cf s (LClosed 0) = None.
Proof.
  eexists _, [_; _; _; _; _; _; _; _; _; _; _; _; _; _; _; _; _; _; _]. split; [vm_compute; reflexivity|]. split; [vm_compute; reflexivity|]. split; [vm_compute; reflexivity|]. split; [vm_compute; reflexivity|].
  split; [reflexivity|]. split; [intros e; reflexivity|reflexivity].
Qed.

(** ** C45 *)
(** a reply whose listener has no receiver any more: when the loop has done anything else, it has called a global handler -
    whatever type and namespace the reply has *)
Theorem C45_reply_to_abandoned_request : forall cf nc armed ps ctr ls s a n e b c, runs cf nc armed ps ctr ls s (a ++ OReceived n e :: b) -> listener_of a e = Some c -> gone a c ->
  next_about n b = None \/ next_about n b = Some (OAborted n) \/ exists j, next_about n b = Some (OCalled n j (mk_context n (Some (ev_id e))) None e).
Proof. exact abandoned. Qed.
Print Assumptions C45_reply_to_abandoned_request.
(** it can do so at once *)
Theorem C45_abandoned_reply_not_held : forall cf nc armed ps ctr ls s a n e b c, runs cf nc armed ps ctr ls s (a ++ OReceived n e :: b) -> listener_of a e = Some c -> gone a c -> next_about n b = None ->
  exists s' j, step cf s (LPlace n) = Some (s', [OCalled n j (mk_context n (Some (ev_id e))) None e]).
Proof. intros cf nc armed ps ctr ls s a n e b c H L G N. apply (proj1 (C44_otherwise_goes_on _ _ _ _ _ _ _ _ _ _ _ _ H N L)). apply in_or_app. left. exact G. Qed.
Print Assumptions C45_abandoned_reply_not_held.
(** the listener of an abandoned request is the one replies are matched with *)
Theorem C45_abandoned_requests_keep_listener : forall cf nc armed ps ctr ls s tr i x c e, runs cf nc armed ps ctr ls s tr -> good_clock ls -> few_events s -> In (OListen i x c) tr -> never_handled x tr ->
  In (OReply i x (Some (Err Timeout))) tr \/ In (OReply i x None) tr -> ev_ref e = Some x -> listener_of tr e = Some c /\ gone tr c.
Proof.
  intros cf nc armed ps ctr ls s tr i x c e H GC FE L NH Q Er. unfold listener_of. rewrite Er. split; [eapply failed_stays; eauto; tauto|].
  assert (exists r, In (OReply i x r) tr) as (r & Hin) by (destruct Q; eauto). destruct (results _ _ _ _ _ _ _ _ H _ _ _ Hin) as (d & L2 & G & _).
  pose proof (inv_idents _ _ _ _ _ _ _ _ H GC FE) as J. destruct (j_unique _ _ J _ _ _ _ _ L2 L) as [_ ->]. apply gone_iff. exact G.
Qed.
Print Assumptions C45_abandoned_requests_keep_listener.
(** an End event naming a registered namespace *)
Definition late : event := event_new 90 (Some (str "ns")) (str "ping") [] (Some x0) End.
Definition run45 : list label := [LTask 0 go; LTask 0 go; LTask 0 go; LTask 0 ATimeout; LRecv 0 late; LPlace 0].
Example C45_case : exists s, runs ex_cf 1 true [asker] 0 run45 s ([OListen 0 x0 0; OSent 0 ctx0 sent0; OGone 0; OReply 0 x0 (Some (Err Timeout))] ++ OReceived 0 late :: [OCalled 0 1 (mk_context 0 (Some 90)) None late])
  /\ good_clock run45 /\ few_events s /\ never_handled x0 [OListen 0 x0 0; OSent 0 ctx0 sent0; OGone 0; OReply 0 x0 (Some (Err Timeout))].
Proof. eexists. split; [vm_compute; reflexivity|]. split; [unfold run45; clock|]. split; [vm_compute; discriminate|unhandled]. Qed.

(** ** C51 *)
(** of all calls of stop on a client's connection exactly the first takes effect; on a server's connection none does *)
Theorem C51_stop_once : forall cf nc ps ctr ls s tr n, (n < nc)%nat ->
  (runs cf nc true ps ctr ls s tr -> stops n tr = [] \/ exists k, stops n tr = true :: repeat false k)
  /\ (runs cf nc false ps ctr ls s tr -> (exists k, stops n tr = repeat false k) /\ ~ In (OAborted n) tr).
Proof. intros cf nc ps ctr ls s tr n L. split; intros H; exact (stop_shape _ _ _ _ _ _ _ _ _ H L). Qed.
Print Assumptions C51_stop_once.
(** after a successful stop the loop can be aborted until it is, and only then *)
Theorem C51_stop_takes_effect : forall cf nc armed ps ctr ls s tr n i, runs cf nc armed ps ctr ls s tr -> (n < nc)%nat -> In (OStop i n true) tr ->
  In (OAborted n) tr \/ exists s', step cf s (LAbort n) = Some (s', [OAborted n]).
Proof. exact stop_works. Qed.
Print Assumptions C51_stop_takes_effect.
(** from then on the connection reads, delivers and dispatches nothing *)
Theorem C51_nothing_dispatched_after_stop : forall cf nc armed ps ctr ls s tr n ls2 s' os, runs cf nc armed ps ctr ls s tr -> In (OAborted n) tr -> run cf s ls2 = Some (s', os) -> next_about n os = None.
Proof. intros cf nc armed ps ctr ls s tr n ls2 s' os H A R. eapply done_quiet; eauto. Qed.
Print Assumptions C51_nothing_dispatched_after_stop.
(** sending goes on: an emit succeeds in two steps, whatever was stopped *)
Theorem C51_emits_still_succeed : forall cf nc armed ps ctr ls s tr i rq k d t v t' v', runs cf nc armed ps ctr ls s tr -> In (OAborted (c_conn (rq_ctx rq))) tr ->
  option_map tk_st (nth_error (e_tasks s) i) = Some (TRun (PEmit rq k)) -> rq_payload rq = Ok d ->
  exists s' e, run cf s [LTask i (AStep t v); LTask i (AStep t' v')] = Some (s', [OSent i (rq_ctx rq) e]) /\ option_map tk_st (nth_error (e_tasks s') i) = Some (TRun (k (Some (Ok (ev_id e))))).
Proof. intros cf nc armed ps ctr ls s tr i rq k d t v t' v' _ _ T P. exact (emit_works _ _ _ _ _ _ _ _ _ _ T P). Qed.
Print Assumptions C51_emits_still_succeed.
(** requests pending then can only time out or be dropped *)
Theorem C51_pending_requests_time_out : forall cf armed ps ctr ls s tr ls2 s' os i x c k j r, runs cf 1 armed ps ctr ls s tr -> In (OAborted 0) tr ->
  option_map tk_st (nth_error (e_tasks s) i) = Some (TWait c x k) -> queued c tr = [] ->
  run cf s ls2 = Some (s', os) -> good_clock (ls ++ ls2) -> few_events s' -> never_handled x (tr ++ os) -> In (OReply j x r) os -> j = i /\ (r = Some (Err Timeout) \/ r = None).
Proof. intros cf armed ps ctr ls s tr ls2 s' os i x c k j r H. apply (timeout_only _ _ _ _ _ _ _ _ _ _ _ _ _ _ _ _ _ H eq_refl). Qed.
Print Assumptions C51_pending_requests_time_out.
(** a request, then two stops from other tasks, an emit afterwards; the request times out *)
Definition stopper : prog := PStop 0 (fun _ => PEmit q0 (fun _ => PRet (inl []))).
Definition run51 : list label := [LTask 0 go; LTask 0 go; LTask 0 go; LTask 1 go; LTask 2 go; LAbort 0].
Example C51_case : exists s tr s' os, runs ex_cf 1 true [asker; stopper; stopper] 0 run51 s tr /\ In (OStop 1 0 true) tr /\ In (OStop 2 0 false) tr /\ In (OAborted 0) tr /\ queued 0 tr = []
  /\ run ex_cf s [LTask 1 go; LTask 1 go; LTask 0 ATimeout] = Some (s', os) /\ few_events s' /\ good_clock (run51 ++ [LTask 1 go; LTask 1 go; LTask 0 ATimeout])
  /\ In (OReply 0 x0 (Some (Err Timeout))) os /\ (exists e, In (OSent 1 ctx0 e) os) /\ never_handled x0 (tr ++ os) /\ exists k, option_map tk_st (nth_error (e_tasks s) 0) = Some (TWait 0 x0 k).
Proof.
  eexists _, _, _, _. split; [vm_compute; reflexivity|]. split; [vm_compute; tauto|]. split; [vm_compute; tauto|]. split; [vm_compute; tauto|]. split; [vm_compute; reflexivity|].
  split; [vm_compute; reflexivity|]. split; [vm_compute; discriminate|]. split; [unfold run51; clock|]. split; [vm_compute; tauto|]. split; [eexists; vm_compute; left; reflexivity|]. split; [unhandled|]. eexists. reflexivity.
Qed.
