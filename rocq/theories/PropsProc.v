(** Properties of processes with several endpoints (C65). *)
From Coq Require Import Strings.String.
From Verif Require Import Base BaseFacts Codec Spec Ids Payload Builder Emit Ipc SpecIpc SpecMore IpcFacts IpcIds IpcLoops IpcReplies IpcLost Proc SpecProc ProcFacts PropsDispatch PropsReplies.

(** ** C65 *)
(** what an endpoint (a connection of a server, a client, a pool) does in a process is what it could do alone: the same steps,
    observations and state, the events of the others being visible only in the values of the id counter. So everything proved
    about single endpoints holds for each endpoint of a process. *)
Theorem C65_each_endpoint_as_if_alone : forall ls p tr j o, rrun proc_new ls = Some (p, tr) -> nth_error (opened ls) j = Some o ->
  exists s ctr lsj, nth_error (pr_eps p) j = Some (o_config o, s) /\ runs (o_config o) (o_conns o) (o_armed o) (o_tasks o) ctr lsj s (at_ep j tr)
    /\ filter own_step lsj = labels_at j ls /\ (proc_clock ls -> good_clock lsj) /\ (proc_few p -> few_events s).
Proof.
  intros ls p tr j o H Ho. destruct (proj_run _ _ _ H) as (LEN & NONE & EP). destruct (nth_error (pr_eps p) j) as [[cf s]|] eqn:E.
  - destruct (EP _ _ _ E) as (LE & o' & c & lsj & A & B & C & D). rewrite Ho in A. injection A as <-. subst cf. exists s, c, lsj. split; [reflexivity|]. split; [exact C|].
    split; [exact D|]. split; [intros PC; exact (clock_at _ _ _ PC D)|]. unfold few_events, proc_few. lia.
  - exfalso. apply nth_error_None in E. assert (nth_error (opened ls) j <> None) by congruence. apply nth_error_Some in H0. lia.
Qed.
Print Assumptions C65_each_endpoint_as_if_alone.
(** nothing the others do - receive, block, fail, close, panic, open, create events - makes a step of an endpoint possible or
    impossible or changes what is observed in it *)
Theorem C65_others_neither_block_nor_help : forall ls p tr j ls2 p' os2 l os, rrun proc_new ls = Some (p, tr) -> (j < length (opened ls))%nat ->
  rrun p ls2 = Some (p', os2) -> labels_at j ls2 = [] ->
  at_ep j os2 = [] /\ ((exists q, rstep p (RDo j l) = Some (q, os)) <-> (exists q, rstep p' (RDo j l) = Some (q, os))).
Proof.
  intros ls p tr j ls2 p' os2 l os H L H2 NL. split.
  - destruct (proj_run _ _ _ H) as (LEN & _). destruct (nth_error (pr_eps p) j) as [[cf s]|] eqn:H0; [|apply nth_error_None in H0; lia].
    exact (proj2 (same_ep_elsewhere _ _ _ _ _ _ _ H2 NL H0)).
  - split; intros [q Q]; [eapply not_affected; eauto|eapply not_affected_back; eauto].
Qed.
Print Assumptions C65_others_neither_block_nor_help.
(** all events sent by a process, over whichever endpoint, carry different ids *)
Theorem C65_ids_distinct_in_process : forall ls p tr m n j k o o' x, rrun proc_new ls = Some (p, tr) -> proc_clock ls -> proc_few p ->
  nth_error tr m = Some (j, o) -> nth_error tr n = Some (k, o') -> started o = Some x -> started o' = Some x -> m = n.
Proof.
  intros ls p tr m n j k o o' x H PC PF A B S1 S2. apply (distinct_positions (map snd tr) (proc_nodup _ _ _ H PC PF) m n o o' x); auto;
  rewrite nth_error_map, ?A, ?B; reflexivity.
Qed.
Print Assumptions C65_ids_distinct_in_process.
(** an event is taken for the reply to a request only if it comes in over the endpoint that made the request *)
Theorem C65_replies_only_from_own_endpoint : forall ls p tr j i x c k n d e, rrun proc_new ls = Some (p, tr) -> proc_clock ls -> proc_few p ->
  In (j, OListen i x c) tr -> In (k, OQueued n d e) tr -> ev_ref e = Some x -> k = j /\ In (j, OReceived n e) tr.
Proof.
  intros ls p tr j i x c k n d e H PC PF A B R. destruct (observed_run _ _ _ _ _ H PC PF B) as (cf & s & nc & armed & ps & ctr & lsj & E & RU & GC & FE).
  assert (B' := proj2 (in_at_ep _ _ _) B).
  assert (Q : In e (queued d (at_ep k tr))) by (apply in_flat_map; exists (OQueued n d e); split; [exact B'|cbn; rewrite Nat.eqb_refl; left; reflexivity]).
  destruct (queued_ref _ _ _ _ _ _ _ _ RU _ _ Q) as (i' & x' & L & R'). rewrite R in R'. injection R' as <-.
  assert (k = j).
  { destruct (apart_run _ _ _ H PC PF) as [_ D]. apply (D k j x).
    - eapply listens_use; eauto. apply in_at_ep. exact L.
    - eapply listens_use; eauto. }
  subst k. split; [reflexivity|]. apply in_at_ep. eapply queued_received; eauto.
Qed.
Print Assumptions C65_replies_only_from_own_endpoint.
(** coming in over another endpoint it is an event like any other: ignored if it is an End, else passed to a handler *)
Theorem C65_foreign_reply_is_dispatched : forall ls p tr j i x c k n e before after, rrun proc_new ls = Some (p, tr) -> proc_clock ls -> proc_few p ->
  In (j, OListen i x c) tr -> j <> k -> at_ep k tr = before ++ OReceived n e :: after -> ev_ref e = Some x ->
  next_about n after = Some (OIgnored n e) \/ exists t sc, next_about n after = Some (OCalled n t (mk_context n (Some (ev_id e))) sc e).
Proof.
  intros ls p tr j i x c k n e before after H PC PF A N E R.
  assert (B : In (k, OReceived n e) tr) by (apply in_at_ep; rewrite E; apply in_or_app; right; left; reflexivity).
  destruct (observed_run _ _ _ _ _ H PC PF B) as (cf & s & nc & armed & ps & ctr & lsj & _ & RU & GC & FE).
  assert (P := C33_where_events_go _ _ _ _ _ _ _ _ RU _ _ _ _ E). unfold placed, listener_of in P. rewrite R in P.
  destruct (registered before x) as [d|] eqn:REG.
  - exfalso. apply N. destruct (apart_run _ _ _ H PC PF) as [_ D]. apply (D j k x).
    + eapply listens_use; eauto.
    + destruct (registered_listen _ _ _ REG) as [i' L]. eapply listens_use; eauto. apply in_at_ep. rewrite E. apply in_or_app. left. exact L.
  - destruct (ev_type e); try (left; exact P); right; destruct P as [t P]; eauto.
Qed.
Print Assumptions C65_foreign_reply_is_dispatched.

(** two connections of a server, each with a request under way; a reply to the first one's request comes in on the second *)
Definition o65 : origin := mk_origin ex_cf 1 false [asker].
Definition x1 : N := nth_id at1 1.
Definition run65 : list rlabel := [ROpen o65; RDo 0 (LTask 0 go); RDo 0 (LTask 0 go); ROpen o65; RDo 1 (LTask 0 go); RDo 0 (LTask 0 go); RDo 1 (LTask 0 go); RElse;
  RDo 1 (LRecv 0 (reply 80 x0 Response [x05])); RDo 1 (LClosed 0); RDo 0 (LRecv 0 (reply 81 x0 Response [x06])); RDo 0 (LPlace 0); RDo 0 (LTask 0 go); RDo 0 (LTask 0 go); RDo 1 (LTask 0 go)].
Example C65_case : exists p tr, rrun proc_new run65 = Some (p, tr) /\ proc_clock run65 /\ proc_few p /\ pr_ctr p = 3 /\ length (opened run65) = 2%nat
  /\ at_ep 0 tr = [OListen 0 x0 0; OSent 0 ctx0 sent0; OReceived 0 (reply 81 x0 Response [x06]); OQueued 0 0 (reply 81 x0 Response [x06]);
                   OTaken 0 (reply 81 x0 Response [x06]); OUnlisten x0; OGone 0; OReply 0 x0 (Some (Ok (reply 81 x0 Response [x06])))]
  /\ at_ep 1 tr = [OListen 0 x1 0; OReceived 0 (reply 80 x0 Response [x05]); OCalled 0 1 (mk_context 0 (Some 80)) None (reply 80 x0 Response [x05]); OClosed 0;
                   OSent 0 ctx0 (event_new x1 None (str "q") [] None Initiator)].
Proof.
  eexists _, _. split; [vm_compute; reflexivity|]. split.
  - intros j i t v Q. repeat (destruct Q as [Q|Q]; [inversion Q; subst; exact at1_ok || discriminate Q|]). destruct Q.
  - repeat split; vm_compute; try reflexivity. discriminate.
Qed.
(** a step of endpoint 0 before and after everything endpoint 1 does *)
Example C65_others_case : exists p tr p' os2, rrun proc_new (firstn 4 run65) = Some (p, tr) /\ (0 < length (opened (firstn 4 run65)))%nat
  /\ rrun p [RDo 1 (LTask 0 go); RElse; RDo 1 (LClosed 0); ROpen o65] = Some (p', os2) /\ labels_at 0 [RDo 1 (LTask 0 go); RElse; RDo 1 (LClosed 0); ROpen o65] = []
  /\ exists q, rstep p' (RDo 0 (LTask 0 go)) = Some (q, [(0%nat, OSent 0 ctx0 sent0)]).
Proof. eexists _, _, _, _. split; [vm_compute; reflexivity|]. split; [cbn; lia|]. split; [vm_compute; reflexivity|]. split; [reflexivity|]. eexists. vm_compute. reflexivity. Qed.
