(** Properties of networks of endpoints: C79. *)
From Coq Require Import Strings.String.
From Verif Require Import Base BaseFacts Codec Spec Ids Payload Builder Emit Ipc SpecIpc Pair SpecPair PairServer Net SpecNet NetServer NetFacts NetEnd NetRest PropsDispatch PropsPair.

(** Whatever the others do, an endpoint of a network does what it could do alone: everything proved of [runs] holds of it. *)
Theorem C79_each_endpoint_by_itself : forall w ls s tr i, nruns w ls s tr ->
  exists ls', runs (nd_cf (node_of w i)) (nd_conns (node_of w i)) (nd_armed (node_of w i)) (nd_tasks (node_of w i)) (nd_ctr (node_of w i)) ls' (n_ep s i) (at_node i tr) /\ (net_clocks ls -> good_clock ls').
Proof. intros w ls s tr i H. exact (nproject _ _ _ _ H i). Qed.
Print Assumptions C79_each_endpoint_by_itself.
(** What is read from a connection was sent into its other end: in the order sent, nothing twice, nothing left out, nothing sent
    into other connections. A connection that leads nowhere carries nothing. *)
Theorem C79_no_crosstalk : forall w ls s tr i k, nruns w ls s tr ->
  match peer w i k with
  | Some (j, m) => exists rest, sent_to m (at_node j tr) = read_from k (at_node i tr) ++ rest
  | None => read_from k (at_node i tr) = []
  end.
Proof.
  intros w ls s tr i k H. destruct (peer w i k) as [[j m]|] eqn:P; [|apply (unjoined _ _ _ _ H _ _ P)]. exists (n_in s i k). symmetry. apply (nwires _ _ _ _ H _ _ _ _ P).
Qed.
Print Assumptions C79_no_crosstalk.
(** Endpoint [a], a client or pooled client with any tasks and handlers and any number of connections, is joined to connections
    servers have accepted; there are any other endpoints; connections break at any time. A request that has got something other
    than Timeout, or an error while it was written, has got the first thing that the handler emitted which was called with the
    request, at the other end of the connection the request was sent over. *)
Theorem C79_answered_by_the_peer_asked : forall w a ls s tr, nruns w ls s tr -> well_joined w -> served w a -> net_clocks ls -> few_events (n_ep s a) ->
  forall i x r, In (OReply i x (Some r)) (at_node a tr) -> never_handled x (at_node a tr) ->
  r = Err Timeout
  \/ (exists io ctx e, r = Err (IoError io) /\ In (OCut i ctx e) (at_node a tr) /\ ev_id e = x)
  \/ exists ctx e b j sc, In (OSent i ctx e) (at_node a tr) /\ ev_id e = x /\ peer w a (c_conn ctx) = Some (b, 0%nat)
       /\ In (OCalled 0 j (mk_context 0 (Some x)) sc (drop_empty_ns e)) (at_node b tr) /\ answered (nd_cf (node_of w b)) (at_node b tr) j r.
Proof. intros w a ls s tr H WJ SV GC FE. exact (net_reply w a WJ SV _ _ _ H GC FE). Qed.
Print Assumptions C79_answered_by_the_peer_asked.
(** Reply streams, in the same setting: what a stream has yielded is what the handler called with the request has sent. *)
Theorem C79_streams_from_the_peer_asked : forall w a ls s tr, nruns w ls s tr -> well_joined w -> served w a -> net_clocks ls -> few_events (n_ep s a) ->
  forall i h x c, In (OOpened i h x c) (at_node a tr) -> never_handled x (at_node a tr) ->
  exists i' ctx e, In (OSent i' ctx e) (at_node a tr) /\ ev_id e = x
    /\ (streamed [] (items h (at_node a tr))
        \/ exists b j sc, peer w a (c_conn ctx) = Some (b, 0%nat) /\ In (OCalled 0 j (mk_context 0 (Some x)) sc (drop_empty_ns e)) (at_node b tr)
             /\ streamed (replies_of_task j (at_node b tr)) (items h (at_node a tr))).
Proof. intros w a ls s tr H WJ SV GC FE. exact (net_stream w a WJ SV _ _ _ H GC FE). Qed.
Print Assumptions C79_streams_from_the_peer_asked.
(** When nothing is left to do except timers: a request sent over a connection that is intact was handled at its other end, and
    has been answered, timed out or dropped, unless the handler panicked before it sent anything. Other connections of [a] may
    be broken, closed or stopped. *)
Theorem C79_intact_connections_answer : forall w a ls s tr, nruns w ls s tr -> well_joined w -> served w a -> net_clocks ls -> few_events (n_ep s a) -> net_rest w s -> room (at_node a tr) ->
  forall k b, peer w a k = Some (b, 0%nat) -> ~ In (OAborted k) (at_node a tr) -> ~ In (OClosed k) (at_node a tr) -> ~ In (OClosed 0) (at_node b tr) -> (forall j cx r, ~ In (OCut j cx r) (at_node b tr)) ->
  forall i ctx e c, In (OSent i ctx e) (at_node a tr) -> c_conn ctx = k -> In (OListen i (ev_id e) c) (at_node a tr) -> (forall h, ~ In (OOpened i h (ev_id e) c) (at_node a tr)) -> never_handled (ev_id e) (at_node a tr) ->
  exists j sc, In (OCalled 0 j (mk_context 0 (Some (ev_id e))) sc (drop_empty_ns e)) (at_node b tr)
    /\ ((exists r, In (OReply i (ev_id e) r) (at_node a tr) /\ (r = None \/ r = Some (Err Timeout) \/ exists r', r = Some r' /\ answered (nd_cf (node_of w b)) (at_node b tr) j r'))
        \/ (In (OPanicked j) (at_node b tr) /\ sent j (at_node b tr) = [])).
Proof. intros w a ls s tr H WJ SV GC FE R RM. exact (net_end w a WJ SV _ _ _ H GC FE R RM). Qed.
Print Assumptions C79_intact_connections_answer.
(** the same for streams: one that still waits has yielded all the handler sent, which ended without End event *)
Theorem C79_intact_connections_stream : forall w a ls s tr, nruns w ls s tr -> well_joined w -> served w a -> net_clocks ls -> few_events (n_ep s a) -> net_rest w s -> room (at_node a tr) ->
  forall k b, peer w a k = Some (b, 0%nat) -> ~ In (OAborted k) (at_node a tr) -> ~ In (OClosed k) (at_node a tr) -> ~ In (OClosed 0) (at_node b tr) -> (forall j cx r, ~ In (OCut j cx r) (at_node b tr)) ->
  forall i h c i' ctx e, In (OOpened i h (ev_id e) c) (at_node a tr) -> In (OSent i' ctx e) (at_node a tr) -> c_conn ctx = k -> never_handled (ev_id e) (at_node a tr) ->
  exists j sc, In (OCalled 0 j (mk_context 0 (Some (ev_id e))) sc (drop_empty_ns e)) (at_node b tr) /\ streamed (replies_of_task j (at_node b tr)) (items h (at_node a tr))
    /\ (In (OPanicked j) (at_node b tr) \/ exists r, returned j (at_node b tr) = [r])
    /\ forall t kk, option_map tk_st (nth_error (e_tasks (n_ep s a)) t) = Some (TNext h kk) ->
         items h (at_node a tr) = yields (replies_of_task j (at_node b tr)) /\ (In (OPanicked j) (at_node b tr) \/ exists er, returned j (at_node b tr) = [inr er]).
Proof. intros w a ls s tr H WJ SV GC FE R RM. exact (net_stream_end w a WJ SV _ _ _ H GC FE R RM). Qed.
Print Assumptions C79_intact_connections_stream.

(** A pooled client with three connections to three servers that count their events from the same number; it asks "ping" over
    the first, "fail" over the second and "ping" over the third. The third server's writes fail. *)
Definition asks_over (k : nat) (name : bytes) : prog := PAwait (mk_request (mk_context k None) (Some []) name (Ok [x07])) (fun _ => PRet (inl [])).
Definition streams_over (k : nat) (name : bytes) : prog :=
  PStream (mk_request (mk_context k None) (Some []) name (Ok [x07])) (fun r => match r with Some (Ok h) => PNext h (fun _ => PNext h (fun _ => PNext h (fun _ => PRet (inl [])))) | _ => PRet (inl []) end).
Definition w79 : network := mk_network
  (fun i => match i with
            | 0%nat => mk_node ex_cf 3 true [asks_over 0 (str "ping"); asks_over 1 (str "fail"); asks_over 2 (str "ping"); streams_over 1 (str "ping")] 0
            | _ => mk_node ex_cf 1 false [] 1000
            end)
  (fun i k => match i, k with
              | 0, 0 => Some (1, 0) | 0, 1 => Some (2, 0) | 0, 2 => Some (3, 0)
              | 1, 0 => Some (0, 0) | 2, 0 => Some (0, 1) | 3, 0 => Some (0, 2)
              | _, _ => None
              end%nat).
Definition at_ (i t : nat) : nlabel := NDo i (LTask t go).
Definition ls79 : list nlabel :=
  (repeat (at_ 0 2) 3 ++ repeat (at_ 0 1) 3 ++ repeat (at_ 0 0) 3 ++ repeat (at_ 0 3) 4 ++ [NDeliver 3 0; NDeliver 2 0; NDeliver 2 0; NDeliver 1 0]
  ++ [at_ 3 0; NDo 3 (LTask 0 (AFail WriteZero)); at_ 3 0; NDo 3 (LTask 0 (AFail WriteZero)); at_ 3 0; NDo 3 (LTask 0 (AFail WriteZero)); at_ 3 0]
  ++ repeat (at_ 2 1) 7 ++ repeat (at_ 2 0) 2 ++ repeat (at_ 1 0) 7
  ++ [NDeliver 0 1; NDo 0 (LPlace 1); at_ 0 3; at_ 0 3; NDeliver 0 1; NDo 0 (LPlace 1); at_ 0 3; at_ 0 3; NDeliver 0 1; NDo 0 (LPlace 1); at_ 0 3; at_ 0 3; at_ 0 3;
      NDeliver 0 1; NDo 0 (LPlace 1); at_ 0 1; at_ 0 1; at_ 0 1; NDeliver 0 0; NDo 0 (LPlace 0); at_ 0 0; at_ 0 0; at_ 0 0;
      NDeliver 0 0; NDeliver 0 0; at_ 0 4; at_ 0 4; NDeliver 1 0; at_ 0 4; NClose 0 2])%list%nat.
Definition ended79 : net * list (nat * obs) := match nrun w79 (net_new w79) ls79 with Some r => r | None => (net_new w79, []) end.
Lemma runs79 : nruns w79 ls79 (fst ended79) (snd ended79).
Proof.
  unfold nruns, ended79. assert (Q : match nrun w79 (net_new w79) ls79 with Some _ => true | None => false end = true) by (vm_compute; reflexivity).
  destruct (nrun w79 (net_new w79) ls79) as [[s tr]|]; [reflexivity|discriminate Q].
Qed.
Lemma joined79 : well_joined w79.
Proof.
  intros i k j m H. destruct i as [|[|[|[|i]]]]; destruct k as [|[|[|k]]]; cbn in H; try discriminate H; injection H as <- <-; (split; [reflexivity|]); apply Nat.leb_le; reflexivity.
Qed.
Lemma served79 : served w79 0.
Proof.
  intros k b m H. assert (E : node_of w79 b = mk_node ex_cf 1 false [] 1000) by (destruct k as [|[|[|k]]]; cbn in H; try discriminate H; injection H as <- <-; reflexivity).
  split; [|rewrite E; exact ex_debug_fits]. unfold server_node. rewrite E. split; [exact ex_only_replies|]. split; reflexivity.
Qed.
Lemma rest79 : net_rest w79 (fst ended79).
Proof.
  split.
  - intros l H. destruct l as [i [j [| | |]|n e|n|n|n|h|]|i k|i k]; try discriminate H.
    + destruct i as [|[|[|[|i]]]]; (do 6 (try (destruct j as [|j]; [vm_compute; reflexivity|]))); vm_compute; reflexivity.
    + destruct i as [|[|[|[|i]]]]; (do 4 (try (destruct n as [|n]; [vm_compute; reflexivity|]))); vm_compute; reflexivity.
    + destruct i as [|[|[|[|i]]]]; (do 4 (try (destruct n as [|n]; [vm_compute; reflexivity|]))); vm_compute; reflexivity.
    + destruct i as [|[|[|[|i]]]]; (do 4 (try (destruct k as [|k]; [vm_compute; reflexivity|]))); vm_compute; reflexivity.
  - intros i l (j & ctx & e & pu & k & -> & H & _). exfalso.
    destruct i as [|[|[|[|i]]]]; (do 6 (try (destruct j as [|j]; [revert H; vm_compute; discriminate|]))); revert H; vm_compute; discriminate.
Qed.
(** what is observed at the four endpoints *)
Definition seen79 (i : nat) : list obs := Eval vm_compute in
  match i with 0%nat => at_node 0 (snd ended79) | 1%nat => at_node 1 (snd ended79) | 2%nat => at_node 2 (snd ended79) | _ => at_node 3 (snd ended79) end.
Lemma seen79_is : forall i, (i <= 3)%nat -> at_node i (snd ended79) = seen79 i.
Proof. intros i H. destruct i as [|[|[|[|i]]]]; [vm_compute; reflexivity..|lia]. Qed.
Example C79_case : exists s tr, nruns w79 ls79 s tr /\ well_joined w79 /\ served w79 0 /\ net_clocks ls79 /\ few_events (n_ep s 0%nat) /\ net_rest w79 s /\ room (at_node 0 tr)
  /\ (forall k b, In (k, b) [(0, 1); (1, 2)]%nat -> peer w79 0 k = Some (b, 0%nat) /\ ~ In (OAborted k) (at_node 0 tr) /\ ~ In (OClosed k) (at_node 0 tr) /\ ~ In (OClosed 0) (at_node b tr) /\ forall j cx r, ~ In (OCut j cx r) (at_node b tr))
  /\ In (OClosed 2) (at_node 0 tr) /\ (exists cx r, In (OCut 0 cx r) (at_node 3 tr))
  /\ (forall i k n name, In (i, k, n, name) [(0%nat, 0%nat, 2, str "ping"); (1%nat, 1%nat, 1, str "fail"); (3%nat, 1%nat, 3, str "ping")] -> let e := event_new (nth_id at1 n) (Some []) name [x07] None Initiator in
        In (OSent i (mk_context k None) e) (at_node 0 tr) /\ In (OListen i (ev_id e) (N.to_nat n)) (at_node 0 tr) /\ never_handled (ev_id e) (at_node 0 tr))
  /\ flat_map (fun o => match o with OReply i x r => [(i, x, r)] | _ => [] end) (at_node 0 tr)
     = [(1%nat, nth_id at1 1, Some (Err (ErrorEvent (mk_err_data 500 (str "Timeout")))));
        (0%nat, nth_id at1 2, Some (Ok (event_new (nth_id at1 1000) None (str "pong") [x01] (Some (nth_id at1 2)) Response)))]
  /\ In (OOpened 3 0 (nth_id at1 3) 3) (at_node 0 tr)
  /\ items 0 (at_node 0 tr) = map (fun e => Some (Ok e))
      [event_new (nth_id at1 1000) None (str "pong") [x01] (Some (nth_id at1 3)) Response; event_new (nth_id at1 1001) (Some (str "ns")) (str "pong") [x02] (Some (nth_id at1 3)) Response;
       event_new (nth_id at1 1002) None END_EVENT_NAME [x07] (Some (nth_id at1 3)) End].
Proof.
  exists (fst ended79), (snd ended79). split; [exact runs79|]. split; [exact joined79|]. split; [exact served79|].
  split. { intros n i t v H. assert (A : forallb (fun l => match l with NDo _ (LTask _ (AStep t _)) => (secs t <? U64) && (millis t <? 1000) | _ => true end) ls79 = true) by (vm_compute; reflexivity).
    rewrite forallb_forall in A. specialize (A _ H). cbn in A. apply andb_true_iff in A. destruct A as [A B]. apply N.ltb_lt in A, B. split; assumption. }
  split; [vm_compute; discriminate|]. split; [exact rest79|].
  pose proof (seen79_is 0 ltac:(lia)) as S0. pose proof (seen79_is 1 ltac:(lia)) as S1. pose proof (seen79_is 2 ltac:(lia)) as S2. pose proof (seen79_is 3 ltac:(lia)) as S3. cbv beta. rewrite S0, S3.
  split. { intros j h y c H. right. vm_compute in H. repeat (destruct H as [H|H]; [try discriminate H|]); [injection H as <- <- <- <-; apply Nat.ltb_lt; vm_compute; reflexivity|destruct H]. }
  split. { intros k b [H|[H|[]]]; injection H as <- <-; rewrite ?S1, ?S2; clear; (split; [reflexivity|]); (split; [|split; [|split; [|intros j cx r]]]); intros H; vm_compute in H; repeat (destruct H as [H|H]; [discriminate H|]); destruct H. }
  split; [vm_compute; intuition (reflexivity || fail)|]. split; [eexists _, _; vm_compute; do 2 right; left; reflexivity|].
  split. { intros i k n name [H|[H|[H|[]]]]; injection H as <- <- <- <-; (split; [vm_compute; intuition (reflexivity || fail)|]); (split; [vm_compute; intuition (reflexivity || fail)|]);
    intros m j cx sc e H; vm_compute in H; repeat (destruct H as [H|H]; [try discriminate H|]); solve [injection H as <- <- <- <- <-; vm_compute; discriminate|destruct H]. }
  split; [vm_compute; reflexivity|]. split; [vm_compute; intuition (reflexivity || fail)|vm_compute; reflexivity].
Qed.
