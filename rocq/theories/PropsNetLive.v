(** Properties of endless runs of networks of endpoints: C85. *)
From Coq Require Import Strings.String.
From Verif Require Import Base BaseFacts Codec Spec Ids Payload Builder Emit Ipc IpcFacts SpecIpc IpcClaims Pair SpecPair PairFacts PairRest PairServer SpecLive PairLive Net SpecNet NetServer NetFacts NetEnd NetRest SpecNetLive NetLive NetLiveMore NetLiveRuns PropsDispatch PropsPair PropsLive PropsNet.

(** ** C85 *)
(** In any network, whatever else goes on: an endpoint whose tasks get their turns completes every send of a request, or the write fails. *)
Theorem C85_sends_complete_or_fail : forall w f st ob i, endless_net w f st ob -> nclocks f -> fair_at w f st i ->
  forall n j x c, In (OListen j x c) (seen_at ob i n) ->
  exists m ctx e, (n <= m)%nat /\ ev_id e = x /\ (In (OSent j ctx e) (seen_at ob i m) \/ In (OCut j ctx e) (seen_at ob i m)).
Proof.
  intros w f st ob i EN CK FA n j x c H. destruct (node_run w f st ob EN CK i n) as (ls & RA & _).
  destruct (listen_plain _ _ _ _ _ _ _ _ RA _ _ _ H) as [(ctx & e & pu & A & B & _)|(ctx & e & A & B & _)]; [|eauto 8].
  destruct (sending w f st ob EN (fun _ => False) i FA n j ctx e pu A) as (m & L & [[]|M]). eauto 8.
Qed.
Print Assumptions C85_sends_complete_or_fail.
(** Endpoint [a], a client or pooled client, is joined to connections servers have accepted; connection [k] of it leads to [b] and
    nothing is lost there. Only the tasks and loops at these two ends need to get their turns, and only the streams fed by [k]
    need to be read: everything else may stop, break, or go on for ever.
    Then every request sent over [k] is handled at [b], and it gets what that handler emitted first, or times out or is given up;
    or the handler panics before it has sent anything; or [a]'s process creates more than 2^32 events (then ids can repeat). *)
Theorem C85_requests_over_intact_connections_are_answered : forall w a k b f st ob,
  well_joined w -> served w a -> peer w a k = Some (b, 0%nat) -> endless_net w f st ob -> nclocks f ->
  fair_at w f st a -> fair_on w f st a k -> fair_at w f st b -> fair_on w f st b 0 ->
  drained_over ob a k -> intact ob a k b -> all_speak (nd_cf (node_of w b)) ->
  forall n i0 ctx e i c, In (OSent i0 ctx e) (seen_at ob a n) -> c_conn ctx = k -> In (OListen i (ev_id e) c) (seen_at ob a n) ->
    (forall m h, ~ In (OOpened i h (ev_id e) c) (seen_at ob a m)) -> (forall m, never_handled (ev_id e) (seen_at ob a m)) ->
  exists m, (n <= m)%nat /\ (~ few_events (n_ep (st m) a)
    \/ exists j sc, In (OCalled 0 j (mk_context 0 (Some (ev_id e))) sc (drop_empty_ns e)) (seen_at ob b m)
         /\ ((exists r, In (OReply i (ev_id e) r) (seen_at ob a m) /\ (r = None \/ r = Some (Err Timeout) \/ exists r', r = Some r' /\ answered (nd_cf (node_of w b)) (seen_at ob b m) j r'))
             \/ (In (OPanicked j) (seen_at ob b m) /\ sent j (seen_at ob b m) = []))).
Proof.
  intros w a k b f st ob WJ SV PK EN CK FA FK FB F0 DR IN AS n i0 ctx e i c HS Ek HL NO NH.
  exact (net_request_live w a k b f st ob WJ SV PK EN CK FA FK FB F0 DR IN n i0 i ctx e c HS Ek HL NH NO AS).
Qed.
Print Assumptions C85_requests_over_intact_connections_are_answered.
(** A request sent over [k] is handled as soon as the loop of [b] goes on: nothing else has to get its turns. *)
Theorem C85_every_request_is_handled : forall w a k b f st ob,
  well_joined w -> served w a -> peer w a k = Some (b, 0%nat) -> endless_net w f st ob -> nclocks f -> fair_on w f st b 0 -> intact ob a k b ->
  forall n i0 ctx e i c, In (OSent i0 ctx e) (seen_at ob a n) -> c_conn ctx = k -> In (OListen i (ev_id e) c) (seen_at ob a n) ->
  exists m, (n <= m)%nat /\ (~ few_events (n_ep (st m) a) \/ exists j sc, In (OCalled 0 j (mk_context 0 (Some (ev_id e))) sc (drop_empty_ns e)) (seen_at ob b m)).
Proof.
  intros w a k b f st ob WJ SV PK EN CK F0 IN n i0 ctx e i c HS Ek HL.
  exact (handled_live w a k b f st ob WJ SV PK EN CK F0 IN n i0 i ctx e c HS Ek HL).
Qed.
Print Assumptions C85_every_request_is_handled.
(** Every event the handler has sent for a request read as a stream is handed to that stream at some time, in order and without
    gaps, unless the stream ends or is dropped: only [a] and its loop need to get their turns. *)
Theorem C85_every_item_arrives : forall w a k b f st ob,
  well_joined w -> served w a -> peer w a k = Some (b, 0%nat) -> endless_net w f st ob -> nclocks f ->
  fair_at w f st a -> fair_on w f st a k -> drained_over ob a k -> intact ob a k b ->
  forall n i0 ctx e i h c j sc, In (OOpened i h (ev_id e) c) (seen_at ob a n) -> In (OSent i0 ctx e) (seen_at ob a n) -> c_conn ctx = k -> (forall m, never_handled (ev_id e) (seen_at ob a m)) ->
    In (OCalled 0 j (mk_context 0 (Some (ev_id e))) sc (drop_empty_ns e)) (seen_at ob b n) ->
  exists m, (n <= m)%nat /\ (~ few_events (n_ep (st m) a) \/ gone (seen_at ob a m) c
    \/ exists rest, queued c (seen_at ob a m) = replies_of_task j (seen_at ob b n) ++ rest).
Proof.
  intros w a k b f st ob WJ SV PK EN CK FA FK DR IN n i0 ctx e i h c j sc HO HS Ek NH HC.
  destruct (node_run w f st ob EN CK a n) as (la & RA & _). destruct (stream_request _ _ _ _ _ _ _ _ _ _ _ _ RA HO) as (i' & HL & _).
  refine (items_live w a k b f st ob WJ SV PK EN CK FA FK DR IN n i0 i' ctx e c HS Ek HL NH j _). exists sc. exact HC.
Qed.
Print Assumptions C85_every_item_arrives.
(** Such runs exist: in every network turns can be given to tasks and loops so that all of this is met, at all endpoints. *)
Theorem C85_fair_runs_exist : forall w, exists f st ob, endless_net w f st ob /\ nclocks f /\ (forall i, fair_at w f st i) /\ forall i k, fair_on w f st i k.
Proof. intros w. exists (nf w nin_turn), (nst w nin_turn), (nob w nin_turn). exact (net_fair_run w). Qed.
Print Assumptions C85_fair_runs_exist.

(** The client of C79 with a task more, that goes on for ever: it asks "ping" over the first connection, "fail" over the second, reads
    the replies to "ping" over the second as a stream, and asks over a third, which breaks. *)
Definition w85 : network := mk_network
  (fun i => match i with
            | 0%nat => mk_node ex_cf 3 true [asks_over 0 (str "ping"); asks_over 1 (str "fail"); asks_over 2 (str "ping"); streams_over 1 (str "ping"); spin] 0
            | _ => mk_node ex_cf 1 false [] 1000
            end)
  (peer w79).
Definition ls85 : list nlabel := Eval vm_compute in
  (at_ 0 4 :: map (fun l => match l with NDo 0%nat (LTask 4%nat a) => NDo 0%nat (LTask 5%nat a) | _ => l end) ls79).
Definition n85 : nat := Eval vm_compute in List.length ls85.
Definition g85 (n : nat) : nlabel := nth n ls85 (at_ 0 4).
Definition st85 : nat -> net := nst w85 g85.
Definition f85 : nat -> option nlabel := nf w85 g85.
Definition ob85 : nat -> list (nat * obs) := nob w85 g85.
Definition view85 (s : net) : (ep * ep * ep * ep) * (list event * list event * list event * list event) :=
  ((n_ep s 0%nat, n_ep s 1%nat, n_ep s 2%nat, n_ep s 3%nat), (n_in s 0%nat 0%nat, n_in s 0%nat 1%nat, n_in s 1%nat 0%nat, n_in s 2%nat 0%nat)).
Lemma all85 : forallb (fun n => match f85 n with Some _ => true | None => false end) (seq 0 n85) = true.
Proof. vm_compute. reflexivity. Qed.
Lemma joined85 : well_joined w85.
Proof. intros i k j m H. destruct (joined79 i k j m H) as [A B]. split; [exact A|]. destruct i as [|i]; exact B. Qed.
Lemma served85 : served w85 0.
Proof.
  intros k b m H. assert (E : node_of w85 b = mk_node ex_cf 1 false [] 1000) by (destruct k as [|[|[|k]]]; cbn in H; try discriminate H; injection H as <- <-; reflexivity).
  split; [|rewrite E; exact ex_debug_fits]. unfold server_node. rewrite E. split; [exact ex_only_replies|]. split; reflexivity.
Qed.
Lemma carried_none w i j m : carried w i [] j m = [].
Proof. unfold carried. destruct (peer w j m) as [[i' k]|]; [destruct (Nat.eqb i' i)|]; reflexivity. Qed.
Lemma view85_parts s s' : view85 s = view85 s' -> (forall i, (i <= 3)%nat -> n_ep s i = n_ep s' i) /\ n_in s 0%nat 0%nat = n_in s' 0%nat 0%nat /\ n_in s 0%nat 1%nat = n_in s' 0%nat 1%nat /\ n_in s 1%nat 0%nat = n_in s' 1%nat 0%nat /\ n_in s 2%nat 0%nat = n_in s' 2%nat 0%nat.
Proof. unfold view85. intros H. injection H as A0 A1 A2 A3 B0 B1 B2 B3. split; [|auto]. intros i L. destruct i as [|[|[|[|i]]]]; [assumption..|lia]. Qed.
Lemma spins85 s0 : step ex_cf (n_ep s0 0%nat) (LTask 4 go) = Some (n_ep s0 0%nat, []) -> forall s, view85 s = view85 s0 -> exists s', nstep w85 s (at_ 0 4) = Some (s', []) /\ view85 s' = view85 s0.
Proof.
  intros SS s H. pose proof (view85_parts _ _ H) as (E & _). rewrite <- (E 0%nat) in SS by lia. unfold at_. cbn [nstep own_label]. change (nd_cf (node_of w85 0)) with ex_cf. rewrite SS. cbn [drops_send existsb orb map].
  eexists. split; [reflexivity|]. rewrite <- H. unfold view85. cbn [n_ep n_in put_at Nat.eqb]. rewrite !carried_none, !app_nil_r. reflexivity.
Qed.
Lemma spin85 : step ex_cf (n_ep (st85 n85) 0%nat) (LTask 4 go) = Some (n_ep (st85 n85) 0%nat, []).
Proof. vm_compute. reflexivity. Qed.
Lemma last85 d : g85 (n85 + d) = at_ 0 4.
Proof. apply nth_overflow. change (List.length ls85) with n85. lia. Qed.
Lemma stays85 : forall d, view85 (st85 (n85 + d)) = view85 (st85 n85) /\ net_so_far ob85 (n85 + d) = net_so_far ob85 n85 /\ f85 (n85 + d)%nat = Some (at_ 0 4).
Proof. exact (nsched_stays w85 g85 n85 (at_ 0 4) (fun s => view85 s = view85 (st85 n85)) last85 eq_refl (spins85 (st85 n85) spin85)). Qed.
Definition seen85 (i : nat) : list obs := Eval vm_compute in
  match i with 0%nat => seen_at ob85 0 n85 | 1%nat => seen_at ob85 1 n85 | 2%nat => seen_at ob85 2 n85 | _ => seen_at ob85 3 n85 end.
Lemma seen85_is : forall i, (i <= 3)%nat -> seen_at ob85 i n85 = seen85 i.
Proof. intros i H. destruct i as [|[|[|[|i]]]]; [vm_compute; reflexivity..|lia]. Qed.
Lemma later85 d i : seen_at ob85 i (n85 + d) = seen_at ob85 i n85.
Proof. unfold seen_at. rewrite (proj1 (proj2 (stays85 d))). reflexivity. Qed.
Lemma never85 i n o : (i <= 3)%nat -> In o (seen_at ob85 i n) -> In o (seen85 i).
Proof. intros L H. apply (nstill ob85 i n (n85 + n)) in H; [|lia]. rewrite later85, seen85_is in H by exact L. exact H. Qed.
Lemma stuck85 i j : (i <= 2)%nat -> (i, j) <> (0, 4)%nat -> stuck ex_cf (n_ep (st85 n85) i) j.
Proof.
  intros L N t v. destruct i as [|[|[|i]]]; [| | |lia].
  - do 4 (destruct j as [|j]; [vm_compute; reflexivity|]). destruct j as [|j]; [congruence|]. do 4 (try (destruct j as [|j]; [vm_compute; reflexivity|])); vm_compute; destruct j; reflexivity.
  - do 6 (try (destruct j as [|j]; [vm_compute; reflexivity|])); vm_compute; destruct j; reflexivity.
  - do 6 (try (destruct j as [|j]; [vm_compute; reflexivity|])); vm_compute; destruct j; reflexivity.
Qed.
Lemma cf85 i : nd_cf (node_of w85 i) = ex_cf. Proof. destruct i; reflexivity. Qed.
Lemma fair85 : forall i, (i <= 2)%nat -> fair_at w85 f85 st85 i.
Proof.
  intros i L j n. exists (n85 + n)%nat. split; [lia|].
  assert (D : (i, j) = (0, 4)%nat \/ (i, j) <> (0, 4)%nat) by (destruct (Nat.eq_dec i 0) as [->|], (Nat.eq_dec j 4) as [->|]; auto; right; congruence).
  destruct D as [D|D]; [left|right].
  - injection D as -> ->. exists go. apply stays85.
  - rewrite cf85. destruct (view85_parts _ _ (proj1 (stays85 n))) as (E & _). rewrite E by lia. apply stuck85; assumption.
Qed.
Lemma loops85 : forall i k, In (i, k) [(0, 0); (0, 1); (1, 0); (2, 0)]%nat -> fair_on w85 f85 st85 i k.
Proof.
  intros i k Hk l Hl n. exists (n85 + n)%nat. split; [lia|]. right. destruct (view85_parts _ _ (proj1 (stays85 n))) as (E & I0 & I1 & I2 & I3).
  assert (R1 : n_in (st85 (n85 + n)) i k = []) by (destruct Hk as [Q|[Q|[Q|[Q|[]]]]]; injection Q as <- <-; [rewrite I0|rewrite I1|rewrite I2|rewrite I3]; vm_compute; reflexivity).
  assert (R2 : step ex_cf (n_ep (st85 (n85 + n)) i) (LPlace k) = None) by (destruct Hk as [Q|[Q|[Q|[Q|[]]]]]; injection Q as <- <-; rewrite E by lia; vm_compute; reflexivity).
  destruct Hl as [-> | ->]; cbn [nstep own_label]; [rewrite R1; reflexivity|rewrite cf85, R2; reflexivity].
Qed.
Lemma drained85 k : drained_over ob85 0 k.
Proof.
  intros n j h y c e H _ _. exists (n85 + n)%nat. split; [lia|]. apply never85 in H; [|lia]. rewrite later85, seen85_is by lia. right.
  vm_compute in H. repeat (destruct H as [H|H]; [try discriminate H|]); [injection H as <- <- <- <-; apply Nat.ltb_lt; vm_compute; reflexivity|destruct H].
Qed.
Lemma intact85 : forall k b, In (k, b) [(0, 1); (1, 2)]%nat -> intact ob85 0 k b.
Proof.
  intros k b H n. destruct H as [H|[H|[]]]; injection H as <- <-; (split; [|split; [|split; [|intros j cx r]]]); intros H; apply never85 in H; try lia; revert H; vm_compute; intros H; repeat (destruct H as [H|H]; [discriminate H|]); destruct H.
Qed.
(** The requests over the first two connections are answered, the stream has yielded all; the third connection is lost, and the
    client's last task goes on. *)
Example C85_case : well_joined w85 /\ served w85 0 /\ peer w85 0 0 = Some (1, 0)%nat /\ peer w85 0 1 = Some (2, 0)%nat /\ endless_net w85 f85 st85 ob85 /\ nclocks f85
  /\ (forall i, (i <= 2)%nat -> fair_at w85 f85 st85 i) /\ (forall i k, In (i, k) [(0, 0); (0, 1); (1, 0); (2, 0)]%nat -> fair_on w85 f85 st85 i k)
  /\ (forall k, drained_over ob85 0 k) /\ (forall k b, In (k, b) [(0, 1); (1, 2)]%nat -> intact ob85 0 k b) /\ (forall i, all_speak (nd_cf (node_of w85 i)))
  /\ In (OClosed 2) (seen_at ob85 0 n85) /\ (exists cx r, In (OCut 0 cx r) (seen_at ob85 3 n85))
  /\ (forall i k n name, In (i, k, n, name) [(0%nat, 0%nat, 2, str "ping"); (1%nat, 1%nat, 1, str "fail"); (3%nat, 1%nat, 3, str "ping")] -> let e := event_new (nth_id at1 n) (Some []) name [x07] None Initiator in
        In (OSent i (mk_context k None) e) (seen_at ob85 0 20) /\ In (OListen i (ev_id e) (N.to_nat n)) (seen_at ob85 0 20) /\ (forall m, never_handled (ev_id e) (seen_at ob85 0 m))
        /\ forall m h, (i < 2)%nat -> ~ In (OOpened i h (ev_id e) (N.to_nat n)) (seen_at ob85 0 m))
  /\ (forall n, few_events (n_ep (st85 (n85 + n)) 0%nat))
  /\ flat_map (fun o => match o with OReply i x r => [(i, x, r)] | _ => [] end) (seen_at ob85 0 n85)
     = [(1%nat, nth_id at1 1, Some (Err (ErrorEvent (mk_err_data 500 (str "Timeout")))));
        (0%nat, nth_id at1 2, Some (Ok (event_new (nth_id at1 1000) None (str "pong") [x01] (Some (nth_id at1 2)) Response)))]
  /\ In (OOpened 3 0 (nth_id at1 3) 3) (seen_at ob85 0 20) /\ List.length (queued 3 (seen_at ob85 0 n85)) = 3%nat
  /\ forall n, exists m, (n <= m)%nat /\ f85 m <> None.
Proof.
  split; [exact joined85|]. split; [exact served85|]. split; [reflexivity|]. split; [reflexivity|]. split; [apply nscheduled|]. split.
  { intros n i j t v H. unfold f85, nf in H. destruct (nstep w85 (nst w85 g85 n) (g85 n)); [|discriminate]. injection H as H. unfold g85 in H.
    assert (A : Forall (fun l => match l with NDo _ (LTask _ (AStep t _)) => rust_instant t | _ => True end) (at_ 0 4 :: ls85)) by (repeat constructor).
    rewrite Forall_forall in A. destruct (nth_in_or_default n ls85 (at_ 0 4)) as [Q|Q]; [specialize (A _ (or_intror Q))|specialize (A _ (or_introl (eq_sym Q)))]; rewrite H in A; exact A. }
  split; [exact fair85|]. split; [exact loops85|]. split; [exact drained85|]. split; [exact intact85|]. split; [intros i; rewrite cf85; exact ex_all_speak|].
  rewrite !(seen85_is 0), (seen85_is 3) by lia.
  split; [vm_compute; tauto|]. split; [eexists _, _; vm_compute; do 2 right; left; reflexivity|].
  split. { intros i k n name [H|[H|[H|[]]]]; injection H as <- <- <- <-; (split; [vm_compute; tauto|]); (split; [vm_compute; tauto|]); (split; [intros q m j cx sc e H; apply never85 in H; [|lia]|intros m h L H; apply never85 in H; [|lia]]); revert H; vm_compute; intros H;
    repeat (destruct H as [H|H]; [try discriminate H|]); try (destruct H; fail); try (injection H as <- <- <- <- <-; vm_compute; discriminate); lia. }
  split. { intros n. destruct (view85_parts _ _ (proj1 (stays85 n))) as (E & _). rewrite E by lia. vm_compute. discriminate. }
  split; [vm_compute; reflexivity|]. split; [vm_compute; tauto|]. split; [vm_compute; reflexivity|].
  intros n. exists (n85 + n)%nat. split; [lia|]. rewrite (proj2 (proj2 (stays85 n))). discriminate.
Qed.
