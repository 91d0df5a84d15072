(** Properties of endless runs of two endpoints that both ask and answer: C83. *)
From Coq Require Import Strings.String.
From Verif Require Import Base BaseFacts Codec Spec Ids Payload Builder Emit Ipc SpecIpc Pair SpecPair PairFacts Bounded SpecBounded BoundedFacts SpecLive PairLive PairLiveMore SpecPeers PeersFacts PeersRest PeersFresh SpecNested PeersLive BoundLive PropsDispatch PropsPair PropsLive PropsPeers PropsPeersEx.

(** ** C83 *)
(** Both ends run any tasks and handlers that ask, answer and spawn but open no reply streams. Handlers end once their requests have
    results. The run need not come to rest: tasks, and what handlers spawn, may go on for ever; every task and receive loop that can go
    on does so at some time. Then every request awaited gets its result at some time, or the task panics on it, or it leads to a panic
    of a handler or to a request that was read as a reply; or one end makes more than 2^32 events (then ids can repeat; it is so when
    handlers ask each other round in circles without end). *)
Theorem C83_nested_requests : forall cf ps ctr f st ob,
  endless cf ps ctr f st ob -> clocks f -> fair_tasks cf f st -> fair_loops cf f st ->
  (forall sd, plain_handlers (cf sd)) -> (forall sd, Forall (plain_code None) (ps sd)) -> (forall sd, handlers_finish (cf sd)) ->
  forall sd n i x c, In (OListen i x c) (at_side sd (so_far ob n)) ->
  exists m, (n <= m)%nat /\ (too_many st m \/ (exists r, In (OReply i x r) (at_side sd (so_far ob m))) \/ In (OPanicked i) (at_side sd (so_far ob m)) \/ blocked (so_far ob m) sd i x).
Proof. intros cf ps ctr f st ob EN CK FT FL PH PP AF sd n i x c H. exact (nested_live cf ps ctr f st ob EN CK FL PH PP (fun s => fair_turns cf f st (too_many st) s FT) AF sd n i x c H). Qed.
Print Assumptions C83_nested_requests.
(** Every handler called sends its answer at some time, unless it panics or a request it waits for is held up in that way. *)
Theorem C83_handlers_answer : forall cf ps ctr f st ob,
  endless cf ps ctr f st ob -> clocks f -> fair_tasks cf f st -> fair_loops cf f st ->
  (forall sd, plain_handlers (cf sd)) -> (forall sd, Forall (plain_code None) (ps sd)) -> (forall sd, handlers_finish (cf sd)) ->
  forall sd n j ctx sc q, In (OCalled 0 j ctx sc q) (at_side sd (so_far ob n)) ->
  exists m, (n <= m)%nat /\ (too_many st m
    \/ (exists r cx a, In (OReturned j r) (at_side sd (so_far ob m)) /\ In (OSent j cx a) (at_side sd (so_far ob m)) /\ answers (cf sd) q r a)
    \/ In (OPanicked j) (at_side sd (so_far ob m)) \/ exists y, blocked (so_far ob m) sd j y).
Proof.
  intros cf ps ctr f st ob EN CK FT FL PH PP AF sd n j ctx sc q H. destruct (handlers_live cf ps ctr f st ob EN CK FL PH PP (fun s => fair_turns cf f st (too_many st) s FT) AF sd n j ctx sc q H) as (m & L & [M|[A|[A|(_ & A)]]]); exists m; auto.
Qed.
Print Assumptions C83_handlers_answer.
(** So if nobody panics and no asking event is read as a reply, every request gets its result and every handler answers. *)
Lemma never_blocked ob m : (forall n sd i, ~ In (OPanicked i) (at_side sd (so_far ob n))) -> asks_freely (so_far ob m) -> forall sd i x, ~ blocked (so_far ob m) sd i x.
Proof.
  intros NP AF sd i x B. induction B as [sd i x j P1 P2 P3|sd i x c q P1 P2 P3|sd i x j y P1 P2 P3 IH]; [exact (NP _ _ _ P3)| |exact IH].
  destruct P1 as ((d & P1) & _). exact (AF _ _ _ _ _ _ P1 P2 P3).
Qed.
Theorem C83_all_get_results : forall cf ps ctr f st ob,
  endless cf ps ctr f st ob -> clocks f -> fair_tasks cf f st -> fair_loops cf f st ->
  (forall sd, plain_handlers (cf sd)) -> (forall sd, Forall (plain_code None) (ps sd)) -> (forall sd, handlers_finish (cf sd)) ->
  (forall n sd i, ~ In (OPanicked i) (at_side sd (so_far ob n))) -> (forall n, asks_freely (so_far ob n)) ->
  (forall sd n i x c, In (OListen i x c) (at_side sd (so_far ob n)) -> exists m, (n <= m)%nat /\ (too_many st m \/ exists r, In (OReply i x r) (at_side sd (so_far ob m))))
  /\ (forall sd n j ctx sc q, In (OCalled 0 j ctx sc q) (at_side sd (so_far ob n)) ->
       exists m, (n <= m)%nat /\ (too_many st m \/ exists r cx a, In (OReturned j r) (at_side sd (so_far ob m)) /\ In (OSent j cx a) (at_side sd (so_far ob m)) /\ answers (cf sd) q r a)).
Proof.
  intros cf ps ctr f st ob EN CK FT FL PH PP AF NP AQ. split.
  - intros sd n i x c H. destruct (C83_nested_requests cf ps ctr f st ob EN CK FT FL PH PP AF sd n i x c H) as (m & L & [M|[A|[A|A]]]); exists m; (split; [exact L|]); auto.
    + destruct (NP _ _ _ A).
    + destruct (never_blocked ob m NP (AQ m) _ _ _ A).
  - intros sd n j ctx sc q H. destruct (C83_handlers_answer cf ps ctr f st ob EN CK FT FL PH PP AF sd n j ctx sc q H) as (m & L & [M|[A|[A|(y & A)]]]); exists m; (split; [exact L|]); auto.
    + destruct (NP _ _ _ A).
    + destruct (never_blocked ob m NP (AQ m) _ _ _ A).
Qed.
Print Assumptions C83_all_get_results.
(** No asking event is read as a reply if tasks and handlers ask only through contexts without reference. *)
Theorem C83_fresh_requests_get_results : forall cf ps ctr f st ob,
  endless cf ps ctr f st ob -> clocks f -> fair_tasks cf f st -> fair_loops cf f st ->
  (forall sd, plain_handlers (cf sd)) -> (forall sd, Forall (plain_code None) (ps sd)) -> (forall sd, handlers_finish (cf sd)) ->
  (forall sd, fresh_handlers (cf sd)) -> (forall sd, Forall asks_fresh (ps sd)) ->
  (forall n sd i, ~ In (OPanicked i) (at_side sd (so_far ob n))) ->
  forall sd n i x c, In (OListen i x c) (at_side sd (so_far ob n)) -> exists m, (n <= m)%nat /\ (too_many st m \/ exists r, In (OReply i x r) (at_side sd (so_far ob m))).
Proof.
  intros cf ps ctr f st ob EN CK FT FL PH PP AF FH FP NP sd n i x c H.
  destruct (C83_nested_requests cf ps ctr f st ob EN CK FT FL PH PP AF sd n i x c H) as (m & L & [M|[A|[A|A]]]); exists m; (split; [exact L|]); auto.
  - destruct (NP _ _ _ A).
  - left. destruct (N.le_gt_cases (e_ctr (p_ep (st m) SideA)) (2 ^ 32)) as [LA|LA]; [|exists SideA; unfold few_events; lia]. destruct (N.le_gt_cases (e_ctr (p_ep (st m) SideB)) (2 ^ 32)) as [LB|LB]; [|exists SideB; unfold few_events; lia].
    exfalso. destruct (prefix _ _ _ _ _ _ EN CK m) as (ls & HR & GC). refine (never_blocked ob m NP _ _ _ _ A).
    apply (C82_fresh_requests_ask_freely cf ps ctr ls (st m) (so_far ob m) FH FP HR GC). intros [|]; assumption.
Qed.
Print Assumptions C83_fresh_requests_get_results.

(** The same over a connection that holds at most [cap] events per direction, if no sender is passed over for ever. *)
Theorem C83_bounded_capacity : forall cap cf ps ctr f st ob,
  endless_held cap cf ps ctr f st ob -> (0 < cap)%nat -> clocks f -> eager_tasks cap cf f st -> fair_loops cf f st ->
  (forall sd, plain_handlers (cf sd)) -> (forall sd, Forall (plain_code None) (ps sd)) -> (forall sd, handlers_finish (cf sd)) ->
  (forall sd n i x c, In (OListen i x c) (at_side sd (so_far ob n)) ->
    exists m, (n <= m)%nat /\ (too_many st m \/ (exists r, In (OReply i x r) (at_side sd (so_far ob m))) \/ In (OPanicked i) (at_side sd (so_far ob m)) \/ blocked (so_far ob m) sd i x))
  /\ (forall sd n j ctx sc q, In (OCalled 0 j ctx sc q) (at_side sd (so_far ob n)) ->
    exists m, (n <= m)%nat /\ (too_many st m
      \/ (exists r cx a, In (OReturned j r) (at_side sd (so_far ob m)) /\ In (OSent j cx a) (at_side sd (so_far ob m)) /\ answers (cf sd) q r a)
      \/ In (OPanicked j) (at_side sd (so_far ob m)) \/ exists y, blocked (so_far ob m) sd j y)).
Proof.
  intros cap cf ps ctr f st ob EB CAP CK FS FL PH PP AF. pose proof (held_endless cap cf ps ctr f st ob EB) as EN. pose proof (all_have_turns cap cf ps ctr f st ob EB CAP CK FS FL PH PP) as FT. split.
  - intros sd n i x c H. exact (nested_live cf ps ctr f st ob EN CK FL PH PP FT AF sd n i x c H).
  - intros sd n j ctx sc q H. destruct (handlers_live cf ps ctr f st ob EN CK FL PH PP FT AF sd n j ctx sc q H) as (m & L & [M|[A|[A|(_ & A)]]]); exists m; auto.
Qed.
Print Assumptions C83_bounded_capacity.

(** Requests nested four deep ("bounce" asks the other end for "bounce" again), and a task that goes on for ever,
    over a connection that holds one event per direction. *)
Definition bounce : callback := fun ctx e =>
  match ev_data e with
  | [] => PRet (inl [])
  | _ :: d => PAwait (mk_request c00 None (str "bounce") (Ok d)) (fun _ => PRet (inl d))
  end.
Definition far : prog := PAwait (mk_request c00 None (str "bounce") (Ok [x01; x02; x03])) (fun _ => PRet (inl [])).
Definition h83 : event_handler callback := [(str "ping", ping); (str "relay", relay); (str "bounce", bounce)].
Definition cf83 : side -> config := fun _ => mk_config h83 [] (fun _ => str "Timeout") ex_env.
Definition ps83 : side -> list prog := fun sd => match sd with SideA => [far; asks (str "ping"); spin] | SideB => [asks (str "relay")] end.
Definition tries83 : list plabel := filter (fun l => match l with PDo SideA (LTask 2 _) => false | _ => true end) tries82.
Fixpoint eager83 (n : nat) (p : pair) : list plabel :=
  match n with
  | O => []
  | S n' => match find (fun l => match bstep 1 cf83 p l with Some _ => true | None => false end) tries83 with
            | Some l => match bstep 1 cf83 p l with Some (p', _) => l :: eager83 n' p' | None => [] end
            | None => []
            end
  end.
Definition ls83 : list plabel := Eval vm_compute in eager83 300 (pair_new ps83 ctr2 (fun _ => [])).
Definition n83 : nat := Eval vm_compute in List.length ls83.
Definition g83 (n : nat) : plabel := nth n ls83 (doA 2).
Definition st83 : nat -> pair := sst cf83 ps83 ctr2 g83.
Definition f83 : nat -> option plabel := sf cf83 ps83 ctr2 g83.
Definition ob83 : nat -> list (side * obs) := sob cf83 ps83 ctr2 g83.
Lemma spins83_any EA EB WA WB p : step (cf83 SideA) EA (LTask 2 go) = Some (EA, []) -> view81 p = ((EA, EB), (WA, WB)) -> exists p', pstep cf83 p (doA 2) = Some (p', []) /\ view81 p' = ((EA, EB), (WA, WB)).
Proof.
  intros SS H. destruct p as [E W]. unfold view81 in H. cbn [p_ep p_in] in H. injection H as H1 H1' H2 H2'. rewrite <- H1 in SS at 1.
  unfold doA. cbn [pstep own_label p_ep p_in]. rewrite SS. cbn [existsb map flat_map]. eexists. split; [reflexivity|]. unfold view81. cbn [p_ep p_in upd side_eqb other]. rewrite app_nil_r, H1', H2, H2'. reflexivity.
Qed.
Lemma spins83 : step (cf83 SideA) (p_ep (st83 n83) SideA) (LTask 2 go) = Some (p_ep (st83 n83) SideA, []).
Proof. vm_compute. reflexivity. Qed.
Lemma last83 d : g83 (n83 + d) = doA 2.
Proof. apply nth_overflow. change (List.length ls83) with n83. lia. Qed.
Lemma stays83 : forall d, view81 (st83 (n83 + d)) = view81 (st83 n83) /\ so_far ob83 (n83 + d) = so_far ob83 n83 /\ f83 (n83 + d)%nat = Some (doA 2).
Proof. exact (sched_stays cf83 ps83 ctr2 g83 n83 (doA 2) (fun p => view81 p = view81 (st83 n83)) last83 eq_refl (fun p => spins83_any _ _ _ _ p spins83)). Qed.
Lemma never83 sd o n : In o (at_side sd (so_far ob83 n)) -> In o (at_side sd (so_far ob83 n83)).
Proof. intros H. apply (PairLive.still ob83 sd n (n83 + n)) in H; [|lia]. destruct (stays83 n) as (_ & E & _). rewrite E in H. exact H. Qed.
Definition end83 : list (side * obs) := Eval vm_compute in so_far ob83 n83.
Lemma end83_is : so_far ob83 n83 = end83. Proof. vm_compute. reflexivity. Qed.
Lemma stuck83 sd i : (sd, i) <> (SideA, 2%nat) -> stuck (cf83 sd) (p_ep (st83 n83) sd) i.
Proof.
  intros N t v. destruct sd.
  - do 2 (destruct i as [|i]; [vm_compute; reflexivity|]). destruct i as [|i]; [congruence|]. do 8 (try (destruct i as [|i]; [vm_compute; reflexivity|])); vm_compute; destruct i; reflexivity.
  - do 8 (try (destruct i as [|i]; [vm_compute; reflexivity|])); vm_compute; destruct i; reflexivity.
Qed.
Lemma view83_at d sd : p_ep (st83 (n83 + d)) sd = p_ep (st83 n83) sd /\ p_in (st83 (n83 + d)) sd = p_in (st83 n83) sd.
Proof. exact (view81_side _ _ sd (proj1 (stays83 d))). Qed.
Lemma fair83 : fair_tasks cf83 f83 st83 /\ fair_loops cf83 f83 st83.
Proof.
  split.
  - intros sd i n. exists (n83 + n)%nat. split; [lia|].
    assert (D : (sd, i) = (SideA, 2%nat) \/ (sd, i) <> (SideA, 2%nat)) by (destruct sd; [destruct (Nat.eq_dec i 2) as [->|]; [auto|right; congruence]|right; congruence]).
    destruct D as [D|D]; [left|right].
    + injection D as -> ->. exists go. apply stays83.
    + rewrite (proj1 (view83_at n sd)). apply stuck83. exact D.
  - intros sd l Hl n. exists (n83 + n)%nat. split; [lia|]. right. destruct (view83_at n sd) as [E1 E2].
    assert (R1 : p_in (st83 n83) sd = []) by (destruct sd; vm_compute; reflexivity).
    assert (R2 : step (cf83 sd) (p_ep (st83 n83) sd) (LPlace 0) = None) by (destruct sd; vm_compute; reflexivity).
    destruct Hl as [-> | ->]; cbn [pstep own_label]; [rewrite E2, R1; reflexivity|rewrite E1, R2; reflexivity].
Qed.
Lemma held83 : endless_held 1 cf83 ps83 ctr2 f83 st83 ob83.
Proof.
  destruct (scheduled cf83 ps83 ctr2 g83) as [E0 E]. split; [exact E0|]. intros n. specialize (E n). unfold happens in E. fold f83 st83 ob83 in E. destruct (f83 n) as [l|] eqn:F; [|exact E].
  assert (FG : g83 n = l) by (unfold f83, sf in F; destruct (pstep cf83 (sst cf83 ps83 ctr2 g83 n) (g83 n)); [injection F as F; exact F|discriminate F]).
  destruct (Nat.lt_ge_cases n n83) as [L|L].
  - assert (A : forallb (fun k => match bstep 1 cf83 (st83 k) (g83 k) with Some _ => true | None => false end) (seq 0 n83) = true) by (vm_compute; reflexivity).
    rewrite forallb_forall in A. specialize (A n ltac:(apply in_seq; lia)). rewrite FG in A. destruct (bstep 1 cf83 (st83 n) l) as [r|] eqn:B; [|discriminate A]. apply bstep_pstep in B. rewrite <- E. symmetry. exact B.
  - assert (Q : n = (n83 + (n - n83))%nat) by lia. destruct (stays83 (n - n83)) as (V & _ & W). rewrite <- Q in V, W. rewrite F in W. injection W as ->.
    destruct (spins83_any _ _ _ _ (st83 n) spins83 V) as (p' & P & _). unfold bstep. rewrite E in P. injection P as P1 P2. rewrite E, P2. cbn [existsb andb]. reflexivity.
Qed.
Lemma eager_83 : eager_tasks 1 cf83 f83 st83.
Proof.
  intros sd i n. exists (n83 + n)%nat. split; [lia|].
  assert (D : (sd, i) = (SideA, 2%nat) \/ (sd, i) <> (SideA, 2%nat)) by (destruct sd; [destruct (Nat.eq_dec i 2) as [->|]; [auto|right; congruence]|right; congruence]).
  destruct D as [D|D]; [left|right].
  - injection D as -> ->. exists go. apply stays83.
  - intros k Lk t v. replace k with (n83 + (k - n83))%nat by lia. unfold bstep, pstep. cbn [own_label]. rewrite (proj1 (view83_at (k - n83) sd)), (stuck83 sd i D t v). reflexivity.
Qed.
Definition unroll (p : prog) : prog :=
  match p with
  | PRet r => PRet r | PPanic => PPanic | PEmit rq k => PEmit rq k | PAwait rq k => PAwait rq k | PStream rq k => PStream rq k
  | PNext h k => PNext h k | PStop n k => PStop n k | PEnv k => PEnv k | PSpawn q k => PSpawn q k
  end.
Lemma unroll_eq p : p = unroll p. Proof. destruct p; reflexivity. Qed.
Lemma plain_spin : plain_code None spin.
Proof. cofix CH. rewrite (unroll_eq spin). cbn. constructor. intros v. exact CH. Qed.
Lemma fresh_spin : asks_fresh spin.
Proof. cofix CH. rewrite (unroll_eq spin). cbn. constructor. intros v. exact CH. Qed.
Ltac coded83 := repeat first [exact plain_spin | exact fresh_spin | progress intros | progress cbn [snd] | left; reflexivity | right; reflexivity | progress (unfold ping, relay, bounce, far, asks_then, asks) | match goal with |- context[match ?d with _ => _ end] => destruct d end | constructor].
Lemma plain83 sd : plain_handlers (cf83 sd).
Proof. unfold plain_handlers, cf83. apply (own_code h83 (fun ctx => plain_code (c_ref ctx))). unfold h83. coded83. Qed.
Lemma fresh83 sd : fresh_handlers (cf83 sd).
Proof. unfold fresh_handlers, cf83. apply (own_code h83 (fun _ => asks_fresh)). unfold h83. coded83. Qed.
Lemma finish83 sd : handlers_finish (cf83 sd).
Proof. unfold handlers_finish, cf83. apply (own_code h83 (fun _ => finishes)). unfold h83. coded83. Qed.
Lemma plain_ps83 sd : Forall (plain_code None) (ps83 sd). Proof. destruct sd; unfold ps83; coded83. Qed.
Lemma fresh_ps83 sd : Forall asks_fresh (ps83 sd). Proof. destruct sd; unfold ps83; coded83. Qed.
Definition replies83 (sd : side) : list (nat * N) := flat_map (fun o => match o with OReply i x (Some (Ok _)) => [(i, x)] | _ => [] end) (at_side sd end83).
Example C83_case : endless cf83 ps83 ctr2 f83 st83 ob83 /\ endless_held 1 cf83 ps83 ctr2 f83 st83 ob83 /\ eager_tasks 1 cf83 f83 st83 /\ clocks f83 /\ fair_tasks cf83 f83 st83 /\ fair_loops cf83 f83 st83
  /\ (forall sd, plain_handlers (cf83 sd)) /\ (forall sd, Forall (plain_code None) (ps83 sd)) /\ (forall sd, handlers_finish (cf83 sd))
  /\ (forall sd, fresh_handlers (cf83 sd)) /\ (forall sd, Forall asks_fresh (ps83 sd))
  /\ (forall n sd i, ~ In (OPanicked i) (at_side sd (so_far ob83 n))) /\ (forall n, ~ too_many st83 (n83 + n))
  /\ In (OListen 0 (id82 SideA 0) 0) (at_side SideA (so_far ob83 10)) /\ (forall r, ~ In (OReply 0 (id82 SideA 0) r) (at_side SideA (so_far ob83 10)))
  /\ replies83 SideA = [(1%nat, id82 SideA 1); (3%nat, id82 SideA 2); (4%nat, id82 SideA 3); (0%nat, id82 SideA 0)]
  /\ replies83 SideB = [(0%nat, id82 SideB 0); (4%nat, id82 SideB 8); (1%nat, id82 SideB 1)]
  /\ forall n, exists m, (n <= m)%nat /\ f83 m <> None.
Proof.
  split; [apply scheduled|]. split; [exact held83|]. split; [exact eager_83|]. split.
  { intros n sd i t v H. unfold f83, sf in H. destruct (pstep cf83 (sst cf83 ps83 ctr2 g83 n) (g83 n)); [|discriminate]. injection H as H. unfold g83 in H.
    assert (A : Forall (fun l => match l with PDo _ (LTask _ (AStep t _)) => rust_instant t | _ => True end) (doA 2 :: ls83)) by (repeat constructor).
    rewrite Forall_forall in A. destruct (nth_in_or_default n ls83 (doA 2)) as [Q|Q]; [specialize (A _ (or_intror Q))|specialize (A _ (or_introl (eq_sym Q)))]; rewrite H in A; exact A. }
  split; [apply fair83|]. split; [apply fair83|]. split; [exact plain83|]. split; [exact plain_ps83|]. split; [exact finish83|]. split; [exact fresh83|]. split; [exact fresh_ps83|].
  split; [intros n sd i H; apply never83 in H; rewrite end83_is in H; revert H; destruct sd; unlisted|].
  split; [intros n [sd H]; apply H; rewrite (proj1 (view83_at n sd)); destruct sd; vm_compute; discriminate|].
  split; [listed|]. split; [intros r; unlisted|]. split; [vm_compute; reflexivity|]. split; [vm_compute; reflexivity|].
  intros n. exists (n83 + n)%nat. split; [lia|]. rewrite (proj2 (proj2 (stays83 n))). discriminate.
Qed.
