(** Properties of endless runs of two endpoints joined by byte streams: C84. *)
From Coq Require Import Strings.String.
From Verif Require Import Base BaseFacts Reader Codec Spec Ids Payload Builder Emit Ipc SpecIpc IpcChanFacts IpcFlow Pair SpecPair PairFacts SpecLive PairLive PairLiveMore SpecBounded SpecOrder SpecPeers PeersFacts SpecNested PeersLive BytePair SpecBytes BytePairFacts BoundLive SpecByteLive ByteLive
  PropsDispatch PropsPair PropsBounded PropsBytes PropsLive PropsPeersEx PropsNested.

(** ** C84 *)
(** Two endpoints over byte streams that take at least one byte, whose tasks and handlers may go on for ever, while writes and reads
    are portioned and interleaved in any fair way: a task that has an event to send gets the writer and writes all of it, every byte
    written is read, and every event arrives. *)
Theorem C84_sends_complete : forall cap cf ps ctr f st ob,
  endless_bytes cap cf ps ctr f st ob -> (0 < cap)%nat -> (forall n, all_deliverable cf (st n) (so_far ob n)) -> xclocks f -> eager_xtasks cap cf f st -> fair_xloops cap cf f st ->
  (forall sd, plain_handlers (cf sd)) -> (forall sd, Forall (plain_code None) (ps sd)) ->
  (forall sd n i ctx e pu, option_map tk_st (nth_error (e_tasks (x_ep (st n) sd)) i) = Some (TSend ctx e pu) ->
     exists m, (n <= m)%nat /\ (xtoo_many st m \/ In (OSent i ctx e) (at_side sd (so_far ob m))))
  /\ (forall sd n, x_wire (st n) sd <> [] -> exists m, (n <= m)%nat /\ (xtoo_many st m \/ f m = Some (XRead sd)))
  /\ (forall sd n i ctx e, In (OSent i ctx e) (at_side sd (so_far ob n)) -> exists m, (n <= m)%nat /\ (xtoo_many st m \/ In (drop_empty_ns e) (processed 0 (at_side (other sd) (so_far ob m))))).
Proof.
  intros cap cf ps ctr f st ob EX CAP AD CK FS FX PH PP.
  assert (TM : forall m, too_many (es cf ps ctr f st) m -> xtoo_many st m) by (intros m (sd & H); exists sd; rewrite (ev_ep cap cf ps ctr f st ob EX AD) in H; exact H).
  split; [|split].
  - intros sd n i ctx e pu T. destruct (plain_sends_done cap cf ps ctr f st ob EX AD FX CK FS PH PP CAP sd n i ctx e pu T) as (m & L & [M|A]); exists m; auto.
  - intros sd n W. destruct (plain_bytes_read cap cf ps ctr f st ob EX AD FX CK FS PH PP CAP sd n W) as (m & L & [M|A]); exists m; auto.
  - intros sd n i ctx e H. destruct (arrives cf ps ctr _ _ ob (ev_endless cap cf ps ctr f st ob EX AD) (ev_clocks cf f st CK) (ev_loops cap cf ps ctr f st ob EX AD FX) PH PP (plain_turns cap cf ps ctr f st ob EX AD FX CK FS PH PP CAP) sd n i ctx e H) as (m & L & [M|A]); exists m; auto.
Qed.
Print Assumptions C84_sends_complete.
(** Requests are answered: C83 over bytes. *)
Theorem C84_nested_requests : forall cap cf ps ctr f st ob,
  endless_bytes cap cf ps ctr f st ob -> (0 < cap)%nat -> (forall n, all_deliverable cf (st n) (so_far ob n)) -> xclocks f -> eager_xtasks cap cf f st -> fair_xloops cap cf f st ->
  (forall sd, plain_handlers (cf sd)) -> (forall sd, Forall (plain_code None) (ps sd)) -> (forall sd, handlers_finish (cf sd)) ->
  (forall sd n i x c, In (OListen i x c) (at_side sd (so_far ob n)) ->
    exists m, (n <= m)%nat /\ (xtoo_many st m \/ (exists r, In (OReply i x r) (at_side sd (so_far ob m))) \/ In (OPanicked i) (at_side sd (so_far ob m)) \/ blocked (so_far ob m) sd i x))
  /\ (forall sd n j ctx sc q, In (OCalled 0 j ctx sc q) (at_side sd (so_far ob n)) ->
    exists m, (n <= m)%nat /\ (xtoo_many st m
      \/ (exists r cx a, In (OReturned j r) (at_side sd (so_far ob m)) /\ In (OSent j cx a) (at_side sd (so_far ob m)) /\ answers (cf sd) q r a)
      \/ In (OPanicked j) (at_side sd (so_far ob m)) \/ exists y, blocked (so_far ob m) sd j y)).
Proof.
  intros cap cf ps ctr f st ob EX CAP AD CK FS FX PH PP AF.
  assert (TM : forall m, too_many (es cf ps ctr f st) m -> xtoo_many st m) by (intros m (sd & H); exists sd; rewrite (ev_ep cap cf ps ctr f st ob EX AD) in H; exact H).
  pose proof (ev_endless cap cf ps ctr f st ob EX AD) as EN. pose proof (ev_clocks cf f st CK) as CE. pose proof (ev_loops cap cf ps ctr f st ob EX AD FX) as FL. pose proof (plain_turns cap cf ps ctr f st ob EX AD FX CK FS PH PP CAP) as FT. split.
  - intros sd n i x c H. destruct (nested_live cf ps ctr _ _ ob EN CE FL PH PP FT AF sd n i x c H) as (m & L & [M|A]); exists m; auto.
  - intros sd n j ctx sc q H. destruct (handlers_live cf ps ctr _ _ ob EN CE FL PH PP FT AF sd n j ctx sc q H) as (m & L & [M|[A|[A|(_ & A)]]]); exists m; auto 6.
Qed.
Print Assumptions C84_nested_requests.
(** No handler panics, no asking event is read as a reply: every request gets its result. *)
Theorem C84_all_get_results : forall cap cf ps ctr f st ob,
  endless_bytes cap cf ps ctr f st ob -> (0 < cap)%nat -> (forall n, all_deliverable cf (st n) (so_far ob n)) -> xclocks f -> eager_xtasks cap cf f st -> fair_xloops cap cf f st ->
  (forall sd, plain_handlers (cf sd)) -> (forall sd, Forall (plain_code None) (ps sd)) -> (forall sd, handlers_finish (cf sd)) ->
  (forall n sd i, ~ In (OPanicked i) (at_side sd (so_far ob n))) -> (forall n, asks_freely (so_far ob n)) ->
  forall sd n i x c, In (OListen i x c) (at_side sd (so_far ob n)) -> exists m, (n <= m)%nat /\ (xtoo_many st m \/ exists r, In (OReply i x r) (at_side sd (so_far ob m))).
Proof.
  intros cap cf ps ctr f st ob EX CAP AD CK FS FX PH PP AF NP AQ sd n i x c H.
  destruct (proj1 (C84_nested_requests cap cf ps ctr f st ob EX CAP AD CK FS FX PH PP AF) sd n i x c H) as (m & L & [M|[A|[A|A]]]); exists m; (split; [exact L|]); auto.
  - destruct (NP _ _ _ A).
  - destruct (never_blocked ob m NP (AQ m) _ _ _ A).
Qed.
Print Assumptions C84_all_get_results.

(** A connection that takes three bytes per direction; nested requests in both directions, and a task that goes on for ever. *)
Definition h84 : event_handler callback := [(str "ping", ping); (str "relay", relay); (str "bounce", bounce)].
Definition cf84 : side -> config := fun _ => mk_config h84 [] (fun _ => str "Timeout") env67.
Definition ps84 : side -> list prog := fun sd => match sd with SideA => [asks (str "bounce"); asks (str "relay"); spin] | SideB => [asks (str "bounce")] end.
Definition tries84 : list xlabel :=
  flat_map (fun sd => flat_map (fun i => (if side_eqb sd SideA && Nat.eqb i 2 then [] else [XDo sd (LTask i go)]) ++ [XWrite sd i]) (seq 0 8) ++ [XDo sd (LPlace 0); XRead sd]) [SideA; SideB].
Fixpoint eager84 (n : nat) (x : xpair) : list xlabel :=
  match n with
  | O => []
  | S n' => match find (fun l => match xstep 3 cf84 x l with Some _ => true | None => false end) tries84 with
            | Some l => match xstep 3 cf84 x l with Some (x', _) => l :: eager84 n' x' | None => [] end
            | None => []
            end
  end.
Definition doX : xlabel := XDo SideA (LTask 2 go).
Definition ls84 : list xlabel := Eval vm_compute in eager84 3000 (xpair_new ps84 ctr2).
Definition n84 : nat := Eval vm_compute in List.length ls84.
Definition g84 (n : nat) : xlabel := nth n ls84 doX.
Definition st84 : nat -> xpair := xsst 3 cf84 ps84 ctr2 g84.
Definition f84 : nat -> option xlabel := xsf 3 cf84 ps84 ctr2 g84.
Definition ob84 : nat -> list (side * obs) := xsob 3 cf84 ps84 ctr2 g84.
Definition ended84 : xpair * list (side * obs) := Eval vm_compute in match xrun 3 cf84 (xpair_new ps84 ctr2) ls84 with Some r => r | None => (xpair_new ps84 ctr2, []) end.
Definition end84 : list (side * obs) := Eval cbn [snd ended84] in snd ended84.
Lemma at84 : st84 n84 = fst ended84 /\ so_far ob84 n84 = end84.
Proof. apply (xsched_run 3 cf84 ps84 ctr2 g84 doX ls84 (fst ended84) end84); [vm_compute; reflexivity|]. intros n _. reflexivity. Qed.
Definition view84 (x : xpair) : (ep * ep) * (option (nat * bytes) * option (nat * bytes)) * (bytes * bytes) * (bytes * bytes) :=
  ((x_ep x SideA, x_ep x SideB), (x_out x SideA, x_out x SideB), (x_wire x SideA, x_wire x SideB), (x_buf x SideA, x_buf x SideB)).
Lemma view84_side x y sd : view84 x = view84 y -> x_ep x sd = x_ep y sd /\ x_out x sd = x_out y sd /\ x_wire x sd = x_wire y sd /\ x_buf x sd = x_buf y sd.
Proof. unfold view84. intros E. destruct sd; injection E; auto. Qed.
Lemma spins84_any x y : step (cf84 SideA) (x_ep y SideA) (LTask 2 go) = Some (x_ep y SideA, []) -> view84 x = view84 y -> exists x', xstep 3 cf84 x doX = Some (x', []) /\ view84 x' = view84 y.
Proof.
  intros SS H. destruct (view84_side _ _ SideA H) as (E1 & _). rewrite <- E1 in SS. unfold doX. cbn [xstep own_label]. rewrite SS. cbn [existsb map orb]. eexists. split; [reflexivity|].
  rewrite <- H. unfold view84. cbn [x_ep x_out x_wire x_buf upd side_eqb]. reflexivity.
Qed.
Lemma spins84 : step (cf84 SideA) (x_ep (st84 n84) SideA) (LTask 2 go) = Some (x_ep (st84 n84) SideA, []).
Proof. rewrite (proj1 at84). vm_compute. reflexivity. Qed.
Lemma last84 d : g84 (n84 + d) = doX.
Proof. apply nth_overflow. change (List.length ls84) with n84. lia. Qed.
Lemma stays84 : forall d, view84 (st84 (n84 + d)) = view84 (st84 n84) /\ so_far ob84 (n84 + d) = so_far ob84 n84 /\ f84 (n84 + d)%nat = Some doX.
Proof. exact (xsched_stays 3 cf84 ps84 ctr2 g84 n84 doX (fun x => view84 x = view84 (st84 n84)) last84 eq_refl (fun x => spins84_any x (st84 n84) spins84)). Qed.
Lemma view84_at d sd : x_ep (st84 (n84 + d)) sd = x_ep (fst ended84) sd /\ x_out (st84 (n84 + d)) sd = x_out (fst ended84) sd /\ x_wire (st84 (n84 + d)) sd = x_wire (fst ended84) sd /\ x_buf (st84 (n84 + d)) sd = x_buf (fst ended84) sd.
Proof. rewrite <- (proj1 at84). apply view84_side. apply stays84. Qed.
Lemma halted84 sd i d : (sd, i) <> (SideA, 2%nat) -> xhalted 3 cf84 (st84 (n84 + d)) sd i.
Proof.
  intros N. destruct (view84_at d sd) as (E1 & E2 & _). split; intros; cbn [xstep own_label]; rewrite E1; clear E1 E2; destruct sd.
  1: do 2 (destruct i as [|i]; [vm_compute; reflexivity|]); destruct i as [|i]; [congruence|].
  1,2: do 8 (try (destruct i as [|i]; [vm_compute; reflexivity|])); vm_compute; destruct i; reflexivity.
  all: do 8 (try (destruct i as [|i]; [vm_compute; reflexivity|])); vm_compute; destruct i; reflexivity.
Qed.
Lemma eager_84 : eager_xtasks 3 cf84 f84 st84.
Proof.
  intros sd i n. exists (n84 + n)%nat. split; [lia|].
  assert (D : (sd, i) = (SideA, 2%nat) \/ (sd, i) <> (SideA, 2%nat)) by (destruct sd; [destruct (Nat.eq_dec i 2) as [->|]; [auto|right; congruence]|right; congruence]).
  destruct D as [D|D]; [left|right; right].
  - injection D as -> ->. exists go. apply stays84.
  - intros k Lk. replace k with (n84 + (k - n84))%nat by lia. apply halted84. exact D.
Qed.
Lemma loops84 : fair_xloops 3 cf84 f84 st84.
Proof.
  intros sd l Hl n. exists (n84 + n)%nat. split; [lia|]. right. destruct (view84_at n sd) as (E1 & _ & E3 & _). destruct Hl as [-> | ->]; cbn [xstep own_label]; rewrite E1, ?E3; destruct sd; vm_compute; reflexivity.
Qed.
Lemma carried84 n : all_deliverable cf84 (st84 n) (so_far ob84 n).
Proof.
  apply (deliverable_earlier 3 cf84 ps84 ctr2 f84 st84 ob84 n (n84 + n)); [apply xscheduled|lia|]. destruct (stays84 n) as (_ & E & _). rewrite E, (proj2 at84). apply all_yes; [reflexivity|vm_compute; reflexivity|].
  intros sd. destruct (view84_at n sd) as (_ & E2 & _). rewrite E2. destruct sd; reflexivity.
Qed.
Lemma plain84 sd : plain_handlers (cf84 sd).
Proof. unfold plain_handlers, cf84. apply (own_code h84 (fun ctx => plain_code (c_ref ctx))). unfold h84. coded83. Qed.
Lemma finish84 sd : handlers_finish (cf84 sd).
Proof. unfold handlers_finish, cf84. apply (own_code h84 (fun _ => finishes)). unfold h84. coded83. Qed.
Lemma plain_ps84 sd : Forall (plain_code None) (ps84 sd). Proof. destruct sd; unfold ps84; coded83. Qed.
Lemma seen84 sd o n : In o (at_side sd (so_far ob84 n)) -> In o (at_side sd end84).
Proof. intros H. apply (PairLive.still ob84 sd n (n84 + n)) in H; [|lia]. destruct (stays84 n) as (_ & E & _). rewrite E, (proj2 at84) in H. exact H. Qed.
Definition replies84 (sd : side) : list (nat * N) := flat_map (fun o => match o with OReply i x (Some (Ok _)) => [(i, x)] | _ => [] end) (at_side sd end84).
Example C84_case : endless_bytes 3 cf84 ps84 ctr2 f84 st84 ob84 /\ (0 < 3)%nat /\ (forall n, all_deliverable cf84 (st84 n) (so_far ob84 n)) /\ xclocks f84 /\ eager_xtasks 3 cf84 f84 st84 /\ fair_xloops 3 cf84 f84 st84
  /\ (forall sd, plain_handlers (cf84 sd)) /\ (forall sd, Forall (plain_code None) (ps84 sd)) /\ (forall sd, handlers_finish (cf84 sd))
  /\ (forall n sd i, ~ In (OPanicked i) (at_side sd (so_far ob84 n))) /\ (forall n, asks_freely (so_far ob84 n)) /\ (forall n, ~ xtoo_many st84 (n84 + n))
  /\ replies84 SideA = [(3%nat, id82 SideA 2); (0%nat, id82 SideA 0); (1%nat, id82 SideA 1)]
  /\ replies84 SideB = [(1%nat, id82 SideB 1); (0%nat, id82 SideB 0); (2%nat, id82 SideB 2)]
  /\ (forall n, exists m, (n <= m)%nat /\ f84 m <> None)
  (* a request of [SideA] is being answered while an event is partly written, and partly read *)
  /\ In (OListen 0 (id82 SideA 0) 0) (at_side SideA (so_far ob84 100)) /\ (forall r, ~ In (OReply 0 (id82 SideA 0) r) (at_side SideA (so_far ob84 100)))
  /\ (exists e, being_written (st84 100) SideA e) /\ x_buf (st84 100) SideB <> [] /\ x_wire (st84 100) SideB <> [].
Proof.
  split; [apply xscheduled|]. split; [lia|]. split; [exact carried84|]. split.
  { intros n sd i t v H. unfold f84, xsf in H. destruct (xstep 3 cf84 (xsst 3 cf84 ps84 ctr2 g84 n) (g84 n)); [|discriminate]. injection H as H. unfold g84 in H.
    assert (A : Forall (fun l => match l with XDo _ (LTask _ (AStep t _)) => rust_instant t | _ => True end) (doX :: ls84)) by (repeat constructor).
    rewrite Forall_forall in A. destruct (nth_in_or_default n ls84 doX) as [Q|Q]; [specialize (A _ (or_intror Q))|specialize (A _ (or_introl (eq_sym Q)))]; rewrite H in A; exact A. }
  split; [exact eager_84|]. split; [exact loops84|]. split; [exact plain84|]. split; [exact plain_ps84|]. split; [exact finish84|].
  split; [intros n sd i H; apply seen84 in H; revert H; destruct sd; unlisted|].
  split.
  { intros n sd i x c c' q H1 H2. apply seen84 in H1, H2. assert (A : forallb (fun o => match o with OListen _ x _ => forallb (fun o' => match o' with OQueued _ _ q => negb (ev_id q =? x) | _ => true end) (at_side (other sd) end84) | _ => true end) (at_side sd end84) = true) by (destruct sd; vm_compute; reflexivity).
    rewrite forallb_forall in A. specialize (A _ H1). cbn beta iota in A. rewrite forallb_forall in A. specialize (A _ H2). cbn beta iota in A. apply negb_true_iff, N.eqb_neq in A. exact A. }
  split; [intros n [sd H]; apply H; rewrite (proj1 (view84_at n sd)); destruct sd; vm_compute; discriminate|].
  split; [vm_compute; reflexivity|]. split; [vm_compute; reflexivity|]. split; [intros n; exists (n84 + n)%nat; split; [lia|]; rewrite (proj2 (proj2 (stays84 n))); discriminate|].
  split; [listed|]. split; [intros r; unlisted|]. split; [eexists _, 0%nat, _, _, _; split; vm_compute; reflexivity|]. split; vm_compute; discriminate.
Qed.
