(** Properties of endless runs of a client and a server over connections of bounded capacity: C86. *)
From Coq Require Import Strings.String.
From Verif Require Import Base BaseFacts Codec Spec Ids Payload Builder Emit Ipc SpecIpc IpcClaims Pair SpecPair PairFacts PairServer PairEnd Bounded SpecBounded BoundedFacts SpecLive PairLive PairLiveMore SpecNested BoundLive RoomLive PropsDispatch PropsPair PropsLive.

(** ** C86 *)
(** The connection never holds more than its capacity. *)
Theorem C86_capacity_kept : forall cap cf ps ctr f st ob, endless_held cap cf ps ctr f st ob -> (0 < cap)%nat -> forall n sd, (List.length (p_in (st n) sd) <= cap)%nat.
Proof. intros cap cf ps ctr f st ob EB CAP n sd. exact (within_cap cap cf ps ctr f st ob EB CAP sd n). Qed.
Print Assumptions C86_capacity_kept.
(** A client awaits requests and reads reply streams, a server's handlers emit and return; the connection holds at most [cap] events per
    direction, and a send waits while it is full. The run may go on for ever. If the user reads his reply streams (or drops them), then
    no send waits for ever, what has come in is taken at some time ... *)
Theorem C86_sends_complete : forall cap cf ps ctr f st ob,
  endless_held cap cf ps ctr f st ob -> (0 < cap)%nat -> clocks f -> eager_tasks cap cf f st -> fair_loops cf f st ->
  only_replies (cf SideB) -> ps SideB = [] -> drained ob SideA -> (forall n, ~ In (OAborted 0) (at_side SideA (so_far ob n))) ->
  (forall sd n i ctx e pu, option_map tk_st (nth_error (e_tasks (p_ep (st n) sd)) i) = Some (TSend ctx e pu) ->
     exists m, (n <= m)%nat /\ (~ few_events (p_ep (st m) SideA) \/ In (OSent i ctx e) (at_side sd (so_far ob m))))
  /\ (forall sd n, p_in (st n) sd <> [] -> exists m, (n <= m)%nat /\ (~ few_events (p_ep (st m) SideA) \/ f m = Some (PDeliver sd))).
Proof.
  intros cap cf ps ctr f st ob EB CAP CK FS FL RO PB DR NA. split.
  - exact (both_send cap cf ps ctr f st ob EB CAP CK FS FL RO PB DR NA).
  - exact (both_read cap cf ps ctr f st ob EB CK FS FL RO PB DR NA).
Qed.
Print Assumptions C86_sends_complete.
(** ... every request awaited gets a result, as in C81 ... *)
Theorem C86_every_request_is_answered : forall cap cf ps ctr f st ob,
  endless_held cap cf ps ctr f st ob -> (0 < cap)%nat -> clocks f -> eager_tasks cap cf f st -> fair_loops cf f st ->
  only_replies (cf SideB) -> ps SideB = [] -> all_speak (cf SideB) -> debug_fits (cf SideB) (cf_env (cf SideA)) ->
  drained ob SideA -> (forall n, ~ In (OAborted 0) (at_side SideA (so_far ob n))) ->
  forall n i x c, In (OListen i x c) (at_side SideA (so_far ob n)) ->
    (forall m h, ~ In (OOpened i h x c) (at_side SideA (so_far ob m))) -> (forall m, never_handled x (at_side SideA (so_far ob m))) ->
  exists m, (n <= m)%nat /\ (~ few_events (p_ep (st m) SideA)
    \/ (exists r, In (OReply i x r) (at_side SideA (so_far ob m)) /\ (r = None \/ r = Some (Err Timeout)
         \/ exists r' j sc q, r = Some r' /\ In (OCalled 0 j (mk_context 0 (Some x)) sc q) (at_side SideB (so_far ob m)) /\ ev_id q = x /\ answered (cf SideB) (at_side SideB (so_far ob m)) j r'))
    \/ (exists j sc q, In (OCalled 0 j (mk_context 0 (Some x)) sc q) (at_side SideB (so_far ob m)) /\ ev_id q = x
         /\ In (OPanicked j) (at_side SideB (so_far ob m)) /\ sent j (at_side SideB (so_far ob m)) = [])).
Proof.
  intros cap cf ps ctr f st ob EB CAP CK FS FL RO PB AS DF DR NA n i x c HL NO NH. pose proof (held_endless cap cf ps ctr f st ob EB) as EN.
  destruct (request_live cf ps ctr f st ob EN CK (both_turn cap cf ps ctr f st ob EB CAP CK FS FL RO PB DR NA) FL RO PB AS DF DR NA n i x c HL NO NH) as (m & L & [M|[(r & A & B)|(j & (sc & q & A & B) & C)]]); exists m; (split; [exact L|]).
  - left. exact M.
  - right. left. exists r. split; [exact A|]. destruct B as [B|[B|(r' & j & B & (sc & q & C & D) & E)]]; eauto 12.
  - right. right. exists j, sc, q. auto.
Qed.
Print Assumptions C86_every_request_is_answered.
(** ... and every event a handler has sent for a stream arrives there in order and without gaps, unless the stream ends or is dropped. *)
Theorem C86_every_item_arrives : forall cap cf ps ctr f st ob,
  endless_held cap cf ps ctr f st ob -> (0 < cap)%nat -> clocks f -> eager_tasks cap cf f st -> fair_loops cf f st ->
  only_replies (cf SideB) -> ps SideB = [] -> drained ob SideA -> (forall n, ~ In (OAborted 0) (at_side SideA (so_far ob n))) ->
  forall n i h x c j ctx sc q, In (OOpened i h x c) (at_side SideA (so_far ob n)) -> (forall m, never_handled x (at_side SideA (so_far ob m))) ->
    In (OCalled 0 j ctx sc q) (at_side SideB (so_far ob n)) -> ev_id q = x ->
  exists m, (n <= m)%nat /\ (~ few_events (p_ep (st m) SideA) \/ gone (at_side SideA (so_far ob m)) c
    \/ exists rest, queued c (at_side SideA (so_far ob m)) = replies_of_task j (at_side SideB (so_far ob n)) ++ rest).
Proof.
  intros cap cf ps ctr f st ob EB CAP CK FS FL RO PB DR NA n i h x c j ctx sc q HO NH HC HX. pose proof (held_endless cap cf ps ctr f st ob EB) as EN.
  destruct (own_run _ _ _ _ _ _ EN CK SideA n) as (la & RA & _). destruct (stream_request _ _ _ _ _ _ _ _ _ _ _ _ RA HO) as (i' & HL & _).
  destruct (stream_live cf ps ctr f st ob EN CK (both_turn cap cf ps ctr f st ob EB CAP CK FS FL RO PB DR NA SideA) FL RO PB DR NA n i' x c j ctx sc q HL NH HC HX) as (m & L & [M|M]); exists m; auto.
Qed.
Print Assumptions C86_every_item_arrives.

(** The requests, the stream and the endless task of C81_case, over a connection that holds one event per direction. *)
Definition tries86 : list plabel := [doA 0; doA 1; doA 2; doA 4; doA 5; doB 0; doB 1; doB 2; PDo SideA (LPlace 0); PDeliver SideA; PDeliver SideB].
Fixpoint eager86 (n : nat) (p : pair) : list plabel :=
  match n with
  | O => []
  | S n' => match find (fun l => match bstep 1 cf2 p l with Some _ => true | None => false end) tries86 with
            | Some l => match bstep 1 cf2 p l with Some (p', _) => l :: eager86 n' p' | None => [] end
            | None => []
            end
  end.
Definition ls86 : list plabel := Eval vm_compute in eager86 200 (pair_new ps81 ctr2 (fun _ => [])).
Definition n86 : nat := Eval vm_compute in List.length ls86.
Definition g86 (n : nat) : plabel := nth n ls86 (doA 3).
Definition st86 : nat -> pair := sst cf2 ps81 ctr2 g86.
Definition f86 : nat -> option plabel := sf cf2 ps81 ctr2 g86.
Definition ob86 : nat -> list (side * obs) := sob cf2 ps81 ctr2 g86.
Lemma spins86 : step (cf2 SideA) (p_ep (st86 n86) SideA) (LTask 3 go) = Some (p_ep (st86 n86) SideA, []).
Proof. vm_compute. reflexivity. Qed.
Lemma last86 d : g86 (n86 + d) = doA 3.
Proof. apply nth_overflow. change (List.length ls86) with n86. lia. Qed.
Lemma stays86 : forall d, view81 (st86 (n86 + d)) = view81 (st86 n86) /\ so_far ob86 (n86 + d) = so_far ob86 n86 /\ f86 (n86 + d)%nat = Some (doA 3).
Proof. exact (sched_stays cf2 ps81 ctr2 g86 n86 (doA 3) (fun p => view81 p = view81 (st86 n86)) last86 eq_refl (fun p => spins _ _ _ _ p spins86)). Qed.
Lemma never86 sd o n : In o (at_side sd (so_far ob86 n)) -> In o (at_side sd (so_far ob86 n86)).
Proof. intros H. apply (PairLive.still ob86 sd n (n86 + n)) in H; [|lia]. destruct (stays86 n) as (_ & E & _). rewrite E in H. exact H. Qed.
Definition end86 : list (side * obs) := Eval vm_compute in so_far ob86 n86.
Lemma end86_is : so_far ob86 n86 = end86. Proof. vm_compute. reflexivity. Qed.
Lemma stuck86 sd i : (sd, i) <> (SideA, 3%nat) -> stuck (cf2 sd) (p_ep (st86 n86) sd) i.
Proof.
  intros N t v. destruct sd.
  - do 3 (destruct i as [|i]; [vm_compute; reflexivity|]). destruct i as [|i]; [congruence|]. do 6 (try (destruct i as [|i]; [vm_compute; reflexivity|])); vm_compute; destruct i; reflexivity.
  - do 6 (try (destruct i as [|i]; [vm_compute; reflexivity|])); vm_compute; destruct i; reflexivity.
Qed.
Lemma view86_at d sd : p_ep (st86 (n86 + d)) sd = p_ep (st86 n86) sd /\ p_in (st86 (n86 + d)) sd = p_in (st86 n86) sd.
Proof. exact (view81_side _ _ sd (proj1 (stays86 d))). Qed.
Lemma held86 : endless_held 1 cf2 ps81 ctr2 f86 st86 ob86.
Proof.
  destruct (scheduled cf2 ps81 ctr2 g86) as [E0 E]. split; [exact E0|]. intros n. specialize (E n). unfold happens in E. fold f86 st86 ob86 in E. destruct (f86 n) as [l|] eqn:F; [|exact E].
  assert (FG : g86 n = l) by (unfold f86, sf in F; destruct (pstep cf2 (sst cf2 ps81 ctr2 g86 n) (g86 n)); [injection F as F; exact F|discriminate F]).
  destruct (Nat.lt_ge_cases n n86) as [L|L].
  - assert (A : forallb (fun k => match bstep 1 cf2 (st86 k) (g86 k) with Some _ => true | None => false end) (seq 0 n86) = true) by (vm_compute; reflexivity).
    rewrite forallb_forall in A. specialize (A n ltac:(apply in_seq; lia)). rewrite FG in A. destruct (bstep 1 cf2 (st86 n) l) as [r|] eqn:B; [|discriminate A]. apply bstep_pstep in B. rewrite <- E. symmetry. exact B.
  - assert (Q : n = (n86 + (n - n86))%nat) by lia. destruct (stays86 (n - n86)) as (V & _ & W). rewrite <- Q in V, W. rewrite F in W. injection W as ->.
    destruct (spins _ _ _ _ (st86 n) spins86 V) as (p' & P & _). unfold bstep. rewrite E in P. injection P as P1 P2. rewrite E, P2. cbn [existsb andb]. reflexivity.
Qed.
Lemma eager_86 : eager_tasks 1 cf2 f86 st86.
Proof.
  intros sd i n. exists (n86 + n)%nat. split; [lia|].
  assert (D : (sd, i) = (SideA, 3%nat) \/ (sd, i) <> (SideA, 3%nat)) by (destruct sd; [destruct (Nat.eq_dec i 3) as [->|]; [auto|right; congruence]|right; congruence]).
  destruct D as [D|D]; [left|right].
  - injection D as -> ->. exists go. apply stays86.
  - intros k Lk t v. replace k with (n86 + (k - n86))%nat by lia. unfold bstep, pstep. cbn [own_label]. rewrite (proj1 (view86_at (k - n86) sd)), (stuck86 sd i D t v). reflexivity.
Qed.
Lemma fair_loops86 : fair_loops cf2 f86 st86.
Proof.
  intros sd l Hl n. exists (n86 + n)%nat. split; [lia|]. right. destruct (view86_at n sd) as [E1 E2].
  assert (R1 : p_in (st86 n86) sd = []) by (destruct sd; vm_compute; reflexivity).
  assert (R2 : step (cf2 sd) (p_ep (st86 n86) sd) (LPlace 0) = None) by (destruct sd; vm_compute; reflexivity).
  destruct Hl as [-> | ->]; cbn [pstep own_label]; [rewrite E2, R1; reflexivity|rewrite E1, R2; reflexivity].
Qed.
Lemma none86 : (forall n, ~ In (OAborted 0) (at_side SideA (so_far ob86 n))) /\ (forall n x, x < nth_id at1 1000 -> never_handled x (at_side SideA (so_far ob86 n)))
  /\ forall n i h x c, In (OOpened i h x c) (at_side SideA (so_far ob86 n)) -> (i, h, x, c) = (2%nat, 0%nat, nth_id at1 2, 2%nat).
Proof.
  split; [|split].
  - intros n H. apply never86 in H. rewrite end86_is in H. revert H. vm_compute. intros H. repeat (destruct H as [H|H]; [discriminate H|]). destruct H.
  - intros n x Lx k i ctx sc e H. apply never86 in H. rewrite end86_is in H. intros <-.
    assert (A : forallb (fun o => match o with OCalled _ _ _ _ e => N.leb (nth_id at1 1000) (ev_id e) | _ => true end) (at_side SideA end86) = true) by (vm_compute; reflexivity).
    rewrite forallb_forall in A. specialize (A _ H). apply N.leb_le in A. lia.
  - intros n i h x c H. apply never86 in H. rewrite end86_is in H.
    assert (A : forallb (fun o => match o with OOpened i h x c => (Nat.eqb i 2 && Nat.eqb h 0 && N.eqb x (nth_id at1 2) && Nat.eqb c 2)%bool | _ => true end) (at_side SideA end86) = true) by (vm_compute; reflexivity).
    rewrite forallb_forall in A. specialize (A _ H). cbv beta iota in A. apply andb_true_iff in A. destruct A as [A A4]. apply andb_true_iff in A. destruct A as [A A3]. apply andb_true_iff in A. destruct A as [A1 A2].
    apply Nat.eqb_eq in A1, A2, A4. apply N.eqb_eq in A3. congruence.
Qed.
Lemma drained86 : drained ob86 SideA.
Proof.
  intros n j h y c H. apply none86 in H. injection H as -> -> -> ->. exists (n86 + n)%nat. split; [lia|]. right. rewrite (proj1 (proj2 (stays86 n))), end86_is. vm_compute. lia.
Qed.
(** At first the second request has to wait: the connection is full. In the end both are answered and the stream holds two more items. *)
Example C86_case : endless_held 1 cf2 ps81 ctr2 f86 st86 ob86 /\ clocks f86 /\ eager_tasks 1 cf2 f86 st86 /\ fair_loops cf2 f86 st86
  /\ only_replies (cf2 SideB) /\ ps81 SideB = [] /\ all_speak (cf2 SideB) /\ debug_fits (cf2 SideB) (cf_env (cf2 SideA)) /\ drained ob86 SideA
  /\ (forall n, ~ In (OAborted 0) (at_side SideA (so_far ob86 n)))
  /\ (exists n, halted 1 cf2 (st86 n) SideA 1 /\ ~ stuck (cf2 SideA) (p_ep (st86 n) SideA) 1)
  /\ (forall i, (i < 2)%nat -> In (OListen i (nth_id at1 (N.of_nat i)) i) (at_side SideA (so_far ob86 n86)) /\ (forall m h, ~ In (OOpened i h (nth_id at1 (N.of_nat i)) i) (at_side SideA (so_far ob86 m))))
  /\ In (OOpened 2 0 (nth_id at1 2) 2) (at_side SideA (so_far ob86 n86)) /\ In (OCalled 0 2 (mk_context 0 (Some (nth_id at1 2))) None (event_new (nth_id at1 2) None (str "ping") [x07] None Initiator)) (at_side SideB (so_far ob86 n86))
  /\ (forall n k, k < 3 -> never_handled (nth_id at1 k) (at_side SideA (so_far ob86 n)))
  /\ (forall n, few_events (p_ep (st86 (n86 + n)) SideA))
  /\ flat_map (fun o => match o with OReply i x r => [(i, x, match r with Some (Ok e) => Some (ev_name e) | _ => None end)] | _ => [] end) (at_side SideA (so_far ob86 n86))
     = [(0%nat, nth_id at1 0, Some (str "pong")); (1%nat, nth_id at1 1, None)]
  /\ List.length (queued 2 (at_side SideA (so_far ob86 n86))) = 3%nat
  /\ forall n, exists m, (n <= m)%nat /\ f86 m <> None.
Proof.
  destruct none86 as (N1 & N2 & N3). split; [exact held86|]. split.
  { intros n sd i t v H. unfold f86, sf in H. destruct (pstep cf2 (sst cf2 ps81 ctr2 g86 n) (g86 n)); [|discriminate]. injection H as H. unfold g86 in H.
    assert (A : Forall (fun l => match l with PDo _ (LTask _ (AStep t _)) => rust_instant t | _ => True end) (doA 3 :: ls86)) by (repeat constructor).
    rewrite Forall_forall in A. destruct (nth_in_or_default n ls86 (doA 3)) as [Q|Q]; [specialize (A _ (or_intror Q))|specialize (A _ (or_introl (eq_sym Q)))]; rewrite H in A; exact A. }
  split; [exact eager_86|]. split; [exact fair_loops86|]. split; [exact ex_only_replies|]. split; [reflexivity|]. split; [exact ex_all_speak|]. split; [exact ex_debug_fits|]. split; [exact drained86|]. split; [exact N1|].
  split.
  { exists 6%nat. split; [intros t v; vm_compute; reflexivity|]. intros S0. specialize (S0 at1 0). revert S0. vm_compute. discriminate. }
  split.
  { intros i L. split; [rewrite end86_is; destruct i as [|[|i]]; [vm_compute; tauto|vm_compute; tauto|lia]|]. intros m h H. apply N3 in H. injection H as -> _. lia. }
  split; [rewrite end86_is; vm_compute; tauto|]. split; [rewrite end86_is; vm_compute; tauto|]. split.
  { intros n k L. apply N2. assert (K : k = 0 \/ k = 1 \/ k = 2) by lia. destruct K as [-> |[-> | ->]]; vm_compute; reflexivity. }
  split. { intros n. rewrite (proj1 (view86_at n SideA)). vm_compute. discriminate. }
  rewrite end86_is. split; [vm_compute; reflexivity|]. split; [vm_compute; reflexivity|].
  intros n. exists (n86 + n)%nat. split; [lia|]. rewrite (proj2 (proj2 (stays86 n))). discriminate.
Qed.
