(** Properties of endless runs of a client and a server joined by byte streams: C87. *)
From Coq Require Import Strings.String.
From Verif Require Import Base BaseFacts Reader Codec Spec Ids Payload Builder Emit Ipc SpecIpc IpcChanFacts IpcClaims IpcFlow Pair SpecPair PairFacts PairServer PairEnd SpecLive PairLive PairLiveMore BytePair SpecBytes BytePairFacts BoundLive SpecByteLive ByteLive RoomLive ByteRoom
  PropsDispatch PropsPair PropsBytes PropsLive PropsPeersEx PropsByteLive.

(** ** C87 *)
(** C86 over byte streams that hold at most [cap] bytes per direction: writes and reads are portioned and interleaved in any fair way.
    If the user reads his reply streams (or drops them), every send completes and every byte written is read ... *)
Theorem C87_sends_complete : forall cap cf ps ctr f st ob,
  endless_bytes cap cf ps ctr f st ob -> (0 < cap)%nat -> (forall n, all_deliverable cf (st n) (so_far ob n)) -> xclocks f -> eager_xtasks cap cf f st -> fair_xloops cap cf f st ->
  only_replies (cf SideB) -> ps SideB = [] -> drained ob SideA -> (forall n, ~ In (OAborted 0) (at_side SideA (so_far ob n))) ->
  (forall sd n i ctx e pu, option_map tk_st (nth_error (e_tasks (x_ep (st n) sd)) i) = Some (TSend ctx e pu) ->
     exists m, (n <= m)%nat /\ (~ few_events (x_ep (st m) SideA) \/ In (OSent i ctx e) (at_side sd (so_far ob m))))
  /\ (forall sd n, x_wire (st n) sd <> [] -> exists m, (n <= m)%nat /\ (~ few_events (x_ep (st m) SideA) \/ f m = Some (XRead sd))).
Proof.
  intros cap cf ps ctr f st ob EX CAP AD CK FS FX RO PB DR NA. pose proof (sb_many cap cf ps ctr f st ob EX AD) as TM. split.
  - intros sd n i ctx e pu T. destruct (sb_sends_done cap cf ps ctr f st ob EX CAP AD CK FS FX RO PB DR NA sd n i ctx e pu T) as (m & L & [M|A]); exists m; auto.
  - intros sd n W. destruct (sb_bytes_read cap cf ps ctr f st ob EX CAP AD CK FS FX RO PB DR NA sd n W) as (m & L & [M|A]); exists m; auto.
Qed.
Print Assumptions C87_sends_complete.
(** ... every request awaited gets a result, as in C81 ... *)
Theorem C87_every_request_is_answered : forall cap cf ps ctr f st ob,
  endless_bytes cap cf ps ctr f st ob -> (0 < cap)%nat -> (forall n, all_deliverable cf (st n) (so_far ob n)) -> xclocks f -> eager_xtasks cap cf f st -> fair_xloops cap cf f st ->
  only_replies (cf SideB) -> ps SideB = [] -> all_speak (cf SideB) -> debug_fits (cf SideB) (cf_env (cf SideA)) ->
  drained ob SideA -> (forall n, ~ In (OAborted 0) (at_side SideA (so_far ob n))) ->
  forall n i x c, In (OListen i x c) (at_side SideA (so_far ob n)) ->
    (forall m h, ~ In (OOpened i h x c) (at_side SideA (so_far ob m))) -> (forall m, never_handled x (at_side SideA (so_far ob m))) ->
  exists m, (n <= m)%nat /\ (~ few_events (x_ep (st m) SideA)
    \/ (exists r, In (OReply i x r) (at_side SideA (so_far ob m)) /\ (r = None \/ r = Some (Err Timeout)
         \/ exists r' j sc q, r = Some r' /\ In (OCalled 0 j (mk_context 0 (Some x)) sc q) (at_side SideB (so_far ob m)) /\ ev_id q = x /\ answered (cf SideB) (at_side SideB (so_far ob m)) j r'))
    \/ (exists j sc q, In (OCalled 0 j (mk_context 0 (Some x)) sc q) (at_side SideB (so_far ob m)) /\ ev_id q = x
         /\ In (OPanicked j) (at_side SideB (so_far ob m)) /\ sent j (at_side SideB (so_far ob m)) = [])).
Proof.
  intros cap cf ps ctr f st ob EX CAP AD CK FS FX RO PB AS DF DR NA n i x c HL NO NH.
  destruct (request_live cf ps ctr _ _ ob (sb_endless cap cf ps ctr f st ob EX AD) (sb_clocks cf f st CK) (sb_turns cap cf ps ctr f st ob EX CAP AD CK FS FX RO PB DR NA) (sb_loops cap cf ps ctr f st ob EX AD FX) RO PB AS DF DR NA n i x c HL NO NH)
    as (m & L & [M|[(r & A & B)|(j & (sc & q & A & B) & C)]]); exists m; (split; [exact L|]).
  - left. exact (sb_many cap cf ps ctr f st ob EX AD m M).
  - right. left. exists r. split; [exact A|]. destruct B as [B|[B|(r' & j & B & (sc & q & C & D) & E)]]; eauto 12.
  - right. right. exists j, sc, q. auto.
Qed.
Print Assumptions C87_every_request_is_answered.
(** ... and every event a handler has sent for a stream arrives there in order and without gaps, unless the stream ends or is dropped. *)
Theorem C87_every_item_arrives : forall cap cf ps ctr f st ob,
  endless_bytes cap cf ps ctr f st ob -> (0 < cap)%nat -> (forall n, all_deliverable cf (st n) (so_far ob n)) -> xclocks f -> eager_xtasks cap cf f st -> fair_xloops cap cf f st ->
  only_replies (cf SideB) -> ps SideB = [] -> drained ob SideA -> (forall n, ~ In (OAborted 0) (at_side SideA (so_far ob n))) ->
  forall n i h x c j ctx sc q, In (OOpened i h x c) (at_side SideA (so_far ob n)) -> (forall m, never_handled x (at_side SideA (so_far ob m))) ->
    In (OCalled 0 j ctx sc q) (at_side SideB (so_far ob n)) -> ev_id q = x ->
  exists m, (n <= m)%nat /\ (~ few_events (x_ep (st m) SideA) \/ gone (at_side SideA (so_far ob m)) c
    \/ exists rest, queued c (at_side SideA (so_far ob m)) = replies_of_task j (at_side SideB (so_far ob n)) ++ rest).
Proof.
  intros cap cf ps ctr f st ob EX CAP AD CK FS FX RO PB DR NA n i h x c j ctx sc q HO NH HC HX.
  pose proof (sb_endless cap cf ps ctr f st ob EX AD) as EN. pose proof (sb_clocks cf f st CK) as CE.
  destruct (own_run _ _ _ _ _ _ EN CE SideA n) as (la & RA & _). destruct (stream_request _ _ _ _ _ _ _ _ _ _ _ _ RA HO) as (i' & HL & _).
  destruct (stream_live cf ps ctr _ _ ob EN CE (sb_turns cap cf ps ctr f st ob EX CAP AD CK FS FX RO PB DR NA SideA) (sb_loops cap cf ps ctr f st ob EX AD FX) RO PB DR NA n i' x c j ctx sc q HL NH HC HX) as (m & L & [M|M]); exists m; (split; [exact L|]); [|auto].
  left. exact (sb_many cap cf ps ctr f st ob EX AD m M).
Qed.
Print Assumptions C87_every_item_arrives.

(** The tasks of C81_case over a connection that takes three bytes per direction. *)
Definition cf87 : side -> config := fun _ => mk_config [(str "ping", ping); (str "fail", fail)] [] (fun _ => str "Timeout") env67.
Definition tries87 : list xlabel :=
  flat_map (fun sd => flat_map (fun i => (if side_eqb sd SideA && Nat.eqb i 3 then [] else [XDo sd (LTask i go)]) ++ [XWrite sd i]) (seq 0 6) ++ [XDo sd (LPlace 0); XRead sd]) [SideA; SideB].
Fixpoint eager87 (n : nat) (x : xpair) : list xlabel :=
  match n with
  | O => []
  | S n' => match find (fun l => match xstep 3 cf87 x l with Some _ => true | None => false end) tries87 with
            | Some l => match xstep 3 cf87 x l with Some (x', _) => l :: eager87 n' x' | None => [] end
            | None => []
            end
  end.
Definition do87 : xlabel := XDo SideA (LTask 3 go).
Definition ls87 : list xlabel := Eval vm_compute in eager87 3000 (xpair_new ps81 ctr2).
Definition n87 : nat := Eval vm_compute in List.length ls87.
Definition g87 (n : nat) : xlabel := nth n ls87 do87.
Definition st87 : nat -> xpair := xsst 3 cf87 ps81 ctr2 g87.
Definition f87 : nat -> option xlabel := xsf 3 cf87 ps81 ctr2 g87.
Definition ob87 : nat -> list (side * obs) := xsob 3 cf87 ps81 ctr2 g87.
Definition ended87 : xpair * list (side * obs) := Eval vm_compute in match xrun 3 cf87 (xpair_new ps81 ctr2) ls87 with Some r => r | None => (xpair_new ps81 ctr2, []) end.
Definition end87 : list (side * obs) := Eval cbn [snd ended87] in snd ended87.
Lemma at87 : st87 n87 = fst ended87 /\ so_far ob87 n87 = end87.
Proof. apply (xsched_run 3 cf87 ps81 ctr2 g87 do87 ls87 (fst ended87) end87); [vm_compute; reflexivity|]. intros n _. reflexivity. Qed.
Lemma spins87_any x y : step (cf87 SideA) (x_ep y SideA) (LTask 3 go) = Some (x_ep y SideA, []) -> view84 x = view84 y -> exists x', xstep 3 cf87 x do87 = Some (x', []) /\ view84 x' = view84 y.
Proof.
  intros SS H. destruct (view84_side _ _ SideA H) as (E1 & _). rewrite <- E1 in SS. unfold do87. cbn [xstep own_label]. rewrite SS. cbn [existsb map orb]. eexists. split; [reflexivity|].
  rewrite <- H. unfold view84. cbn [x_ep x_out x_wire x_buf upd side_eqb]. reflexivity.
Qed.
Lemma spins87 : step (cf87 SideA) (x_ep (st87 n87) SideA) (LTask 3 go) = Some (x_ep (st87 n87) SideA, []).
Proof. rewrite (proj1 at87). vm_compute. reflexivity. Qed.
Lemma last87 d : g87 (n87 + d) = do87.
Proof. apply nth_overflow. change (List.length ls87) with n87. lia. Qed.
Lemma stays87 : forall d, view84 (st87 (n87 + d)) = view84 (st87 n87) /\ so_far ob87 (n87 + d) = so_far ob87 n87 /\ f87 (n87 + d)%nat = Some do87.
Proof. exact (xsched_stays 3 cf87 ps81 ctr2 g87 n87 do87 (fun x => view84 x = view84 (st87 n87)) last87 eq_refl (fun x => spins87_any x (st87 n87) spins87)). Qed.
Lemma view87_at d sd : x_ep (st87 (n87 + d)) sd = x_ep (fst ended87) sd /\ x_out (st87 (n87 + d)) sd = x_out (fst ended87) sd /\ x_wire (st87 (n87 + d)) sd = x_wire (fst ended87) sd /\ x_buf (st87 (n87 + d)) sd = x_buf (fst ended87) sd.
Proof. rewrite <- (proj1 at87). apply view84_side. apply stays87. Qed.
Lemma halted87 sd i d : (sd, i) <> (SideA, 3%nat) -> xhalted 3 cf87 (st87 (n87 + d)) sd i.
Proof.
  intros N. destruct (view87_at d sd) as (E1 & E2 & _). split; intros; cbn [xstep own_label]; rewrite E1; clear E1 E2; destruct sd.
  1: do 3 (destruct i as [|i]; [vm_compute; reflexivity|]); destruct i as [|i]; [congruence|].
  1,2: do 8 (try (destruct i as [|i]; [vm_compute; reflexivity|])); vm_compute; destruct i; reflexivity.
  all: do 8 (try (destruct i as [|i]; [vm_compute; reflexivity|])); vm_compute; destruct i; reflexivity.
Qed.
Lemma eager_87 : eager_xtasks 3 cf87 f87 st87.
Proof.
  intros sd i n. exists (n87 + n)%nat. split; [lia|].
  assert (D : (sd, i) = (SideA, 3%nat) \/ (sd, i) <> (SideA, 3%nat)) by (destruct sd; [destruct (Nat.eq_dec i 3) as [->|]; [auto|right; congruence]|right; congruence]).
  destruct D as [D|D]; [left|right; right].
  - injection D as -> ->. exists go. apply stays87.
  - intros k Lk. replace k with (n87 + (k - n87))%nat by lia. apply halted87. exact D.
Qed.
Lemma loops87 : fair_xloops 3 cf87 f87 st87.
Proof.
  intros sd l Hl n. exists (n87 + n)%nat. split; [lia|]. right. destruct (view87_at n sd) as (E1 & _ & E3 & _). destruct Hl as [-> | ->]; cbn [xstep own_label]; rewrite E1, ?E3; destruct sd; vm_compute; reflexivity.
Qed.
Lemma carried87 n : all_deliverable cf87 (st87 n) (so_far ob87 n).
Proof.
  apply (deliverable_earlier 3 cf87 ps81 ctr2 f87 st87 ob87 n (n87 + n)); [apply xscheduled|lia|]. destruct (stays87 n) as (_ & E & _). rewrite E, (proj2 at87). apply all_yes; [reflexivity|vm_compute; reflexivity|].
  intros sd. destruct (view87_at n sd) as (_ & E2 & _). rewrite E2. destruct sd; reflexivity.
Qed.
Lemma seen87 sd o n : In o (at_side sd (so_far ob87 n)) -> In o (at_side sd end87).
Proof. intros H. apply (PairLive.still ob87 sd n (n87 + n)) in H; [|lia]. destruct (stays87 n) as (_ & E & _). rewrite E, (proj2 at87) in H. exact H. Qed.
Lemma only87 : only_replies (cf87 SideB).
Proof.
  intros sc name cb H ctx e. unfold eh_get in H. apply (lookup_In _ bytes_eqb_spec) in H. destruct sc as [ns|]; cbn [callbacks cf87 cf_namespaces lookup] in H; [destruct H|].
  cbn in H. destruct H as [H|[H|[]]]; injection H as <- <-.
  - constructor; [reflexivity|]. intros o. constructor; [reflexivity|]. intros o'. constructor.
  - constructor.
Qed.
Lemma speak87 : all_speak (cf87 SideB).
Proof.
  intros sc name cb H ctx e. unfold eh_get in H. apply (lookup_In _ bytes_eqb_spec) in H. destruct sc as [ns|]; cbn [callbacks cf87 cf_namespaces lookup] in H; [destruct H|].
  cbn in H. destruct H as [H|[H|[]]]; injection H as <- <-.
  - constructor. intros er Q. discriminate Q.
  - constructor.
Qed.
Lemma fits87 : debug_fits (cf87 SideB) (cf_env (cf87 SideA)).
Proof. intros er b H. injection H as <-. reflexivity. Qed.
Lemma none87 : (forall n, ~ In (OAborted 0) (at_side SideA (so_far ob87 n))) /\ (forall n x, x < nth_id at1 1000 -> never_handled x (at_side SideA (so_far ob87 n)))
  /\ forall n i h x c, In (OOpened i h x c) (at_side SideA (so_far ob87 n)) -> (i, h, x, c) = (2%nat, 0%nat, nth_id at1 2, 2%nat).
Proof.
  split; [|split].
  - intros n H. apply seen87 in H. revert H. vm_compute. intros H. repeat (destruct H as [H|H]; [discriminate H|]). destruct H.
  - intros n x Lx k i ctx sc e H. apply seen87 in H. intros <-.
    assert (A : forallb (fun o => match o with OCalled _ _ _ _ e => N.leb (nth_id at1 1000) (ev_id e) | _ => true end) (at_side SideA end87) = true) by (vm_compute; reflexivity).
    rewrite forallb_forall in A. specialize (A _ H). apply N.leb_le in A. lia.
  - intros n i h x c H. apply seen87 in H.
    assert (A : forallb (fun o => match o with OOpened i h x c => (Nat.eqb i 2 && Nat.eqb h 0 && N.eqb x (nth_id at1 2) && Nat.eqb c 2)%bool | _ => true end) (at_side SideA end87) = true) by (vm_compute; reflexivity).
    rewrite forallb_forall in A. specialize (A _ H). cbv beta iota in A. apply andb_true_iff in A. destruct A as [A A4]. apply andb_true_iff in A. destruct A as [A A3]. apply andb_true_iff in A. destruct A as [A1 A2].
    apply Nat.eqb_eq in A1, A2, A4. apply N.eqb_eq in A3. congruence.
Qed.
Lemma drained87 : drained ob87 SideA.
Proof.
  intros n j h y c H. apply none87 in H. injection H as -> -> -> ->. exists (n87 + n)%nat. split; [lia|]. right. rewrite (proj1 (proj2 (stays87 n))), (proj2 at87). vm_compute. lia.
Qed.
Example C87_case : endless_bytes 3 cf87 ps81 ctr2 f87 st87 ob87 /\ (0 < 3)%nat /\ (forall n, all_deliverable cf87 (st87 n) (so_far ob87 n)) /\ xclocks f87 /\ eager_xtasks 3 cf87 f87 st87 /\ fair_xloops 3 cf87 f87 st87
  /\ only_replies (cf87 SideB) /\ ps81 SideB = [] /\ all_speak (cf87 SideB) /\ debug_fits (cf87 SideB) (cf_env (cf87 SideA)) /\ drained ob87 SideA
  /\ (forall n, ~ In (OAborted 0) (at_side SideA (so_far ob87 n)))
  /\ (forall i, (i < 2)%nat -> In (OListen i (nth_id at1 (N.of_nat i)) i) (at_side SideA end87) /\ (forall m h, ~ In (OOpened i h (nth_id at1 (N.of_nat i)) i) (at_side SideA (so_far ob87 m))))
  /\ In (OOpened 2 0 (nth_id at1 2) 2) (at_side SideA end87) /\ In (OCalled 0 2 (mk_context 0 (Some (nth_id at1 2))) None (event_new (nth_id at1 2) None (str "ping") [x07] None Initiator)) (at_side SideB end87)
  /\ (forall n k, k < 3 -> never_handled (nth_id at1 k) (at_side SideA (so_far ob87 n)))
  /\ (forall n, few_events (x_ep (st87 (n87 + n)) SideA)) /\ (forall n, so_far ob87 (n87 + n) = end87)
  /\ flat_map (fun o => match o with OReply i x r => [(i, x, match r with Some (Ok e) => Some (ev_name e) | _ => None end)] | _ => [] end) (at_side SideA end87)
     = [(0%nat, nth_id at1 0, Some (str "pong")); (1%nat, nth_id at1 1, None)]
  /\ List.length (queued 2 (at_side SideA end87)) = 3%nat
  /\ (forall n, exists m, (n <= m)%nat /\ f87 m <> None)
  (* the second request waits for the first to be written *)
  /\ (exists e, being_written (st87 60) SideA e) /\ (exists ctx e pu, option_map tk_st (nth_error (e_tasks (x_ep (st87 60) SideA)) 1) = Some (TSend ctx e pu)) /\ xhalted 3 cf87 (st87 60) SideA 1.
Proof.
  destruct none87 as (N1 & N2 & N3). split; [apply xscheduled|]. split; [lia|]. split; [exact carried87|]. split.
  { intros n sd i t v H. unfold f87, xsf in H. destruct (xstep 3 cf87 (xsst 3 cf87 ps81 ctr2 g87 n) (g87 n)); [|discriminate]. injection H as H. unfold g87 in H.
    assert (A : Forall (fun l => match l with XDo _ (LTask _ (AStep t _)) => rust_instant t | _ => True end) (do87 :: ls87)) by (repeat constructor).
    rewrite Forall_forall in A. destruct (nth_in_or_default n ls87 do87) as [Q|Q]; [specialize (A _ (or_intror Q))|specialize (A _ (or_introl (eq_sym Q)))]; rewrite H in A; exact A. }
  split; [exact eager_87|]. split; [exact loops87|]. split; [exact only87|]. split; [reflexivity|]. split; [exact speak87|]. split; [exact fits87|]. split; [exact drained87|]. split; [exact N1|].
  split.
  { intros i L. split; [destruct i as [|[|i]]; [listed|listed|lia]|]. intros m h H. apply N3 in H. injection H as -> _. lia. }
  split; [listed|]. split; [listed|]. split.
  { intros n k L. apply N2. assert (K : k = 0 \/ k = 1 \/ k = 2) by lia. destruct K as [-> |[-> | ->]]; vm_compute; reflexivity. }
  split. { intros n. rewrite (proj1 (view87_at n SideA)). vm_compute. discriminate. }
  split. { intros n. rewrite (proj1 (proj2 (stays87 n))). exact (proj2 at87). }
  split; [vm_compute; reflexivity|]. split; [vm_compute; reflexivity|].
  split; [intros n; exists (n87 + n)%nat; split; [lia|]; rewrite (proj2 (proj2 (stays87 n))); discriminate|].
  split; [eexists _, 0%nat, _, _, _; split; vm_compute; reflexivity|]. split; [eexists _, _, _; vm_compute; reflexivity|]. split; intros; vm_compute; reflexivity.
Qed.
