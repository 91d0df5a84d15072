(** Properties of endless runs of two joined endpoints: C81. *)
From Coq Require Import Strings.String.
From Verif Require Import Base BaseFacts Codec Spec Ids Payload Builder Emit Ipc SpecIpc IpcClaims Pair SpecPair PairFacts PairServer PairEnd SpecLive PairLive PairLiveMore PropsDispatch PropsPair.

(** ** C81 *)
(** The run need not come to rest: other tasks and handlers may go on for ever. Every task and receive loop that can go on does so at
    some time, the user reads his reply streams, the server's handlers emit or return at some time.
    Then every request awaited gets a result: what the handler called for it emitted first, or returned; or its timer fires or it is given
    up; or that handler panics before it has sent anything; or the client's process creates more than 2^32 events (then ids can repeat). *)
Theorem C81_every_request_is_answered : forall cf ps ctr f st ob,
  endless cf ps ctr f st ob -> clocks f -> fair_tasks cf f st -> fair_loops cf f st ->
  only_replies (cf SideB) -> ps SideB = [] -> all_speak (cf SideB) -> debug_fits (cf SideB) (cf_env (cf SideA)) ->
  drained ob SideA -> (forall n, ~ In (OAborted 0) (at_side SideA (so_far ob n))) ->
  forall n i x c, In (OListen i x c) (at_side SideA (so_far ob n)) ->
    (forall m h, ~ In (OOpened i h x c) (at_side SideA (so_far ob m))) -> (forall m, never_handled x (at_side SideA (so_far ob m))) ->
  exists m, (n <= m)%nat /\ (~ few_events (p_ep (st m) SideA)
    \/ (exists r, In (OReply i x r) (at_side SideA (so_far ob m)) /\ (r = None \/ r = Some (Err Timeout)
         \/ exists r' j sc q, r = Some r' /\ In (OCalled 0 j (mk_context 0 (Some x)) sc q) (at_side SideB (so_far ob m)) /\ ev_id q = x /\ answered (cf SideB) (at_side SideB (so_far ob m)) j r'))
    \/ (exists j sc q, In (OCalled 0 j (mk_context 0 (Some x)) sc q) (at_side SideB (so_far ob m)) /\ ev_id q = x
         /\ In (OPanicked j) (at_side SideB (so_far ob m)) /\ sent j (at_side SideB (so_far ob m)) = [])).
Proof.
  intros cf ps ctr f st ob EN CK FT FL RO PB AS DF DR NA n i x c HL NO NH.
  destruct (request_live cf ps ctr f st ob EN CK (fun sd => fair_turns cf f st _ sd FT) FL RO PB AS DF DR NA n i x c HL NO NH) as (m & L & [M|[(r & A & B)|(j & (sc & q & A & B) & C)]]); exists m; (split; [exact L|]).
  - left. exact M.
  - right. left. exists r. split; [exact A|]. destruct B as [B|[B|(r' & j & B & (sc & q & C & D) & E)]]; eauto 12.
  - right. right. exists j, sc, q. auto.
Qed.
Print Assumptions C81_every_request_is_answered.
(** Every event the handler has sent for a request read as a stream is handed to that stream at some time, in order and without gaps,
    unless the stream ends or is dropped. *)
Theorem C81_every_item_arrives : forall cf ps ctr f st ob,
  endless cf ps ctr f st ob -> clocks f -> fair_tasks cf f st -> fair_loops cf f st ->
  only_replies (cf SideB) -> ps SideB = [] ->
  drained ob SideA -> (forall n, ~ In (OAborted 0) (at_side SideA (so_far ob n))) ->
  forall n i h x c j ctx sc q, In (OOpened i h x c) (at_side SideA (so_far ob n)) -> (forall m, never_handled x (at_side SideA (so_far ob m))) ->
    In (OCalled 0 j ctx sc q) (at_side SideB (so_far ob n)) -> ev_id q = x ->
  exists m, (n <= m)%nat /\ (~ few_events (p_ep (st m) SideA) \/ gone (at_side SideA (so_far ob m)) c
    \/ exists rest, queued c (at_side SideA (so_far ob m)) = replies_of_task j (at_side SideB (so_far ob n)) ++ rest).
Proof.
  intros cf ps ctr f st ob EN CK FT FL RO PB DR NA n i h x c j ctx sc q HO NH HC HX.
  destruct (own_run _ _ _ _ _ _ EN CK SideA n) as (la & RA & _). destruct (stream_request _ _ _ _ _ _ _ _ _ _ _ _ RA HO) as (i' & HL & _).
  destruct (stream_live cf ps ctr f st ob EN CK (fair_turns cf f st _ SideA FT) FL RO PB DR NA n i' x c j ctx sc q HL NH HC HX) as (m & L & [M|M]); exists m; auto.
Qed.
Print Assumptions C81_every_item_arrives.
(** Such runs exist: tasks and loops can be given turns so that all of this is met, whatever the endpoints are. *)
Theorem C81_fair_runs_exist : forall cf ps ctr, exists f st ob, endless cf ps ctr f st ob /\ clocks f /\ fair_tasks cf f st /\ fair_loops cf f st.
Proof. intros cf ps ctr. exists (sf cf ps ctr in_turn), (sst cf ps ctr in_turn), (sob cf ps ctr in_turn). exact (fair_run cf ps ctr). Qed.
Print Assumptions C81_fair_runs_exist.

(** Two requests, a stream of which one item is read, and a task that goes on for ever. *)
CoFixpoint spin : prog := PEnv (fun _ => spin).
Definition follow (name : bytes) : prog := PStream (mk_request c00 None name (Ok [x07])) (fun o => match o with Some (Ok h) => PNext h (fun _ => PRet (inl [])) | _ => PRet (inl []) end).
Definition ps81 : side -> list prog := fun sd => match sd with SideA => [asks (str "ping"); asks (str "fail"); follow (str "ping"); spin] | SideB => [] end.
Definition tries81 : list plabel := [doA 0; doA 1; doA 2; doA 4; doA 5; doB 0; doB 1; doB 2; PDo SideA (LPlace 0); PDeliver SideA; PDeliver SideB].
Fixpoint eager81 (n : nat) (p : pair) : list plabel :=
  match n with
  | O => []
  | S n' => match find (fun l => match pstep cf2 p l with Some _ => true | None => false end) tries81 with
            | Some l => match pstep cf2 p l with Some (p', _) => l :: eager81 n' p' | None => [] end
            | None => []
            end
  end.
Definition ls81 : list plabel := Eval vm_compute in eager81 100 (pair_new ps81 ctr2 (fun _ => [])).
Definition n81 : nat := Eval vm_compute in List.length ls81.
Definition g81 (n : nat) : plabel := nth n ls81 (doA 3).
Definition st81 : nat -> pair := sst cf2 ps81 ctr2 g81.
Definition f81 : nat -> option plabel := sf cf2 ps81 ctr2 g81.
Definition ob81 : nat -> list (side * obs) := sob cf2 ps81 ctr2 g81.
Definition view81 (p : pair) : (ep * ep) * (list event * list event) := ((p_ep p SideA, p_ep p SideB), (p_in p SideA, p_in p SideB)).
Lemma all81 : forallb (fun n => match f81 n with Some _ => true | None => false end) (seq 0 n81) = true.
Proof. vm_compute. reflexivity. Qed.
Lemma spins EA EB WA WB p : step (cf2 SideA) EA (LTask 3 go) = Some (EA, []) -> view81 p = ((EA, EB), (WA, WB)) -> exists p', pstep cf2 p (doA 3) = Some (p', []) /\ view81 p' = ((EA, EB), (WA, WB)).
Proof.
  intros SS H. destruct p as [E W]. unfold view81 in H. cbn [p_ep p_in] in H. injection H as H1 H1' H2 H2'. rewrite <- H1 in SS at 1.
  unfold doA. cbn [pstep own_label p_ep p_in]. rewrite SS. cbn [existsb map flat_map]. eexists. split; [reflexivity|]. unfold view81. cbn [p_ep p_in upd side_eqb other]. rewrite app_nil_r, H1', H2, H2'. reflexivity.
Qed.
Lemma spins81 : step (cf2 SideA) (p_ep (st81 n81) SideA) (LTask 3 go) = Some (p_ep (st81 n81) SideA, []).
Proof. vm_compute. reflexivity. Qed.
Lemma last81 d : g81 (n81 + d) = doA 3.
Proof. apply nth_overflow. change (List.length ls81) with n81. lia. Qed.
Lemma stays81 : forall d, view81 (st81 (n81 + d)) = view81 (st81 n81) /\ so_far ob81 (n81 + d) = so_far ob81 n81 /\ f81 (n81 + d)%nat = Some (doA 3).
Proof.
  exact (sched_stays cf2 ps81 ctr2 g81 n81 (doA 3) (fun p => view81 p = view81 (st81 n81)) last81 eq_refl (fun p => spins _ _ _ _ p spins81)).
Qed.
Lemma never81 sd o n : In o (at_side sd (so_far ob81 n)) -> In o (at_side sd (so_far ob81 n81)).
Proof.
  intros H. apply (still ob81 sd n (n81 + n)) in H; [|lia]. destruct (stays81 n) as (_ & E & _). rewrite E in H. exact H.
Qed.
Definition end81 : list (side * obs) := Eval vm_compute in so_far ob81 n81.
Lemma end81_is : so_far ob81 n81 = end81. Proof. vm_compute. reflexivity. Qed.
Lemma stuck81 sd i : (sd, i) <> (SideA, 3%nat) -> stuck (cf2 sd) (p_ep (st81 n81) sd) i.
Proof.
  intros N t v. destruct sd.
  - do 3 (destruct i as [|i]; [vm_compute; reflexivity|]). destruct i as [|i]; [congruence|]. do 6 (try (destruct i as [|i]; [vm_compute; reflexivity|])); vm_compute; destruct i; reflexivity.
  - do 6 (try (destruct i as [|i]; [vm_compute; reflexivity|])); vm_compute; destruct i; reflexivity.
Qed.
Lemma ex_all_speak : all_speak ex_cf.
Proof.
  intros sc name cb H ctx e. unfold eh_get in H. apply (lookup_In _ bytes_eqb_spec) in H. destruct sc as [ns|]; cbn [callbacks] in H.
  - destruct (lookup bytes_eqb ns (cf_namespaces ex_cf)) as [nsp|] eqn:En; [|destruct H]. apply (lookup_In _ bytes_eqb_spec) in En. cbn in En. destruct En as [En|[]]. injection En as <- <-.
    cbn in H. destruct H as [H|[]]. injection H as <- <-. constructor.
  - cbn in H. destruct H as [H|[H|[H|[]]]]; injection H as <- <-.
    + constructor. intros er Q. discriminate Q.
    + constructor.
    + unfold default_error. destruct (error_dec ex_env (ev_data e)); constructor.
Qed.
Lemma view81_side p p' sd : view81 p = view81 p' -> p_ep p sd = p_ep p' sd /\ p_in p sd = p_in p' sd.
Proof. unfold view81. intros E. destruct sd; injection E; auto. Qed.
Lemma view81_at d sd : p_ep (st81 (n81 + d)) sd = p_ep (st81 n81) sd /\ p_in (st81 (n81 + d)) sd = p_in (st81 n81) sd.
Proof. exact (view81_side _ _ sd (proj1 (stays81 d))). Qed.
Lemma fair81 : fair_tasks cf2 f81 st81 /\ fair_loops cf2 f81 st81.
Proof.
  split.
  - intros sd i n. exists (n81 + n)%nat. split; [lia|].
    assert (D : (sd, i) = (SideA, 3%nat) \/ (sd, i) <> (SideA, 3%nat)) by (destruct sd; [destruct (Nat.eq_dec i 3) as [->|]; [auto|right; congruence]|right; congruence]).
    destruct D as [D|D]; [left|right].
    + injection D as -> ->. exists go. apply stays81.
    + rewrite (proj1 (view81_at n sd)). apply stuck81. exact D.
  - intros sd l Hl n. exists (n81 + n)%nat. split; [lia|]. right. destruct (view81_at n sd) as [E1 E2].
    assert (R1 : p_in (st81 n81) sd = []) by (destruct sd; vm_compute; reflexivity).
    assert (R2 : step (cf2 sd) (p_ep (st81 n81) sd) (LPlace 0) = None) by (destruct sd; vm_compute; reflexivity).
    destruct Hl as [-> | ->]; cbn [pstep own_label]; [rewrite E2, R1; reflexivity|rewrite E1, R2; reflexivity].
Qed.
Lemma none81 : (forall n, ~ In (OAborted 0) (at_side SideA (so_far ob81 n))) /\ (forall n x, x < nth_id at1 1000 -> never_handled x (at_side SideA (so_far ob81 n)))
  /\ forall n i h x c, In (OOpened i h x c) (at_side SideA (so_far ob81 n)) -> (i, h, x, c) = (2%nat, 0%nat, nth_id at1 2, 2%nat).
Proof.
  split; [|split].
  - intros n H. apply never81 in H. rewrite end81_is in H. revert H. vm_compute. intros H. repeat (destruct H as [H|H]; [discriminate H|]). destruct H.
  - intros n x Lx k i ctx sc e H. apply never81 in H. rewrite end81_is in H. intros <-.
    assert (A : forallb (fun o => match o with OCalled _ _ _ _ e => N.leb (nth_id at1 1000) (ev_id e) | _ => true end) (at_side SideA end81) = true) by (vm_compute; reflexivity).
    rewrite forallb_forall in A. specialize (A _ H). apply N.leb_le in A. lia.
  - intros n i h x c H. apply never81 in H. rewrite end81_is in H.
    assert (A : forallb (fun o => match o with OOpened i h x c => (Nat.eqb i 2 && Nat.eqb h 0 && N.eqb x (nth_id at1 2) && Nat.eqb c 2)%bool | _ => true end) (at_side SideA end81) = true) by (vm_compute; reflexivity).
    rewrite forallb_forall in A. specialize (A _ H). cbv beta iota in A. apply andb_true_iff in A. destruct A as [A A4]. apply andb_true_iff in A. destruct A as [A A3]. apply andb_true_iff in A. destruct A as [A1 A2].
    apply Nat.eqb_eq in A1, A2, A4. apply N.eqb_eq in A3. congruence.
Qed.
Lemma drained81 : drained ob81 SideA.
Proof.
  intros n j h y c H. apply none81 in H. injection H as -> -> -> ->. exists (n81 + n)%nat. split; [lia|]. right. rewrite (proj1 (proj2 (stays81 n))), end81_is. vm_compute. lia.
Qed.
(** After a while the requests are answered and the stream holds two more items; the spinning task goes on. *)
Example C81_case : endless cf2 ps81 ctr2 f81 st81 ob81 /\ clocks f81 /\ fair_tasks cf2 f81 st81 /\ fair_loops cf2 f81 st81
  /\ only_replies (cf2 SideB) /\ ps81 SideB = [] /\ all_speak (cf2 SideB) /\ debug_fits (cf2 SideB) (cf_env (cf2 SideA)) /\ drained ob81 SideA
  /\ (forall n, ~ In (OAborted 0) (at_side SideA (so_far ob81 n)))
  /\ (forall i, (i < 2)%nat -> In (OListen i (nth_id at1 (N.of_nat i)) i) (at_side SideA (so_far ob81 10)) /\ (forall m h, ~ In (OOpened i h (nth_id at1 (N.of_nat i)) i) (at_side SideA (so_far ob81 m))))
  /\ In (OOpened 2 0 (nth_id at1 2) 2) (at_side SideA (so_far ob81 10)) /\ In (OCalled 0 2 (mk_context 0 (Some (nth_id at1 2))) None (event_new (nth_id at1 2) None (str "ping") [x07] None Initiator)) (at_side SideB (so_far ob81 n81))
  /\ (forall n k, k < 3 -> never_handled (nth_id at1 k) (at_side SideA (so_far ob81 n)))
  /\ (forall n, few_events (p_ep (st81 (n81 + n)) SideA))
  /\ flat_map (fun o => match o with OReply i x r => [(i, x, r)] | _ => [] end) (at_side SideA (so_far ob81 n81))
     = [(0%nat, nth_id at1 0, Some (Ok (event_new (nth_id at1 1000) None (str "pong") [x01] (Some (nth_id at1 0)) Response)));
        (1%nat, nth_id at1 1, Some (Err (ErrorEvent (mk_err_data 500 (str "Timeout")))))]
  /\ List.length (queued 2 (at_side SideA (so_far ob81 n81))) = 3%nat
  /\ forall n, exists m, (n <= m)%nat /\ f81 m <> None.
Proof.
  destruct none81 as (N1 & N2 & N3). split; [apply scheduled|]. split.
  { intros n sd i t v H. unfold f81, sf in H. destruct (pstep cf2 (sst cf2 ps81 ctr2 g81 n) (g81 n)); [|discriminate]. injection H as H. unfold g81 in H.
    assert (A : Forall (fun l => match l with PDo _ (LTask _ (AStep t _)) => rust_instant t | _ => True end) (doA 3 :: ls81)) by (repeat constructor).
    rewrite Forall_forall in A. destruct (nth_in_or_default n ls81 (doA 3)) as [Q|Q]; [specialize (A _ (or_intror Q))|specialize (A _ (or_introl (eq_sym Q)))]; rewrite H in A; exact A. }
  split; [apply fair81|]. split; [apply fair81|]. split; [exact ex_only_replies|]. split; [reflexivity|]. split; [exact ex_all_speak|]. split; [exact ex_debug_fits|]. split; [exact drained81|]. split; [exact N1|].
  split.
  { intros i L. split; [destruct i as [|[|i]]; [vm_compute; tauto|vm_compute; tauto|lia]|]. intros m h H. apply N3 in H. injection H as -> _. lia. }
  split; [vm_compute; tauto|]. split; [rewrite end81_is; vm_compute; tauto|]. split.
  { intros n k L. apply N2. assert (K : k = 0 \/ k = 1 \/ k = 2) by lia. destruct K as [-> |[-> | ->]]; vm_compute; reflexivity. }
  split. { intros n. rewrite (proj1 (view81_at n SideA)). vm_compute. discriminate. }
  rewrite end81_is. split; [vm_compute; reflexivity|]. split; [vm_compute; reflexivity|].
  intros n. exists (n81 + n)%nat. split; [lia|]. rewrite (proj2 (proj2 (stays81 n))). discriminate.
Qed.
