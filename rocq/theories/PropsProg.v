(** Properties of endless runs of a client and a server: programs come to an end: C88. *)
From Coq Require Import Strings.String.
From Verif Require Import Base BaseFacts Codec Spec Ids Payload Builder Emit Ipc SpecIpc IpcClaims Pair SpecPair PairFacts PairServer PairEnd Bounded SpecBounded BoundedFacts BytePair SpecBytes SpecLive PairLive PairLiveMore SpecNested BoundLive RoomLive SpecByteLive ByteLive ByteRoom ProgLive PropsDispatch PropsPair PropsLive PropsRoom PropsByteRoom.

(** ** C88 *)
(** Code of the client that awaits requests one after the other, emits and computes, and ends once its requests have results, whatever
    these are: it does end. It returns, or panics, or waits for good for a request whose handler panicked before it had sent anything. *)
Theorem C88_programs_end : forall cf ps ctr f st ob,
  endless cf ps ctr f st ob -> clocks f -> fair_tasks cf f st -> fair_loops cf f st ->
  only_replies (cf SideB) -> ps SideB = [] -> all_speak (cf SideB) -> debug_fits (cf SideB) (cf_env (cf SideA)) ->
  drained ob SideA -> (forall n, ~ In (OAborted 0) (at_side SideA (so_far ob n))) ->
  forall n i p, option_map tk_st (nth_error (e_tasks (p_ep (st n) SideA)) i) = Some (TRun p) -> finishes p ->
    (forall m x c, In (OListen i x c) (at_side SideA (so_far ob m)) -> forall m', never_handled x (at_side SideA (so_far ob m'))) ->
  exists m, (n <= m)%nat /\ (~ few_events (p_ep (st m) SideA)
    \/ (exists r, In (OReturned i r) (at_side SideA (so_far ob m))) \/ In (OPanicked i) (at_side SideA (so_far ob m))
    \/ exists x c j sc q, In (OListen i x c) (at_side SideA (so_far ob m)) /\ (forall r, ~ In (OReply i x r) (at_side SideA (so_far ob m)))
         /\ In (OCalled 0 j (mk_context 0 (Some x)) sc q) (at_side SideB (so_far ob m)) /\ ev_id q = x
         /\ In (OPanicked j) (at_side SideB (so_far ob m)) /\ sent j (at_side SideB (so_far ob m)) = []).
Proof.
  intros cf ps ctr f st ob EN CK FT FL RO PB AS DF DR NA n i p T FN NH.
  exact (program_ends cf ps ctr f st ob EN CK (fun sd => fair_turns cf f st _ sd FT) FL RO PB AS DF DR NA i NH p FN n T).
Qed.
Print Assumptions C88_programs_end.
(** The same over a connection that holds at most [cap] events per direction ... *)
Theorem C88_bounded_capacity : forall cap cf ps ctr f st ob,
  endless_held cap cf ps ctr f st ob -> (0 < cap)%nat -> clocks f -> eager_tasks cap cf f st -> fair_loops cf f st ->
  only_replies (cf SideB) -> ps SideB = [] -> all_speak (cf SideB) -> debug_fits (cf SideB) (cf_env (cf SideA)) ->
  drained ob SideA -> (forall n, ~ In (OAborted 0) (at_side SideA (so_far ob n))) ->
  forall n i p, option_map tk_st (nth_error (e_tasks (p_ep (st n) SideA)) i) = Some (TRun p) -> finishes p ->
    (forall m x c, In (OListen i x c) (at_side SideA (so_far ob m)) -> forall m', never_handled x (at_side SideA (so_far ob m'))) ->
  exists m, (n <= m)%nat /\ (~ few_events (p_ep (st m) SideA)
    \/ (exists r, In (OReturned i r) (at_side SideA (so_far ob m))) \/ In (OPanicked i) (at_side SideA (so_far ob m))
    \/ exists x c j sc q, In (OListen i x c) (at_side SideA (so_far ob m)) /\ (forall r, ~ In (OReply i x r) (at_side SideA (so_far ob m)))
         /\ In (OCalled 0 j (mk_context 0 (Some x)) sc q) (at_side SideB (so_far ob m)) /\ ev_id q = x
         /\ In (OPanicked j) (at_side SideB (so_far ob m)) /\ sent j (at_side SideB (so_far ob m)) = []).
Proof.
  intros cap cf ps ctr f st ob EB CAP CK FS FL RO PB AS DF DR NA n i p T FN NH.
  exact (program_ends cf ps ctr f st ob (held_endless cap cf ps ctr f st ob EB) CK (both_turn cap cf ps ctr f st ob EB CAP CK FS FL RO PB DR NA) FL RO PB AS DF DR NA i NH p FN n T).
Qed.
Print Assumptions C88_bounded_capacity.
(** ... and over byte streams that hold at most [cap] bytes per direction. *)
Theorem C88_byte_streams : forall cap cf ps ctr f st ob,
  endless_bytes cap cf ps ctr f st ob -> (0 < cap)%nat -> (forall n, all_deliverable cf (st n) (so_far ob n)) -> xclocks f -> eager_xtasks cap cf f st -> fair_xloops cap cf f st ->
  only_replies (cf SideB) -> ps SideB = [] -> all_speak (cf SideB) -> debug_fits (cf SideB) (cf_env (cf SideA)) ->
  drained ob SideA -> (forall n, ~ In (OAborted 0) (at_side SideA (so_far ob n))) ->
  forall n i p, option_map tk_st (nth_error (e_tasks (x_ep (st n) SideA)) i) = Some (TRun p) -> finishes p ->
    (forall m x c, In (OListen i x c) (at_side SideA (so_far ob m)) -> forall m', never_handled x (at_side SideA (so_far ob m'))) ->
  exists m, (n <= m)%nat /\ (~ few_events (x_ep (st m) SideA)
    \/ (exists r, In (OReturned i r) (at_side SideA (so_far ob m))) \/ In (OPanicked i) (at_side SideA (so_far ob m))
    \/ exists x c j sc q, In (OListen i x c) (at_side SideA (so_far ob m)) /\ (forall r, ~ In (OReply i x r) (at_side SideA (so_far ob m)))
         /\ In (OCalled 0 j (mk_context 0 (Some x)) sc q) (at_side SideB (so_far ob m)) /\ ev_id q = x
         /\ In (OPanicked j) (at_side SideB (so_far ob m)) /\ sent j (at_side SideB (so_far ob m)) = []).
Proof.
  intros cap cf ps ctr f st ob EX CAP AD CK FS FX RO PB AS DF DR NA n i p T FN NH.
  destruct (program_ends cf ps ctr _ _ ob (sb_endless cap cf ps ctr f st ob EX AD) (sb_clocks cf f st CK) (sb_turns cap cf ps ctr f st ob EX CAP AD CK FS FX RO PB DR NA) (sb_loops cap cf ps ctr f st ob EX AD FX) RO PB AS DF DR NA i NH p FN n) as (m & L & [M|A]).
  - rewrite (ev_ep cap cf ps ctr f st ob EX AD). exact T.
  - exists m. split; [exact L|]. left. exact (sb_many cap cf ps ctr f st ob EX AD m M).
  - exists m. split; [exact L|]. right. exact A.
Qed.
Print Assumptions C88_byte_streams.

(** At the server: every handler called whose code ends, ends. It panics, or it returns and its answer is sent as well. *)
Theorem C88_handlers_end : forall cf ps ctr f st ob,
  endless cf ps ctr f st ob -> clocks f -> fair_tasks cf f st -> fair_loops cf f st ->
  only_replies (cf SideB) -> ps SideB = [] -> handlers_finish (cf SideB) ->
  forall n j ctx sc q, In (OCalled 0 j ctx sc q) (at_side SideB (so_far ob n)) ->
  exists m, (n <= m)%nat /\ (~ few_events (p_ep (st m) SideA)
    \/ In (OPanicked j) (at_side SideB (so_far ob m))
    \/ exists r cx a, In (OReturned j r) (at_side SideB (so_far ob m)) /\ In (OSent j cx a) (at_side SideB (so_far ob m)) /\ answers (cf SideB) q r a).
Proof.
  intros cf ps ctr f st ob EN CK FT FL RO PB AF n j ctx sc q H.
  exact (handler_over cf ps ctr f st ob EN CK (fun sd => fair_turns cf f st _ sd FT) RO n j ctx sc q AF H).
Qed.
Print Assumptions C88_handlers_end.
Theorem C88_handlers_end_bounded : forall cap cf ps ctr f st ob,
  endless_held cap cf ps ctr f st ob -> (0 < cap)%nat -> clocks f -> eager_tasks cap cf f st -> fair_loops cf f st ->
  only_replies (cf SideB) -> ps SideB = [] -> drained ob SideA -> (forall n, ~ In (OAborted 0) (at_side SideA (so_far ob n))) -> handlers_finish (cf SideB) ->
  forall n j ctx sc q, In (OCalled 0 j ctx sc q) (at_side SideB (so_far ob n)) ->
  exists m, (n <= m)%nat /\ (~ few_events (p_ep (st m) SideA)
    \/ In (OPanicked j) (at_side SideB (so_far ob m))
    \/ exists r cx a, In (OReturned j r) (at_side SideB (so_far ob m)) /\ In (OSent j cx a) (at_side SideB (so_far ob m)) /\ answers (cf SideB) q r a).
Proof.
  intros cap cf ps ctr f st ob EB CAP CK FS FL RO PB DR NA AF n j ctx sc q H.
  exact (handler_over cf ps ctr f st ob (held_endless cap cf ps ctr f st ob EB) CK (both_turn cap cf ps ctr f st ob EB CAP CK FS FL RO PB DR NA) RO n j ctx sc q AF H).
Qed.
Print Assumptions C88_handlers_end_bounded.
Theorem C88_handlers_end_bytes : forall cap cf ps ctr f st ob,
  endless_bytes cap cf ps ctr f st ob -> (0 < cap)%nat -> (forall n, all_deliverable cf (st n) (so_far ob n)) -> xclocks f -> eager_xtasks cap cf f st -> fair_xloops cap cf f st ->
  only_replies (cf SideB) -> ps SideB = [] -> drained ob SideA -> (forall n, ~ In (OAborted 0) (at_side SideA (so_far ob n))) -> handlers_finish (cf SideB) ->
  forall n j ctx sc q, In (OCalled 0 j ctx sc q) (at_side SideB (so_far ob n)) ->
  exists m, (n <= m)%nat /\ (~ few_events (x_ep (st m) SideA)
    \/ In (OPanicked j) (at_side SideB (so_far ob m))
    \/ exists r cx a, In (OReturned j r) (at_side SideB (so_far ob m)) /\ In (OSent j cx a) (at_side SideB (so_far ob m)) /\ answers (cf SideB) q r a).
Proof.
  intros cap cf ps ctr f st ob EX CAP AD CK FS FX RO PB DR NA AF n j ctx sc q H.
  destruct (handler_over cf ps ctr _ _ ob (sb_endless cap cf ps ctr f st ob EX AD) (sb_clocks cf f st CK) (sb_turns cap cf ps ctr f st ob EX CAP AD CK FS FX RO PB DR NA) RO n j ctx sc q AF H) as (m & L & [M|A]); exists m; (split; [exact L|]); [left|right; exact A].
  exact (sb_many cap cf ps ctr f st ob EX AD m M).
Qed.
Print Assumptions C88_handlers_end_bytes.

(** The first two tasks of C81_case, C86_case and C87_case (which meet the other hypotheses). *)
Definition low_listens (tr : list obs) : bool := forallb (fun o => match o with OListen _ x _ => N.ltb x (nth_id at1 1000) | _ => true end) tr.
Lemma low_listen tr i x c : low_listens tr = true -> In (OListen i x c) tr -> x < nth_id at1 1000.
Proof. unfold low_listens. rewrite forallb_forall. intros A H. specialize (A _ H). cbn beta iota in A. apply N.ltb_lt in A. exact A. Qed.
Lemma finishes_asks name : finishes (asks name).
Proof. unfold asks. constructor. intros o. constructor. Qed.
Definition returned_tasks (tr : list obs) : list nat := flat_map (fun o => match o with OReturned i _ => [i] | _ => [] end) tr.
Lemma ex_finish : handlers_finish ex_cf.
Proof.
  intros sc name cb H ctx e. unfold eh_get in H. apply (lookup_In _ bytes_eqb_spec) in H. destruct sc as [ns|]; cbn [callbacks] in H.
  - destruct (lookup bytes_eqb ns (cf_namespaces ex_cf)) as [nsp|] eqn:En; [|destruct H]. apply (lookup_In _ bytes_eqb_spec) in En. cbn in En. destruct En as [En|[]]. injection En as <- <-.
    cbn in H. destruct H as [H|[]]. injection H as <- <-. repeat constructor.
  - cbn in H. destruct H as [H|[H|[H|[]]]]; injection H as <- <-; try (repeat constructor; fail).
    unfold default_error. destruct (error_dec ex_env (ev_data e)); repeat constructor.
Qed.
Lemma finish87 : handlers_finish (cf87 SideB).
Proof.
  intros sc name cb H ctx e. unfold eh_get in H. apply (lookup_In _ bytes_eqb_spec) in H. destruct sc as [ns|]; cbn in H; [destruct H|].
  destruct H as [H|[H|[]]]; injection H as <- <-; repeat constructor.
Qed.
Example C88_case : handlers_finish (cf2 SideB) /\ handlers_finish (cf87 SideB) /\ finishes (asks (str "ping")) /\ finishes (asks (str "fail"))
  /\ (option_map tk_st (nth_error (e_tasks (p_ep (st81 0) SideA)) 0) = Some (TRun (asks (str "ping"))) /\ option_map tk_st (nth_error (e_tasks (p_ep (st81 0) SideA)) 1) = Some (TRun (asks (str "fail")))
      /\ (forall i m x c, In (OListen i x c) (at_side SideA (so_far ob81 m)) -> forall m', never_handled x (at_side SideA (so_far ob81 m')))
      /\ In 0%nat (returned_tasks (at_side SideA (so_far ob81 n81))) /\ In 1%nat (returned_tasks (at_side SideA (so_far ob81 n81))))
  /\ (option_map tk_st (nth_error (e_tasks (p_ep (st86 0) SideA)) 0) = Some (TRun (asks (str "ping"))) /\ option_map tk_st (nth_error (e_tasks (p_ep (st86 0) SideA)) 1) = Some (TRun (asks (str "fail")))
      /\ (forall i m x c, In (OListen i x c) (at_side SideA (so_far ob86 m)) -> forall m', never_handled x (at_side SideA (so_far ob86 m')))
      /\ In 0%nat (returned_tasks (at_side SideA (so_far ob86 n86))) /\ In 1%nat (returned_tasks (at_side SideA (so_far ob86 n86))))
  /\ (option_map tk_st (nth_error (e_tasks (x_ep (st87 0) SideA)) 0) = Some (TRun (asks (str "ping"))) /\ option_map tk_st (nth_error (e_tasks (x_ep (st87 0) SideA)) 1) = Some (TRun (asks (str "fail")))
      /\ (forall i m x c, In (OListen i x c) (at_side SideA (so_far ob87 m)) -> forall m', never_handled x (at_side SideA (so_far ob87 m')))
      /\ In 0%nat (returned_tasks (at_side SideA end87)) /\ In 1%nat (returned_tasks (at_side SideA end87))).
Proof.
  split; [exact ex_finish|]. split; [exact finish87|]. split; [apply finishes_asks|]. split; [apply finishes_asks|]. split; [|split].
  - split; [reflexivity|]. split; [reflexivity|]. split; [|rewrite end81_is; vm_compute; tauto].
    intros i m x c H m'. apply never81 in H. rewrite end81_is in H. apply none81. eapply low_listen; [|exact H]. vm_compute. reflexivity.
  - split; [reflexivity|]. split; [reflexivity|]. split; [|rewrite end86_is; vm_compute; tauto].
    intros i m x c H m'. apply never86 in H. rewrite end86_is in H. apply none86. eapply low_listen; [|exact H]. vm_compute. reflexivity.
  - split; [reflexivity|]. split; [reflexivity|]. split; [|vm_compute; tauto].
    intros i m x c H m'. apply seen87 in H. apply none87. eapply low_listen; [|exact H]. vm_compute. reflexivity.
Qed.
