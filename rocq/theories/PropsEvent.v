(** Properties of events and their wire format: C01-C13. *)
From Coq Require Import Strings.String.
From Verif Require Import Base BaseFacts Utf8 Utf8Facts Reader ReaderFacts Codec Spec Ids DecodeFacts EventProofs IdsFacts.

(** A non-trivial event used to show that premises can be met: id, reference, namespace, name and data all present. *)
Definition sample_event : event :=
  mk_event (mk_header 42 Response (Some 7) (Some (str "ns")) (str "ping" ++ [xc3; xbc])) [x01; x02; xff].
Definition sample_env : env := mk_env true 1000000.
Example sample_ok : rust_event sample_event /\ enough_mem sample_env sample_event /\ fits sample_event /\ normal sample_event.
Proof.
  split; [split; [split; [|split; [|split]]|]|split; [split|split]].
  - reflexivity.
  - intros r H. injection H as <-. reflexivity.
  - intros s H. injection H as <-. apply utf8_valid_iff. reflexivity.
  - apply utf8_valid_iff. reflexivity.
  - discriminate.
  - discriminate.
  - discriminate.
  - discriminate.
  - discriminate.
Qed.

(** ** C01 *)
Theorem C01_into_bytes_always_ok : forall e, exists l, into_bytes e = Ok l.
Proof. exact into_bytes_total. Qed.
Print Assumptions C01_into_bytes_always_ok.

Theorem C01_round_trip_exactly : forall E e rest, rust_event e -> enough_mem E e ->
  ((exists l, into_bytes e = Ok l /\ decode E (l ++ rest) = Ok (e, rest))
   <-> header_size (ev_header e) <= 65535 /\ ev_ns e <> Some []).
Proof. exact round_trip_iff. Qed.
Print Assumptions C01_round_trip_exactly.

Theorem C01_empty_namespace_becomes_none : forall E e rest, rust_event e -> enough_mem E e -> fits e ->
  exists l, into_bytes e = Ok l /\ decode E (l ++ rest) = Ok (drop_empty_ns e, rest).
Proof. exact empty_ns_lost. Qed.
Print Assumptions C01_empty_namespace_becomes_none.

Example C01_case : exists l, into_bytes sample_event = Ok l /\ decode sample_env (l ++ [x07]) = Ok (sample_event, [x07]).
Proof. eexists. split; vm_compute; reflexivity. Qed.
Example C01_case_too_long : forall name, 65519 <= blen name -> ~ fits (event_initiator 1 None name []).
Proof. unfold fits, header_size. cbn [ev_header event_initiator event_new h_ref h_ns h_name]. lia. Qed.

(** ** C02 *)
Theorem C02_stream_of_events : forall E es l fuel,
  Forall rust_event es -> Forall (enough_mem E) es -> Forall fits es -> Forall normal es ->
  encodings es l -> (length es < fuel)%nat ->
  read_events E fuel l = (es, Err (IoError UnexpectedEof)).
Proof. exact read_events_list. Qed.
Print Assumptions C02_stream_of_events.

Theorem C02_prefix_free : forall e1 e2 l1 l2 x, rust_event e1 -> rust_event e2 -> fits e1 -> fits e2 ->
  into_bytes e1 = Ok l1 -> into_bytes e2 = Ok l2 -> l2 = l1 ++ x -> x = [] /\ drop_empty_ns e1 = drop_empty_ns e2.
Proof. exact encoding_prefix_free. Qed.
Print Assumptions C02_prefix_free.

Example C02_case : exists l, encodings [sample_event; sample_event] l /\ blen l = 92.
Proof. eexists. split; [apply enc_cons; [reflexivity|]; apply enc_cons; [reflexivity|apply enc_nil]|vm_compute; reflexivity]. Qed.

(** ** C03 *)
Theorem C03_truncated_event : forall E e l cut more, rust_event e -> enough_mem E e -> fits e ->
  into_bytes e = Ok l -> l = cut ++ more -> more <> [] ->
  decode E cut = Err (IoError UnexpectedEof).
Proof. exact truncated_eof. Qed.
Print Assumptions C03_truncated_event.

Example C03_case : exists l, into_bytes sample_event = Ok l /\ blen l = 46
  /\ forallb (fun n => match decode sample_env (firstn n l) with Err (IoError UnexpectedEof) => true | _ => false end) (seq 0 46) = true.
Proof. eexists. split; [vm_compute; reflexivity|]. split; vm_compute; reflexivity. Qed.

(** ** C04: a script says what the socket does on each poll; [content] is the bytes it delivers and how it ends. *)
Theorem C04_chunking_irrelevant : forall E s1 s2 f1 f2,
  (length s1 < f1)%nat -> (length s2 < f2)%nat -> content s1 = content s2 ->
  same_end (exec sock_read E f1 (from_async_read E) [] s1) (exec sock_read E f2 (from_async_read E) [] s2).
Proof. exact chunking_same. Qed.
Print Assumptions C04_chunking_irrelevant.

Theorem C04_complete_event_is_read : forall E s fuel l rest en e,
  (length s < fuel)%nat -> content s = (l ++ rest, en) -> decode E l = Ok (e, []) ->
  exists s', exec sock_read E fuel (from_async_read E) [] s = XOut (Ok e) s' /\ content s' = (rest, en).
Proof. exact chunking_complete. Qed.
Print Assumptions C04_complete_event_is_read.

Theorem C04_partial_event_waits : forall E s fuel cut more e,
  (length s < fuel)%nat -> content s = (cut, EndIdle) -> decode E (cut ++ more) = Ok (e, []) -> more <> [] ->
  exists p got, exec sock_read E fuel (from_async_read E) [] s = XIdle p got [] /\
    forall s2 fuel2 rest en, (length s2 < fuel2)%nat -> content s2 = (more ++ rest, en) ->
      exists s', exec sock_read E fuel2 p got s2 = XOut (Ok e) s' /\ content s' = (rest, en).
Proof. exact chunking_waits. Qed.
Print Assumptions C04_partial_event_waits.

(** the sample event delivered byte by byte with a not-ready poll before each byte *)
Example C04_case : exists l s s', into_bytes sample_event = Ok l /\ s = flat_map (fun b => [TPend; TB b; TCut]) l
  /\ exec sock_read sample_env 200 (from_async_read sample_env) [] s = XOut (Ok sample_event) s'.
Proof. eexists _, _, _. split; [vm_compute; reflexivity|]. split; [reflexivity|vm_compute; reflexivity]. Qed.

(** ** C05 *)
Theorem C05_unsupported_version : forall E t hl v0 v1 v2 body, 65535 <= mem E ->
  t < U64 -> hl < U16 -> hl <= t -> 3 <= hl -> hl <= 3 + blen body -> v0 <> x00 ->
  decode E (frame t hl (v0 :: v1 :: v2 :: body)) = Err (UnsupportedVersion (version_text v0 v1 v2)).
Proof. exact version_refused. Qed.
Print Assumptions C05_unsupported_version.

Theorem C05_never_an_event : forall E t hl v0 v1 v2 body ev rest, t < U64 -> hl < U16 -> v0 <> x00 ->
  decode E (frame t hl (v0 :: v1 :: v2 :: body)) <> Ok (ev, rest).
Proof. exact version_no_event. Qed.
Print Assumptions C05_never_an_event.

Theorem C05_minor_and_patch_irrelevant : forall E t hl v1 v2 w1 w2 body, t < U64 -> hl < U16 ->
  decode E (frame t hl (x00 :: v1 :: v2 :: body)) = decode E (frame t hl (x00 :: w1 :: w2 :: body)).
Proof. exact version_minor_irrelevant. Qed.
Print Assumptions C05_minor_and_patch_irrelevant.

Example C05_case : decode sample_env (frame 17 17 ([x01; x0c; xff] ++ repeat x00 14)) = Err (UnsupportedVersion (str "1.12.255")).
Proof. reflexivity. Qed.

(** ** C06 *)
Theorem C06_appended_header_bytes : forall E e hb extra rest, rust_event e -> enough_mem E e -> normal e ->
  wire_header [x00; x09; x00] (ev_header e) hb -> blen hb + blen extra <= 65535 ->
  decode E (frame (blen hb + blen extra + blen (ev_data e)) (blen hb + blen extra) (hb ++ extra ++ ev_data e ++ rest)) = Ok (e, rest).
Proof. exact extra_header_ignored. Qed.
Print Assumptions C06_appended_header_bytes.

Example C06_case : wire_header [x00; x09; x00] (ev_header sample_event) (header_into_bytes (ev_header sample_event))
  /\ blen (header_into_bytes (ev_header sample_event)) + blen [x01; x02] <= 65535.
Proof.
  split; [|vm_compute; congruence]. rewrite CodecFacts.header_into_bytes_eq.
  apply header_rest_wire; [apply sample_ok | apply sample_ok].
Qed.

(** ** C07 *)
Theorem C07_accepted_events_are_well_formed : forall E l e rest, decode E l = Ok (e, rest) ->
  rust_event e /\ ev_ns e <> Some [] /\ fits e
  /\ exists v1 v2 hb extra,
       l = frame (blen hb + blen extra + blen (ev_data e)) (blen hb + blen extra) (hb ++ extra ++ ev_data e ++ rest)
       /\ wire_header [x00; v1; v2] (ev_header e) hb /\ blen hb + blen extra <= 65535.
Proof. exact accepted_well_formed. Qed.
Print Assumptions C07_accepted_events_are_well_formed.

Theorem C07_reencoding_is_stable : forall E l e rest rest', decode E l = Ok (e, rest) -> 65535 <= mem E ->
  exists l', into_bytes e = Ok l' /\ decode E (l' ++ rest') = Ok (e, rest').
Proof. exact reencode_stable. Qed.
Print Assumptions C07_reencoding_is_stable.

(** A header [hb] of [hl] bytes, complete on the wire, that is refused makes the whole frame refused the same way:
    unknown type byte, unknown reference marker, namespace or name that is not text. *)
Theorem C07_unknown_type : forall E t body v1 v2 fid ty l,
  let hb := [x00; v1; v2] ++ fid ++ [ty] ++ l in
  65535 <= mem E -> t < U64 -> blen hb < U16 -> blen hb <= t -> length fid = 8%nat ->
  3 < b2n ty -> decode E (frame t (blen hb) (hb ++ body)) = Err CorruptedEvent.
Proof. exact corrupt_type. Qed.
Print Assumptions C07_unknown_type.

Theorem C07_unknown_reference_marker : forall E t body v1 v2 fid ty mk l,
  let hb := [x00; v1; v2] ++ fid ++ [ty] ++ [mk] ++ l in
  65535 <= mem E -> t < U64 -> blen hb < U16 -> blen hb <= t -> length fid = 8%nat ->
  b2n ty <= 3 -> mk <> x00 -> mk <> xff -> decode E (frame t (blen hb) (hb ++ body)) = Err CorruptedEvent.
Proof. exact corrupt_marker. Qed.
Print Assumptions C07_unknown_reference_marker.

Theorem C07_namespace_not_text : forall E t body v1 v2 fid ty fref ns l,
  let hb := [x00; v1; v2] ++ fid ++ [ty] ++ fref ++ be 2 (blen ns) ++ ns ++ l in
  65535 <= mem E -> t < U64 -> blen hb < U16 -> blen hb <= t -> length fid = 8%nat ->
  b2n ty <= 3 -> (fref = [x00] \/ exists r, fref = xff :: r /\ length r = 8%nat) ->
  ~ is_text ns -> decode E (frame t (blen hb) (hb ++ body)) = Err CorruptedEvent.
Proof. exact corrupt_ns. Qed.
Print Assumptions C07_namespace_not_text.

Theorem C07_name_not_text : forall E t body v1 v2 fid ty fref ns nm l,
  let hb := [x00; v1; v2] ++ fid ++ [ty] ++ fref ++ be 2 (blen ns) ++ ns ++ be 2 (blen nm) ++ nm ++ l in
  65535 <= mem E -> t < U64 -> blen hb < U16 -> blen hb <= t -> length fid = 8%nat ->
  b2n ty <= 3 -> (fref = [x00] \/ exists r, fref = xff :: r /\ length r = 8%nat) ->
  is_text ns -> ~ is_text nm -> decode E (frame t (blen hb) (hb ++ body)) = Err CorruptedEvent.
Proof. exact corrupt_name. Qed.
Print Assumptions C07_name_not_text.

Example C07_case_not_text : ~ is_text [xc0; x80] /\ ~ is_text [xed; xa0; x80] /\ is_text [xf0; x9f; xa6; x80].
Proof. rewrite <- !utf8_valid_iff. vm_compute. repeat split; congruence. Qed.

(** ** C08 *)
Theorem C08_when_reading_crashes : forall E l c, 65535 <= mem E ->
  (decode E l = Crash c
   <-> exists t hl body, l = frame t hl body /\ t < U64 /\ hl < U16 /\ crash_cause E t hl body c).
Proof. exact crash_iff. Qed.
Print Assumptions C08_when_reading_crashes.

Theorem C08_no_input_crashes_refuted : exists l, blen l = 10 /\ decode (mk_env true 1000000) l = Crash PanicArith.
Proof. exact (ex_intro _ (frame 0 1 []) (conj eq_refl eq_refl)). Qed.
Print Assumptions C08_no_input_crashes_refuted.

Theorem C08_no_input_crashes_release_refuted : exists l, blen l = 27 /\ decode (mk_env false 1000000) l = Crash PanicCapacity.
Proof. exact (ex_intro _ (frame 16 17 small_header) (conj eq_refl eq_refl)). Qed.
Print Assumptions C08_no_input_crashes_release_refuted.

(** ** C09 *)
Theorem C09_buffers : forall E l,
  run_allocs E (from_async_read E) l = []
  \/ exists t hl body, l = frame t hl body /\ t < U64 /\ hl <= 65535 /\
     (run_allocs E (from_async_read E) l = []
      \/ run_allocs E (from_async_read E) l = [hl]
      \/ run_allocs E (from_async_read E) l = [hl; if hl <=? t then t - hl else t + U64 - hl]).
Proof. exact reader_allocs. Qed.
Print Assumptions C09_buffers.

Theorem C09_header_buffers : forall hb, (length (header_allocs hb) <= 3)%nat /\ Forall (fun n => n <= 65535) (header_allocs hb).
Proof. exact header_allocs_bound. Qed.
Print Assumptions C09_header_buffers.

Theorem C09_bounded_by_received_refuted : forall E n, 65535 <= mem E -> n <= ISIZE_MAX ->
  exists l, blen l = 27 /\ In n (run_allocs E (from_async_read E) l).
Proof. exact alloc_unbounded. Qed.
Print Assumptions C09_bounded_by_received_refuted.

(** ** C10 *)
Theorem C10_wire_layout : forall e, rust_event e -> fits e -> forall l, into_bytes e = Ok l <-> wire_event e l.
Proof. exact into_bytes_wire. Qed.
Print Assumptions C10_wire_layout.

Theorem C10_documented_layout_refuted : forall h l, wire_header [x00; x09; x00] h l -> ~ documented_header h l.
Proof. exact documented_differs. Qed.
Print Assumptions C10_documented_layout_refuted.

(** ** C11 *)
Theorem C11_constructors : forall id ns name data ref,
  event_initiator id ns name data = mk_event (mk_header id Initiator None ns name) data
  /\ event_response id ns name data ref = mk_event (mk_header id Response (Some ref) ns name) data
  /\ event_error id ns name data ref = mk_event (mk_header id Error (Some ref) ns name) data.
Proof. exact (fun id ns name data ref => conj eq_refl (conj eq_refl eq_refl)). Qed.
Print Assumptions C11_constructors.

Theorem C11_end_is_an_end_event_refuted : forall id ns name data ref,
  ev_type (event_end id ns name data ref) = Response /\ ev_type (event_end id ns name data ref) <> End.
Proof. exact end_is_response. Qed.
Print Assumptions C11_end_is_an_end_event_refuted.

(** ** C12 *)
Theorem C12_unique_within_process : forall clk i j, (forall n, rust_instant (clk n)) -> i < 2 ^ 32 -> j < 2 ^ 32 -> i <> j ->
  nth_id (clk i) i <> nth_id (clk j) j.
Proof. exact ids_unique. Qed.
Print Assumptions C12_unique_within_process.

Theorem C12_unique_for_ever_refuted : exists clk, (forall n, rust_instant (clk n)) /\ nth_id (clk 0) 0 = nth_id (clk (2 ^ 32)) (2 ^ 32).
Proof. exact (ex_intro _ (fun _ => mk_instant 100 1) (conj (fun _ => conj eq_refl eq_refl) eq_refl)). Qed.
Print Assumptions C12_unique_for_ever_refuted.

Theorem C12_ids_are_u64 : forall t n, rust_instant t -> nth_id t n < U64.
Proof. exact id_u64. Qed.
Print Assumptions C12_ids_are_u64.

(** ** C13 *)
Theorem C13_equal_across_processes_iff : forall t i u j, rust_instant t -> rust_instant u -> i < 2 ^ 32 -> j < 2 ^ 32 ->
  (nth_id t i = nth_id u j <-> i = j /\ millis t = millis u /\ secs t mod 65535 = secs u mod 65535).
Proof. exact ids_eq_iff. Qed.
Print Assumptions C13_equal_across_processes_iff.

Theorem C13_unique_across_processes_refuted : exists t u i, rust_instant t /\ rust_instant u /\ secs t <> secs u /\ nth_id t i = nth_id u i.
Proof. exact ids_collide. Qed.
Print Assumptions C13_unique_across_processes_refuted.
