(** Properties of payloads: C14-C19. *)
From Coq Require Import Strings.String.
From Verif Require Import Base BaseFacts Utf8 Utf8Facts Reader Codec Spec Payload SpecPayload PayloadFacts.

(** ** C14: sent as the data of an event and read back with [event.payload::<BytePayload>()] *)
Theorem C14_bytes_arrive_unchanged : forall E b id t ref ns name rest, 65535 <= mem E -> blen b <= mem E ->
  rust_event (mk_event (mk_header id t ref ns name) b) -> fits (mk_event (mk_header id t ref ns name) b) ->
  exists d l e', p_enc byte_payload b = Ok d /\ into_bytes (mk_event (mk_header id t ref ns name) d) = Ok l
    /\ decode E (l ++ rest) = Ok (e', rest) /\ p_dec byte_payload (ev_data e') = Ok b.
Proof. exact bytes_end_to_end. Qed.
Print Assumptions C14_bytes_arrive_unchanged.

(** ** C15 *)
Theorem C15_tandem_round_trip : forall A B E (p : payload A) (q : payload B) a b extra,
  survives E p a -> survives E q b ->
  exists l, p_enc (tandem E p q) (a, b) = Ok l /\ p_dec (tandem E p q) (l ++ extra) = Ok (a, b).
Proof. exact @tandem_round_trip. Qed.
Print Assumptions C15_tandem_round_trip.

Theorem C15_layout : forall A B (p : payload A) (q : payload B) a b x y,
  p_enc p a = Ok x -> p_enc q b = Ok y -> tandem_enc p q (a, b) = Ok (be 8 (blen x) ++ x ++ be 8 (blen y) ++ y).
Proof. exact @tandem_layout. Qed.
Print Assumptions C15_layout.

Theorem C15_each_part_sees_its_own_bytes : forall A B E (p : payload A) (q : payload B) x y extra,
  ~ too_big E (blen x) -> ~ too_big E (blen y) ->
  p_dec (tandem E p q) (be 8 (blen x) ++ x ++ be 8 (blen y) ++ y ++ extra)
  = bind (p_dec p x) (fun a => bind (p_dec q y) (fun b => Ok (a, b))).
Proof. exact @tandem_parts. Qed.
Print Assumptions C15_each_part_sees_its_own_bytes.

Theorem C15_any_nesting : forall A E (p : payload A) n (v : nest_type n A),
  nest_all (survives E p) n v -> ~ too_big E (nest_size p n v) -> survives E (nest E n p) v.
Proof. exact @nest_survives. Qed.
Print Assumptions C15_any_nesting.

Example C15_case : let E := mk_env true 1000 in
  survives E byte_payload [x01; x02] /\ survives E (error_payload E) (mk_err_data 404 (str "gone")).
Proof. split; eexists; (split; [reflexivity|split; [intros [H|H]; discriminate H|reflexivity]]). Qed.
Example C15_nested_case : let E := mk_env true 1000 in
  exists l, p_enc (tandem E byte_payload (tandem E byte_payload (error_payload E))) ([x05], ([], mk_err_data 1 (str "m"))) = Ok l
   /\ p_dec (tandem E byte_payload (tandem E byte_payload (error_payload E))) l = Ok ([x05], ([], mk_err_data 1 (str "m"))).
Proof. eexists. split; reflexivity. Qed.

(** ** C16 *)
Theorem C16_accepted_tandem : forall A B E (p : payload A) (q : payload B) l a b,
  p_dec (tandem E p q) l = Ok (a, b) ->
  exists x y extra, l = be 8 (blen x) ++ x ++ be 8 (blen y) ++ y ++ extra
    /\ ~ too_big E (blen x) /\ ~ too_big E (blen y) /\ p_dec p x = Ok a /\ p_dec q y = Ok b.
Proof. exact @tandem_accepts. Qed.
Print Assumptions C16_accepted_tandem.

Theorem C16_tandem_crashes_exactly : forall A B E (p : payload A) (q : payload B) l,
  (exists c, p_dec (tandem E p q) l = Crash c) <-> tandem_crash E p q l.
Proof. exact @tandem_crash_iff. Qed.
Print Assumptions C16_tandem_crashes_exactly.

Theorem C16_truncated_tandem : forall A B E (p : payload A) (q : payload B) x y cut more,
  ~ too_big E (blen x) -> ~ too_big E (blen y) ->
  be 8 (blen x) ++ x ++ be 8 (blen y) ++ y = cut ++ more -> more <> [] ->
  p_dec (tandem E p q) cut = Err (IoError UnexpectedEof).
Proof. exact @tandem_truncated. Qed.
Print Assumptions C16_truncated_tandem.

Example C16_case_crash : tandem_crash (mk_env true 1000) byte_payload byte_payload (be 8 1001).
Proof. left. exists 1001, []. repeat split. left. reflexivity. Qed.

(** ** C17 *)
Theorem C17_error_round_trip : forall E d extra, rust_err d -> blen (ed_message d) < 2 ^ 32 -> blen (ed_message d) <= mem E ->
  exists l, p_enc (error_payload E) d = Ok l /\ p_dec (error_payload E) (l ++ extra) = Ok d.
Proof. exact error_round_trip. Qed.
Print Assumptions C17_error_round_trip.

Theorem C17_longer_messages_refuted : forall E d extra, 2 ^ 32 <= blen (ed_message d) ->
  exists l, p_enc (error_payload E) d = Ok l /\ p_dec (error_payload E) (l ++ extra) <> Ok d.
Proof. exact error_long_refuted. Qed.
Print Assumptions C17_longer_messages_refuted.

Theorem C17_accepted_error : forall E l d, p_dec (error_payload E) l = Ok d ->
  rust_err d /\ blen (ed_message d) < 2 ^ 32
  /\ exists extra, l = be 2 (ed_code d) ++ be 4 (blen (ed_message d)) ++ ed_message d ++ extra.
Proof. exact error_accepts. Qed.
Print Assumptions C17_accepted_error.

Theorem C17_short_input : forall E l,
  blen l < 6 \/ (exists c n m, l = be 2 c ++ be 4 n ++ m /\ n < 2 ^ 32 /\ n <= mem E /\ blen m < n) ->
  p_dec (error_payload E) l = Err (IoError UnexpectedEof).
Proof. exact error_short. Qed.
Print Assumptions C17_short_input.

Theorem C17_message_not_text : forall E c m extra, blen m < 2 ^ 32 -> blen m <= mem E -> ~ is_text m ->
  p_dec (error_payload E) (be 2 c ++ be 4 (blen m) ++ m ++ extra) = Err CorruptedEvent.
Proof. exact error_bad_text. Qed.
Print Assumptions C17_message_not_text.

Theorem C17_crashes_exactly : forall E l,
  (exists c, p_dec (error_payload E) l = Crash c)
  <-> exists code n m, l = be 2 code ++ be 4 n ++ m /\ n < 2 ^ 32 /\ mem E < n.
Proof. exact error_crash_iff. Qed.
Print Assumptions C17_crashes_exactly.

Example C17_case : rust_err (mk_err_data 500 (str "no such file")).
Proof. split; [reflexivity|]. apply utf8_valid_iff. reflexivity. Qed.

(** ** C18: [d] is the sender's default serializer; the receiver's default does not occur. *)
Theorem C18_value_round_trip : forall T (lib_ser : format -> T -> outcome bytes) (lib_des : format -> bytes -> outcome T)
    (sender receiver : features) d v b,
  sender d = true -> receiver d = true -> lib_ser d v = Ok b -> lib_des d b = Ok v ->
  exists l, value_enc lib_ser sender d v = Ok l /\ value_dec lib_des receiver l = Ok v.
Proof. exact @value_round_trip. Qed.
Print Assumptions C18_value_round_trip.

Theorem C18_explicit_format_round_trip : forall T (lib_ser : format -> T -> outcome bytes) (lib_des : format -> bytes -> outcome T)
    (sender receiver : features) f v b,
  sender f = true -> receiver f = true -> lib_ser f v = Ok b -> lib_des f b = Ok v ->
  exists l, serde_enc lib_ser sender f v = Ok l /\ serde_dec lib_des receiver l = Ok (f, v).
Proof. exact @serde_round_trip. Qed.
Print Assumptions C18_explicit_format_round_trip.

(** a value type whose four libraries differ, sender with all formats and default Json, receiver with only Json *)
Example C18_case :
  let ser := fun f (v : byte) => Ok (match f with Json => str "{" ++ [v] | _ => [v] end) in
  let des := fun f (l : bytes) => match f, l with Json, [_; v] => Ok v | Json, _ => Err CorruptedEvent | _, [v] => Ok v | _, _ => Err CorruptedEvent end in
  value_dec des (fun f => match f with Json => true | _ => false end) (x03 :: str "{" ++ [x2a]) = Ok x2a
  /\ value_enc ser (fun _ => true) Json x2a = Ok (x03 :: str "{" ++ [x2a]).
Proof. split; reflexivity. Qed.

(** ** C19: stated for every library behaviour, so the library is not run *)
Theorem C19_unknown_format : forall T (lib_des : format -> bytes -> outcome T) ft b l, 3 < b2n b ->
  serde_dec lib_des ft (b :: l) = Err (Serialization (UnknownFormat (b2n b))).
Proof. exact @unknown_format. Qed.
Print Assumptions C19_unknown_format.

Theorem C19_disabled_format_at_receiver : forall T (lib_des : format -> bytes -> outcome T) ft f l, ft f = false ->
  serde_dec lib_des ft (be 1 (format_id f) ++ l) = Err (Serialization (UnknownFormat (format_id f))).
Proof. exact @disabled_at_receiver. Qed.
Print Assumptions C19_disabled_format_at_receiver.

Theorem C19_empty_payload : forall T (lib_des : format -> bytes -> outcome T) ft,
  serde_dec lib_des ft [] = Err (IoError UnexpectedEof).
Proof. exact @empty_serde. Qed.
Print Assumptions C19_empty_payload.

Theorem C19_disabled_format_at_sender : forall T (lib_ser : format -> T -> outcome bytes) ft f v, ft f = false ->
  serde_enc lib_ser ft f v = Err (Serialization (UnavailableFormat f)).
Proof. exact @disabled_at_sender. Qed.
Print Assumptions C19_disabled_format_at_sender.

(** A format used directly ([DynamicSerializer] is public) *)
Theorem C19_disabled_format_used_directly : forall T (lib_ser : format -> T -> outcome bytes) (lib_des : format -> bytes -> outcome T) ft f v l, ft f = false ->
  dyn_serialize lib_ser ft f v = Err (Serialization (UnavailableFormat f)) /\ dyn_deserialize lib_des ft f l = Err (Serialization (UnavailableFormat f)).
Proof. intros T lib_ser lib_des ft f v l H. unfold dyn_serialize, dyn_deserialize. rewrite H. split; reflexivity. Qed.
Print Assumptions C19_disabled_format_used_directly.

Theorem C19_default_format : forall ft f, first_available ft = Some f <->
  ft f = true /\ forall g, format_id g < format_id f -> ft g = false.
Proof. exact first_available_spec. Qed.
Print Assumptions C19_default_format.

Theorem C19_format_numbers : format_id Messagepack = 0 /\ format_id Bincode = 1 /\ format_id Postcard = 2 /\ format_id Json = 3.
Proof. exact (conj eq_refl (conj eq_refl (conj eq_refl eq_refl))). Qed.
Print Assumptions C19_format_numbers.
