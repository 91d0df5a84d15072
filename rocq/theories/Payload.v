(** Payloads (src/events/payload.rs, error_event.rs, payload_serializer/mod.rs). *)
From Verif Require Import Base Utf8 Reader.

(** [IntoPayload]/[FromPayload] (payload.rs:16-24) of a payload type with values [A]. The [Context] argument only
    matters for serde payloads, see below. [from_payload] is called on slices everywhere in the crate
    ([Event::payload], event.rs:113, and [TandemPayload], payload.rs:126-127). *)
Record payload (A : Type) := mk_payload { p_enc : A -> outcome bytes; p_dec : bytes -> outcome A }.
Arguments mk_payload {A}. Arguments p_enc {A}. Arguments p_dec {A}.

(** BytePayload (payload.rs:60-75): the bytes themselves; [read_to_end] takes all of the slice. The growing buffer of
    [read_to_end] is assumed to be allocatable (it holds a copy of data that is in memory already). *)
Definition byte_payload : payload bytes := mk_payload (fun b => Ok b) (fun l => Ok l).

(** TandemPayload::into_payload (payload.rs:99-113) *)
Definition tandem_enc {A B} (p : payload A) (q : payload B) (ab : A * B) : outcome bytes :=
  bind (p_enc p (fst ab)) (fun p1 =>
  bind (p_enc q (snd ab)) (fun p2 =>
  Ok (be 8 (blen p1) ++ p1 ++ be 8 (blen p2) ++ p2))).

(** TandemPayload::from_payload (payload.rs:115-130): lengths and bytes of both parts are read before any part is decoded *)
Definition tandem_dec {A B} (E : env) (p : payload A) (q : payload B) (l : bytes) : outcome (A * B) :=
  bind (sread_int 8 l) (fun r1 => let (n1, l1) := r1 in
  bind (vec_alloc E n1) (fun _ =>
  bind (sread_exact n1 l1) (fun r2 => let (b1, l2) := r2 in
  bind (sread_int 8 l2) (fun r3 => let (n2, l3) := r3 in
  bind (vec_alloc E n2) (fun _ =>
  bind (sread_exact n2 l3) (fun r4 => let (b2, _) := r4 in
  bind (p_dec p b1) (fun a =>
  bind (p_dec q b2) (fun b => Ok (a, b))))))))).
(** both halves of TandemPayload (payload.rs:99-130) *)
Definition tandem {A B} E (p : payload A) (q : payload B) : payload (A * B) := mk_payload (tandem_enc p q) (tandem_dec E p q).

(** ErrorEventData::into_payload (error_event.rs:32-41): [len() as u32] is [be 4] *)
Definition error_enc (d : err_data) : outcome bytes :=
  Ok (be 2 (ed_code d) ++ be 4 (blen (ed_message d)) ++ ed_message d).
(** ErrorEventData::from_payload (error_event.rs:43-53) *)
Definition error_dec (E : env) (l : bytes) : outcome err_data :=
  bind (sread_int 2 l) (fun r1 => let (code, l1) := r1 in
  bind (sread_int 4 l1) (fun r2 => let (n, l2) := r2 in
  bind (vec_alloc E n) (fun _ =>
  bind (sread_exact n l2) (fun r3 => let (m, _) := r3 in
  if utf8_valid m then Ok (mk_err_data code m) else Err CorruptedEvent)))).
(** both halves of ErrorEventData (error_event.rs:32-53) *)
Definition error_payload E : payload err_data := mk_payload error_enc (error_dec E).

(** * serde payloads *)
(** [DynamicSerializer as u8] (payload.rs:183, mod.rs:53-59) *)
Definition format_id (f : format) : N :=
  match f with Messagepack => 0 | Bincode => 1 | Postcard => 2 | Json => 3 end.

(** Cargo features serialize_rmp, serialize_bincode, serialize_postcard, serialize_json *)
Definition features := format -> bool.

(** DynamicSerializer::first_available (mod.rs:62-92); [None]: no format feature, which does not compile *)
Definition first_available (ft : features) : option format :=
  if ft Messagepack then Some Messagepack
  else if ft Bincode then Some Bincode
  else if ft Postcard then Some Postcard
  else if ft Json then Some Json
  else None.

(** DynamicSerializer::from_primitive (mod.rs:94-111) *)
Definition from_primitive (ft : features) (n : N) : outcome format :=
  if (n =? 0) && ft Messagepack then Ok Messagepack
  else if (n =? 1) && ft Bincode then Ok Bincode
  else if (n =? 2) && ft Postcard then Ok Postcard
  else if (n =? 3) && ft Json then Ok Json
  else Err (Serialization (UnknownFormat n)).

Section Serde.
  (** The format libraries for a type [T]: rmp_serde, bincode, postcard, serde_json
      (serialize_*.rs), on the complete remaining payload; any result is possible. *)
  Context {T : Type} (lib_ser : format -> T -> outcome bytes) (lib_des : format -> bytes -> outcome T).

  (** DynamicSerializer::serialize (mod.rs:113-135) *)
  Definition dyn_serialize (ft : features) (f : format) (v : T) : outcome bytes :=
    if ft f then lib_ser f v else Err (Serialization (UnavailableFormat f)).
  (** DynamicSerializer::deserialize (mod.rs:137-159) *)
  Definition dyn_deserialize (ft : features) (f : format) (l : bytes) : outcome T :=
    if ft f then lib_des f l else Err (Serialization (UnavailableFormat f)).

  (** SerdePayload::try_into_bytes (payload.rs:179-189) *)
  Definition serde_enc (ft : features) (f : format) (v : T) : outcome bytes :=
    bind (dyn_serialize ft f v) (fun b => Ok (be 1 (format_id f) ++ b)).
  (** SerdePayload::from_payload (payload.rs:198-206) *)
  Definition serde_dec (ft : features) (l : bytes) : outcome (format * T) :=
    bind (sread_int 1 l) (fun r => let (n, l1) := r in
    bind (from_primitive ft n) (fun f =>
    bind (dyn_deserialize ft f l1) (fun v => Ok (f, v)))).

  (** [impl IntoPayload for T] (payload.rs:208-213) with [Context::create_serde_payload] (ipc/context.rs:147-149):
      the default serializer of the sending context *)
  Definition value_enc (ft : features) (dflt : format) (v : T) : outcome bytes := serde_enc ft dflt v.
  (** [impl FromPayload for T] (payload.rs:215-222): the receiver's default serializer plays no role *)
  Definition value_dec (ft : features) (l : bytes) : outcome T := omap snd (serde_dec ft l).
  (** both halves of plain serde values (payload.rs:208-222) *)
  Definition value_payload (ft : features) (dflt : format) : payload T := mk_payload (value_enc ft dflt) (value_dec ft).
End Serde.
