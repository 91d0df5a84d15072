(** Specifications the property theorems are stated with. Nothing here mentions how the code works. *)
From Coq Require Import Strings.String Decimal DecimalString DecimalN.
From Verif Require Import Base Reader Codec.

(** * Text *)

(** Unicode scalar values and their UTF-8 encoding (Unicode Standard, table 3-6). *)
Definition scalar_value (c : N) : Prop := c < 0xD800 \/ (0xE000 <= c /\ c < 0x110000).
Definition utf8_encode (c : N) : bytes :=
  if c <? 0x80 then [n2b c]
  else if c <? 0x800 then [n2b (0xC0 + c / 64); n2b (0x80 + c mod 64)]
  else if c <? 0x10000 then [n2b (0xE0 + c / 4096); n2b (0x80 + c / 64 mod 64); n2b (0x80 + c mod 64)]
  else [n2b (0xF0 + c / 262144); n2b (0x80 + c / 4096 mod 64); n2b (0x80 + c / 64 mod 64); n2b (0x80 + c mod 64)].
(** [s] is a Unicode text: what a Rust [String] holds. *)
Definition is_text (s : bytes) : Prop :=
  exists cs, Forall scalar_value cs /\ s = flat_map utf8_encode cs.

(** Decimal numerals (Coq's own printer). *)
Definition decimal (n : N) : bytes := str (NilZero.string_of_uint (N.to_uint n)).
Definition version_text (a b c : byte) : bytes :=
  decimal (b2n a) ++ str "." ++ decimal (b2n b) ++ str "." ++ decimal (b2n c).

(** * Events *)

(** What the Rust types guarantee about an [Event] value: u64 ids, UTF-8 strings, data of at most isize::MAX bytes. *)
Definition rust_header (h : header) : Prop :=
  h_id h < U64
  /\ (forall r, h_ref h = Some r -> r < U64)
  /\ (forall s, h_ns h = Some s -> is_text s)
  /\ is_text (h_name h).
Definition rust_event (e : event) : Prop := rust_header (ev_header e) /\ blen (ev_data e) <= ISIZE_MAX.

(** Size of the header of an event on the wire. *)
Definition header_size (h : header) : N :=
  3 + 8 + 1
  + (match h_ref h with Some _ => 9 | None => 1 end)
  + 2 + (match h_ns h with Some s => blen s | None => 0 end)
  + 2 + blen (h_name h).
Definition fits (e : event) : Prop := header_size (ev_header e) <= 65535.

(** The largest single allocation granted suffices for this event. *)
Definition enough_mem (E : env) (e : event) : Prop := 65535 <= mem E /\ blen (ev_data e) <= mem E.

(** [l] is the unsigned number [n] in [k] bytes, most significant first. *)
Definition is_uint (k : nat) (n : N) (l : bytes) : Prop := length l = k /\ unbe l = n.

(** The wire layout of a header with version bytes [v]. *)
Definition wire_header (v : bytes) (h : header) (l : bytes) : Prop :=
  exists fid ftype fref fnslen fns fnamelen,
    l = v ++ fid ++ ftype ++ fref ++ fnslen ++ fns ++ fnamelen ++ h_name h
    /\ is_uint 8 (h_id h) fid
    /\ is_uint 1 (match h_type h with Initiator => 0 | Response => 1 | End => 2 | Error => 3 end) ftype
    /\ (match h_ref h with
        | Some r => exists fr, fref = xff :: fr /\ is_uint 8 r fr
        | None => fref = [x00] end)
    /\ is_uint 2 (blen fns) fnslen
    /\ fns = (match h_ns h with Some s => s | None => [] end)
    /\ is_uint 2 (blen (h_name h)) fnamelen.

(** The wire layout of an event. *)
Definition wire_event (e : event) (l : bytes) : Prop :=
  exists ftotal fhl fheader,
    l = ftotal ++ fhl ++ fheader ++ ev_data e
    /\ is_uint 8 (blen fheader + blen (ev_data e)) ftotal
    /\ is_uint 2 (blen fheader) fhl
    /\ wire_header [x00; x09; x00] (ev_header e) fheader.

(** The header table of SPECIFICATON.md: no event type field. *)
Definition documented_header (h : header) (l : bytes) : Prop :=
  exists fid fref fnslen fns fnamelen,
    l = [x00; x09; x00] ++ fid ++ fref ++ fnslen ++ fns ++ fnamelen ++ h_name h
    /\ is_uint 8 (h_id h) fid
    /\ (match h_ref h with
        | Some r => exists fr, fref = xff :: fr /\ is_uint 8 r fr
        | None => exists b, fref = [b] /\ b <> xff end)
    /\ is_uint 2 (blen fns) fnslen
    /\ fns = (match h_ns h with Some s => s | None => [] end)
    /\ is_uint 2 (blen (h_name h)) fnamelen.

(** A frame as it may come from any peer: announced total length, announced header length, the rest. *)
Definition frame (total hl : N) (body : bytes) : bytes := be 8 total ++ be 2 hl ++ body.

(** [Some ""] is not representable on the wire. *)
Definition normal (e : event) : Prop := ev_ns e <> Some [].
Definition drop_empty_ns (e : event) : event :=
  match ev_ns e with
  | Some [] => mk_event (mk_header (ev_id e) (ev_type e) (ev_ref e) None (ev_name e)) (ev_data e)
  | _ => e
  end.

(** The first [hl] bytes of [body] hold a well formed header of a version 0.x.y, possibly followed by more bytes. *)
Definition good_header (hl : N) (body : bytes) : Prop :=
  exists v1 v2 h hb extra rest,
    body = hb ++ extra ++ rest /\ blen hb + blen extra = hl
    /\ wire_header [x00; v1; v2] h hb /\ rust_header h.

(** Why reading a frame can crash, and how. *)
Definition crash_cause (E : env) (t hl : N) (body : bytes) (c : crash) : Prop :=
  match c with
  | PanicArith => overflow_checks E = true /\ t < hl
  | PanicCapacity => good_header hl body /\ ((overflow_checks E = false /\ t < hl) \/ (hl <= t /\ ISIZE_MAX < t - hl))
  | AbortOom => good_header hl body /\ hl <= t /\ t - hl <= ISIZE_MAX /\ mem E < t - hl
  | _ => False
  end.

(** Concatenated encodings of a list of events. *)
Inductive encodings : list event -> bytes -> Prop :=
| enc_nil : encodings [] []
| enc_cons e es l ls : into_bytes e = Ok l -> encodings es ls -> encodings (e :: es) (l ++ ls).

(** Two runs of a reader over sockets ended the same way: same result, and if that is an event or a crash,
    the same bytes and the same end of the connection are left; or both wait for more bytes. *)
Definition same_end {A} (a b : xres A script) : Prop :=
  match a, b with
  | XOut o s, XOut o' s' => o = o' /\ (match o with Err _ => True | _ => content s = content s' end)
  | XIdle _ _ _, XIdle _ _ _ => True
  | _, _ => False
  end.
