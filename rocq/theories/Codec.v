(** Events and their wire format (src/events/event.rs). *)
From Coq Require Import Strings.String.
From Verif Require Import Base Utf8 Reader.

(** EventType (event.rs:32-39), [#[repr(u8)]] with discriminants 0..3 *)
Inductive etype := Initiator | Response | End | Error.
(** [u8::from(EventType)], num_enum IntoPrimitive (event.rs:32, used at 184) *)
Definition etype_num (t : etype) : N :=
  match t with Initiator => 0 | Response => 1 | End => 2 | Error => 3 end.
(** [EventType::try_from(u8)], num_enum TryFromPrimitive (event.rs:32, used at 209) *)
Definition etype_of (n : N) : option etype :=
  if n =? 0 then Some Initiator else if n =? 1 then Some Response
  else if n =? 2 then Some End else if n =? 3 then Some Error else None.
(** derived [PartialEq] of EventType (event.rs:32) *)
Definition etype_eqb (a b : etype) : bool := etype_num a =? etype_num b.

(** EventHeader (event.rs:23-30). [String]s are byte strings; that they are UTF-8 is a premise where needed. *)
Record header := mk_header {
  h_id : N; h_type : etype; h_ref : option N; h_ns : option bytes; h_name : bytes }.

(** Event (event.rs:17-21) *)
Record event := mk_event { ev_header : header; ev_data : bytes }.
(** accessors event.rs:91-134 *)
Definition ev_id (e : event) := h_id (ev_header e).
Definition ev_type (e : event) := h_type (ev_header e).
Definition ev_ref (e : event) := h_ref (ev_header e).
Definition ev_ns (e : event) := h_ns (ev_header e).
Definition ev_name (e : event) := h_name (ev_header e).

(** FORMAT_VERSION (event.rs:12) *)
Definition FORMAT_VERSION : bytes := [x00; x09; x00].

(** Event::new (event.rs:71-88); the fresh id is an argument, see Ids.v *)
Definition event_new (id : N) (ns : option bytes) (name data : bytes) (ref : option N) (t : etype) : event :=
  mk_event (mk_header id t ref ns name) data.
(** Event::initiator (event.rs:42-47) *)
Definition event_initiator id ns name data := event_new id ns name data None Initiator.
(** Event::response (event.rs:49-54) *)
Definition event_response id ns name data ref := event_new id ns name data (Some ref) Response.
(** Event::error (event.rs:56-61) *)
Definition event_error id ns name data ref := event_new id ns name data (Some ref) Error.
(** Event::end (event.rs:63-69): note that line 68 passes EventType::Response *)
Definition event_end id ns name data ref := event_new id ns name data (Some ref) Response.

(** EventHeader::into_bytes (event.rs:179-202); [len() as u16] drops the high bits, which [be 2] does. *)
Definition header_into_bytes (h : header) : bytes :=
  FORMAT_VERSION
  ++ be 8 (h_id h)
  ++ be 1 (etype_num (h_type h))
  ++ (match h_ref h with Some r => be 1 255 ++ be 8 r | None => be 1 0 end)
  ++ (match h_ns h with Some ns => be 2 (blen ns) ++ ns | None => be 2 0 end)
  ++ be 2 (blen (h_name h)) ++ h_name h.

(** Event::into_bytes (event.rs:159-175). Never fails. *)
Definition into_bytes (e : event) : outcome bytes :=
  let header_bytes := header_into_bytes (ev_header e) in
  let header_length := blen header_bytes mod U16 in       (* as u16, line 163 *)
  let total_length := header_length + blen (ev_data e) in (* line 165 *)
  Ok (be 8 total_length ++ be 2 header_length ++ header_bytes ++ ev_data e).

(** decimal rendering of a u8, [format!("{}", val)] *)
Definition digit (n : N) : byte := n2b (48 + n).
(** [u8 as Display], used at src/error.rs:53-56 *)
Definition dec_u8 (b : byte) : bytes :=
  let n := b2n b in
  if n <? 10 then [digit n]
  else if n <? 100 then [digit (n / 10); digit (n mod 10)]
  else [digit (n / 100); digit (n / 10 mod 10); digit (n mod 10)].
(** Error::unsupported_version_vec (src/error.rs:51-58): fold appending "val." then pop the last char *)
Definition unsupported_version_vec (v : bytes) : error :=
  UnsupportedVersion (removelast (fold_left (fun acc b => acc ++ dec_u8 b ++ str ".") v [])).

(** EventHeader::read_version (event.rs:224-235) *)
Definition read_version (l : bytes) : outcome (bytes * bytes) :=
  bind (sread_exact 3 l) (fun vr =>
    let (v, r) := vr in
    match v, FORMAT_VERSION with
    | v0 :: _, f0 :: _ => if byte_eqb v0 f0 then Ok (v, r) else Err (unsupported_version_vec v)
    | _, _ => Crash PanicNone   (* index out of range, cannot happen *)
    end).

(** EventHeader::read_ref_id (event.rs:237-248) *)
Definition read_ref_id (l : bytes) : outcome (option N * bytes) :=
  bind (sread_int 1 l) (fun er =>
    let (ex, r) := er in
    if ex =? 0 then Ok (None, r)
    else if ex =? 255 then bind (sread_int 8 r) (fun ir => Ok (Some (fst ir), snd ir))
    else Err CorruptedEvent).

(** EventHeader::read_string (event.rs:270-275). The buffer of at most 65535 bytes is assumed to be allocatable. *)
Definition read_string (n : N) (l : bytes) : outcome (bytes * bytes) :=
  bind (sread_exact n l) (fun sr =>
    if utf8_valid (fst sr) then Ok sr else Err CorruptedEvent).

(** EventHeader::read_name (event.rs:250-256) *)
Definition read_name (l : bytes) : outcome (bytes * bytes) :=
  bind (sread_int 2 l) (fun nr => read_string (fst nr) (snd nr)).

(** EventHeader::read_namespace (event.rs:258-268) *)
Definition read_namespace (n : N) (l : bytes) : outcome (option bytes * bytes) :=
  if 0 <? n then bind (read_string n l) (fun sr => Ok (Some (fst sr), snd sr)) else Ok (None, l).

(** EventHeader::from_read (event.rs:204-222) *)
Definition header_from_read (l : bytes) : outcome (header * bytes) :=
  bind (read_version l) (fun vr => let (_, l1) := vr in
  bind (sread_int 8 l1) (fun ir => let (id, l2) := ir in
  bind (sread_int 1 l2) (fun tr => let (tn, l3) := tr in
  match etype_of tn with
  | None => Err CorruptedEvent
  | Some t =>
    bind (read_ref_id l3) (fun rr => let (ref, l4) := rr in
    bind (sread_int 2 l4) (fun nr => let (nslen, l5) := nr in
    bind (read_namespace nslen l5) (fun sr => let (ns, l6) := sr in
    bind (read_name l6) (fun mr => let (name, l7) := mr in
    Ok (mk_header id t ref ns name, l7)))))
  end))).

(** The buffers requested while parsing a header: [vec![0u8; 3]] (event.rs:227) and one per [read_string]
    (event.rs:271), requested before the announced bytes are looked for. *)
Definition header_allocs (l : bytes) : list N :=
  3 :: match
    (bind (read_version l) (fun vr => let (_, l1) := vr in
     bind (sread_int 8 l1) (fun ir => let (_, l2) := ir in
     bind (sread_int 1 l2) (fun tr => let (tn, l3) := tr in
     match etype_of tn with
     | None => Err CorruptedEvent
     | Some _ =>
       bind (read_ref_id l3) (fun rr => let (_, l4) := rr in
       bind (sread_int 2 l4) (fun nr => let (nslen, l5) := nr in
       Ok ((if 0 <? nslen then [nslen] else [])
           ++ match bind (read_namespace nslen l5) (fun sr => sread_int 2 (snd sr)) with
              | Ok (namelen, _) => [namelen]
              | _ => []
              end)))
     end)))) with
  | Ok ns => ns
  | _ => []
  end.

(** [total_length - header_length as u64] (event.rs:141): panics or wraps *)
Definition sub_u64 (E : env) (a b : N) : outcome N :=
  if b <=? a then Ok (a - b)
  else if overflow_checks E then Crash PanicArith
  else Ok (a + U64 - b).

(** Event::from_async_read (event.rs:136-157) *)
Definition from_async_read (E : env) : rd event :=
  RInt 8 (fun total_length =>
  RInt 2 (fun header_length =>
  match sub_u64 E total_length header_length with
  | Err e => RDone (Err e)
  | Crash c => RDone (Crash c)
  | Ok data_length =>
    RAlloc header_length (
    RExact header_length (fun header_bytes =>
    match header_from_read header_bytes with
    | Err e => RDone (Err e)
    | Crash c => RDone (Crash c)
    | Ok (h, _) =>
      RAlloc data_length (
      RExact data_length (fun buf => RDone (Ok (mk_event h buf))))
    end))
  end)).

(** Reading one event from a byte string that ends with end of file. *)
Definition decode (E : env) (l : bytes) : outcome (event * bytes) :=
  match run_bytes E (from_async_read E) l with
  | POut o rest => omap (fun e => (e, rest)) o
  | PMore => Err (IoError UnexpectedEof)
  end.

(** The receive loop [while let Ok(event) = Event::from_async_read(..)] of src/ipc/mod.rs:24 on a byte string
    followed by end of file: the events handed to dispatch and how the loop ended.
    Every event takes at least 10 bytes, so [length l] iterations are enough. *)
Fixpoint read_events (E : env) (fuel : nat) (l : bytes) : list event * outcome unit :=
  match fuel with
  | O => ([], Ok tt)      (* fuel exhausted *)
  | S fuel' =>
    match decode E l with
    | Ok (e, rest) => let (es, o) := read_events E fuel' rest in (e :: es, o)
    | Err er => ([], Err er)
    | Crash c => ([], Crash c)
    end
  end.
