(** Basic vocabulary of the model: bytes, big-endian integers, outcomes, errors, finite maps. *)
From Coq Require Import Strings.Byte Strings.String.
From Coq Require Export List NArith ZArith Lia Bool Init.Byte.
From Coq Require Import ZifyBool ZifyNat ZifyN.
Export ListNotations.
Open Scope N_scope.

(** Bytes. Rust's [u8]; a type with exactly 256 values, so no well-formedness side conditions. *)
Definition bytes := list byte.
(** value of a byte, [b as u64] *)
Definition b2n (b : byte) : N := Byte.to_N b.
(** [x as u8]: keeps the low 8 bits. *)
Definition n2b (n : N) : byte := match Byte.of_N (n mod 256) with Some b => b | None => x00 end.

(** [Vec::len] *)
Definition blen (l : bytes) : N := N.of_nat (length l).

(** ASCII literals as byte strings (for event names such as "error"). *)
Definition str (s : String.string) : bytes := list_byte_of_string s.

(** Big-endian integers of [k] bytes, [BufMut::put_u8/u16/u32/u64] (crate bytes);
    like Rust's [as uN], higher bits are dropped. *)
Fixpoint be (k : nat) (n : N) : bytes :=
  match k with
  | O => []
  | S k' => n2b (n / 256 ^ N.of_nat k') :: be k' n
  end.
(** value of big-endian bytes: [BigEndian::read_*] of byteorder, [from_be_bytes] *)
Definition unbe (l : bytes) : N := fold_left (fun acc b => acc * 256 + b2n b) l 0.

(** Integer bounds. *)
Definition U16 : N := 2 ^ 16.
(** 2^32, 2^64 and [isize::MAX] of a 64 bit target *)
Definition U32 : N := 2 ^ 32.
Definition U64 : N := 2 ^ 64.
Definition ISIZE_MAX : N := 2 ^ 63 - 1.

(** ErrorEventData (src/events/error_event.rs:18-22) *)
Record err_data := mk_err_data { ed_code : N; ed_message : bytes }.

(** std::io::ErrorKind, the kinds that occur *)
Inductive io_kind := UnexpectedEof | InvalidData | WriteZero | OtherIo (n : N).

(** DynamicSerializer (src/events/payload_serializer/mod.rs:53-59) *)
Inductive format := Messagepack | Bincode | Postcard | Json.

(** SerializationError (src/events/payload_serializer/mod.rs:21-51);
    the five variants that wrap a library error are merged into [SerLibrary]. *)
Inductive ser_error :=
| SerLibrary (f : format) (code : N)
| SerIo (k : io_kind)
| UnavailableFormat (f : format)
| UnknownFormat (n : N).

(** Error (src/error.rs:9-48) *)
Inductive error :=
| IoError (k : io_kind)
| Serialization (e : ser_error)
| BuildError (s : bytes)
| Message (s : bytes)
| ReceiveError
| CorruptedEvent
| SendError
| ErrorEvent (d : err_data)
| Timeout
| UnsupportedVersion (s : bytes)
| InvalidState
| UnknownPeer (pk : bytes).

(** Ways a task can die instead of returning. *)
Inductive crash :=
| PanicArith          (* arithmetic overflow with overflow-checks on *)
| PanicCapacity       (* Vec capacity above isize::MAX *)
| AbortOom            (* allocation failure *)
| PanicNone           (* Option::unwrap on None *)
| PanicResumed.       (* polling an async block after completion *)

(** [Result<A>] with the possibility of a panic or abort *)
Inductive outcome (A : Type) :=
| Ok (a : A)
| Err (e : error)
| Crash (c : crash).
Arguments Ok {A}. Arguments Err {A}. Arguments Crash {A}.

(** the [?] operator *)
Definition bind {A B} (o : outcome A) (f : A -> outcome B) : outcome B :=
  match o with Ok a => f a | Err e => Err e | Crash c => Crash c end.

(** [Result::map] *)
Definition omap {A B} (f : A -> B) (o : outcome A) : outcome B :=
  match o with Ok a => Ok (f a) | Err e => Err e | Crash c => Crash c end.

(** Memory/profile environment of a build:
    [overflow_checks] - arithmetic overflow panics (debug profile) or wraps (release);
    [mem] - largest single allocation the system grants. *)
Record env := mk_env { overflow_checks : bool; mem : N }.

(** [vec![0u8; n]] : panics above isize::MAX, aborts if the allocator refuses. *)
Definition vec_alloc (E : env) (n : N) : outcome unit :=
  if ISIZE_MAX <? n then Crash PanicCapacity
  else if mem E <? n then Crash AbortOom
  else Ok tt.

(** Finite maps as association lists with unique insertion ([HashMap], [DashMap]). *)
Section Map.
  Context {K V : Type} (keqb : K -> K -> bool).
  (** [HashMap]/[DashMap]: association lists, at most one entry per key by construction ([insert] removes first) *)
  Definition amap := list (K * V).
  (** [get] (events/event_handler.rs:83, ipc/mod.rs:50, ipc/context.rs:154) *)
  Fixpoint lookup (k : K) (m : amap) : option V :=
    match m with
    | [] => None
    | (k', v) :: t => if keqb k k' then Some v else lookup k t
    end.
  (** [DashMap::remove] (ipc/mod.rs:78) *)
  Definition remove (k : K) (m : amap) : amap :=
    filter (fun kv => negb (keqb k (fst kv))) m.
  (** [insert] (ipc/context.rs:129, events/event_handler.rs:76, ipc/builder.rs:155-156) *)
  Definition insert (k : K) (v : V) (m : amap) : amap := (k, v) :: remove k m.
End Map.
Arguments amap : clear implicits.

(** [==] on bytes and strings *)
Definition byte_eqb (a b : byte) : bool := Byte.eqb a b.
Fixpoint bytes_eqb (a b : bytes) : bool :=
  match a, b with
  | [], [] => true
  | x :: a', y :: b' => byte_eqb x y && bytes_eqb a' b'
  | _, _ => false
  end.
