(** Reading: synchronous readers over byte slices, asynchronous reading programs,
    and their execution poll by poll over a transport. *)
From Verif Require Import Base.

(** * Synchronous reads from a slice or [Cursor] *)

(** [std::io::Read::read_exact] on a slice/Cursor with an [n] byte buffer. *)
Definition sread_exact (n : N) (l : bytes) : outcome (bytes * bytes) :=
  if n <=? blen l then Ok (firstn (N.to_nat n) l, skipn (N.to_nat n) l)
  else Err (IoError UnexpectedEof).

(** [byteorder::ReadBytesExt::read_u8/u16/u32/u64::<BigEndian>]. *)
Definition sread_int (k : nat) (l : bytes) : outcome (N * bytes) :=
  bind (sread_exact (N.of_nat k) l) (fun br => Ok (unbe (fst br), snd br)).

(** * Asynchronous reading programs
    The async functions of the crate that read from a connection only use
    [read_u16/u32/u64] ([RInt k], k bytes), [read_exact] into a buffer of [n] bytes ([RExact])
    and buffer allocation [vec![0u8; n]] ([RAlloc]). *)
Inductive rd (A : Type) :=
| RDone (o : outcome A)
| RAlloc (n : N) (c : rd A)
| RInt (k : nat) (c : N -> rd A)
| RExact (n : N) (c : bytes -> rd A).
Arguments RDone {A}. Arguments RAlloc {A}. Arguments RInt {A}. Arguments RExact {A}.

(** Result of a program on the bytes received so far: it finished leaving [rest] unread,
    or it needs more bytes than there are. *)
Inductive pres (A : Type) :=
| POut (o : outcome A) (rest : bytes)
| PMore.
Arguments POut {A}. Arguments PMore {A}.

(** Running a program on bytes in memory: the semantics the transports are compared with (C04) *)
Fixpoint run_bytes {A} (E : env) (p : rd A) (l : bytes) : pres A :=
  match p with
  | RDone o => POut o l
  | RAlloc n p' =>
    match vec_alloc E n with
    | Ok _ => run_bytes E p' l
    | Err e => POut (Err e) l
    | Crash c => POut (Crash c) l
    end
  | RInt k c =>
    if N.of_nat k <=? blen l then run_bytes E (c (unbe (firstn k l))) (skipn k l) else PMore
  | RExact n c =>
    if n <=? blen l then run_bytes E (c (firstn (N.to_nat n) l)) (skipn (N.to_nat n) l) else PMore
  end.

(** Sizes of the buffers the program requests while reading [l]. *)
Fixpoint run_allocs {A} (E : env) (p : rd A) (l : bytes) : list N :=
  match p with
  | RDone _ => []
  | RAlloc n p' =>
    n :: match vec_alloc E n with Ok _ => run_allocs E p' l | _ => [] end
  | RInt k c =>
    if N.of_nat k <=? blen l then run_allocs E (c (unbe (firstn k l))) (skipn k l) else []
  | RExact n c =>
    if n <=? blen l then run_allocs E (c (firstn (N.to_nat n) l)) (skipn (N.to_nat n) l) else []
  end.

(** * Poll level *)

(** What one [poll_read] reports, besides the bytes it put into the buffer.
    [PPend]: Pending, the task will be woken;  [PIdle]: Pending and the transport stays silent for ever;
    [PLost]: Pending although nobody will wake the task;  [PPanic]: the poll panicked. *)
Inductive pstat := PReady | PFail (k : io_kind) | PPend | PIdle | PLost | PPanic (c : crash).

(** Outcome of polling a reading future once. *)
Inductive fpoll (A S : Type) :=
| FOut (o : outcome A) (s : S)                         (* Ready *)
| FPend (p : rd A) (got : bytes) (s : S)             (* Pending, woken later *)
| FIdle (p : rd A) (got : bytes) (s : S)             (* Pending, waiting for data that does not come *)
| FLost (p : rd A) (got : bytes) (s : S)             (* Pending, never woken *)
| FFuel.
Arguments FOut {A S}. Arguments FPend {A S}. Arguments FIdle {A S}. Arguments FLost {A S}. Arguments FFuel {A S}.

(** Outcome of driving a reading future to completion by an executor. *)
Inductive xres (A S : Type) :=
| XOut (o : outcome A) (s : S)
| XIdle (p : rd A) (got : bytes) (s : S)   (* waits for data in this state; will be woken when data arrives *)
| XLost (p : rd A) (got : bytes) (s : S)   (* hangs in this state: nobody wakes the task *)
| XFuel.
Arguments XOut {A S}. Arguments XIdle {A S}. Arguments XLost {A S}. Arguments XFuel {A S}.

Section Poll.
  Context {S : Type} (poll_read : S -> N -> S * bytes * pstat).

  (** one primitive read: finished with its bytes, or one of the other cases *)
  Inductive lres :=
  | LGot (bs : bytes) (s : S)
  | LOut (e : outcome False) (s : S)
  | LPend (got : bytes) (s : S)
  | LIdle (got : bytes) (s : S)
  | LLost (got : bytes) (s : S)
  | LFuel.

  (** tokio [ReadExact::poll] (tokio/src/io/util/read_exact.rs): the [ReadBuf] lives in the future, so bytes
      put into it by a poll that answers Pending are kept. With [keep = false] it is [ReadInt::poll]
      (tokio/src/io/util/read_int.rs): a fresh [ReadBuf] starting at the bytes counted so far is made for every
      poll, so bytes put by a poll that answers Pending are overwritten. Both loop until the buffer is full and report
      UnexpectedEof when a successful poll adds nothing. *)
  Fixpoint loop (keep : bool) (fuel : nat) (n : N) (got : bytes) (s : S) : lres :=
    if n <=? blen got then LGot got s
    else match fuel with
    | O => LFuel
    | Datatypes.S fuel' =>
      match poll_read s (n - blen got) with
      | (s', bs, PReady) =>
        match bs with
        | [] => LOut (Err (IoError UnexpectedEof)) s'
        | _ => loop keep fuel' n (got ++ bs) s'
        end
      | (s', _, PFail k) => LOut (Err (IoError k)) s'
      | (s', bs, PPend) => LPend (if keep then got ++ bs else got) s'
      | (s', bs, PIdle) => LIdle (if keep then got ++ bs else got) s'
      | (s', bs, PLost) => LLost (if keep then got ++ bs else got) s'
      | (s', _, PPanic c) => LOut (Crash c) s'
      end
    end.

  (** an error has any result type *)
  Definition outF {A} (o : outcome False) : outcome A :=
    match o with Ok f => match f with end | Err e => Err e | Crash c => Crash c end.

  (** One poll of the future running program [p], whose current primitive has already [got] some bytes. *)
  Fixpoint poll_fut {A} (E : env) (fuel : nat) (p : rd A) (got : bytes) (s : S) : fpoll A S :=
    match p with
    | RDone o => FOut o s
    | RAlloc n p' =>
      match vec_alloc E n with
      | Ok _ => poll_fut E fuel p' [] s
      | Err e => FOut (Err e) s
      | Crash c => FOut (Crash c) s
      end
    | RInt k c =>
      match loop false fuel (N.of_nat k) got s with
      | LGot bs s' => poll_fut E fuel (c (unbe bs)) [] s'
      | LOut o s' => FOut (outF o) s'
      | LPend g s' => FPend p g s'
      | LIdle g s' => FIdle p g s'
      | LLost g s' => FLost p g s'
      | LFuel => FFuel
      end
    | RExact n c =>
      match loop true fuel n got s with
      | LGot bs s' => poll_fut E fuel (c bs) [] s'
      | LOut o s' => FOut (outF o) s'
      | LPend g s' => FPend p g s'
      | LIdle g s' => FIdle p g s'
      | LLost g s' => FLost p g s'
      | LFuel => FFuel
      end
    end.

  (** The executor polls again after every wake-up. *)
  Fixpoint exec {A} (E : env) (fuel : nat) (p : rd A) (got : bytes) (s : S) : xres A S :=
    match fuel with
    | O => XFuel
    | Datatypes.S fuel' =>
      match poll_fut E fuel p got s with
      | FOut o s' => XOut o s'
      | FPend p' g s' => exec E fuel' p' g s'
      | FIdle p' g s' => XIdle p' g s'
      | FLost p' g s' => XLost p' g s'
      | FFuel => XFuel
      end
    end.
End Poll.
Arguments LGot {S}. Arguments LOut {S}. Arguments LPend {S}. Arguments LIdle {S}. Arguments LLost {S}. Arguments LFuel {S}.

(** * Plain transports (TCP and unix sockets)
    A script of what the socket will deliver: bytes, places where a read returns early ([TCut]),
    not-ready polls ([TPend]), an I/O error, end of file. The empty script is an open, silent connection. *)
Inductive titem := TB (b : byte) | TCut | TPend | TFail (k : io_kind) | TEof.
(** what a connection delivers, in order *)
Definition script := list titem.

(** consecutive available bytes, at most [rem] *)
Fixpoint take_run (rem : N) (s : script) : bytes * script :=
  match s with
  | TB b :: s' =>
    if rem =? 0 then ([], s) else let (bs, s'') := take_run (rem - 1) s' in (b :: bs, s'')
  | _ => ([], s)
  end.

(** [TcpStream]/[UnixStream] [OwnedReadHalf::poll_read] with [rem] bytes of buffer space *)
Fixpoint sock_read (s : script) (rem : N) : script * bytes * pstat :=
  match s with
  | [] => ([], [], PIdle)
  | TCut :: s' => sock_read s' rem
  | TPend :: s' => (s', [], PPend)
  | TFail k :: s' => (s', [], PFail k)
  | TEof :: s' => (TEof :: s', [], PReady)
  | TB _ :: _ => let (bs, s') := take_run rem s in (s', bs, PReady)
  end.

(** How a script ends. *)
Inductive tend := EndIdle | EndEof | EndFail (k : io_kind).
(** The bytes a script delivers before its end, and that end. *)
Fixpoint content (s : script) : bytes * tend :=
  match s with
  | [] => ([], EndIdle)
  | TB b :: s' => let (l, e) := content s' in (b :: l, e)
  | TCut :: s' => content s'
  | TPend :: s' => content s'
  | TFail k :: _ => ([], EndFail k)
  | TEof :: _ => ([], EndEof)
  end.
