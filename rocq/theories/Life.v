(** Who keeps a connection alive: ownership of the two halves of a stream, reference counts included
    (src/ipc/client.rs:36-81, src/ipc/server.rs:50-74, src/ipc/context.rs:35-72, 136-143, src/ipc/mod.rs:18-103,
    src/ipc/stream_emitter). One connection between a client and a server of this library. What the events say is left
    out: only that a received event may start a handler. *)
From Verif Require Import Base Pool.
Open Scope nat_scope.

(** The two ends. *)
Inductive endp := Client | Server.
Definition peer (x : endp) : endp := match x with Client => Server | Server => Client end.

(** Something alive that owns clones of a Context or of the shared write half.
    [UserCtx]: a Context (or PoolGuard) in the hands of the application.
    [EmitFut]: the future of an emit before its first poll, whether or not await_reply or stream_replies was called on it.
    [Writing]: the future of a plain emit, polled. [Asking]: that of await_reply or stream_replies, request not yet written.
    [Waiting]: await_reply after the request was written, or a ResponseStream.
    [Handling]: the task of a handler (mod.rs:64-72). [Answering]: the same task when the handler has returned (mod.rs:73-98). *)
Inductive own := UserCtx | EmitFut | Writing | Asking | Waiting | Handling | Answering.

(** One end of the connection.
    [sd_loop]: the receive loop runs; it owns the read half and a Context (mod.rs:18-23).
    [sd_owners]: everything else alive. [sd_streams]: strong count of the [Arc] around the write half (stream_emitter/mod.rs:33, 41).
    [sd_stops]: strong count of the [Arc] around the stop sender (context.rs:43). [sd_write]: the write half exists.
    [sd_sender]: the stop sender exists, inside that Arc. [sd_signal]: the task of client.rs:74-77 has been woken.
    [sd_out]: events written here and not yet read by the peer. *)
Record sided := mk_sided { sd_loop : bool; sd_owners : list own; sd_streams : nat; sd_stops : nat; sd_write : bool; sd_sender : bool; sd_signal : bool; sd_out : nat }.

(** [Arc::clone] and drop of the Arc around the write half: the last one drops the write half, which closes the direction *)
Definition clone_stream (s : sided) : sided :=
  mk_sided (sd_loop s) (sd_owners s) (S (sd_streams s)) (sd_stops s) (sd_write s) (sd_sender s) (sd_signal s) (sd_out s).
Definition drop_stream (s : sided) : sided :=
  match sd_streams s with
  | S (S k) => mk_sided (sd_loop s) (sd_owners s) (S k) (sd_stops s) (sd_write s) (sd_sender s) (sd_signal s) (sd_out s)
  | _ => mk_sided (sd_loop s) (sd_owners s) 0 (sd_stops s) false (sd_sender s) (sd_signal s) (sd_out s)
  end.
(** The same for the Arc around the stop sender: the last one drops a sender still there, which wakes [rx.await] (client.rs:75)
    just as sending does *)
Definition clone_stop (s : sided) : sided :=
  mk_sided (sd_loop s) (sd_owners s) (sd_streams s) (S (sd_stops s)) (sd_write s) (sd_sender s) (sd_signal s) (sd_out s).
Definition drop_stop (s : sided) : sided :=
  match sd_stops s with
  | S (S k) => mk_sided (sd_loop s) (sd_owners s) (sd_streams s) (S k) (sd_write s) (sd_sender s) (sd_signal s) (sd_out s)
  | _ => mk_sided (sd_loop s) (sd_owners s) (sd_streams s) 0 (sd_write s) false (sd_signal s || sd_sender s) (sd_out s)
  end.
(** [Context::clone] and drop of a Context (context.rs:35-52) *)
Definition clone_ctx (s : sided) : sided := clone_stop (clone_stream s).
Definition drop_ctx (s : sided) : sided := drop_stop (drop_stream s).
(** Context::stop (context.rs:136-143): take the sender, if it is there, and send *)
Definition take_sender (s : sided) : sided :=
  mk_sided (sd_loop s) (sd_owners s) (sd_streams s) (sd_stops s) (sd_write s) false (sd_signal s || sd_sender s) (sd_out s).

(** bookkeeping of what is alive *)
Definition with_owners (s : sided) (o : list own) : sided :=
  mk_sided (sd_loop s) o (sd_streams s) (sd_stops s) (sd_write s) (sd_sender s) (sd_signal s) (sd_out s).
Definition add_own (o : own) (s : sided) : sided := with_owners s (sd_owners s ++ [o]).
Definition put_own (i : nat) (o : own) (s : sided) : sided := with_owners s (set_nth i o (sd_owners s)).
Definition del_own (i : nat) (s : sided) : sided := with_owners s (del_nth i (sd_owners s)).
(** the loop starts, ends; an event is written, read *)
Definition with_loop (s : sided) (b : bool) : sided :=
  mk_sided b (sd_owners s) (sd_streams s) (sd_stops s) (sd_write s) (sd_sender s) (sd_signal s) (sd_out s).
Definition with_out (s : sided) (n : nat) : sided :=
  mk_sided (sd_loop s) (sd_owners s) (sd_streams s) (sd_stops s) (sd_write s) (sd_sender s) (sd_signal s) n.

(** IPCClient::connect (client.rs:41-80): [StreamEmitter::new]; [StreamEmitter::clone] into the Context, with a stop sender;
    [Context::clone] for the loop; the emitter of line 44 is dropped when connect returns; the caller gets the Context *)
Definition client_new : sided :=
  let emitter := mk_sided false [] 1 0 true true false 0 in
  let ctx := clone_stop (clone_stream emitter) in
  let looping := with_loop (clone_ctx ctx) true in
  add_own UserCtx (drop_stream looping).
(** The task of a connection accepted by the server (server.rs:50-74): emitter moved into the Context, Context moved into the
    loop, no stop sender *)
Definition server_new : sided := with_loop (clone_stop (mk_sided false [] 1 0 true false false 0)) true.

(** The two ends together *)
Record life := mk_life { l_client : sided; l_server : sided }.
Definition at_end (l : life) (x : endp) : sided := match x with Client => l_client l | Server => l_server l end.
Definition set_end (l : life) (x : endp) (s : sided) : life :=
  match x with Client => mk_life s (l_server l) | Server => mk_life (l_client l) s end.
Definition life_new : life := mk_life client_new server_new.

(** What can happen at an end. *)
Inductive what :=
| CloneCtx (i : nat)     (* ctx.clone(), by the application or inside a handler *)
| EmitOn (i : nat)       (* ctx.emit(..) or emit_to: creates the future *)
| PollEmit (i : nat)     (* first poll of a plain emit *)
| PollAsk (i : nat)      (* first poll of await_reply or stream_replies *)
| Written (i : nat)      (* a future has written its event completely *)
| WriteFails (i : nat)   (* or has failed *)
| DropIt (i : nat)       (* the application drops a Context, a future (finished or not) or a ResponseStream *)
| StopOn (i : nat)       (* ctx.stop().await: consumes the Context *)
| Abort                  (* handle.abort() of client.rs:76 takes effect *)
| Receive (b : bool)     (* the loop reads an event; b: it starts a handler for it *)
| Returns (i : nat)      (* a handler returns: its answer is being written *)
| Panics (i : nat)       (* a handler panics *)
| ReadsEof               (* the loop reads end of file and ends *)
| ReadFails.             (* the loop reads something unreadable, or the transport breaks, and it ends *)

(** can the application call methods of this owner's Context? *)
Definition callable (o : option own) : bool := match o with Some UserCtx | Some Handling => true | _ => false end.

(** The loop ends (mod.rs:24, 55): it drops the read half and its Context *)
Definition loop_ends (s : sided) : sided := drop_ctx (with_loop s false).

(** One step at an end, [p] being the peer; [None]: cannot happen now. *)
Definition end_step (s p : sided) (w : what) : option sided :=
  match w with
  | CloneCtx i => if callable (nth_error (sd_owners s) i) then Some (add_own UserCtx (clone_ctx s)) else None
  | EmitOn i =>      (* context.rs:93-115: self.clone(); stream_emitter/mod.rs:58: self.stream.clone() *)
    if callable (nth_error (sd_owners s) i) then Some (add_own EmitFut (clone_stream (clone_ctx s))) else None
  | PollEmit i =>    (* emit_metadata.rs:74-98: build_event takes the Context and drops it (event_metadata.rs:33); the stream goes on *)
    match nth_error (sd_owners s) i with Some EmitFut => Some (put_own i Writing (drop_ctx s)) | _ => None end
  | PollAsk i =>     (* emit_metadata_with_response.rs:40-58: ctx.clone(), then get_event drops the one inside the metadata *)
    match nth_error (sd_owners s) i with Some EmitFut => Some (put_own i Asking (drop_ctx (clone_ctx s))) | _ => None end
  | Written i =>     (* the inner future ends and with it the stream (emit_metadata.rs:88-98) *)
    match nth_error (sd_owners s) i with
    | Some Writing => Some (with_out (del_own i (drop_stream s)) (S (sd_out s)))
    | Some Asking => Some (with_out (put_own i Waiting (drop_stream s)) (S (sd_out s)))      (* emit_metadata_with_response.rs:61, .._stream.rs:88-90 *)
    | Some Answering => Some (with_out (del_own i (drop_ctx (drop_stream s))) (S (sd_out s))) (* mod.rs:73-81, end of the task *)
    | _ => None
    end
  | WriteFails i =>
    match nth_error (sd_owners s) i with
    | Some Writing => Some (del_own i (drop_stream s))
    | Some Asking | Some Answering => Some (del_own i (drop_ctx (drop_stream s)))
    | _ => None
    end
  | DropIt i =>
    match nth_error (sd_owners s) i with
    | Some UserCtx | Some Waiting => Some (del_own i (drop_ctx s))
    | Some EmitFut | Some Asking => Some (del_own i (drop_ctx (drop_stream s)))
    | Some Writing => Some (del_own i (drop_stream s))
    | _ => None
    end
  | StopOn i => match nth_error (sd_owners s) i with Some UserCtx => Some (del_own i (drop_ctx (take_sender s))) | _ => None end
  | Abort => if sd_signal s && sd_loop s then Some (loop_ends s) else None
  | Receive b =>     (* mod.rs:24-54, 62: Context::clone for the task *)
    if sd_loop s && (0 <? sd_out p) then Some (if b then add_own Handling (clone_ctx s) else s) else None
  | Returns i =>     (* mod.rs:65-73: emit_raw clones the Context and the stream, its first poll drops the Context again *)
    match nth_error (sd_owners s) i with Some Handling => Some (put_own i Answering (drop_ctx (clone_stream (clone_ctx s)))) | _ => None end
  | Panics i => match nth_error (sd_owners s) i with Some Handling => Some (del_own i (drop_ctx s)) | _ => None end
  | ReadsEof =>      (* everything written was read, or both halves over there are gone and the rest was thrown away *)
    if sd_loop s && negb (sd_write p) && ((sd_out p =? 0) || negb (sd_loop p)) then Some (loop_ends s) else None
  | ReadFails => if sd_loop s then Some (loop_ends s) else None
  end.

(** reading an event takes it out of the peer's direction *)
Definition at_peer (p : sided) (w : what) : sided := match w with Receive _ => with_out p (pred (sd_out p)) | _ => p end.
Definition life_step (l : life) (x : endp) (w : what) : option life :=
  match end_step (at_end l x) (at_end l (peer x)) w with
  | Some s => Some (set_end (set_end l x s) (peer x) (at_peer (at_end l (peer x)) w))
  | None => None
  end.
(** Histories *)
Fixpoint life_run (l : life) (h : list (endp * what)) : option life :=
  match h with
  | [] => Some l
  | (x, w) :: h' => match life_step l x w with Some l' => life_run l' h' | None => None end
  end.
