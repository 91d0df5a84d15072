(** Endpoints: receive loops, handlers, requests and their reply listeners
    (src/ipc/mod.rs, context.rs, client.rs, server.rs, stream_emitter/*.rs) as a transition system.

    An endpoint is everything that shares one reply listener table: one connection of a server (server.rs:60), a client
    (one connection) or a pooled client (n connections sharing one table, builder.rs:253-269).
    A step is what happens between two points where another thread can interfere: one access to the listener table, one
    channel operation, one event creation. Sending an event is one step, because the bytes of one emit are not mixed with
    those of another (C47, where the single polls are modelled); a failed or cancelled send is a separate action.
    Timers are nondeterministic: a waiting request can time out at any moment. *)
From Coq Require Import Strings.String.
From Verif Require Import Base Codec Ids Payload Builder Emit.

(** ** User code *)
(** One emit call: [ctx.emit(name, payload)] ([rq_ns = None]) or [ctx.emit_to(ns, name, payload)]; the payload is
    represented by what its [into_payload] answers. *)
Record request := mk_request { rq_ctx : context; rq_ns : option bytes; rq_name : bytes; rq_payload : outcome bytes }.

(** A task of the user or the body of an event handler: what it does next. Continuations take the result of the operation,
    [None] when the user drops the future before it is ready (select!, timeouts of his own). [PEnv] stands for everything
    else that can influence user code (time, other I/O, shared data): any number may come back, any number of times.
    Futures polled concurrently by one task (join!) are to be read as tasks spawned with [PSpawn]. *)
CoInductive prog :=
| PRet (r : bytes + error)                                   (* Result<Response>: the response bytes or the error *)
| PPanic
| PEmit (rq : request) (k : option (outcome N) -> prog)      (* emit(..).await *)
| PAwait (rq : request) (k : option (outcome event) -> prog) (* emit(..).await_reply().await *)
| PStream (rq : request) (k : option (outcome nat) -> prog)  (* emit(..).stream_replies().await: number of the stream *)
| PNext (h : nat) (k : option (option (outcome event)) -> prog) (* stream.next().await *)
| PStop (n : nat) (k : outcome unit -> prog)                 (* ctx.stop().await on a context of connection n *)
| PEnv (k : N -> prog)
| PSpawn (p : prog) (k : prog).

(** EventCallback (event_handler.rs:32-39) *)
Definition callback := context -> event -> prog.
(** What a connection is started with (server.rs:21-29, client.rs:22-31): global handler and namespaces as built by
    [Builder.v]; [cf_debug] is the Debug rendering of errors (ipc/mod.rs:88). *)
Record config := mk_config { cf_handler : event_handler callback; cf_namespaces : amap bytes (namespace callback);
                             cf_debug : error -> bytes; cf_env : env }.

(** The predefined handler of "error" events (builder.rs:84-92) *)
Definition default_error (E : env) : callback := fun _ e =>
  match error_dec E (ev_data e) with
  | Ok _ => PRet (inl [])
  | Err er => PRet (inr er)
  | Crash _ => PPanic
  end.

(** ** State *)
(** Channel of a reply listener, mpsc::channel(8) (context.rs:128): the id it was made for, the events not yet received,
    whether the receiver still exists. *)
Record chan := mk_chan { ch_id : N; ch_buf : list event; ch_open : bool }.
(** ResponseStream (emit_metadata_with_response_stream.rs:27-33): [SOpen] - can be polled; [SBusy] - next() is being
    awaited; [SEnded] - End or None was returned; [SPoisoned] - a Timeout was returned; [SDropped]. *)
Inductive sstate := SOpen | SBusy | SEnded | SPoisoned | SDropped.
(** a stream: the request it belongs to, its channel, its state *)
Record stream := mk_rstream { st_id : N; st_chan : nat; st_state : sstate }.
(** Receive loop handle_connection (ipc/mod.rs:18-60): reading the next event, or holding a reply for channel [c]
    (line 37: sender.send(event).await), or ended. *)
Inductive loop := LRun | LSend (c : nat) (e : event) | LDone.
(** A connection: its loop; [cn_armed] - the stop sender of its contexts is still there (context.rs:43, 136-143);
    [cn_signal] - stop was called, the task of client.rs:74-77 has not yet aborted the loop. *)
Record conn := mk_conn { cn_loop : loop; cn_armed : bool; cn_signal : bool }.

(** What happens after an event was sent. *)
Inductive purpose :=
| ForEmit (k : option (outcome N) -> prog)
| ForAwait (c : nat) (k : option (outcome event) -> prog)
| ForStream (c : nat) (k : option (outcome nat) -> prog)
| ForAnswer (ok : bool).                                     (* the automatic answer, ipc/mod.rs:67-100 *)
Inductive want := WantReply (k : option (outcome event) -> prog) | WantStream (k : option (outcome nat) -> prog).
(** where a task stands; each state is before the step named *)
Inductive tstate :=
| TRun (p : prog)
| TRegister (ctx : context) (e : event) (w : want)           (* before register_reply_listener *)
| TSend (ctx : context) (e : event) (pu : purpose)           (* in emit_metadata.await *)
| TWait (c : nat) (id : N) (k : option (outcome event) -> prog)            (* in the select! of await_reply *)
| TGot (c : nat) (id : N) (reply : event) (k : option (outcome event) -> prog) (* before remove_reply_listener *)
| TNext (h : nat) (k : option (option (outcome event)) -> prog)            (* in the select! of poll_next *)
| TNextGot (h : nat) (item : option event) (k : option (option (outcome event)) -> prog) (* End or None, before remove_reply_listener *)
| TForget (id : N)                                           (* before ctx.reply_listeners.remove, ipc/mod.rs:78 *)
| TDone
| TDead.                                                     (* panicked *)
(** [tk_job]: context and event for tasks spawned by handle_event (ipc/mod.rs:67), None for the user's own tasks *)
Record task := mk_task { tk_job : option (context * event); tk_st : tstate }.

(** An endpoint: reply listeners (context.rs:21), the channels ever created, the streams ever opened, connections, tasks, and the number of events the process has created (events/mod.rs:15-17) *)
Record ep := mk_ep { e_lis : amap N nat; e_chans : list chan; e_streams : list stream; e_conns : list conn;
                     e_tasks : list task; e_ctr : N }.

(** ** Observations *)
Inductive obs :=
| OReceived (n : nat) (e : event)                    (* connection n's loop has read e *)
| OQueued (n : nat) (c : nat) (e : event)            (* ... has put e into reply channel c *)
| OIgnored (n : nat) (e : event)                     (* ... has dropped e *)
| OCalled (n : nat) (i : nat) (ctx : context) (scope : option bytes) (e : event)  (* ... has started task i with the handler
                                                        of that name in that scope (None: global) for e *)
| OClosed (n : nat) | OAborted (n : nat)             (* loop ended: connection closed or unreadable; stopped *)
| OListen (i : nat) (id : N) (c : nat)               (* task i registered channel c for replies to id *)
| OUnlisten (id : N)                                 (* listener of id removed *)
| OTaken (c : nat) (e : event)                       (* e was received from channel c *)
| OGone (c : nat)                                    (* receiver of c dropped *)
| OSent (i : nat) (ctx : context) (e : event)        (* task i has sent all of e on the connection of ctx *)
| OCut (i : nat) (ctx : context) (e : event)         (* task i stopped sending e: failure or dropped future *)
| OReturned (i : nat) (r : bytes + error)            (* the user code of task i returned *)
| OPanicked (i : nat)
| OReply (i : nat) (id : N) (r : option (outcome event))  (* await_reply for request id finished; None: dropped *)
| OOpened (i : nat) (h : nat) (id : N) (c : nat)     (* stream_replies returned stream h *)
| OItem (i : nat) (h : nat) (r : option (option (outcome event)))  (* next() on stream h finished; Some None: no more items *)
| OStop (i : nat) (n : nat) (taken : bool).          (* stop() on connection n; taken: it was the first *)

(** ** State changes *)
Definition set_task (i : nat) (st : tstate) (s : ep) : ep :=
  match nth_error (e_tasks s) i with
  | Some tk => mk_ep (e_lis s) (e_chans s) (e_streams s) (e_conns s) (put i (mk_task (tk_job tk) st) (e_tasks s)) (e_ctr s)
  | None => s
  end.
(** tokio::spawn (ipc/mod.rs:67) *)
Definition add_task (tk : task) (s : ep) : ep :=
  mk_ep (e_lis s) (e_chans s) (e_streams s) (e_conns s) (e_tasks s ++ [tk]) (e_ctr s).
(** changes of a connection, its loop, a channel *)
Definition set_conn (n : nat) (c : conn) (s : ep) : ep :=
  mk_ep (e_lis s) (e_chans s) (e_streams s) (put n c (e_conns s)) (e_tasks s) (e_ctr s).
Definition set_loop (n : nat) (l : loop) (s : ep) : ep :=
  match nth_error (e_conns s) n with
  | Some c => set_conn n (mk_conn l (cn_armed c) (cn_signal c)) s
  | None => s
  end.
Definition set_chan (c : nat) (ch : chan) (s : ep) : ep :=
  mk_ep (e_lis s) (put c ch (e_chans s)) (e_streams s) (e_conns s) (e_tasks s) (e_ctr s).
(** drop of a Receiver: what was queued is gone, sends fail from now on *)
Definition close_chan (c : nat) (s : ep) : ep :=
  match nth_error (e_chans s) c with
  | Some ch => set_chan c (mk_chan (ch_id ch) [] false) s
  | None => s
  end.
(** change of a stream, a new stream *)
Definition set_stream (h : nat) (st : sstate) (s : ep) : ep :=
  match nth_error (e_streams s) h with
  | Some x => mk_ep (e_lis s) (e_chans s) (put h (mk_rstream (st_id x) (st_chan x) st) (e_streams s)) (e_conns s) (e_tasks s) (e_ctr s)
  | None => s
  end.
Definition add_stream (x : stream) (s : ep) : ep :=
  mk_ep (e_lis s) (e_chans s) (e_streams s ++ [x]) (e_conns s) (e_tasks s) (e_ctr s).
(** the counter of generate_event_id (events/mod.rs:22) is incremented *)
Definition next_id (s : ep) : ep := mk_ep (e_lis s) (e_chans s) (e_streams s) (e_conns s) (e_tasks s) (e_ctr s + 1).
(** Context::register_reply_listener (context.rs:127-132): DashMap::insert replaces *)
Definition listen (id : N) (s : ep) : ep :=
  mk_ep (insert N.eqb id (length (e_chans s)) (e_lis s)) (e_chans s ++ [mk_chan id [] true]) (e_streams s) (e_conns s) (e_tasks s) (e_ctr s).
(** reply_listeners.remove (ipc/mod.rs:78, emit_metadata_with_response.rs:81-83) *)
Definition unlisten (id : N) (s : ep) : ep :=
  mk_ep (remove N.eqb id (e_lis s)) (e_chans s) (e_streams s) (e_conns s) (e_tasks s) (e_ctr s).

(** A sender of channel [c] exists: in the listener table, or cloned by a receive loop (ipc/mod.rs:35). *)
Definition has_sender (s : ep) (c : nat) : bool :=
  existsb (fun kv => Nat.eqb (snd kv) c) (e_lis s)
  || existsb (fun cn => match cn_loop cn with LSend c' _ => Nat.eqb c' c | _ => false end) (e_conns s).

(** ** The receive loop *)
(** handle_event (ipc/mod.rs:63-101) with EventHandler::handle_event (event_handler.rs:82-88): an unregistered name is
    answered with an empty response. *)
Definition handle_event (s : ep) (n : nat) (h : event_handler callback) (scope : option bytes) (e : event) : ep * list obs :=
  let ctx := mk_context n (Some (ev_id e)) in
  let p := match eh_get h (ev_name e) with Some cb => cb ctx e | None => PRet (inl []) end in
  (add_task (mk_task (Some (ctx, e)) (TRun p)) s, [OCalled n (length (e_tasks s)) ctx scope e]).

(** One event read by the loop (ipc/mod.rs:24-58), up to the point where it may have to wait for room in the channel *)
Definition receive (cf : config) (s : ep) (n : nat) (e : event) : ep * list obs :=
  match match ev_ref e with Some r => lookup N.eqb r (e_lis s) | None => None end with
  | Some c => (set_loop n (LSend c e) s, [OReceived n e])
  | None =>
    if etype_eqb (ev_type e) End then (s, [OReceived n e; OIgnored n e])
    else
      match match ev_ns e with Some ns => lookup bytes_eqb ns (cf_namespaces cf) | None => None end with
      | Some nsp => let (s', os) := handle_event s n (ns_handler nsp) (ev_ns e) e in (s', OReceived n e :: os)
      | None => let (s', os) := handle_event s n (cf_handler cf) None e in (s', OReceived n e :: os)
      end
  end.
(** [sender.send(event).await] (ipc/mod.rs:37-39) going through: the receiver is gone, or there is room *)
Definition place (cf : config) (s : ep) (n : nat) (c : nat) (e : event) : option (ep * list obs) :=
  match nth_error (e_chans s) c with
  | None => None
  | Some ch =>
    if ch_open ch then
      if Nat.ltb (length (ch_buf ch)) 8
      then Some (set_loop n LRun (set_chan c (mk_chan (ch_id ch) (ch_buf ch ++ [e]) true) s), [OQueued n c e])
      else None
    else Some (handle_event (set_loop n LRun s) n (cf_handler cf) None e)
  end.

(** ** Tasks *)
(** StreamEmitter::emit / emit_response (stream_emitter/mod.rs:49-158) as chosen by Context::emit, emit_to
    (context.rs:95-117) *)
Definition event_for (rq : request) (id : N) (data : bytes) : event :=
  event_new id (rq_ns rq) (rq_name rq) data (c_ref (rq_ctx rq)) (match c_ref (rq_ctx rq) with Some _ => Response | None => Initiator end).
(** The automatic answer (ipc/mod.rs:69-98) *)
Definition answer_event (cf : config) (ctx : context) (id : N) (r : bytes + error) : outcome event :=
  match r with
  | inl b => Ok (event_new id None END_EVENT_NAME b (c_ref ctx) End)
  | inr er => omap (fun d => event_new id None ERROR_EVENT_NAME d (c_ref ctx) Error) (error_enc (mk_err_data 500 (cf_debug cf er)))
  end.

(** Running user code; [t] is the time, [v] what the environment answers. *)
Definition run_prog (cf : config) (s : ep) (i : nat) (job : option (context * event)) (p : prog) (t : instant) (v : N) : option (ep * list obs) :=
  let id := nth_id t (e_ctr s) in
  match p with
  | PRet r =>
    match job with
    | None => Some (set_task i TDone s, [OReturned i r])
    | Some (ctx, x) =>
      match answer_event cf ctx id r with
      | Ok e => Some (set_task i (TSend ctx e (ForAnswer (match r with inl _ => true | inr _ => false end))) (next_id s), [OReturned i r])
      | _ => None      (* does not happen: error_enc cannot fail *)
      end
    end
  | PPanic => Some (set_task i TDead s, [OPanicked i])
  | PEmit rq k =>
    match rq_payload rq with
    | Ok d => Some (set_task i (TSend (rq_ctx rq) (event_for rq id d) (ForEmit k)) (next_id s), [])
    | Err er => Some (set_task i (TRun (k (Some (Err er)))) s, [])
    | Crash _ => Some (set_task i TDead s, [OPanicked i])
    end
  | PAwait rq k =>
    match rq_payload rq with
    | Ok d => Some (set_task i (TRegister (rq_ctx rq) (event_for rq id d) (WantReply k)) (next_id s), [])
    | Err er => Some (set_task i (TRun (k (Some (Err er)))) s, [])
    | Crash _ => Some (set_task i TDead s, [OPanicked i])
    end
  | PStream rq k =>
    match rq_payload rq with
    | Ok d => Some (set_task i (TRegister (rq_ctx rq) (event_for rq id d) (WantStream k)) (next_id s), [])
    | Err er => Some (set_task i (TRun (k (Some (Err er)))) s, [])
    | Crash _ => Some (set_task i TDead s, [OPanicked i])
    end
  | PNext h k =>
    match nth_error (e_streams s) h with
    | Some x =>
      match st_state x with
      | SOpen => Some (set_task i (TNext h k) (set_stream h SBusy s), [])
      | SEnded => Some (set_task i (TRun (k (Some None))) s, [OItem i h (Some None)])
      | SPoisoned => Some (set_task i TDead s, [OPanicked i])     (* the completed future is polled again *)
      | SBusy | SDropped => None                                  (* excluded by ownership *)
      end
    | None => None
    end
  | PStop n k =>
    (* Context::stop (context.rs:136-143); send() cannot fail: the receiver waits in the task of client.rs:74-77 *)
    match nth_error (e_conns s) n with
    | Some c =>
      if cn_armed c then Some (set_task i (TRun (k (Ok tt))) (set_conn n (mk_conn (cn_loop c) false true) s), [OStop i n true])
      else Some (set_task i (TRun (k (Ok tt))) s, [OStop i n false])
    | None => None
    end
  | PEnv k => Some (set_task i (TRun (k v)) s, [])
  | PSpawn q k => Some (set_task i (TRun k) (add_task (mk_task None (TRun q)) s), [])
  end.

(** What a task can do next *)
Inductive action :=
| AStep (t : instant) (v : N)    (* the task goes on *)
| AFail (k : io_kind)            (* the write fails *)
| ATimeout                       (* the timer of the request fires *)
| ADrop.                         (* the user drops the future he is waiting for *)

(** One step of task [i]: ipc/mod.rs:67-100, emit_metadata.rs:89-98, emit_metadata_with_response.rs:55-75, emit_metadata_with_response_stream.rs:86-91 and 115-150, as the comments of [tstate] say *)
Definition task_step (cf : config) (s : ep) (i : nat) (a : action) : option (ep * list obs) :=
  match nth_error (e_tasks s) i with
  | None => None
  | Some tk =>
    match tk_st tk, a with
    | TRun p, AStep t v => run_prog cf s i (tk_job tk) p t v
    | TRegister ctx e w, AStep _ _ =>
      let c := length (e_chans s) in
      Some (set_task i (TSend ctx e (match w with WantReply k => ForAwait c k | WantStream k => ForStream c k end)) (listen (ev_id e) s),
            [OListen i (ev_id e) c])
    | TSend ctx e pu, AStep _ _ =>
      match pu with
      | ForEmit k => Some (set_task i (TRun (k (Some (Ok (ev_id e))))) s, [OSent i ctx e])
      | ForAwait c k => Some (set_task i (TWait c (ev_id e) k) s, [OSent i ctx e])
      | ForStream c k =>
        let h := length (e_streams s) in
        Some (set_task i (TRun (k (Some (Ok h)))) (add_stream (mk_rstream (ev_id e) c SOpen) s), [OSent i ctx e; OOpened i h (ev_id e) c])
      | ForAnswer ok => Some (set_task i (match ok, tk_job tk with true, Some (_, x) => TForget (ev_id x) | _, _ => TDone end) s, [OSent i ctx e])
      end
    | TSend ctx e pu, AFail io =>
      match pu with
      | ForEmit k => Some (set_task i (TRun (k (Some (Err (IoError io))))) s, [OCut i ctx e])
      | ForAwait c k => Some (set_task i (TRun (k (Some (Err (IoError io))))) (close_chan c s), [OCut i ctx e; OGone c; OReply i (ev_id e) (Some (Err (IoError io)))])
      | ForStream c k => Some (set_task i (TRun (k (Some (Err (IoError io))))) (close_chan c s), [OCut i ctx e; OGone c])
      | ForAnswer ok => Some (set_task i (match ok, tk_job tk with true, Some (_, x) => TForget (ev_id x) | _, _ => TDone end) s, [OCut i ctx e])
      end
    | TSend ctx e pu, ADrop =>
      match pu with
      | ForEmit k => Some (set_task i (TRun (k None)) s, [OCut i ctx e])
      | ForAwait c k => Some (set_task i (TRun (k None)) (close_chan c s), [OCut i ctx e; OGone c; OReply i (ev_id e) None])
      | ForStream c k => Some (set_task i (TRun (k None)) (close_chan c s), [OCut i ctx e; OGone c])
      | ForAnswer _ => None
      end
    | TWait c id k, AStep _ _ =>
      match nth_error (e_chans s) c with
      | Some ch =>
        match ch_buf ch with
        | e :: b => Some (set_task i (TGot c id e k) (set_chan c (mk_chan (ch_id ch) b (ch_open ch)) s), [OTaken c e])
        | [] =>
          if has_sender s c then None
          else Some (set_task i (TRun (k (Some (Err SendError)))) (close_chan c s), [OGone c; OReply i id (Some (Err SendError))])
        end
      | None => None
      end
    | TWait c id k, ATimeout => Some (set_task i (TRun (k (Some (Err Timeout)))) (close_chan c s), [OGone c; OReply i id (Some (Err Timeout))])
    | TWait c id k, ADrop => Some (set_task i (TRun (k None)) (close_chan c s), [OGone c; OReply i id None])
    | TGot c id e k, AStep _ _ =>
      let r := reply_result (cf_env cf) e in
      match r with
      | Crash _ => Some (set_task i TDead (close_chan c (unlisten id s)), [OUnlisten id; OGone c; OPanicked i])
      | _ => Some (set_task i (TRun (k (Some r))) (close_chan c (unlisten id s)), [OUnlisten id; OGone c; OReply i id (Some r)])
      end
    | TNext h k, AStep _ _ =>
      match nth_error (e_streams s) h with
      | Some x =>
        match nth_error (e_chans s) (st_chan x) with
        | Some ch =>
          match ch_buf ch with
          | e :: b =>
            let s1 := set_chan (st_chan x) (mk_chan (ch_id ch) b (ch_open ch)) s in
            if etype_eqb (ev_type e) End then Some (set_task i (TNextGot h (Some e) k) s1, [OTaken (st_chan x) e])
            else Some (set_task i (TRun (k (Some (Some (Ok e))))) (set_stream h SOpen s1), [OTaken (st_chan x) e; OItem i h (Some (Some (Ok e)))])
          | [] => if has_sender s (st_chan x) then None else Some (set_task i (TNextGot h None k) s, [])
          end
        | None => None
        end
      | None => None
      end
    | TNext h k, ATimeout =>
      match nth_error (e_streams s) h with
      | Some x => Some (set_task i (TRun (k (Some (Some (Err Timeout))))) (set_stream h SPoisoned (close_chan (st_chan x) s)),
                        [OGone (st_chan x); OItem i h (Some (Some (Err Timeout)))])
      | None => None
      end
    | TNext h k, ADrop => Some (set_task i (TRun (k None)) (set_stream h SOpen s), [OItem i h None])
    | TNextGot h oe k, AStep _ _ =>
      match nth_error (e_streams s) h with
      | Some x =>
        let r := match oe with Some e => Some (Some (Ok e)) | None => Some None end in
        Some (set_task i (TRun (k r)) (set_stream h SEnded (close_chan (st_chan x) (unlisten (st_id x) s))),
              [OUnlisten (st_id x); OGone (st_chan x); OItem i h r])
      | None => None
      end
    | TForget id, AStep _ _ => Some (set_task i TDone (unlisten id s), [OUnlisten id])
    | _, _ => None
    end
  end.

(** ** Steps of an endpoint *)
Inductive label :=
| LTask (i : nat) (a : action)
| LRecv (n : nat) (e : event)     (* the loop of connection n reads event e *)
| LPlace (n : nat)                (* ... hands on the reply it holds *)
| LClosed (n : nat)               (* ... ends, because reading fails *)
| LAbort (n : nat)                (* handle.abort() (client.rs:76) takes effect *)
| LDropStream (h : nat)           (* the user drops a stream *)
| LOther.                         (* an event is created elsewhere in the process *)

(** One step of the endpoint; [None]: not possible in this state *)
Definition step (cf : config) (s : ep) (l : label) : option (ep * list obs) :=
  match l with
  | LTask i a => task_step cf s i a
  | LRecv n e =>
    match nth_error (e_conns s) n with
    | Some c => match cn_loop c with LRun => Some (receive cf s n e) | _ => None end
    | None => None
    end
  | LPlace n =>
    match nth_error (e_conns s) n with
    | Some cn => match cn_loop cn with LSend c e => place cf s n c e | _ => None end
    | None => None
    end
  | LClosed n =>
    match nth_error (e_conns s) n with
    | Some c => match cn_loop c with LRun => Some (set_loop n LDone s, [OClosed n]) | _ => None end
    | None => None
    end
  | LAbort n =>
    match nth_error (e_conns s) n with
    | Some c => if cn_signal c then Some (set_conn n (mk_conn LDone (cn_armed c) false) s, [OAborted n]) else None
    | None => None
    end
  | LDropStream h =>
    match nth_error (e_streams s) h with
    | Some x => match st_state x with
                | SBusy | SDropped => None
                | _ => Some (set_stream h SDropped (close_chan (st_chan x) s), [OGone (st_chan x)])
                end
    | None => None
    end
  | LOther => Some (next_id s, [])
  end.

(** a sequence of steps and what was observed *)
Fixpoint run (cf : config) (s : ep) (ls : list label) : option (ep * list obs) :=
  match ls with
  | [] => Some (s, [])
  | l :: ls' =>
    match step cf s l with
    | Some (s1, o1) =>
      match run cf s1 ls' with
      | Some (s2, o2) => Some (s2, o1 ++ o2)
      | None => None
      end
    | None => None
    end
  end.

(** A new endpoint with [n] connections: [armed] for clients (client.rs:47), not for servers (server.rs:66);
    [ps] are the tasks of the user. *)
Definition ep_new (n : nat) (armed : bool) (ps : list prog) (ctr : N) : ep :=
  mk_ep [] [] [] (repeat (mk_conn LRun armed false) n) (map (fun p => mk_task None (TRun p)) ps) ctr.
