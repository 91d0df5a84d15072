(** Emitting: the futures of src/ipc/stream_emitter/*.rs, poll by poll. *)
From Verif Require Import Base Codec Ids Payload.

(** What a context decides about emitting (src/ipc/context.rs:35-53): the connection it writes to and the event it answers. *)
Record context := mk_context { c_conn : nat; c_ref : option N }.

(** Shared state the futures work on: the process wide event counter (events/mod.rs:15-17), the reply listeners of the
    context with the channels created for them (context.rs:21, 127-132), the bytes the connection has accepted, and the
    mutex around its write half (stream_emitter/mod.rs:32): [Some i] when future number [i] has locked it. *)
Record world := mk_world { w_ctr : N; w_lis : amap N nat; w_chans : nat; w_out : bytes; w_lock : option nat }.

(** EventMetadata (event_metadata.rs:8-16). A payload is represented by what its [into_payload] answers. *)
Record event_metadata := mk_meta {
  m_event : option event;
  m_ctx : option context;
  m_ns : option (option bytes);
  m_name : option bytes;
  m_res : option (option N);
  m_type : option etype;
  m_payload : option (outcome bytes) }.

(** EventMetadata::build_event (event_metadata.rs:33-53); the fields are taken one after the other, the payload is
    serialized before Event::new creates the id. [t] is the time of the call. *)
Definition build_event (t : instant) (w : world) (m : event_metadata) : world * event_metadata * outcome unit :=
  let inv m' := (w, m', Err InvalidState) in
  match m_ctx m with None => inv m | Some _ =>
  let m1 := mk_meta (m_event m) None (m_ns m) (m_name m) (m_res m) (m_type m) (m_payload m) in
  match m_name m with None => inv m1 | Some name =>
  let m2 := mk_meta (m_event m) None (m_ns m) None (m_res m) (m_type m) (m_payload m) in
  match m_ns m with None => inv m2 | Some ns =>
  let m3 := mk_meta (m_event m) None None None (m_res m) (m_type m) (m_payload m) in
  match m_payload m with None => inv m3 | Some p =>
  let m4 := mk_meta (m_event m) None None None (m_res m) (m_type m) None in
  match m_res m with None => inv m4 | Some res =>
  let m5 := mk_meta (m_event m) None None None None (m_type m) None in
  match m_type m with None => inv m5 | Some ty =>
  let m6 := mk_meta (m_event m) None None None None None None in
  match p with
  | Err e => (w, m6, Err e)
  | Crash c => (w, m6, Crash c)
  | Ok data =>
    let id := nth_id t (w_ctr w) in                                            (* Event::new, event.rs:71-88 *)
    (mk_world (w_ctr w + 1) (w_lis w) (w_chans w) (w_out w) (w_lock w),
     mk_meta (Some (event_new id ns name data res ty)) None None None None None None, Ok tt)
  end end end end end end end.

(** EventMetadata::get_event (event_metadata.rs:19-24) *)
Definition get_event (t : instant) (w : world) (m : event_metadata) : world * event_metadata * outcome event :=
  match m_event m with
  | Some e => (w, m, Ok e)
  | None =>
    match build_event t w m with
    | (w', m', Ok _) => (w', m', match m_event m' with Some e => Ok e | None => Crash PanicNone end)
    | (w', m', Err e) => (w', m', Err e)
    | (w', m', Crash c) => (w', m', Crash c)
    end
  end.
(** EventMetadata::take_event (event_metadata.rs:26-31) *)
Definition take_event (t : instant) (w : world) (m : event_metadata) : world * outcome (option event) :=
  match m_event m with
  | Some e => (w, Ok (Some e))
  | None =>
    match build_event t w m with
    | (w', m', Ok _) => (w', Ok (m_event m'))
    | (w', _, Err e) => (w', Err e)
    | (w', _, Crash c) => (w', Crash c)
    end
  end.

(** The async block of EmitMetadata::poll (emit_metadata.rs:89-98). [FWrite id sent rest]: the mutex is locked and
    write_all has had [sent] accepted. [FDone]: finished; polling it again panics. *)
Inductive emit_fut :=
| FStart (e : event)
| FLock (id : N) (b : bytes)
| FWrite (id : N) (sent rest : bytes)
| FFlush (id : N) (sent : bytes)
| FDone.
(** EmitMetadata (emit_metadata.rs:20-24) *)
Record emit_metadata := mk_emit { em_meta : option event_metadata; em_stream : bool; em_fut : option emit_fut }.

(** Result of a poll. *)
Inductive polled (A : Type) := Waiting | Ready (o : outcome A).
Arguments Waiting {A}. Arguments Ready {A}.

(** What the connection answers to successive poll_write / poll_flush calls within one poll. *)
Inductive io_answer := Accept (n : nat) | NotReady | Failing (k : io_kind).

(** drop of the mutex guard, locking by future [i], bytes accepted by the connection *)
Definition unlock (w : world) : world := mk_world (w_ctr w) (w_lis w) (w_chans w) (w_out w) None.
Definition lock (i : nat) (w : world) : world := mk_world (w_ctr w) (w_lis w) (w_chans w) (w_out w) (Some i).
Definition send_bytes (b : bytes) (w : world) : world := mk_world (w_ctr w) (w_lis w) (w_chans w) (w_out w ++ b) (w_lock w).

(** [stream.flush().await?; Ok(event_id)] (emit_metadata.rs:94-97); the guard is dropped at the end of the block *)
Definition poll_flush (w : world) (id : N) (sent : bytes) (l : list io_answer) : world * emit_fut * polled N :=
  match l with
  | [] | NotReady :: _ => (w, FFlush id sent, Waiting)
  | Failing k :: _ => (unlock w, FDone, Ready (Err (IoError k)))
  | Accept _ :: _ => (unlock w, FDone, Ready (Ok id))
  end.
(** [stream.write_all(&event_bytes).await?] (emit_metadata.rs:93): tokio's WriteAll loops over poll_write and fails with
    WriteZero when 0 bytes are accepted *)
Fixpoint poll_write_all (w : world) (id : N) (sent rest : bytes) (l : list io_answer) : world * emit_fut * polled N :=
  match rest with
  | [] => poll_flush w id sent l
  | _ :: _ =>
    match l with
    | [] | NotReady :: _ => (w, FWrite id sent rest, Waiting)
    | Failing k :: _ => (unlock w, FDone, Ready (Err (IoError k)))
    | Accept n :: l' =>
      let b := firstn n rest in
      match b with
      | [] => (unlock w, FDone, Ready (Err (IoError WriteZero)))
      | _ :: _ => poll_write_all (send_bytes b w) id (sent ++ b) (skipn n rest) l'
      end
    end
  end.
(** [stream.lock().await] (emit_metadata.rs:92); [i] is the number of the polled future. The queue of a tokio mutex is
    not modelled: any waiting future may get a free mutex. *)
Definition poll_lock (i : nat) (w : world) (id : N) (b : bytes) (l : list io_answer) : world * emit_fut * polled N :=
  match w_lock w with
  | Some _ => (w, FLock id b, Waiting)
  | None => poll_write_all (lock i w) id [] b l
  end.
(** one poll of the async block (emit_metadata.rs:89-98) from where it stands *)
Definition poll_fut (i : nat) (w : world) (f : emit_fut) (l : list io_answer) : world * emit_fut * polled N :=
  match f with
  | FStart e =>
    match into_bytes e with
    | Ok b => poll_lock i w (ev_id e) b l
    | Err er => (w, FDone, Ready (Err er))
    | Crash c => (w, FDone, Ready (Crash c))
    end
  | FLock id b => poll_lock i w id b l
  | FWrite id sent rest => poll_write_all w id sent rest l
  | FFlush id sent => poll_flush w id sent l
  | FDone => (w, FDone, Ready (Crash PanicResumed))
  end.

(** EmitMetadata::poll (emit_metadata.rs:76-101) *)
Definition poll_emit (i : nat) (t : instant) (w : world) (em : emit_metadata) (l : list io_answer) : world * emit_metadata * polled N :=
  match em_fut em with
  | Some f => let '(w', f', r) := poll_fut i w f l in (w', mk_emit (em_meta em) (em_stream em) (Some f'), r)
  | None =>
    match em_meta em with
    | None => (w, em, Ready (Err InvalidState))
    | Some m =>
      if em_stream em then
        match take_event t w m with
        | (w', Err e) => (w', mk_emit None false None, Ready (Err e))
        | (w', Crash c) => (w', mk_emit None false None, Ready (Crash c))
        | (w', Ok None) => (w', mk_emit None false None, Ready (Crash PanicNone))
        | (w', Ok (Some e)) => let '(w2, f', r) := poll_fut i w' (FStart e) l in (w2, mk_emit None false (Some f'), r)
        end
      else (w, mk_emit None false None, Ready (Err InvalidState))
    end
  end.

(** Dropping an emit future: a locked mutex is released (its guard is dropped), accepted bytes stay. *)
Definition drop_emit (i : nat) (w : world) : world :=
  match w_lock w with Some j => if Nat.eqb i j then unlock w else w | None => w end.

(** EmitMetadata::new (emit_metadata.rs:28-50) *)
Definition emit_new (ctx : context) (name : bytes) (ns : option bytes) (payload : outcome bytes) (res : option N) (ty : etype) : emit_metadata :=
  mk_emit (Some (mk_meta None (Some ctx) (Some ns) (Some name) (Some res) (Some ty) (Some payload))) true None.
(** StreamEmitter::emit, emit_to, emit_raw, emit_response, emit_response_to (stream_emitter/mod.rs:49-158) chosen by
    Context::emit (context.rs:95-102), Context::emit_to (105-117), Context::emit_raw (76-92). None of them touches the
    shared state, which is why they return the world unchanged. *)
Definition ctx_emit (w : world) (ctx : context) (name : bytes) (payload : outcome bytes) : world * emit_metadata :=
  (w, match c_ref ctx with
      | Some r => emit_new ctx name None payload (Some r) Response
      | None => emit_new ctx name None payload None Initiator
      end).
Definition ctx_emit_to (w : world) (ctx : context) (ns name : bytes) (payload : outcome bytes) : world * emit_metadata :=
  (w, match c_ref ctx with
      | Some r => emit_new ctx name (Some ns) payload (Some r) Response
      | None => emit_new ctx name (Some ns) payload None Initiator
      end).
Definition ctx_emit_raw (w : world) (ctx : context) (name : bytes) (ns : option bytes) (ty : etype) (payload : outcome bytes) : world * emit_metadata :=
  (w, emit_new ctx name ns payload (c_ref ctx) ty).

(** ** await_reply and stream_replies *)
(** What the receiver of the reply channel and the timer answer during one poll. *)
Inductive recv_answer := NoReply | Reply (e : event) | ChannelClosed | TimerFired.

(** Context::register_reply_listener (context.rs:127-132): channel number [w_chans w] is created and its sender stored *)
Definition register_reply_listener (w : world) (id : N) : world * nat :=
  (mk_world (w_ctr w) (insert N.eqb id (w_chans w) (w_lis w)) (S (w_chans w)) (w_out w) (w_lock w), w_chans w).
(** remove_reply_listener (emit_metadata_with_response.rs:81-83) *)
Definition remove_reply_listener (w : world) (id : N) : world :=
  mk_world (w_ctr w) (remove N.eqb id (w_lis w)) (w_chans w) (w_out w) (w_lock w).

(** The async block of EmitMetadataWithResponse::poll (emit_metadata_with_response.rs:55-75). *)
Inductive wait_fut :=
| WStart (id : N) (em : emit_metadata)
| WSending (id : N) (ch : nat) (em : emit_metadata)
| WRecv (id : N) (ch : nat)
| WDone.
(** EmitMetadataWithResponse (emit_metadata_with_response.rs:15-19) *)
Record wait_metadata := mk_wait { wm_emit : option emit_metadata; wm_fut : option wait_fut }.
(** EmitMetadata::await_reply (emit_metadata.rs:52-60) *)
Definition await_reply (em : emit_metadata) : wait_metadata := mk_wait (Some em) None.

(** what await_reply answers for a reply (emit_metadata_with_response.rs:70-74) *)
Definition reply_result (E : env) (reply : event) : outcome event :=
  if etype_eqb (ev_type reply) Error
  then match error_dec E (ev_data reply) with Ok d => Err (ErrorEvent d) | Err e => Err e | Crash c => Crash c end
  else Ok reply.
(** the [select!] and what follows it (emit_metadata_with_response.rs:59-74); which branch is taken is decided by [a] *)
Definition poll_recv (E : env) (w : world) (id : N) (ch : nat) (a : recv_answer) : world * wait_fut * polled event :=
  match a with
  | NoReply => (w, WRecv id ch, Waiting)
  | Reply e => (remove_reply_listener w id, WDone, Ready (reply_result E e))
  | ChannelClosed => (w, WDone, Ready (Err SendError))
  | TimerFired => (w, WDone, Ready (Err Timeout))
  end.
(** [emit_metadata.await?] (emit_metadata_with_response.rs:57) and on *)
Definition poll_sending (E : env) (i : nat) (t : instant) (w : world) (id : N) (ch : nat) (em : emit_metadata) (l : list io_answer) (a : recv_answer)
  : world * wait_fut * polled event :=
  match poll_emit i t w em l with
  | (w', em', Waiting) => (w', WSending id ch em', Waiting)
  | (w', em', Ready (Ok _)) => poll_recv E w' id ch a
  | (w', em', Ready (Err e)) => (w', WDone, Ready (Err e))
  | (w', em', Ready (Crash c)) => (w', WDone, Ready (Crash c))
  end.
(** one poll of the async block (emit_metadata_with_response.rs:55-75) from where it stands *)
Definition poll_wait_fut (E : env) (i : nat) (t : instant) (w : world) (f : wait_fut) (l : list io_answer) (a : recv_answer)
  : world * wait_fut * polled event :=
  match f with
  | WStart id em => let (w', ch) := register_reply_listener w id in poll_sending E i t w' id ch em l a
  | WSending id ch em => poll_sending E i t w id ch em l a
  | WRecv id ch => poll_recv E w id ch a
  | WDone => (w, WDone, Ready (Crash PanicResumed))
  end.
(** lines 37-53 shared by EmitMetadataWithResponse::poll (emit_metadata_with_response.rs) and
    EmitMetadataWithResponseStream::poll (emit_metadata_with_response_stream.rs:67-84): the event is built and its id taken *)
Definition prepare (t : instant) (w : world) (oem : option emit_metadata) : world * outcome (N * emit_metadata) :=
  match oem with
  | None => (w, Err InvalidState)
  | Some em =>
    match em_meta em with
    | None => (w, Err InvalidState)
    | Some m =>
      match m_ctx m with
      | None => (w, Err InvalidState)
      | Some _ =>
        match get_event t w m with
        | (w', m', Ok e) => (w', Ok (ev_id e, mk_emit (Some m') (em_stream em) (em_fut em)))
        | (w', _, Err e) => (w', Err e)
        | (w', _, Crash c) => (w', Crash c)
        end
      end
    end
  end.
(** EmitMetadataWithResponse::poll (emit_metadata_with_response.rs:36-78) *)
Definition poll_await (E : env) (i : nat) (t : instant) (w : world) (wm : wait_metadata) (l : list io_answer) (a : recv_answer)
  : world * wait_metadata * polled event :=
  match wm_fut wm with
  | Some f => let '(w', f', r) := poll_wait_fut E i t w f l a in (w', mk_wait (wm_emit wm) (Some f'), r)
  | None =>
    match prepare t w (wm_emit wm) with
    | (w', Err e) => (w', mk_wait None None, Ready (Err e))
    | (w', Crash c) => (w', mk_wait None None, Ready (Crash c))
    | (w', Ok (id, em)) => let '(w2, f', r) := poll_wait_fut E i t w' (WStart id em) l a in (w2, mk_wait None (Some f'), r)
    end
  end.

(** EmitMetadataWithResponseStream (emit_metadata_with_response_stream.rs:18-22, 86-91): like [await_reply], but answers
    the stream as soon as the event is sent. *)
Inductive open_fut := OStart (id : N) (em : emit_metadata) | OSending (id : N) (ch : nat) (em : emit_metadata) | ODone.
(** EmitMetadataWithResponseStream (emit_metadata_with_response_stream.rs:18-22) *)
Record open_metadata := mk_open { om_emit : option emit_metadata; om_fut : option open_fut }.
(** EmitMetadata::stream_replies (emit_metadata.rs:62-68) *)
Definition stream_replies (em : emit_metadata) : open_metadata := mk_open (Some em) None.

(** ResponseStream (emit_metadata_with_response_stream.rs:27-33): [rs_free] - context and receiver are in the struct;
    [rs_fut] - the future of the item being waited for, [Some false] when it has completed with an error. *)
Record response_stream := mk_stream { rs_id : N; rs_chan : nat; rs_free : bool; rs_fut : option bool }.
(** [emit_metadata.await?] and the rest (emit_metadata_with_response_stream.rs:88-90) *)
Definition open_sending (i : nat) (t : instant) (w : world) (id : N) (ch : nat) (em : emit_metadata) (l : list io_answer)
  : world * open_fut * polled response_stream :=
  match poll_emit i t w em l with
  | (w', em', Waiting) => (w', OSending id ch em', Waiting)
  | (w', em', Ready (Ok _)) => (w', ODone, Ready (Ok (mk_stream id ch true None)))
  | (w', em', Ready (Err e)) => (w', ODone, Ready (Err e))
  | (w', em', Ready (Crash c)) => (w', ODone, Ready (Crash c))
  end.
(** one poll of the async block (emit_metadata_with_response_stream.rs:86-91) from where it stands *)
Definition poll_open_fut (i : nat) (t : instant) (w : world) (f : open_fut) (l : list io_answer) : world * open_fut * polled response_stream :=
  match f with
  | OStart id em => let (w', ch) := register_reply_listener w id in open_sending i t w' id ch em l
  | OSending id ch em => open_sending i t w id ch em l
  | ODone => (w, ODone, Ready (Crash PanicResumed))
  end.
(** EmitMetadataWithResponseStream::poll (emit_metadata_with_response_stream.rs:67-94) *)
Definition poll_open (i : nat) (t : instant) (w : world) (om : open_metadata) (l : list io_answer) : world * open_metadata * polled response_stream :=
  match om_fut om with
  | Some f => let '(w', f', r) := poll_open_fut i t w f l in (w', mk_open (om_emit om) (Some f'), r)
  | None =>
    match prepare t w (om_emit om) with
    | (w', Err e) => (w', mk_open None None, Ready (Err e))
    | (w', Crash c) => (w', mk_open None None, Ready (Crash c))
    | (w', Ok (id, em)) => let '(w2, f', r) := poll_open_fut i t w' (OStart id em) l in (w2, mk_open None (Some f'), r)
    end
  end.

(** ResponseStream::poll_next (emit_metadata_with_response_stream.rs:102-153). [Ready (Ok None)]: the stream has ended;
    [Ready (Ok (Some r))]: an item. *)
Definition poll_item (w : world) (s : response_stream) (a : recv_answer) : world * response_stream * polled (option (outcome event)) :=
  match a with
  | NoReply => (w, mk_stream (rs_id s) (rs_chan s) false (Some true), Waiting)
  | Reply e =>
    if etype_eqb (ev_type e) End
    then (remove_reply_listener w (rs_id s), mk_stream (rs_id s) (rs_chan s) false None, Ready (Ok (Some (Ok e))))
    else (w, mk_stream (rs_id s) (rs_chan s) true None, Ready (Ok (Some (Ok e))))
  | ChannelClosed => (remove_reply_listener w (rs_id s), mk_stream (rs_id s) (rs_chan s) false None, Ready (Ok None))
  | TimerFired => (w, mk_stream (rs_id s) (rs_chan s) false (Some false), Ready (Ok (Some (Err Timeout))))
  end.
(** the test at emit_metadata_with_response_stream.rs:106-109, then the poll at 133 *)
Definition poll_next (w : world) (s : response_stream) (a : recv_answer) : world * response_stream * polled (option (outcome event)) :=
  match rs_fut s with
  | Some true => poll_item w s a
  | Some false => (w, s, Ready (Crash PanicResumed))        (* the completed async block is polled again *)
  | None => if rs_free s then poll_item w s a else (w, s, Ready (Ok None))
  end.

(** ** Any number of emit futures on one connection *)
Record emit_sys := mk_sys { y_world : world; y_futs : list (option emit_metadata) }.   (* None: dropped *)
Inductive emit_label :=
| YPoll (i : nat) (t : instant) (l : list io_answer)
| YDrop (i : nat).
(** replace an entry of a list *)
Fixpoint put {A} (i : nat) (x : A) (l : list A) : list A :=
  match l, i with
  | [], _ => []
  | _ :: l', O => x :: l'
  | y :: l', S i' => y :: put i' x l'
  end.
(** one step; the second component is what a poll returned *)
Definition emit_step (s : emit_sys) (lb : emit_label) : option (emit_sys * option (nat * polled N)) :=
  match lb with
  | YPoll i t l =>
    match nth_error (y_futs s) i with
    | Some (Some em) =>
      let '(w', em', r) := poll_emit i t (y_world s) em l in
      Some (mk_sys w' (put i (Some em') (y_futs s)), Some (i, r))
    | _ => None
    end
  | YDrop i =>
    match nth_error (y_futs s) i with
    | Some (Some em) => Some (mk_sys (drop_emit i (y_world s)) (put i None (y_futs s)), None)
    | _ => None
    end
  end.
(** any sequence of steps, and what the polls returned *)
Fixpoint emit_run (s : emit_sys) (ls : list emit_label) : option (emit_sys * list (nat * polled N)) :=
  match ls with
  | [] => Some (s, [])
  | lb :: ls' =>
    match emit_step s lb with
    | Some (s1, o) =>
      match emit_run s1 ls' with
      | Some (s2, os) => Some (s2, match o with Some x => x :: os | None => os end)
      | None => None
      end
    | None => None
    end
  end.
