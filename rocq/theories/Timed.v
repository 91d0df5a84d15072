(** Timers of requests and reply streams (src/ipc/stream_emitter/emit_metadata_with_response.rs,
    emit_metadata_with_response_stream.rs), added to the futures of [Emit.v].

    Times and durations count the ticks (milliseconds) of tokio's timer. [tokio::time::sleep(d)] created at time [n] is ready in
    polls from time [n + d] on. Durations so long that tokio replaces them (decades) are not considered. *)
From Verif Require Import Base Codec Ids Payload Emit.

(** What the receiver of the reply channel answers during one poll. *)
Inductive chan_answer := CEmpty | CEvent (e : event) | CClosed.
(** [tokio::select!] of the receiver and the timer (emit_metadata_with_response.rs:59-66,
    emit_metadata_with_response_stream.rs:116-123): the branches are tried in random order, [timer_first] says which; the first
    one that is ready is taken. *)
Definition select (now deadline : N) (c : chan_answer) (timer_first : bool) : recv_answer :=
  let fired := deadline <=? now in
  match c with
  | CEmpty => if fired then TimerFired else NoReply
  | CEvent e => if fired && timer_first then TimerFired else Reply e
  | CClosed => if fired && timer_first then TimerFired else ChannelClosed
  end.

(** EmitMetadataWithResponse (emit_metadata_with_response.rs:15-19): [ta_set] is its field [timeout], [ta_default] the
    default_reply_timeout of the context it carries (a clone made by emit, stream_emitter/mod.rs:41-60). [ta_captured] and
    [ta_deadline] belong to the async block: the timeout moved into it (lines 42-45), the deadline of the sleep once it
    exists. *)
Record timed_await := mk_ta { ta_set : option N; ta_default : N; ta_captured : option N; ta_deadline : option N; ta_wait : wait_metadata }.
(** EmitMetadata::await_reply (emit_metadata.rs:52-60) *)
Definition ta_new (default : N) (em : emit_metadata) : timed_await := mk_ta None default None None (await_reply em).
(** EmitMetadataWithResponse::with_timeout (emit_metadata_with_response.rs:24-28) *)
Definition with_timeout (d : N) (x : timed_await) : timed_await := mk_ta (Some d) (ta_default x) (ta_captured x) (ta_deadline x) (ta_wait x).
(** [self.timeout.take().unwrap_or(ctx.default_reply_timeout)] (emit_metadata_with_response.rs:42-45,
    emit_metadata_with_response_stream.rs:73-76) *)
Definition chosen (set : option N) (default : N) : N := match set with Some d => d | None => default end.
(** EmitMetadataWithResponse::poll (emit_metadata_with_response.rs:36-78) at time [now]. The sleep is created when the select! is
    first polled (line 63), which is in the poll in which the send completes. *)
Definition poll_timed (E : env) (i : nat) (t : instant) (now : N) (w : world) (x : timed_await) (l : list io_answer) (c : chan_answer) (timer_first : bool)
  : world * timed_await * polled event :=
  let cap := match ta_captured x with Some d => d | None => chosen (ta_set x) (ta_default x) end in
  let dl := match ta_deadline x with Some d => d | None => now + cap end in
  let '(w', wm', r) := poll_await E i t w (ta_wait x) l (select now dl c timer_first) in
  (w', mk_ta (match ta_captured x with Some _ => ta_set x | None => None end) (ta_default x) (Some cap)
             (match wm_fut wm' with Some (WRecv _ _) => Some dl | _ => None end) wm', r).

(** ResponseStream (emit_metadata_with_response_stream.rs:27-33) with its timeout and, while an item is being waited for, the
    deadline of the sleep in [fut] (line 120) *)
Record timed_stream := mk_ts { ts_timeout : N; ts_deadline : option N; ts_stream : response_stream }.
(** ResponseStream::poll_next (emit_metadata_with_response_stream.rs:102-153) at time [now] *)
Definition poll_next_timed (now : N) (w : world) (s : timed_stream) (c : chan_answer) (timer_first : bool) : world * timed_stream * polled (option (outcome event)) :=
  let dl := match ts_deadline s with Some d => d | None => now + ts_timeout s end in
  let '(w', s', r) := poll_next w (ts_stream s) (select now dl c timer_first) in
  (w', mk_ts (ts_timeout s) (match rs_fut s' with Some true => Some dl | _ => None end) s', r).

(** EmitMetadataWithResponseStream (emit_metadata_with_response_stream.rs:18-22) *)
Record timed_open := mk_to { to_set : option N; to_default : N; to_captured : option N; to_open : open_metadata }.
(** EmitMetadata::stream_replies (emit_metadata.rs:62-68), with_timeout (emit_metadata_with_response_stream.rs:55-59) *)
Definition to_new (default : N) (em : emit_metadata) : timed_open := mk_to None default None (stream_replies em).
Definition with_timeout_stream (d : N) (x : timed_open) : timed_open := mk_to (Some d) (to_default x) (to_captured x) (to_open x).
(** EmitMetadataWithResponseStream::poll (emit_metadata_with_response_stream.rs:67-94): the stream gets the captured timeout *)
Definition poll_open_timed (i : nat) (t : instant) (w : world) (x : timed_open) (l : list io_answer) : world * timed_open * polled timed_stream :=
  let cap := match to_captured x with Some d => d | None => chosen (to_set x) (to_default x) end in
  let '(w', om', r) := poll_open i t w (to_open x) l in
  (w', mk_to (match to_captured x with Some _ => to_set x | None => None end) (to_default x) (Some cap) om',
   match r with
   | Waiting => Waiting
   | Ready (Ok s) => Ready (Ok (mk_ts cap None s))
   | Ready (Err e) => Ready (Err e)
   | Ready (Crash c) => Ready (Crash c)
   end).
