(** Specifications for timers (C63). *)
From Verif Require Import Base Codec Spec Emit SpecEmit Timed.

(** One poll: time, what the channel holds, which branch select! tries first, the shared state before and after, the answer *)
Record tpoll (A : Type) := mk_tp { tp_now : N; tp_chan : chan_answer; tp_first : bool; tp_from : world; tp_to : world; tp_res : polled A }.
Arguments mk_tp {A}. Arguments tp_now {A}. Arguments tp_chan {A}. Arguments tp_first {A}. Arguments tp_from {A}. Arguments tp_to {A}. Arguments tp_res {A}.

(** sequences of polls of one request, one opening stream, one stream; other tasks do anything in between *)
Inductive polls_timed (E : env) (i : nat) : timed_await -> list (tpoll event) -> timed_await -> Prop :=
| pt_nil x : polls_timed E i x [] x
| pt_cons x t now w l c b w' x' r tr y : poll_timed E i t now w x l c b = (w', x', r) -> polls_timed E i x' tr y ->
    polls_timed E i x (mk_tp now c b w w' r :: tr) y.
Inductive polls_items : timed_stream -> list (tpoll (option (outcome event))) -> timed_stream -> Prop :=
| pi_nil s : polls_items s [] s
| pi_cons s now w c b w' s' r tr s2 : poll_next_timed now w s c b = (w', s', r) -> polls_items s' tr s2 ->
    polls_items s (mk_tp now c b w w' r :: tr) s2.
Inductive polls_opening (i : nat) : timed_open -> list (world * world * polled timed_stream) -> timed_open -> Prop :=
| pot_nil x : polls_opening i x [] x
| pot_cons x t w l w' x' r tr y : poll_open_timed i t w x l = (w', x', r) -> polls_opening i x' tr y -> polls_opening i x ((w, w', r) :: tr) y.

(** [ctx.emit(..).await_reply()] / [.stream_replies()] with the given calls of with_timeout; [default] is the context's timeout *)
Definition request_of (o : order) (default : N) (ds : list N) : timed_await := fold_left (fun x d => with_timeout d x) ds (ta_new default (future_of o)).
Definition stream_request_of (o : order) (default : N) (ds : list N) : timed_open := fold_left (fun x d => with_timeout_stream d x) ds (to_new default (future_of o)).
(** the timeout that counts: the last one given, else the context's *)
Definition timeout_of (default : N) (ds : list N) : N := last ds default.

(** the bytes written by polls [tr] *)
Definition steps_of {A} (tr : list (tpoll A)) : list (world * world * polled A) := map (fun p => (tp_from p, tp_to p, tp_res p)) tr.

(** task [i] holds the writer while it is writing; other tasks do not take it away: what it held after a poll it holds at the next *)
Fixpoint lock_kept {A} (i : nat) (held : option nat) (tr : list (tpoll A)) : Prop :=
  match tr with
  | [] => True
  | p :: tr' => (held = Some i -> w_lock (tp_from p) = Some i) /\ lock_kept i (w_lock (tp_to p)) tr'
  end.
(** after the polls [tr] the request is sent: all bytes [enc] are written and the writer is given back *)
Definition is_sent (i : nat) (enc : bytes) (tr : list (tpoll event)) : Prop :=
  wrote_all (steps_of tr) enc /\ exists tr' p, tr = tr' ++ [p] /\ w_lock (tp_to p) <> Some i.

(** What waiting for the reply answers at a poll when the timer runs out at [dl]: a reply as soon as there is one, the timeout
    from [dl] on; if both are there, the one that select! tries first - it chooses at random. *)
Definition waiting_answer (E : env) (dl : N) (p : tpoll event) : Prop :=
  match tp_chan p with
  | CEmpty => tp_res p = if dl <=? tp_now p then Ready (Err Timeout) else Waiting
  | CEvent e => tp_res p = if (dl <=? tp_now p) && tp_first p then Ready (Err Timeout) else Ready (reply_result E e)
  | CClosed => tp_res p = if (dl <=? tp_now p) && tp_first p then Ready (Err Timeout) else Ready (Err SendError)
  end.
(** a stream has yielded an item and goes on *)
Definition goes_on (r : polled (option (outcome event))) : Prop := exists e, r = Ready (Ok (Some (Ok e))) /\ ev_type e <> End.
(** poll [j] of [tr] is the first one for its item *)
Definition item_starts (tr : list (tpoll (option (outcome event)))) (j : nat) : Prop :=
  j = 0%nat \/ exists i p, j = S i /\ nth_error tr i = Some p /\ goes_on (tp_res p).
(** the polls from [j] until before [k] found nothing *)
Definition waited (tr : list (tpoll (option (outcome event)))) (j k : nat) : Prop :=
  forall m p, (j <= m < k)%nat -> nth_error tr m = Some p -> tp_res p = Waiting.
(** What polling a stream for an item answers when the timer runs out at [dl] *)
Definition item_answer (dl : N) (p : tpoll (option (outcome event))) : Prop :=
  match tp_chan p with
  | CEmpty => tp_res p = if dl <=? tp_now p then Ready (Ok (Some (Err Timeout))) else Waiting
  | CEvent e => tp_res p = if (dl <=? tp_now p) && tp_first p then Ready (Ok (Some (Err Timeout))) else Ready (Ok (Some (Ok e)))
  | CClosed => tp_res p = if (dl <=? tp_now p) && tp_first p then Ready (Ok (Some (Err Timeout))) else Ready (Ok None)
  end.
(** a stream as stream_replies hands it out, with that timeout *)
Definition new_stream (s : timed_stream) (timeout : N) : Prop := exists id ch, s = mk_ts timeout None (mk_stream id ch true None).
(** successive polls with that deadline; a finished future must not be polled again (it panics) *)
Fixpoint waiting_answers (E : env) (dl : N) (l : list (tpoll event)) : Prop :=
  match l with
  | [] => True
  | p :: l' => waiting_answer E dl p /\
      match tp_res p with Waiting => waiting_answers E dl l' | Ready _ => Forall (fun q => tp_res q = Ready (Crash PanicResumed)) l' end
  end.
