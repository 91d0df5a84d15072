(** Specifications for emitting. *)
From Verif Require Import Base Codec Emit Spec.

(** An emit call: context, namespace, name, what serializing the payload gives, reference and type of the event. *)
Record order := mk_order { o_ctx : context; o_ns : option bytes; o_name : bytes; o_payload : outcome bytes; o_ref : option N; o_type : etype }.
Definition future_of (o : order) : emit_metadata := emit_new (o_ctx o) (o_name o) (o_ns o) (o_payload o) (o_ref o) (o_type o).
(** [e] is the event that call asks for, up to its id *)
Definition event_of (o : order) (e : event) : Prop :=
  ev_ns e = o_ns o /\ ev_name e = o_name o /\ o_payload o = Ok (ev_data e) /\ ev_ref e = o_ref o /\ ev_type e = o_type o.

(** Futures not yet polled, all on the connection of [w]. *)
Definition all_fresh (w : world) (os : list order) : emit_sys := mk_sys w (map (fun o => Some (future_of o)) os).

(** The connection accepts bytes whenever it is ready. *)
Definition no_failure (l : list io_answer) : Prop := Forall (fun a => match a with Accept n => (0 < n)%nat | NotReady => True | Failing _ => False end) l.
(** Future [i] has sent a part of its event but not all of it. *)
Definition mid_event (s : emit_sys) (i : nat) : Prop :=
  exists em id sent rest, nth_error (y_futs s) i = Some (Some em) /\ em_fut em = Some (FWrite id sent rest) /\ sent <> [].
(** A run without write errors and without dropping a future in the middle of its event. *)
Fixpoint clean (s : emit_sys) (ls : list emit_label) : Prop :=
  match ls with
  | [] => True
  | lb :: ls' =>
    match lb with YPoll _ _ l => no_failure l | YDrop i => ~ mid_event s i end
    /\ match emit_step s lb with Some (s1, _) => clean s1 ls' | None => True end
  end.

(** A sequence of polls of one future; the worlds in between are arbitrary, as other tasks run.
    Each entry: world before, time, answers of the connection, world after, result. *)
Inductive polls_emit (i : nat) : emit_metadata -> list (world * world * polled N) -> emit_metadata -> Prop :=
| pe_nil em : polls_emit i em [] em
| pe_cons em t w l w' em' r tr em2 : poll_emit i t w em l = (w', em', r) -> polls_emit i em' tr em2 -> polls_emit i em ((w, w', r) :: tr) em2.
Inductive polls_await (E : env) (i : nat) : wait_metadata -> list (world * world * polled event) -> wait_metadata -> Prop :=
| pa_nil wm : polls_await E i wm [] wm
| pa_cons wm t w l a w' wm' r tr wm2 : poll_await E i t w wm l a = (w', wm', r) -> polls_await E i wm' tr wm2 -> polls_await E i wm ((w, w', r) :: tr) wm2.
Inductive polls_open (i : nat) : open_metadata -> list (world * world * polled response_stream) -> open_metadata -> Prop :=
| po_nil om : polls_open i om [] om
| po_cons om t w l w' om' r tr om2 : poll_open i t w om l = (w', om', r) -> polls_open i om' tr om2 -> polls_open i om ((w, w', r) :: tr) om2.
Inductive polls_next : response_stream -> list (recv_answer * world * world * polled (option (outcome event))) -> response_stream -> Prop :=
| pn_nil s : polls_next s [] s
| pn_cons s w a w' s' r tr s2 : poll_next w s a = (w', s', r) -> polls_next s' tr s2 -> polls_next s ((a, w, w', r) :: tr) s2.

(** The bytes a poll added to the connection, and the ids it created. *)
Definition wrote (w w' : world) (b : bytes) : Prop := w_out w' = w_out w ++ b.
Fixpoint wrote_all {A} (tr : list (world * world * A)) (b : bytes) : Prop :=
  match tr with
  | [] => b = []
  | (w, w', _) :: tr' => exists b1 b2, wrote w w' b1 /\ wrote_all tr' b2 /\ b = b1 ++ b2
  end.
Fixpoint created {A} (tr : list (world * world * A)) : N :=
  match tr with
  | [] => 0
  | (w, w', _) :: tr' => (w_ctr w' - w_ctr w) + created tr'
  end.
Definition unchanged {A} (x : world * world * A) : Prop := let '(w, w', _) := x in w' = w.

(** ** What is on a connection *)
(** [ord]: the emits whose events are completely on the connection, in that order (number of the future, its event);
    [part]: the bytes of the one that is being written. *)
Record layout (os : list order) (w0 : world) (s : emit_sys) (rs : list (nat * polled N)) (ord : list (nat * event)) (part : bytes) : Prop := {
  ly_once : NoDup (map fst ord);
  ly_events : forall i e, In (i, e) ord -> exists o, nth_error os i = Some o /\ event_of o e;
  ly_bytes : exists b, encodings (map snd ord) b /\ w_out (y_world s) = w_out w0 ++ b ++ part;
  ly_done : forall i id, In (i, Ready (Ok id)) rs -> exists e, In (i, e) ord /\ ev_id e = id;
  ly_part : part = [] \/ exists i o e more, nth_error os i = Some o /\ event_of o e /\ ~ In i (map fst ord)
                          /\ into_bytes e = Ok (part ++ more) /\ more <> [] /\ w_lock (y_world s) = Some i }.

(** The same without assuming anything of the run: contiguous pieces, one per future, each the beginning of the event of
    that future, all of it if the future answered Ok. *)
Record pieces (os : list order) (w0 : world) (s : emit_sys) (rs : list (nat * polled N)) (ps : list (nat * (event * bytes))) : Prop := {
  pc_once : NoDup (map fst ps);
  pc_begin : forall i e b, In (i, (e, b)) ps -> exists o more, nth_error os i = Some o /\ event_of o e /\ into_bytes e = Ok (b ++ more);
  pc_bytes : w_out (y_world s) = w_out w0 ++ concat (map (fun p => snd (snd p)) ps);
  pc_done : forall i id, In (i, Ready (Ok id)) rs -> exists e b, In (i, (e, b)) ps /\ into_bytes e = Ok b /\ ev_id e = id }.

(** A poll changes the listener of no other id than [id]. *)
Definition listens_only {A} (id : N) (x : world * world * A) : Prop :=
  let '(w, w', _) := x in forall k, k <> id -> lookup N.eqb k (w_lis w') = lookup N.eqb k (w_lis w).
Definition same_listeners {A} (x : world * world * A) : Prop := let '(w, w', _) := x in w_lis w' = w_lis w /\ w_chans w' = w_chans w.

(** What polling a reply stream answers, given what its channel and its timer answer at each poll. *)
Fixpoint stream_results (l : list recv_answer) : list (polled (option (outcome event))) :=
  match l with
  | [] => []
  | NoReply :: l' => Waiting :: stream_results l'
  | Reply e :: l' =>
    Ready (Ok (Some (Ok e))) ::
    match ev_type e with End => repeat (Ready (Ok None)) (length l') | _ => stream_results l' end
  | ChannelClosed :: l' => Ready (Ok None) :: repeat (Ready (Ok None)) (length l')
  | TimerFired :: l' => Ready (Ok (Some (Err Timeout))) :: repeat (Ready (Crash PanicResumed)) (length l')
  end.
(** [w'] is [w] without the listener of [id]. *)
Definition unlistened (id : N) (w w' : world) : Prop :=
  w_ctr w' = w_ctr w /\ w_chans w' = w_chans w /\ w_out w' = w_out w /\ w_lock w' = w_lock w
  /\ forall k, lookup N.eqb k (w_lis w') = if N.eqb k id then None else lookup N.eqb k (w_lis w).
