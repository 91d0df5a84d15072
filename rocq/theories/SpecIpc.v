(** Specifications for endpoints: everything is read off the trace of observations. *)
From Verif Require Import Base Codec Spec Ids Payload Builder Emit Ipc.

(** The trace of a run of an endpoint with [n] connections ([armed]: a client), user tasks [ps] and any earlier history of
    the process-wide event counter. *)
Definition runs (cf : config) (n : nat) (armed : bool) (ps : list prog) (ctr : N) (ls : list label) (s : ep) (tr : list obs) : Prop :=
  run cf (ep_new n armed ps ctr) ls = Some (s, tr).

(** ** Listeners *)
(** the channel registered for replies to [id] after [tr] *)
Definition note_listener (id : N) (a : option nat) (o : obs) : option nat :=
  match o with
  | OListen _ id' c => if N.eqb id' id then Some c else a
  | OUnlisten id' => if N.eqb id' id then None else a
  | _ => a
  end.
Definition registered (tr : list obs) (id : N) : option nat := fold_left (note_listener id) tr None.
(** the listener an event is meant for *)
Definition listener_of (tr : list obs) (e : event) : option nat := match ev_ref e with Some r => registered tr r | None => None end.
(** the receiver of channel [c] has been dropped *)
Definition gone (tr : list obs) (c : nat) : Prop := In (OGone c) tr.

(** ** Events received on connection [n] *)
Definition about (n : nat) (o : obs) : bool :=
  match o with
  | OReceived m _ | OQueued m _ _ | OIgnored m _ | OCalled m _ _ _ _ | OClosed m | OAborted m => Nat.eqb m n
  | _ => false
  end.
(** what the loop of connection [n] does next in [tr] *)
Definition next_about (n : nat) (tr : list obs) : option obs := find (about n) tr.
(** what it did last *)
Definition last_about (n : nat) (tr : list obs) : option obs := find (about n) (rev tr).

(** the scope whose handlers are responsible for [e] *)
Definition scope_of (cf : config) (e : event) : option bytes :=
  match ev_ns e with
  | Some ns => if existsb (fun kv => bytes_eqb ns (fst kv)) (cf_namespaces cf) then Some ns else None
  | None => None
  end.
(** the callbacks of a scope *)
Definition callbacks (cf : config) (scope : option bytes) : event_handler callback :=
  match scope with
  | None => cf_handler cf
  | Some ns => match lookup bytes_eqb ns (cf_namespaces cf) with Some x => ns_handler x | None => [] end
  end.

(** Where [e], read by connection [n] after [before], went, [after] being the rest of the trace: to the listener registered
    for it; if that listener's receiver is gone, to a global handler; without listener, End events nowhere, other events to
    the responsible handler. While the listener's queue is full the loop holds [e]; it can be aborted then. *)
Definition placed (cf : config) (n : nat) (before : list obs) (e : event) (after : list obs) : Prop :=
  match listener_of before e with
  | Some c =>
      next_about n after = None \/ next_about n after = Some (OAborted n) \/ next_about n after = Some (OQueued n c e)
      \/ exists a1 i a2, after = a1 ++ OCalled n i (mk_context n (Some (ev_id e))) None e :: a2 /\ next_about n a1 = None /\ gone (before ++ a1) c
  | None =>
      match ev_type e with
      | End => next_about n after = Some (OIgnored n e)
      | _ => exists i, next_about n after = Some (OCalled n i (mk_context n (Some (ev_id e))) (scope_of cf e) e)
      end
  end.

(** [o] is the processing of [e] on connection [n] *)
Definition delivery (n : nat) (e : event) (o : obs) : Prop :=
  (exists c, o = OQueued n c e) \/ o = OIgnored n e \/ exists i ctx sc, o = OCalled n i ctx sc e.

(** ** Channels *)
Definition queued_on (c : nat) (o : obs) : list event := match o with OQueued _ c' e => if Nat.eqb c' c then [e] else [] | _ => [] end.
Definition queued (c : nat) (tr : list obs) : list event := flat_map (queued_on c) tr.
Definition taken_from (c : nat) (o : obs) : list event := match o with OTaken c' e => if Nat.eqb c' c then [e] else [] | _ => [] end.
Definition taken (c : nat) (tr : list obs) : list event := flat_map (taken_from c) tr.
(** events received by any connection *)
Definition received (tr : list obs) (e : event) : Prop := exists n, In (OReceived n e) tr.

(** events for request [x] read by connection [n], and those it has put into channel [c] *)
Definition recv_one (n : nat) (x : N) (o : obs) : list event :=
  match o with OReceived m e => if Nat.eqb m n then match ev_ref e with Some r => if N.eqb r x then [e] else [] | None => [] end else [] | _ => [] end.
Definition received_for (n : nat) (x : N) (tr : list obs) : list event := flat_map (recv_one n x) tr.
Definition put_one (n c : nat) (o : obs) : list event := match o with OQueued m d e => if Nat.eqb m n && Nat.eqb d c then [e] else [] | _ => [] end.
Definition queued_by (n c : nat) (tr : list obs) : list event := flat_map (put_one n c) tr.

(** ** Stopping *)
(** the calls of stop() on connection [n], true for those that took the signal *)
Definition stop_of (n : nat) (o : obs) : list bool := match o with OStop _ m b => if Nat.eqb m n then [b] else [] | _ => [] end.
Definition stops (n : nat) (tr : list obs) : list bool := flat_map (stop_of n) tr.

(** ** Tasks *)
(** events completely sent by task [i], with the contexts used *)
Definition sent_by (i : nat) (o : obs) : list (context * event) := match o with OSent j ctx e => if Nat.eqb j i then [(ctx, e)] else [] | _ => [] end.
Definition sent (i : nat) (tr : list obs) : list (context * event) := flat_map (sent_by i) tr.
(** automatic answers have a type of their own *)
Definition final (e : event) : bool := match ev_type e with End | Error => true | _ => false end.
(** what the user code of task [i] returned *)
Definition returned_by (i : nat) (o : obs) : list (bytes + error) := match o with OReturned j r => if Nat.eqb j i then [r] else [] | _ => [] end.
Definition returned (i : nat) (tr : list obs) : list (bytes + error) := flat_map (returned_by i) tr.
(** [a] is the automatic answer to [e] after its handler returned [r] *)
Definition answers (cf : config) (e : event) (r : bytes + error) (a : event) : Prop :=
  ev_ref a = Some (ev_id e) /\ ev_ns a = None /\
  match r with
  | inl b => ev_type a = End /\ ev_name a = END_EVENT_NAME /\ ev_data a = b
  | inr er => ev_type a = Error /\ ev_name a = ERROR_EVENT_NAME /\ error_enc (mk_err_data 500 (cf_debug cf er)) = Ok (ev_data a)
  end.
(** [e] is what emitting through [ctx] sends: a response to the event [ctx] belongs to, or an initiator *)
Definition emitted (ctx : context) (e : event) : Prop :=
  ev_ref e = c_ref ctx /\ ev_type e = match c_ref ctx with Some _ => Response | None => Initiator end.
(** the user's code is done and nothing is left to do for task [i] *)
Definition stuck (cf : config) (s : ep) (i : nat) : Prop := forall t v, step cf s (LTask i (AStep t v)) = None.
(** labels that make a send fail or drop a future *)
Definition no_write_failure (ls : list label) : Prop := forall i k, ~ In (LTask i (AFail k)) ls.

(** items a stream has yielded *)
Definition item_of (h : nat) (o : obs) : list (option (outcome event)) :=
  match o with OItem _ h' (Some r) => if Nat.eqb h' h then [r] else [] | _ => [] end.
Definition items (h : nat) (tr : list obs) : list (option (outcome event)) := flat_map (item_of h) tr.

Definition yields (l : list event) : list (option (outcome event)) := map (fun e => Some (Ok e)) l.
Definition no_end (l : list event) : Prop := Forall (fun e => ev_type e <> End) l.
(** What a stream may have yielded when the events [l] were taken for it: these, in order. It is still open; or the last one
    is the first End event and since then there was nothing more; or its listener was removed by others and it ended
    without End event; or it timed out. *)
Inductive stream_history (l : list event) : list (option (outcome event)) -> Prop :=
| sh_open : no_end l -> stream_history l (yields l)
| sh_end pre e k : l = pre ++ [e] -> no_end pre -> ev_type e = End -> stream_history l (yields l ++ repeat None k)
| sh_none k : no_end l -> stream_history l (yields l ++ repeat None (S k))
| sh_timeout : no_end l -> stream_history l (yields l ++ [Some (Err Timeout)]).

(** ** Ids *)
(** the clock behaves like [SystemTime] and fewer than 2^32 events were created in the process *)
Definition good_clock (ls : list label) : Prop := forall i t v, In (LTask i (AStep t v)) ls -> rust_instant t.
Definition few_events (s : ep) : Prop := e_ctr s <= 2 ^ 32.
(** no event with id [id] is passed to a handler *)
Definition never_handled (id : N) (tr : list obs) : Prop := forall n i ctx sc e, In (OCalled n i ctx sc e) tr -> ev_id e <> id.
