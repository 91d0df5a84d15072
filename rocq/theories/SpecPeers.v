(** Specifications for two endpoints that both ask and answer (C82). *)
From Verif Require Import Base Codec Spec Ids Payload Builder Emit Ipc SpecIpc Pair SpecPair SpecBounded SpecOrder.

(** User code that does anything the API offers, through contexts without reference and through the one with reference [own]
    ([own]: the event a handler was called for) *)
CoInductive polite (own : option N) : prog -> Prop :=
| po_ret r : polite own (PRet r)
| po_panic : polite own PPanic
| po_emit rq k : through own rq -> (forall o, polite own (k o)) -> polite own (PEmit rq k)
| po_await rq k : through own rq -> (forall o, polite own (k o)) -> polite own (PAwait rq k)
| po_stream rq k : through own rq -> (forall o, polite own (k o)) -> polite own (PStream rq k)
| po_next h k : (forall o, polite own (k o)) -> polite own (PNext h k)
| po_stop n k : (forall o, polite own (k o)) -> polite own (PStop n k)
| po_env k : (forall v, polite own (k v)) -> polite own (PEnv k)
| po_spawn q k : polite own q -> polite own k -> polite own (PSpawn q k).
Definition polite_handlers (cf : config) : Prop := forall sc name cb, eh_get (callbacks cf sc) name = Some cb -> forall ctx e, polite (c_ref ctx) (cb ctx e).

(** the events an endpoint has sent in reply to [x], as they are read *)
Definition refers (x : N) (e : event) : bool := match ev_ref e with Some r => N.eqb r x | None => false end.
Definition replies_to (x : N) (tr : list obs) : list event := map drop_empty_ns (filter (refers x) (sent_events tr)).
(** what a request gets if [a] is the first reply *)
Definition result_from (E : env) (a : event) : outcome event :=
  match ev_type a with
  | Error => match error_dec E (ev_data a) with Ok d => Err (ErrorEvent d) | Err er => Err er | Crash cr => Crash cr end
  | _ => Ok a
  end.

(** the request [x] of task [i] has been sent and has no result yet *)
Definition pending (tr : list obs) (i : nat) (x : N) : Prop :=
  (exists c, In (OListen i x c) tr) /\ (exists ctx e, In (OSent i ctx e) tr /\ ev_id e = x) /\ (forall r, ~ In (OReply i x r) tr) /\ ~ In (OPanicked i) tr.
(** task [j] was called for [x] *)
Definition called_for (tr : list obs) (x : N) (j : nat) : Prop := exists sc q, In (OCalled 0 j (mk_context 0 (Some x)) sc q) tr /\ ev_id q = x.
(** Why the request [x] of task [i] at [sd] has no result: the handler called for it panicked; or the event asking was itself read as
    the reply to a request of the other end, so that no handler was called; or the handler waits for a request without result. *)
Inductive blocked (tr : list (side * obs)) : side -> nat -> N -> Prop :=
| bl_panic sd i x j : pending (at_side sd tr) i x -> called_for (at_side (other sd) tr) x j -> In (OPanicked j) (at_side (other sd) tr) -> blocked tr sd i x
| bl_taken sd i x c q : pending (at_side sd tr) i x -> In (OQueued 0 c q) (at_side (other sd) tr) -> ev_id q = x -> blocked tr sd i x
| bl_waits sd i x j y : pending (at_side sd tr) i x -> called_for (at_side (other sd) tr) x j -> blocked tr (other sd) j y -> blocked tr sd i x.
(** no event that asks was read as a reply *)
Definition asks_freely (tr : list (side * obs)) : Prop :=
  forall sd i x c c' q, In (OListen i x c) (at_side sd tr) -> In (OQueued 0 c' q) (at_side (other sd) tr) -> ev_id q <> x.
(** Code that awaits replies only through contexts without reference: then that is so. *)
CoInductive asks_fresh : prog -> Prop :=
| af_ret r : asks_fresh (PRet r)
| af_panic : asks_fresh PPanic
| af_emit rq k : (forall o, asks_fresh (k o)) -> asks_fresh (PEmit rq k)
| af_await rq k : c_ref (rq_ctx rq) = None -> (forall o, asks_fresh (k o)) -> asks_fresh (PAwait rq k)
| af_stream rq k : c_ref (rq_ctx rq) = None -> (forall o, asks_fresh (k o)) -> asks_fresh (PStream rq k)
| af_next h k : (forall o, asks_fresh (k o)) -> asks_fresh (PNext h k)
| af_stop n k : (forall o, asks_fresh (k o)) -> asks_fresh (PStop n k)
| af_env k : (forall v, asks_fresh (k v)) -> asks_fresh (PEnv k)
| af_spawn q k : asks_fresh q -> asks_fresh k -> asks_fresh (PSpawn q k).
Definition fresh_handlers (cf : config) : Prop := forall sc name cb, eh_get (callbacks cf sc) name = Some cb -> forall ctx e, asks_fresh (cb ctx e).
(** What a reply stream may have yielded when [all] are the replies sent to its request: the first of them in order, each once;
    at most one Timeout; "no more items" only after the first End event, and then forever, whatever is sent later. *)
Inductive tells (all : list event) : list (option (outcome event)) -> Prop :=
| tell_open l more : all = l ++ more -> no_end l -> tells all (yields l)
| tell_timeout l more : all = l ++ more -> no_end l -> tells all (yields l ++ [Some (Err Timeout)])
| tell_ended pre e more k : all = pre ++ e :: more -> no_end pre -> ev_type e = End -> tells all (yields (pre ++ [e]) ++ repeat None k).
(** every task and handler has ended, every request has its result *)
Definition all_ended (s : side -> ep) (tr : list (side * obs)) : Prop :=
  forall sd, (forall i tk, nth_error (e_tasks (s sd)) i = Some tk -> tk_st tk = TDone) /\ (forall i x c, In (OListen i x c) (at_side sd tr) -> exists r, In (OReply i x r) (at_side sd tr)).
