(** Specifications for two joined endpoints. *)
From Verif Require Import Base Codec Spec Ids Payload Builder Emit Ipc SpecIpc Pair.

Definition pruns (cf : side -> config) (ps : side -> list prog) (ctr : side -> N) (w : side -> list event) (ls : list plabel) (p : pair) (tr : list (side * obs)) : Prop :=
  prun cf (pair_new ps ctr w) ls = Some (p, tr).
(** what happens at [sd] *)
Definition at_side (sd : side) (tr : list (side * obs)) : list obs := flat_map (fun q => if side_eqb (fst q) sd then [snd q] else []) tr.
(** events sent altogether *)
Definition is_sent (q : side * obs) : bool := match snd q with OSent _ _ _ => true | _ => false end.
Definition count_sent (tr : list (side * obs)) : nat := length (filter is_sent tr).
Definition good_clocks (ls : list plabel) : Prop := forall sd i t v, In (PDo sd (LTask i (AStep t v))) ls -> rust_instant t.

(** Nothing can go on by itself: only timers can fire, futures be dropped, unrelated things happen. *)
Definition goes_on (l : plabel) : bool :=
  match l with
  | PDeliver _ | PDo _ (LTask _ (AStep _ _)) | PDo _ (LPlace _) | PDo _ (LAbort _) => true
  | _ => false
  end.
Definition at_rest (cf : side -> config) (p : pair) : Prop := forall l, goes_on l = true -> pstep cf p l = None.

(** ** Handlers *)
(** A handler that does nothing with its context but emit (any number of times, depending on anything) *)
CoInductive replier (ctx : context) : prog -> Prop :=
| rep_ret r : replier ctx (PRet r)
| rep_panic : replier ctx PPanic
| rep_emit rq k : rq_ctx rq = ctx -> (forall o, replier ctx (k o)) -> replier ctx (PEmit rq k)
| rep_env k : (forall v, replier ctx (k v)) -> replier ctx (PEnv k).
Definition only_replies (cf : config) : Prop := forall sc name cb, eh_get (callbacks cf sc) name = Some cb -> forall ctx e, replier ctx (cb ctx e).
(** A handler that emits nothing *)
CoInductive silent : prog -> Prop :=
| sil_ret r : silent (PRet r)
| sil_panic : silent PPanic
| sil_env k : (forall v, silent (k v)) -> silent (PEnv k).
(** handlers emit nothing, Error events have the predefined handler *)
Definition quiet (cf : config) : Prop :=
  (forall sc name cb, eh_get (callbacks cf sc) name = Some cb -> forall ctx e, silent (cb ctx e))
  /\ eh_get (cf_handler cf) ERROR_EVENT_NAME = Some (default_error (cf_env cf)).
(** the Debug texts of [cf]'s errors can be carried by an Error event and read by a peer with [E] *)
Definition debug_fits (cf : config) (E : env) : Prop := forall er b, error_enc (mk_err_data 500 (cf_debug cf er)) = Ok b -> error_dec E b = Ok (mk_err_data 500 (cf_debug cf er)).
(** error handlers that fail *)
Definition failing_error_handler (cf : config) : Prop := exists cb, eh_get (cf_handler cf) ERROR_EVENT_NAME = Some cb /\ forall ctx e, exists er, cb ctx e = PRet (inr er).
(** every open reply stream has room, so that the receive loop is not waiting *)
Definition room (tr : list obs) : Prop := forall j h y c, In (OOpened j h y c) tr -> gone tr c \/ (length (queued c tr) < length (taken c tr) + 8)%nat.
(** [r] is what a request gets if task [j] of the server handles it: the first event its handler emitted, else the End event with
    the bytes the handler returned, else the error 500 with the text of the error the handler returned *)
Definition answered (cf : config) (tr : list obs) (j : nat) (r : outcome event) : Prop :=
  match sent j tr with
  | (_, a) :: _ =>
    match ev_type a with
    | Initiator => False
    | Response => r = Ok (drop_empty_ns a)
    | End => r = Ok a /\ returned j tr = [inl (ev_data a)]
    | Error => exists er, returned j tr = [inr er] /\ r = Err (ErrorEvent (mk_err_data 500 (cf_debug cf er)))
    end
  | [] => False
  end.
(** user code that emits nothing and ends, whatever it is answered *)
Inductive returns : prog -> Prop :=
| ret_ret r : returns (PRet r)
| ret_panic : returns PPanic
| ret_env k : (forall v, returns (k v)) -> returns (PEnv k).
Definition all_return (cf : config) : Prop := forall sc name cb, eh_get (callbacks cf sc) name = Some cb -> forall ctx e, returns (cb ctx e).
(** [p'] is the next state after [p] if the pair goes on by itself *)
Definition follows (cf : side -> config) (p' p : pair) : Prop := exists l os, goes_on l = true /\ pstep cf p l = Some (p', os).
(** the handler responsible for [e] fails at once *)
Definition fails (cf : config) (e : event) : Prop :=
  ev_type e <> End /\ exists cb, eh_get (callbacks cf (scope_of cf e)) (ev_name e) = Some cb /\ forall ctx, exists er, cb ctx e = PRet (inr er).
(** ** Streams *)
(** the events task [j] of the server has sent, as the client reads them *)
Definition replies_of_task (j : nat) (tr : list obs) : list event := map (fun z => drop_empty_ns (snd z)) (sent j tr).
(** What a reply stream may have yielded if [all] has been sent for its request: the first of these events in order, each once;
    at most one Timeout, before the End event and then nothing; "no more items" only after all events, the last of which is an
    End event. *)
Inductive streamed (all : list event) : list (option (outcome event)) -> Prop :=
| str_open l more : all = l ++ more -> no_end l -> streamed all (yields l)
| str_timeout l more : all = l ++ more -> no_end l -> streamed all (yields l ++ [Some (Err Timeout)])
| str_ended pre e k : all = pre ++ [e] -> no_end pre -> ev_type e = End -> streamed all (yields all ++ repeat None k).
