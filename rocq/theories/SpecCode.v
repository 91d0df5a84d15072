(** Specification: user code runs as it is written. [operation] says what a task that executes one operation of its program
    shows, in order, and with which result the program goes on; [executes] is a sequence of operations. *)
From Verif Require Import Base Codec Spec Ids Payload Builder Emit Ipc SpecIpc.

(** What task [i] itself has done in [tr] *)
Definition act (i : nat) (o : obs) : bool :=
  match o with
  | OListen j _ _ | OSent j _ _ | OCut j _ _ | OReturned j _ | OPanicked j | OReply j _ _ | OOpened j _ _ _ | OItem j _ _ | OStop j _ _ => Nat.eqb j i
  | _ => false
  end.
Definition acts (i : nat) (tr : list obs) : list obs := filter (act i) tr.

(** [e] is the event that the emit call [rq] asks for: to its namespace, with its name and the bytes of its payload; a
    response if the context belongs to an event, else an initiator *)
Definition requested (rq : request) (e : event) : Prop :=
  rq_payload rq = Ok (ev_data e) /\ ev_ns e = rq_ns rq /\ ev_name e = rq_name rq /\ emitted (rq_ctx rq) e.
(** a send that did not complete: failed writing, or the future was dropped *)
Definition unsent {A} (r : option (outcome A)) : Prop := r = None \/ exists io, r = Some (Err (IoError io)).

(** one operation, finished *)
Inductive operation (i : nat) : prog -> list obs -> prog -> Prop :=
| op_emit rq k e : requested rq e -> operation i (PEmit rq k) [OSent i (rq_ctx rq) e] (k (Some (Ok (ev_id e))))
| op_emit_cut rq k e r : requested rq e -> unsent r -> operation i (PEmit rq k) [OCut i (rq_ctx rq) e] (k r)
| op_emit_bad rq k er : rq_payload rq = Err er -> operation i (PEmit rq k) [] (k (Some (Err er)))
| op_await rq k e c r : requested rq e -> operation i (PAwait rq k) [OListen i (ev_id e) c; OSent i (rq_ctx rq) e; OReply i (ev_id e) r] (k r)
| op_await_cut rq k e c r : requested rq e -> unsent r -> operation i (PAwait rq k) [OListen i (ev_id e) c; OCut i (rq_ctx rq) e; OReply i (ev_id e) r] (k r)
| op_await_bad rq k er : rq_payload rq = Err er -> operation i (PAwait rq k) [] (k (Some (Err er)))
| op_stream rq k e c h : requested rq e -> operation i (PStream rq k) [OListen i (ev_id e) c; OSent i (rq_ctx rq) e; OOpened i h (ev_id e) c] (k (Some (Ok h)))
| op_stream_cut rq k e c r : requested rq e -> unsent r -> operation i (PStream rq k) [OListen i (ev_id e) c; OCut i (rq_ctx rq) e] (k r)
| op_stream_bad rq k er : rq_payload rq = Err er -> operation i (PStream rq k) [] (k (Some (Err er)))
| op_next h k r : operation i (PNext h k) [OItem i h r] (k r)
| op_stop n k taken : operation i (PStop n k) [OStop i n taken] (k (Ok tt))
| op_env k v : operation i (PEnv k) [] (k v)
| op_spawn q k : operation i (PSpawn q k) [] k.
Inductive executes (i : nat) : prog -> list obs -> prog -> Prop :=
| ex_nil p : executes i p [] p
| ex_snoc p os p1 os1 p2 : executes i p os p1 -> operation i p1 os1 p2 -> executes i p (os ++ os1) p2.

(** the next operation of the program, begun: nothing seen of it, or its first part *)
Inductive begun (i : nat) : prog -> list obs -> Prop :=
| bg_none p : begun i p []
| bg_await rq k e c : requested rq e -> begun i (PAwait rq k) [OListen i (ev_id e) c]
| bg_await_sent rq k e c : requested rq e -> begun i (PAwait rq k) [OListen i (ev_id e) c; OSent i (rq_ctx rq) e]
| bg_stream rq k e c : requested rq e -> begun i (PStream rq k) [OListen i (ev_id e) c].
(** the end of a program: it returns or panics, of itself or in an operation; a handler ([job]: its context and event) that
    has returned is answered for *)
Inductive over (cf : config) (i : nat) (job : option (context * event)) : prog -> list obs -> Prop :=
| ov_ret r : over cf i job (PRet r) [OReturned i r]
| ov_answer ctx x r a : job = Some (ctx, x) -> answers cf x r a -> over cf i job (PRet r) [OReturned i r; OSent i ctx a]
| ov_answer_cut ctx x r a : job = Some (ctx, x) -> answers cf x r a -> over cf i job (PRet r) [OReturned i r; OCut i ctx a]
| ov_panic : over cf i job PPanic [OPanicked i]
| ov_payload rq p c : rq_payload rq = Crash c -> ((exists k, p = PEmit rq k) \/ (exists k, p = PAwait rq k) \/ (exists k, p = PStream rq k)) -> over cf i job p [OPanicked i]
| ov_await rq k e c : requested rq e -> over cf i job (PAwait rq k) [OListen i (ev_id e) c; OSent i (rq_ctx rq) e; OPanicked i]
| ov_next h k : over cf i job (PNext h k) [OPanicked i].
(** [os] is what task [i], started with [p], may have done *)
Definition as_written (cf : config) (i : nat) (job : option (context * event)) (p : prog) (os : list obs) : Prop :=
  exists os1 p1 os2, os = os1 ++ os2 /\ executes i p os1 p1 /\ (begun i p1 os2 \/ over cf i job p1 os2).

(** the code of a handler *)
Definition handler_code (cf : config) (ctx : context) (scope : option bytes) (e : event) : prog :=
  match eh_get (callbacks cf scope) (ev_name e) with Some cb => cb ctx e | None => PRet (inl []) end.
(** the code task [i] was started with: one of the user's tasks, a handler, or code spawned by a task *)
Inductive started (cf : config) (ps : list prog) (tr : list obs) : nat -> option (context * event) -> prog -> Prop :=
| st_user i p : nth_error ps i = Some p -> started cf ps tr i None p
| st_handler n i ctx sc e : In (OCalled n i ctx sc e) tr -> started cf ps tr i (Some (ctx, e)) (handler_code cf ctx sc e)
| st_spawned i j job p os k q rest : (length ps <= i)%nat -> (forall n ctx sc e, ~ In (OCalled n i ctx sc e) tr) ->
    started cf ps tr j job p -> executes j p os (PSpawn q k) -> acts j tr = os ++ rest -> started cf ps tr i None q.
