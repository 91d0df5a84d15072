(** Specifications for endpoints joined by a connection of finite capacity (C66). *)
From Verif Require Import Base Codec Spec Ids Payload Builder Emit Ipc SpecIpc Pair SpecPair Bounded.

(** the request is made through a context without reference or through the one with reference [own] *)
Definition through (own : option N) (rq : request) : Prop := c_ref (rq_ctx rq) = None \/ c_ref (rq_ctx rq) = own.
(** User code that emits and awaits replies, spawns tasks and does anything else, but opens no reply streams and does not stop
    the client. [own]: the event a handler was called for. *)
CoInductive plain_code (own : option N) : prog -> Prop :=
| pl_ret r : plain_code own (PRet r)
| pl_panic : plain_code own PPanic
| pl_emit rq k : through own rq -> (forall o, plain_code own (k o)) -> plain_code own (PEmit rq k)
| pl_await rq k : through own rq -> (forall o, plain_code own (k o)) -> plain_code own (PAwait rq k)
| pl_env k : (forall v, plain_code own (k v)) -> plain_code own (PEnv k)
| pl_spawn q k : plain_code own q -> plain_code own k -> plain_code own (PSpawn q k).
Definition plain_handlers (cf : config) : Prop := forall sc name cb, eh_get (callbacks cf sc) name = Some cb -> forall ctx e, plain_code (c_ref ctx) (cb ctx e).

(** nothing goes on by itself any more: only timers can fire, futures be dropped, unrelated things happen *)
Definition still (cap : nat) (cf : side -> config) (p : pair) : Prop := forall l, goes_on l = true -> bstep cap cf p l = None.
(** task is finished, or awaits a reply that has not arrived *)
Definition finished_or_waiting (s : ep) (st : tstate) : Prop :=
  st = TDone \/ st = TDead \/ exists c x k, st = TWait c x k /\ option_map ch_buf (nth_error (e_chans s) c) = Some [].
(** what can happen only because the user drops a future or a stream, or elsewhere in the process *)
Definition from_outside (l : plabel) : bool :=
  match l with
  | PDo _ (LTask _ ADrop) | PDo _ (LDropStream _) | PDo _ LOther => true
  | _ => false
  end.
