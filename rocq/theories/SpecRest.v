(** Specifications for requests that come to rest. *)
From Verif Require Import Base Codec Spec Ids Payload Builder Emit Ipc SpecIpc Pair SpecPair.

(** user code that does anything the API offers and ends, whatever it is answered *)
Inductive ends : prog -> Prop :=
| end_ret r : ends (PRet r)
| end_panic : ends PPanic
| end_emit rq k : (forall o, ends (k o)) -> ends (PEmit rq k)
| end_await rq k : (forall o, ends (k o)) -> ends (PAwait rq k)
| end_stream rq k : (forall o, ends (k o)) -> ends (PStream rq k)
| end_next h k : (forall o, ends (k o)) -> ends (PNext h k)
| end_stop n k : (forall o, ends (k o)) -> ends (PStop n k)
| end_env k : (forall v, ends (k v)) -> ends (PEnv k)
| end_spawn p k : ends p -> ends k -> ends (PSpawn p k).
Definition all_end (cf : config) : Prop := forall sc name cb, eh_get (callbacks cf sc) name = Some cb -> forall ctx e, ends (cb ctx e).
(** the predefined handler of Error events is in place *)
Definition keeps_error_handler (cf : config) : Prop := eh_get (cf_handler cf) ERROR_EVENT_NAME = Some (default_error (cf_env cf)).
(** [p'] is a next state of [p]: anything happens except that unrelated events are created in one of the processes *)
Definition idle_label (l : plabel) : bool := match l with PDo _ LOther => true | _ => false end.
Definition next_state (cf : side -> config) (p' p : pair) : Prop := exists l os, idle_label l = false /\ pstep cf p l = Some (p', os).
(** the global handler of [nm] emits an event [nm] as its reply *)
Definition echoes (cf : config) (nm : bytes) : Prop :=
  exists cb, eh_get (cf_handler cf) nm = Some cb /\ forall ctx e, exists d k, cb ctx e = PEmit (mk_request ctx None nm (Ok d)) k.
