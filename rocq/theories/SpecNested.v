(** Specifications for endless runs of two endpoints whose handlers ask each other (C83). *)
From Verif Require Import Base Codec Spec Ids Payload Builder Emit Ipc SpecIpc Pair SpecPair SpecLive Bounded.

(** Code that ends once its requests have results, whatever the results and the environment are. What it spawns need not end. *)
Inductive finishes : prog -> Prop :=
| fin_ret r : finishes (PRet r)
| fin_panic : finishes PPanic
| fin_emit rq k : (forall o, finishes (k o)) -> finishes (PEmit rq k)
| fin_await rq k : (forall o, finishes (k o)) -> finishes (PAwait rq k)
| fin_env k : (forall v, finishes (k v)) -> finishes (PEnv k)
| fin_spawn q k : finishes k -> finishes (PSpawn q k).
Definition handlers_finish (cf : config) : Prop := forall sc name cb, eh_get (callbacks cf sc) name = Some cb -> forall ctx e, finishes (cb ctx e).
(** too many ids for them to be unique *)
Definition too_many (st : nat -> pair) (n : nat) : Prop := exists sd, ~ few_events (p_ep (st n) sd).

(** Endless runs over a connection that holds at most [cap] events per direction: a send waits for room. *)
Definition endless_held (cap : nat) (cf : side -> config) (ps : side -> list prog) (ctr : side -> N) (f : nat -> option plabel) (st : nat -> pair) (ob : nat -> list (side * obs)) : Prop :=
  st 0%nat = pair_new ps ctr (fun _ => []) /\ forall n, match f n with Some l => bstep cap cf (st n) l = Some (st (S n), ob n) | None => st (S n) = st n /\ ob n = [] end.
(** Task [i] cannot go on now, be it for want of room. *)
Definition halted (cap : nat) (cf : side -> config) (p : pair) (sd : side) (i : nat) : Prop := forall t v, bstep cap cf p (PDo sd (LTask i (AStep t v))) = None.
(** Every task acts again and again, or from some time on it can never go on: a task that can go on again and again is not passed over
    for ever (senders wait in line for the connection, C80). *)
Definition eager_tasks (cap : nat) (cf : side -> config) (f : nat -> option plabel) (st : nat -> pair) : Prop :=
  forall sd i n, exists m, (n <= m)%nat /\ ((exists a, f m = Some (PDo sd (LTask i a))) \/ forall k, (m <= k)%nat -> halted cap cf (st k) sd i).
