(** Specifications for endless runs of two endpoints joined by byte streams (C84). *)
From Verif Require Import Base Reader Codec Spec Ids Payload Builder Emit Ipc SpecIpc Pair SpecPair BytePair SpecBytes.

(** Endless runs: [f n] is what happens at time [n] ([None]: nothing), [st n] the state before it, [ob n] what is observed. *)
Definition endless_bytes (cap : nat) (cf : side -> config) (ps : side -> list prog) (ctr : side -> N) (f : nat -> option xlabel) (st : nat -> xpair) (ob : nat -> list (side * obs)) : Prop :=
  st 0%nat = xpair_new ps ctr /\ forall n, match f n with Some l => xstep cap cf (st n) l = Some (st (S n), ob n) | None => st (S n) = st n /\ ob n = [] end.
Definition xclocks (f : nat -> option xlabel) : Prop := forall n sd i t v, f n = Some (XDo sd (LTask i (AStep t v))) -> rust_instant t.
(** Task [i] can neither run nor write a byte now: be it that it waits for a reply, for the writer, or for room. *)
Definition xhalted (cap : nat) (cf : side -> config) (x : xpair) (sd : side) (i : nat) : Prop :=
  (forall t v, xstep cap cf x (XDo sd (LTask i (AStep t v))) = None) /\ xstep cap cf x (XWrite sd i) = None.
(** Every task acts or writes a byte again and again, or from some time on it can never go on: who waits for the writer or for room is
    not passed over for ever (C80). *)
Definition eager_xtasks (cap : nat) (cf : side -> config) (f : nat -> option xlabel) (st : nat -> xpair) : Prop :=
  forall sd i n, exists m, (n <= m)%nat /\ ((exists a, f m = Some (XDo sd (LTask i a))) \/ f m = Some (XWrite sd i) \/ forall k, (m <= k)%nat -> xhalted cap cf (st k) sd i).
(** Receive loops read the bytes there are, one after the other, and hand on replies. *)
Definition fair_xloops (cap : nat) (cf : side -> config) (f : nat -> option xlabel) (st : nat -> xpair) : Prop :=
  forall sd l, l = XRead sd \/ l = XDo sd (LPlace 0) -> forall n, exists m, (n <= m)%nat /\ (f m = Some l \/ xstep cap cf (st m) l = None).
(** too many ids for them to be unique *)
Definition xtoo_many (st : nat -> xpair) (n : nat) : Prop := exists sd, ~ few_events (x_ep (st n) sd).
