(** Specifications for endless runs of networks (C85). *)
From Verif Require Import Base Codec Spec Ids Payload Builder Emit Ipc SpecIpc Pair SpecPair Net SpecNet.

(** Endless runs: [f n] is what happens at time [n] ([None]: nothing), [st n] the state before it, [ob n] what is observed. *)
Definition endless_net (w : network) (f : nat -> option nlabel) (st : nat -> net) (ob : nat -> list (nat * obs)) : Prop :=
  st 0%nat = net_new w /\ forall n, match f n with Some l => nstep w (st n) l = Some (st (S n), ob n) | None => st (S n) = st n /\ ob n = [] end.
(** what has been observed before time [n], and at endpoint [i] *)
Fixpoint net_so_far (ob : nat -> list (nat * obs)) (n : nat) : list (nat * obs) := match n with O => [] | S m => net_so_far ob m ++ ob m end.
Definition seen_at (ob : nat -> list (nat * obs)) (i n : nat) : list obs := at_node i (net_so_far ob n).
Definition nclocks (f : nat -> option nlabel) : Prop := forall n i j t v, f n = Some (NDo i (LTask j (AStep t v))) -> rust_instant t.

(** Every task of endpoint [i] that can go on does so, or again and again it cannot. *)
Definition fair_at (w : network) (f : nat -> option nlabel) (st : nat -> net) (i : nat) : Prop :=
  forall j n, exists m, (n <= m)%nat /\ ((exists a, f m = Some (NDo i (LTask j a))) \/ stuck (nd_cf (node_of w i)) (n_ep (st m) i) j).
(** The same for the receive loop of its connection [k], reading the next event or handing on a reply. *)
Definition fair_on (w : network) (f : nat -> option nlabel) (st : nat -> net) (i k : nat) : Prop :=
  forall l, l = NDeliver i k \/ l = NDo i (LPlace k) -> forall n, exists m, (n <= m)%nat /\ (f m = Some l \/ nstep w (st m) l = None).
(** The user of [i] reads, or drops, the reply streams that get events over connection [k]; never mind the others. *)
Definition drained_over (ob : nat -> list (nat * obs)) (i k : nat) : Prop :=
  forall n j h y c e, In (OOpened j h y c) (seen_at ob i n) -> In (OReceived k e) (seen_at ob i n) -> ev_ref e = Some y -> exists m, (n <= m)%nat
    /\ (gone (seen_at ob i m) c \/ (length (queued c (seen_at ob i m)) < length (taken c (seen_at ob i m)) + 8)%nat).
(** Nothing is lost on the connection between connection [k] of [a] and [b], a connection a server has accepted. *)
Definition intact (ob : nat -> list (nat * obs)) (a k b : nat) : Prop :=
  forall n, ~ In (OAborted k) (seen_at ob a n) /\ ~ In (OClosed k) (seen_at ob a n) /\ ~ In (OClosed 0) (seen_at ob b n) /\ forall j cx r, ~ In (OCut j cx r) (seen_at ob b n).
