(** Specifications for endless runs of two joined endpoints. *)
From Verif Require Import Base Codec Spec Ids Payload Builder Emit Ipc SpecIpc Pair SpecPair.

(** Endless runs: [f n] is what happens at time [n] ([None]: nothing), [st n] the state before it, [ob n] what is observed. *)
Definition happens (cf : side -> config) (f : nat -> option plabel) (st : nat -> pair) (ob : nat -> list (side * obs)) (n : nat) : Prop :=
  match f n with Some l => pstep cf (st n) l = Some (st (S n), ob n) | None => st (S n) = st n /\ ob n = [] end.
Definition endless (cf : side -> config) (ps : side -> list prog) (ctr : side -> N) (f : nat -> option plabel) (st : nat -> pair) (ob : nat -> list (side * obs)) : Prop :=
  st 0%nat = pair_new ps ctr (fun _ => []) /\ forall n, happens cf f st ob n.
(** what has been observed before time [n] *)
Fixpoint so_far (ob : nat -> list (side * obs)) (n : nat) : list (side * obs) := match n with O => [] | S m => so_far ob m ++ ob m end.

(** Every task that can go on does so, or again and again it cannot. *)
Definition fair_tasks (cf : side -> config) (f : nat -> option plabel) (st : nat -> pair) : Prop :=
  forall sd i n, exists m, (n <= m)%nat /\ ((exists a, f m = Some (PDo sd (LTask i a))) \/ stuck (cf sd) (p_ep (st m) sd) i).
(** The same for receive loops reading the next event, or handing on a reply *)
Definition fair_loops (cf : side -> config) (f : nat -> option plabel) (st : nat -> pair) : Prop :=
  forall sd l, l = PDeliver sd \/ l = PDo sd (LPlace 0) -> forall n, exists m, (n <= m)%nat /\ (f m = Some l \/ pstep cf (st m) l = None).
(** The user reads his reply streams or drops them: again and again there is room. *)
Definition drained (ob : nat -> list (side * obs)) (sd : side) : Prop :=
  forall n j h y c, In (OOpened j h y c) (at_side sd (so_far ob n)) -> exists m, (n <= m)%nat
    /\ (gone (at_side sd (so_far ob m)) c \/ (length (queued c (at_side sd (so_far ob m))) < length (taken c (at_side sd (so_far ob m))) + 8)%nat).
Definition clocks (f : nat -> option plabel) : Prop := forall n sd i t v, f n = Some (PDo sd (LTask i (AStep t v))) -> rust_instant t.

(** Handlers that emit, return or panic at some time; what they do after emitting does not matter. *)
Inductive speaks : prog -> Prop :=
| spk_ret r : speaks (PRet r)
| spk_panic : speaks PPanic
| spk_emit rq k : (forall er, rq_payload rq = Err er -> speaks (k (Some (Err er)))) -> speaks (PEmit rq k)
| spk_env k : (forall v, speaks (k v)) -> speaks (PEnv k).
Definition all_speak (cf : config) : Prop := forall sc name cb, eh_get (callbacks cf sc) name = Some cb -> forall ctx e, speaks (cb ctx e).
