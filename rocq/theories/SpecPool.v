(** Specifications for pools. *)
From Verif Require Import Base Pool.

(** guard [c] of a pool value is alive *)
Definition holds (n : nat) (v : pool_value) (c : nat) : bool :=
  match v with
  | PWhole _ => Nat.ltb c n
  | PFilling _ k => Nat.ltb c k
  | PEmptying k => Nat.leb k c && Nat.ltb c n
  | PGone => false
  end.
(** number of live guards of connection [c]: inside pools and held by users *)
Definition live_guards (s : pool_state) (c : nat) : N :=
  N.of_nat (length (filter (fun v => holds (p_n s) v c) (p_pools s)) + count_occ Nat.eq_dec (p_users s) c).

(** [c] is the first connection with the least count *)
Definition first_least (counts : list N) (c : nat) : Prop :=
  exists v, nth_error counts c = Some v
  /\ (forall j w, nth_error counts j = Some w -> v <= w)
  /\ (forall j w, (j < c)%nat -> nth_error counts j = Some w -> v < w).

(** One whole acquire without any other step in between, and one whole pool clone. *)
Definition acquire_alone (s : pool_state) (p : nat) : list pool_label :=
  AcqStart p :: repeat (AcqStep (length (p_acqs s))) (S (p_n s)).
Definition clone_alone (s : pool_state) (p : nat) : list pool_label :=
  ClonePool p :: repeat (CloneStep (length (p_pools s))) (S (p_n s)).

(** A history without overlap and without releases: whole acquires and whole pool clones. *)
Inductive only_acquires : pool_state -> pool_state -> Prop :=
| oa_nil s : only_acquires s s
| oa_acquire s p s1 os s2 : pool_run s (acquire_alone s p) = Some (s1, os) -> only_acquires s1 s2 -> only_acquires s s2
| oa_clone s p s1 os s2 : pool_run s (clone_alone s p) = Some (s1, os) -> only_acquires s1 s2 -> only_acquires s s2.

Definition balanced (counts : list N) : Prop :=
  forall i j v w, nth_error counts i = Some v -> nth_error counts j = Some w -> v <= w + 1.
