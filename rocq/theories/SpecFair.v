(** Specifications for the order of writers. *)
From Verif Require Import Base Codec Emit Spec SpecEmit Fair.

Definition fair_start (w : world) (os : list order) : fair_sys := mk_fair (all_fresh w os) [].
(** The futures in the order in which they asked for the connection: in their first poll (by a task that has budget) *)
Definition ask (asked : list nat) (lb : fair_label) : list nat :=
  match lb with
  | QPoll i _ _ => if existsb (Nat.eqb i) asked then asked else asked ++ [i]
  | _ => asked
  end.
Definition asking (ls : list fair_label) : list nat := fold_left ask ls [].
(** [a] with some entries left out, in the same order, is [b] *)
Inductive sublist {A} : list A -> list A -> Prop :=
| sl_nil : sublist [] []
| sl_skip x b a : sublist b a -> sublist b (x :: a)
| sl_keep x b a : sublist b a -> sublist (x :: b) (x :: a).
(** [j] comes before [i] in [l] *)
Definition before (j i : nat) (l : list nat) : Prop := exists a b c, l = a ++ j :: b ++ i :: c.
(** future [i] has finished, has been dropped *)
Definition finished (i : nat) (rs : list (nat * polled N)) : Prop := exists r, In (i, Ready r) rs.
Definition dropped (i : nat) (ls : list fair_label) : Prop := In (QDrop i) ls.

(** Endless runs; [None]: nothing happens *)
Definition proceeds (s : fair_sys) (lb : option fair_label) (s' : fair_sys) (r : option (nat * polled N)) : Prop :=
  match lb with Some l => fair_step s l = Some (s', r) | None => s' = s /\ r = None end.
(** future [i] is polled, and the connection takes something *)
Definition attends (i : nat) (lb : option fair_label) : Prop := exists t n l, lb = Some (QPoll i t (Accept (S n) :: l)).
(** future [h] has been given the connection and is not through *)
Definition writes (s : fair_sys) (h : nat) : Prop := w_lock (y_world (q_sys s)) = Some h.
(** at time [n] future [i] has asked, has not finished and was not dropped *)
Definition pending (f : nat -> option fair_label) (res : nat -> option (nat * polled N)) (n i : nat) : Prop :=
  (exists m t l, (m < n)%nat /\ f m = Some (QPoll i t l))
  /\ (forall m r, (m < n)%nat -> res m <> Some (i, Ready r)) /\ (forall m, (m < n)%nat -> f m <> Some (QDrop i)).
