(** A well-founded order on lists up to order: one element is replaced by any number of smaller ones, others are dropped. *)
From Coq Require Import List Permutation Relations Wellfounded Lia.
Import ListNotations.

Section Multi.
  Context {A : Type} (lt : A -> A -> Prop).
  Definition mstep (l' l : list A) : Prop := exists x ys r, Permutation l (x :: r) /\ Permutation l' (ys ++ r) /\ Forall (fun y => lt y x) ys.
  Definition mlt (l' l : list A) : Prop := exists x ys d r, Permutation l (x :: d ++ r) /\ Permutation l' (ys ++ r) /\ Forall (fun y => lt y x) ys.
  Lemma perm_two (x z : A) l r : Permutation (x :: l) (z :: r) -> (x = z /\ Permutation l r) \/ exists q, Permutation l (z :: q) /\ Permutation r (x :: q).
  Proof.
    intros P. assert (I : In z (x :: l)) by (apply Permutation_in with (z :: r); [symmetry; exact P|left; reflexivity]). destruct I as [->|I].
    - left. split; [reflexivity|]. eapply Permutation_cons_inv; eauto.
    - right. apply in_split in I. destruct I as (a & b & ->). exists (a ++ b). split; [symmetry; apply Permutation_middle|].
      apply Permutation_cons_inv with z. rewrite <- P. rewrite perm_swap. constructor. symmetry. apply Permutation_middle.
  Qed.
  Lemma acc_perm l : Acc mstep l -> forall m, Permutation l m -> Acc mstep m.
  Proof. intros [H] m P. constructor. intros n (x & ys & r & P1 & P2 & F). apply H. exists x, ys, r. split; [rewrite P; exact P1|auto]. Qed.
  Lemma acc_one x : (forall y, lt y x -> forall l, Acc mstep l -> Acc mstep (y :: l)) -> forall l, Acc mstep l -> Acc mstep (x :: l).
  Proof.
    intros Hx l Hl. induction Hl as [l Hl IH]. constructor. intros l' (z & ys & r & P1 & P2 & F). symmetry in P2. apply acc_perm with (ys ++ r); [|exact P2].
    apply perm_two in P1. destruct P1 as [[-> P1]|(q & P1 & P3)].
    - assert (Ar : Acc mstep r) by (apply acc_perm with l; [constructor; exact Hl|exact P1]). clear - F Ar Hx. induction F as [|y ys Hy _ IH]; [exact Ar|]. cbn. apply Hx; assumption.
    - apply acc_perm with (x :: ys ++ q); [|rewrite P3; apply Permutation_middle]. apply IH. exists z, ys, q. auto.
  Qed.
  Lemma acc_more x : Acc lt x -> forall l, Acc mstep l -> Acc mstep (x :: l).
  Proof. induction 1 as [x _ IH]. apply acc_one. exact IH. Qed.
  Lemma acc_all l : Forall (Acc lt) l -> Acc mstep l.
  Proof.
    induction 1 as [|x l H _ IH]; [|apply acc_more; assumption]. constructor. intros l' (z & ys & r & P & _). apply Permutation_nil in P. discriminate.
  Qed.
  Lemma mlt_trans l' l : mlt l' l -> clos_trans _ mstep l' l.
  Proof.
    intros (x & ys & d & r & P1 & P2 & F). revert l P1. induction d as [|y d IH]; intros l P1.
    - apply t_step. exists x, ys, r. auto.
    - apply t_trans with (x :: d ++ r); [apply IH; reflexivity|]. apply t_step. exists y, [], (x :: d ++ r). split; [|split; [reflexivity|constructor]]. rewrite P1. apply perm_swap.
  Qed.
  Lemma mlt_acc l : Forall (Acc lt) l -> Acc mlt l.
  Proof.
    intros H. apply acc_all in H. apply Acc_clos_trans in H. induction H as [l _ IH]. constructor. intros m Hm. apply IH. apply mlt_trans. exact Hm.
  Qed.
  (** more elements around *)
  Lemma mlt_ctx c l' l m' m : mlt l' l -> Permutation m (l ++ c) -> Permutation m' (l' ++ c) -> mlt m' m.
  Proof.
    intros (x & ys & d & r & P1 & P2 & F) Q1 Q2. exists x, ys, d, (r ++ c). split; [rewrite Q1, P1; cbn; rewrite app_assoc; reflexivity|]. split; [rewrite Q2, P2, app_assoc; reflexivity|exact F].
  Qed.
End Multi.
