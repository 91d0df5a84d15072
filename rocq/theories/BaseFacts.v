From Verif Require Import Base.
From Coq Require Import Strings.Byte ZifyBool ZifyNat ZifyN.
Ltac Zify.zify_post_hook ::= Z.div_mod_to_equations.

Lemma b2n_lt b : b2n b < 256.
Proof. unfold b2n. pose proof (Byte.to_N_bounded b). lia. Qed.

Lemma b2n_n2b n : b2n (n2b n) = n mod 256.
Proof.
  unfold n2b, b2n. destruct (Byte.of_N (n mod 256)) as [b|] eqn:H.
  - apply Byte.to_of_N in H. exact H.
  - apply Byte.of_N_None_iff in H. pose proof (N.mod_lt n 256). lia.
Qed.

Lemma n2b_b2n b : n2b (b2n b) = b.
Proof.
  unfold n2b. pose proof (b2n_lt b). rewrite N.mod_small by assumption.
  unfold b2n. rewrite Byte.of_to_N. reflexivity.
Qed.

Lemma b2n_inj a b : b2n a = b2n b -> a = b.
Proof. intros H. rewrite <- (n2b_b2n a), <- (n2b_b2n b), H. reflexivity. Qed.

Lemma n2b_eq b n : b2n b = n -> b = n2b n.
Proof. intros <-. symmetry. apply n2b_b2n. Qed.

Lemma byte_eqb_spec a b : byte_eqb a b = true <-> a = b.
Proof. unfold byte_eqb. split; [apply Byte.byte_dec_bl | apply Byte.byte_dec_lb]. Qed.

Lemma bytes_eqb_spec a b : bytes_eqb a b = true <-> a = b.
Proof.
  revert b. induction a as [|x a IH]; intros [|y b]; simpl; split; try discriminate; try reflexivity.
  - intros H. apply andb_prop in H as [H1 H2]. apply byte_eqb_spec in H1. apply IH in H2. congruence.
  - intros H. injection H as -> ->. apply andb_true_intro. split; [apply byte_eqb_spec | apply IH]; reflexivity.
Qed.
Lemma bytes_eqb_refl a : bytes_eqb a a = true.
Proof. apply bytes_eqb_spec. reflexivity. Qed.
Lemma bytes_eqb_neq a b : a <> b -> bytes_eqb a b = false.
Proof. intros H. destruct (bytes_eqb a b) eqn:E; [|reflexivity]. apply bytes_eqb_spec in E. contradiction. Qed.

(** big endian *)
Lemma be_length k n : length (be k n) = k.
Proof. induction k; simpl; [reflexivity| rewrite IHk; reflexivity]. Qed.

Lemma blen_be k n : blen (be k n) = N.of_nat k.
Proof. unfold blen. rewrite be_length. reflexivity. Qed.

Lemma pow256_pos k : 0 < 256 ^ k.
Proof. apply N.neq_0_lt_0. apply N.pow_nonzero. lia. Qed.

Lemma unbe_acc l acc : fold_left (fun a b => a * 256 + b2n b) l acc = acc * 256 ^ N.of_nat (length l) + unbe l.
Proof.
  revert acc. induction l as [|b l IH]; intros acc; unfold unbe; cbn [fold_left length].
  - rewrite N.pow_0_r. lia.
  - rewrite IH. rewrite (IH (0 * 256 + b2n b)). rewrite Nat2N.inj_succ, N.pow_succ_r'. unfold unbe. lia.
Qed.

Lemma unbe_cons b l : unbe (b :: l) = b2n b * 256 ^ N.of_nat (length l) + unbe l.
Proof. unfold unbe at 1. cbn [fold_left]. rewrite unbe_acc. lia. Qed.

Lemma unbe_be k n : unbe (be k n) = n mod 256 ^ N.of_nat k.
Proof.
  induction k as [|k IH]; [ cbn; rewrite N.mod_1_r; reflexivity |].
  cbn [be]. rewrite unbe_cons, be_length, IH, b2n_n2b, Nat2N.inj_succ, N.pow_succ_r'.
  pose proof (pow256_pos (N.of_nat k)).
  rewrite (N.mul_comm 256). rewrite N.mod_mul_r by lia. lia.
Qed.

Lemma unbe_lt l : unbe l < 256 ^ N.of_nat (length l).
Proof.
  induction l as [|b l IH]; [cbn; lia|].
  rewrite unbe_cons. cbn [length]. rewrite Nat2N.inj_succ, N.pow_succ_r'.
  pose proof (b2n_lt b). nia.
Qed.

Lemma be_add_mul k m n : be k (m * 256 ^ N.of_nat k + n) = be k n.
Proof.
  revert m. induction k as [|k IH]; intros m; [reflexivity|].
  cbn [be]. rewrite Nat2N.inj_succ, N.pow_succ_r'.
  replace (m * (256 * 256 ^ N.of_nat k) + n) with ((m * 256) * 256 ^ N.of_nat k + n) by lia.
  rewrite IH. f_equal.
  pose proof (pow256_pos (N.of_nat k)).
  rewrite N.div_add_l by lia.
  apply b2n_inj. rewrite !b2n_n2b.
  rewrite N.add_comm, N.mod_add by lia. reflexivity.
Qed.

Lemma be_unbe l : be (length l) (unbe l) = l.
Proof.
  induction l as [|b l IH]; [reflexivity|].
  cbn [length be]. rewrite unbe_cons. rewrite be_add_mul, IH. f_equal.
  pose proof (unbe_lt l). pose proof (pow256_pos (N.of_nat (length l))).
  rewrite N.div_add_l by lia. rewrite N.div_small by assumption. rewrite N.add_0_r. apply n2b_b2n.
Qed.

Lemma be_mod k n : be k (n mod 256 ^ N.of_nat k) = be k n.
Proof.
  rewrite (N.div_mod n (256 ^ N.of_nat k)) at 2 by (pose proof (pow256_pos (N.of_nat k)); lia).
  rewrite N.mul_comm, be_add_mul. reflexivity.
Qed.

Lemma blen_app a b : blen (a ++ b) = blen a + blen b.
Proof. unfold blen. rewrite app_length. lia. Qed.
Lemma blen_cons a b : blen (a :: b) = 1 + blen b.
Proof. unfold blen. cbn [length]. lia. Qed.
Lemma blen_nil : blen [] = 0. Proof. reflexivity. Qed.

Lemma unbe_be_small k n : n < 256 ^ N.of_nat k -> unbe (be k n) = n.
Proof. intros H. rewrite unbe_be. apply N.mod_small. exact H. Qed.
Lemma unbe_be2 n : unbe (be 2 n) = n mod U16. Proof. apply unbe_be. Qed.
Lemma unbe_be4 n : unbe (be 4 n) = n mod U32. Proof. apply unbe_be. Qed.
Lemma unbe_be8 n : unbe (be 8 n) = n mod U64. Proof. apply unbe_be. Qed.

(** maps *)
Section MapFacts.
  Context {K V : Type} (keqb : K -> K -> bool).
  Hypothesis keqb_spec : forall a b, keqb a b = true <-> a = b.
  Lemma keqb_refl a : keqb a a = true. Proof. apply keqb_spec. reflexivity. Qed.
  Lemma keqb_neq a b : a <> b -> keqb a b = false.
  Proof. intros H. destruct (keqb a b) eqn:E; [|reflexivity]. apply keqb_spec in E. contradiction. Qed.
  Lemma lookup_remove_eq k (m : amap K V) : lookup keqb k (remove keqb k m) = None.
  Proof.
    induction m as [|[k' v] m IH]; [reflexivity|]. cbn. destruct (keqb k k') eqn:E; cbn; [exact IH|].
    rewrite E. exact IH.
  Qed.
  Lemma lookup_remove_ne k k' (m : amap K V) : k <> k' -> lookup keqb k (remove keqb k' m) = lookup keqb k m.
  Proof.
    intros Hne. induction m as [|[k2 v] m IH]; [reflexivity|]. cbn.
    destruct (keqb k' k2) eqn:E; cbn.
    - apply keqb_spec in E. subst k2. rewrite (keqb_neq _ _ Hne). exact IH.
    - destruct (keqb k k2); [reflexivity| exact IH].
  Qed.
  Lemma lookup_insert_eq k v (m : amap K V) : lookup keqb k (insert keqb k v m) = Some v.
  Proof. cbn. rewrite keqb_refl. reflexivity. Qed.
  Lemma lookup_insert_ne k k' v (m : amap K V) : k <> k' -> lookup keqb k (insert keqb k' v m) = lookup keqb k m.
  Proof. intros H. cbn. rewrite (keqb_neq _ _ H). apply lookup_remove_ne, H. Qed.
  Lemma lookup_In k v (m : amap K V) : lookup keqb k m = Some v -> In (k, v) m.
  Proof.
    induction m as [|[k' v'] m IH]; [discriminate|]. cbn. destruct (keqb k k') eqn:E.
    - intros H. injection H as ->. apply keqb_spec in E. subst. left. reflexivity.
    - intros H. right. apply IH, H.
  Qed.
  Lemma In_remove k k' v (m : amap K V) : In (k, v) (remove keqb k' m) <-> In (k, v) m /\ k <> k'.
  Proof.
    unfold remove. rewrite filter_In. cbn. split; intros [H1 H2]; split; auto.
    - intros ->. rewrite keqb_refl in H2. discriminate.
    - rewrite keqb_neq by congruence. reflexivity.
  Qed.
End MapFacts.

Lemma bind_Ok {A B} (o : outcome A) (f : A -> outcome B) b : bind o f = Ok b -> exists a, o = Ok a /\ f a = Ok b.
Proof. destruct o; cbn; intros H; try discriminate. eauto. Qed.
