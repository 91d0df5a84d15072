(** Proofs about pools. *)
From Verif Require Import Base BaseFacts Pool SpecPool.
From Coq Require Import ZifyBool ZifyNat ZifyN.
Arguments N.add : simpl never.
Arguments N.modulo : simpl never.

(** lists *)
Lemma set_nth_length {A} i (x : A) l : length (set_nth i x l) = length l.
Proof. revert i. induction l as [|y l IH]; intros [|i]; cbn; try reflexivity. f_equal. apply IH. Qed.
Lemma nth_set_eq {A} i (x y : A) l : nth_error l i = Some y -> nth_error (set_nth i x l) i = Some x.
Proof. revert i. induction l as [|z l IH]; intros [|i] H; cbn in *; try discriminate; [reflexivity|]. apply IH. exact H. Qed.
Lemma nth_set_ne {A} i j (x : A) l : i <> j -> nth_error (set_nth i x l) j = nth_error l j.
Proof.
  revert i j. induction l as [|z l IH]; intros [|i] [|j] H; cbn; try reflexivity; try contradiction. apply IH. lia.
Qed.
Lemma nth_upd_eq f c l v : nth_error l c = Some v -> nth_error (upd_count f c l) c = Some (f v).
Proof. intros H. unfold upd_count. rewrite H. exact (nth_set_eq _ _ _ _ H). Qed.
Lemma nth_upd_ne f c j l : c <> j -> nth_error (upd_count f c l) j = nth_error l j.
Proof. intros H. unfold upd_count. destruct (nth_error l c); [apply nth_set_ne; exact H|reflexivity]. Qed.
Lemma upd_length f c l : length (upd_count f c l) = length l.
Proof. unfold upd_count. destruct (nth_error l c); [apply set_nth_length|reflexivity]. Qed.

Definition b2nat (b : bool) : nat := if b then 1%nat else 0%nat.
Definition cnt {A} (f : A -> bool) (l : list A) : nat := length (filter f l).
Lemma cnt_app {A} (f : A -> bool) a b : cnt f (a ++ b) = (cnt f a + cnt f b)%nat.
Proof. unfold cnt. rewrite filter_app, app_length. reflexivity. Qed.
Lemma cnt_nil {A} (f : A -> bool) : cnt f [] = 0%nat. Proof. reflexivity. Qed.
Lemma cnt_cons {A} (f : A -> bool) x l : cnt f (x :: l) = (b2nat (f x) + cnt f l)%nat.
Proof. unfold cnt. cbn. destruct (f x); reflexivity. Qed.
Lemma cnt_set {A} (f : A -> bool) q x old l : nth_error l q = Some old ->
  (cnt f (set_nth q x l) + b2nat (f old) = cnt f l + b2nat (f x))%nat.
Proof.
  revert q. induction l as [|y l IH]; intros [|q] H; cbn in H; try discriminate.
  - inversion H; subst. cbn [set_nth]. rewrite !cnt_cons. lia.
  - cbn [set_nth]. rewrite !cnt_cons. specialize (IH q H). lia.
Qed.
Lemma count_occ_snoc l x c : count_occ Nat.eq_dec (l ++ [x]) c = (count_occ Nat.eq_dec l c + b2nat (Nat.eqb x c))%nat.
Proof.
  rewrite count_occ_app. cbn. destruct (Nat.eq_dec x c) as [->|H]; [rewrite Nat.eqb_refl; reflexivity|].
  apply Nat.eqb_neq in H. rewrite H. reflexivity.
Qed.
Lemma count_occ_del l u x c : nth_error l u = Some x ->
  (count_occ Nat.eq_dec (del_nth u l) c + b2nat (Nat.eqb x c) = count_occ Nat.eq_dec l c)%nat.
Proof.
  revert u. induction l as [|y l IH]; intros [|u] H; cbn in H; try discriminate.
  - inversion H; subst. unfold del_nth. cbn [firstn skipn app count_occ].
    destruct (Nat.eq_dec x c) as [->|Hn]; [rewrite Nat.eqb_refl; cbn [b2nat]; lia|].
    apply Nat.eqb_neq in Hn. rewrite Hn. cbn [b2nat]. lia.
  - specialize (IH u H). unfold del_nth in *.
    change (firstn (S u) (y :: l) ++ skipn (S (S u)) (y :: l)) with (y :: (firstn u l ++ skipn (S u) l)). cbn [count_occ]. destruct (Nat.eq_dec y c); lia.
Qed.

Lemma holds_whole n b b' : forall c, holds n (PWhole b) c = holds n (PWhole b') c. Proof. reflexivity. Qed.
Lemma borrow_cnt n p ps ps' c : borrow p ps = Some ps' -> cnt (fun v => holds n v c) ps' = cnt (fun v => holds n v c) ps.
Proof.
  unfold borrow. destruct (nth_error ps p) as [[b| | |]|] eqn:E; try discriminate. intros H. inversion H; subst.
  pose proof (cnt_set (fun v => holds n v c) _ (PWhole (S b)) _ _ E) as X. cbn [holds] in X. lia.
Qed.
Lemma unborrow_cnt n p ps c : cnt (fun v => holds n v c) (unborrow p ps) = cnt (fun v => holds n v c) ps.
Proof.
  unfold unborrow. destruct (nth_error ps p) as [[[|b]| | |]|] eqn:E; try reflexivity.
  pose proof (cnt_set (fun v => holds n v c) _ (PWhole b) _ _ E) as X. cbn [holds] in X. lia.
Qed.
Definition pool_ok (n : nat) (v : pool_value) : Prop := match v with PFilling _ k => (k <= n)%nat | _ => True end.
Lemma set_nth_Forall {A} (P : A -> Prop) i x l : Forall P l -> P x -> Forall P (set_nth i x l).
Proof.
  intros H Hx. revert i. induction H as [|y l Hy H IH]; intros [|i]; cbn; constructor; auto.
Qed.
Lemma borrow_ok n p ps ps' : borrow p ps = Some ps' -> Forall (pool_ok n) ps -> Forall (pool_ok n) ps'.
Proof.
  unfold borrow. destruct (nth_error ps p) as [[b| | |]|]; try discriminate. intros H F. inversion H; subst.
  apply set_nth_Forall; [exact F|exact I].
Qed.
Lemma unborrow_ok n p ps : Forall (pool_ok n) ps -> Forall (pool_ok n) (unborrow p ps).
Proof. intros F. unfold unborrow. destruct (nth_error ps p) as [[[|b]| | |]|]; auto. apply set_nth_Forall; [exact F|exact I]. Qed.

Definition acq_ok (n : nat) (a : acq) : Prop := match a with AReading _ r => (length r <= n)%nat | ADone => True end.

(** the invariant *)
Definition pinv (s : pool_state) : Prop :=
  length (p_counts s) = p_n s
  /\ Forall (pool_ok (p_n s)) (p_pools s)
  /\ Forall (acq_ok (p_n s)) (p_acqs s)
  /\ forall c v, nth_error (p_counts s) c = Some v -> v < U64 /\ (v + 1) mod U64 = live_guards s c mod U64.

Lemma add_ok v m : v < U64 -> (v + 1) mod U64 = m mod U64 -> fetch_add1 v < U64 /\ (fetch_add1 v + 1) mod U64 = (m + 1) mod U64.
Proof.
  intros Hv H. unfold fetch_add1. split; [apply N.mod_lt; discriminate|].
  rewrite N.add_mod_idemp_l by discriminate. rewrite <- (N.add_mod_idemp_l (v + 1)) by discriminate. rewrite H.
  rewrite N.add_mod_idemp_l by discriminate. reflexivity.
Qed.
Lemma sub_ok v m : v < U64 -> (v + 1) mod U64 = (m + 1) mod U64 -> fetch_sub1 v < U64 /\ (fetch_sub1 v + 1) mod U64 = m mod U64.
Proof.
  intros Hv H. unfold fetch_sub1. split; [apply N.mod_lt; discriminate|].
  rewrite N.add_mod_idemp_l by discriminate.
  replace (v + (U64 - 1) + 1) with (v + 1 + (U64 - 1)) by (change U64 with 18446744073709551616; lia).
  rewrite <- (N.add_mod_idemp_l (v + 1)) by discriminate. rewrite H. rewrite N.add_mod_idemp_l by discriminate.
  replace (m + 1 + (U64 - 1)) with (m + 1 * U64) by (change U64 with 18446744073709551616; lia).
  apply N.mod_add. discriminate.
Qed.

Lemma nth_lt {A} (l : list A) i x : nth_error l i = Some x -> (i < length l)%nat.
Proof. intros H. apply nth_error_Some. congruence. Qed.

(** adding / removing one guard of connection [k] *)
Lemma counts_add s k s' : pinv s -> p_counts s' = upd_count fetch_add1 k (p_counts s) ->
  (forall c, (c < p_n s)%nat -> live_guards s' c = live_guards s c + N.of_nat (b2nat (Nat.eqb k c))) ->
  forall c v, nth_error (p_counts s') c = Some v -> v < U64 /\ (v + 1) mod U64 = live_guards s' c mod U64.
Proof.
  intros (Hl & _ & _ & H) E L c v Hv. assert (Hc : (c < p_n s)%nat) by (apply nth_lt in Hv; rewrite E, upd_length in Hv; lia).
  rewrite L by exact Hc. rewrite E in Hv. destruct (Nat.eqb_spec k c) as [->|Hn].
  - destruct (nth_error (p_counts s) c) as [w|] eqn:Ew.
    + rewrite (nth_upd_eq _ _ _ _ Ew) in Hv. inversion Hv; subst. destruct (H c w Ew) as [A B]. exact (add_ok _ _ A B).
    + apply nth_error_None in Ew. lia.
  - rewrite nth_upd_ne in Hv by exact Hn. cbn [b2nat]. rewrite N.add_0_r. exact (H c v Hv).
Qed.
Lemma counts_sub s k s' : pinv s -> p_counts s' = upd_count fetch_sub1 k (p_counts s) ->
  (forall c, (c < p_n s)%nat -> live_guards s' c + N.of_nat (b2nat (Nat.eqb k c)) = live_guards s c) ->
  forall c v, nth_error (p_counts s') c = Some v -> v < U64 /\ (v + 1) mod U64 = live_guards s' c mod U64.
Proof.
  intros (Hl & _ & _ & H) E L c v Hv. assert (Hc : (c < p_n s)%nat) by (apply nth_lt in Hv; rewrite E, upd_length in Hv; lia).
  specialize (L c Hc). rewrite E in Hv. destruct (Nat.eqb_spec k c) as [->|Hn].
  - destruct (nth_error (p_counts s) c) as [w|] eqn:Ew.
    + rewrite (nth_upd_eq _ _ _ _ Ew) in Hv. inversion Hv; subst. destruct (H c w Ew) as [A B]. rewrite <- L in B. exact (sub_ok _ _ A B).
    + apply nth_error_None in Ew. lia.
  - rewrite nth_upd_ne in Hv by exact Hn. cbn [b2nat] in L. rewrite N.add_0_r in L. rewrite L. exact (H c v Hv).
Qed.
Lemma counts_same s s' : pinv s -> p_counts s' = p_counts s ->
  (forall c, (c < p_n s)%nat -> live_guards s' c = live_guards s c) ->
  forall c v, nth_error (p_counts s') c = Some v -> v < U64 /\ (v + 1) mod U64 = live_guards s' c mod U64.
Proof.
  intros (Hl & _ & _ & H) E L c v Hv. rewrite E in Hv. rewrite L by (apply nth_lt in Hv; lia). exact (H c v Hv).
Qed.

Lemma live_def s c : live_guards s c = N.of_nat (cnt (fun v => holds (p_n s) v c) (p_pools s) + count_occ Nat.eq_dec (p_users s) c).
Proof. reflexivity. Qed.

Lemma pinv_new n : pinv (pool_new n).
Proof.
  unfold pinv, pool_new. cbn. repeat split.
  - apply repeat_length.
  - repeat constructor.
  - constructor.
  - apply nth_error_In, repeat_spec in H. subst. reflexivity.
  - pose proof (nth_lt _ _ _ H) as Hc. rewrite repeat_length in Hc. apply nth_error_In, repeat_spec in H. subst.
    unfold live_guards. cbn [p_n p_pools p_users pool_new filter holds]. apply Nat.ltb_lt in Hc. rewrite Hc. reflexivity.
Qed.

Lemma min_from_range best bv i l : (best < i)%nat -> (min_from best bv i l < i + length l)%nat.
Proof.
  revert best bv i. induction l as [|v l IH]; intros best bv i H; cbn; [lia|].
  destruct (v <? bv).
  - specialize (IH i v (S i)). lia.
  - specialize (IH best bv (S i)). lia.
Qed.

Lemma pinv_step s l s' o : pinv s -> pool_step s l = Some (s', o) -> pinv s' /\ p_n s' = p_n s.
Proof.
  intros Hi H. pose proof Hi as (Hl & Hp & Ha & Hc). destruct l; cbn [pool_step] in H.
  - (* AcqStart *) destruct (borrow p (p_pools s)) as [ps|] eqn:E; [|discriminate]. inversion H; subst. clear H. split; [|reflexivity].
    split; [exact Hl|]. split; [exact (borrow_ok _ _ _ _ E Hp)|]. split; [apply Forall_app; split; [exact Ha|repeat constructor; cbn; lia]|].
    apply (counts_same s); [exact Hi|reflexivity|]. intros c _. rewrite !live_def. cbn [p_n p_pools p_users]. rewrite (borrow_cnt _ _ _ _ _ E). reflexivity.
  - (* AcqStep *) destruct (nth_error (p_acqs s) a) as [[p reads|]|] eqn:E; [|discriminate..].
    destruct (nth_error (p_counts s) (length reads)) as [v|] eqn:Ev.
    + inversion H; subst. clear H. split; [|reflexivity]. split; [exact Hl|]. split; [exact Hp|]. split.
      * apply set_nth_Forall; [exact Ha|]. cbn. rewrite app_length. cbn. apply nth_lt in Ev. lia.
      * apply (counts_same s); [exact Hi|reflexivity|reflexivity].
    + destruct (min_by_key reads) as [c0|] eqn:Em; inversion H; subst; clear H; (split; [|reflexivity]).
      * split; [cbn; rewrite upd_length; exact Hl|]. split; [apply unborrow_ok; exact Hp|].
        split; [apply set_nth_Forall; [exact Ha|exact I]|].
        apply (counts_add s c0); [exact Hi|reflexivity|]. intros c _. rewrite !live_def. cbn [p_n p_pools p_users].
        rewrite unborrow_cnt, count_occ_snoc. lia.
      * split; [exact Hl|]. split; [apply unborrow_ok; exact Hp|]. split; [apply set_nth_Forall; [exact Ha|exact I]|].
        apply (counts_same s); [exact Hi|reflexivity|]. intros c _. rewrite !live_def. cbn [p_n p_pools p_users]. rewrite unborrow_cnt. reflexivity.
  - (* ClonePool *) destruct (borrow p (p_pools s)) as [ps|] eqn:E; [|discriminate]. inversion H; subst. clear H. split; [|reflexivity].
    split; [exact Hl|]. split; [apply Forall_app; split; [exact (borrow_ok _ _ _ _ E Hp)|repeat constructor; cbn; lia]|]. split; [exact Ha|].
    apply (counts_same s); [exact Hi|reflexivity|]. intros c _. rewrite !live_def. cbn [p_n p_pools p_users].
    rewrite cnt_app, (borrow_cnt _ _ _ _ _ E). cbn. lia.
  - (* CloneStep *) destruct (nth_error (p_pools s) q) as [[|p k| |]|] eqn:E; try discriminate.
    destruct (Nat.ltb_spec k (p_n s)) as [Hk|Hk]; inversion H; subst; clear H; (split; [|reflexivity]).
    + split; [cbn; rewrite upd_length; exact Hl|]. split; [apply set_nth_Forall; [exact Hp|cbn; lia]|]. split; [exact Ha|].
      apply (counts_add s k); [exact Hi|reflexivity|]. intros c _. rewrite !live_def. cbn [p_n p_pools p_users].
      pose proof (cnt_set (fun v => holds (p_n s) v c) _ (PFilling p (S k)) _ _ E) as X. cbn [holds] in X.
      destruct (Nat.eqb_spec k c), (Nat.ltb_spec c k), (Nat.ltb_spec c (S k)); cbn [b2nat] in *; lia.
    + split; [exact Hl|]. split; [apply unborrow_ok; apply set_nth_Forall; [exact Hp|exact I]|]. split; [exact Ha|].
      assert (k = p_n s) as -> by (rewrite Forall_forall in Hp; apply nth_error_In in E; specialize (Hp _ E); cbn in Hp; lia).
      apply (counts_same s); [exact Hi|reflexivity|]. intros c _. rewrite !live_def. cbn [p_n p_pools p_users]. rewrite unborrow_cnt.
      pose proof (cnt_set (fun v => holds (p_n s) v c) _ (PWhole 0) _ _ E) as X. cbn [holds] in X. lia.
  - (* DropPool *) destruct (nth_error (p_pools s) p) as [[[|b]| | |]|] eqn:E; try discriminate. inversion H; subst. clear H. split; [|reflexivity].
    split; [exact Hl|]. split; [apply set_nth_Forall; [exact Hp|exact I]|]. split; [exact Ha|].
    apply (counts_same s); [exact Hi|reflexivity|]. intros c _. rewrite !live_def. cbn [p_n p_pools p_users].
    pose proof (cnt_set (fun v => holds (p_n s) v c) _ (PEmptying 0) _ _ E) as X. cbn [holds] in X. cbn in X. lia.
  - (* DropStep *) destruct (nth_error (p_pools s) q) as [[| |k|]|] eqn:E; try discriminate.
    destruct (Nat.ltb_spec k (p_n s)) as [Hk|Hk]; inversion H; subst; clear H; (split; [|reflexivity]).
    + split; [cbn; rewrite upd_length; exact Hl|]. split; [apply set_nth_Forall; [exact Hp|exact I]|]. split; [exact Ha|].
      apply (counts_sub s k); [exact Hi|reflexivity|]. intros c Hcn. rewrite !live_def. cbn [p_n p_pools p_users].
      pose proof (cnt_set (fun v => holds (p_n s) v c) _ (PEmptying (S k)) _ _ E) as X. cbn [holds] in X.
      destruct (Nat.eqb_spec k c), (Nat.leb_spec k c), (Nat.leb_spec (S k) c), (Nat.ltb_spec c (p_n s)); cbn [b2nat andb] in *; lia.
    + split; [exact Hl|]. split; [apply set_nth_Forall; [exact Hp|exact I]|]. split; [exact Ha|].
      apply (counts_same s); [exact Hi|reflexivity|]. intros c Hcn. rewrite !live_def. cbn [p_n p_pools p_users].
      pose proof (cnt_set (fun v => holds (p_n s) v c) _ PGone _ _ E) as X. cbn [holds] in X.
      destruct (Nat.leb_spec k c), (Nat.ltb_spec c (p_n s)); cbn [b2nat andb] in *; lia.
  - (* CloneGuard *) destruct (nth_error (p_users s) u) as [x|] eqn:E; [|discriminate]. inversion H; subst. clear H. split; [|reflexivity].
    split; [cbn; rewrite upd_length; exact Hl|]. split; [exact Hp|]. split; [exact Ha|].
    apply (counts_add s x); [exact Hi|reflexivity|]. intros c _. rewrite !live_def. cbn [p_n p_pools p_users]. rewrite count_occ_snoc. lia.
  - (* DropGuard *) destruct (nth_error (p_users s) u) as [x|] eqn:E; [|discriminate]. inversion H; subst. clear H. split; [|reflexivity].
    split; [cbn; rewrite upd_length; exact Hl|]. split; [exact Hp|]. split; [exact Ha|].
    apply (counts_sub s x); [exact Hi|reflexivity|]. intros c _. rewrite !live_def. cbn [p_n p_pools p_users].
    pose proof (count_occ_del _ _ _ c E). lia.
Qed.

Lemma pinv_run ls : forall s s' os, pinv s -> pool_run s ls = Some (s', os) -> pinv s' /\ p_n s' = p_n s.
Proof.
  induction ls as [|l ls IH]; intros s s' os Hi H; cbn [pool_run] in H.
  - inversion H; subst. auto.
  - destruct (pool_step s l) as [[s1 o]|] eqn:E; [|discriminate]. destruct (pool_run s1 ls) as [[s2 os2]|] eqn:E2; [|discriminate].
    inversion H; subst. destruct (pinv_step _ _ _ _ Hi E) as [A B]. destruct (IH _ _ _ A E2) as [C D]. split; [exact C|congruence].
Qed.

(** the count is the number of live guards minus one *)
Lemma count_exact s c v : pinv s -> nth_error (p_counts s) c = Some v -> 0 < live_guards s c <= U64 -> v + 1 = live_guards s c.
Proof.
  intros (_ & _ & _ & H) Hv [L1 L2]. destruct (H c v Hv) as [A B].
  destruct (N.eq_dec (live_guards s c) U64) as [E|E].
  - rewrite E in *. rewrite N.mod_same in B by discriminate.
    destruct (N.eq_dec (v + 1) U64); [assumption|]. rewrite N.mod_small in B by lia. lia.
  - rewrite (N.mod_small (live_guards s c)) in B by lia.
    destruct (N.eq_dec (v + 1) U64) as [Ev|Ev]; [rewrite Ev, N.mod_same in B by discriminate; lia|].
    rewrite N.mod_small in B by lia. exact B.
Qed.

Lemma count_of_live n ls s os c : pool_run (pool_new n) ls = Some (s, os) -> (c < n)%nat -> 0 < live_guards s c <= U64 ->
  exists v, nth_error (p_counts s) c = Some v /\ v + 1 = live_guards s c.
Proof.
  intros H Hc HL. destruct (pinv_run _ _ _ _ (pinv_new n) H) as [Hi Hn].
  destruct (nth_error (p_counts s) c) as [v|] eqn:E.
  - exists v. split; [reflexivity|]. exact (count_exact _ _ _ Hi E HL).
  - apply nth_error_None in E. destruct Hi as (Hl & _). cbn in Hn. lia.
Qed.

(** first minimum *)
Lemma min_from_spec l : forall (all : list N) best bv i,
  nth_error all best = Some bv -> (best < i)%nat -> skipn i all = l ->
  (forall j w, (j < i)%nat -> nth_error all j = Some w -> bv <= w) ->
  (forall j w, (j < best)%nat -> nth_error all j = Some w -> bv < w) ->
  first_least all (min_from best bv i l).
Proof.
  induction l as [|v l IH]; intros all best bv i Hb Hi Hs H1 H2; cbn [min_from].
  - exists bv. split; [exact Hb|]. split; [|exact H2]. intros j w Hj. destruct (Nat.lt_ge_cases j i) as [X|X]; [exact (H1 j w X Hj)|].
    exfalso. apply nth_lt in Hj. assert (L : length (skipn i all) = 0%nat) by (rewrite Hs; reflexivity). rewrite skipn_length in L. lia.
  - assert (Hv : nth_error all i = Some v).
    { rewrite <- (firstn_skipn i all), Hs. rewrite nth_error_app2; rewrite firstn_length_le.
      - rewrite Nat.sub_diag. reflexivity.
      - assert (L : length (skipn i all) = S (length l)) by (rewrite Hs; reflexivity). rewrite skipn_length in L. lia.
      - lia.
      - assert (L : length (skipn i all) = S (length l)) by (rewrite Hs; reflexivity). rewrite skipn_length in L. lia. }
    assert (Hs' : skipn (S i) all = l).
    { clear -Hs. revert i Hs. induction all as [|a all IH]; intros [|i] Hs; cbn in *; try discriminate; [congruence|].
      destruct all as [|b all]; [rewrite skipn_nil in Hs; discriminate|]. apply (IH i). exact Hs. }
    destruct (v <? bv) eqn:Elt.
    + apply (IH all i v (S i) Hv); [lia|exact Hs'| |].
      * intros j w Hj Hw. destruct (Nat.eq_dec j i) as [->|]; [rewrite Hv in Hw; inversion Hw; lia|].
        specialize (H1 j w ltac:(lia) Hw). lia.
      * intros j w Hj Hw. specialize (H1 j w Hj Hw). lia.
    + apply (IH all best bv (S i) Hb); [lia|exact Hs'| |exact H2].
      intros j w Hj Hw. destruct (Nat.eq_dec j i) as [->|]; [rewrite Hv in Hw; inversion Hw; lia|]. exact (H1 j w ltac:(lia) Hw).
Qed.
Lemma min_by_key_spec l c : min_by_key l = Some c -> first_least l c.
Proof.
  destruct l as [|v l]; cbn [min_by_key]; [discriminate|]. intros H. inversion H; subst.
  apply min_from_spec; [reflexivity|lia|reflexivity| |].
  - intros [|j] w Hj Hw; [|lia]. cbn in Hw. inversion Hw; lia.
  - intros j w Hj. lia.
Qed.

(** reading all counts without interference *)
Lemma nth_snoc {A} (l : list A) x : nth_error (l ++ [x]) (length l) = Some x.
Proof. rewrite nth_error_app2 by lia. rewrite Nat.sub_diag. reflexivity. Qed.
Lemma set_snoc {A} (l : list A) x y : set_nth (length l) y (l ++ [x]) = l ++ [y].
Proof. induction l as [|z l IH]; cbn; [reflexivity|]. f_equal. exact IH. Qed.
Lemma set_mid {A} (a : list A) x y l : set_nth (length a) y (a ++ x :: l) = a ++ y :: l.
Proof. induction a as [|z a IH]; cbn; [reflexivity|]. f_equal. exact IH. Qed.
Lemma unborrow_borrow p ps ps' : borrow p ps = Some ps' -> unborrow p ps' = ps.
Proof.
  unfold borrow, unborrow. destruct (nth_error ps p) as [[b| | |]|] eqn:E; try discriminate. intros H. inversion H; subst.
  rewrite (nth_set_eq _ _ _ _ E). clear H. revert p E. induction ps as [|x ps IH]; intros [|p] E; cbn in E; try discriminate.
  - inversion E; subst. reflexivity.
  - cbn [set_nth]. f_equal. apply IH. exact E.
Qed.
Lemma firstn_snoc {A} (l : list A) i x : nth_error l i = Some x -> firstn i l ++ [x] = firstn (S i) l.
Proof.
  revert i. induction l as [|y l IH]; intros [|i] H; cbn in H; try discriminate.
  - inversion H; subst. reflexivity.
  - cbn [firstn app]. f_equal. apply IH. exact H.
Qed.

Lemma reads_alone n counts ps users acqs p : length counts = n -> forall m i, (i + m = n)%nat ->
  pool_run (mk_pool n counts ps users (acqs ++ [AReading p (firstn i counts)])) (repeat (AcqStep (length acqs)) m)
  = Some (mk_pool n counts ps users (acqs ++ [AReading p counts]), repeat Quiet m).
Proof.
  intros Hl. induction m as [|m IH]; intros i Hi; cbn [repeat pool_run].
  - rewrite firstn_all2 by lia. reflexivity.
  - cbn [pool_step p_acqs p_counts p_pools p_n p_users]. rewrite nth_snoc. rewrite firstn_length_le by lia.
    destruct (nth_error counts i) as [v|] eqn:E; [|apply nth_error_None in E; lia].
    rewrite set_snoc, (firstn_snoc _ _ _ E). rewrite (IH (S i)) by lia. reflexivity.
Qed.

Lemma run_app ls1 : forall s ls2, pool_run s (ls1 ++ ls2) =
  match pool_run s ls1 with
  | Some (s1, os1) => match pool_run s1 ls2 with Some (s2, os2) => Some (s2, os1 ++ os2) | None => None end
  | None => None
  end.
Proof.
  induction ls1 as [|l ls1 IH]; intros s ls2; cbn [app pool_run].
  - destruct (pool_run s ls2) as [[s2 os2]|]; reflexivity.
  - destruct (pool_step s l) as [[s1 o]|]; [|reflexivity]. rewrite IH. destruct (pool_run s1 ls1) as [[s2 os]|]; [|reflexivity].
    destruct (pool_run s2 ls2) as [[s3 os3]|]; reflexivity.
Qed.
Lemma repeat_snoc {A} (x : A) n : repeat x (S n) = repeat x n ++ [x].
Proof. induction n as [|n IH]; [reflexivity|]. cbn [repeat app] in *. f_equal. exact IH. Qed.

Lemma acquire_alone_run s p b : pinv s -> nth_error (p_pools s) p = Some (PWhole b) -> (0 < p_n s)%nat ->
  exists c, first_least (p_counts s) c
  /\ pool_run s (acquire_alone s p)
     = Some (mk_pool (p_n s) (upd_count fetch_add1 c (p_counts s)) (p_pools s) (p_users s ++ [c]) (p_acqs s ++ [ADone]),
             Quiet :: repeat Quiet (p_n s) ++ [Got c]).
Proof.
  intros (Hl & _) Hp Hn. destruct s as [n counts ps users acqs]. cbn [p_n p_counts p_pools p_users p_acqs] in *.
  destruct (min_by_key counts) as [c|] eqn:Em.
  2: { destruct counts; [cbn in Hl; lia|discriminate]. }
  exists c. split; [exact (min_by_key_spec _ _ Em)|].
  unfold acquire_alone. cbn [p_n p_acqs]. rewrite repeat_snoc. cbn [pool_run pool_step p_pools p_n p_counts p_users p_acqs].
  destruct (borrow p ps) as [ps'|] eqn:Eb; [|unfold borrow in Eb; rewrite Hp in Eb; discriminate].
  rewrite run_app. change (@nil N) with (firstn 0 counts). rewrite (reads_alone n counts ps' users acqs p Hl n 0) by lia.
  cbn [pool_run pool_step p_acqs p_counts p_pools p_n p_users]. rewrite nth_snoc.
  replace (nth_error counts (length counts)) with (@None N) by (symmetry; apply nth_error_None; lia).
  rewrite Em, set_snoc, (unborrow_borrow _ _ _ Eb). reflexivity.
Qed.

Lemma clone_alone_counts s p s1 os : pinv s -> pool_run s (clone_alone s p) = Some (s1, os) ->
  exists b, nth_error (p_pools s) p = Some (PWhole b) /\ s1 = mk_pool (p_n s) (map fetch_add1 (p_counts s)) (p_pools s ++ [PWhole 0]) (p_users s) (p_acqs s).
Proof.
  intros (Hl & _) H. destruct s as [n counts ps users acqs]. unfold clone_alone in H. cbn [p_n p_counts p_pools p_users p_acqs] in *.
  rewrite repeat_snoc in H. cbn [pool_run pool_step p_pools p_n p_counts p_users p_acqs] in H.
  destruct (borrow p ps) as [ps'|] eqn:Eb; [|discriminate].
  assert (Elen : length ps' = length ps) by (unfold borrow in Eb; destruct (nth_error ps p) as [[b| | |]|]; try discriminate; inversion Eb; apply set_nth_length).
  rewrite <- Elen in H.
  assert (G : forall m i, (i + m = n)%nat ->
    pool_run (mk_pool n (map fetch_add1 (firstn i counts) ++ skipn i counts) (ps' ++ [PFilling p i]) users acqs) (repeat (CloneStep (length ps')) m)
    = Some (mk_pool n (map fetch_add1 counts) (ps' ++ [PFilling p n]) users acqs, repeat Quiet m)).
  { induction m as [|m IH]; intros i Hi; cbn [repeat pool_run].
    - rewrite firstn_all2, skipn_all2, app_nil_r by lia. replace i with n by lia. reflexivity.
    - cbn [pool_step p_pools p_n p_counts p_users p_acqs]. rewrite nth_snoc.
      destruct (Nat.ltb_spec i n) as [_|X]; [|lia]. rewrite set_snoc.
      destruct (nth_error counts i) as [v|] eqn:E; [|apply nth_error_None in E; lia].
      replace (upd_count fetch_add1 i (map fetch_add1 (firstn i counts) ++ skipn i counts))
        with (map fetch_add1 (firstn (S i) counts) ++ skipn (S i) counts).
      { rewrite (IH (S i)) by lia. reflexivity. }
      rewrite <- (firstn_snoc _ _ _ E), map_app. cbn [map].
      assert (Es : skipn i counts = v :: skipn (S i) counts).
      { clear -E. revert i E. induction counts as [|a l IH]; intros [|i] E; cbn in E; try discriminate; [inversion E; reflexivity|]. exact (IH i E). }
      rewrite Es. unfold upd_count.
      assert (Ln : length (map fetch_add1 (firstn i counts)) = i) by (rewrite map_length, firstn_length_le; lia).
      rewrite nth_error_app2, Ln, Nat.sub_diag by lia. cbn [nth_error].
      pose proof (set_mid (map fetch_add1 (firstn i counts)) v (fetch_add1 v) (skipn (S i) counts)) as M. rewrite Ln in M. rewrite M.
      rewrite <- app_assoc. reflexivity. }
  rewrite run_app in H. change counts with (map fetch_add1 (firstn 0 counts) ++ skipn 0 counts) in H at 1.
  rewrite (G n 0%nat) in H by lia. cbn [pool_run pool_step p_pools p_n p_counts p_users p_acqs] in H. rewrite nth_snoc in H.
  rewrite Nat.ltb_irrefl, set_snoc in H. inversion H; subst. clear H.
  unfold borrow in Eb. destruct (nth_error ps p) as [[b| | |]|] eqn:E; try discriminate. exists b. split; [reflexivity|]. f_equal.
  inversion Eb; subst ps'. assert (Hp : (p < length ps)%nat) by (apply nth_lt in E; exact E).
  unfold unborrow. rewrite nth_error_app1 by (rewrite set_nth_length; exact Hp). rewrite (nth_set_eq _ _ _ _ E).
  clear -E. revert p E. induction ps as [|x ps IH]; intros [|p] E; cbn in E; try discriminate.
  - inversion E; subst. reflexivity.
  - cbn [set_nth app]. f_equal. apply IH. exact E.
Qed.

(** balance *)
Lemma live_mono_oa s s' : pinv s -> only_acquires s s' -> pinv s' /\ p_n s' = p_n s /\ forall c, live_guards s c <= live_guards s' c.
Proof.
  intros Hi H. induction H as [s|s p s1 os s2 Hr H IH|s p s1 os s2 Hr H IH].
  - split; [exact Hi|]. split; [reflexivity|]. intros c. lia.
  - destruct (pinv_run _ _ _ _ Hi Hr) as [Hi1 Hn1]. destruct (IH Hi1) as (A & B & C). split; [exact A|]. split; [congruence|].
    intros c. specialize (C c). enough (live_guards s c <= live_guards s1 c) by lia.
    destruct (nth_error (p_pools s) p) as [[b| | |]|] eqn:E;
      try (unfold acquire_alone in Hr; cbn [pool_run pool_step] in Hr; unfold borrow in Hr; rewrite E in Hr; discriminate).
    destruct (Nat.eq_dec (p_n s) 0) as [E0|E0].
    + unfold acquire_alone in Hr. rewrite E0 in Hr. cbn [repeat pool_run pool_step] in Hr.
      destruct (borrow p (p_pools s)) as [ps'|] eqn:Eb; [|discriminate]. cbn [p_acqs p_counts] in Hr. rewrite nth_snoc in Hr. cbn [length] in Hr.
      destruct Hi as (Hl & _). destruct (p_counts s) as [|x l]; [|cbn in Hl; lia]. cbn [nth_error min_by_key] in Hr. inversion Hr; subst.
      rewrite !live_def. cbn [p_pools p_users p_n]. rewrite (unborrow_borrow _ _ _ Eb). lia.
    + destruct (acquire_alone_run s p b Hi E ltac:(lia)) as (c0 & _ & R). rewrite R in Hr. inversion Hr; subst.
      rewrite !live_def. cbn [p_pools p_users p_n]. rewrite count_occ_snoc. lia.
  - destruct (pinv_run _ _ _ _ Hi Hr) as [Hi1 Hn1]. destruct (IH Hi1) as (A & B & C). split; [exact A|]. split; [congruence|].
    intros c. specialize (C c). enough (live_guards s c <= live_guards s1 c) by lia.
    destruct (clone_alone_counts _ _ _ _ Hi Hr) as (b & _ & ->). rewrite !live_def. cbn [p_pools p_users p_n]. rewrite cnt_app. lia.
Qed.

(** some pool is whole, so every connection has a live guard *)
Definition has_whole (s : pool_state) : Prop := exists p b, nth_error (p_pools s) p = Some (PWhole b).
Lemma whole_live s c : has_whole s -> (c < p_n s)%nat -> 0 < live_guards s c.
Proof.
  intros (p & b & H) Hc. rewrite live_def. apply nth_error_In, in_split in H. destruct H as (l1 & l2 & ->).
  rewrite cnt_app, cnt_cons. cbn [holds]. apply Nat.ltb_lt in Hc. rewrite Hc. cbn [b2nat]. lia.
Qed.

Definition live_balanced (s : pool_state) : Prop :=
  forall i j, (i < p_n s)%nat -> (j < p_n s)%nat -> live_guards s i <= live_guards s j + 1.

Lemma oa_balanced s s' : pinv s -> has_whole s -> live_balanced s -> only_acquires s s' -> (forall c, live_guards s' c <= U64) ->
  live_balanced s' /\ has_whole s'.
Proof.
  intros Hi Hw Hb H HL. induction H as [s|s p s1 os s2 Hr H IH|s p s1 os s2 Hr H IH].
  - auto.
  - destruct (pinv_run _ _ _ _ Hi Hr) as [Hi1 Hn1]. destruct (live_mono_oa _ _ Hi1 H) as (_ & _ & Hm).
    assert (HL1 : forall c, live_guards s1 c <= U64) by (intros c; specialize (Hm c); specialize (HL c); lia).
    destruct (nth_error (p_pools s) p) as [[b| | |]|] eqn:E;
      try (unfold acquire_alone in Hr; cbn [pool_run pool_step] in Hr; unfold borrow in Hr; rewrite E in Hr; discriminate).
    destruct (Nat.eq_dec (p_n s) 0) as [E0|E0].
    { apply IH; auto.
      - unfold acquire_alone in Hr. rewrite E0 in Hr. cbn [repeat pool_run pool_step] in Hr.
        destruct (borrow p (p_pools s)) as [ps'|] eqn:Eb; [|discriminate]. cbn [p_acqs p_counts] in Hr. rewrite nth_snoc in Hr. cbn [length] in Hr.
        destruct Hi as (Hl & _). destruct (p_counts s) as [|x l]; [|cbn in Hl; lia]. cbn [nth_error min_by_key] in Hr. inversion Hr; subst.
        exists p, b. cbn [p_pools]. rewrite (unborrow_borrow _ _ _ Eb). exact E.
      - intros i j Hi' Hj. rewrite Hn1, E0 in Hi'. lia. }
    destruct (acquire_alone_run s p b Hi E ltac:(lia)) as (c0 & Hf & R). rewrite R in Hr. inversion Hr; subst. clear Hr R.
    assert (Hadd : forall c, live_guards (mk_pool (p_n s) (upd_count fetch_add1 c0 (p_counts s)) (p_pools s) (p_users s ++ [c0]) (p_acqs s ++ [ADone])) c
       = live_guards s c + N.of_nat (b2nat (Nat.eqb c0 c))).
    { intros c. rewrite !live_def. cbn [p_pools p_users p_n]. rewrite count_occ_snoc. lia. }
    apply IH; auto.
    intros i j Hin Hjn. cbn [p_n] in *. rewrite !Hadd.
    destruct Hf as (v & Hv & Hmin & _).
    assert (X : forall c, (c < p_n s)%nat -> exists w, nth_error (p_counts s) c = Some w /\ w + 1 = live_guards s c).
    { intros c Hc. destruct (nth_error (p_counts s) c) as [w|] eqn:Ew.
      - exists w. split; [reflexivity|]. apply (count_exact _ _ _ Hi Ew). split; [exact (whole_live _ _ Hw Hc)|].
        specialize (HL1 c). rewrite Hadd in HL1. lia.
      - apply nth_error_None in Ew. destruct Hi as (Hl & _). lia. }
    pose proof (Hb i j Hin Hjn) as B1.
    destruct (Nat.eqb_spec c0 i) as [->|Hne]; cbn [b2nat]; [|lia].
    destruct (X i Hin) as (w1 & A1 & A2), (X j Hjn) as (w2 & C1 & C2). rewrite Hv in A1. inversion A1; subst.
    specialize (Hmin j w2 C1). destruct (Nat.eqb_spec i j); cbn [b2nat]; lia.
  - destruct (pinv_run _ _ _ _ Hi Hr) as [Hi1 Hn1].
    destruct (clone_alone_counts _ _ _ _ Hi Hr) as (b & E & ->). apply IH; auto.
    + exists p, b. cbn [p_pools]. rewrite nth_error_app1 by (apply nth_lt in E; exact E). exact E.
    + intros i j Hin Hjn. cbn [p_n] in *. rewrite !live_def. cbn [p_pools p_users p_n]. rewrite !cnt_app.
      specialize (Hb i j Hin Hjn). rewrite !live_def in Hb. rewrite !cnt_cons. cbn [holds]. apply Nat.ltb_lt in Hin. apply Nat.ltb_lt in Hjn. rewrite Hin, Hjn, !cnt_nil. lia.
Qed.

Lemma new_balanced n : live_balanced (pool_new n).
Proof.
  intros i j Hi Hj. unfold live_guards. cbn [p_n p_pools p_users pool_new filter holds] in *. apply Nat.ltb_lt in Hi. apply Nat.ltb_lt in Hj. rewrite Hi, Hj. cbn. lia.
Qed.
Lemma acquires_balanced n s : only_acquires (pool_new n) s -> (forall c, live_guards s c <= U64) -> balanced (p_counts s).
Proof.
  intros H HL. destruct (oa_balanced _ _ (pinv_new n) (ex_intro _ 0%nat (ex_intro _ 0%nat eq_refl)) (new_balanced n) H HL) as [Hb Hw].
  destruct (live_mono_oa _ _ (pinv_new n) H) as (Hi & Hn & _).
  intros i j v w Hv Hw'.
  assert (Li : (i < p_n s)%nat) by (apply nth_lt in Hv; destruct Hi as (Hl & _); lia).
  assert (Lj : (j < p_n s)%nat) by (apply nth_lt in Hw'; destruct Hi as (Hl & _); lia).
  pose proof (count_exact _ _ _ Hi Hv (conj (whole_live _ _ Hw Li) (HL i))) as A.
  pose proof (count_exact _ _ _ Hi Hw' (conj (whole_live _ _ Hw Lj) (HL j))) as B.
  specialize (Hb i j Li Lj). lia.
Qed.

(** acquire never panics on a non-empty pool, whatever runs concurrently *)
Lemma no_panic n ls s os : (0 < n)%nat -> pool_run (pool_new n) ls = Some (s, os) -> ~ In Panics os.
Proof.
  intros Hn. assert (G : forall ls s s' os, pinv s -> (0 < p_n s)%nat -> pool_run s ls = Some (s', os) -> ~ In Panics os).
  { clear. induction ls as [|l ls IH]; intros s s' os Hi Hn H; cbn [pool_run] in H.
    - inversion H; subst. intros [].
    - destruct (pool_step s l) as [[s1 o]|] eqn:E; [|discriminate]. destruct (pool_run s1 ls) as [[s2 os2]|] eqn:E2; [|discriminate].
      inversion H; subst. destruct (pinv_step _ _ _ _ Hi E) as [A B]. intros [X|X]; [|refine (IH _ _ _ A _ E2 X); lia].
      subst o. destruct Hi as (Hl & _). destruct l; cbn [pool_step] in E;
        repeat match type of E with context [match ?x with _ => _ end] => destruct x eqn:? ; try discriminate end.
      inversion E; subst.
      match goal with H1 : nth_error (p_counts s) (length ?r) = None, H2 : min_by_key ?r = None |- _ => destruct r; [apply nth_error_None in H1; cbn in H1; lia|discriminate] end. }
  intros H. exact (G _ _ _ _ (pinv_new n) Hn H).
Qed.
(** a finished acquire hands out an existing connection *)
Lemma got_in_range n ls s os c : pool_run (pool_new n) ls = Some (s, os) -> In (Got c) os -> (c < n)%nat.
Proof.
  assert (G : forall ls s s' os, pinv s -> pool_run s ls = Some (s', os) -> In (Got c) os -> (c < p_n s)%nat).
  { clear. induction ls as [|l ls IH]; intros s s' os Hi H; cbn [pool_run] in H.
    - inversion H; subst. intros [].
    - destruct (pool_step s l) as [[s1 o]|] eqn:E; [|discriminate]. destruct (pool_run s1 ls) as [[s2 os2]|] eqn:E2; [|discriminate].
      inversion H; subst. destruct (pinv_step _ _ _ _ Hi E) as [A B]. intros [X|X]; [|rewrite <- B; exact (IH _ _ _ A E2 X)].
      subst o. destruct Hi as (Hl & _ & Ha & _). destruct l; cbn [pool_step] in E;
        repeat match type of E with context [match ?x with _ => _ end] => destruct x eqn:? ; try discriminate end.
      inversion E; subst.
      match goal with H1 : nth_error (p_acqs s) _ = Some (AReading _ ?r), H2 : min_by_key ?r = Some c |- _ =>
        apply nth_error_In in H1; rewrite Forall_forall in Ha; specialize (Ha _ H1); cbn in Ha;
        destruct (min_by_key_spec _ _ H2) as (v & Hv & _); apply nth_lt in Hv; lia end. }
  intros H. exact (G _ _ _ _ (pinv_new n) H).
Qed.

(** concurrent acquires can all choose the same connection *)
Definition overlap_start (n : nat) (a : nat) : list pool_label := AcqStart 0 :: repeat (AcqStep a) n.
Definition overlapping (n k : nat) : list pool_label := flat_map (overlap_start n) (seq 0 k) ++ map AcqStep (seq 0 k).

Lemma overlap_phase1 n k : forall users, forall b acqs,
  exists os, pool_run (mk_pool n (repeat 0 n) [PWhole b] users acqs) (flat_map (overlap_start n) (seq (length acqs) k))
  = Some (mk_pool n (repeat 0 n) [PWhole (k + b)] users (acqs ++ repeat (AReading 0 (repeat 0 n)) k), os)
  /\ ~ exists c, In (Got c) os.
Proof.
  intros users. induction k as [|k IH]; intros b acqs; cbn [seq flat_map repeat].
  - exists []. rewrite app_nil_r. split; [reflexivity|]. intros (c & []).
  - destruct (IH (S b) (acqs ++ [AReading 0 (repeat 0 n)])) as (os & H & Hno). rewrite run_app. unfold overlap_start at 1.
    cbn [pool_run pool_step borrow p_pools p_n p_counts p_users p_acqs nth_error set_nth].
    change (@nil N) with (firstn 0 (repeat 0 n)).
    rewrite (reads_alone n (repeat 0 n) [PWhole (S b)] users acqs 0 (repeat_length _ _) n 0) by lia.
    rewrite app_length in H. cbn [length] in H. rewrite Nat.add_1_r in H. rewrite H. eexists. split.
    + rewrite <- app_assoc. cbn [app]. rewrite Nat.add_succ_r. reflexivity.
    + intros (c & [X|Hc]); [discriminate|]. apply in_app_or in Hc. destruct Hc as [X|X]; [|exact (Hno (ex_intro _ c X))].
      apply repeat_spec in X. discriminate.
Qed.

Lemma min_zeros n : (0 < n)%nat -> min_by_key (repeat 0 n) = Some 0%nat.
Proof.
  destruct n as [|n]; [lia|]. intros _. cbn [repeat min_by_key]. f_equal. generalize 1%nat. induction n as [|n IH]; intros i; cbn [repeat min_from]; [reflexivity|].
  rewrite N.ltb_irrefl. apply IH.
Qed.

Lemma overlap_phase2 n k : (0 < n)%nat -> forall v rest b users acqs, length rest = pred n -> v + N.of_nat k < U64 ->
  exists s, pool_run (mk_pool n (v :: rest) [PWhole (k + b)] users (acqs ++ repeat (AReading 0 (repeat 0 n)) k)) (map AcqStep (seq (length acqs) k))
  = Some (s, repeat (Got 0) k) /\ p_counts s = (v + N.of_nat k) :: rest.
Proof.
  intros Hn. induction k as [|k IH]; intros v rest b users acqs Hr Hv; cbn [seq map repeat].
  - eexists. split; [reflexivity|]. cbn. rewrite N.add_0_r. reflexivity.
  - cbn [pool_run pool_step p_acqs p_counts p_pools p_n p_users]. rewrite nth_error_app2 by lia. rewrite Nat.sub_diag. cbn [nth_error].
    replace (nth_error (v :: rest) (length (repeat 0 n))) with (@None N) by (symmetry; apply nth_error_None; rewrite repeat_length; cbn; lia).
    rewrite (min_zeros n Hn). rewrite set_mid. cbn [upd_count nth_error set_nth unborrow plus].
    destruct (IH (fetch_add1 v) rest b (users ++ [0%nat]) (acqs ++ [ADone]) Hr) as (s & H & Hc).
    { unfold fetch_add1. rewrite N.mod_small by lia. lia. }
    rewrite app_length in H. cbn [length] in H. rewrite Nat.add_1_r in H. rewrite <- app_assoc in H. cbn [app] in H. rewrite H.
    eexists. split; [reflexivity|]. rewrite Hc. f_equal. unfold fetch_add1. rewrite N.mod_small by lia. lia.
Qed.

Lemma overlapping_unbalanced n k : (0 < n)%nat -> N.of_nat k < U64 ->
  exists s os, pool_run (pool_new n) (overlapping n k) = Some (s, os)
  /\ (forall c, In (Got c) os -> c = 0%nat) /\ length (filter (fun o => match o with Got _ => true | _ => false end) os) = k
  /\ p_counts s = N.of_nat k :: repeat 0 (pred n).
Proof.
  intros Hn Hk. unfold overlapping. destruct (overlap_phase1 n k [] 0 []) as (os1 & H1 & Hno).
  destruct n as [|m]; [lia|]. cbn [pred].
  destruct (overlap_phase2 (S m) k Hn 0 (repeat 0 m) 0 [] [] (repeat_length _ _) Hk) as (s & H2 & Hc).
  exists s, (os1 ++ repeat (Got 0) k). rewrite run_app. unfold pool_new. cbn [length app] in H1. rewrite H1. cbn [length app] in H2.
  change (repeat 0 (S m)) with (0 :: repeat 0 m) at 1. rewrite H2. split; [reflexivity|]. split; [|split].
  - intros c Hin. apply in_app_or in Hin. destruct Hin as [X|X]; [exfalso; exact (Hno (ex_intro _ c X))|]. apply repeat_spec in X. inversion X. reflexivity.
  - rewrite filter_app, app_length.
    replace (filter (fun o => match o with Got _ => true | _ => false end) os1) with (@nil pool_obs).
    2: { clear -Hno. induction os1 as [|o os1 IH]; [reflexivity|]. cbn. destruct o as [|c|].
         - apply IH. intros (c & Hc). apply Hno. exists c. right. exact Hc.
         - exfalso. apply Hno. exists c. left. reflexivity.
         - apply IH. intros (c & Hc). apply Hno. exists c. right. exact Hc. }
    cbn [length plus]. clear. induction k as [|k IH]; cbn; [reflexivity|]. f_equal. exact IH.
  - exact Hc.
Qed.
