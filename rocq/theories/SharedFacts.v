(** Facts about the shared data: the lock's invariant, what a history determines. *)
From Coq Require Import Lia Sorted.
From Verif Require Import Base BaseFacts Shared SpecShared.
Open Scope nat_scope.

Section PutNth.
  Context {A : Type}.
  Implicit Type l : list A.
  Lemma put_length i x l : length (put_nth i x l) = length l.
  Proof. revert i. induction l as [|y l IH]; intros [|i]; cbn; auto. Qed.
  Lemma put_same i x l : i < length l -> nth_error (put_nth i x l) i = Some x.
  Proof. revert i. induction l as [|y l IH]; intros [|i]; cbn; intros H; try lia; auto. apply IH. lia. Qed.
  Lemma put_other i j x l : i <> j -> nth_error (put_nth i x l) j = nth_error l j.
  Proof. revert i j. induction l as [|y l IH]; intros [|i] [|j]; cbn; intros H; try lia; auto. Qed.
  Lemma put_id i x l : nth_error l i = Some x -> put_nth i x l = l.
  Proof. revert i. induction l as [|y l IH]; intros [|i]; cbn; intros H; try discriminate; try (injection H as ->); auto. rewrite IH; auto. Qed.
  Lemma nth_lt i x l : nth_error l i = Some x -> i < length l.
  Proof. intros H. apply nth_error_Some. congruence. Qed.
  Lemma put_case i x y l j : nth_error l i = Some y -> nth_error (put_nth i x l) j = if Nat.eqb i j then Some x else nth_error l j.
  Proof. intros H. apply nth_lt in H. destruct (Nat.eqb_spec i j) as [->|n]; [apply put_same | apply put_other]; auto. Qed.
End PutNth.
Lemma map_put {A B} (f : A -> B) i x l : map f (put_nth i x l) = put_nth i (f x) (map f l).
Proof. revert i. induction l as [|y l IH]; intros [|i]; cbn; auto. rewrite IH. reflexivity. Qed.
Lemma nth_snoc {A} (l : list A) x i y : nth_error (l ++ [x]) i = Some y -> nth_error l i = Some y \/ (i = length l /\ y = x).
Proof.
  intros H. destruct (Nat.lt_ge_cases i (length l)) as [L|L]; [rewrite nth_error_app1 in H by auto; auto|].
  rewrite nth_error_app2 in H by auto. right. destruct (i - length l) as [|n] eqn:E; cbn in H; [injection H as ->; split; [lia | reflexivity]|].
  destruct n; discriminate.
Qed.
Lemma nth_last {A} (l : list A) x : nth_error (l ++ [x]) (length l) = Some x.
Proof. rewrite nth_error_app2 by auto. rewrite Nat.sub_diag. reflexivity. Qed.

(** The calls as one store sees them *)
Definition view1 (d : nat) (x : guard) : option (want * gstate) := if Nat.eqb (g_build x) d then Some (g_want x, g_state x) else None.
Definition view (d : nat) (gs : list guard) := map (view1 d) gs.
Definition vneed (v : list (option (want * gstate))) (g : nat) : N :=
  match nth_error v g with Some (Some (k, _)) => needs k | _ => 0%N end.
Definition held1 (o : option (want * gstate)) : N := match o with Some (k, GHeld) => needs k | _ => 0%N end.
Definition heldsum (v : list (option (want * gstate))) : N := fold_right (fun o n => (held1 o + n)%N) 0%N v.
Definition got (f : nat -> N) (q : list (nat * N)) : N := fold_right (fun e n => (f (fst e) - snd e + n)%N) 0%N q.
Definition sumf (f : nat -> N) (l : list nat) : N := fold_right (fun g n => (f g + n)%N) 0%N l.

Lemma heldsum_put v i o p : nth_error v i = Some o -> (heldsum (put_nth i p v) + held1 o = heldsum v + held1 p)%N.
Proof.
  revert i. induction v as [|x v IH]; intros [|i] H; cbn in *; try discriminate; [injection H as ->; lia|].
  specialize (IH i H). unfold heldsum in IH. lia.
Qed.
Lemma heldsum_snoc v o : heldsum (v ++ [o]) = (heldsum v + held1 o)%N.
Proof. induction v as [|x v IH]; cbn; [lia|]. unfold heldsum in IH. rewrite IH. lia. Qed.
Lemma heldsum_ge v i o : nth_error v i = Some o -> (held1 o <= heldsum v)%N.
Proof. revert i. induction v as [|x v IH]; intros [|i] H; cbn in *; try discriminate; [injection H as ->; lia|]. specialize (IH i H). unfold heldsum in IH. lia. Qed.
Lemma heldsum_ge2 v i j o p : nth_error v i = Some o -> nth_error v j = Some p -> i <> j -> (held1 o + held1 p <= heldsum v)%N.
Proof.
  intros A B n. pose proof (heldsum_put v i o None A) as H. cbn in H.
  assert (nth_error (put_nth i None v) j = Some p) as C by (rewrite put_other; auto).
  pose proof (heldsum_ge _ _ _ C). lia.
Qed.
Lemma needs_pos k : (1 <= needs k)%N. Proof. destruct k; unfold needs, MAX_READS; lia. Qed.
Lemma needs_max k : (needs k <= MAX_READS)%N. Proof. destruct k; unfold needs, MAX_READS; lia. Qed.

Lemma got_ext f f' q : (forall g n, In (g, n) q -> f g = f' g) -> got f q = got f' q.
Proof.
  induction q as [|[g n] q IH]; intros H; cbn; auto. unfold got in IH. rewrite IH; [|intros; eapply H; right; eauto].
  rewrite (H g n); [reflexivity | left; reflexivity].
Qed.
Lemma got_app f a b : got f (a ++ b) = (got f a + got f b)%N.
Proof. unfold got. induction a as [|[g n] a IH]; cbn; [reflexivity|]. rewrite IH. apply N.add_assoc. Qed.
Lemma got_zero f q : (forall g n, In (g, n) q -> n = f g) -> got f q = 0%N.
Proof. induction q as [|[g n] q IH]; intros H; cbn; auto. unfold got in IH. rewrite IH; [|intros; apply H; right; auto]. rewrite (H g n); [lia | left; reflexivity]. Qed.

(** Handing out permits *)
Definition good_entries (f : nat -> N) (q : list (nat * N)) := forall g n, In (g, n) q -> (1 <= n <= f g)%N.
Definition tail_full (f : nat -> N) (q : list (nat * N)) := forall g n, In (g, n) (tl q) -> n = f g.

Lemma give_spec f n q r q2 dn : give n q = (r, q2, dn) -> good_entries f q -> tail_full f q ->
  (n + got f q = r + got f q2 + sumf f dn)%N /\ map fst q = dn ++ map fst q2 /\ (q2 <> [] -> r = 0%N) /\ good_entries f q2 /\ tail_full f q2.
Proof.
  revert n r q2 dn. induction q as [|[g lack] q IH]; intros n r q2 dn H G T; cbn in H.
  { injection H as <- <- <-. cbn. split; [lia|]. split; [reflexivity|]. split; [congruence|]. split; intros ? ? []. }
  assert (G1 : (1 <= lack <= f g)%N) by (apply G; left; reflexivity).
  assert (Gq : good_entries f q) by (intros ? ? ?; apply G; right; auto).
  assert (Tq : tail_full f q) by (intros ? ? i; apply T; cbn; destruct q; [destruct i | right; exact i]).
  destruct (N.leb_spec lack n) as [L|L].
  - destruct (give (n - lack) q) as [[r1 q1] d1] eqn:E. injection H as <- <- <-.
    destruct (IH _ _ _ _ E Gq Tq) as (A & B & C & D & F). cbn. fold (sumf f d1). fold (got f q). rewrite B. split; [lia|]. split; [reflexivity|]. split; [exact C|]. split; assumption.
  - injection H as <- <- <-. cbn. fold (got f q). split; [lia|]. split; [reflexivity|]. split; [reflexivity|]. split.
    + intros h m [H|H]; [injection H as <- <-; lia | apply Gq in H; lia].
    + intros h m i. apply T. exact i.
Qed.

(** The invariant of one store, [n] permits being in nobody's hands *)
Record locked (n : N) (p : N) (q : list (nat * N)) (v : list (option (want * gstate))) : Prop := {
  lk_sorted : StronglySorted lt (map fst q);
  lk_queue : forall g m, In (g, m) q -> exists k, nth_error v g = Some (Some (k, GWaits)) /\ (1 <= m <= needs k)%N;
  lk_waits : forall g k, nth_error v g = Some (Some (k, GWaits)) -> In g (map fst q);
  lk_full : tail_full (vneed v) q;
  lk_none : q <> [] -> p = 0%N;
  lk_sum : (n + p + heldsum v + got (vneed v) q = MAX_READS)%N;
  lk_fifo : forall g k h, nth_error v g = Some (Some (k, GHeld)) -> In h (map fst q) -> g < h }.

Lemma locked_good n p q v : locked n p q v -> good_entries (vneed v) q.
Proof. intros L g m H. destruct (lk_queue _ _ _ _ L _ _ H) as (k & A & B). unfold vneed. rewrite A. exact B. Qed.

Definition vset (s : gstate) (v : list (option (want * gstate))) (g : nat) :=
  match nth_error v g with Some (Some (k, _)) => put_nth g (Some (k, s)) v | _ => v end.
Lemma vset_need s v g h : vneed (vset s v g) h = vneed v h.
Proof.
  unfold vset. destruct (nth_error v g) as [[[k s0]|]|] eqn:E; auto. unfold vneed.
  rewrite (put_case g _ _ v h E). destruct (Nat.eqb_spec g h) as [->|n]; auto. rewrite E. reflexivity.
Qed.
Lemma vset_at s v g h k t : nth_error v g = Some (Some (k, t)) -> nth_error (vset s v g) h = if Nat.eqb g h then Some (Some (k, s)) else nth_error v h.
Proof. intros E. unfold vset. rewrite E. apply (put_case g _ _ v h E). Qed.

Lemma grant_all dn v : (forall g, In g dn -> exists k, nth_error v g = Some (Some (k, GWaits))) -> NoDup dn -> forall v', v' = fold_left (vset GHeld) dn v ->
  length v' = length v /\ (forall h, vneed v' h = vneed v h) /\ heldsum v' = (heldsum v + sumf (vneed v) dn)%N /\
  (forall h k, nth_error v' h = Some (Some (k, GWaits)) <-> nth_error v h = Some (Some (k, GWaits)) /\ ~ In h dn) /\
  (forall h k, nth_error v' h = Some (Some (k, GHeld)) -> nth_error v h = Some (Some (k, GHeld)) \/ In h dn).
Proof.
  revert v. induction dn as [|g dn IH]; intros v H nd v' E; cbn in E.
  { subst v'. cbn. split; [auto|]. split; [auto|]. split; [lia|]. split; intros; tauto. }
  destruct (H g (or_introl eq_refl)) as (k & Eg).
  assert (ng : ~ In g dn) by (inversion nd; auto). assert (nd' : NoDup dn) by (inversion nd; auto).
  pose proof (fun h => vset_at GHeld v g h k GWaits Eg) as At.
  assert (H1 : forall h, In h dn -> exists k, nth_error (vset GHeld v g) h = Some (Some (k, GWaits))).
  { intros h i. rewrite At. destruct (Nat.eqb_spec g h) as [->|n]; [contradiction|]. apply H. right. exact i. }
  destruct (IH _ H1 nd' _ E) as (L & N1 & S1 & W & F). split; [|split; [|split; [|split]]].
  - rewrite L. unfold vset. rewrite Eg. apply put_length.
  - intros h. rewrite N1. apply vset_need.
  - rewrite S1. cbn. fold (sumf (vneed v) dn).
    assert (heldsum (vset GHeld v g) = heldsum v + vneed v g)%N as ->.
    { unfold vset, vneed. rewrite Eg. pose proof (heldsum_put v g _ (Some (k, GHeld)) Eg) as P. cbn in P. lia. }
    assert (sumf (vneed (vset GHeld v g)) dn = sumf (vneed v) dn) as ->.
    { clear -v g. induction dn as [|h dn IH]; cbn; auto. unfold sumf in IH. rewrite IH, vset_need. reflexivity. }
    lia.
  - intros h k0. rewrite W, At. destruct (Nat.eqb_spec g h) as [->|n].
    + split; [intros [X _]; discriminate | intros [_ X]; destruct X; left; reflexivity].
    + cbn. split; intros [X Y]; split; auto; try tauto; intros [|]; tauto.
  - intros h k0 X. apply F in X. destruct X as [X|X]; [|right; right; exact X]. rewrite At in X. destruct (Nat.eqb_spec g h) as [->|n]; [right; left; reflexivity | left; exact X].
Qed.

Lemma sorted_app_lt (a b : list nat) x y : StronglySorted lt (a ++ b) -> In x a -> In y b -> x < y.
Proof.
  induction a as [|z a IH]; cbn; intros H i j; [destruct i|]. apply StronglySorted_inv in H as [H F]. destruct i as [->|i]; [|auto].
  rewrite Forall_forall in F. apply F. apply in_or_app. auto.
Qed.
Lemma sorted_app_r (a b : list nat) : StronglySorted lt (a ++ b) -> StronglySorted lt b.
Proof. induction a as [|z a IH]; cbn; auto. intros H. apply StronglySorted_inv in H. tauto. Qed.
Lemma sorted_nodup (a b : list nat) : StronglySorted lt (a ++ b) -> NoDup a.
Proof.
  induction a as [|z a IH]; cbn; intros H; constructor; apply StronglySorted_inv in H as [H F]; auto.
  intros i. rewrite Forall_forall in F. specialize (F z). assert (z < z) by (apply F; apply in_or_app; auto). lia.
Qed.
Lemma sorted_all_nodup (a : list nat) : StronglySorted lt a -> NoDup a.
Proof. intros H. apply (sorted_nodup a []). rewrite app_nil_r. exact H. Qed.
Lemma in_fst (q : list (nat * N)) g : In g (map fst q) <-> exists n, In (g, n) q.
Proof. rewrite in_map_iff. split; [intros ([a b] & <- & H); exists b; exact H | intros (n & H); exists (g, n); auto]. Qed.

Lemma release_locked n p q v r q2 dn v' : locked n p q v -> give n q = (r, q2, dn) -> v' = fold_left (vset GHeld) dn v -> locked 0 (p + r)%N q2 v'.
Proof.
  intros L G E. pose proof (locked_good _ _ _ _ L) as GE.
  destruct (give_spec (vneed v) _ _ _ _ _ G GE (lk_full _ _ _ _ L)) as (A & B & C & D & F).
  pose proof (lk_sorted _ _ _ _ L) as So. rewrite B in So.
  assert (W : forall g, In g dn -> exists k, nth_error v g = Some (Some (k, GWaits))).
  { intros g i. assert (In g (map fst q)) as J by (rewrite B; apply in_or_app; auto). apply in_fst in J as (m & J).
    destruct (lk_queue _ _ _ _ L _ _ J) as (k & K & _). eauto. }
  destruct (grant_all dn v W (sorted_nodup _ _ So) v' E) as (Le & Ne & Su & Wa & He).
  assert (Q2 : forall g, In g (map fst q2) -> In g (map fst q)) by (intros g i; rewrite B; apply in_or_app; auto).
  split.
  - eapply sorted_app_r; eauto.
  - intros g m i. assert (J : In g (map fst q)) by (apply Q2; apply in_fst; eauto). apply in_fst in J as (m0 & J).
    destruct (lk_queue _ _ _ _ L _ _ J) as (k & K & _). exists k. split.
    + apply Wa. split; auto. intros i2. assert (g < g); [|lia]. eapply sorted_app_lt; eauto. apply in_fst. eauto.
    + apply D in i. unfold vneed in i. rewrite K in i. exact i.
  - intros g k H. apply Wa in H as [H nd]. apply (lk_waits _ _ _ _ L) in H. rewrite B in H. apply in_app_or in H. tauto.
  - intros g m i. rewrite Ne. apply F. exact i.
  - intros H. rewrite (C H). assert (q <> []) as Hq by (intros ->; cbn in B; destruct dn; [destruct q2; [auto | discriminate] | discriminate]).
    rewrite (lk_none _ _ _ _ L Hq). reflexivity.
  - pose proof (lk_sum _ _ _ _ L) as X. rewrite Su. rewrite (got_ext (vneed v') (vneed v)) by auto. lia.
  - intros g k h H i. apply He in H as [H|H].
    + eapply (lk_fifo _ _ _ _ L); eauto.
    + eapply sorted_app_lt; eauto.
Qed.

(** A held call is dropped *)
Lemma drop_held_locked p q v g k : locked 0 p q v -> nth_error v g = Some (Some (k, GHeld)) -> locked (needs k) p q (vset GGone v g).
Proof.
  intros L E. pose proof (fun h => vset_at GGone v g h k GHeld E) as At. split; try apply L.
  - intros h m i. destruct (lk_queue _ _ _ _ L _ _ i) as (k0 & A & B). exists k0. rewrite At. destruct (Nat.eqb_spec g h) as [->|n]; [congruence | auto].
  - intros h k0 H. rewrite At in H. destruct (Nat.eqb_spec g h) as [->|n]; [discriminate|]. eapply lk_waits; eauto.
  - intros h m i. rewrite vset_need. apply (lk_full _ _ _ _ L _ _ i).
  - rewrite (got_ext _ (vneed v)) by (intros; apply vset_need). pose proof (lk_sum _ _ _ _ L) as X.
    unfold vset. rewrite E. pose proof (heldsum_put v g _ (Some (k, GGone)) E) as P. cbn in P. lia.
  - intros h k0 j H i. rewrite At in H. destruct (Nat.eqb_spec g h) as [->|n]; [discriminate|]. eapply lk_fifo; eauto.
Qed.

Lemma lacks_in g q n : lacks g q = Some n -> In (g, n) q.
Proof. induction q as [|[h m] q IH]; cbn; [discriminate|]. destruct (Nat.eqb_spec g h) as [->|]; intros H; [injection H as ->; auto | auto]. Qed.
Lemma in_lacks g q n : NoDup (map fst q) -> In (g, n) q -> lacks g q = Some n.
Proof.
  induction q as [|[h m] q IH]; cbn; intros nd i; [destruct i|]. inversion nd as [|? ? nh nd']; subst.
  destruct (Nat.eqb_spec g h) as [->|ne]; destruct i as [i|i]; try (injection i as -> ->); auto; try congruence.
  destruct nh. apply in_fst. eauto.
Qed.
Lemma dequeue_in g q h n : In (h, n) (dequeue g q) <-> In (h, n) q /\ h <> g.
Proof. unfold dequeue. rewrite filter_In. cbn. rewrite Bool.negb_true_iff, Nat.eqb_neq. intuition. Qed.
Lemma dequeue_sorted g q : StronglySorted lt (map fst q) -> StronglySorted lt (map fst (dequeue g q)).
Proof.
  induction q as [|[h m] q IH]; cbn; intros H; auto. apply StronglySorted_inv in H as [H F]. cbn. destruct (negb (Nat.eqb g h)); cbn; auto.
  constructor; auto. rewrite Forall_forall in *. intros y i. apply F. apply in_fst in i as (n & i). apply dequeue_in in i as [i _]. apply in_fst. eauto.
Qed.
Lemma dequeue_got f g q n : NoDup (map fst q) -> In (g, n) q -> got f q = (got f (dequeue g q) + (f g - n))%N.
Proof.
  induction q as [|[h m] q IH]; cbn; intros nd i; [destruct i|]. inversion nd as [|? ? nh nd']; subst.
  destruct i as [i|i].
  - injection i as -> ->. rewrite Nat.eqb_refl. cbn. assert (dequeue g q = q) as D; [|unfold dequeue in D; rewrite D; unfold got; lia].
    clear -nh. unfold dequeue. induction q as [|[a b] q IH]; cbn in *; auto. destruct (Nat.eqb_spec g a) as [->|]; [destruct nh; left; reflexivity|]. cbn. rewrite IH; auto.
  - assert (g <> h) by (intros ->; apply nh; apply in_fst; eauto). destruct (Nat.eqb_spec g h); [congruence|]. cbn.
    specialize (IH nd' i). unfold got, dequeue in *. rewrite IH. lia.
Qed.
Lemma dequeue_head_or f g q : tail_full f q -> tail_full f (dequeue g q).
Proof.
  intros T h m i. destruct q as [|[a b] q]; cbn in i; [destruct i|]. unfold tail_full in T. cbn in T. cbn in i. destruct (negb (Nat.eqb g a)); cbn in i.
  - apply T. apply (dequeue_in g q h m) in i. tauto.
  - apply T. apply (dequeue_in g q h m). change (filter _ q) with (dequeue g q) in i. destruct (dequeue g q); [destruct i | right; exact i].
Qed.

(** A waiting call is dropped *)
Lemma drop_waiting_locked p q v g k n : locked 0 p q v -> nth_error v g = Some (Some (k, GWaits)) -> lacks g q = Some n ->
  locked (needs k - n)%N p (dequeue g q) (vset GGone v g).
Proof.
  intros L E La. pose proof (fun h => vset_at GGone v g h k GWaits E) as At. apply lacks_in in La.
  pose proof (sorted_all_nodup _ (lk_sorted _ _ _ _ L)) as nd. split.
  - apply dequeue_sorted. apply L.
  - intros h m i. apply dequeue_in in i as [i ne]. destruct (lk_queue _ _ _ _ L _ _ i) as (k0 & A & B). exists k0. rewrite At. destruct (Nat.eqb_spec g h) as [->|]; [congruence | auto].
  - intros h k0 H. rewrite At in H. destruct (Nat.eqb_spec g h) as [->|ne]; [discriminate|]. apply (lk_waits _ _ _ _ L) in H. apply in_fst in H as (m & H).
    apply in_fst. exists m. apply dequeue_in. auto.
  - intros h m i. rewrite vset_need. apply (dequeue_head_or _ g _ (lk_full _ _ _ _ L) _ _ i).
  - intros H. apply (lk_none _ _ _ _ L). intros ->. auto.
  - rewrite (got_ext _ (vneed v)) by (intros; apply vset_need). pose proof (lk_sum _ _ _ _ L) as X. rewrite (dequeue_got _ g q n nd La) in X.
    unfold vset. rewrite E. pose proof (heldsum_put v g _ (Some (k, GGone)) E) as P. cbn in P.
    assert (vneed v g = needs k) as Y by (unfold vneed; rewrite E; reflexivity). rewrite Y in X. lia.
  - intros h k0 j H i. rewrite At in H. destruct (Nat.eqb_spec g h) as [->|ne]; [discriminate|]. apply in_fst in i as (m & i). apply dequeue_in in i as [i _].
    eapply (lk_fifo _ _ _ _ L); eauto. apply in_fst. eauto.
Qed.

Lemma vneed_snoc v o g : g < length v -> vneed (v ++ [o]) g = vneed v g.
Proof. intros H. unfold vneed. rewrite nth_error_app1; auto. Qed.
Lemma queue_lt n p q v g m : locked n p q v -> In (g, m) q -> g < length v.
Proof. intros L i. destruct (lk_queue _ _ _ _ L _ _ i) as (k & A & _). eapply nth_lt; eauto. Qed.
Lemma sorted_snoc (l : list nat) x : StronglySorted lt l -> (forall y, In y l -> y < x) -> StronglySorted lt (l ++ [x]).
Proof.
  induction l as [|a l IH]; cbn; intros H F; [repeat constructor|]. apply StronglySorted_inv in H as [H G]. constructor; [apply IH; auto|].
  rewrite Forall_forall in *. intros y i. apply in_app_or in i as [i|[<-|[]]]; auto.
Qed.

(** A new call finds enough permits *)
Lemma ask_now_locked p q v k : locked 0 p q v -> (needs k <= p)%N -> locked 0 (p - needs k)%N q (v ++ [Some (k, GHeld)]).
Proof.
  intros L H. assert (Q : q = []).
  { destruct q; auto. pose proof (needs_pos k). rewrite (lk_none _ _ _ _ L) in H by discriminate. lia. }
  subst q. split.
  - constructor.
  - intros ? ? [].
  - intros g k0 E. apply nth_snoc in E as [E|[_ E]]; [|discriminate]. eapply (lk_waits _ _ _ _ L); eauto.
  - intros ? ? [].
  - congruence.
  - pose proof (lk_sum _ _ _ _ L) as X. cbn in X. rewrite heldsum_snoc. cbn. lia.
  - intros ? ? ? ? [].
Qed.

(** A new call queues *)
Lemma ask_wait_locked p q v k : locked 0 p q v -> (p < needs k)%N -> locked 0 0 (q ++ [(length v, (needs k - p)%N)]) (v ++ [Some (k, GWaits)]).
Proof.
  intros L H. split.
  - rewrite map_app. cbn. apply sorted_snoc; [apply L|]. intros y i. apply in_fst in i as (m & i). eapply queue_lt; eauto.
  - intros g m i. apply in_app_or in i as [i|[i|[]]].
    + pose proof (queue_lt _ _ _ _ _ _ L i). destruct (lk_queue _ _ _ _ L _ _ i) as (k0 & A & B). exists k0. rewrite nth_error_app1; auto.
    + injection i as <- <-. exists k. rewrite nth_last. split; auto. lia.
  - intros g k0 E. rewrite map_app. apply in_or_app. apply nth_snoc in E as [E|[E _]]; [left; eapply (lk_waits _ _ _ _ L); eauto | right; left; auto].
  - intros g m i. destruct q as [|e q]; cbn in i; [destruct i|]. apply in_app_or in i as [i|[i|[]]].
    + rewrite vneed_snoc; [apply (lk_full _ _ _ _ L _ _ i)|]. eapply (queue_lt _ _ _ _ g m L). right. exact i.
    + injection i as <- <-. rewrite (lk_none _ _ _ _ L) by discriminate. unfold vneed. rewrite nth_last. cbn. lia.
  - auto.
  - pose proof (lk_sum _ _ _ _ L) as X. rewrite heldsum_snoc, got_app. cbn. unfold vneed at 2. rewrite nth_last. cbn.
    rewrite (got_ext _ (vneed v)) by (intros; apply vneed_snoc; eapply queue_lt; eauto). lia.
  - intros g k0 h E i. apply nth_snoc in E as [E|[_ E]]; [|discriminate]. rewrite map_app in i. apply in_app_or in i as [i|[<-|[]]].
    + eapply (lk_fifo _ _ _ _ L); eauto.
    + cbn. eapply nth_lt; eauto.
Qed.

Lemma other_locked p q v : locked 0 p q v -> locked 0 p q (v ++ [None]).
Proof.
  intros L. split; try apply L.
  - intros g m i. pose proof (queue_lt _ _ _ _ _ _ L i). destruct (lk_queue _ _ _ _ L _ _ i) as (k0 & A & B). exists k0. rewrite nth_error_app1; auto.
  - intros g k E. apply nth_snoc in E as [E|[_ E]]; [|discriminate]. eapply (lk_waits _ _ _ _ L); eauto.
  - intros g m i. rewrite vneed_snoc; [apply (lk_full _ _ _ _ L _ _ i)|]. eapply (queue_lt _ _ _ _ g m L). destruct q; [destruct i | right; exact i].
  - rewrite heldsum_snoc. cbn. rewrite (got_ext _ (vneed v)) by (intros; apply vneed_snoc; eapply queue_lt; eauto). pose proof (lk_sum _ _ _ _ L). lia.
  - intros g k h E i. apply nth_snoc in E as [E|[_ E]]; [|discriminate]. eapply (lk_fifo _ _ _ _ L); eauto.
Qed.
