(** Runs of the shared data: every history keeps the locks in order and the maps up to date. *)
From Coq Require Import Lia Sorted.
From Verif Require Import Base BaseFacts Shared SpecShared SharedFacts.
Open Scope nat_scope.

#[global] Arguments view : simpl never.
Definition callof (x : guard) : call := mk_call (g_strand x) (g_build x) (g_conn x) (g_want x).

Lemma view_set d s gs g : view d (set_state s gs g) = vset s (view d gs) g.
Proof.
  unfold set_state, vset, view. rewrite nth_error_map. destruct (nth_error gs g) as [x|] eqn:E; cbn; [|reflexivity].
  rewrite map_put. unfold view1 at 1 3. cbn. destruct (Nat.eqb (g_build x) d) eqn:B; cbn; [reflexivity|].
  apply put_id. rewrite nth_error_map, E. cbn. unfold view1. rewrite B. reflexivity.
Qed.
Lemma view_grant d dn gs : view d (fold_left (set_state GHeld) dn gs) = fold_left (vset GHeld) dn (view d gs).
Proof. revert gs. induction dn as [|g dn IH]; intros gs; cbn [fold_left]; auto. rewrite IH, view_set. reflexivity. Qed.
Lemma nth_view d gs g : nth_error (view d gs) g = option_map (view1 d) (nth_error gs g).
Proof. apply nth_error_map. Qed.
Lemma view_at d gs g k s : nth_error (view d gs) g = Some (Some (k, s)) <-> exists x, nth_error gs g = Some x /\ g_build x = d /\ g_want x = k /\ g_state x = s.
Proof.
  rewrite nth_view. split.
  - destruct (nth_error gs g) as [x|]; cbn; [|discriminate]. unfold view1. destruct (Nat.eqb_spec (g_build x) d); [|discriminate].
    intros H. injection H as H1 H2. exists x. auto.
  - intros (x & -> & <- & <- & <-). cbn. unfold view1. rewrite Nat.eqb_refl. reflexivity.
Qed.
Lemma nth_set s gs g h : nth_error (set_state s gs g) h = option_map (fun x => if Nat.eqb g h then with_state x s else x) (nth_error gs h).
Proof.
  unfold set_state. destruct (nth_error gs g) as [x|] eqn:E.
  - rewrite (put_case g _ _ gs h E). destruct (Nat.eqb_spec g h) as [->|]; [rewrite E; reflexivity | destruct (nth_error gs h); reflexivity].
  - destruct (Nat.eqb_spec g h) as [->|]; [rewrite E; reflexivity | destruct (nth_error gs h); reflexivity].
Qed.
Lemma nth_grant dn gs h : nth_error (fold_left (set_state GHeld) dn gs) h = option_map (fun x => if existsb (fun g => Nat.eqb g h) dn then with_state x GHeld else x) (nth_error gs h).
Proof.
  revert gs. induction dn as [|g dn IH]; intros gs; cbn [fold_left existsb]; [destruct (nth_error gs h); reflexivity|].
  rewrite IH, nth_set. destruct (nth_error gs h) as [x|]; cbn; auto. destruct (Nat.eqb g h), (existsb _ dn); reflexivity.
Qed.
Lemma calls_set s gs g : map callof (set_state s gs g) = map callof gs.
Proof.
  unfold set_state. destruct (nth_error gs g) as [x|] eqn:E; auto. rewrite map_put. apply put_id. rewrite nth_error_map, E. reflexivity.
Qed.
Lemma calls_grant dn gs : map callof (fold_left (set_state GHeld) dn gs) = map callof gs.
Proof. revert gs. induction dn as [|g dn IH]; intros gs; cbn [fold_left]; auto. rewrite IH. apply calls_set. Qed.
Lemma existsb_eqb dn h : existsb (fun g => Nat.eqb g h) dn = true <-> In h dn.
Proof. rewrite existsb_exists. split; [intros (x & i & E); apply Nat.eqb_eq in E; subst; auto | intros i; exists h; rewrite Nat.eqb_refl; auto]. Qed.

Section Runs.
  Context {Val : Type}.
  Implicit Type w : world Val.

  Record winv w : Prop := {
    wi_store : forall d s, nth_error (w_stores w) d = Some s -> locked 0 (s_permits s) (s_queue s) (view d (w_guards w));
    wi_guard : forall g x, nth_error (w_guards w) g = Some x -> g_build x < length (w_stores w) }.

  (** what [release] does, given that a call of store [d] was just dropped *)
  Lemma release_inv w d s n q gs1 : winv w -> nth_error (w_stores w) d = Some s ->
    (forall g x, nth_error gs1 g = Some x -> g_build x < length (w_stores w)) ->
    (forall d', d' <> d -> view d' gs1 = view d' (w_guards w)) -> locked n (s_permits s) q (view d gs1) ->
    forall w', w' = release (mk_world (w_stores w) gs1) d s n q ->
    winv w' /\ (exists dn, (forall g, In g dn -> exists x, nth_error gs1 g = Some x /\ g_state x = GWaits) /\ w_guards w' = fold_left (set_state GHeld) dn gs1) /\
    length (w_stores w') = length (w_stores w) /\ (forall d' s', nth_error (w_stores w') d' = Some s' -> exists s0, nth_error (w_stores w) d' = Some s0 /\ s_map s' = s_map s0).
  Proof.
    intros I E G V L w' ->. unfold release. destruct (give n q) as [[r q2] dn] eqn:Gv. cbn.
    pose proof (release_locked _ _ _ _ _ _ _ _ L Gv eq_refl) as L2.
    assert (W : forall g, In g dn -> exists x, nth_error gs1 g = Some x /\ g_build x = d /\ g_state x = GWaits).
    { intros g i. pose proof (give_spec _ _ _ _ _ _ Gv (locked_good _ _ _ _ L) (lk_full _ _ _ _ L)) as (_ & B & _).
      assert (J : In g (map fst q)) by (rewrite B; apply in_or_app; auto). apply in_fst in J as (m & J).
      destruct (lk_queue _ _ _ _ L _ _ J) as (k & K & _). apply view_at in K as (x & A1 & A2 & A3 & A4). eauto. }
    split; [|split; [|split]].
    - split; cbn.
      + intros d' s' E'. rewrite (put_case d _ _ (w_stores w) d' E) in E'. destruct (Nat.eqb_spec d d') as [->|ne].
        * injection E' as <-. cbn. rewrite view_grant. exact L2.
        * assert (view d' (fold_left (set_state GHeld) dn gs1) = view d' (w_guards w)) as ->; [|eapply wi_store; eauto].
          rewrite view_grant. rewrite <- (V d') by auto. clear -W ne. induction dn as [|g dn IH]; cbn; auto.
          assert (vset GHeld (view d' gs1) g = view d' gs1) as ->; [|apply IH; intros; apply W; right; auto].
          destruct (W g (or_introl eq_refl)) as (x & A & B & C). unfold vset. rewrite nth_view, A. cbn. unfold view1.
          destruct (Nat.eqb_spec (g_build x) d'); [congruence | reflexivity].
      + intros g x E'. rewrite put_length. rewrite nth_grant in E'. destruct (nth_error gs1 g) as [y|] eqn:Ey; cbn in E'; [|discriminate].
        injection E' as <-. destruct (existsb _ dn); cbn; eapply G; eauto.
    - exists dn. split; [|reflexivity]. intros g i. destruct (W g i) as (x & A & B & C). eauto.
    - apply put_length.
    - intros d' s' E'. rewrite (put_case d _ _ (w_stores w) d' E) in E'. destruct (Nat.eqb_spec d d') as [->|ne].
      + injection E' as <-. exists s. auto.
      + eauto.
  Qed.

  Lemma set_map_inv w d s m : winv w -> nth_error (w_stores w) d = Some s -> winv (set_map w d s m).
  Proof.
    intros I E. split; cbn.
    - intros d' s' E'. rewrite (put_case d _ _ (w_stores w) d' E) in E'. destruct (Nat.eqb_spec d d') as [->|ne].
      + injection E' as <-. cbn. apply (wi_store _ I _ _ E).
      + eapply wi_store; eauto.
    - intros g x H. rewrite put_length. eapply wi_guard; eauto.
  Qed.

  Lemma usable_at w g x s : usable w g = Some (x, s) -> nth_error (w_guards w) g = Some x /\ g_state x = GHeld /\ waits (g_strand x) (w_guards w) = false /\ nth_error (w_stores w) (g_build x) = Some s.
  Proof.
    unfold usable. destruct (nth_error (w_guards w) g) as [y|]; [|discriminate]. destruct (g_state y) eqn:Sy; try discriminate.
    destruct (waits _ _) eqn:W; try discriminate. destruct (nth_error (w_stores w) _) eqn:E; try discriminate. intros H. injection H as <- <-. auto.
  Qed.

  (** An existing call is dropped *)
  Lemma drop_case w g w' o : winv w -> step w (ADrop g) = Some (w', o) -> exists x dn,
    nth_error (w_guards w) g = Some x /\ g_state x <> GGone /\ winv w' /\
    (forall h, In h dn -> exists y, nth_error (set_state GGone (w_guards w) g) h = Some y /\ g_state y = GWaits) /\
    w_guards w' = fold_left (set_state GHeld) dn (set_state GGone (w_guards w) g) /\ length (w_stores w') = length (w_stores w) /\
    (forall d' s', nth_error (w_stores w') d' = Some s' -> exists s0, nth_error (w_stores w) d' = Some s0 /\ s_map s' = s_map s0).
  Proof.
    intros I H. cbn in H. destruct (nth_error (w_guards w) g) as [x|] eqn:E; [|discriminate].
    destruct (nth_error (w_stores w) (g_build x)) as [s|] eqn:Es; [|discriminate].
    assert (X : put_nth g (with_state x GGone) (w_guards w) = set_state GGone (w_guards w) g) by (unfold set_state; rewrite E; reflexivity).
    rewrite X in H. set (gs1 := set_state GGone (w_guards w) g) in *.
    assert (G : forall h y, nth_error gs1 h = Some y -> g_build y < length (w_stores w)).
    { intros h y F. unfold gs1 in F. rewrite nth_set in F. destruct (nth_error (w_guards w) h) as [z|] eqn:Ez; cbn in F; [|discriminate].
      injection F as <-. destruct (Nat.eqb g h); cbn; eapply wi_guard; eauto. }
    assert (V : forall d', d' <> g_build x -> view d' gs1 = view d' (w_guards w)).
    { intros d' ne. unfold gs1. rewrite view_set. unfold vset. rewrite nth_view, E. cbn. unfold view1. destruct (Nat.eqb_spec (g_build x) d'); [congruence | reflexivity]. }
    assert (Vw : forall st, g_state x = st -> nth_error (view (g_build x) (w_guards w)) g = Some (Some (g_want x, st))).
    { intros st Hst. apply view_at. exists x. auto. }
    destruct (g_state x) eqn:Sx; [| |discriminate].
    - destruct (lacks g (s_queue s)) as [n|] eqn:La; [|discriminate]. injection H as H _.
      pose proof (drop_waiting_locked _ _ _ _ _ _ (wi_store _ I _ _ Es) (Vw _ eq_refl) La) as L.
      assert (L' : locked (needs (g_want x) - n) (s_permits s) (dequeue g (s_queue s)) (view (g_build x) gs1)) by (unfold gs1; rewrite view_set; exact L).
      destruct (release_inv w (g_build x) s _ _ gs1 I Es G V L' w' (eq_sym H)) as (A & (dn & B1 & B2) & C & D).
      exists x, dn. split; [reflexivity|]. split; [rewrite Sx; discriminate|]. split; [exact A|]. split; [exact B1|]. split; [exact B2|]. split; [exact C | exact D].
    - destruct (waits (g_strand x) (w_guards w)); [discriminate|]. injection H as H _.
      pose proof (drop_held_locked _ _ _ _ _ (wi_store _ I _ _ Es) (Vw _ eq_refl)) as L.
      assert (L' : locked (needs (g_want x)) (s_permits s) (s_queue s) (view (g_build x) gs1)) by (unfold gs1; rewrite view_set; exact L).
      destruct (release_inv w (g_build x) s _ _ gs1 I Es G V L' w' (eq_sym H)) as (A & (dn & B1 & B2) & C & D).
      exists x, dn. split; [reflexivity|]. split; [rewrite Sx; discriminate|]. split; [exact A|]. split; [exact B1|]. split; [exact B2|]. split; [exact C | exact D].
  Qed.

  (** A new call *)
  Lemma ask_case w st d c k w' o : winv w -> step w (AAsk st d c k) = Some (w', o) -> exists t,
    t <> GGone /\ waits st (w_guards w) = false /\ d < length (w_stores w) /\ winv w' /\ w_guards w' = w_guards w ++ [mk_guard st d c k t] /\ length (w_stores w') = length (w_stores w) /\
    (forall d' s', nth_error (w_stores w') d' = Some s' -> exists s0, nth_error (w_stores w) d' = Some s0 /\ s_map s' = s_map s0).
  Proof.
    intros I H. cbn in H. destruct (waits st (w_guards w)) eqn:W; [discriminate|]. destruct (nth_error (w_stores w) d) as [s|] eqn:Es; [|discriminate].
    pose proof (wi_store _ I _ _ Es) as L.
    assert (Len : length (view d (w_guards w)) = length (w_guards w)) by apply map_length.
    assert (Oth : forall t d', d' <> d -> forall s', nth_error (w_stores w) d' = Some s' -> locked 0 (s_permits s') (s_queue s') (view d' (w_guards w ++ [mk_guard st d c k t]))).
    { intros t d' ne s' E'. unfold view. rewrite map_app. cbn. unfold view1 at 2. cbn. destruct (Nat.eqb_spec d d'); [congruence|]. apply other_locked. apply (wi_store _ I _ _ E'). }
    assert (Own : forall t, view d (w_guards w ++ [mk_guard st d c k t]) = view d (w_guards w) ++ [Some (k, t)]).
    { intros t. unfold view. rewrite map_app. cbn. unfold view1 at 2. cbn. rewrite Nat.eqb_refl. reflexivity. }
    destruct (N.leb_spec (needs k) (s_permits s)) as [Le|Gt]; injection H as <- <-; [exists GHeld | exists GWaits].
    all: split; [discriminate|]; split; [reflexivity|]; split; [apply nth_error_Some; rewrite Es; discriminate|]; split; [|split; [reflexivity|]; split; [apply put_length|]].
    - split; cbn.
      + intros d' s' E'. rewrite (put_case d _ _ (w_stores w) d' Es) in E'. destruct (Nat.eqb_spec d d') as [->|ne].
        * injection E' as <-. rewrite Own. cbn. apply ask_now_locked; auto.
        * apply Oth; auto.
      + intros g x E'. rewrite put_length. apply nth_snoc in E' as [E'|[_ ->]]; [eapply wi_guard; eauto | cbn; eapply nth_lt; eauto].
    - cbn. intros d' s' E'. rewrite (put_case d _ _ (w_stores w) d' Es) in E'. destruct (Nat.eqb_spec d d') as [->|ne]; [injection E' as <-; exists s; auto | eauto].
    - split; cbn.
      + intros d' s' E'. rewrite (put_case d _ _ (w_stores w) d' Es) in E'. destruct (Nat.eqb_spec d d') as [->|ne].
        * injection E' as <-. rewrite Own. cbn. rewrite <- Len. apply ask_wait_locked; auto.
        * apply Oth; auto.
      + intros g x E'. rewrite put_length. apply nth_snoc in E' as [E'|[_ ->]]; [eapply wi_guard; eauto | cbn; eapply nth_lt; eauto].
    - cbn. intros d' s' E'. rewrite (put_case d _ _ (w_stores w) d' Es) in E'. destruct (Nat.eqb_spec d d') as [->|ne]; [injection E' as <-; exists s; auto | eauto].
  Qed.

  Lemma step_inv w a w' o : winv w -> step w a = Some (w', o) -> winv w'.
  Proof.
    intros I H. destruct a as [m|st d c k|g|g k|g k v|g k].
    - cbn in H. injection H as <- _. split; cbn.
      + intros d s E. apply nth_snoc in E as [E|[-> ->]]; [apply (wi_store _ I _ _ E)|]. cbn.
        assert (V : forall gs, (forall g x, nth_error gs g = Some x -> g_build x < length (w_stores w)) -> forall g, nth_error (view (length (w_stores w)) gs) g = None \/ nth_error (view (length (w_stores w)) gs) g = Some None).
        { intros gs Hg g. rewrite nth_view. destruct (nth_error gs g) as [x|] eqn:E; cbn; auto. unfold view1. apply Hg in E. destruct (Nat.eqb_spec (g_build x) (length (w_stores w))); [lia | auto]. }
        specialize (V _ (wi_guard _ I)). set (v := view _ _) in *. split.
        * constructor.
        * intros ? ? [].
        * intros g k E. destruct (V g) as [Q|Q]; rewrite Q in E; discriminate.
        * intros ? ? [].
        * congruence.
        * assert (heldsum v = 0%N) as ->; [|reflexivity]. clearbody v. induction v as [|y v IH]; auto. cbn.
          destruct (V 0) as [Q|Q]; cbn in Q; [discriminate|]. injection Q as ->. cbn. apply IH. intros g. apply (V (S g)).
        * intros ? ? ? ? [].
      + intros g x E. rewrite app_length. cbn. pose proof (wi_guard _ I _ _ E). lia.
    - destruct (ask_case _ _ _ _ _ _ _ I H) as (t & _ & _ & _ & X & _). exact X.
    - destruct (drop_case _ _ _ _ I H) as (x & dn & _ & _ & X & _). exact X.
    - cbn in H. destruct (usable w g) as [[x s]|]; [|discriminate]. injection H as <- _. exact I.
    - cbn in H. destruct (usable w g) as [[x s]|] eqn:U; [|discriminate]. destruct (g_want x); [discriminate|]. injection H as <- _. apply set_map_inv; auto. eapply usable_at; eauto.
    - cbn in H. destruct (usable w g) as [[x s]|] eqn:U; [|discriminate]. destruct (g_want x); [discriminate|]. injection H as <- _. apply set_map_inv; auto. eapply usable_at; eauto.
  Qed.

  Lemma run_app w l l' : run w (l ++ l') = match run w l with Some (w1, o1) => match run w1 l' with Some (w2, o2) => Some (w2, o1 ++ o2) | None => None end | None => None end.
  Proof.
    revert w. induction l as [|a l IH]; intros w; cbn; [destruct (run w l') as [[? ?]|]; reflexivity|].
    destruct (step w a) as [[w1 o]|]; auto. rewrite IH. destruct (run w1 l) as [[w2 o2]|]; auto. destruct (run w2 l') as [[w3 o3]|]; reflexivity.
  Qed.
  Lemma history_snoc l a os w : history (l ++ [a]) os w <-> exists w0 os0 o, history l os0 w0 /\ step w0 a = Some (w, o) /\ os = os0 ++ [o].
  Proof.
    unfold history. rewrite run_app. split.
    - destruct (run fresh l) as [[w0 os0]|]; [|discriminate]. cbn. destruct (step w0 a) as [[w1 o]|] eqn:E; [|discriminate]. intros H. injection H as <- <-. exists w0, os0, o. auto.
    - intros (w0 & os0 & o & -> & E & ->). cbn. rewrite E. reflexivity.
  Qed.
  Lemma history_app l l' os w : history (l ++ l') os w -> exists w0 os0 os1, history l os0 w0 /\ run w0 l' = Some (w, os1) /\ os = os0 ++ os1.
  Proof.
    unfold history. rewrite run_app. destruct (run fresh l) as [[w0 os0]|]; [|discriminate]. destruct (run w0 l') as [[w1 o]|] eqn:E; [|discriminate].
    intros H. injection H as <- <-. exists w0, os0, o. auto.
  Qed.

  Record hist (l : list (act Val)) w : Prop := {
    hi_inv : winv w;
    hi_calls : map callof (w_guards w) = calls l;
    hi_gone : forall g x, nth_error (w_guards w) g = Some x -> (g_state x = GGone <-> dropped l g);
    hi_range : forall g, dropped l g -> g < length (w_guards w);
    hi_stores : length (w_stores w) = length (builds l);
    hi_latest : forall d s k, nth_error (w_stores w) d = Some s -> latest l d k (lookup N.eqb k (s_map s)) }.

  Lemma calls_app l l' : @calls Val (l ++ l') = calls l ++ calls l'. Proof. apply flat_map_app. Qed.
  Lemma builds_app l l' : @builds Val (l ++ l') = builds l ++ builds l'. Proof. apply flat_map_app. Qed.
  Lemma dropped_snoc l a g : @dropped Val (l ++ [a]) g <-> dropped l g \/ a = ADrop g.
  Proof. unfold dropped. rewrite in_app_iff. cbn. intuition. Qed.
  Lemma hist_made l w g x : hist l w -> nth_error (w_guards w) g = Some x -> made l g (g_build x) (g_want x).
  Proof. intros H E. exists (callof x). rewrite <- (hi_calls _ _ H), nth_error_map, E. auto. Qed.
  Lemma made_at l w g d k : hist l w -> made l g d k -> exists x, nth_error (w_guards w) g = Some x /\ g_build x = d /\ g_want x = k.
  Proof.
    intros H (y & A & B & C). rewrite <- (hi_calls _ _ H), nth_error_map in A. destruct (nth_error (w_guards w) g) as [x|]; cbn in A; [|discriminate].
    injection A as <-. exists x. auto.
  Qed.
  Lemma made_by_at l w g st : hist l w -> made_by l g st -> exists x, nth_error (w_guards w) g = Some x /\ g_strand x = st.
  Proof.
    intros H (y & A & B). rewrite <- (hi_calls _ _ H), nth_error_map in A. destruct (nth_error (w_guards w) g) as [x|]; cbn in A; [|discriminate].
    injection A as <-. exists x. auto.
  Qed.

  Lemma latest_keep l a d k o : latest l d k o -> match a with APut _ _ _ | ARemove _ _ | ABuild _ => False | _ => True end -> @latest Val (l ++ [a]) d k o.
  Proof. intros H F. apply la_other; auto; intros; subst; destruct F. Qed.

  Lemma history_hist l : forall os w, history l os w -> hist l w.
  Proof.
    induction l as [|a l IH] using rev_ind; intros os w H.
    { unfold history in H. cbn in H. injection H as <- <-. split; cbn; auto.
      - split; cbn; intros i ? H; destruct i; discriminate.
      - intros g x H. destruct g; discriminate.
      - intros g [].
      - intros d s k H. destruct d; discriminate. }
    apply history_snoc in H as (w0 & os0 & o & H & E & ->). specialize (IH _ _ H) as Hi. pose proof (hi_inv _ _ Hi) as I.
    pose proof (step_inv _ _ _ _ I E) as I'.
    assert (Keep : w_guards w = w_guards w0 -> match a with AAsk _ _ _ _ | ADrop _ => False | _ => True end ->
      map callof (w_guards w) = calls (l ++ [a]) /\ (forall g x, nth_error (w_guards w) g = Some x -> (g_state x = GGone <-> dropped (l ++ [a]) g)) /\ (forall g, dropped (l ++ [a]) g -> g < length (w_guards w))).
    { intros -> F. rewrite calls_app. assert (calls [a] = []) as -> by (destruct a; [reflexivity | destruct F | destruct F | reflexivity..]).
      rewrite app_nil_r. split; [apply Hi|]. assert (D : forall g, dropped (l ++ [a]) g <-> dropped l g).
      { intros g. rewrite dropped_snoc. split; auto. intros [|X]; auto. subst a. destruct F. }
      split; [intros g x Ex; rewrite D; eapply hi_gone; eauto | intros g X; apply D in X; eapply hi_range; eauto]. }
    destruct a as [m|st d c k|g|g k|g k v|g k].
    - cbn in E. injection E as <- _. destruct (Keep eq_refl Logic.I) as (A & B & C). split; auto; cbn.
      + rewrite builds_app. cbn. rewrite !app_length. cbn. rewrite (hi_stores _ _ Hi). reflexivity.
      + intros d s k E. apply nth_snoc in E as [E|[-> ->]]; cbn.
        * apply la_other; [eapply hi_latest; eauto | intros _ _; rewrite <- (hi_stores _ _ Hi); apply nth_lt in E; lia | discriminate | discriminate].
        * rewrite (hi_stores _ _ Hi). apply la_build.
    - destruct (ask_case _ _ _ _ _ _ _ I E) as (t & nt & _ & _ & _ & G & Ls & M). split; auto.
      + rewrite G, map_app, calls_app, (hi_calls _ _ Hi). reflexivity.
      + intros g x Ex. rewrite G in Ex. rewrite dropped_snoc. apply nth_snoc in Ex as [Ex|[-> ->]].
        * rewrite (hi_gone _ _ Hi _ _ Ex). split; auto. intros [|X]; [auto | discriminate].
        * cbn. split; [congruence|]. intros [X|X]; [apply (hi_range _ _ Hi) in X; lia | discriminate].
      + intros g X. rewrite G, app_length. apply dropped_snoc in X as [X|X]; [apply (hi_range _ _ Hi) in X; lia | discriminate].
      + rewrite Ls, builds_app. cbn. rewrite app_nil_r. apply Hi.
      + intros d' s' k' Es. destruct (M _ _ Es) as (s0 & E0 & ->). apply latest_keep; [eapply hi_latest; eauto | exact Logic.I].
    - destruct (drop_case _ _ _ _ I E) as (x & dn & Ex & nx & _ & Dn & G & Ls & M). split; auto.
      + rewrite G, calls_grant, calls_set, calls_app. cbn. rewrite app_nil_r. apply Hi.
      + intros h y Ey. rewrite G, nth_grant, nth_set in Ey. rewrite dropped_snoc. destruct (nth_error (w_guards w0) h) as [z|] eqn:Ez; cbn in Ey; [|discriminate].
        destruct (existsb (fun g => Nat.eqb g h) dn) eqn:X.
        * apply existsb_eqb in X. destruct (Dn h X) as (u & U1 & U2). rewrite nth_set, Ez in U1. cbn in U1. injection U1 as U1.
          injection Ey as <-. cbn. split; [discriminate|]. intros [Y|Y].
          -- apply (hi_gone _ _ Hi _ _ Ez) in Y. destruct (Nat.eqb g h); subst u; cbn in U2; congruence.
          -- injection Y as ->. rewrite Nat.eqb_refl in U1. subst u. cbn in U2. discriminate.
        * injection Ey as <-. destruct (Nat.eqb_spec g h) as [->|ne]; cbn.
          -- split; auto.
          -- rewrite (hi_gone _ _ Hi _ _ Ez). split; auto. intros [|Y]; auto. injection Y as ->. congruence.
      + intros h X. rewrite G. assert (Len : forall dn' gs, length (fold_left (set_state GHeld) dn' gs) = length gs).
        { intros dn' gs. rewrite <- (map_length callof), calls_grant, map_length. reflexivity. }
        rewrite Len. assert (length (set_state GGone (w_guards w0) g) = length (w_guards w0)) as -> by (rewrite <- (map_length callof), calls_set, map_length; reflexivity).
        apply dropped_snoc in X as [X|X]; [apply (hi_range _ _ Hi _ X) | injection X as ->; eapply nth_lt; eauto].
      + rewrite Ls, builds_app. cbn. rewrite app_nil_r. apply Hi.
      + intros d' s' k' Es. destruct (M _ _ Es) as (s0 & E0 & ->). apply latest_keep; [eapply hi_latest; eauto | exact Logic.I].
    - cbn in E. destruct (usable w0 g) as [[x s]|]; [|discriminate]. injection E as <- _. destruct (Keep eq_refl Logic.I) as (A & B & C). split; auto.
      + rewrite builds_app. cbn. rewrite app_nil_r. apply Hi.
      + intros. apply latest_keep; [eapply hi_latest; eauto | exact Logic.I].
    - cbn in E. destruct (usable w0 g) as [[x s]|] eqn:U; [|discriminate]. destruct (g_want x) eqn:Wx; [discriminate|]. injection E as <- _.
      apply usable_at in U as (U1 & U2 & U3 & U4). destruct (Keep eq_refl Logic.I) as (A & B & C). split; auto.
      + cbn. rewrite put_length, builds_app. cbn. rewrite app_nil_r. apply Hi.
      + intros d' s' k' Es. cbn in Es. rewrite (put_case _ _ _ _ d' U4) in Es. pose proof (hist_made _ _ _ _ Hi U1) as Mg. rewrite Wx in Mg.
        destruct (Nat.eqb_spec (g_build x) d') as [<-|ne].
        * injection Es as <-. cbn [s_map]. destruct (N.eq_dec k k') as [->|nk].
          -- rewrite lookup_insert_eq by apply N.eqb_eq. apply la_put. exact Mg.
          -- rewrite lookup_insert_ne by (try apply N.eqb_eq; auto). apply la_other; [eapply hi_latest; eauto | discriminate | intros ? ? X; injection X; congruence | discriminate].
        * apply la_other; [eapply hi_latest; eauto | discriminate | intros ? ? X M | discriminate]. injection X as <- <- <-. destruct M as (y & Y1 & Y2 & _), Mg as (z & Z1 & Z2 & _). congruence.
    - cbn in E. destruct (usable w0 g) as [[x s]|] eqn:U; [|discriminate]. destruct (g_want x) eqn:Wx; [discriminate|]. injection E as <- _.
      apply usable_at in U as (U1 & U2 & U3 & U4). destruct (Keep eq_refl Logic.I) as (A & B & C). split; auto.
      + cbn. rewrite put_length, builds_app. cbn. rewrite app_nil_r. apply Hi.
      + intros d' s' k' Es. cbn in Es. rewrite (put_case _ _ _ _ d' U4) in Es. pose proof (hist_made _ _ _ _ Hi U1) as Mg. rewrite Wx in Mg.
        destruct (Nat.eqb_spec (g_build x) d') as [<-|ne].
        * injection Es as <-. cbn [s_map]. destruct (N.eq_dec k k') as [->|nk].
          -- rewrite lookup_remove_eq by apply N.eqb_eq. apply la_remove. exact Mg.
          -- rewrite lookup_remove_ne by (try apply N.eqb_eq; auto). apply la_other; [eapply hi_latest; eauto | discriminate | discriminate | intros ? X; injection X; congruence].
        * apply la_other; [eapply hi_latest; eauto | discriminate | discriminate | intros ? X M]. injection X as <- <-. destruct M as (y & Y1 & Y2 & _), Mg as (z & Z1 & Z2 & _). congruence.
  Qed.
End Runs.
