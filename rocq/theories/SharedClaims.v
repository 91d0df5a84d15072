(** The claims about the shared data, from the invariants. *)
From Coq Require Import Lia Sorted.
From Verif Require Import Base BaseFacts Shared SpecShared SharedFacts SharedRuns.
Open Scope nat_scope.

Section Claims.
  Context {Val : Type}.
  Implicit Type w : world Val.

  Lemma made_prefix (l l' : list (act Val)) g d k : made l g d k -> made (l ++ l') g d k.
  Proof. intros (x & A & B). exists x. split; [|exact B]. rewrite calls_app, nth_error_app1; auto. eapply nth_lt; eauto. Qed.
  Lemma made_fun (l : list (act Val)) g d k d' k' : made l g d k -> made l g d' k' -> d = d' /\ k = k'.
  Proof. intros (x & A & B & C) (y & D & E & F). rewrite A in D. injection D as <-. subst. auto. Qed.
  Lemma made_by_prefix (l l' : list (act Val)) g s : made_by l g s -> made_by (l ++ l') g s.
  Proof. intros (x & A & B). exists x. split; [|exact B]. rewrite calls_app, nth_error_app1; auto. eapply nth_lt; eauto. Qed.
  Lemma made_dec (l : list (act Val)) g d k : made l g d k \/ ~ made l g d k.
  Proof.
    unfold made. destruct (nth_error (calls l) g) as [x|]; [|right; intros (x & X & _); discriminate].
    destruct (Nat.eq_dec (call_build x) d) as [E|E]; [|right; intros (y & Y & Z & _); congruence].
    destruct (call_want x) eqn:Wx, k; [left; eauto | right; intros (y & Y & _ & Z); congruence | right; intros (y & Y & _ & Z); congruence | left; eauto].
  Qed.

  (** [latest] turned around *)
  Lemma latest_inv (l : list (act Val)) a d k o : latest (l ++ [a]) d k o ->
    (exists m, a = ABuild m /\ d = length (builds l) /\ o = lookup N.eqb k m) \/
    (exists g v, a = APut g k v /\ made l g d ForWrite /\ o = Some v) \/
    (exists g, a = ARemove g k /\ made l g d ForWrite /\ o = None) \/
    (latest l d k o /\ (forall m, a = ABuild m -> d <> length (builds l)) /\ (forall g v, a = APut g k v -> ~ made l g d ForWrite) /\ (forall g, a = ARemove g k -> ~ made l g d ForWrite)).
  Proof.
    intros H. remember (l ++ [a]) as la eqn:E.
    destruct H; apply app_inj_tail in E as [-> <-].
    - left. eauto.
    - right; left. eauto.
    - right; right; left. eauto.
    - right; right; right. auto.
  Qed.
  Lemma latest_fun (l : list (act Val)) : forall d k o o', latest l d k o -> latest l d k o' -> o = o'.
  Proof.
    induction l as [|a l IH] using rev_ind; intros d k o o' H H'; [inversion H; destruct l; discriminate|].
    apply latest_inv in H. apply latest_inv in H'.
    destruct H as [(m & A & B & C)|[(g & v & A & B & C)|[(g & A & B & C)|(A & B & C & D)]]],
             H' as [(m' & A' & B' & C')|[(g' & v' & A' & B' & C')|[(g' & A' & B' & C')|(A' & B' & C' & D')]]];
      try congruence; try (subst a; exfalso; eauto; fail).
    - exfalso. eapply B'; eauto.
    - exfalso. eapply C'; eauto.
    - exfalso. eapply D'; eauto.
    - exfalso. eapply B; eauto.
    - exfalso. eapply C; eauto.
    - exfalso. eapply D; eauto.
    - eapply IH; eauto.
  Qed.
  Lemma latest_exists (l : list (act Val)) : forall d k, d < length (builds l) -> exists o, latest l d k o.
  Proof.
    induction l as [|a l IH] using rev_ind; intros d k H; [cbn in H; lia|]. rewrite builds_app, app_length in H.
    assert (Z : (exists m, a = ABuild m /\ d = length (builds l)) \/ (d < length (builds l) /\ forall m, a = ABuild m -> d <> length (builds l))).
    { destruct a as [m| | | | |]; try (right; cbn in H; split; [lia | discriminate]). cbn in H.
      destruct (Nat.eq_dec d (length (builds l))); [left; eauto | right; split; [lia | auto]]. }
    destruct Z as [(m & -> & ->)|[Z Zb]]; [eexists; apply la_build|]. destruct (IH d k Z) as (o & O).
    assert (C : (exists g v, a = APut g k v /\ made l g d ForWrite) \/ (exists g, a = ARemove g k /\ made l g d ForWrite) \/
      ((forall g v, a = APut g k v -> ~ made l g d ForWrite) /\ (forall g, a = ARemove g k -> ~ made l g d ForWrite))).
    { destruct a as [m|st dd c kk|g|g k0|g k0 v|g k0]; try (right; right; split; discriminate);
        (destruct (N.eq_dec k0 k) as [->|nk]; [destruct (made_dec l g d ForWrite) as [M|M]|]).
      - left; eauto.
      - right; right. split; [intros ? ? X; injection X as <- <-; exact M | discriminate].
      - right; right. split; [intros ? ? X; injection X; congruence | discriminate].
      - right; left; eauto.
      - right; right. split; [discriminate | intros ? X; injection X as <-; exact M].
      - right; right. split; [discriminate | intros ? X; injection X; congruence]. }
    destruct C as [(g & v & -> & M)|[(g & -> & M)|[C1 C2]]]; [eexists; apply la_put; eauto | eexists; apply la_remove; eauto | exists o; apply la_other; auto].
  Qed.

  (** Who is at a call *)
  Lemma touch_usable l w0 a w o g d : hist l w0 -> step w0 a = Some (w, o) -> touches l a g d ->
    exists x s, usable w0 g = Some (x, s) /\ g_build x = d /\ (match a with APut _ _ _ | ARemove _ _ => True | _ => False end -> g_want x = ForWrite).
  Proof.
    intros H E ((k & M) & T). destruct (made_at _ _ _ _ _ H M) as (x & X1 & X2 & X3).
    destruct a as [m|st dd c kk|h|h k0|h k0 v|h k0]; try (destruct T; fail); subst h; cbn in E; destruct (usable w0 g) as [[y s]|] eqn:U; try discriminate;
      pose proof (usable_at _ _ _ _ U) as (Y & _); rewrite X1 in Y; injection Y as <-; exists x, s; (split; [reflexivity|]); (split; [exact X2|]); intros F; try (destruct F; fail).
    all: destruct (g_want x); [discriminate | reflexivity].
  Qed.

  Lemma reads_latest l os o w g k : history (l ++ [AGet g k]) (os ++ [Some o]) w -> exists d kd, made l g d kd /\ latest l d k o.
  Proof.
    intros H. apply history_snoc in H as (w0 & os0 & o1 & H & E & Eo). apply app_inj_tail in Eo as [-> <-]. pose proof (history_hist _ _ _ H) as Hi.
    cbn in E. destruct (usable w0 g) as [[x s]|] eqn:U; [|discriminate]. injection E as <- <-. apply usable_at in U as (U1 & U2 & U3 & U4).
    exists (g_build x), (g_want x). split; [eapply hist_made; eauto | eapply hi_latest; eauto].
  Qed.

  Lemma sum_max w d s : winv w -> nth_error (w_stores w) d = Some s -> (heldsum (view d (w_guards w)) <= MAX_READS)%N.
  Proof. intros I E. pose proof (lk_sum _ _ _ _ (wi_store _ I _ _ E)). lia. Qed.
  Lemma store_at w g x : winv w -> nth_error (w_guards w) g = Some x -> exists s, nth_error (w_stores w) (g_build x) = Some s.
  Proof. intros I E. apply (wi_guard _ I) in E. destruct (nth_error (w_stores w) (g_build x)) eqn:F; [eauto|]. apply nth_error_None in F. lia. Qed.

  Lemma excluded w g h x y : winv w -> nth_error (w_guards w) g = Some x -> nth_error (w_guards w) h = Some y -> g_build x = g_build y ->
    g_state x = GHeld -> g_state y = GHeld -> excludes (g_want x) (g_want y) -> g = h.
  Proof.
    intros I X Y B Hx Hy Ex. destruct (Nat.eq_dec g h); auto. exfalso. destruct (store_at _ _ _ I X) as (s & Es).
    pose proof (sum_max _ _ _ I Es) as Mx.
    assert (A1 : nth_error (view (g_build x) (w_guards w)) g = Some (Some (g_want x, GHeld))) by (apply view_at; eauto).
    assert (A2 : nth_error (view (g_build x) (w_guards w)) h = Some (Some (g_want y, GHeld))) by (apply view_at; exists y; auto).
    pose proof (heldsum_ge2 _ _ _ _ _ A1 A2 n) as G. cbn [held1] in G. pose proof (needs_pos (g_want x)). pose proof (needs_pos (g_want y)).
    destruct Ex as [Ex|Ex]; rewrite Ex in G; change (needs ForWrite) with MAX_READS in G; lia.
  Qed.

  Lemma writers_exclude l os w g h d k : history l os w -> made l g d ForWrite -> holds w g -> made l h d k -> holds w h -> h = g.
  Proof.
    intros H Mg (x & X1 & X2) Mh (y & Y1 & Y2). pose proof (history_hist _ _ _ H) as Hi.
    destruct (made_at _ _ _ _ _ Hi Mg) as (x' & Ex & Bx & Wx). destruct (made_at _ _ _ _ _ Hi Mh) as (y' & Ey & By & Wy).
    rewrite X1 in Ex. injection Ex as <-. rewrite Y1 in Ey. injection Ey as <-.
    symmetry. eapply excluded; eauto; [apply Hi | congruence | left; exact Wx].
  Qed.

  (** Held stays held, waiting is left by holding or dropping *)
  Lemma step_held w a w' o g : winv w -> step w a = Some (w', o) -> holds w g -> a <> ADrop g -> holds w' g.
  Proof.
    intros I E (x & X1 & X2) ne. destruct a as [m|st d c k|h|h k|h k v|h k].
    - cbn in E. injection E as <- _. exists x. auto.
    - destruct (ask_case _ _ _ _ _ _ _ I E) as (t & _ & _ & _ & _ & G & _). exists x. rewrite G, nth_error_app1; eauto using nth_lt.
    - destruct (drop_case _ _ _ _ I E) as (y & dn & _ & _ & _ & _ & G & _). unfold holds. rewrite G, nth_grant, nth_set, X1. cbn.
      destruct (Nat.eqb_spec h g) as [->|]; [congruence|]. destruct (existsb _ dn); eexists; split; try reflexivity; auto.
    - cbn in E. destruct (usable w h) as [[y s]|]; [|discriminate]. injection E as <- _. exists x. auto.
    - cbn in E. destruct (usable w h) as [[y s]|]; [|discriminate]. destruct (g_want y); [discriminate|]. injection E as <- _. exists x. auto.
    - cbn in E. destruct (usable w h) as [[y s]|]; [|discriminate]. destruct (g_want y); [discriminate|]. injection E as <- _. exists x. auto.
  Qed.
  Lemma run_held w l w' os g : winv w -> run w l = Some (w', os) -> holds w g -> ~ In (ADrop g) l -> holds w' g /\ winv w'.
  Proof.
    revert w os. induction l as [|a l IH]; intros w os I R H N; cbn in R; [injection R as <- <-; auto|].
    destruct (step w a) as [[w1 o]|] eqn:E; [|discriminate]. destruct (run w1 l) as [[w2 o2]|] eqn:R1; [|discriminate]. injection R as <- <-.
    apply (IH w1 o2); [|exact R1| |].
    - eapply step_inv; eauto.
    - eapply step_held; eauto. intros ->. apply N. left. reflexivity.
    - intros i. apply N. right. exact i.
  Qed.

  Lemma atomic l os w g d k mid a os' w' h : history l os w -> made l g d k -> holds w g ->
    history (l ++ mid ++ [a]) os' w' -> ~ In (ADrop g) mid -> touches (l ++ mid) a h d ->
    (k = ForWrite -> h = g) /\ (k = ForRead -> exists key, a = AGet h key).
  Proof.
    intros H M Hg H' N T. rewrite app_assoc in H'. apply history_snoc in H' as (w1 & os1 & o & H1 & E & _).
    pose proof (history_hist _ _ _ H) as Hi. pose proof (history_hist _ _ _ H1) as Hi1.
    assert (Hg1 : holds w1 g).
    { apply history_app in H1 as (w0 & os0 & os2 & H0 & R & _). unfold history in H, H0. rewrite H in H0. injection H0 as <- <-.
      eapply run_held; eauto. apply Hi. }
    pose proof (made_prefix _ mid _ _ _ M) as M1. destruct (touch_usable _ _ _ _ _ _ _ Hi1 E T) as (x & s & U & Bx & Wx). pose proof (usable_at _ _ _ _ U) as (X1 & X2 & _).
    destruct Hg1 as (y & Y1 & Y2). destruct (made_at _ _ _ _ _ Hi1 M1) as (y' & Z & By & Wy). rewrite Y1 in Z. injection Z as <-.
    split.
    - intros ->. symmetry. eapply excluded; eauto; [apply Hi1 | congruence | left; exact Wy].
    - intros ->. destruct T as (_ & T). destruct a as [m|st dd c kk|h'|h' k0|h' k0 v|h' k0]; try (destruct T; fail); subst h'; [eauto | exfalso | exfalso].
      all: specialize (Wx Logic.I); assert (h = g) by (eapply excluded; eauto; [apply Hi1 | congruence | left; exact Wx]); subst h; rewrite Y1 in X1; injection X1 as <-; congruence.
  Qed.

  (** First come, first served *)
  Lemma state_cases l w g d k : hist l w -> made l g d k -> ~ dropped l g -> holds w g \/ still_waits w g.
  Proof.
    intros Hi M N. destruct (made_at _ _ _ _ _ Hi M) as (x & X & _). destruct (g_state x) eqn:S0; [right | left | exfalso]; try (exists x; auto).
    apply N. apply (hi_gone _ _ Hi _ _ X). exact S0.
  Qed.
  Lemma waits_queued l w g d k s : hist l w -> made l g d k -> still_waits w g -> nth_error (w_stores w) d = Some s -> In g (map fst (s_queue s)).
  Proof.
    intros Hi M (x & X1 & X2) Es. destruct (made_at _ _ _ _ _ Hi M) as (y & Y & B & W). rewrite X1 in Y. injection Y as <-.
    eapply (lk_waits _ _ _ _ (wi_store _ (hi_inv _ _ Hi) _ _ Es) g k). apply view_at. eauto.
  Qed.
  Lemma made_store l w g d k : hist l w -> made l g d k -> exists s, nth_error (w_stores w) d = Some s.
  Proof. intros Hi M. destruct (made_at _ _ _ _ _ Hi M) as (y & Y & <- & W). eapply store_at; eauto. apply Hi. Qed.

  Lemma no_overtaking l os w g h d k k' : history l os w -> made l g d k -> holds w g -> h < g -> made l h d k' -> ~ dropped l h -> excludes k k' -> False.
  Proof.
    intros H M Hg Lt M' N Ex. pose proof (history_hist _ _ _ H) as Hi. destruct (made_at _ _ _ _ _ Hi M) as (x & X & B & W). destruct (made_at _ _ _ _ _ Hi M') as (y & Y & B' & W').
    destruct Hg as (x' & X1 & X2). rewrite X in X1. injection X1 as <-.
    destruct (state_cases _ _ _ _ _ Hi M' N) as [(y' & Y1 & Y2)|Q].
    - rewrite Y in Y1. injection Y1 as <-. assert (g = h); [|lia]. subst k k'. eapply excluded; eauto; [apply Hi | congruence].
    - destruct (made_store _ _ _ _ _ Hi M) as (s & Es). pose proof (waits_queued _ _ _ _ _ _ Hi M' Q Es) as J.
      assert (g < h); [|lia]. eapply (lk_fifo _ _ _ _ (wi_store _ (hi_inv _ _ Hi) _ _ Es)); eauto. apply view_at. eauto.
  Qed.

  (** the held calls of a store *)
  Definition held_list (v : list (option (want * gstate))) : list nat :=
    filter (fun g => match nth_error v g with Some (Some (_, GHeld)) => true | _ => false end) (seq 0 (length v)).
  Lemma heldsum_readers v : (forall g k, nth_error v g = Some (Some (k, GHeld)) -> k = ForRead) -> heldsum v = N.of_nat (length (held_list v)).
  Proof.
    unfold held_list. induction v as [|o v IH] using rev_ind; intros H; [reflexivity|].
    rewrite heldsum_snoc, app_length, Nat.add_1_r, seq_S, filter_app, app_length. cbn [filter]. cbn [Nat.add]. rewrite nth_last.
    rewrite IH.
    - assert (filter (fun g => match nth_error (v ++ [o]) g with Some (Some (_, GHeld)) => true | _ => false end) (seq 0 (length v)) =
              filter (fun g => match nth_error v g with Some (Some (_, GHeld)) => true | _ => false end) (seq 0 (length v))) as ->.
      { apply filter_ext_in. intros g i. apply in_seq in i. rewrite nth_error_app1 by lia. reflexivity. }
      destruct o as [[k [| |]]|]; cbn [held1 length]; try lia. rewrite (H (length v) k); [cbn [needs]; lia|]. apply nth_last.
    - intros g k E. apply (H g). rewrite nth_error_app1; eauto using nth_lt.
  Qed.

  Lemma no_idle_waiting l os w g d k : history l os w -> few l d -> made l g d k -> ~ dropped l g ->
    (forall h k', h < g -> made l h d k' -> ~ dropped l h -> ~ excludes k k') -> holds w g.
  Proof.
    intros H F M N A. pose proof (history_hist _ _ _ H) as Hi. destruct (state_cases _ _ _ _ _ Hi M N) as [Q|Q]; [exact Q|exfalso].
    destruct (made_store _ _ _ _ _ Hi M) as (s & Es). pose proof (waits_queued _ _ _ _ _ _ Hi M Q Es) as J.
    pose proof (wi_store _ (hi_inv _ _ Hi) _ _ Es) as L. set (v := view d (w_guards w)) in *.
    assert (Mv : forall h kh st, nth_error v h = Some (Some (kh, st)) -> st <> GGone -> made l h d kh /\ ~ dropped l h).
    { intros h kh st E ns. apply view_at in E as (y & Y & B & W & S0). split; [rewrite <- B, <- W; eapply hist_made; eauto|].
      intros D. apply (hi_gone _ _ Hi _ _ Y) in D. congruence. }
    destruct (s_queue s) as [|[h m] q] eqn:Eq; [destruct J|].
    destruct (lk_queue _ _ _ _ L h m (or_introl eq_refl)) as (kh & Vh & Mh).
    assert (hg : h <= g).
    { pose proof (lk_sorted _ _ _ _ L) as So. cbn in So, J. apply StronglySorted_inv in So as [_ So]. rewrite Forall_forall in So.
      destruct J as [->|J]; [lia|]. specialize (So _ J). lia. }
    pose proof (lk_sum _ _ _ _ L) as S0. rewrite (lk_none _ _ _ _ L) in S0 by discriminate. cbn [got fold_right fst snd] in S0.
    assert (Gq : fold_right (fun e n => (vneed v (fst e) - snd e + n)%N) 0%N q = 0%N).
    { apply (got_zero (vneed v) q). intros a n i. apply (lk_full _ _ _ _ L). exact i. }
    rewrite Gq in S0. unfold vneed in S0. rewrite Vh in S0.
    assert (Hel : forall a ka, nth_error v a = Some (Some (ka, GHeld)) -> a < g /\ ~ excludes k ka).
    { intros a ka E. assert (a < h) by (eapply (lk_fifo _ _ _ _ L); eauto; left; reflexivity). destruct (Mv _ _ _ E) as [M1 N1]; [discriminate|].
      split; [lia|]. eapply A; eauto. lia. }
    destruct k.
    - assert (kh = ForRead) as ->.
      { destruct kh; auto. exfalso. destruct (Nat.eq_dec h g) as [->|ne].
        - destruct (Mv _ _ _ Vh) as [M1 _]; [discriminate|]. destruct (made_fun _ _ _ _ _ _ M M1). discriminate.
        - destruct (Mv _ _ _ Vh) as [M1 N1]; [discriminate|]. apply (A h ForWrite); auto; [lia | right; reflexivity]. }
      cbn [needs] in S0, Mh. assert (heldsum v = MAX_READS) by lia.
      assert (R : forall a ka, nth_error v a = Some (Some (ka, GHeld)) -> ka = ForRead).
      { intros a ka E. destruct ka; auto. exfalso. destruct (Hel _ _ E) as [_ X]. apply X. right. reflexivity. }
      rewrite (heldsum_readers v R) in H0. specialize (F (held_list v)). rewrite H0 in F. assert (MAX_READS < MAX_READS)%N; [|lia]. apply F.
      + apply NoDup_filter. apply seq_NoDup.
      + intros a i. apply filter_In in i as [_ i]. destruct (nth_error v a) as [[[ka [| |]]|]|] eqn:Ea; try discriminate. destruct (Mv _ _ _ Ea) as [M1 N1]; [discriminate | eauto].
    - assert (h = g).
      { destruct (Nat.eq_dec h g) as [|ne]; auto. exfalso. destruct (Mv _ _ _ Vh) as [M1 N1]; [discriminate|]. apply (A h kh); auto; [lia | left; reflexivity]. }
      subst h. destruct (Mv _ _ _ Vh) as [M1 _]; [discriminate|]. destruct (made_fun _ _ _ _ _ _ M M1) as [_ <-]. cbn [needs] in *.
      assert (heldsum v = 0%N).
      { assert (Z : forall a ka, nth_error v a = Some (Some (ka, GHeld)) -> ka = ForRead) by (intros a ka E; exfalso; destruct (Hel _ _ E) as [_ X]; apply X; left; reflexivity).
        rewrite (heldsum_readers v Z). destruct (held_list v) as [|a t] eqn:El; [reflexivity|exfalso].
        assert (i : In a (held_list v)) by (rewrite El; left; reflexivity). apply filter_In in i as [_ i]. destruct (nth_error v a) as [[[ka [| |]]|]|] eqn:Ea; try discriminate.
        destruct (Hel _ _ Ea) as [_ X]; apply X; left; reflexivity. }
      unfold MAX_READS in *. lia.
  Qed.

  (** A strand waiting for itself *)
  Lemma waits_true w g x : nth_error (w_guards w) g = Some x -> g_state x = GWaits -> waits (g_strand x) (w_guards w) = true.
  Proof. intros E S0. unfold waits. apply existsb_exists. exists x. split; [eapply nth_error_In; eauto|]. rewrite Nat.eqb_refl, S0. reflexivity. Qed.
  Lemma no_drop w a w' o g1 g2 x y : step w a = Some (w', o) -> nth_error (w_guards w) g1 = Some x -> g_state x = GHeld ->
    nth_error (w_guards w) g2 = Some y -> g_state y = GWaits -> g_strand x = g_strand y -> a <> ADrop g1.
  Proof.
    intros E X Hx Y Hy B ->. cbn in E. rewrite X in E. destruct (nth_error (w_stores w) _); [|discriminate]. rewrite Hx in E.
    rewrite B, (waits_true _ _ _ Y Hy) in E. discriminate.
  Qed.

  Lemma stuck l os w st g1 g2 d k1 k2 l' os' w' : history l os w -> made_by l g1 st -> made_by l g2 st -> made l g1 d k1 -> made l g2 d k2 -> holds w g1 -> still_waits w g2 ->
    (excludes k1 k2 \/ exists h, g1 < h < g2 /\ made l h d ForWrite /\ ~ dropped (l ++ l') h) ->
    history (l ++ l') os' w' -> ~ dropped (l ++ l') g2 -> holds w' g1 /\ still_waits w' g2.
  Proof.
    intros H B1 B2 M1 M2 Hg Wg. revert os' w'. induction l' as [|a l' IH] using rev_ind; intros os' w' C H' N.
    { rewrite app_nil_r in H'. unfold history in *. rewrite H in H'. injection H' as <- _. auto. }
    rewrite app_assoc in H', N, C. rewrite dropped_snoc in N. apply history_snoc in H' as (w1 & os1 & o & H1 & E & _).
    assert (C1 : excludes k1 k2 \/ exists h, g1 < h < g2 /\ made l h d ForWrite /\ ~ dropped (l ++ l') h).
    { destruct C as [C|(h & C2 & C3 & C4)]; auto. right. exists h. rewrite dropped_snoc in C4. split; [exact C2|]. split; [exact C3|]. intros X. apply C4. left. exact X. }
    destruct (IH _ _ C1 H1) as [Hg1 Wg1]; [intros X; apply N; left; exact X|]. pose proof (history_hist _ _ _ H1) as Hi1.
    assert (H2 : history ((l ++ l') ++ [a]) (os1 ++ [o]) w') by (apply history_snoc; exists w1, os1, o; auto). pose proof (history_hist _ _ _ H2) as Hi2.
    assert (Hg2 : holds w' g1).
    { eapply step_held; eauto; [apply Hi1|]. destruct (made_by_at _ _ _ _ Hi1 (made_by_prefix _ l' _ _ B1)) as (x & X & Sx). destruct (made_by_at _ _ _ _ Hi1 (made_by_prefix _ l' _ _ B2)) as (y & Y & Sy).
      destruct Hg1 as (x' & X' & Hx), Wg1 as (y' & Y' & Hy). rewrite X in X'. injection X' as <-. rewrite Y in Y'. injection Y' as <-.
      eapply no_drop; eauto. congruence. }
    split; [exact Hg2|]. pose proof (made_prefix _ (l' ++ [a]) _ _ _ M2) as M2'. rewrite app_assoc in M2'. pose proof (made_prefix _ (l' ++ [a]) _ _ _ M1) as M1'. rewrite app_assoc in M1'.
    assert (N2 : ~ dropped ((l ++ l') ++ [a]) g2) by (rewrite dropped_snoc; exact N).
    destruct (state_cases _ _ _ _ _ Hi2 M2' N2) as [Q|Q]; [exfalso|exact Q].
    assert (ne : g1 <> g2). { intros <-. destruct Hg as (x & X1 & X2), Wg as (y & Y1 & Y2). rewrite X1 in Y1. injection Y1 as <-. congruence. }
    destruct C as [C|(h & C2 & C3 & C4)].
    - destruct Hg2 as (x & X1 & X2), Q as (y & Y1 & Y2). destruct (made_at _ _ _ _ _ Hi2 M1') as (x' & X3 & X4 & X5). destruct (made_at _ _ _ _ _ Hi2 M2') as (y' & Y3 & Y4 & Y5).
      rewrite X1 in X3. injection X3 as <-. rewrite Y1 in Y3. injection Y3 as <-. apply ne. subst k1 k2. eapply excluded; eauto; [apply Hi2 | congruence].
    - pose proof (made_prefix _ (l' ++ [a]) _ _ _ C3) as C3'. rewrite app_assoc in C3'.
      eapply (no_overtaking _ _ _ g2 h d k2 ForWrite H2); eauto; [lia | right; reflexivity].
  Qed.
End Claims.

(** Counting *)
Lemma puts_inv l a d k c : puts (l ++ [a]) d k c ->
  (exists g v c0, a = APut g k v /\ made l g d ForWrite /\ puts l d k c0 /\ c = (c0 + 1)%N) \/ (puts l d k c /\ forall g v, a = APut g k v -> ~ made l g d ForWrite).
Proof.
  intros H. remember (l ++ [a]) as la eqn:E. destruct H.
  - destruct l; discriminate.
  - apply app_inj_tail in E as [-> <-]. left. exists g, v, c. auto.
  - apply app_inj_tail in E as [-> <-]. right. auto.
Qed.
Lemma history_length {Val} (l : list (act Val)) : forall os w, history l os w -> length os = length l.
Proof.
  induction l as [|a l IH] using rev_ind; intros os w H; [unfold history in H; cbn in H; injection H as <- <-; reflexivity|].
  apply history_snoc in H as (w0 & os0 & o & H & _ & ->). rewrite !app_length, (IH _ _ H). reflexivity.
Qed.

Lemma unchanged (l : list (act N)) mid : forall os w g d k n os' w', history l os w -> made l g d ForWrite -> holds w g -> latest l d k (Some n) ->
  history (l ++ mid) os' w' -> ~ In (ADrop g) mid -> (forall v, ~ In (APut g k v) mid) -> ~ In (ARemove g k) mid -> latest (l ++ mid) d k (Some n).
Proof.
  induction mid as [|a mid IH] using rev_ind; intros os w g d k n os' w' H M Hg La H' N1 N2 N3; [rewrite app_nil_r; exact La|].
  assert (H1 : exists os1 w1, history (l ++ mid) os1 w1) by (rewrite app_assoc in H'; apply history_snoc in H' as (w1 & os1 & o & H1 & _); eauto).
  destruct H1 as (os1 & w1 & H1).
  assert (La1 : latest (l ++ mid) d k (Some n)).
  { eapply IH; eauto; intros; intros i; [apply N1 | eapply N2 | apply N3]; apply in_or_app; left; exact i. }
  assert (N1' : ~ In (ADrop g) mid) by (intros i; apply N1; apply in_or_app; auto).
  rewrite app_assoc. apply la_other; auto.
  - intros m ->. assert (d < length (builds (l ++ mid))); [|lia]. pose proof (history_hist _ _ _ H1) as Hi1.
    rewrite <- (hi_stores _ _ Hi1). destruct (made_store _ _ _ _ _ Hi1 (made_prefix _ mid _ _ _ M)) as (s & Es). eapply nth_lt; eauto.
  - intros h v -> Mh. destruct (atomic l os w g d ForWrite mid (APut h k v) os' w' h H M Hg H' N1') as [X _]; [split; [eauto | reflexivity]|].
    rewrite (X eq_refl) in *. apply (N2 v). apply in_or_app. right. left. reflexivity.
  - intros h -> Mh. destruct (atomic l os w g d ForWrite mid (ARemove h k) os' w' h H M Hg H' N1') as [X _]; [split; [eauto | reflexivity]|].
    rewrite (X eq_refl) in *. apply N3. apply in_or_app. right. left. reflexivity.
Qed.

Lemma counted (l : list (act N)) : forall os w d k m n0 c, history l os w -> only_increments l os d k -> nth_error (builds l) d = Some m -> lookup N.eqb k m = Some n0 ->
  puts l d k c -> latest l d k (Some (n0 + c)%N).
Proof.
  induction l as [|a l IH] using rev_ind; intros os w d k m n0 c H [O1 O2] B Lk P; [destruct d; discriminate|].
  assert (Hs := H). apply history_snoc in Hs as (w0 & os0 & o & H0 & E & Eo). pose proof (history_hist _ _ _ H0) as Hi0.
  assert (Ol : only_increments l os0 d k).
  { split.
    - intros pre g v post El M. destruct (O1 pre g v (post ++ [a])) as (pre1 & mid & n & A1 & A2 & A3); [rewrite El, <- app_assoc; reflexivity | exact M|].
      exists pre1, mid, n. split; [exact A1|]. split; [|exact A3]. rewrite Eo in A2. rewrite nth_error_app1 in A2; auto.
      rewrite (history_length _ _ _ H0), El, A1, !app_length. cbn. lia.
    - intros pre g post El. apply (O2 pre g (post ++ [a])). rewrite El, <- app_assoc. reflexivity. }
  rewrite builds_app in B. destruct (Nat.lt_ge_cases d (length (builds l))) as [Lt|Ge].
  - rewrite nth_error_app1 in B by auto. apply puts_inv in P as [(g & v & c0 & -> & Mg & P & ->)|[P Np]].
    + specialize (IH _ _ _ _ _ _ _ H0 Ol B Lk P). destruct (O1 l g v [] eq_refl Mg) as (pre1 & mid & n & El & En & -> & Nm).
      assert (v0 : (n + 1 = n0 + (c0 + 1))%N); [|rewrite v0; apply la_put; exact Mg].
      (* what was read is still there *)
      assert (Hp : exists osg wg, history (pre1 ++ [AGet g k]) osg wg /\ nth_error osg (length pre1) = Some (Some (Some n))).
      { rewrite El in H0. change (pre1 ++ AGet g k :: mid) with (pre1 ++ [AGet g k] ++ mid) in H0. rewrite app_assoc in H0. apply history_app in H0 as (wg & osg & os1 & Hg & _ & Eg).
        exists osg, wg. split; [exact Hg|]. rewrite Eo, Eg in En. pose proof (history_length _ _ _ Hg) as Lg. rewrite app_length in Lg. cbn in Lg.
        rewrite nth_error_app1 in En; [|rewrite app_length; lia]. rewrite nth_error_app1 in En by lia. exact En. }
      destruct Hp as (osg & wg & Hg & Eg). assert (Hgs := Hg). apply history_snoc in Hgs as (w1 & os1 & o1 & H1 & Es1 & ->).
      pose proof (history_length _ _ _ H1) as L1. rewrite <- L1 in Eg. rewrite nth_last in Eg. injection Eg as ->.
      destruct (reads_latest _ _ _ _ _ _ Hg) as (d1 & kd & Md & La).
      pose proof (history_hist _ _ _ H1) as Hi1.
      assert (Mg1 := made_prefix _ (AGet g k :: mid) _ _ _ Md). rewrite <- El in Mg1. destruct (made_fun _ _ _ _ _ _ Mg1 Mg) as [-> ->].
      cbn in Es1. destruct (usable w1 g) as [[x s]|] eqn:U; [|discriminate]. injection Es1 as <- _. apply usable_at in U as (U1 & U2 & _).
      assert (Hold : holds w1 g) by (exists x; auto).
      cbn in E. destruct (usable w0 g) as [[x0 s0]|] eqn:U0; [|discriminate]. apply usable_at in U0 as (V1 & V2 & _).
      assert (Nd : ~ dropped l g) by (intros D; apply (hi_gone _ _ Hi0 _ _ V1) in D; congruence).
      assert (La0 : latest l d k (Some n)).
      { rewrite El. eapply (unchanged pre1 (AGet g k :: mid) _ _ g d k n os0 w0 H1 Md Hold La).
        - rewrite <- El. exact H0.
        - intros i. apply Nd. rewrite El. apply in_or_app. right. exact i.
        - intros v i. destruct i as [i|i]; [discriminate|]. eapply Nm; eauto.
        - intros i. destruct i as [i|i]; [discriminate|]. apply in_split in i as (m1 & m2 & Em). destruct Ol as [_ Ol2].
          apply (Ol2 (pre1 ++ AGet g k :: m1) g m2); [rewrite El, Em, <- app_assoc; reflexivity|]. apply made_prefix. exact Md. }
      pose proof (latest_fun _ _ _ _ _ IH La0) as X. injection X as X. lia.
    + specialize (IH _ _ _ _ _ _ _ H0 Ol B Lk P). apply la_other; auto.
      * intros m' _. lia.
      * intros g -> . apply (O2 l g []). reflexivity.
  - (* the build itself *)
    assert (d = length (builds l) /\ a = ABuild m) as [-> ->].
    { rewrite nth_error_app2 in B by auto. destruct a; cbn in B; try (destruct (d - length (builds l)); discriminate).
      destruct (d - length (builds l)) as [|i] eqn:Ei; cbn in B; [injection B as ->; split; [lia | reflexivity] | destruct i; discriminate]. }
    assert (c = 0%N) as ->.
    { apply puts_inv in P as [(g & v & c0 & X & _)|[P _]]; [discriminate|].
      assert (NM : forall g k', ~ made l g (length (builds l)) k').
      { intros g k' M. destruct (made_store _ _ _ _ _ Hi0 M) as (s & Es). apply nth_lt in Es. rewrite (hi_stores _ _ Hi0) in Es. lia. }
      set (d := length (builds l)) in *. clearbody d. clear -P NM. remember l as l0 eqn:E0. revert NM. rewrite E0. rewrite E0 in P. clear E0 l0. intros NM.
      induction P as [|l g d k v c P IH M|l a d k c P IH N].
      - reflexivity.
      - exfalso. apply (NM g ForWrite). apply made_prefix. exact M.
      - apply IH. intros g k' M. apply (NM g k'). apply made_prefix. exact M. }
    rewrite N.add_0_r, <- Lk. apply la_build.
Qed.

Lemma few_calls {Val} (l : list (act Val)) d : (N.of_nat (length (calls l)) < MAX_READS)%N -> few l d.
Proof.
  intros H gs nd A. assert (length gs <= length (calls l)); [|lia].
  rewrite <- (seq_length (length (calls l)) 0). apply NoDup_incl_length; auto. intros g i. destruct (A g i) as (_ & k & x & E & _). apply in_seq. apply nth_lt in E. lia.
Qed.
