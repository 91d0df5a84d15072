(** Who holds the writer: only emits that are still under way. *)
From Coq Require Import Lia.
From Verif Require Import Base Reader Codec Ids Crypt Emit SpecEmit EmitFacts Wire SpecWire.

Section Lock.
  Context {W : Type} (pw : W -> bytes -> W * bytes * wstat) (pf : W -> W * wstat).

  Definition writing (f : gfut) : Prop := match f with GWrite _ _ | GFlush _ => True | _ => False end.
  Definition finished (em : gemit) : Prop := ge_fut em = Some GDone \/ (ge_fut em = None /\ ge_meta em = None).

  Record lockinv (s : @gsys W) (rs : list (nat * polled N)) : Prop := {
    li_held : forall i, w_lock (g_world s) = Some i -> exists em f, nth_error (g_futs s) i = Some (Some em) /\ ge_fut em = Some f /\ writing f;
    li_writing : forall i em f, nth_error (g_futs s) i = Some (Some em) -> ge_fut em = Some f -> writing f -> w_lock (g_world s) = Some i;
    li_done : forall i r, In (i, Ready r) rs -> nth_error (g_futs s) i = Some None \/ exists em, nth_error (g_futs s) i = Some (Some em) /\ finished em }.

  (** one poll of the block: what becomes of the lock *)
  Definition outcome_ok (i : nat) (l0 l1 : option nat) (f' : gfut) (r : polled N) : Prop :=
    (f' = GDone /\ (exists x, r = Ready x) /\ l1 = None) \/ (writing f' /\ r = Waiting /\ l1 = Some i) \/
    (exists id b j, f' = GLock id b /\ r = Waiting /\ l0 = Some j /\ l1 = l0).

  Lemma flush_ok w s id i w' s' f' r : w_lock w = Some i -> g_flush pf w s id = (w', s', f', r) -> outcome_ok i (w_lock w) (w_lock w') f' r.
  Proof.
    unfold g_flush. intros L H. destruct (pf s) as [s1 st]. destruct st; injection H as <- <- <- <-; unfold outcome_ok; cbn; eauto 8.
  Qed.
  Lemma write_ok w s id rest i w' s' f' r : w_lock w = Some i -> g_write pw pf w s id rest = (w', s', f', r) -> outcome_ok i (w_lock w) (w_lock w') f' r.
  Proof.
    unfold g_write. intros L H. destruct rest as [|b rest]; [eapply flush_ok; eauto|]. destruct (pw s (b :: rest)) as [[s1 rest'] st].
    destruct st; try (eapply flush_ok; eauto; fail); injection H as <- <- <- <-; unfold outcome_ok; cbn; eauto 8.
  Qed.
  Lemma lock_ok w s id b i w' s' f' r : g_lock pw pf i w s id b = (w', s', f', r) -> outcome_ok i (w_lock w) (w_lock w') f' r.
  Proof.
    unfold g_lock. destruct (w_lock w) as [j|] eqn:L; intros H.
    - injection H as <- <- <- <-. right; right. exists id, b, j. rewrite L. auto.
    - pose proof (write_ok (lock i w) s id b i w' s' f' r eq_refl H) as O. cbn in O. destruct O as [O|[O|(id' & b' & j & F & _)]]; [left; exact O | right; left; exact O|].
      exfalso. subst f'. unfold g_write, g_flush in H. destruct b as [|x b]; [destruct (pf s) as [s1 st]; destruct st; discriminate H|].
      destruct (pw s (x :: b)) as [[s1 rest'] st]. destruct st; try discriminate H. destruct (pf s1) as [s2 st]; destruct st; discriminate H.
  Qed.
  Lemma take_lock t w m w' o : take_event t w m = (w', o) -> w_lock w' = w_lock w.
  Proof.
    unfold take_event. destruct (m_event m) as [e|]; [intros H; injection H as <- <-; reflexivity|].
    assert (B : forall w1 m1 o1, build_event t w m = (w1, m1, o1) -> w_lock w1 = w_lock w).
    { unfold build_event. intros w1 m1 o1. destruct (m_ctx m), (m_name m), (m_ns m), (m_payload m) as [[?|?|?]|], (m_res m), (m_type m); intros H; injection H as <- _ _; reflexivity. }
    destruct (build_event t w m) as [[w1 m1] o1]. specialize (B _ _ _ eq_refl). destruct o1; intros H; injection H as <- <-; exact B.
  Qed.

  Lemma poll_ok i t w s em w' s' em' r : g_poll pw pf i t w s em = (w', s', em', r) ->
    (forall f, ge_fut em = Some f -> writing f -> w_lock w = Some i) ->
    (finished em' /\ (exists x, r = Ready x) /\ (w_lock w' = None \/ (w_lock w' = w_lock w /\ forall f, ge_fut em = Some f -> ~ writing f))) \/
    (exists f', ge_fut em' = Some f' /\ writing f' /\ r = Waiting /\ w_lock w' = Some i) \/
    (exists id b j, ge_fut em' = Some (GLock id b) /\ r = Waiting /\ w_lock w = Some j /\ w_lock w' = Some j /\ forall f, ge_fut em = Some f -> ~ writing f).
  Proof.
    unfold g_poll. intros H Own. destruct (ge_fut em) as [f|] eqn:Ef.
    - destruct (g_fut pw pf i w s f) as [[[w1 s1] f1] r1] eqn:G. injection H as <- <- <- <-. destruct f as [id b|id rest|id|]; cbn in G.
      + apply lock_ok in G as [(-> & X & L)|[(X & -> & L)|(id' & b' & j & -> & -> & L0 & L)]].
        * left. split; [left; reflexivity|]. split; [exact X | left; exact L].
        * right; left. exists f1. auto.
        * right; right. exists id', b', j. repeat (split; auto); [rewrite L; exact L0|]. intros f E. injection E as <-. cbn. auto.
      + assert (L0 : w_lock w = Some i) by (apply (Own _ eq_refl); exact Logic.I). pose proof (write_ok _ _ _ _ _ _ _ _ _ L0 G) as O.
        destruct O as [(-> & X & L)|[(X & -> & L)|(id' & b' & j & F & _)]].
        * left. split; [left; reflexivity|]. split; [exact X | left; exact L].
        * right; left. exists f1. auto.
        * exfalso. subst f1. unfold g_write, g_flush in G. destruct rest as [|x b]; [destruct (pf s) as [s2 st]; destruct st; discriminate G|].
          destruct (pw s (x :: b)) as [[s2 rest'] st]. destruct st; try discriminate G. destruct (pf s2) as [s3 st]; destruct st; discriminate G.
      + assert (L0 : w_lock w = Some i) by (apply (Own _ eq_refl); exact Logic.I). pose proof (flush_ok _ _ _ _ _ _ _ _ L0 G) as O.
        destruct O as [(-> & X & L)|[(X & -> & L)|(id' & b' & j & F & _)]].
        * left. split; [left; reflexivity|]. split; [exact X | left; exact L].
        * right; left. exists f1. auto.
        * exfalso. subst f1. unfold g_flush in G. destruct (pf s) as [s2 st]; destruct st; discriminate G.
      + injection G as <- <- <- <-. left. split; [left; reflexivity|]. split; [eauto|]. right. split; [reflexivity|]. intros f E. injection E as <-. cbn. auto.
    - destruct (ge_meta em) as [m|] eqn:Em.
      2:{ injection H as <- <- <- <-. left. split; [right; auto|]. split; [eauto|]. right. split; [reflexivity | discriminate]. }
      destruct (ge_stream em).
      2:{ injection H as <- <- <- <-. left. split; [right; auto|]. split; [eauto|]. right. split; [reflexivity | discriminate]. }
      destruct (take_event t w m) as [w1 o] eqn:T. pose proof (take_lock _ _ _ _ _ T) as Lt.
      destruct o as [[e|]|e|c].
      2,3,4: injection H as <- <- <- <-; left; split; [right; auto|]; split; [eauto|]; right; split; [exact Lt | discriminate].
      destruct (into_bytes e) as [b|e'|c].
      2,3: injection H as <- <- <- <-; left; split; [left; reflexivity|]; split; [eauto|]; right; split; [exact Lt | discriminate].
      destruct (g_lock pw pf i w1 s (ev_id e) b) as [[[w2 s2] f1] r1] eqn:G. injection H as <- <- <- <-.
      apply lock_ok in G as [(-> & X & L)|[(X & -> & L)|(id' & b' & j & -> & -> & L0 & L)]].
      + left. split; [left; reflexivity|]. split; [exact X | left; exact L].
      + right; left. exists f1. auto.
      + right; right. exists id', b', j. rewrite L, <- Lt, L0. repeat (split; auto). discriminate.
  Qed.

  Lemma put_cases {A} i j (x y : A) l : nth_error l i = Some y -> nth_error (put i x l) j = if Nat.eqb i j then Some x else nth_error l j.
  Proof. intros H. destruct (Nat.eqb_spec i j) as [->|n]; [eapply put_eq; eauto | apply put_ne; auto]. Qed.

  Lemma finished_not em f : finished em -> ge_fut em = Some f -> ~ writing f.
  Proof. intros [E|[E _]] F; rewrite E in F; [injection F as <-; cbn; auto | discriminate]. Qed.
  Lemma finished_stays i t w s em w' s' em' r : finished em -> g_poll pw pf i t w s em = (w', s', em', r) -> finished em'.
  Proof.
    intros F H. unfold g_poll in H. destruct F as [E|[E M]]; rewrite E in H.
    - cbn in H. injection H as <- <- <- <-. left. reflexivity.
    - rewrite M in H. injection H as <- <- <- <-. right. auto.
  Qed.

  Lemma step_lockinv s rs lb s' o : lockinv s rs -> g_step pw pf s lb = Some (s', o) -> lockinv s' (rs ++ match o with Some x => [x] | None => [] end).
  Proof.
    intros I H. destruct lb as [i t|i]; cbn in H; destruct (nth_error (g_futs s) i) as [[em|]|] eqn:E; try discriminate.
    - destruct (g_poll pw pf i t (g_world s) (g_sock s) em) as [[[w' sk'] em'] r] eqn:P. injection H as <- <-.
      assert (Own : forall f, ge_fut em = Some f -> writing f -> w_lock (g_world s) = Some i) by (intros f A B; eapply li_writing; eauto).
      pose proof (poll_ok _ _ _ _ _ _ _ _ _ P Own) as C. assert (Ne : forall j em' f, i <> j -> nth_error (g_futs s) j = Some (Some em') -> ge_fut em' = Some f -> writing f -> w_lock (g_world s) = Some j) by (intros; eapply li_writing; eauto).
      split; cbn.
      + intros j L. destruct C as [(F & _ & [X|[X Nf]])|[(f' & Ff & Wf & _ & X)|(id & b & k & Ff & _ & X0 & X & Nf)]].
        * congruence.
        * rewrite X in L. destruct (li_held _ _ I j L) as (em0 & f0 & A & B & D). destruct (Nat.eq_dec i j) as [->|n].
          -- rewrite E in A. injection A as <-. destruct (Nf _ B D).
          -- exists em0, f0. rewrite put_ne; auto.
        * assert (j = i) as -> by congruence. exists em', f'. rewrite (put_eq _ _ _ _ E). auto.
        * assert (j = k) as -> by congruence. destruct (li_held _ _ I k X0) as (em0 & f0 & A & B & D). destruct (Nat.eq_dec i k) as [->|n].
          -- rewrite E in A. injection A as <-. destruct (Nf _ B D).
          -- exists em0, f0. rewrite put_ne; auto.
      + intros j em0 f0 A B D. rewrite (put_cases i j _ _ _ E) in A. destruct (Nat.eqb_spec i j) as [->|n].
        * injection A as <-. destruct C as [(F & _)|[(f' & Ff & Wf & _ & X)|(id & b & k & Ff & _)]].
          -- destruct (finished_not _ _ F B D).
          -- exact X.
          -- rewrite Ff in B. injection B as <-. destruct D.
        * pose proof (Ne _ _ _ n A B D) as L. destruct C as [(F & _ & [X|[X Nf]])|[(f' & Ff & Wf & _ & X)|(id & b & k & Ff & _ & X0 & X & Nf)]].
          -- (* the lock was not ours, so nothing of ours gave it back *)
             exfalso. clear F. revert X. 
             assert (Q : forall f, ge_fut em = Some f -> ~ writing f) by (intros f F1 F2; pose proof (Own _ F1 F2); congruence).
             unfold g_poll in P. destruct (ge_fut em) as [f|] eqn:Ef.
             ++ destruct f as [id b|id rest|id|]; try (exfalso; apply (Q _ eq_refl); exact Logic.I).
                ** cbn in P. unfold g_lock in P. rewrite L in P. injection P as <- <- <- <-. congruence.
                ** cbn in P. injection P as <- <- <- <-. congruence.
             ++ destruct (ge_meta em) as [m|]; [|injection P as <- <- <- <-; congruence]. destruct (ge_stream em); [|injection P as <- <- <- <-; congruence].
                destruct (take_event t (g_world s) m) as [w1 o] eqn:T. pose proof (take_lock _ _ _ _ _ T) as Lt. destruct o as [[e|]|e|c]; try (injection P as <- <- <- <-; congruence).
                destruct (into_bytes e) as [b|e'|c]; try (injection P as <- <- <- <-; congruence). unfold g_lock in P. rewrite Lt, L in P. injection P as <- <- <- <-. congruence.
          -- congruence.
          -- exfalso. revert X. assert (Q : forall f, ge_fut em = Some f -> ~ writing f) by (intros f F1 F2; pose proof (Own _ F1 F2); congruence).
             unfold g_poll in P. destruct (ge_fut em) as [f|] eqn:Ef.
             ++ destruct f as [id b|id rest|id|]; try (exfalso; apply (Q _ eq_refl); exact Logic.I).
                ** cbn in P. unfold g_lock in P. rewrite L in P. injection P as <- <- <- <-. congruence.
                ** cbn in P. injection P as <- <- <- <-. congruence.
             ++ destruct (ge_meta em) as [m|]; [|injection P as <- <- <- <-; congruence]. destruct (ge_stream em); [|injection P as <- <- <- <-; congruence].
                destruct (take_event t (g_world s) m) as [w1 o] eqn:T. pose proof (take_lock _ _ _ _ _ T) as Lt. destruct o as [[e|]|e|c]; try (injection P as <- <- <- <-; congruence).
                destruct (into_bytes e) as [b|e'|c]; try (injection P as <- <- <- <-; congruence). unfold g_lock in P. rewrite Lt, L in P. injection P as <- <- <- <-. congruence.
          -- congruence.
      + intros j x J. rewrite (put_cases i j _ _ _ E). apply in_app_or in J as [J|[J|[]]].
        * apply (li_done _ _ I) in J. destruct (Nat.eqb_spec i j) as [->|n]; [|exact J]. right. exists em'. split; [reflexivity|].
          destruct J as [J|(em0 & J & F)]; [congruence|]. rewrite E in J. injection J as <-. eapply finished_stays; eauto.
        * injection J as -> ->. rewrite Nat.eqb_refl. right. exists em'. split; [reflexivity|].
          destruct C as [(F & _)|[(f' & _ & _ & X & _)|(id & b & k & _ & X & _)]]; [exact F | discriminate X | discriminate X].
    - injection H as <- <-. rewrite app_nil_r. split; cbn.
      + intros j L. unfold drop_emit in L. destruct (w_lock (g_world s)) as [k|] eqn:Lk; [|congruence]. destruct (Nat.eqb_spec i k) as [->|n]; [discriminate L|].
        rewrite Lk in L. injection L as <-. destruct (li_held _ _ I k Lk) as (em0 & f0 & A & B & D). exists em0, f0. rewrite put_ne; auto.
      + intros j em0 f0 A B D. rewrite (put_cases i j _ _ _ E) in A. destruct (Nat.eqb_spec i j) as [->|n]; [discriminate A|].
        pose proof (li_writing _ _ I _ _ _ A B D) as L. unfold drop_emit. rewrite L. destruct (Nat.eqb_spec i j); [congruence | exact L].
      + intros j x J. rewrite (put_cases i j _ _ _ E). apply (li_done _ _ I) in J. destruct (Nat.eqb_spec i j); auto.
  Qed.

  Lemma run_lockinv s rs ls : forall s' rs', lockinv s rs -> g_run pw pf s ls = Some (s', rs') -> lockinv s' (rs ++ rs').
  Proof.
    revert s rs. induction ls as [|lb ls IH]; intros s rs s' rs' I R; cbn in R; [injection R as <- <-; rewrite app_nil_r; exact I|].
    destruct (g_step pw pf s lb) as [[s1 o]|] eqn:E; [|discriminate]. destruct (g_run pw pf s1 ls) as [[s2 os]|] eqn:R1; [|discriminate]. injection R as <- <-.
    pose proof (step_lockinv _ _ _ _ _ I E) as I1. pose proof (IH _ _ _ _ I1 R1) as I2. destruct o; [rewrite <- app_assoc in I2; exact I2 | rewrite app_nil_r in I2; exact I2].
  Qed.
  Lemma start_lockinv w sk os : w_lock w = None -> lockinv (g_start w sk os) [].
  Proof.
    intros L. split; cbn; [congruence| |intros ? ? []]. intros i em f E F Wf. rewrite nth_error_map in E. destruct (nth_error os i); cbn in E; [|discriminate].
    injection E as <-. discriminate F.
  Qed.

  Lemma writer_not_kept os w sk lbs s rs i : w_lock w = None -> g_run pw pf (g_start w sk os) lbs = Some (s, rs) -> w_lock (g_world s) = Some i ->
    (exists em, nth_error (g_futs s) i = Some (Some em)) /\ forall r, ~ In (i, Ready r) rs.
  Proof.
    intros L R H. pose proof (run_lockinv _ _ _ _ _ (start_lockinv w sk os L) R) as I. cbn in I. destruct (li_held _ _ I _ H) as (em & f & A & B & C).
    split; [eauto|]. intros r J. destruct (li_done _ _ I _ _ J) as [D|(em0 & D & F)]; [congruence|]. rewrite A in D. injection D as <-. apply (finished_not _ _ F B C).
  Qed.
  Lemma waits_for_writer os w sk lbs s rs i t s' : w_lock w = None -> g_run pw pf (g_start w sk os) lbs = Some (s, rs) ->
    g_step pw pf s (GPoll i t) = Some (s', Some (i, Waiting)) -> w_lock (g_world s') = Some i \/ exists j, j <> i /\ w_lock (g_world s) = Some j /\ w_lock (g_world s') = Some j.
  Proof.
    intros L R H. pose proof (run_lockinv _ _ _ _ _ (start_lockinv w sk os L) R) as I. cbn in I. cbn in H.
    destruct (nth_error (g_futs s) i) as [[em|]|] eqn:E; try discriminate. destruct (g_poll pw pf i t (g_world s) (g_sock s) em) as [[[w' sk'] em'] r] eqn:P. injection H as <- ->.
    assert (Own : forall f, ge_fut em = Some f -> writing f -> w_lock (g_world s) = Some i) by (intros f A B; eapply li_writing; eauto).
    destruct (poll_ok _ _ _ _ _ _ _ _ _ P Own) as [(_ & (x & X) & _)|[(f' & _ & _ & _ & X)|(id & b & k & _ & _ & X0 & X & Nf)]]; [discriminate X | left; exact X|].
    destruct (Nat.eq_dec k i) as [->|n]; [left; exact X | right; exists k; auto].
  Qed.
End Lock.
