(** Emit futures on an actual write half: generic invariant, then plain sockets and encrypted streams. *)
From Verif Require Import Base BaseFacts Reader ReaderFacts Codec Spec Ids IdsFacts Emit SpecEmit DecodeFacts EventProofs CodecFacts EmitFacts
  Crypt SpecCrypt CryptWriteFacts CryptFacts Wire SpecWire.
From Coq Require Import ZifyBool ZifyNat ZifyN.

Inductive phase := PIdle | PWriting (l rest : bytes) | PWritten (l : bytes) | PFlushing (l : bytes).
Definition pend (r : wstat) : Prop := match r with WPending | WStuck | WLost => True | _ => False end.
Definition gspent : gemit := mk_ge None false None.
Definition grunning (f : gfut) : gemit := mk_ge None false (Some f).

Section G.
  Context {W : Type} (pw : W -> bytes -> W * bytes * wstat) (pf : W -> W * wstat).
  Context (os : list order) (good : bytes -> Prop) (R : list bytes -> phase -> W -> Prop).
  Hypothesis H_new : forall ls w l w' rest r, R ls PIdle w -> l <> [] -> good l -> pw w l = (w', rest, r) ->
    (r = WReady /\ R ls (PWritten l) w') \/ (pend r /\ rest <> [] /\ R ls (PWriting l rest) w').
  Hypothesis H_again : forall ls w l b w' rest r, R ls (PWriting l b) w -> b <> [] -> pw w b = (w', rest, r) ->
    (r = WReady /\ R ls (PWritten l) w') \/ (pend r /\ rest <> [] /\ R ls (PWriting l rest) w').
  Hypothesis H_flush : forall ls w l w' r, R ls (PWritten l) w \/ R ls (PFlushing l) w -> pf w = (w', r) ->
    (r = WReady /\ R (ls ++ [l]) PIdle w') \/ (pend r /\ R ls (PFlushing l) w').
  Hypothesis H_good : forall o e l, In o os -> event_of o e -> ev_id e < U64 -> into_bytes e = Ok l -> good l.

  Definition mine (o : order) (e : event) (l : bytes) : Prop := event_of o e /\ ev_id e < U64 /\ into_bytes e = Ok l.
  Inductive gf_ok (w : world) (ord : list (nat * event)) (ph : phase) (i : nat) (o : order) : option gemit -> Prop :=
  | gk_dropped : w_lock w <> Some i -> gf_ok w ord ph i o None
  | gk_fresh : w_lock w <> Some i -> ~ In i (map fst ord) -> gf_ok w ord ph i o (Some (g_future o))
  | gk_spent : w_lock w <> Some i -> gf_ok w ord ph i o (Some gspent)
  | gk_lock e l : mine o e l -> w_lock w <> Some i -> ~ In i (map fst ord) -> gf_ok w ord ph i o (Some (grunning (GLock (ev_id e) l)))
  | gk_write e l rest : mine o e l -> rest <> [] -> w_lock w = Some i -> ~ In i (map fst ord) -> ph = PWriting l rest ->
      gf_ok w ord ph i o (Some (grunning (GWrite (ev_id e) rest)))
  | gk_flush e l : mine o e l -> w_lock w = Some i -> ~ In i (map fst ord) -> ph = PFlushing l ->
      gf_ok w ord ph i o (Some (grunning (GFlush (ev_id e))))
  | gk_done : w_lock w <> Some i -> gf_ok w ord ph i o (Some (grunning GDone)).

  Record ginv (s : gsys) (res : list (nat * polled N)) (ord : list (nat * event)) (ph : phase) : Prop := {
    gi_len : length (g_futs s) = length os;
    gi_fut : forall i o, nth_error os i = Some o -> exists f, nth_error (g_futs s) i = Some f /\ gf_ok (g_world s) ord ph i o f;
    gi_nodup : NoDup (map fst ord);
    gi_made : forall i e, In (i, e) ord -> exists o l, nth_error os i = Some o /\ mine o e l;
    gi_R : exists ls, Forall2 (fun x l => into_bytes (snd x) = Ok l) ord ls /\ R ls ph (g_sock s);
    gi_idle : w_lock (g_world s) = None -> ph = PIdle;
    gi_lock : forall i, w_lock (g_world s) = Some i -> (i < length os)%nat;
    gi_res : forall i id, In (i, Ready (Ok id)) res -> exists e, In (i, e) ord /\ ev_id e = id }.

  Lemma gf_other w w' ord ord' ph ph' i j o f : i <> j -> gf_ok w ord ph j o f -> w_lock w <> Some j ->
    w_lock w' = None \/ w_lock w' = Some i -> (forall x, In x (map fst ord') -> In x (map fst ord) \/ x = i) ->
    gf_ok w' ord' ph' j o f.
  Proof.
    intros Hij H Hl Hw Ho.
    assert (L : w_lock w' <> Some j) by (destruct Hw as [-> | ->]; [discriminate|congruence]).
    assert (N : ~ In j (map fst ord) -> ~ In j (map fst ord')) by (intros X Y; destruct (Ho _ Y); [auto|congruence]).
    inversion H; subst; try (exfalso; auto; fail); econstructor; eauto.
  Qed.
  Lemma gf_same w w' ord ph i o f : gf_ok w ord ph i o f -> w_lock w' = w_lock w -> gf_ok w' ord ph i o f.
  Proof. intros H E. inversion H; subst; econstructor; eauto; congruence. Qed.

  (** what a poll that takes or holds the mutex does *)
  Inductive goutcome (ls : list bytes) (w1 : world) (id : N) (l : bytes) : world -> W -> gfut -> polled N -> Prop :=
  | go_write s' rest : rest <> [] -> R ls (PWriting l rest) s' -> goutcome ls w1 id l w1 s' (GWrite id rest) Waiting
  | go_flush s' : R ls (PFlushing l) s' -> goutcome ls w1 id l w1 s' (GFlush id) Waiting
  | go_done s' : R (ls ++ [l]) PIdle s' -> goutcome ls w1 id l (unlock w1) s' GDone (Ready (Ok id)).

  Lemma flush_out ls w1 sk id l w' s' f r : R ls (PWritten l) sk \/ R ls (PFlushing l) sk -> g_flush pf w1 sk id = (w', s', f, r) ->
    goutcome ls w1 id l w' s' f r.
  Proof.
    intros HR. unfold g_flush. destruct (pf sk) as [s2 x] eqn:E. destruct (H_flush _ _ _ _ _ HR E) as [[-> Q]|[P Q]].
    - intros H; injection H as <- <- <- <-. apply go_done. exact Q.
    - destruct x; try contradiction; intros H; injection H as <- <- <- <-; apply go_flush; exact Q.
  Qed.
  Lemma write_out ls w1 sk id l b w' s' f r : b <> [] -> (R ls PIdle sk /\ b = l /\ good l) \/ R ls (PWriting l b) sk ->
    g_write pw pf w1 sk id b = (w', s', f, r) -> goutcome ls w1 id l w' s' f r.
  Proof.
    intros Hb HR. unfold g_write. destruct b as [|b0 bt] eqn:Eb; [contradiction|]. rewrite <- Eb in *.
    destruct (pw sk b) as [[s2 rest] x] eqn:E.
    assert (Q : (x = WReady /\ R ls (PWritten l) s2) \/ (pend x /\ rest <> [] /\ R ls (PWriting l rest) s2)).
    { destruct HR as [(HR & -> & G)|HR]; [eapply H_new; eauto|eapply H_again; eauto]. }
    destruct Q as [[-> Q]|(P & N & Q)].
    - intros H. eapply flush_out; eauto.
    - destruct x; try contradiction; intros H; injection H as <- <- <- <-; apply go_write; assumption.
  Qed.

  (** one poll of [i] that holds the mutex while or after writing *)
  Lemma step_held s res ord ph i o em0 w1 e l ls w' s' f r :
    ginv s res ord ph -> nth_error os i = Some o -> nth_error (g_futs s) i = Some em0 -> mine o e l ->
    (w_lock (g_world s) = None \/ w_lock (g_world s) = Some i) -> w_lock w1 = Some i -> ~ In i (map fst ord) ->
    Forall2 (fun x l => into_bytes (snd x) = Ok l) ord ls ->
    goutcome ls w1 (ev_id e) l w' s' f r ->
    exists ord' ph', ginv (mk_g w' s' (put i (Some (grunning f)) (g_futs s))) (res ++ [(i, r)]) ord' ph' /\ (exists x, ord' = ord ++ x).
  Proof.
    intros I Ho Hf Hm Hlk Hw1 Hni HF2 Hout. destruct I.
    assert (Oth : forall ord' ph' wl, (w_lock wl = None \/ w_lock wl = Some i) -> (forall x, In x (map fst ord') -> In x (map fst ord) \/ x = i) ->
       forall j oj, j <> i -> nth_error os j = Some oj -> exists f0, nth_error (put i (Some (grunning f)) (g_futs s)) j = Some f0 /\ gf_ok wl ord' ph' j oj f0).
    { intros ord' ph' wl Hwl Hord j oj Hj Hoj. destruct (gi_fut0 j oj Hoj) as (fj & A & B). exists fj.
      split; [rewrite put_ne by congruence; exact A|]. apply (gf_other (g_world s) wl ord ord' ph ph' i j); auto; try congruence.
      intros X. destruct Hlk; congruence. }
    assert (Li : (i < length os)%nat) by (apply nth_error_Some; congruence).
    inversion Hout; subst w' s'0 f r.
    - exists ord, (PWriting l rest). split; [|exists []; symmetry; apply app_nil_r]. split; cbn [g_futs g_world g_sock]; auto.
      + rewrite put_length. exact gi_len0.
      + intros j oj Hoj. destruct (Nat.eq_dec j i) as [->|Hj].
        * assert (oj = o) as -> by congruence. eexists. split; [apply (put_eq _ _ _ _ Hf)|]. eapply gk_write; eauto.
        * apply Oth; auto.
      + exists ls. auto.
      + congruence.
      + intros j Hj. congruence.
      + intros j id Hin. apply in_app_or in Hin. destruct Hin as [X|[X|[]]]; [exact (gi_res0 j id X)|discriminate].
    - exists ord, (PFlushing l). split; [|exists []; symmetry; apply app_nil_r]. split; cbn [g_futs g_world g_sock]; auto.
      + rewrite put_length. exact gi_len0.
      + intros j oj Hoj. destruct (Nat.eq_dec j i) as [->|Hj].
        * assert (oj = o) as -> by congruence. eexists. split; [apply (put_eq _ _ _ _ Hf)|]. eapply gk_flush; eauto.
        * apply Oth; auto.
      + exists ls. auto.
      + congruence.
      + intros j Hj. congruence.
      + intros j id Hin. apply in_app_or in Hin. destruct Hin as [X|[X|[]]]; [exact (gi_res0 j id X)|discriminate].
    - exists (ord ++ [(i, e)]), PIdle. split; [|eexists; reflexivity]. split; cbn [g_futs g_world g_sock].
      + rewrite put_length. exact gi_len0.
      + intros j oj Hoj. destruct (Nat.eq_dec j i) as [->|Hj].
        * assert (oj = o) as -> by congruence. eexists. split; [apply (put_eq _ _ _ _ Hf)|]. apply gk_done. cbn. discriminate.
        * apply Oth; auto. rewrite map_app. cbn. intros x Hx. apply in_app_or in Hx. cbn in Hx. intuition.
      + rewrite map_app. cbn. rewrite <- (rev_involutive (map fst ord ++ [i])). apply NoDup_rev.
        rewrite rev_app_distr. cbn. constructor; [|apply NoDup_rev; exact gi_nodup0]. rewrite <- in_rev. exact Hni.
      + intros j e' Hin. apply in_app_or in Hin. destruct Hin as [X|[X|[]]]; [exact (gi_made0 j e' X)|]. injection X as <- <-. eauto.
      + exists (ls ++ [l]). split; [|assumption]. apply Forall2_app; [assumption|]. constructor; [apply Hm|constructor].
      + reflexivity.
      + cbn. discriminate.
      + intros j id Hin. apply in_app_or in Hin. destruct Hin as [X|[X|[]]].
        * destruct (gi_res0 j id X) as (e' & A & B). exists e'. split; [apply in_or_app; left; exact A|exact B].
        * injection X as <- <-. exists e. split; [apply in_or_app; right; left; reflexivity|reflexivity].
  Qed.

  (** a poll of [i] that does not touch the mutex *)
  Lemma step_aside s res ord ph i o em0 em1 w' r :
    ginv s res ord ph -> nth_error os i = Some o -> nth_error (g_futs s) i = Some em0 -> w_lock w' = w_lock (g_world s) ->
    gf_ok w' ord ph i o em1 -> (forall id, r <> Ready (Ok id)) ->
    ginv (mk_g w' (g_sock s) (put i em1 (g_futs s))) (res ++ [(i, r)]) ord ph.
  Proof.
    intros [] Ho Hf Hw Hk Hr. split; cbn [g_futs g_world g_sock]; auto.
    - rewrite put_length. exact gi_len0.
    - intros j oj Hoj. destruct (Nat.eq_dec j i) as [->|Hj].
      + assert (oj = o) as -> by congruence. eexists. split; [apply (put_eq _ _ _ _ Hf)|exact Hk].
      + destruct (gi_fut0 j oj Hoj) as (fj & A & B). exists fj. split; [rewrite put_ne by congruence; exact A|]. eapply gf_same; eauto.
    - rewrite Hw. exact gi_idle0.
    - rewrite Hw. exact gi_lock0.
    - intros j id Hin. apply in_app_or in Hin. destruct Hin as [X|[X|[]]]; [exact (gi_res0 j id X)|]. injection X as <- Hx. destruct (Hr id Hx).
  Qed.

  Lemma g_poll_fresh i t w sk o : g_poll pw pf i t w sk (g_future o) =
    match o_payload o with
    | Ok data =>
      let e := made o (nth_id t (w_ctr w)) data in
      match into_bytes e with
      | Ok b => let '(w2, s2, f, r) := g_lock pw pf i (bump w) sk (ev_id e) b in (w2, s2, mk_ge None false (Some f), r)
      | Err er => (bump w, sk, mk_ge None false (Some GDone), Ready (Err er))
      | Crash c => (bump w, sk, mk_ge None false (Some GDone), Ready (Crash c))
      end
    | Err e => (w, sk, gspent, Ready (Err e))
    | Crash c => (w, sk, gspent, Ready (Crash c))
    end.
  Proof.
    unfold g_poll, g_future, g_new. cbn [ge_fut ge_meta ge_stream]. unfold take_event. cbn [m_event].
    change (mk_meta None _ _ _ _ _ _) with (fresh_meta o). rewrite build_fresh. destruct (o_payload o); reflexivity.
  Qed.

  Lemma step_lock s res ord ph i o em0 w1 e l w' s' f r :
    ginv s res ord ph -> nth_error os i = Some o -> nth_error (g_futs s) i = Some em0 -> mine o e l ->
    w_lock w1 = w_lock (g_world s) -> w_lock (g_world s) <> Some i -> ~ In i (map fst ord) ->
    g_lock pw pf i w1 (g_sock s) (ev_id e) l = (w', s', f, r) ->
    exists ord' ph', ginv (mk_g w' s' (put i (Some (grunning f)) (g_futs s))) (res ++ [(i, r)]) ord' ph' /\ (exists x, ord' = ord ++ x).
  Proof.
    intros I Ho Hf Hm Hw Hl Hni. unfold g_lock. rewrite Hw. destruct (w_lock (g_world s)) as [j|] eqn:El.
    - intros H; injection H as <- <- <- <-. exists ord, ph. split; [|exists []; symmetry; apply app_nil_r].
      eapply step_aside; eauto; [congruence| |discriminate]. apply gk_lock; auto. rewrite Hw. exact Hl.
    - intros H. destruct (gi_R _ _ _ _ I) as (ls & F & HR). rewrite (gi_idle _ _ _ _ I El) in HR.
      assert (Hne : l <> []) by (eapply encoding_not_empty; apply Hm).
      eapply write_out in H; [|exact Hne|].
      + eapply step_held; eauto. reflexivity.
      + left. split; [exact HR|]. split; [reflexivity|]. destruct Hm as (M1 & M2 & M3). eapply H_good; eauto. eapply nth_error_In. exact Ho.
  Qed.

  Lemma fut_of s res ord ph i em : ginv s res ord ph -> nth_error (g_futs s) i = Some em ->
    exists o, nth_error os i = Some o /\ gf_ok (g_world s) ord ph i o em.
  Proof.
    intros [] Hf. assert (i < length os)%nat as L by (rewrite <- gi_len0; apply nth_error_Some; congruence).
    destruct (nth_error os i) as [o|] eqn:Ho; [|apply nth_error_None in Ho; lia]. exists o. split; [reflexivity|].
    destruct (gi_fut0 i o Ho) as (f & A & B). congruence.
  Qed.

  Lemma step_inv s res ord ph lb s' x : ginv s res ord ph ->
    match lb with GPoll _ t => rust_instant t | GDrop i => w_lock (g_world s) <> Some i end ->
    g_step pw pf s lb = Some (s', x) ->
    exists ord' ph', ginv s' (res ++ match x with Some y => [y] | None => [] end) ord' ph' /\ (exists z, ord' = ord ++ z).
  Proof.
    intros I Hc. destruct lb as [i t|i]; cbn [g_step].
    - destruct (nth_error (g_futs s) i) as [[em|]|] eqn:Ef; try discriminate.
      destruct (g_poll pw pf i t (g_world s) (g_sock s) em) as [[[w' s2] em'] r] eqn:Ep. intros H; injection H as <- <-.
      destruct (fut_of _ _ _ _ _ _ I Ef) as (o & Ho & Hk). inversion Hk; subst.
      + (* fresh *) rewrite g_poll_fresh in Ep. destruct (o_payload o) as [data|er|c] eqn:Hp.
        * cbn zeta in Ep. destruct (made_event o (nth_id t (w_ctr (g_world s))) data Hp) as [M1 M2].
          assert (M3 : ev_id (made o (nth_id t (w_ctr (g_world s))) data) < U64) by (rewrite M2; apply id_u64; exact Hc).
          destruct (into_bytes (made o (nth_id t (w_ctr (g_world s))) data)) as [b|er|c] eqn:Eb; try discriminate Eb.
          destruct (g_lock _ _ _ _ _ _ _) as [[[w2 s3] f] r'] eqn:El. injection Ep as <- <- <- <-.
          eapply (step_lock s res ord ph i o _ (bump (g_world s)) (made o (nth_id t (w_ctr (g_world s))) data) b); eauto; try reflexivity.
          split; [exact M1|split; assumption].
        * injection Ep as <- <- <- <-. exists ord, ph. split; [|exists []; symmetry; apply app_nil_r].
          eapply step_aside; [exact I|exact Ho|exact Ef|reflexivity|apply gk_spent; assumption|discriminate].
        * injection Ep as <- <- <- <-. exists ord, ph. split; [|exists []; symmetry; apply app_nil_r].
          eapply step_aside; [exact I|exact Ho|exact Ef|reflexivity|apply gk_spent; assumption|discriminate].
      + (* spent *) injection Ep as <- <- <- <-. exists ord, ph. split; [|exists []; symmetry; apply app_nil_r].
        eapply step_aside; [exact I|exact Ho|exact Ef|reflexivity|apply gk_spent; assumption|discriminate].
      + cbn [g_poll ge_fut grunning g_fut] in Ep. destruct (g_lock _ _ _ _ _ _ _) as [[[w2 s3] f] r'] eqn:El. injection Ep as <- <- <- <-.
        eapply (step_lock s res ord ph i o); eauto.
      + cbn [g_poll ge_fut grunning g_fut] in Ep. destruct (g_write _ _ _ _ _ _) as [[[w2 s3] f] r'] eqn:El. injection Ep as <- <- <- <-.
        destruct (gi_R _ _ _ _ I) as (ls & F & HR). eapply write_out in El; eauto. eapply step_held; eauto.
      + cbn [g_poll ge_fut grunning g_fut] in Ep. destruct (g_flush _ _ _ _) as [[[w2 s3] f] r'] eqn:El. injection Ep as <- <- <- <-.
        destruct (gi_R _ _ _ _ I) as (ls & F & HR). eapply flush_out in El; eauto. eapply step_held; eauto.
      + injection Ep as <- <- <- <-. exists ord, ph. split; [|exists []; symmetry; apply app_nil_r].
        eapply step_aside; [exact I|exact Ho|exact Ef|reflexivity|apply gk_done; assumption|discriminate].
    - destruct (nth_error (g_futs s) i) as [[em|]|] eqn:Ef; try discriminate. intros H; injection H as <- <-.
      assert (D : drop_emit i (g_world s) = g_world s).
      { unfold drop_emit. destruct (w_lock (g_world s)) as [j|]; [|reflexivity]. destruct (Nat.eqb_spec i j); [subst; congruence|reflexivity]. }
      rewrite D, app_nil_r. destruct (fut_of _ _ _ _ _ _ I Ef) as (o & Ho & _).
      exists ord, ph. split; [|exists []; symmetry; apply app_nil_r]. destruct I. split; cbn [g_futs g_world g_sock]; auto.
      + rewrite put_length. exact gi_len0.
      + intros j oj Hoj. destruct (Nat.eq_dec j i) as [->|Hj].
        * eexists. split; [apply (put_eq _ _ _ _ Ef)|]. apply gk_dropped. exact Hc.
        * rewrite put_ne by congruence. auto.
  Qed.

  Lemma g_run_inv lbs : forall s res ord ph s' rs, ginv s res ord ph -> uncut pw pf s lbs -> g_run pw pf s lbs = Some (s', rs) ->
    exists ord' ph', ginv s' (res ++ rs) ord' ph' /\ (exists z, ord' = ord ++ z).
  Proof.
    induction lbs as [|lb lbs IH]; intros s res ord ph s' rs I; cbn [uncut g_run].
    - intros _ H; injection H as <- <-. rewrite app_nil_r. exists ord, ph. split; [exact I|exists []; symmetry; apply app_nil_r].
    - intros [Hc Hu]. destruct (g_step pw pf s lb) as [[s1 x]|] eqn:Es; [|discriminate].
      destruct (g_run pw pf s1 lbs) as [[s2 rs2]|] eqn:Er; [|discriminate]. intros H; injection H as <- <-.
      destruct (step_inv _ _ _ _ _ _ _ I Hc Es) as (ord1 & ph1 & I1 & z1 & ->).
      destruct (IH _ _ _ _ _ _ I1 Hu Er) as (ord2 & ph2 & I2 & z2 & ->).
      exists ((ord ++ z1) ++ z2), ph2. split; [|exists (z1 ++ z2); symmetry; apply app_assoc].
      rewrite <- app_assoc in I2. destruct x; exact I2.
  Qed.

  Lemma g_start_inv w sk : w_lock w = None -> R [] PIdle sk -> ginv (g_start w sk os) [] [] PIdle.
  Proof.
    intros Hl HR. split; cbn; try (intros; contradiction); try (constructor; fail); auto.
    - apply map_length.
    - intros i o H. exists (Some (g_future o)). split; [rewrite nth_error_map, H; reflexivity|]. apply gk_fresh; [congruence|intros []].
    - exists []. split; [constructor|exact HR].
    - intros i H. congruence.
  Qed.

  Lemma g_result w sk lbs s rs : w_lock w = None -> R [] PIdle sk -> uncut pw pf (g_start w sk os) lbs -> g_run pw pf (g_start w sk os) lbs = Some (s, rs) ->
    exists ord ph, ginv s rs ord ph.
  Proof.
    intros Hl HR Hu Hr. destruct (g_run_inv _ _ _ _ _ _ _ (g_start_inv w sk Hl HR) Hu Hr) as (ord & ph & I & _). exists ord, ph. exact I.
  Qed.

  (** the emit under way, if any *)
  Lemma underway s res ord ph : ginv s res ord ph -> ph <> PIdle ->
    exists i o e l, nth_error os i = Some o /\ mine o e l /\ ~ In i (map fst ord) /\ w_lock (g_world s) = Some i
      /\ ((exists rest, rest <> [] /\ ph = PWriting l rest) \/ ph = PFlushing l).
  Proof.
    intros I Hp. destruct (w_lock (g_world s)) as [i|] eqn:El; [|destruct (Hp (gi_idle _ _ _ _ I El))].
    pose proof (gi_lock _ _ _ _ I i El) as Li. destruct (nth_error os i) as [o|] eqn:Ho; [|apply nth_error_None in Ho; lia].
    destruct (gi_fut _ _ _ _ I i o Ho) as (f & Hf & Hk). inversion Hk; subst; try contradiction; exists i, o, e, l; split; auto; split; auto; split; auto; split; eauto.
  Qed.
  Lemma inv_calls s res ord ph : ginv s res ord ph -> from_calls os res ord.
  Proof.
    intros []. split; auto. intros i e Hin. destruct (gi_made0 i e Hin) as (o & l & A & B). exists o. split; [exact A|apply B].
  Qed.
End G.

(** ** Plain sockets *)
Definition healthy_all (l : list witem) : Prop := forallb healthy l = true.
Lemma healthy_no_err l i k : healthy_all l -> In i l -> item_kind i k -> False.
Proof. unfold healthy_all. rewrite forallb_forall. intros H Hi Hk. specialize (H i Hi). destruct Hk as [-> | [-> _]]; discriminate. Qed.

Definition R_plain (out0 : bytes) (ls : list bytes) (ph : phase) (sk : wsock) : Prop :=
  healthy_all (ws_script sk) /\ exists part, ws_out sk = out0 ++ concat ls ++ part
    /\ match ph with PIdle => part = [] | PWriting l rest => part ++ rest = l | PWritten l => part = l | PFlushing _ => False end.

Lemma write_all_grow items : forall l out l' sk r, write_all l items out = (l', sk, r) -> exists b, l = b ++ l' /\ ws_out sk = out ++ b.
Proof.
  induction items as [|[n| |k] items IH]; intros l out l' sk r; destruct l as [|b l]; cbn [write_all];
    try (intros H; injection H as <- <- <-; exists []; split; [reflexivity|symmetry; apply app_nil_r]).
  destruct (n =? 0).
  - intros H; injection H as <- <- <-; exists []; split; [reflexivity|symmetry; apply app_nil_r].
  - intros H. apply IH in H as (b1 & H1 & H2). exists (firstn (N.to_nat n) (b :: l) ++ b1). split.
    + rewrite <- app_assoc, <- H1. symmetry. apply firstn_skipn.
    + rewrite H2, <- app_assoc. reflexivity.
Qed.

Lemma plain_go out0 ls sk l part b sk' rest r : healthy_all (ws_script sk) -> ws_out sk = out0 ++ concat ls ++ part -> part ++ b = l ->
  plain_write sk b = (sk', rest, r) ->
  (r = WReady /\ R_plain out0 ls (PWritten l) sk') \/ (pend r /\ rest <> [] /\ R_plain out0 ls (PWriting l rest) sk').
Proof.
  intros Hh Ho Hl. unfold plain_write. destruct (write_all b (ws_script sk) (ws_out sk)) as [[rest' sk2] x] eqn:E. intros H; injection H as <- <- <-.
  pose proof (write_all_better (fun _ _ p => p) _ _ _ _ _ _ E Hh) as [Hh' _].
  destruct (write_all_grow _ _ _ _ _ _ E) as (b1 & B1 & B2). apply write_all_spec in E as (E1 & _ & E3).
  assert (P : R_plain out0 ls (PWriting l rest') sk2).
  { split; [exact Hh'|]. exists (part ++ b1). split; [rewrite B2, Ho, <- !app_assoc; reflexivity|]. rewrite <- app_assoc, <- B1. exact Hl. }
  destruct x; try contradiction.
  - left. split; [reflexivity|]. split; [exact Hh'|]. exists l. split; [|reflexivity]. subst rest'. rewrite app_nil_r in E1.
    rewrite E1, Ho, <- Hl, <- !app_assoc. reflexivity.
  - exfalso. destruct E3 as (it & A & B). exact (healthy_no_err _ _ _ Hh A B).
  - right. destruct E3 as [E3 E4]. split; [exact Coq.Init.Logic.I|]. split; [exact E3|exact P].
  - right. destruct E3 as [E3 E4]. split; [exact Coq.Init.Logic.I|]. split; [exact E3|exact P].
Qed.
Lemma plain_new out0 ls w l w' rest r : R_plain out0 ls PIdle w -> l <> [] -> True -> plain_write w l = (w', rest, r) ->
  (r = WReady /\ R_plain out0 ls (PWritten l) w') \/ (pend r /\ rest <> [] /\ R_plain out0 ls (PWriting l rest) w').
Proof. intros (A & part & B & C) _ _. cbn in C. subst part. eapply plain_go; eauto. Qed.
Lemma plain_again out0 ls w l b w' rest r : R_plain out0 ls (PWriting l b) w -> b <> [] -> plain_write w b = (w', rest, r) ->
  (r = WReady /\ R_plain out0 ls (PWritten l) w') \/ (pend r /\ rest <> [] /\ R_plain out0 ls (PWriting l rest) w').
Proof. intros (A & part & B & C) _. eapply plain_go; eauto. Qed.
Lemma plain_flushed out0 ls w l w' r : R_plain out0 ls (PWritten l) w \/ R_plain out0 ls (PFlushing l) w -> plain_flush w = (w', r) ->
  (r = WReady /\ R_plain out0 (ls ++ [l]) PIdle w') \/ (pend r /\ R_plain out0 ls (PFlushing l) w').
Proof.
  intros [(A & part & B & C)|(A & part & B & [])] H. injection H as <- <-. left. split; [reflexivity|]. split; [exact A|]. cbn in C. subst part.
  exists []. split; [|reflexivity]. rewrite B, concat_app. cbn. rewrite !app_nil_r. reflexivity.
Qed.

(** ** Encrypted streams *)
Section Enc.
  Context (enc : bytes -> bytes -> bytes -> bytes).
  Definition R_enc (out0 key : bytes) (ls : list bytes) (ph : phase) (st : ewrite) : Prop :=
    healthy_all (script_of st) /\ (exists y, ws_out (ew_sock st) = (out0 ++ boxes (ciphertexts enc key 0 ls)) ++ y)
    /\ exists ps X, winv enc out0 key ps X st /\
      match ph with
      | PIdle => ps = ls /\ ew_buf st = [] /\ idle st
      | PWriting l rest => rest = l /\ l <> [] /\ ps = ls ++ [l] /\ ew_buf st = [] /\ writing st
      | PWritten l => small_msg l /\ idle st /\ ((ps = ls /\ ew_buf st = l) \/ (ps = ls ++ [l] /\ ew_buf st = []))
      | PFlushing l => ps = ls ++ [l] /\ ew_buf st = [] /\ flushing st
      end.
  Lemma write_better st l st' r : l <> [] -> ew_poll_write enc st l = (st', r) -> healthy_all (script_of st) -> healthy_all (script_of st').
  Proof. intros Hl H Hh. pose proof (poll_op_better enc (OWrite l) st st' r) as Q. destruct l; [contradiction|]. apply (Q H Hh). Qed.
  Lemma flush_better st st' r : ew_poll_flush enc st = (st', r) -> healthy_all (script_of st) -> healthy_all (script_of st').
  Proof. intros H Hh. apply (poll_flush_better enc _ _ _ H Hh). Qed.
  Lemma fut_write_grow st l st' r : poll_fut_write st l = (st', r) -> exists y, ws_out (ew_sock st') = ws_out (ew_sock st) ++ y.
  Proof.
    unfold poll_fut_write. destruct (write_all _ _ _) as [[l' sk] x] eqn:E. destruct (write_all_grow _ _ _ _ _ _ E) as (b & _ & H).
    destruct x; intros H0; injection H0 as <- <-; exists b; exact H.
  Qed.
  Lemma fut_flush_grow st l st' r : poll_fut_flush st l = (st', r) -> exists y, ws_out (ew_sock st') = ws_out (ew_sock st) ++ y.
  Proof.
    unfold poll_fut_flush. destruct (write_all _ _ _) as [[l' sk] x] eqn:E. destruct (write_all_grow _ _ _ _ _ _ E) as (b & _ & H).
    destruct x; intros H0; injection H0 as <- <-; exists b; exact H.
  Qed.
  Lemma nil_grow (st : ewrite) : exists y, ws_out (ew_sock st) = ws_out (ew_sock st) ++ y.
  Proof. exists []. symmetry. apply app_nil_r. Qed.
  Lemma write_grow st l st' r : ew_poll_write enc st l = (st', r) -> exists y, ws_out (ew_sock st') = ws_out (ew_sock st) ++ y.
  Proof.
    unfold ew_poll_write. destruct (ew_fut_write st); [apply fut_write_grow|].
    destruct (WRITE_BUF_SIZE <=? _); [|intros H; injection H as <- <-; apply (nil_grow st)].
    destruct (ew_inner st); [|intros H; injection H as <- <-; apply (nil_grow st)].
    intros H; apply fut_write_grow in H; exact H.
  Qed.
  Lemma flush_grow st st' r : ew_poll_flush enc st = (st', r) -> exists y, ws_out (ew_sock st') = ws_out (ew_sock st) ++ y.
  Proof.
    unfold ew_poll_flush. destruct (ew_fut_flush st); [apply fut_flush_grow|].
    destruct (ew_inner st); [|intros H; injection H as <- <-; apply (nil_grow st)].
    destruct (0 <? _); intros H; apply fut_flush_grow in H; exact H.
  Qed.
  Lemma grow_more (a : bytes) st st' : (exists y, ws_out (ew_sock st) = a ++ y) -> (exists y, ws_out (ew_sock st') = ws_out (ew_sock st) ++ y) ->
    exists y, ws_out (ew_sock st') = a ++ y.
  Proof. intros [y ->] [z ->]. exists (y ++ z). symmetry. apply app_assoc. Qed.
  Lemma enc_new out0 key ls w l w' rest r : R_enc out0 key ls PIdle w -> l <> [] -> small_msg l -> crypt_write enc w l = (w', rest, r) ->
    (r = WReady /\ R_enc out0 key ls (PWritten l) w') \/ (pend r /\ rest <> [] /\ R_enc out0 key ls (PWriting l rest) w').
  Proof.
    intros (Hh & Hg & ps & X & I & -> & Hb & Hi) Hl Hs. unfold crypt_write. destruct (ew_poll_write enc w l) as [w1 x] eqn:E. intros H.
    pose proof (write_better _ _ _ _ Hl E Hh) as Hh'. pose proof (grow_more _ _ _ Hg (write_grow _ _ _ _ E)) as Hg'.
    pose proof (poll_write_new _ _ _ _ _ _ _ Hl I Hi _ _ E) as (Q1 & Q2 & Q3). rewrite Hb in *. unfold after_write in *.
    destruct l as [|b0 bt] eqn:El; [contradiction|]. rewrite <- El in *. cbn [app] in *.
    destruct (cutoff_small l (proj2 Hs)) as [C1 C2]. rewrite C1, C2 in *.
    destruct x; try contradiction; injection H as <- <- <-.
    - left. split; [reflexivity|]. split; [exact Hh'|]. split; [exact Hg'|]. destruct Q3 as [Q3 Q4]. destruct (WRITE_BUF_SIZE <=? blen l); cbn [fst snd] in *; eexists _, _; split; eauto.
    - exfalso. destruct Q1 as (_ & i & A & B). exact (healthy_no_err _ _ _ Hh A B).
    - right. split; [exact Coq.Init.Logic.I|]. split; [exact Hl|]. split; [exact Hh'|]. split; [exact Hg'|]. destruct Q3 as [Q3 Q4].
      destruct (WRITE_BUF_SIZE <=? blen l) eqn:Ew; cbn [fst snd] in *; [eexists _, _; split; [exact Q3|]; auto|].
      exfalso. revert E. unfold ew_poll_write. destruct Hi as (Hi1 & Hi2 & Hi3). rewrite Hi1, Hb. cbn [app]. rewrite Ew. discriminate.
    - right. split; [exact Coq.Init.Logic.I|]. split; [exact Hl|]. split; [exact Hh'|]. split; [exact Hg'|]. destruct Q3 as [Q3 Q4].
      destruct (WRITE_BUF_SIZE <=? blen l) eqn:Ew; cbn [fst snd] in *; [eexists _, _; split; [exact Q3|]; auto|].
      exfalso. revert E. unfold ew_poll_write. destruct Hi as (Hi1 & Hi2 & Hi3). rewrite Hi1, Hb. cbn [app]. rewrite Ew. discriminate.
  Qed.
  Lemma enc_again out0 key ls w l b w' rest r : R_enc out0 key ls (PWriting l b) w -> b <> [] -> crypt_write enc w b = (w', rest, r) ->
    (r = WReady /\ R_enc out0 key ls (PWritten l) w') \/ (pend r /\ rest <> [] /\ R_enc out0 key ls (PWriting l rest) w').
  Proof.
    intros (Hh & Hg & ps & X & I & -> & Hl & -> & Hb & Hw) _. unfold crypt_write. destruct (ew_poll_write enc w l) as [w1 x] eqn:E. intros H.
    pose proof (write_better _ _ _ _ Hl E Hh) as Hh'. pose proof (grow_more _ _ _ Hg (write_grow _ _ _ _ E)) as Hg'.
    assert (Hs : small_msg l) by (pose proof (wi_ne _ _ _ _ _ _ I) as F; apply Forall_app in F as [_ F]; inversion F; subst; assumption).
    pose proof (poll_write_again _ _ _ _ _ _ _ I Hw _ _ E) as (Q1 & Q2 & Q3). cbn [fst snd] in *. rewrite Hb in Q2.
    destruct x; try contradiction; injection H as <- <- <-.
    - left. split; [reflexivity|]. split; [exact Hh'|]. split; [exact Hg'|]. destruct Q3 as [Q3 Q4]. eexists _, _; split; eauto.
    - exfalso. destruct Q1 as (_ & i & A & B). exact (healthy_no_err _ _ _ Hh A B).
    - right. split; [exact Coq.Init.Logic.I|]. split; [exact Hl|]. split; [exact Hh'|]. split; [exact Hg'|]. destruct Q3 as [Q3 Q4]. eexists _, _; split; eauto 6.
    - right. split; [exact Coq.Init.Logic.I|]. split; [exact Hl|]. split; [exact Hh'|]. split; [exact Hg'|]. destruct Q3 as [Q3 Q4]. eexists _, _; split; eauto 6.
  Qed.
  Lemma enc_flush out0 key ls w l w' r : R_enc out0 key ls (PWritten l) w \/ R_enc out0 key ls (PFlushing l) w -> crypt_flush enc w = (w', r) ->
    (r = WReady /\ R_enc out0 key (ls ++ [l]) PIdle w') \/ (pend r /\ R_enc out0 key ls (PFlushing l) w').
  Proof.
    unfold crypt_flush. intros HR E.
    assert (Hg : exists y, ws_out (ew_sock w') = (out0 ++ boxes (ciphertexts enc key 0 ls)) ++ y)
      by (eapply grow_more; [|eapply flush_grow; exact E]; destruct HR as [HR|HR]; apply HR).
    assert (Q : healthy_all (script_of w') /\ exists X, step_ok enc out0 key (ls ++ [l], []) X w w' r flushing).
    { destruct HR as [(Hh & _ & ps & X & I & Hs & Hi & Hp)|(Hh & _ & ps & X & I & -> & Hb & Hf)]; (split; [eapply flush_better; eauto|]); exists X.
      - pose proof (poll_flush_new _ _ _ _ _ _ I Hi _ _ E) as Q. destruct Hp as [[-> Hp]|[-> Hp]]; rewrite Hp in Q.
        + unfold after_flush in Q. destruct l as [|b0 bt] eqn:El; [destruct Hs; contradiction|]. rewrite <- El in *.
          destruct (cutoff_small l (proj2 Hs)) as [C1 C2]. rewrite C1, C2 in Q. exact Q.
        + exact Q.
      - pose proof (poll_flush_again _ _ _ _ _ _ I Hf _ _ E) as Q. rewrite Hb in Q. exact Q. }
    destruct Q as (Hh' & X & Q1 & Q2 & Q3). cbn [fst snd] in *. destruct r; try contradiction.
    - left. split; [reflexivity|]. split; [exact Hh'|]. destruct Q3 as [Q3 Q4]. split; [exists []; rewrite app_nil_r; rewrite <- (wi_out _ _ _ _ _ _ Q3); unfold in_flight; destruct Q4 as (-> & -> & _); rewrite app_nil_r; reflexivity|]. eexists _, _; split; eauto.
    - exfalso. destruct Q1 as (_ & i & A & B).
      assert (Hh : healthy_all (script_of w)) by (destruct HR as [HR|HR]; apply HR). exact (healthy_no_err _ _ _ Hh A B).
    - right. split; [exact Coq.Init.Logic.I|]. split; [exact Hh'|]. split; [exact Hg|]. destruct Q3 as [Q3 Q4]. eexists _, _; split; eauto.
    - right. split; [exact Coq.Init.Logic.I|]. split; [exact Hh'|]. split; [exact Hg|]. destruct Q3 as [Q3 Q4]. eexists _, _; split; eauto.
  Qed.
End Enc.
