(** The order of writers: invariant of Fair.v. *)
From Verif Require Import Base BaseFacts Codec Ids Emit Spec SpecEmit EmitFacts Fair SpecFair.

(** ** Lists *)
Lemma sublist_refl {A} (l : list A) : sublist l l. Proof. induction l; [apply sl_nil|apply sl_keep; assumption]. Qed.
Lemma sublist_none {A} (l : list A) : sublist [] l. Proof. induction l; [apply sl_nil|apply sl_skip; assumption]. Qed.
Lemma sublist_app {A} (a b c d : list A) : sublist a b -> sublist c d -> sublist (a ++ c) (b ++ d).
Proof. induction 1; cbn; intros H'; [exact H'|apply sl_skip; auto|apply sl_keep; auto]. Qed.
Lemma sublist_more {A} (a b c : list A) : sublist a b -> sublist a (b ++ c).
Proof. intros H. rewrite <- (app_nil_r a). apply sublist_app; [exact H|apply sublist_none]. Qed.
Lemma sublist_In {A} (a b : list A) x : sublist a b -> In x a -> In x b.
Proof. induction 1 as [|y b a H IH|y b a H IH]; cbn; intros Q; auto. destruct Q; auto. Qed.
Lemma sublist_trans {A} (a b c : list A) : sublist a b -> sublist b c -> sublist a c.
Proof.
  intros H1 H2. revert a H1. induction H2 as [|x b c H IH|x b c H IH]; intros a H1; [exact H1|apply sl_skip; auto|].
  inversion H1; subst; [apply sl_skip|apply sl_keep]; auto.
Qed.
Lemma sublist_filter {A} (p : A -> bool) l : sublist (filter p l) l.
Proof. induction l as [|x l IH]; cbn; [constructor|]. destruct (p x); [apply sl_keep|apply sl_skip]; auto. Qed.
Lemma sublist_cons {A} (x : A) a l : sublist (x :: a) l -> exists p q, l = p ++ x :: q /\ sublist a q.
Proof.
  intros H. remember (x :: a) as m. revert x a Heqm. induction H as [|y b l H IH|y b l H IH]; intros x a E; [discriminate| |].
  - destruct (IH x a E) as (p & q & -> & Q). exists (y :: p), q. auto.
  - inversion E; subst. exists [], l. auto.
Qed.
Lemma sublist_mid {A} (x : A) a b l : sublist (a ++ x :: b) l -> exists p q, l = p ++ x :: q /\ sublist b q.
Proof.
  revert l. induction a as [|y a IH]; cbn; intros l H; [apply sublist_cons; exact H|].
  apply sublist_cons in H. destruct H as (p & q & -> & H). destruct (IH q H) as (p' & q' & -> & Q). exists (p ++ y :: p'), q'. split; [rewrite <- app_assoc; reflexivity|exact Q].
Qed.
Lemma sublist_before j i a b c l : sublist (a ++ j :: b ++ i :: c) l -> before j i l.
Proof.
  intros H. destruct (sublist_mid _ _ _ _ H) as (p & q & -> & Q). destruct (sublist_mid _ _ _ _ Q) as (p' & q' & -> & _).
  exists p, p', q'. reflexivity.
Qed.
Lemma nth_ext_all {A} (a b : list A) : (forall i, nth_error a i = nth_error b i) -> a = b.
Proof.
  revert b. induction a as [|x a IH]; intros [|y b] H; [reflexivity|specialize (H 0%nat); discriminate..|].
  f_equal; [specialize (H 0%nat); cbn in H; congruence|apply IH; intros i; apply (H (S i))].
Qed.
Lemma put_same {A} i (x : A) l : (i < length l)%nat -> nth_error (put i x l) i = Some x.
Proof. intros H. destruct (nth_error l i) eqn:E; [apply (put_eq _ _ _ _ E)|]. apply nth_error_None in E. lia. Qed.

(** ** A future that was handed the mutex counts as writing *)
Definition seen (w : world) (i : nat) (f : option emit_metadata) : option emit_metadata :=
  match f with
  | Some em => match em_fut em with
               | Some (FLock id b) => if holds i w then Some (mk_emit (em_meta em) (em_stream em) (Some (FWrite id [] b))) else f
               | _ => f
               end
  | None => None
  end.
Fixpoint view (w : world) (k : nat) (l : list (option emit_metadata)) : list (option emit_metadata) :=
  match l with [] => [] | f :: l' => seen w k f :: view w (S k) l' end.
Definition abs (s : emit_sys) : emit_sys := mk_sys (y_world s) (view (y_world s) 0 (y_futs s)).
Lemma view_length w k l : length (view w k l) = length l. Proof. revert k. induction l; cbn; intros; auto. Qed.
Lemma view_nth w l : forall k i, nth_error (view w k l) i = option_map (seen w (k + i)) (nth_error l i).
Proof.
  induction l as [|f l IH]; intros k [|i]; cbn; [reflexivity..|rewrite Nat.add_0_r; reflexivity|]. rewrite IH. rewrite Nat.add_succ_r. reflexivity.
Qed.
Lemma abs_nth s i : nth_error (y_futs (abs s)) i = option_map (seen (y_world s) i) (nth_error (y_futs s) i).
Proof. cbn [abs y_futs]. rewrite view_nth. reflexivity. Qed.
Lemma holds_iff i w : holds i w = true <-> w_lock w = Some i.
Proof. unfold holds. destruct (w_lock w) as [j|]; [|split; discriminate]. rewrite Nat.eqb_eq. split; [intros ->; reflexivity|intros H; congruence]. Qed.
Lemma queued_iff i q : queued i q = true <-> In i q.
Proof. unfold queued. rewrite existsb_exists. split; [intros (x & A & B); apply Nat.eqb_eq in B; subst; exact A|intros H; exists i; split; [exact H|apply Nat.eqb_refl]]. Qed.
Lemma seen_lock w i id b : seen w i (Some (running (FLock id b))) = Some (running (if holds i w then FWrite id [] b else FLock id b)).
Proof. cbn. destruct (holds i w); reflexivity. Qed.
(** the abstract state after changing future [i] *)
Lemma abs_put s i em w' em' : nth_error (y_futs s) i = Some em ->
  seen w' i em' = em' ->
  (forall j id b, j <> i -> nth_error (y_futs s) j = Some (Some (running (FLock id b))) -> holds j w' = holds j (y_world s)) ->
  (forall j em, nth_error (y_futs s) j = Some (Some em) -> forall id b, em_fut em = Some (FLock id b) -> em = running (FLock id b)) ->
  abs (mk_sys w' (put i em' (y_futs s))) = mk_sys w' (put i em' (y_futs (abs s))).
Proof.
  intros Hi Hs Ho Hr. unfold abs. cbn [y_world y_futs]. f_equal. apply nth_ext_all. intros j. rewrite view_nth. cbn [Nat.add]. destruct (Nat.eq_dec j i) as [->|Hj].
  - rewrite (put_eq _ _ _ _ Hi). cbn. rewrite Hs. symmetry. apply put_same. rewrite view_length. apply nth_error_Some. congruence.
  - rewrite !put_ne by congruence. rewrite view_nth. cbn [Nat.add]. destruct (nth_error (y_futs s) j) as [[f|]|] eqn:E; [|reflexivity..]. cbn [option_map]. f_equal. cbn [seen].
    destruct (em_fut f) as [[e|id b|? ? ?|? ?|]|] eqn:Ef; try reflexivity. pose proof (Hr _ _ E _ _ Ef). subst f. rewrite (Ho j id b Hj E). reflexivity.
Qed.

(** ** The invariant *)
Record fair_pre (os : list order) (w0 : world) (s : fair_sys) (res : list (nat * polled N)) (ps : list opiece) (asked : list nat) : Prop := {
  fi_pc : pc_inv os w0 (abs (q_sys s)) res ps;
  fi_run : forall j em, nth_error (y_futs (q_sys s)) j = Some (Some em) -> forall id b, em_fut em = Some (FLock id b) -> em = running (FLock id b);
  fi_queue : forall j, In j (q_wait s) -> w_lock (y_world (q_sys s)) <> Some j /\ exists id b, nth_error (y_futs (q_sys s)) j = Some (Some (running (FLock id b)));
  fi_order : sublist (map fst ps ++ q_wait s) asked;
  fi_nodup : NoDup asked;
  fi_asked : forall i, In i asked -> exists f, nth_error (y_futs (q_sys s)) i = Some f
    /\ (f = None \/ f = Some spent \/ f = Some (running FDone) \/ In i (q_wait s) \/ w_lock (y_world (q_sys s)) = Some i);
  fi_end : forall i, nth_error (y_futs (q_sys s)) i = Some (Some spent) \/ nth_error (y_futs (q_sys s)) i = Some (Some (running FDone)) -> finished i res }.
Definition fair_inv os w0 s res ps asked : Prop := fair_pre os w0 s res ps asked /\ (w_lock (y_world (q_sys s)) = None -> q_wait s = []).

Lemma pc_forget os w0 s res ps i : pc_inv os w0 s (res ++ [(i, Waiting)]) ps -> pc_inv os w0 s res ps.
Proof.
  intros [A B [C1 C2 C3 C4] D]. split; auto.
  - split; auto. intros j id H. apply C4. apply in_or_app. auto.
  - intros j id H. apply (D j id). apply in_or_app. auto.
Qed.
Lemma pc_lock_state os w0 s res ps i id b : pc_inv os w0 s res ps -> nth_error (y_futs s) i = Some (Some (running (FLock id b))) ->
  w_lock (y_world s) <> Some i /\ ~ In i (map fst ps) /\ b <> [].
Proof.
  intros [L F P D] H. destruct (nth_error os i) as [o|] eqn:Ho.
  - destruct (F _ _ Ho) as (f & A & B). rewrite H in A. injection A as <-. inversion B; subst.
    split; [assumption|]. split; [assumption|]. eapply encoding_not_empty. eassumption.
  - apply nth_error_None in Ho. assert (i < length (y_futs s))%nat by (apply nth_error_Some; congruence). lia.
Qed.
Lemma pc_write_last os w0 s res ps i id b : pc_inv os w0 s res ps -> nth_error (y_futs s) i = Some (Some (running (FWrite id [] b))) -> In i (map fst ps).
Proof.
  intros [L F P D] H. destruct (nth_error os i) as [o|] eqn:Ho.
  - destruct (F _ _ Ho) as (f & A & B). rewrite H in A. injection A as <-. inversion B; subst.
    rewrite map_app. apply in_or_app. right. left. reflexivity.
  - apply nth_error_None in Ho. assert (i < length (y_futs s))%nat by (apply nth_error_Some; congruence). lia.
Qed.
(** the mutex goes to the first in the queue *)
Lemma handed os w0 sy q res ps asked w2 q2 : fair_pre os w0 (mk_fair sy q) res ps asked -> hand_over (y_world sy) q = (w2, q2) ->
  exists ps', fair_inv os w0 (mk_fair (mk_sys w2 (y_futs sy)) q2) res ps' asked.
Proof.
  intros I H. unfold hand_over in H. destruct (w_lock (y_world sy)) as [k|] eqn:L.
  { injection H as <- <-. exists ps. split; [destruct sy; exact I|cbn; congruence]. }
  destruct q as [|j q']. { injection H as <- <-. exists ps. split; [destruct sy; exact I|reflexivity]. }
  injection H as <- <-. destruct I as [pc run queue ord nd ask en]. cbn [q_sys q_wait] in *.
  destruct (queue j (or_introl eq_refl)) as (_ & id & b & Hj).
  assert (Aj : nth_error (y_futs (abs sy)) j = Some (Some (running (FLock id b)))). { rewrite abs_nth, Hj. cbn [option_map]. rewrite seen_lock. unfold holds. rewrite L. reflexivity. }
  destruct (pc_lock_state _ _ _ _ _ _ _ _ pc Aj) as (_ & Nin & Nb).
  assert (St : emit_step (abs sy) (YPoll j (mk_instant 0 0) []) = Some (mk_sys (lock j (y_world sy)) (put j (Some (running (FWrite id [] b))) (y_futs (abs sy))), Some (j, Waiting))).
  { cbn [emit_step]. rewrite Aj. unfold running at 1. cbn [poll_emit em_fut poll_fut em_meta em_stream]. unfold poll_lock. cbn [abs y_world]. rewrite L. destruct b; [congruence|]. reflexivity. }
  assert (ND : NoDup (j :: q')).
  { assert (sublist (j :: q') asked). { apply (sublist_trans _ (map fst ps ++ j :: q')); [|exact ord]. rewrite <- (app_nil_l (j :: q')) at 1. apply sublist_app; [apply sublist_none|apply sublist_refl]. }
    clear - H nd. revert nd H. generalize (j :: q'). intros m N H. induction H as [|x b a H IH|x b a H IH]; [constructor|inversion N; auto|].
    inversion N; subst. constructor; [intros Q; apply H2; eapply sublist_In; eauto|auto]. }
  destruct (pc_poll _ _ _ _ _ _ _ _ _ _ pc St) as (ps' & r & Er & Ch & pc'). injection Er as <-. apply pc_forget in pc'.
  assert (Eab : abs (mk_sys (lock j (y_world sy)) (y_futs sy)) = mk_sys (lock j (y_world sy)) (put j (Some (running (FWrite id [] b))) (y_futs (abs sy)))).
  { unfold abs. cbn [y_world y_futs]. f_equal. apply nth_ext_all. intros i. rewrite view_nth. cbn [Nat.add]. destruct (Nat.eq_dec i j) as [->|Hi].
    - rewrite Hj. cbn [option_map]. rewrite seen_lock. unfold holds. cbn [lock w_lock]. rewrite Nat.eqb_refl. symmetry. apply put_same. rewrite view_length. apply nth_error_Some. congruence.
    - rewrite put_ne by congruence. rewrite view_nth. cbn [Nat.add]. destruct (nth_error (y_futs sy) i) as [[f|]|]; [|reflexivity..]. cbn [option_map]. f_equal. cbn [seen].
      destruct (em_fut f) as [[e|id' b'|? ? ?|? ?|]|]; try reflexivity. unfold holds. cbn [lock w_lock]. rewrite L. apply Nat.eqb_neq in Hi. rewrite Hi. reflexivity. }
  assert (Eps : map fst ps' = map fst ps ++ [j]).
  { destruct Ch as [Ch|(_ & Ch & _)]; [|exact Ch]. exfalso. apply Nin. rewrite <- Ch. eapply pc_write_last; [exact pc'|]. cbn [y_futs]. apply put_same. rewrite abs_nth in Aj.
    cbn [abs y_futs]. rewrite view_length. apply nth_error_Some. congruence. }
  exists ps'. split; [|cbn; discriminate]. split; cbn [q_sys q_wait y_world y_futs]; auto.
  - rewrite Eab. exact pc'.
  - intros i Hi. destruct (queue i (or_intror Hi)) as (_ & Q). split; [|exact Q]. cbn. intros X. injection X as <-. inversion ND; contradiction.
  - rewrite Eps, <- app_assoc. exact ord.
  - intros i Hi. destruct (ask i Hi) as (f & F1 & F2). exists f. split; [exact F1|]. cbn [lock w_lock]. destruct F2 as [F|[F|[F|[[<- |F]|F]]]]; auto. congruence.
Qed.

(** ** What a poll does *)
Inductive poll_view (w : world) (i : nat) (w' : world) : emit_metadata -> polled N -> Prop :=
| pv_spent r : w_lock w' = w_lock w -> w_out w' = w_out w -> poll_view w i w' spent (Ready r)
| pv_done r : w_lock w' = w_lock w \/ (w_lock w = None \/ w_lock w = Some i) /\ w_lock w' = None -> poll_view w i w' (running FDone) (Ready r)
| pv_wait id b : w_lock w' = w_lock w -> w_lock w <> None -> w_lock w <> Some i -> poll_view w i w' (running (FLock id b)) Waiting
| pv_busy f : (forall id b, f <> FLock id b) -> f <> FDone -> w_lock w' = Some i -> w_lock w = None \/ w_lock w = Some i -> poll_view w i w' (running f) Waiting.
Lemma wrote_view w i id sent rest w' f r : wrote_outcome w id sent rest w' f r -> w_lock w = Some i -> forall w0, w_lock w0 = None \/ w_lock w0 = Some i -> poll_view w0 i w' (running f) r.
Proof.
  intros H L w0 L0. inversion H; subst.
  - apply pv_busy; try discriminate; auto.
  - apply pv_busy; try discriminate; auto.
  - apply pv_done. right. auto.
  - apply pv_done. right. auto.
Qed.
Lemma lock_view w i id b l w' f r : poll_lock i w id b l = (w', f, r) -> w_lock w <> Some i -> forall w0, w_lock w0 = w_lock w -> poll_view w0 i w' (running f) r.
Proof.
  unfold poll_lock. intros H L w0 L0. destruct (w_lock w) as [j|] eqn:E.
  - injection H as <- <- <-. apply pv_wait; congruence.
  - apply write_all_outcome in H. apply (wrote_view _ _ _ _ _ _ _ _ H); [reflexivity|left; congruence].
Qed.
Lemma polled_view w ps i o em t l w' em' r : fut_pc w ps i o (Some em) -> poll_emit i t w em l = (w', em', r) -> poll_view w i w' em' r.
Proof.
  intros F H. inversion F; subst.
  - rewrite poll_fresh in H. destruct (o_payload o) as [data|er|c]; [|injection H as <- <- <-; apply pv_spent; reflexivity..].
    cbv zeta in H. cbn [poll_fut] in H. destruct (into_bytes _) as [enc|er|c] eqn:Eb; try discriminate Eb.
    destruct (poll_lock _ _ _ _ _) as [[w2 f2] r2] eqn:Ef. injection H as <- <- <-. apply (lock_view _ _ _ _ _ _ _ _ Ef); [assumption|reflexivity].
  - rewrite poll_spent in H. injection H as <- <- <-. apply pv_spent; reflexivity.
  - unfold running in H. cbn [poll_emit em_fut em_meta em_stream poll_fut] in H. destruct (poll_lock _ _ _ _ _) as [[w2 f2] r2] eqn:Ef. injection H as <- <- <-.
    apply (lock_view _ _ _ _ _ _ _ _ Ef); [assumption|reflexivity].
  - unfold running in H. cbn [poll_emit em_fut em_meta em_stream poll_fut] in H. destruct (poll_write_all _ _ _ _ _) as [[w2 f2] r2] eqn:Ef. injection H as <- <- <-.
    apply write_all_outcome in Ef. apply (wrote_view _ _ _ _ _ _ _ _ Ef); auto.
  - unfold running in H. cbn [poll_emit em_fut em_meta em_stream poll_fut] in H. destruct (poll_flush _ _ _ _) as [[w2 f2] r2] eqn:Ef. injection H as <- <- <-.
    apply flush_outcome in Ef. apply (wrote_view _ _ _ _ _ _ _ _ Ef); auto.
  - unfold running in H. cbn [poll_emit em_fut em_meta em_stream poll_fut] in H. injection H as <- <- <-. apply pv_done. auto.
Qed.
Lemma fair_is_emit i t w em l : exists em_a, seen w i (Some em) = Some em_a /\ fair_poll i t w em l = poll_emit i t w em_a l.
Proof.
  unfold fair_poll. cbn [seen]. destruct em as [m st f]. cbn [em_fut em_meta em_stream]. destruct f as [[e|id b|? ? ?|? ?|]|]; try (eexists; split; reflexivity).
  destruct (holds i w); eexists; (split; reflexivity).
Qed.
Lemma put_self {A} i (x : A) l : nth_error l i = Some x -> put i x l = l.
Proof. revert i. induction l as [|y l IH]; intros [|i] H; cbn in *; try discriminate; [congruence|]. f_equal. auto. Qed.
Lemma pc_more os w0 s res ps i : pc_inv os w0 s res ps -> pc_inv os w0 s (res ++ [(i, Waiting)]) ps.
Proof.
  intros [A B [C1 C2 C3 C4] D]. split; auto.
  - split; auto. intros j id H. apply in_app_or in H. destruct H as [H|[H|[]]]; [auto|discriminate].
  - intros j id H. apply in_app_or in H. destruct H as [H|[H|[]]]; [exact (D j id H)|discriminate].
Qed.
Lemma finished_more i res x : finished i res -> finished i (res ++ [x]).
Proof. intros (r & H). exists r. apply in_or_app. auto. Qed.
Lemma in_ask i asked t l : In i (ask asked (QPoll i t l)).
Proof. cbn [ask]. destruct (existsb (Nat.eqb i) asked) eqn:E; [apply queued_iff; exact E|apply in_or_app; right; left; reflexivity]. Qed.
Lemma ask_nodup asked lb : NoDup asked -> NoDup (ask asked lb).
Proof.
  intros H. destruct lb as [i t l|i t|i]; cbn [ask]; auto. destruct (existsb (Nat.eqb i) asked) eqn:E; [exact H|].
  apply NoDup_rev in H. rewrite <- (rev_involutive (asked ++ [i])). apply NoDup_rev. rewrite rev_app_distr. cbn. constructor; [|exact H]. rewrite <- in_rev. intros X. apply queued_iff in X. unfold queued in X. congruence.
Qed.
Lemma ask_grows asked lb : exists c, ask asked lb = asked ++ c.
Proof. destruct lb as [i t l|i t|i]; cbn [ask]; [destruct (existsb (Nat.eqb i) asked)|..]; (exists []; rewrite app_nil_r; reflexivity) || eauto. Qed.
Lemma ask_in asked lb j : In j (ask asked lb) -> In j asked \/ exists t l, lb = QPoll j t l.
Proof. destruct lb as [i t l|i t|i]; cbn [ask]; auto. destruct (existsb (Nat.eqb i) asked); auto. intros H. apply in_app_or in H. destruct H as [H|[<- |[]]]; eauto. Qed.

Lemma step_fair_poll os w0 s res ps asked i t l s' x : fair_inv os w0 s res ps asked -> fair_step s (QPoll i t l) = Some (s', x) ->
  exists ps' r, x = Some (i, r) /\ fair_inv os w0 s' (res ++ [(i, r)]) ps' (ask asked (QPoll i t l)).
Proof.
  intros [I Free] H. cbn [fair_step] in H. destruct s as [sy q]. cbn [q_sys q_wait] in *. destruct (nth_error (y_futs sy) i) as [[em|]|] eqn:Ei; [|discriminate..].
  destruct (fair_poll i t (y_world sy) em l) as [[w' em'] r] eqn:Ep.
  pose proof I as [pc run queue ord nd askd en]. cbn [q_sys q_wait] in *.
  destruct (queued i q) eqn:Qi.
  { (* it waits in the queue *)
    apply queued_iff in Qi. destruct (queue i Qi) as (L & id & b & X). rewrite Ei in X. injection X as ->.
    assert (L2 : w_lock (y_world sy) <> None) by (intros Z; rewrite (Free Z) in Qi; destruct Qi).
    assert (Lk : exists k, w_lock (y_world sy) = Some k) by (destruct (w_lock (y_world sy)); [eauto|congruence]). destruct Lk as [k Lk].
    assert (Hh : holds i (y_world sy) = false). { destruct (holds i (y_world sy)) eqn:Z; [|reflexivity]. apply holds_iff in Z. congruence. }
    unfold fair_poll, running in Ep. cbn [em_fut] in Ep. rewrite Hh in Ep. cbn [poll_emit em_fut poll_fut] in Ep. unfold poll_lock in Ep. rewrite Lk in Ep. injection Ep as <- <- <-.
    cbn [at_lock em_fut negb] in H. rewrite Bool.andb_false_r in H. cbn [andb] in H. unfold hand_over in H. rewrite Lk in H. injection H as <- <-.
    cbn [em_meta em_stream]. change (mk_emit None false (Some (FLock id b))) with (running (FLock id b)). rewrite (put_self _ _ _ Ei).
    exists ps, Waiting. split; [reflexivity|]. assert (A : ask asked (QPoll i t l) = asked).
    { cbn [ask]. assert (Z : existsb (Nat.eqb i) asked = true) by (apply queued_iff; eapply sublist_In; [exact ord|apply in_or_app; auto]). rewrite Z. reflexivity. }
    rewrite A. destruct sy as [ww ff]. cbn [y_world y_futs] in *. split; [|cbn; congruence]. split; auto.
    - apply pc_more. exact pc.
    - intros j Hj. apply finished_more. apply en. exact Hj. }
  assert (NQ : ~ In i q) by (intros Z; apply queued_iff in Z; congruence).
  destruct (fair_is_emit i t (y_world sy) em l) as (ema & Ea & Eq). rewrite Eq in Ep.
  assert (Na : nth_error (y_futs (abs sy)) i = Some (Some ema)) by (rewrite abs_nth, Ei; cbn [option_map]; rewrite Ea; reflexivity).
  assert (St : emit_step (abs sy) (YPoll i t l) = Some (mk_sys w' (put i (Some em') (y_futs (abs sy))), Some (i, r))) by (cbn [emit_step]; rewrite Na; cbn [abs y_world]; rewrite Ep; reflexivity).
  destruct (pc_poll _ _ _ _ _ _ _ _ _ _ pc St) as (ps' & r' & Er & Ch & pc'). injection Er as <-.
  assert (Pv : poll_view (y_world sy) i w' em' r).
  { destruct (nth_error os i) as [o|] eqn:Ho.
    - destruct (pi_fut _ _ _ _ _ pc _ _ Ho) as (f & A & B). rewrite Na in A. injection A as <-. exact (polled_view _ _ _ _ _ _ _ _ _ _ B Ep).
    - apply nth_error_None in Ho. assert (i < length (y_futs (abs sy)))%nat by (apply nth_error_Some; congruence). rewrite (pi_len _ _ _ _ _ pc) in *. lia. }
  (* what others see of the lock *)
  assert (Lk : w_lock w' = w_lock (y_world sy) \/ (w_lock (y_world sy) = None \/ w_lock (y_world sy) = Some i) /\ (w_lock w' = None \/ w_lock w' = Some i)) by (inversion Pv; subst; tauto).
  assert (Oth : forall j, j <> i -> holds j w' = holds j (y_world sy)).
  { intros j Hj. unfold holds. destruct Lk as [-> |[A B]]; [reflexivity|]. destruct A as [-> | ->], B as [-> | ->]; try reflexivity; apply Nat.eqb_neq in Hj; rewrite Hj; reflexivity. }
  assert (Sn : seen w' i (Some em') = Some em').
  { inversion Pv; subst; try reflexivity.
    - rewrite seen_lock. unfold holds. rewrite H0. destruct (w_lock (y_world sy)) as [k|]; [|reflexivity]. destruct (Nat.eqb_spec i k); [congruence|reflexivity].
    - cbn. destruct f; try reflexivity. exfalso. eapply H0. reflexivity. }
  assert (Ab : abs (mk_sys w' (put i (Some em') (y_futs sy))) = mk_sys w' (put i (Some em') (y_futs (abs sy)))) by (eapply abs_put; eauto).
  (* if it had asked before, it is at the end or writing *)
  assert (Old : In i asked -> em = spent \/ em = running FDone \/ w_lock (y_world sy) = Some i).
  { intros Hi. destruct (askd i Hi) as (f & F & G). rewrite Ei in F. injection F as <-. destruct G as [G|[G|[G|[G|G]]]]; try discriminate; try contradiction; try (injection G as ->); auto. }
  set (q1 := if at_lock em' && negb false && negb (holds i w') then q ++ [i] else q) in *.
  assert (Pre : fair_pre os w0 (mk_fair (mk_sys w' (put i (Some em') (y_futs sy))) q1) (res ++ [(i, r)]) ps' (ask asked (QPoll i t l))).
  { assert (Q1 : (exists id b, em' = running (FLock id b) /\ q1 = q ++ [i] /\ ~ In i asked) \/ ((forall id b, em' <> running (FLock id b)) /\ q1 = q)).
    { inversion Pv; subst.
      - right. split; [discriminate|reflexivity].
      - right. split; [discriminate|reflexivity].
      - left. exists id, b. split; [reflexivity|]. split.
        + unfold q1. cbn. assert (Z : holds i w' = false). { destruct (holds i w') eqn:Z; [|reflexivity]. apply holds_iff in Z. congruence. } rewrite Z. reflexivity.
        + intros Z. destruct (Old Z) as [O|[O|O]]; [subst em..|congruence].
          * cbn in Ea. injection Ea as <-. rewrite poll_spent in Ep. discriminate Ep.
          * cbn in Ea. injection Ea as <-. cbn in Ep. discriminate Ep.
      - right. split; [intros id b Z; injection Z as Z; eapply H0; exact Z|]. unfold q1. cbn. destruct f; try reflexivity. exfalso. eapply H0. reflexivity. }
    assert (Em : forall id b, em_fut em' = Some (FLock id b) -> em' = running (FLock id b)).
    { intros id b Z. inversion Pv; subst; try discriminate Z. cbn in Z. injection Z as -> ->. reflexivity. cbn in Z. injection Z as ->. reflexivity. }
    split; cbn [q_sys q_wait y_world y_futs].
    - rewrite Ab. exact pc'.
    - intros j em1 Hj id b Hb. destruct (Nat.eq_dec j i) as [->|Nj]; [rewrite (put_eq _ _ _ _ Ei) in Hj; injection Hj as <-; auto|]. rewrite put_ne in Hj by congruence. exact (run j em1 Hj id b Hb).
    - intros j Hj. destruct (Nat.eq_dec j i) as [->|Nj].
      + destruct Q1 as [(id & b & -> & _ & _)|[_ Q1]]; [|rewrite Q1 in Hj; contradiction]. split; [|exists id, b; apply (put_eq _ _ _ _ Ei)]. inversion Pv; subst; congruence.
      + assert (Hq : In j q). { destruct Q1 as [(id & b & _ & Q1 & _)|[_ Q1]]; rewrite Q1 in Hj; [|exact Hj]. apply in_app_or in Hj. destruct Hj as [Hj|[Hj|[]]]; [exact Hj|congruence]. }
        destruct (queue j Hq) as (A & id & b & B). split; [|exists id, b; rewrite put_ne by congruence; exact B]. destruct Lk as [-> |[_ [-> | ->]]]; congruence.
    - destruct Q1 as [(id & b & -> & -> & Na')|[Nl ->]].
      + assert (Ch' : map fst ps' = map fst ps).
        { destruct Ch as [Ch|(_ & Ch & _)]; [exact Ch|]. exfalso. destruct (pc_lock_state _ _ _ _ _ i id b pc') as (_ & X & _); [cbn [y_futs]; apply (put_eq _ _ _ _ Na)|]. apply X. rewrite Ch. apply in_or_app. right. left. reflexivity. }
        rewrite Ch'. cbn [ask]. destruct (existsb (Nat.eqb i) asked) eqn:Z; [apply queued_iff in Z; contradiction|]. rewrite app_assoc. apply sublist_app; [exact ord|apply sublist_refl].
      + destruct (ask_grows asked (QPoll i t l)) as [c Ec]. destruct Ch as [-> |(Ln & Ch & N1 & N2)]; [rewrite Ec; apply sublist_more; exact ord|].
        cbn [abs y_world] in Ln. rewrite (Free Ln) in *. rewrite app_nil_r in *. rewrite Ch.
        assert (Ni : ~ In i asked). { intros Z. destruct (Old Z) as [O|[O|O]]; [subst em; cbn in Ea; injection Ea as <-; congruence..|congruence]. }
        cbn [ask]. destruct (existsb (Nat.eqb i) asked) eqn:Z; [apply queued_iff in Z; contradiction|]. apply sublist_app; [exact ord|apply sublist_refl].
    - apply ask_nodup. exact nd.
    - intros j Hj. destruct (Nat.eq_dec j i) as [->|Nj].
      + exists (Some em'). split; [apply (put_eq _ _ _ _ Ei)|]. inversion Pv; subst; [auto|auto| |].
        * destruct Q1 as [(? & ? & _ & -> & _)|[Z _]]; [|exfalso; eapply Z; reflexivity]. right. right. right. left. apply in_or_app. right. left. reflexivity.
        * right. right. right. right. assumption.
      + destruct (ask_in _ _ _ Hj) as [Hj'|(t' & l' & Z)]; [|congruence]. destruct (askd j Hj') as (f & F & G). exists f. split; [rewrite put_ne by congruence; exact F|].
        destruct G as [G|[G|[G|[G|G]]]]; auto.
        * right. right. right. left. destruct Q1 as [(? & ? & _ & -> & _)|[_ ->]]; [apply in_or_app; auto|exact G].
        * right. right. right. right. apply holds_iff. rewrite (Oth j Nj). apply holds_iff. exact G.
    - intros j Hj. destruct (Nat.eq_dec j i) as [->|Nj].
      + rewrite (put_eq _ _ _ _ Ei) in Hj. assert (Z : exists r0, r = Ready r0). { inversion Pv; subst; eauto. destruct Hj; discriminate. destruct Hj as [Hj|Hj]; [discriminate|]. injection Hj as ->. congruence. }
        destruct Z as (r0 & ->). exists r0. apply in_or_app. right. left. reflexivity.
      + rewrite put_ne in Hj by congruence. apply finished_more. apply en. exact Hj. }
  destruct (hand_over w' q1) as [w2 q2] eqn:Eh. injection H as <- <-.
  destruct (handed _ _ _ _ _ _ _ _ _ Pre Eh) as (ps2 & J). exists ps2, r. split; [reflexivity|exact J].
Qed.

(** ** A poll without budget *)
Inductive stall_view (w : world) (w' : world) (em : emit_metadata) : emit_metadata -> polled N -> Prop :=
| sv_spent r : stall_view w w' em spent (Ready r)
| sv_done r : stall_view w w' em (running FDone) (Ready r)
| sv_same : stall_view w w' em em Waiting
| sv_lock id b : (exists o, em = future_of o) -> stall_view w w' em (running (FLock id b)) Waiting
| sv_busy f : (forall id b, f <> FLock id b) -> f <> FDone -> (forall id b, em <> running (FLock id b)) -> stall_view w w' em (running f) Waiting.
Lemma with_same w k : w_lock w = k -> with_lock w k = w. Proof. destruct w. cbn. intros <-. reflexivity. Qed.
Lemma stalled os w0 sy res ps i t em w' em' r : pc_inv os w0 (abs sy) res ps ->
  (forall j em, nth_error (y_futs sy) j = Some (Some em) -> forall id b, em_fut em = Some (FLock id b) -> em = running (FLock id b)) ->
  nth_error (y_futs sy) i = Some (Some em) -> stall_poll i t (y_world sy) em = (w', em', r) ->
  stall_view (y_world sy) w' em em' r /\ w_lock w' = w_lock (y_world sy)
  /\ exists ps', map fst ps' = map fst ps /\ pc_inv os w0 (abs (mk_sys w' (put i (Some em') (y_futs sy)))) (res ++ [(i, r)]) ps'.
Proof.
  intros pc run Ei H. destruct (nth_error os i) as [o|] eqn:Ho.
  2: { apply nth_error_None in Ho. assert (i < length (y_futs sy))%nat by (apply nth_error_Some; congruence). pose proof (pi_len _ _ _ _ _ pc) as L. cbn [abs y_futs] in L. rewrite view_length in L. lia. }
  destruct (pi_fut _ _ _ _ _ pc _ _ Ho) as (f & A & F). rewrite abs_nth, Ei in A. cbn [option_map] in A. assert (Ef0 : f = seen (y_world sy) i (Some em)) by congruence. clear A. subst f. cbn [abs y_world] in F.
  assert (Na : nth_error (y_futs (abs sy)) i = Some (seen (y_world sy) i (Some em))) by (rewrite abs_nth, Ei; reflexivity).
  assert (AP : forall w2 em2, seen w2 i (Some em2) = Some em2 -> w_lock w2 = w_lock (y_world sy) -> abs (mk_sys w2 (put i (Some em2) (y_futs sy))) = mk_sys w2 (put i (Some em2) (y_futs (abs sy)))).
  { intros w2 em2 S2 L2. eapply abs_put; eauto. intros j id b _ _. unfold holds. rewrite L2. reflexivity. }
  destruct (holds i (y_world sy)) eqn:Hh.
  - (* it has the mutex *)
    pose proof Hh as Lk. apply holds_iff in Lk. unfold stall_poll in H. rewrite (with_same _ _ Lk) in H.
    destruct (em_fut em) as [[e|id b|id sent rest|id sent|]|] eqn:Ef; cbn [seen] in F, Na; rewrite ?Ef, ?Hh in F; rewrite ?Ef, ?Hh in Na.
    + exfalso. inversion F; subst; discriminate.
    + pose proof (run _ _ Ei _ _ Ef) as X. subst em. cbn [running poll_emit em_fut poll_fut em_meta em_stream] in H. unfold poll_lock in H. rewrite Lk in H. injection H as <- <- <-.
      rewrite ?Lk, ?(with_same _ _ Lk), ?Lk. split; [apply (sv_same _ _ (running (FLock id b)))|]. split; [try reflexivity; congruence|]. exists ps. split; [reflexivity|].
      change (mk_emit None false (Some (FLock id b))) with (running (FLock id b)). rewrite (put_self _ _ _ Ei). apply pc_more. destruct sy; exact pc.
    + inversion F; subst; try discriminate Ef. cbn [running em_fut] in Ef. injection Ef as -> -> ->.
      assert (Wv : exists f2, poll_write_all (y_world sy) (ev_id e) sent rest [] = (y_world sy, f2, Waiting) /\ (forall id b, f2 <> FLock id b) /\ f2 <> FDone) by (destruct rest; cbn; (eexists; split; [reflexivity|]; split; discriminate)).
      destruct Wv as (f2 & W1 & W2 & W3). cbn [running poll_emit em_fut poll_fut em_meta em_stream] in H. rewrite W1 in H. injection H as <- <- <-. rewrite ?Lk, ?(with_same _ _ Lk), ?Lk.
      split; [apply (sv_busy _ _ _ f2 W2 W3); discriminate|]. split; [try reflexivity; congruence|].
      assert (St : emit_step (abs sy) (YPoll i t []) = Some (mk_sys (y_world sy) (put i (Some (running f2)) (y_futs (abs sy))), Some (i, Waiting))).
      { cbn [emit_step]. rewrite Na. cbn [running poll_emit em_fut poll_fut em_meta em_stream abs y_world]. rewrite W1. reflexivity. }
      destruct (pc_poll _ _ _ _ _ _ _ _ _ _ pc St) as (ps2 & r2 & Er & Ch & pc2). injection Er as <-. exists ps2. split; [destruct Ch as [Ch|(Z & _)]; [exact Ch|cbn in Z; congruence]|].
      rewrite AP; [exact pc2| |reflexivity]. cbn. destruct f2; try reflexivity. exfalso. eapply W2. reflexivity.
    + inversion F; subst; try discriminate Ef. cbn [running em_fut] in Ef. injection Ef as Q1 Q2. subst id sent.
      cbn [running poll_emit em_fut poll_fut em_meta em_stream poll_flush] in H. injection H as <- <- <-. rewrite ?Lk, ?(with_same _ _ Lk), ?Lk.
      change (mk_emit None false (Some (FFlush (ev_id e) enc))) with (running (FFlush (ev_id e) enc)).
      split; [apply sv_same|]. split; [try reflexivity; congruence|]. eexists. split; [reflexivity|].
      rewrite (put_self _ _ _ Ei). apply pc_more. destruct sy; exact pc.
    + exfalso. cbn [abs y_world] in F. inversion F; subst; try discriminate Ef. contradiction.
    + exfalso. cbn [abs y_world] in F. inversion F; subst; try discriminate Ef; contradiction.
  - (* it has not *)
    assert (Ln : w_lock (y_world sy) <> Some i) by (intros Z; apply holds_iff in Z; congruence).
    assert (Sm : seen (y_world sy) i (Some em) = Some em). { cbn [seen]. destruct (em_fut em) as [[e|id b|? ? ?|? ?|]|]; rewrite ?Hh; reflexivity. } rewrite Sm in F, Na.
    assert (Idle : forall w2 em2 r2, w' = w2 -> em' = em2 -> r = r2 -> w_lock w2 = w_lock (y_world sy) -> w_out w2 = w_out (y_world sy) -> fut_pc w2 ps i o (Some em2) -> (forall id, r2 <> Ready (Ok id)) -> (Some em = Some (running FDone) -> Some em2 = Some (running FDone)) ->
        w_lock w' = w_lock (y_world sy) /\ exists ps', map fst ps' = map fst ps /\ pc_inv os w0 (abs (mk_sys w' (put i (Some em') (y_futs sy)))) (res ++ [(i, r)]) ps').
    { intros w2 em2 r2 -> -> -> L2 O2 F2 R2 D2. split; [exact L2|]. exists ps. split; [try reflexivity; congruence|]. rewrite AP; [|cbn [seen]; destruct (em_fut em2) as [[e|id b|? ? ?|? ?|]|]; try reflexivity; unfold holds in *; rewrite L2, Hh; reflexivity|exact L2].
      apply (pc_idle os w0 (abs sy) res ps i o (Some em) (Some em2) w2 r2 pc Ho Na L2 O2 F2 R2 D2). discriminate. }
    unfold stall_poll in H. inversion F; subst.
    + rewrite poll_fresh in H. destruct (o_payload o) as [data|er|c] eqn:Eo.
      * cbv zeta in H. cbn [poll_fut] in H. destruct (made_event o (nth_id t (w_ctr (with_lock (y_world sy) (Some i)))) data Eo) as [E1 E2]. destruct (into_bytes _) as [enc|er|c] eqn:Eb; try discriminate Eb.
        unfold poll_lock in H. cbn [bump with_lock w_lock w_ctr w_lis w_chans w_out] in H. injection H as <- <- <-. split; [eapply sv_lock; eauto|].
        eapply Idle; try reflexivity; try discriminate. eapply fp_lock; [exact E1|exact Eb|cbn; exact Ln|assumption].
      * injection H as <- <- <-. split; [apply sv_spent|]. eapply Idle; try reflexivity; try discriminate. apply fp_spent. exact Ln.
      * injection H as <- <- <-. split; [apply sv_spent|]. eapply Idle; try reflexivity; try discriminate. apply fp_spent. exact Ln.
    + rewrite poll_spent in H. injection H as <- <- <-. split; [apply sv_spent|]. eapply Idle; try reflexivity; try discriminate. apply fp_spent. exact Ln.
    + cbn [running poll_emit em_fut poll_fut em_meta em_stream] in H. unfold poll_lock in H. cbn [with_lock w_lock w_ctr w_lis w_chans w_out] in H. injection H as <- <- <-.
      split; [apply (sv_same _ _ (running (FLock (ev_id e) enc)))|]. eapply Idle; try reflexivity; try discriminate. eapply fp_lock; eauto.
    + congruence.
    + congruence.
    + cbn [running poll_emit em_fut poll_fut em_meta em_stream] in H. injection H as <- <- <-. split; [apply sv_done|]. eapply Idle; try reflexivity; try discriminate. apply fp_done. exact Ln.
Qed.
Lemma step_fair_stall os w0 s res ps asked i t s' x : fair_inv os w0 s res ps asked -> fair_step s (QStall i t) = Some (s', x) ->
  exists ps' r, x = Some (i, r) /\ fair_inv os w0 s' (res ++ [(i, r)]) ps' asked.
Proof.
  intros [I Free] H. cbn [fair_step] in H. destruct s as [sy q]. cbn [q_sys q_wait] in *. destruct (nth_error (y_futs sy) i) as [[em|]|] eqn:Ei; [|discriminate..].
  destruct (stall_poll i t (y_world sy) em) as [[w' em'] r] eqn:Ep. injection H as <- <-. pose proof I as [pc run queue ord nd askd en]. cbn [q_sys q_wait] in *.
  destruct (stalled _ _ _ _ _ _ _ _ _ _ _ pc run Ei Ep) as (V & L & ps' & Eps & pc').
  assert (Kept : forall id b, em = running (FLock id b) -> em' = em).
  { intros id b ->. unfold stall_poll, running in Ep. cbn [poll_emit em_fut poll_fut] in Ep. unfold poll_lock in Ep. cbn [with_lock w_lock] in Ep. injection Ep as _ <- _. reflexivity. }
  exists ps', r. split; [reflexivity|]. split; [|cbn; rewrite L; exact Free]. split; cbn [q_sys q_wait y_world y_futs]; auto.
  - intros j em1 Hj id b Hb. destruct (Nat.eq_dec j i) as [->|Nj].
    + rewrite (put_eq _ _ _ _ Ei) in Hj. injection Hj as <-. inversion V; subst; try discriminate Hb.
      * exact (run _ _ Ei _ _ Hb).
      * cbn in Hb. injection Hb as -> ->. reflexivity.
      * cbn in Hb. injection Hb as ->. reflexivity.
    + rewrite put_ne in Hj by congruence. exact (run j em1 Hj id b Hb).
  - intros j Hj. destruct (queue j Hj) as (A & id & b & B). rewrite L. split; [exact A|]. exists id, b. destruct (Nat.eq_dec j i) as [->|Nj]; [|rewrite put_ne by congruence; exact B].
    rewrite Ei in B. injection B as B. rewrite (Kept _ _ B), <- B. apply (put_eq _ _ _ _ Ei).
  - rewrite Eps. exact ord.
  - intros j Hj. destruct (askd j Hj) as (f & F & G). rewrite L. destruct (Nat.eq_dec j i) as [->|Nj]; [|exists f; split; [rewrite put_ne by congruence; exact F|exact G]].
    rewrite Ei in F. injection F as <-. exists (Some em'). split; [apply (put_eq _ _ _ _ Ei)|]. destruct G as [G|[G|[G|[G|G]]]]; try discriminate; auto.
    + injection G as ->. inversion V; subst; auto; exfalso; unfold stall_poll in Ep; rewrite poll_spent in Ep; discriminate Ep.
    + injection G as ->. inversion V; subst; auto; exfalso; unfold stall_poll, running in Ep; cbn [poll_emit em_fut poll_fut] in Ep; discriminate Ep.
  - intros j Hj. destruct (Nat.eq_dec j i) as [->|Nj].
    + rewrite (put_eq _ _ _ _ Ei) in Hj. assert (Z : (exists r0, r = Ready r0) \/ em' = em).
      { inversion V; subst; eauto; exfalso; destruct Hj as [Hj|Hj]; try discriminate Hj. injection Hj as ->. congruence. }
      destruct Z as [(r0 & ->)|Z]; [exists r0; apply in_or_app; right; left; reflexivity|]. subst em'. apply finished_more. apply en. rewrite Ei. exact Hj.
    + rewrite put_ne in Hj by congruence. apply finished_more. apply en. exact Hj.
Qed.
(** ** Dropping a future *)
Lemma step_fair_drop os w0 s res ps asked i s' x : fair_inv os w0 s res ps asked -> fair_step s (QDrop i) = Some (s', x) ->
  x = None /\ exists ps', fair_inv os w0 s' res ps' asked.
Proof.
  intros [I Free] H. cbn [fair_step] in H. destruct s as [sy q]. cbn [q_sys q_wait] in *. destruct (nth_error (y_futs sy) i) as [[em|]|] eqn:Ei; [|discriminate..].
  pose proof I as [pc run queue ord nd askd en]. cbn [q_sys q_wait] in *. set (q1 := filter (fun j => negb (Nat.eqb i j)) q) in *. set (w' := drop_emit i (y_world sy)) in *.
  destruct (hand_over w' q1) as [w2 q2] eqn:Eh. injection H as <- <-. split; [reflexivity|].
  assert (Hq : forall j, In j q1 <-> In j q /\ j <> i). { intros j. unfold q1. rewrite filter_In, Bool.negb_true_iff, Nat.eqb_neq. intuition. }
  assert (L : (w_lock (y_world sy) = Some i /\ w_lock w' = None) \/ (w_lock (y_world sy) <> Some i /\ w_lock w' = w_lock (y_world sy))).
  { unfold w', drop_emit. destruct (w_lock (y_world sy)) as [k|] eqn:E; [|right; split; [discriminate|exact E]]. destruct (Nat.eqb_spec i k) as [->|N]; [left; auto|right; split; [congruence|exact E]]. }
  assert (Na : exists em1, nth_error (y_futs (abs sy)) i = Some (Some em1)).
  { rewrite abs_nth, Ei. cbn [option_map seen]. destruct (em_fut em) as [[e|id b|? ? ?|? ?|]|]; try destruct (holds i (y_world sy)); eauto. }
  destruct Na as [em1 Na]. assert (St : emit_step (abs sy) (YDrop i) = Some (mk_sys w' (put i None (y_futs (abs sy))), None)) by (cbn [emit_step]; rewrite Na; reflexivity).
  destruct (pc_drop _ _ _ _ _ _ _ _ pc St) as [_ pc'].
  apply (handed _ _ (mk_sys w' (put i None (y_futs sy))) q1 _ ps); [|exact Eh].
  split; cbn [q_sys q_wait y_world y_futs]; auto.
  - rewrite (abs_put sy i (Some em) w' None Ei eq_refl); [exact pc'| |exact run]. intros j id b Nj _. unfold holds. destruct L as [[L1 L2]|[_ ->]]; [|reflexivity]. rewrite L1, L2. apply Nat.eqb_neq in Nj. rewrite Nj. reflexivity.
  - intros j em2 Hj id b Hb. destruct (Nat.eq_dec j i) as [->|Nj]; [rewrite (put_eq _ _ _ _ Ei) in Hj; discriminate|]. rewrite put_ne in Hj by congruence. exact (run j em2 Hj id b Hb).
  - intros j Hj. apply Hq in Hj. destruct Hj as [Hj Nj]. destruct (queue j Hj) as (A & id & b & B). split; [destruct L as [[_ ->]|[_ ->]]; [discriminate|exact A]|]. exists id, b. rewrite put_ne by congruence. exact B.
  - apply (sublist_trans _ (map fst ps ++ q)); [|exact ord]. apply sublist_app; [apply sublist_refl|apply sublist_filter].
  - intros j Hj. destruct (Nat.eq_dec j i) as [->|Nj]; [exists None; split; [apply (put_eq _ _ _ _ Ei)|auto]|]. destruct (askd j Hj) as (f & F & G). exists f. split; [rewrite put_ne by congruence; exact F|].
    destruct G as [G|[G|[G|[G|G]]]]; auto.
    + right. right. right. left. apply Hq. auto.
    + right. right. right. right. destruct L as [[L1 _]|[_ ->]]; [congruence|exact G].
  - intros j Hj. destruct (Nat.eq_dec j i) as [->|Nj]; [rewrite (put_eq _ _ _ _ Ei) in Hj; destruct Hj; discriminate|]. rewrite put_ne in Hj by congruence. apply en. exact Hj.
Qed.

(** ** Runs *)
Lemma fair_begin os w : w_lock w = None -> fair_inv os w (fair_start w os) [] [] [].
Proof.
  intros Hl. assert (Ab : abs (all_fresh w os) = all_fresh w os).
  { unfold abs, all_fresh. cbn [y_world y_futs]. f_equal. generalize 0%nat. induction os as [|o os' IH]; intros k; cbn; [reflexivity|]. f_equal. apply IH. }
  split; [|reflexivity]. split; cbn [fair_start q_sys q_wait].
  - rewrite Ab. split; cbn.
    + apply map_length.
    + intros i o Ho. exists (Some (future_of o)). split; [rewrite nth_error_map, Ho; reflexivity|]. apply fp_fresh; [congruence|intros []].
    + split; cbn; try (intros; contradiction); [constructor|rewrite app_nil_r; reflexivity].
    + intros; contradiction.
  - intros j em Hj id b Hb. cbn in Hj. rewrite nth_error_map in Hj. destruct (nth_error os j); [|discriminate]. injection Hj as <-. discriminate Hb.
  - intros j [].
  - apply sl_nil.
  - constructor.
  - intros i [].
  - intros i Hi. cbn in Hi. rewrite nth_error_map in Hi. destruct (nth_error os i); destruct Hi as [Hi|Hi]; discriminate.
Qed.
Lemma step_fair os w0 s res ps asked lb s' x : fair_inv os w0 s res ps asked -> fair_step s lb = Some (s', x) ->
  exists ps', fair_inv os w0 s' (res ++ match x with Some y => [y] | None => [] end) ps' (ask asked lb).
Proof.
  intros I H. destruct lb as [i t l|i t|i].
  - destruct (step_fair_poll _ _ _ _ _ _ _ _ _ _ _ I H) as (ps' & r & -> & J). eauto.
  - destruct (step_fair_stall _ _ _ _ _ _ _ _ _ _ I H) as (ps' & r & -> & J). eauto.
  - destruct (step_fair_drop _ _ _ _ _ _ _ _ _ I H) as (-> & ps' & J). rewrite app_nil_r. eauto.
Qed.
Lemma run_fair os w0 ls : forall s res ps asked s' rs, fair_inv os w0 s res ps asked -> fair_run s ls = Some (s', rs) ->
  exists ps', fair_inv os w0 s' (res ++ rs) ps' (fold_left ask ls asked).
Proof.
  induction ls as [|lb ls IH]; intros s res ps asked s' rs I H; cbn [fair_run] in H.
  - injection H as <- <-. rewrite app_nil_r. cbn. eauto.
  - destruct (fair_step s lb) as [[s1 x]|] eqn:E; [|discriminate]. destruct (fair_run s1 ls) as [[s2 os2]|] eqn:E2; [|discriminate]. injection H as <- <-.
    destruct (step_fair _ _ _ _ _ _ _ _ _ I E) as (ps1 & J). destruct (IH _ _ _ _ _ _ J E2) as (ps2 & J2). exists ps2. cbn [fold_left]. rewrite <- app_assoc in J2. destruct x; exact J2.
Qed.
(** a future that is gone was dropped *)
Lemma step_gone s lb s' x i : fair_step s lb = Some (s', x) -> nth_error (y_futs (q_sys s')) i = Some None -> nth_error (y_futs (q_sys s)) i = Some None \/ lb = QDrop i.
Proof.
  intros H G. destruct lb as [j t l|j t|j]; cbn [fair_step] in H; destruct (nth_error (y_futs (q_sys s)) j) as [[em|]|] eqn:Ej; try discriminate.
  - destruct (fair_poll _ _ _ _ _) as [[w' em'] r]. destruct (hand_over _ _) as [w2 q2]. injection H as <- <-. cbn in G. destruct (Nat.eq_dec i j) as [->|N]; [rewrite (put_eq _ _ _ _ Ej) in G; discriminate|]. rewrite put_ne in G by congruence. auto.
  - destruct (stall_poll _ _ _ _) as [[w' em'] r]. injection H as <- <-. cbn in G. destruct (Nat.eq_dec i j) as [->|N]; [rewrite (put_eq _ _ _ _ Ej) in G; discriminate|]. rewrite put_ne in G by congruence. auto.
  - destruct (hand_over _ _) as [w2 q2]. injection H as <- <-. cbn in G. destruct (Nat.eq_dec i j) as [->|N]; [auto|]. rewrite put_ne in G by congruence. auto.
Qed.
Lemma run_gone ls : forall s s' rs i, fair_run s ls = Some (s', rs) -> nth_error (y_futs (q_sys s')) i = Some None -> nth_error (y_futs (q_sys s)) i = Some None \/ dropped i ls.
Proof.
  induction ls as [|lb ls IH]; intros s s' rs i H G; cbn [fair_run] in H.
  - injection H as <- <-. auto.
  - destruct (fair_step s lb) as [[s1 x]|] eqn:E; [|discriminate]. destruct (fair_run s1 ls) as [[s2 os2]|] eqn:E2; [|discriminate]. injection H as <- <-.
    destruct (IH _ _ _ _ E2 G) as [A|A]; [|right; right; exact A]. destruct (step_gone _ _ _ _ _ E A) as [B|B]; [auto|]. right. left. exact B.
Qed.
(** who has asked and is neither done nor dropped queues or writes *)
Lemma still_there os w ls s rs ps i : fair_run (fair_start w os) ls = Some (s, rs) -> fair_inv os w s rs ps (asking ls) -> In i (asking ls) -> ~ finished i rs -> ~ dropped i ls ->
  In i (q_wait s) \/ w_lock (y_world (q_sys s)) = Some i.
Proof.
  intros H [I _] A NF ND. destruct (fi_asked _ _ _ _ _ _ I i A) as (f & F & G). destruct G as [-> |[-> |[-> |[G|G]]]]; auto; exfalso.
  - destruct (run_gone _ _ _ _ _ H F) as [Z|Z]; [|contradiction]. cbn in Z. rewrite nth_error_map in Z. destruct (nth_error os i); discriminate.
  - apply NF. apply (fi_end _ _ _ _ _ _ I). auto.
  - apply NF. apply (fi_end _ _ _ _ _ _ I). auto.
Qed.
Lemma holder_last os w0 s res ps i : pc_inv os w0 s res ps -> w_lock (y_world s) = Some i -> (exists x, nth_error (y_futs s) i = Some x) -> exists ps' y, ps = ps' ++ [(i, y)].
Proof.
  intros [L F P D] H [x Hx]. destruct (nth_error os i) as [o|] eqn:Ho.
  - destruct (F _ _ Ho) as (f & A & B). inversion B; subst; try congruence; eauto.
  - apply nth_error_None in Ho. assert (i < length (y_futs s))%nat by (apply nth_error_Some; congruence). lia.
Qed.
Lemma none_after os w0 s res ps asked i : fair_inv os w0 s res ps asked -> In i asked -> In i (q_wait s) \/ w_lock (y_world (q_sys s)) = Some i ->
  forall j, In j (map fst ps) -> j = i \/ before j i asked.
Proof.
  intros [I _] A H j Hj. apply in_split in Hj. destruct Hj as (a & b & E). destruct H as [H|H].
  - right. apply in_split in H. destruct H as (c & d & Eq). apply (sublist_before j i a (b ++ c) d). pose proof (fi_order _ _ _ _ _ _ I) as O. rewrite E, Eq in O.
    rewrite <- !app_assoc in O. cbn in O. rewrite <- app_assoc. exact O.
  - destruct (fi_asked _ _ _ _ _ _ I i A) as (f & F & _).
    destruct (holder_last _ _ _ _ _ i (fi_pc _ _ _ _ _ _ I) H) as (ps' & y & Ep). { rewrite abs_nth, F. cbn. eauto. }
    destruct (Nat.eq_dec j i) as [->|N]; [auto|]. right. pose proof (fi_order _ _ _ _ _ _ I) as O. subst ps. rewrite map_app in E, O. cbn in E, O.
    assert (Hin : In j (map fst ps')). { assert (X : In j (map fst ps' ++ [i])) by (rewrite E; apply in_or_app; right; left; reflexivity). apply in_app_or in X. destruct X as [X|[X|[]]]; [exact X|congruence]. }
    apply in_split in Hin. destruct Hin as (c & d & Ec). rewrite Ec in O. apply (sublist_before j i c d (q_wait s)). replace (c ++ j :: d ++ i :: q_wait s) with (((c ++ j :: d) ++ [i]) ++ q_wait s) by (rewrite <- !app_assoc; cbn; rewrite <- ?app_assoc; reflexivity). exact O.
Qed.
