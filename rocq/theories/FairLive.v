(** Everybody in the queue of Fair.v gets through: a measure. *)
From Verif Require Import Base BaseFacts Codec Ids Emit Spec SpecEmit EmitFacts Fair SpecFair FairFacts.

(** what a future has still to write, and one for the flush *)
Definition left_of (f : option (option emit_metadata)) : nat :=
  match f with
  | Some (Some em) => match em_fut em with Some (FLock _ b) => S (length b) | Some (FWrite _ _ b) => S (length b) | Some (FFlush _ _) => 1 | _ => 0 end
  | _ => 0
  end.
Definition load (s : fair_sys) (j : nat) : nat := left_of (nth_error (y_futs (q_sys s)) j).
(** who has the mutex, then who queues *)
Definition line (s : fair_sys) : list nat := match w_lock (y_world (q_sys s)) with Some h => h :: q_wait s | None => q_wait s end.
(** what is to be written until [i] is through *)
Fixpoint upto (g : nat -> nat) (i : nat) (l : list nat) : nat :=
  match l with [] => 0 | x :: l' => if Nat.eqb x i then g x else g x + upto g i l' end.

Lemma upto_ext g g' i l : (forall x, In x l -> g x = g' x) -> upto g i l = upto g' i l.
Proof. induction l as [|x l IH]; cbn; intros H; [reflexivity|]. rewrite (H x), IH by auto. reflexivity. Qed.
Lemma upto_app g i l m : In i l -> upto g i (l ++ m) = upto g i l.
Proof. induction l as [|x l IH]; cbn; intros H; [contradiction|]. destruct (Nat.eqb_spec x i); [reflexivity|]. destruct H as [H|H]; [congruence|]. rewrite IH by assumption. reflexivity. Qed.
Lemma upto_filter g i j l : j <> i -> (upto g i (filter (fun x => negb (Nat.eqb j x)) l) <= upto g i l)%nat.
Proof.
  intros N. induction l as [|x l IH]; cbn; [lia|]. destruct (Nat.eqb_spec j x) as [->|Nx]; cbn.
  - destruct (Nat.eqb_spec x i); [congruence|]. lia.
  - destruct (Nat.eqb_spec x i); lia.
Qed.
Lemma nodup_sublist {A} (a b : list A) : sublist a b -> NoDup b -> NoDup a.
Proof. induction 1 as [|x b a H IH|x b a H IH]; intros N; [constructor|inversion N; auto|]. inversion N; subst. constructor; [intros Q; apply H2; eapply sublist_In; eauto|auto]. Qed.
Lemma filter_same {A} (p : A -> bool) l : (forall x, In x l -> p x = true) -> filter p l = l.
Proof. induction l as [|x l IH]; cbn; intros H; [reflexivity|]. rewrite (H x) by auto. f_equal. auto. Qed.

(** ** Writing *)
Definition fut_left (f : emit_fut) : nat := match f with FLock _ b => S (length b) | FWrite _ _ b => S (length b) | FFlush _ _ => 1 | _ => 0 end.
Lemma left_running f : left_of (Some (Some (running f))) = fut_left f. Proof. destruct f; reflexivity. Qed.
Lemma write_left w id sent rest l w' f r i : poll_write_all w id sent rest l = (w', f, r) -> w_lock w = Some i ->
  (exists x, r = Ready x) /\ f = FDone /\ w_lock w' = None
  \/ r = Waiting /\ w_lock w' = Some i /\ (forall id b, f <> FLock id b) /\ (0 < fut_left f <= S (length rest))%nat.
Proof.
  intros H L. apply write_all_outcome in H. inversion H; subst; cbn.
  - right. repeat split; auto; try discriminate; rewrite ?app_length; lia.
  - right. repeat split; auto; try discriminate; lia.
  - left. eauto.
  - left. eauto.
Qed.
Lemma write_less w id sent rest n l w' f r i : poll_write_all w id sent rest (Accept (S n) :: l) = (w', f, r) -> w_lock w = Some i ->
  (exists x, r = Ready x) \/ (fut_left f < S (length rest))%nat.
Proof.
  intros H L. destruct rest as [|x rest]; cbn in H.
  - injection H as _ _ <-. left. eauto.
  - destruct (write_left _ _ _ _ _ _ _ _ i H L) as [(A & _)|(_ & _ & _ & B)]; [auto|]. right. cbn. pose proof (skipn_length n rest). lia.
Qed.
(** the poll of the future that has the mutex *)
Lemma holder_poll os w0 sy res ps i em t l : pc_inv os w0 (abs sy) res ps ->
  (forall j em, nth_error (y_futs sy) j = Some (Some em) -> forall id b, em_fut em = Some (FLock id b) -> em = running (FLock id b)) ->
  nth_error (y_futs sy) i = Some (Some em) -> w_lock (y_world sy) = Some i ->
  exists id sent rest, fair_poll i t (y_world sy) em l = (let '(w', f, r) := poll_write_all (y_world sy) id sent rest l in (w', running f, r))
    /\ left_of (Some (Some em)) = S (length rest).
Proof.
  intros pc run Ei L. destruct (nth_error os i) as [o|] eqn:Ho.
  2: { apply nth_error_None in Ho. assert (i < length (y_futs sy))%nat by (apply nth_error_Some; congruence). pose proof (pi_len _ _ _ _ _ pc) as Q. cbn [abs y_futs] in Q. rewrite view_length in Q. lia. }
  destruct (pi_fut _ _ _ _ _ pc _ _ Ho) as (f & A & F). rewrite abs_nth, Ei in A. cbn [option_map] in A.
  destruct (fair_is_emit i t (y_world sy) em l) as (ema & Ea & Eq). rewrite Ea in A. injection A as <-. rewrite Eq. cbn [abs y_world] in F.
  assert (Hh : holds i (y_world sy) = true) by (apply holds_iff; exact L).
  assert (LL : left_of (Some (Some em)) = left_of (Some (Some ema))).
  { cbn [seen] in Ea. cbn [left_of]. destruct (em_fut em) as [[e|id b|? ? ?|? ?|]|] eqn:Ef; rewrite ?Hh in Ea; injection Ea as <-; rewrite ?Ef; reflexivity. }
  rewrite LL. clear LL Ea Eq. inversion F; subst; try contradiction.
  - exists (ev_id e), sent, rest. split; [reflexivity|reflexivity].
  - exists (ev_id e), enc, []. split; [|reflexivity]. unfold running at 1. cbn [poll_emit em_fut poll_fut em_meta em_stream]. destruct l; reflexivity.
Qed.

(** ** One step *)
Lemma line_once os w0 s res ps asked : fair_inv os w0 s res ps asked -> NoDup (line s).
Proof.
  intros [I Free]. pose proof I as [pc run queue ord nd askd en].
  assert (Nq : NoDup (q_wait s)). { apply (nodup_sublist _ asked); [|exact nd]. apply (sublist_trans _ (map fst ps ++ q_wait s)); [|exact ord]. rewrite <- (app_nil_l (q_wait s)) at 1. apply sublist_app; [apply sublist_none|apply sublist_refl]. }
  unfold line. destruct (w_lock (y_world (q_sys s))) as [h|] eqn:L; [|auto]. constructor; [|exact Nq]. intros Z. destruct (queue h Z) as [A _]. congruence.
Qed.
Lemma load_put w fs i x q j : nth_error fs i <> None -> load (mk_fair (mk_sys w (put i x fs)) q) j = if Nat.eqb j i then left_of (Some x) else left_of (nth_error fs j).
Proof.
  intros H. unfold load. cbn [q_sys y_futs]. destruct (Nat.eqb_spec j i) as [->|N].
  - rewrite put_same; [reflexivity|]. apply nth_error_Some. exact H.
  - rewrite put_ne by congruence. reflexivity.
Qed.
Lemma line_handed w q fs w2 q2 : hand_over w q = (w2, q2) -> line (mk_fair (mk_sys w2 fs) q2) = match w_lock w with Some h => h :: q | None => q end
  /\ (forall h, w_lock w = Some h -> w2 = w /\ q2 = q).
Proof.
  unfold hand_over, line. cbn [q_sys q_wait y_world]. destruct (w_lock w) as [h|] eqn:L.
  - intros H. injection H as <- <-. rewrite L. split; [reflexivity|]. auto.
  - destruct q as [|j q']; intros H; injection H as <- <-; cbn; rewrite ?L; split; try reflexivity; discriminate.
Qed.
(** what one step does to [i], which is in the line behind [h] (or is [h]) *)
Definition moves (s : fair_sys) (lb : fair_label) (s' : fair_sys) (x : option (nat * polled N)) (i h : nat) : Prop :=
  (exists r, x = Some (i, Ready r)) \/ lb = QDrop i
  \/ In i (line s') /\ (upto (load s') i (line s') < upto (load s) i (line s))%nat
  \/ In i (line s') /\ (upto (load s') i (line s') <= upto (load s) i (line s))%nat /\ w_lock (y_world (q_sys s')) = Some h
     /\ ~ attends h (Some lb) /\ lb <> QDrop h.
Lemma step_moves os w0 s res ps asked lb s' x i h : fair_inv os w0 s res ps asked -> fair_step s lb = Some (s', x) ->
  In i (line s) -> w_lock (y_world (q_sys s)) = Some h -> moves s lb s' x i h.
Proof.
  intros II H Hi L. pose proof (line_once _ _ _ _ _ _ II) as ND. destruct II as [I Free]. pose proof I as [pc run queue ord nd askd en]. destruct s as [sy q].
  assert (Ln : line (mk_fair sy q) = h :: q) by (unfold line; cbn [q_sys q_wait] in *; rewrite L; reflexivity). rewrite Ln in Hi, ND. unfold moves. rewrite Ln. clear Ln. cbn [q_sys q_wait] in *.
  inversion ND as [|h' q' Nh Nq]; subst h' q'.
  assert (HL : forall em, nth_error (y_futs sy) h = Some (Some em) -> (0 < load (mk_fair sy q) h)%nat).
  { intros em E. destruct (holder_poll _ _ _ _ _ _ _ (mk_instant 0 0) [] pc run E L) as (_ & _ & rest & _ & Q). unfold load. cbn [q_sys y_futs]. rewrite E, Q. lia. }
  destruct lb as [j t l|j t|j]; cbn [fair_step q_sys q_wait] in H; destruct (nth_error (y_futs sy) j) as [[em|]|] eqn:Ej; try discriminate.
  - (* polled *)
    destruct (fair_poll j t (y_world sy) em l) as [[w' em'] r] eqn:Ep.
    destruct (Nat.eq_dec j h) as [->|Njh].
    + (* the one that has the mutex *)
      destruct (holder_poll _ _ _ _ _ _ _ t l pc run Ej L) as (id & sent & rest & Q1 & Q2). rewrite Q1 in Ep. destruct (poll_write_all _ _ _ _ _) as [[w1 f1] r1] eqn:Ew. injection Ep as <- <- <-.
      destruct (write_left _ _ _ _ _ _ _ _ h Ew L) as [((v & ->) & -> & Lw)|(-> & Lw & Nl & Lf)].
      * (* it is through *)
        assert (Qn : at_lock (running FDone) && negb (queued h q) && negb (holds h w1) = false) by reflexivity. rewrite Qn in H.
        destruct (hand_over w1 q) as [w2 q2] eqn:Eh. injection H as <- <-. destruct (Nat.eq_dec i h) as [->|Nih]; [left; eauto|]. right. right. left.
        destruct (line_handed _ _ (put h (Some (running FDone)) (y_futs sy)) _ _ Eh) as [-> _]. rewrite Lw. destruct Hi as [Hi|Hi]; [congruence|]. split; [exact Hi|].
        cbn [upto]. destruct (Nat.eqb_spec h i); [congruence|]. rewrite (upto_ext (load (mk_fair (mk_sys w2 (put h (Some (running FDone)) (y_futs sy))) q2)) (load (mk_fair sy q))); [pose proof (HL _ Ej); lia|].
        intros z Hz. rewrite load_put by congruence. destruct (Nat.eqb_spec z h); [congruence|]. reflexivity.
      * (* it is not *)
        assert (Qn : at_lock (running f1) = false) by (destruct f1; try reflexivity; exfalso; eapply Nl; reflexivity). rewrite Qn in H. cbn [andb] in H.
        destruct (hand_over w1 q) as [w2 q2] eqn:Eh. injection H as <- <-. destruct (line_handed _ _ (put h (Some (running f1)) (y_futs sy)) _ _ Eh) as [-> Hs]. rewrite Lw. destruct (Hs h Lw) as [-> ->]. clear Hs.
        right. right.
        assert (Lh : load (mk_fair (mk_sys w1 (put h (Some (running f1)) (y_futs sy))) q) h = fut_left f1) by (rewrite load_put by congruence; rewrite Nat.eqb_refl; apply left_running).
        assert (Lh0 : load (mk_fair sy q) h = S (length rest)) by (unfold load; cbn [q_sys y_futs]; rewrite Ej; exact Q2).
        assert (Lo : upto (load (mk_fair (mk_sys w1 (put h (Some (running f1)) (y_futs sy))) q)) i q = upto (load (mk_fair sy q)) i q).
        { apply upto_ext. intros z Hz. rewrite load_put by congruence. destruct (Nat.eqb_spec z h); [congruence|]. reflexivity. }
        cbn [upto]. rewrite Lo, Lh, Lh0.
        assert (At : attends h (Some (QPoll h t l)) -> (fut_left f1 < S (length rest))%nat).
        { intros (t' & n & l' & Z). injection Z as -> ->. destruct (write_less _ _ _ _ _ _ _ _ _ h Ew L) as [(v & Z)|Z]; [discriminate Z|exact Z]. }
        destruct (Nat.ltb_spec (fut_left f1) (S (length rest))) as [Z|Z].
        -- left. split; [exact Hi|]. destruct (Nat.eqb h i); lia.
        -- right. split; [exact Hi|]. split; [destruct (Nat.eqb h i); lia|]. split; [exact Lw|]. split; [intros Y; apply At in Y; lia|discriminate].
    + (* another one *)
      assert (NA : ~ attends h (Some (QPoll j t l))) by (intros (t' & n & l' & Z); congruence).
      assert (ND' : QPoll j t l <> QDrop h) by discriminate.
      assert (Lj : w_lock (y_world sy) <> Some j) by congruence.
      assert (Hh : holds j (y_world sy) = false). { destruct (holds j (y_world sy)) eqn:Z; [apply holds_iff in Z; congruence|reflexivity]. }
      destruct (nth_error os j) as [o|] eqn:Ho.
      2: { exfalso. apply nth_error_None in Ho. assert (j < length (y_futs sy))%nat by (apply nth_error_Some; congruence). pose proof (pi_len _ _ _ _ _ pc) as Q. cbn [abs y_futs] in Q. rewrite view_length in Q. lia. }
      destruct (pi_fut _ _ _ _ _ pc _ _ Ho) as (f & A & F). rewrite abs_nth, Ej in A. cbn [option_map] in A. cbn [abs y_world] in F.
      assert (Sm : seen (y_world sy) j (Some em) = Some em) by (cbn [seen]; destruct (em_fut em) as [[e|id b|? ? ?|? ?|]|]; rewrite ?Hh; reflexivity).
      assert (Ef0 : f = Some em) by congruence. subst f. clear A.
      destruct (fair_is_emit j t (y_world sy) em l) as (ema & Ea & Eq). rewrite Sm in Ea. injection Ea as <-. rewrite Eq in Ep.
      pose proof (polled_view _ _ _ _ _ _ _ _ _ _ F Ep) as Pv.
      assert (Lw : w_lock w' = Some h) by (inversion Pv; subst; intuition congruence).
      destruct (hand_over w' _) as [w2 q2] eqn:Eh in H. injection H as <- <-. destruct (line_handed _ _ (put j (Some em') (y_futs sy)) _ _ Eh) as [-> Hs]. rewrite Lw. destruct (Hs h Lw) as [-> ->]. clear Hs Eh.
      right. right. right.
      assert (Kq : In j q -> em' = em).
      { intros Hj. destruct (queue j Hj) as (_ & id & b & B). rewrite Ej in B. injection B as ->. unfold running in Ep. cbn [poll_emit em_fut poll_fut] in Ep. unfold poll_lock in Ep. rewrite L in Ep. injection Ep as _ <- _. reflexivity. }
      assert (Lo : upto (load (mk_fair (mk_sys w' (put j (Some em') (y_futs sy))) (if at_lock em' && negb (queued j q) && negb (holds j w') then q ++ [j] else q))) i (h :: q) = upto (load (mk_fair sy q)) i (h :: q)).
      { apply upto_ext. intros z Hz. rewrite load_put by congruence. destruct (Nat.eqb_spec z j) as [->|]; [|reflexivity]. destruct Hz as [Hz|Hz]; [congruence|]. rewrite (Kq Hz). unfold load. cbn [q_sys y_futs]. rewrite Ej. reflexivity. }
      destruct (at_lock em' && negb (queued j q) && negb (holds j w')).
      * split; [change (h :: q ++ [j]) with ((h :: q) ++ [j]); apply in_or_app; auto|]. split; [|auto]. change (h :: q ++ [j]) with ((h :: q) ++ [j]). rewrite upto_app by exact Hi. rewrite Lo. lia.
      * split; [exact Hi|]. split; [rewrite Lo; lia|auto].
  - (* polled without budget *)
    destruct (stall_poll j t (y_world sy) em) as [[w' em'] r] eqn:Ep. injection H as <- <-. destruct (stalled _ _ _ _ _ _ _ _ _ _ _ pc run Ej Ep) as (V & Lw & _).
    right. right. right. unfold line. cbn [q_sys q_wait y_world]. rewrite Lw, L. split; [exact Hi|]. split; [|split; [reflexivity|]; split; [intros (t' & n & l' & Z); discriminate|discriminate]].
    assert (Le : (j = h \/ In j q -> left_of (Some (Some em')) = left_of (Some (Some em)))).
    { intros [-> |Hj].
      - destruct (nth_error os h) as [o|] eqn:Ho.
        2: { exfalso. apply nth_error_None in Ho. assert (h < length (y_futs sy))%nat by (apply nth_error_Some; congruence). pose proof (pi_len _ _ _ _ _ pc) as Q. cbn [abs y_futs] in Q. rewrite view_length in Q. lia. }
        destruct (pi_fut _ _ _ _ _ pc _ _ Ho) as (f & A & F). rewrite abs_nth, Ej in A. cbn [option_map] in A. cbn [abs y_world] in F. assert (Hh : holds h (y_world sy) = true) by (apply holds_iff; exact L).
        unfold stall_poll in Ep. rewrite (with_same _ _ L) in Ep.
        destruct (em_fut em) as [[e|id b|id sent rest|id sent|]|] eqn:Ef; cbn [seen] in A; rewrite ?Ef, ?Hh in A; injection A as A; try (exfalso; subst f; inversion F; subst; try contradiction; discriminate Ef).
        + pose proof (run _ _ Ej _ _ Ef) as X. subst em. cbn [running poll_emit em_fut poll_fut em_meta em_stream] in Ep. unfold poll_lock in Ep. rewrite L in Ep. injection Ep as _ <- _. reflexivity.
        + subst f. destruct em as [m st ff]. cbn [em_fut] in Ef. subst ff. cbn [poll_emit em_fut poll_fut em_meta em_stream] in Ep. destruct rest as [|c rest]; cbn [poll_write_all poll_flush] in Ep; injection Ep as _ <- _; reflexivity.
        + subst f. destruct em as [m st ff]. cbn [em_fut] in Ef. subst ff. cbn [poll_emit em_fut poll_fut em_meta em_stream poll_flush] in Ep. injection Ep as _ <- _. reflexivity.
      - destruct (queue j Hj) as (_ & id & b & B). rewrite Ej in B. injection B as ->. unfold stall_poll, running in Ep. cbn [poll_emit em_fut poll_fut] in Ep. unfold poll_lock in Ep. cbn [with_lock w_lock] in Ep. injection Ep as _ <- _. reflexivity. }
    rewrite (upto_ext _ (load (mk_fair sy q))); [lia|]. intros z Hz. rewrite load_put by congruence. destruct (Nat.eqb_spec z j) as [->|]; [|reflexivity].
    rewrite Le by (destruct Hz as [Hz|Hz]; [left; congruence|auto]). unfold load. cbn [q_sys y_futs]. rewrite Ej. reflexivity.
  - (* dropped *)
    destruct (Nat.eq_dec j i) as [->|Nji]; [auto|]. destruct (hand_over _ _) as [w2 q2] eqn:Eh. injection H as <- <-. right. right.
    destruct (line_handed _ _ (put j None (y_futs sy)) _ _ Eh) as [-> Hs].
    assert (Lo : forall m, ~ In j m -> upto (load (mk_fair (mk_sys w2 (put j None (y_futs sy))) q2)) i m = upto (load (mk_fair sy q)) i m).
    { intros m Hm. apply upto_ext. intros z Hz. rewrite load_put by congruence. destruct (Nat.eqb_spec z j) as [->|]; [contradiction|reflexivity]. }
    assert (Fj : ~ In j (filter (fun x => negb (Nat.eqb j x)) q)) by (rewrite filter_In, Nat.eqb_refl; intros [_ Z]; discriminate).
    assert (Fi : In i q -> In i (filter (fun x => negb (Nat.eqb j x)) q)) by (intros Z; apply filter_In; split; [exact Z|]; destruct (Nat.eqb_spec j i); [congruence|reflexivity]).
    unfold drop_emit. unfold drop_emit in Hs. rewrite L in *. destruct (Nat.eqb_spec j h) as [->|Njh].
    + cbn [unlock w_lock]. left. destruct Hi as [Hi|Hi]; [congruence|]. split; [auto|]. rewrite (Lo _ Fj). cbn [upto]. destruct (Nat.eqb_spec h i); [congruence|].
      pose proof (upto_filter (load (mk_fair sy q)) i h q Nji). pose proof (HL _ Ej). lia.
    + rewrite L. destruct (Hs h L) as [-> _]. right. split; [destruct Hi as [Hi|Hi]; [left; exact Hi|right; auto]|]. split; [|split; [exact L|split; [intros (t' & n & l' & Z); discriminate|congruence]]].
      rewrite Lo by (intros [Z|Z]; [congruence|contradiction]). cbn [upto]. pose proof (upto_filter (load (mk_fair sy q)) i j q Nji). destruct (Nat.eqb h i); lia.
Qed.

(** ** Endless runs *)
Section Endless.
Variables (os : list order) (w : world) (f : nat -> option fair_label) (st : nat -> fair_sys) (res : nat -> option (nat * polled N)).
Hypothesis free : w_lock w = None.
Hypothesis begin : st 0%nat = fair_start w os.
Hypothesis steps : forall n, proceeds (st n) (f n) (st (S n)) (res n).

Lemma endless_inv n : exists rs ps asked, fair_inv os w (st n) rs ps asked
  /\ (forall i, (exists m t l, (m < n)%nat /\ f m = Some (QPoll i t l)) -> In i asked)
  /\ (forall x, In x rs -> exists m, (m < n)%nat /\ res m = Some x)
  /\ (forall i, nth_error (y_futs (q_sys (st n))) i = Some None -> exists m, (m < n)%nat /\ f m = Some (QDrop i)).
Proof.
  induction n as [|n (rs & ps & asked & I & A & R & G)].
  - exists [], [], []. rewrite begin. split; [apply fair_begin; exact free|]. split; [intros i (m & _ & _ & Hm & _); lia|]. split; [intros x []|].
    intros i Hi. cbn in Hi. rewrite nth_error_map in Hi. destruct (nth_error os i); discriminate.
  - pose proof (steps n) as H. unfold proceeds in H. destruct (f n) as [lb|] eqn:E.
    + destruct (step_fair _ _ _ _ _ _ _ _ _ I H) as (ps' & J). exists (rs ++ match res n with Some y => [y] | None => [] end), ps', (ask asked lb). split; [exact J|]. split; [|split].
      * intros i (m & t & l & Hm & Em). destruct (Nat.eq_dec m n) as [->|N].
        -- rewrite E in Em. injection Em as ->. apply in_ask.
        -- destruct (ask_grows asked lb) as [c ->]. apply in_or_app. left. apply A. exists m, t, l. split; [lia|exact Em].
      * intros x Hx. apply in_app_or in Hx. destruct Hx as [Hx|Hx]; [destruct (R x Hx) as (m & Hm & Em); exists m; split; [lia|exact Em]|].
        destruct (res n) as [y|] eqn:Er; [|destruct Hx]. destruct Hx as [<- |[]]. exists n. split; [lia|exact Er].
      * intros i Hi. destruct (step_gone _ _ _ _ _ H Hi) as [B|B]; [destruct (G i B) as (m & Hm & Em); exists m; split; [lia|exact Em]|]. subst lb. exists n. split; [lia|exact E].
    + destruct H as [-> Er]. exists rs, ps, asked. split; [exact I|]. split; [|split].
      * intros i (m & t & l & Hm & Em). apply A. exists m, t, l. split; [|exact Em]. destruct (Nat.eq_dec m n) as [->|N]; [congruence|lia].
      * intros x Hx. destruct (R x Hx) as (m & Hm & Em). exists m. split; [lia|exact Em].
      * intros i Hi. destruct (G i Hi) as (m & Hm & Em). exists m. split; [lia|exact Em].
Qed.
Lemma pending_in_line n i : pending f res n i -> In i (line (st n)).
Proof.
  intros (A & B & C). destruct (endless_inv n) as (rs & ps & asked & [I Fr] & HA & HR & HG). specialize (HA i A).
  destruct (fi_asked _ _ _ _ _ _ I i HA) as (x & F & G). unfold line.
  assert (NF : finished i rs -> False) by (intros (r & Hr); destruct (HR _ Hr) as (m & Hm & Em); exact (B m r Hm Em)).
  destruct G as [-> |[-> |[-> |[G|G]]]].
  - destruct (HG i F) as (m & Hm & Em). destruct (C m Hm Em).
  - destruct NF. apply (fi_end _ _ _ _ _ _ I). auto.
  - destruct NF. apply (fi_end _ _ _ _ _ _ I). auto.
  - destruct (w_lock (y_world (q_sys (st n)))); [right|]; exact G.
  - rewrite G. left. reflexivity.
Qed.
Hypothesis served : forall n h, writes (st n) h -> exists m, (n <= m)%nat /\ (attends h (f m) \/ f m = Some (QDrop h)).
Lemma through k : forall n i, In i (line (st n)) -> (upto (load (st n)) i (line (st n)) <= k)%nat -> exists m, (n <= m)%nat /\ ((exists r, res m = Some (i, Ready r)) \/ f m = Some (QDrop i)).
Proof.
  induction k as [k IHk] using lt_wf_ind. intros n i Hi Hk.
  assert (Lk : exists h, w_lock (y_world (q_sys (st n))) = Some h).
  { destruct (endless_inv n) as (rs & ps & asked & [I Fr] & _). unfold line in Hi. destruct (w_lock (y_world (q_sys (st n)))) as [h|]; [eauto|]. rewrite Fr in Hi by reflexivity. destruct Hi. }
  destruct Lk as [h Lk]. destruct (served n h Lk) as (m & Hm & At).
  assert (Go : forall d n, (m = n + d)%nat -> In i (line (st n)) -> (upto (load (st n)) i (line (st n)) <= k)%nat -> w_lock (y_world (q_sys (st n))) = Some h ->
     exists m, (n <= m)%nat /\ ((exists r, res m = Some (i, Ready r)) \/ f m = Some (QDrop i))).
  { clear n Hi Hk Lk Hm. induction d as [|d IHd]; intros n Em Hi Hk Lk; pose proof (steps n) as Hs; unfold proceeds in Hs.
    - rewrite Nat.add_0_r in Em. subst m. destruct (f n) as [lb|] eqn:E; [|destruct At as [(? & ? & ? & Z)|Z]; discriminate].
      destruct (endless_inv n) as (rs & ps & asked & I & _). destruct (step_moves _ _ _ _ _ _ _ _ _ _ _ I Hs Hi Lk) as [X|[X|[(X & Y)|(_ & _ & _ & X & Y)]]].
      + exists n. auto.
      + exists n. split; [lia|]. right. rewrite E, X. reflexivity.
      + assert (Hlt : (upto (load (st (S n))) i (line (st (S n))) < k)%nat) by lia.
        destruct (IHk _ Hlt (S n) i X (le_n _)) as (m & Hm & Q). exists m. split; [lia|exact Q].
      + destruct At as [Z|Z]; [contradiction|congruence].
    - destruct (f n) as [lb|] eqn:E.
      + destruct (endless_inv n) as (rs & ps & asked & I & _). destruct (step_moves _ _ _ _ _ _ _ _ _ _ _ I Hs Hi Lk) as [X|[X|[(X & Y)|(X & Y & Z & _)]]].
        * exists n. auto.
        * exists n. split; [lia|]. right. rewrite E, X. reflexivity.
        * assert (Hlt : (upto (load (st (S n))) i (line (st (S n))) < k)%nat) by lia.
          destruct (IHk _ Hlt (S n) i X (le_n _)) as (m' & Hm' & Q). exists m'. split; [lia|exact Q].
        * destruct (IHd (S n)) as (m' & Hm' & Q); [lia|exact X|lia|exact Z|]. exists m'. split; [lia|exact Q].
      + destruct Hs as [Hs _]. rewrite <- Hs in Hi, Hk, Lk. destruct (IHd (S n)) as (m' & Hm' & Q); [lia|exact Hi|exact Hk|exact Lk|]. exists m'. split; [lia|exact Q]. }
  apply (Go (m - n)%nat); [lia|exact Hi|exact Hk|exact Lk].
Qed.
End Endless.
