(** Proofs about timers (C63). *)
From Verif Require Import Base BaseFacts BuilderFacts Codec Spec Ids Payload Emit SpecEmit EmitFacts EmitPollFacts EventProofs CodecFacts Timed SpecTimed.
From Coq Require Import ZifyBool ZifyNat ZifyN.

Lemma select_answer E dl (p : tpoll event) now w id ch w' f : tp_now p = now ->
  poll_recv E w id ch (select now dl (tp_chan p) (tp_first p)) = (w', f, tp_res p) ->
  waiting_answer E dl p /\ w_out w' = w_out w /\ w_lock w' = w_lock w /\ (tp_res p = Waiting -> f = WRecv id ch) /\ (tp_res p <> Waiting -> f = WDone).
Proof.
  intros <- H. unfold waiting_answer, select in *.
  destruct (tp_chan p) as [|e|]; destruct (dl <=? tp_now p) eqn:L; try destruct (tp_first p); cbn in H; inversion H; subst; repeat split; auto; try congruence; try (right; split; [lia|reflexivity]).
  all: intros Q; exfalso; apply Q; reflexivity.
Qed.

Section Request.
  Context (E : env) (i : nat) (e : event) (enc : bytes) (Henc : into_bytes e = Ok enc) (dflt cap : N).
  Let x0 := ev_id e.
  (** not finished; the writer is held while writing and flushing *)
  Definition held (lk : option nat) (em : emit_metadata) : Prop :=
    match em_fut em with
    | Some FDone => False
    | Some (FWrite _ _ rest) => rest <> [] /\ lk = Some i
    | Some (FFlush _ _) => lk = Some i
    | _ => True
    end.
  Lemma emit_progress t w em l w' em' r b : sending e enc b em -> held (w_lock w) em -> poll_emit i t w em l = (w', em', r) ->
    exists b1, w_out w' = w_out w ++ b1 /\
      ((r = Waiting /\ sending e enc (b ++ b1) em' /\ held (w_lock w') em') \/ (r = Ready (Ok (ev_id e)) /\ b ++ b1 = enc /\ w_lock w' = None) \/ (exists k, r = Ready (Err (IoError k)))).
  Proof.
    intros Hs U H. destruct (poll_sending_step e enc Henc _ _ _ _ _ _ _ _ _ Hs H) as (b1 & A1 & _ & A3 & A4). exists b1. split; [exact A1|].
    assert (W : forall w0 b0 rest w2 f2 r2, w_lock w0 = Some i -> wrote_outcome w0 (ev_id e) b0 rest w2 f2 r2 -> (r2 = Waiting /\ held (w_lock w2) (running f2)) \/ (r2 = Ready (Ok (ev_id e)) /\ w_lock w2 = None) \/ (exists k, r2 = Ready (Err (IoError k)))).
    { intros w0 b0 rest w2 f2 r2 Lk Q. inversion Q; subst; [left; split; [reflexivity|cbn; auto]|left; split; [reflexivity|cbn; auto]|right; left; auto|right; right; eauto]. }
    assert (L : forall w2 f2 r2 w0, poll_lock i w0 (ev_id e) enc l = (w2, f2, r2) -> (r2 = Waiting /\ held (w_lock w2) (running f2)) \/ (r2 = Ready (Ok (ev_id e)) /\ w_lock w2 = None) \/ (exists k, r2 = Ready (Err (IoError k)))).
    { intros w2 f2 r2 w0 Q. unfold poll_lock in Q. destruct (w_lock w0); [inversion Q; subst; left; split; [reflexivity|exact I]|]. apply write_all_outcome in Q. eapply W; [|eauto]. reflexivity. }
    assert (R : (r = Waiting /\ held (w_lock w') em') \/ (r = Ready (Ok (ev_id e)) /\ w_lock w' = None) \/ (exists k, r = Ready (Err (IoError k)))).
    { inversion Hs; subst.
      - cbn [poll_emit em_fut em_meta em_stream take_event spent_meta m_event poll_fut] in H. rewrite Henc in H. destruct (poll_lock i w (ev_id e) enc l) as [[w2 f2] r2] eqn:Ef. inversion H; subst. eapply L; eauto.
      - unfold running in H. cbn [poll_emit em_fut em_meta em_stream poll_fut] in H. destruct (poll_lock i w (ev_id e) enc l) as [[w2 f2] r2] eqn:Ef. inversion H; subst. eapply L; eauto.
      - unfold running in H. cbn [poll_emit em_fut em_meta em_stream poll_fut] in H. destruct (poll_write_all w (ev_id e) b rest l) as [[w2 f2] r2] eqn:Ef. inversion H; subst. apply write_all_outcome in Ef. eapply W; [apply (proj2 U)|eauto].
      - unfold running in H. cbn [poll_emit em_fut em_meta em_stream poll_fut] in H. destruct (poll_flush w (ev_id e) b l) as [[w2 f2] r2] eqn:Ef. inversion H; subst. apply flush_outcome in Ef. eapply W; [exact U|eauto].
      - destruct U. }
    destruct R as [(-> & R)|[(-> & R)|(k & ->)]]; [left; auto|right; left; split; [reflexivity|split; [apply (A4 _ eq_refl)|exact R]]|right; right; eauto].
  Qed.
  Lemma not_all_sent lk b em : sending e enc b em -> held lk em -> b = enc -> lk = Some i.
  Proof.
    intros S U Q. pose proof (encoding_not_empty _ _ Henc) as NE. inversion S; subst; try (destruct U; fail); auto; try (exfalso; apply NE; assumption || congruence).
    - exfalso. destruct U as [U _]. apply U. apply (app_inv_head enc). rewrite app_nil_r. auto.
  Qed.

  (** while the request is being sent, in the select!, finished *)
  Definition in_sending (lk : option nat) (b : bytes) (x : timed_await) : Prop :=
    ta_captured x = Some cap /\ ta_deadline x = None /\ exists ch em, ta_wait x = mk_wait None (Some (WSending x0 ch em)) /\ sending e enc b em /\ held lk em.
  Definition in_select (dl : N) (x : timed_await) : Prop := ta_captured x = Some cap /\ ta_deadline x = Some dl /\ exists ch, ta_wait x = mk_wait None (Some (WRecv x0 ch)).
  Definition is_done (x : timed_await) : Prop := exists m, ta_wait x = mk_wait m (Some WDone).

  Lemma done_intro a1 a2 a3 a4 m : is_done (mk_ta a1 a2 a3 a4 (mk_wait m (Some WDone))). Proof. exists m. reflexivity. Qed.

  Lemma done_polls tr : forall x y, is_done x -> polls_timed E i x tr y -> Forall (fun q => tp_res q = Ready (Crash PanicResumed)) tr /\ wrote_all (steps_of tr) [].
  Proof.
    induction tr as [|p tr IH]; intros x y (m & D) H; inversion H as [|x1 t now w l c b w' x' r tr' y' Hp H']; subst; [split; [constructor|reflexivity]|].
    unfold poll_timed in Hp. rewrite D in Hp. cbn in Hp. inversion Hp; subst. destruct (IH _ _ (done_intro _ _ _ _ _) H') as [A B].
    split; [constructor; [reflexivity|exact A]|]. exists [], []. split; [unfold wrote; rewrite app_nil_r; reflexivity|]. split; [exact B|reflexivity].
  Qed.
  Lemma select_polls tr dl : forall x y, in_select dl x -> polls_timed E i x tr y -> waiting_answers E dl tr /\ wrote_all (steps_of tr) [].
  Proof.
    induction tr as [|p tr IH]; intros x y (C & D & ch & W) H; inversion H as [|x1 t now w l c b w' x' r tr' y' Hp H']; subst; [split; [exact I|reflexivity]|].
    unfold poll_timed in Hp. rewrite C, D, W in Hp. cbn [poll_await wm_fut wm_emit poll_wait_fut] in Hp.
    destruct (poll_recv E w x0 ch (select now dl c b)) as [[w2 f2] r2] eqn:Ef. cbn in Hp. inversion Hp; subst. clear Hp.
    set (p := mk_tp now c b w w' r). assert (Q : waiting_answer E dl p /\ w_out w' = w_out w /\ w_lock w' = w_lock w /\ (tp_res p = Waiting -> f2 = WRecv x0 ch) /\ (tp_res p <> Waiting -> f2 = WDone)) by (eapply select_answer; [reflexivity|exact Ef]).
    destruct Q as (A & O & _ & B1 & B2). cbn [tp_res p] in B1, B2.
    assert (K : wrote_all (steps_of tr) [] -> wrote_all (steps_of (p :: tr)) []).
    { intros K. exists [], []. split; [unfold wrote; cbn; rewrite app_nil_r; exact O|]. split; [exact K|reflexivity]. }
    destruct r as [|o].
    - specialize (B1 eq_refl). subst f2. cbn in H'. assert (IS : in_select dl (mk_ta (ta_set x) (ta_default x) (Some cap) (Some dl) (mk_wait None (Some (WRecv x0 ch))))) by (split; [reflexivity|split; [reflexivity|exists ch; reflexivity]]).
      destruct (IH _ _ IS H') as [P Q]. split; [split; [exact A|exact P]|exact (K Q)].
    - rewrite (B2 ltac:(discriminate)) in H'. destruct (done_polls _ _ _ (done_intro _ _ _ _ _) H') as [P Q]. split; [split; [exact A|exact P]|exact (K Q)].
  Qed.

  (** what the polls of a request look like from sending on *)
  Definition not_sent (b : bytes) (pre : list (tpoll event)) : Prop := forall pre' p b2, pre = pre' ++ [p] -> wrote_all (steps_of pre) b2 -> b ++ b2 = enc -> w_lock (tp_to p) = Some i.
  Definition story (b : bytes) (tr : list (tpoll event)) : Prop :=
    exists pre post, tr = pre ++ post /\ Forall (fun p => tp_res p = Waiting) pre /\ not_sent b pre /\
    (post = []
     \/ (exists p post' k, post = p :: post' /\ tp_res p = Ready (Err (IoError k)) /\ Forall (fun q => tp_res q = Ready (Crash PanicResumed)) post')
     \/ (exists p post' b2, post = p :: post' /\ wrote_all (steps_of (pre ++ [p])) b2 /\ b ++ b2 = enc /\ w_lock (tp_to p) <> Some i /\ wrote_all (steps_of post') [] /\ waiting_answers E (tp_now p + cap) post)).
  Lemma not_sent_nil b : not_sent b []. Proof. intros pre' p b2 Q. destruct pre'; discriminate. Qed.
  Lemma not_sent_cons q lk b b1 em pre : wrote (tp_from q) (tp_to q) b1 -> lk = w_lock (tp_to q) -> sending e enc (b ++ b1) em -> held lk em -> not_sent (b ++ b1) pre -> not_sent b (q :: pre).
  Proof.
    intros Wq -> S U NS pre' p b2 Q (c1 & c2 & C1 & C2 & ->) Hb. assert (c1 = b1) by (unfold wrote in *; rewrite Wq in C1; apply app_inv_head in C1; auto). subst c1.
    destruct pre' as [|q' pre']; cbn in Q; injection Q as Q1 Q2.
    - subst. cbn in C2. subst. rewrite app_nil_r in Hb. exact (not_all_sent _ _ _ S U Hb).
    - subst. eapply NS; [reflexivity|exact C2|]. rewrite <- app_assoc. exact Hb.
  Qed.
  Lemma wrote_snoc {T} (tr1 tr2 : list (world * world * polled T)) b1 b2 : wrote_all tr1 b1 -> wrote_all tr2 b2 -> wrote_all (tr1 ++ tr2) (b1 ++ b2).
  Proof. revert b1. induction tr1 as [|[[u v] z] tr1 IH]; cbn; intros b1; [intros -> H; exact H|]. intros (c1 & c2 & A & B & ->) H. exists c1, (c2 ++ b2). rewrite app_assoc. auto. Qed.

  (** one poll of the async block while sending *)
  Lemma sending_answer t now w ch em l c b w' f r b0 dl : sending e enc b0 em -> held (w_lock w) em -> poll_sending E i t w x0 ch em l (select now dl c b) = (w', f, r) ->
    let p := mk_tp now c b w w' r in
    exists b1, w_out w' = w_out w ++ b1 /\
    ((r = Waiting /\ exists em', f = WSending x0 ch em' /\ sending e enc (b0 ++ b1) em' /\ held (w_lock w') em')
     \/ (exists k, r = Ready (Err (IoError k)) /\ f = WDone)
     \/ (b0 ++ b1 = enc /\ w_lock w' <> Some i /\ waiting_answer E dl p /\ (r = Waiting -> f = WRecv x0 ch) /\ (r <> Waiting -> f = WDone))).
  Proof.
    intros Hs U H p. unfold poll_sending in H. destruct (poll_emit i t w em l) as [[w1 em1] r1] eqn:Ep.
    destruct (emit_progress _ _ _ _ _ _ _ _ Hs U Ep) as (b1 & A1 & [(-> & S1 & U1)|[(-> & Q & L1)|(k & ->)]]); exists b1.
    - inversion H; subst. split; [exact A1|]. left. split; [reflexivity|]. eauto.
    - destruct (select_answer E dl (mk_tp now c b w1 w' r) now w1 x0 ch w' f eq_refl H) as (A & O & Lk & B1 & B2). split; [congruence|]. right. right. split; [exact Q|]. split; [cbn in Lk; rewrite Lk, L1; discriminate|]. split; [exact A|]. auto.
    - inversion H; subst. split; [exact A1|]. right. left. eauto.
  Qed.
  Lemma sending_story tr : forall x y b lk, in_sending lk b x -> lock_kept i lk tr -> polls_timed E i x tr y -> story b tr.
  Proof.
    induction tr as [|p tr IH]; intros x y b0 lk (C & D & ch & em & W & S & U) LK H; inversion H as [|x1 t now w l c b w' x' r tr' y' Hp H']; subst.
    { exists [], []. split; [reflexivity|]. split; [constructor|]. split; [apply not_sent_nil|]. left. reflexivity. }
    destruct LK as [LK1 LK2]. cbn [tp_from tp_to] in LK1, LK2.
    unfold poll_timed in Hp. rewrite C, D, W in Hp. cbn [poll_await wm_fut wm_emit poll_wait_fut] in Hp.
    destruct (poll_sending E i t w x0 ch em l (select now (now + cap) c b)) as [[w2 f2] r2] eqn:Ef. cbn in Hp. inversion Hp; subst. clear Hp.
    assert (U1 : held (w_lock w) em). { unfold held in *. destruct (em_fut em) as [[]|]; intuition. }
    destruct (sending_answer _ _ _ _ _ _ _ _ _ _ _ _ _ S U1 Ef) as (b1 & A1 & [(-> & em' & -> & S' & U')|[(k & -> & ->)|(Q & Lf & A & B1 & B2)]]).
    - cbn in H'. assert (IN : in_sending (w_lock w') (b0 ++ b1) (mk_ta (ta_set x) (ta_default x) (Some cap) None (mk_wait None (Some (WSending x0 ch em'))))) by (split; [reflexivity|split; [reflexivity|exists ch, em'; auto]]).
      destruct (IH _ _ _ _ IN LK2 H') as (pre & post & -> & F & NS & R). exists (mk_tp now c b w w' Waiting :: pre), post. split; [reflexivity|]. split; [constructor; [reflexivity|exact F]|].
      split; [eapply not_sent_cons; [exact A1|reflexivity|exact S'|exact U'|exact NS]|].
      destruct R as [ -> |[R|(q & post' & b2 & -> & R1 & R2 & R3 & R4 & R5)]].
      + left. reflexivity.
      + right. left. exact R.
      + right. right. exists q, post', (b1 ++ b2). split; [reflexivity|]. split; [exists b1, b2; auto|]. rewrite app_assoc. auto.
    - exists [], (mk_tp now c b w w' (Ready (Err (IoError k))) :: tr). split; [reflexivity|]. split; [constructor|]. split; [apply not_sent_nil|]. right. left. eexists _, _, _. split; [reflexivity|]. split; [reflexivity|].
    cbn in H'. eapply done_polls; [|exact H']. apply done_intro.
    - exists [], (mk_tp now c b w w' r :: tr). split; [reflexivity|]. split; [constructor|]. split; [apply not_sent_nil|]. right. right. eexists _, tr, b1. split; [reflexivity|].
      split; [exists b1, []; rewrite app_nil_r; split; [exact A1|split; reflexivity]|]. split; [exact Q|]. split; [exact Lf|]. cbn [tp_now].
      destruct r as [|o].
      + rewrite (B1 eq_refl) in H'. cbn in H'. assert (IS : in_select (now + cap) (mk_ta (ta_set x) (ta_default x) (Some cap) (Some (now + cap)) (mk_wait None (Some (WRecv x0 ch))))) by (split; [reflexivity|split; [reflexivity|exists ch; reflexivity]]).
        destruct (select_polls _ _ _ _ IS H') as [P R]. split; [exact R|]. split; [exact A|exact P].
      + rewrite (B2 ltac:(discriminate)) in H'. destruct (done_polls _ _ _ (done_intro _ _ _ _ _) H') as [P R]. split; [exact R|]. split; [exact A|exact P].
  Qed.
End Request.

Lemma request_fold ds : forall x, fold_left (fun x d => with_timeout d x) ds x = mk_ta (match rev ds with [] => ta_set x | d :: _ => Some d end) (ta_default x) (ta_captured x) (ta_deadline x) (ta_wait x).
Proof.
  induction ds as [|d ds IH]; intros x; [destruct x; reflexivity|]. cbn [fold_left rev]. rewrite IH. unfold with_timeout. cbn. destruct (rev ds) as [|d' r] eqn:R; [reflexivity|reflexivity].
Qed.
Lemma last_rev (ds : list N) d0 : last ds d0 = match rev ds with [] => d0 | d :: _ => d end.
Proof. destruct ds as [|d ds] using rev_ind; [reflexivity|]. rewrite last_last, rev_app_distr. reflexivity. Qed.
Lemma request_story E i o d dflt ds tr y : o_payload o = Ok d -> lock_kept i None tr -> polls_timed E i (request_of o dflt ds) tr y ->
  tr = [] \/ exists e enc, event_of o e /\ into_bytes e = Ok enc /\ story E i enc (timeout_of dflt ds) [] tr.
Proof.
  intros Ho LK H; inversion H as [|x1 t now w l c b w' x' r tr' y' Hp H']; subst; [left; reflexivity|]. right. destruct LK as [_ LK]. cbn [tp_to] in LK.
  unfold request_of in Hp. rewrite request_fold in Hp. unfold poll_timed, ta_new in Hp. cbn [ta_captured ta_set ta_default ta_deadline ta_wait] in Hp.
  assert (Ec : chosen (match rev ds with [] => None | d0 :: _ => Some d0 end) dflt = timeout_of dflt ds) by (unfold timeout_of; rewrite last_rev; destruct (rev ds); reflexivity).
  rewrite Ec in Hp. clear Ec. set (cap := timeout_of dflt ds) in *. clearbody cap.
  unfold poll_await, await_reply in Hp. cbn [wm_fut wm_emit] in Hp. rewrite prepare_fresh, Ho in Hp.
  set (e := made o (nth_id t (w_ctr w)) d) in *. destruct (made_event o (nth_id t (w_ctr w)) d Ho) as [E1 E2]. fold e in E1, E2. clearbody e.
  destruct (into_bytes_total e) as [enc Henc]. exists e, enc. split; [exact E1|]. split; [exact Henc|].
  cbn [poll_wait_fut] in Hp. unfold register_reply_listener in Hp. set (w1 := mk_world _ _ _ _ _) in Hp. set (ch := w_chans (bump w)) in *.
  set (em := mk_emit (Some (spent_meta (Some e))) true None) in *.
  assert (S0 : sending e enc [] em) by (apply se_ready; reflexivity). assert (U0 : held i (w_lock w1) em) by exact I.
  destruct (poll_sending E i t w1 (ev_id e) ch em l (select now (now + cap) c b)) as [[w2 f2] r2] eqn:Ep. cbn in Hp. inversion Hp; subst. clear Hp.
  destruct (sending_answer E i e enc Henc _ _ _ _ _ _ _ _ _ _ _ _ _ S0 U0 Ep) as (b1 & A1 & [(-> & em' & -> & S' & U')|[(k & -> & ->)|(Q & Lf & A & B1 & B2)]]); change (w_out w1) with (w_out w) in A1; cbn [app] in *.
  - assert (IN : in_sending i e enc cap (w_lock w') b1 (mk_ta None dflt (Some cap) None (mk_wait None (Some (WSending (ev_id e) ch em'))))) by (split; [reflexivity|split; [reflexivity|exists ch, em'; auto]]).
    destruct (sending_story E i e enc Henc cap _ _ _ _ _ IN LK H') as (pre & post & -> & F & NS & R). exists (mk_tp now c b w w' Waiting :: pre), post. split; [reflexivity|]. split; [constructor; [reflexivity|exact F]|].
    split; [eapply (not_sent_cons i e enc Henc) with (b1 := b1); [exact A1|reflexivity|exact S'|exact U'|exact NS]|].
    destruct R as [ -> |[R|(q & post' & b2 & -> & R1 & R2 & R3 & R4 & R5)]].
    + left. reflexivity.
    + right. left. exact R.
    + right. right. exists q, post', (b1 ++ b2). split; [reflexivity|]. split; [exists b1, b2; auto|]. auto.
  - exists [], (mk_tp now c b w w' (Ready (Err (IoError k))) :: tr'). split; [reflexivity|]. split; [constructor|]. split; [apply not_sent_nil|]. right. left. eexists _, _, _. split; [reflexivity|]. split; [reflexivity|].
    cbn in H'. eapply done_polls; [|exact H']. apply done_intro.
  - exists [], (mk_tp now c b w w' r :: tr'). split; [reflexivity|]. split; [constructor|]. split; [apply not_sent_nil|]. right. right. eexists _, tr', b1. split; [reflexivity|].
    split; [exists b1, []; rewrite app_nil_r; split; [exact A1|split; reflexivity]|]. split; [exact Q|]. split; [exact Lf|]. cbn [tp_now].
    destruct r as [|oo].
    + rewrite (B1 eq_refl) in H'. cbn in H'. assert (IS : in_select e cap (now + cap) (mk_ta None dflt (Some cap) (Some (now + cap)) (mk_wait None (Some (WRecv (ev_id e) ch))))) by (split; [reflexivity|split; [reflexivity|exists ch; reflexivity]]).
      destruct (select_polls E i e cap _ _ _ _ IS H') as [P R]. split; [exact R|]. split; [exact A|exact P].
    + rewrite (B2 ltac:(discriminate)) in H'. destruct (done_polls E i _ _ _ (done_intro _ _ _ _ _) H') as [P R]. split; [exact R|]. split; [exact A|exact P].
Qed.

(** * Streams *)
Definition waits (dl : N) (s : timed_stream) : Prop := ts_deadline s = Some dl /\ rs_fut (ts_stream s) = Some true.
Definition dead (s : timed_stream) : Prop := rs_fut (ts_stream s) = Some false \/ (rs_fut (ts_stream s) = None /\ rs_free (ts_stream s) = false).

Lemma item_step now w c b w' s' r s dl : (new_stream s (ts_timeout s) /\ dl = now + ts_timeout s) \/ waits dl s -> poll_next_timed now w s c b = (w', s', r) ->
  item_answer dl (mk_tp now c b w w' r) /\ ts_timeout s' = ts_timeout s /\ (r = Waiting -> waits dl s') /\ (goes_on r -> new_stream s' (ts_timeout s))
  /\ (r <> Waiting -> ~ goes_on r -> dead s').
Proof.
  intros D H. unfold poll_next_timed in H.
  assert (Q : match ts_deadline s with Some d => d | None => now + ts_timeout s end = dl /\ poll_next w (ts_stream s) (select now dl c b) = poll_item w (ts_stream s) (select now dl c b)).
  { destruct D as [((id & ch & E) & ->)|(D1 & D2)].
    - rewrite E. split; reflexivity.
    - rewrite D1. split; [reflexivity|]. unfold poll_next. rewrite D2. reflexivity. }
  destruct Q as [Q0 Q]. rewrite Q0, Q in H. clear Q0 Q D. unfold item_answer, select in *. cbn [tp_chan tp_now tp_res] in *.
  destruct c as [|e|]; destruct (dl <=? now) eqn:L; try destruct b; cbn in H; try destruct (etype_eqb (ev_type e) End) eqn:Et; inversion H; subst; clear H.
  all: split; [try reflexivity; try (left; reflexivity); try (right; split; [lia|reflexivity])|]; split; [reflexivity|]; split; [intros Q; try discriminate Q; split; reflexivity|].
  all: split; [intros (e' & Q1 & Q2); inversion Q1; subst; try (eexists _, _; reflexivity); try (destruct (ev_type e'); try discriminate Et; exfalso; apply Q2; reflexivity)|].
  all: intros N1 N2; try (exfalso; apply N1; reflexivity); try (left; reflexivity); try (right; split; reflexivity).
  all: exfalso; apply N2; exists e; split; [reflexivity|]; intros Q; rewrite Q in Et; discriminate.
Qed.
Lemma dead_step now w c b w' s' r s : dead s -> poll_next_timed now w s c b = (w', s', r) -> dead s' /\ (r = Ready (Ok None) \/ r = Ready (Crash PanicResumed)) /\ ts_timeout s' = ts_timeout s.
Proof.
  intros D H. unfold poll_next_timed, poll_next in H. destruct D as [D|(D1 & D2)].
  - rewrite D in H. inversion H; subst. cbn. split; [left; exact D|]. split; auto.
  - rewrite D1, D2 in H. inversion H; subst. cbn. split; [right; split; auto|]. split; auto.
Qed.
Lemma items_split tr1 : forall s tr2 s2, polls_items s (tr1 ++ tr2) s2 -> exists s1, polls_items s tr1 s1 /\ polls_items s1 tr2 s2.
Proof.
  induction tr1 as [|p tr1 IH]; intros s tr2 s2 H; [exists s; split; [constructor|exact H]|]. cbn in H. inversion H as [|x1 now w c b w' s' r tr' y' Hp H']; subst.
  destruct (IH _ _ _ H') as (s1 & A & B). exists s1. split; [econstructor; eauto|exact B].
Qed.
Lemma goes_on_dec (r : polled (option (outcome event))) : goes_on r \/ ~ goes_on r.
Proof.
  destruct r as [|[[[e| |]|]| |]]; try (right; intros (e' & Q & _); discriminate).
  destruct (etype_eqb (ev_type e) End) eqn:Et.
  - right. intros (e' & Q & N). inversion Q; subst. apply N. destruct (ev_type e'); try discriminate Et; reflexivity.
  - left. exists e. split; [reflexivity|]. intros Q. rewrite Q in Et. discriminate.
Qed.
(** where a stream stands after polls [tr] *)
Definition stands (T : N) (tr : list (tpoll (option (outcome event)))) (s : timed_stream) : Prop :=
  ts_timeout s = T /\
  ((new_stream s T /\ item_starts tr (length tr)) \/ (exists j q, nth_error tr j = Some q /\ item_starts tr j /\ waited tr j (length tr) /\ waits (tp_now q + T) s) \/ dead s).
Lemma starts_app tr p j : item_starts tr j -> item_starts (tr ++ [p]) j.
Proof. intros [-> |(i & q & -> & H & G)]; [left; reflexivity|]. right. exists i, q. split; [reflexivity|]. split; [|exact G]. rewrite nth_error_app1; [exact H|]. apply nth_error_Some. congruence. Qed.
Lemma stands_after T s0 : new_stream s0 T -> forall tr s, polls_items s0 tr s -> stands T tr s.
Proof.
  intros N0. induction tr as [|p tr IH] using rev_ind; intros s H.
  { inversion H; subst. destruct N0 as (id & ch & ->). split; [reflexivity|]. left. split; [eexists _, _; reflexivity|left; reflexivity]. }
  destruct (items_split _ _ _ _ H) as (s1 & H1 & H2). destruct (IH _ H1) as (T1 & C). inversion H2 as [|x1 now w c b w' s' r tr' y' Hp H3]; subst. inversion H3; subst. clear H2 H3.
  assert (Step : forall dl j q, nth_error (tr ++ [mk_tp now c b w w' r]) j = Some q -> dl = tp_now q + ts_timeout s1 -> item_starts (tr ++ [mk_tp now c b w w' r]) j -> waited tr j (length tr) -> (j <= length tr)%nat ->
     ((new_stream s1 (ts_timeout s1) /\ dl = now + ts_timeout s1) \/ waits dl s1) -> stands (ts_timeout s1) (tr ++ [mk_tp now c b w w' r]) s).
  { intros dl j q Hj Hd Hs Hw Hl D. destruct (item_step _ _ _ _ _ _ _ _ _ D Hp) as (_ & T2 & B1 & B2 & B3). split; [exact T2|]. destruct r as [|o].
    - right. left. exists j, q. split; [exact Hj|]. split; [exact Hs|]. split; [|rewrite <- Hd; apply B1; reflexivity].
      intros m p0 Hm Hp0. rewrite app_length in Hm. cbn in Hm. destruct (Nat.eq_dec m (length tr)) as [ -> |Hn].
      + rewrite nth_error_app2, Nat.sub_diag in Hp0 by lia. inversion Hp0. reflexivity.
      + rewrite nth_error_app1 in Hp0 by lia. eapply Hw; [|exact Hp0]. lia.
    - destruct (goes_on_dec (Ready o)) as [G|G].
      + left. split; [exact (B2 G)|]. right. exists (length tr), (mk_tp now c b w w' (Ready o)). split; [rewrite app_length; cbn; lia|]. split; [|exact G]. rewrite nth_error_app2, Nat.sub_diag by lia. reflexivity.
      + right. right. apply B3; [discriminate|exact G]. }
  destruct C as [(N1 & S1)|[(j & q & Q1 & Q2 & Q3 & Q4)|D]].
  - eapply (Step (now + ts_timeout s1) (length tr) (mk_tp now c b w w' r)); [rewrite nth_error_app2, Nat.sub_diag by lia; reflexivity|reflexivity|apply starts_app; exact S1|intros m p0 Hm; lia|lia|left; split; [exact N1|reflexivity]].
  - assert (j < length tr)%nat by (apply nth_error_Some; congruence).
    eapply (Step (tp_now q + ts_timeout s1) j q); [rewrite nth_error_app1 by lia; exact Q1|reflexivity|apply starts_app; exact Q2|exact Q3|lia|right; exact Q4].
  - destruct (dead_step _ _ _ _ _ _ _ _ D Hp) as (D1 & _ & D2). split; [exact D2|]. right. right. exact D1.
Qed.
Lemma take_split {A} (tr : list A) k p : nth_error tr k = Some p -> exists tr1 tr2, tr = tr1 ++ p :: tr2 /\ length tr1 = k.
Proof. apply nth_error_split. Qed.
Lemma starts_prefix tr1 tr2 j : (j <= length tr1)%nat -> item_starts tr1 j -> item_starts (tr1 ++ tr2) j.
Proof. intros L [-> |(i & q & -> & H & G)]; [left; reflexivity|]. right. exists i, q. split; [reflexivity|]. split; [|exact G]. rewrite nth_error_app1; [exact H|]. apply nth_error_Some. congruence. Qed.
Lemma item_timeout T s0 tr s k p : new_stream s0 T -> polls_items s0 tr s -> nth_error tr k = Some p -> tp_res p = Ready (Ok (Some (Err Timeout))) ->
  exists j q, (j <= k)%nat /\ nth_error tr j = Some q /\ item_starts tr j /\ waited tr j k /\ tp_now q + T <= tp_now p.
Proof.
  intros N0 H Hk Hr. destruct (take_split _ _ _ Hk) as (tr1 & tr2 & -> & <-). destruct (items_split _ _ _ _ H) as (s1 & H1 & H2).
  destruct (stands_after _ _ N0 _ _ H1) as (T1 & C). inversion H2 as [|x1 now w c b w' s' r tr' y' Hp H3]; subst. cbn [tp_res tp_now] in *. subst r.
  assert (IA : forall dl, item_answer dl (mk_tp now c b w w' (Ready (Ok (Some (Err Timeout))))) -> dl <= now).
  { intros dl. unfold item_answer. cbn. destruct c as [|e|]; destruct (dl <=? now) eqn:L; cbn [andb]; try discriminate; intros _; lia. }
  destruct C as [(N1 & S1)|[(j & q & Q1 & Q2 & Q3 & Q4)|D]].
  - destruct (item_step _ _ _ _ _ _ _ _ (now + ts_timeout s1) (or_introl (conj N1 eq_refl)) Hp) as (A & _). apply IA in A.
    exists (length tr1), (mk_tp now c b w w' (Ready (Ok (Some (Err Timeout))))). split; [lia|]. split; [exact Hk|]. split; [apply starts_prefix; [lia|exact S1]|]. split; [intros m p0 Hm; lia|exact A].
  - destruct (item_step _ _ _ _ _ _ _ _ _ (or_intror Q4) Hp) as (A & _). apply IA in A. assert (j < length tr1)%nat by (apply nth_error_Some; congruence).
    exists j, q. split; [lia|]. split; [rewrite nth_error_app1 by lia; exact Q1|]. split; [apply starts_prefix; [lia|exact Q2]|]. split; [|exact A].
    intros m p0 Hm Hp0. rewrite nth_error_app1 in Hp0 by lia. eapply Q3; [exact Hm|exact Hp0].
  - destruct (dead_step _ _ _ _ _ _ _ _ D Hp) as (_ & [Q|Q] & _); discriminate.
Qed.
(** from a fresh stream or a waiting one, as long as nothing comes *)
Lemma waits_on n : forall s tr s2 dl k p, waits dl s -> polls_items s tr s2 -> (forall m q, (m < k)%nat -> nth_error tr m = Some q -> tp_res q = Waiting) -> nth_error tr k = Some p -> k = n -> item_answer dl p.
Proof.
  induction n as [|n IH]; intros s tr s2 dl k p D H W Hk ->.
  - inversion H as [|x1 now w c b w' s' r tr' y' Hp H3]; subst; [discriminate|]. cbn in Hk. inversion Hk; subst. apply (item_step _ _ _ _ _ _ _ _ _ (or_intror D) Hp).
  - inversion H as [|x1 now w c b w' s' r tr' y' Hp H3]; subst; [discriminate|]. cbn in Hk. destruct (item_step _ _ _ _ _ _ _ _ _ (or_intror D) Hp) as (_ & _ & B1 & _).
    assert (r = Waiting) by (apply (W 0%nat (mk_tp now c b w w' r)); [lia|reflexivity]).
    eapply IH with (k := n); [exact (B1 H0)|exact H3|intros m q Hm Hq; apply (W (S m) q); [lia|exact Hq]|exact Hk|reflexivity].
Qed.
Lemma fresh_at T s0 tr1 q tr2 s : new_stream s0 T -> polls_items s0 (tr1 ++ q :: tr2) s -> item_starts (tr1 ++ q :: tr2) (length tr1) -> exists s1, polls_items s0 tr1 s1 /\ polls_items s1 (q :: tr2) s /\ new_stream s1 T.
Proof.
  intros N0 H S. destruct (items_split _ _ _ _ H) as (s1 & H1 & H2). exists s1. split; [exact H1|]. split; [exact H2|].
  destruct tr1 as [|p1 tr1 _] using rev_ind; [inversion H1; subst; exact N0|].
  destruct S as [Q|(i & p' & Q1 & Q2 & G)]; [rewrite app_length in Q; cbn in Q; lia|].
  rewrite app_length in Q1. cbn in Q1. assert (i = length tr1) by lia. subst i. rewrite <- app_assoc, nth_error_app2, Nat.sub_diag in Q2 by lia. cbn in Q2. injection Q2 as Q2. subst p'.
  destruct (items_split _ _ _ _ H1) as (sa & Ha & Hb). destruct (stands_after _ _ N0 _ _ Ha) as (T1 & C). inversion Hb as [|x1 now w c b w' s' r tr' y' Hp H3]; subst. inversion H3; subst. cbn [tp_res] in G.
  destruct C as [(N1 & S1)|[(j & q' & _ & _ & _ & Q4)|D]].
  - apply (item_step _ _ _ _ _ _ _ _ (now + ts_timeout sa) (or_introl (conj N1 eq_refl)) Hp). exact G.
  - apply (item_step _ _ _ _ _ _ _ _ _ (or_intror Q4) Hp). exact G.
  - destruct (dead_step _ _ _ _ _ _ _ _ D Hp) as (_ & [Q|Q] & _); subst r; destruct G as (e' & G & _); discriminate.
Qed.
Lemma item_results T s0 tr s j k q p : new_stream s0 T -> polls_items s0 tr s -> (j <= k)%nat -> nth_error tr j = Some q -> nth_error tr k = Some p -> item_starts tr j -> waited tr j k -> item_answer (tp_now q + T) p.
Proof.
  intros N0 H Hjk Hj Hk St W. destruct (take_split _ _ _ Hj) as (tr1 & tr2 & -> & <-). destruct (fresh_at _ _ _ _ _ _ N0 H St) as (s1 & H1 & H2 & N1).
  inversion H2 as [|x1 now w c b w' s' r tr' y' Hp H3]; subst. cbn [tp_now]. pose proof N1 as N2. destruct N2 as (id & ch & E1). assert (ET : ts_timeout s1 = T) by (rewrite E1; reflexivity). rewrite <- ET in N1.
  destruct (item_step _ _ _ _ _ _ _ _ (now + ts_timeout s1) (or_introl (conj N1 eq_refl)) Hp) as (A & _ & B1 & _). rewrite ET in A, B1.
  rewrite nth_error_app2 in Hk by lia. destruct (k - length tr1)%nat as [|n] eqn:En; cbn in Hk.
  - inversion Hk; subst. exact A.
  - assert (Hr : r = Waiting) by (apply (W (length tr1) (mk_tp now c b w w' r)); [lia|exact Hj]).
    eapply waits_on with (k := n); [exact (B1 Hr)|exact H3| |exact Hk|reflexivity].
    intros m q0 Hm Hq. apply (W (length tr1 + S m)%nat q0); [lia|]. rewrite nth_error_app2 by lia. replace (length tr1 + S m - length tr1)%nat with (S m) by lia. exact Hq.
Qed.

(** * Opening a stream *)
Lemma stream_request_fold ds : forall x, fold_left (fun x d => with_timeout_stream d x) ds x = mk_to (match rev ds with [] => to_set x | d :: _ => Some d end) (to_default x) (to_captured x) (to_open x).
Proof. induction ds as [|d ds IH]; intros x; [destruct x; reflexivity|]. cbn [fold_left rev]. rewrite IH. unfold with_timeout_stream. cbn. destruct (rev ds) as [|d' r] eqn:R; reflexivity. Qed.
Lemma poll_open_new i t w om l w' om' s : poll_open i t w om l = (w', om', Ready (Ok s)) -> exists id ch, s = mk_stream id ch true None.
Proof.
  unfold poll_open. intros H.
  assert (K : forall w0 f w2 f2 s2, poll_open_fut i t w0 f l = (w2, f2, Ready (Ok s2)) -> exists id ch, s2 = mk_stream id ch true None).
  { assert (K0 : forall w0 id ch em w2 f2 s2, open_sending i t w0 id ch em l = (w2, f2, Ready (Ok s2)) -> exists id ch, s2 = mk_stream id ch true None).
    { intros w0 id ch em w2 f2 s2. unfold open_sending. destruct (poll_emit i t w0 em l) as [[w1 em1] [|[n|er|cr]]]; intros Q; inversion Q; eauto. }
    intros w0 f w2 f2 s2 Q. destruct f as [id em|id ch em|]; cbn in Q; [|eauto|discriminate]. eauto. }
  destruct (om_fut om) as [f|].
  - destruct (poll_open_fut i t w f l) as [[w2 f2] r2] eqn:E1. inversion H; subst. eauto.
  - destruct (prepare t w (om_emit om)) as [w1 [[id em]|er|cr]]; try (inversion H; fail). destruct (poll_open_fut i t w1 (OStart id em) l) as [[w2 f2] r2] eqn:E1. inversion H; subst. eauto.
Qed.
Lemma opening_timeout i T tr : forall x y, to_captured x = Some T \/ (to_captured x = None /\ chosen (to_set x) (to_default x) = T) -> polls_opening i x tr y -> forall w w' s, In (w, w', Ready (Ok s)) tr -> new_stream s T.
Proof.
  induction tr as [|p tr IH]; intros x y C H w w' s Hi; inversion H as [|x1 t w1 l w2 x' r tr' y' Hp H']; subst; [destruct Hi|].
  unfold poll_open_timed in Hp. assert (Ec : match to_captured x with Some d => d | None => chosen (to_set x) (to_default x) end = T) by (destruct C as [ -> |[ -> Q]]; auto).
  rewrite Ec in Hp. destruct (poll_open i t w1 (to_open x) l) as [[w3 om3] r3] eqn:Ep. inversion Hp; subst. destruct Hi as [Hi|Hi].
  - injection Hi as -> -> Hi. destruct r3 as [|[s3| |]]; try discriminate. injection Hi as <-. destruct (poll_open_new _ _ _ _ _ _ _ _ Ep) as (id & ch & ->). eexists _, _. reflexivity.
  - eapply IH; [|exact H'|exact Hi]. left. reflexivity.
Qed.
Lemma opened i o dflt ds tr y w w' s : polls_opening i (stream_request_of o dflt ds) tr y -> In (w, w', Ready (Ok s)) tr -> new_stream s (timeout_of dflt ds).
Proof.
  intros H. eapply opening_timeout; [|exact H]. right. unfold stream_request_of. rewrite stream_request_fold. split; [reflexivity|]. unfold timeout_of. rewrite last_rev. cbn. destruct (rev ds); reflexivity.
Qed.
Lemma late_timeout E i d tr : forall x y, ta_captured x <> None -> polls_timed E i (with_timeout d x) tr y -> exists y', polls_timed E i x tr y'.
Proof.
  assert (G : forall x1 x2, ta_captured x1 <> None -> ta_captured x2 = ta_captured x1 -> ta_deadline x2 = ta_deadline x1 -> ta_wait x2 = ta_wait x1 -> forall y, polls_timed E i x1 tr y -> exists y', polls_timed E i x2 tr y').
  { induction tr as [|p tr IH]; intros x1 x2 C1 C2 C3 C4 y H; inversion H as [|z t now w l c b w' x' r tr' y' Hp H']; subst; [exists x2; constructor|].
    unfold poll_timed in Hp. destruct (ta_captured x1) as [cap|] eqn:Ec; [|exfalso; apply C1; reflexivity].
    destruct (poll_await E i t w (ta_wait x1) l (select now (match ta_deadline x1 with Some d0 => d0 | None => now + cap end) c b)) as [[w2 wm2] r2] eqn:Ep. inversion Hp; subst.
    clear Hp. set (dl2 := match wm_fut wm2 with Some (WRecv _ _) => _ | _ => None end) in *.
    destruct (fun A => IH (mk_ta (ta_set x1) (ta_default x1) (Some cap) dl2 wm2) (mk_ta (ta_set x2) (ta_default x2) (Some cap) dl2 wm2) A eq_refl eq_refl eq_refl _ H') as (y2 & Hy2); [discriminate|].
    exists y2. econstructor; [|exact Hy2]. unfold poll_timed. rewrite C2, C3, C4, Ep. reflexivity. }
  intros x y C H. eapply G; [| | | |exact H]; auto.
Qed.
Lemma captured_after E i x p tr y : polls_timed E i x (p :: tr) y -> ta_captured y <> None.
Proof.
  revert x p. induction tr as [|p2 tr IH]; intros x p H; inversion H as [|z t now w l c b w' x' r tr' y' Hp H']; subst.
  - inversion H'; subst. unfold poll_timed in Hp. destruct (poll_await _ _ _ _ _ _ _) as [[w2 wm2] r2]. inversion Hp; subst. discriminate.
  - eapply IH. exact H'.
Qed.
