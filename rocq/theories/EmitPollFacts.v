(** Proofs about sequences of polls of one emit, await_reply or stream_replies future (C48), and about cut events (C47). *)
From Verif Require Import Base BaseFacts BuilderFacts Codec Spec Ids Payload Emit SpecEmit DecodeFacts EventProofs CodecFacts EmitFacts.
From Coq Require Import ZifyBool ZifyNat ZifyN.

(** ** Failing payloads *)
Definition failure {A} (p : outcome A) : option (outcome False) :=
  match p with Ok _ => None | Err e => Some (Err e) | Crash c => Some (Crash c) end.

Lemma polls_spent i tr em : polls_emit i spent tr em -> Forall unchanged tr /\ map snd tr = repeat (Ready (Err InvalidState)) (length tr).
Proof.
  intros H. remember spent as em0 eqn:E. induction H as [|em t w l w' em' r tr em2 Hp H IH]; [split; [constructor|reflexivity]|].
  subst. rewrite poll_spent in Hp. inversion Hp; subst. destruct (IH eq_refl) as [A B]. split; [constructor; [reflexivity|exact A]|].
  cbn. rewrite B. reflexivity.
Qed.
Lemma failing_emit i o e tr em : o_payload o = Err e -> polls_emit i (future_of o) tr em ->
  Forall unchanged tr /\ (tr = [] \/ map snd tr = Ready (Err e) :: repeat (Ready (Err InvalidState)) (length tr - 1)).
Proof.
  intros Ho H. inversion H as [|em0 t w l w' em' r tr' em2 Hp H']; subst; [split; [constructor|auto]|].
  rewrite poll_fresh, Ho in Hp. inversion Hp; subst. destruct (polls_spent _ _ _ H') as [A B].
  split; [constructor; [reflexivity|exact A]|]. right. cbn. rewrite B, Nat.sub_0_r. reflexivity.
Qed.

Lemma prepare_fresh t w o : prepare t w (Some (future_of o)) =
  match o_payload o with
  | Ok d => (bump w, Ok (ev_id (made o (nth_id t (w_ctr w)) d), mk_emit (Some (spent_meta (Some (made o (nth_id t (w_ctr w)) d)))) true None))
  | Err e => (w, Err e)
  | Crash c => (w, Crash c)
  end.
Proof.
  unfold prepare, future_of, emit_new. cbn [em_meta m_ctx em_stream em_fut]. unfold get_event. cbn [m_event].
  change (mk_meta None _ _ _ _ _ _) with (fresh_meta o). rewrite build_fresh. destruct (o_payload o); reflexivity.
Qed.

Lemma polls_await_spent E i tr wm : polls_await E i (mk_wait None None) tr wm -> Forall unchanged tr /\ map snd tr = repeat (Ready (Err InvalidState)) (length tr).
Proof.
  intros H. remember (mk_wait None None) as em0 eqn:Q. induction H as [|em t w l a w' em' r tr em2 Hp H IH]; [split; [constructor|reflexivity]|].
  subst. cbn in Hp. inversion Hp; subst. destruct (IH eq_refl) as [A B]. split; [constructor; [reflexivity|exact A]|].
  cbn. rewrite B. reflexivity.
Qed.
Lemma failing_await E i o e tr wm : o_payload o = Err e -> polls_await E i (await_reply (future_of o)) tr wm ->
  Forall unchanged tr /\ (tr = [] \/ map snd tr = Ready (Err e) :: repeat (Ready (Err InvalidState)) (length tr - 1)).
Proof.
  intros Ho H. inversion H as [|em0 t w l a w' em' r tr' em2 Hp H']; subst; [split; [constructor|auto]|].
  unfold poll_await, await_reply in Hp. cbn [wm_fut wm_emit] in Hp. rewrite prepare_fresh, Ho in Hp. inversion Hp; subst.
  destruct (polls_await_spent _ _ _ _ H') as [A B].
  split; [constructor; [reflexivity|exact A]|]. right. cbn. rewrite B, Nat.sub_0_r. reflexivity.
Qed.
Lemma polls_open_spent i tr om : polls_open i (mk_open None None) tr om -> Forall unchanged tr /\ map snd tr = repeat (Ready (Err InvalidState)) (length tr).
Proof.
  intros H. remember (mk_open None None) as em0 eqn:Q. induction H as [|em t w l w' em' r tr em2 Hp H IH]; [split; [constructor|reflexivity]|].
  subst. cbn in Hp. inversion Hp; subst. destruct (IH eq_refl) as [A B]. split; [constructor; [reflexivity|exact A]|].
  cbn. rewrite B. reflexivity.
Qed.
Lemma failing_open i o e tr om : o_payload o = Err e -> polls_open i (stream_replies (future_of o)) tr om ->
  Forall unchanged tr /\ (tr = [] \/ map snd tr = Ready (Err e) :: repeat (Ready (Err InvalidState)) (length tr - 1)).
Proof.
  intros Ho H. inversion H as [|em0 t w l w' em' r tr' em2 Hp H']; subst; [split; [constructor|auto]|].
  unfold poll_open, stream_replies in Hp. cbn [om_fut om_emit] in Hp. rewrite prepare_fresh, Ho in Hp. inversion Hp; subst.
  destruct (polls_open_spent _ _ _ H') as [A B].
  split; [constructor; [reflexivity|exact A]|]. right. cbn. rewrite B, Nat.sub_0_r. reflexivity.
Qed.

(** ** Sending: what a future whose event [e] (encoded as [enc]) exists does from poll to poll *)
Section Send.
  Context (e : event) (enc : bytes) (Henc : into_bytes e = Ok enc).

  (** [b]: the bytes it has written so far *)
  Inductive sending (b : bytes) : emit_metadata -> Prop :=
  | se_ready : b = [] -> sending b (mk_emit (Some (spent_meta (Some e))) true None)
  | se_lock : b = [] -> sending b (running (FLock (ev_id e) enc))
  | se_write rest : enc = b ++ rest -> sending b (running (FWrite (ev_id e) b rest))
  | se_flush : enc = b -> sending b (running (FFlush (ev_id e) b))
  | se_done more : enc = b ++ more -> sending b (running FDone).

  Definition quiet (w w' : world) : Prop := w_lis w' = w_lis w /\ w_chans w' = w_chans w /\ w_ctr w' = w_ctr w.

  Lemma outcome_sending w b rest w' f r : enc = b ++ rest -> wrote_outcome w (ev_id e) b rest w' f r ->
    exists b1, w_out w' = w_out w ++ b1 /\ quiet w w' /\ sending (b ++ b1) (running f) /\ (forall id, r = Ready (Ok id) -> id = ev_id e /\ b ++ b1 = enc).
  Proof.
    intros He Hw. inversion Hw; subst.
    - exists b0. split; [reflexivity|]. split; [repeat split|]. split; [apply se_write; rewrite <- app_assoc; exact He|intros id X; discriminate].
    - exists rest. split; [reflexivity|]. split; [repeat split|]. split; [apply se_flush; exact He|intros id X; discriminate].
    - exists rest. split; [reflexivity|]. split; [repeat split|]. split; [apply (se_done _ []); rewrite app_nil_r; exact He|].
      intros id X. inversion X; subst. auto.
    - exists b0. split; [reflexivity|]. split; [repeat split|]. split; [apply (se_done _ rest'); rewrite <- app_assoc; exact He|intros id X; discriminate].
  Qed.
  Lemma lock_sending i w l w' f r : poll_lock i w (ev_id e) enc l = (w', f, r) ->
    exists b1, w_out w' = w_out w ++ b1 /\ quiet w w' /\ sending b1 (running f) /\ (forall id, r = Ready (Ok id) -> id = ev_id e /\ b1 = enc).
  Proof.
    unfold poll_lock. destruct (w_lock w) as [j|].
    - intros H. inversion H; subst. exists []. rewrite app_nil_r. split; [reflexivity|]. split; [repeat split|].
      split; [apply se_lock; reflexivity|intros id X; discriminate].
    - intros H. apply write_all_outcome in H. destruct (outcome_sending _ [] enc _ _ _ eq_refl H) as (b1 & A & B & C & D). exists b1. auto.
  Qed.
  Lemma poll_sending_step i t w em l w' em' r b : sending b em -> poll_emit i t w em l = (w', em', r) ->
    exists b1, w_out w' = w_out w ++ b1 /\ quiet w w' /\ sending (b ++ b1) em' /\ (forall id, r = Ready (Ok id) -> id = ev_id e /\ b ++ b1 = enc).
  Proof.
    intros Hs H. inversion Hs; subst.
    - cbn [poll_emit em_fut em_meta em_stream take_event spent_meta m_event poll_fut] in H. rewrite Henc in H.
      destruct (poll_lock i w (ev_id e) enc l) as [[w2 f2] r2] eqn:Ef. inversion H; subst. exact (lock_sending _ _ _ _ _ _ Ef).
    - unfold running in H. cbn [poll_emit em_fut em_meta em_stream poll_fut] in H.
      destruct (poll_lock i w (ev_id e) enc l) as [[w2 f2] r2] eqn:Ef. inversion H; subst. exact (lock_sending _ _ _ _ _ _ Ef).
    - unfold running in H. cbn [poll_emit em_fut em_meta em_stream poll_fut] in H.
      destruct (poll_write_all w (ev_id e) b rest l) as [[w2 f2] r2] eqn:Ef. inversion H; subst. apply write_all_outcome in Ef.
      exact (outcome_sending _ _ _ _ _ _ H0 Ef).
    - unfold running in H. cbn [poll_emit em_fut em_meta em_stream poll_fut] in H.
      destruct (poll_flush w (ev_id e) enc l) as [[w2 f2] r2] eqn:Ef. inversion H; subst. apply flush_outcome in Ef.
      refine (outcome_sending _ enc [] _ _ _ _ Ef). rewrite app_nil_r. reflexivity.
    - unfold running in H. cbn [poll_emit em_fut em_meta em_stream poll_fut] in H. inversion H; subst. exists []. rewrite !app_nil_r.
      split; [reflexivity|]. split; [repeat split|]. split; [apply (se_done _ more); exact H0|intros id X; discriminate].
  Qed.
  (** an emit that fails, fails with an error of the connection *)
  Lemma sending_err i t w em l w' em' er b : sending b em -> poll_emit i t w em l = (w', em', Ready (Err er)) -> forall d, er <> ErrorEvent d.
  Proof.
    assert (Q : forall w x y w' f, wrote_outcome w (ev_id e) x y w' f (Ready (Err er)) -> forall d, er <> ErrorEvent d) by (intros w0 x y w0' f Hw; inversion Hw; subst; congruence).
    assert (K : forall w f, poll_lock i w (ev_id e) enc l = (w', f, Ready (Err er)) -> forall d, er <> ErrorEvent d).
    { intros w0 f. unfold poll_lock. destruct (w_lock w0); [discriminate|]. intros X. exact (Q _ _ _ _ _ (write_all_outcome _ _ _ _ _ _ _ _ X)). }
    intros Hs H. inversion Hs; subst; unfold running in H; cbn [poll_emit em_fut em_meta em_stream take_event spent_meta m_event poll_fut] in H.
    - rewrite Henc in H. destruct (poll_lock i w (ev_id e) enc l) as [[w2 f2] r2] eqn:Ef. inversion H; subst. exact (K _ _ Ef).
    - destruct (poll_lock i w (ev_id e) enc l) as [[w2 f2] r2] eqn:Ef. inversion H; subst. exact (K _ _ Ef).
    - destruct (poll_write_all w (ev_id e) b rest l) as [[w2 f2] r2] eqn:Ef. inversion H; subst. exact (Q _ _ _ _ _ (write_all_outcome _ _ _ _ _ _ _ _ Ef)).
    - destruct (poll_flush w (ev_id e) enc l) as [[w2 f2] r2] eqn:Ef. inversion H; subst. exact (Q _ _ _ _ _ (flush_outcome _ _ _ _ _ _ _ Ef)).
    - inversion H.
  Qed.
  Lemma sending_prefix b em : sending b em -> exists more, enc = b ++ more.
  Proof. intros H. inversion H; subst; eauto; [exists enc; reflexivity|exists enc; reflexivity|exists []; rewrite app_nil_r; reflexivity]. Qed.

  Lemma sending_polls i tr : forall em em2 b, sending b em -> polls_emit i em tr em2 ->
    exists b2, wrote_all tr b2 /\ sending (b ++ b2) em2 /\ created tr = 0 /\ Forall same_listeners tr
      /\ (forall w w' id, In (w, w', Ready (Ok id)) tr -> id = ev_id e /\ b ++ b2 = enc).
  Proof.
    induction tr as [|x tr IH]; intros em em2 b Hs H; inversion H as [|em0 t w l w' em' r tr' em3 Hp H']; subst.
    - exists []. rewrite app_nil_r. repeat split; auto; try constructor; contradiction.
    - destruct (poll_sending_step _ _ _ _ _ _ _ _ _ Hs Hp) as (b1 & A1 & (L1 & L2 & L3) & A3 & A4).
      destruct (IH _ _ _ A3 H') as (b2 & B1 & B2 & B3 & B4 & B5). exists (b1 ++ b2). rewrite app_assoc.
      split; [exists b1, b2; auto|]. split; [exact B2|]. split; [cbn; rewrite B3, L3; lia|]. split; [constructor; [split; assumption|exact B4]|].
      intros w0 w0' id [X|X]; [|exact (B5 _ _ _ X)]. inversion X; subst. destruct (A4 id eq_refl) as [P Q]. split; [exact P|].
      destruct (sending_prefix _ _ B2) as [more Hm]. rewrite Q in Hm |- *. rewrite <- (app_nil_r enc) in Hm at 1. rewrite <- app_assoc in Hm.
      apply app_inv_head in Hm. symmetry in Hm. apply app_eq_nil in Hm. destruct Hm as [-> _]. apply app_nil_r.
  Qed.
End Send.

Lemma emits_once i o d tr em : o_payload o = Ok d -> polls_emit i (future_of o) tr em -> tr <> [] ->
  exists e b more, event_of o e /\ into_bytes e = Ok (b ++ more) /\ wrote_all tr b /\ created tr = 1 /\ Forall same_listeners tr
    /\ (exists t w w' r tr', tr = (w, w', r) :: tr' /\ ev_id e = nth_id t (w_ctr w))
    /\ (forall w w' id, In (w, w', Ready (Ok id)) tr -> id = ev_id e /\ more = []).
Proof.
  intros Ho H Hn. inversion H as [|em0 t w l w' em' r tr' em2 Hp H']; subst; [congruence|].
  rewrite poll_fresh, Ho in Hp. cbv zeta in Hp. set (e := made o (nth_id t (w_ctr w)) d) in *.
  destruct (made_event o (nth_id t (w_ctr w)) d Ho) as [E1 E2]. fold e in E1, E2. clearbody e.
  destruct (into_bytes_total e) as [enc Henc]. cbn [poll_fut] in Hp. rewrite Henc in Hp.
  destruct (poll_lock i (bump w) (ev_id e) enc l) as [[w2 f2] r2] eqn:Ef. inversion Hp; subst. clear Hp.
  destruct (lock_sending e enc Henc i _ l _ _ _ Ef) as (b1 & A1 & (L1 & L2 & L3) & A3 & A4).
  destruct (sending_polls e enc Henc i tr' _ _ _ A3 H') as (b2 & B1 & B2 & B3 & B4 & B5).
  destruct (sending_prefix e enc _ _ B2) as [more Hm].
  exists e, (b1 ++ b2), more. split; [exact E1|]. split; [rewrite <- Hm; exact Henc|]. split; [exists b1, b2; auto|].
  split; [cbn; rewrite B3, L3; cbn; lia|]. split; [constructor; [split; assumption|exact B4]|].
  split; [exists t, w, w', r, tr'; auto|].
  assert (F : b1 ++ b2 = enc -> more = []).
  { intros X. rewrite X in Hm. rewrite <- (app_nil_r enc) in Hm at 1. apply app_inv_head in Hm. auto. }
  intros w0 w0' id [X|X].
  - assert (Hr : r = Ready (Ok id)) by congruence. destruct (A4 id Hr) as [P Q]. split; [exact P|]. rewrite Q, <- app_assoc in Hm.
    rewrite <- (app_nil_r enc) in Hm at 1. apply app_inv_head in Hm. symmetry in Hm. apply app_eq_nil in Hm. tauto.
  - destruct (B5 _ _ _ X) as [P Q]. auto.
Qed.

(** ** await_reply *)
Section Await.
  Context (E : env) (e : event) (enc : bytes) (Henc : into_bytes e = Ok enc).
  Let id := ev_id e.
  Inductive awaiting (b : bytes) : wait_metadata -> Prop :=
  | aw_sending ch em : sending e enc b em -> awaiting b (mk_wait None (Some (WSending id ch em)))
  | aw_recv ch : b = enc -> awaiting b (mk_wait None (Some (WRecv id ch)))
  | aw_done more : enc = b ++ more -> awaiting b (mk_wait None (Some WDone)).
  Definition only (w w' : world) : Prop := forall k, k <> id -> lookup N.eqb k (w_lis w') = lookup N.eqb k (w_lis w).

  Lemma recv_awaiting w ch a w' f r : poll_recv E w id ch a = (w', f, r) ->
    w_out w' = w_out w /\ w_ctr w' = w_ctr w /\ only w w' /\ awaiting enc (mk_wait None (Some f))
    /\ (forall x, r = Ready (Ok x) -> lookup N.eqb id (w_lis w') = None)
    /\ (r = Waiting -> w' = w).
  Proof.
    assert (Z : enc = enc ++ []) by (rewrite app_nil_r; reflexivity).
    assert (O : only w w) by (intros k _; reflexivity).
    intros H. destruct a; cbn in H; inversion H; subst.
    - split; [reflexivity|]. split; [reflexivity|]. split; [exact O|]. split; [apply aw_recv; reflexivity|]. split; [intros; discriminate|reflexivity].
    - split; [reflexivity|]. split; [reflexivity|]. split.
      { intros k Hk. cbn. rewrite lookup_Neqb_remove_ne by congruence. reflexivity. }
      split; [apply (aw_done _ []); exact Z|]. split; [intros x _; cbn; apply lookup_Neqb_remove_eq|discriminate].
    - split; [reflexivity|]. split; [reflexivity|]. split; [exact O|]. split; [apply (aw_done _ []); exact Z|]. split; intros; discriminate.
    - split; [reflexivity|]. split; [reflexivity|]. split; [exact O|]. split; [apply (aw_done _ []); exact Z|]. split; intros; discriminate.
  Qed.
  Lemma sending_awaiting i t w ch em l a w' f r b : sending e enc b em -> poll_sending E i t w id ch em l a = (w', f, r) ->
    exists b1, w_out w' = w_out w ++ b1 /\ w_ctr w' = w_ctr w /\ only w w' /\ awaiting (b ++ b1) (mk_wait None (Some f))
      /\ (forall x, r = Ready (Ok x) -> lookup N.eqb id (w_lis w') = None /\ b ++ b1 = enc)
      /\ (r = Waiting -> w_lis w' = w_lis w /\ w_chans w' = w_chans w).
  Proof.
    intros Hs H. unfold poll_sending in H. destruct (poll_emit i t w em l) as [[w1 em1] r1] eqn:Ep.
    destruct (poll_sending_step e enc Henc _ _ _ _ _ _ _ _ _ Hs Ep) as (b1 & A1 & (L1 & L2 & L3) & A3 & A4). exists b1.
    assert (O : only w w1) by (intros k _; rewrite L1; reflexivity).
    assert (O2 : forall f0, f0 = WDone -> awaiting (b ++ b1) (mk_wait None (Some f0))).
    { intros f0 ->. destruct (sending_prefix e enc _ _ A3) as [more Hm]. apply (aw_done _ more). exact Hm. }
    destruct r1 as [|[id'|er|c]].
    - inversion H; subst. split; [exact A1|]. split; [exact L3|]. split; [exact O|]. split; [apply aw_sending; exact A3|]. split; [intros; discriminate|auto].
    - destruct (A4 id' eq_refl) as [_ Q]. destruct (recv_awaiting _ _ _ _ _ _ H) as (R1 & R2 & R3 & R4 & R5 & R6).
      rewrite Q. split; [congruence|]. split; [congruence|]. split; [intros k Hk; rewrite (R3 k Hk), L1; reflexivity|].
      split; [exact R4|]. split; [intros x Hx; split; [exact (R5 x Hx)|reflexivity]|]. intros Hx. rewrite (R6 Hx). auto.
    - inversion H; subst. split; [exact A1|]. split; [exact L3|]. split; [exact O|]. split; [apply O2; reflexivity|]. split; intros; discriminate.
    - inversion H; subst. split; [exact A1|]. split; [exact L3|]. split; [exact O|]. split; [apply O2; reflexivity|]. split; intros; discriminate.
  Qed.
  Lemma awaiting_step i t w wm l a w' wm' r b : awaiting b wm -> poll_await E i t w wm l a = (w', wm', r) ->
    exists b1, w_out w' = w_out w ++ b1 /\ w_ctr w' = w_ctr w /\ only w w' /\ awaiting (b ++ b1) wm'
      /\ (forall x, r = Ready (Ok x) -> lookup N.eqb id (w_lis w') = None /\ b ++ b1 = enc).
  Proof.
    intros Hs H. unfold poll_await in H. inversion Hs; subst; cbn [wm_fut wm_emit poll_wait_fut] in H.
    - destruct (poll_sending E i t w id ch em l a) as [[w2 f2] r2] eqn:Ep. inversion H; subst.
      destruct (sending_awaiting _ _ _ _ _ _ _ _ _ _ _ H0 Ep) as (b1 & B). exists b1. tauto.
    - destruct (poll_recv E w id ch a) as [[w2 f2] r2] eqn:Ep. inversion H; subst. exists []. rewrite !app_nil_r.
      destruct (recv_awaiting _ _ _ _ _ _ Ep) as (R1 & R2 & R3 & R4 & R5 & R6). split; [exact R1|]. split; [exact R2|]. split; [exact R3|]. split; [exact R4|].
      intros x Hx. split; [exact (R5 x Hx)|reflexivity].
    - inversion H; subst. exists []. rewrite !app_nil_r. split; [reflexivity|]. split; [reflexivity|]. split; [intros k _; reflexivity|].
      split; [apply (aw_done _ more); assumption|intros; discriminate].
  Qed.
  (** an Error reply: the listener is removed too *)
  Lemma sending_error i t w ch em l a w' f d b : sending e enc b em -> poll_sending E i t w id ch em l a = (w', f, Ready (Err (ErrorEvent d))) -> lookup N.eqb id (w_lis w') = None.
  Proof.
    intros Hs H. unfold poll_sending in H. destruct (poll_emit i t w em l) as [[w1 em1] r1] eqn:Ep. destruct r1 as [|[id'|er|c]].
    - discriminate.
    - destruct a; cbn in H; inversion H; subst; cbn; apply lookup_Neqb_remove_eq.
    - inversion H; subst. exfalso. exact (sending_err e enc Henc _ _ _ _ _ _ _ _ _ Hs Ep d eq_refl).
    - discriminate.
  Qed.
  Lemma awaiting_error i t w wm l a w' wm' d b : awaiting b wm -> poll_await E i t w wm l a = (w', wm', Ready (Err (ErrorEvent d))) -> lookup N.eqb id (w_lis w') = None.
  Proof.
    intros Hs H. unfold poll_await in H. inversion Hs; subst; cbn [wm_fut wm_emit poll_wait_fut] in H.
    - destruct (poll_sending E i t w id ch em l a) as [[w2 f2] r2] eqn:Ep. inversion H; subst. exact (sending_error _ _ _ _ _ _ _ _ _ _ _ H0 Ep).
    - destruct a; cbn in H; inversion H; subst; cbn; apply lookup_Neqb_remove_eq.
    - inversion H.
  Qed.
  Lemma awaiting_errors i tr : forall wm wm2 b, awaiting b wm -> polls_await E i wm tr wm2 ->
    forall w w' d, In (w, w', Ready (Err (ErrorEvent d))) tr -> lookup N.eqb id (w_lis w') = None.
  Proof.
    induction tr as [|x tr IH]; intros em em2 b Hs H w0 w0' d I; [contradiction|]. inversion H as [|em0 t w l a w' em' r tr' em3 Hp H']; subst.
    destruct I as [I|I].
    - inversion I; subst. exact (awaiting_error _ _ _ _ _ _ _ _ _ _ Hs Hp).
    - destruct (awaiting_step _ _ _ _ _ _ _ _ _ _ Hs Hp) as (b1 & _ & _ & _ & A3 & _). exact (IH _ _ _ A3 H' _ _ _ I).
  Qed.
  Lemma awaiting_prefix b wm : awaiting b wm -> exists more, enc = b ++ more.
  Proof. intros H. inversion H; subst; eauto; [eapply sending_prefix; eassumption|exists []; rewrite app_nil_r; reflexivity]. Qed.
  Lemma awaiting_polls i tr : forall wm wm2 b, awaiting b wm -> polls_await E i wm tr wm2 ->
    exists b2, wrote_all tr b2 /\ awaiting (b ++ b2) wm2 /\ created tr = 0 /\ Forall (listens_only id) tr
      /\ (forall w w' x, In (w, w', Ready (Ok x)) tr -> lookup N.eqb id (w_lis w') = None /\ b ++ b2 = enc).
  Proof.
    induction tr as [|x tr IH]; intros em em2 b Hs H; inversion H as [|em0 t w l a w' em' r tr' em3 Hp H']; subst.
    - exists []. rewrite app_nil_r. repeat split; auto; try constructor; contradiction.
    - destruct (awaiting_step _ _ _ _ _ _ _ _ _ _ Hs Hp) as (b1 & A1 & L3 & L1 & A3 & A4).
      destruct (IH _ _ _ A3 H') as (b2 & B1 & B2 & B3 & B4 & B5). exists (b1 ++ b2). rewrite app_assoc.
      split; [exists b1, b2; auto|]. split; [exact B2|]. split; [cbn; rewrite B3, L3; lia|]. split; [constructor; [exact L1|exact B4]|].
      intros w0 w0' y [X|X]; [|exact (B5 _ _ _ X)]. inversion X; subst. destruct (A4 y eq_refl) as [P Q]. split; [exact P|].
      destruct (awaiting_prefix _ _ B2) as [more Hm]. rewrite Q in Hm |- *. rewrite <- (app_nil_r enc) in Hm at 1. rewrite <- app_assoc in Hm.
      apply app_inv_head in Hm. symmetry in Hm. apply app_eq_nil in Hm. destruct Hm as [-> _]. apply app_nil_r.
  Qed.
End Await.

Lemma awaits_once E i o d w w' r tr wm : o_payload o = Ok d -> polls_await E i (await_reply (future_of o)) ((w, w', r) :: tr) wm ->
  exists e b more t, event_of o e /\ ev_id e = nth_id t (w_ctr w)
    /\ into_bytes e = Ok (b ++ more) /\ wrote_all ((w, w', r) :: tr) b /\ created ((w, w', r) :: tr) = 1
    /\ Forall (listens_only (ev_id e)) ((w, w', r) :: tr)
    /\ (r = Waiting -> lookup N.eqb (ev_id e) (w_lis w') = Some (w_chans w) /\ w_chans w' = S (w_chans w))
    /\ (forall u u' x, In (u, u', Ready (Ok x)) ((w, w', r) :: tr) -> lookup N.eqb (ev_id e) (w_lis u') = None /\ more = []).
Proof.
  intros Ho H. inversion H as [|em0 t w1 l a w1' em' r1 tr' em2 Hp H' X1 X2 X3]; subst.
  unfold poll_await, await_reply in Hp. cbn [wm_fut wm_emit] in Hp. rewrite prepare_fresh, Ho in Hp.
  set (e := made o (nth_id t (w_ctr w)) d) in *. destruct (made_event o (nth_id t (w_ctr w)) d Ho) as [E1 E2]. fold e in E1, E2. clearbody e.
  destruct (into_bytes_total e) as [enc Henc]. cbn [poll_wait_fut] in Hp. unfold register_reply_listener in Hp.
  set (w1 := mk_world _ _ _ _ _) in Hp.
  destruct (poll_sending E i t w1 (ev_id e) (w_chans (bump w)) (mk_emit (Some (spent_meta (Some e))) true None) l a) as [[w2 f2] r2] eqn:Ep.
  inversion Hp; subst. clear Hp.
  assert (S0 : sending e enc [] (mk_emit (Some (spent_meta (Some e))) true None)) by (apply se_ready; reflexivity).
  destruct (sending_awaiting E e enc Henc _ _ _ _ _ _ _ _ _ _ _ S0 Ep) as (b1 & A1 & L3 & L1 & A3 & A4 & A5). cbn [app] in *.
  destruct (awaiting_polls E e enc Henc i tr _ _ _ A3 H') as (b2 & B1 & B2 & B3 & B4 & B5).
  destruct (awaiting_prefix e enc _ _ B2) as [more Hm].
  exists e, (b1 ++ b2), more, t. split; [exact E1|]. split; [exact E2|]. split; [rewrite <- Hm; exact Henc|]. split; [exists b1, b2; auto|].
  split; [cbn; rewrite B3, L3; cbn; lia|]. split; [constructor; [|exact B4]|].
  { intros k Hk. rewrite (L1 k Hk). cbn. apply lookup_Neqb_insert_ne. congruence. }
  split.
  { intros Hr. destruct (A5 Hr) as [P Q]. rewrite P, Q. cbn. split; [apply lookup_Neqb_insert_eq|reflexivity]. }
  intros u u' x [X|X].
  - assert (Hr : r = Ready (Ok x)) by congruence. assert (u' = w') as -> by congruence. destruct (A4 x Hr) as [P Q]. split; [exact P|]. rewrite Q, <- app_assoc in Hm.
    rewrite <- (app_nil_r enc) in Hm at 1. apply app_inv_head in Hm. symmetry in Hm. apply app_eq_nil in Hm. tauto.
  - destruct (B5 _ _ _ X) as [P Q]. split; [exact P|]. rewrite Q in Hm. rewrite <- (app_nil_r enc) in Hm at 1. apply app_inv_head in Hm. auto.
Qed.

Lemma error_unlistens E i o d w w' r tr wm : o_payload o = Ok d -> polls_await E i (await_reply (future_of o)) ((w, w', r) :: tr) wm ->
  exists t, forall u u' d, In (u, u', Ready (Err (ErrorEvent d))) ((w, w', r) :: tr) -> lookup N.eqb (nth_id t (w_ctr w)) (w_lis u') = None.
Proof.
  intros Ho H. inversion H as [|em0 t w1 l a w1' em' r1 tr' em2 Hp H' X1 X2 X3]; subst. exists t.
  unfold poll_await, await_reply in Hp. cbn [wm_fut wm_emit] in Hp. rewrite prepare_fresh, Ho in Hp.
  set (e := made o (nth_id t (w_ctr w)) d) in *. destruct (made_event o (nth_id t (w_ctr w)) d Ho) as [E1 E2]. fold e in E1, E2. clearbody e.
  destruct (into_bytes_total e) as [enc Henc]. cbn [poll_wait_fut] in Hp. unfold register_reply_listener in Hp.
  set (w1 := mk_world _ _ _ _ _) in Hp.
  destruct (poll_sending E i t w1 (ev_id e) (w_chans (bump w)) (mk_emit (Some (spent_meta (Some e))) true None) l a) as [[w2 f2] r2] eqn:Ep.
  inversion Hp; subst. clear Hp.
  assert (S0 : sending e enc [] (mk_emit (Some (spent_meta (Some e))) true None)) by (apply se_ready; reflexivity).
  rewrite <- E2. intros u u' d0 [X|X].
  - assert (Hr : r = Ready (Err (ErrorEvent d0))) by congruence. assert (u' = w') as -> by congruence. rewrite Hr in Ep. exact (sending_error E e enc Henc _ _ _ _ _ _ _ _ _ _ _ S0 Ep).
  - destruct (sending_awaiting E e enc Henc _ _ _ _ _ _ _ _ _ _ _ S0 Ep) as (b1 & _ & _ & _ & A3 & _). exact (awaiting_errors E e enc Henc i tr _ _ _ A3 H' _ _ _ X).
Qed.

(** ** stream_replies *)
Section Open.
  Context (e : event) (enc : bytes) (Henc : into_bytes e = Ok enc).
  Let id := ev_id e.
  Inductive opening (b : bytes) : open_metadata -> Prop :=
  | op_sending ch em : sending e enc b em -> opening b (mk_open None (Some (OSending id ch em)))
  | op_done more : enc = b ++ more -> opening b (mk_open None (Some ODone)).
  Lemma sending_opening i t w ch em l w' f r b : sending e enc b em -> open_sending i t w id ch em l = (w', f, r) ->
    exists b1, w_out w' = w_out w ++ b1 /\ quiet w w' /\ opening (b ++ b1) (mk_open None (Some f))
      /\ (forall x, r = Ready (Ok x) -> x = mk_stream id ch true None /\ b ++ b1 = enc).
  Proof.
    intros Hs H. unfold open_sending in H. destruct (poll_emit i t w em l) as [[w1 em1] r1] eqn:Ep.
    destruct (poll_sending_step e enc Henc _ _ _ _ _ _ _ _ _ Hs Ep) as (b1 & A1 & A2 & A3 & A4). exists b1.
    destruct (sending_prefix e enc _ _ A3) as [more Hm].
    destruct r1 as [|[id'|er|c]]; inversion H; subst; (split; [exact A1|]; split; [exact A2|]; split; [first [apply op_sending; exact A3|apply (op_done _ more); exact Hm]|]);
      intros x Hx; inversion Hx; subst. destruct (A4 id' eq_refl). auto.
  Qed.
  Lemma opening_prefix b wm : opening b wm -> exists more, enc = b ++ more.
  Proof. intros H. inversion H; subst; eauto; eapply sending_prefix; eassumption. Qed.
  Lemma opening_step i t w wm l w' wm' r b : opening b wm -> poll_open i t w wm l = (w', wm', r) ->
    exists b1, w_out w' = w_out w ++ b1 /\ quiet w w' /\ opening (b ++ b1) wm'
      /\ (forall x, r = Ready (Ok x) -> rs_id x = id /\ b ++ b1 = enc).
  Proof.
    intros Hs H. unfold poll_open in H. inversion Hs; subst; cbn [om_fut om_emit poll_open_fut] in H.
    - destruct (open_sending i t w id ch em l) as [[w2 f2] r2] eqn:Ep. inversion H; subst.
      destruct (sending_opening _ _ _ _ _ _ _ _ _ _ H0 Ep) as (b1 & B1 & B2 & B3 & B4). exists b1.
      split; [exact B1|]. split; [exact B2|]. split; [exact B3|]. intros x Hx. destruct (B4 x Hx) as [-> ?]; auto.
    - inversion H; subst. exists []. rewrite !app_nil_r. split; [reflexivity|]. split; [repeat split|].
      split; [apply (op_done _ more); assumption|intros; discriminate].
  Qed.
  Lemma opening_polls i tr : forall wm wm2 b, opening b wm -> polls_open i wm tr wm2 ->
    exists b2, wrote_all tr b2 /\ opening (b ++ b2) wm2 /\ created tr = 0 /\ Forall same_listeners tr
      /\ (forall w w' x, In (w, w', Ready (Ok x)) tr -> rs_id x = id /\ b ++ b2 = enc).
  Proof.
    induction tr as [|x tr IH]; intros em em2 b Hs H; inversion H as [|em0 t w l w' em' r tr' em3 Hp H']; subst.
    - exists []. rewrite app_nil_r. repeat split; auto; try constructor; contradiction.
    - destruct (opening_step _ _ _ _ _ _ _ _ _ Hs Hp) as (b1 & A1 & (L1 & L2 & L3) & A3 & A4).
      destruct (IH _ _ _ A3 H') as (b2 & B1 & B2 & B3 & B4 & B5). exists (b1 ++ b2). rewrite app_assoc.
      split; [exists b1, b2; auto|]. split; [exact B2|]. split; [cbn; rewrite B3, L3; lia|]. split; [constructor; [split; assumption|exact B4]|].
      intros w0 w0' y [X|X]; [|exact (B5 _ _ _ X)]. inversion X; subst. destruct (A4 y eq_refl) as [P Q]. split; [exact P|].
      destruct (opening_prefix _ _ B2) as [more Hm]. rewrite Q in Hm |- *. rewrite <- (app_nil_r enc) in Hm at 1. rewrite <- app_assoc in Hm.
      apply app_inv_head in Hm. symmetry in Hm. apply app_eq_nil in Hm. destruct Hm as [-> _]. apply app_nil_r.
  Qed.
End Open.

Lemma opens_once i o d w w' r tr om : o_payload o = Ok d -> polls_open i (stream_replies (future_of o)) ((w, w', r) :: tr) om ->
  exists e b more t, event_of o e /\ ev_id e = nth_id t (w_ctr w)
    /\ into_bytes e = Ok (b ++ more) /\ wrote_all ((w, w', r) :: tr) b /\ created ((w, w', r) :: tr) = 1
    /\ lookup N.eqb (ev_id e) (w_lis w') = Some (w_chans w) /\ w_chans w' = S (w_chans w)
    /\ Forall (listens_only (ev_id e)) ((w, w', r) :: tr) /\ Forall same_listeners tr
    /\ (forall u u' x, In (u, u', Ready (Ok x)) ((w, w', r) :: tr) -> rs_id x = ev_id e /\ more = []).
Proof.
  intros Ho H. inversion H as [|em0 t w1 l w1' em' r1 tr' em2 Hp H' X1 X2 X3]; subst.
  unfold poll_open, stream_replies in Hp. cbn [om_fut om_emit] in Hp. rewrite prepare_fresh, Ho in Hp.
  set (e := made o (nth_id t (w_ctr w)) d) in *. destruct (made_event o (nth_id t (w_ctr w)) d Ho) as [E1 E2]. fold e in E1, E2. clearbody e.
  destruct (into_bytes_total e) as [enc Henc]. cbn [poll_open_fut] in Hp. unfold register_reply_listener in Hp.
  set (w1 := mk_world _ _ _ _ _) in Hp.
  destruct (open_sending i t w1 (ev_id e) (w_chans (bump w)) (mk_emit (Some (spent_meta (Some e))) true None) l) as [[w2 f2] r2] eqn:Ep.
  inversion Hp; subst. clear Hp.
  assert (S0 : sending e enc [] (mk_emit (Some (spent_meta (Some e))) true None)) by (apply se_ready; reflexivity).
  destruct (sending_opening e enc Henc _ _ _ _ _ _ _ _ _ _ S0 Ep) as (b1 & A1 & (L1 & L2 & L3) & A3 & A4). cbn [app] in *.
  destruct (opening_polls e enc Henc i tr _ _ _ A3 H') as (b2 & B1 & B2 & B3 & B4 & B5).
  destruct (opening_prefix e enc _ _ B2) as [more Hm].
  exists e, (b1 ++ b2), more, t. split; [exact E1|]. split; [exact E2|]. split; [rewrite <- Hm; exact Henc|]. split; [exists b1, b2; auto|].
  split; [cbn; rewrite B3, L3; cbn; lia|]. split; [rewrite L1; cbn; apply lookup_Neqb_insert_eq|]. split; [rewrite L2; reflexivity|].
  split; [constructor|].
  { intros k Hk. rewrite L1. cbn. apply lookup_Neqb_insert_ne. congruence. }
  { apply Forall_forall. intros [[u u'] y] Hin. rewrite Forall_forall in B4. destruct (B4 _ Hin) as [P _]. intros k _. rewrite P. reflexivity. }
  split; [exact B4|].
  intros u u' x [X|X].
  - assert (Hr : r = Ready (Ok x)) by congruence. destruct (A4 x Hr) as [-> Q]. split; [reflexivity|]. rewrite Q, <- app_assoc in Hm.
    rewrite <- (app_nil_r enc) in Hm at 1. apply app_inv_head in Hm. symmetry in Hm. apply app_eq_nil in Hm. tauto.
  - destruct (B5 _ _ _ X) as [P Q]. split; [exact P|]. rewrite Q in Hm. rewrite <- (app_nil_r enc) in Hm at 1. apply app_inv_head in Hm. auto.
Qed.

(** ** Cut events *)
Lemma cut_swallows E e cut lost m1 m2 : rust_event e -> enough_mem E e -> fits e -> normal e ->
  into_bytes e = Ok (cut ++ lost) -> 10 + header_size (ev_header e) <= blen cut -> blen m1 = blen lost ->
  exists d, ev_data e = d ++ lost /\ decode E (cut ++ m1 ++ m2) = Ok (mk_event (ev_header e) (d ++ m1), m2).
Proof.
  intros Hr Hm Hf Hn He Hc Hl.
  assert (S : exists d, cut = (be 8 (blen (header_into_bytes (ev_header e)) mod U16 + blen (ev_data e)) ++ be 2 (blen (header_into_bytes (ev_header e)) mod U16) ++ header_into_bytes (ev_header e)) ++ d /\ ev_data e = d ++ lost).
  { unfold into_bytes in He. assert (Q : forall A (x y : A), Ok x = Ok y -> x = y) by congruence. apply Q in He. clear Q.
    set (pre := be 8 _ ++ be 2 _ ++ header_into_bytes (ev_header e)) in *.
    assert (P : pre ++ ev_data e = cut ++ lost) by (unfold pre; rewrite <- !app_assoc; exact He).
    assert (L : blen pre = 10 + header_size (ev_header e)).
    { unfold pre. rewrite !blen_app, !blen_be, blen_header. lia. }
    clearbody pre. exists (skipn (length pre) cut).
    assert (L2 : (length pre <= length cut)%nat) by (unfold blen in *; lia).
    pose proof (f_equal (firstn (length pre)) P) as F1. pose proof (f_equal (skipn (length pre)) P) as F2.
    rewrite firstn_app, firstn_all, Nat.sub_diag, firstn_O, app_nil_r, firstn_app in F1.
    replace (length pre - length cut)%nat with O in F1 by lia. rewrite firstn_O, app_nil_r in F1.
    rewrite skipn_app, skipn_all, Nat.sub_diag, skipn_app in F2. replace (length pre - length cut)%nat with O in F2 by lia.
    split; [|exact F2]. transitivity (firstn (length pre) cut ++ skipn (length pre) cut); [symmetry; apply firstn_skipn|]. rewrite <- F1. reflexivity. }
  destruct S as (d & Hcut & Hd). exists d. split; [exact Hd|].
  set (e' := mk_event (ev_header e) (d ++ m1)).
  assert (Ld : blen (ev_data e') = blen (ev_data e)) by (rewrite Hd; cbn [e' ev_data]; rewrite !blen_app; lia).
  destruct (decode_encoded E e' m2) as (l' & A & B).
  - destruct Hr as [R1 R2]. split; [exact R1|rewrite Ld; exact R2].
  - destruct Hm as [M1 M2]. split; [exact M1|rewrite Ld; exact M2].
  - exact Hf.
  - rewrite drop_normal in B by exact Hn. rewrite <- B. rewrite app_assoc. f_equal. f_equal.
    unfold into_bytes in A. assert (Q : forall A (x y : A), Ok x = Ok y -> x = y) by congruence. apply Q in A. clear Q. rewrite <- A, Ld, Hcut.
    change (ev_header e') with (ev_header e). change (ev_data e') with (d ++ m1). rewrite <- !app_assoc. reflexivity.
Qed.

(** ** Reply streams *)
Lemma stream_ended tr : forall s s2, rs_fut s = None -> rs_free s = false -> polls_next s tr s2 ->
  map snd tr = repeat (Ready (Ok None)) (length tr) /\ Forall (fun x => let '(a, w, w', r) := x in w' = w) tr.
Proof.
  induction tr as [|x tr IH]; intros s s2 H1 H2 H; inversion H as [|s0 w a w' s' r tr' s3 Hp H']; subst; [split; [reflexivity|constructor]|].
  unfold poll_next in Hp. rewrite H1, H2 in Hp. inversion Hp; subst. destruct (IH _ _ H1 H2 H') as [A B].
  split; [cbn; rewrite A; reflexivity|constructor; [reflexivity|exact B]].
Qed.
Lemma stream_poisoned tr : forall s s2, rs_fut s = Some false -> polls_next s tr s2 ->
  map snd tr = repeat (Ready (Crash PanicResumed)) (length tr) /\ Forall (fun x => let '(a, w, w', r) := x in w' = w) tr.
Proof.
  induction tr as [|x tr IH]; intros s s2 H1 H; inversion H as [|s0 w a w' s' r tr' s3 Hp H']; subst; [split; [reflexivity|constructor]|].
  unfold poll_next in Hp. rewrite H1 in Hp. inversion Hp; subst. destruct (IH _ _ H1 H') as [A B].
  split; [cbn; rewrite A; reflexivity|constructor; [reflexivity|exact B]].
Qed.
Definition live (s : response_stream) : Prop := rs_fut s = Some true \/ (rs_fut s = None /\ rs_free s = true).
Lemma live_poll s w a : live s -> poll_next w s a = poll_item w s a.
Proof. unfold poll_next. intros [-> |[-> ->]]; reflexivity. Qed.
Definition stream_answer (x : recv_answer * world * world * polled (option (outcome event))) : recv_answer := fst (fst (fst x)).
Lemma stream_trace tr : forall s s2, live s -> polls_next s tr s2 -> map snd tr = stream_results (map stream_answer tr).
Proof.
  induction tr as [|x tr IH]; intros s s2 Hs H; inversion H as [|s0 w a w' s' r tr' s3 Hp H']; subst; [reflexivity|].
  rewrite (live_poll _ _ _ Hs) in Hp. cbn [map stream_answer snd fst]. destruct a as [|e| |]; cbn [poll_item] in Hp.
  - inversion Hp; subst. cbn [stream_results]. f_equal. refine (IH _ _ _ H'). left. reflexivity.
  - cbn [stream_results]. destruct (ev_type e) eqn:Et; cbn in Hp; inversion Hp; subst; f_equal.
    + refine (IH _ _ _ H'). right. split; reflexivity.
    + refine (IH _ _ _ H'). right. split; reflexivity.
    + rewrite map_length. refine (proj1 (stream_ended tr _ _ _ _ H')); reflexivity.
    + refine (IH _ _ _ H'). right. split; reflexivity.
  - inversion Hp; subst. cbn [stream_results]. f_equal. rewrite map_length. refine (proj1 (stream_ended tr _ _ _ _ H')); reflexivity.
  - inversion Hp; subst. cbn [stream_results]. f_equal. rewrite map_length. refine (proj1 (stream_poisoned tr _ _ _ H')); reflexivity.
Qed.
(** the listener goes exactly when the End event or the end of the channel is reported *)
Lemma stream_worlds tr : forall s s2 id, live s -> rs_id s = id -> polls_next s tr s2 ->
  forall a w w' r, In (a, w, w', r) tr ->
    w' = w \/ (unlistened id w w' /\ (r = Ready (Ok None) \/ exists e, r = Ready (Ok (Some (Ok e))) /\ ev_type e = End)).
Proof.
  induction tr as [|x tr IH]; intros s s2 id Hs Hi H a0 w0 w0' r0 Hin; [contradiction|].
  inversion H as [|s0 w a w' s' r tr' s3 Hp H']; subst. rewrite (live_poll _ _ _ Hs) in Hp.
  assert (U : unlistened (rs_id s) w (remove_reply_listener w (rs_id s))).
  { repeat split. intros k. cbn. destruct (N.eqb_spec k (rs_id s)) as [->|Hk]; [apply lookup_Neqb_remove_eq|apply lookup_Neqb_remove_ne; congruence]. }
  assert (R : forall P : Prop, (In (a0, w0, w0', r0) tr -> P) -> ((a, w, w', r) = (a0, w0, w0', r0) -> P) -> P) by (destruct Hin; auto).
  assert (F : forall t0, Forall (fun x : recv_answer * world * world * polled (option (outcome event)) => let '(a, w, w', r) := x in w' = w) t0 -> In (a0, w0, w0', r0) t0 -> w0' = w0).
  { intros t0 Hf Hi0. rewrite Forall_forall in Hf. exact (Hf _ Hi0). }
  destruct a as [|e| |]; cbn [poll_item] in Hp.
  - inversion Hp; subst. apply R; intros X; [|inversion X; subst; left; reflexivity].
    refine (IH _ _ (rs_id s) _ _ H' _ _ _ _ X); [left; reflexivity|reflexivity].
  - destruct (ev_type e) eqn:Et; cbn in Hp; inversion Hp; subst; (apply R; intros X;
      [|inversion X; subst; first [left; reflexivity|right; split; [exact U|right; eauto]]]);
      try (refine (IH _ _ (rs_id s) _ _ H' _ _ _ _ X); [right; split; reflexivity|reflexivity]).
    left. apply (F tr); [|exact X]. refine (proj2 (stream_ended tr _ _ _ _ H')); reflexivity.
  - inversion Hp; subst. apply R; intros X; [|inversion X; subst; right; split; [exact U|left; reflexivity]].
    left. apply (F tr); [|exact X]. refine (proj2 (stream_ended tr _ _ _ _ H')); reflexivity.
  - inversion Hp; subst. apply R; intros X; [|inversion X; subst; left; reflexivity].
    left. apply (F tr); [|exact X]. refine (proj2 (stream_poisoned tr _ _ _ H')); reflexivity.
Qed.
(** reporting the End event or, first, the end of the channel removes the listener *)
Lemma stream_unlistens tr : forall s s2 id, live s -> rs_id s = id -> polls_next s tr s2 ->
  (forall a w w' e, In (a, w, w', Ready (Ok (Some (Ok e)))) tr -> ev_type e = End -> unlistened id w w')
  /\ (forall a w w', In (a, w, w', Ready (Ok None)) tr -> (forall a w w' e, In (a, w, w', Ready (Ok (Some (Ok e)))) tr -> ev_type e <> End) ->
        exists a w w', In (a, w, w', Ready (Ok None)) tr /\ unlistened id w w').
Proof.
  induction tr as [|x tr IH]; intros s s2 id Hs Hi H; [split; intros; contradiction|].
  inversion H as [|s0 w a w' s' r tr' s3 Hp H']; subst. rewrite (live_poll _ _ _ Hs) in Hp.
  assert (U : unlistened (rs_id s) w (remove_reply_listener w (rs_id s))).
  { repeat split. intros k. cbn. destruct (N.eqb_spec k (rs_id s)) as [->|Hk]; [apply lookup_Neqb_remove_eq|apply lookup_Neqb_remove_ne; congruence]. }
  assert (C : live s' -> rs_id s' = rs_id s -> (forall e, r = Ready (Ok (Some (Ok e))) -> ev_type e <> End) -> r <> Ready (Ok None) ->
    (forall a0 w0 w0' e, In (a0, w0, w0', Ready (Ok (Some (Ok e)))) ((a, w, w', r) :: tr) -> ev_type e = End -> unlistened (rs_id s) w0 w0')
    /\ (forall a0 w0 w0', In (a0, w0, w0', Ready (Ok None)) ((a, w, w', r) :: tr) -> (forall a1 w1 w1' e, In (a1, w1, w1', Ready (Ok (Some (Ok e)))) ((a, w, w', r) :: tr) -> ev_type e <> End) ->
        exists a1 w1 w1', In (a1, w1, w1', Ready (Ok None)) ((a, w, w', r) :: tr) /\ unlistened (rs_id s) w1 w1')).
  { intros L Q N1 N2. destruct (IH _ _ (rs_id s) L Q H') as [I1 I2]. split.
    - intros a0 w0 w0' e [X|X] T; [inversion X; subst; exfalso; exact (N1 e eq_refl T) | exact (I1 _ _ _ _ X T)].
    - intros a0 w0 w0' [X|X] N; [inversion X; subst; congruence|]. destruct (I2 _ _ _ X) as (a1 & w1 & w1' & Y & Z); [intros; eapply N; right; eassumption|]. exists a1, w1, w1'. split; [right; exact Y | exact Z]. }
  assert (D : (exists r1, map snd tr = repeat r1 (length tr) /\ r1 <> Ready (Ok None) /\ forall e, r1 <> Ready (Ok (Some (Ok e)))) \/ map snd tr = repeat (Ready (Ok None)) (length tr) ->
    forall a0 w0 w0' e, In (a0, w0, w0', Ready (Ok (Some (Ok e)))) tr -> False).
  { intros Y a0 w0 w0' e X. apply (in_map snd) in X. cbn in X. destruct Y as [(r1 & Y & _ & N)|Y]; rewrite Y in X; apply repeat_spec in X; [exact (N e (eq_sym X)) | discriminate]. }
  destruct a as [|e| |]; cbn [poll_item] in Hp.
  - inversion Hp; subst. apply C; [left; reflexivity | reflexivity | discriminate | discriminate].
  - destruct (ev_type e) eqn:Et; cbn in Hp; inversion Hp; subst; try (apply C; [right; split; reflexivity | reflexivity | intros e0 X; inversion X; subst; congruence | discriminate]).
    split.
    + intros a0 w0 w0' e0 [X|X] T; [inversion X; subst; exact U|]. exfalso. eapply D; [|exact X]. right. refine (proj1 (stream_ended tr _ _ _ _ H')); reflexivity.
    + intros a0 w0 w0' _ N. exfalso. exact (N _ _ _ _ (or_introl eq_refl) Et).
  - inversion Hp; subst. split.
    + intros a0 w0 w0' e [X|X] T; [discriminate|]. exfalso. eapply D; [|exact X]. right. refine (proj1 (stream_ended tr _ _ _ _ H')); reflexivity.
    + intros a0 w0 w0' _ _. eexists _, _, _. split; [left; reflexivity | exact U].
  - inversion Hp; subst. assert (P : map snd tr = repeat (Ready (Crash PanicResumed)) (length tr)) by (refine (proj1 (stream_poisoned tr _ _ _ H')); reflexivity). split.
    + intros a0 w0 w0' e [X|X] T; [discriminate|]. exfalso. eapply D; [|exact X]. left. eexists. split; [exact P|]. split; discriminate.
    + intros a0 w0 w0' [X|X] N; [discriminate|]. exfalso. apply (in_map snd) in X. cbn in X. rewrite P in X. apply repeat_spec in X. discriminate.
Qed.
