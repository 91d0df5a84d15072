(** Proofs about endless runs of networks: handlers, requests and reply streams. *)
From Verif Require Import Base BaseFacts BuilderFacts Codec Spec Ids IdsFacts Payload Builder Emit EmitFacts Ipc SpecIpc IpcFacts IpcChanFacts IpcUsers IpcLoops IpcTasks IpcIds IpcReplies IpcStreams IpcClaims IpcMore IpcFlow IpcLimits IpcRemoved IpcFate Pair SpecPair PairFacts PairServer PairEnd PairRest SpecLive PairLive PairLiveMore Net SpecNet NetServer NetFacts NetEnd NetRest SpecNetLive NetLive.
From Coq Require Import ZifyBool ZifyNat ZifyN.

(** ** The handlers of a connection that has been accepted *)
Section Site.
  Context (w : network) (b : nat) (f : nat -> option nlabel) (st : nat -> net) (ob : nat -> list (nat * obs)) (G : nat -> Prop).
  Hypothesis EN : endless_net w f st ob.
  Hypothesis CK : nclocks f.
  Hypothesis SN : server_node w b.
  Hypothesis FB : fair_at w f st b.
  Hypothesis F0 : fair_on w f st b 0.
  Hypothesis NC0 : forall n, ~ In (OClosed 0) (seen_at ob b n).
  Hypothesis NCut : forall n j cx r, ~ In (OCut j cx r) (seen_at ob b n).
  Local Notation at' i n := (seen_at ob i n).
  Local Notation eps i n := (n_ep (st n) i).
  Local Notation cfn i := (nd_cf (node_of w i)).
  Local Notation armb := (nd_armed (node_of w b)).
  Local Notation ctrb := (nd_ctr (node_of w b)).

  Lemma serve_run n : exists lb, runs (cfn b) 1 armb [] ctrb lb (eps b n) (at' b n) /\ no_write_failure lb /\ no_close lb /\ existsb is_cut (at' b n) = false.
  Proof.
    destruct (node_run w f st ob EN CK b n) as (lb & RB & _). destruct SN as (RO & NT & NC). rewrite NT, NC in RB. exists lb. split; [exact RB|].
    assert (X : no_close lb).
    { intros m Q. pose proof (close_seen _ _ _ _ _ _ _ _ RB _ Q) as Z. destruct m as [|m]; [exact (NC0 n Z)|].
      pose proof (conns_len _ _ _ _ _ _ _ _ RB) as CL. pose proof (inv_loop _ _ _ _ _ _ _ _ RB (S m)) as L.
      rewrite (proj2 (nth_error_None _ _)) in L by lia. unfold loop_trace in L. cbn [option_map] in L. apply next_none in L.
      assert (Y : existsb (about (S m)) (at' b n) = true) by (apply existsb_exists; eexists; split; [exact Z|apply Nat.eqb_refl]). congruence. }
    split; [|split; [exact X|]].
    - intros i q Q. destruct (fail_cut _ _ _ _ _ _ _ _ RB _ _ Q) as (j & cx & e & Z). exact (NCut _ _ _ _ Z).
    - apply not_true_is_false. intros Q. apply existsb_exists in Q. destruct Q as (o & Q1 & Q2). destruct o; try discriminate Q2. exact (NCut _ _ _ _ Q1).
  Qed.
  Lemma serve_server n : exists lb, runs (cfn b) 1 armb [] ctrb lb (eps b n) (at' b n) /\ no_write_failure lb /\ no_close lb /\ existsb is_cut (at' b n) = false /\ server armb (eps b n) (at' b n).
  Proof. destruct (serve_run n) as (lb & A & B & C & D). exists lb. destruct SN as (RO & _). eauto 8 using inv_server. Qed.
  Definition has_spoken (j n : nat) : Prop := sent j (at' b n) <> [] \/ In (OPanicked j) (at' b n).
  Lemma site_sending n j ctx e pu : tst (eps b n) j = Some (TSend ctx e pu) -> within G n (has_spoken j).
  Proof.
    intros H. eapply within_imp; [exact (sending w f st ob EN G b FB n j ctx e pu H)|]. intros m _ [Q|Q]; [left; eapply PairLive.in_sent; exact Q|destruct (NCut _ _ _ _ Q)].
  Qed.
  Lemma site_speaks p : speaks p -> forall n j, tst (eps b n) j = Some (TRun p) -> within G n (has_spoken j).
  Proof.
    intros SP. induction SP as [r| |rq k Hk IH|k Hk IH]; intros n j H.
    all: eapply (task_leads w f st ob EN G b FB j _ (fun _ => True) _ n); [auto| | |exact Coq.Init.Logic.I|exact H].
    all: try (intros m _ _ B SK; exfalso; specialize (SK (mk_instant 0 0) 0); cbn [step] in SK; unfold task_step in SK; unfold tst in B; destruct (nth_error (e_tasks (eps b m)) j) as [tk|] eqn:Et; [|discriminate]; cbn in B; injection B as B; rewrite B in SK; unfold run_prog in SK; cbn zeta in SK).
    all: try (intros m a _ _ B E; apply (later G m (S m)); [lia|]; destruct (act_look w f st ob EN _ _ _ _ E) as (os & HS & EA & NC); unfold task_step in HS; unfold tst in B; destruct (nth_error (e_tasks (eps b m)) j) as [tk|] eqn:Et; [|discriminate]; cbn in B; injection B as B; rewrite B in HS; destruct a as [t v| | |]; try discriminate HS; unfold run_prog in HS; cbn zeta in HS).
    - destruct (tk_job tk) as [[ctx x]|]; [|discriminate SK]. destruct (answer_ok (cfn b) ctx (nth_id (mk_instant 0 0) (e_ctr (eps b m))) r) as (a & Ha). rewrite Ha in SK. discriminate.
    - destruct (serve_server m) as (lb & RB & _ & _ & _ & V). destruct (v_tasks _ _ _ V _ _ Et) as (e & Hj & _). rewrite Hj in HS.
      destruct (answer_event (cfn b) (ctx0 e) (nth_id t (e_ctr (eps b m))) r) as [a| |]; try discriminate HS. apply some_pair in HS. destruct HS as [HS _].
      eapply site_sending. unfold tst. rewrite <- HS. autorewrite with ep. rewrite Nat.eqb_refl, Et. reflexivity.
    - discriminate SK.
    - apply now. right. rewrite EA. apply in_or_app. right. apply some_pair in HS. destruct HS as [_ <-]. left. reflexivity.
    - destruct (rq_payload rq); discriminate SK.
    - destruct (rq_payload rq) as [d|er|cr] eqn:Er; apply some_pair in HS; destruct HS as [HS Ho].
      + eapply site_sending. unfold tst. rewrite <- HS. autorewrite with ep. rewrite Nat.eqb_refl, Et. reflexivity.
      + apply (IH er eq_refl). unfold tst. rewrite <- HS. autorewrite with ep. rewrite Nat.eqb_refl, Et. reflexivity.
      + apply now. right. rewrite EA. apply in_or_app. right. rewrite <- Ho. left. reflexivity.
    - discriminate SK.
    - apply some_pair in HS. destruct HS as [HS _]. apply (IH v). unfold tst. rewrite <- HS. autorewrite with ep. rewrite Nat.eqb_refl, Et. reflexivity.
  Qed.
  Lemma site_answers n m j ctx sc q : all_speak (cfn b) -> In (OCalled m j ctx sc q) (at' b n) -> within G n (has_spoken j).
  Proof.
    intros AS H. destruct (serve_server n) as (lb & RB & NWF & NC & UC & V). destruct SN as (RO & _). destruct (called_job _ _ _ _ _ _ _ _ _ _ _ _ _ RB H) as (s0 & A & _ & B).
    destruct (v_tasks _ _ _ V _ _ A) as (e & Hj & Sv). cbn [tk_st tk_job] in *. injection Hj as -> <-.
    destruct s0 as [p0|? ? ?|cx a0 pu|? ? ?|? ? ? ?|? ?|? ? ?|x| |]; cbn [serving] in Sv; try (destruct Sv; fail).
    - destruct (sent j (at' b n)) eqn:Es; [|apply now; left; congruence]. apply (site_speaks p0); [|unfold tst; rewrite A; reflexivity].
      eapply speaks_inv; eauto. unfold tst. rewrite A. reflexivity.
    - eapply site_sending. unfold tst. rewrite A. reflexivity.
    - apply now. left. cbn in B. destruct B as (c1 & x1 & r & pre & a & _ & _ & _ & _ & _ & _ & [B|(_ & k & B)]); [rewrite B; destruct pre; discriminate|destruct (NWF _ _ B)].
    - apply now. left. cbn in B. destruct B as (r & pre & a & _ & _ & _ & [B|(_ & k & B)]); [rewrite B; destruct pre; discriminate|destruct (NWF _ _ B)].
    - apply now. right. exact Sv.
  Qed.
  Lemma site_reads n : n_in (st n) b 0 <> [] -> within G n (fun q => f q = Some (NDeliver b 0)).
  Proof.
    intros H.
    assert (NA : forall n, ~ In (OAborted 0) (at' b n)).
    { intros m Q. destruct (serve_server m) as (lb & RB & _ & _ & _ & V). pose proof (aborted_done _ _ _ _ _ _ _ _ 0 RB Q) as L. unfold lp in L. rewrite (v_conns _ _ _ V) in L. discriminate L. }
    destruct (serve_server n) as (lb & RB & _ & _ & _ & V).
    apply (running_reads w f st ob EN CK G b 0 F0 NA NC0); [|exact H]. unfold lp. rewrite (v_conns _ _ _ V). reflexivity.
  Qed.
End Site.

Section Requests.
  Context (w : network) (a k b : nat) (f : nat -> option nlabel) (st : nat -> net) (ob : nat -> list (nat * obs)).
  Hypothesis WJ : well_joined w.
  Hypothesis SV : served w a.
  Hypothesis PK : peer w a k = Some (b, 0%nat).
  Hypothesis EN : endless_net w f st ob.
  Hypothesis CK : nclocks f.
  Hypothesis FA : fair_at w f st a.
  Hypothesis FK : fair_on w f st a k.
  Hypothesis FB : fair_at w f st b.
  Hypothesis F0 : fair_on w f st b 0.
  Hypothesis DR : drained_over ob a k.
  Hypothesis IN : intact ob a k b.
  Local Notation at' i n := (seen_at ob i n).
  Local Notation eps i n := (n_ep (st n) i).
  Local Notation cfn i := (nd_cf (node_of w i)).
  Local Notation many := (nmany a st).
  Lemma SNb : server_node w b. Proof. exact (proj1 (SV _ _ _ PK)). Qed.
  Lemma NAa n : ~ In (OAborted k) (at' a n). Proof. apply IN. Qed.
  Lemma NC0b n : ~ In (OClosed 0) (at' b n). Proof. apply IN. Qed.
  Lemma NCutb n : forall j cx r, ~ In (OCut j cx r) (at' b n). Proof. apply IN. Qed.
  Lemma few_first n P : (few_events (eps a n) -> within many n P) -> within many n P.
  Proof. apply nfew_or. Qed.

  Section One.
    Context (n0 i0 : nat) (i : nat) (ctx : context) (e : event) (c : nat).
    Hypothesis HS : In (OSent i0 ctx e) (at' a n0).
    Hypothesis Ek : c_conn ctx = k.
    Hypothesis HL : In (OListen i (ev_id e) c) (at' a n0).
    Hypothesis NH : forall n, never_handled (ev_id e) (at' a n).
    Local Notation x := (ev_id e).
    Lemma sent_since n : (n0 <= n)%nat -> In (OSent i0 ctx e) (at' a n). Proof. intros L. apply (nstill ob a n0); auto. Qed.
    Lemma listen_since n : (n0 <= n)%nat -> In (OListen i x c) (at' a n). Proof. intros L. apply (nstill ob a n0); auto. Qed.
    Definition handled (j n : nat) : Prop := exists sc, In (OCalled 0 j (mk_context 0 (Some x)) sc (drop_empty_ns e)) (at' b n).
    Lemma handled_still j n m : (n <= m)%nat -> handled j n -> handled j m.
    Proof. intros L (sc & A). exists sc. eapply nstill; eauto. Qed.
    Lemma handled_live : within many n0 (fun n => exists j, handled j n).
    Proof.
      apply few_first. intros FE. destruct (nprefix w f st ob EN CK n0) as (ls & HR & GC). pose proof (request_emitted w a _ _ _ HR GC FE _ _ _ _ _ HS HL) as [_ EM]. destruct (WJ _ _ _ _ PK) as [P' _].
      apply (within_bind many n0 (fun m => In (OReceived 0 (drop_empty_ns e)) (at' b m))).
      - assert (W : In (drop_empty_ns e) (sent_to k (at' a n0))) by (apply in_sent_to; eauto 8). unfold seen_at in W. rewrite <- (nwires _ _ _ _ HR _ _ _ _ P') in W.
        apply in_app_or in W. destruct W as [W|W]; [apply now; apply in_read_from; exact W|]. apply (arriving w f st ob EN); [|exact W]. intros m. apply (site_reads w b f st ob many EN CK SNb F0 NC0b NCutb).
      - intros m Lm Q. apply now. destruct (serve_server w b f st ob many EN CK SNb NC0b NCutb m) as (lb & RB & _ & NC & _ & V). destruct SNb as (RO & _).
        assert (X : In (drop_empty_ns e) (filter not_end (got (at' b m)))).
        { apply filter_In. split; [apply in_got; eauto|]. unfold not_end. rewrite drop_type, EM. destruct (c_ref ctx); reflexivity. }
        rewrite <- (server_calls _ _ _ RO _ _ _ RB NC) in X. apply in_map_iff in X. destruct X as ([j q] & G1 & G2). cbn in G1. subst q. apply in_calls in G2. destruct G2 as (k' & cx & sc & J).
        destruct (called_job _ _ _ _ _ _ _ _ _ _ _ _ _ RB J) as (s0 & J1 & J2 & J3). destruct (v_tasks _ _ _ V _ _ J1) as (q & J4 & _). cbn [tk_job] in J4. injection J4 as J4 J5.
        assert (k' = 0%nat) by (rewrite J4 in J2; injection J2; auto). subst k'. rewrite drop_id in J2. rewrite J2 in J. exists j, sc. exact J.
    Qed.
    Lemma replies_read j n : few_events (eps a n) -> handled j n -> received_for k x (at' a n) ++ filter (is_ref x) (n_in (st n) a k) = replies_of_task j (at' b n).
    Proof.
      intros FE (sc & H). destruct (nprefix w f st ob EN CK n) as (ls & HR & GC). pose proof (net_replies_of w a WJ SV _ _ _ _ _ HR GC FE PK _ _ _ _ _ H) as RP. rewrite drop_id in RP. exact RP.
    Qed.
    Lemma queue_of n : (n0 <= n)%nat -> few_events (eps a n) -> exists rest, received_for k x (at' a n) = queued c (at' a n) ++ rest /\ (gone_b c (at' a n) = false -> rest = held (eps a n) k c).
    Proof.
      intros L FE. destruct (nprefix w f st ob EN CK n) as (ls & HR & GC). destruct (queued_one_conn w a WJ SV _ _ _ HR GC FE _ _ _ _ _ (listen_since n L) (sent_since n L) (NH n)) as (rest & A & B). rewrite Ek in A, B.
      exists rest. split; [exact A|]. intros Q. apply B; [exact Q|apply NAa].
    Qed.
    Lemma channel n s0 : tst (eps a n) i = Some s0 -> tchan s0 = Some c -> gone_b c (at' a n) = false /\ exists ch, nth_error (e_chans (eps a n)) c = Some ch /\ ch_open ch = true /\ queued c (at' a n) = taken c (at' a n) ++ ch_buf ch.
    Proof.
      intros A B. destruct (node_run w f st ob EN CK a n) as (ls & HR & _). pose proof (inv_users _ _ _ _ _ _ _ _ HR) as U. destruct (u_task _ U _ _ _ A B) as (ch & Hc & _ & Ho).
      pose proof (inv_chan _ _ _ _ _ _ _ _ HR c) as CT. rewrite Hc in CT. destruct CT as (C1 & _ & _ & rest & C3 & C4). rewrite Ho in C1. specialize (C4 Ho). subst rest. split; [exact C1|]. exists ch. auto.
    Qed.
    Lemma reply_read j n : (n0 <= n)%nat -> handled j n -> sent j (at' b n) <> [] -> within many n (fun m => received_for k x (at' a m) <> []).
    Proof.
      intros L A H. apply few_first. intros FE. pose proof (replies_read j n FE A) as RP.
      destruct (received_for k x (at' a n)) as [|y l] eqn:Er; [|apply now; congruence]. cbn [app] in RP.
      destruct (filter (is_ref x) (n_in (st n) a k)) as [|y l] eqn:Ef; [unfold replies_of_task in RP; destruct (sent j (at' b n)); [congruence|discriminate RP]|].
      assert (Y : In y (filter (is_ref x) (n_in (st n) a k))) by (rewrite Ef; left; reflexivity). apply filter_In in Y. destruct Y as [Y1 Y2].
      eapply within_imp; [apply (arriving w f st ob EN many a k y); [|exact Y1]; intros m; apply (client_reads w a k b f st ob WJ SV PK EN CK FA FK DR IN)|].
      intros m _ Q. rewrite received_read. intros E. apply in_read_from in Q.
      assert (Z : In y (filter (is_ref x) (read_from k (at' a m)))) by (apply filter_In; auto). rewrite E in Z. exact Z.
    Qed.
    Lemma put_queued n e2 : lp (eps a n) k = Some (LSend c e2) -> gone_b c (at' a n) = false -> handing f a k n -> at' a (S n) = at' a n ++ [OQueued k c e2].
    Proof.
      intros H Ng Q. destruct (hands w f st ob EN a k n Q) as (_ & d & e3 & X1 & X2). rewrite H in X1. injection X1 as <- <-.
      destruct (node_run w f st ob EN CK a n) as (ls & HR & _). pose proof (inv_chan _ _ _ _ _ _ _ _ HR c) as CT. pose proof (inv_users _ _ _ _ _ _ _ _ HR) as U. destruct (u_loop _ U _ _ _ H) as (rr & _ & Cd). unfold cid in Cd.
      destruct (nth_error (e_chans (eps a n)) c) as [ch|] eqn:Hc; [|discriminate]. destruct CT as (C1 & _). rewrite Ng in C1. destruct (ch_open ch) eqn:Ho; [|discriminate C1]. exact (X2 _ eq_refl Ho).
    Qed.

    (** streams *)
    Lemma everything_read n z : (z <= length (sent_to 0 (at' b n)))%nat -> within many n (fun m => (z <= length (read_from k (at' a m)))%nat).
    Proof.
      induction z as [|z IH]; intros L; [apply now; lia|]. eapply within_bind; [apply IH; lia|]. intros m Lm H. cbn beta in H.
      destruct (Nat.le_gt_cases (S z) (length (read_from k (at' a m)))) as [Q|Q]; [apply now; exact Q|].
      assert (P : n_in (st m) a k <> []).
      { intros E. destruct (nprefix w f st ob EN CK m) as (ls & HR & _). pose proof (nwires _ _ _ _ HR _ _ _ _ PK) as T. rewrite E, app_nil_r in T. unfold seen_at in Q. rewrite T in Q.
        destruct (ngrows ob b n m Lm) as (os & Eo). unfold seen_at in Eo. rewrite Eo, sent_to_app, app_length in Q. unfold seen_at in L. lia. }
      eapply within_bind; [exact (client_reads w a k b f st ob WJ SV PK EN CK FA FK DR IN m P)|]. intros q Lq E. apply (later many q (S q)); [lia|]. apply now.
      destruct (look w f st ob EN a q) as [_ _ _ N _|l os E' EO HS' EA _ EI|k' e' os E' EI _ HS' EA|k' os E' HS' EA EI]; [destruct (N _ E)|congruence| |congruence]. rewrite E in E'. injection E' as <-.
      rewrite EA, read_app, (proj1 (recv_read' _ _ _ _ _ _ k HS')), Nat.eqb_refl, app_length. destruct (ngrows ob a m q Lq) as (os' & Eo). rewrite Eo, read_app, app_length. cbn [length]. lia.
    Qed.
    Lemma received_grows n m : (n <= m)%nat -> exists os, received_for k x (at' a m) = received_for k x (at' a n) ++ os.
    Proof. intros L. destruct (ngrows ob a n m L) as (os & ->). rewrite received_for_app. eauto. Qed.
    Lemma items_live j : handled j n0 -> within many n0 (fun m => gone (at' a m) c \/ exists rest, queued c (at' a m) = replies_of_task j (at' b n0) ++ rest).
    Proof.
      intros HC. eapply within_bind; [exact (everything_read n0 _ (le_n _))|]. intros m Lm H. cbn beta in H. apply few_first. intros FE.
      set (v := replies_of_task j (at' b n0)) in *.
      assert (R : exists r, received_for k x (at' a m) = v ++ r).
      { pose proof (few_back w a f st ob EN n0 m Lm FE) as FE0. destruct (nprefix w f st ob EN CK m) as (ls & HR & GC). pose proof (nwires _ _ _ _ HR _ _ _ _ PK) as T. destruct (ngrows ob b n0 m Lm) as (os & Eo). unfold seen_at in Eo. rewrite Eo, sent_to_app in T.
        destruct (prefix_of _ _ _ _ (eq_sym T) H) as (r & Er).
        destruct (nprefix w f st ob EN CK n0) as (ls0 & HR0 & GC0). pose proof (replies_read j n0 FE0 HC) as RP0. rewrite received_read, <- filter_app in RP0. unfold seen_at in RP0. rewrite (nwires _ _ _ _ HR0 _ _ _ _ PK) in RP0.
        rewrite received_read. unfold seen_at in *. rewrite Er, filter_app, RP0. eauto. }
      destruct R as (r & R).
      assert (FIN : forall q, (m <= q)%nat -> few_events (eps a q) -> (length v <= length (queued c (at' a q)))%nat -> gone (at' a q) c \/ exists rest, queued c (at' a q) = v ++ rest).
      { intros q Lq FEq Ll. right. destruct (queue_of q ltac:(lia) FEq) as (rest & Q1 & _). destruct (received_grows m q Lq) as (os & Eo). rewrite R, Q1, <- app_assoc in Eo. exact (prefix_of _ _ _ _ (eq_sym Eo) Ll). }
      destruct (gone_b c (at' a m)) eqn:Eg; [apply now; left; apply gone_iff; exact Eg|].
      destruct (Nat.le_gt_cases (length v) (length (queued c (at' a m)))) as [Lq|Lq]; [apply now; apply FIN; auto|].
      destruct (queue_of m Lm FE) as (rest & Q1 & Q2). specialize (Q2 Eg). subst rest. rewrite R in Q1. apply (f_equal (@length event)) in Q1. rewrite !app_length in Q1.
      unfold held in Q1. destruct (lp (eps a m) k) as [[|d e1|]|] eqn:El; try (cbn in Q1; lia). destruct (Nat.eqb_spec d c) as [->|]; [|cbn in Q1; lia]. cbn [length] in Q1.
      eapply within_bind; [exact (hands_on w a k b f st ob WJ SV EN CK FA FK DR IN m c e1 El)|]. intros q Lk [P1 P2].
      destruct (gone_b c (at' a q)) eqn:Egk; [apply now; left; apply gone_iff; exact Egk|].
      apply (later many q (S q)); [lia|]. apply few_first. intros FEq. apply now. apply FIN; [lia|exact FEq|].
      rewrite (put_queued q e1 P2 Egk P1). destruct (ngrows ob a m q Lk) as (os & Eo). rewrite Eo. unfold queued. rewrite !flat_map_app, !app_length. cbn [flat_map queued_on]. rewrite Nat.eqb_refl. cbn [length app]. unfold queued in Q1. lia.
    Qed.

    (** requests *)
    Hypothesis NO : forall n h, ~ In (OOpened i h x c) (at' a n).
    Definition got_result (n : nat) : Prop := exists r, In (OReply i x r) (at' a n).
    Lemma fate_of n : (n0 <= n)%nat -> few_events (eps a n) -> (exists s0, tst (eps a n) i = Some s0 /\ tchan s0 = Some c) \/ got_result n.
    Proof.
      intros L FE. destruct (nprefix w f st ob EN CK n) as (ls & HR & GC). destruct (asker w a _ _ _ HR) as (la & RA & GA). pose proof (inv_idents _ _ _ _ _ _ _ _ RA (GA GC) FE) as ID.
      destruct (inv_fate _ _ _ _ _ _ _ _ RA _ _ _ (listen_since n L)) as [F|[(h & F)|(Fg & [F|[(c1 & e1 & F & Fi)|(e1 & cr & F & F')]])]].
      - auto.
      - destruct (NO _ _ F).
      - right. exact F.
      - exfalso. pose proof (ended_same _ _ _ x (j_nodup _ _ ID) (sent_since n L) F (or_introl eq_refl) (or_introl Fi)). discriminate.
      - exfalso. destruct (taken_received _ _ _ _ _ _ _ _ _ _ RA F) as (m & Q). destruct (read_over w a WJ SV _ _ _ _ _ HR Q) as (b' & j' & cx & r & P2 & S2 & ->).
        destruct (SV _ _ _ P2) as (_ & DF). destruct (nproject _ _ _ _ HR b') as (lb' & RB' & _). revert F'. unfold reply_result. rewrite drop_type, drop_data.
        destruct (ended_emitted _ _ _ _ _ _ _ _ RB' j' cx r (or_introl S2)) as [[E1 E2]|(z0 & sc0 & y & rr & E1 & E2 & E3)].
        + rewrite E2. destruct (c_ref cx); discriminate.
        + destruct E3 as (_ & _ & E3). destruct rr as [bb|er]; destruct E3 as (E3 & _ & E4); rewrite E3; [discriminate|]. change (etype_eqb Error Error) with true. cbn iota. rewrite (DF er _ E4). discriminate.
    Qed.
    Lemma reply_queued n : (n0 <= n)%nat -> received_for k x (at' a n) <> [] -> within many n (fun m => got_result m \/ queued c (at' a m) <> []).
    Proof.
      intros L H. apply few_first. intros FE. destruct (fate_of n L FE) as [(s0 & A & B)|D]; [|apply now; auto].
      destruct (channel _ _ A B) as (Ng & _). destruct (queue_of n L FE) as (rest & Q1 & Q2). specialize (Q2 Ng). subst rest.
      destruct (queued c (at' a n)) as [|y l] eqn:Eq; [|apply now; right; congruence]. cbn [app] in Q1. rewrite Q1 in H. unfold held in H.
      destruct (lp (eps a n) k) as [[|d e1|]|] eqn:El; try congruence. destruct (Nat.eqb_spec d c) as [->|]; [|congruence].
      eapply within_bind; [exact (hands_on w a k b f st ob WJ SV EN CK FA FK DR IN n c e1 El)|]. intros m Lm [P1 P2]. apply few_first. intros FEm. destruct (fate_of m ltac:(lia) FEm) as [(s1 & A' & B')|D]; [|apply now; auto].
      destruct (channel _ _ A' B') as (Ng' & _). apply (later many m (S m)); [lia|]. apply now. right. rewrite (put_queued m e1 P2 Ng' P1). unfold queued. rewrite flat_map_app. cbn. rewrite Nat.eqb_refl. cbn.
      intros Z. destruct (app_cons_not_nil _ _ _ (eq_sym Z)).
    Qed.
    Lemma result_live n : (n0 <= n)%nat -> queued c (at' a n) <> [] -> within many n got_result.
    Proof.
      intros L HQ.
      assert (R : forall r m s0, (n <= m)%nat -> (rank s0 <= r)%nat -> tst (eps a m) i = Some s0 -> tchan s0 = Some c -> within many m got_result).
      { induction r as [|r IH]; intros m s0 Lm Lr HT HC.
        - exfalso. destruct s0 as [?|? ? ?|? ? [?|?|?|?]|? ? ?|? ? ? ?|?|?|?| |]; try discriminate HC; cbn in Lr; lia.
        - apply (task_leads w f st ob EN many a FA i s0 (fun _ => True) _ m); auto.
          + intros q Lk _ B SK. exfalso. destruct (channel _ _ B HC) as (_ & ch & C1 & C2 & C3). destruct (node_run w f st ob EN CK a q) as (ls & RA & _).
            pose proof (inv_ask _ _ _ _ _ _ _ _ RA _ _ B) as AK. specialize (SK (mk_instant 0 0) 0). cbn [step] in SK. unfold task_step in SK. unfold tst in B. destruct (nth_error (e_tasks (eps a q)) i) as [tk|] eqn:Et; [|discriminate]. cbn in B. injection B as B. rewrite B in SK.
            destruct s0 as [?|? ? ?|? ? [?|?|?|?]|d rid k0|d rid e1 k0|?|?|?| |]; try discriminate HC; try discriminate SK.
            * cbn in HC. injection HC as ->. rewrite C1 in SK. cbn in AK. destruct AK as [_ AK]. rewrite AK in C3. cbn in C3. destruct (ch_buf ch); [|discriminate SK].
              destruct (ngrows ob a n q ltac:(lia)) as (os & Eo). rewrite Eo in C3. unfold queued in C3. rewrite flat_map_app in C3. apply app_eq_nil in C3. destruct C3 as [C3 _]. exact (HQ C3).
            * cbn zeta in SK. destruct (reply_result (cf_env (cfn a)) e1); discriminate SK.
          + intros q z Lk _ B E. apply (later many q (S q)); [lia|]. apply few_first. intros FE. destruct (fate_of (S q) ltac:(lia) FE) as [(s1 & F1 & F2)|D]; [|apply now; exact D].
            apply (IH (S q) s1); auto; [lia|]. pose proof (acting_rank w f st ob EN many a q i z s0 s1 c E B HC F1 F2). lia. }
      apply few_first. intros FE. destruct (fate_of n L FE) as [(s0 & A & B)|D]; [|apply now; exact D]. eapply (R (rank s0)); eauto.
    Qed.
    Hypothesis AS : all_speak (cfn b).
    Definition well_answered (n : nat) : Prop := exists j sc, In (OCalled 0 j (mk_context 0 (Some x)) sc (drop_empty_ns e)) (at' b n)
      /\ ((exists r, In (OReply i x r) (at' a n) /\ (r = None \/ r = Some (Err Timeout) \/ exists r', r = Some r' /\ answered (cfn b) (at' b n) j r'))
          \/ (In (OPanicked j) (at' b n) /\ sent j (at' b n) = [])).
    Lemma net_request_live : within many n0 well_answered.
    Proof.
      eapply within_bind; [exact handled_live|]. intros n Ln (j & A).
      assert (R : forall m, (n <= m)%nat -> got_result m -> within many m well_answered).
      { intros m Lm (r & Hr). apply few_first. intros FE. apply now. destruct (handled_still _ _ _ Lm A) as (sc & J). exists j, sc. split; [exact J|]. left. exists r. split; [exact Hr|]. destruct r as [r|]; [|auto]. right.
        destruct (nprefix w f st ob EN CK m) as (ls & HR & GC). destruct (asker w a _ _ _ HR) as (la & RA & GA). pose proof (inv_idents _ _ _ _ _ _ _ _ RA (GA GC) FE) as ID.
        destruct (net_reply w a WJ SV _ _ _ HR GC FE _ _ _ Hr (NH m)) as [->|[(io & cx & q & _ & X & Y)|(cx & q & b' & j' & sc' & X & Y & Z & V & W)]]; [auto| |].
        + exfalso. pose proof (ended_same _ _ _ x (j_nodup _ _ ID) (sent_since m ltac:(lia)) X (or_introl eq_refl) (or_introl Y)). discriminate.
        + right. exists r. split; [reflexivity|]. pose proof (ended_same _ _ _ x (j_nodup _ _ ID) (sent_since m ltac:(lia)) X (or_introl eq_refl) (or_introl Y)) as Q. injection Q as _ <- <-.
          rewrite Ek, PK in Z. injection Z as <-. destruct (net_call_unique w a WJ SV _ _ _ _ _ HR GC FE PK j' (drop_empty_ns e) j (drop_empty_ns e)) as [-> _]; [apply in_calls; eauto|apply in_calls; eauto|reflexivity|exact W]. }
      pose proof A as (sc & A1).
      eapply within_bind; [exact (site_answers w b f st ob many EN CK SNb FB NC0b NCutb _ _ _ _ _ _ AS A1)|]. intros m Lm Sp.
      pose proof (handled_still j n m Lm A) as A'.
      destruct (sent j (at' b m)) as [|z zs] eqn:Es.
      { apply now. destruct A' as (sc' & A'). exists j, sc'. split; [exact A'|]. right. split; [|exact Es]. destruct Sp as [Sp|Sp]; [congruence|exact Sp]. }
      eapply within_bind; [apply (reply_read j m); [lia|exact A'|congruence]|]. intros q Lk Q. cbn beta in Q.
      eapply within_bind; [exact (reply_queued q ltac:(lia) Q)|]. intros q' Lk' [Q'|Q']; [apply R; [lia|exact Q']|].
      eapply within_bind; [exact (result_live q' ltac:(lia) Q')|]. intros q2 L2 Q2. apply R; [lia|exact Q2].
    Qed.
  End One.
End Requests.
