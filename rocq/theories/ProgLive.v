(** Proofs about endless runs of a client and a server: programs of requests come to an end. *)
From Verif Require Import Base BaseFacts BuilderFacts Codec Spec Ids IdsFacts Payload Builder Emit EmitFacts Ipc SpecIpc IpcFacts IpcChanFacts IpcUsers IpcLoops IpcTasks IpcIds IpcReplies IpcStreams IpcClaims IpcMore IpcFlow IpcLimits IpcRemoved IpcFate Pair SpecPair PairFacts PairServer PairEnd PairRest SpecLive PairLive SpecOrder OrderFacts SpecPeers PeersFacts PeersRest SpecNested PeersLive.
From Coq Require Import ZifyBool ZifyNat ZifyN.

(** ** The code of a task that opens no stream and finishes *)
Definition ends_too (s0 : tstate) : Prop :=
  match s0 with
  | TRun p => finishes p
  | TRegister _ _ (WantReply k) | TSend _ _ (ForAwait _ k) | TWait _ _ k | TGot _ _ _ k => forall o, finishes (k o)
  | TSend _ _ (ForEmit k) => forall o, finishes (k o)
  | TRegister _ _ (WantStream _) | TSend _ _ (ForStream _ _) | TNext _ _ | TNextGot _ _ _ => False
  | TSend _ _ (ForAnswer _) | TForget _ | TDone | TDead => True
  end.
Lemma ends_acted cf s i a s' os s0 : task_step cf s i a = Some (s', os) -> tst s i = Some s0 -> ends_too s0 -> exists s1, tst s' i = Some s1 /\ ends_too s1.
Proof.
  intros HS T E. unfold task_step in HS. unfold tst in T. destruct (nth_error (e_tasks s) i) as [tk|] eqn:Et; [|discriminate]. cbn in T. injection T as T. rewrite T in HS.
  assert (L : (i <> length (e_tasks s))%nat) by (pose proof (proj1 (nth_error_Some (e_tasks s) i)); rewrite Et in *; intuition (try congruence; try lia)).
  destruct s0 as [p|? ? [k|k]|? ? [k|d k|d k|ok]|d rid k|d rid e1 k|?|? ? ?|?| |]; cbn [ends_too] in E; try contradiction; try (destruct a; try discriminate HS; fail); try destruct a; try discriminate HS.
  all: try (destruct E as [r| |rq k Hk|rq k Hk|k Hk|q k Hk]; unfold run_prog in HS; cbn zeta in HS).
  all: repeat (match type of HS with context[match ?x with _ => _ end] => destruct x eqn:? end; try discriminate HS).
  all: apply some_pair in HS; destruct HS as [<- <-]; unfold tst; autorewrite with ep; rewrite Nat.eqb_refl, ?(proj2 (Nat.eqb_neq _ _) L), Et; cbn; eexists; (split; [reflexivity|]); cbn; auto.
Qed.
(** a stream is opened by a task that asked for it *)
Lemma opens_step cf s l s' os i h x c : step cf s l = Some (s', os) -> In (OOpened i h x c) os -> exists ctx e k, tst s i = Some (TSend ctx e (ForStream c k)).
Proof.
  intros H Q.
  destruct (step_stream _ _ _ _ _ h H) as [l _ _ N|j a ctx e d k _ T E _ _|j a y _ _ _ E|j a y k _ _ _ E _|j a y k ch e b _ _ _ _ _ _ E|j y k _ _ _ E|j y k _ _ _ E|j a y oe k _ _ _ E|y _ _ _ _ E];
    try (subst os; cbn in Q; repeat (destruct Q as [Q|Q]; try discriminate Q); try contradiction).
  - destruct (N _ _ _ Q).
  - injection Q as <- <- <-. eauto.
Qed.

Section Programs.
  Context (cf : side -> config) (ps : side -> list prog) (ctr : side -> N) (f : nat -> option plabel) (st : nat -> pair) (ob : nat -> list (side * obs)).
  Hypothesis EN : endless cf ps ctr f st ob.
  Hypothesis CK : clocks f.
  Hypothesis FT : forall sd, turns cf f st (fun n => ~ few_events (p_ep (st n) SideA)) sd.
  Hypothesis FL : fair_loops cf f st.
  Hypothesis RO : only_replies (cf SideB).
  Hypothesis PB : ps SideB = [].
  Hypothesis AS : all_speak (cf SideB).
  Hypothesis DF : debug_fits (cf SideB) (cf_env (cf SideA)).
  Hypothesis DR : drained ob SideA.
  Hypothesis NA : forall n, ~ In (OAborted 0) (at_side SideA (so_far ob n)).
  Local Notation at' sd n := (at_side sd (so_far ob n)).
  Local Notation eps sd n := (p_ep (st n) sd).
  Local Notation many := (PairLive.many st).
  Local Notation within := (within many).

  Lemma acts_once' sd i s0 n Q : tst (eps sd n) i = Some s0 -> moves s0 ->
    (forall m a tk os, (n <= m)%nat -> nth_error (e_tasks (eps sd m)) i = Some tk -> tk_st tk = s0 -> task_step (cf sd) (eps sd m) i a = Some (eps sd (S m), os) -> at' sd (S m) = at' sd m ++ os -> existsb is_cut os = false -> within (S m) Q) -> within n Q.
  Proof.
    clear NA.
    intros H M K. apply (task_lead_t cf ps ctr f st ob EN many sd (FT sd) i s0 (fun _ => True) Q n); auto.
    - intros m _ _ B SK. destruct (moves_on cf st _ _ _ _ B M SK).
    - intros m a L _ B E. apply (later many m (S m)); [lia|]. destruct (act_view _ _ _ _ _ _ EN _ _ _ _ E) as (os & HS & EA & NC). unfold tst in B. destruct (nth_error (e_tasks (eps sd m)) i) as [tk|] eqn:Et; [|discriminate]. cbn in B. injection B as B. eauto.
  Qed.
  Lemma waits_on' sd i c ctx e k n : waits st sd i c ctx e k n -> forall m, (n <= m)%nat -> waits st sd i c ctx e k m \/ exists m', (n <= m' <= m)%nat /\ left st ob sd i e k m'.
  Proof.
    intros H m L. induction L as [|m L IH]; [auto|]. destruct IH as [IH|(m' & A & B)]; [|right; exists m'; split; [lia|exact B]].
    destruct (waits_step cf ps ctr f st ob EN sd i c ctx e k m IH) as [Q|Q]; [auto|]. right. exists (S m). split; [lia|exact Q].
  Qed.
  Lemma ends_keeps sd i n m s0 : (n <= m)%nat -> tst (eps sd n) i = Some s0 -> ends_too s0 -> exists s1, tst (eps sd m) i = Some s1 /\ ends_too s1.
  Proof.
    intros L T E. induction L as [|m L IH]; [eauto|]. destruct IH as (s1 & T1 & E1). destruct (acts_dec f m sd i) as [(a & F)|N].
    - destruct (act_view _ _ _ _ _ _ EN _ _ _ _ F) as (os & HS & _). eapply ends_acted; eauto.
    - exists s1. split; [eapply task_stays; eauto|exact E1].
  Qed.
  Lemma no_stream sd i n s0 : tst (eps sd n) i = Some s0 -> ends_too s0 -> forall m h x c, In (OOpened i h x c) (at' sd m) -> In (OOpened i h x c) (at' sd n).
  Proof.
    intros T E. assert (K : forall m h x c, (n <= m)%nat -> In (OOpened i h x c) (at' sd m) -> In (OOpened i h x c) (at' sd n)).
    { intros m h x c L. induction L as [|m L IH]; [auto|]. intros Q. destruct (ends_keeps sd i n m s0 L T E) as (s1 & T1 & E1).
      assert (NO : forall l os, step (cf sd) (eps sd m) l = Some (eps sd (S m), os) -> ~ In (OOpened i h x c) os).
      { intros l os HS Z. destruct (opens_step _ _ _ _ _ _ _ _ _ HS Z) as (cx & e & k & T2). rewrite T1 in T2. injection T2 as ->. exact E1. }
      apply IH. destruct (view _ _ _ _ _ _ EN sd m) as [_ EA _ _ _|l os _ _ HS EA _ _|e os _ _ HS EA]; [rewrite EA in Q; exact Q| |];
        rewrite EA in Q; apply in_app_or in Q; (destruct Q as [Q|Q]; [exact Q|destruct (NO _ _ HS Q)]). }
    intros m h x c Q. destruct (Nat.le_ge_cases n m) as [L|L]; [eauto|]. exact (PairLive.still ob sd m n _ L Q).
  Qed.
  Lemma no_reply i c ctx e k n : waits st SideA i c ctx e k n -> few_events (eps SideA n) -> forall r, ~ In (OReply i (ev_id e) r) (at' SideA n).
  Proof.
    intros W FE r Q. destruct (open_listener cf ps ctr f st ob EN CK _ _ _ _ _ _ _ W) as (HL & G & _). destruct (prefix _ _ _ _ _ _ EN CK n) as (ls & HR & GC). destruct (project _ _ _ _ _ _ _ HR SideA) as (la & RA & GA & _). specialize (GA GC).
    destruct (results _ _ _ _ _ _ _ _ RA _ _ _ Q) as (d & Q1 & Q2 & _). destruct (j_unique _ _ (inv_idents _ _ _ _ _ _ _ _ RA GA FE) _ _ _ _ _ HL Q1) as (_ & <-). congruence.
  Qed.

  (** the task has returned or panicked, or it waits for a handler that panicked before it had sent anything *)
  Definition over (i n : nat) : Prop := (exists r, In (OReturned i r) (at' SideA n)) \/ In (OPanicked i) (at' SideA n)
    \/ exists x c j sc q, In (OListen i x c) (at' SideA n) /\ (forall r, ~ In (OReply i x r) (at' SideA n))
         /\ In (OCalled 0 j (mk_context 0 (Some x)) sc q) (at' SideB n) /\ ev_id q = x /\ In (OPanicked j) (at' SideB n) /\ sent j (at' SideB n) = [].
  Section Task.
    Context (i : nat).
    Hypothesis NH : forall n x c, In (OListen i x c) (at' SideA n) -> forall m, never_handled x (at' SideA m).
    Lemma program_ends p : finishes p -> forall n, tst (eps SideA n) i = Some (TRun p) -> within n (over i).
    Proof.
      intros FN. induction FN as [r| |rq k Hk IH|rq k Hk IH|k Hk IH|p2 k Hk IH]; intros n HT; (eapply acts_once'; [exact HT|exact Coq.Init.Logic.I|]); intros m a tk os Lm Et Es HS EA NC;
        unfold task_step in HS; rewrite Et, Es in HS; (destruct a as [t v| | |]; try discriminate HS); unfold run_prog in HS; cbn zeta in HS.
      - assert (R : In (OReturned i r) os).
        { destruct (tk_job tk) as [[cx x]|]; [|apply some_pair in HS; destruct HS as [_ <-]; left; reflexivity].
          destruct (answer_event (cf SideA) cx (nth_id t (e_ctr (eps SideA m))) r); try discriminate HS. apply some_pair in HS. destruct HS as [_ <-]. left. reflexivity. }
        apply now. left. exists r. rewrite EA. apply in_or_app. right. exact R.
      - apply some_pair in HS. destruct HS as [_ Ho]. apply now. right. left. rewrite EA, <- Ho. apply in_or_app. right. left. reflexivity.
      - destruct (rq_payload rq) as [d|er|cr]; apply some_pair in HS; destruct HS as [HS Ho].
        + assert (T : tst (eps SideA (S m)) i = Some (TSend (rq_ctx rq) (event_for rq (nth_id t (e_ctr (eps SideA m))) d) (ForEmit k))) by (eapply tst_after; [|exact HS]; exact Et).
          eapply acts_once'; [exact T|exact Coq.Init.Logic.I|]. intros m2 a2 tk2 os2 Lm2 Et2 Es2 HS2 EA2 NC2. unfold task_step in HS2. rewrite Et2, Es2 in HS2.
          destruct a2; try discriminate HS2; apply some_pair in HS2; destruct HS2 as [HS2 Ho2]; rewrite <- Ho2 in NC2; try discriminate NC2.
          apply (IH (Some (Ok (ev_id (event_for rq (nth_id t (e_ctr (eps SideA m))) d)))) (S m2)). eapply tst_after; [|exact HS2]; exact Et2.
        + apply (IH (Some (Err er)) (S m)). eapply tst_after; [|exact HS]; exact Et.
        + apply now. right. left. rewrite EA, <- Ho. apply in_or_app. right. left. reflexivity.
      - destruct (rq_payload rq) as [d|er|cr]; apply some_pair in HS; destruct HS as [HS Ho].
        + set (e := event_for rq (nth_id t (e_ctr (eps SideA m))) d) in *.
          assert (T : tst (eps SideA (S m)) i = Some (TRegister (rq_ctx rq) e (WantReply k))) by (eapply tst_after; [|exact HS]; exact Et).
          eapply acts_once'; [exact T|exact Coq.Init.Logic.I|]. intros m2 a2 tk2 os2 Lm2 Et2 Es2 HS2 EA2 NC2. unfold task_step in HS2. rewrite Et2, Es2 in HS2. cbn zeta in HS2.
          destruct a2; try discriminate HS2; apply some_pair in HS2; destruct HS2 as [HS2 Ho2].
          set (c := length (e_chans (eps SideA m2))) in *.
          assert (T2 : tst (eps SideA (S m2)) i = Some (TSend (rq_ctx rq) e (ForAwait c k))) by (eapply tst_after; [|exact HS2]; exact Et2).
          assert (HL : In (OListen i (ev_id e) c) (at' SideA (S m2))) by (rewrite EA2, <- Ho2; apply in_or_app; right; left; reflexivity).
          assert (NO : forall m' h, ~ In (OOpened i h (ev_id e) c) (at' SideA m')).
          { intros m' h Q. apply (no_stream SideA i (S m2) _ T2 Hk) in Q. rewrite EA2, <- Ho2 in Q. apply in_app_or in Q. destruct Q as [Q|[Q|[]]]; [|discriminate Q].
            destruct (own_run _ _ _ _ _ _ EN CK SideA m2) as (la & RA & _). destruct (stream_request _ _ _ _ _ _ _ _ _ _ _ _ RA Q) as (i' & (HL' & _)).
            pose proof (inv_chan _ _ _ _ _ _ _ _ RA c) as C. rewrite (proj2 (nth_error_None (e_chans (eps SideA m2)) c)) in C by (unfold c; lia). destruct C as (_ & _ & _ & C). destruct (C _ _ HL'). }
          destruct (request_live cf ps ctr f st ob EN CK FT FL RO PB AS DF DR NA (S m2) i (ev_id e) c HL NO (NH _ _ _ HL)) as (m3 & Lm3 & [g|AW]); [exists m3; auto|].
          assert (W0 : waits st SideA i c (rq_ctx rq) e k (S m2)) by (left; exact T2).
          assert (LF : forall m', left st ob SideA i e k m' -> within m' (over i)).
          { intros m' [(o & LT & _)|LP]; [exact (IH o m' LT)|]. apply now. right. left. exact LP. }
          destruct (waits_on' _ _ _ _ _ _ _ W0 m3 Lm3) as [W|(m' & Lm' & Q)].
          2:{ (* it has gone on *) apply (later many (S m2) m'); [lia|exact (LF m' Q)]. }
          apply (later many (S m2) m3); [exact Lm3|].
          apply (few_or st ob NA). intros FE. pose proof (no_reply _ _ _ _ _ _ W FE) as NR.
          destruct AW as [(r & R & _)|(j & (sc & q & C1 & C2) & C3 & C4)]; [destruct (NR _ R)|]. apply now. right. right. exists (ev_id e), c, j, sc, q.
          split; [exact (PairLive.still ob SideA _ _ _ Lm3 HL)|]. auto.
        + apply (IH (Some (Err er)) (S m)). eapply tst_after; [|exact HS]; exact Et.
        + apply now. right. left. rewrite EA, <- Ho. apply in_or_app. right. left. reflexivity.
      - apply some_pair in HS. destruct HS as [HS Ho]. apply (IH v (S m)). eapply tst_after; [|exact HS]; exact Et.
      - apply some_pair in HS. destruct HS as [HS Ho]. apply (IH (S m)). eapply tst_after; [|exact HS]. unfold add_task. cbn [e_tasks]. rewrite nth_error_app1 by (apply nth_error_Some; congruence). exact Et.
    Qed.
  End Task.
  Lemma first_seen' sd (q : obs -> bool) n m : (n <= m)%nat -> existsb q (at' sd m) = true -> existsb q (at' sd n) = false -> exists k, (n <= k < m)%nat /\ existsb q (at' sd k) = false /\ existsb q (at' sd (S k)) = true.
  Proof.
    clear NA.
    intros L H N. induction L as [|m L IH]; [congruence|]. destruct (existsb q (at' sd m)) eqn:E; [|exists m; auto]. destruct (IH eq_refl) as (k & A & B). exists k. split; [lia|exact B].
  Qed.

  (** the call of a handler *)
  Lemma call_starts' sd j ctx sc q n m : (n <= m)%nat -> In (OCalled 0 j ctx sc q) (at' sd m) -> (forall c' sc', ~ In (OCalled 0 j c' sc' q) (at' sd n)) ->
    exists r sc' , (n <= r < m)%nat /\ In (OCalled 0 j (mk_context 0 (Some (ev_id q))) sc' q) (at' sd (S r))
      /\ tst (eps sd (S r)) j = Some (TRun (match eh_get (callbacks (cf sd) sc') (ev_name q) with Some cb => cb (mk_context 0 (Some (ev_id q))) q | None => PRet (inl []) end)).
  Proof.
    clear NA.
    intros L H N. destruct (own_run _ _ _ _ _ _ EN CK sd m) as (lm & RM & _). destruct (called_job _ _ _ _ _ _ _ _ _ _ _ _ _ RM H) as (sm & Jm & Cm & _).
    assert (SAME : forall k n' c' sc' q', (k <= m)%nat -> In (OCalled n' j c' sc' q') (at' sd k) -> n' = 0%nat /\ c' = ctx /\ q' = q).
    { intros k n' c' sc' q' Lk Q. apply (PairLive.still ob sd k m) in Q; [|exact Lk]. destruct (called_job _ _ _ _ _ _ _ _ _ _ _ _ _ RM Q) as (s' & J' & _). rewrite Jm in J'. injection J' as <- <-.
      split; [eapply called_zero; eauto|auto]. }
    set (p := fun o => match o with OCalled _ j' _ _ _ => Nat.eqb j' j | _ => false end).
    assert (PX : forall tr, existsb p tr = true -> exists n' c' sc0 q', In (OCalled n' j c' sc0 q') tr).
    { intros tr E. apply existsb_exists in E. destruct E as (o & E1 & E2). destruct o; try discriminate E2. cbn in E2. apply Nat.eqb_eq in E2. subst. eauto. }
    destruct (first_seen' sd p n m L) as (r & Lr & F1 & F2).
    - apply existsb_exists. eexists. split; [exact H|]. cbn. apply Nat.eqb_refl.
    - destruct (existsb p (at' sd n)) eqn:E; [|reflexivity]. exfalso. destruct (PX _ E) as (n' & c' & sc0 & q' & E1).
      destruct (SAME n _ _ _ _ L E1) as (-> & -> & ->). exact (N _ _ E1).
    - destruct (PX _ F2) as (n' & c' & sc0 & q' & E1). destruct (SAME (S r) _ _ _ _ ltac:(lia) E1) as (-> & -> & ->).
      assert (NO : forall os, at' sd (S r) = at' sd r ++ os -> In (OCalled 0 j (mk_context 0 (Some (ev_id q))) sc0 q) os).
      { intros os E. rewrite Cm in E1. rewrite E in E1. apply in_app_or in E1. destruct E1 as [E1|E1]; [|exact E1]. exfalso. assert (T : existsb p (at' sd r) = true) by (apply existsb_exists; eexists; split; [exact E1|cbn; apply Nat.eqb_refl]). congruence. }
      assert (K : forall l os, step (cf sd) (eps sd r) l = Some (eps sd (S r), os) -> at' sd (S r) = at' sd r ++ os -> exists sc', In (OCalled 0 j (mk_context 0 (Some (ev_id q))) sc' q) (at' sd (S r))
        /\ tst (eps sd (S r)) j = Some (TRun (match eh_get (callbacks (cf sd) sc') (ev_name q) with Some cb => cb (mk_context 0 (Some (ev_id q))) q | None => PRet (inl []) end))).
      { intros l os HS EA. specialize (NO _ EA). destruct (step_task _ _ _ _ _ j HS) as [l EB EN'|a tk s1 Z1 Z2 Z3|l q1 Z1 Z2 Z3|l n1 sc1 e1 Z1 Z2 Z3].
        - exfalso. destruct (quiet_sent _ _ EB) as (_ & _ & C). exact (C _ _ _ _ NO).
        - exfalso. exact (called_not_step _ _ _ _ _ _ _ _ _ _ _ Z2 NO).
        - exfalso. rewrite Z2 in NO. exact NO.
        - assert (Q : OCalled n1 j (mk_context n1 (Some (ev_id e1))) sc1 e1 = OCalled 0 j (mk_context 0 (Some (ev_id q))) sc0 q) by (destruct Z2 as [-> | ->]; cbn in NO; repeat (destruct NO as [NO|NO]; try discriminate NO); try contradiction; exact NO).
          assert (Q0 : n1 = 0%nat /\ e1 = q /\ sc1 = sc0) by (inversion Q; auto). destruct Q0 as (-> & -> & ->). exists sc0. split; [rewrite Cm in E1; exact E1|]. unfold tst. rewrite Z3. reflexivity. }
      destruct (view _ _ _ _ _ _ EN sd r) as [_ EA _ _ _|l os _ _ HS EA _ _|e os _ _ HS EA].
      + exfalso. rewrite <- (app_nil_r (at' sd r)) in EA. exact (NO _ EA).
      + destruct (K _ _ HS EA) as (sc' & K1 & K2). exists r, sc'. auto.
      + destruct (K _ _ HS EA) as (sc' & K1 & K2). exists r, sc'. auto.
  Qed.


  (** ** Handlers of the server end *)
  Definition hover j q (n : nat) : Prop := In (OPanicked j) (at' SideB n) \/ exists r ctx a, In (OReturned j r) (at' SideB n) /\ In (OSent j ctx a) (at' SideB n) /\ answers (cf SideB) q r a.
  Lemma server_code_ends p : finishes p -> forall own, replier own p -> forall n j ctx sc q, In (OCalled 0 j ctx sc q) (at' SideB n) -> tst (eps SideB n) j = Some (TRun p) -> within n (hover j q).
  Proof.
    clear NA.
    intros FN. induction FN as [r| |rq k Hk IH|rq k Hk IH|k Hk IH|p2 k Hk IH]; intros own RP n j ctx sc q HC HT; inversion RP as [r0|  |rq0 k0 RC RK|k0 RK]; subst; (eapply acts_once'; [exact HT|exact Coq.Init.Logic.I|]); intros m a tk os Lm Et Es HS EA NC;
      unfold task_step in HS; rewrite Et, Es in HS; (destruct a as [t v| | |]; try discriminate HS); unfold run_prog in HS; cbn zeta in HS;
      pose proof (PairLive.still ob SideB n m _ Lm HC) as HC'; assert (HCS : In (OCalled 0 j ctx sc q) (at' SideB (S m))) by (rewrite EA; apply in_or_app; auto).
    - rewrite (called_job_at cf ps ctr f st ob EN CK _ _ _ _ _ _ _ HC' Et) in HS. destruct (answer_event (cf SideB) ctx (nth_id t (e_ctr (eps SideB m))) r) as [a| |]; try discriminate HS. apply some_pair in HS. destruct HS as [HS Ho].
      assert (T : tst (eps SideB (S m)) j = Some (TSend ctx a (ForAnswer (match r with inl _ => true | inr _ => false end)))) by (eapply tst_after; [|exact HS]; exact Et).
      eapply within_imp; [exact (sends_t cf ps ctr f st ob EN many SideB (FT SideB) _ _ _ _ _ T)|]. intros m' Lm' Q. right. exists r, ctx, a.
      split; [apply (PairLive.still ob SideB (S m)); [exact Lm'|]; rewrite EA, <- Ho; apply in_or_app; right; left; reflexivity|]. split; [exact Q|].
      destruct (own_run _ _ _ _ _ _ EN CK SideB (S m)) as (ls & RA & _). pose proof (inv_task _ _ _ _ _ _ _ _ RA j) as TT. unfold tst in T. destruct (nth_error (e_tasks (eps SideB (S m))) j) as [tk'|] eqn:Et'; [|discriminate T]. cbn in T. injection T as T.
      destruct TT as [_ TT]. rewrite T, (called_job_at cf ps ctr f st ob EN CK _ _ _ _ _ _ _ HCS Et') in TT. cbn [state_trace] in TT. destruct TT as (x & r' & E1 & _ & E2 & E3 & _). injection E1 as <-.
      assert (RT : In r (returned j (at' SideB (S m)))) by (rewrite EA, <- Ho, returned_app; apply in_or_app; right; cbn; rewrite Nat.eqb_refl; left; reflexivity).
      rewrite E2 in RT. destruct RT as [->|[]]. exact E3.
    - apply some_pair in HS. destruct HS as [_ Ho]. apply now. left. rewrite EA, <- Ho. apply in_or_app. right. left. reflexivity.
    - destruct (rq_payload rq) as [d|er|cr]; apply some_pair in HS; destruct HS as [HS Ho].
      + assert (T : tst (eps SideB (S m)) j = Some (TSend (rq_ctx rq) (event_for rq (nth_id t (e_ctr (eps SideB m))) d) (ForEmit k))) by (eapply tst_after; [|exact HS]; exact Et).
        eapply acts_once'; [exact T|exact Coq.Init.Logic.I|]. intros m2 a2 tk2 os2 Lm2 Et2 Es2 HS2 EA2 NC2. unfold task_step in HS2. rewrite Et2, Es2 in HS2.
        destruct a2; try discriminate HS2; apply some_pair in HS2; destruct HS2 as [HS2 Ho2]; rewrite <- Ho2 in NC2; try discriminate NC2.
        apply (IH (Some (Ok (ev_id (event_for rq (nth_id t (e_ctr (eps SideB m))) d)))) _ (RK _) (S m2) j ctx sc q); [apply (PairLive.still ob SideB (S m)); [lia|exact HCS]|eapply tst_after; [|exact HS2]; exact Et2].
      + apply (IH (Some (Err er)) _ (RK _) (S m) j ctx sc q HCS). eapply tst_after; [|exact HS]; exact Et.
      + apply now. left. rewrite EA, <- Ho. apply in_or_app. right. left. reflexivity.
    - apply some_pair in HS. destruct HS as [HS Ho]. apply (IH v _ (RK _) (S m) j ctx sc q HCS). eapply tst_after; [|exact HS]; exact Et.
  Qed.
  Lemma handler_over n j ctx sc q : handlers_finish (cf SideB) -> In (OCalled 0 j ctx sc q) (at' SideB n) -> within n (hover j q).
  Proof.
    clear NA.
    intros AF H. destruct (call_starts' SideB j ctx sc q 0 n ltac:(lia) H ltac:(intros ? ? [])) as (r & sc' & Lr & CR & TR).
    assert (FN : finishes (match eh_get (callbacks (cf SideB) sc') (ev_name q) with Some cb => cb (mk_context 0 (Some (ev_id q))) q | None => PRet (inl []) end)).
    { destruct (eh_get (callbacks (cf SideB) sc') (ev_name q)) as [cb|] eqn:Eh; [exact (AF _ _ _ Eh _ _)|constructor]. }
    assert (RP : replier (mk_context 0 (Some (ev_id q))) (match eh_get (callbacks (cf SideB) sc') (ev_name q) with Some cb => cb (mk_context 0 (Some (ev_id q))) q | None => PRet (inl []) end)).
    { destruct (eh_get (callbacks (cf SideB) sc') (ev_name q)) as [cb|] eqn:Eh; [exact (RO _ _ _ Eh _ _)|constructor]. }
    destruct (server_code_ends _ FN _ RP (S r) j _ _ _ CR TR) as (m & Lm & [g|p]); exists (max m n); (split; [lia|]).
    - left. intros FE. apply g. clear - FE EN. revert FE. generalize (Nat.le_max_l m n). generalize (max m n). intros m3 L FE. induction L as [|m3 L IH]; [exact FE|]. apply IH. destruct (view _ _ _ _ _ _ EN SideA m3) as [E _ _ _ _|l os _ _ HS _ _ _|e os _ _ HS _]; [rewrite E in FE; exact FE| |]; apply step_ctr in HS; unfold few_events in *; lia.
    - right. destruct p as [p|(r0 & c0 & a & p1 & p2 & p3)].
      + left. apply (PairLive.still ob SideB m); [lia|exact p].
      + right. exists r0, c0, a. split; [apply (PairLive.still ob SideB m); [lia|exact p1]|]. split; [apply (PairLive.still ob SideB m); [lia|exact p2]|exact p3].
  Qed.
End Programs.
