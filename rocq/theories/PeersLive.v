(** Proofs about endless runs of two endpoints that both ask and answer: nested requests are answered. *)
From Verif Require Import Base BaseFacts BuilderFacts Codec Spec Ids IdsFacts Payload Builder Emit EmitFacts Ipc SpecIpc IpcFacts IpcChanFacts IpcUsers IpcLoops IpcTasks IpcIds IpcReplies IpcStreams IpcClaims IpcMore IpcFlow IpcLimits IpcRemoved IpcFate Pair SpecPair PairFacts PairServer PairEnd PairRest SpecLive PairLive Bounded SpecBounded BoundedFacts SpecOrder OrderFacts SpecPeers PeersFacts PeersRest SpecNested.
From Coq Require Import ZifyBool ZifyNat ZifyN.

Section Nested.
  Context (cf : side -> config) (ps : side -> list prog) (ctr : side -> N) (f : nat -> option plabel) (st : nat -> pair) (ob : nat -> list (side * obs)).
  Hypothesis EN : endless cf ps ctr f st ob.
  Hypothesis CK : clocks f.
  Hypothesis FL : fair_loops cf f st.
  Hypothesis PH : forall sd, plain_handlers (cf sd).
  Hypothesis PP : forall sd, Forall (plain_code None) (ps sd).
  Let PH' sd : polite_handlers (cf sd) := plain_polite_handlers _ (PH sd).
  Let PP' sd : Forall (polite None) (ps sd) := plain_polite_all _ _ (PP sd).
  Local Notation at' sd n := (at_side sd (so_far ob n)).
  Local Notation eps sd n := (p_ep (st n) sd).
  Local Notation many := (too_many st).
  Local Notation within := (within many).
  Hypothesis FT : forall sd, turns cf f st many sd.

  Lemma ctr_mono sd n m : (n <= m)%nat -> e_ctr (eps sd n) <= e_ctr (eps sd m).
  Proof.
    intros L. induction L as [|m L IH]; [lia|]. destruct (view _ _ _ _ _ _ EN sd m) as [E _ _ _ _|l os _ _ HS _ _ _|e os _ _ HS _]; [rewrite E; exact IH| |]; apply step_ctr in HS; lia.
  Qed.
  Lemma few_back sd n m : (n <= m)%nat -> few_events (eps sd m) -> few_events (eps sd n).
  Proof. intros L FE. pose proof (ctr_mono sd n m L). unfold few_events in *. lia. Qed.
  (** the number of ids made *)
  Definition made (n : nat) : N := e_ctr (eps SideA n) + e_ctr (eps SideB n).
  Lemma made_mono n m : (n <= m)%nat -> made n <= made m.
  Proof. intros L. pose proof (ctr_mono SideA n m L). pose proof (ctr_mono SideB n m L). unfold made. lia. Qed.
  Lemma made_more sd n : e_ctr (eps sd n) < e_ctr (eps sd (S n)) -> made n < made (S n).
  Proof. intros L. pose proof (ctr_mono SideA n (S n) ltac:(lia)). pose proof (ctr_mono SideB n (S n) ltac:(lia)). unfold made. destruct sd; lia. Qed.
  Lemma few_both n P : ((forall sd, few_events (eps sd n)) -> within n P) -> within n P.
  Proof.
    intros H. destruct (N.le_gt_cases (e_ctr (eps SideA n)) (2 ^ 32)) as [LA|LA].
    - destruct (N.le_gt_cases (e_ctr (eps SideB n)) (2 ^ 32)) as [LB|LB]; [apply H; intros []; assumption|].
      exists n. split; [lia|]. left. exists SideB. unfold few_events. lia.
    - exists n. split; [lia|]. left. exists SideA. unfold few_events. lia.
  Qed.
  Lemma side_run sd n : exists ls, runs (cf sd) 1 (side_eqb sd SideA) (ps sd) (ctr sd) ls (eps sd n) (at' sd n) /\ good_clock ls /\ no_write_failure ls /\ no_close ls /\ existsb is_cut (at' sd n) = false.
  Proof. exact (own_run _ _ _ _ _ _ EN CK sd n). Qed.
  Lemma not_aborted sd n : ~ In (OAborted 0) (at' sd n).
  Proof.
    intros Q. destruct (prefix _ _ _ _ _ _ EN CK n) as (ls & HR & _). destruct (side_run sd n) as (la & RA & _). pose proof (aborted_done _ _ _ _ _ _ _ _ RA _ Q) as L.
    destruct (t_conns _ _ (side_tame cf ps ctr PH PP _ _ _ sd HR)) as (l & arm & C & D). unfold lp in L. rewrite C in L. cbn in L. congruence.
  Qed.
  Lemma no_streams sd n j h y c : ~ In (OOpened j h y c) (at' sd n).
  Proof.
    intros Q. destruct (prefix _ _ _ _ _ _ EN CK n) as (ls & HR & _). destruct (side_run sd n) as (la & RA & _). destruct (opened_stream _ _ _ _ _ _ _ _ RA _ _ _ _ Q) as (s & Z & _).
    rewrite (t_streams _ _ (side_tame cf ps ctr PH PP _ _ _ sd HR)) in Z. destruct h; discriminate Z.
  Qed.
  Lemma always_drained sd : drained ob sd.
  Proof. intros n j h y c Q. destruct (no_streams _ _ _ _ _ _ Q). Qed.
  Lemma loop_reads sd n : p_in (st n) sd <> [] -> within n (fun k => f k = Some (PDeliver sd)).
  Proof. exact (PairLive.reads_t cf ps ctr f st ob EN CK many sd (FT sd) FL (always_drained sd) (not_aborted sd) n). Qed.
  Lemma loop_places sd n c e : lp (eps sd n) 0 = Some (LSend c e) -> within n (fun k => placing f sd k /\ lp (eps sd k) 0 = Some (LSend c e)).
  Proof. exact (places_t cf ps ctr f st ob EN CK many sd (FT sd) FL (always_drained sd) (not_aborted sd) n c e). Qed.
  Lemma first_seen sd (q : obs -> bool) n m : (n <= m)%nat -> existsb q (at' sd m) = true -> existsb q (at' sd n) = false -> exists k, (n <= k < m)%nat /\ existsb q (at' sd k) = false /\ existsb q (at' sd (S k)) = true.
  Proof.
    intros L H N. induction L as [|m L IH]; [congruence|]. destruct (existsb q (at' sd m)) eqn:E; [|exists m; auto]. destruct (IH eq_refl) as (k & A & B). exists k. split; [lia|exact B].
  Qed.

  (** ** Steps of tasks *)
  Definition moves (s0 : tstate) : Prop := match s0 with TRun (PNext _ _) | TRun (PStop _ _) => False | TRun _ | TRegister _ _ _ | TSend _ _ _ | TGot _ _ _ _ => True | _ => False end.
  Lemma moves_on sd n i s0 : tst (eps sd n) i = Some s0 -> moves s0 -> ~ stuck (cf sd) (eps sd n) i.
  Proof.
    intros B M SK. specialize (SK (mk_instant 0 0) 0). cbn [step] in SK. unfold task_step in SK. unfold tst in B. destruct (nth_error (e_tasks (eps sd n)) i) as [tk|]; [|discriminate]. cbn in B. injection B as B. rewrite B in SK.
    destruct s0 as [p|? ? ?|? ? pu|? ? ?|? ? e ?|? ?|? ? ?|?| |]; try destruct M; try discriminate SK.
    - destruct p as [r| |rq k|rq k|rq k|h k|h k|k|q k]; try destruct M; unfold run_prog in SK; cbn zeta in SK; try discriminate SK; try (destruct (rq_payload rq); discriminate SK).
      destruct (tk_job tk) as [[ctx x]|]; [|discriminate SK]. destruct (answer_ok (cf sd) ctx (nth_id (mk_instant 0 0) (e_ctr (eps sd n))) r) as (a & Ha). rewrite Ha in SK. discriminate.
    - destruct pu; discriminate SK.
    - cbn zeta in SK. destruct (reply_result (cf_env (cf sd)) e); discriminate SK.
  Qed.
  Lemma acts_once sd i s0 n Q : tst (eps sd n) i = Some s0 -> moves s0 ->
    (forall m a tk os, (n <= m)%nat -> nth_error (e_tasks (eps sd m)) i = Some tk -> tk_st tk = s0 -> task_step (cf sd) (eps sd m) i a = Some (eps sd (S m), os) -> at' sd (S m) = at' sd m ++ os -> existsb is_cut os = false -> within (S m) Q) -> within n Q.
  Proof.
    intros H M K. apply (task_lead_t cf ps ctr f st ob EN many sd (FT sd) i s0 (fun _ => True) Q n); auto.
    - intros m _ _ B SK. destruct (moves_on _ _ _ _ B M SK).
    - intros m a L _ B E. apply (later many m (S m)); [lia|]. destruct (act_view _ _ _ _ _ _ EN _ _ _ _ E) as (os & HS & EA & NC). unfold tst in B. destruct (nth_error (e_tasks (eps sd m)) i) as [tk|] eqn:Et; [|discriminate]. cbn in B. injection B as B. eauto.
  Qed.
  Lemma tst_after sd n i s0 s1 tk : nth_error (e_tasks s1) i = Some tk -> set_task i s0 s1 = eps sd (S n) -> tst (eps sd (S n)) i = Some s0.
  Proof. intros E <-. apply tst_set_task. congruence. Qed.

  (** ** A request, while its task waits *)
  Section Request.
    Context (sd : side) (i : nat) (c : nat) (ctx : context) (e : event) (k : option (outcome event) -> prog).
    Local Notation x := (ev_id e).
    Definition waits (n : nat) : Prop := tst (eps sd n) i = Some (TSend ctx e (ForAwait c k)) \/ tst (eps sd n) i = Some (TWait c x k) \/ exists e', tst (eps sd n) i = Some (TGot c x e' k).
    Definition left (n : nat) : Prop := (exists r, tst (eps sd n) i = Some (TRun (k r)) /\ In (OReply i x r) (at' sd n)) \/ In (OPanicked i) (at' sd n).
    Lemma waits_chan n : waits n -> exists s0, tst (eps sd n) i = Some s0 /\ tchan s0 = Some c /\ (s0 = TSend ctx e (ForAwait c k) \/ s0 = TWait c x k \/ exists e', s0 = TGot c x e' k).
    Proof. intros [H|[H|(e' & H)]]; eexists; split; eauto; split; eauto. Qed.
    Lemma waits_step n : waits n -> waits (S n) \/ left (S n).
    Proof.
      intros H. destruct (acts_dec f n sd i) as [(a & E)|N].
      2:{ left. destruct H as [H|[H|(e' & H)]]; [left|right; left|right; right; exists e']; eapply task_stays; eauto. }
      destruct (act_view _ _ _ _ _ _ EN _ _ _ _ E) as (os & HS & EA & NC). unfold waits in H. unfold tst in H. destruct (nth_error (e_tasks (eps sd n)) i) as [tk|] eqn:Et.
      2:{ destruct H as [H|[H|(e' & H)]]; discriminate H. }
      cbn [option_map] in H. unfold task_step in HS. rewrite Et in HS. unfold left. rewrite EA.
      destruct H as [H|[H|(e' & H)]]; injection H as H; rewrite H in HS.
      - destruct a; try discriminate HS; apply some_pair in HS; destruct HS as [HS Ho]; rewrite <- Ho in NC; try discriminate NC.
        left. right. left. eapply tst_after; eauto.
      - destruct a; try discriminate HS.
        + destruct (nth_error (e_chans (eps sd n)) c) as [ch|]; [|discriminate HS]. destruct (ch_buf ch) as [|e1 b].
          * destruct (has_sender (eps sd n) c); [discriminate HS|]. apply some_pair in HS. destruct HS as [HS Ho]. right. left. eexists. split; [eapply tst_after; [|exact HS]; autorewrite with ep; exact Et|].
            apply in_or_app. right. rewrite <- Ho. right. left. reflexivity.
          * apply some_pair in HS. destruct HS as [HS Ho]. left. right. right. exists e1. eapply tst_after; [|exact HS]. autorewrite with ep. exact Et.
        + apply some_pair in HS. destruct HS as [HS Ho]. right. left. eexists. split; [eapply tst_after; [|exact HS]; autorewrite with ep; exact Et|]. apply in_or_app. right. rewrite <- Ho. right. left. reflexivity.
        + apply some_pair in HS. destruct HS as [HS Ho]. right. left. eexists. split; [eapply tst_after; [|exact HS]; autorewrite with ep; exact Et|]. apply in_or_app. right. rewrite <- Ho. right. left. reflexivity.
      - destruct a; try discriminate HS. cbn zeta in HS. right. destruct (reply_result (cf_env (cf sd)) e') as [r|er|cr]; apply some_pair in HS; destruct HS as [HS Ho].
        + left. eexists. split; [eapply tst_after; [|exact HS]; autorewrite with ep; exact Et|]. apply in_or_app. right. rewrite <- Ho. right. right. left. reflexivity.
        + left. eexists. split; [eapply tst_after; [|exact HS]; autorewrite with ep; exact Et|]. apply in_or_app. right. rewrite <- Ho. right. right. left. reflexivity.
        + right. apply in_or_app. right. rewrite <- Ho. right. right. left. reflexivity.
    Qed.
    Lemma waits_on n : waits n -> forall m, (n <= m)%nat -> waits m \/ exists m', (n <= m' <= m)%nat /\ left m'.
    Proof.
      intros H m L. induction L as [|m L IH]; [auto|]. destruct IH as [IH|(m' & A & B)]; [|right; exists m'; split; [lia|exact B]].
      destruct (waits_step m IH) as [Q|Q]; [auto|]. right. exists (S m). split; [lia|exact Q].
    Qed.
    Lemma waits_bind n P (Q : nat -> Prop) : waits n -> (forall m, left m -> Q m) -> within n P -> (forall m, (n <= m)%nat -> waits m -> P m -> within m Q) -> within n Q.
    Proof.
      intros H LQ (m & L & [g|p]) K; [exists m; auto|]. destruct (waits_on n H m L) as [W|(m' & L' & W)].
      - apply (later many n m); [exact L|]. auto.
      - exists m'. split; [lia|]. right. auto.
    Qed.
    Lemma act_leaves n a s0 : waits n -> tst (eps sd n) i = Some s0 -> tchan s0 = Some c -> f n = Some (PDo sd (LTask i a)) ->
      left (S n) \/ (waits (S n) /\ exists s1, tst (eps sd (S n)) i = Some s1 /\ tchan s1 = Some c /\ (rank s1 < rank s0)%nat).
    Proof.
      intros W T C E. destruct (waits_step n W) as [Q|Q]; [right|left; exact Q]. split; [exact Q|]. destruct (waits_chan _ Q) as (s1 & A & B & _). exists s1. split; [exact A|]. split; [exact B|].
      exact (act_rank cf ps ctr f st ob EN many sd (not_aborted sd) n i a s0 s1 c E T C A B).
    Qed.
    Lemma open_listener n : waits n -> In (OListen i x c) (at' sd n) /\ gone_b c (at' sd n) = false /\ exists ch, nth_error (e_chans (eps sd n)) c = Some ch /\ queued c (at' sd n) = taken c (at' sd n) ++ ch_buf ch.
    Proof.
      intros W. destruct (waits_chan _ W) as (s0 & A & B & D). destruct (side_run sd n) as (ls & HR & _). pose proof (inv_users _ _ _ _ _ _ _ _ HR) as U. destruct (u_task _ U _ _ _ A B) as (ch & Hc & _ & Ho).
      pose proof (inv_chan _ _ _ _ _ _ _ _ HR c) as CT. rewrite Hc in CT. destruct CT as (C1 & _ & _ & rest & C3 & C4). rewrite Ho in C1. specialize (C4 Ho). subst rest.
      split; [|split; [exact C1|exists ch; auto]]. pose proof (inv_ask _ _ _ _ _ _ _ _ HR _ _ A) as AK. destruct D as [->|[->|(e' & ->)]]; cbn in AK; [apply AK|apply (proj1 AK)|apply (proj1 AK)].
    Qed.
    (** something is in its queue: it goes on *)
    Lemma queued_leaves n : waits n -> queued c (at' sd n) <> [] -> within n left.
    Proof.
      intros W HQ.
      assert (R : forall r m s0, (n <= m)%nat -> (rank s0 <= r)%nat -> waits m -> tst (eps sd m) i = Some s0 -> tchan s0 = Some c -> within m left).
      { induction r as [|r IH]; intros m s0 Lm Lr WM HT HC.
        - exfalso. destruct s0 as [?|? ? ?|? ? [?|?|?|?]|? ? ?|? ? ? ?|?|?|?| |]; try discriminate HC; cbn in Lr; lia.
        - apply (task_lead_t cf ps ctr f st ob EN many sd (FT sd) i s0 waits left m); auto.
          + intros k' _ A _. destruct (waits_step _ A) as [Q|Q]; [auto|]. left. apply (later many k' (S k')); [lia|]. apply now. exact Q.
          + intros k' Lk A B SK. exfalso. destruct (open_listener _ A) as (_ & _ & ch & C1 & C3). destruct (side_run sd k') as (la & RA & _).
            pose proof (inv_ask _ _ _ _ _ _ _ _ RA _ _ B) as AK.
            destruct s0 as [?|? ? ?|? ? [?|?|?|?]|d rid k0|d rid e1 k0|?|?|?| |]; try discriminate HC; try (eapply moves_on; [exact B|exact Coq.Init.Logic.I|exact SK]).
            specialize (SK (mk_instant 0 0) 0). cbn [step] in SK. unfold task_step in SK. unfold tst in B. destruct (nth_error (e_tasks (eps sd k')) i) as [tk|] eqn:Et; [|discriminate]. cbn in B. injection B as B. rewrite B in SK.
            cbn in HC. injection HC as ->. rewrite C1 in SK. cbn in AK. destruct AK as [_ AK]. rewrite AK in C3. cbn in C3. destruct (ch_buf ch); [|discriminate SK].
            destruct (grows ob sd n k' ltac:(lia)) as (os & Eo). rewrite Eo in C3. unfold queued in C3. rewrite flat_map_app in C3. apply app_eq_nil in C3. destruct C3 as [C3 _]. exact (HQ C3).
          + intros k' a Lk A B E. apply (later many k' (S k')); [lia|]. destruct (act_leaves _ _ _ A B HC E) as [Q|(Q & s1 & Q1 & Q2 & Q3)]; [apply now; exact Q|]. apply (IH (S k') s1); auto; lia. }
      destruct (waits_chan _ W) as (s0 & A & B & _). eapply (R (rank s0)); eauto.
    Qed.
    (** a reply has been read: it goes on *)
    Lemma received_leaves n : waits n -> received_for 0 x (at' sd n) <> [] -> within n left.
    Proof.
      intros W HQ.
      assert (R : forall r m s0, (n <= m)%nat -> (rank s0 <= r)%nat -> waits m -> tst (eps sd m) i = Some s0 -> tchan s0 = Some c -> within m left).
      { induction r as [|r IH]; intros m s0 Lm Lr WM HT HC.
        - exfalso. destruct s0 as [?|? ? ?|? ? [?|?|?|?]|? ? ?|? ? ? ?|?|?|?| |]; try discriminate HC; cbn in Lr; lia.
        - apply (task_lead_t cf ps ctr f st ob EN many sd (FT sd) i s0 waits left m); auto.
          + intros k' _ A _. destruct (waits_step _ A) as [Q|Q]; [auto|]. left. apply (later many k' (S k')); [lia|]. apply now. exact Q.
          + intros k' Lk A B SK.
            destruct s0 as [?|? ? ?|? ? [?|?|?|?]|d rid k0|d rid e1 k0|?|?|?| |]; try discriminate HC; try (exfalso; eapply moves_on; [exact B|exact Coq.Init.Logic.I|exact SK]).
            cbn in HC. injection HC as ->. assert (E : rid = x /\ k0 = k) by (destruct (waits_chan _ A) as (s1 & B1 & _ & [->|[->|(e' & ->)]]); rewrite B in B1; try discriminate B1; injection B1 as -> ->; auto). destruct E as [-> ->].
            apply few_both. intros FE.
            destruct (prefix _ _ _ _ _ _ EN CK k') as (ls & HR & GC). destruct (project _ _ _ _ _ _ _ HR sd) as (la & RA & GA & _). specialize (GA GC).
            destruct (open_listener _ A) as (HL & G & ch & C1 & C3). pose proof (inv_ask _ _ _ _ _ _ _ _ RA _ _ B) as AK. cbn in AK. destruct AK as [_ AK].
            assert (D : (exists e0, lp (eps sd k') 0 = Some (LSend c e0)) \/ forall e0, lp (eps sd k') 0 <> Some (LSend c e0)).
            { destruct (lp (eps sd k') 0) as [[|d e0|]|]; try (right; discriminate). destruct (Nat.eq_dec d c) as [->|N]; [left; eauto|right; congruence]. }
            destruct D as [(e0 & El)|NL].
            * apply (waits_bind k' _ _ A (fun _ p => p) (loop_places _ _ _ _ El)). intros m' Lm' W' [P1 P2].
              destruct (waits_step _ W') as [W2|Q]; [|apply (later many m' (S m')); [lia|]; apply now; exact Q]. apply (later many m' (S m')); [lia|]. apply queued_leaves; [exact W2|].
              unfold placing in P1. destruct (view _ _ _ _ _ _ EN sd m') as [_ _ E _ _|l os E EO HS EA _ _|e' os E _ HS _]; [destruct (E _ P1)| |congruence]. rewrite E in P1. injection P1 as ->.
              destruct (lp_placed _ _ _ _ HS) as (_ & d & e2 & X1 & X2). assert (Q : d = c /\ e2 = e0) by (split; congruence). destruct Q as [-> ->].
              destruct (waits_chan _ W') as (s1 & T1 & T2 & _). destruct (side_run sd m') as (lm & RM & _). pose proof (inv_users _ _ _ _ _ _ _ _ RM) as U. destruct (u_task _ U _ _ _ T1 T2) as (ch1 & Hc1 & _ & Ho1).
              rewrite EA, (X2 _ Hc1 Ho1). unfold queued. rewrite flat_map_app. cbn. rewrite Nat.eqb_refl. intros Z. destruct (app_cons_not_nil _ _ _ (eq_sym Z)).
            * exfalso. rewrite AK in C3. cbn in C3.
              assert (EB : ch_buf ch = []).
              { specialize (SK (mk_instant 0 0) 0). cbn [step] in SK. unfold task_step in SK. unfold tst in B. destruct (nth_error (e_tasks (eps sd k')) i) as [tk|] eqn:Et; [|discriminate]. cbn in B. injection B as B. rewrite B in SK.
                rewrite C1 in SK. destruct (ch_buf ch); [reflexivity|discriminate SK]. }
              assert (NL' : forall n1 e0, lp (eps sd k') n1 <> Some (LSend c e0)).
              { intros [|n1] e0; [apply NL|]. pose proof (conns_len _ _ _ _ _ _ _ _ RA) as L. unfold lp. rewrite (proj2 (nth_error_None _ _)) by lia. discriminate. }
              destruct (still_listening _ _ _ _ _ _ _ _ _ _ _ _ RA GA (FE sd) B ltac:(rewrite C1; cbn; congruence) SK NL') as (LK & _ & Qc).
              apply in_split in HL. destruct HL as (a1 & b1 & Sp).
              assert (NE : received_for 0 x (at' sd k') <> []) by (destruct (grows ob sd n k' ltac:(lia)) as (os & ->); rewrite received_for_app; intros Z; apply app_eq_nil in Z; destruct Z as [Z _]; exact (HQ Z)).
              rewrite Sp, received_for_app, (none_before cf ps ctr sd (PH' (other sd)) (PP' (other sd)) _ _ _ HR GC (FE sd) _ _ _ _ _ Sp) in NE. cbn [app] in NE. change (OListen i x c :: b1) with ([OListen i x c] ++ b1) in NE. rewrite received_for_app in NE. cbn [app] in NE.
              pose proof (flow_kept _ _ _ _ _ 0 i x c _ _ _ RA GA (FE sd) _ _ Sp LK G (not_aborted sd k')) as F. rewrite F in NE.
              pose proof RA as RA'. rewrite Sp in RA', Qc. rewrite (queued_after _ _ _ _ _ _ _ _ _ _ _ _ RA' eq_refl) in Qc. rewrite Qc in NE. apply NE. unfold held.
              destruct (lp (eps sd k') 0) as [[|d e0|]|]; try reflexivity. destruct (Nat.eqb_spec d c) as [->|]; [|reflexivity]. destruct (NL _ eq_refl).
          + intros k' a Lk A B E. apply (later many k' (S k')); [lia|]. destruct (act_leaves _ _ _ A B HC E) as [Q|(Q & s1 & Q1 & Q2 & Q3)]; [apply now; exact Q|]. apply (IH (S k') s1); auto; lia. }
      destruct (waits_chan _ W) as (s0 & A & B & _). eapply (R (rank s0)); eauto.
    Qed.
    (** the other end has replied: it goes on *)
    Lemma replied_leaves n : waits n -> replies_to x (at' (other sd) n) <> [] -> within n left.
    Proof.
      intros W H. destruct (prefix _ _ _ _ _ _ EN CK n) as (ls & HR & GC). pose proof (PeersFacts.reads cf ps ctr sd _ _ _ HR x) as RD.
      destruct (received_for 0 x (at' sd n)) as [|y l] eqn:Er; [|apply received_leaves; [exact W|congruence]]. cbn [app] in RD.
      destruct (filter (is_ref x) (p_in (st n) sd)) as [|y l] eqn:Ef; [congruence|].
      assert (Y : In y (filter (is_ref x) (p_in (st n) sd))) by (rewrite Ef; left; reflexivity). apply filter_In in Y. destruct Y as [Y1 Y2].
      apply (waits_bind n _ _ W (fun _ p => p) (delivered cf ps ctr f st ob EN many sd y (loop_reads sd) n Y1)). intros m _ Wm Q. apply received_leaves; [exact Wm|].
      destruct (side_run sd m) as (la & RA & _). rewrite (received_refs _ _ (received_zero _ _ _ _ _ _ _ RA)). intros E.
      assert (Z : In y (filter (is_ref x) (got (at' sd m)))) by (apply filter_In; auto). rewrite E in Z. exact Z.
    Qed.
    Lemma waits_pending n : waits n -> In (OSent i ctx e) (at' sd n) -> (forall s, few_events (eps s n)) -> pending (at' sd n) i x.
    Proof.
      intros W H FE. destruct (open_listener _ W) as (HL & G & _). destruct (prefix _ _ _ _ _ _ EN CK n) as (ls & HR & GC). destruct (project _ _ _ _ _ _ _ HR sd) as (la & RA & GA & _). specialize (GA GC).
      split; [eauto|]. split; [eauto|]. split.
      - intros r Q. destruct (results _ _ _ _ _ _ _ _ RA _ _ _ Q) as (d & Q1 & Q2 & _). destruct (j_unique _ _ (inv_idents _ _ _ _ _ _ _ _ RA GA (FE sd)) _ _ _ _ _ HL Q1) as (_ & <-). congruence.
      - intros Q. apply (dead_iff _ _ _ _ _ _ _ _ RA) in Q. destruct W as [W|[W|(e' & W)]]; congruence.
    Qed.
  End Request.

  (** ** What is sent is processed *)
  Lemma got_processed sd n : exists held, got (at' sd n) = processed 0 (at' sd n) ++ held /\ holds (lp (eps sd n) 0) held.
  Proof.
    destruct (prefix _ _ _ _ _ _ EN CK n) as (ls & HR & _). destruct (relayed _ _ _ _ _ _ HR sd) as (hd & RL & HD). exists hd. split; [|exact HD].
    pose proof (wires _ _ _ _ _ _ _ HR sd) as W. cbn [app] in W. rewrite wired_sent, RL, app_assoc in W. apply app_inv_tail in W. exact W.
  Qed.
  Lemma processed_app n a b : processed n (a ++ b) = processed n a ++ processed n b. Proof. apply flat_map_app. Qed.
  Lemma arrives sd n i ctx e : In (OSent i ctx e) (at' sd n) -> within n (fun m => In (drop_empty_ns e) (processed 0 (at' (other sd) m))).
  Proof.
    intros H. apply (within_bind many n (fun m => In (drop_empty_ns e) (got (at' (other sd) m)))).
    - destruct (prefix _ _ _ _ _ _ EN CK n) as (ls & HR & _). pose proof (wires _ _ _ _ _ _ _ HR (other sd)) as W. rewrite other_other in W. cbn [app] in W.
      assert (Q : In (drop_empty_ns e) (wired (at' sd n))) by (apply in_wired; eauto). rewrite <- W in Q. apply in_app_or in Q. destruct Q as [Q|Q]; [apply now; exact Q|].
      exact (delivered cf ps ctr f st ob EN many (other sd) _ (loop_reads (other sd)) n Q).
    - intros m _ Q. destruct (got_processed (other sd) m) as (hd & E & HD). rewrite E in Q. apply in_app_or in Q. destruct Q as [Q|Q]; [apply now; exact Q|].
      destruct (loop_kinds cf ps ctr f st ob EN CK (other sd) (not_aborted (other sd)) m) as [L|(c & e' & L)]; rewrite L in HD; cbn in HD; subst hd; [destruct Q|]. destruct Q as [->|[]].
      eapply within_bind; [exact (loop_places _ _ _ _ L)|]. intros k _ [P1 P2]. apply (later many k (S k)); [lia|]. apply now.
      unfold placing in P1. destruct (view _ _ _ _ _ _ EN (other sd) k) as [_ _ E' _ _|l os E' EO HS EA _ _|e2 os E' _ HS _]; [destruct (E' _ P1)| |congruence]. rewrite E' in P1. injection P1 as ->.
      rewrite EA, processed_app. apply in_or_app. right. cbn [step] in HS. unfold lp in P2. destruct (nth_error (e_conns (eps (other sd) k)) 0) as [cn|]; [|discriminate]. cbn in P2. injection P2 as P2. rewrite P2 in HS. unfold place in HS.
      destruct (nth_error (e_chans (eps (other sd) k)) c) as [ch|]; [|discriminate]. destruct (ch_open ch).
      + destruct (Nat.ltb _ _); [|discriminate]. apply some_pair in HS. destruct HS as [_ <-]. left. reflexivity.
      + unfold handle_event in HS. cbn [fst snd] in HS. apply some_pair in HS. destruct HS as [_ <-]. left. reflexivity.
  Qed.
  (** the call of a handler *)
  Lemma call_starts sd j ctx sc q n m : (n <= m)%nat -> In (OCalled 0 j ctx sc q) (at' sd m) -> (forall c' sc', ~ In (OCalled 0 j c' sc' q) (at' sd n)) ->
    exists r sc' , (n <= r < m)%nat /\ In (OCalled 0 j (mk_context 0 (Some (ev_id q))) sc' q) (at' sd (S r))
      /\ tst (eps sd (S r)) j = Some (TRun (match eh_get (callbacks (cf sd) sc') (ev_name q) with Some cb => cb (mk_context 0 (Some (ev_id q))) q | None => PRet (inl []) end)).
  Proof.
    intros L H N. destruct (side_run sd m) as (lm & RM & _). destruct (called_job _ _ _ _ _ _ _ _ _ _ _ _ _ RM H) as (sm & Jm & Cm & _).
    assert (SAME : forall k n' c' sc' q', (k <= m)%nat -> In (OCalled n' j c' sc' q') (at' sd k) -> n' = 0%nat /\ c' = ctx /\ q' = q).
    { intros k n' c' sc' q' Lk Q. apply (PairLive.still ob sd k m) in Q; [|exact Lk]. destruct (called_job _ _ _ _ _ _ _ _ _ _ _ _ _ RM Q) as (s' & J' & _). rewrite Jm in J'. injection J' as <- <-.
      split; [eapply called_zero; eauto|auto]. }
    set (p := fun o => match o with OCalled _ j' _ _ _ => Nat.eqb j' j | _ => false end).
    assert (PX : forall tr, existsb p tr = true -> exists n' c' sc0 q', In (OCalled n' j c' sc0 q') tr).
    { intros tr E. apply existsb_exists in E. destruct E as (o & E1 & E2). destruct o; try discriminate E2. cbn in E2. apply Nat.eqb_eq in E2. subst. eauto. }
    destruct (first_seen sd p n m L) as (r & Lr & F1 & F2).
    - apply existsb_exists. eexists. split; [exact H|]. cbn. apply Nat.eqb_refl.
    - destruct (existsb p (at' sd n)) eqn:E; [|reflexivity]. exfalso. destruct (PX _ E) as (n' & c' & sc0 & q' & E1).
      destruct (SAME n _ _ _ _ L E1) as (-> & -> & ->). exact (N _ _ E1).
    - destruct (PX _ F2) as (n' & c' & sc0 & q' & E1). destruct (SAME (S r) _ _ _ _ ltac:(lia) E1) as (-> & -> & ->).
      assert (NO : forall os, at' sd (S r) = at' sd r ++ os -> In (OCalled 0 j (mk_context 0 (Some (ev_id q))) sc0 q) os).
      { intros os E. rewrite Cm in E1. rewrite E in E1. apply in_app_or in E1. destruct E1 as [E1|E1]; [|exact E1]. exfalso. assert (T : existsb p (at' sd r) = true) by (apply existsb_exists; eexists; split; [exact E1|cbn; apply Nat.eqb_refl]). congruence. }
      assert (K : forall l os, step (cf sd) (eps sd r) l = Some (eps sd (S r), os) -> at' sd (S r) = at' sd r ++ os -> exists sc', In (OCalled 0 j (mk_context 0 (Some (ev_id q))) sc' q) (at' sd (S r))
        /\ tst (eps sd (S r)) j = Some (TRun (match eh_get (callbacks (cf sd) sc') (ev_name q) with Some cb => cb (mk_context 0 (Some (ev_id q))) q | None => PRet (inl []) end))).
      { intros l os HS EA. specialize (NO _ EA). destruct (step_task _ _ _ _ _ j HS) as [l EB EN'|a tk s1 Z1 Z2 Z3|l q1 Z1 Z2 Z3|l n1 sc1 e1 Z1 Z2 Z3].
        - exfalso. destruct (quiet_sent _ _ EB) as (_ & _ & C). exact (C _ _ _ _ NO).
        - exfalso. exact (called_not_step _ _ _ _ _ _ _ _ _ _ _ Z2 NO).
        - exfalso. rewrite Z2 in NO. exact NO.
        - assert (Q : OCalled n1 j (mk_context n1 (Some (ev_id e1))) sc1 e1 = OCalled 0 j (mk_context 0 (Some (ev_id q))) sc0 q) by (destruct Z2 as [-> | ->]; cbn in NO; repeat (destruct NO as [NO|NO]; try discriminate NO); try contradiction; exact NO).
          assert (Q0 : n1 = 0%nat /\ e1 = q /\ sc1 = sc0) by (inversion Q; auto). destruct Q0 as (-> & -> & ->). exists sc0. split; [rewrite Cm in E1; exact E1|]. unfold tst. rewrite Z3. reflexivity. }
      destruct (view _ _ _ _ _ _ EN sd r) as [_ EA _ _ _|l os _ _ HS EA _ _|e os _ _ HS EA].
      + exfalso. rewrite <- (app_nil_r (at' sd r)) in EA. exact (NO _ EA).
      + destruct (K _ _ HS EA) as (sc' & K1 & K2). exists r, sc'. auto.
      + destruct (K _ _ HS EA) as (sc' & K1 & K2). exists r, sc'. auto.
  Qed.

  (** ** Each further question takes a new id *)
  Definition out (N : nat) sd i e k (n : nat) : Prop := left sd i e k n \/ ((N <= n)%nat /\ blocked (so_far ob n) sd i (ev_id e)).
  Definition answered_it sd j q (n : nat) : Prop := exists r ctx a, In (OReturned j r) (at' sd n) /\ In (OSent j ctx a) (at' sd n) /\ answers (cf sd) q r a.
  Definition hout (N : nat) sd j q (n : nat) : Prop := answered_it sd j q n \/ In (OPanicked j) (at' sd n) \/ ((N <= n)%nat /\ exists y, blocked (so_far ob n) sd j y).
  Lemma called_job_at sd n j ctx sc q tk : In (OCalled 0 j ctx sc q) (at' sd n) -> nth_error (e_tasks (eps sd n)) j = Some tk -> tk_job tk = Some (ctx, q).
  Proof. intros H E. destruct (side_run sd n) as (ls & R & _). destruct (called_job _ _ _ _ _ _ _ _ _ _ _ _ _ R H) as (s0 & J & _). rewrite J in E. injection E as <-. reflexivity. Qed.
  Lemma still_in sd n m o : (n <= m)%nat -> In o (at' sd n) -> In o (at' sd m). Proof. exact (PairLive.still ob sd n m o). Qed.
  Section Level.
    Hypothesis AF : forall sd, handlers_finish (cf sd).
    Lemma handler_ends N M : (forall sd n i ctx e c k, tst (eps sd n) i = Some (TSend ctx e (ForAwait c k)) -> M < made n -> within n (out N sd i e k)) ->
      forall sd p, finishes p -> forall n j ctx sc q, M <= made n -> In (OCalled 0 j ctx sc q) (at' sd n) -> tst (eps sd n) j = Some (TRun p) -> within n (hout N sd j q).
    Proof.
      intros AL sd p FN. induction FN as [r| |rq k Hk IH|rq k Hk IH|k Hk IH|p2 k Hk IH]; intros n j ctx sc q HM HC HT; (eapply acts_once; [exact HT|exact Coq.Init.Logic.I|]); intros m a tk os Lm Et Es HS EA NC;
        unfold task_step in HS; rewrite Et, Es in HS; (destruct a as [t v| | |]; try discriminate HS); unfold run_prog in HS; cbn zeta in HS;
        pose proof (still_in sd n m _ Lm HC) as HC'; pose proof (made_mono n m Lm) as HM1; pose proof (made_mono m (S m) ltac:(lia)) as HM2; assert (HCS : In (OCalled 0 j ctx sc q) (at' sd (S m))) by (rewrite EA; apply in_or_app; auto).
      - rewrite (called_job_at _ _ _ _ _ _ _ HC' Et) in HS. destruct (answer_event (cf sd) ctx (nth_id t (e_ctr (eps sd m))) r) as [a| |]; try discriminate HS. apply some_pair in HS. destruct HS as [HS Ho].
        assert (T : tst (eps sd (S m)) j = Some (TSend ctx a (ForAnswer (match r with inl _ => true | inr _ => false end)))) by (eapply tst_after; [|exact HS]; exact Et).
        eapply within_imp; [exact (sends_t cf ps ctr f st ob EN many sd (FT sd) _ _ _ _ _ T)|]. intros m' Lm' Q. left. exists r, ctx, a.
        split; [apply (still_in sd (S m)); [exact Lm'|]; rewrite EA, <- Ho; apply in_or_app; right; left; reflexivity|]. split; [exact Q|].
        destruct (side_run sd (S m)) as (ls & RA & _). pose proof (inv_task _ _ _ _ _ _ _ _ RA j) as TT. unfold tst in T. destruct (nth_error (e_tasks (eps sd (S m))) j) as [tk'|] eqn:Et'; [|discriminate T]. cbn in T. injection T as T.
        destruct TT as [_ TT]. rewrite T, (called_job_at _ _ _ _ _ _ _ HCS Et') in TT. cbn [state_trace] in TT. destruct TT as (x & r' & E1 & _ & E2 & E3 & _). injection E1 as <-.
        assert (RT : In r (returned j (at' sd (S m)))) by (rewrite EA, <- Ho, returned_app; apply in_or_app; right; cbn; rewrite Nat.eqb_refl; left; reflexivity).
        rewrite E2 in RT. destruct RT as [->|[]]. exact E3.
      - apply some_pair in HS. destruct HS as [_ Ho]. apply now. right. left. rewrite EA, <- Ho. apply in_or_app. right. left. reflexivity.
      - destruct (rq_payload rq) as [d|er|cr]; apply some_pair in HS; destruct HS as [HS Ho].
        + assert (T : tst (eps sd (S m)) j = Some (TSend (rq_ctx rq) (event_for rq (nth_id t (e_ctr (eps sd m))) d) (ForEmit k))) by (eapply tst_after; [|exact HS]; exact Et).
          eapply acts_once; [exact T|exact Coq.Init.Logic.I|]. intros m2 a2 tk2 os2 Lm2 Et2 Es2 HS2 EA2 NC2. unfold task_step in HS2. rewrite Et2, Es2 in HS2.
          destruct a2; try discriminate HS2; apply some_pair in HS2; destruct HS2 as [HS2 Ho2]; rewrite <- Ho2 in NC2; try discriminate NC2.
          apply (IH (Some (Ok (ev_id (event_for rq (nth_id t (e_ctr (eps sd m))) d)))) (S m2) j ctx sc q); [pose proof (made_mono (S m) (S m2) ltac:(lia)); lia|apply (still_in sd (S m)); [lia|exact HCS]|eapply tst_after; [|exact HS2]; exact Et2].
        + apply (IH (Some (Err er)) (S m) j ctx sc q ltac:(lia) HCS). eapply tst_after; [|exact HS]; exact Et.
        + apply now. right. left. rewrite EA, <- Ho. apply in_or_app. right. left. reflexivity.
      - destruct (rq_payload rq) as [d|er|cr]; apply some_pair in HS; destruct HS as [HS Ho].
        + set (e := event_for rq (nth_id t (e_ctr (eps sd m))) d) in *.
          assert (T : tst (eps sd (S m)) j = Some (TRegister (rq_ctx rq) e (WantReply k))) by (eapply tst_after; [|exact HS]; exact Et).
          eapply acts_once; [exact T|exact Coq.Init.Logic.I|]. intros m2 a2 tk2 os2 Lm2 Et2 Es2 HS2 EA2 NC2. unfold task_step in HS2. rewrite Et2, Es2 in HS2. cbn zeta in HS2.
          destruct a2; try discriminate HS2; apply some_pair in HS2; destruct HS2 as [HS2 Ho2].
          assert (MORE : M < made (S m2)).
          { pose proof (made_mono (S m) (S m2) ltac:(lia)). assert (M1 : made m < made (S m)) by (apply (made_more sd); rewrite <- HS; unfold set_task, next_id; cbn [e_tasks]; rewrite Et; cbn [e_ctr]; lia). lia. }
          set (c := length (e_chans (eps sd m2))) in *.
          assert (T2 : tst (eps sd (S m2)) j = Some (TSend (rq_ctx rq) e (ForAwait c k))) by (eapply tst_after; [|exact HS2]; exact Et2).
          eapply within_bind; [exact (AL sd (S m2) j (rq_ctx rq) e c k T2 MORE)|]. intros m3 Lm3 [[(o & LT & _)|LP]|(LN & LB)].
          * apply (IH o m3 j ctx sc q); [pose proof (made_mono (S m) m3 ltac:(lia)); lia|apply (still_in sd (S m)); [lia|exact HCS]|exact LT].
          * apply now. right. left. exact LP.
          * apply now. right. right. split; [exact LN|]. eauto.
        + apply (IH (Some (Err er)) (S m) j ctx sc q ltac:(lia) HCS). eapply tst_after; [|exact HS]; exact Et.
        + apply now. right. left. rewrite EA, <- Ho. apply in_or_app. right. left. reflexivity.
      - apply some_pair in HS. destruct HS as [HS Ho]. apply (IH v (S m) j ctx sc q ltac:(lia) HCS). eapply tst_after; [|exact HS]; exact Et.
      - apply some_pair in HS. destruct HS as [HS Ho]. apply (IH (S m) j ctx sc q ltac:(lia) HCS). eapply tst_after; [|exact HS]. unfold add_task. cbn [e_tasks]. rewrite nth_error_app1 by (apply nth_error_Some; congruence). exact Et.
    Qed.
    Lemma many_on n m : (n <= m)%nat -> many n -> many m.
    Proof. intros L (sd & H). exists sd. intros Q. apply H. eapply few_back; eauto. Qed.
    Lemma await_live : forall L N sd n i ctx e c k, tst (eps sd n) i = Some (TSend ctx e (ForAwait c k)) -> 2 ^ 33 < made n + N.of_nat L -> within n (out N sd i e k).
    Proof.
      induction L as [|L IH]; intros N sd n i ctx e c k HT HL.
      { apply few_both. intros FE. pose proof (FE SideA) as FA. pose proof (FE SideB) as FB. unfold few_events, made in *. change (2 ^ 33) with (2 ^ 32 + 2 ^ 32) in HL. lia. }
      assert (W0 : waits sd i c ctx e k n) by (left; exact HT).
      assert (LO : forall m, left sd i e k m -> out N sd i e k m) by (intros m Q; left; exact Q).
      (* waiting long enough *)
      assert (UP : forall m (P : nat -> Prop), waits sd i c ctx e k m -> (forall m', (m <= m')%nat -> (N <= m')%nat -> waits sd i c ctx e k m' -> (forall s, few_events (eps s m')) -> blocked (so_far ob m') sd i (ev_id e)) -> within m (out N sd i e k)).
      { intros m P Wm HB. destruct (waits_on sd i c ctx e k m Wm (max m N) ltac:(lia)) as [W|(m' & A & B)].
        - apply (later many m (max m N)); [lia|]. apply few_both. intros FE. apply now. right. split; [lia|]. apply HB; auto; lia.
        - apply (later many m m'); [lia|]. apply now. auto. }
      destruct (side_run sd n) as (la & RA & GA & _). pose proof (inv_task _ _ _ _ _ _ _ _ RA i) as TT.
      assert (EM : emitted ctx e).
      { unfold tst in HT. destruct (nth_error (e_tasks (eps sd n)) i) as [tk|]; [|discriminate HT]. cbn in HT. injection HT as HT. destruct TT as [_ TT]. rewrite HT in TT. apply TT. }
      apply (waits_bind sd i c ctx e k n _ _ W0 LO (sends_t cf ps ctr f st ob EN many sd (FT sd) _ _ _ _ _ HT)). intros m1 L1 W1 S1.
      apply (waits_bind sd i c ctx e k m1 _ _ W1 LO (arrives sd m1 i ctx e S1)). intros m2 L2 W2 P2. apply (still_in sd m1 m2 _ L2) in S1.
      assert (PD : forall m', (m2 <= m')%nat -> waits sd i c ctx e k m' -> (forall s, few_events (eps s m')) -> pending (at' sd m') i (ev_id e)).
      { intros m' Lm W FE. eapply waits_pending; eauto. eapply still_in; eauto. }
      destruct (processed_in _ _ P2) as [(d & Q)|[Q|(j & cx & sc & Q)]].
      - apply (UP m2 (fun _ => True) W2). intros m' Lm _ W FE. apply bl_taken with d (drop_empty_ns e); [apply PD; auto|eapply still_in; eauto|apply drop_id].
      - exfalso. destruct (side_run (other sd) m2) as (lb & RB & _). apply (ignored_end _ _ _ _ _ _ _ _ RB) in Q. rewrite drop_type in Q. destruct EM as [_ EM]. rewrite EM in Q. destruct (c_ref ctx); discriminate Q.
      - assert (CALLED : forall m', (m2 <= m')%nat -> called_for (at' (other sd) m') (ev_id e) j).
        { intros m' Lm. exists sc, (drop_empty_ns e). split; [|apply drop_id]. destruct (side_run (other sd) m2) as (lb & RB & _). destruct (called_job _ _ _ _ _ _ _ _ _ _ _ _ _ RB Q) as (s0 & _ & C & _). rewrite drop_id in C. rewrite <- C. eapply still_in; eauto. }
        apply few_both. intros FE2.
        assert (NC : forall c' sc', ~ In (OCalled 0 j c' sc' (drop_empty_ns e)) (at' (other sd) n)).
        { intros c' sc' Z. destruct (prefix _ _ _ _ _ _ EN CK n) as (ls & HR & GC). destruct (called_was_sent _ _ _ _ _ _ _ HR _ _ _ _ _ Z) as (Z' & _). apply in_wired in Z'. destruct Z' as (i' & c0 & a & Z1 & Z2).
          pose proof (inv_idents _ _ _ _ _ _ _ _ RA GA (few_back sd n m2 ltac:(lia) (FE2 sd))) as ID. apply (j_once _ _ ID _ _ (ev_id e) HT eq_refl). replace (ev_id e) with (ev_id a) by (rewrite <- (drop_id e), <- (drop_id a); congruence). eapply sent_ended. exact Z1. }
        destruct (call_starts (other sd) j cx sc (drop_empty_ns e) n m2 ltac:(lia) Q NC) as (r & sc' & Lr & CR & TR).
        assert (FN : finishes (match eh_get (callbacks (cf (other sd)) sc') (ev_name (drop_empty_ns e)) with Some cb => cb (mk_context 0 (Some (ev_id (drop_empty_ns e)))) (drop_empty_ns e) | None => PRet (inl []) end)).
        { destruct (eh_get (callbacks (cf (other sd)) sc') (ev_name (drop_empty_ns e))) as [cb|] eqn:Eh; [exact (AF _ _ _ _ Eh _ _)|constructor]. }
        assert (H : within m2 (hout (max N m2) (other sd) j (drop_empty_ns e))).
        { destruct (handler_ends (max N m2) (made n) (fun sd' n' i' ctx' e' c' k' T' Z' => IH (max N m2) sd' n' i' ctx' e' c' k' T' ltac:(lia)) (other sd) _ FN (S r) j _ _ _ (made_mono n (S r) ltac:(lia)) CR TR) as (m3 & L3 & [g|p]).
          - exists (max m2 m3). split; [lia|]. left. eapply many_on; [|exact g]. lia.
          - exists (max m2 m3). split; [lia|]. right. destruct p as [(r0 & c0 & a & p1 & p2 & p3)|[p|(p1 & p2)]].
            + left. exists r0, c0, a. split; [apply (still_in _ m3); [lia|exact p1]|]. split; [apply (still_in _ m3); [lia|exact p2]|exact p3].
            + right. left. apply (still_in _ m3); [lia|exact p].
            + right. right. replace (max m2 m3) with m3 by lia. split; [lia|exact p2]. }
        apply (waits_bind sd i c ctx e k m2 _ _ W2 LO H). intros m4 L4 W4 [(r0 & c0 & a & p1 & p2 & p3)|[p|(p1 & y & p2)]].
        + eapply within_imp; [apply (replied_leaves sd i c ctx e k m4 W4)|intros m' _ Z; left; exact Z].
          unfold replies_to. intros Z. apply map_eq_nil in Z. assert (Y : In a (filter (refers (ev_id e)) (sent_events (at' (other sd) m4)))); [|rewrite Z in Y; destruct Y].
          apply filter_In. split; [unfold sent_events; apply in_flat_map; eexists; split; [exact p2|left; reflexivity]|]. destruct p3 as (p3 & _). unfold refers. rewrite p3, drop_id. apply N.eqb_refl.
        + apply (UP m4 (fun _ => True) W4). intros m' Lm _ W FE. apply bl_panic with j; [apply PD; auto; lia|apply CALLED; lia|eapply still_in; eauto].
        + apply few_both. intros FE. apply now. right. split; [lia|]. apply bl_waits with j y; [apply PD; auto|apply CALLED; lia|exact p2].
    Qed.
    Lemma listen_starts sd n i x c : In (OListen i x c) (at' sd n) -> exists r ctx e k, (r < n)%nat /\ tst (eps sd (S r)) i = Some (TSend ctx e (ForAwait c k)) /\ ev_id e = x.
    Proof.
      intros H. set (p := fun o => match o with OListen j y d => Nat.eqb j i && N.eqb y x && Nat.eqb d c | _ => false end%bool).
      assert (PX : forall tr, existsb p tr = true <-> In (OListen i x c) tr).
      { intros tr. rewrite existsb_exists. split.
        - intros (o & E1 & E2). destruct o; try discriminate E2. cbn in E2. apply andb_true_iff in E2. destruct E2 as [E2 E3]. apply andb_true_iff in E2. destruct E2 as [E2 E4]. apply Nat.eqb_eq in E2, E3. apply N.eqb_eq in E4. subst. exact E1.
        - intros E. eexists. split; [exact E|]. cbn. rewrite !Nat.eqb_refl, N.eqb_refl. reflexivity. }
      destruct (first_seen sd p 0 n ltac:(lia)) as (r & Lr & F1 & F2); [apply PX; exact H|reflexivity|].
      assert (NO : forall os, at' sd (S r) = at' sd r ++ os -> In (OListen i x c) os).
      { intros os E. apply PX in F2. rewrite E in F2. apply in_app_or in F2. destruct F2 as [F2|F2]; [|exact F2]. exfalso. apply PX in F2. congruence. }
      assert (K : forall l os, step (cf sd) (eps sd r) l = Some (eps sd (S r), os) -> at' sd (S r) = at' sd r ++ os -> exists ctx e k, tst (eps sd (S r)) i = Some (TSend ctx e (ForAwait c k)) /\ ev_id e = x).
      { intros l os HS EA. destruct (listen_step _ _ _ _ _ _ _ _ HS (NO _ EA)) as (a & ctx & e & w & pu & -> & _ & Ex & _ & _ & T & TC).
        destruct (prefix _ _ _ _ _ _ EN CK (S r)) as (ls & HR & _). pose proof (side_tame cf ps ctr PH PP _ _ _ sd HR) as TM. unfold tst in T. destruct (nth_error (e_tasks (eps sd (S r))) i) as [tk|] eqn:Et; [|discriminate T].
        destruct (t_tasks _ _ TM _ _ Et) as (_ & own & _ & TS). cbn in T. injection T as T. rewrite T in TS. destruct pu as [k|d k|d k|ok]; try discriminate TC; [|destruct TS]. cbn in TC. injection TC as ->.
        exists ctx, e, k. split; [|exact Ex]. unfold tst. rewrite Et. cbn. congruence. }
      destruct (view _ _ _ _ _ _ EN sd r) as [_ EA _ _ _|l os _ _ HS EA _ _|e1 os _ _ HS EA].
      - exfalso. rewrite <- (app_nil_r (at' sd r)) in EA. exact (NO _ EA).
      - destruct (K _ _ HS EA) as (ctx & e & k & K1 & K2). exists r, ctx, e, k. split; [lia|auto].
      - destruct (K _ _ HS EA) as (ctx & e & k & K1 & K2). exists r, ctx, e, k. split; [lia|auto].
    Qed.
    Theorem nested_live sd n i x c : In (OListen i x c) (at' sd n) -> within n (fun m => (exists r, In (OReply i x r) (at' sd m)) \/ In (OPanicked i) (at' sd m) \/ blocked (so_far ob m) sd i x).
    Proof.
      intros H. destruct (listen_starts _ _ _ _ _ H) as (r & ctx & e & k & Lr & T & <-).
      destruct (await_live (N.to_nat (2 ^ 33 + 1)) n sd (S r) i ctx e c k T ltac:(rewrite N2Nat.id; lia)) as (m & Lm & [g|[[(o & _ & Q)|Q]|(Q1 & Q2)]]); exists (max m n); (split; [lia|]).
      - left. eapply many_on; [|exact g]. lia.
      - right. left. exists o. apply (still_in _ m); [lia|exact Q].
      - right. right. left. apply (still_in _ m); [lia|exact Q].
      - right. right. right. replace (max m n) with m by lia. exact Q2.
    Qed.
    Theorem handlers_live sd n j ctx sc q : In (OCalled 0 j ctx sc q) (at' sd n) -> within n (hout n sd j q).
    Proof.
      intros H. destruct (call_starts sd j ctx sc q 0 n ltac:(lia) H ltac:(intros ? ? [])) as (r & sc' & Lr & CR & TR).
      assert (FN : finishes (match eh_get (callbacks (cf sd) sc') (ev_name q) with Some cb => cb (mk_context 0 (Some (ev_id q))) q | None => PRet (inl []) end)).
      { destruct (eh_get (callbacks (cf sd) sc') (ev_name q)) as [cb|] eqn:Eh; [exact (AF _ _ _ _ Eh _ _)|constructor]. }
      destruct (handler_ends n 0 (fun sd' n' i' ctx' e' c' k' T' _ => await_live (N.to_nat (2 ^ 33 + 1)) n sd' n' i' ctx' e' c' k' T' ltac:(rewrite N2Nat.id; lia)) sd _ FN (S r) j _ _ _ ltac:(lia) CR TR) as (m & Lm & [g|p]); exists (max m n); (split; [lia|]).
      - left. eapply many_on; [|exact g]. lia.
      - right. destruct p as [(r0 & c0 & a & p1 & p2 & p3)|[p|(p1 & p2)]].
        + left. exists r0, c0, a. split; [apply (still_in _ m); [lia|exact p1]|]. split; [apply (still_in _ m); [lia|exact p2]|exact p3].
        + right. left. apply (still_in _ m); [lia|exact p].
        + right. right. replace (max m n) with m by lia. split; [lia|exact p2].
    Qed.
  End Level.
End Nested.
