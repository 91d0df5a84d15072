(** Proofs about endless runs of two joined endpoints: reply streams; fair runs exist. *)
From Verif Require Import Base BaseFacts BuilderFacts Codec Spec Ids IdsFacts Payload Builder Emit EmitFacts Ipc SpecIpc IpcFacts IpcChanFacts IpcUsers IpcLoops IpcTasks IpcIds IpcReplies IpcStreams IpcClaims IpcMore IpcFlow IpcLimits IpcRemoved IpcFate Pair SpecPair PairFacts PairServer PairEnd PairRest SpecLive PairLive.
From Coq Require Import ZifyBool ZifyNat ZifyN Cantor.

Section Streams.
  Context (cf : side -> config) (ps : side -> list prog) (ctr : side -> N) (f : nat -> option plabel) (st : nat -> pair) (ob : nat -> list (side * obs)).
  Hypothesis EN : endless cf ps ctr f st ob.
  Hypothesis CK : clocks f.
  Hypothesis FT : turns cf f st (fun n => ~ few_events (p_ep (st n) SideA)) SideA.
  Hypothesis FL : fair_loops cf f st.
  Hypothesis RO : only_replies (cf SideB).
  Hypothesis PB : ps SideB = [].
  Hypothesis DR : drained ob SideA.
  Hypothesis NA : forall n, ~ In (OAborted 0) (at_side SideA (so_far ob n)).
  Local Notation at' sd n := (at_side sd (so_far ob n)).
  Local Notation eps sd n := (p_ep (st n) sd).
  Local Notation many := (many st).
  (** everything sent is read *)
  Lemma all_read n k : (k <= length (wired (at' SideB n)))%nat -> within many n (fun m => (k <= length (got (at' SideA m)))%nat).
  Proof.
    induction k as [|k IH]; intros L; [apply now; lia|]. eapply within_bind; [apply IH; lia|]. intros m Lm H. cbn beta in H.
    destruct (Nat.le_gt_cases (S k) (length (got (at' SideA m)))) as [Q|Q]; [apply now; exact Q|].
    assert (P : p_in (st m) SideA <> []).
    { intros E. destruct (prefix _ _ _ _ _ _ EN CK m) as (ls & HR & _). pose proof (to_client _ _ _ _ _ _ HR) as T. rewrite E, app_nil_r in T. rewrite T in Q.
      destruct (grows ob SideB n m Lm) as (os & Eo). rewrite Eo, wired_app, app_length in Q. lia. }
    eapply within_bind; [exact (reads_t cf ps ctr f st ob EN CK many SideA FT FL DR NA m P)|]. intros k' Lk E. apply (later many k' (S k')); [lia|]. apply now.
    destruct (view _ _ _ _ _ _ EN SideA k') as [_ _ _ N _|l os E' EO HS EA _ EI|e' os E' EI HS EA]; [congruence|congruence|].
    rewrite EA, got_app, (recv_got _ _ _ _ _ _ HS), app_length. destruct (grows ob SideA m k' Lk) as (os' & Eo). rewrite Eo, got_app, app_length. cbn [length]. lia.
  Qed.
  Lemma prefix_of {A} (a b c d : list A) : a ++ b = c ++ d -> (length a <= length c)%nat -> exists r, c = a ++ r.
  Proof. revert c. induction a as [|x a IH]; intros c E L; [exists c; reflexivity|]. destruct c as [|y c]; [cbn in L; lia|]. cbn in E. injection E as -> E. destruct (IH c E ltac:(cbn in L; lia)) as (r & ->). exists r. reflexivity. Qed.
  Lemma received_more n m x : (n <= m)%nat -> exists os, received_for 0 x (at' SideA m) = received_for 0 x (at' SideA n) ++ os.
  Proof. intros L. destruct (grows ob SideA n m L) as (os & ->). rewrite received_for_app. eauto. Qed.
  Lemma stream_live n i x c j ctx sc q : In (OListen i x c) (at' SideA n) -> (forall m, never_handled x (at' SideA m)) -> In (OCalled 0 j ctx sc q) (at' SideB n) -> ev_id q = x ->
    within many n (fun m => gone (at' SideA m) c \/ exists rest, queued c (at' SideA m) = replies_of_task j (at' SideB n) ++ rest).
  Proof.
    intros HL NH HC HX. eapply within_bind; [exact (all_read n _ (le_n _))|]. intros m Lm H. cbn beta in H. apply (few_or st ob NA). intros FE.
    assert (R : exists r, received_for 0 x (at' SideA m) = replies_of_task j (at' SideB n) ++ r).
    { destruct (prefix _ _ _ _ _ _ EN CK m) as (ls & HR & GC). pose proof (replies_of _ _ _ RO PB _ _ _ HR GC FE _ _ _ _ _ (still ob SideB n m _ Lm HC)) as RP. rewrite HX in RP.
      pose proof (to_client _ _ _ _ _ _ HR) as T. destruct (grows ob SideB n m Lm) as (os & Eo). rewrite Eo, wired_app in T.
      destruct (prefix_of _ _ _ _ (eq_sym T) H) as (r & Er). destruct (own_run _ _ _ _ _ _ EN CK SideA m) as (la & RA & _).
      assert (FE0 : few_events (eps SideA n)).
      { clear - FE Lm EN. induction Lm as [|m L IH]; [exact FE|]. apply IH. destruct (view _ _ _ _ _ _ EN SideA m) as [E _ _ _ _|l os _ _ HS _ _ _|e os _ _ HS _]; [rewrite E in FE; exact FE| |]; apply step_ctr in HS; unfold few_events in *; lia. }
      destruct (prefix _ _ _ _ _ _ EN CK n) as (ls0 & HR0 & GC0). pose proof (replies_of _ _ _ RO PB _ _ _ HR0 GC0 FE0 _ _ _ _ _ HC) as RP0. rewrite HX in RP0.
      destruct (own_run _ _ _ _ _ _ EN CK SideA n) as (la0 & RA0 & _).
      rewrite (received_refs _ _ (received_zero _ _ _ _ _ _ _ RA0)), <- filter_app, (to_client _ _ _ _ _ _ HR0) in RP0.
      rewrite (received_refs _ _ (received_zero _ _ _ _ _ _ _ RA)), Er, filter_app, RP0. unfold replies_of_task. eauto. }
    destruct R as (r & R). set (w := replies_of_task j (at' SideB n)) in *.
    assert (FIN : forall k, (m <= k)%nat -> few_events (eps SideA k) -> (length w <= length (queued c (at' SideA k)))%nat -> gone (at' SideA k) c \/ exists rest, queued c (at' SideA k) = w ++ rest).
    { intros k Lk FEk Lq. destruct (gone_b c (at' SideA k)) eqn:Eg; [left; apply gone_iff; exact Eg|right].
      destruct (prefix _ _ _ _ _ _ EN CK k) as (ls & HR & GC). destruct (client _ _ _ _ _ _ HR) as (la & RA & GA & _).
      pose proof (still ob SideA n k _ ltac:(lia) HL) as HL'. apply in_split in HL'. destruct HL' as (a & b & Q). pose proof RA as RA'. rewrite Q in RA'.
      destruct (flow _ _ _ _ _ 0 i _ c _ _ _ RA (GA GC) FEk (NH k) a b Q) as (rest & FL1 & _).
      destruct (received_more m k x Lk) as (os & Eo). rewrite R in Eo.
      rewrite Q, received_for_app, (not_before _ _ _ RO PB _ _ _ HR GC FEk _ _ _ _ _ Q) in Eo. change (OListen i x c :: b) with ([OListen i x c] ++ b) in Eo. rewrite received_for_app, FL1 in Eo. cbn [app received_for flat_map recv_one] in Eo.
      rewrite Q, (queued_after _ _ _ _ _ _ _ _ _ _ _ _ RA' eq_refl) in Lq |- *. rewrite <- app_assoc in Eo. exact (prefix_of _ _ _ _ (eq_sym Eo) Lq). }
    destruct (gone_b c (at' SideA m)) eqn:Eg; [apply now; left; apply gone_iff; exact Eg|].
    destruct (Nat.le_gt_cases (length w) (length (queued c (at' SideA m)))) as [Lq|Lq]; [apply now; apply FIN; auto|].
    destruct (prefix _ _ _ _ _ _ EN CK m) as (ls & HR & GC). destruct (client _ _ _ _ _ _ HR) as (la & RA & GA & _).
    pose proof (still ob SideA n m _ Lm HL) as HL'. apply in_split in HL'. destruct HL' as (a & b & Q). pose proof RA as RA'. rewrite Q in RA'.
    destruct (flow _ _ _ _ _ 0 i _ c _ _ _ RA (GA GC) FE (NH m) a b Q) as (rest & FL1 & FL2). specialize (FL2 Eg (NA m)).
    assert (Eo : received_for 0 x b = w ++ r).
    { rewrite <- R, Q, received_for_app, (not_before _ _ _ RO PB _ _ _ HR GC FE _ _ _ _ _ Q). reflexivity. }
    rewrite Q, (queued_after _ _ _ _ _ _ _ _ _ _ _ _ RA' eq_refl) in Lq. rewrite FL2 in FL1. rewrite Eo in FL1. apply (f_equal (@length event)) in FL1. rewrite !app_length in FL1.
    unfold held in FL1. destruct (lp (eps SideA m) 0) as [[|d e|]|] eqn:El; try (cbn in FL1; lia). destruct (Nat.eqb_spec d c) as [->|]; [|cbn in FL1; lia]. cbn [length] in FL1.
    eapply within_bind; [exact (places_t cf ps ctr f st ob EN CK many SideA FT FL DR NA m c e El)|]. intros k Lk [P1 P2].
    destruct (gone_b c (at' SideA k)) eqn:Egk; [apply now; left; apply gone_iff; exact Egk|].
    apply (later many k (S k)); [lia|]. apply (few_or st ob NA). intros FEk. apply now. apply FIN; [lia|exact FEk|]. unfold placing in P1.
    destruct (view _ _ _ _ _ _ EN SideA k) as [_ _ E _ _|l os E EO HS EA _ _|e' os E _ HS _]; [destruct (E _ P1)| |congruence]. rewrite E in P1. injection P1 as ->.
    destruct (lp_placed _ _ _ _ HS) as (_ & d & e2 & X1 & X2). assert (d = c /\ e2 = e) by (split; congruence). destruct H0 as [-> ->].
    destruct (own_run _ _ _ _ _ _ EN CK SideA k) as (lk & RK & _). pose proof (inv_chan _ _ _ _ _ _ _ _ RK c) as CT. pose proof (inv_users _ _ _ _ _ _ _ _ RK) as U. destruct (u_loop _ U _ _ _ P2) as (rr & _ & Cd). unfold cid in Cd.
    destruct (nth_error (e_chans (eps SideA k)) c) as [ch|] eqn:Hc; [|discriminate]. destruct CT as (C1 & _). rewrite Egk in C1. destruct (ch_open ch) eqn:Ho; [|discriminate C1].
    rewrite EA, (X2 _ eq_refl Ho). destruct (grows ob SideA m k Lk) as (ok & Ek). rewrite Ek, Q. rewrite <- !app_assoc. cbn [app]. unfold queued. rewrite !flat_map_app. cbn [flat_map queued_on]. rewrite !flat_map_app, !app_length. cbn [flat_map queued_on app]. rewrite Nat.eqb_refl. cbn [length app].
    assert (QB : queued_by 0 c b = queued c a ++ queued_on c (OListen i x c) ++ queued c b) by (rewrite <- (queued_after _ _ _ _ _ _ _ _ _ _ _ _ RA' eq_refl); unfold queued; rewrite flat_map_app; reflexivity).
    rewrite QB in FL1. cbn [queued_on app] in FL1. rewrite app_length in FL1. unfold queued in FL1. lia.
  Qed.
End Streams.

(** ** Fair runs exist *)
Lemma stuck_any cf s i t v : step cf s (LTask i (AStep t v)) = None -> stuck cf s i.
Proof.
  intros H t' v'. cbn [step] in *. unfold task_step in *. destruct (nth_error (e_tasks s) i) as [tk|]; [|reflexivity]. destruct (tk_st tk) as [p|? ? ?|? ? [?|?|?|?]|? ? ?|? ? ? ?|? ?|? ? ?|?| |]; try exact H.
  destruct p as [r| |rq k|rq k|rq k|h k|n k|k|q k]; try exact H; unfold run_prog in *; cbn zeta in *; try (destruct (rq_payload rq); discriminate H); try discriminate H.
  destruct (tk_job tk) as [[ctx x]|]; [|discriminate H]. destruct (answer_ok cf ctx (nth_id t (e_ctr s)) r) as (e & E). rewrite E in H. discriminate H.
Qed.
Section Scheduler.
  Context (cf : side -> config) (ps : side -> list prog) (ctr : side -> N) (g : nat -> plabel).
  (** try [g n] at time [n] *)
  Fixpoint sst (n : nat) : pair := match n with O => pair_new ps ctr (fun _ => []) | S m => match pstep cf (sst m) (g m) with Some (p, _) => p | None => sst m end end.
  Definition sf (n : nat) : option plabel := match pstep cf (sst n) (g n) with Some _ => Some (g n) | None => None end.
  Definition sob (n : nat) : list (side * obs) := match pstep cf (sst n) (g n) with Some (_, os) => os | None => [] end.
  Lemma scheduled : endless cf ps ctr sf sst sob.
  Proof. split; [reflexivity|]. intros n. unfold happens, sf, sob. cbn [sst]. destruct (pstep cf (sst n) (g n)) as [[p os]|] eqn:E; [exact E|auto]. Qed.
  Lemma tried l n : (exists m, (n <= m)%nat /\ g m = l) -> exists m, (n <= m)%nat /\ (sf m = Some l \/ pstep cf (sst m) l = None).
  Proof. intros (m & L & <-). exists m. split; [exact L|]. unfold sf. destruct (pstep cf (sst m) (g m)); auto. Qed.
  Lemma tried_fair : (forall sd i n, exists m t v, (n <= m)%nat /\ g m = PDo sd (LTask i (AStep t v))) -> (forall sd l, l = PDeliver sd \/ l = PDo sd (LPlace 0) -> forall n, exists m, (n <= m)%nat /\ g m = l) ->
    fair_tasks cf sf sst /\ fair_loops cf sf sst.
  Proof.
    intros H1 H2. split.
    - intros sd i n. destruct (H1 sd i n) as (m & t & v & L & E). exists m. split; [exact L|]. unfold sf. rewrite E. destruct (pstep cf (sst m) (PDo sd (LTask i (AStep t v)))) eqn:Ep; [left; eauto|right].
      apply (stuck_any _ _ _ t v). cbn [pstep own_label] in Ep. destruct (step (cf sd) (p_ep (sst m) sd) (LTask i (AStep t v))) as [[s' os]|] eqn:Es; [|reflexivity]. rewrite (step_uncut _ _ _ _ _ _ _ Es) in Ep. discriminate.
    - intros sd l Hl n. apply tried. eapply H2. exact Hl.
  Qed.
  (** a step that changes nothing, taken for ever *)
  Lemma sched_stays n l (P : pair -> Prop) : (forall d, g (n + d)%nat = l) -> P (sst n) -> (forall p, P p -> exists p', pstep cf p l = Some (p', []) /\ P p') ->
    forall d, P (sst (n + d)) /\ so_far sob (n + d) = so_far sob n /\ sf (n + d)%nat = Some l.
  Proof.
    intros L H0 HP d.
    assert (Q : forall d, P (sst (n + d)) -> P (sst (S (n + d))) /\ sob (n + d)%nat = [] /\ sf (n + d)%nat = Some l).
    { intros k IH. destruct (HP _ IH) as (p' & A & B). unfold sob, sf. cbn [sst]. rewrite L, A. auto. }
    assert (V : P (sst (n + d)) /\ so_far sob (n + d) = so_far sob n).
    { induction d as [|d [IH1 IH2]]; [rewrite Nat.add_0_r; auto|]. destruct (Q d IH1) as (A & B & _). rewrite <- plus_n_Sm. split; [exact A|]. cbn [so_far]. rewrite IH2, B. apply app_nil_r. }
    destruct V as [V1 V2]. split; [exact V1|]. split; [exact V2|]. apply (Q d V1).
  Qed.
End Scheduler.
(** everything in turn *)
Definition turn_of (a : nat) : plabel :=
  match a with
  | 0%nat => PDeliver SideA | 1%nat => PDeliver SideB | 2%nat => PDo SideA (LPlace 0) | 3%nat => PDo SideB (LPlace 0)
  | S (S (S (S b))) => let (i, z) := Cantor.of_nat b in PDo (if Nat.eqb z 0 then SideA else SideB) (LTask i (AStep (mk_instant 0 0) 0))
  end.
Definition in_turn (n : nat) : plabel := turn_of (fst (Cantor.of_nat n)).
Lemma in_turn_again a n : exists m, (n <= m)%nat /\ in_turn m = turn_of a.
Proof. exists (Cantor.to_nat (a, n)). split; [pose proof (Cantor.to_nat_non_decreasing a n); lia|]. unfold in_turn. rewrite Cantor.cancel_of_to. reflexivity. Qed.
Lemma fair_run cf ps ctr : endless cf ps ctr (sf cf ps ctr in_turn) (sst cf ps ctr in_turn) (sob cf ps ctr in_turn) /\ clocks (sf cf ps ctr in_turn) /\ fair_tasks cf (sf cf ps ctr in_turn) (sst cf ps ctr in_turn) /\ fair_loops cf (sf cf ps ctr in_turn) (sst cf ps ctr in_turn).
Proof.
  split; [apply scheduled|]. split; [|apply tried_fair].
  - intros n sd i t v H. unfold sf in H. destruct (pstep cf (sst cf ps ctr in_turn n) (in_turn n)); [|discriminate]. injection H as H. unfold in_turn, turn_of in H. destruct (fst (Cantor.of_nat n)) as [|[|[|[|b]]]]; try discriminate H.
    destruct (Cantor.of_nat b). injection H as _ _ <- _. split; reflexivity.
  - intros sd i n. destruct (in_turn_again (4 + Cantor.to_nat (i, match sd with SideA => 0 | SideB => 1 end))%nat n) as (m & L & E). exists m, (mk_instant 0 0), 0. split; [exact L|]. rewrite E. cbn [turn_of plus]. rewrite Cantor.cancel_of_to. destruct sd; reflexivity.
  - intros sd l Hl n. destruct sd, Hl as [-> | ->]; [destruct (in_turn_again 0 n)|destruct (in_turn_again 2 n)|destruct (in_turn_again 1 n)|destruct (in_turn_again 3 n)]; eauto.
Qed.
