(** Proofs about two joined endpoints: requests when nothing is left to do. *)
From Verif Require Import Base BaseFacts BuilderFacts Codec Spec Ids IdsFacts Payload Builder Emit EmitFacts Ipc SpecIpc IpcFacts IpcChanFacts IpcUsers IpcLoops IpcTasks IpcIds IpcReplies IpcStreams IpcClaims IpcMore IpcFlow IpcLimits IpcRemoved IpcFate Pair SpecPair PairFacts PairServer PairEnd.
From Coq Require Import ZifyBool ZifyNat ZifyN.

Lemma step_uncut cf s i t v s' os : step cf s (LTask i (AStep t v)) = Some (s', os) -> existsb is_cut os = false.
Proof. intros H. step_cases H; reflexivity. Qed.
Lemma place_uncut cf s n s' os : step cf s (LPlace n) = Some (s', os) -> existsb is_cut os = false.
Proof. intros H. step_cases H; reflexivity. Qed.
Lemma rest_stuck cf p : at_rest cf p -> forall sd i, stuck (cf sd) (p_ep p sd) i.
Proof.
  intros R sd i t v. specialize (R (PDo sd (LTask i (AStep t v))) eq_refl). cbn [pstep own_label] in R. destruct (step (cf sd) (p_ep p sd) (LTask i (AStep t v))) as [[s' os]|] eqn:E; [|reflexivity].
  rewrite (step_uncut _ _ _ _ _ _ _ E) in R. discriminate.
Qed.
Lemma rest_place cf p : at_rest cf p -> forall sd, step (cf sd) (p_ep p sd) (LPlace 0) = None.
Proof.
  intros R sd. specialize (R (PDo sd (LPlace 0)) eq_refl). cbn [pstep own_label] in R. destruct (step (cf sd) (p_ep p sd) (LPlace 0)) as [[s' os]|] eqn:E; [|reflexivity].
  rewrite (place_uncut _ _ _ _ _ E) in R. discriminate.
Qed.
Lemma rest_read cf p : at_rest cf p -> forall sd, lp (p_ep p sd) 0 = Some LRun -> p_in p sd = [].
Proof.
  intros R sd L. specialize (R (PDeliver sd) eq_refl). cbn [pstep] in R. destruct (p_in p sd) as [|e w]; [reflexivity|]. cbn [step] in R. unfold lp in L.
  destruct (nth_error (e_conns (p_ep p sd)) 0) as [cn|]; [|discriminate]. cbn in L. injection L as L. rewrite L in R. destruct (receive (cf sd) (p_ep p sd) 0 e); discriminate.
Qed.
Lemma closed_label cf nc armed ps ctr ls s tr : runs cf nc armed ps ctr ls s tr -> forall n, In (OClosed n) tr -> In (LClosed n) ls.
Proof.
  apply (run_ind cf _ (fun ls s tr => forall n, In (OClosed n) tr -> In (LClosed n) ls)); [intros n []|].
  intros l0 s0 tr0 l s' os IH HR H n Q. apply in_or_app. apply in_app_or in Q. destruct Q as [Q|Q]; [eauto|]. right.
  step_cases H; cbn [In] in Q; repeat (destruct Q as [Q|Q]); try discriminate Q; try contradiction; injection Q as <-; left; reflexivity.
Qed.
Lemma last_in n tr o : last_about n tr = Some o -> In o tr.
Proof. unfold last_about. intros H. apply find_some in H. destruct H as [H _]. apply in_rev. exact H. Qed.
Lemma NoDup_flat {A B} (f : A -> list B) l a b x : NoDup (flat_map f l) -> In a l -> In b l -> In x (f a) -> In x (f b) -> a = b \/ exists l1 l2 l3, l = l1 ++ a :: l2 ++ b :: l3 \/ l = l1 ++ b :: l2 ++ a :: l3.
Proof.
  intros _ Ha Hb _ _. apply in_split in Ha. destruct Ha as (l1 & l2 & ->). apply in_app_or in Hb. destruct Hb as [Hb|[Hb|Hb]]; [|auto|].
  - right. apply in_split in Hb. destruct Hb as (m1 & m2 & ->). exists m1, m2, l2. right. rewrite <- app_assoc. reflexivity.
  - right. apply in_split in Hb. destruct Hb as (m1 & m2 & ->). exists l1, m1, m2. left. reflexivity.
Qed.
Lemma NoDup_twice {B} (l m k : list B) x : In x l -> In x k -> ~ NoDup (l ++ m ++ k).
Proof.
  induction l as [|y l IH]; intros Hl Hk H; [destruct Hl|]. cbn in H. inversion H as [|z w N D]; subst. destruct Hl as [->|Hl].
  - apply N. apply in_or_app. right. apply in_or_app. right. exact Hk.
  - exact (IH Hl Hk D).
Qed.
Lemma NoDup_app_r {A} (l m : list A) : NoDup (l ++ m) -> NoDup m.
Proof. induction l as [|x l IH]; cbn; [auto|]. intros H. inversion H; auto. Qed.
Lemma ended_same tr o o' x : NoDup (ended tr) -> In o tr -> In o' tr -> In x (ended_by o) -> In x (ended_by o') -> o = o'.
Proof.
  intros ND H1 H2 H3 H4. destruct (NoDup_flat ended_by tr o o' x ND H1 H2 H3 H4) as [E|(l1 & l2 & l3 & [E|E])]; [exact E| |]; exfalso; subst tr; unfold ended in ND;
  rewrite flat_map_app in ND; cbn [flat_map] in ND; rewrite flat_map_app in ND; cbn [flat_map] in ND; apply NoDup_app_r in ND;
  revert ND; apply NoDup_twice with x; auto; apply in_or_app; auto.
Qed.
(** what a listener was registered for *)
Lemma listen_plain cf nc armed ps ctr ls s tr : runs cf nc armed ps ctr ls s tr -> forall i x c, In (OListen i x c) tr ->
  (exists ctx e pu, tst s i = Some (TSend ctx e pu) /\ ev_id e = x /\ tchan (TSend ctx e pu) = Some c)
  \/ (exists ctx e, (In (OSent i ctx e) tr \/ In (OCut i ctx e) tr) /\ ev_id e = x /\ emitted ctx e).
Proof.
  apply (run_ind cf _ (fun ls s tr => forall i x c, In (OListen i x c) tr -> (exists ctx e pu, tst s i = Some (TSend ctx e pu) /\ ev_id e = x /\ tchan (TSend ctx e pu) = Some c)
     \/ (exists ctx e, (In (OSent i ctx e) tr \/ In (OCut i ctx e) tr) /\ ev_id e = x /\ emitted ctx e))); [intros i x c []|].
  intros l0 s0 tr0 l s' os IH HR H i x c Q. apply in_app_or in Q. destruct Q as [Q|Q].
  - destruct (IH _ _ _ Q) as [(ctx & e & pu & A & B & C)|(ctx & e & A & B & C)].
    + assert (D : (forall a, l <> LTask i a) \/ exists a, l = LTask i a) by (destruct l as [j a| | | | | |]; try (left; discriminate); destruct (Nat.eq_dec j i) as [->|]; [right; eauto|left; congruence]).
      destruct D as [D|(a & ->)].
      * left. exists ctx, e, pu. rewrite (tst_kept _ _ _ _ _ _ H D) by congruence. auto.
      * right. exists ctx, e. pose proof (inv_task _ _ _ _ _ _ _ _ HR i) as T. unfold tst in A. destruct (nth_error (e_tasks s0) i) as [tk|] eqn:Hi; [|discriminate]. cbn in A. injection A as A.
        destruct T as [_ T]. rewrite A in T. cbn [step] in H. unfold task_step in H. rewrite Hi, A in H.
        split; [|split; [exact B|]].
        -- destruct pu as [k|d k|d k|ok]; try discriminate C; destruct a; try discriminate H; apply some_pair in H; destruct H as [_ <-];
             first [left; apply in_or_app; right; left; reflexivity|right; apply in_or_app; right; left; reflexivity].
        -- destruct pu as [k|d k|d k|ok]; try discriminate C; apply T.
    + right. exists ctx, e. split; [|auto]. destruct A as [A|A]; [left|right]; apply in_or_app; auto.
  - destruct (listen_step _ _ _ _ _ _ _ _ H Q) as (a & ctx & e & w & pu & _ & _ & B & _ & _ & A & C). left. exists ctx, e, pu. auto.
Qed.

Section Rest.
  Context (cf : side -> config) (ps : side -> list prog) (ctr : side -> N).
  Hypothesis RO : only_replies (cf SideB).
  Hypothesis PB : ps SideB = [].
  Hypothesis DF : debug_fits (cf SideB) (cf_env (cf SideA)).
  Local Notation pruns' := (pruns cf ps ctr (fun _ => [])).
  Lemma no_crash ls p tr : pruns' ls p tr -> forall j ctx a cr, In (OSent j ctx a) (at_side SideB tr) -> reply_result (cf_env (cf SideA)) (drop_empty_ns a) <> Crash cr.
  Proof.
    intros HR j ctx a cr H. destruct (serves _ _ _ PB _ _ _ HR) as (lb & RB & _ & NC). unfold reply_result. rewrite drop_type, drop_data.
    destruct (ended_emitted _ _ _ _ _ _ _ _ RB j ctx a (or_introl H)) as [[E1 E2]|(n0 & sc0 & x & r & E1 & E2 & E3)].
    - rewrite E2. destruct (c_ref ctx); discriminate.
    - destruct E3 as (_ & _ & E3). destruct r as [b|er]; destruct E3 as (E3 & _ & E4); rewrite E3; [discriminate|]. change (etype_eqb Error Error) with true. cbn iota.
      rewrite (DF er _ E4). discriminate.
  Qed.
  Lemma client_runs ls p tr : pruns' ls p tr -> (forall i, stuck (cf SideA) (p_ep p SideA) i) -> step (cf SideA) (p_ep p SideA) (LPlace 0) = None -> ~ In (OAborted 0) (at_side SideA tr) -> room (at_side SideA tr) -> lp (p_ep p SideA) 0 = Some LRun.
  Proof.
    intros HR RS RP NA RM. destruct (client _ _ _ _ _ _ HR) as (la & RA & _ & _ & NC & NCut). pose proof (inv_loop _ _ _ _ _ _ _ _ RA 0) as L. pose proof (conns_len _ _ _ _ _ _ _ _ RA) as CL.
    fold (lp (p_ep p SideA) 0) in L. destruct (lp (p_ep p SideA) 0) as [[|c e|]|] eqn:El; [reflexivity| | |].
    - exfalso. destruct (unblocked _ _ _ _ _ _ _ _ 0 c e RA El) as [U1 U2].
      destruct (gone_b c (at_side SideA tr)) eqn:Eg.
      + destruct U1 as (s' & j & U); [apply gone_iff; exact Eg|]. congruence.
      + assert (NG : ~ gone (at_side SideA tr) c) by (apply gone_iff_not; exact Eg).
        assert (RMc : (length (queued c (at_side SideA tr)) < length (taken c (at_side SideA tr)) + 8)%nat -> False) by (intros Q; destruct (U2 NG Q) as (s' & U); congruence).
        pose proof (inv_users _ _ _ _ _ _ _ _ RA) as U. destruct (u_loop _ U _ _ _ El) as (r & _ & Cd). unfold cid in Cd. destruct (nth_error (e_chans (p_ep p SideA)) c) as [ch|] eqn:Hc; [|discriminate].
        pose proof (inv_chan _ _ _ _ _ _ _ _ RA c) as CT. rewrite Hc in CT. destruct CT as (C1 & (i & C2) & _ & rest & C3 & C4). rewrite Eg in C1. destruct (ch_open ch) eqn:Eo; [|discriminate]. specialize (C4 eq_refl). subst rest.
        pose proof (f_equal (@length event) C3) as C5. rewrite app_length in C5.
        destruct (inv_fate _ _ _ _ _ _ _ _ RA _ _ _ C2) as [(st & F1 & F2)|[(h & F)|(F & _)]]; [| |congruence].
        * pose proof (RS i (mk_instant 0 0) 0) as SK. unfold tst in F1. destruct (nth_error (e_tasks (p_ep p SideA)) i) as [tk|] eqn:Hi; [|discriminate]. cbn in F1. injection F1 as F1.
          cbn [step] in SK. unfold task_step in SK. rewrite Hi, F1 in SK.
          destruct st as [?|? ? ?|? ? [?|?|?|?]|d rid k|d rid e1 k|?|?|?| |]; try discriminate F2; cbn in F2; injection F2 as ->; try discriminate SK.
          -- rewrite Hc in SK. destruct (ch_buf ch) as [|? ?]; [apply RMc; cbn in C5; lia|discriminate SK].
          -- cbn zeta in SK. destruct (reply_result (cf_env (cf SideA)) e1); discriminate SK.
        * destruct (RM _ _ _ _ F) as [Q|Q]; [contradiction|auto].
    - exfalso. cbn in L. destruct L as [L|L]; apply last_in in L; [|contradiction]. apply (closed_label _ _ _ _ _ _ _ _ RA) in L. exact (NC _ L).
    - exfalso. unfold lp in El. destruct (e_conns (p_ep p SideA)); [discriminate CL|discriminate El].
  Qed.
  Lemma at_end ls p tr : pruns' ls p tr -> good_clocks ls -> few_events (p_ep p SideA) -> at_rest cf p -> ~ In (OAborted 0) (at_side SideA tr) -> room (at_side SideA tr) ->
    forall i ctx e c, In (OSent i ctx e) (at_side SideA tr) -> In (OListen i (ev_id e) c) (at_side SideA tr) -> (forall h, ~ In (OOpened i h (ev_id e) c) (at_side SideA tr)) -> never_handled (ev_id e) (at_side SideA tr) ->
    exists j sc, In (OCalled 0 j (mk_context 0 (Some (ev_id e))) sc (drop_empty_ns e)) (at_side SideB tr)
      /\ ((exists r, In (OReply i (ev_id e) r) (at_side SideA tr) /\ (r = None \/ r = Some (Err Timeout) \/ exists r', r = Some r' /\ answered (cf SideB) (at_side SideB tr) j r'))
          \/ (In (OPanicked j) (at_side SideB tr) /\ sent j (at_side SideB tr) = [])).
  Proof.
    intros HR GC FE R NA RM i ctx e c HS HL NO NH.
    destruct (client _ _ _ _ _ _ HR) as (la & RA & GA & _ & NCA & NCut). destruct (serves _ _ _ PB _ _ _ HR) as (lb & RB & NWF & NC).
    pose proof (client_runs _ _ _ HR (rest_stuck _ _ R SideA) (rest_place _ _ R SideA) NA RM) as LA. pose proof (inv_server _ _ _ RO _ _ _ RB NC) as V.
    assert (LB : lp (p_ep p SideB) 0 = Some LRun) by (unfold lp; rewrite (v_conns _ _ _ V); reflexivity).
    pose proof (rest_read _ _ R _ LA) as WA. pose proof (rest_read _ _ R _ LB) as WB.
    pose proof (to_server _ _ _ _ _ _ HR) as TS. rewrite WB, app_nil_r in TS. pose proof (to_client _ _ _ _ _ _ HR) as TC. rewrite WA, app_nil_r in TC.
    pose proof (inv_idents _ _ _ _ _ _ _ _ RA (GA GC) FE) as ID.
    assert (EM : emitted ctx e).
    { destruct (listen_plain _ _ _ _ _ _ _ _ RA _ _ _ HL) as [(ctx1 & e1 & pu & A & B & _)|(ctx1 & e1 & A & B & C)].
      - exfalso. eapply (j_once _ _ ID); [exact A|reflexivity|]. rewrite B. eapply sent_ended; eauto.
      - destruct A as [A|A].
        + pose proof (ended_same _ _ _ (ev_id e) (j_nodup _ _ ID) HS A (or_introl eq_refl) (or_introl B)) as Q. injection Q as <- <-. exact C.
        + exfalso. assert (existsb is_cut (at_side SideA tr) = true) by (apply existsb_exists; eexists; split; [exact A|reflexivity]). congruence. }
    assert (J : exists j n ctxj sc, In (OCalled n j ctxj sc (drop_empty_ns e)) (at_side SideB tr)).
    { assert (G : In (drop_empty_ns e) (filter not_end (got (at_side SideB tr)))).
      { apply filter_In. split; [rewrite TS; apply in_wired; eauto|]. unfold not_end. rewrite drop_type. destruct EM as [_ EM]. rewrite EM. destruct (c_ref ctx); reflexivity. }
      rewrite <- (server_calls _ _ _ RO _ _ _ RB NC) in G. apply in_map_iff in G. destruct G as ([j q] & G1 & G2). cbn in G1. subst q. apply in_calls in G2. destruct G2 as (n & cx & sc & G2). eauto 6. }
    destruct J as (j & n & ctxj & sc & J). destruct (called_job _ _ _ _ _ _ _ _ _ _ _ _ _ RB J) as (st & J1 & J2 & J3).
    destruct (v_tasks _ _ _ V _ _ J1) as (q & J4 & _). cbn [tk_job] in J4. injection J4 as J4 J5.
    assert (n = 0%nat) by (rewrite J4 in J2; injection J2; auto). subst n. rewrite drop_id in J2. subst ctxj. clear J4 J5 q.
    exists j, sc. split; [exact J|].
    destruct (inv_fate _ _ _ _ _ _ _ _ RA _ _ _ HL) as [(sti & F1 & F2)|[(h & F)|(Fg & [(r & F)|[(c1 & e1 & F & _)|(e1 & cr & F & F')]])]].
    - right.
      assert (SJ : sent j (at_side SideB tr) = []).
      { pose proof (rest_stuck _ _ R SideA i (mk_instant 0 0) 0) as SK. pose proof F1 as F1'. unfold tst in F1. destruct (nth_error (e_tasks (p_ep p SideA)) i) as [tk|] eqn:Hi; [|discriminate]. cbn in F1. injection F1 as F1.
        cbn [step] in SK. unfold task_step in SK. rewrite Hi, F1 in SK.
        destruct sti as [?|? ? ?|? ? [?|?|?|?]|d rid k|d rid e1 k|?|?|?| |]; try discriminate F2; cbn in F2; injection F2 as ->; try discriminate SK.
        - pose proof (inv_users _ _ _ _ _ _ _ _ RA) as U. destruct (u_task _ U _ _ c F1' eq_refl) as (ch & C1 & C2 & C3). pose proof (inv_chan _ _ _ _ _ _ _ _ RA c) as CT. rewrite C1 in CT. destruct CT as (G1 & _ & G3 & rest & G4 & G5).
          specialize (G5 C3). subst rest. rewrite C3 in G1. cbn in G1. rewrite C1 in SK. destruct (ch_buf ch) as [|? ?]; [|discriminate SK].
          pose proof (inv_ask _ _ _ _ _ _ _ _ RA _ _ F1') as AK. cbn in AK. destruct AK as [_ AK]. rewrite AK in G4. cbn in G4.
          pose proof HL as HL'. apply in_split in HL'. destruct HL' as (a & b & Q). pose proof RA as RA'. rewrite Q in RA'.
          rewrite Q, (queued_after _ _ _ _ _ _ _ _ _ _ _ _ RA' eq_refl) in G4.
          destruct (flow _ _ _ _ _ 0 i _ c _ _ _ RA (GA GC) FE NH a b Q) as (rest & FL1 & FL2). specialize (FL2 G1 NA). unfold held in FL2. rewrite LA in FL2. subst rest. rewrite G4 in FL1.
          assert (RF : received_for 0 (ev_id e) (at_side SideA tr) = []).
          { rewrite Q, received_for_app, (not_before _ _ _ RO PB _ _ _ HR GC FE _ _ _ _ _ Q). change (OListen i (ev_id e) c :: b) with ([OListen i (ev_id e) c] ++ b). rewrite received_for_app, FL1. reflexivity. }
          pose proof (replies_of _ _ _ RO PB _ _ _ HR GC FE _ _ _ _ _ J) as RP. rewrite drop_id, RF, WA in RP. cbn in RP. destruct (sent j (at_side SideB tr)); [reflexivity|discriminate RP].
        - cbn zeta in SK. destruct (reply_result (cf_env (cf SideA)) e1); discriminate SK. }
      split; [|exact SJ].
      destruct (server_rest _ _ _ RO _ _ _ _ _ RB NC J1 (rest_stuck _ _ R SideB j)) as [D|[_ D]]; [|exact D]. exfalso. cbn [tk_st] in D. subst st. cbn in J3. destruct J3 as (r & pre & a & _ & _ & _ & [J3|(_ & k & J3)]).
      + rewrite SJ in J3. destruct pre; discriminate.
      + exact (NWF _ _ J3).
    - destruct (NO _ F).
    - left. exists r. split; [exact F|]. destruct r as [r|]; [|auto]. right.
      destruct (reply_first _ _ _ RO PB DF _ _ _ HR GC FE _ _ _ F NH) as [->|(j' & sc' & q & A & B & _ & C)]; [auto|]. right. exists r. split; [reflexivity|].
      destruct (call_unique _ _ _ RO PB _ _ _ HR GC FE j' q j (drop_empty_ns e)) as [-> _]; [apply in_calls; eauto|apply in_calls; eauto|rewrite drop_id; exact B|exact C].
    - exfalso. assert (existsb is_cut (at_side SideA tr) = true) by (apply existsb_exists; eexists; split; [exact F|reflexivity]). congruence.
    - exfalso. assert (W : In e1 (wired (at_side SideB tr))).
      { rewrite <- TC. apply in_got. destruct (taken_received _ _ _ _ _ _ _ _ _ _ RA F) as (m & Q). eauto. }
      apply in_wired in W. destruct W as (j' & cx & a & W1 & ->). exact (no_crash _ _ _ HR _ _ _ _ W1 F').
  Qed.
End Rest.
