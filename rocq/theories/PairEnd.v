(** Proofs about two joined endpoints: requests of a client to a server. *)
From Verif Require Import Base BaseFacts BuilderFacts Codec Spec Ids IdsFacts Payload Builder Emit EmitFacts Ipc SpecIpc IpcFacts IpcChanFacts IpcUsers IpcLoops IpcTasks IpcIds IpcReplies IpcStreams IpcClaims IpcMore IpcFlow IpcLimits IpcRemoved Pair SpecPair PairFacts PairServer.
From Coq Require Import ZifyBool ZifyNat ZifyN.

Lemma ended_wired tr : existsb is_cut tr = false -> ended tr = map ev_id (wired tr).
Proof.
  induction tr as [|o tr IH]; [reflexivity|]. cbn [existsb]. intros H. apply orb_false_iff in H. destruct H as [H1 H2]. unfold ended, wired in *. cbn [flat_map]. rewrite (IH H2), map_app. f_equal.
  destruct o; try reflexivity; [cbn; rewrite drop_id; reflexivity|discriminate].
Qed.
Lemma NoDup_map_eq {A B} (f : A -> B) l a b : NoDup (map f l) -> In a l -> In b l -> f a = f b -> a = b.
Proof.
  induction l as [|x l IH]; [intros _ []|]. cbn [map]. intros H [->|Ha] [->|Hb] E; auto; inversion H as [|y m N D]; subst.
  - destruct N. rewrite E. apply in_map. exact Hb.
  - destruct N. rewrite <- E. apply in_map. exact Ha.
  - auto.
Qed.
Lemma NoDup_filter_map {A B} (f : A -> B) (g : A -> bool) l : NoDup (map f l) -> NoDup (map f (filter g l)).
Proof.
  induction l as [|x l IH]; cbn; [auto|]. intros H. inversion H as [|y m N D]; subst. destruct (g x); [|auto]. cbn. constructor; [|auto].
  intros Q. apply N. apply in_map_iff in Q. destruct Q as (z & E & Q). apply filter_In in Q. rewrite <- E. apply in_map. apply Q.
Qed.
Lemma NoDup_app_l {A} (l m : list A) : NoDup (l ++ m) -> NoDup l.
Proof. induction l as [|x l IH]; cbn; [constructor|]. intros H. inversion H as [|y k N D]; subst. constructor; [|auto]. intros Q. apply N. apply in_or_app. auto. Qed.

Definition is_ref (x : N) (e : event) : bool := match ev_ref e with Some r => N.eqb r x | None => false end.
Lemma is_ref_iff x e : is_ref x e = true <-> ev_ref e = Some x.
Proof. unfold is_ref. destruct (ev_ref e) as [r|]; [|intuition congruence]. rewrite N.eqb_eq. intuition congruence. Qed.
Lemma received_zero cf armed ps ctr ls s tr : runs cf 1 armed ps ctr ls s tr -> forall n e, In (OReceived n e) tr -> n = 0%nat.
Proof.
  apply (run_ind cf _ (fun ls s tr => forall n e, In (OReceived n e) tr -> n = 0%nat)); [intros n e []|].
  intros l0 s0 tr0 l s' os IH HR H n e Q. apply in_app_or in Q. destruct Q as [Q|Q]; [eauto|].
  pose proof (conns_len _ _ _ _ _ _ _ _ HR) as L.
  assert (exists cn, nth_error (e_conns s0) n = Some cn).
  { step_cases H; cbn [In] in Q; repeat (destruct Q as [Q|Q]); try discriminate Q; try contradiction; injection Q as <- <-; eauto. }
  destruct H0 as (cn & H0). assert (n < 1)%nat by (rewrite <- L; apply nth_error_Some; congruence). lia.
Qed.
Lemma received_refs x tr : (forall n e, In (OReceived n e) tr -> n = 0%nat) -> received_for 0 x tr = filter (is_ref x) (got tr).
Proof.
  induction tr as [|o tr IH]; [reflexivity|]. intros H. unfold received_for, got in *. cbn [flat_map]. rewrite filter_app, IH by (intros n e Q; apply (H n e); right; exact Q). f_equal.
  destruct o; try reflexivity. rewrite (H n e) by (left; reflexivity). cbn. unfold is_ref. destruct (ev_ref e) as [r|]; [|reflexivity]. destruct (N.eqb r x); reflexivity.
Qed.

Section End_to_end.
  Context (cf : side -> config) (ps : side -> list prog) (ctr : side -> N).
  Hypothesis RO : only_replies (cf SideB).
  Hypothesis PB : ps SideB = [].
  Local Notation pruns' := (pruns cf ps ctr (fun _ => [])).
  Lemma client ls p tr : pruns' ls p tr -> exists ls', runs (cf SideA) 1 true (ps SideA) (ctr SideA) ls' (p_ep p SideA) (at_side SideA tr) /\ (good_clocks ls -> good_clock ls') /\ no_write_failure ls' /\ no_close ls'
    /\ existsb is_cut (at_side SideA tr) = false.
  Proof. intros H. exact (project _ _ _ _ _ _ _ H SideA). Qed.
  Lemma serves ls p tr : pruns' ls p tr -> exists ls', runs (cf SideB) 1 false [] (ctr SideB) ls' (p_ep p SideB) (at_side SideB tr) /\ no_write_failure ls' /\ no_close ls'.
  Proof. intros H. destruct (project _ _ _ _ _ _ _ H SideB) as (l & A & _ & B & C & _). rewrite PB in A. exists l. auto. Qed.
  Lemma to_server ls p tr : pruns' ls p tr -> got (at_side SideB tr) ++ p_in p SideB = wired (at_side SideA tr).
  Proof. intros H. exact (wires _ _ _ _ _ _ _ H SideB). Qed.
  Lemma to_client ls p tr : pruns' ls p tr -> got (at_side SideA tr) ++ p_in p SideA = wired (at_side SideB tr).
  Proof. intros H. exact (wires _ _ _ _ _ _ _ H SideA). Qed.
  (** the server sends replies to [x] only after the client has sent [x] *)
  Lemma asked_before ls p tr : pruns' ls p tr -> forall j ctx a x, In (OSent j ctx a) (at_side SideB tr) -> ev_ref a = Some x ->
    exists sc q i c0 q0, In (OCalled 0 j ctx sc q) (at_side SideB tr) /\ ctx = ctx0 q /\ ev_id q = x /\ In (OSent i c0 q0) (at_side SideA tr) /\ q = drop_empty_ns q0.
  Proof.
    intros HR j ctx a x Hs Hx. destruct (serves _ _ _ HR) as (lb & RB & _ & NC). destruct (server_sends _ _ _ RO _ _ _ RB NC _ _ _ Hs) as (sc & q & A & B & C).
    assert (G : In q (got (at_side SideB tr))).
    { eapply proj1. apply filter_In. rewrite <- (server_calls _ _ _ RO _ _ _ RB NC). apply in_map_iff. exists (j, q). split; [reflexivity|]. apply in_calls. eauto. }
    assert (W : In q (wired (at_side SideA tr))) by (rewrite <- (to_server _ _ _ HR); apply in_or_app; auto).
    apply in_wired in W. destruct W as (i & c0 & q0 & W1 & W2). exists sc, q, i, c0, q0. repeat split; auto. congruence.
  Qed.
  Lemma sent_ended tr i ctx e : In (OSent i ctx e) tr -> In (ev_id e) (ended tr).
  Proof. intros H. unfold ended. apply in_flat_map. eexists. split; [exact H|left; reflexivity]. Qed.
  Lemma few_prefix p l p' os : pstep cf p l = Some (p', os) -> few_events (p_ep p' SideA) -> few_events (p_ep p SideA).
  Proof.
    intros H. apply (pstep_side cf SideA) in H. destruct H as [E _|l' E _ _ _ _]; [rewrite E; auto|]. apply step_ctr in E. unfold few_events. lia.
  Qed.
  (** no reply to a request is read before the listener is there *)
  Lemma not_before ls p tr : pruns' ls p tr -> good_clocks ls -> few_events (p_ep p SideA) -> forall i x c a b, at_side SideA tr = a ++ OListen i x c :: b -> received_for 0 x a = [].
  Proof.
    apply (prun_ind cf _ (fun ls p tr => good_clocks ls -> few_events (p_ep p SideA) -> forall i x c a b, at_side SideA tr = a ++ OListen i x c :: b -> received_for 0 x a = [])).
    - intros _ _ i x c [|? a] b Q; discriminate Q.
    - intros ls0 p0 tr0 l p' os IH HR H GC FE i x c a b Q.
      assert (GC0 : good_clocks ls0) by (intros sd j t v X; apply (GC sd j t v); apply in_or_app; auto).
      pose proof (few_prefix _ _ _ _ H FE) as FE0. pose proof (psnoc_run _ _ _ _ _ _ _ _ HR H) as HR'.
      rewrite at_side_app in Q. pose proof Q as Q0. apply app_mid in Q. destruct Q as [(m & Q1 & Q2)|(m & Q1 & Q2)]; [eauto|].
      pose proof (pstep_side cf SideA _ _ _ _ H) as V. destruct V as [_ E|l' E _ _ _ _]; [rewrite E in Q1; destruct m; discriminate|].
      assert (Hin : In (OListen i x c) (at_side SideA os)) by (rewrite Q1; apply in_or_app; right; left; reflexivity).
      destruct (listen_step _ _ _ _ _ _ _ _ E Hin) as (_ & _ & _ & _ & _ & _ & _ & _ & _ & Os & _).
      rewrite Os in Q1. destruct m as [|? [|? ?]]; try discriminate Q1. rewrite app_nil_r in Q2. subst a.
      destruct (client _ _ _ HR) as (la & RA & _). destruct (client _ _ _ HR') as (la' & RA' & GA' & _). rewrite at_side_app, Os in RA'.
      pose proof (listens_first _ _ _ _ _ _ _ _ RA' (GA' GC) FE i x c _ [] eq_refl) as LF.
      rewrite (received_refs _ _ (received_zero _ _ _ _ _ _ _ RA)).
      destruct (filter (is_ref x) (got (at_side SideA tr0))) as [|e rest] eqn:Ef; [reflexivity|exfalso].
      assert (He : In e (filter (is_ref x) (got (at_side SideA tr0)))) by (rewrite Ef; left; reflexivity). apply filter_In in He. destruct He as [He1 He2]. apply is_ref_iff in He2.
      assert (W : In e (wired (at_side SideB tr0))) by (rewrite <- (to_client _ _ _ HR); apply in_or_app; auto).
      apply in_wired in W. destruct W as (j & ctx & a & W1 & ->). rewrite drop_ref in He2.
      destruct (asked_before _ _ _ HR _ _ _ _ W1 He2) as (sc & q & i' & c0 & q0 & _ & _ & A3 & A4 & A5). apply LF. rewrite <- A3, A5, drop_id. eapply sent_ended; eauto.
  Qed.
  Lemma sent_ids ls p tr : pruns' ls p tr -> good_clocks ls -> few_events (p_ep p SideA) -> NoDup (map ev_id (wired (at_side SideA tr))).
  Proof.
    intros HR GC FE. destruct (client _ _ _ HR) as (la & RA & GA & _ & _ & NCut). rewrite <- ended_wired by exact NCut. exact (j_nodup _ _ (inv_idents _ _ _ _ _ _ _ _ RA (GA GC) FE)).
  Qed.
  Lemma call_unique ls p tr : pruns' ls p tr -> good_clocks ls -> few_events (p_ep p SideA) -> forall j q j' q', In (j, q) (calls (at_side SideB tr)) -> In (j', q') (calls (at_side SideB tr)) -> ev_id q = ev_id q' -> j = j' /\ q = q'.
  Proof.
    intros HR GC FE j q j' q' H1 H2 E. destruct (serves _ _ _ HR) as (lb & RB & _ & NC).
    assert (ND : NoDup (map (fun z => ev_id (snd z)) (calls (at_side SideB tr)))).
    { rewrite <- map_map. rewrite (server_calls _ _ _ RO _ _ _ RB NC). apply NoDup_filter_map. apply NoDup_app_l with (map ev_id (p_in p SideB)). rewrite <- map_app, (to_server _ _ _ HR). eapply sent_ids; eauto. }
    pose proof (NoDup_map_eq _ _ _ _ ND H1 H2 E) as Q. injection Q; auto.
  Qed.
  Lemma called_same ls p tr : pruns' ls p tr -> forall j n ctx sc q n' ctx' sc' q', In (OCalled n j ctx sc q) (at_side SideB tr) -> In (OCalled n' j ctx' sc' q') (at_side SideB tr) -> q = q' /\ ctx = ctx' /\ sc = sc' /\ n = n'.
  Proof.
    intros HR j n ctx sc q n' ctx' sc' q' H1 H2. destruct (serves _ _ _ HR) as (lb & RB & _ & NC).
    pose proof (inv_task _ _ _ _ _ _ _ _ RB j) as T. destruct (called_job _ _ _ _ _ _ _ _ _ _ _ _ _ RB H1) as (st & A & _). rewrite A in T. destruct T as [T _]. cbn [tk_job job_trace] in T.
    destruct T as (m & sc0 & _ & _ & T). destruct (T _ _ _ _ H1) as (? & ? & ? & ?). destruct (T _ _ _ _ H2) as (? & ? & ? & ?). subst. auto.
  Qed.
  (** the replies to [x] on the wire are what the task handling [x] sent *)
  Lemma replies_of ls p tr : pruns' ls p tr -> good_clocks ls -> few_events (p_ep p SideA) -> forall n j ctx sc q, In (OCalled n j ctx sc q) (at_side SideB tr) ->
    received_for 0 (ev_id q) (at_side SideA tr) ++ filter (is_ref (ev_id q)) (p_in p SideA) = map (fun z => drop_empty_ns (snd z)) (sent j (at_side SideB tr)).
  Proof.
    intros HR GC FE n j ctx sc q Hc. destruct (client _ _ _ HR) as (la & RA & _). destruct (serves _ _ _ HR) as (lb & RB & _ & NC).
    rewrite (received_refs _ _ (received_zero _ _ _ _ _ _ _ RA)), <- filter_app, (to_client _ _ _ HR).
    assert (P : forall o, In o (at_side SideB tr) -> filter (is_ref (ev_id q)) (wire_of o) = map (fun z => drop_empty_ns (snd z)) (sent_by j o)).
    { intros o Ho. destruct o; try reflexivity. destruct (server_sends _ _ _ RO _ _ _ RB NC _ _ _ Ho) as (sc' & q' & A & B & C).
      cbn [wire_of filter sent_by]. destruct (Nat.eqb_spec i j) as [->|N].
      - destruct (called_same _ _ _ HR _ _ _ _ _ _ _ _ _ Hc A) as (-> & _). rewrite (proj2 (is_ref_iff _ _)); [reflexivity|]. rewrite drop_ref. exact C.
      - destruct (is_ref (ev_id q) (drop_empty_ns e)) eqn:E; [|reflexivity]. apply is_ref_iff in E. rewrite drop_ref, C in E. injection E as E.
        destruct N. apply (call_unique _ _ _ HR GC FE _ q' _ q); [| |exact E]; apply in_calls; eauto. }
    revert P. generalize (at_side SideB tr). clear. induction l as [|o l IH]; [reflexivity|]. intros P. unfold wired, sent in *. cbn [flat_map]. rewrite filter_app, map_app, IH, P; auto.
    - left. reflexivity.
    - intros o' Ho'. apply P. right. exact Ho'.
  Qed.
  Hypothesis DF : debug_fits (cf SideB) (cf_env (cf SideA)).
  Lemma first_reply ls p tr : pruns' ls p tr -> forall j n ctx sc q c a rest, In (OCalled n j ctx sc q) (at_side SideB tr) -> sent j (at_side SideB tr) = (c, a) :: rest ->
    answered (cf SideB) (at_side SideB tr) j (reply_result (cf_env (cf SideA)) (drop_empty_ns a)).
  Proof.
    intros HR j n ctx sc q c a rest Hc Hs. destruct (serves _ _ _ HR) as (lb & RB & _ & NC).
    destruct (server_sends _ _ _ RO _ _ _ RB NC j c a) as (sc' & q' & A1 & A2 & A3).
    { assert (In (c, a) (sent j (at_side SideB tr))) by (rewrite Hs; left; reflexivity). unfold sent in H. apply in_flat_map in H. destruct H as (o & O1 & O2). destruct o; cbn in O2; try contradiction.
      destruct (Nat.eqb_spec i j) as [->|]; [|contradiction]. destruct O2 as [O2|[]]. injection O2 as -> ->. exact O1. }
    destruct (called_same _ _ _ HR _ _ _ _ _ _ _ _ _ Hc A1) as (-> & -> & -> & ->).
    unfold answered. rewrite Hs. unfold reply_result. rewrite drop_type, drop_data.
    destruct (at_most_one _ _ _ _ _ _ _ _ _ _ _ _ _ RB Hc) as (pre & post & P1 & P2 & P3). rewrite Hs in P1.
    destruct pre as [|[c1 a1] pre].
    - cbn in P1. destruct P3 as [->|(r & a' & R1 & -> & R2)]; [discriminate|]. injection P1 as -> _. unfold answers in R2. destruct R2 as (R2 & R3 & R4). rewrite R1. destruct r as [b|er].
      + destruct R4 as (R4 & _ & R6). rewrite R4, (drop_none _ R3), R6. auto.
      + destruct R4 as (R4 & _ & R6). rewrite R4. change (etype_eqb Error Error) with true. cbn iota. exists er. split; [reflexivity|]. rewrite (DF er _ R6). reflexivity.
    - cbn in P1. injection P1 as -> -> ->. apply Forall_inv in P2. cbn [snd] in P2.
      destruct (ended_emitted _ _ _ _ _ _ _ _ RB j c1 a1) as [[E1 E2]|(n0 & sc0 & x & r & E1 & E2 & E3)].
      + left. assert (In (c1, a1) (sent j (at_side SideB tr))) by (rewrite Hs; left; reflexivity). unfold sent in H. apply in_flat_map in H. destruct H as (o & O1 & O2). destruct o; cbn in O2; try contradiction.
        destruct (Nat.eqb_spec i j) as [->|]; [|contradiction]. destruct O2 as [O2|[]]. injection O2 as -> ->. exact O1.
      + subst c1. cbn [ctx0 c_ref] in E2. rewrite E2. reflexivity.
      + unfold final in P2. destruct E3 as (_ & _ & E3). destruct r; destruct E3 as (E3 & _); rewrite E3 in P2; discriminate.
  Qed.
  Lemma first_received ls p tr : pruns' ls p tr -> good_clocks ls -> few_events (p_ep p SideA) -> forall x e rest, received_for 0 x (at_side SideA tr) = e :: rest ->
    exists j sc q, In (OCalled 0 j (mk_context 0 (Some x)) sc q) (at_side SideB tr) /\ ev_id q = x /\ In q (wired (at_side SideA tr)) /\ answered (cf SideB) (at_side SideB tr) j (reply_result (cf_env (cf SideA)) e).
  Proof.
    intros HR GC FE x e rest Hr. destruct (client _ _ _ HR) as (la & RA & _).
    assert (He : In e (filter (is_ref x) (got (at_side SideA tr)))) by (rewrite <- (received_refs _ _ (received_zero _ _ _ _ _ _ _ RA)), Hr; left; reflexivity).
    apply filter_In in He. destruct He as [He1 He2]. apply is_ref_iff in He2.
    assert (W : In e (wired (at_side SideB tr))) by (rewrite <- (to_client _ _ _ HR); apply in_or_app; auto).
    apply in_wired in W. destruct W as (j & ctx & a & W1 & W2). assert (Ra : ev_ref a = Some x) by (rewrite <- He2, W2, drop_ref; reflexivity).
    destruct (asked_before _ _ _ HR _ _ _ _ W1 Ra) as (sc & q & i' & c0 & q0 & A1 & A2 & A3 & A4 & A5).
    exists j, sc, q. subst ctx. unfold ctx0 in A1. rewrite A3 in A1. split; [exact A1|]. split; [exact A3|]. split; [apply in_wired; eauto|].
    pose proof (replies_of _ _ _ HR GC FE _ _ _ _ _ A1) as RP. rewrite A3, Hr in RP. destruct (sent j (at_side SideB tr)) as [|[c1 a1] r1] eqn:Es; [discriminate|]. cbn [map snd app] in RP. injection RP as -> _.
    eapply first_reply; eauto.
  Qed.
  (** what a finished request has got *)
  Lemma reply_first ls p tr : pruns' ls p tr -> good_clocks ls -> few_events (p_ep p SideA) -> forall i x r, In (OReply i x (Some r)) (at_side SideA tr) -> never_handled x (at_side SideA tr) ->
    r = Err Timeout \/ exists j sc q, In (OCalled 0 j (mk_context 0 (Some x)) sc q) (at_side SideB tr) /\ ev_id q = x /\ In q (wired (at_side SideA tr)) /\ answered (cf SideB) (at_side SideB tr) j r.
  Proof.
    intros HR GC FE i x r Hr NH. destruct (client _ _ _ HR) as (la & RA & GA & _ & _ & NCut).
    destruct (results _ _ _ _ _ _ _ _ RA _ _ _ Hr) as (c & L1 & L2 & L3). unfold reported in L3. destruct (taken c (at_side SideA tr)) as [|e [|e' tk]] eqn:Et.
    - destruct L3 as [L3|[L3|[L3|(io & ctx & e & L3 & L4 & _)]]].
      + discriminate.
      + injection L3 as ->. auto.
      + injection L3 as ->. destruct (no_send_error _ _ _ _ _ _ _ _ RA (GA GC) FE i x NH Hr).
      + exfalso. assert (existsb is_cut (at_side SideA tr) = true) by (apply existsb_exists; eexists; split; [exact L4|reflexivity]). congruence.
    - destruct L3 as (L3 & _). injection L3 as ->. right.
      apply in_split in L1. destruct L1 as (a & b & Q). pose proof RA as RA'. rewrite Q in RA'. 
      destruct (chan_prefix _ _ _ _ _ _ _ _ c RA) as (more & Qc). rewrite Et, Q, (queued_after _ _ _ _ _ _ _ _ _ _ _ _ RA' eq_refl) in Qc.
      destruct (flow _ _ _ _ _ 0 i x c _ _ _ RA (GA GC) FE NH a b Q) as (rest & F1 & _). rewrite Qc in F1. cbn [app] in F1.
      assert (F : received_for 0 x (at_side SideA tr) = e :: more ++ rest).
      { rewrite Q, received_for_app, (not_before _ _ _ HR GC FE _ _ _ _ _ Q). cbn [app]. change (OListen i x c :: b) with ([OListen i x c] ++ b). rewrite received_for_app, F1. reflexivity. }
      eapply first_received; eauto.
    - destruct L3.
  Qed.
End End_to_end.
