(** Proofs about networks of endpoints: requests are answered by the endpoint they were sent to. *)
From Verif Require Import Base BaseFacts BuilderFacts Codec Spec Ids IdsFacts Payload Builder Emit EmitFacts Ipc SpecIpc IpcFacts IpcChanFacts IpcUsers IpcLoops IpcTasks IpcIds IpcReplies IpcStreams IpcClaims IpcMore IpcFlow IpcLimits IpcRemoved IpcFate Pair SpecPair PairFacts PairServer PairEnd PairRest PairStream Net SpecNet NetServer NetFacts.
From Coq Require Import ZifyBool ZifyNat ZifyN.

(** ** One connection of a server *)
Lemma in_sent j c a tr : In (c, a) (sent j tr) -> In (OSent j c a) tr.
Proof.
  unfold sent. intros H. apply in_flat_map in H. destruct H as (o & O1 & O2). destruct o; cbn in O2; try contradiction.
  destruct (Nat.eqb_spec i j) as [->|]; [|contradiction]. destruct O2 as [O2|[]]. injection O2 as -> ->. exact O1.
Qed.
Lemma called_same' cf nc armed ps ctr ls s tr : runs cf nc armed ps ctr ls s tr -> forall j n ctx sc q n' ctx' sc' q', In (OCalled n j ctx sc q) tr -> In (OCalled n' j ctx' sc' q') tr -> q = q' /\ ctx = ctx' /\ sc = sc' /\ n = n'.
Proof.
  intros RB j n ctx sc q n' ctx' sc' q' H1 H2.
  pose proof (inv_task _ _ _ _ _ _ _ _ RB j) as T. destruct (called_job _ _ _ _ _ _ _ _ _ _ _ _ _ RB H1) as (st & A & _). rewrite A in T. destruct T as [T _]. cbn [tk_job job_trace] in T.
  destruct T as (m & sc0 & _ & _ & T). destruct (T _ _ _ _ H1) as (? & ? & ? & ?). destruct (T _ _ _ _ H2) as (? & ? & ? & ?). subst. auto.
Qed.
Lemma site_first cf armed ctr ls s tr E : only_replies cf -> debug_fits cf E -> runs cf 1 armed [] ctr ls s tr -> forall j n ctx sc q c a rest, In (OCalled n j ctx sc q) tr -> sent j tr = (c, a) :: rest ->
  answered cf tr j (reply_result E (drop_empty_ns a)).
Proof.
  intros RO DF RB j n ctx sc q c a rest Hc Hs.
  assert (Hin : In (OSent j c a) tr) by (apply in_sent; rewrite Hs; left; reflexivity).
  destruct (site_sends _ _ _ RO _ _ _ RB j c a Hin) as (sc' & q' & A1 & A2 & A3).
  destruct (called_same' _ _ _ _ _ _ _ _ RB _ _ _ _ _ _ _ _ _ Hc A1) as (-> & -> & -> & ->).
  unfold answered. rewrite Hs. unfold reply_result. rewrite drop_type, drop_data.
  destruct (at_most_one _ _ _ _ _ _ _ _ _ _ _ _ _ RB Hc) as (pre & post & P1 & P2 & P3). rewrite Hs in P1.
  destruct pre as [|[c1 a1] pre].
  - cbn in P1. destruct P3 as [->|(r & a' & R1 & -> & R2)]; [discriminate|]. injection P1 as -> _. unfold answers in R2. destruct R2 as (R2 & R3 & R4). rewrite R1. destruct r as [b|er].
    + destruct R4 as (R4 & _ & R6). rewrite R4, (drop_none _ R3), R6. auto.
    + destruct R4 as (R4 & _ & R6). rewrite R4. change (etype_eqb Error Error) with true. cbn iota. exists er. split; [reflexivity|]. rewrite (DF er _ R6). reflexivity.
  - cbn in P1. injection P1 as -> -> ->. apply Forall_inv in P2. cbn [snd] in P2.
    destruct (ended_emitted _ _ _ _ _ _ _ _ RB j c1 a1 (or_introl Hin)) as [[E1 E2]|(n0 & sc0 & x & r & E1 & E2 & E3)].
    + subst c1. cbn [ctx0 c_ref] in E2. rewrite E2. reflexivity.
    + unfold final in P2. destruct E3 as (_ & _ & E3). destruct r; destruct E3 as (E3 & _); rewrite E3 in P2; discriminate.
Qed.
(** the End event of a task is the last thing it sends *)
Lemma site_end cf nc armed ps ctr ls s tr : runs cf nc armed ps ctr ls s tr -> forall n j ctx sc q l e more, In (OCalled n j ctx sc q) tr -> replies_of_task j tr = l ++ e :: more -> ev_type e = End -> more = [] /\ no_end l.
Proof.
  intros RB n j ctx sc q l e more Hc Q Et.
  destruct (at_most_one _ _ _ _ _ _ _ _ _ _ _ _ _ RB Hc) as (pre & post & P1 & P2 & P3). unfold replies_of_task in Q. rewrite P1, map_app in Q.
  assert (NP : no_end (map (fun z => drop_empty_ns (snd z)) pre)).
  { unfold no_end. rewrite Forall_map. eapply Forall_impl; [|exact P2]. intros z F E. rewrite drop_type in E. unfold final in F. rewrite E in F. discriminate. }
  assert (LP : (length post <= 1)%nat) by (destruct P3 as [->|(r & a & _ & -> & _)]; cbn; lia).
  assert (G : forall A B : list event, no_end A -> (length B <= 1)%nat -> A ++ B = l ++ e :: more -> more = [] /\ no_end l).
  { clear - Et. intros A B NA LB. revert l. induction A as [|a A IH]; intros l Q.
    - cbn in Q. subst B. destruct l as [|x l]; cbn in LB; [|rewrite app_length in LB; cbn in LB; lia]. split; [destruct more; [reflexivity|cbn in LB; lia]|constructor].
    - inversion NA as [|? ? Na NA']; subst. destruct l as [|x l]; cbn in Q; injection Q as Q1 Q2; [congruence|]. subst x. destruct (IH NA' _ Q2) as [X Y]. split; [exact X|constructor; auto]. }
  apply (G _ _ NP) in Q; [exact Q|]. rewrite map_length. exact LP.
Qed.
Lemma sent_to_ids k tr : exists f : obs -> bool, map ev_id (sent_to k tr) = flat_map (fun o => if f o then ended_by o else []) tr.
Proof.
  exists (fun o => match o with OSent _ ctx _ => Nat.eqb (c_conn ctx) k | _ => false end). induction tr as [|o tr IH]; [reflexivity|]. unfold sent_to in *. cbn [flat_map]. rewrite map_app, IH. f_equal.
  destruct o; try reflexivity. cbn. destruct (Nat.eqb (c_conn ctx) k); [|reflexivity]. cbn. rewrite drop_id. reflexivity.
Qed.
Lemma NoDup_some {A B} (f : A -> bool) (g : A -> list B) l : NoDup (flat_map g l) -> NoDup (flat_map (fun x => if f x then g x else []) l).
Proof.
  induction l as [|x l IH]; cbn; [auto|]. intros H. destruct (f x); [|cbn; apply IH; eapply NoDup_app_r; eauto].
  assert (K : forall y, In y (flat_map (fun x => if f x then g x else []) l) -> In y (flat_map g l)).
  { intros y Q. apply in_flat_map in Q. destruct Q as (z & Z1 & Z2). apply in_flat_map. exists z. split; [exact Z1|]. destruct (f z); [exact Z2|destruct Z2]. }
  specialize (IH (NoDup_app_r _ _ H)). clear - H IH K. induction (g x) as [|y r IHr]; [exact IH|]. cbn in *. inversion H as [|? ? N D]; subst. constructor; [|auto].
  intros Q. apply N. apply in_app_or in Q. apply in_or_app. destruct Q as [Q|Q]; auto.
Qed.
Lemma sent_to_nodup k tr : NoDup (ended tr) -> NoDup (map ev_id (sent_to k tr)).
Proof. intros H. destruct (sent_to_ids k tr) as (f & ->). apply NoDup_some. exact H. Qed.

Section Request.
  Context (w : network) (a : nat).
  Hypothesis WJ : well_joined w.
  Hypothesis SV : served w a.
  Local Notation cfa := (nd_cf (node_of w a)).
  Lemma asker ls s tr : nruns w ls s tr -> exists ls', runs cfa (nd_conns (node_of w a)) (nd_armed (node_of w a)) (nd_tasks (node_of w a)) (nd_ctr (node_of w a)) ls' (n_ep s a) (at_node a tr) /\ (net_clocks ls -> good_clock ls').
  Proof. intros H. exact (nproject _ _ _ _ H a). Qed.
  Lemma peer_site ls s tr k b m : nruns w ls s tr -> peer w a k = Some (b, m) ->
    m = 0%nat /\ only_replies (nd_cf (node_of w b)) /\ exists lb, runs (nd_cf (node_of w b)) 1 (nd_armed (node_of w b)) [] (nd_ctr (node_of w b)) lb (n_ep s b) (at_node b tr).
  Proof.
    intros H P. destruct (SV _ _ _ P) as ((RO & NT & NC) & _). destruct (WJ _ _ _ _ P) as [P' _]. destruct (WJ _ _ _ _ P') as [_ L]. rewrite NC in L. split; [lia|]. split; [exact RO|].
    destruct (nproject _ _ _ _ H b) as (lb & RB & _). rewrite NT, NC in RB. eauto.
  Qed.
  Lemma got_zero cf armed ps ctr ls s tr : runs cf 1 armed ps ctr ls s tr -> got tr = read_from 0 tr.
  Proof.
    intros R. pose proof (received_zero _ _ _ _ _ _ _ R) as Z. clear R. induction tr as [|o tr IH]; [reflexivity|]. unfold got, read_from in *. cbn [flat_map]. rewrite IH by (intros n e Q; apply (Z n e); right; exact Q). f_equal.
    destruct o; try reflexivity. cbn. rewrite (Z n e (or_introl eq_refl)). reflexivity.
  Qed.
  (** the server on connection [k] sends replies to [x] only after [x] was sent over [k] *)
  Lemma asked_over ls s tr k b : nruns w ls s tr -> peer w a k = Some (b, 0%nat) -> forall j ctx r x, In (OSent j ctx r) (at_node b tr) -> ev_ref r = Some x ->
    exists sc q i c0 q0, In (OCalled 0 j ctx sc q) (at_node b tr) /\ ctx = ctx0 q /\ ev_id q = x /\ In (OSent i c0 q0) (at_node a tr) /\ c_conn c0 = k /\ q = drop_empty_ns q0.
  Proof.
    intros HR P j ctx r x Hs Hx. destruct (peer_site _ _ _ _ _ _ HR P) as (_ & RO & lb & RB). destruct (site_sends _ _ _ RO _ _ _ RB _ _ _ Hs) as (sc & q & A & B & C).
    assert (G : In q (got (at_node b tr))).
    { eapply proj1. apply filter_In. rewrite <- (site_calls _ _ _ RO _ _ _ RB). apply in_map_iff. exists (j, q). split; [reflexivity|]. apply in_calls. eauto. }
    rewrite (got_zero _ _ _ _ _ _ _ RB) in G. destruct (WJ _ _ _ _ P) as [P' _].
    assert (W : In q (sent_to k (at_node a tr))) by (rewrite <- (nwires _ _ _ _ HR _ _ _ _ P'); apply in_or_app; auto).
    apply in_sent_to in W. destruct W as (i & c0 & q0 & W1 & W2 & W3). exists sc, q, i, c0, q0. repeat split; auto. congruence.
  Qed.
  (** what is read over connection [k] was sent by the server it leads to *)
  Lemma read_over ls s tr k e : nruns w ls s tr -> In (OReceived k e) (at_node a tr) ->
    exists b j ctx r, peer w a k = Some (b, 0%nat) /\ In (OSent j ctx r) (at_node b tr) /\ e = drop_empty_ns r.
  Proof.
    intros HR H. apply in_read_from in H. destruct (peer w a k) as [[b m]|] eqn:P.
    - destruct (peer_site _ _ _ _ _ _ HR P) as (-> & _). assert (W : In e (sent_to 0 (at_node b tr))) by (rewrite <- (nwires _ _ _ _ HR _ _ _ _ P); apply in_or_app; auto).
      apply in_sent_to in W. destruct W as (j & ctx & r & W1 & _ & W3). eauto 8.
    - exfalso. destruct (unjoined _ _ _ _ HR _ _ P) as [R _]. rewrite R in H. destruct H.
  Qed.
  (** a reply comes over the connection the request was sent to *)
  Lemma same_connection ls s tr : nruns w ls s tr -> net_clocks ls -> few_events (n_ep s a) -> forall k e i ctx q, In (OReceived k e) (at_node a tr) -> ev_ref e = Some (ev_id q) -> In (OSent i ctx q) (at_node a tr) -> k = c_conn ctx.
  Proof.
    intros HR GC FE k e i ctx q H1 H2 H3. destruct (asker _ _ _ HR) as (la & RA & GA). destruct (read_over _ _ _ _ _ HR H1) as (b & j & cx & r & P & S & ->). rewrite drop_ref in H2.
    destruct (asked_over _ _ _ _ _ HR P _ _ _ _ S H2) as (sc & q1 & i1 & c1 & q0 & _ & _ & A3 & A4 & A5 & A6).
    pose proof (ended_same _ _ _ (ev_id q) (j_nodup _ _ (inv_idents _ _ _ _ _ _ _ _ RA (GA GC) FE)) H3 A4 (or_introl eq_refl)) as E.
    assert (E' : OSent i ctx q = OSent i1 c1 q0) by (apply E; left; rewrite <- A3, A6, drop_id; reflexivity). injection E' as _ -> _. congruence.
  Qed.
  (** no reply to a request is read before the listener is there *)
  Lemma net_not_before ls s tr : nruns w ls s tr -> net_clocks ls -> few_events (n_ep s a) -> forall i x c u v, at_node a tr = u ++ OListen i x c :: v -> forall k e, In (OReceived k e) u -> ev_ref e <> Some x.
  Proof.
    apply (nrun_ind w _ (fun ls s tr => net_clocks ls -> few_events (n_ep s a) -> forall i x c u v, at_node a tr = u ++ OListen i x c :: v -> forall k e, In (OReceived k e) u -> ev_ref e <> Some x)).
    - intros _ _ i x c [|? u] v Q; discriminate Q.
    - intros ls0 s0 tr0 l s' os IH HR H GC FE i x c u v Q k e He Hx.
      assert (GC0 : net_clocks ls0) by (intros n j t z X; apply (GC n j t z); apply in_or_app; auto).
      pose proof (nfew _ _ _ _ _ _ H FE) as FE0. pose proof (nsnoc_run _ _ _ _ _ _ _ _ HR H) as HR'.
      rewrite at_node_app in Q. apply app_mid in Q. destruct Q as [(m & Q1 & Q2)|(m & Q1 & Q2)]; [eapply IH; eauto|].
      destruct (nstep_node w a _ _ _ _ H) as [[_ E]|(l' & _ & E)]; [rewrite E in Q1; destruct m; discriminate|].
      assert (Hin : In (OListen i x c) (at_node a os)) by (rewrite Q1; apply in_or_app; right; left; reflexivity).
      destruct (listen_step _ _ _ _ _ _ _ _ E Hin) as (_ & _ & _ & _ & _ & _ & _ & _ & _ & Os & _).
      rewrite Os in Q1. destruct m as [|? [|? ?]]; try discriminate Q1. rewrite app_nil_r in Q2. subst u.
      destruct (asker _ _ _ HR') as (la' & RA' & GA'). rewrite at_node_app, Os in RA'.
      pose proof (listens_first _ _ _ _ _ _ _ _ RA' (GA' GC) FE i x c _ [] eq_refl) as LF.
      destruct (read_over _ _ _ _ _ HR He) as (b & j & cx & r & P & S & ->). rewrite drop_ref in Hx.
      destruct (asked_over _ _ _ _ _ HR P _ _ _ _ S Hx) as (sc & q1 & i1 & c1 & q0 & _ & _ & A3 & A4 & A5 & A6).
      apply LF. rewrite <- A3, A6, drop_id. eapply sent_ended; eauto.
  Qed.
  (** everything put into the channel of a request came over one connection, in the order received *)
  Lemma queued_one_conn ls s tr : nruns w ls s tr -> net_clocks ls -> few_events (n_ep s a) -> forall i j ctx q c, In (OListen i (ev_id q) c) (at_node a tr) -> In (OSent j ctx q) (at_node a tr) -> never_handled (ev_id q) (at_node a tr) ->
    exists rest, received_for (c_conn ctx) (ev_id q) (at_node a tr) = queued c (at_node a tr) ++ rest
      /\ (gone_b c (at_node a tr) = false -> ~ In (OAborted (c_conn ctx)) (at_node a tr) -> rest = held (n_ep s a) (c_conn ctx) c).
  Proof.
    intros HR GC FE i j ctx q c HL HS NH. destruct (asker _ _ _ HR) as (la & RA & GA). apply in_split in HL. destruct HL as (u & v & Q).
    pose proof RA as RA'. rewrite Q in RA'. destruct (queued_before _ _ _ _ _ _ _ _ _ _ _ _ RA') as [QB _].
    assert (QV : queued c (at_node a tr) = queued c v) by (rewrite Q, queued_app, QB; reflexivity).
    assert (RB : received_for (c_conn ctx) (ev_id q) u = []).
    { rewrite received_read. destruct (filter (is_ref (ev_id q)) (read_from (c_conn ctx) u)) as [|e r] eqn:Ef; [reflexivity|exfalso].
      assert (He : In e (filter (is_ref (ev_id q)) (read_from (c_conn ctx) u))) by (rewrite Ef; left; reflexivity). apply filter_In in He. destruct He as [He1 He2]. apply is_ref_iff in He2. apply in_read_from in He1.
      exact (net_not_before _ _ _ HR GC FE _ _ _ _ _ Q _ _ He1 He2). }
    assert (QK : queued c v = queued_by (c_conn ctx) c v).
    { assert (K : forall n e, In (OQueued n c e) v -> n = c_conn ctx).
      { intros n e H. destruct (flow _ _ _ _ _ n i (ev_id q) c _ _ _ RA (GA GC) FE NH u v Q) as (rest & F & _).
        assert (In e (received_for n (ev_id q) v)).
        { rewrite F. apply in_or_app. left. unfold queued_by. apply in_flat_map. eexists. split; [exact H|]. cbn. rewrite !Nat.eqb_refl. left. reflexivity. }
        rewrite received_read in H0. apply filter_In in H0. destruct H0 as [H0 H1]. apply is_ref_iff in H1. apply in_read_from in H0.
        eapply same_connection; eauto. rewrite Q. apply in_or_app. right. right. exact H0. }
      revert K. clear. induction v as [|o v IH]; [reflexivity|]. intros K. unfold queued, queued_by in *. cbn [flat_map]. rewrite IH by (intros n e Z; apply (K n e); right; exact Z). f_equal.
      destruct o; try reflexivity. cbn. destruct (Nat.eqb_spec c0 c) as [->|]; [|destruct (Nat.eqb n (c_conn ctx)); reflexivity]. rewrite (K n e (or_introl eq_refl)), Nat.eqb_refl. reflexivity. }
    destruct (flow _ _ _ _ _ (c_conn ctx) i (ev_id q) c _ _ _ RA (GA GC) FE NH u v Q) as (rest & F & FR). exists rest. split; [|exact FR].
    rewrite QV, QK, <- F, Q, received_for_app, RB. reflexivity.
  Qed.
  (** the replies to a request are what the task handling it sent *)
  Lemma net_call_unique ls s tr k b : nruns w ls s tr -> net_clocks ls -> few_events (n_ep s a) -> peer w a k = Some (b, 0%nat) ->
    forall j q j' q', In (j, q) (calls (at_node b tr)) -> In (j', q') (calls (at_node b tr)) -> ev_id q = ev_id q' -> j = j' /\ q = q'.
  Proof.
    intros HR GC FE P j q j' q' H1 H2 E. destruct (peer_site _ _ _ _ _ _ HR P) as (_ & RO & lb & RB). destruct (asker _ _ _ HR) as (la & RA & GA). destruct (WJ _ _ _ _ P) as [P' _].
    assert (ND : NoDup (map (fun z => ev_id (snd z)) (calls (at_node b tr)))).
    { rewrite <- map_map. rewrite (site_calls _ _ _ RO _ _ _ RB). apply NoDup_filter_map. apply NoDup_app_l with (map ev_id (n_in s b 0)). rewrite <- map_app, (got_zero _ _ _ _ _ _ _ RB), (nwires _ _ _ _ HR _ _ _ _ P').
      apply sent_to_nodup. exact (j_nodup _ _ (inv_idents _ _ _ _ _ _ _ _ RA (GA GC) FE)). }
    pose proof (NoDup_map_eq _ _ _ _ ND H1 H2 E) as Q. injection Q; auto.
  Qed.
  Lemma net_replies_of ls s tr k b : nruns w ls s tr -> net_clocks ls -> few_events (n_ep s a) -> peer w a k = Some (b, 0%nat) -> forall n j ctx sc q, In (OCalled n j ctx sc q) (at_node b tr) ->
    received_for k (ev_id q) (at_node a tr) ++ filter (is_ref (ev_id q)) (n_in s a k) = replies_of_task j (at_node b tr).
  Proof.
    intros HR GC FE P n j ctx sc q Hc. destruct (peer_site _ _ _ _ _ _ HR P) as (_ & RO & lb & RB).
    rewrite received_read, <- filter_app, (nwires _ _ _ _ HR _ _ _ _ P). unfold replies_of_task.
    assert (Z : forall o, In o (at_node b tr) -> filter (is_ref (ev_id q)) (sent_one 0 o) = map (fun z => drop_empty_ns (snd z)) (sent_by j o)).
    { intros o Ho. destruct o; try reflexivity. destruct (site_sends _ _ _ RO _ _ _ RB _ _ _ Ho) as (sc' & q' & A & B & C).
      cbn [sent_one filter sent_by]. rewrite B. cbn [PairServer.ctx0 c_conn]. change (Nat.eqb 0 0) with true. cbn iota. cbn [filter]. destruct (Nat.eqb_spec i j) as [->|N].
      - destruct (called_same' _ _ _ _ _ _ _ _ RB _ _ _ _ _ _ _ _ _ Hc A) as (-> & _). rewrite (proj2 (is_ref_iff _ _)); [reflexivity|]. rewrite drop_ref. exact C.
      - destruct (is_ref (ev_id q) (drop_empty_ns e)) eqn:E; [|reflexivity]. apply is_ref_iff in E. rewrite drop_ref, C in E. injection E as E.
        destruct N. apply (net_call_unique _ _ _ _ _ HR GC FE P _ q' _ q); [| |exact E]; apply in_calls; eauto. }
    revert Z. generalize (at_node b tr). clear. induction l as [|o l IH]; [reflexivity|]. intros P. unfold sent_to, sent in *. cbn [flat_map]. rewrite filter_app, map_app, IH, P; auto.
    - left. reflexivity.
    - intros o' Ho'. apply P. right. exact Ho'.
  Qed.
  (** who answers *)
  Lemma net_first ls s tr : nruns w ls s tr -> net_clocks ls -> few_events (n_ep s a) -> forall i ctx q e rest, In (OSent i ctx q) (at_node a tr) -> received_for (c_conn ctx) (ev_id q) (at_node a tr) = e :: rest ->
    exists b j sc more, peer w a (c_conn ctx) = Some (b, 0%nat) /\ In (OCalled 0 j (mk_context 0 (Some (ev_id q))) sc (drop_empty_ns q)) (at_node b tr)
      /\ replies_of_task j (at_node b tr) = (e :: rest) ++ more /\ answered (nd_cf (node_of w b)) (at_node b tr) j (reply_result (cf_env cfa) e).
  Proof.
    intros HR GC FE i ctx q e rest HS Hr. destruct (asker _ _ _ HR) as (la & RA & GA).
    assert (He : In e (filter (is_ref (ev_id q)) (read_from (c_conn ctx) (at_node a tr)))) by (rewrite <- received_read, Hr; left; reflexivity).
    apply filter_In in He. destruct He as [He1 He2]. apply is_ref_iff in He2. apply in_read_from in He1.
    destruct (read_over _ _ _ _ _ HR He1) as (b & j & cx & r & P & S & Er). rewrite Er, drop_ref in He2.
    destruct (asked_over _ _ _ _ _ HR P _ _ _ _ S He2) as (sc & q1 & i1 & c1 & q0 & A1 & A2 & A3 & A4 & A5 & A6).
    assert (E' : OSent i ctx q = OSent i1 c1 q0).
    { apply (ended_same _ _ _ (ev_id q) (j_nodup _ _ (inv_idents _ _ _ _ _ _ _ _ RA (GA GC) FE)) HS A4 (or_introl eq_refl)). left. rewrite <- A3, A6, drop_id. reflexivity. }
    injection E' as _ _ <-. subst q1 cx. pose proof (net_replies_of _ _ _ _ _ HR GC FE P _ _ _ _ _ A1) as RP. rewrite drop_id, Hr in RP.
    exists b, j, sc, (filter (is_ref (ev_id q)) (n_in s a (c_conn ctx))). split; [exact P|]. split; [rewrite <- (drop_id q); exact A1|]. split; [symmetry; exact RP|].
    destruct (peer_site _ _ _ _ _ _ HR P) as (_ & RO & lb & RB). destruct (SV _ _ _ P) as (_ & DF).
    unfold replies_of_task in RP. destruct (sent j (at_node b tr)) as [|[c2 a2] r2] eqn:Es; [discriminate|]. cbn [map snd app] in RP. injection RP as -> _.
    eapply site_first; eauto.
  Qed.
  Lemma net_reply ls s tr : nruns w ls s tr -> net_clocks ls -> few_events (n_ep s a) -> forall i x r, In (OReply i x (Some r)) (at_node a tr) -> never_handled x (at_node a tr) ->
    r = Err Timeout \/ (exists io ctx q, r = Err (IoError io) /\ In (OCut i ctx q) (at_node a tr) /\ ev_id q = x)
    \/ exists ctx q b j sc, In (OSent i ctx q) (at_node a tr) /\ ev_id q = x /\ peer w a (c_conn ctx) = Some (b, 0%nat)
        /\ In (OCalled 0 j (mk_context 0 (Some x)) sc (drop_empty_ns q)) (at_node b tr) /\ answered (nd_cf (node_of w b)) (at_node b tr) j r.
  Proof.
    intros HR GC FE i x r Hr NH. destruct (asker _ _ _ HR) as (la & RA & GA).
    destruct (results _ _ _ _ _ _ _ _ RA _ _ _ Hr) as (c & L1 & L2 & L3). unfold reported in L3. destruct (taken c (at_node a tr)) as [|e [|e' tk]] eqn:Et; [| |destruct L3].
    - destruct L3 as [L3|[L3|[L3|(io & ctx & e & L3 & L4 & L5)]]].
      + discriminate.
      + injection L3 as ->. auto.
      + injection L3 as ->. destruct (no_send_error _ _ _ _ _ _ _ _ RA (GA GC) FE i x NH Hr).
      + injection L3 as ->. right. left. eauto 8.
    - destruct L3 as (L3 & _ & ctx & q & L4 & <-). injection L3 as ->. right. right.
      destruct (queued_one_conn _ _ _ HR GC FE _ _ _ _ _ L1 L4 NH) as (rest & F & _). destruct (chan_prefix _ _ _ _ _ _ _ _ c RA) as (more & Qc). rewrite Qc, Et in F. cbn [app] in F.
      destruct (net_first _ _ _ HR GC FE _ _ _ _ _ L4 F) as (b & j & sc & mr & A & B & C & D). exists ctx, q, b, j, sc. auto 10.
  Qed.
End Request.
