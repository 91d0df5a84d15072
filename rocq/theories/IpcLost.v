(** Proofs about endpoints: lost connections, timeouts, distinct ids, connections sharing their listeners (C58-C61). *)
From Verif Require Import Base Reader BaseFacts BuilderFacts Codec Spec Ids IdsFacts Payload Builder Emit EmitFacts Ipc SpecIpc IpcFacts IpcChanFacts IpcUsers IpcLoops IpcIds IpcTasks IpcReplies IpcStreams IpcClaims IpcMore IpcFlow IpcLimits IpcRemoved SpecMore.
From Coq Require Import ZifyBool ZifyNat ZifyN.

Section Lost.
  Context (cf : config) (nc : nat) (armed : bool) (ps : list prog) (ctr : N).
  Local Notation runs' := (runs cf nc armed ps ctr).

  (** ** Lost connections *)
  Lemma done_stays s l s' os n : step cf s l = Some (s', os) -> lp s n = Some LDone -> lp s' n = Some LDone /\ (forall e, ~ In (OReceived n e) os) /\ (forall c e, ~ In (OQueued n c e) os)
    /\ (forall i ctx sc e, ~ In (OCalled n i ctx sc e) os) /\ ~ In (OClosed n) os.
  Proof.
    intros H D. unfold lp in *.
    destruct (step_loop _ _ _ _ _ n H) as [l NB Q|e0 c0 E0 _ _ _|e0 E0 _ _ _ _|e0 E0 _ _ _ _|c0 e0 ch E0 _ _ _ _ _|c0 e0 ch E0 _ _ _ _|E0 _ _|cn E0 E3 E4 E5]; try congruence.
    - split; [congruence|]. assert (X : forall o, In o os -> about n o = false).
      { intros o Ho. destruct (about n o) eqn:Y; [|reflexivity]. exfalso. assert (existsb (about n) os = true) by (apply existsb_exists; eauto). congruence. }
      repeat split; intros; intros Hin; specialize (X _ Hin); cbn in X; rewrite Nat.eqb_refl in X; discriminate.
    - subst. split; [rewrite E5; reflexivity|]. repeat split; intros; intros [Q|[]]; discriminate.
  Qed.
  Lemma down_done ls s tr n : runs' ls s tr -> In (OClosed n) tr \/ In (OAborted n) tr -> lp s n = Some LDone.
  Proof.
    intros H [Q|Q]; [|eapply aborted_done; eauto]. revert ls s tr H Q.
    refine (run_ind cf _ (fun ls s tr => In (OClosed n) tr -> lp s n = Some LDone) _ _); [cbn; tauto|].
    intros ls s tr l s' os IH HR H Hin. apply in_app_or in Hin. destruct Hin as [Hin|Hin]; [eapply done_stays; eauto|].
    unfold lp. destruct (step_loop _ _ _ _ _ n H) as [l NB Q|e0 c0 E0 Q _ _|e0 E0 Q _ _ _|e0 E0 Q _ _ _|c0 e0 ch E0 Q _ _ _ _|c0 e0 ch E0 Q _ _ _|E0 Q E5|cn E0 E3 E4 E5]; try exact E5;
      try (exfalso; subst; repeat (destruct Hin as [Hin|Hin]; try discriminate Hin); contradiction); auto.
    - exfalso. assert (existsb (about n) os = true) by (apply existsb_exists; exists (OClosed n); split; [exact Hin|cbn; apply Nat.eqb_refl]). congruence.
  Qed.
  Lemma down_quiet ls2 : forall ls s tr s' os n, runs' ls s tr -> In (OClosed n) tr \/ In (OAborted n) tr -> run cf s ls2 = Some (s', os) ->
    (forall e, ~ In (OReceived n e) os) /\ (forall c e, ~ In (OQueued n c e) os) /\ (forall i ctx sc e, ~ In (OCalled n i ctx sc e) os).
  Proof.
    induction ls2 as [|l ls2 IH]; intros ls s tr s' os n HR D H; cbn [run] in H; [inversion H; subst; cbn; tauto|].
    destruct (step cf s l) as [[s1 o1]|] eqn:E1; [|discriminate]. destruct (run cf s1 ls2) as [[s2 o2]|] eqn:E2; [|discriminate]. inversion H; subst.
    destruct (done_stays _ _ _ _ n E1 (down_done _ _ _ _ HR D)) as (_ & A & B & C & _).
    assert (D' : In (OClosed n) (tr ++ o1) \/ In (OAborted n) (tr ++ o1)) by (destruct D; [left|right]; apply in_or_app; auto).
    destruct (IH _ _ _ _ _ n (snoc_run _ _ _ _ _ _ _ _ _ _ _ HR E1) D' E2) as (A2 & B2 & C2).
    split; [|split]; intros; intros Hin; apply in_app_or in Hin; destruct Hin as [Hin|Hin]; first [exact (A _ Hin)|exact (B _ _ Hin)|exact (C _ _ _ _ Hin)|exact (A2 _ Hin)|exact (B2 _ _ Hin)|exact (C2 _ _ _ _ Hin)].
  Qed.
  Lemma lost_queue ls s tr ls2 s' os c : runs' ls s tr -> all_down nc tr -> run cf s ls2 = Some (s', os) -> queued c os = [].
  Proof.
    intros H A R. destruct (queued c os) as [|y l] eqn:Qs; [reflexivity|]. exfalso.
    assert (Y : In y (queued c os)) by (rewrite Qs; left; reflexivity). unfold queued in Y. apply in_flat_map in Y. destruct Y as (o & Y1 & Y2). destruct o; cbn in Y2; try contradiction.
    assert (L : (n < nc)%nat) by (eapply (queued_conn _ _ _ _ _ _ _ _ n c0 e (run_more _ _ _ _ _ _ _ _ _ _ _ H R)); apply in_or_app; auto).
    destruct (down_quiet _ _ _ _ _ _ n H (A n L) R) as (_ & B & _). exact (B _ _ Y1).
  Qed.
  Lemma queued_obs c tr e : In e (queued c tr) -> exists n, In (OQueued n c e) tr.
  Proof.
    unfold queued. intros Y. apply in_flat_map in Y. destruct Y as (o & Y1 & Y2). destruct o; cbn in Y2; try contradiction.
    destruct (Nat.eqb_spec c0 c) as [->|]; [|contradiction]. destruct Y2 as [->|[]]. eauto.
  Qed.
  Lemma lost_results ls s tr ls2 s' os i x r : runs' ls s tr -> all_down nc tr -> run cf s ls2 = Some (s', os) -> good_clock (ls ++ ls2) -> few_events s' -> never_handled x (tr ++ os) ->
    In (OReply i x r) os ->
    (exists n c e, In (OQueued n c e) tr /\ ev_ref e = Some x /\ r = Some (reply_result (cf_env cf) e))
    \/ r = None \/ r = Some (Err Timeout) \/ (exists io ctx q, r = Some (Err (IoError io)) /\ In (OCut i ctx q) (tr ++ os) /\ ev_id q = x).
  Proof.
    intros H A R GC FE NH Hin. pose proof (run_more _ _ _ _ _ _ _ _ _ _ _ H R) as HR2.
    destruct (results _ _ _ _ _ _ _ _ HR2 i x r) as (c & L & G & RP); [apply in_or_app; auto|].
    destruct (chan_prefix _ _ _ _ _ _ _ _ c HR2) as (rest & P). rewrite queued_app, (lost_queue _ _ _ _ _ _ c H A R), app_nil_r in P.
    unfold reported in RP. destruct (taken c (tr ++ os)) as [|e [|? ?]]; [| |destruct RP].
    - right. destruct RP as [->|[->|[->|(io & ctx & q & -> & C1 & C2)]]]; auto.
      + exfalso. eapply (no_send_error _ _ _ _ _ _ _ _ HR2 GC FE i x NH). apply in_or_app. right. exact Hin.
      + right. right. exists io, ctx, q. auto.
    - left. destruct RP as (E & B & _). destruct (queued_obs c tr e) as (n & Q); [rewrite P; left; reflexivity|]. exists n, c, e. auto.
  Qed.
  Lemma lost_pending ls s tr ls2 s' os i j ctx q c r : runs' ls s tr -> all_down nc tr -> run cf s ls2 = Some (s', os) -> good_clock (ls ++ ls2) -> few_events s' -> never_handled (ev_id q) (tr ++ os) ->
    In (OListen i (ev_id q) c) tr -> In (OSent i ctx q) tr -> queued c tr = [] -> In (OReply j (ev_id q) r) os -> j = i /\ (r = None \/ r = Some (Err Timeout)).
  Proof.
    intros H A R GC FE NH L S Q Hin. pose proof (run_more _ _ _ _ _ _ _ _ _ _ _ H R) as HR2. pose proof (inv_idents _ _ _ _ _ _ _ _ HR2 GC FE) as J.
    destruct (results _ _ _ _ _ _ _ _ HR2 j (ev_id q) r) as (d & L2 & G & RP); [apply in_or_app; auto|].
    destruct (j_unique _ _ J _ _ _ _ _ L2 (in_or_app _ _ _ (or_introl L))) as [-> ->]. split; [reflexivity|].
    destruct (chan_prefix _ _ _ _ _ _ _ _ c HR2) as (rest & P). rewrite queued_app, (lost_queue _ _ _ _ _ _ c H A R), Q in P. cbn in P. symmetry in P. apply app_eq_nil in P. destruct P as [P _].
    unfold reported in RP. rewrite P in RP. destruct RP as [->|[->|[->|(io & ctx' & e' & -> & C1 & C2)]]]; auto.
    - exfalso. eapply (no_send_error _ _ _ _ _ _ _ _ HR2 GC FE i _ NH). apply in_or_app. right. exact Hin.
    - exfalso. eapply (ended_once _ _ _ _ _ _ _ (j_nodup _ _ J) (in_or_app _ _ _ (or_introl S)) C1). congruence.
  Qed.
  Lemma lost_stream ls s tr ls2 s' os j h x c : runs' ls s tr -> all_down nc tr -> run cf s ls2 = Some (s', os) -> good_clock (ls ++ ls2) -> few_events s' -> never_handled x (tr ++ os) ->
    In (OOpened j h x c) (tr ++ os) -> no_end (queued c tr) -> exists l more, queued c tr = l ++ more /\ (items h (tr ++ os) = yields l \/ items h (tr ++ os) = yields l ++ [Some (Err Timeout)]).
  Proof.
    intros H A R GC FE NH O NE. pose proof (run_more _ _ _ _ _ _ _ _ _ _ _ H R) as HR2.
    assert (Q : queued c (tr ++ os) = queued c tr) by (rewrite queued_app, (lost_queue _ _ _ _ _ _ c H A R), app_nil_r; reflexivity).
    destruct (not_ending _ _ _ _ _ _ _ _ _ _ _ _ HR2 GC FE NH O) as (l & more & B & C); [rewrite Q; exact NE|]. exists l, more. rewrite <- Q. auto.
  Qed.
  (** a waiting request for which nothing has arrived does not move *)
  Lemma waits_on ls s tr i c x k : runs' ls s tr -> good_clock ls -> few_events s -> never_handled x tr -> tst s i = Some (TWait c x k) -> queued c tr = [] -> stuck cf s i.
  Proof.
    intros H GC FE NH T Q t v. pose proof (inv_ask _ _ _ _ _ _ _ _ H _ _ T) as AK. cbn in AK. destruct AK as ((L & ctx & q & AS & Aq) & Tk).
    pose proof (inv_chan _ _ _ _ _ _ _ _ H c) as C. assert (OP : forall ch, nth_error (e_chans s) c = Some ch -> ch_open ch = true).
    { intros ch Ec. destruct (u_task _ (inv_users _ _ _ _ _ _ _ _ H) _ _ c T eq_refl) as (ch' & X & _ & Y). congruence. }
    cbn [step]. unfold tst in T. unfold task_step. destruct (nth_error (e_tasks s) i) as [tk|]; [|discriminate]. cbn in T. injection T as ->.
    destruct (nth_error (e_chans s) c) as [ch|] eqn:Ec; [|reflexivity]. destruct C as (G & _ & _ & rest & B & D).
    specialize (OP _ eq_refl).
    rewrite Q, Tk in B. cbn in B. rewrite <- (D OP), <- B.
    assert (RG : registered tr x = Some c) by (eapply stays_registered; eauto; rewrite G, OP; reflexivity).
    pose proof (lis_of _ _ _ _ _ _ _ _ (mk_event (mk_header 0 Initiator (Some x) None []) []) H) as LO. cbn in LO. unfold listener_of in LO. cbn in LO. rewrite RG in LO.
    rewrite (lookup_sender _ _ _ LO). reflexivity.
  Qed.
  (** ** Timeouts *)
  Lemma outcome_after_sending ls s a i x r b : runs' ls s (a ++ OReply i x r :: b) ->
    exists ctx q, ev_id q = x /\ (In (OSent i ctx q) a \/ (In (OCut i ctx q) a /\ (r = None \/ exists io, r = Some (Err (IoError io))))).
  Proof.
    intros H. destruct (split_runs _ _ _ _ _ _ _ _ _ _ H) as (ls1 & l & ls2 & s1 & tr1 & s2 & o1 & o2 & tr2 & _ & B & C & _ & -> & _ & _ & _).
    destruct (reply_step _ _ _ _ _ i x r C) as (st & ac & -> & Hi & [(c & ctx & e & k & -> & -> & E & Q)|[(c & k & -> & E & Q)|(c & e & k & -> & E & Q)]]); [apply in_or_app; right; left; reflexivity| | |].
    - exists ctx, e. split; [reflexivity|]. right. split; [|exact Q]. destruct o1 as [|y o1]; [discriminate|]. injection E as -> E. apply in_or_app. right. left. reflexivity.
    - pose proof (inv_ask _ _ _ _ _ _ _ _ B _ _ Hi) as A. cbn in A. destruct A as ((_ & ctx & q & A1 & A2) & _). exists ctx, q. split; [exact A2|]. left. apply in_or_app. auto.
    - pose proof (inv_ask _ _ _ _ _ _ _ _ B _ _ Hi) as A. cbn in A. destruct A as ((_ & ctx & q & A1 & A2) & _). exists ctx, q. split; [exact A2|]. left. apply in_or_app. auto.
  Qed.
  Lemma item_after_sending ls s a j h r b : runs' ls s (a ++ OItem j h (Some r) :: b) ->
    exists i x c ctx q, In (OOpened i h x c) a /\ In (OSent i ctx q) a /\ ev_id q = x.
  Proof.
    intros H. destruct (split_runs _ _ _ _ _ _ _ _ _ _ H) as (ls1 & l & ls2 & s1 & tr1 & s2 & o1 & o2 & tr2 & _ & B & C & _ & -> & _ & _ & _).
    assert (In (OItem j h (Some r)) (o1 ++ OItem j h (Some r) :: o2)) as Hin by (apply in_or_app; right; left; reflexivity).
    assert (exists y, nth_error (e_streams s1) h = Some y) as (y & Hy).
    { destruct (step_stream _ _ _ _ _ h C) as [l E1 E2 E3|i a ctx e c k E1 E2 E3 E4 E5|i a y E1 E2 E3 E4|i a y k E1 E2 E3 E4 E5|i a y k ch1 e b0 E1 E2 E3 E4 E5 E6 E7
         |i y k E1 E2 E3 E4|i y k E1 E2 E3 E4|i a y oe k E1 E2 E3 E4|y E1 E2 E3 E4 E5]; eauto.
      - exfalso. apply items_in in Hin. rewrite E2 in Hin. exact Hin.
      - exfalso. rewrite E3 in Hin || rewrite E5 in Hin. cbn in Hin. destruct Hin as [Q|[Q|[]]]; discriminate. }
    destruct (proj1 (inv_stream _ _ _ _ _ _ _ _ B) _ _ Hy) as [(i & O & (_ & ctx & q & A1 & A2)) _].
    exists i, (st_id y), (st_chan y), ctx, q. split; [apply in_or_app; auto|]. split; [apply in_or_app; auto|exact A2].
  Qed.
  (** ** Ids *)
  Lemma distinct_positions tr : NoDup (ended tr) -> forall p q o o' x, nth_error tr p = Some o -> nth_error tr q = Some o' -> started o = Some x -> started o' = Some x -> p = q.
  Proof.
    assert (IN : forall tr p o x, nth_error tr p = Some o -> started o = Some x -> In x (ended tr)).
    { intros t p o x H S. apply nth_error_In in H. unfold ended. apply in_flat_map. exists o. split; [exact H|]. destruct o; try discriminate S; injection S as <-; left; reflexivity. }
    induction tr as [|a tr IH]; intros ND p q o o' x Hp Hq So So'; [destruct p; discriminate|].
    change (ended (a :: tr)) with (ended_by a ++ ended tr) in ND.
    assert (ND' : NoDup (ended tr)) by (clear - ND; induction (ended_by a) as [|? ? IHl]; [exact ND|inversion ND; auto]).
    assert (X : forall t r, started a = Some x -> nth_error tr t = Some r -> started r = Some x -> False).
    { intros t r Sa Hr Sr. apply (IN _ _ _ _ Hr) in Sr. clear - ND Sa Sr. destruct a; try discriminate Sa; injection Sa as <-; cbn in ND; inversion ND; contradiction. }
    destruct p as [|p], q as [|q]; cbn in Hp, Hq.
    - reflexivity.
    - exfalso. injection Hp as ->. eapply X; eauto.
    - exfalso. injection Hq as ->. eapply X; eauto.
    - f_equal. eapply IH; eauto.
  Qed.
  (** ** Pools *)
  (** a reply is accepted from whichever connection it comes *)
  Lemma any_connection ls s tr i c x k n e t v : runs' ls s tr -> good_clock ls -> few_events s -> never_handled x tr -> tst s i = Some (TWait c x k) -> queued c tr = [] ->
    lp s n = Some LRun -> ev_ref e = Some x -> (forall cr, reply_result (cf_env cf) e <> Crash cr) ->
    exists s' os, run cf s [LRecv n e; LPlace n; LTask i (AStep t v); LTask i (AStep t v)] = Some (s', os) /\ In (OReply i x (Some (reply_result (cf_env cf) e))) os
      /\ tst s' i = Some (TRun (k (Some (reply_result (cf_env cf) e)))).
  Proof.
    intros H GC FE NH T Q EL Er NC. pose proof (inv_ask _ _ _ _ _ _ _ _ H _ _ T) as AK. cbn in AK. destruct AK as ((L & ctx & q & AS & Aq) & Tk).
    destruct (u_task _ (inv_users _ _ _ _ _ _ _ _ H) _ _ c T eq_refl) as (ch & Ec & Ei & Eo).
    pose proof (inv_chan _ _ _ _ _ _ _ _ H c) as C. rewrite Ec in C. destruct C as (G & _ & _ & rest & B & D).
    rewrite Q, Tk in B. cbn in B. specialize (D Eo). rewrite <- B in D. symmetry in D. rename D into BF. clear B.
    assert (RG : registered tr x = Some c) by (eapply stays_registered; eauto; rewrite G, Eo; reflexivity).
    unfold lp in EL. unfold tst in T. destruct (nth_error (e_conns s) n) as [cn|] eqn:En; [|discriminate]. cbn in EL. injection EL as EL.
    destruct (nth_error (e_tasks s) i) as [tk|] eqn:Et; [|discriminate]. cbn in T. injection T as T.
    assert (S1 : exists s1, step cf s (LRecv n e) = Some (s1, [OReceived n e]) /\ nth_error (e_conns s1) n = Some (mk_conn (LSend c e) (cn_armed cn) (cn_signal cn)) /\ e_chans s1 = e_chans s /\ e_tasks s1 = e_tasks s).
    { cbn [step]. rewrite En, EL. unfold receive. rewrite (lis_of _ _ _ _ _ _ _ _ e H). unfold listener_of. rewrite Er, RG. eexists. split; [reflexivity|]. autorewrite with ep. rewrite Nat.eqb_refl, En. auto. }
    destruct S1 as (s1 & S1 & C1 & H1 & K1).
    assert (S2 : exists s2, step cf s1 (LPlace n) = Some (s2, [OQueued n c e]) /\ nth_error (e_chans s2) c = Some (mk_chan (ch_id ch) [e] true) /\ e_tasks s2 = e_tasks s).
    { cbn [step]. rewrite C1. cbn [cn_loop]. unfold place. rewrite H1, Ec, Eo, BF. cbn [length Nat.ltb Nat.leb app]. eexists. split; [reflexivity|]. autorewrite with ep. rewrite H1, Nat.eqb_refl, Ec. auto. }
    destruct S2 as (s2 & S2 & H2 & K2).
    assert (S3 : exists s3, step cf s2 (LTask i (AStep t v)) = Some (s3, [OTaken c e]) /\ nth_error (e_tasks s3) i = Some (mk_task (tk_job tk) (TGot c x e k))).
    { cbn [step]. unfold task_step. rewrite K2, Et, T, H2. cbn [ch_buf]. eexists. split; [reflexivity|]. autorewrite with ep. rewrite Nat.eqb_refl, K2, Et. reflexivity. }
    destruct S3 as (s3 & S3 & K3).
    assert (S4 : exists s4 os4, step cf s3 (LTask i (AStep t v)) = Some (s4, os4 ++ [OReply i x (Some (reply_result (cf_env cf) e))]) /\ tst s4 i = Some (TRun (k (Some (reply_result (cf_env cf) e))))).
    { cbn [step]. unfold task_step. rewrite K3. cbn [tk_st]. destruct (reply_result (cf_env cf) e) as [y|y|y] eqn:R; [| |exfalso; eapply NC; reflexivity].
      all: eexists _, [OUnlisten x; OGone c]; split; [reflexivity|]; apply tst_set_task; autorewrite with ep; rewrite K3; discriminate. }
    destruct S4 as (s4 & os4 & S4 & K4). cbn [run]. rewrite S1, S2, S3, S4. eexists _, _. split; [reflexivity|]. split; [|exact K4].
    cbn [app]. do 3 right. rewrite app_nil_r. apply in_or_app. right. left. reflexivity.
  Qed.
  (** a connection is aborted only by stop() on itself *)
  Lemma abort_own ls s tr n : runs' ls s tr -> In (OAborted n) tr -> armed = true /\ exists i, In (OStop i n true) tr.
  Proof.
    intros H A. pose proof (inv_conn _ _ _ _ _ _ _ _ H n) as C. destruct (nth_error (e_conns s) n) as [cn|]; [|contradiction]. unfold conn_trace in C.
    destruct (cn_armed cn); [destruct C as (_ & _ & _ & C); contradiction|]. destruct armed; [|destruct C as (_ & _ & C); contradiction].
    split; [reflexivity|]. destruct C as ((j & C) & _). assert (X : In true (stops n tr)) by (rewrite C; left; reflexivity).
    unfold stops in X. apply in_flat_map in X. destruct X as (o & X1 & X2). destruct o; cbn in X2; try contradiction. destruct (Nat.eqb_spec n0 n) as [->|]; [|contradiction]. destruct X2 as [->|[]]. eauto.
  Qed.
  (** a connection that was neither closed nor stopped still reads, or holds a reply for a full queue *)
  Lemma still_reading ls s tr n : runs' ls s tr -> (n < nc)%nat -> ~ In (OClosed n) tr -> ~ In (OAborted n) tr ->
    (forall e, exists s' os, step cf s (LRecv n e) = Some (s', OReceived n e :: os))
    \/ exists e a b, tr = a ++ OReceived n e :: b /\ next_about n b = None.
  Proof.
    intros H L NC NA. pose proof (inv_loop _ _ _ _ _ _ _ _ H n) as I. destruct (nth_error (e_conns s) n) as [cn|] eqn:E; [|apply nth_error_None in E; rewrite (conns_len _ _ _ _ _ _ _ _ H) in E; lia].
    cbn in I. destruct (cn_loop cn) as [|c e|] eqn:El; cbn in I.
    - left. intros e. cbn [step]. rewrite E, El. unfold receive, handle_event. destruct (match ev_ref e with Some r => lookup N.eqb r (e_lis s) | None => None end); [eauto|]. destruct (etype_eqb (ev_type e) End); [eauto|].
      destruct (match ev_ns e with Some ns => lookup bytes_eqb ns (cf_namespaces cf) | None => None end); eauto.
    - right. destruct I as (a & b & A & B & _). eauto.
    - exfalso. unfold last_about in I. destruct I as [I|I]; apply find_some in I; destruct I as [I _]; apply in_rev in I; contradiction.
  Qed.
End Lost.
