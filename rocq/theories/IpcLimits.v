(** Proofs about endpoints: back pressure (C44), complete streams (C42, C43), stopping (C51), removed listeners (C40). *)
From Verif Require Import Base Reader BaseFacts BuilderFacts Codec Spec Ids IdsFacts Payload Builder Emit EmitFacts Ipc SpecIpc IpcFacts IpcChanFacts IpcUsers IpcLoops IpcIds IpcTasks IpcReplies IpcStreams IpcClaims IpcMore IpcFlow.
From Coq Require Import ZifyBool ZifyNat ZifyN.

Section Limits.
  Context (cf : config) (nc : nat) (armed : bool) (ps : list prog) (ctr : N).
  Notation runs' := (runs cf nc armed ps ctr).

  (** ** C44 *)
  Lemma bounded ls s tr c : runs' ls s tr -> (length (queued c tr) <= length (taken c tr) + 8)%nat.
  Proof.
    apply (run_ind cf _ (fun ls s tr => (length (queued c tr) <= length (taken c tr) + 8)%nat)); [cbn; lia|].
    clear ls s tr. intros ls s tr l s' os IH HR H. rewrite queued_app, taken_app, !app_length.
    destruct (step_chan _ _ _ _ _ c H) as [E1 Q K G' NL|j ctx e w E -> E' _|m e ch _ -> El E1 Eo L E'|e b ch E1 Eb Q K G' NL Hu E'|ch E1 Q K G' NL Hu E'|E1 E' Q K NL Hu];
      rewrite ?Q, ?K; cbn [length]; try lia.
    - cbn. lia.
    - pose proof (inv_chan _ _ _ _ _ _ _ _ HR c) as C. rewrite E1 in C. destruct C as (_ & _ & _ & rest & D & F). rewrite (F Eo) in D. rewrite D, app_length.
      unfold queued, taken. cbn. rewrite Nat.eqb_refl. cbn. lia.
  Qed.
  (** the loop that holds an event *)
  Lemma holding ls s a n e b c : runs' ls s (a ++ OReceived n e :: b) -> next_about n b = None -> listener_of a e = Some c -> option_map cn_loop (nth_error (e_conns s) n) = Some (LSend c e).
  Proof.
    intros H N L. pose proof (inv_loop _ _ _ _ _ _ _ _ H n) as T.
    assert (LA : last_about n (a ++ OReceived n e :: b) = Some (OReceived n e)) by (apply last_mid; [cbn; apply Nat.eqb_refl|exact N]).
    destruct (option_map cn_loop (nth_error (e_conns s) n)) as [[|d e1|]|] eqn:El; cbn [loop_trace] in T.
    - rewrite LA in T. destruct T.
    - destruct T as (a' & b' & E & N' & L').
      destruct (mid_unique n _ _ _ _ _ _ E) as (A & B & C); auto; try (cbn; apply Nat.eqb_refl). subst a'. inversion B; subst e1. congruence.
    - rewrite LA in T. destruct T; discriminate.
    - exfalso. apply next_none in T. rewrite existsb_app in T. apply orb_false_iff in T. destruct T as [_ T]. cbn in T. rewrite Nat.eqb_refl in T. discriminate.
  Qed.
  Lemma full_chan ls s tr c : runs' ls s tr -> ~ gone tr c -> length (queued c tr) = (length (taken c tr) + 8)%nat -> exists ch, nth_error (e_chans s) c = Some ch /\ ch_open ch = true /\ length (ch_buf ch) = 8%nat.
  Proof.
    intros H G L. pose proof (inv_chan _ _ _ _ _ _ _ _ H c) as C. destruct (nth_error (e_chans s) c) as [ch|]; cbn in C.
    - destruct C as (A & _ & _ & rest & D & F). apply gone_iff_not in G. rewrite G in A. destruct (ch_open ch) eqn:Eo; [|discriminate]. exists ch. rewrite (F eq_refl) in D. rewrite D, app_length in L. repeat split; auto. lia.
    - destruct C as (A & B & _). rewrite A, B in L. cbn in L. lia.
  Qed.
  Lemma blocked ls2 : forall ls s tr n c e s' os, runs' ls s tr -> option_map cn_loop (nth_error (e_conns s) n) = Some (LSend c e) -> ~ gone tr c ->
    length (queued c tr) = (length (taken c tr) + 8)%nat -> run cf s ls2 = Some (s', os) -> (forall x, ~ In (OTaken c x) os) -> ~ In (OGone c) os -> ~ In (OAborted n) os -> next_about n os = None.
  Proof.
    induction ls2 as [|l ls2 IH]; intros ls s tr n c e s' os HR EL G L H NT NG NA; cbn [run] in H; [inversion H; reflexivity|].
    destruct (step cf s l) as [[s1 o1]|] eqn:E1; [|discriminate]. destruct (run cf s1 ls2) as [[s2 o2]|] eqn:E2; [|discriminate]. inversion H; subst s2 os. clear H.
    destruct (full_chan _ _ _ _ HR G L) as (ch & F1 & F2 & F3).
    assert (V : next_about n o1 = None /\ option_map cn_loop (nth_error (e_conns s1) n) = Some (LSend c e)).
    { destruct (step_loop _ _ _ _ _ n E1) as [l NB E|e0 c0 E0 _ _ _|e0 E0 _ _ _ _|e0 E0 _ _ _ _|c0 e0 ch' E0 _ Q1 Q2 Q3 _|c0 e0 ch' E0 _ Q1 Q2 _|E0 _ _|cn E0 E3 Eo _]; try congruence.
      - split; [apply next_none; exact NB|congruence].
      - exfalso. assert (c0 = c) by congruence. subst c0. rewrite F1 in Q1. inversion Q1; subst. lia.
      - exfalso. apply NA. rewrite Eo. left. reflexivity. }
    destruct V as [V1 V2]. rewrite next_app, V1.
    assert (Ts : taken c o1 = []).
    { destruct (taken c o1) as [|y r] eqn:T; [reflexivity|]. exfalso. assert (In y (taken c o1)) as Y by (rewrite T; left; reflexivity). unfold taken in Y. apply in_flat_map in Y. destruct Y as (o & Y1 & Y2).
      destruct o; cbn in Y2; try contradiction. destruct (Nat.eqb_spec c0 c) as [->|]; [|contradiction]. apply (NT e0). apply in_or_app. auto. }
    assert (G1 : ~ gone (tr ++ o1) c) by (intros Q; apply in_app_or in Q; destruct Q as [Q|Q]; [exact (G Q)|]; apply NG; apply in_or_app; auto).
    pose proof (snoc_run _ _ _ _ _ _ _ _ _ _ _ HR E1) as HR1.
    refine (IH _ _ _ n c e _ _ HR1 V2 G1 _ E2 _ _ _).
    - pose proof (bounded _ _ _ c HR1) as B. rewrite queued_app, taken_app, Ts, app_nil_r in *. rewrite app_length in *. lia.
    - intros x Q. apply (NT x). apply in_or_app. auto.
    - intros Q. apply NG. apply in_or_app. auto.
    - intros Q. apply NA. apply in_or_app. auto.
  Qed.
  (** ... and goes on as soon as there is room, or nobody left to read *)
  Lemma unblocked ls s tr n c e : runs' ls s tr -> option_map cn_loop (nth_error (e_conns s) n) = Some (LSend c e) ->
    (gone tr c -> exists s' j, step cf s (LPlace n) = Some (s', [OCalled n j (mk_context n (Some (ev_id e))) None e]))
    /\ (~ gone tr c -> (length (queued c tr) < length (taken c tr) + 8)%nat -> exists s', step cf s (LPlace n) = Some (s', [OQueued n c e])).
  Proof.
    intros H EL. pose proof (inv_chan _ _ _ _ _ _ _ _ H c) as C. pose proof (inv_users _ _ _ _ _ _ _ _ H) as U. destruct (u_loop _ U _ _ _ EL) as (r & _ & Q). unfold cid in Q.
    destruct (nth_error (e_chans s) c) as [ch|] eqn:Ec; [|discriminate]. destruct C as (A & _ & _ & rest & D & F).
    cbn [step]. destruct (nth_error (e_conns s) n) as [cn|]; [|discriminate]. cbn in EL. inversion EL as [EL']. rewrite EL'. unfold place. rewrite Ec. split.
    - intros G. apply gone_iff in G. rewrite G in A. destruct (ch_open ch); [discriminate|]. unfold handle_event. eexists _, _. reflexivity.
    - intros G L. apply gone_iff_not in G. rewrite G in A. destruct (ch_open ch); [|discriminate]. rewrite (F eq_refl) in D. rewrite D, app_length in L.
      destruct (Nat.ltb_spec (length (ch_buf ch)) 8); [|lia]. eexists. reflexivity.
  Qed.

  (** ** C42: one connection *)
  Lemma conns_len ls s tr : runs' ls s tr -> length (e_conns s) = nc.
  Proof.
    apply (run_ind cf _ (fun ls s tr => length (e_conns s) = nc)); [cbn; apply repeat_length|].
    clear ls s tr. intros ls s tr l s' os IH HR H. rewrite <- IH. clear IH HR. step_cases H; autorewrite with ep; reflexivity.
  Qed.
  Lemma queued_conn ls s tr n c e : runs' ls s tr -> In (OQueued n c e) tr -> (n < nc)%nat.
  Proof.
    intros H Q. rewrite <- (conns_len _ _ _ H). apply nth_error_Some. pose proof (inv_loop _ _ _ _ _ _ _ _ H n) as L. destruct (nth_error (e_conns s) n); [discriminate|]. cbn in L. apply next_none in L. intros _.
    assert (existsb (about n) tr = true) by (apply existsb_exists; exists (OQueued n c e); split; [exact Q|cbn; apply Nat.eqb_refl]). congruence.
  Qed.
  Lemma queued_single tr c : (forall n d e, In (OQueued n d e) tr -> n = 0%nat) -> queued c tr = queued_by 0 c tr.
  Proof.
    induction tr as [|o tr IH]; intros H; [reflexivity|]. unfold queued, queued_by in *. cbn [flat_map]. rewrite IH by (intros n d e Q; apply (H n d e); right; exact Q). f_equal.
    destruct o; try reflexivity. cbn. rewrite (H n c0 e (or_introl eq_refl)). reflexivity.
  Qed.
  Lemma queued_before ls s a i x c b : runs' ls s (a ++ OListen i x c :: b) -> queued c a = [] /\ gone_b c a = false.
  Proof.
    intros H. destruct (split_runs _ _ _ _ _ _ _ _ _ _ H) as (ls1 & l & ls2 & s1 & tr1 & s2 & o1 & o2 & tr2 & -> & B & C & D & -> & -> & HR2 & _).
    assert (Hin : In (OListen i x c) (o1 ++ OListen i x c :: o2)) by (apply in_or_app; right; left; reflexivity).
    destruct (listen_step _ _ _ _ _ _ _ _ C Hin) as (act & ctx & e & w & pu & -> & A & Ex & Ec & Eo & _).
    destruct o1 as [|o o1]; [|destruct o1; discriminate]. rewrite app_nil_r. pose proof (inv_chan _ _ _ _ _ _ _ _ B c) as K. rewrite (proj2 (nth_error_None _ _)) in K by lia. split; apply K.
  Qed.
  Lemma queued_after ls s a i x c b : runs' ls s (a ++ OListen i x c :: b) -> nc = 1%nat -> queued c (a ++ OListen i x c :: b) = queued_by 0 c b.
  Proof.
    intros H N. rewrite queued_app, (proj1 (queued_before _ _ _ _ _ _ _ H)). change (queued c (OListen i x c :: b)) with (queued c b). apply queued_single.
    intros n d e Q. assert (n < nc)%nat; [|lia]. apply (queued_conn _ _ _ n d e H). apply in_or_app. right. right. exact Q.
  Qed.
  (** what a stream has yielded is a prefix of what was received for its request *)
  Lemma stream_prefix ls s a i x c b j h : runs' ls s (a ++ OListen i x c :: b) -> nc = 1%nat -> good_clock ls -> few_events s -> never_handled x (a ++ OListen i x c :: b) ->
    In (OOpened j h x c) (a ++ OListen i x c :: b) -> exists l more, received_for 0 x b = l ++ more /\ stream_history l (items h (a ++ OListen i x c :: b)).
  Proof.
    intros H N GC FE NH HO. destruct (history _ _ _ _ _ _ _ _ _ _ _ _ H HO) as (l & more & Q & S). rewrite (queued_after _ _ _ _ _ _ _ H N) in Q.
    destruct (flow _ _ _ _ _ 0%nat i x c _ _ _ H GC FE NH a b eq_refl) as (rest & R & _). exists l, (more ++ rest). split; [|exact S]. rewrite R, Q, <- app_assoc. reflexivity.
  Qed.
  (** nothing is lost: a stream that waits although the endpoint has nothing to do has yielded everything received *)
  Lemma stream_all ls s a i x c b j h t k : runs' ls s (a ++ OListen i x c :: b) -> nc = 1%nat -> good_clock ls -> few_events s -> never_handled x (a ++ OListen i x c :: b) ->
    In (OOpened j h x c) (a ++ OListen i x c :: b) -> ~ In (OAborted 0) (a ++ OListen i x c :: b) ->
    tst s t = Some (TNext h k) -> stuck cf s t -> step cf s (LPlace 0) = None ->
    items h (a ++ OListen i x c :: b) = yields (received_for 0 x b) /\ no_end (received_for 0 x b).
  Proof.
    intros H N GC FE NH HO NA HT ST NP. pose proof (inv_users _ _ _ _ _ _ _ _ H) as U.
    destruct (opened_stream _ _ _ _ _ _ _ _ H _ _ _ _ HO) as (y & Ey & <- & <-).
    destruct (proj2 (inv_stream _ _ _ _ _ _ _ _ H) _ _ HT) as (y' & Ey' & It & Ne). rewrite Ey in Ey'. inversion Ey'; subst y'.
    destruct (u_poll _ U _ _ h HT eq_refl) as (y' & Ey'' & Sb). rewrite Ey in Ey''. inversion Ey''; subst y'.
    destruct (u_stream _ U _ _ Ey) as (ch & Ech & Ei & Eo). rewrite Sb in Eo. cbn in Eo.
    pose proof (inv_chan _ _ _ _ _ _ _ _ H (st_chan y)) as C. rewrite Ech in C. destruct C as (Gb & _ & _ & rest & Q & F). specialize (F Eo). rewrite Eo in Gb. cbn in Gb.
    assert (B : ch_buf ch = []).
    { specialize (ST (mk_instant 0 0) 0). cbn [step] in ST. unfold task_step in ST. unfold tst in HT. destruct (nth_error (e_tasks s) t) as [tk|]; [|discriminate]. cbn in HT. inversion HT as [HT']. rewrite HT', Ey, Ech in ST.
      destruct (ch_buf ch); [reflexivity|]. destruct (etype_eqb (ev_type e) End); discriminate. }
    subst rest. rewrite B, app_nil_r in Q.
    destruct (flow _ _ _ _ _ 0%nat i (st_id y) (st_chan y) _ _ _ H GC FE NH a b eq_refl) as (rest & R & K). specialize (K Gb NA).
    assert (HD : held s 0 (st_chan y) = []).
    { unfold held, lp. destruct (option_map cn_loop (nth_error (e_conns s) 0)) as [[|d e1|]|] eqn:El; try reflexivity. destruct (Nat.eqb_spec d (st_chan y)) as [->|]; [|reflexivity]. exfalso.
      destruct (proj2 (unblocked _ _ _ _ _ _ H El)) as (s' & P).
      - apply gone_iff_not. exact Gb.
      - rewrite Q. lia.
      - congruence. }
    rewrite K, HD, app_nil_r in R. rewrite (queued_after _ _ _ _ _ _ _ H N) in Q. rewrite R, Q. auto.
  Qed.

  (** ** C43 *)
  Lemma no_end_in l e : no_end l -> In e l -> ev_type e <> End.
  Proof. intros H Q. unfold no_end in H. rewrite Forall_forall in H. exact (H _ Q). Qed.
  Lemma not_ending ls s tr j h x c : runs' ls s tr -> good_clock ls -> few_events s -> never_handled x tr -> In (OOpened j h x c) tr -> no_end (queued c tr) ->
    exists l more, queued c tr = l ++ more /\ (items h tr = yields l \/ items h tr = yields l ++ [Some (Err Timeout)]).
  Proof.
    intros H GC FE NH HO NE. destruct (history _ _ _ _ _ _ _ _ _ _ _ _ H HO) as (l & more & Q & S). exists l, more. split; [exact Q|].
    destruct (opened_stream _ _ _ _ _ _ _ _ H _ _ _ _ HO) as (y & Ey & <- & <-).
    assert (NN : ~ In None (items h tr)).
    { intros I0. destruct (none_after_end _ _ _ _ _ _ _ _ H GC FE h y Ey NH I0) as (e & A & B). destruct (chan_prefix _ _ _ _ _ _ _ _ (st_chan y) H) as (rest & P).
      apply (no_end_in _ e NE); [|exact B]. rewrite P. apply in_or_app. auto. }
    inversion S as [N E|pre e k E1 N E2 E|k N E|N E]; auto.
    - exfalso. apply (no_end_in _ e NE); [|exact E2]. rewrite Q, E1. apply in_or_app. left. apply in_or_app. right. left. reflexivity.
    - exfalso. apply NN. rewrite <- E. apply in_or_app. right. left. reflexivity.
  Qed.
  Lemma poisoned ls s tr : runs' ls s tr -> forall j h, In (OItem j h (Some (Some (Err Timeout)))) tr -> exists y, nth_error (e_streams s) h = Some y /\ (st_state y = SPoisoned \/ st_state y = SDropped).
  Proof.
    apply (run_ind cf _ (fun ls s tr => forall j h, In (OItem j h (Some (Some (Err Timeout)))) tr -> exists y, nth_error (e_streams s) h = Some y /\ (st_state y = SPoisoned \/ st_state y = SDropped))); [cbn; tauto|].
    clear ls s tr. intros ls s tr l s' os IH HR H j h Hin. pose proof (inv_users _ _ _ _ _ _ _ _ HR) as U. apply in_app_or in Hin. destruct Hin as [Hin|Hin].
    - destruct (IH _ _ Hin) as (y & Ey & Sy).
      destruct l as [i a|m e|m|m|m|h1|]; try (exists y; split; [|exact Sy]; rewrite <- Ey; step_cases H; autorewrite with ep; reflexivity).
      + cbn [step] in H. unfold task_step in H. destruct (nth_error (e_tasks s) i) as [tk|] eqn:Et; [|discriminate].
        assert (NB : forall st h1, tk_st tk = st -> tpoll st = Some h1 -> h1 <> h).
        { intros st h1 E P ->. destruct (u_poll _ U i st h) as (y' & A & B); [unfold tst; rewrite Et; cbn; congruence|exact P|]. rewrite Ey in A. inversion A; subst. destruct Sy; congruence. }
        assert (LN : h <> length (e_streams s)) by (intros ->; rewrite (proj2 (nth_error_None _ _)) in Ey by lia; discriminate).
        destruct (tk_st tk) as [p|ctx1 e1 w|ctx1 e1 pu|d rid k1|d rid e1 k1|h1 k1|h1 oe k1|rid| |] eqn:Es; destruct a; try discriminate H;
          try (specialize (NB _ _ eq_refl eq_refl)); try (exists y; split; [|exact Sy]; rewrite <- Ey; step_cases H; autorewrite with ep; rewrite ?(proj2 (Nat.eqb_neq h h1)) by congruence; rewrite ?(proj2 (Nat.eqb_neq h (length (e_streams s)))) by exact LN; reflexivity).
        unfold run_prog in H. destruct p as [r| |rq k|rq k|rq k|h1 k|m k|k|q k]; try (exists y; split; [|exact Sy]; rewrite <- Ey; step_cases H; autorewrite with ep; reflexivity).
        destruct (nth_error (e_streams s) h1) as [y1|] eqn:E1; [|discriminate]. destruct (Nat.eq_dec h1 h) as [->|N].
        * rewrite Ey in E1. inversion E1; subst y1. destruct Sy as [Sy|Sy]; rewrite Sy in H; [|discriminate]. apply some_pair in H. destruct H as [<- <-]. autorewrite with ep. eauto.
        * exists y. split; [|exact Sy]. rewrite <- Ey. step_cases H; autorewrite with ep; rewrite ?(proj2 (Nat.eqb_neq h h1)) by congruence; reflexivity.
      + cbn [step] in H. destruct (nth_error (e_streams s) h1) as [y1|] eqn:E1; [|discriminate]. destruct (Nat.eq_dec h1 h) as [->|N].
        * rewrite Ey in E1. inversion E1; subst y1. destruct (st_state y); try discriminate; apply some_pair in H; destruct H as [<- <-]; autorewrite with ep; rewrite Nat.eqb_refl; autorewrite with ep; rewrite ?Ey; cbn; eauto.
        * exists y. split; [|exact Sy]. rewrite <- Ey. destruct (st_state y1); try discriminate; apply some_pair in H; destruct H as [<- <-]; autorewrite with ep; rewrite ?(proj2 (Nat.eqb_neq h h1)) by congruence; reflexivity.
    - assert (exists i k y, l = LTask i ATimeout /\ tst s i = Some (TNext h k) /\ nth_error (e_streams s) h = Some y) as (i & k & y & -> & T & Ey).
      { destruct l as [i a|m e|m|m|m|h1|]; try (exfalso; step_cases H; cbn [In] in Hin; intuition discriminate).
        cbn [step] in H. unfold task_step in H. destruct (nth_error (e_tasks s) i) as [tk|] eqn:Et; [|discriminate].
        destruct (tk_st tk) as [p|ctx1 e1 w|ctx1 e1 pu|d rid k1|d rid e1 k1|h1 k1|h1 oe k1|rid| |] eqn:Es; destruct a; try discriminate H;
          try (exfalso; step_cases H; cbn [In] in Hin; intuition discriminate).
        - destruct (nth_error (e_streams s) h1) as [y|] eqn:Ey; [|discriminate]. apply some_pair in H. destruct H as [_ <-]. destruct Hin as [Q|[Q|[]]]; [discriminate|]. inversion Q; subst. exists j, k1, y. unfold tst. rewrite Et. cbn. rewrite Es. auto. }
      cbn [step] in H. unfold task_step in H. unfold tst in T. destruct (nth_error (e_tasks s) i) as [tk|] eqn:Et; [|discriminate]. cbn in T. inversion T as [T']. rewrite T', Ey in H. apply some_pair in H. destruct H as [<- <-].
      autorewrite with ep. rewrite Nat.eqb_refl. autorewrite with ep. rewrite Ey. cbn. eauto.
  Qed.
  Lemma poll_panics ls s tr j h i k t v s' os : runs' ls s tr -> In (OItem j h (Some (Some (Err Timeout)))) tr -> tst s i = Some (TRun (PNext h k)) ->
    step cf s (LTask i (AStep t v)) = Some (s', os) -> os = [OPanicked i] /\ tst s' i = Some TDead.
  Proof.
    intros H Hin T St. destruct (poisoned _ _ _ H _ _ Hin) as (y & Ey & Sy). pose proof T as T0. cbn [step] in St. unfold task_step in St. unfold tst in T. destruct (nth_error (e_tasks s) i) as [tk|] eqn:Et; [|discriminate]. cbn in T. inversion T as [T']. rewrite T' in St.
    cbn [run_prog] in St. rewrite Ey in St. destruct Sy as [Sy|Sy]; rewrite Sy in St; [|discriminate]. apply some_pair in St. destruct St as [<- <-]. split; [reflexivity|]. apply tst_set_task. congruence.
  Qed.
End Limits.
