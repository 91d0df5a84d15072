(** Proofs about two joined endpoints: reply streams (C70). *)
From Verif Require Import Base BaseFacts BuilderFacts Codec Spec Ids IdsFacts Payload Builder Emit EmitFacts Ipc SpecIpc IpcFacts IpcChanFacts IpcUsers IpcLoops IpcTasks IpcIds IpcReplies IpcStreams IpcClaims IpcMore IpcFlow IpcLimits IpcRemoved IpcFate Pair SpecPair PairFacts PairServer PairEnd PairRest.
From Coq Require Import ZifyBool ZifyNat ZifyN.

Section Streams.
  Context (cf : side -> config) (ps : side -> list prog) (ctr : side -> N).
  Hypothesis RO : only_replies (cf SideB).
  Hypothesis PB : ps SideB = [].
  Local Notation pruns' := (pruns cf ps ctr (fun _ => [])).
  (** the End event of a task is the last thing it sends *)
  Lemma end_last ls p tr : pruns' ls p tr -> forall n j ctx sc q l e more, In (OCalled n j ctx sc q) (at_side SideB tr) -> replies_of_task j (at_side SideB tr) = l ++ e :: more -> ev_type e = End -> more = [] /\ no_end l.
  Proof.
    intros HR n j ctx sc q l e more Hc Q Et. destruct (serves _ _ _ PB _ _ _ HR) as (lb & RB & _ & NC).
    destruct (at_most_one _ _ _ _ _ _ _ _ _ _ _ _ _ RB Hc) as (pre & post & P1 & P2 & P3). unfold replies_of_task in Q. rewrite P1, map_app in Q.
    assert (NP : no_end (map (fun z => drop_empty_ns (snd z)) pre)).
    { unfold no_end. rewrite Forall_map. eapply Forall_impl; [|exact P2]. intros z F E. rewrite drop_type in E. unfold final in F. rewrite E in F. discriminate. }
    assert (LP : (length post <= 1)%nat) by (destruct P3 as [->|(r & a & _ & -> & _)]; cbn; lia).
    assert (G : forall A B : list event, no_end A -> (length B <= 1)%nat -> A ++ B = l ++ e :: more -> more = [] /\ no_end l).
    { clear - Et. intros A B NA LB. revert l. induction A as [|a A IH]; intros l Q.
      - cbn in Q. subst B. destruct l as [|x l]; cbn in LB; [|rewrite app_length in LB; cbn in LB; lia]. split; [destruct more; [reflexivity|cbn in LB; lia]|constructor].
      - inversion NA as [|? ? Na NA']; subst. destruct l as [|x l]; cbn in Q; injection Q as Q1 Q2; [congruence|]. subst x. destruct (IH NA' _ Q2) as [X Y]. split; [exact X|constructor; auto]. }
    apply (G _ _ NP) in Q; [exact Q|]. rewrite map_length. exact LP.
  Qed.
  Lemma opened_at ls p tr : pruns' ls p tr -> good_clocks ls -> few_events (p_ep p SideA) -> forall i h x c, In (OOpened i h x c) (at_side SideA tr) ->
    exists i' a b, at_side SideA tr = a ++ OListen i' x c :: b /\ received_for 0 x (at_side SideA tr) = received_for 0 x b.
  Proof.
    intros HR GC FE i h x c HO. destruct (client _ _ _ _ _ _ HR) as (la & RA & _). destruct (stream_request _ _ _ _ _ _ _ _ _ _ _ _ RA HO) as (i' & L & _).
    apply in_split in L. destruct L as (a & b & Q). exists i', a, b. split; [exact Q|].
    rewrite Q, received_for_app, (not_before _ _ _ RO PB _ _ _ HR GC FE _ _ _ _ _ Q). change (OListen i' x c :: b) with ([OListen i' x c] ++ b). rewrite received_for_app. reflexivity.
  Qed.
  (** at any time *)
  Lemma stream_replies ls p tr : pruns' ls p tr -> good_clocks ls -> few_events (p_ep p SideA) -> forall i h x c, In (OOpened i h x c) (at_side SideA tr) -> never_handled x (at_side SideA tr) ->
    exists l, (exists more, received_for 0 x (at_side SideA tr) = l ++ more) /\ stream_history l (items h (at_side SideA tr)) /\ (In None (items h (at_side SideA tr)) -> ~ no_end l).
  Proof.
    intros HR GC FE i h x c HO NH. destruct (client _ _ _ _ _ _ HR) as (la & RA & GA & _). destruct (opened_at _ _ _ HR GC FE _ _ _ _ HO) as (i' & a & b & Q & RF).
    rewrite RF. pose proof RA as RA'. rewrite Q in RA', NH, HO. destruct (stream_prefix _ _ _ _ _ _ _ _ _ _ _ _ _ _ RA' eq_refl (GA GC) FE NH HO) as (l & more & P & S).
    rewrite <- Q in *. exists l. split; [eauto|]. split; [exact S|]. intros I0 NE.
    destruct (opened_stream _ _ _ _ _ _ _ _ RA _ _ _ _ HO) as (y & Ey & <- & <-). destruct (none_after_end _ _ _ _ _ _ _ _ RA (GA GC) FE h y Ey NH I0) as (e & A & B).
    destruct (proj1 (inv_stream _ _ _ _ _ _ _ _ RA) _ _ Ey) as [_ S0].
    (* everything taken by a stream that has ended was yielded *)
    assert (T : taken (st_chan y) (at_side SideA tr) = l).
    { assert (YI : forall u v, yields u = yields v -> u = v).
      { clear. induction u as [|x u IH]; intros [|z v] E; try discriminate; [reflexivity|]. cbn in E. injection E as -> E. f_equal. auto. }
      assert (ON : forall u, ~ In None (yields u)) by (intros u F; unfold yields in F; apply in_map_iff in F; destruct F as (? & F & _); discriminate).
      assert (YR : forall u v k m, yields u ++ repeat None k = yields v ++ repeat None m -> u = v).
      { clear. induction u as [|x u IH]; intros [|z v] k m E; [reflexivity| | |].
        - destruct k; discriminate.
        - destruct m; discriminate.
        - cbn in E. injection E as -> E. f_equal. eauto. }
      assert (H0 : forall u, stream_history u (items h (at_side SideA tr)) -> u = l).
      { intros u F. assert (Z : forall v, stream_history v (items h (at_side SideA tr)) -> exists k, items h (at_side SideA tr) = yields v ++ repeat None k).
        { intros v V. remember (items h (at_side SideA tr)) as its eqn:Ei. clear Ei. destruct V as [N|pre e' k E1 N E2|k N|N].
          - exists 0%nat. cbn. rewrite app_nil_r. reflexivity.
          - exists k. reflexivity.
          - exists (Datatypes.S k). reflexivity.
          - exfalso. apply in_app_or in I0. destruct I0 as [I0|[I0|I0]]; [exact (ON _ I0)|discriminate|destruct I0]. }
        destruct (Z _ F) as (k1 & F1). destruct (Z _ S) as (k2 & F2). rewrite F1 in F2. exact (YR _ _ _ _ F2). }
      destruct (st_state y).
      - destruct S0 as [S0 N]. exfalso. rewrite S0 in I0. exact (ON _ I0).
      - destruct S0 as (pre & S0 & _). exfalso. rewrite S0 in I0. exact (ON _ I0).
      - apply H0. destruct S0 as [(pre & e' & k & A1 & B1 & C1 & ->)|(k & A1 & ->)]; [eapply sh_end; eauto|apply sh_none; exact A1].
      - apply H0. destruct S0 as [-> S0]. apply sh_timeout. exact S0.
      - apply H0. exact S0. }
    rewrite T in A. exact (no_end_in _ _ NE A B).
  Qed.
  Lemma history_streamed l all its : stream_history l its -> (In None its -> ~ no_end l) -> (exists more, all = l ++ more) -> (forall pre e more, all = pre ++ e :: more -> ev_type e = End -> more = [] /\ no_end pre) -> streamed all its.
  Proof.
    intros S NN (more & Q) EL. destruct S as [N|pre e k E1 N E2|k N|N].
    - eapply str_open; eauto.
    - rewrite E1, <- app_assoc in Q. cbn in Q. destruct (EL _ _ _ Q E2) as [-> _]. rewrite <- E1 in *. subst l. rewrite <- Q. eapply str_ended; eauto.
    - exfalso. apply NN; [|exact N]. apply in_or_app. right. left. reflexivity.
    - eapply str_timeout; eauto.
  Qed.
  Lemma streams ls p tr : pruns' ls p tr -> good_clocks ls -> few_events (p_ep p SideA) -> forall i h x c, In (OOpened i h x c) (at_side SideA tr) -> never_handled x (at_side SideA tr) ->
    (streamed [] (items h (at_side SideA tr)) /\ forall j ctx a, In (OSent j ctx a) (at_side SideB tr) -> ev_ref a <> Some x)
    \/ exists j sc q, In (OCalled 0 j (mk_context 0 (Some x)) sc q) (at_side SideB tr) /\ ev_id q = x /\ streamed (replies_of_task j (at_side SideB tr)) (items h (at_side SideA tr)).
  Proof.
    intros HR GC FE i h x c HO NH. destruct (stream_replies _ _ _ HR GC FE _ _ _ _ HO NH) as (l & (more & P) & S & NN). destruct (client _ _ _ _ _ _ HR) as (la & RA & GA & _). destruct (serves _ _ _ PB _ _ _ HR) as (lb & RB & _ & NC).
    assert (D : {ja | In ja (flat_map (fun o => match o with OSent j _ a => if is_ref x a then [(j, a)] else [] | _ => [] end) (at_side SideB tr))} + {flat_map (fun o => match o with OSent j _ a => if is_ref x a then [(j, a)] else [] | _ => [] end) (at_side SideB tr) = []}).
    { destruct (flat_map _ _) as [|ja r]; [right; reflexivity|left; exists ja; left; reflexivity]. }
    destruct D as [([j a] & D)|D].
    - right. apply in_flat_map in D. destruct D as (o & D1 & D2). destruct o; try contradiction. destruct (is_ref x e) eqn:Er; [|contradiction]. destruct D2 as [D2|[]]. injection D2 as -> ->. apply is_ref_iff in Er.
      destruct (asked_before _ _ _ RO PB _ _ _ HR _ _ _ _ D1 Er) as (sc & q & i' & c0 & q0 & A1 & A2 & A3 & A4 & A5). subst ctx. unfold ctx0 in A1. rewrite A3 in A1. exists j, sc, q. split; [exact A1|]. split; [exact A3|].
      apply (history_streamed l); [exact S|exact NN| |].
      + pose proof (replies_of _ _ _ RO PB _ _ _ HR GC FE _ _ _ _ _ A1) as RP. rewrite A3, P, <- app_assoc in RP. eexists. symmetry. exact RP.
      + intros pre e' more' Q Et. exact (end_last _ _ _ HR _ _ _ _ _ _ _ _ A1 Q Et).
    - left. assert (NR : forall j ctx a, In (OSent j ctx a) (at_side SideB tr) -> ev_ref a <> Some x).
      { intros j ctx a Hs Hx. apply is_ref_iff in Hx. assert (In (j, a) []); [|contradiction]. rewrite <- D. apply in_flat_map. exists (OSent j ctx a). split; [exact Hs|]. rewrite Hx. left. reflexivity. }
      split; [|exact NR]. apply (history_streamed l); [exact S|exact NN| |intros [|? ?] ? ? Q; discriminate Q].
      exists []. rewrite app_nil_r. destruct l as [|e l]; [reflexivity|]. exfalso.
      assert (He : In e (filter (is_ref x) (got (at_side SideA tr)))) by (rewrite <- (received_refs _ _ (received_zero _ _ _ _ _ _ _ RA)), P; left; reflexivity).
      apply filter_In in He. destruct He as [He1 He2]. apply is_ref_iff in He2.
      assert (W : In e (wired (at_side SideB tr))) by (rewrite <- (to_client _ _ _ _ _ _ HR); apply in_or_app; auto).
      apply in_wired in W. destruct W as (j & ctx & a & W1 & W2). apply (NR _ _ _ W1). rewrite <- He2, W2, drop_ref. reflexivity.
  Qed.
  Hypothesis DF : debug_fits (cf SideB) (cf_env (cf SideA)).
  (** when nothing goes on by itself *)
  Lemma streams_rest ls p tr : pruns' ls p tr -> good_clocks ls -> few_events (p_ep p SideA) -> at_rest cf p -> ~ In (OAborted 0) (at_side SideA tr) -> room (at_side SideA tr) ->
    forall i h x c, In (OOpened i h x c) (at_side SideA tr) -> never_handled x (at_side SideA tr) ->
    exists j sc q, In (OCalled 0 j (mk_context 0 (Some x)) sc q) (at_side SideB tr) /\ ev_id q = x /\ streamed (replies_of_task j (at_side SideB tr)) (items h (at_side SideA tr))
      /\ (In (OPanicked j) (at_side SideB tr) \/ exists r, returned j (at_side SideB tr) = [r])
      /\ forall t k, tst (p_ep p SideA) t = Some (TNext h k) ->
           items h (at_side SideA tr) = yields (replies_of_task j (at_side SideB tr)) /\ (In (OPanicked j) (at_side SideB tr) \/ exists er, returned j (at_side SideB tr) = [inr er]).
  Proof.
    intros HR GC FE R NA RM i h x c HO NH.
    destruct (client _ _ _ _ _ _ HR) as (la & RA & GA & _ & NCA & NCut). destruct (serves _ _ _ PB _ _ _ HR) as (lb & RB & NWF & NC).
    pose proof (client_runs _ _ _ _ _ _ HR (rest_stuck _ _ R SideA) (rest_place _ _ R SideA) NA RM) as LA. pose proof (inv_server _ _ _ RO _ _ _ RB NC) as V.
    assert (LB : lp (p_ep p SideB) 0 = Some LRun) by (unfold lp; rewrite (v_conns _ _ _ V); reflexivity).
    pose proof (rest_read _ _ R _ LA) as WA. pose proof (rest_read _ _ R _ LB) as WB.
    pose proof (to_server _ _ _ _ _ _ HR) as TS. rewrite WB, app_nil_r in TS.
    pose proof (inv_idents _ _ _ _ _ _ _ _ RA (GA GC) FE) as ID.
    destruct (stream_request _ _ _ _ _ _ _ _ _ _ _ _ RA HO) as (i' & HL & ctx & e & HS & Ex).
    assert (EM : emitted ctx e).
    { destruct (listen_plain _ _ _ _ _ _ _ _ RA _ _ _ HL) as [(ctx1 & e1 & pu & A & B & _)|(ctx1 & e1 & A & B & C)].
      - exfalso. eapply (j_once _ _ ID); [exact A|reflexivity|]. rewrite B, <- Ex. eapply sent_ended; eauto.
      - destruct A as [A|A].
        + rewrite <- Ex in B. pose proof (ended_same _ _ _ (ev_id e) (j_nodup _ _ ID) HS A (or_introl eq_refl) (or_introl B)) as Q. injection Q as <- <-. exact C.
        + exfalso. assert (existsb is_cut (at_side SideA tr) = true) by (apply existsb_exists; eexists; split; [exact A|reflexivity]). congruence. }
    assert (J : exists j n ctxj sc, In (OCalled n j ctxj sc (drop_empty_ns e)) (at_side SideB tr)).
    { assert (G : In (drop_empty_ns e) (filter not_end (got (at_side SideB tr)))).
      { apply filter_In. split; [rewrite TS; apply in_wired; eauto|]. unfold not_end. rewrite drop_type. destruct EM as [_ EM]. rewrite EM. destruct (c_ref ctx); reflexivity. }
      rewrite <- (server_calls _ _ _ RO _ _ _ RB NC) in G. apply in_map_iff in G. destruct G as ([j q] & G1 & G2). cbn in G1. subst q. apply in_calls in G2. destruct G2 as (n & cx & sc & G2). eauto 6. }
    destruct J as (j & n & ctxj & sc & J). destruct (called_job _ _ _ _ _ _ _ _ _ _ _ _ _ RB J) as (st & J1 & J2 & J3).
    destruct (v_tasks _ _ _ V _ _ J1) as (q & J4 & _). cbn [tk_job] in J4. injection J4 as J4 J5.
    assert (n = 0%nat) by (rewrite J4 in J2; injection J2; auto). subst n. rewrite drop_id, Ex in J2. subst ctxj. clear J4 J5 q.
    assert (Ed : ev_id (drop_empty_ns e) = x) by (rewrite drop_id; exact Ex).
    exists j, sc, (drop_empty_ns e). split; [exact J|]. split; [exact Ed|].
    assert (AL : received_for 0 x (at_side SideA tr) = replies_of_task j (at_side SideB tr)).
    { pose proof (replies_of _ _ _ RO PB _ _ _ HR GC FE _ _ _ _ _ J) as RP. rewrite Ed, WA in RP. cbn [filter] in RP. rewrite app_nil_r in RP. exact RP. }
    assert (FN : In (OPanicked j) (at_side SideB tr) \/ exists r, returned j (at_side SideB tr) = [r] /\ exists pre a, sent j (at_side SideB tr) = pre ++ [(mk_context 0 (Some x), a)] /\ answers (cf SideB) (drop_empty_ns e) r a).
    { destruct (server_rest _ _ _ RO _ _ _ _ _ RB NC J1 (rest_stuck _ _ R SideB j)) as [D|[_ D]]; [|left; exact D]. right. cbn [tk_st] in D. subst st. cbn in J3. destruct J3 as (r & pre & a & X1 & X2 & X3 & [X4|(_ & k & X4)]).
      - exists r. split; [exact X1|]. exists pre, a. auto.
      - destruct (NWF _ _ X4). }
    split; [|split].
    - destruct (stream_replies _ _ _ HR GC FE _ _ _ _ HO NH) as (l & (more & P) & S & NN). apply (history_streamed l); [exact S|exact NN|exists more; congruence|]. intros pre e' more' Q Et. exact (end_last _ _ _ HR _ _ _ _ _ _ _ _ J Q Et).
    - destruct FN as [FN|(r & FN & _)]; eauto.
    - intros t k T. destruct (opened_at _ _ _ HR GC FE _ _ _ _ HO) as (i2 & a & b & Q & RF).
      pose proof RA as RA'. rewrite Q in RA', NH, HO, NA.
      destruct (stream_all _ _ _ _ _ _ _ _ _ _ _ _ _ _ _ _ RA' eq_refl (GA GC) FE NH HO NA T (rest_stuck _ _ R SideA t) (rest_place _ _ R SideA)) as [X Y]. rewrite <- Q in *. rewrite <- RF, AL in X, Y. split; [exact X|].
      destruct FN as [FN|([b0|er] & FN & pre & a' & S1 & S2)]; eauto. exfalso. unfold replies_of_task in Y. rewrite S1, map_app in Y. apply Forall_app in Y. destruct Y as [_ Y]. apply Forall_inv in Y. cbn [snd] in Y. rewrite drop_type in Y. destruct S2 as (_ & _ & S2 & _). contradiction.
  Qed.
End Streams.
