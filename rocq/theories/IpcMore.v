(** Proofs about endpoints: results of requests, finished and abandoned requests (C38-C41, C45). *)
From Verif Require Import Base Reader BaseFacts BuilderFacts Codec Spec Ids IdsFacts Payload Builder Emit EmitFacts Ipc SpecIpc IpcFacts IpcChanFacts IpcUsers IpcLoops IpcIds IpcTasks IpcReplies IpcStreams IpcClaims.
From Coq Require Import ZifyBool ZifyNat ZifyN.

(** the step that made an observation *)
Lemma run_split cf ls : forall s0 s a o b, run cf s0 ls = Some (s, a ++ o :: b) ->
  exists ls1 l ls2 s1 tr1 s2 o1 o2 tr2, ls = ls1 ++ l :: ls2 /\ run cf s0 ls1 = Some (s1, tr1) /\ step cf s1 l = Some (s2, o1 ++ o :: o2)
    /\ run cf s2 ls2 = Some (s, tr2) /\ a = tr1 ++ o1 /\ b = o2 ++ tr2.
Proof.
  induction ls as [|l ls IH]; intros s0 s a o b H; cbn [run] in H.
  - inversion H as [[A B]]. destruct a; discriminate.
  - destruct (step cf s0 l) as [[s1 os]|] eqn:E1; [|discriminate]. destruct (run cf s1 ls) as [[s2 tr]|] eqn:E2; [|discriminate].
    inversion H as [[A B]]. subst s2. destruct (app_mid _ _ _ _ _ B) as [(m & -> & ->)|(m & -> & ->)].
    + exists [], l, ls, s0, [], s1, a, m, tr. repeat split; auto.
    + destruct (IH _ _ _ _ _ E2) as (ls1 & l' & ls2 & s1' & tr1 & s2 & o1 & o2 & tr2 & -> & B1 & B2 & B3 & -> & ->).
      exists (l :: ls1), l', ls2, s1', (os ++ tr1), s2, o1, o2, tr2. cbn [run]. rewrite E1, B1. repeat split; auto. rewrite app_assoc. reflexivity.
Qed.
Lemma good_app ls ls' : good_clock (ls ++ ls') -> good_clock ls.
Proof. intros H i t v Q. apply (H i t v). apply in_or_app. auto. Qed.
Lemma run_ctr cf ls : forall s s' tr, run cf s ls = Some (s', tr) -> e_ctr s <= e_ctr s'.
Proof.
  induction ls as [|l ls IH]; intros s s' tr H; cbn [run] in H; [inversion H; lia|].
  destruct (step cf s l) as [[s1 o1]|] eqn:E1; [|discriminate]. destruct (run cf s1 ls) as [[s2 o2]|] eqn:E2; [|discriminate]. inversion H; subst.
  specialize (IH _ _ _ E2). pose proof (step_ctr _ _ _ _ _ E1). lia.
Qed.
Lemma few_before cf ls s s' tr : run cf s ls = Some (s', tr) -> few_events s' -> few_events s.
Proof. intros H F. unfold few_events in *. pose proof (run_ctr _ _ _ _ _ H). lia. Qed.
Lemma gone_iff_not c tr : ~ gone tr c <-> gone_b c tr = false.
Proof. rewrite gone_iff. destruct (gone_b c tr); split; congruence. Qed.

(** entries of the listener table, also those hidden by others *)
Lemma inv_raw cf n armed ps ctr ls s tr : runs cf n armed ps ctr ls s tr -> forall k v, In (k, v) (e_lis s) -> cid s v = Some k.
Proof.
  apply (run_ind cf _ (fun ls s tr => forall k v, In (k, v) (e_lis s) -> cid s v = Some k)); [cbn; tauto|].
  clear. intros ls s tr l s' os IH _ H k v Hin.
  assert (R : forall y m, In (k, v) (remove N.eqb y m) -> In (k, v) m) by (intros y m Q; unfold remove in Q; apply filter_In in Q; tauto).
  assert (A : In (k, v) (e_lis s) \/ exists i, In (OListen i k v) os).
  { clear IH. step_cases H; autorewrite with ep in Hin; cbn [In]; auto; try (left; eapply R; exact Hin);
    (destruct Hin as [Q|Q]; [inversion Q; subst; right; eexists; left; reflexivity|left; eapply R; exact Q]). }
  destruct A as [A|(i & A)]; [eapply cid_mono; eauto|].
  destruct (listen_step _ _ _ _ _ _ _ _ H A) as (a & ctx & e & w & pu & -> & _ & Ex & Ec & Eo & _).
  destruct (step_chan _ _ _ _ _ v H) as [? ? ? ? NL|j ctx' e' w' _ E0 E' _|m e' ch ? E0 _ _ _ _ _|? ? ? ? ? ? ? ? NL|? ? ? ? ? NL|? ? ? ? NL]; try (exfalso; eapply NL; exact A).
  - unfold cid. rewrite E'. rewrite Eo in E0. inversion E0. reflexivity.
  - rewrite Eo in E0. discriminate.
Qed.

Section More.
  Context (cf : config) (nc : nat) (armed : bool) (ps : list prog) (ctr : N).
  Notation runs' := (runs cf nc armed ps ctr).
  Lemma split_runs ls s a o b : runs' ls s (a ++ o :: b) ->
    exists ls1 l ls2 s1 tr1 s2 o1 o2 tr2, ls = ls1 ++ l :: ls2 /\ runs' ls1 s1 tr1 /\ step cf s1 l = Some (s2, o1 ++ o :: o2)
      /\ run cf s2 ls2 = Some (s, tr2) /\ a = tr1 ++ o1 /\ b = o2 ++ tr2 /\ runs' (ls1 ++ [l]) s2 (tr1 ++ o1 ++ o :: o2) /\ few_events s2 = few_events s2.
  Proof.
    intros H. destruct (run_split _ _ _ _ _ _ _ H) as (ls1 & l & ls2 & s1 & tr1 & s2 & o1 & o2 & tr2 & A & B & C & D & E & F).
    exists ls1, l, ls2, s1, tr1, s2, o1, o2, tr2. repeat split; auto. unfold runs in *. rewrite run_app, B. cbn. rewrite C, app_nil_r. reflexivity.
  Qed.
  (** nothing enters or leaves a channel whose receiver is gone *)
  Lemma gone_quiet ls s tr l s' os c : runs' ls s tr -> step cf s l = Some (s', os) -> gone_b c tr = true -> queued c os = [] /\ taken c os = [].
  Proof.
    intros HR H G. pose proof (inv_users _ _ _ _ _ _ _ _ HR) as U. pose proof (inv_chan _ _ _ _ _ _ _ _ HR c) as C.
    destruct (step_chan _ _ _ _ _ c H) as [E1 Q K G' NL|j ctx e w E -> E' _|m e ch _ -> El E1 Eo L E'|e b ch E1 Eb Q K G' NL Hu E'|ch E1 Q K G' NL Hu E'|E1 E' Q K NL Hu]; auto.
    - rewrite E1 in C. destruct C as (C & _). rewrite C, Eo in G. discriminate.
    - rewrite E1 in C. destruct C as (C & _). rewrite C in G. destruct (ch_open ch) eqn:Eo; [discriminate|]. destruct (u_buf _ U _ _ E1) as (_ & _ & Z). rewrite (Z Eo) in Eb. discriminate.
  Qed.
  Lemma gone_quiet_run ls2 : forall ls s tr s' os c, runs' ls s tr -> run cf s ls2 = Some (s', os) -> gone_b c tr = true -> queued c os = [] /\ taken c os = [].
  Proof.
    induction ls2 as [|l ls2 IH]; intros ls s tr s' os c HR H G; cbn [run] in H; [inversion H; auto|].
    destruct (step cf s l) as [[s1 o1]|] eqn:E1; [|discriminate]. destruct (run cf s1 ls2) as [[s2 o2]|] eqn:E2; [|discriminate]. inversion H; subst.
    destruct (gone_quiet _ _ _ _ _ _ _ HR E1 G) as [A B]. destruct (IH _ _ _ _ _ c (snoc_run _ _ _ _ _ _ _ _ _ _ _ HR E1) E2) as [C D]; [rewrite gone_app, G; reflexivity|].
    rewrite queued_app, taken_app, A, B, C, D. auto.
  Qed.
  (** ** C38: what await_reply reports *)
  Definition reported (E : env) (tr : list obs) (i : nat) (x : N) (c : nat) (r : option (outcome event)) : Prop :=
    match taken c tr with
    | [] => r = None \/ r = Some (Err Timeout) \/ r = Some (Err SendError) \/ exists io ctx e, r = Some (Err (IoError io)) /\ In (OCut i ctx e) tr /\ ev_id e = x
    | [e] => r = Some (reply_result E e) /\ ev_ref e = Some x /\ exists ctx q, In (OSent i ctx q) tr /\ ev_id q = x
    | _ => False
    end.
  Lemma reported_app E tr os i x c r : taken c os = [] -> reported E tr i x c r -> reported E (tr ++ os) i x c r.
  Proof.
    intros T. unfold reported. rewrite taken_app, T, app_nil_r. destruct (taken c tr) as [|e [|? ?]]; auto.
    - intros [A|[A|[A|(io & ctx & e & A & B & C)]]]; auto. right; right; right. exists io, ctx, e. auto using in_or_app.
    - intros (A & B & ctx & q & C & D). split; [exact A|]. split; [exact B|]. exists ctx, q. auto using in_or_app.
  Qed.
  Lemma results ls s tr : runs' ls s tr -> forall i x r, In (OReply i x r) tr -> exists c, In (OListen i x c) tr /\ gone_b c tr = true /\ reported (cf_env cf) tr i x c r.
  Proof.
    apply (run_ind cf _ (fun ls s tr => forall i x r, In (OReply i x r) tr -> exists c, In (OListen i x c) tr /\ gone_b c tr = true /\ reported (cf_env cf) tr i x c r)); [cbn; tauto|].
    clear ls s tr. intros ls s tr l s' os IH HR H i x r Hin. apply in_app_or in Hin. destruct Hin as [Hin|Hin].
    { destruct (IH _ _ _ Hin) as (c & A & B & C). exists c. split; [apply in_or_app; auto|]. rewrite gone_app, B. split; [reflexivity|].
      apply reported_app; [|exact C]. eapply gone_quiet; eauto. }
    destruct (reply_step _ _ _ _ _ _ _ _ H Hin) as (st & a & -> & Hi & [(c & ctx & e & k & -> & -> & -> & Q)|[(c & k & -> & -> & Q)|(c & e & k & -> & -> & Q)]]);
      pose proof (inv_ask _ _ _ _ _ _ _ _ HR _ _ Hi) as A; cbn [ask_trace] in A; exists c; rewrite gone_app.
    - destruct A as [A B]. split; [apply in_or_app; auto|]. split; [cbn; rewrite Nat.eqb_refl; apply orb_true_r|]. unfold reported. rewrite taken_app, B. cbn.
      destruct Q as [Q|(io & Q)]; auto. right; right; right. exists io, ctx, e. split; [exact Q|]. split; [apply in_or_app; right; left; reflexivity|reflexivity].
    - destruct A as [(A & _) B]. split; [apply in_or_app; auto|]. split; [cbn; rewrite Nat.eqb_refl; apply orb_true_r|]. unfold reported. rewrite taken_app, B. cbn. tauto.
    - destruct A as [(A & ctx & q & A1 & A2) B]. split; [apply in_or_app; auto|]. split; [cbn; rewrite Nat.eqb_refl; apply orb_true_r|]. unfold reported. rewrite taken_app, B. cbn [app taken flat_map taken_from].
      split; [exact Q|]. split; [exact (u_got _ (inv_users _ _ _ _ _ _ _ _ HR) _ _ _ _ _ Hi)|]. exists ctx, q. auto using in_or_app.
  Qed.
  Lemma taken_received ls s tr c e : runs' ls s tr -> In e (taken c tr) -> received tr e.
  Proof.
    intros H Q. destruct (chan_prefix _ _ _ _ _ _ _ _ c H) as [rest E]. eapply queued_in; eauto. rewrite E. apply in_or_app. auto.
  Qed.
  (** a task that has asked has registered before anything of its request was sent *)
  Lemma asked_first ls s a i ctx e b r : runs' ls s (a ++ OSent i ctx e :: b) -> good_clock ls -> few_events s -> In (OReply i (ev_id e) r) (a ++ OSent i ctx e :: b) ->
    exists c, In (OListen i (ev_id e) c) a.
  Proof.
    intros H GC FE Hr. destruct (results _ _ _ H _ _ _ Hr) as (c & L & _). exists c. apply in_app_or in L. destruct L as [L|[L|L]]; [exact L|discriminate|]. exfalso.
    apply in_split in L. destruct L as (b1 & b2 & ->). refine (listens_first _ _ _ _ _ _ _ _ H GC FE i (ev_id e) c (a ++ OSent i ctx e :: b1) b2 _ _).
    - rewrite <- app_assoc. reflexivity.
    - rewrite ended_app. apply in_or_app. right. left. reflexivity.
  Qed.

  (** ** C39 *)
  Lemma not_missed ls s a n e b i x c : runs' ls s (a ++ OReceived n e :: b) -> good_clock ls -> few_events s -> In (OListen i x c) a -> ~ gone a c -> never_handled x a -> ev_ref e = Some x ->
    next_about n b = None \/ next_about n b = Some (OAborted n) \/ next_about n b = Some (OQueued n c e)
    \/ exists b1 j b2, b = b1 ++ OCalled n j (mk_context n (Some (ev_id e))) None e :: b2 /\ next_about n b1 = None /\ gone (a ++ b1) c.
  Proof.
    intros H GC FE L G NH Er. pose proof (all_placed _ _ _ _ _ _ _ _ H _ _ _ _ eq_refl) as P. unfold placed, listener_of in P. rewrite Er in P.
    destruct (split_runs _ _ _ _ _ H) as (ls1 & l & ls2 & s1 & tr1 & s2 & o1 & o2 & tr2 & -> & B & C & D & E & F & _).
    assert (o1 = []).
    { destruct (step_loop _ _ _ _ _ n C) as [? Q|e0 c0 _ Q|e0 _ Q|e0 _ Q|c0 e0 ch _ Q|c0 e0 ch _ Q|_ Q|cn _ _ Q];
        try (rewrite existsb_app in Q; cbn in Q; rewrite Nat.eqb_refl, orb_true_r in Q; discriminate);
        (destruct o1 as [|q1 o1]; [reflexivity|]; exfalso; destruct o1 as [|q2 o1]; inversion Q; try (destruct o1; discriminate)). }
    subst o1. rewrite app_nil_r in E. subst tr1.
    rewrite (stays_registered _ _ _ _ _ _ _ _ B) with (i := i) (c := c) in P; auto.
    - eapply good_app; eauto.
    - assert (few_events s2) by (eapply few_before; eauto). unfold few_events in *. pose proof (step_ctr _ _ _ _ _ C). lia.
    - apply gone_iff_not. exact G.
  Qed.

  (** ** C41 *)
  (** the observations that follow the removal of a listener *)
  Lemma unregistered_run ls2 : forall ls s tr s' os i x c, runs' ls s tr -> run cf s ls2 = Some (s', os) -> good_clock (ls ++ ls2) -> few_events s' ->
    In (OListen i x c) tr -> registered tr x = None -> registered (tr ++ os) x = None.
  Proof.
    induction ls2 as [|l ls2 IH]; intros ls s tr s' os i x c HR H GC FE HL R; cbn [run] in H; [inversion H; subst; rewrite app_nil_r; exact R|].
    destruct (step cf s l) as [[s1 o1]|] eqn:E1; [|discriminate]. destruct (run cf s1 ls2) as [[s2 o2]|] eqn:E2; [|discriminate]. inversion H; subst.
    assert (GC1 : good_clock ((ls ++ [l]) ++ ls2)) by (rewrite <- app_assoc; exact GC).
    rewrite app_assoc. eapply IH; [exact (snoc_run _ _ _ _ _ _ _ _ _ _ _ HR E1)|exact E2|exact GC1|exact FE|apply in_or_app; left; exact HL|].
    eapply unregistered_stays; eauto; [eapply good_app; eauto|eapply few_before; eauto].
  Qed.
  (** after [await_reply] got an answer *)
  Lemma unregistered_reply ls s tr i x r e : runs' ls s tr -> good_clock ls -> few_events s -> In (OReply i x (Some r)) tr ->
    (forall c, In (OListen i x c) tr -> taken c tr = [e]) -> registered tr x = None.
  Proof.
    intros H GC FE Hin T. apply in_split in Hin. destruct Hin as (a & b & ->).
    destruct (split_runs _ _ _ _ _ H) as (ls1 & l & ls2 & s1 & tr1 & s2 & o1 & o2 & tr2 & -> & B & C & D & -> & -> & HR2 & _).
    assert (Hin : In (OReply i x (Some r)) (o1 ++ OReply i x (Some r) :: o2)) by (apply in_or_app; right; left; reflexivity).
    assert (GQ : forall c, In (OListen i x c) tr1 -> gone_b c (o1 ++ OReply i x (Some r) :: o2) = true -> taken c (o1 ++ OReply i x (Some r) :: o2) = [] -> taken c tr1 = [e]).
    { intros c L G Z. rewrite <- (T c) by (apply in_or_app; left; apply in_or_app; auto).
      replace ((tr1 ++ o1) ++ OReply i x (Some r) :: o2 ++ tr2) with ((tr1 ++ (o1 ++ OReply i x (Some r) :: o2)) ++ tr2) by (rewrite <- !app_assoc; reflexivity).
      destruct (gone_quiet_run _ _ _ _ _ _ c HR2 D) as [_ Y]; [rewrite gone_app, G; apply orb_true_r|]. rewrite taken_app, Y, app_nil_r, taken_app, Z, app_nil_r. reflexivity. }
    replace ((tr1 ++ o1) ++ OReply i x (Some r) :: o2 ++ tr2) with ((tr1 ++ (o1 ++ OReply i x (Some r) :: o2)) ++ tr2) by (rewrite <- !app_assoc; reflexivity).
    destruct (reply_step _ _ _ _ _ _ _ _ C Hin) as (st & act & -> & Hi & [(c & ctx & q & k & -> & Ex & Eo & Q)|[(c & k & -> & Eo & Q)|(c & q & k & -> & Eo & Q)]]);
      pose proof (inv_ask _ _ _ _ _ _ _ _ B _ _ Hi) as A; cbn [ask_trace] in A.
    - exfalso. rewrite Eo in GQ. destruct A as [A A1]. rewrite <- Ex in A. rewrite (GQ c A) in A1; [discriminate|cbn; rewrite Nat.eqb_refl; reflexivity|reflexivity].
    - exfalso. rewrite Eo in GQ. destruct A as [[A _] A1]. rewrite (GQ c A) in A1; [discriminate|cbn; rewrite Nat.eqb_refl; reflexivity|reflexivity].
    - destruct A as [[A _] A1]. eapply unregistered_run with (i := i) (c := c); [exact HR2|exact D|rewrite <- app_assoc; exact GC|exact FE|apply in_or_app; left; exact A|].
      rewrite Eo, registered_app. cbn. rewrite N.eqb_refl. reflexivity.
  Qed.
  Lemma ended_unregistered ls s tr : runs' ls s tr -> good_clock ls -> few_events s -> forall h y, nth_error (e_streams s) h = Some y -> st_state y = SEnded -> registered tr (st_id y) = None.
  Proof.
    apply (run_ind cf _ (fun ls s tr => good_clock ls -> few_events s -> forall h y, nth_error (e_streams s) h = Some y -> st_state y = SEnded -> registered tr (st_id y) = None)).
    { intros _ _ [|h] y E; discriminate. }
    clear ls s tr. intros ls s tr l s' os IH HR H GC FE h y Hy Sy.
    assert (FE' : few_events s) by (unfold few_events in *; pose proof (step_ctr _ _ _ _ _ H); lia).
    assert (GC' : good_clock ls) by (eapply good_prefix; eauto).
    assert (K : forall z, nth_error (e_streams s) h = Some z -> st_state z = SEnded -> st_id z = st_id y -> registered (tr ++ os) (st_id y) = None).
    { intros z Hz Sz Ez. rewrite <- Ez. destruct (proj1 (inv_stream _ _ _ _ _ _ _ _ HR) _ _ Hz) as [(i' & _ & (L & _)) _].
      eapply unregistered_stays; eauto. }
    destruct (step_stream _ _ _ _ _ h H) as [l E1 E2 E3|j a ctx e d k0 E1 E2 E3 E4 E5|j a z E1 E2 E3 E4|j a z k0 E1 E2 E3 E4 E5|j a z k0 ch1 e b E1 E2 E3 E4 E5 E6 E7
         |j z k0 E1 E2 E3 E4|j z k0 E1 E2 E3 E4|j a z oe k0 E1 E2 E3 E4|z E1 E2 E3 E4 E5].
    - apply (K y); auto. congruence.
    - rewrite E4 in Hy. inversion Hy; subst y. discriminate Sy.
    - apply (K y); auto. congruence.
    - rewrite E3 in Hy. inversion Hy; subst y. discriminate Sy.
    - rewrite E6 in Hy. inversion Hy; subst y. discriminate Sy.
    - rewrite E3 in Hy. inversion Hy; subst y. discriminate Sy.
    - rewrite E3 in Hy. inversion Hy; subst y. discriminate Sy.
    - rewrite E3 in Hy. inversion Hy; subst y. subst os. rewrite registered_app. cbn. rewrite N.eqb_refl. reflexivity.
    - rewrite E4 in Hy. inversion Hy; subst y. discriminate Sy.
  Qed.
  Definition last_item (r : option (outcome event)) : Prop := r = None \/ exists e, r = Some (Ok e) /\ ev_type e = End.
  Lemma item_in h r os : In r (items h os) -> exists i, In (OItem i h (Some r)) os.
  Proof.
    intros Q. unfold items in Q. apply in_flat_map in Q. destruct Q as (o & A & B). destruct o; try contradiction. cbn in B. destruct r0 as [r0|]; [|contradiction].
    destruct (Nat.eqb_spec h0 h) as [->|?]; [|contradiction]. destruct B as [->|[]]. eauto.
  Qed.
  (** after a stream was left by its last item *)
  Lemma unregistered_end ls s tr j i h x c r : runs' ls s tr -> good_clock ls -> few_events s -> In (OOpened j h x c) tr -> In (OItem i h (Some r)) tr -> last_item r -> registered tr x = None.
  Proof.
    intros H GC FE Ho Hin LI. pose proof Hin as Hin0. apply in_split in Hin. destruct Hin as (a & b & ->).
    destruct (split_runs _ _ _ _ _ H) as (ls1 & l & ls2 & s1 & tr1 & s2 & o1 & o2 & tr2 & -> & B & C & D & -> & -> & HR2 & _).
    set (os := o1 ++ OItem i h (Some r) :: o2) in *.
    assert (Hin : In (OItem i h (Some r)) os) by (unfold os; apply in_or_app; right; left; reflexivity).
    assert (ET : (tr1 ++ o1) ++ OItem i h (Some r) :: o2 ++ tr2 = (tr1 ++ os) ++ tr2) by (unfold os; rewrite <- !app_assoc; reflexivity).
    rewrite ET in *.
    assert (GC1 : good_clock (ls1 ++ [l])) by (apply good_app with (ls' := ls2); rewrite <- app_assoc; exact GC).
    assert (FE2 : few_events s2) by (eapply few_before; eauto).
    assert (X : exists y, nth_error (e_streams s2) h = Some y /\ st_state y = SEnded /\ st_id y = x).
    { destruct (opened_stream _ _ _ _ _ _ _ _ H _ _ _ _ Ho) as (y & Hy & Ex & Ec).
      assert (M : forall z, nth_error (e_streams s2) h = Some z -> st_id z = x).
      { intros z Hz. destruct (proj1 (inv_stream _ _ _ _ _ _ _ _ HR2) _ _ Hz) as [(i' & Q & _) _].
        assert (Q' : In (OOpened i' h (st_id z) (st_chan z)) ((tr1 ++ os) ++ tr2)) by (apply in_or_app; auto).
        destruct (opened_stream _ _ _ _ _ _ _ _ H _ _ _ _ Q') as (y' & Hy' & Ex' & _). congruence. }
      assert (IT : In r (items h os)) by (eapply items_in; eauto).
      assert (NL : forall e, r = Some (Ok e) -> ev_type e <> End -> False) by (intros e -> NE; destruct LI as [Q|(e' & Q & T)]; [discriminate|]; inversion Q; subst; contradiction).
      destruct (step_stream _ _ _ _ _ h C) as [l E1 E2 E3|j' a ctx e d k0 E1 E2 E3 E4 E5|j' a z E1 E2 E3 E4|j' a z k0 E1 E2 E3 E4 E5|j' a z k0 ch1 e b E1 E2 E3 E4 E5 E6 E7
         |j' z k0 E1 E2 E3 E4|j' z k0 E1 E2 E3 E4|j' a z oe k0 E1 E2 E3 E4|z E1 E2 E3 E4 E5];
        first [rewrite E2 in IT; destruct IT; fail|rewrite E3 in IT|rewrite E4 in IT|rewrite E7 in IT|rewrite E5 in IT]; cbn in IT; rewrite ?Nat.eqb_refl in IT; try contradiction.
      - exists z. eauto.
      - exfalso. destruct IT as [IT|[]]. eapply NL; eauto.
      - exfalso. destruct IT as [IT|[]]. destruct LI as [Q|(e' & Q & T)]; congruence.
      - eexists. split; [exact E3|]. split; [reflexivity|]. exact (M _ E3). }
    destruct X as (y & Hy & Sy & Ey). pose proof (ended_unregistered _ _ _ HR2 GC1 FE2 _ _ Hy Sy) as R. rewrite Ey in R.
    destruct (proj1 (inv_stream _ _ _ _ _ _ _ _ HR2) _ _ Hy) as [(i' & _ & (L & _)) _]. rewrite Ey in L.
    eapply unregistered_run; [exact HR2|exact D|rewrite <- app_assoc; exact GC|exact FE|exact L|exact R].
  Qed.

  (** who removes listeners *)
  Lemma unlisten_obs s l s' os x : step cf s l = Some (s', os) -> In (OUnlisten x) os -> exists i a st, l = LTask i a /\ tst s i = Some st /\
    ((exists c e k o, st = TGot c x e k /\ os = [OUnlisten x; OGone c; o] /\ (o = OReply i x (Some (reply_result (cf_env cf) e)) \/ o = OPanicked i))
     \/ (exists h oe k y, st = TNextGot h oe k /\ nth_error (e_streams s) h = Some y /\ st_id y = x /\ os = [OUnlisten x; OGone (st_chan y); OItem i h (Some (match oe with Some e => Some (Ok e) | None => None end))])
     \/ (st = TForget x /\ os = [OUnlisten x])).
  Proof.
    intros H Hin. destruct (unlisten_step _ _ _ _ _ _ H Hin) as (i & a & st & -> & Hi & D). exists i, a, st. split; [reflexivity|]. split; [exact Hi|].
    cbn [step] in H. unfold task_step in H. unfold tst in Hi. destruct (nth_error (e_tasks s) i) as [tk|] eqn:Et; [|discriminate]. cbn in Hi. inversion Hi as [Es]. rewrite Es in H.
    destruct D as [(c & e & k & -> & _)|[(h & oe & k & y & -> & Hy & Ey & _)|(-> & _)]]; destruct a; try discriminate H.
    - left. exists c, e, k. destruct (reply_result (cf_env cf) e) eqn:R; apply some_pair in H; destruct H as [_ <-]; eexists; (split; [exact Es|]); (split; [reflexivity|]); auto.
    - right; left. exists h, oe, k, y. rewrite Hy in H. apply some_pair in H; destruct H as [_ <-]. rewrite Ey. repeat split; auto. destruct oe; reflexivity.
    - right; right. apply some_pair in H; destruct H as [_ <-]. auto.
  Qed.
  (** a channel given up by a task that holds it never becomes that of a stream *)
  Lemma closing_no_open ls1 s1 tr1 l s2 os ls2 s tr2 j st c : runs' ls1 s1 tr1 -> step cf s1 l = Some (s2, os) -> run cf s2 ls2 = Some (s, tr2) -> tst s1 j = Some st -> tchan st = Some c ->
    gone_b c os = true -> (forall k h y, ~ In (OOpened k h y c) os) -> forall k h y, ~ In (OOpened k h y c) ((tr1 ++ os) ++ tr2).
  Proof.
    intros B C D Hj Hc G NO k h y O. apply in_app_or in O. destruct O as [O|O]; [apply in_app_or in O; destruct O as [O|O]; [|eapply NO; eauto]|].
    - destruct (opened_stream _ _ _ _ _ _ _ _ B _ _ _ _ O) as (z & Hz & _ & Ec). exact (u_ts _ (inv_users _ _ _ _ _ _ _ _ B) _ _ _ _ _ Hj Hc Hz Ec).
    - pose proof (snoc_run _ _ _ _ _ _ _ _ _ _ _ B C) as HR2. apply in_split in O. destruct O as (a & b & ->).
      destruct (run_split _ _ _ _ _ _ _ D) as (la & l3 & lb & s3 & tr3 & s4 & o3 & o4 & tr4 & -> & B3 & C3 & D3 & -> & ->).
      pose proof (run_more _ _ _ _ _ _ _ _ _ _ _ HR2 B3) as HR3. pose proof (inv_users _ _ _ _ _ _ _ _ HR3) as U3.
      assert (O : In (OOpened k h y c) (o3 ++ OOpened k h y c :: o4)) by (apply in_or_app; right; left; reflexivity).
      destruct (step_stream _ _ _ _ _ h C3) as [l5 E1 E2 E3|j' a' ctx e d k0 E1 E2 E3 E4 E5|j' a' z E1 E2 E3 E4|j' a' z k0 E1 E2 E3 E4 E5|j' a' z k0 ch1 e b' E1 E2 E3 E4 E5 E6 E7
         |j' z k0 E1 E2 E3 E4|j' z k0 E1 E2 E3 E4|j' a' z oe k0 E1 E2 E3 E4|z E1 E2 E3 E4 E5];
        first [exact (E3 _ _ _ O)|rewrite E3 in O|rewrite E4 in O|rewrite E7 in O|rewrite E5 in O]; repeat (destruct O as [O|O]; try discriminate O); try contradiction.
      inversion O; subst. destruct (u_task _ U3 _ _ _ E2 eq_refl) as (ch & Ech & _ & Eo). pose proof (inv_chan _ _ _ _ _ _ _ _ HR3 c) as K. rewrite Ech in K. destruct K as (K & _).
      rewrite Eo, !gone_app, G, orb_true_r in K. discriminate.
  Qed.
  Lemma reply_not_stream ls s tr i x c r : runs' ls s tr -> good_clock ls -> few_events s -> In (OReply i x r) tr -> In (OListen i x c) tr -> forall k h y, ~ In (OOpened k h y c) tr.
  Proof.
    intros H GC FE Hin HL. assert (J := inv_idents _ _ _ _ _ _ _ _ H GC FE). apply in_split in Hin. destruct Hin as (a & b & ->).
    destruct (split_runs _ _ _ _ _ H) as (ls1 & l & ls2 & s1 & tr1 & s2 & o1 & o2 & tr2 & -> & B & C & D & -> & -> & HR2 & _).
    set (os := o1 ++ OReply i x r :: o2) in *.
    assert (Hin : In (OReply i x r) os) by (unfold os; apply in_or_app; right; left; reflexivity).
    assert (ET : (tr1 ++ o1) ++ OReply i x r :: o2 ++ tr2 = (tr1 ++ os) ++ tr2) by (unfold os; rewrite <- !app_assoc; reflexivity).
    rewrite ET in *. clearbody os.
    assert (X : exists st d, tst s1 i = Some st /\ tchan st = Some d /\ In (OListen i x d) tr1 /\ gone_b d os = true /\ forall k h y, ~ In (OOpened k h y d) os).
    { destruct (reply_step _ _ _ _ _ _ _ _ C Hin) as (st & act & -> & Hi & [(d & ctx & q & k & -> & Ex & -> & Q)|[(d & k & -> & -> & Q)|(d & q & k & -> & -> & Q)]]);
      pose proof (inv_ask _ _ _ _ _ _ _ _ B _ _ Hi) as A; cbn [ask_trace] in A; eexists _, d; (split; [exact Hi|]); (split; [reflexivity|]); (split; [rewrite ?Ex; apply A|]);
      (split; [cbn; rewrite Nat.eqb_refl; reflexivity|]); intros k' h' y' O; repeat (destruct O as [O|O]; try discriminate O); contradiction. }
    destruct X as (st & d & Hi & Hd & L & G & NO). destruct (j_unique _ _ J i i x d c) as [_ ->]; [apply in_or_app; left; apply in_or_app; auto|exact HL|].
    eapply closing_no_open; eauto.
  Qed.
  Lemma unlisten_why ls s tr i x c : runs' ls s tr -> good_clock ls -> few_events s -> In (OUnlisten x) tr -> In (OListen i x c) tr -> never_handled x tr ->
    (exists e, taken c tr = [e] /\ (In (OReply i x (Some (reply_result (cf_env cf) e))) tr \/ In (OPanicked i) tr) /\ forall k h y, ~ In (OOpened k h y c) tr) \/ (exists j h k r, In (OOpened j h x c) tr /\ In (OItem k h (Some r)) tr /\ last_item r).
  Proof.
    intros H GC FE Hin HL NH. apply in_split in Hin. destruct Hin as (a & b & ->).
    assert (J := inv_idents _ _ _ _ _ _ _ _ H GC FE).
    destruct (split_runs _ _ _ _ _ H) as (ls1 & l & ls2 & s1 & tr1 & s2 & o1 & o2 & tr2 & -> & B & C & D & -> & -> & HR2 & _).
    set (os := o1 ++ OUnlisten x :: o2) in *.
    assert (Hin : In (OUnlisten x) os) by (unfold os; apply in_or_app; right; left; reflexivity).
    assert (ET : (tr1 ++ o1) ++ OUnlisten x :: o2 ++ tr2 = (tr1 ++ os) ++ tr2) by (unfold os; rewrite <- !app_assoc; reflexivity).
    rewrite ET in *. clearbody os.
    destruct (unlisten_obs _ _ _ _ _ C Hin) as (j & act & st & -> & Hj & [(d & e & k & o & -> & -> & Q)|[(h & oe & k & y & -> & Hy & Ey & ->)|(-> & _)]]).
    - left. destruct (inv_ask _ _ _ _ _ _ _ _ B _ _ Hj) as [(A & _) T].
      destruct (j_unique _ _ J j i x d c) as [-> ->]; [apply in_or_app; left; apply in_or_app; auto|exact HL|].
      exists e. destruct (gone_quiet_run _ _ _ _ _ _ c HR2 D) as [_ Y]; [rewrite gone_app; cbn; rewrite Nat.eqb_refl; apply orb_true_r|].
      assert (To : taken c [OUnlisten x; OGone c; o] = []) by (destruct Q; subst o; reflexivity).
      rewrite taken_app, Y, app_nil_r, taken_app, T, To. split; [reflexivity|]. split; [destruct Q as [->| ->]; [left|right]; apply in_or_app; left; apply in_or_app; right; right; right; left; reflexivity|].
      eapply closing_no_open; [exact B|exact C|exact D|exact Hj|reflexivity|cbn; rewrite Nat.eqb_refl; reflexivity|]. intros k' h' y' O. destruct O as [O|[O|[O|[]]]]; try discriminate O. destruct Q; subst; discriminate.
    - right. destruct (proj1 (inv_stream _ _ _ _ _ _ _ _ B) _ _ Hy) as [(i' & O & (L & _)) _]. rewrite Ey in *.
      assert (T : forall e, oe = Some e -> ev_type e = End).
      { intros e ->. destruct (proj2 (inv_stream _ _ _ _ _ _ _ _ B) _ _ Hj) as (? & ? & _ & _ & _ & _ & T). exact T. }
      destruct (j_unique _ _ J i' i x (st_chan y) c) as [-> <-]; [apply in_or_app; left; apply in_or_app; auto|exact HL|].
      exists i, h, j, (match oe with Some e => Some (Ok e) | None => None end). split; [apply in_or_app; left; apply in_or_app; auto|].
      split; [apply in_or_app; left; apply in_or_app; right; right; right; left; reflexivity|]. destruct oe as [e|]; [right; eauto|left; reflexivity].
    - exfalso. pose proof (inv_task _ _ _ _ _ _ _ _ B j) as T. unfold tst in Hj. destruct (nth_error (e_tasks s1) j) as [tk|]; [|discriminate]. cbn in Hj. inversion Hj as [Ej]. destruct T as [T1 T2]. rewrite Ej in T2.
      destruct T2 as (ctx & y & r & pre & z & Q & Ey & _). rewrite Q in T1. destruct T1 as (n & sc & _ & T & _). apply (NH n j ctx sc y); [apply in_or_app; left; apply in_or_app; auto|congruence].
  Qed.
  Lemma registered_unless ls s tr i x c : runs' ls s tr -> good_clock ls -> few_events s -> In (OListen i x c) tr -> ~ In (OUnlisten x) tr -> registered tr x = Some c.
  Proof.
    intros H GC FE HL N. pose proof (inv_idents _ _ _ _ _ _ _ _ H GC FE) as J.
    assert (U : forall j d, In (OListen j x d) tr -> d = c) by (intros j d Q; exact (proj2 (j_unique _ _ J _ _ _ _ _ Q HL))).
    clear - HL N U. apply in_split in HL. destruct HL as (a & b & ->).
    change (a ++ OListen i x c :: b) with (a ++ [OListen i x c] ++ b). rewrite app_assoc, registered_app, registered_app. cbn [fold_left note_listener]. rewrite N.eqb_refl.
    apply note_kept; [reflexivity| |].
    - intros Q. apply N. apply in_or_app. right. right. exact Q.
    - intros j d Q. apply (U j). apply in_or_app. right. right. exact Q.
  Qed.
  (** requests that were not answered: nothing was taken, no stream exists *)
  Lemma cut_why ls s tr i x c j ctx e : runs' ls s tr -> good_clock ls -> few_events s -> In (OListen i x c) tr -> In (OCut j ctx e) tr -> ev_id e = x ->
    taken c tr = [] /\ forall k h, ~ In (OOpened k h x c) tr.
  Proof.
    intros H GC FE HL Hin Ex. assert (J := inv_idents _ _ _ _ _ _ _ _ H GC FE). split.
    - apply in_split in Hin. destruct Hin as (a & b & ->).
      destruct (split_runs _ _ _ _ _ H) as (ls1 & l & ls2 & s1 & tr1 & s2 & o1 & o2 & tr2 & -> & B & C & D & -> & -> & HR2 & _).
      set (os := o1 ++ OCut j ctx e :: o2) in *.
      assert (Hin : In (OCut j ctx e) os) by (unfold os; apply in_or_app; right; left; reflexivity).
      assert (ET : (tr1 ++ o1) ++ OCut j ctx e :: o2 ++ tr2 = (tr1 ++ os) ++ tr2) by (unfold os; rewrite <- !app_assoc; reflexivity).
      rewrite ET in *. clearbody os.
      assert (GC1 : good_clock (ls1 ++ [l])) by (apply good_app with (ls' := ls2); rewrite <- app_assoc; exact GC).
      assert (FE2 : few_events s2) by (eapply few_before; eauto).
      assert (FE1 : few_events s1) by (unfold few_events in *; pose proof (step_ctr _ _ _ _ _ C); lia).
      assert (J1 := inv_idents _ _ _ _ _ _ _ _ B (good_app _ _ GC1) FE1). assert (J2 := inv_idents _ _ _ _ _ _ _ _ HR2 GC1 FE2).
      assert (S : exists pu a, l = LTask j a /\ tst s1 j = Some (TSend ctx e pu) /\ forall d, tchan (TSend ctx e pu) = Some d -> gone_b d os = true /\ taken d os = []).
      { clear - C Hin. destruct l as [k a|m e1|m|m|m|h|]; try (exfalso; step_cases C; cbn [In] in Hin; intuition discriminate).
        cbn [step] in C. unfold task_step in C. destruct (nth_error (e_tasks s1) k) as [tk|] eqn:Et; [|discriminate].
        destruct (tk_st tk) as [p|ctx1 e1 w|ctx1 e1 pu|d rid k1|d rid e1 k1|h1 k1|h1 oe k1|rid| |] eqn:Es; destruct a; try discriminate C;
          try (exfalso; step_cases C; cbn [In] in Hin; intuition discriminate);
          destruct pu; try discriminate C; apply some_pair in C; destruct C as [_ <-]; cbn [In] in Hin; repeat (destruct Hin as [Hin|Hin]; try discriminate Hin); try contradiction; inversion Hin; subst;
          (eexists _, _; split; [reflexivity|]; split; [unfold tst; rewrite Et; cbn; rewrite Es; reflexivity|]; intros d Q; inversion Q; subst; cbn; rewrite Nat.eqb_refl; auto). }
      destruct S as (pu & act & -> & Hj & G).
      assert (HL1 : In (OListen i x c) tr1).
      { apply in_app_or in HL. destruct HL as [HL|HL].
        - apply in_app_or in HL. destruct HL as [HL|HL]; [exact HL|]. exfalso. destruct (listen_step _ _ _ _ _ _ _ _ C HL) as (a0 & ctx1 & e0 & w & pu0 & El & A & _). inversion El; subst. congruence.
        - exfalso. apply in_split in HL. destruct HL as (b1 & b2 & ->). refine (listens_first _ _ _ _ _ _ _ _ H GC FE i x c ((tr1 ++ os) ++ b1) b2 _ _); [rewrite <- !app_assoc; reflexivity|].
          rewrite !ended_app. apply in_or_app. left. apply in_or_app. right. unfold ended. apply in_flat_map. exists (OCut j ctx e). split; [exact Hin|]. left. exact Ex. }
      destruct (j_listen _ _ J1 _ _ _ HL1) as [Q|(ctx1 & e1 & pu1 & A & B1 & B2)]; [exfalso; refine (j_once _ _ J1 _ _ x Hj _ Q); cbn; congruence|].
      assert (j = i) by (apply (j_distinct _ _ J1 _ _ _ _ x Hj A); cbn; congruence). subst j. rewrite Hj in A. inversion A; subst ctx1 e1 pu1.
      destruct (G _ B2) as [G1 G2]. assert (T : taken c tr1 = []) by (pose proof (inv_ask _ _ _ _ _ _ _ _ B _ _ Hj) as K; destruct pu; try discriminate B2; inversion B2; subst; apply K).
      destruct (gone_quiet_run _ _ _ _ _ _ c HR2 D) as [_ Y]; [rewrite gone_app, G1; apply orb_true_r|]. rewrite taken_app, Y, app_nil_r, taken_app, T, G2. reflexivity.
    - intros k h O. destruct (opened_stream _ _ _ _ _ _ _ _ H _ _ _ _ O) as (y & Hy & Ey & Ec). destruct (proj1 (inv_stream _ _ _ _ _ _ _ _ H) _ _ Hy) as [(i' & _ & (_ & ctx1 & q & S & Q)) _].
      apply in_split in Hin. destruct Hin as (a & b & ->). pose proof (j_nodup _ _ J) as ND. rewrite ended_app in ND. change (ended (OCut j ctx e :: b)) with (ev_id e :: ended b) in ND. apply NoDup_remove_2 in ND.
      apply ND. apply in_app_or in S. apply in_or_app. destruct S as [S|[S|S]]; [left|discriminate|right]; unfold ended; apply in_flat_map; exists (OSent i' ctx1 q); (split; [exact S|left; congruence]).
  Qed.
  Lemma failed_stays ls s tr i x c : runs' ls s tr -> good_clock ls -> few_events s -> In (OListen i x c) tr -> never_handled x tr ->
    ( In (OReply i x None) tr \/ In (OReply i x (Some (Err Timeout))) tr \/ (exists j ctx e, In (OCut j ctx e) tr /\ ev_id e = x)
      \/ (exists j h, In (OOpened j h x c) tr /\ forall r, In r (items h tr) -> ~ last_item r) ) -> registered tr x = Some c.
  Proof.
    intros H GC FE HL NH F. assert (J := inv_idents _ _ _ _ _ _ _ _ H GC FE). eapply registered_unless; eauto. intros HU.
    pose proof (unlisten_why _ _ _ _ _ _ H GC FE HU HL NH) as W.
    assert (RS : forall r, In (OReply i x r) tr -> reported (cf_env cf) tr i x c r).
    { intros r Q. destruct (results _ _ _ H _ _ _ Q) as (d & A & _ & B). destruct (j_unique _ _ J _ _ _ _ _ A HL) as [_ <-]. exact B. }
    assert (OP : forall j h r, In (OOpened j h x c) tr -> In (OReply i x r) tr -> False) by (intros j h r O Q; exact (reply_not_stream _ _ _ _ _ _ _ H GC FE Q HL _ _ _ O)).
    destruct F as [F|[F|[(j & ctx & e & F & Ex)|(j & h & O & F)]]].
    - destruct W as [(e & T & _)|(j & h & k & r & O & _)]; [|eapply OP; eauto]. specialize (RS _ F). unfold reported in RS. rewrite T in RS. destruct RS as [RS _]. discriminate.
    - destruct W as [(e & T & _)|(j & h & k & r & O & _)]; [|eapply OP; eauto]. specialize (RS _ F). unfold reported in RS. rewrite T in RS. destruct RS as [RS _].
      inversion RS as [R1]. symmetry in R1. destruct (reply_result_errors _ _ _ R1) as [(d & X)|[X|(k1 & X)]]; discriminate.
    - destruct (cut_why _ _ _ _ _ _ _ _ _ H GC FE HL F Ex) as [T N]. destruct W as [(e' & T' & _)|(j' & h & k & r & O & _)]; [congruence|eapply N; eauto].
    - destruct W as [(e & _ & _ & N)|(j' & h' & k & r & O' & I & L)]; [exact (N _ _ _ O)|].
      destruct (opened_stream _ _ _ _ _ _ _ _ H _ _ _ _ O) as (y & Hy & _ & Ec). destruct (opened_stream _ _ _ _ _ _ _ _ H _ _ _ _ O') as (y' & Hy' & _ & Ec').
      assert (h' = h) by (eapply (u_ss _ (inv_users _ _ _ _ _ _ _ _ H)); eauto; congruence). subst h'. exact (F r (items_in _ _ _ _ I) L).
  Qed.
  (** ** C45 *)
  Lemma abandoned ls s a n e b c : runs' ls s (a ++ OReceived n e :: b) -> listener_of a e = Some c -> gone a c ->
    next_about n b = None \/ next_about n b = Some (OAborted n) \/ exists j, next_about n b = Some (OCalled n j (mk_context n (Some (ev_id e))) None e).
  Proof.
    intros H L G. pose proof (all_placed _ _ _ _ _ _ _ _ H _ _ _ _ eq_refl) as P. unfold placed in P. rewrite L in P. destruct P as [P|[P|[P|(b1 & j & b2 & -> & P & _)]]]; auto.
    - exfalso. unfold next_about in P. apply find_some in P. destruct P as [P _]. apply in_split in P. destruct P as (b1 & b2 & ->).
      assert (H' : runs' ls s ((a ++ OReceived n e :: b1) ++ OQueued n c e :: b2)) by (rewrite <- app_assoc; exact H).
      destruct (split_runs _ _ _ _ _ H') as (ls1 & l & ls2 & s1 & tr1 & s2 & o1 & o2 & tr2 & -> & B & C & D & E & F & _).
      assert (Q : queued c (o1 ++ OQueued n c e :: o2) <> []) by (rewrite queued_app; cbn; rewrite Nat.eqb_refl; destruct (queued c o1); discriminate).
      assert (G1 : gone_b c tr1 = true).
      { assert (G2 : gone_b c (tr1 ++ o1) = true) by (rewrite <- E, gone_app; apply gone_iff in G; rewrite G; reflexivity).
        destruct (step_chan _ _ _ _ _ c C) as [? Q1 ? ? ?|? ? ? ? ? Q1 ? ?|m e1 ch _ Q1 El E1 Eo LL E'|? ? ? ? ? Q1|? ? Q1|? ? Q1]; try contradiction.
        - exfalso. apply Q. rewrite Q1. reflexivity.
        - destruct o1 as [|q o1]; [rewrite app_nil_r in G2; exact G2|destruct o1; discriminate]. }
      destruct (gone_quiet _ _ _ _ _ _ _ B C G1) as [Z _]. contradiction.
    - right; right. exists j. rewrite next_app, P. cbn. rewrite Nat.eqb_refl. reflexivity.
  Qed.
End More.
