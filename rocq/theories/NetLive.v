(** Proofs about endless runs of networks: requests sent over an intact connection are answered. *)
From Verif Require Import Base BaseFacts BuilderFacts Codec Spec Ids IdsFacts Payload Builder Emit EmitFacts Ipc SpecIpc IpcFacts IpcChanFacts IpcUsers IpcLoops IpcTasks IpcIds IpcReplies IpcStreams IpcClaims IpcMore IpcFlow IpcLimits IpcRemoved IpcFate Pair SpecPair PairFacts PairServer PairEnd PairRest SpecLive PairLive Net SpecNet NetServer NetFacts NetEnd NetRest SpecNetLive.
From Coq Require Import ZifyBool ZifyNat ZifyN.

Lemma kept_lp cf s l s' os k : step cf s l = Some (s', os) -> l <> LPlace k -> (forall e, l <> LRecv k e) -> l <> LClosed k -> ~ In (OAborted k) os -> lp s' k = lp s k.
Proof.
  intros H N1 N2 N3 NA. unfold lp. step_cases H; autorewrite with ep; try reflexivity;
  repeat match goal with |- context[Nat.eqb ?a ?b] => destruct (Nat.eqb_spec a b); subst end; try congruence; try (destruct NA; left; reflexivity);
  try match goal with E : nth_error (e_conns _) _ = _ |- _ => rewrite ?E end; try reflexivity.
Qed.
Lemma placed_lp cf s k s' os : step cf s (LPlace k) = Some (s', os) -> lp s' k = Some LRun /\ exists c e, lp s k = Some (LSend c e) /\ forall ch, nth_error (e_chans s) c = Some ch -> ch_open ch = true -> os = [OQueued k c e].
Proof.
  intros H. unfold lp. cbn [step] in H. destruct (nth_error (e_conns s) k) as [cn|] eqn:E; [|discriminate]. destruct (cn_loop cn) as [|c e|] eqn:El; try discriminate H. unfold place in H.
  destruct (nth_error (e_chans s) c) as [ch|] eqn:Ec; [|discriminate]. destruct (ch_open ch) eqn:Eo.
  - destruct (Nat.ltb (length (ch_buf ch)) 8); [|discriminate]. apply some_pair in H. destruct H as [<- <-]. split; [autorewrite with ep; rewrite Nat.eqb_refl, E; reflexivity|]. exists c, e. split; [cbn; rewrite El; reflexivity|]. reflexivity.
  - apply some_pair in H. destruct H as [<- <-]. split; [unfold handle_event; cbn [fst]; autorewrite with ep; rewrite Nat.eqb_refl, E; reflexivity|]. exists c, e. split; [cbn; rewrite El; reflexivity|]. intros ch' E1 E2. congruence.
Qed.
Lemma closes cf s n s' os : step cf s (LClosed n) = Some (s', os) -> lp s' n = Some LDone.
Proof. intros H. unfold lp. step_cases H; autorewrite with ep; rewrite Nat.eqb_refl; match goal with E : nth_error (e_conns _) _ = _ |- _ => rewrite E end; reflexivity. Qed.
Lemma close_seen cf nc armed ps ctr ls s tr : runs cf nc armed ps ctr ls s tr -> forall n, In (LClosed n) ls -> In (OClosed n) tr.
Proof.
  apply (run_ind cf _ (fun ls s tr => forall n, In (LClosed n) ls -> In (OClosed n) tr)); [intros n []|].
  intros l0 s0 tr0 l s' os IH HR H n Q. apply in_or_app. apply in_app_or in Q. destruct Q as [Q|[->|[]]]; [eauto|]. right. step_cases H. left. reflexivity.
Qed.

Section NLive.
  Context (w : network) (f : nat -> option nlabel) (st : nat -> net) (ob : nat -> list (nat * obs)).
  Hypothesis EN : endless_net w f st ob.
  Hypothesis CK : nclocks f.
  Local Notation at' i n := (seen_at ob i n).
  Local Notation eps i n := (n_ep (st n) i).
  Local Notation cfn i := (nd_cf (node_of w i)).

  Lemma nprefix n : exists ls, nruns w ls (st n) (net_so_far ob n) /\ net_clocks ls.
  Proof.
    destruct EN as [E0 EH]. induction n as [|n (ls & IH & GC)].
    - exists []. split; [unfold nruns; cbn; rewrite E0; reflexivity|]. intros i j t v [].
    - specialize (EH n). cbn [net_so_far]. destruct (f n) as [l|] eqn:Ef.
      + exists (ls ++ [l]). split; [eapply nsnoc_run; eauto|]. intros i j t v Q. apply in_app_or in Q. destruct Q as [Q|[Q|[]]]; [exact (GC _ _ _ _ Q)|]. subst l. exact (CK _ _ _ _ _ Ef).
      + exists ls. destruct EH as [-> ->]. rewrite app_nil_r. auto.
  Qed.
  Lemma nmore i n : exists os, at' i (S n) = at' i n ++ os.
  Proof. unfold seen_at. cbn [net_so_far]. rewrite at_node_app. eauto. Qed.
  Lemma ngrows i n m : (n <= m)%nat -> exists os, at' i m = at' i n ++ os.
  Proof. induction 1 as [|m L (os & E)]; [exists []; rewrite app_nil_r; reflexivity|]. destruct (nmore i m) as (o' & E'). rewrite E', E, <- app_assoc. eauto. Qed.
  Lemma nstill i n m o : (n <= m)%nat -> In o (at' i n) -> In o (at' i m).
  Proof. intros L H. destruct (ngrows i n m L) as (os & ->). apply in_or_app. auto. Qed.
  (** what happens at one endpoint *)
  Inductive lview (i : nat) (n : nat) : Prop :=
  | lv_idle : eps i (S n) = eps i n -> at' i (S n) = at' i n -> (forall l, f n <> Some (NDo i l)) -> (forall k, f n <> Some (NDeliver i k)) ->
      (forall k, exists x, n_in (st (S n)) i k = n_in (st n) i k ++ x) -> lview i n
  | lv_own l os : f n = Some (NDo i l) -> own_label l = true -> step (cfn i) (eps i n) l = Some (eps i (S n), os) -> at' i (S n) = at' i n ++ os -> drops_send l os = false ->
      (forall k, exists x, n_in (st (S n)) i k = n_in (st n) i k ++ x) -> lview i n
  | lv_read k e os : f n = Some (NDeliver i k) -> n_in (st n) i k = e :: n_in (st (S n)) i k -> (forall m, m <> k -> n_in (st (S n)) i m = n_in (st n) i m) ->
      step (cfn i) (eps i n) (LRecv k e) = Some (eps i (S n), os) -> at' i (S n) = at' i n ++ os -> lview i n
  | lv_close k os : f n = Some (NClose i k) -> step (cfn i) (eps i n) (LClosed k) = Some (eps i (S n), os) -> at' i (S n) = at' i n ++ os ->
      (forall m, n_in (st (S n)) i m = n_in (st n) i m) -> lview i n.
  Lemma look i n : lview i n.
  Proof.
    destruct EN as [_ EH]. specialize (EH n).
    assert (AT : at' i (S n) = at' i n ++ at_node i (ob n)) by (unfold seen_at; cbn [net_so_far]; apply at_node_app).
    destruct (f n) as [l|] eqn:Ef.
    2:{ destruct EH as [E1 E2]. apply lv_idle; try congruence. - rewrite AT, E2. apply app_nil_r. - intros k. exists []. rewrite app_nil_r, E1. reflexivity. }
    apply nstep_view in EH. destruct EH as (j & EH).
    destruct EH as [l e' o A B C D E F G I|k e rest e' o A B D E F G I|k e' o A D E F I]; rewrite I, at_node_map in AT; destruct (Nat.eqb_spec j i) as [->|N].
    - apply lv_own with l o; auto. rewrite E, put_at_eq. exact B. intros k. rewrite F. eauto.
    - rewrite app_nil_r in AT. apply lv_idle; auto; try congruence. + rewrite E. apply put_at_ne. congruence. + intros k. rewrite F. eauto.
    - apply lv_read with k e o; auto; [rewrite E; exact A| |rewrite D, put_at_eq; exact B]. intros m Nm. apply F. congruence.
    - rewrite app_nil_r in AT. apply lv_idle; auto; try congruence. + rewrite D. apply put_at_ne. congruence. + intros m. exists []. rewrite app_nil_r. apply F. congruence.
    - apply lv_close with k o; auto; [rewrite D, put_at_eq; exact A|]. intros m. rewrite E. reflexivity.
    - rewrite app_nil_r in AT. apply lv_idle; auto; try congruence. + rewrite D. apply put_at_ne. congruence. + intros m. exists []. rewrite app_nil_r, E. reflexivity.
  Qed.
  Lemma task_stay i n j s0 : tst (eps i n) j = Some s0 -> (forall a, f n <> Some (NDo i (LTask j a))) -> tst (eps i (S n)) j = Some s0.
  Proof.
    intros H N. destruct (look i n) as [E _ _ _ _|l os E _ HS _ _ _|k e os E _ _ HS _|k os E HS _ _].
    - rewrite E. exact H.
    - rewrite (tst_kept _ _ _ _ _ j HS); [exact H| |congruence]. intros a ->. exact (N a E).
    - rewrite (tst_kept _ _ _ _ _ j HS); [exact H|discriminate|congruence].
    - rewrite (tst_kept _ _ _ _ _ j HS); [exact H|discriminate|congruence].
  Qed.
  Lemma act_dec n i j : (exists a, f n = Some (NDo i (LTask j a))) \/ forall a, f n <> Some (NDo i (LTask j a)).
  Proof.
    destruct (f n) as [[i' l|i' k|i' k]|]; try (right; discriminate). destruct (Nat.eq_dec i' i) as [->|]; [|right; congruence].
    destruct l as [j' a| | | | | |]; try (right; discriminate). destruct (Nat.eq_dec j' j) as [->|]; [left; eauto|right; congruence].
  Qed.
  Lemma act_look n i j a : f n = Some (NDo i (LTask j a)) -> exists os, task_step (cfn i) (eps i n) j a = Some (eps i (S n), os) /\ at' i (S n) = at' i n ++ os /\ drops_send (LTask j a) os = false.
  Proof. intros H. destruct (look i n) as [_ _ E _ _|l os E _ HS E' EC _|k e os E _ _ HS _|k os E HS _ _]; [destruct (E _ H)| |congruence|congruence]. rewrite E in H. injection H as ->. eauto. Qed.
  Lemma node_run i n : exists ls, runs (cfn i) (nd_conns (node_of w i)) (nd_armed (node_of w i)) (nd_tasks (node_of w i)) (nd_ctr (node_of w i)) ls (eps i n) (at' i n) /\ good_clock ls.
  Proof. destruct (nprefix n) as (ls & A & B). destruct (nproject _ _ _ _ A i) as (ls' & C & D). eauto. Qed.

  Section Tasks.
    Context (G : nat -> Prop) (i : nat).
    Hypothesis FT : fair_at w f st i.
    Lemma task_leads j s0 (R Q : nat -> Prop) n : (forall m, (n <= m)%nat -> R m -> tst (eps i m) j = Some s0 -> within G m Q \/ R (S m)) ->
      (forall m, (n <= m)%nat -> R m -> tst (eps i m) j = Some s0 -> stuck (cfn i) (eps i m) j -> within G m Q) ->
      (forall m a, (n <= m)%nat -> R m -> tst (eps i m) j = Some s0 -> f m = Some (NDo i (LTask j a)) -> within G m Q) ->
      R n -> tst (eps i n) j = Some s0 -> within G n Q.
    Proof.
      intros H1 H2 H3 HR HT. apply (lead G n (fun k => R k /\ tst (eps i k) j = Some s0)); [| |auto].
      - intros m L [A B]. destruct (act_dec m i j) as [(a & E)|N]; [left; eapply H3; eauto|]. destruct (H1 m L A B) as [X|X]; [auto|]. right. split; [exact X|]. apply task_stay; auto.
      - destruct (FT j n) as (k & L & [(a & E)|E]); exists k; (split; [exact L|]); intros [A B]; [eapply H3; eauto|eapply H2; eauto].
    Qed.
    (** a send is completed, or fails *)
    Lemma sending n j ctx e pu : tst (eps i n) j = Some (TSend ctx e pu) -> within G n (fun k => In (OSent j ctx e) (at' i k) \/ In (OCut j ctx e) (at' i k)).
    Proof.
      intros H. apply (task_leads j (TSend ctx e pu) (fun _ => True) _ n); auto.
      - intros m _ _ B SK. exfalso. specialize (SK (mk_instant 0 0) 0). cbn [step] in SK. unfold task_step in SK. unfold tst in B. destruct (nth_error (e_tasks (eps i m)) j) as [tk|]; [|discriminate]. cbn in B. injection B as B. rewrite B in SK.
        destruct pu; discriminate SK.
      - intros m a _ _ B E. apply (later G m (S m)); [lia|]. apply now. destruct (act_look _ _ _ _ E) as (os & HS & EA & NC). unfold task_step in HS. unfold tst in B. destruct (nth_error (e_tasks (eps i m)) j) as [tk|]; [|discriminate]. cbn in B. injection B as B. rewrite B in HS.
        rewrite EA. destruct a; try discriminate HS; destruct pu; try discriminate HS; apply some_pair in HS; destruct HS as [_ <-]; try discriminate NC; first [left; apply in_or_app; right; left; reflexivity|right; apply in_or_app; right; left; reflexivity].
    Qed.
    Lemma acting_rank n j a s0 s1 c : f n = Some (NDo i (LTask j a)) -> tst (eps i n) j = Some s0 -> tchan s0 = Some c -> tst (eps i (S n)) j = Some s1 -> tchan s1 = Some c -> (rank s1 < rank s0)%nat.
    Proof.
      clear FT. intros H1 H2 H3 H4 H5. destruct (act_look n i j a H1) as (os & HS & _ & NC). unfold tst in H2. destruct (nth_error (e_tasks (eps i n)) j) as [tk|] eqn:Et; [|discriminate]. cbn in H2. injection H2 as H2.
      unfold task_step in HS. rewrite Et, H2 in HS.
      destruct s0 as [?|? ? ?|? e0 [?|?|?|?]|d rid k|d rid e1 k|?|?|?| |]; try discriminate H3; destruct a; try discriminate HS; cbn zeta in HS;
      repeat (match type of HS with context[match ?x with _ => _ end] => destruct x eqn:? end; try discriminate HS);
      apply some_pair in HS; destruct HS as [HS <-]; rewrite <- HS in H4; unfold tst in H4; autorewrite with ep in H4; rewrite Nat.eqb_refl, Et in H4; cbn in H4; injection H4 as <-; try discriminate H5; cbn; lia.
    Qed.
  End Tasks.

  (** what is on the way arrives *)
  Lemma arriving (G : nat -> Prop) i k e : (forall m, n_in (st m) i k <> [] -> within G m (fun q => f q = Some (NDeliver i k))) ->
    forall n, In e (n_in (st n) i k) -> within G n (fun q => In (OReceived k e) (at' i q)).
  Proof.
    intros RD n H. apply in_split in H. destruct H as (w1 & w2 & H). revert n w2 H. induction w1 as [|x w1 IH]; intros n w2 H.
    - assert (D : forall m, f m = Some (NDeliver i k) -> (exists v, n_in (st m) i k = [] ++ e :: v) -> within G m (fun q => In (OReceived k e) (at' i q))).
      { intros m E (v & P). apply (later G m (S m)); [lia|]. apply now. destruct (look i m) as [_ _ _ N _|l os E' EO HS EA _ EI|k' e' os E' EI _ HS EA|k' os E' HS EA EI]; [destruct (N _ E)|congruence| |congruence].
        rewrite E in E'. injection E' as <-. rewrite P in EI. injection EI as <- _. apply in_read_from. rewrite EA, read_app, (proj1 (recv_read' _ _ _ _ _ _ k HS)), Nat.eqb_refl. apply in_or_app. right. left. reflexivity. }
      apply (lead G n (fun q => exists v, n_in (st q) i k = [] ++ e :: v)); [| |eauto].
      + intros m _ (v & P). destruct (look i m) as [_ _ _ _ EI|l os E' EO HS EA _ EI|k' e' os E' EI EK HS EA|k' os E' HS EA EI].
        * right. destruct (EI k) as (y & ->). rewrite P. cbn. eauto.
        * right. destruct (EI k) as (y & ->). rewrite P. cbn. eauto.
        * destruct (Nat.eq_dec k' k) as [->|N]; [left; apply (D m E'); eauto|right; rewrite EK by congruence; eauto].
        * right. rewrite EI. eauto.
      + assert (N : n_in (st n) i k <> []) by (rewrite H; discriminate). destruct (RD n N) as (q & Lq & [Q|Q]); exists q; (split; [exact Lq|]); intros P; [exists q; auto|apply D; auto].
    - assert (D : forall m, f m = Some (NDeliver i k) -> (exists v, n_in (st m) i k = (x :: w1) ++ e :: v) -> within G m (fun q => In (OReceived k e) (at' i q))).
      { intros m E (v & P). apply (later G m (S m)); [lia|]. destruct (look i m) as [_ _ _ N _|l os E' EO HS EA _ EI|k' e' os E' EI _ HS EA|k' os E' HS EA EI]; [destruct (N _ E)|congruence| |congruence].
        rewrite E in E'. injection E' as <-. apply (IH (S m) v). rewrite P in EI. injection EI as _ EI. auto. }
      apply (lead G n (fun q => exists v, n_in (st q) i k = (x :: w1) ++ e :: v)); [| |eauto].
      + intros m _ (v & P). destruct (look i m) as [_ _ _ _ EI|l os E' EO HS EA _ EI|k' e' os E' EI EK HS EA|k' os E' HS EA EI].
        * right. destruct (EI k) as (y & ->). rewrite P, <- app_assoc. cbn [app]. eauto.
        * right. destruct (EI k) as (y & ->). rewrite P, <- app_assoc. cbn [app]. eauto.
        * destruct (Nat.eq_dec k' k) as [->|N]; [left; apply (D m E'); eauto|right; rewrite EK by congruence; eauto].
        * right. rewrite EI. eauto.
      + assert (N : n_in (st n) i k <> []) by (rewrite H; discriminate). destruct (RD n N) as (q & Lq & [Q|Q]); exists q; (split; [exact Lq|]); intros P; [exists q; auto|apply D; auto].
  Qed.

  (** ** A receive loop that runs reads *)
  Section Loop.
    Context (G : nat -> Prop) (i k : nat).
    Hypothesis FL : fair_on w f st i k.
    Hypothesis NA : forall n, ~ In (OAborted k) (at' i n).
    Hypothesis NC : forall n, ~ In (OClosed k) (at' i n).
    Definition handing (n : nat) : Prop := f n = Some (NDo i (LPlace k)).
    Lemma loop_stay n l0 : lp (eps i n) k = Some l0 -> ~ handing n -> f n <> Some (NDeliver i k) -> lp (eps i (S n)) k = Some l0.
    Proof.
      intros H N1 N2. unfold handing in N1. destruct (look i n) as [E _ _ _ _|l os E EO HS EA _ _|k' e os E _ _ HS EA|k' os E HS EA _]; [rewrite E; exact H| | |].
      - rewrite (kept_lp _ _ _ _ _ k HS); auto; try congruence; [intros e ->; discriminate EO|intros ->; discriminate EO|]. intros Q. apply (NA (S n)). rewrite EA. apply in_or_app. auto.
      - rewrite (kept_lp _ _ _ _ _ k HS); auto; try congruence. intros Q. apply (NA (S n)). rewrite EA. apply in_or_app. auto.
      - rewrite (kept_lp _ _ _ _ _ k HS); auto; try congruence.
        + intros Q. injection Q as ->. destruct (node_run i (S n)) as (ls & HR & _). pose proof (inv_loop _ _ _ _ _ _ _ _ HR k) as L. fold (lp (eps i (S n)) k) in L. rewrite (closes _ _ _ _ _ HS) in L. cbn in L.
          destruct L as [L|L]; apply last_in in L; [exact (NC (S n) L)|exact (NA (S n) L)].
        + intros Q. apply (NA (S n)). rewrite EA. apply in_or_app. auto.
    Qed.
    Lemma loops_dec n : handing n \/ f n = Some (NDeliver i k) \/ (~ handing n /\ f n <> Some (NDeliver i k)).
    Proof.
      unfold handing. destruct (f n) as [[i' l|i' k'|i' k']|]; try (right; right; split; discriminate).
      - destruct (Nat.eq_dec i' i) as [->|]; [|right; right; split; congruence]. destruct l as [j a|m e|m|m|m|h|]; try (right; right; split; discriminate). destruct (Nat.eq_dec m k) as [->|]; auto. right; right; split; congruence.
      - destruct (Nat.eq_dec i' i) as [->|]; [|right; right; split; congruence]. destruct (Nat.eq_dec k' k) as [->|]; auto. right; right; split; congruence.
    Qed.
    Lemma hands n : handing n -> lp (eps i (S n)) k = Some LRun /\ exists c e, lp (eps i n) k = Some (LSend c e) /\ forall ch, nth_error (e_chans (eps i n)) c = Some ch -> ch_open ch = true -> at' i (S n) = at' i n ++ [OQueued k c e].
    Proof.
      intros Q. unfold handing in Q. destruct (look i n) as [_ _ E _ _|l os E EO HS EA _ _|k' e os E _ _ HS EA|k' os E HS EA _]; [destruct (E _ Q)| |congruence|congruence]. rewrite E in Q. injection Q as ->.
      destruct (placed_lp _ _ _ _ _ HS) as (A & c & e & B & C). split; [exact A|]. exists c, e. split; [exact B|]. intros ch D1 D2. rewrite EA, (C ch D1 D2). reflexivity.
    Qed.
    Lemma not_handing n : lp (eps i n) k = Some LRun -> ~ handing n.
    Proof. intros H Q. destruct (hands n Q) as (_ & c & e & X & _). congruence. Qed.
    Lemma not_reading n c e : lp (eps i n) k = Some (LSend c e) -> f n <> Some (NDeliver i k).
    Proof.
      intros H Q. destruct (look i n) as [_ _ _ E _|l os E EO HS EA _ _|k' e' os E _ _ HS _|k' os E HS EA _]; [exact (E _ Q)|congruence| |congruence]. rewrite E in Q. injection Q as ->. cbn [step] in HS. unfold lp in H.
      destruct (nth_error (e_conns (eps i n)) k) as [cn|]; [|discriminate]. cbn in H. injection H as H. rewrite H in HS. discriminate.
    Qed.
    Lemma waiting_stay n : f n <> Some (NDeliver i k) -> n_in (st n) i k <> [] -> n_in (st (S n)) i k <> [].
    Proof.
      intros N H. destruct (look i n) as [_ _ _ _ EI|l os E' EO HS EA _ EI|k' e' os E' EI EK HS EA|k' os E' HS EA EI].
      - destruct (EI k) as (y & ->). destruct (n_in (st n) i k); [congruence|discriminate].
      - destruct (EI k) as (y & ->). destruct (n_in (st n) i k); [congruence|discriminate].
      - rewrite EK; [exact H|]. intros ->. exact (N E').
      - rewrite EI. exact H.
    Qed.
    Lemma running_reads n : lp (eps i n) k = Some LRun -> n_in (st n) i k <> [] -> within G n (fun q => f q = Some (NDeliver i k)).
    Proof.
      intros H1 H2. apply (lead G n (fun q => lp (eps i q) k = Some LRun /\ n_in (st q) i k <> [])); [| |auto].
      - intros m _ [A B]. destruct (loops_dec m) as [Q|[Q|[Q1 Q2]]]; [destruct (not_handing _ A Q)|left; apply now; exact Q|]. right. split; [apply loop_stay; auto|apply waiting_stay; auto].
      - destruct (FL _ (or_introl eq_refl) n) as (q & Lq & [Q|Q]); exists q; (split; [exact Lq|]); intros [A B]; [apply now; exact Q|]. exfalso. cbn [nstep] in Q.
        destruct (n_in (st q) i k) as [|e v]; [congruence|]. cbn [step] in Q. unfold lp in A. destruct (nth_error (e_conns (eps i q)) k) as [cn|]; [|discriminate]. cbn in A. injection A as A. rewrite A in Q.
        destruct (receive (cfn i) (eps i q) k e); discriminate.
    Qed.
  End Loop.
End NLive.

(** ** A connection of a client that is intact *)
Section Client.
  Context (w : network) (a k b : nat) (f : nat -> option nlabel) (st : nat -> net) (ob : nat -> list (nat * obs)).
  Hypothesis WJ : well_joined w.
  Hypothesis SV : served w a.
  Hypothesis PK : peer w a k = Some (b, 0%nat).
  Hypothesis EN : endless_net w f st ob.
  Hypothesis CK : nclocks f.
  Hypothesis FA : fair_at w f st a.
  Hypothesis FK : fair_on w f st a k.
  Hypothesis DR : drained_over ob a k.
  Hypothesis IN : intact ob a k b.
  Local Notation at' i n := (seen_at ob i n).
  Local Notation eps i n := (n_ep (st n) i).
  Local Notation cfn i := (nd_cf (node_of w i)).
  Definition nmany (n : nat) : Prop := ~ few_events (eps a n).
  Lemma nfew_or n P : (few_events (eps a n) -> within nmany n P) -> within nmany n P.
  Proof. intros H. unfold few_events in H. destruct (N.le_gt_cases (e_ctr (eps a n)) (2 ^ 32)) as [L|L]; [auto|]. exists n. split; [lia|]. left. unfold nmany, few_events. lia. Qed.
  Lemma few_back n m : (n <= m)%nat -> few_events (eps a m) -> few_events (eps a n).
  Proof.
    intros L. induction L as [|m L IH]; [auto|]. intros H. apply IH. destruct EN as [_ EH]. specialize (EH m). destruct (f m) as [l|]; [eapply nfew; eauto|]. destruct EH as [EH _]. rewrite EH in H. exact H.
  Qed.
  Lemma NAk n : ~ In (OAborted k) (at' a n). Proof. apply IN. Qed.
  Lemma NCk n : ~ In (OClosed k) (at' a n). Proof. apply IN. Qed.
  (** replies to a request come over one connection *)
  Lemma one_conn n k1 k2 e1 e2 x : few_events (eps a n) -> In (OReceived k1 e1) (at' a n) -> In (OReceived k2 e2) (at' a n) -> ev_ref e1 = Some x -> ev_ref e2 = Some x -> k1 = k2.
  Proof.
    intros FE H1 H2 X1 X2. destruct (nprefix w f st ob EN CK n) as (ls & HR & GC).
    destruct (read_over w a WJ SV _ _ _ _ _ HR H1) as (b1 & j & cx & r & P & S & ->). rewrite drop_ref in X1.
    destruct (asked_over w a WJ SV _ _ _ _ _ HR P _ _ _ _ S X1) as (sc & q1 & i1 & c1 & q0 & _ & _ & A3 & A4 & A5 & A6).
    assert (E : ev_id q0 = x) by (rewrite <- A3, A6, drop_id; reflexivity).
    rewrite <- A5. symmetry. eapply (same_connection w a WJ SV); eauto. congruence.
  Qed.
  (** the loop holds a reply *)
  Lemma holding n c e : lp (eps a n) k = Some (LSend c e) -> exists i x, In (OListen i x c) (at' a n) /\ ev_ref e = Some x /\ In (OReceived k e) (at' a n) /\ cid (eps a n) c = Some x.
  Proof.
    intros H. destruct (node_run w f st ob EN CK a n) as (ls & HR & _). pose proof (inv_users _ _ _ _ _ _ _ _ HR) as U. destruct (u_loop _ U _ _ _ H) as (r & Er & Cd).
    pose proof (inv_loop _ _ _ _ _ _ _ _ HR k) as L. unfold lp in H. rewrite H in L. cbn in L. destruct L as (u & v & L & _).
    pose proof Cd as Cd'. unfold cid in Cd'. destruct (nth_error (e_chans (eps a n)) c) as [ch|] eqn:Hc; [|discriminate]. cbn in Cd'. injection Cd' as Cd'.
    pose proof (inv_chan _ _ _ _ _ _ _ _ HR c) as CT. rewrite Hc in CT. destruct CT as (_ & (i & C2) & _). rewrite Cd' in C2. exists i, r. split; [exact C2|]. split; [exact Er|]. split; [|exact Cd].
    change (In (OReceived k e) (at' a n)). change (at' a n = u ++ OReceived k e :: v) in L. rewrite L. apply in_or_app. right. left. reflexivity.
  Qed.
  Definition roomy (c n : nat) : Prop := gone (at' a n) c \/ (length (queued c (at' a n)) < length (taken c (at' a n)) + 8)%nat.
  Local Notation hand := (handing f a k).
  (** another connection puts nothing into the channel *)
  Lemma queued_stay c e n : lp (eps a n) k = Some (LSend c e) -> few_events (eps a n) -> ~ hand n -> queued c (at' a (S n)) = queued c (at' a n).
  Proof.
    intros H FE N. destruct (look w f st ob EN a n) as [_ E _ _ _|l os E EO HS EA _ _|k' e' os E _ _ HS EA|k' os E HS EA _]; [rewrite E; reflexivity| | |]; rewrite EA; unfold queued; rewrite flat_map_app; fold (queued c os).
    - destruct (queued c os) as [|y q] eqn:Eq; [apply app_nil_r|exfalso].
      assert (D : (forall m, l <> LPlace m) \/ exists m, l = LPlace m) by (destruct l; try (left; discriminate); right; eauto). destruct D as [D|(m & ->)]; [rewrite (queued_place _ _ _ _ _ c HS D) in Eq; discriminate|].
      destruct (placed_lp _ _ _ _ _ HS) as (_ & c2 & e2 & A & B).
      assert (c2 = c /\ exists ch, nth_error (e_chans (eps a n)) c2 = Some ch) as [-> _].
      { cbn [step] in HS. unfold lp in A. destruct (nth_error (e_conns (eps a n)) m) as [cn|]; [|discriminate]. cbn in A. injection A as A. rewrite A in HS. unfold place in HS. destruct (nth_error (e_chans (eps a n)) c2) as [ch|]; [|discriminate].
        destruct (ch_open ch); [|apply some_pair in HS; destruct HS as [_ <-]; discriminate Eq]. destruct (Nat.ltb (length (ch_buf ch)) 8); [|discriminate]. apply some_pair in HS. destruct HS as [_ <-]. cbn in Eq. destruct (Nat.eqb_spec c2 c) as [->|]; [eauto|discriminate Eq]. }
      destruct (holding _ _ _ H) as (i & x & _ & X1 & X2 & X3).
      destruct (node_run w f st ob EN CK a n) as (ls & HR & _). pose proof (inv_users _ _ _ _ _ _ _ _ HR) as U. destruct (u_loop _ U _ _ _ A) as (r & Er & Cd). rewrite X3 in Cd. injection Cd as <-.
      pose proof (inv_loop _ _ _ _ _ _ _ _ HR m) as L. unfold lp in A. rewrite A in L. cbn in L. destruct L as (u & v & L & _). change (at' a n = u ++ OReceived m e2 :: v) in L.
      assert (Y : In (OReceived m e2) (at' a n)) by (rewrite L; apply in_or_app; right; left; reflexivity).
      apply N. unfold handing. rewrite E. rewrite (one_conn n k m e e2 x FE X2 Y X1 Er). reflexivity.
    - rewrite (queued_place _ _ _ _ _ c HS); [apply app_nil_r|discriminate].
    - rewrite (queued_place _ _ _ _ _ c HS); [apply app_nil_r|discriminate].
  Qed.
  Lemma roomy_stay c e n : lp (eps a n) k = Some (LSend c e) -> few_events (eps a n) -> roomy c n -> ~ hand n -> roomy c (S n).
  Proof.
    intros HL FE [H|H] N; [left; apply (nstill ob a n); auto|right]. rewrite (queued_stay c e n HL FE N). destruct (nmore ob a n) as (os & ->). unfold taken. rewrite flat_map_app, app_length. unfold taken in H. lia.
  Qed.
  Lemma hold_step n c e : lp (eps a n) k = Some (LSend c e) -> (hand n /\ lp (eps a n) k = Some (LSend c e)) \/ lp (eps a (S n)) k = Some (LSend c e).
  Proof.
    intros A. destruct (loops_dec f a k n) as [Q|[Q|[Q1 Q2]]]; [left; auto|destruct (not_reading w f st ob EN a k n c e A Q)|right; apply (loop_stay w f st ob EN CK a k NAk NCk); auto].
  Qed.
  Lemma roomy_hands n c e : lp (eps a n) k = Some (LSend c e) -> roomy c n -> within nmany n (fun q => hand q /\ lp (eps a q) k = Some (LSend c e)).
  Proof.
    intros H1 H2. apply (lead nmany n (fun q => lp (eps a q) k = Some (LSend c e) /\ roomy c q)); [| |auto].
    - intros m _ [A B]. destruct (N.le_gt_cases (e_ctr (eps a m)) (2 ^ 32)) as [L|L]; [|left; exists m; split; [lia|left; unfold nmany, few_events; lia]].
      destruct (loops_dec f a k m) as [Q|[Q|[Q1 Q2]]]; [left; apply now; auto|destruct (not_reading w f st ob EN a k m c e A Q)|]. right. split; [apply (loop_stay w f st ob EN CK a k NAk NCk); auto|eapply roomy_stay; eauto].
    - destruct (FK _ (or_intror eq_refl) n) as (q & Lq & [Q|Q]); exists q; (split; [exact Lq|]); intros [A B]; [apply now; split; auto|]. exfalso.
      destruct (node_run w f st ob EN CK a q) as (ls & HR & _). destruct (unblocked _ _ _ _ _ _ _ _ k c e HR A) as [U1 U2]. cbn [nstep own_label] in Q.
      assert (X : exists s' os, step (cfn a) (eps a q) (LPlace k) = Some (s', os)).
      { destruct (gone_b c (at' a q)) eqn:Eg.
        - destruct U1 as (s' & j & U); [apply gone_iff; exact Eg|]. eauto.
        - assert (NG : ~ gone (at' a q) c) by (apply gone_iff_not; exact Eg). destruct B as [B|B]; [contradiction|]. destruct (U2 NG B) as (s' & U). eauto. }
      destruct X as (s' & os & X). rewrite X, (place_sends _ _ _ _ _ X) in Q. discriminate.
  Qed.
  Lemma hands_on n c e : lp (eps a n) k = Some (LSend c e) -> within nmany n (fun q => hand q /\ lp (eps a q) k = Some (LSend c e)).
  Proof.
    intros H. apply (within_bind nmany n (fun q => (hand q \/ roomy c q) /\ lp (eps a q) k = Some (LSend c e))).
    2:{ intros m _ [[A|A] B]; [apply now; auto|apply roomy_hands; auto]. }
    destruct (holding _ _ _ H) as (i & x & HL & Rx & RV & _).
    assert (OP : forall m h, (n <= m)%nat -> lp (eps a m) k = Some (LSend c e) -> In (OOpened i h x c) (at' a m) -> within nmany m (fun q => (hand q \/ roomy c q) /\ lp (eps a q) k = Some (LSend c e))).
    { intros m h L A B. apply (lead nmany m (fun q => lp (eps a q) k = Some (LSend c e))); [| |exact A].
      - intros q _ C. destruct (hold_step _ _ _ C) as [[D D']|D]; [left; apply now; auto|auto].
      - destruct (DR m i h x c e B (nstill ob a n m _ L RV) Rx) as (q & Lq & C). exists q. split; [exact Lq|]. intros D. apply now. split; [right; exact C|exact D]. }
    assert (R : forall r m s0, (n <= m)%nat -> (rank s0 <= r)%nat -> tst (eps a m) i = Some s0 -> tchan s0 = Some c -> lp (eps a m) k = Some (LSend c e) -> within nmany m (fun q => (hand q \/ roomy c q) /\ lp (eps a q) k = Some (LSend c e))).
    { induction r as [|r IH]; intros m s0 L Lr HT HC HP.
      - exfalso. destruct s0 as [?|? ? ?|? ? [?|?|?|?]|? ? ?|? ? ? ?|?|?|?| |]; try discriminate HC; cbn in Lr; lia.
      - apply (task_leads w f st ob EN nmany a FA i s0 (fun q => lp (eps a q) k = Some (LSend c e)) _ m); auto.
        + intros q _ A _. destruct (hold_step _ _ _ A) as [[D D']|D]; [left; apply now; auto|auto].
        + intros q Lq A B SK. apply now. split; [|exact A]. right.
          destruct (node_run w f st ob EN CK a q) as (ls & HR & _). pose proof (inv_users _ _ _ _ _ _ _ _ HR) as U. destruct (u_task _ U _ _ _ B HC) as (ch & Hc & _ & Ho).
          pose proof (inv_chan _ _ _ _ _ _ _ _ HR c) as CT. rewrite Hc in CT. destruct CT as (_ & _ & _ & rest & C3 & C4). specialize (C4 Ho). subst rest. right. rewrite C3, app_length.
          specialize (SK (mk_instant 0 0) 0). cbn [step] in SK. unfold task_step in SK. unfold tst in B. destruct (nth_error (e_tasks (eps a q)) i) as [tk|] eqn:Et; [|discriminate]. cbn in B. injection B as B. rewrite B in SK.
          destruct s0 as [?|? ? ?|? ? [?|?|?|?]|d rid k0|d rid e1 k0|?|?|?| |]; try discriminate HC; try discriminate SK.
          * cbn in HC. injection HC as ->. rewrite Hc in SK. destruct (ch_buf ch); [cbn; lia|discriminate SK].
          * cbn zeta in SK. destruct (reply_result (cf_env (cfn a)) e1); discriminate SK.
        + intros q z Lq A B E. destruct (hold_step _ _ _ A) as [[D D']|D]; [apply now; auto|]. apply (later nmany q (S q)); [lia|].
          destruct (node_run w f st ob EN CK a (S q)) as (ls & HR & _).
          assert (HL' : In (OListen i x c) (at' a (S q))) by (apply (nstill ob a n); [lia|exact HL]).
          destruct (inv_fate _ _ _ _ _ _ _ _ HR _ _ _ HL') as [(s1 & F1 & F2)|[(h & F)|(F & _)]].
          * apply (IH (S q) s1); auto; [lia|]. pose proof (acting_rank w f st ob EN nmany a _ _ _ _ _ _ E B HC F1 F2). lia.
          * apply (OP (S q) h); auto. lia.
          * apply now. split; [|exact D]. right. left. apply gone_iff. exact F. }
    destruct (node_run w f st ob EN CK a n) as (ls & HR & _). destruct (inv_fate _ _ _ _ _ _ _ _ HR _ _ _ HL) as [(s1 & F1 & F2)|[(h & F)|(F & _)]].
    - eapply (R (rank s1)); eauto.
    - eapply (OP n); eauto.
    - apply now. split; [|exact H]. right. left. apply gone_iff. exact F.
  Qed.
  Lemma two_kinds n : lp (eps a n) k = Some LRun \/ exists c e, lp (eps a n) k = Some (LSend c e).
  Proof.
    destruct (node_run w f st ob EN CK a n) as (ls & RA & _). pose proof (inv_loop _ _ _ _ _ _ _ _ RA k) as L. pose proof (conns_len _ _ _ _ _ _ _ _ RA) as CL. fold (lp (eps a n) k) in L.
    destruct (lp (eps a n) k) as [[|c e|]|] eqn:El; [auto|eauto| |]; exfalso.
    - cbn in L. destruct L as [L|L]; apply last_in in L; [exact (NCk n L)|exact (NAk n L)].
    - destruct (WJ _ _ _ _ PK) as [_ Lk]. unfold lp in El. destruct (nth_error (e_conns (eps a n)) k) eqn:En; [discriminate|]. apply nth_error_None in En. lia.
  Qed.
  Lemma client_reads n : n_in (st n) a k <> [] -> within nmany n (fun q => f q = Some (NDeliver a k)).
  Proof.
    intros H. destruct (two_kinds n) as [A|(c & e & A)]; [apply (running_reads w f st ob EN CK nmany a k FK NAk NCk); auto|].
    apply (within_bind nmany n (fun q => n_in (st q) a k <> [] /\ (f q = Some (NDeliver a k) \/ lp (eps a q) k = Some LRun))).
    2:{ intros m _ [B [C|C]]; [apply now; exact C|apply (running_reads w f st ob EN CK nmany a k FK NAk NCk); auto]. }
    assert (P : forall m d, (m = n + d)%nat -> n_in (st m) a k <> [] \/ exists q, (n <= q <= m)%nat /\ f q = Some (NDeliver a k) /\ n_in (st q) a k <> []).
    { intros m d ->. induction d as [|d IH]; [rewrite Nat.add_0_r; auto|]. destruct IH as [IH|(q & L & E)]; [|right; exists q; split; [lia|exact E]].
      destruct (loops_dec f a k (n + d)) as [Q|[Q|[Q1 Q2]]].
      - left. rewrite <- plus_n_Sm. apply (waiting_stay w f st ob EN a k FK NAk NCk); [unfold handing in Q; rewrite Q; discriminate|exact IH].
      - right. exists (n + d)%nat. split; [lia|auto].
      - left. rewrite <- plus_n_Sm. apply (waiting_stay w f st ob EN a k FK NAk NCk); auto. }
    destruct (hands_on n c e A) as (q & Lq & [B|[B1 B2]]); [exists q; auto|].
    destruct (P (S q) (S q - n)%nat ltac:(lia)) as [C|(q' & Lq' & C & D)].
    - exists (S q). split; [lia|]. right. split; [exact C|]. right. apply (hands w f st ob EN a k q B1).
    - exists q'. split; [lia|]. right. auto.
  Qed.
End Client.
