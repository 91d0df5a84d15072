(** Proofs about endless runs of two joined endpoints: every request is answered. *)
From Verif Require Import Base BaseFacts BuilderFacts Codec Spec Ids IdsFacts Payload Builder Emit EmitFacts Ipc SpecIpc IpcFacts IpcChanFacts IpcUsers IpcLoops IpcTasks IpcIds IpcReplies IpcStreams IpcClaims IpcMore IpcFlow IpcLimits IpcRemoved IpcFate Pair SpecPair PairFacts PairServer PairEnd PairRest SpecLive.
From Coq Require Import ZifyBool ZifyNat ZifyN.

(** ** Eventually *)
Section Within.
  Context (G : nat -> Prop).
  Definition within (n : nat) (P : nat -> Prop) : Prop := exists m, (n <= m)%nat /\ (G m \/ P m).
  Lemma now n (P : nat -> Prop) : P n -> within n P. Proof. exists n. auto. Qed.
  Lemma later n m P : (n <= m)%nat -> within m P -> within n P. Proof. intros L (k & A & B). exists k. split; [lia|exact B]. Qed.
  Lemma within_bind n P Q : within n P -> (forall m, (n <= m)%nat -> P m -> within m Q) -> within n Q.
  Proof. intros (m & A & [B|B]) H; [exists m; auto|]. apply (later _ _ _ A). auto. Qed.
  Lemma within_imp n (P Q : nat -> Prop) : within n P -> (forall m, (n <= m)%nat -> P m -> Q m) -> within n Q.
  Proof. intros H I. apply (within_bind _ _ _ H). intros m L X. apply now. auto. Qed.
  Lemma lead n (P Q : nat -> Prop) : (forall m, (n <= m)%nat -> P m -> within m Q \/ P (S m)) -> (exists k, (n <= k)%nat /\ (P k -> within k Q)) -> P n -> within n Q.
  Proof.
    intros HS (k & L & HF). assert (E : exists d, k = (n + d)%nat) by (exists (k - n)%nat; lia). destruct E as (d & ->). clear L.
    revert n HS HF. induction d as [|d IH]; intros n HS HF Hn.
    - rewrite Nat.add_0_r in HF. auto.
    - destruct (HS n (le_n _) Hn) as [H|H]; [exact H|]. apply later with (S n); [lia|]. apply IH; [intros m Lm; apply HS; lia| |exact H].
      replace (S n + d)%nat with (n + S d)%nat by lia. exact HF.
  Qed.
End Within.

Lemma lp_kept cf s l s' os : step cf s l = Some (s', os) -> l <> LPlace 0 -> (forall e, l <> LRecv 0 e) -> l <> LClosed 0 -> ~ In (OAborted 0) os -> lp s' 0 = lp s 0.
Proof.
  intros H N1 N2 N3 NA. unfold lp. step_cases H; autorewrite with ep; try reflexivity;
  repeat match goal with |- context[Nat.eqb ?a ?b] => destruct (Nat.eqb_spec a b); subst end; try congruence; try (destruct NA; left; reflexivity);
  try match goal with E : nth_error (e_conns _) _ = _ |- _ => rewrite ?E end; try reflexivity.
Qed.
Lemma lp_placed cf s s' os : step cf s (LPlace 0) = Some (s', os) -> lp s' 0 = Some LRun /\ exists c e, lp s 0 = Some (LSend c e) /\ forall ch, nth_error (e_chans s) c = Some ch -> ch_open ch = true -> os = [OQueued 0 c e].
Proof.
  intros H. unfold lp. cbn [step] in H. destruct (nth_error (e_conns s) 0) as [cn|] eqn:E; [|discriminate]. destruct (cn_loop cn) as [|c e|] eqn:El; try discriminate H. unfold place in H.
  destruct (nth_error (e_chans s) c) as [ch|] eqn:Ec; [|discriminate]. destruct (ch_open ch) eqn:Eo.
  - destruct (Nat.ltb (length (ch_buf ch)) 8); [|discriminate]. apply some_pair in H. destruct H as [<- <-]. split; [autorewrite with ep; rewrite E; reflexivity|]. exists c, e. split; [cbn; rewrite El; reflexivity|]. reflexivity.
  - apply some_pair in H. destruct H as [<- <-]. split; [unfold handle_event; cbn [fst]; autorewrite with ep; rewrite E; reflexivity|]. exists c, e. split; [cbn; rewrite El; reflexivity|]. intros ch' E1 E2. congruence.
Qed.
Lemma queued_place cf s l s' os c : step cf s l = Some (s', os) -> (forall n, l <> LPlace n) -> queued c os = [].
Proof. intros H N. destruct (step_chan _ _ _ _ _ c H); auto; [subst os; reflexivity|]. destruct (N _ H0). Qed.

Section Live.
  Context (cf : side -> config) (ps : side -> list prog) (ctr : side -> N) (f : nat -> option plabel) (st : nat -> pair) (ob : nat -> list (side * obs)).
  Hypothesis EN : endless cf ps ctr f st ob.
  Hypothesis CK : clocks f.
  Local Notation pruns' := (pruns cf ps ctr (fun _ => [])).
  Local Notation tr := (so_far ob).
  Local Notation at' sd n := (at_side sd (so_far ob n)).
  Local Notation eps sd n := (p_ep (st n) sd).

  Lemma prefix n : exists ls, pruns' ls (st n) (tr n) /\ good_clocks ls.
  Proof.
    destruct EN as [E0 EH]. induction n as [|n (ls & IH & GC)].
    - exists []. split; [unfold pruns; cbn; rewrite E0; reflexivity|]. intros sd i t v [].
    - specialize (EH n). unfold happens in EH. cbn [so_far]. destruct (f n) as [l|] eqn:Ef.
      + exists (ls ++ [l]). split; [eapply psnoc_run; eauto|]. intros sd i t v Q. apply in_app_or in Q. destruct Q as [Q|[Q|[]]]; [exact (GC _ _ _ _ Q)|]. subst l. exact (CK _ _ _ _ _ Ef).
      + exists ls. destruct EH as [-> ->]. rewrite app_nil_r. auto.
  Qed.
  Lemma more sd n : exists os, at' sd (S n) = at' sd n ++ os.
  Proof. cbn [so_far]. rewrite at_side_app. eauto. Qed.
  Lemma grows sd n m : (n <= m)%nat -> exists os, at' sd m = at' sd n ++ os.
  Proof. induction 1 as [|m L (os & E)]; [exists []; rewrite app_nil_r; reflexivity|]. destruct (more sd m) as (o' & E'). rewrite E', E, <- app_assoc. eauto. Qed.
  Lemma still sd n m o : (n <= m)%nat -> In o (at' sd n) -> In o (at' sd m).
  Proof. intros L H. destruct (grows sd n m L) as (os & ->). apply in_or_app. auto. Qed.
  (** what happens at one side *)
  Inductive nview (sd : side) (n : nat) : Prop :=
  | nv_idle : eps sd (S n) = eps sd n -> at' sd (S n) = at' sd n -> (forall l, f n <> Some (PDo sd l)) -> f n <> Some (PDeliver sd) -> (exists w, p_in (st (S n)) sd = p_in (st n) sd ++ w) -> nview sd n
  | nv_own l os : f n = Some (PDo sd l) -> own_label l = true -> step (cf sd) (eps sd n) l = Some (eps sd (S n), os) -> at' sd (S n) = at' sd n ++ os -> existsb is_cut os = false ->
      p_in (st (S n)) sd = p_in (st n) sd -> nview sd n
  | nv_read e os : f n = Some (PDeliver sd) -> p_in (st n) sd = e :: p_in (st (S n)) sd -> step (cf sd) (eps sd n) (LRecv 0 e) = Some (eps sd (S n), os) -> at' sd (S n) = at' sd n ++ os -> nview sd n.
  Lemma view sd n : nview sd n.
  Proof.
    destruct EN as [_ EH]. specialize (EH n). unfold happens in EH. destruct (f n) as [l|] eqn:Ef.
    2:{ destruct EH as [E1 E2]. apply nv_idle; try congruence. - cbn [so_far]. rewrite E2, app_nil_r. reflexivity. - exists []. rewrite app_nil_r. congruence. }
    pose proof EH as EV. apply pstep_view in EH. destruct EH as [sd' l s' o A B C D E F H I|sd' e w s' o A B D E F H I].
    - destruct (two_sides sd sd') as [Q|Q]; subst sd' s'.
      + apply nv_own with l o; auto. cbn [so_far]. rewrite at_side_app, I, at_side_map, side_eqb_refl. reflexivity.
      + rewrite other_other in *. apply nv_idle; auto.
        * cbn [so_far]. rewrite at_side_app, I, at_side_map. replace (side_eqb (other sd) sd) with false by (destruct sd; reflexivity). apply app_nil_r.
        * intros l'. pose proof (other_ne sd). congruence.
        * congruence.
        * eauto.
    - destruct (two_sides sd sd') as [Q|Q]; subst sd' s'.
      + apply nv_read with e o; auto; [congruence|]. cbn [so_far]. rewrite at_side_app, I, at_side_map, side_eqb_refl. reflexivity.
      + rewrite other_other in *. apply nv_idle; auto.
        * cbn [so_far]. rewrite at_side_app, I, at_side_map. replace (side_eqb (other sd) sd) with false by (destruct sd; reflexivity). apply app_nil_r.
        * congruence.
        * pose proof (other_ne sd). congruence.
        * exists []. rewrite app_nil_r. auto.
  Qed.
  Lemma task_stays sd n i s0 : tst (eps sd n) i = Some s0 -> (forall a, f n <> Some (PDo sd (LTask i a))) -> tst (eps sd (S n)) i = Some s0.
  Proof.
    intros H N. destruct (view sd n) as [E _ _ _ _|l os E _ HS _ _ _|e os E _ HS _].
    - rewrite E. exact H.
    - rewrite (tst_kept _ _ _ _ _ i HS); [exact H| |congruence]. intros a ->. exact (N a E).
    - rewrite (tst_kept _ _ _ _ _ i HS); [exact H|discriminate|congruence].
  Qed.
  Lemma acts_dec n sd i : (exists a, f n = Some (PDo sd (LTask i a))) \/ forall a, f n <> Some (PDo sd (LTask i a)).
  Proof.
    destruct (f n) as [[sd' l|sd']|]; try (right; discriminate). destruct (two_sides sd sd') as [-> | ->]; [|right; pose proof (other_ne sd); congruence].
    destruct l as [j a| | | | | |]; try (right; discriminate). destruct (Nat.eq_dec j i) as [->|]; [left; eauto|right; congruence].
  Qed.
  Lemma act_view sd n i a : f n = Some (PDo sd (LTask i a)) -> exists os, task_step (cf sd) (eps sd n) i a = Some (eps sd (S n), os) /\ at' sd (S n) = at' sd n ++ os /\ existsb is_cut os = false.
  Proof. intros H. destruct (view sd n) as [_ _ E _ _|l os E _ HS E' EC _|e os E _ HS _]; [destruct (E _ H)| |congruence]. rewrite E in H. injection H as ->. eauto. Qed.

  (** ** Receive loops *)
  Section Loop.
    Context (G : nat -> Prop) (sd : side).
    (* every task has its turn again and again, unless [G] holds or it is excused *)
    Context (excused : nat -> nat -> Prop).
    Hypothesis FT : forall i n, exists m, (n <= m)%nat /\ ((exists a, f m = Some (PDo sd (LTask i a))) \/ stuck (cf sd) (eps sd m) i \/ G m \/ excused i m).
    Hypothesis FL : fair_loops cf f st.
    Hypothesis DR : drained ob sd.
    Hypothesis NA : forall n, ~ In (OAborted 0) (at' sd n).
    Lemma own_run n : exists ls, runs (cf sd) 1 (side_eqb sd SideA) (ps sd) (ctr sd) ls (eps sd n) (at' sd n) /\ good_clock ls /\ no_write_failure ls /\ no_close ls /\ existsb is_cut (at' sd n) = false.
    Proof. destruct (prefix n) as (ls & A & B). destruct (project _ _ _ _ _ _ _ A sd) as (ls' & C & D & E & F). eauto 10. Qed.
    (** the loop reads, if it runs *)
    Lemma loop_stays n l0 : lp (eps sd n) 0 = Some l0 -> f n <> Some (PDo sd (LPlace 0)) -> f n <> Some (PDeliver sd) -> lp (eps sd (S n)) 0 = Some l0.
    Proof.
      intros H N1 N2. destruct (view sd n) as [E _ _ _ _|l os E EO HS EA _ _|e os E _ HS _]; [rewrite E; exact H| |congruence].
      rewrite (lp_kept _ _ _ _ _ HS); auto; try congruence; [intros e ->; discriminate EO|intros ->; discriminate EO|]. intros Q. apply (NA (S n)). rewrite EA. apply in_or_app. auto.
    Qed.
    Lemma loop_dec n : f n = Some (PDo sd (LPlace 0)) \/ f n = Some (PDeliver sd) \/ (f n <> Some (PDo sd (LPlace 0)) /\ f n <> Some (PDeliver sd)).
    Proof.
      destruct (f n) as [[sd' l|sd']|]; try (right; right; split; discriminate); destruct (two_sides sd sd') as [-> | ->]; try (right; right; pose proof (other_ne sd); split; congruence); auto.
      destruct l as [j a|m e|m|m|m|h|]; try (right; right; split; discriminate). destruct m; auto. right; right; split; discriminate.
    Qed.
    Lemma no_place n : lp (eps sd n) 0 = Some LRun -> f n <> Some (PDo sd (LPlace 0)).
    Proof.
      intros H Q. destruct (view sd n) as [_ _ E _ _|l os E EO HS EA _ _|e os E _ HS _]; [exact (E _ Q)| |congruence]. rewrite E in Q. injection Q as ->.
      destruct (lp_placed _ _ _ _ HS) as (_ & c & e & X & _). congruence.
    Qed.
    Lemma no_read n c e : lp (eps sd n) 0 = Some (LSend c e) -> f n <> Some (PDeliver sd).
    Proof.
      intros H Q. destruct (view sd n) as [_ _ _ E _|l os E EO HS EA _ _|e' os E _ HS _]; [exact (E Q)|congruence|]. cbn [step] in HS. unfold lp in H.
      destruct (nth_error (e_conns (eps sd n)) 0) as [cn|]; [|discriminate]. cbn in H. injection H as H. rewrite H in HS. discriminate.
    Qed.
    Lemma pending_stays n : f n <> Some (PDeliver sd) -> p_in (st n) sd <> [] -> p_in (st (S n)) sd <> [].
    Proof. intros N H. destruct (view sd n) as [_ _ _ _ (w & E)|l os E EO HS EA _ EI|e' os E _ HS _]; [rewrite E; destruct (p_in (st n) sd); [congruence|discriminate]|rewrite EI; exact H|congruence]. Qed.
    Lemma reads_run n : lp (eps sd n) 0 = Some LRun -> p_in (st n) sd <> [] -> within G n (fun k => f k = Some (PDeliver sd)).
    Proof.
      intros H1 H2. apply (lead G n (fun k => lp (eps sd k) 0 = Some LRun /\ p_in (st k) sd <> [])); [| |auto].
      - intros m _ [A B]. destruct (loop_dec m) as [Q|[Q|[Q1 Q2]]]; [destruct (no_place _ A Q)|left; apply now; exact Q|]. right. split; [apply loop_stays; auto|apply pending_stays; auto].
      - destruct (FL sd _ (or_introl eq_refl) n) as (k & Lk & [Q|Q]); exists k; (split; [exact Lk|]); intros [A B]; [apply now; exact Q|]. exfalso. cbn [pstep] in Q.
        destruct (p_in (st k) sd) as [|e w]; [congruence|]. cbn [step] in Q. unfold lp in A. destruct (nth_error (e_conns (eps sd k)) 0) as [cn|]; [|discriminate]. cbn in A. injection A as A. rewrite A in Q.
        destruct (receive (cf sd) (eps sd k) 0 e); discriminate.
    Qed.
    (** it hands on what it holds *)
    Definition clear (c n : nat) : Prop := gone (at' sd n) c \/ (length (queued c (at' sd n)) < length (taken c (at' sd n)) + 8)%nat.
    Definition placing (n : nat) : Prop := f n = Some (PDo sd (LPlace 0)).
    Lemma queued_stays c n : ~ placing n -> queued c (at' sd (S n)) = queued c (at' sd n).
    Proof.
      intros N. destruct (view sd n) as [_ E _ _ _|l os E EO HS EA _ _|e os E _ HS EA]; [rewrite E; reflexivity| |]; rewrite EA; unfold queued; rewrite flat_map_app; fold (queued c os).
      - rewrite (queued_place _ _ _ _ _ c HS); [apply app_nil_r|]. intros m ->. destruct m as [|m]; [exact (N E)|]. destruct (own_run n) as (ls & HR & _). pose proof (conns_len _ _ _ _ _ _ _ _ HR) as L.
        cbn [step] in HS. destruct (nth_error (e_conns (eps sd n)) (S m)) eqn:En; [|discriminate]. assert (nth_error (e_conns (eps sd n)) (S m) <> None) by congruence. apply nth_error_Some in H. lia.
      - rewrite (queued_place _ _ _ _ _ c HS); [apply app_nil_r|discriminate].
    Qed.
    Lemma clear_stays c n : clear c n -> ~ placing n -> clear c (S n).
    Proof.
      intros [H|H] N; [left; apply (still sd n); auto|right]. rewrite (queued_stays c n N). destruct (more sd n) as (os & ->). unfold taken. rewrite flat_map_app, app_length. unfold taken in H. lia.
    Qed.
    Lemma clear_places n c e : lp (eps sd n) 0 = Some (LSend c e) -> clear c n -> within G n (fun k => placing k /\ lp (eps sd k) 0 = Some (LSend c e)).
    Proof.
      intros H1 H2. apply (lead G n (fun k => lp (eps sd k) 0 = Some (LSend c e) /\ clear c k)); [| |auto].
      - intros m _ [A B]. destruct (loop_dec m) as [Q|[Q|[Q1 Q2]]]; [left; apply now; split; auto|destruct (no_read _ _ _ A Q)|]. right. split; [apply loop_stays; auto|apply clear_stays; auto].
      - destruct (FL sd _ (or_intror eq_refl) n) as (k & Lk & [Q|Q]); exists k; (split; [exact Lk|]); intros [A B]; [apply now; split; auto|]. exfalso.
        destruct (own_run k) as (ls & HR & _). destruct (unblocked _ _ _ _ _ _ _ _ 0 c e HR A) as [U1 U2]. cbn [pstep own_label] in Q.
        assert (X : exists s' os, step (cf sd) (eps sd k) (LPlace 0) = Some (s', os)).
        { destruct (gone_b c (at' sd k)) eqn:Eg.
          - destruct U1 as (s' & j & U); [apply gone_iff; exact Eg|]. eauto.
          - assert (NG : ~ gone (at' sd k) c) by (apply gone_iff_not; exact Eg). destruct B as [B|B]; [contradiction|]. destruct (U2 NG B) as (s' & U). eauto. }
        destruct X as (s' & os & X). rewrite X, (place_uncut _ _ _ _ _ X) in Q. discriminate.
    Qed.
    (** steps of a task, as long as something else holds *)
    Lemma task_lead_x i s0 (R Q : nat -> Prop) n : (forall m, (n <= m)%nat -> R m -> tst (eps sd m) i = Some s0 -> within G m Q \/ R (S m)) ->
      (forall m, (n <= m)%nat -> R m -> tst (eps sd m) i = Some s0 -> stuck (cf sd) (eps sd m) i -> within G m Q) ->
      (forall m a, (n <= m)%nat -> R m -> tst (eps sd m) i = Some s0 -> f m = Some (PDo sd (LTask i a)) -> within G m Q) ->
      (forall m, (n <= m)%nat -> R m -> tst (eps sd m) i = Some s0 -> excused i m -> within G m Q) ->
      R n -> tst (eps sd n) i = Some s0 -> within G n Q.
    Proof.
      intros H1 H2 H3 H4 HR HT. apply (lead G n (fun k => R k /\ tst (eps sd k) i = Some s0)); [| |auto].
      - intros m L [A B]. destruct (acts_dec m sd i) as [(a & E)|N]; [left; eapply H3; eauto|]. destruct (H1 m L A B) as [X|X]; [auto|]. right. split; [exact X|]. apply task_stays; auto.
      - destruct (FT i n) as (k & L & [(a & E)|[E|[E|E]]]); exists k; (split; [exact L|]); intros [A B]; [eapply H3; eauto|eapply H2; eauto|exists k; auto|eapply H4; eauto].
    Qed.
    Definition rank (s0 : tstate) : nat := match s0 with TSend _ _ _ => 3 | TWait _ _ _ => 2 | TGot _ _ _ _ => 1 | _ => 0 end.
    Lemma act_rank n i a s0 s1 c : f n = Some (PDo sd (LTask i a)) -> tst (eps sd n) i = Some s0 -> tchan s0 = Some c -> tst (eps sd (S n)) i = Some s1 -> tchan s1 = Some c -> (rank s1 < rank s0)%nat.
    Proof.
      clear FT excused. intros H1 H2 H3 H4 H5. destruct (act_view sd n i a H1) as (os & HS & _ & NC). unfold tst in H2. destruct (nth_error (e_tasks (eps sd n)) i) as [tk|] eqn:Et; [|discriminate]. cbn in H2. injection H2 as H2.
      unfold task_step in HS. rewrite Et, H2 in HS.
      destruct s0 as [?|? ? ?|? e0 [?|?|?|?]|d rid k|d rid e1 k|?|?|?| |]; try discriminate H3; destruct a; try discriminate HS; cbn zeta in HS;
      repeat (match type of HS with context[match ?x with _ => _ end] => destruct x eqn:? end; try discriminate HS);
      apply some_pair in HS; destruct HS as [HS <-]; rewrite <- HS in H4; unfold tst in H4; autorewrite with ep in H4; rewrite Nat.eqb_refl, Et in H4; cbn in H4; injection H4 as <-; try discriminate H5; cbn; lia.
    Qed.
    Lemma holds_step n c e : lp (eps sd n) 0 = Some (LSend c e) -> (placing n /\ lp (eps sd n) 0 = Some (LSend c e)) \/ lp (eps sd (S n)) 0 = Some (LSend c e).
    Proof. intros A. destruct (loop_dec n) as [Q|[Q|[Q1 Q2]]]; [left; split; auto|destruct (no_read _ _ _ A Q)|right; apply loop_stays; auto]. Qed.
    Lemma listened n c e : lp (eps sd n) 0 = Some (LSend c e) -> exists i x, In (OListen i x c) (at' sd n).
    Proof.
      intros H. destruct (own_run n) as (ls & HR & _). pose proof (inv_users _ _ _ _ _ _ _ _ HR) as U. destruct (u_loop _ U _ _ _ H) as (r & _ & Cd). unfold cid in Cd.
      destruct (nth_error (e_chans (eps sd n)) c) as [ch|] eqn:Hc; [|discriminate]. pose proof (inv_chan _ _ _ _ _ _ _ _ HR c) as CT. rewrite Hc in CT. destruct CT as (_ & (i & C2) & _). eauto.
    Qed.
    (* who is excused does not hold up the loop *)
    Hypothesis XC : forall i m s0 c, excused i m -> tst (eps sd m) i = Some s0 -> tchan s0 = Some c -> clear c m \/ G m.
    Lemma places_x n c e : lp (eps sd n) 0 = Some (LSend c e) -> within G n (fun k => placing k /\ lp (eps sd k) 0 = Some (LSend c e)).
    Proof.
      intros H. apply (within_bind G n (fun k => (placing k \/ clear c k) /\ lp (eps sd k) 0 = Some (LSend c e))).
      2:{ intros m _ [[A|A] B]; [apply now; auto|apply clear_places; auto]. }
      destruct (listened _ _ _ H) as (i & x & HL).
      assert (OP : forall m h, (n <= m)%nat -> lp (eps sd m) 0 = Some (LSend c e) -> In (OOpened i h x c) (at' sd m) -> within G m (fun k => (placing k \/ clear c k) /\ lp (eps sd k) 0 = Some (LSend c e))).
      { intros m h L A B. apply (lead G m (fun k => lp (eps sd k) 0 = Some (LSend c e))); [| |exact A].
        - intros k _ C. destruct (holds_step _ _ _ C) as [[D D']|D]; [left; apply now; auto|auto].
        - destruct (DR _ _ _ _ _ B) as (k & Lk & C). exists k. split; [exact Lk|]. intros D. apply now. split; [right; exact C|exact D]. }
      assert (R : forall r m s0, (n <= m)%nat -> (rank s0 <= r)%nat -> tst (eps sd m) i = Some s0 -> tchan s0 = Some c -> lp (eps sd m) 0 = Some (LSend c e) -> within G m (fun k => (placing k \/ clear c k) /\ lp (eps sd k) 0 = Some (LSend c e))).
      { induction r as [|r IH]; intros m s0 L Lr HT HC HP.
        - exfalso. destruct s0 as [?|? ? ?|? ? [?|?|?|?]|? ? ?|? ? ? ?|?|?|?| |]; try discriminate HC; cbn in Lr; lia.
        - apply (task_lead_x i s0 (fun k => lp (eps sd k) 0 = Some (LSend c e)) _ m); auto.
          + intros k _ A _. destruct (holds_step _ _ _ A) as [[D D']|D]; [left; apply now; auto|auto].
          + intros k Lk A B SK. apply now. split; [|exact A]. right.
            destruct (own_run k) as (ls & HR & _). pose proof (inv_users _ _ _ _ _ _ _ _ HR) as U. destruct (u_task _ U _ _ _ B HC) as (ch & Hc & _ & Ho).
            pose proof (inv_chan _ _ _ _ _ _ _ _ HR c) as CT. rewrite Hc in CT. destruct CT as (_ & _ & _ & rest & C3 & C4). specialize (C4 Ho). subst rest. right. rewrite C3, app_length.
            specialize (SK (mk_instant 0 0) 0). cbn [step] in SK. unfold task_step in SK. unfold tst in B. destruct (nth_error (e_tasks (eps sd k)) i) as [tk|] eqn:Et; [|discriminate]. cbn in B. injection B as B. rewrite B in SK.
            destruct s0 as [?|? ? ?|? ? [?|?|?|?]|d rid k0|d rid e1 k0|?|?|?| |]; try discriminate HC; try discriminate SK.
            * cbn in HC. injection HC as ->. rewrite Hc in SK. destruct (ch_buf ch); [cbn; lia|discriminate SK].
            * cbn zeta in SK. destruct (reply_result (cf_env (cf sd)) e1); discriminate SK.
          + intros k a Lk A B E. destruct (holds_step _ _ _ A) as [[D D']|D]; [apply now; auto|]. apply (later G k (S k)); [lia|].
            destruct (own_run (S k)) as (ls & HR & _).
            assert (HL' : In (OListen i x c) (at' sd (S k))) by (apply (still sd n); [lia|exact HL]).
            destruct (inv_fate _ _ _ _ _ _ _ _ HR _ _ _ HL') as [(s1 & F1 & F2)|[(h & F)|(F & _)]].
            * apply (IH (S k) s1); auto; [lia|]. pose proof (act_rank _ _ _ _ _ _ E B HC F1 F2). lia.
            * apply (OP (S k) h); auto. lia.
            * apply now. split; [|exact D]. right. left. apply gone_iff. exact F.
          + intros k Lk A B XX. destruct (XC _ _ _ _ XX B HC) as [C|C]; [apply now; auto|exists k; auto]. }
      destruct (own_run n) as (ls & HR & _). destruct (inv_fate _ _ _ _ _ _ _ _ HR _ _ _ HL) as [(s1 & F1 & F2)|[(h & F)|(F & _)]].
      - eapply (R (rank s1)); eauto.
      - eapply (OP n); eauto.
      - apply now. split; [|exact H]. right. left. apply gone_iff. exact F.
    Qed.
    Lemma loop_kinds n : lp (eps sd n) 0 = Some LRun \/ exists c e, lp (eps sd n) 0 = Some (LSend c e).
    Proof.
      destruct (own_run n) as (ls & RA & _ & _ & NC & _). pose proof (inv_loop _ _ _ _ _ _ _ _ RA 0) as L. pose proof (conns_len _ _ _ _ _ _ _ _ RA) as CL. fold (lp (eps sd n) 0) in L.
      destruct (lp (eps sd n) 0) as [[|c e|]|] eqn:El; [auto|eauto| |]; exfalso.
      - cbn in L. destruct L as [L|L]; apply last_in in L; [|exact (NA _ L)]. apply (closed_label _ _ _ _ _ _ _ _ RA) in L. exact (NC _ L).
      - unfold lp in El. destruct (e_conns (eps sd n)); [discriminate CL|discriminate El].
    Qed.
    Lemma reads_x n : p_in (st n) sd <> [] -> within G n (fun k => f k = Some (PDeliver sd)).
    Proof.
      intros H. destruct (loop_kinds n) as [A|(c & e & A)]; [apply reads_run; auto|].
      apply (within_bind G n (fun k => p_in (st k) sd <> [] /\ (f k = Some (PDeliver sd) \/ lp (eps sd k) 0 = Some LRun))).
      2:{ intros m _ [B [C|C]]; [apply now; exact C|apply reads_run; auto]. }
      assert (P : forall m d, (m = n + d)%nat -> p_in (st m) sd <> [] \/ exists k, (n <= k <= m)%nat /\ f k = Some (PDeliver sd) /\ p_in (st k) sd <> []).
      { intros m d ->. induction d as [|d IH]; [rewrite Nat.add_0_r; auto|]. destruct IH as [IH|(k & L & E)]; [|right; exists k; split; [lia|exact E]].
        destruct (loop_dec (n + d)) as [Q|[Q|[Q1 Q2]]].
        - left. rewrite <- plus_n_Sm. apply pending_stays; [congruence|exact IH].
        - right. exists (n + d)%nat. split; [lia|auto].
        - left. rewrite <- plus_n_Sm. apply pending_stays; auto. }
      destruct (places_x n c e A) as (k & Lk & [B|[B1 B2]]); [exists k; auto|].
      destruct (P (S k) (S k - n)%nat ltac:(lia)) as [C|(k' & Lk' & C & D)].
      - exists (S k). split; [lia|]. right. split; [exact C|]. right. unfold placing in B1.
        destruct (view sd k) as [_ _ E _ _|l os E EO HS EA _ _|e' os E _ HS _]; [destruct (E _ B1)| |congruence]. rewrite E in B1. injection B1 as ->. apply (lp_placed _ _ _ _ HS).
      - exists k'. split; [lia|]. right. auto.
    Qed.
  End Loop.

  (** every task has its turn again and again *)
  Definition turns (G : nat -> Prop) (sd : side) : Prop := forall i n, exists m, (n <= m)%nat /\ ((exists a, f m = Some (PDo sd (LTask i a))) \/ stuck (cf sd) (eps sd m) i \/ G m).
  Lemma fair_turns G sd : fair_tasks cf f st -> turns G sd.
  Proof. intros FT i n. destruct (FT sd i n) as (m & L & [H|H]); exists m; auto. Qed.
  Lemma turns_x G sd : turns G sd -> forall i n, exists m, (n <= m)%nat /\ ((exists a, f m = Some (PDo sd (LTask i a))) \/ stuck (cf sd) (eps sd m) i \/ G m \/ (fun _ _ => False) i m).
  Proof. intros FT i n. destruct (FT i n) as (m & L & [H|[H|H]]); exists m; auto. Qed.
  Lemma task_lead_t G sd : turns G sd -> forall i s0 (R Q : nat -> Prop) n, (forall m, (n <= m)%nat -> R m -> tst (eps sd m) i = Some s0 -> within G m Q \/ R (S m)) ->
    (forall m, (n <= m)%nat -> R m -> tst (eps sd m) i = Some s0 -> stuck (cf sd) (eps sd m) i -> within G m Q) ->
    (forall m a, (n <= m)%nat -> R m -> tst (eps sd m) i = Some s0 -> f m = Some (PDo sd (LTask i a)) -> within G m Q) ->
    R n -> tst (eps sd n) i = Some s0 -> within G n Q.
  Proof. intros FT i s0 R Q n H1 H2 H3. apply (task_lead_x G sd (fun _ _ => False) (turns_x G sd FT) i s0 R Q n H1 H2 H3). intros m _ _ _ []. Qed.
  Lemma task_lead G sd : fair_tasks cf f st -> forall i s0 (R Q : nat -> Prop) n, (forall m, (n <= m)%nat -> R m -> tst (eps sd m) i = Some s0 -> within G m Q \/ R (S m)) ->
    (forall m, (n <= m)%nat -> R m -> tst (eps sd m) i = Some s0 -> stuck (cf sd) (eps sd m) i -> within G m Q) ->
    (forall m a, (n <= m)%nat -> R m -> tst (eps sd m) i = Some s0 -> f m = Some (PDo sd (LTask i a)) -> within G m Q) ->
    R n -> tst (eps sd n) i = Some s0 -> within G n Q.
  Proof. intros FT. apply task_lead_t. apply fair_turns. exact FT. Qed.
  Lemma places_t G sd : turns G sd -> fair_loops cf f st -> drained ob sd -> (forall n, ~ In (OAborted 0) (at' sd n)) ->
    forall n c e, lp (eps sd n) 0 = Some (LSend c e) -> within G n (fun k => placing sd k /\ lp (eps sd k) 0 = Some (LSend c e)).
  Proof. intros FT FL DR NA. apply (places_x G sd (fun _ _ => False) (turns_x G sd FT) FL DR NA). intros i m s0 c []. Qed.
  Lemma places G sd : fair_tasks cf f st -> fair_loops cf f st -> drained ob sd -> (forall n, ~ In (OAborted 0) (at' sd n)) ->
    forall n c e, lp (eps sd n) 0 = Some (LSend c e) -> within G n (fun k => placing sd k /\ lp (eps sd k) 0 = Some (LSend c e)).
  Proof. intros FT. apply places_t. apply fair_turns. exact FT. Qed.
  Lemma reads_t G sd : turns G sd -> fair_loops cf f st -> drained ob sd -> (forall n, ~ In (OAborted 0) (at' sd n)) ->
    forall n, p_in (st n) sd <> [] -> within G n (fun k => f k = Some (PDeliver sd)).
  Proof. intros FT FL DR NA. apply (reads_x G sd (fun _ _ => False) (turns_x G sd FT) FL DR NA). intros i m s0 c []. Qed.
  Lemma reads G sd : fair_tasks cf f st -> fair_loops cf f st -> drained ob sd -> (forall n, ~ In (OAborted 0) (at' sd n)) ->
    forall n, p_in (st n) sd <> [] -> within G n (fun k => f k = Some (PDeliver sd)).
  Proof. intros FT. apply reads_t. apply fair_turns. exact FT. Qed.

  (** what is on the way arrives *)
  Lemma delivered (G : nat -> Prop) sd e : (forall m, p_in (st m) sd <> [] -> within G m (fun k => f k = Some (PDeliver sd))) ->
    forall n, In e (p_in (st n) sd) -> within G n (fun k => In e (got (at' sd k))).
  Proof.
    intros RD n H. apply in_split in H. destruct H as (w1 & w2 & H). revert n w2 H. induction w1 as [|x w1 IH]; intros n w2 H.
    - assert (D : forall m, f m = Some (PDeliver sd) -> (exists w, p_in (st m) sd = [] ++ e :: w) -> within G m (fun k => In e (got (at' sd k)))).
      { intros m E (w & P). apply (later G m (S m)); [lia|]. apply now. destruct (view sd m) as [_ _ _ N _|l os E' EO HS EA _ EI|e' os E' EI HS EA]; [congruence|congruence|].
        rewrite EA, got_app, (recv_got _ _ _ _ _ _ HS). rewrite P in EI. injection EI as <- _. apply in_or_app. right. left. reflexivity. }
      apply (lead G n (fun k => exists w, p_in (st k) sd = [] ++ e :: w)); [| |eauto].
      + intros m _ (w & P). destruct (view sd m) as [_ _ _ _ (w' & E)|l os E' EO HS EA _ EI|e' os E' EI HS EA].
        * right. rewrite E, P. cbn. eauto.
        * right. rewrite EI. eauto.
        * left. apply (D m E'). eauto.
      + assert (N : p_in (st n) sd <> []) by (rewrite H; discriminate). destruct (RD n N) as (k & Lk & [Q|Q]); exists k; (split; [exact Lk|]); intros P; [exists k; auto|apply D; auto].
    - assert (D : forall m, f m = Some (PDeliver sd) -> (exists w, p_in (st m) sd = (x :: w1) ++ e :: w) -> within G m (fun k => In e (got (at' sd k)))).
      { intros m E (w & P). apply (later G m (S m)); [lia|]. destruct (view sd m) as [_ _ _ N _|l os E' EO HS EA _ EI|e' os E' EI HS EA]; [congruence|congruence|].
        apply (IH (S m) w). rewrite P in EI. injection EI as _ EI. auto. }
      apply (lead G n (fun k => exists w, p_in (st k) sd = (x :: w1) ++ e :: w)); [| |eauto].
      + intros m _ (w & P). destruct (view sd m) as [_ _ _ _ (w' & E)|l os E' EO HS EA _ EI|e' os E' EI HS EA].
        * right. rewrite E, P. rewrite <- app_assoc. cbn [app]. eauto.
        * right. rewrite EI. eauto.
        * left. apply (D m E'). eauto.
      + assert (N : p_in (st n) sd <> []) by (rewrite H; discriminate). destruct (RD n N) as (k & Lk & [Q|Q]); exists k; (split; [exact Lk|]); intros P; [exists k; auto|apply D; auto].
  Qed.
  (** a send is completed *)
  Lemma sends_t (G : nat -> Prop) sd : turns G sd -> forall n i ctx e pu, tst (eps sd n) i = Some (TSend ctx e pu) -> within G n (fun k => In (OSent i ctx e) (at' sd k)).
  Proof.
    intros FT n i ctx e pu H. apply (task_lead_t G sd FT i (TSend ctx e pu) (fun _ => True) _ n); auto.
    - intros m _ _ B SK. exfalso. specialize (SK (mk_instant 0 0) 0). cbn [step] in SK. unfold task_step in SK. unfold tst in B. destruct (nth_error (e_tasks (eps sd m)) i) as [tk|]; [|discriminate]. cbn in B. injection B as B. rewrite B in SK.
      destruct pu; discriminate SK.
    - intros m a _ _ B E. apply (later G m (S m)); [lia|]. apply now. destruct (act_view _ _ _ _ E) as (os & HS & EA & NC). unfold task_step in HS. unfold tst in B. destruct (nth_error (e_tasks (eps sd m)) i) as [tk|]; [|discriminate]. cbn in B. injection B as B. rewrite B in HS.
      rewrite EA. apply in_or_app. right. destruct a; try discriminate HS; destruct pu; try discriminate HS; apply some_pair in HS; destruct HS as [_ <-]; try discriminate NC; left; reflexivity.
  Qed.
  Lemma sends (G : nat -> Prop) sd : fair_tasks cf f st -> forall n i ctx e pu, tst (eps sd n) i = Some (TSend ctx e pu) -> within G n (fun k => In (OSent i ctx e) (at' sd k)).
  Proof. intros FT. apply sends_t. apply fair_turns. exact FT. Qed.
End Live.

(** ** The handlers *)
Lemma speaks_inv cf armed ctr ls s tr : only_replies cf -> all_speak cf -> runs cf 1 armed [] ctr ls s tr -> no_close ls -> existsb is_cut tr = false ->
  forall j p, tst s j = Some (TRun p) -> sent j tr = [] -> speaks p.
Proof.
  intros RO AS. revert ls s tr. apply (run_ind cf _ (fun ls s tr => no_close ls -> existsb is_cut tr = false -> forall j p, tst s j = Some (TRun p) -> sent j tr = [] -> speaks p)).
  - intros _ _ j p H. destruct j; discriminate H.
  - intros l0 s0 tr0 l s' os IH HR H NC UC j p HT HS.
    assert (NC0 : no_close l0) by (intros n X; apply (NC n); apply in_or_app; auto).
    rewrite existsb_app in UC. apply orb_false_iff in UC. destruct UC as [UC0 UC]. rewrite sent_app in HS. apply app_eq_nil in HS. destruct HS as [HS0 HS].
    specialize (IH NC0 UC0 j).
    pose proof (inv_server _ _ _ RO _ _ _ (snoc_run _ _ _ _ _ _ _ _ _ _ _ HR H) NC) as V'. pose proof (inv_server _ _ _ RO _ _ _ HR NC0) as V.
    destruct (step_task _ _ _ _ _ j H) as [l EB EN|a tk st E1 E2 E3|l q E1 E2 E3|l n sc e E1 E2 E3].
    + unfold tst in *. rewrite EN in HT. auto.
    + unfold tst in *. rewrite E3 in HT. cbn in HT. injection HT as ->. destruct (v_tasks _ _ _ V _ _ E1) as (e & Hj & Sv). unfold task_step in E2. rewrite E1 in E2, IH. cbn in IH.
      destruct (tk_st tk) as [p0|? ? ?|ctx a0 [k|c k|c k|ok]|? ? ?|? ? ? ?|? ?|? ? ?|x| |]; cbn [serving] in Sv; try (destruct Sv; fail); try discriminate E2.
      * specialize (IH p0 eq_refl HS0). destruct a as [t v| | |]; try discriminate E2. destruct IH as [r| |rq k Hk|k Hk]; unfold run_prog in E2; cbn zeta in E2.
        -- rewrite Hj in E2. destruct (answer_event cf (ctx0 e) (nth_id t (e_ctr s0)) r); try discriminate E2. apply some_pair in E2. destruct E2 as [E2 _]. rewrite <- E2 in E3. autorewrite with ep in E3. rewrite Nat.eqb_refl, E1 in E3. discriminate E3.
        -- apply some_pair in E2. destruct E2 as [E2 _]. rewrite <- E2 in E3. autorewrite with ep in E3. rewrite Nat.eqb_refl, E1 in E3. discriminate E3.
        -- destruct (rq_payload rq) as [d|er|cr] eqn:Er; apply some_pair in E2; destruct E2 as [E2 _]; rewrite <- E2 in E3; autorewrite with ep in E3; rewrite Nat.eqb_refl, E1 in E3; try discriminate E3.
           cbn in E3. injection E3 as E3. rewrite <- E3. auto.
        -- apply some_pair in E2. destruct E2 as [E2 _]. rewrite <- E2 in E3. autorewrite with ep in E3. rewrite Nat.eqb_refl, E1 in E3. cbn in E3. injection E3 as E3. rewrite <- E3. auto.
      * destruct a; try discriminate E2; apply some_pair in E2; destruct E2 as [_ <-]; try discriminate UC. cbn in HS. rewrite Nat.eqb_refl in HS. discriminate HS.
      * destruct a; try discriminate E2; apply some_pair in E2; destruct E2 as [_ <-]; try discriminate UC. cbn in HS. rewrite Nat.eqb_refl in HS. discriminate HS.
      * destruct a; try discriminate E2; apply some_pair in E2; destruct E2 as [E2 _]; rewrite <- E2 in E3. autorewrite with ep in E3. rewrite Nat.eqb_refl, E1 in E3. discriminate E3.
    + destruct (v_tasks _ _ _ V' _ _ E3) as (e & Hj & _). discriminate Hj.
    + unfold tst in HT. rewrite E3 in HT. cbn in HT. injection HT as <-. destruct (eh_get (callbacks cf sc) (ev_name e)) eqn:Ec; [eapply AS; eauto|constructor].
Qed.

Section Answers.
  Context (cf : side -> config) (ps : side -> list prog) (ctr : side -> N) (f : nat -> option plabel) (st : nat -> pair) (ob : nat -> list (side * obs)) (G : nat -> Prop).
  Hypothesis EN : endless cf ps ctr f st ob.
  Hypothesis CK : clocks f.
  Hypothesis FT : turns cf f st G SideB.
  Hypothesis FL : fair_loops cf f st.
  Hypothesis RO : only_replies (cf SideB).
  Hypothesis PB : ps SideB = [].
  Hypothesis AS : all_speak (cf SideB).
  Local Notation at' sd n := (at_side sd (so_far ob n)).
  Local Notation eps sd n := (p_ep (st n) sd).

  Lemma server_run n : exists lb, runs (cf SideB) 1 false [] (ctr SideB) lb (eps SideB n) (at' SideB n) /\ no_write_failure lb /\ no_close lb /\ existsb is_cut (at' SideB n) = false.
  Proof. destruct (own_run _ _ _ _ _ _ EN CK SideB n) as (ls & A & _ & B & C & D). rewrite PB in A. eauto 6. Qed.
  Definition spoken (j n : nat) : Prop := sent j (at' SideB n) <> [] \/ In (OPanicked j) (at' SideB n).
  Lemma in_sent j ctx e tr : In (OSent j ctx e) tr -> sent j tr <> [].
  Proof. intros H Q. unfold sent in Q. assert (X : In (ctx, e) (flat_map (sent_by j) tr)) by (apply in_flat_map; eexists; split; [exact H|cbn; rewrite Nat.eqb_refl; left; reflexivity]). rewrite Q in X. exact X. Qed.
  Lemma speaks_live p : speaks p -> forall n j, tst (eps SideB n) j = Some (TRun p) -> within G n (spoken j).
  Proof.
    intros SP. induction SP as [r| |rq k Hk IH|k Hk IH]; intros n j H.
    all: eapply (task_lead_t cf ps ctr f st ob EN G SideB FT j _ (fun _ => True) _ n); [auto| | |exact Coq.Init.Logic.I|exact H].
    all: try (intros m _ _ B SK; exfalso; specialize (SK (mk_instant 0 0) 0); cbn [step] in SK; unfold task_step in SK; unfold tst in B; destruct (nth_error (e_tasks (eps SideB m)) j) as [tk|] eqn:Et; [|discriminate]; cbn in B; injection B as B; rewrite B in SK; unfold run_prog in SK; cbn zeta in SK).
    all: try (intros m a _ _ B E; apply (later G m (S m)); [lia|]; destruct (act_view _ _ _ _ _ _ EN _ _ _ _ E) as (os & HS & EA & NC); unfold task_step in HS; unfold tst in B; destruct (nth_error (e_tasks (eps SideB m)) j) as [tk|] eqn:Et; [|discriminate]; cbn in B; injection B as B; rewrite B in HS; destruct a as [t v| | |]; try discriminate HS; unfold run_prog in HS; cbn zeta in HS).
    - destruct (tk_job tk) as [[ctx x]|]; [|discriminate SK]. destruct (answer_ok (cf SideB) ctx (nth_id (mk_instant 0 0) (e_ctr (eps SideB m))) r) as (a & Ha). rewrite Ha in SK. discriminate.
    - destruct (server_run m) as (lb & RB & _ & NCl & _). destruct (v_tasks _ _ _ (inv_server _ _ _ RO _ _ _ RB NCl) _ _ Et) as (e & Hj & _). rewrite Hj in HS.
      destruct (answer_event (cf SideB) (ctx0 e) (nth_id t (e_ctr (eps SideB m))) r) as [a| |]; try discriminate HS. apply some_pair in HS. destruct HS as [HS _].
      eapply within_bind; [eapply (sends_t cf ps ctr f st ob EN G SideB FT); unfold tst; rewrite <- HS; autorewrite with ep; rewrite Nat.eqb_refl, Et; reflexivity|].
      intros m' _ Q. apply now. left. eapply in_sent. exact Q.
    - discriminate SK.
    - apply now. right. rewrite EA. apply in_or_app. right. apply some_pair in HS. destruct HS as [_ <-]. left. reflexivity.
    - destruct (rq_payload rq); discriminate SK.
    - destruct (rq_payload rq) as [d|er|cr] eqn:Er; apply some_pair in HS; destruct HS as [HS Ho].
      + eapply within_bind; [eapply (sends_t cf ps ctr f st ob EN G SideB FT); unfold tst; rewrite <- HS; autorewrite with ep; rewrite Nat.eqb_refl, Et; reflexivity|].
        intros m' _ Q. apply now. left. eapply in_sent. exact Q.
      + apply (IH er eq_refl). unfold tst. rewrite <- HS. autorewrite with ep. rewrite Nat.eqb_refl, Et. reflexivity.
      + apply now. right. rewrite EA. apply in_or_app. right. rewrite <- Ho. left. reflexivity.
    - discriminate SK.
    - apply some_pair in HS. destruct HS as [HS _]. apply (IH v). unfold tst. rewrite <- HS. autorewrite with ep. rewrite Nat.eqb_refl, Et. reflexivity.
  Qed.
  Lemma handler_live n m j ctx sc q : In (OCalled m j ctx sc q) (at' SideB n) -> within G n (spoken j).
  Proof.
    intros H. destruct (server_run n) as (lb & RB & NWF & NC & UC). destruct (called_job _ _ _ _ _ _ _ _ _ _ _ _ _ RB H) as (s0 & A & _ & B).
    destruct (v_tasks _ _ _ (inv_server _ _ _ RO _ _ _ RB NC) _ _ A) as (e & Hj & Sv). cbn [tk_st tk_job] in *. injection Hj as -> <-.
    destruct s0 as [p0|? ? ?|cx a0 pu|? ? ?|? ? ? ?|? ?|? ? ?|x| |]; cbn [serving] in Sv; try (destruct Sv; fail).
    - destruct (sent j (at' SideB n)) eqn:Es; [|apply now; left; congruence]. apply (speaks_live p0); [|unfold tst; rewrite A; reflexivity].
      eapply speaks_inv; eauto. unfold tst. rewrite A. reflexivity.
    - eapply within_imp; [eapply (sends_t cf ps ctr f st ob EN G SideB FT); unfold tst; rewrite A; reflexivity|]. intros m' _ Q. left. eapply in_sent. exact Q.
    - apply now. left. cbn in B. destruct B as (c1 & x1 & r & pre & a & _ & _ & _ & _ & _ & _ & [B|(_ & k & B)]); [rewrite B; destruct pre; discriminate|destruct (NWF _ _ B)].
    - apply now. left. cbn in B. destruct B as (r & pre & a & _ & _ & _ & [B|(_ & k & B)]); [rewrite B; destruct pre; discriminate|destruct (NWF _ _ B)].
    - apply now. right. exact Sv.
  Qed.
  Lemma server_reads n : p_in (st n) SideB <> [] -> within G n (fun k => f k = Some (PDeliver SideB)).
  Proof.
    intros H. destruct (server_run n) as (lb & RB & _ & NC & _).
    assert (NA : forall n, ~ In (OAborted 0) (at' SideB n)).
    { intros m Q. destruct (server_run m) as (lb' & RB' & _ & NC' & _). pose proof (aborted_done _ _ _ _ _ _ _ _ 0 RB' Q) as L. unfold lp in L. rewrite (v_conns _ _ _ (inv_server _ _ _ RO _ _ _ RB' NC')) in L. discriminate L. }
    apply (reads_run cf ps ctr f st ob EN G SideB FL NA); [|exact H]. unfold lp. rewrite (v_conns _ _ _ (inv_server _ _ _ RO _ _ _ RB NC)). reflexivity.
  Qed.
End Answers.

Section Requests.
  Context (cf : side -> config) (ps : side -> list prog) (ctr : side -> N) (f : nat -> option plabel) (st : nat -> pair) (ob : nat -> list (side * obs)).
  Hypothesis EN : endless cf ps ctr f st ob.
  Hypothesis CK : clocks f.
  Hypothesis FT : forall sd, turns cf f st (fun n => ~ few_events (p_ep (st n) SideA)) sd.
  Hypothesis FL : fair_loops cf f st.
  Hypothesis RO : only_replies (cf SideB).
  Hypothesis PB : ps SideB = [].
  Hypothesis AS : all_speak (cf SideB).
  Hypothesis DF : debug_fits (cf SideB) (cf_env (cf SideA)).
  Hypothesis DR : drained ob SideA.
  Hypothesis NA : forall n, ~ In (OAborted 0) (at_side SideA (so_far ob n)).
  Local Notation at' sd n := (at_side sd (so_far ob n)).
  Local Notation eps sd n := (p_ep (st n) sd).
  Definition many (n : nat) : Prop := ~ few_events (eps SideA n).
  Lemma few_or n P : (few_events (eps SideA n) -> within many n P) -> within many n P.
  Proof. intros H. unfold few_events in H. destruct (N.le_gt_cases (e_ctr (eps SideA n)) (2 ^ 32)) as [L|L]; [auto|]. exists n. split; [lia|]. left. unfold many, few_events. lia. Qed.

  Section One.
    Context (n0 i : nat) (x : N) (c : nat).
    Hypothesis HL : In (OListen i x c) (at' SideA n0).
    Hypothesis NO : forall n h, ~ In (OOpened i h x c) (at' SideA n).
    Hypothesis NH : forall n, never_handled x (at' SideA n).
    Definition replied (n : nat) : Prop := exists r, In (OReply i x r) (at' SideA n).
    Lemma listening n : (n0 <= n)%nat -> In (OListen i x c) (at' SideA n).
    Proof. intros L. apply (still ob SideA n0 n); auto. Qed.
    Lemma live_fate n : (n0 <= n)%nat -> (exists s0, tst (eps SideA n) i = Some s0 /\ tchan s0 = Some c) \/ replied n.
    Proof.
      intros L. destruct (prefix _ _ _ _ _ _ EN CK n) as (ls & HR & GC). destruct (client _ _ _ _ _ _ HR) as (la & RA & GA & _ & _ & NCut).
      destruct (inv_fate _ _ _ _ _ _ _ _ RA _ _ _ (listening n L)) as [F|[(h & F)|(Fg & [F|[(c1 & e1 & F & _)|(e1 & cr & F & F')]])]].
      - auto.
      - destruct (NO _ _ F).
      - right. exact F.
      - exfalso. assert (existsb is_cut (at' SideA n) = true) by (apply existsb_exists; eexists; split; [exact F|reflexivity]). congruence.
      - exfalso. assert (W : In e1 (wired (at' SideB n))).
        { rewrite <- (to_client _ _ _ _ _ _ HR). apply in_or_app. left. apply in_got. destruct (taken_received _ _ _ _ _ _ _ _ _ _ RA F) as (m & Q). eauto. }
        apply in_wired in W. destruct W as (j' & cx & a & W1 & ->). exact (no_crash _ _ _ PB DF _ _ _ HR _ _ _ _ W1 F').
    Qed.
    Lemma open_chan n s0 : tst (eps SideA n) i = Some s0 -> tchan s0 = Some c -> gone_b c (at' SideA n) = false /\ exists ch, nth_error (e_chans (eps SideA n)) c = Some ch /\ ch_open ch = true /\ queued c (at' SideA n) = taken c (at' SideA n) ++ ch_buf ch.
    Proof.
      intros A B. destruct (own_run _ _ _ _ _ _ EN CK SideA n) as (ls & HR & _). pose proof (inv_users _ _ _ _ _ _ _ _ HR) as U. destruct (u_task _ U _ _ _ A B) as (ch & Hc & _ & Ho).
      pose proof (inv_chan _ _ _ _ _ _ _ _ HR c) as CT. rewrite Hc in CT. destruct CT as (C1 & _ & _ & rest & C3 & C4). rewrite Ho in C1. specialize (C4 Ho). subst rest. split; [exact C1|]. exists ch. auto.
    Qed.
    Lemma asked_live : within many n0 (fun n => exists ctx e, In (OSent i ctx e) (at' SideA n) /\ ev_id e = x /\ emitted ctx e).
    Proof.
      destruct (own_run _ _ _ _ _ _ EN CK SideA n0) as (ls & RA & _ & _ & _ & NCut). destruct (listen_plain _ _ _ _ _ _ _ _ RA _ _ _ HL) as [(ctx & e & pu & A & B & C)|(ctx & e & [A|A] & B & C)].
      - eapply within_imp; [exact (sends_t cf ps ctr f st ob EN many SideA (FT SideA) _ _ _ _ _ A)|]. intros m _ Q. exists ctx, e. split; [exact Q|]. split; [exact B|].
        pose proof (inv_task _ _ _ _ _ _ _ _ RA i) as T. unfold tst in A. destruct (nth_error (e_tasks (eps SideA n0)) i) as [tk|]; [|discriminate]. cbn in A. injection A as A. destruct T as [_ T]. rewrite A in T.
        destruct pu; try discriminate C; apply T.
      - apply now. eauto 6.
      - exfalso. assert (existsb is_cut (at' SideA n0) = true) by (apply existsb_exists; eexists; split; [exact A|reflexivity]). congruence.
    Qed.
    Definition called (j n : nat) : Prop := exists sc q, In (OCalled 0 j (mk_context 0 (Some x)) sc q) (at' SideB n) /\ ev_id q = x.
    Lemma called_still j n m : (n <= m)%nat -> called j n -> called j m.
    Proof. intros L (sc & q & A & B). exists sc, q. split; [eapply still; eauto|exact B]. Qed.
    Lemma called_live : within many n0 (fun n => exists j, called j n).
    Proof.
      eapply within_bind; [exact asked_live|]. intros n L (ctx & e & A & B & C).
      apply (within_bind many n (fun m => In (drop_empty_ns e) (got (at' SideB m)))).
      - destruct (prefix _ _ _ _ _ _ EN CK n) as (ls & HR & _). assert (W : In (drop_empty_ns e) (wired (at' SideA n))) by (apply in_wired; eauto). rewrite <- (to_server _ _ _ _ _ _ HR) in W.
        apply in_app_or in W. destruct W as [W|W]; [apply now; exact W|]. apply (delivered cf ps ctr f st ob EN); [|exact W]. intros m. apply (server_reads cf ps ctr f st ob many EN CK FL RO PB).
      - intros m Lm Q. apply now. destruct (server_run _ _ _ _ _ _ EN CK PB m) as (lb & RB & _ & NC & _).
        assert (X : In (drop_empty_ns e) (filter not_end (got (at' SideB m)))).
        { apply filter_In. split; [exact Q|]. unfold not_end. rewrite drop_type. destruct C as [_ C]. rewrite C. destruct (c_ref ctx); reflexivity. }
        rewrite <- (server_calls _ _ _ RO _ _ _ RB NC) in X. apply in_map_iff in X. destruct X as ([j q] & G1 & G2). cbn in G1. subst q. apply in_calls in G2. destruct G2 as (k & cx & sc & J).
        destruct (called_job _ _ _ _ _ _ _ _ _ _ _ _ _ RB J) as (s0 & J1 & J2 & J3). destruct (v_tasks _ _ _ (inv_server _ _ _ RO _ _ _ RB NC) _ _ J1) as (q & J4 & _). cbn [tk_job] in J4. injection J4 as J4 J5.
        assert (k = 0%nat) by (rewrite J4 in J2; injection J2; auto). subst k. rewrite drop_id, B in J2. rewrite J2 in J. exists j, sc, (drop_empty_ns e). split; [exact J|]. rewrite drop_id. exact B.
    Qed.
    Lemma received_live j n : (n0 <= n)%nat -> called j n -> sent j (at' SideB n) <> [] -> within many n (fun m => received_for 0 x (at' SideA m) <> []).
    Proof.
      intros L (sc & q & A & B) H. apply few_or. intros FE. destruct (prefix _ _ _ _ _ _ EN CK n) as (ls & HR & GC).
      pose proof (replies_of _ _ _ RO PB _ _ _ HR GC FE _ _ _ _ _ A) as RP. rewrite B in RP.
      destruct (received_for 0 x (at' SideA n)) as [|y l] eqn:Er; [|apply now; congruence]. cbn [app] in RP.
      destruct (filter (is_ref x) (p_in (st n) SideA)) as [|y l] eqn:Ef; [destruct (sent j (at' SideB n)); [congruence|discriminate RP]|].
      assert (Y : In y (filter (is_ref x) (p_in (st n) SideA))) by (rewrite Ef; left; reflexivity). apply filter_In in Y. destruct Y as [Y1 Y2].
      eapply within_imp; [apply (delivered cf ps ctr f st ob EN many SideA y); [|exact Y1]; intros m; apply (reads_t cf ps ctr f st ob EN CK many SideA (FT SideA) FL DR NA)|].
      intros m _ Q. destruct (own_run _ _ _ _ _ _ EN CK SideA m) as (la & RA & _). rewrite (received_refs _ _ (received_zero _ _ _ _ _ _ _ RA)). intros E.
      assert (Z : In y (filter (is_ref x) (got (at' SideA m)))) by (apply filter_In; auto). rewrite E in Z. exact Z.
    Qed.
    Lemma queued_live n : (n0 <= n)%nat -> received_for 0 x (at' SideA n) <> [] -> within many n (fun m => replied m \/ queued c (at' SideA m) <> []).
    Proof.
      intros L H. apply few_or. intros FE. destruct (live_fate n L) as [(s0 & A & B)|D]; [|apply now; auto].
      destruct (open_chan _ _ A B) as (Ng & _). destruct (prefix _ _ _ _ _ _ EN CK n) as (ls & HR & GC). destruct (client _ _ _ _ _ _ HR) as (la & RA & GA & _).
      pose proof (listening n L) as HL'. apply in_split in HL'. destruct HL' as (a & b & Q). pose proof RA as RA'. rewrite Q in RA'.
      destruct (flow _ _ _ _ _ 0 i _ c _ _ _ RA (GA GC) FE (NH n) a b Q) as (rest & FL1 & FL2). specialize (FL2 Ng (NA n)).
      assert (R : received_for 0 x b <> []).
      { intros E. apply H. rewrite Q, received_for_app, (not_before _ _ _ RO PB _ _ _ HR GC FE _ _ _ _ _ Q). change (OListen i x c :: b) with ([OListen i x c] ++ b). rewrite received_for_app, E. reflexivity. }
      destruct (queued c (at' SideA n)) as [|y l] eqn:Eq; [|apply now; right; congruence].
      rewrite Q, (queued_after _ _ _ _ _ _ _ _ _ _ _ _ RA' eq_refl) in Eq. rewrite Eq in FL1. cbn [app] in FL1. rewrite FL2 in FL1. rewrite FL1 in R. unfold held in R.
      destruct (lp (eps SideA n) 0) as [[|d e|]|] eqn:El; try congruence. destruct (Nat.eqb_spec d c) as [->|]; [|congruence].
      eapply within_bind; [exact (places_t cf ps ctr f st ob EN CK many SideA (FT SideA) FL DR NA n c e El)|]. intros m Lm [P1 P2]. destruct (live_fate m ltac:(lia)) as [(s1 & A' & B')|D]; [|apply now; auto].
      destruct (open_chan _ _ A' B') as (_ & ch & C1 & C2 & _). apply (later many m (S m)); [lia|]. apply now. right. unfold placing in P1.
      destruct (view _ _ _ _ _ _ EN SideA m) as [_ _ E _ _|l os E EO HS EA _ _|e' os E _ HS _]; [destruct (E _ P1)| |congruence]. rewrite E in P1. injection P1 as ->.
      destruct (lp_placed _ _ _ _ HS) as (_ & d & e2 & X1 & X2). assert (d = c /\ e2 = e) by (split; congruence). destruct H0 as [-> ->]. rewrite EA, (X2 _ C1 C2). unfold queued. rewrite flat_map_app. cbn. rewrite Nat.eqb_refl. cbn.
      intros Z. destruct (app_cons_not_nil _ _ _ (eq_sym Z)).
    Qed.
    Lemma replied_live n : (n0 <= n)%nat -> queued c (at' SideA n) <> [] -> within many n replied.
    Proof.
      intros L HQ.
      assert (R : forall r m s0, (n <= m)%nat -> (rank s0 <= r)%nat -> tst (eps SideA m) i = Some s0 -> tchan s0 = Some c -> within many m replied).
      { induction r as [|r IH]; intros m s0 Lm Lr HT HC.
        - exfalso. destruct s0 as [?|? ? ?|? ? [?|?|?|?]|? ? ?|? ? ? ?|?|?|?| |]; try discriminate HC; cbn in Lr; lia.
        - apply (task_lead_t cf ps ctr f st ob EN many SideA (FT SideA) i s0 (fun _ => True) _ m); auto.
          + intros k Lk _ B SK. exfalso. destruct (open_chan _ _ B HC) as (_ & ch & C1 & C2 & C3). destruct (own_run _ _ _ _ _ _ EN CK SideA k) as (la & RA & _).
            pose proof (inv_ask _ _ _ _ _ _ _ _ RA _ _ B) as AK. specialize (SK (mk_instant 0 0) 0). cbn [step] in SK. unfold task_step in SK. unfold tst in B. destruct (nth_error (e_tasks (eps SideA k)) i) as [tk|] eqn:Et; [|discriminate]. cbn in B. injection B as B. rewrite B in SK.
            destruct s0 as [?|? ? ?|? ? [?|?|?|?]|d rid k0|d rid e1 k0|?|?|?| |]; try discriminate HC; try discriminate SK.
            * cbn in HC. injection HC as ->. rewrite C1 in SK. cbn in AK. destruct AK as [_ AK]. rewrite AK in C3. cbn in C3. destruct (ch_buf ch); [|discriminate SK].
              destruct (grows ob SideA n k ltac:(lia)) as (os & Eo). rewrite Eo in C3. unfold queued in C3. rewrite flat_map_app in C3. apply app_eq_nil in C3. destruct C3 as [C3 _]. exact (HQ C3).
            * cbn zeta in SK. destruct (reply_result (cf_env (cf SideA)) e1); discriminate SK.
          + intros k a Lk _ B E. apply (later many k (S k)); [lia|]. destruct (live_fate (S k) ltac:(lia)) as [(s1 & F1 & F2)|D]; [|apply now; exact D].
            apply (IH (S k) s1); auto; [lia|]. pose proof (act_rank cf ps ctr f st ob EN many SideA NA k i a s0 s1 c E B HC F1 F2). lia. }
      destruct (live_fate n L) as [(s0 & A & B)|D]; [|apply now; exact D]. eapply (R (rank s0)); eauto.
    Qed.
    Definition answered_well (n : nat) : Prop :=
      (exists r, In (OReply i x r) (at' SideA n) /\ (r = None \/ r = Some (Err Timeout) \/ exists r' j, r = Some r' /\ called j n /\ answered (cf SideB) (at' SideB n) j r'))
      \/ (exists j, called j n /\ In (OPanicked j) (at' SideB n) /\ sent j (at' SideB n) = []).
    Lemma request_live : within many n0 answered_well.
    Proof.
      assert (R : forall m, (n0 <= m)%nat -> replied m -> within many m answered_well).
      { intros m _ (r & Hr). apply few_or. intros FE. apply now. left. exists r. split; [exact Hr|]. destruct r as [r|]; [|auto]. right.
        destruct (prefix _ _ _ _ _ _ EN CK m) as (ls & HR & GC). destruct (reply_first _ _ _ RO PB DF _ _ _ HR GC FE _ _ _ Hr (NH m)) as [->|(j' & sc' & q & A & B & _ & C)]; [auto|]. right.
        exists r, j'. split; [reflexivity|]. split; [exists sc', q; auto|exact C]. }
      eapply within_bind; [exact called_live|]. intros n Ln (j & A). pose proof A as (sc & q & A1 & A2).
      eapply within_bind; [exact (handler_live cf ps ctr f st ob many EN CK (FT SideB) RO PB AS _ _ _ _ _ _ A1)|]. intros m Lm Sp.
      pose proof (called_still j n m Lm A) as A'.
      destruct (sent j (at' SideB m)) as [|z zs] eqn:Es.
      { apply now. right. exists j. split; [exact A'|]. split; [|exact Es]. destruct Sp as [Sp|Sp]; [congruence|exact Sp]. }
      eapply within_bind; [apply (received_live j m); [lia|exact A'|congruence]|]. intros k Lk Q. cbn beta in Q.
      eapply within_bind; [exact (queued_live k ltac:(lia) Q)|]. intros k' Lk' [Q'|Q']; [apply R; [lia|exact Q']|].
      eapply within_bind; [exact (replied_live k' ltac:(lia) Q')|]. intros k2 L2 Q2. apply R; [lia|exact Q2].
    Qed.
  End One.
End Requests.
