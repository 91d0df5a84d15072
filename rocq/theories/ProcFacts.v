(** Proofs about processes with several endpoints. *)
From Verif Require Import Base BaseFacts BuilderFacts Codec Spec Ids IdsFacts Payload Builder Emit EmitFacts Ipc SpecIpc IpcFacts IpcChanFacts IpcUsers IpcLoops IpcIds SpecMore IpcLost Proc SpecProc.
From Coq Require Import ZifyBool ZifyNat ZifyN.

Lemma rrun_app ls1 : forall p ls2, rrun p (ls1 ++ ls2) =
  match rrun p ls1 with
  | Some (p1, o1) => match rrun p1 ls2 with Some (p2, o2) => Some (p2, o1 ++ o2) | None => None end
  | None => None
  end.
Proof.
  induction ls1 as [|l ls1 IH]; intros p ls2; cbn [app rrun].
  - destruct (rrun p ls2) as [[? ?]|]; reflexivity.
  - destruct (rstep p l) as [[p1 o1]|]; [|reflexivity]. rewrite IH. destruct (rrun p1 ls1) as [[p2 o2]|]; [|reflexivity].
    destruct (rrun p2 ls2) as [[p3 o3]|]; [|reflexivity]. rewrite app_assoc. reflexivity.
Qed.
Lemma rrun_ind p0 (P : list rlabel -> proc -> list (nat * obs) -> Prop) : P [] p0 [] ->
  (forall ls p tr l p' os, P ls p tr -> rrun p0 ls = Some (p, tr) -> rstep p l = Some (p', os) -> P (ls ++ [l]) p' (tr ++ os)) ->
  forall ls p tr, rrun p0 ls = Some (p, tr) -> P ls p tr.
Proof.
  intros H0 HS ls. induction ls as [|l ls IH] using rev_ind; intros p tr H.
  - inversion H; subst. exact H0.
  - rewrite rrun_app in H. destruct (rrun p0 ls) as [[p1 o1]|] eqn:E; [|discriminate]. cbn [rrun] in H.
    destruct (rstep p1 l) as [[p2 o2]|] eqn:E2; [|discriminate]. inversion H; subst. rewrite app_nil_r. eapply HS; eauto.
Qed.
Lemma at_ep_app j a b : at_ep j (a ++ b) = at_ep j a ++ at_ep j b. Proof. apply flat_map_app. Qed.
Lemma labels_at_app j a b : labels_at j (a ++ b) = labels_at j a ++ labels_at j b. Proof. apply flat_map_app. Qed.
Lemma opened_app a b : opened (a ++ b) = opened a ++ opened b. Proof. apply flat_map_app. Qed.
Lemma at_ep_map_eq j os : at_ep j (map (fun o => (j, o)) os) = os.
Proof. induction os as [|o os IH]; [reflexivity|]. cbn [map at_ep flat_map fst snd]. rewrite Nat.eqb_refl. cbn [app]. f_equal. exact IH. Qed.
Lemma at_ep_map_ne j k os : j <> k -> at_ep j (map (fun o => (k, o)) os) = [].
Proof. intros N. induction os as [|o os IH]; [reflexivity|]. cbn [map at_ep flat_map fst snd]. destruct (Nat.eqb_spec k j); [congruence|]. exact IH. Qed.
Lemma in_at_ep j o tr : In o (at_ep j tr) <-> In (j, o) tr.
Proof.
  unfold at_ep. rewrite in_flat_map. split.
  - intros ((k & o') & A & B). cbn in B. destruct (Nat.eqb_spec k j) as [->|]; [|contradiction]. destruct B as [->|[]]. exact A.
  - intros A. exists (j, o). split; [exact A|]. cbn. rewrite Nat.eqb_refl. left. reflexivity.
Qed.

(** ** The counter *)
Lemma with_ctr_id s : with_ctr (e_ctr s) s = s. Proof. destruct s; reflexivity. Qed.
Lemma others_run cf s k : run cf s (repeat LOther k) = Some (with_ctr (e_ctr s + N.of_nat k) s, []).
Proof.
  revert s. induction k as [|k IH]; intros s; cbn [repeat run step].
  - rewrite N.add_0_r, with_ctr_id. reflexivity.
  - rewrite IH. cbn. f_equal. f_equal. unfold with_ctr, next_id. cbn. f_equal. lia.
Qed.
Lemma others_run_to cf s c : e_ctr s <= c -> run cf s (repeat LOther (N.to_nat (c - e_ctr s))) = Some (with_ctr c s, []).
Proof. intros L. rewrite others_run. do 2 f_equal. f_equal. lia. Qed.
Lemma filter_others k : filter own_step (repeat LOther k) = [].
Proof. induction k; [reflexivity|assumption]. Qed.

Lemma rdo_inv p j l p' os : rstep p (RDo j l) = Some (p', os) ->
  own_step l = true /\ exists cf s s' os', nth_error (pr_eps p) j = Some (cf, s) /\ step cf (with_ctr (pr_ctr p) s) l = Some (s', os')
    /\ p' = mk_proc (put j (cf, s') (pr_eps p)) (e_ctr s') /\ os = map (fun o => (j, o)) os'.
Proof.
  destruct l; cbn [rstep]; try discriminate; (split; [reflexivity|]);
  (destruct (nth_error (pr_eps p) j) as [[cf s]|]; [|discriminate]);
  match type of H with context[step ?a ?b ?c] => destruct (step a b c) as [[s' os']|] eqn:E; [|discriminate] end; inversion H; subst; exists cf, s, s', os'; auto.
Qed.
Lemma rdo_intro p j l cf s s' os : own_step l = true -> nth_error (pr_eps p) j = Some (cf, s) -> step cf (with_ctr (pr_ctr p) s) l = Some (s', os) ->
  rstep p (RDo j l) = Some (mk_proc (put j (cf, s') (pr_eps p)) (e_ctr s'), map (fun o => (j, o)) os).
Proof. intros O N S. destruct l; try discriminate O; cbn [rstep]; rewrite N, S; reflexivity. Qed.

(** ** An endpoint of a process is an endpoint *)
Definition proj (ls : list rlabel) (p : proc) (tr : list (nat * obs)) : Prop :=
  length (opened ls) = length (pr_eps p) /\
  (forall j, (length (pr_eps p) <= j)%nat -> labels_at j ls = [] /\ at_ep j tr = []) /\
  forall j cf s, nth_error (pr_eps p) j = Some (cf, s) -> e_ctr s <= pr_ctr p /\
    exists o ctr lsj, nth_error (opened ls) j = Some o /\ o_config o = cf /\ runs cf (o_conns o) (o_armed o) (o_tasks o) ctr lsj s (at_ep j tr)
      /\ filter own_step lsj = labels_at j ls.

Lemma proj_run ls p tr : rrun proc_new ls = Some (p, tr) -> proj ls p tr.
Proof.
  apply (rrun_ind proc_new proj).
  { split; [reflexivity|]. split; [split; reflexivity|]. intros j cf s H. destruct j; discriminate. }
  clear ls p tr. intros ls p tr l p' os (LEN & NONE & EP) _ H. destruct l as [o|k l|].
  - inversion H; subst p' os. clear H. rewrite app_nil_r. unfold proj. cbn [pr_eps pr_ctr]. rewrite opened_app, !app_length, LEN. cbn [opened flat_map app length].
    split; [reflexivity|]. split.
    + intros j L. rewrite labels_at_app. cbn. rewrite app_nil_r. apply NONE. lia.
    + intros j cf s Hj. rewrite labels_at_app. cbn [labels_at flat_map]. rewrite app_nil_r. destruct (Nat.lt_ge_cases j (length (pr_eps p))) as [L|L].
      * rewrite nth_error_app1 in Hj by lia. destruct (EP _ _ _ Hj) as (A & o' & c & lsj & B & C). split; [exact A|]. exists o', c, lsj. split; [|exact C].
        rewrite nth_error_app1 by lia. exact B.
      * rewrite nth_error_app2 in Hj by lia. destruct (j - length (pr_eps p))%nat as [|m] eqn:E; [|destruct m; discriminate].
        assert (j = length (pr_eps p)) by lia. subst j. cbn in Hj. inversion Hj; subst cf s. cbn [ep_new e_ctr]. split; [lia|].
        destruct (NONE (length (pr_eps p)) (le_n _)) as [NL NT]. rewrite NL, NT. exists o, (pr_ctr p), []. split; [rewrite nth_error_app2 by lia; rewrite LEN, Nat.sub_diag; reflexivity|].
        split; [reflexivity|]. split; reflexivity.
  - destruct (rdo_inv _ _ _ _ _ H) as (OWN & cf0 & s0 & s' & os' & H0 & St & -> & ->). clear H.
    assert (LK : (k < length (pr_eps p))%nat) by (apply nth_error_Some; congruence).
    destruct (EP _ _ _ H0) as (LE & _). assert (LE' := step_ctr _ _ _ _ _ St). cbn [with_ctr e_ctr] in LE'.
    unfold proj. cbn [pr_eps pr_ctr]. rewrite opened_app, put_length. cbn [opened flat_map]. rewrite app_nil_r. split; [exact LEN|]. split.
    + intros j L. rewrite labels_at_app, at_ep_app, at_ep_map_ne by lia. cbn. destruct (Nat.eqb_spec k j); [lia|]. rewrite !app_nil_r. apply NONE. exact L.
    + intros j cf s Hj. rewrite nth_put in Hj. rewrite labels_at_app, at_ep_app. cbn [labels_at flat_map]. rewrite app_nil_r. destruct (Nat.eqb_spec j k) as [->|N].
      * rewrite H0 in Hj. inversion Hj; subst cf s. split; [lia|]. rewrite Nat.eqb_refl, at_ep_map_eq. destruct (EP _ _ _ H0) as (_ & o & c & lsj & B & C & D & F).
        exists o, c, (lsj ++ repeat LOther (N.to_nat (pr_ctr p - e_ctr s0)) ++ [l]). split; [exact B|]. split; [exact C|]. split.
        -- unfold runs in *. rewrite run_app, D, run_app, (others_run_to cf0 s0 (pr_ctr p) LE). cbn [run]. rewrite St, app_nil_r. reflexivity.
        -- rewrite !filter_app, filter_others, F. cbn [filter]. rewrite OWN. reflexivity.
      * destruct (Nat.eqb_spec k j); [congruence|]. rewrite (at_ep_map_ne j k) by congruence. rewrite !app_nil_r. destruct (EP _ _ _ Hj) as (A & B). split; [lia|exact B].
  - inversion H; subst p' os. clear H. rewrite app_nil_r. unfold proj. cbn [pr_eps pr_ctr]. rewrite opened_app. cbn [opened flat_map]. rewrite app_nil_r. split; [exact LEN|]. split.
    + intros j L. rewrite labels_at_app. cbn. rewrite app_nil_r. apply NONE. lia.
    + intros j cf s Hj. rewrite labels_at_app. cbn [labels_at flat_map]. rewrite app_nil_r. destruct (EP _ _ _ Hj) as (A & B). split; [lia|exact B].
Qed.

(** ** What happens elsewhere does not matter *)
Lemma step_any_ctr cf s l c : option_map snd (step cf (with_ctr c s) l) = option_map snd (step cf s l).
Proof.
  destruct s as [li ch stm co tk ct]. unfold with_ctr, step, task_step, run_prog, receive, place, handle_event, answer_event. cbn [e_lis e_chans e_streams e_conns e_tasks e_ctr].
  change (has_sender (mk_ep li ch stm co tk c)) with (has_sender (mk_ep li ch stm co tk ct)).
  repeat (match goal with |- context[match ?x with _ => _ end] => destruct x eqn:? end; try reflexivity).
  all: try discriminate; cbn [option_map snd]; autorewrite with ep; reflexivity.
Qed.
Lemma same_ep_elsewhere ls2 : forall p p' os j cf s, rrun p ls2 = Some (p', os) -> labels_at j ls2 = [] -> nth_error (pr_eps p) j = Some (cf, s) ->
  nth_error (pr_eps p') j = Some (cf, s) /\ at_ep j os = [].
Proof.
  induction ls2 as [|l ls2 IH]; intros p p' os j cf s H NL Hj; cbn [rrun] in H; [inversion H; subst; auto|].
  destruct (rstep p l) as [[p1 o1]|] eqn:E; [|discriminate]. destruct (rrun p1 ls2) as [[p2 o2]|] eqn:E2; [|discriminate]. inversion H; subst p' os. clear H.
  rewrite at_ep_app. change (l :: ls2) with ([l] ++ ls2) in NL. rewrite labels_at_app in NL. apply app_eq_nil in NL. destruct NL as [NL NL2].
  assert (Q : nth_error (pr_eps p1) j = Some (cf, s) /\ at_ep j o1 = []).
  { destruct l as [o|k l|].
    - inversion E; subst. cbn. split; [|reflexivity]. rewrite nth_error_app1; [exact Hj|]. apply nth_error_Some. congruence.
    - destruct (rdo_inv _ _ _ _ _ E) as (_ & cf0 & s0 & s' & os' & H0 & St & -> & ->). cbn in NL. destruct (Nat.eqb_spec k j); [discriminate|].
      cbn [pr_eps]. rewrite put_ne by congruence. rewrite at_ep_map_ne by congruence. auto.
    - inversion E; subst. auto. }
  destruct Q as [Q1 ->]. exact (IH _ _ _ _ _ _ E2 NL2 Q1).
Qed.
Lemma not_affected ls p tr ls2 p' os2 j l q os : rrun proc_new ls = Some (p, tr) -> rrun p ls2 = Some (p', os2) -> labels_at j ls2 = [] ->
  rstep p (RDo j l) = Some (q, os) -> exists q', rstep p' (RDo j l) = Some (q', os).
Proof.
  intros _ H2 NL H. destruct (rdo_inv _ _ _ _ _ H) as (OWN & cf & s & s' & os' & H0 & St & -> & ->).
  destruct (same_ep_elsewhere _ _ _ _ _ _ _ H2 NL H0) as [H0' _].
  assert (A := step_any_ctr cf (with_ctr (pr_ctr p) s) l (pr_ctr p')). rewrite St in A. change (with_ctr (pr_ctr p') (with_ctr (pr_ctr p) s)) with (with_ctr (pr_ctr p') s) in A.
  destruct (step cf (with_ctr (pr_ctr p') s) l) as [[s2 o2]|] eqn:E; [|discriminate]. cbn in A. inversion A; subst o2.
  eexists. exact (rdo_intro _ _ _ _ _ _ _ OWN H0' E).
Qed.
Lemma not_affected_back ls p tr ls2 p' os2 j l q os : rrun proc_new ls = Some (p, tr) -> (j < length (opened ls))%nat -> rrun p ls2 = Some (p', os2) -> labels_at j ls2 = [] ->
  rstep p' (RDo j l) = Some (q, os) -> exists q', rstep p (RDo j l) = Some (q', os).
Proof.
  intros H1 L H2 NL H. destruct (proj_run _ _ _ H1) as (LEN & _). destruct (nth_error (pr_eps p) j) as [[cf s]|] eqn:H0; [|apply nth_error_None in H0; lia].
  destruct (same_ep_elsewhere _ _ _ _ _ _ _ H2 NL H0) as [H0' _].
  destruct (rdo_inv _ _ _ _ _ H) as (OWN & cf1 & s1 & s' & os' & H3 & St & -> & ->). rewrite H0' in H3. inversion H3; subst cf1 s1.
  assert (A := step_any_ctr cf (with_ctr (pr_ctr p') s) l (pr_ctr p)). rewrite St in A. change (with_ctr (pr_ctr p) (with_ctr (pr_ctr p') s)) with (with_ctr (pr_ctr p) s) in A.
  destruct (step cf (with_ctr (pr_ctr p) s) l) as [[s2 o2]|] eqn:E; [|discriminate]. cbn in A. inversion A; subst o2.
  eexists. exact (rdo_intro _ _ _ _ _ _ _ OWN H0 E).
Qed.

(** ** Ids *)
(** ids of events an endpoint has made *)
Definition holds (s : ep) (x : N) : Prop := exists i st, tst s i = Some st /\ fid st = Some x.
Lemma step_ids cf s l s' os x : step cf s l = Some (s', os) -> In x (ended os) \/ holds s' x ->
  holds s x \/ exists i t v, l = LTask i (AStep t v) /\ x = nth_id t (e_ctr s) /\ e_ctr s' = e_ctr s + 1.
Proof.
  intros H [Hx|(i & st & Hi & Hx)].
  - destruct (step_ended _ _ _ _ _ H) as [E|(j & a & ->)]; [rewrite E in Hx; contradiction|].
    cbn [step] in H. destruct (task_step_self _ _ _ _ _ _ H) as (tkj & stj & Hj & _). assert (Hj' : tst s j = Some (tk_st tkj)) by (unfold tst; rewrite Hj; reflexivity).
    destruct (task_step_fid _ _ _ _ _ _ _ H Hj') as (st' & _ & [(E & _)|[(E & _)|(ctx & e & pu & Est & E & _ & NL)]]); rewrite E in Hx; try contradiction.
    destruct Hx as [<-|[]]. left. exists j, (tk_st tkj). split; [exact Hj'|]. rewrite Est. reflexivity.
  - destruct (tst_after _ _ _ _ _ _ _ H Hi) as [[Hi' Hl]|[(a & st0 & -> & H0 & Ht)|(p & -> & _)]]; [| |discriminate].
    + left. exists i, st. auto.
    + destruct (task_step_fid _ _ _ _ _ _ _ Ht H0) as (st' & Hst' & [(E & E')|[(E & E' & t & v & -> & Q & C & NL)|(ctx & e & pu & Est & E & E' & NL)]]); assert (st' = st) by congruence; subst st'.
      * left. exists i, st0. split; [exact H0|congruence].
      * right. exists i, t, v. repeat split; auto. congruence.
      * congruence.
Qed.
Definition uses (p : proc) (tr : list (nat * obs)) (j : nat) (x : N) : Prop :=
  In x (ended (at_ep j tr)) \/ exists cf s, nth_error (pr_eps p) j = Some (cf, s) /\ holds s x.
Definition apart (p : proc) (tr : list (nat * obs)) : Prop :=
  (forall j x, uses p tr j x -> made (pr_ctr p) x) /\ forall j k x, uses p tr j x -> uses p tr k x -> j = k.
Lemma holds_ctr c s x : holds (with_ctr c s) x <-> holds s x.
Proof. unfold holds, tst, with_ctr. cbn. reflexivity. Qed.
Lemma apart_run ls p tr : rrun proc_new ls = Some (p, tr) -> proc_clock ls -> proc_few p -> apart p tr.
Proof.
  apply (rrun_ind proc_new (fun ls p tr => proc_clock ls -> proc_few p -> apart p tr)).
  { intros _ _. split.
    - intros j x [[]|(cf & s & H & _)]. destruct j; discriminate.
    - intros j k x [[]|(cf & s & H & _)]. destruct j; discriminate. }
  clear ls p tr. intros ls p tr l p' os IH _ H PC PF. destruct l as [o|k l|].
  - inversion H; subst p' os. clear H. destruct IH as [M A]; [intros j i t v Q; eapply PC; apply in_or_app; left; exact Q|exact PF|]. rewrite app_nil_r.
    assert (U : forall j x, uses (mk_proc (pr_eps p ++ [(o_config o, ep_new (o_conns o) (o_armed o) (o_tasks o) (pr_ctr p))]) (pr_ctr p)) tr j x -> uses p tr j x).
    { intros j x [Q|(cf & s & Q & i & st & T & F)]; [left; exact Q|]. cbn [pr_eps] in Q. right. rewrite nth_snoc in Q. destruct (Nat.eqb_spec j (length (pr_eps p))) as [->|N].
      - exfalso. inversion Q; subst. revert T. unfold tst, ep_new. cbn [e_tasks]. rewrite nth_error_map. destruct (nth_error (o_tasks o) i); [|discriminate]. cbn. intros T. inversion T; subst. discriminate.
      - exists cf, s. split; [exact Q|]. exists i, st. auto. }
    split; [intros j x Q; apply (M j x); auto|]. intros j k x Q R. apply (A j k x); auto.
  - destruct (rdo_inv _ _ _ _ _ H) as (OWN & cf0 & s0 & s' & os' & H0 & St & -> & ->). clear H. assert (LE' := step_ctr _ _ _ _ _ St). cbn [with_ctr e_ctr] in LE'.
    destruct IH as [M A]; [intros j i t v Q; eapply PC; apply in_or_app; left; exact Q|unfold proc_few in *; cbn [pr_ctr] in PF; lia|].
    assert (U : forall j x, uses (mk_proc (put k (cf0, s') (pr_eps p)) (e_ctr s')) (tr ++ map (fun o => (k, o)) os') j x ->
       uses p tr j x \/ (j = k /\ exists i t v, l = LTask i (AStep t v) /\ x = nth_id t (pr_ctr p) /\ e_ctr s' = pr_ctr p + 1)).
    { intros j x Q. destruct (Nat.eq_dec j k) as [->|N].
      - assert (Q' : In x (ended (at_ep k tr)) \/ (In x (ended os') \/ holds s' x)).
        { destruct Q as [Q|(cf & s & Q & R)].
          - rewrite at_ep_app, at_ep_map_eq, ended_app in Q. apply in_app_or in Q. tauto.
          - cbn [pr_eps] in Q. rewrite nth_put, Nat.eqb_refl, H0 in Q. inversion Q; subst. auto. }
        destruct Q' as [Q'|Q']; [left; left; exact Q'|]. destruct (step_ids _ _ _ _ _ _ St Q') as [R|(i & t & v & R)].
        + left. right. exists cf0, s0. split; [exact H0|]. apply (holds_ctr (pr_ctr p)). exact R.
        + right. split; [reflexivity|]. exists i, t, v. exact R.
      - left. destruct Q as [Q|(cf & s & Q & R)].
        + left. rewrite at_ep_app, at_ep_map_ne, app_nil_r in Q by congruence. exact Q.
        + right. cbn [pr_eps] in Q. rewrite put_ne in Q by congruence. exists cf, s. auto. }
    assert (FR : forall i t v y, l = LTask i (AStep t v) -> e_ctr s' = pr_ctr p + 1 -> made (pr_ctr p) y -> y <> nth_id t (pr_ctr p)).
    { intros i t v y -> E My. apply made_fresh; [|unfold proc_few in PF; cbn [pr_ctr] in PF; lia|exact My]. eapply PC. apply in_or_app. right. left. reflexivity. }
    split.
    + intros j x Q. cbn [pr_ctr]. destruct (U _ _ Q) as [R|(-> & i & t & v & -> & -> & E)].
      * eapply made_mono; [exact LE'|]. eapply M; eauto.
      * exists t, (pr_ctr p). repeat split; try (eapply PC; apply in_or_app; right; left; reflexivity). lia.
    + intros j j' x Q Q'. destruct (U _ _ Q) as [R|(-> & i & t & v & E1 & E2 & E3)]; destruct (U _ _ Q') as [R'|(-> & i' & t' & v' & E1' & E2' & E3')].
      * exact (A _ _ _ R R').
      * exfalso. exact (FR _ _ _ x E1' E3' (M _ _ R) E2').
      * exfalso. exact (FR _ _ _ x E1 E3 (M _ _ R') E2).
      * reflexivity.
  - inversion H; subst p' os. clear H. rewrite app_nil_r. destruct IH as [M A]; [intros j i t v Q; eapply PC; apply in_or_app; left; exact Q|unfold proc_few in *; cbn [pr_ctr] in PF; lia|].
    split; [|exact A]. intros j x Q. cbn [pr_ctr]. eapply made_mono; [|eapply M; eauto]. lia.
Qed.
Lemma clock_at ls lsj j : proc_clock ls -> filter own_step lsj = labels_at j ls -> good_clock lsj.
Proof.
  intros PC F i t v Q. assert (Q' : In (LTask i (AStep t v)) (filter own_step lsj)) by (apply filter_In; auto).
  rewrite F in Q'. unfold labels_at in Q'. apply in_flat_map in Q'. destruct Q' as (r & A & B). destruct r as [|k l|]; try contradiction.
  destruct (Nat.eqb_spec k j); [|contradiction]. destruct B as [->|[]]. eapply PC; eauto.
Qed.
(** what was observed at an endpoint belongs to a run of it *)
Lemma observed_run ls p tr j o : rrun proc_new ls = Some (p, tr) -> proc_clock ls -> proc_few p -> In (j, o) tr ->
  exists cf s nc armed ps ctr lsj, nth_error (pr_eps p) j = Some (cf, s) /\ runs cf nc armed ps ctr lsj s (at_ep j tr) /\ good_clock lsj /\ few_events s.
Proof.
  intros H PC PF Q. destruct (proj_run _ _ _ H) as (LEN & NONE & EP). destruct (nth_error (pr_eps p) j) as [[cf s]|] eqn:E.
  - destruct (EP _ _ _ E) as (LE & o' & c & lsj & A & B & C & D). exists cf, s, (o_conns o'), (o_armed o'), (o_tasks o'), c, lsj. split; [reflexivity|]. split; [exact C|].
    split; [exact (clock_at _ _ _ PC D)|]. unfold few_events, proc_few in *. lia.
  - exfalso. apply nth_error_None in E. destruct (NONE _ E) as [_ N]. apply in_at_ep in Q. rewrite N in Q. exact Q.
Qed.
Lemma in_ended o x tr : In o tr -> started o = Some x -> In x (ended tr).
Proof. intros H S. unfold ended. apply in_flat_map. exists o. split; [exact H|]. destruct o; try discriminate S; injection S as <-; left; reflexivity. Qed.
Lemma sent_apart ls p tr j k o o' x : rrun proc_new ls = Some (p, tr) -> proc_clock ls -> proc_few p -> In (j, o) tr -> In (k, o') tr -> started o = Some x -> started o' = Some x -> j = k.
Proof.
  intros H PC PF A B S S'. destruct (apart_run _ _ _ H PC PF) as [_ D]. apply (D j k x); left.
  - eapply in_ended; [apply in_at_ep; exact A|exact S].
  - eapply in_ended; [apply in_at_ep; exact B|exact S'].
Qed.
Lemma listens_use ls p tr j i x c : rrun proc_new ls = Some (p, tr) -> proc_clock ls -> proc_few p -> In (j, OListen i x c) tr -> uses p tr j x.
Proof.
  intros H PC PF Q. destruct (observed_run _ _ _ _ _ H PC PF Q) as (cf & s & nc & armed & ps & ctr & lsj & E & R & GC & FE).
  assert (J := inv_idents _ _ _ _ _ _ _ _ R GC FE). apply in_at_ep in Q. destruct (j_listen _ _ J _ _ _ Q) as [A|(ctx & e & pu & A & B & D)].
  - left. exact A.
  - right. exists cf, s. split; [exact E|]. exists i, (TSend ctx e pu). split; [exact A|]. cbn. congruence.
Qed.

Lemma nodup_all tr : (forall j, NoDup (ended (at_ep j tr))) -> (forall j k x, In x (ended (at_ep j tr)) -> In x (ended (at_ep k tr)) -> j = k) -> NoDup (ended (map snd tr)).
Proof.
  induction tr as [|[j o] tr IH]; intros ND DJ; [constructor|]. cbn [map snd].
  assert (AE : forall k, ended (at_ep k ((j, o) :: tr)) = if Nat.eqb j k then ended_by o ++ ended (at_ep k tr) else ended (at_ep k tr)).
  { intros k. unfold at_ep. cbn [flat_map fst snd]. destruct (Nat.eqb j k); reflexivity. }
  assert (SUB : forall k x, In x (ended (at_ep k tr)) -> In x (ended (at_ep k ((j, o) :: tr)))).
  { intros k x Q. rewrite AE. destruct (Nat.eqb j k); [apply in_or_app; right|]; exact Q. }
  assert (IH' : NoDup (ended (map snd tr))).
  { apply IH; [|intros k k' x A B; apply (DJ k k' x); apply SUB; assumption].
    intros k. specialize (ND k). rewrite AE in ND. destruct (Nat.eqb j k); [|exact ND]. clear - ND. induction (ended_by o) as [|? ? IHl]; [exact ND|inversion ND; auto]. }
  change (ended (o :: map snd tr)) with (ended_by o ++ ended (map snd tr)).
  assert (LEN : ended_by o = [] \/ exists x, ended_by o = [x]) by (destruct o; cbn; eauto).
  destruct LEN as [E|[x E]]; rewrite E; [exact IH'|]. cbn [app]. constructor; [|exact IH'].
  intros Q. unfold ended in Q. apply in_flat_map in Q. destruct Q as (o' & A & B). apply in_map_iff in A. destruct A as ([k o''] & C & A). cbn in C. subst o''.
  assert (K : In x (ended (at_ep k tr))) by (apply in_flat_map; exists o'; split; [apply in_at_ep; exact A|exact B]).
  assert (J0 : In x (ended (at_ep j ((j, o) :: tr)))) by (rewrite AE, Nat.eqb_refl, E; left; reflexivity).
  assert (j = k) by (apply (DJ j k x J0); apply SUB; exact K). subst k.
  specialize (ND j). rewrite AE, Nat.eqb_refl, E in ND. cbn in ND. inversion ND. contradiction.
Qed.
Lemma proc_nodup ls p tr : rrun proc_new ls = Some (p, tr) -> proc_clock ls -> proc_few p -> NoDup (ended (map snd tr)).
Proof.
  intros H PC PF. apply nodup_all.
  - intros j. destruct (at_ep j tr) as [|o r] eqn:E; [constructor|]. rewrite <- E. assert (Q : In (j, o) tr) by (apply in_at_ep; rewrite E; left; reflexivity).
    destruct (observed_run _ _ _ _ _ H PC PF Q) as (cf & s & nc & armed & ps & ctr & lsj & A & R & GC & FE). exact (j_nodup _ _ (inv_idents _ _ _ _ _ _ _ _ R GC FE)).
  - intros j k x A B. destruct (apart_run _ _ _ H PC PF) as [_ D]. apply (D j k x); left; assumption.
Qed.
Lemma registered_listen tr x c : registered tr x = Some c -> exists i, In (OListen i x c) tr.
Proof.
  induction tr as [|o tr IH] using rev_ind; intros H; [discriminate|]. rewrite registered_app in H. cbn [fold_left] in H.
  assert (K : registered tr x = Some c -> exists i, In (OListen i x c) (tr ++ [o])) by (intros R; destruct (IH R) as [i Q]; exists i; apply in_or_app; left; exact Q).
  destruct o; cbn [note_listener] in H; auto.
  - destruct (N.eqb_spec id x) as [->|]; [|auto]. injection H as ->. exists i. apply in_or_app. right. left. reflexivity.
  - destruct (N.eqb_spec id x); [discriminate|auto].
Qed.
