(** Proofs about two joined endpoints: quiet pairs come to rest. *)
From Verif Require Import Base BaseFacts BuilderFacts Codec Spec Ids IdsFacts Payload Builder Emit EmitFacts Ipc SpecIpc IpcFacts IpcChanFacts IpcUsers IpcLoops IpcTasks Pair SpecPair PairFacts PairServer PairQuiet.
From Coq Require Import ZifyBool ZifyNat ZifyN.

Lemma returns_silent : forall p, returns p -> silent p.
Proof. induction 1; constructor; auto. Qed.

(** one task's program goes on *)
Definition lt_task (tk' tk : task) : Prop := exists k v, tk_st tk = TRun (PEnv k) /\ tk' = mk_task (tk_job tk) (TRun (k v)).
Definition ending (tk : task) : Prop := forall q, tk_st tk = TRun q -> returns q.
Lemma acc_run q : returns q -> forall job, Acc lt_task (mk_task job (TRun q)).
Proof.
  induction 1; intros job; constructor; intros tk' (k' & v & E & ->); cbn in E; try discriminate. injection E as ->. cbn [tk_job]. auto.
Qed.
Lemma acc_task tk : ending tk -> Acc lt_task tk.
Proof.
  intros H. destruct tk as [job st]. destruct st; try (constructor; intros tk' (k' & v & E & _); discriminate E). apply acc_run. apply H. reflexivity.
Qed.
Inductive lt_tasks : list task -> list task -> Prop :=
| lt_here tk' tk l : lt_task tk' tk -> lt_tasks (tk' :: l) (tk :: l)
| lt_there tk l' l : lt_tasks l' l -> lt_tasks (tk :: l') (tk :: l).
Lemma acc_cons tk : Acc lt_task tk -> forall l, Acc lt_tasks l -> Acc lt_tasks (tk :: l).
Proof.
  induction 1 as [tk _ IH1]. intros l Hl. induction Hl as [l Hl IH2]. constructor. intros m Hm. inversion Hm; subst.
  - apply IH1; [assumption|]. constructor. exact Hl.
  - apply IH2. assumption.
Qed.
Lemma acc_tasks l : Forall ending l -> Acc lt_tasks l.
Proof. induction 1; [constructor; intros m Hm; inversion Hm|]. apply acc_cons; [apply acc_task|]; assumption. Qed.
Lemma lt_put k v l : forall i tk, nth_error l i = Some tk -> tk_st tk = TRun (PEnv k) -> lt_tasks (put i (mk_task (tk_job tk) (TRun (k v))) l) l.
Proof.
  induction l as [|x l IH]; intros [|i] tk H E; cbn in H; try discriminate; cbn [put].
  - injection H as ->. constructor. exists k, v. auto.
  - constructor. eauto.
Qed.
Lemma lt_app_l l' l m : lt_tasks l' l -> lt_tasks (l' ++ m) (l ++ m).
Proof. induction 1; cbn; constructor; auto. Qed.
Lemma lt_app_r m l' l : lt_tasks l' l -> lt_tasks (m ++ l') (m ++ l).
Proof. intros H. induction m; cbn; [exact H|constructor; assumption]. Qed.

(** work left *)
Definition we (E : env) (e : event) : nat := if etype_eqb (ev_type e) End then 1 else if good_err E e then 5 else 9.
Definition wt (E E' : env) (tk : task) : nat :=
  match tk_st tk with
  | TRun _ => match tk_job tk with Some (_, e) => if good_err E e then 4 else 8 | None => 0 end
  | TSend _ a _ => 2 + we E' a
  | TForget _ => 1
  | _ => 0
  end.
Lemma we_ew E e : (we E e = 4 * ew E e + 1)%nat.
Proof. unfold we, ew. destruct (etype_eqb (ev_type e) End), (good_err E e); reflexivity. Qed.

Section Work.
  Context (cf : config) (E' : env) (armed : bool).
  Hypothesis Q : quiet cf.
  Hypothesis DF : debug_fits cf E'.
  Local Notation E := (cf_env cf).
  Definition work (s : ep) : nat := total (wt E E') (e_tasks s).
  Lemma work_set s i tk st s1 : nth_error (e_tasks s) i = Some tk -> e_tasks s1 = e_tasks s -> (work (set_task i st s1) + wt E E' tk = work s + wt E E' (mk_task (tk_job tk) st))%nat.
  Proof. intros H Hs. unfold work, set_task. rewrite Hs, H. cbn [e_tasks]. apply total_put. exact H. Qed.
  Lemma work_step s tr l s' os : server armed s tr -> quiet_tasks cf E' s -> step cf s l = Some (s', os) -> (exists i t v, l = LTask i (AStep t v)) \/ (exists e, l = LRecv 0 e) ->
    (work s' + total (we E') (wired os) < work s + match l with LRecv _ e => we E e | _ => 0 end)%nat
    \/ (wired os = [] /\ (exists i t v, l = LTask i (AStep t v)) /\ work s' = work s /\ lt_tasks (e_tasks s') (e_tasks s)).
  Proof.
    intros V QT H HL. pose proof V as [A B C D T]. destruct HL as [(i & t & v & ->)|(e & ->)].
    - cbn [step] in H. unfold task_step in H. destruct (nth_error (e_tasks s) i) as [tk|] eqn:Hi; [|discriminate].
      pose proof (QT _ _ Hi) as Hq. pose proof (T _ _ Hi) as (e & Hj & _). unfold quiet_task in Hq. rewrite Hj in *.
      assert (W : forall st, wt E E' (mk_task (tk_job tk) st) = wt E E' (mk_task (Some (ctx0 e, e)) st)) by (intros st; rewrite Hj; reflexivity).
      destruct (tk_st tk) as [p|? ? ?|ctx a0 [k|c k|c k|ok]|? ? ?|? ? ? ?|? ?|? ? ?|x| |] eqn:Es; try contradiction; try discriminate H.
      + destruct Hq as [Hp Hg]. destruct Hp as [r| |k Hk]; unfold run_prog in H; cbn zeta in H.
        * left. destruct (answer_event cf (ctx0 e) (nth_id t (e_ctr s)) r) as [a|er|cr] eqn:Ha; try discriminate H. destruct (answer_weight _ _ DF _ _ _ _ Ha) as [W1 W2]. apply some_pair in H. destruct H as [<- <-].
          pose proof (work_set s i tk (TSend (ctx0 e) a (ForAnswer (match r with inl _ => true | inr _ => false end))) (next_id s) Hi (tasks_next_id s)) as X. rewrite W in X.
          unfold wt in X. rewrite Es, Hj in X. cbn [tk_st tk_job] in X. rewrite we_ew in X. change (total (we E') (wired [OReturned i r])) with 0%nat.
          destruct (good_err E e) eqn:Eg; [specialize (Hg eq_refl); injection Hg as ->; lia|destruct r; lia].
        * left. apply some_pair in H. destruct H as [<- <-]. pose proof (work_set s i tk TDead s Hi eq_refl) as X. rewrite W in X. unfold wt in X. rewrite Es, Hj in X. cbn [tk_st tk_job] in X. cbn [wired flat_map wire_of app total].
          destruct (good_err E e); lia.
        * right. apply some_pair in H. destruct H as [<- <-]. split; [reflexivity|]. split; [eauto|]. split.
          -- pose proof (work_set s i tk (TRun (k v)) s Hi eq_refl) as X. unfold wt in X. rewrite Es in X. cbn [tk_st tk_job] in X. lia.
          -- unfold set_task. rewrite Hi. cbn [e_tasks]. apply lt_put; assumption.
      + left. apply some_pair in H. destruct H as [<- <-].
        set (st1 := if ok then TForget (ev_id e) else TDone). replace (match ok with true => TForget (ev_id e) | false => TDone end) with st1 by (destruct ok; reflexivity).
        pose proof (work_set s i tk st1 s Hi eq_refl) as X. assert (Y : (wt E E' (mk_task (tk_job tk) st1) <= 1)%nat) by (subst st1; destruct ok; cbn; lia).
        unfold wt in X at 1. rewrite Es in X. cbn [wired flat_map wire_of app total]. destruct Hq as [_ Hq]. rewrite Hq. lia.
      + left. apply some_pair in H. destruct H as [<- <-]. pose proof (work_set s i tk TDone (unlisten x s) Hi (tasks_unlisten s x)) as X. rewrite W in X. unfold wt in X. rewrite Es in X. cbn [tk_st] in X. cbn [wired flat_map wire_of app total]. lia.
    - left. cbn [step] in H. rewrite D in H. cbn [nth_error cn_loop] in H.
      assert (HE : forall (h : event_handler callback) sc, etype_eqb (ev_type e) End = false -> (work (fst (handle_event s 0 h sc e)) < work s + we E e)%nat).
      { intros h sc He. unfold handle_event. cbn [fst]. unfold work. rewrite tasks_add_task, total_app. cbn [total wt tk_st tk_job]. unfold we. rewrite He. destruct (good_err E e); lia. }
      unfold receive in H. rewrite A in H. cbn [lookup] in H.
      replace (match ev_ref e with Some _ => None | None => None end) with (@None nat) in H by (destruct (ev_ref e); reflexivity).
      destruct (etype_eqb (ev_type e) End) eqn:Ee.
      + apply some_pair in H. destruct H as [<- <-]. cbn [wired flat_map wire_of app total]. unfold we. rewrite Ee. lia.
      + destruct (match ev_ns e with Some ns => lookup bytes_eqb ns (cf_namespaces cf) | None => None end) as [nsp|] eqn:En; unfold handle_event in *; apply some_pair in H; destruct H as [<- <-]; cbn [wired flat_map wire_of app total].
        * specialize (HE (ns_handler nsp) (ev_ns e) eq_refl). cbn [fst] in HE. lia.
        * specialize (HE (cf_handler cf) None eq_refl). cbn [fst] in HE. lia.
  Qed.
  Hypothesis AR : all_return cf.
  Lemma ending_step s tr l s' os : server armed s tr -> quiet_tasks cf E' s -> Forall ending (e_tasks s) -> step cf s l = Some (s', os) -> (forall n, l <> LClosed n) -> Forall ending (e_tasks s').
  Proof.
    intros V QT HF H NC. pose proof V as [A B C D T].
    assert (SET : forall i tk st s1, nth_error (e_tasks s) i = Some tk -> e_tasks s1 = e_tasks s -> (forall q, st = TRun q -> returns q) -> Forall ending (e_tasks (set_task i st s1))).
    { intros i tk st s1 Hi Hs Hst. apply Forall_forall. intros x Hx. apply In_nth_error in Hx. destruct Hx as (j & Hx). rewrite nth_set_task, Hs, Hi in Hx. cbn [option_map] in Hx.
      destruct (Nat.eqb_spec j i); [injection Hx as <-; exact Hst|]. rewrite Forall_forall in HF. apply HF. eapply nth_error_In; eauto. }
    destruct l as [i a|n e|n|n|n|h|].
    - cbn [step] in H. unfold task_step in H. destruct (nth_error (e_tasks s) i) as [tk|] eqn:Hi; [|discriminate].
      pose proof (QT _ _ Hi) as Hq. pose proof (T _ _ Hi) as (e & Hj & _). unfold quiet_task in Hq. rewrite Hj in *.
      assert (EN : ending tk) by (rewrite Forall_forall in HF; apply HF; eapply nth_error_In; eauto). unfold ending in EN.
      destruct (tk_st tk) as [p|? ? ?|ctx a0 [k|c k|c k|ok]|? ? ?|? ? ? ?|? ?|? ? ?|x| |] eqn:Es; try contradiction; try discriminate H.
      + specialize (EN _ eq_refl). destruct a as [t v| | |]; try discriminate H. destruct Hq as [_ _]. destruct EN as [r| |k Hk]; unfold run_prog in H; cbn zeta in H.
        * destruct (answer_event cf (ctx0 e) (nth_id t (e_ctr s)) r); try discriminate H. apply some_pair in H. destruct H as [<- _]. eapply SET; eauto. intros q X; discriminate X.
        * apply some_pair in H. destruct H as [<- _]. eapply SET; eauto. intros q X; discriminate X.
        * apply some_pair in H. destruct H as [<- _]. eapply SET; eauto. intros q X. injection X as <-. apply Hk.
      + destruct a; try discriminate H; apply some_pair in H; destruct H as [<- _]; (eapply SET; eauto; intros q X; destruct ok; discriminate X).
      + destruct a; try discriminate H; apply some_pair in H; destruct H as [<- _]. eapply SET; eauto. intros q X; discriminate X.
    - cbn [step] in H. rewrite D in H. destruct n as [|[|n]]; cbn [nth_error cn_loop] in H; try discriminate H.
      assert (HE : forall (h : event_handler callback) sc sc', h = callbacks cf sc' -> Forall ending (e_tasks (fst (handle_event s 0 h sc e)))).
      { intros h sc sc' Hh. unfold handle_event. cbn [fst]. rewrite tasks_add_task. apply Forall_app. split; [exact HF|]. constructor; [|constructor]. intros q X. cbn in X. injection X as <-.
        destruct (eh_get h (ev_name e)) eqn:Eg; [|constructor]. eapply AR. rewrite <- Hh. exact Eg. }
      unfold receive in H. rewrite A in H. cbn [lookup] in H.
      replace (match ev_ref e with Some _ => None | None => None end) with (@None nat) in H by (destruct (ev_ref e); reflexivity).
      destruct (etype_eqb (ev_type e) End) eqn:Ee.
      + apply some_pair in H. destruct H as [<- <-]. exact HF.
      + destruct (match ev_ns e with Some ns => lookup bytes_eqb ns (cf_namespaces cf) | None => None end) as [nsp|] eqn:En; unfold handle_event in *; apply some_pair in H; destruct H as [<- <-].
        * apply (HE (ns_handler nsp) (ev_ns e) (ev_ns e)). unfold callbacks. destruct (ev_ns e); [|discriminate]. rewrite En. reflexivity.
        * apply (HE (cf_handler cf) None None). reflexivity.
    - cbn [step] in H. rewrite D in H. destruct n as [|[|n]]; discriminate H.
    - destruct (NC n eq_refl).
    - cbn [step] in H. rewrite D in H. destruct n as [|[|n]]; discriminate H.
    - cbn [step] in H. rewrite C in H. destruct h; discriminate H.
    - cbn [step] in H. apply some_pair in H. destruct H as [<- <-]. exact HF.
  Qed.
End Work.

Section Stops.
  Context (cf : side -> config) (ctr : side -> N) (w : side -> list event).
  Hypothesis Q : forall sd, quiet (cf sd).
  Hypothesis AR : forall sd, all_return (cf sd).
  Hypothesis DF : forall sd, debug_fits (cf sd) (cf_env (cf (other sd))).
  Local Notation pruns' := (pruns cf (fun _ => []) ctr w).
  Lemma all_ending ls p tr : pruns' ls p tr -> forall sd, Forall ending (e_tasks (p_ep p sd)).
  Proof.
    apply (prun_ind cf _ (fun ls p tr => forall sd, Forall ending (e_tasks (p_ep p sd)))); [intros sd; constructor|].
    intros ls0 p0 tr0 l p' os IH HR H sd. pose proof (pstep_side cf sd _ _ _ _ H) as V. destruct V as [E _|l' E _ _ _ K]; [rewrite E; apply IH|].
    eapply ending_step; [apply AR|eapply side_server; eauto|apply (cascade _ _ _ Q DF _ _ _ HR)|apply IH|exact E|]. intros n ->. destruct K as [(_ & K & _)|(e & _ & K & _)]; discriminate.
  Qed.
  Definition left (p : pair) (sd : side) : nat := total (we (cf_env (cf sd))) (p_in p sd) + work (cf sd) (cf_env (cf (other sd))) (p_ep p sd).
  Definition all_left (p : pair) : nat := (left p SideA + left p SideB)%nat.
  Definition all_tasks (p : pair) : list task := e_tasks (p_ep p SideA) ++ e_tasks (p_ep p SideB).
  Lemma next_left ls p tr l p' os : pruns' ls p tr -> goes_on l = true -> pstep cf p l = Some (p', os) -> (all_left p' < all_left p)%nat \/ (all_left p' = all_left p /\ lt_tasks (all_tasks p') (all_tasks p)).
  Proof.
    intros HR G H. destruct (cascade _ _ _ Q DF _ _ _ HR) as [QT _].
    assert (X : exists sd, p_ep p' (other sd) = p_ep p (other sd) /\ ((left p' sd + left p' (other sd) < left p sd + left p (other sd))%nat \/ ((left p' sd + left p' (other sd) = left p sd + left p (other sd))%nat /\ lt_tasks (e_tasks (p_ep p' sd)) (e_tasks (p_ep p sd))))).
    { pose proof (pstep_view _ _ _ _ _ H) as V. destruct V as [sd l s' o A B C D F I J K|sd e v s' o A B D F I J K]; exists sd; subst os s'; (split; [exact F|]).
      - pose proof (side_server cf ctr w Q ls p tr sd HR) as V. assert (HL : (exists i t v, l = LTask i (AStep t v)) \/ (exists e, l = LRecv 0 e)).
        { destruct l as [i [t v| | |]| | | | | |]; try discriminate G; [eauto| |]; exfalso; cbn [step] in B; rewrite (v_conns _ _ _ V) in B; destruct n as [|[|n]]; discriminate B. }
        destruct (work_step _ _ _ (DF sd) _ _ _ _ _ V (QT sd) B HL) as [X|(X1 & (i & t & v & ->) & X2 & X3)]; unfold left; rewrite F, I, J, total_app; fold (wired o).
        + left. destruct l; try discriminate A; lia.
        + right. rewrite X1. cbn [total]. split; [lia|exact X3].
      - pose proof (side_server cf ctr w Q ls p tr sd HR) as V. destruct (work_step _ _ _ (DF sd) _ _ _ _ _ V (QT sd) B (or_intror (ex_intro _ e eq_refl))) as [X|(_ & (i & t & v' & X) & _)]; [|discriminate X].
        left. unfold left. rewrite F, I, J, A. cbn [total]. lia. }
    destruct X as (sd & X1 & X2). unfold all_left, all_tasks. destruct sd; cbn [other] in *.
    - destruct X2 as [X2|[X2 X3]]; [left; lia|right]. split; [lia|]. rewrite X1. apply lt_app_l. exact X3.
    - destruct X2 as [X2|[X2 X3]]; [left; lia|right]. split; [lia|]. rewrite X1. apply lt_app_r. exact X3.
  Qed.
  Lemma rests ls p tr : pruns' ls p tr -> Acc (follows cf) p.
  Proof.
    remember (all_left p) as n eqn:En. revert ls p tr En. induction n as [n IHn] using lt_wf_ind. intros ls p tr En HR.
    assert (AT : Acc lt_tasks (all_tasks p)) by (apply acc_tasks; apply Forall_app; split; eapply all_ending; eauto).
    remember (all_tasks p) as tl eqn:Et. revert ls p tr En HR Et. induction AT as [tl _ IHt]. intros ls p tr En HR ->. constructor. intros p' (l & os & G & H).
    pose proof (psnoc_run _ _ _ _ _ _ _ _ HR H) as HR'. destruct (next_left _ _ _ _ _ _ HR G H) as [X|[X Y]].
    - eapply (IHn (all_left p')); [lia|reflexivity|exact HR'].
    - eapply (IHt _ Y); [congruence|exact HR'|reflexivity].
  Qed.
End Stops.
