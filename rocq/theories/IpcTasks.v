(** Proofs about endpoints: tasks and what they send. *)
From Verif Require Import Base BaseFacts BuilderFacts Codec Spec Ids IdsFacts Payload Builder Emit EmitFacts Ipc SpecIpc IpcFacts IpcChanFacts IpcUsers IpcLoops.
From Coq Require Import ZifyBool ZifyNat ZifyN.

Definition plain (p : context * event) : Prop := emitted (fst p) (snd p).
Definition is_ok (r : bytes + error) : bool := match r with inl _ => true | inr _ => false end.
(** what task [i] has done so far, given its job and state *)
Definition job_trace (tr : list obs) (i : nat) (j : option (context * event)) : Prop :=
  match j with
  | Some (ctx, e) => exists n sc, ctx = mk_context n (Some (ev_id e)) /\ In (OCalled n i ctx sc e) tr
      /\ forall n' ctx' sc' e', In (OCalled n' i ctx' sc' e') tr -> n' = n /\ ctx' = ctx /\ sc' = sc /\ e' = e
  | None => forall n' ctx' sc' e', ~ In (OCalled n' i ctx' sc' e') tr
  end.
Definition state_trace (cf : config) (ls : list label) (tr : list obs) (i : nat) (j : option (context * event)) (st : tstate) : Prop :=
  match st with
  | TSend ctx e (ForAnswer ok) => exists x r, j = Some (ctx, x) /\ ok = is_ok r /\ returned i tr = [r] /\ answers cf x r e /\ Forall plain (sent i tr)
  | TForget y => exists ctx x r pre a, j = Some (ctx, x) /\ y = ev_id x /\ is_ok r = true /\ returned i tr = [r] /\ answers cf x r a /\ Forall plain pre
        /\ (sent i tr = pre ++ [(ctx, a)] \/ (sent i tr = pre /\ exists k, In (LTask i (AFail k)) ls))
  | TDone => match j with
      | Some (ctx, x) => exists r pre a, returned i tr = [r] /\ answers cf x r a /\ Forall plain pre
        /\ (sent i tr = pre ++ [(ctx, a)] \/ (sent i tr = pre /\ exists k, In (LTask i (AFail k)) ls))
      | None => exists r, returned i tr = [r] /\ Forall plain (sent i tr)
      end
  | TSend ctx e _ | TRegister ctx e _ => emitted ctx e /\ returned i tr = [] /\ Forall plain (sent i tr)
  | _ => returned i tr = [] /\ Forall plain (sent i tr)
  end.
Definition task_trace (cf : config) (ls : list label) (tr : list obs) (i : nat) (o : option task) : Prop :=
  match o with
  | None => existsb (by_task i) tr = false
  | Some tk => job_trace tr i (tk_job tk) /\ state_trace cf ls tr i (tk_job tk) (tk_st tk)
  end.
Lemma sent_app i a b : sent i (a ++ b) = sent i a ++ sent i b. Proof. apply flat_map_app. Qed.
Lemma returned_app i a b : returned i (a ++ b) = returned i a ++ returned i b. Proof. apply flat_map_app. Qed.
Lemma quiet_sent i os : existsb (by_task i) os = false -> sent i os = [] /\ returned i os = [] /\ forall n ctx sc e, ~ In (OCalled n i ctx sc e) os.
Proof.
  induction os as [|o os IH]; cbn [existsb]; [cbn; auto|]. intros H. apply orb_false_iff in H. destruct H as [H1 H2]. destruct (IH H2) as (A & B & C).
  unfold sent, returned in *. cbn [flat_map]. rewrite A, B. repeat split.
  - destruct o; try reflexivity. cbn in *. rewrite H1. reflexivity.
  - destruct o; try reflexivity. cbn in *. rewrite H1. reflexivity.
  - intros n ctx sc e [Q|Q]; [|exact (C _ _ _ _ Q)]. subst o. cbn in H1. rewrite Nat.eqb_refl in H1. discriminate.
Qed.
Lemma job_trace_app tr os i j : (forall n ctx sc e, ~ In (OCalled n i ctx sc e) os) -> job_trace tr i j -> job_trace (tr ++ os) i j.
Proof.
  intros N. unfold job_trace. destruct j as [[ctx e]|].
  - intros (n & sc & A & B & C). exists n, sc. split; [exact A|]. split; [apply in_or_app; auto|]. intros n' ctx' sc' e' Q. apply in_app_or in Q. destruct Q as [Q|Q]; [eauto|]. destruct (N _ _ _ _ Q).
  - intros H n' ctx' sc' e' Q. apply in_app_or in Q. destruct Q as [Q|Q]; [eapply H; eauto|]. eapply N; eauto.
Qed.
Lemma state_trace_app cf ls ls' tr os i j st : sent i os = [] -> returned i os = [] -> state_trace cf ls tr i j st -> state_trace cf (ls ++ ls') (tr ++ os) i j st.
Proof.
  intros A B. unfold state_trace. rewrite sent_app, returned_app, A, B, !app_nil_r.
  destruct st as [p|ctx e w|ctx e [k|c k|c k|ok]|d rid k|d rid e k|h k|h oe k|rid| |]; auto.
  - intros (ctx & x & r & pre & a & H1 & H2 & H3 & H4 & H5 & H6 & H7). exists ctx, x, r, pre, a. repeat split; auto; try apply H5.
    destruct H7 as [H7|(H7 & k & H8)]; [auto|]. right. split; [auto|]. exists k. apply in_or_app. auto.
  - destruct j as [[ctx x]|]; [|auto].
    intros (r & pre & a & H4 & H5 & H6 & H7). exists r, pre, a. repeat split; auto; try apply H5.
    destruct H7 as [H7|(H7 & k & H8)]; [auto|]. right. split; [auto|]. exists k. apply in_or_app. auto.
Qed.
Lemma Forall_snoc {A} (P : A -> Prop) l x : Forall P l -> P x -> Forall P (l ++ [x]).
Proof. intros. apply Forall_app. auto. Qed.
Lemma answer_answers cf n x r nid e : answer_event cf (mk_context n (Some (ev_id x))) nid r = Ok e -> answers cf x r e.
Proof. intros H. unfold answers. destruct r; cbn in H; inversion H; subst; repeat split; reflexivity. Qed.
Lemma emitted_for rq x d : emitted (rq_ctx rq) (event_for rq x d).
Proof. split; reflexivity. Qed.

Section Tasks.
  Context (cf : config) (nc : nat) (armed : bool) (ps : list prog) (ctr : N).
  Lemma inv_task ls s tr : runs cf nc armed ps ctr ls s tr -> forall i, task_trace cf ls tr i (nth_error (e_tasks s) i).
  Proof.
    apply (run_ind cf _ (fun ls s tr => forall i, task_trace cf ls tr i (nth_error (e_tasks s) i))).
    { intros i. cbn [ep_new e_tasks]. rewrite nth_error_map. destruct (nth_error ps i); cbn; auto. }
    clear ls s tr. intros ls s tr l s' os IH HR H i. specialize (IH i).
    destruct (step_task _ _ _ _ _ i H) as [l N E|a tk st E1 Ht E2|l q E1 -> E|l n sc e E1 E2 E].
    - rewrite E. destruct (quiet_sent _ _ N) as (A & B & C). unfold task_trace in *. destruct (nth_error (e_tasks s) i) as [tk|].
      + destruct IH as [J S]. split; [apply job_trace_app; auto|apply state_trace_app; auto].
      + rewrite existsb_app, IH. exact N.
    - rewrite E1 in IH. rewrite E2. unfold task_trace in *. cbn [tk_job tk_st]. destruct IH as [J S].
      unfold task_step in Ht. rewrite E1 in Ht.
      assert (L : (i <> length (e_tasks s))%nat) by (pose proof (proj1 (nth_error_Some (e_tasks s) i)); rewrite E1 in *; intuition (try congruence; try lia)).
      assert (R : forall (st0 : tstate), (forall s1 os1, Some (s1, os1) = Some (s', os) -> nth_error (e_tasks s1) i = Some (mk_task (tk_job tk) st0)) -> forall os1 s1, Some (s1, os1) = Some (s', os) -> st = st0 /\ os = os1).
      { intros st0 Q os1 s1 E. specialize (Q _ _ E). inversion E; subst. rewrite E2 in Q. inversion Q. auto. }
      split.
      { apply job_trace_app; [|exact J]. intros n ctx sc e Q. clear - Ht Q.
        destruct (tk_st tk); destruct a; try discriminate Ht; unfold run_prog, answer_event in Ht; cbn zeta in Ht;
        repeat (match type of Ht with context[match ?x with _ => _ end] => destruct x eqn:? end; try discriminate Ht);
        apply some_pair in Ht; destruct Ht as [_ <-]; cbn [In] in Q; intuition discriminate. }
      clear R.
      assert (JB : forall ctx x, tk_job tk = Some (ctx, x) -> exists n, ctx = mk_context n (Some (ev_id x))).
      { intros ctx x Q. rewrite Q in J. destruct J as (n & sc & A & _). eauto. }
      clear J.
      destruct (tk_st tk) as [p|ctx e w|ctx e pu|d rid k|d rid e k|h1 k|h1 oe k|rid| |] eqn:Es; destruct a; try discriminate Ht.
      + (* user code *)
        destruct S as [S1 S2]. unfold run_prog in Ht. destruct p as [r| |rq k|rq k|rq k|h1 k|n k|k|q k]; cbn zeta in Ht;
        try (repeat (match type of Ht with context[match ?x with _ => _ end] => destruct x eqn:? end; try discriminate Ht);
             apply some_pair in Ht; destruct Ht as [<- <-]; autorewrite with ep in E2; rewrite Nat.eqb_refl, ?(proj2 (Nat.eqb_neq _ _) L), ?E1 in E2; cbn [option_map] in E2; inversion E2; subst st;
             unfold state_trace; rewrite sent_app, returned_app, S1, !app_nil_r; cbn; auto using emitted_for; fail).
        destruct (tk_job tk) as [[ctx x]|] eqn:Ej.
        * destruct (answer_event cf ctx (nth_id t (e_ctr s)) r) as [e| |] eqn:Ea; try discriminate Ht. apply some_pair in Ht; destruct Ht as [<- <-].
          autorewrite with ep in E2. rewrite Nat.eqb_refl, E1 in E2. cbn [option_map] in E2. inversion E2; subst st.
          cbn [state_trace]. exists x, r. destruct (JB _ _ eq_refl) as [n ->]. rewrite returned_app, S1, sent_app. cbn. rewrite Nat.eqb_refl. split; [assumption || reflexivity|]. split; [reflexivity|]. split; [reflexivity|]. split; [exact (answer_answers _ _ _ _ _ _ Ea)|rewrite ?app_nil_r; exact S2].
        * apply some_pair in Ht; destruct Ht as [<- <-]. autorewrite with ep in E2. rewrite Nat.eqb_refl, E1 in E2. cbn [option_map] in E2. inversion E2; subst st.
          cbn [state_trace]. rewrite ?Ej. exists r. rewrite returned_app, S1, sent_app. cbn. rewrite Nat.eqb_refl, ?app_nil_r. auto.
      + destruct S as (S0 & S1 & S2). apply some_pair in Ht; destruct Ht as [<- <-]. autorewrite with ep in E2. rewrite Nat.eqb_refl, E1 in E2. cbn [option_map] in E2. inversion E2; subst st.
        destruct w; cbn [state_trace]; rewrite sent_app, returned_app, S1; cbn; rewrite ?app_nil_r; auto.
      + destruct pu as [k1|d k1|d k1|ok].
        1,2,3: destruct S as (S0 & S1 & S2); apply some_pair in Ht; destruct Ht as [<- <-]; autorewrite with ep in E2; rewrite Nat.eqb_refl, E1 in E2; cbn [option_map] in E2; inversion E2; subst st;
          cbn [state_trace]; rewrite sent_app, returned_app, S1; cbn; rewrite Nat.eqb_refl; split; [reflexivity|apply Forall_snoc; auto].
        destruct S as (x & r & Sj & So & S1 & S2 & S3). rewrite Sj in Ht. apply some_pair in Ht; destruct Ht as [<- <-]. autorewrite with ep in E2. rewrite Nat.eqb_refl, E1 in E2. cbn [option_map] in E2. inversion E2 as [E3].
        destruct ok; cbn [state_trace].
        * exists ctx, x, r, (sent i tr), e. rewrite sent_app, returned_app, S1. cbn. rewrite Nat.eqb_refl. repeat split; auto; apply S2.
        * rewrite Sj. exists r, (sent i tr), e. rewrite sent_app, returned_app, S1. cbn. rewrite Nat.eqb_refl. repeat split; auto; apply S2.
      + destruct pu as [k1|d k1|d k1|ok].
        1,2,3: destruct S as (S0 & S1 & S2); apply some_pair in Ht; destruct Ht as [<- <-]; autorewrite with ep in E2; rewrite Nat.eqb_refl, E1 in E2; cbn [option_map] in E2; inversion E2; subst st;
          cbn [state_trace]; rewrite sent_app, returned_app, S1; cbn; rewrite app_nil_r; auto.
        destruct S as (x & r & Sj & So & S1 & S2 & S3). rewrite Sj in Ht. apply some_pair in Ht; destruct Ht as [<- <-]. autorewrite with ep in E2. rewrite Nat.eqb_refl, E1 in E2. cbn [option_map] in E2. inversion E2 as [E3].
        assert (HF : exists k, In (LTask i (AFail k)) (ls ++ [LTask i (AFail k)])) by (exists k; apply in_or_app; right; left; reflexivity).
        assert (HF' : exists k0, In (LTask i (AFail k0)) (ls ++ [LTask i (AFail k)])) by (exists k; apply in_or_app; right; left; reflexivity).
        destruct ok; cbn [state_trace].
        * exists ctx, x, r, (sent i tr), e. rewrite sent_app, returned_app, S1. cbn. rewrite app_nil_r. repeat split; auto; apply S2.
        * rewrite Sj. exists r, (sent i tr), e. rewrite sent_app, returned_app, S1. cbn. rewrite app_nil_r. repeat split; auto; apply S2.
      + destruct pu as [k1|d k1|d k1|ok]; try discriminate Ht.
        all: destruct S as (S0 & S1 & S2); apply some_pair in Ht; destruct Ht as [<- <-]; autorewrite with ep in E2; rewrite Nat.eqb_refl, E1 in E2; cbn [option_map] in E2; inversion E2; subst st;
          cbn [state_trace]; rewrite sent_app, returned_app, S1; cbn; rewrite app_nil_r; auto.
      + destruct S as [S1 S2]. repeat (match type of Ht with context[match ?x with _ => _ end] => destruct x eqn:? end; try discriminate Ht);
          apply some_pair in Ht; destruct Ht as [<- <-]; autorewrite with ep in E2; rewrite Nat.eqb_refl, ?E1 in E2; cbn [option_map] in E2; inversion E2; subst st;
          cbn [state_trace]; rewrite sent_app, returned_app, S1; cbn; rewrite app_nil_r; auto.
      + destruct S as [S1 S2]. repeat (match type of Ht with context[match ?x with _ => _ end] => destruct x eqn:? end; try discriminate Ht);
          apply some_pair in Ht; destruct Ht as [<- <-]; autorewrite with ep in E2; rewrite Nat.eqb_refl, ?E1 in E2; cbn [option_map] in E2; inversion E2; subst st;
          cbn [state_trace]; rewrite sent_app, returned_app, S1; cbn; rewrite app_nil_r; auto.
      + destruct S as [S1 S2]. repeat (match type of Ht with context[match ?x with _ => _ end] => destruct x eqn:? end; try discriminate Ht);
          apply some_pair in Ht; destruct Ht as [<- <-]; autorewrite with ep in E2; rewrite Nat.eqb_refl, ?E1 in E2; cbn [option_map] in E2; inversion E2; subst st;
          cbn [state_trace]; rewrite sent_app, returned_app, S1; cbn; rewrite app_nil_r; auto.
      + destruct S as [S1 S2]. repeat (match type of Ht with context[match ?x with _ => _ end] => destruct x eqn:? end; try discriminate Ht);
          apply some_pair in Ht; destruct Ht as [<- <-]; autorewrite with ep in E2; rewrite Nat.eqb_refl, ?E1 in E2; cbn [option_map] in E2; inversion E2; subst st;
          cbn [state_trace]; rewrite sent_app, returned_app, S1; cbn; rewrite app_nil_r; auto.
      + destruct S as [S1 S2]. repeat (match type of Ht with context[match ?x with _ => _ end] => destruct x eqn:? end; try discriminate Ht);
          apply some_pair in Ht; destruct Ht as [<- <-]; autorewrite with ep in E2; rewrite Nat.eqb_refl, ?E1 in E2; cbn [option_map] in E2; inversion E2; subst st;
          cbn [state_trace]; rewrite sent_app, returned_app, S1; cbn; rewrite app_nil_r; auto.
      + destruct S as [S1 S2]. repeat (match type of Ht with context[match ?x with _ => _ end] => destruct x eqn:? end; try discriminate Ht);
          apply some_pair in Ht; destruct Ht as [<- <-]; autorewrite with ep in E2; rewrite Nat.eqb_refl, ?E1 in E2; cbn [option_map] in E2; inversion E2; subst st;
          cbn [state_trace]; rewrite sent_app, returned_app, S1; cbn; rewrite app_nil_r; auto.
      + destruct S as [S1 S2]. repeat (match type of Ht with context[match ?x with _ => _ end] => destruct x eqn:? end; try discriminate Ht);
          apply some_pair in Ht; destruct Ht as [<- <-]; autorewrite with ep in E2; rewrite Nat.eqb_refl, ?E1 in E2; cbn [option_map] in E2; inversion E2; subst st;
          cbn [state_trace]; rewrite sent_app, returned_app, S1; cbn; rewrite app_nil_r; auto.
      + destruct S as [S1 S2]. repeat (match type of Ht with context[match ?x with _ => _ end] => destruct x eqn:? end; try discriminate Ht);
          apply some_pair in Ht; destruct Ht as [<- <-]; autorewrite with ep in E2; rewrite Nat.eqb_refl, ?E1 in E2; cbn [option_map] in E2; inversion E2; subst st;
          cbn [state_trace]; rewrite sent_app, returned_app, S1; cbn; rewrite app_nil_r; auto.
      + destruct S as (ctx & x & r & pre & e & Sj & Sy & So & S1 & S2 & S3 & S4). apply some_pair in Ht; destruct Ht as [<- <-]. autorewrite with ep in E2. rewrite Nat.eqb_refl, E1 in E2. cbn [option_map] in E2. inversion E2; subst st.
        cbn [state_trace]. rewrite Sj. exists r, pre, e. rewrite sent_app, returned_app, S1. cbn. rewrite app_nil_r. repeat split; auto; try apply S2.
        destruct S4 as [S4|(S4 & k & S5)]; [auto|]. right. split; [auto|]. exists k. apply in_or_app. auto.
    - assert (E0 : nth_error (e_tasks s) i = None) by (apply nth_error_None; lia). rewrite E0 in IH. rewrite E. cbn [task_trace] in *. rewrite app_nil_r.
      destruct (quiet_sent _ _ IH) as (A & B & C). cbn [tk_job tk_st job_trace state_trace]. rewrite A, B. auto.
    - assert (E0 : nth_error (e_tasks s) i = None) by (apply nth_error_None; lia). rewrite E0 in IH. rewrite E. cbn [task_trace] in *.
      destruct (quiet_sent _ _ IH) as (A & B & C). cbn [tk_job tk_st job_trace state_trace]. rewrite sent_app, returned_app, A, B. split.
      + exists n, sc. split; [reflexivity|]. split; [apply in_or_app; right; destruct E2 as [-> | ->]; cbn; auto|].
        intros n' ctx' sc' e' Q. apply in_app_or in Q. destruct Q as [Q|Q]; [destruct (C _ _ _ _ Q)|]. destruct E2 as [-> | ->]; cbn in Q; destruct Q as [Q|Q]; try contradiction; try discriminate; [destruct Q as [Q|[]]|];
          inversion Q; subst; auto.
      + destruct E2 as [-> | ->]; cbn; auto.
  Qed.
End Tasks.

Lemma called_not_step cf s j a s' os n i ctx sc e : task_step cf s j a = Some (s', os) -> ~ In (OCalled n i ctx sc e) os.
Proof.
  intros Ht Hin. unfold task_step in Ht. destruct (nth_error (e_tasks s) j) as [tk|]; [|discriminate].
  destruct (tk_st tk); destruct a; try discriminate Ht; unfold run_prog, answer_event in Ht; cbn zeta in Ht;
    repeat (match type of Ht with context[match ?x with _ => _ end] => destruct x eqn:? end; try discriminate Ht);
    apply some_pair in Ht; destruct Ht as [_ <-]; cbn [In] in Hin; intuition discriminate.
Qed.

Section Answers.
  Context (cf : config) (nc : nat) (armed : bool) (ps : list prog) (ctr : N).
  Lemma by_task_exists ls s tr i : runs cf nc armed ps ctr ls s tr -> existsb (by_task i) tr = true -> exists tk, nth_error (e_tasks s) i = Some tk.
  Proof. intros H E. pose proof (inv_task _ _ _ _ _ _ _ _ H i) as T. destruct (nth_error (e_tasks s) i); [eauto|]. cbn in T. congruence. Qed.
  Lemma called_exists (tr : list obs) n i ctx sc e : In (OCalled n i ctx sc e) tr -> existsb (by_task i) tr = true.
  Proof. intros H. apply existsb_exists. exists (OCalled n i ctx sc e). split; [exact H|]. cbn. apply Nat.eqb_refl. Qed.
  Lemma called_job ls s tr n i ctx sc e : runs cf nc armed ps ctr ls s tr -> In (OCalled n i ctx sc e) tr ->
    exists st, nth_error (e_tasks s) i = Some (mk_task (Some (ctx, e)) st) /\ ctx = mk_context n (Some (ev_id e)) /\ state_trace cf ls tr i (Some (ctx, e)) st.
  Proof.
    intros H Hc. destruct (by_task_exists _ _ _ _ H (called_exists _ _ _ _ _ _ Hc)) as [tk Ht].
    pose proof (inv_task _ _ _ _ _ _ _ _ H i) as T. rewrite Ht in T. destruct T as [J S]. destruct tk as [j st]. cbn [tk_job tk_st] in *.
    destruct j as [[ctx0 e0]|]; cbn in J.
    - destruct J as (n0 & sc0 & A & B & C). destruct (C _ _ _ _ Hc) as (-> & -> & -> & ->). exists st. auto.
    - destruct (J _ _ _ _ Hc).
  Qed.
  Lemma plain_not_final p : plain p -> final (snd p) = false.
  Proof. intros [_ E]. unfold final. rewrite E. destruct (c_ref (fst p)); reflexivity. Qed.
  Lemma plain_Forall l : Forall plain l -> Forall (fun p => final (snd p) = false) l.
  Proof. intros H. eapply Forall_impl; [|exact H]. intros p. apply plain_not_final. Qed.

  Lemma one_answer ls s tr n i ctx sc e : runs cf nc armed ps ctr ls s tr -> In (OCalled n i ctx sc e) tr -> no_write_failure ls ->
    ctx = mk_context n (Some (ev_id e)) /\
    match returned i tr with
    | [] => Forall (fun p => final (snd p) = false) (sent i tr)
    | [r] => exists pre, Forall (fun p => final (snd p) = false) pre
        /\ ((sent i tr = pre /\ ~ stuck cf s i) \/ exists a, sent i tr = pre ++ [(ctx, a)] /\ answers cf e r a)
    | _ => False
    end.
  Proof.
    intros H Hc NF. destruct (called_job _ _ _ _ _ _ _ _ H Hc) as (st & Ht & Hctx & S). split; [exact Hctx|].
    destruct st as [p|c0 e0 w|c0 e0 pu|d rid k|d rid e0 k|h k|h oe k|rid| |]; cbn [state_trace] in S;
      try (destruct S as [S1 S2]; rewrite S1; apply plain_Forall; exact S2).
    - destruct S as (_ & S1 & S2). rewrite S1. apply plain_Forall; exact S2.
    - destruct pu as [k1|d k1|d k1|ok]; try (destruct S as (_ & S1 & S2); rewrite S1; apply plain_Forall; exact S2).
      destruct S as (x & r & Sj & So & S1 & S2 & S3). rewrite S1. exists (sent i tr). split; [apply plain_Forall; exact S3|]. left. split; [reflexivity|].
      intros K. specialize (K (mk_instant 0 0) 0). cbn [step] in K. unfold task_step in K. rewrite Ht in K. cbn [tk_st] in K. discriminate.
    - destruct S as (ctx0 & x & r & pre & a & Sj & Sy & So & S1 & S2 & S3 & S4). inversion Sj; subst ctx0 x. rewrite S1. exists pre. split; [apply plain_Forall; exact S3|].
      destruct S4 as [S4|(_ & k & S4)]; [|destruct (NF _ _ S4)]. right. exists a. auto.
    - destruct S as (r & pre & a & S1 & S2 & S3 & S4). rewrite S1. exists pre. split; [apply plain_Forall; exact S3|].
      destruct S4 as [S4|(_ & k & S4)]; [|destruct (NF _ _ S4)]. right. exists a. auto.
  Qed.
  (** also with write failures there is never a second final event, and never one before the handler returned *)
  Lemma at_most_one ls s tr n i ctx sc e : runs cf nc armed ps ctr ls s tr -> In (OCalled n i ctx sc e) tr ->
    exists pre post, sent i tr = pre ++ post /\ Forall (fun p => final (snd p) = false) pre /\ (post = [] \/ exists r a, returned i tr = [r] /\ post = [(ctx, a)] /\ answers cf e r a).
  Proof.
    intros H Hc. destruct (called_job _ _ _ _ _ _ _ _ H Hc) as (st & Ht & Hctx & S).
    assert (G : Forall plain (sent i tr) -> exists pre post, sent i tr = pre ++ post /\ Forall (fun p => final (snd p) = false) pre /\ (post = [] \/ exists r a, returned i tr = [r] /\ post = [(ctx, a)] /\ answers cf e r a)).
    { intros F. exists (sent i tr), []. rewrite app_nil_r. split; [reflexivity|]. split; [apply plain_Forall; exact F|auto]. }
    destruct st as [p|c0 e0 w|c0 e0 pu|d rid k|d rid e0 k|h k|h oe k|rid| |]; cbn [state_trace] in S; try (apply G; apply S).
    - destruct pu as [k1|d k1|d k1|ok]; try (apply G; apply S). destruct S as (x & r & _ & _ & _ & _ & S). apply G. exact S.
    - destruct S as (ctx0 & x & r & pre & a & Sj & Sy & So & S1 & S2 & S3 & [S4|(S4 & _)]).
      + inversion Sj; subst ctx0 x. exists pre, [(ctx, a)]. split; [exact S4|]. split; [apply plain_Forall; exact S3|]. right. eauto.
      + apply G. rewrite S4. exact S3.
    - destruct S as (r & pre & a & S1 & S2 & S3 & [S4|(S4 & _)]).
      + exists pre, [(ctx, a)]. split; [exact S4|]. split; [apply plain_Forall; exact S3|]. right. eauto.
      + apply G. rewrite S4. exact S3.
  Qed.
  Lemma ended_emitted ls s tr : runs cf nc armed ps ctr ls s tr -> forall i ctx e, In (OSent i ctx e) tr \/ In (OCut i ctx e) tr ->
    emitted ctx e \/ exists n sc x r, In (OCalled n i ctx sc x) tr /\ ctx = mk_context n (Some (ev_id x)) /\ answers cf x r e.
  Proof.
    apply (run_ind cf _ (fun ls s tr => forall i ctx e, In (OSent i ctx e) tr \/ In (OCut i ctx e) tr ->
      emitted ctx e \/ exists n sc x r, In (OCalled n i ctx sc x) tr /\ ctx = mk_context n (Some (ev_id x)) /\ answers cf x r e)).
    { cbn. tauto. }
    clear ls s tr. intros ls s tr l s' os IH HR H i ctx e Hin.
    assert (In (OSent i ctx e) os \/ In (OCut i ctx e) os \/ (In (OSent i ctx e) tr \/ In (OCut i ctx e) tr)) as Q.
    { destruct Hin as [Hin|Hin]; apply in_app_or in Hin; tauto. }
    rewrite <- or_assoc in Q. destruct Q as [Q|Q].
    - clear Hin. assert (exists pu a, l = LTask i a /\ tst s i = Some (TSend ctx e pu)) as (pu & a & -> & T).
      { clear - H Q. destruct l as [j a|m e1|m|m|m|h|]; try (exfalso; step_cases H; cbn [In] in Q; intuition discriminate).
        cbn [step] in H. unfold task_step in H. destruct (nth_error (e_tasks s) j) as [tk|] eqn:Et; [|discriminate].
        destruct (tk_st tk) as [p|ctx1 e1 w|ctx1 e1 pu|d rid k|d rid e1 k|h1 k|h1 oe k|rid| |] eqn:Es;
          try (exfalso; destruct a; try discriminate H; step_cases H; cbn [In] in Q; intuition discriminate).
        assert (Z : OSent i ctx e = OSent j ctx1 e1 \/ OCut i ctx e = OCut j ctx1 e1).
        { destruct a; try discriminate H; destruct pu; try discriminate H; apply some_pair in H; destruct H as [_ <-]; cbn [In] in Q; intuition (try discriminate; auto). }
        exists pu, a. unfold tst. assert (i = j /\ ctx = ctx1 /\ e = e1) as (-> & -> & ->) by (destruct Z as [Z|Z]; inversion Z; auto).
        rewrite Et. cbn. rewrite Es. auto. }
      pose proof (inv_task _ _ _ _ _ _ _ _ HR i) as TT. unfold tst in T. destruct (nth_error (e_tasks s) i) as [tk|]; [|discriminate]. cbn in T. inversion T as [T1].
      destruct TT as [J S]. rewrite T1 in S. destruct pu as [k1|d k1|d k1|ok]; cbn [state_trace] in S; try (left; apply S).
      right. destruct S as (x & r & Sj & _ & _ & S2 & _). rewrite Sj in J. cbn in J. destruct J as (n & sc & -> & A & _). exists n, sc, x, r. split; [apply in_or_app; auto|]. split; [reflexivity|exact S2].
    - destruct (IH _ _ _ Q) as [A|(n & sc & x & r & A & B)]; [auto|]. right. exists n, sc, x, r. split; [apply in_or_app; auto|exact B].
  Qed.
  (** the code that runs for a handled event *)
  Lemma called_code s l s' os n i ctx sc e : step cf s l = Some (s', os) -> In (OCalled n i ctx sc e) os ->
    nth_error (e_tasks s') i = Some (mk_task (Some (ctx, e)) (TRun (match eh_get (callbacks cf sc) (ev_name e) with Some cb => cb ctx e | None => PRet (inl []) end))).
  Proof.
    intros H Hin. destruct (step_task _ _ _ _ _ i H) as [l N E|a tk st E1 Ht E2|l q E1 -> E|l n' sc' e' E1 E2 E].
    - destruct (quiet_sent _ _ N) as (_ & _ & C). destruct (C _ _ _ _ Hin).
    - exfalso. cbn [step] in H. unfold task_step in H. rewrite E1 in H. clear - H Hin.
      destruct (tk_st tk); destruct a; try discriminate H; unfold run_prog, answer_event in H; cbn zeta in H;
        repeat (match type of H with context[match ?x with _ => _ end] => destruct x eqn:? end; try discriminate H);
        apply some_pair in H; destruct H as [_ <-]; cbn [In] in Hin; intuition discriminate.
    - contradiction.
    - destruct E2 as [-> | ->]; cbn [In] in Hin; [destruct Hin as [Q|[Q|[]]]|destruct Hin as [Q|[]]]; inversion Q; subst; exact E.
  Qed.
  (** events without handler *)
  Lemma no_handler_inv ls s tr : runs cf nc armed ps ctr ls s tr -> forall n i ctx sc e, In (OCalled n i ctx sc e) tr -> eh_get (callbacks cf sc) (ev_name e) = None ->
    (returned i tr = [] \/ returned i tr = [inl []]) /\
    exists st, tst s i = Some st /\ match st with
      | TRun p => p = PRet (inl []) /\ sent i tr = [] /\ returned i tr = []
      | TSend _ _ (ForAnswer _) => sent i tr = [] /\ returned i tr = [inl []]
      | TForget _ | TDone => (length (sent i tr) <= 1)%nat
      | _ => False end.
  Proof.
    apply (run_ind cf _ (fun ls s tr => forall n i ctx sc e, In (OCalled n i ctx sc e) tr -> eh_get (callbacks cf sc) (ev_name e) = None ->
      (returned i tr = [] \/ returned i tr = [inl []]) /\
      exists st, tst s i = Some st /\ match st with
        | TRun p => p = PRet (inl []) /\ sent i tr = [] /\ returned i tr = []
        | TSend _ _ (ForAnswer _) => sent i tr = [] /\ returned i tr = [inl []]
        | TForget _ | TDone => (length (sent i tr) <= 1)%nat
        | _ => False end)).
    { cbn. tauto. }
    clear ls s tr. intros ls s tr l s' os IH HR H n i ctx sc e Hin Hg.
    assert (Hold : In (OCalled n i ctx sc e) tr \/ In (OCalled n i ctx sc e) os) by (apply in_app_or; exact Hin).
    rewrite sent_app, returned_app. destruct Hold as [Hold|Hnew].
    - destruct (IH _ _ _ _ _ Hold Hg) as (R & st & T & S).
      destruct (step_task _ _ _ _ _ i H) as [l N E|a tk st1 E1 Ht E2|l q E1 -> E|l n' sc' e' E1 E2 E].
      + destruct (quiet_sent _ _ N) as (A & B & _). rewrite A, B, !app_nil_r. split; [exact R|]. exists st. split; [unfold tst in *; rewrite E; exact T|exact S].
      + unfold tst in T. rewrite E1 in T. cbn in T. inversion T; subst st. unfold task_step in Ht. rewrite E1 in Ht. unfold tst. rewrite E2. cbn [option_map tk_st].
        destruct (called_job _ _ _ _ _ _ _ _ HR Hold) as (st & Ht0 & _ & _). rewrite E1 in Ht0. inversion Ht0; subst tk. cbn [tk_job tk_st] in *.
        destruct st as [p|c0 e0 w|c0 e0 pu|d rid k|d rid e0 k|h k|h oe k|rid| |]; try contradiction; destruct a; try discriminate Ht.
        * destruct S as (-> & S1 & S2). cbn in Ht. apply some_pair in Ht. destruct Ht as [<- <-]. rewrite S1, S2. cbn. rewrite Nat.eqb_refl. split; [auto|].
          eexists. split; [reflexivity|]. autorewrite with ep in E2. rewrite Nat.eqb_refl, E1 in E2. cbn in E2. inversion E2. cbn. auto.
        * destruct pu; try contradiction. destruct S as (S1 & S2). apply some_pair in Ht. destruct Ht as [<- <-]. rewrite S1, S2. cbn. rewrite Nat.eqb_refl. split; [auto|].
          eexists. split; [reflexivity|]. autorewrite with ep in E2. rewrite Nat.eqb_refl, E1 in E2. cbn in E2. inversion E2. destruct ok; cbn; lia.
        * destruct pu; try contradiction. destruct S as (S1 & S2). apply some_pair in Ht. destruct Ht as [<- <-]. rewrite S1, S2. cbn. split; [auto|].
          eexists. split; [reflexivity|]. autorewrite with ep in E2. rewrite Nat.eqb_refl, E1 in E2. cbn in E2. inversion E2. destruct ok; cbn; lia.
        * destruct pu; try contradiction; discriminate.
        * apply some_pair in Ht. destruct Ht as [<- <-]. cbn. rewrite !app_nil_r. split; [exact R|]. eexists. split; [reflexivity|]. autorewrite with ep in E2. rewrite Nat.eqb_refl, E1 in E2. cbn in E2. inversion E2. exact S.
      + exfalso. unfold tst in T. assert (Q : nth_error (e_tasks s) i = None) by (apply nth_error_None; lia). rewrite Q in T. discriminate.
      + exfalso. unfold tst in T. assert (Q : nth_error (e_tasks s) i = None) by (apply nth_error_None; lia). rewrite Q in T. discriminate.
    - assert (N0 : nth_error (e_tasks s) i = None).
      { destruct (step_task _ _ _ _ _ i H) as [l N E|a tk st1 E1 Ht E2|l q E1 -> E|l n' sc' e' E1 E2 E]; try (apply nth_error_None; lia).
        - destruct (quiet_sent _ _ N) as (_ & _ & C). destruct (C _ _ _ _ Hnew).
        - exfalso. unfold task_step in Ht. rewrite E1 in Ht. clear - Ht Hnew.
          destruct (tk_st tk); destruct a; try discriminate Ht; unfold run_prog, answer_event in Ht; cbn zeta in Ht;
          repeat (match type of Ht with context[match ?x with _ => _ end] => destruct x eqn:? end; try discriminate Ht);
          apply some_pair in Ht; destruct Ht as [_ <-]; cbn [In] in Hnew; intuition discriminate. }
      pose proof (inv_task _ _ _ _ _ _ _ _ HR i) as TT. rewrite N0 in TT. cbn in TT. destruct (quiet_sent _ _ TT) as (A & B & _). rewrite A, B.
      pose proof (called_code _ _ _ _ _ _ _ _ _ H Hnew) as C. rewrite Hg in C. unfold tst. rewrite C. cbn [option_map tk_st].
      assert (Z : sent i os = [] /\ returned i os = []).
      { destruct (step_task _ _ _ _ _ i H) as [l N E|a tk st1 E1 Ht E2|l q E1 -> E|l n' sc' e' E1 E2 E]; [destruct (quiet_sent _ _ N) as (? & ? & _); auto|congruence|auto|].
        destruct E2 as [-> | ->]; auto. }
      destruct Z as [-> ->]. split; [auto|]. eexists. split; [reflexivity|]. cbn. auto.
  Qed.
End Answers.
