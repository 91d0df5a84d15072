(** Proofs about endpoints: ids of events, listeners that stay registered. *)
From Verif Require Import Base BaseFacts BuilderFacts Codec Spec Ids IdsFacts Payload Builder Emit EmitFacts Ipc SpecIpc IpcFacts IpcChanFacts IpcUsers IpcLoops.
From Coq Require Import ZifyBool ZifyNat ZifyN.

(** event created by a task and not yet sent *)
Definition fid (st : tstate) : option N := match st with TRegister _ e _ | TSend _ e _ => Some (ev_id e) | _ => None end.
(** events a task has stopped sending, completed or not *)
Definition ended_by (o : obs) : list N := match o with OSent _ _ e | OCut _ _ e => [ev_id e] | _ => [] end.
Definition ended (tr : list obs) : list N := flat_map ended_by tr.
Lemma ended_app a b : ended (a ++ b) = ended a ++ ended b.
Proof. apply flat_map_app. Qed.
Lemma step_ctr cf s l s' os : step cf s l = Some (s', os) -> e_ctr s <= e_ctr s'.
Proof. intros H. step_cases H; autorewrite with ep; lia. Qed.
(** steps that are not of tasks send and register nothing *)
Lemma step_ended cf s l s' os : step cf s l = Some (s', os) -> ended os = [] \/ exists i a, l = LTask i a.
Proof. intros H. destruct l; [right; eauto|left..]; step_cases H; reflexivity. Qed.
Lemma task_step_fid cf s i a s' os st : task_step cf s i a = Some (s', os) -> tst s i = Some st ->
  exists st', tst s' i = Some st' /\
  ( (ended os = [] /\ fid st' = fid st)
    \/ (ended os = [] /\ fid st = None /\ exists t v, a = AStep t v /\ fid st' = Some (nth_id t (e_ctr s)) /\ e_ctr s' = e_ctr s + 1 /\ forall j x c, ~ In (OListen j x c) os)
    \/ (exists ctx e pu, st = TSend ctx e pu /\ ended os = [ev_id e] /\ fid st' = None /\ (forall j x c, ~ In (OListen j x c) os))).
Proof.
  unfold tst, task_step. intros H. destruct (nth_error (e_tasks s) i) as [tk|] eqn:Et; [|discriminate]. cbn [option_map].
  intros E. apply (f_equal (fun o => match o with Some x => x | None => st end)) in E. cbn in E. subst st.
  assert (L : (i <> length (e_tasks s))%nat) by (pose proof (proj1 (nth_error_Some (e_tasks s) i)); rewrite Et in *; intuition (try congruence; try lia)).
  destruct (tk_st tk) eqn:Es; destruct a; try discriminate H; unfold run_prog, answer_event in H; cbn zeta in H;
  repeat (match type of H with context[match ?x with _ => _ end] => destruct x eqn:? end; try discriminate H);
  apply some_pair in H; destruct H as [<- <-]; autorewrite with ep; rewrite Nat.eqb_refl, ?(proj2 (Nat.eqb_neq _ _) L), ?Et; cbn [option_map tk_st tk_job];
  eexists; (split; [reflexivity|]); cbn [fid];
  try (left; split; reflexivity);
  try (right; left; split; [reflexivity|]; split; [reflexivity|]; do 2 eexists; split; [reflexivity|]; split; [|split; [reflexivity|noopen]]; unfold event_for, event_new; cbn [ev_id]; try reflexivity;
       match goal with H : Ok _ = Ok _ |- _ => inversion H; subst; reflexivity | H : omap _ _ = Ok _ |- _ => cbn in H; inversion H; subst; reflexivity end);
  try (right; right; do 3 eexists; split; [reflexivity|]; split; [reflexivity|]; split; [repeat match goal with |- context[match ?x with _ => _ end] => destruct x end; reflexivity|noopen]).
Qed.
Lemma listen_step cf s l s' os i x c : step cf s l = Some (s', os) -> In (OListen i x c) os ->
  exists a ctx e w pu, l = LTask i a /\ tst s i = Some (TRegister ctx e w) /\ ev_id e = x /\ c = length (e_chans s) /\ os = [OListen i x c]
    /\ tst s' i = Some (TSend ctx e pu) /\ tchan (TSend ctx e pu) = Some c.
Proof.
  intros H Hin. destruct l as [j a|m e|m|m|m|h|]; try (exfalso; step_cases H; cbn [In] in Hin; intuition discriminate).
  cbn [step] in H. unfold task_step in H. destruct (nth_error (e_tasks s) j) as [tk|] eqn:Et; [|discriminate].
  destruct (tk_st tk) as [p|ctx e w|ctx e pu|d rid k|d rid e k|h1 k|h1 oe k|rid| |] eqn:Es; destruct a; try discriminate H;
    try (exfalso; step_cases H; cbn [In] in Hin; intuition discriminate).
  apply some_pair in H. destruct H as [<- <-]. destruct Hin as [Q|[]]. inversion Q; subst.
  eexists _, ctx, e, w, _. split; [reflexivity|]. split; [unfold tst; rewrite Et; cbn; congruence|]. repeat split; auto.
  - rewrite tst_set_task; [reflexivity|]. autorewrite with ep. congruence.
  - destruct w; reflexivity.
Qed.

(** tasks other than the acting one keep their state *)
Lemma tst_kept cf s l s' os i : step cf s l = Some (s', os) -> (forall a, l <> LTask i a) -> tst s i <> None -> tst s' i = tst s i.
Proof.
  intros H Hl Hi. destruct (step_task _ _ _ _ _ i H) as [l N E|a tk st1 E1 Ht E2|l q E1 E2 E|l n sc e E1 E2 E]; unfold tst in *.
  - rewrite E. reflexivity.
  - destruct (Hl a eq_refl).
  - exfalso. apply Hi. assert (Q : nth_error (e_tasks s) i = None) by (apply nth_error_None; lia). rewrite Q. reflexivity.
  - exfalso. apply Hi. assert (Q : nth_error (e_tasks s) i = None) by (apply nth_error_None; lia). rewrite Q. reflexivity.
Qed.

Definition made (ctr : N) (x : N) : Prop := exists t m, rust_instant t /\ m < ctr /\ x = nth_id t m.
Lemma made_mono a b x : a <= b -> made a x -> made b x.
Proof. intros L (t & m & A & B & C). exists t, m. repeat split; auto; try apply A. lia. Qed.
Lemma made_fresh ctr t x : rust_instant t -> ctr < 2 ^ 32 -> made ctr x -> x <> nth_id t ctr.
Proof. intros Ht Hc (u & m & A & B & ->) E. apply ids_eq_iff in E; auto; unfold U32; lia. Qed.

Record idents (s : ep) (tr : list obs) : Prop := mk_idents {
  j_made : forall i st x, tst s i = Some st -> fid st = Some x -> made (e_ctr s) x;
  j_ended : forall x, In x (ended tr) -> made (e_ctr s) x;
  j_distinct : forall i j st st' x, tst s i = Some st -> tst s j = Some st' -> fid st = Some x -> fid st' = Some x -> i = j;
  j_once : forall i st x, tst s i = Some st -> fid st = Some x -> ~ In x (ended tr);
  j_listen : forall i x c, In (OListen i x c) tr -> In x (ended tr) \/ exists ctx e pu, tst s i = Some (TSend ctx e pu) /\ ev_id e = x /\ tchan (TSend ctx e pu) = Some c;
  j_unique : forall i i' x c c', In (OListen i x c) tr -> In (OListen i' x c') tr -> i = i' /\ c = c';
  j_nodup : NoDup (ended tr)
}.

Section Ids.
  Context (cf : config) (nc : nat) (armed : bool) (ps : list prog) (ctr : N).
  Lemma inv_idents ls s tr : runs cf nc armed ps ctr ls s tr -> good_clock ls -> few_events s -> idents s tr.
  Proof.
    apply (run_ind cf _ (fun ls s tr => good_clock ls -> few_events s -> idents s tr)).
    { intros _ _. assert (T : forall i st, tst (ep_new nc armed ps ctr) i = Some st -> exists p, st = TRun p).
      { intros i st. unfold tst, ep_new. cbn [e_tasks]. rewrite nth_error_map. destruct (nth_error ps i); [|discriminate]. cbn. intros E. inversion E. eauto. }
      constructor; cbn; try contradiction; try (intros i st x E; destruct (T _ _ E) as [p ->]; discriminate).
      - intros i j st st' x E. destruct (T _ _ E) as [p ->]. discriminate.
      - constructor. }
    clear ls s tr. intros ls s tr l s' os IH HR H GC FE.
    assert (Hle := step_ctr _ _ _ _ _ H).
    assert (J : idents s tr).
    { apply IH; [|unfold few_events in *; lia]. intros i t v Hin. eapply GC. apply in_or_app. left. exact Hin. }
    clear IH.
    (* all in one: what each task's unsent id was before *)
    assert (F : forall i st x, tst s' i = Some st -> fid st = Some x ->
       (exists st0, tst s i = Some st0 /\ fid st0 = Some x /\ ~ In x (ended os)) \/ (x = nth_id (match l with LTask _ (AStep t _) => t | _ => mk_instant 0 0 end) (e_ctr s) /\ (exists t v, l = LTask i (AStep t v)) /\ e_ctr s' = e_ctr s + 1 /\ ended os = [] /\ forall j x c, ~ In (OListen j x c) os)).
    { intros i st x Hi Hx. destruct (tst_after _ _ _ _ _ _ _ H Hi) as [[Hi' Hl]|[(a & st0 & -> & H0 & Ht)|(p & -> & _)]]; [| |discriminate].
      - left. exists st. split; [exact Hi'|]. split; [exact Hx|]. destruct (step_ended _ _ _ _ _ H) as [E|(j & a & ->)]; [rewrite E; auto|].
        cbn [step] in H. destruct (task_step_self _ _ _ _ _ _ H) as (tkj & stj & Hj & _). assert (Hj' : tst s j = Some (tk_st tkj)) by (unfold tst; rewrite Hj; reflexivity).
        destruct (task_step_fid _ _ _ _ _ _ _ H Hj') as (st' & _ & [(E & _)|[(E & _)|(ctx & e & pu & Est & E & _)]]); rewrite E; auto.
        intros [Q|[]]. subst x. apply (Hl a). f_equal. eapply (j_distinct _ _ J); eauto. rewrite Est. cbn. congruence.
      - destruct (task_step_fid _ _ _ _ _ _ _ Ht H0) as (st' & Hst' & [(E & E')|[(E & E' & t & v & -> & Q & C & NL)|(ctx & e & pu & Est & E & E' & NL)]]); assert (st' = st) by congruence; subst st'.
        + left. exists st0. rewrite E. repeat split; auto; congruence.
        + right. repeat split; auto; [congruence|eauto].
        + congruence. }
    assert (GT : forall i t v, l = LTask i (AStep t v) -> rust_instant t) by (intros i t v ->; eapply GC; apply in_or_app; right; left; reflexivity).
    assert (EN : forall x, In x (ended os) -> exists i ctx e pu a, l = LTask i a /\ tst s i = Some (TSend ctx e pu) /\ ev_id e = x /\ ended os = [x] /\ (forall j y c, ~ In (OListen j y c) os)).
    { intros x Hx. destruct (step_ended _ _ _ _ _ H) as [E|(j & a & ->)]; [rewrite E in Hx; contradiction|].
      cbn [step] in H. destruct (task_step_self _ _ _ _ _ _ H) as (tkj & stj & Hj & _). assert (Hj' : tst s j = Some (tk_st tkj)) by (unfold tst; rewrite Hj; reflexivity).
      destruct (task_step_fid _ _ _ _ _ _ _ H Hj') as (st' & _ & [(E & _)|[(E & _)|(ctx & e & pu & Est & E & _ & NL)]]); rewrite E in Hx; try contradiction.
      destruct Hx as [<-|[]]. exists j, ctx, e, pu, a. rewrite <- Est. auto. }
    assert (FR : forall y, made (e_ctr s) y -> forall i t v, l = LTask i (AStep t v) -> e_ctr s' = e_ctr s + 1 -> y <> nth_id t (e_ctr s)).
    { intros y My i t v El Ec. apply made_fresh; [eapply GT; eauto| |exact My]. unfold few_events in FE. lia. }
    constructor.
    - intros i st x Hi Hx. destruct (F _ _ _ Hi Hx) as [(st0 & A & B & _)|(-> & (t & v & ->) & C & _)].
      + eapply made_mono; [exact Hle|]. eapply (j_made _ _ J); eauto.
      + exists t, (e_ctr s). repeat split; try (eapply GT; eauto); lia.
    - intros x Hx. rewrite ended_app in Hx. apply in_app_or in Hx. eapply made_mono; [exact Hle|]. destruct Hx as [Hx|Hx]; [eapply (j_ended _ _ J); eauto|].
      destruct (EN _ Hx) as (i & ctx & e & pu & a & _ & A & <- & _). exact (j_made _ _ J _ _ _ A eq_refl).
    - intros i j st st' x Hi Hj Hx Hx'. destruct (F _ _ _ Hi Hx) as [(st0 & A & B & _)|(E & (t & v & El) & C & _)];
      destruct (F _ _ _ Hj Hx') as [(st1 & A' & B' & _)|(E' & (t' & v' & El') & C' & _)].
      + exact (j_distinct _ _ J _ _ _ _ _ A A' B B').
      + exfalso. rewrite El' in E'. exact (FR x (j_made _ _ J _ _ _ A B) _ _ _ El' C' E').
      + exfalso. rewrite El in E. exact (FR x (j_made _ _ J _ _ _ A' B') _ _ _ El C E).
      + congruence.
    - intros i st x Hi Hx Hin. rewrite ended_app in Hin. apply in_app_or in Hin. destruct (F _ _ _ Hi Hx) as [(st0 & A & B & D)|(E & (t & v & El) & C & D & _)].
      + destruct Hin as [Hin|Hin]; [exact (j_once _ _ J _ _ _ A B Hin)|contradiction].
      + rewrite D in Hin. destruct Hin as [Hin|[]]. rewrite El in E. exact (FR x (j_ended _ _ J _ Hin) _ _ _ El C E).
    - intros i x c Hin. rewrite ended_app. apply in_app_or in Hin. destruct Hin as [Hin|Hin].
      + destruct (j_listen _ _ J _ _ _ Hin) as [A|(ctx & e & pu & A & B & D)]; [left; apply in_or_app; auto|].
        destruct l as [j a| | | | | |]; try (right; exists ctx, e, pu; split; [|auto]; rewrite <- A; apply (tst_kept _ _ _ _ _ _ H); [discriminate|congruence]).
        destruct (Nat.eq_dec j i) as [->|N].
        * cbn [step] in H. destruct (task_step_fid _ _ _ _ _ _ _ H A) as (st' & Hst' & [(E & E')|[(E & E' & _)|(ctx' & e' & pu' & Est & E & E' & NL)]]).
          -- (* fid kept, state still TSend: impossible since TSend always ends *)
             exfalso. unfold tst in A. cbn [step] in H. unfold task_step in H. destruct (nth_error (e_tasks s) i) as [tk|]; [|discriminate]. cbn in A. inversion A as [A1]. rewrite A1 in H.
             destruct a; try discriminate H; destruct pu; try discriminate H; apply some_pair in H; destruct H as [_ <-]; discriminate E.
          -- discriminate.
          -- left. apply in_or_app. right. rewrite E. inversion Est; subst. left. reflexivity.
        * right. exists ctx, e, pu. split; [|auto]. rewrite <- A. apply (tst_kept _ _ _ _ _ _ H); [intros a' Q; congruence|congruence].
      + destruct (listen_step _ _ _ _ _ _ _ _ H Hin) as (a & ctx & e & w & pu & _ & _ & A & _ & _ & B & D). right. exists ctx, e, pu. auto.
    - assert (X : forall i i' x c c', In (OListen i x c) tr -> In (OListen i' x c') os -> False).
      { intros i i' x c c' Hin Hin'. destruct (listen_step _ _ _ _ _ _ _ _ H Hin') as (a & ctx & e & w & pu & -> & A & <- & _).
        destruct (j_listen _ _ J _ _ _ Hin) as [Q|(ctx' & e' & pu' & Q & E & _)].
        - exact (j_once _ _ J _ _ _ A eq_refl Q).
        - assert (i = i') by (apply (j_distinct _ _ J _ _ _ _ (ev_id e) Q A); cbn; congruence). subst i'. congruence. }
      intros i i' x c c' Hin Hin'. apply in_app_or in Hin. apply in_app_or in Hin'. destruct Hin as [Hin|Hin], Hin' as [Hin'|Hin'].
      + exact (j_unique _ _ J _ _ _ _ _ Hin Hin').
      + destruct (X _ _ _ _ _ Hin Hin').
      + destruct (X _ _ _ _ _ Hin' Hin).
      + destruct (listen_step _ _ _ _ _ _ _ _ H Hin) as (a & ctx & e & w & pu & El & A & Ex & Ec & Eo & _).
        destruct (listen_step _ _ _ _ _ _ _ _ H Hin') as (a' & ctx' & e' & w' & pu' & El' & A' & Ex' & Ec' & Eo' & _). split; congruence.
    - rewrite ended_app. assert (ND : NoDup (ended os) /\ forall x, In x (ended os) -> ~ In x (ended tr)).
      { split.
        - destruct (ended os) as [|x r] eqn:E; [constructor|]. 
          destruct (EN x (or_introl eq_refl)) as (i & ctx & e & pu & a & _ & _ & _ & Q & _).
          inversion Q. subst. constructor; [intros []|constructor].
        - intros x Hx. destruct (EN _ Hx) as (i & ctx & e & pu & a & _ & A & <- & _). exact (j_once _ _ J _ _ _ A eq_refl). }
      destruct ND as [ND1 ND2]. clear - ND1 ND2 J. assert (N1 := j_nodup _ _ J). revert N1 ND2. generalize (ended tr) as l1.
      induction l1 as [|x l1 IH]; cbn; intros N1 D; [exact ND1|]. inversion N1; subst. constructor.
      + intros Q. apply in_app_or in Q. destruct Q as [Q|Q]; [contradiction|]. exact (D _ Q (or_introl eq_refl)).
      + apply IH; [assumption|]. intros y Hy Hy'. exact (D _ Hy (or_intror Hy')).
  Qed.
End Ids.
