(** Proofs about endpoints: receive loops. *)
From Verif Require Import Base BaseFacts BuilderFacts Codec Spec Ids IdsFacts Payload Builder Emit EmitFacts Ipc SpecIpc IpcFacts IpcChanFacts IpcUsers.
From Coq Require Import ZifyBool ZifyNat ZifyN.

Lemma app_mid {A} (l1 l2 r1 : list A) x r2 : l1 ++ l2 = r1 ++ x :: r2 ->
  (exists m, l1 = r1 ++ x :: m /\ r2 = m ++ l2) \/ (exists m, l2 = m ++ x :: r2 /\ r1 = l1 ++ m).
Proof.
  revert r1. induction l1 as [|y l1 IH]; intros r1 H; cbn in H.
  - right. exists r1. auto.
  - destruct r1 as [|z r1]; cbn in H; inversion H; subst.
    + left. exists l1. auto.
    + destruct (IH _ H2) as [(m & -> & ->)|(m & -> & ->)]; [left|right]; exists m; auto.
Qed.
Lemma find_app {A} (f : A -> bool) l1 l2 : find f (l1 ++ l2) = match find f l1 with Some x => Some x | None => find f l2 end.
Proof. induction l1 as [|x l1 IH]; cbn; [reflexivity|]. destruct (f x); auto. Qed.
Lemma find_none_iff {A} (f : A -> bool) l : find f l = None <-> existsb f l = false.
Proof. induction l as [|x l IH]; cbn; [tauto|]. destruct (f x); cbn; [split; discriminate|exact IH]. Qed.
Lemma next_app n a b : next_about n (a ++ b) = match next_about n a with Some x => Some x | None => next_about n b end.
Proof. apply find_app. Qed.
Lemma next_none n a : next_about n a = None <-> existsb (about n) a = false.
Proof. apply find_none_iff. Qed.
Lemma last_app n a b : last_about n (a ++ b) = match last_about n b with Some x => Some x | None => last_about n a end.
Proof. unfold last_about. rewrite rev_app_distr. apply find_app. Qed.
Lemma existsb_rev {A} (f : A -> bool) l : existsb f (rev l) = existsb f l.
Proof.
  destruct (existsb f l) eqn:E.
  - apply existsb_exists in E. apply existsb_exists. destruct E as (x & H & Q). exists x. split; [apply in_rev; rewrite rev_involutive; exact H|exact Q].
  - destruct (existsb f (rev l)) eqn:E'; [|reflexivity]. apply existsb_exists in E'. destruct E' as (x & H & Q). rewrite <- E. symmetry. apply existsb_exists.
    exists x. split; [apply in_rev; exact H|exact Q].
Qed.
Lemma last_none n a : last_about n a = None <-> existsb (about n) a = false.
Proof. unfold last_about. rewrite find_none_iff, existsb_rev. tauto. Qed.
Lemma last_mid n a o b : about n o = true -> next_about n b = None -> last_about n (a ++ o :: b) = Some o.
Proof.
  intros Ho Hb. change (o :: b) with ([o] ++ b). rewrite app_assoc, last_app. apply next_none, last_none in Hb. rewrite Hb, last_app. cbn. rewrite Ho. reflexivity.
Qed.
Lemma mid_unique n a o b : forall a' o' b', a ++ o :: b = a' ++ o' :: b' -> about n o = true -> about n o' = true -> next_about n b = None -> next_about n b' = None ->
  a = a' /\ o = o' /\ b = b'.
Proof.
  induction a as [|x a IH]; intros a' o' b' H Ho Ho' Hb Hb'; destruct a' as [|y a']; cbn in H; inversion H; subst; auto.
  - rewrite next_app in Hb. destruct (next_about n a'); [discriminate|]. unfold next_about in Hb. cbn in Hb. rewrite Ho' in Hb. discriminate.
  - rewrite next_app in Hb'. destruct (next_about n a); [discriminate|]. unfold next_about in Hb'. cbn in Hb'. rewrite Ho in Hb'. discriminate.
  - destruct (IH _ _ _ H2 Ho Ho' Hb Hb') as (-> & -> & ->). auto.
Qed.

(** the loop of [n] in terms of the trace *)
Definition loop_trace (tr : list obs) (n : nat) (o : option loop) : Prop :=
  match o with
  | None => next_about n tr = None
  | Some LRun => match last_about n tr with Some (OReceived _ _) | Some (OClosed _) | Some (OAborted _) => False | _ => True end
  | Some (LSend c e) => exists a b, tr = a ++ OReceived n e :: b /\ next_about n b = None /\ listener_of a e = Some c
  | Some LDone => last_about n tr = Some (OClosed n) \/ last_about n tr = Some (OAborted n)
  end.
Section Loops.
  Context (cf : config) (nc : nat) (armed : bool) (ps : list prog) (ctr : N).
  Lemma lis_of ls s tr e : runs cf nc armed ps ctr ls s tr -> match ev_ref e with Some r => lookup N.eqb r (e_lis s) | None => None end = listener_of tr e.
  Proof. intros H. unfold listener_of. destruct (ev_ref e) as [r|]; [|reflexivity]. eapply inv_lis; exact H. Qed.
  Lemma inv_loop ls s tr : runs cf nc armed ps ctr ls s tr -> forall n, loop_trace tr n (option_map cn_loop (nth_error (e_conns s) n)).
  Proof.
    apply (run_ind cf _ (fun ls s tr => forall n, loop_trace tr n (option_map cn_loop (nth_error (e_conns s) n)))).
    { intros n. cbn [ep_new e_conns]. destruct (nth_error (repeat (mk_conn LRun armed false) nc) n) as [cn|] eqn:E; [|reflexivity].
      apply nth_error_In, repeat_spec in E. subst. cbn. exact I. }
    clear ls s tr. intros ls s tr l s' os IH HR H n. specialize (IH n).
    destruct (step_loop _ _ _ _ _ n H) as [l N E|e c E0 -> E1 E2|e E0 -> E1 Et E2|e E0 -> E1 Et E2|c e ch E0 -> E1 Eo El E2|c e ch E0 -> E1 Eo E2|E0 -> E2|cn E0 Es -> E2].
    - rewrite E. pose proof (proj2 (next_none n os) N) as N1. pose proof (proj2 (last_none n os) N) as N2.
      destruct (option_map cn_loop (nth_error (e_conns s) n)) as [[|c e|]|]; unfold loop_trace in *.
      + rewrite last_app, N2. exact IH.
      + destruct IH as (a & b & -> & B & C). exists a, (b ++ os). rewrite <- app_assoc. repeat split; auto. rewrite next_app, B. exact N1.
      + rewrite last_app, N2. exact IH.
      + rewrite next_app, IH. exact N1.
    - rewrite E2. exists tr, []. split; [reflexivity|]. split; [reflexivity|]. rewrite <- (lis_of _ _ _ e HR). exact E1.
    - rewrite E2. unfold loop_trace. rewrite last_app. cbn. rewrite Nat.eqb_refl. exact I.
    - rewrite E2. unfold loop_trace. rewrite last_app. cbn. rewrite Nat.eqb_refl. exact I.
    - rewrite E2. unfold loop_trace. rewrite last_app. cbn. rewrite Nat.eqb_refl. exact I.
    - rewrite E2. unfold loop_trace. rewrite last_app. cbn. rewrite Nat.eqb_refl. exact I.
    - rewrite E2. unfold loop_trace. rewrite last_app. cbn. rewrite Nat.eqb_refl. auto.
    - rewrite E2. unfold loop_trace. rewrite last_app. cbn. rewrite Nat.eqb_refl. auto.
  Qed.

  (** C33 *)
  Lemma all_placed ls s tr : runs cf nc armed ps ctr ls s tr -> forall n before e after, tr = before ++ OReceived n e :: after -> placed cf n before e after.
  Proof.
    apply (run_ind cf _ (fun ls s tr => forall n before e after, tr = before ++ OReceived n e :: after -> placed cf n before e after)).
    { intros n [|? ?] e after Q; discriminate. }
    clear ls s tr. intros ls s tr l s' os IH HR H n before e after Q.
    pose proof (inv_loop _ _ _ HR n) as HL.
    assert (Ab : forall o : obs, about n o = true -> existsb (about n) [o] = true) by (intros o Ho; cbn; rewrite Ho; reflexivity).
    destruct (app_mid _ _ _ _ _ Q) as [(m & -> & ->)|(m & -> & ->)].
    - specialize (IH n before e m eq_refl). unfold placed in *.
      destruct (next_about n m) as [o|] eqn:Em.
      { destruct (listener_of before e) as [c|].
        - rewrite next_app, Em. destruct IH as [IH|[IH|[IH|(a1 & i & a2 & -> & A & B)]]]; auto.
          right. right. right. exists a1, i, (a2 ++ os). split; [rewrite <- app_assoc; reflexivity|auto].
        - destruct (ev_type e); rewrite next_app, Em; exact IH. }
      destruct (listener_of before e) as [c|] eqn:El; [|exfalso; destruct (ev_type e); try discriminate IH; destruct IH; discriminate].
      clear IH. rewrite next_app, Em.
      assert (HLast : last_about n (before ++ OReceived n e :: m) = Some (OReceived n e)) by (apply last_mid; [cbn; apply Nat.eqb_refl|exact Em]).
      assert (HS : forall c0 e0, option_map cn_loop (nth_error (e_conns s) n) = Some (LSend c0 e0) -> c0 = c /\ e0 = e).
      { intros c0 e0 E. rewrite E in HL. destruct HL as (a & b & A & B & C).
        destruct (mid_unique n before (OReceived n e) m a (OReceived n e0) b A) as (E1 & E2 & E3); auto; try (cbn; apply Nat.eqb_refl).
        inversion E2. subst. split; congruence. }
      destruct (step_loop _ _ _ _ _ n H) as [l N E|e' c' E0 -> E1 E2|e' E0 -> E1 Et E2|e' E0 -> E1 Et E2|c' e' ch E0 -> E1 Eo Elen E2|c' e' ch E0 -> E1 Eo E2|E0 -> E2|cn E0 Es -> E2];
        try (rewrite E0 in HL; unfold loop_trace in HL; rewrite HLast in HL; contradiction).
      + left. apply next_none. exact N.
      + destruct (HS _ _ E0) as [-> ->]. right. right. left. unfold next_about. cbn. rewrite Nat.eqb_refl. reflexivity.
      + destruct (HS _ _ E0) as [-> ->]. right. right. right. exists m, (length (e_tasks s)), []. split; [reflexivity|]. split; [exact Em|].
        pose proof (inv_chan _ _ _ _ _ _ _ _ HR c) as HC. rewrite E1 in HC. cbn [chan_trace] in HC. destruct HC as (HG & _). rewrite Eo in HG. apply gone_iff in HG.
        unfold gone in *. apply in_app_or in HG. apply in_or_app. destruct HG as [HG|[HG|HG]]; [auto|discriminate|auto].
      + right. left. unfold next_about. cbn. rewrite Nat.eqb_refl. reflexivity.
    - assert (HA : existsb (about n) (m ++ OReceived n e :: after) = true).
      { rewrite existsb_app. cbn. rewrite Nat.eqb_refl. apply orb_true_r. }
      unfold placed. destruct (step_loop _ _ _ _ _ n H) as [l N E|e' c' E0 Eq E1 E2|e' E0 Eq E1 Et E2|e' E0 Eq E1 Et E2|c' e' ch E0 Eq E1 Eo Elen E2|c' e' ch E0 Eq E1 Eo E2|E0 Eq E2|cn E0 Es Eq E2].
      1: congruence.
      all: destruct m as [|o [|o2 m]]; cbn in Eq; inversion Eq; subst; try (destruct m; discriminate); rewrite ?app_nil_r.
      + rewrite <- (lis_of _ _ _ _ HR), E1. left. reflexivity.
      + rewrite <- (lis_of _ _ _ _ HR), E1. rewrite Et. unfold next_about. cbn. rewrite Nat.eqb_refl. reflexivity.
      + rewrite <- (lis_of _ _ _ _ HR), E1. unfold next_about. cbn [find about]. rewrite Nat.eqb_refl. destruct (ev_type e'); try congruence; eexists; reflexivity.
  Qed.
  (** nothing is delivered or handled that was not received just before *)
  Lemma all_from_received ls s tr : runs cf nc armed ps ctr ls s tr -> forall n before e o after, tr = before ++ o :: after -> delivery n e o ->
    last_about n before = Some (OReceived n e).
  Proof.
    apply (run_ind cf _ (fun ls s tr => forall n before e x after, tr = before ++ x :: after -> delivery n e x -> last_about n before = Some (OReceived n e))).
    { intros n [|? ?] e x after Q; discriminate. }
    clear ls s tr. intros ls s tr l s' os IH HR H n before e o after Q D.
    pose proof (inv_loop _ _ _ HR n) as HL.
    assert (Ho : about n o = true) by (destruct D as [[c ->]|[->|(i & ctx & sc & ->)]]; cbn; apply Nat.eqb_refl).
    destruct (app_mid _ _ _ _ _ Q) as [(m & -> & ->)|(m & -> & ->)]; [eapply IH; eauto|].
    assert (HA : existsb (about n) (m ++ o :: after) = true) by (rewrite existsb_app; cbn; rewrite Ho; apply orb_true_r).
    assert (HS : forall c0 e0, option_map cn_loop (nth_error (e_conns s) n) = Some (LSend c0 e0) -> last_about n tr = Some (OReceived n e0)).
    { intros c0 e0 E. rewrite E in HL. destruct HL as (a & b & -> & B & C). apply last_mid; [cbn; apply Nat.eqb_refl|exact B]. }
    destruct (step_loop _ _ _ _ _ n H) as [l N E|e' c' E0 Eq E1 E2|e' E0 Eq E1 Et E2|e' E0 Eq E1 Et E2|c' e' ch E0 Eq E1 Eo Elen E2|c' e' ch E0 Eq E1 Eo E2|E0 Eq E2|cn E0 Es Eq E2].
    1: congruence.
    all: destruct m as [|o1 [|o2 m]]; cbn in Eq; inversion Eq; subst; try (destruct m; discriminate); rewrite ?app_nil_r;
      destruct D as [[c D]|[D|(i & ctx & sc & D)]]; try discriminate D; inversion D; subst.
    - rewrite last_app. cbn. rewrite Nat.eqb_refl. reflexivity.
    - rewrite last_app. cbn. rewrite Nat.eqb_refl. reflexivity.
    - eauto.
    - eauto.
  Qed.
  Lemma queued_received ls s tr n c e : runs cf nc armed ps ctr ls s tr -> In (OQueued n c e) tr -> In (OReceived n e) tr.
  Proof.
    intros H Q. apply in_split in Q. destruct Q as (a & b & ->).
    assert (L : last_about n a = Some (OReceived n e)) by (eapply all_from_received; eauto; left; eauto).
    unfold last_about in L. apply find_some in L. apply in_or_app. left. apply in_rev. tauto.
  Qed.
End Loops.
