(** Proofs about endpoints: listeners removed by handlers (C40), stopped clients (C51). *)
From Verif Require Import Base Reader BaseFacts BuilderFacts Codec Spec Ids IdsFacts Payload Builder Emit EmitFacts Ipc SpecIpc IpcFacts IpcChanFacts IpcUsers IpcLoops IpcIds IpcTasks IpcReplies IpcStreams IpcClaims IpcMore IpcFlow IpcLimits.
From Coq Require Import ZifyBool ZifyNat ZifyN.

Section Removed.
  Context (cf : config) (nc : nat) (armed : bool) (ps : list prog) (ctr : N).
  Notation runs' := (runs cf nc armed ps ctr).

  (** ** C40 *)
  Definition forgets (tr : list obs) (tk : task) (i : nat) : Prop :=
    match tk_job tk, tk_st tk, returned i tr with
    | Some (_, x), TDone, [inl _] => In (OUnlisten (ev_id x)) tr
    | _, _, _ => True
    end.
  Lemma forgets_app tr os tk i : returned i os = [] -> forgets tr tk i -> forgets (tr ++ os) tk i.
  Proof.
    intros R. unfold forgets. rewrite returned_app, R, app_nil_r. destruct (tk_job tk) as [[? x]|]; auto. destruct (tk_st tk); auto. destruct (returned i tr) as [|[b|er] [|? ?]]; auto. intros Q. apply in_or_app. auto.
  Qed.
  Lemma inv_forgets ls s tr : runs' ls s tr -> forall i tk, nth_error (e_tasks s) i = Some tk -> forgets tr tk i.
  Proof.
    apply (run_ind cf _ (fun ls s tr => forall i tk, nth_error (e_tasks s) i = Some tk -> forgets tr tk i)).
    { intros i tk. cbn [ep_new e_tasks]. rewrite nth_error_map. destruct (nth_error ps i); cbn; [|discriminate]. intros E. inversion E. exact I. }
    clear ls s tr. intros ls s tr l s' os IH HR H i tk' Hi.
    destruct (step_task _ _ _ _ _ i H) as [l N E|a tk st E1 Ht E2|l q E1 -> E|l n' sc' e' E1 E2 E].
    - rewrite E in Hi. apply forgets_app; [|auto]. destruct (quiet_sent _ _ N) as (_ & C & _). exact C.
    - rewrite E2 in Hi. inversion Hi; subst tk'. unfold forgets. cbn [tk_job tk_st]. destruct (tk_job tk) as [[jc x]|] eqn:Ej; [|exact I]. destruct st; auto.
      pose proof (inv_task _ _ _ _ _ _ _ _ HR i) as TT. rewrite E1 in TT. destruct TT as [_ TT]. rewrite Ej in TT.
      unfold task_step in Ht. rewrite E1 in Ht.
      destruct (tk_st tk) as [p|ctx1 e1 w|ctx1 e1 pu|d rid k1|d rid e1 k1|h1 k1|h1 oe k1|rid| |] eqn:Es; destruct a; try discriminate Ht.
      + (* PRet without job does not occur, other programs do not end as TDone *)
        exfalso. unfold run_prog in Ht. rewrite Ej in Ht. destruct p as [r| |rq k|rq k|rq k|h1 k|m k|k|q k]; cbn zeta in Ht;
        repeat (match type of Ht with context[match ?y with _ => _ end] => destruct y eqn:? end; try discriminate Ht);
        apply some_pair in Ht; destruct Ht as [<- <-]; revert E2; autorewrite with ep; rewrite Nat.eqb_refl, ?E1;
        try rewrite (proj2 (Nat.eqb_neq i (length (e_tasks s)))) by (pose proof (proj1 (nth_error_Some (e_tasks s) i)); rewrite E1 in *; intuition (try congruence; try lia)); cbn; congruence.
      + exfalso. apply some_pair in Ht; destruct Ht as [<- <-]; revert E2; autorewrite with ep; rewrite Nat.eqb_refl, ?E1; cbn; congruence.
      + destruct pu as [k9|d9 k9|d9 k9|ok]; try (exfalso; apply some_pair in Ht; destruct Ht as [<- <-]; revert E2; autorewrite with ep; rewrite Nat.eqb_refl, ?E1; cbn; congruence).
        cbn [state_trace] in TT. destruct TT as (x' & r & _ & So & R & _). rewrite Ej in Ht. destruct ok.
        * exfalso. apply some_pair in Ht; destruct Ht as [<- <-]; revert E2; autorewrite with ep; rewrite Nat.eqb_refl, ?E1; cbn; congruence.
        * apply some_pair in Ht; destruct Ht as [<- <-]. rewrite returned_app, R. cbn. destruct r; [discriminate|exact I].
      + destruct pu as [k9|d9 k9|d9 k9|ok]; try (exfalso; apply some_pair in Ht; destruct Ht as [<- <-]; revert E2; autorewrite with ep; rewrite Nat.eqb_refl, ?E1; cbn; congruence).
        cbn [state_trace] in TT. destruct TT as (x' & r & _ & So & R & _). rewrite Ej in Ht. destruct ok.
        * exfalso. apply some_pair in Ht; destruct Ht as [<- <-]; revert E2; autorewrite with ep; rewrite Nat.eqb_refl, ?E1; cbn; congruence.
        * apply some_pair in Ht; destruct Ht as [<- <-]. rewrite returned_app, R. cbn. destruct r; [discriminate|exact I].
      + exfalso. destruct pu; try discriminate; apply some_pair in Ht; destruct Ht as [<- <-]; revert E2; autorewrite with ep; rewrite Nat.eqb_refl, ?E1; cbn; congruence.
      + exfalso. repeat (match type of Ht with context[match ?y with _ => _ end] => destruct y eqn:? end; try discriminate Ht); apply some_pair in Ht; destruct Ht as [<- <-]; revert E2; autorewrite with ep; rewrite Nat.eqb_refl, ?E1; cbn; congruence.
      + exfalso. apply some_pair in Ht; destruct Ht as [<- <-]; revert E2; autorewrite with ep; rewrite Nat.eqb_refl, ?E1; cbn; congruence.
      + exfalso. apply some_pair in Ht; destruct Ht as [<- <-]; revert E2; autorewrite with ep; rewrite Nat.eqb_refl, ?E1; cbn; congruence.
      + exfalso. repeat (match type of Ht with context[match ?y with _ => _ end] => destruct y eqn:? end; try discriminate Ht); apply some_pair in Ht; destruct Ht as [<- <-]; revert E2; autorewrite with ep; rewrite Nat.eqb_refl, ?E1; cbn; congruence.
      + exfalso. repeat (match type of Ht with context[match ?y with _ => _ end] => destruct y eqn:? end; try discriminate Ht); apply some_pair in Ht; destruct Ht as [<- <-]; revert E2; autorewrite with ep; rewrite Nat.eqb_refl, ?E1; cbn; congruence.
      + exfalso. repeat (match type of Ht with context[match ?y with _ => _ end] => destruct y eqn:? end; try discriminate Ht); apply some_pair in Ht; destruct Ht as [<- <-]; revert E2; autorewrite with ep; rewrite Nat.eqb_refl, ?E1; cbn; congruence.
      + exfalso. apply some_pair in Ht; destruct Ht as [<- <-]; revert E2; autorewrite with ep; rewrite Nat.eqb_refl, ?E1; cbn; congruence.
      + exfalso. repeat (match type of Ht with context[match ?y with _ => _ end] => destruct y eqn:? end; try discriminate Ht); apply some_pair in Ht; destruct Ht as [<- <-]; revert E2; autorewrite with ep; rewrite Nat.eqb_refl, ?E1; cbn; congruence.
      + cbn [state_trace] in TT. destruct TT as (ctx0 & x0 & r & pre & a0 & Sj & Sy & _). inversion Sj; subst. apply some_pair in Ht; destruct Ht as [<- <-].
        destruct (returned i (tr ++ [OUnlisten (ev_id x0)])) as [|[b|er] [|? ?]]; auto. apply in_or_app. right. left. reflexivity.
    - rewrite E in Hi. inversion Hi. exact I.
    - rewrite E in Hi. inversion Hi. exact I.
  Qed.
  Lemma completed_removes ls s tr n i ctx sc e b : runs' ls s tr -> In (OCalled n i ctx sc e) tr -> returned i tr = [inl b] -> stuck cf s i -> In (OUnlisten (ev_id e)) tr.
  Proof.
    intros H Hc R ST. destruct (called_job _ _ _ _ _ _ _ _ _ _ _ _ _ H Hc) as (st & Ht & Hctx & S). pose proof (inv_forgets _ _ _ H _ _ Ht) as F. unfold forgets in F. cbn [tk_job tk_st] in F. rewrite R in F.
    destruct st as [p|c0 e0 w|c0 e0 pu|d rid k|d rid e0 k|h k|h oe k|rid| |]; cbn [state_trace] in S; try (destruct S as [S _]; congruence); try (destruct S as (_ & S & _); congruence); try exact F.
    - exfalso. specialize (ST (mk_instant 0 0) 0). cbn [step] in ST. unfold task_step in ST. rewrite Ht in ST. cbn [tk_st tk_job] in ST. destruct pu; discriminate.
    - exfalso. specialize (ST (mk_instant 0 0) 0). cbn [step] in ST. unfold task_step in ST. rewrite Ht in ST. discriminate.
  Qed.

  (** a request whose listener was removed before anything arrived for it *)
  Lemma removed_fails ls s tr i x c k t v : runs' ls s tr -> tst s i = Some (TWait c x k) -> (forall m e, In (OReceived m e) tr -> ev_ref e <> Some x) -> registered tr x = None ->
    exists s', step cf s (LTask i (AStep t v)) = Some (s', [OGone c; OReply i x (Some (Err SendError))]) /\ e_lis s' = e_lis s.
  Proof.
    intros H T NR RG. pose proof (inv_users _ _ _ _ _ _ _ _ H) as U. destruct (u_task _ U i _ c T eq_refl) as (ch & Ec & Ei & Eo). cbn in Ei. injection Ei as Ex.
    assert (B : ch_buf ch = []).
    { pose proof (inv_chan _ _ _ _ _ _ _ _ H c) as C. rewrite Ec in C. destruct C as (_ & _ & CL & rest & Q & F). rewrite (F Eo) in Q. destruct (ch_buf ch) as [|e0 b]; [reflexivity|]. exfalso.
      assert (Hq : In e0 (queued c tr)) by (rewrite Q; apply in_or_app; right; left; reflexivity).
      destruct (queued_in _ _ _ _ _ _ _ _ _ _ H Hq) as (m & R). destruct (queued_ref _ _ _ _ _ _ _ _ H _ _ Hq) as (i' & x' & L & E). apply (NR _ _ R). rewrite E, (CL _ _ L). congruence. }
    assert (S : has_sender s c = false).
    { unfold has_sender. apply orb_false_iff. split.
      - destruct (existsb _ (e_lis s)) eqn:X; [|reflexivity]. exfalso. apply existsb_exists in X. destruct X as ([k' v'] & A & D). cbn in D. apply Nat.eqb_eq in D. subst v'.
        pose proof (inv_raw _ _ _ _ _ _ _ _ H _ _ A) as Q. unfold cid in Q. rewrite Ec in Q. cbn in Q. inversion Q as [Q']. rewrite <- Ex in Q'. subst k'. rewrite <- (inv_lis _ _ _ _ _ _ _ _ H) in RG.
        clear - A RG. induction (e_lis s) as [|[k' v'] m IH]; [destruct A|]. cbn in RG. destruct (N.eqb_spec x k'); [discriminate|]. destruct A as [A|A]; [inversion A; congruence|]. auto.
      - destruct (existsb _ (e_conns s)) eqn:X; [|reflexivity]. exfalso. apply existsb_exists in X. destruct X as (cn & A & D). destruct (cn_loop cn) as [|d e0|] eqn:El; try discriminate. apply Nat.eqb_eq in D. subst d.
        apply In_nth_error in A. destruct A as (m & A). assert (EL : option_map cn_loop (nth_error (e_conns s) m) = Some (LSend c e0)) by (rewrite A; cbn; congruence).
        destruct (u_loop _ U _ _ _ EL) as (r & Er & Q). unfold cid in Q. rewrite Ec in Q. cbn in Q. inversion Q as [Q'].
        pose proof (inv_loop _ _ _ _ _ _ _ _ H m) as L. rewrite EL in L. destruct L as (a & b & -> & _). apply (NR m e0); [apply in_or_app; right; left; reflexivity|]. congruence. }
    cbn [step]. unfold task_step. unfold tst in T. destruct (nth_error (e_tasks s) i) as [tk|]; [|discriminate]. cbn in T. inversion T as [T']. rewrite T', Ec, B, S. eexists. split; [reflexivity|]. autorewrite with ep. reflexivity.
  Qed.
  Lemma lookup_unlisten x s : lookup N.eqb x (e_lis (unlisten x s)) = None.
  Proof. cbn. apply lookup_Neqb_remove_eq. Qed.
  (** the peer can always bring this about *)
  Lemma cancelled ls s tr i x c k n e0 t v : runs' ls s tr -> tst s i = Some (TWait c x k) -> (forall m e, In (OReceived m e) tr -> ev_ref e <> Some x) ->
    lp s n = Some LRun -> ev_id e0 = x -> ev_ref e0 = None -> ev_ns e0 = None -> ev_type e0 <> End -> eh_get (cf_handler cf) (ev_name e0) = None ->
    exists s' os, run cf s [LRecv n e0; LTask (length (e_tasks s)) (AStep t v); LTask (length (e_tasks s)) (AStep t v); LTask (length (e_tasks s)) (AStep t v); LTask i (AStep t v)] = Some (s', os)
      /\ In (OReply i x (Some (Err SendError))) os /\ registered (tr ++ os) x = None.
  Proof.
    intros H T NR EL Ex Er En Et Eh. set (j := length (e_tasks s)). set (ctx := mk_context n (Some (ev_id e0))).
    assert (Lj : nth_error (e_tasks s) j = None) by (apply nth_error_None; unfold j; lia).
    assert (Ij : i <> j) by (intros ->; unfold tst in T; rewrite Lj in T; discriminate).
    (* the event is handled *)
    assert (S1 : exists s1, step cf s (LRecv n e0) = Some (s1, [OReceived n e0; OCalled n j ctx None e0]) /\ nth_error (e_tasks s1) j = Some (mk_task (Some (ctx, e0)) (TRun (PRet (inl [])))) /\ tst s1 i = tst s i).
    { unfold lp in EL. cbn [step]. destruct (nth_error (e_conns s) n) as [cn|]; [|discriminate]. cbn in EL. inversion EL as [EL']. rewrite EL'. unfold receive. rewrite Er, En.
      destruct (etype_eqb (ev_type e0) End) eqn:Z; [apply etype_End in Z; contradiction|]. unfold handle_event. rewrite Eh. eexists. split; [reflexivity|]. unfold tst. autorewrite with ep. fold j. rewrite Nat.eqb_refl.
      split; [reflexivity|]. rewrite (proj2 (Nat.eqb_neq i j) Ij). reflexivity. }
    destruct S1 as (s1 & S1 & T1 & K1). pose proof (snoc_run _ _ _ _ _ _ _ _ _ _ _ H S1) as R1.
    (* its answer is made *)
    assert (S2 : exists s2 a, step cf s1 (LTask j (AStep t v)) = Some (s2, [OReturned j (inl [])]) /\ nth_error (e_tasks s2) j = Some (mk_task (Some (ctx, e0)) (TSend ctx a (ForAnswer true)))).
    { cbn [step]. unfold task_step. rewrite T1. cbn [tk_st tk_job run_prog answer_event]. eexists _, _. split; [reflexivity|]. autorewrite with ep. rewrite Nat.eqb_refl. autorewrite with ep. rewrite T1. reflexivity. }
    destruct S2 as (s2 & a & S2 & T2). pose proof (snoc_run _ _ _ _ _ _ _ _ _ _ _ R1 S2) as R2.
    assert (K2 : tst s2 i = tst s i) by (rewrite <- K1; apply (tst_kept _ _ _ _ _ i S2); [intros ? Q; inversion Q; congruence|rewrite K1, T; discriminate]).
    (* ... sent *)
    assert (S3 : exists s3, step cf s2 (LTask j (AStep t v)) = Some (s3, [OSent j ctx a]) /\ nth_error (e_tasks s3) j = Some (mk_task (Some (ctx, e0)) (TForget x))).
    { cbn [step]. unfold task_step. rewrite T2. cbn [tk_st tk_job]. eexists. split; [reflexivity|]. autorewrite with ep. rewrite Nat.eqb_refl, T2, Ex. reflexivity. }
    destruct S3 as (s3 & S3 & T3). pose proof (snoc_run _ _ _ _ _ _ _ _ _ _ _ R2 S3) as R3.
    assert (K3 : tst s3 i = tst s i) by (rewrite <- K2; apply (tst_kept _ _ _ _ _ i S3); [intros ? Q; inversion Q; congruence|rewrite K2, T; discriminate]).
    (* ... and the listener removed *)
    assert (S4 : exists s4, step cf s3 (LTask j (AStep t v)) = Some (s4, [OUnlisten x]) /\ lookup N.eqb x (e_lis s4) = None).
    { cbn [step]. unfold task_step. rewrite T3. cbn [tk_st]. eexists. split; [reflexivity|]. autorewrite with ep. apply lookup_Neqb_remove_eq. }
    destruct S4 as (s4 & S4 & L4). pose proof (snoc_run _ _ _ _ _ _ _ _ _ _ _ R3 S4) as R4.
    assert (K4 : tst s4 i = Some (TWait c x k)) by (rewrite <- T, <- K3; apply (tst_kept _ _ _ _ _ i S4); [intros ? Q; inversion Q; congruence|rewrite K3, T; discriminate]).
    assert (NR4 : forall m e, In (OReceived m e) ((((tr ++ [OReceived n e0; OCalled n j ctx None e0]) ++ [OReturned j (inl [])]) ++ [OSent j ctx a]) ++ [OUnlisten x]) -> ev_ref e <> Some x).
    { intros m e Q. apply in_app_or in Q. destruct Q as [Q|[Q|[]]]; [|discriminate]. apply in_app_or in Q. destruct Q as [Q|[Q|[]]]; [|discriminate]. apply in_app_or in Q. destruct Q as [Q|[Q|[]]]; [|discriminate].
      apply in_app_or in Q. destruct Q as [Q|[Q|[Q|[]]]]; [exact (NR _ _ Q)| |discriminate]. inversion Q; subst. congruence. }
    rewrite (inv_lis _ _ _ _ _ _ _ _ R4) in L4.
    destruct (removed_fails _ _ _ i x c k t v R4 K4 NR4 L4) as (s5 & S5 & _). pose proof (snoc_run _ _ _ _ _ _ _ _ _ _ _ R4 S5) as R5.
    cbn [run]. rewrite S1, S2, S3, S4, S5. eexists _, _. split; [reflexivity|]. cbn [app]. split; [cbn [In]; tauto|].
    rewrite <- !app_assoc in L4. cbn [app] in L4. unfold registered in *. rewrite fold_left_app in *. cbn [fold_left note_listener] in *. exact L4.
  Qed.
  (** from then on replies to that request are treated as unsolicited events *)
  Lemma unsolicited ls s tr i x c ls2 s' m n e after : runs' ls s tr -> In (OListen i x c) tr -> registered tr x = None -> run cf s ls2 = Some (s', m ++ OReceived n e :: after) ->
    good_clock (ls ++ ls2) -> few_events s' -> ev_ref e = Some x -> listener_of (tr ++ m) e = None.
  Proof.
    intros H HL RG H2 GC FE Er. destruct (run_split _ _ _ _ _ _ _ H2) as (ls1 & l & ls3 & s1 & tr1 & s2 & o1 & o2 & tr2 & -> & B & C & D & -> & E).
    assert (o1 = []) as ->.
    { assert (In (OReceived n e) (o1 ++ OReceived n e :: o2)) by (apply in_or_app; right; left; reflexivity).
      destruct (step_loop _ _ _ _ _ n C) as [l NB ?|e0 c0 E0 Eo _ _|e0 E0 Eo _ _ _|e0 E0 Eo _ _ _|c0 e0 ch E0 Eo _ _ _ _|c0 e0 ch E0 Eo _ _ _|E0 Eo _|cn E0 E3 Eo _].
      - exfalso. rewrite existsb_app in NB. apply orb_false_iff in NB. destruct NB as [_ NB]. cbn in NB. rewrite Nat.eqb_refl in NB. discriminate.
      - destruct o1 as [|? [|? ?]]; [reflexivity|discriminate..].
      - destruct o1 as [|? [|? [|? ?]]]; [reflexivity|discriminate..].
      - destruct o1 as [|? [|? [|? ?]]]; [reflexivity|discriminate..].
      - destruct o1 as [|? [|? ?]]; discriminate.
      - destruct o1 as [|? [|? ?]]; discriminate.
      - destruct o1 as [|? [|? ?]]; discriminate.
      - destruct o1 as [|? [|? ?]]; discriminate. }
    unfold listener_of. rewrite Er, app_nil_r. apply (unregistered_run _ _ _ _ _ ls1 _ _ _ s1 tr1 i x c H B); auto.
    - rewrite app_assoc in GC. exact (good_app _ _ GC).
    - unfold few_events in *. pose proof (step_ctr _ _ _ _ _ C). pose proof (run_ctr _ _ _ _ _ D). lia.
  Qed.

  (** ** C51 *)
  Lemma stop_shape ls s tr n : runs' ls s tr -> (n < nc)%nat ->
    if armed then stops n tr = [] \/ exists k, stops n tr = true :: repeat false k else (exists k, stops n tr = repeat false k) /\ ~ In (OAborted n) tr.
  Proof.
    intros H L. pose proof (inv_conn _ _ _ _ _ _ _ _ H n) as C. destruct (nth_error (e_conns s) n) as [cn|] eqn:E.
    - unfold conn_trace in C. destruct (cn_armed cn); [destruct C as (-> & A & _); auto|]. destruct armed; [right; apply C|]. split; apply C.
    - apply nth_error_None in E. rewrite (conns_len _ _ _ _ _ _ _ _ H) in E. lia.
  Qed.
  Lemma stop_works ls s tr n i : runs' ls s tr -> (n < nc)%nat -> In (OStop i n true) tr ->
    In (OAborted n) tr \/ exists s', step cf s (LAbort n) = Some (s', [OAborted n]).
  Proof.
    intros H L Q. pose proof (inv_conn _ _ _ _ _ _ _ _ H n) as C. destruct (nth_error (e_conns s) n) as [cn|] eqn:E; [|apply nth_error_None in E; rewrite (conns_len _ _ _ _ _ _ _ _ H) in E; lia].
    assert (T : In true (stops n tr)) by (unfold stops; apply in_flat_map; eexists; split; [exact Q|cbn; rewrite Nat.eqb_refl; left; reflexivity]).
    unfold conn_trace in C. destruct (cn_armed cn); [destruct C as (_ & A & _); rewrite A in T; destruct T|].
    assert (armed = true) as Ea. { destruct armed; [reflexivity|]. destruct C as ((k & A) & _). rewrite A in T. apply repeat_spec in T. discriminate. }
    rewrite Ea in C. destruct C as (_ & A & B). destruct (cn_signal cn) eqn:Es; [right|left; apply B; reflexivity]. cbn [step]. rewrite E, Es. eexists. reflexivity.
  Qed.
  Lemma ended_once tr i j ctx e ctx' e' : NoDup (ended tr) -> In (OSent i ctx e) tr -> In (OCut j ctx' e') tr -> ev_id e <> ev_id e'.
  Proof.
    induction tr as [|o tr IH]; [cbn; tauto|]. unfold ended. cbn [flat_map]. intros N A B E.
    assert (I1 : forall i0 c0 e0, In (OSent i0 c0 e0) tr -> In (ev_id e0) (flat_map ended_by tr)) by (intros; apply in_flat_map; eexists; split; [eassumption|left; reflexivity]).
    assert (I2 : forall i0 c0 e0, In (OCut i0 c0 e0) tr -> In (ev_id e0) (flat_map ended_by tr)) by (intros; apply in_flat_map; eexists; split; [eassumption|left; reflexivity]).
    destruct A as [A|A], B as [B|B]; subst; try discriminate.
    - cbn in N. inversion N as [|? ? X Y]; subst. apply X. rewrite E. eauto.
    - cbn in N. inversion N as [|? ? X Y]; subst. apply X. rewrite <- E. eauto.
    - revert E. apply IH; auto. clear - N. induction (ended_by o) as [|y l IHl]; [exact N|]. inversion N; auto.
  Qed.
  Lemma timeout_only ls s tr ls2 s' os i x c k j r : runs' ls s tr -> nc = 1%nat -> In (OAborted 0) tr -> tst s i = Some (TWait c x k) -> queued c tr = [] ->
    run cf s ls2 = Some (s', os) -> good_clock (ls ++ ls2) -> few_events s' -> never_handled x (tr ++ os) -> In (OReply j x r) os -> j = i /\ (r = Some (Err Timeout) \/ r = None).
  Proof.
    intros H N A T Q H2 GC FE NH HR. pose proof (run_more _ _ _ _ _ _ _ _ _ _ _ H H2) as HR2. pose proof (inv_ask _ _ _ _ _ _ _ _ H _ _ T) as AK. cbn in AK. destruct AK as ((L & ctx & q & AS & Aq) & Tk).
    destruct (results _ _ _ _ _ _ _ _ HR2 j x r) as (d & L2 & G & RP); [apply in_or_app; auto|].
    pose proof (inv_idents _ _ _ _ _ _ _ _ HR2 GC FE) as J. destruct (j_unique _ _ J _ _ _ _ _ L2 (in_or_app _ _ _ (or_introl L))) as [-> ->]. split; [reflexivity|].
    assert (Qo : queued c os = []).
    { pose proof (done_quiet _ _ _ _ _ _ _ _ _ _ _ _ H A H2) as D. apply next_none in D. destruct (queued c os) as [|y l] eqn:Qs; [reflexivity|]. exfalso.
      assert (Y : In y (queued c os)) by (rewrite Qs; left; reflexivity). unfold queued in Y. apply in_flat_map in Y. destruct Y as (o & Y1 & Y2). destruct o; cbn in Y2; try contradiction.
      assert (n < nc)%nat by (eapply (queued_conn _ _ _ _ _ _ _ _ n c0 e HR2); apply in_or_app; auto). assert (n = 0%nat) by lia. subst n.
      assert (existsb (about 0) os = true) by (apply existsb_exists; eexists; split; [exact Y1|reflexivity]). congruence. }
    assert (T2 : taken c (tr ++ os) = []).
    { destruct (chan_prefix _ _ _ _ _ _ _ _ c HR2) as (rest & P). rewrite queued_app, Q, Qo in P. cbn in P. symmetry in P. apply app_eq_nil in P. tauto. }
    unfold reported in RP. rewrite T2 in RP. destruct RP as [->|[->|[->|(io & ctx' & e' & -> & C1 & C2)]]]; auto.
    - exfalso. eapply (no_send_error _ _ _ _ _ _ _ _ HR2 GC FE i x NH). apply in_or_app. right. exact HR.
    - exfalso. eapply (ended_once _ _ _ _ _ _ _ (j_nodup _ _ J) (in_or_app _ _ _ (or_introl AS)) C1). congruence.
  Qed.
  Lemma emit_works s i rq k d t v t' v' : tst s i = Some (TRun (PEmit rq k)) -> rq_payload rq = Ok d ->
    exists s' e, run cf s [LTask i (AStep t v); LTask i (AStep t' v')] = Some (s', [OSent i (rq_ctx rq) e]) /\ tst s' i = Some (TRun (k (Some (Ok (ev_id e))))).
  Proof.
    intros T P. unfold tst in T. destruct (nth_error (e_tasks s) i) as [tk|] eqn:E; [|discriminate]. cbn in T. inversion T as [T'].
    eexists _, _. cbn [run step]. unfold task_step at 1. rewrite E, T'. cbn [run_prog]. rewrite P.
    unfold task_step. rewrite nth_set_task, Nat.eqb_refl. autorewrite with ep. rewrite E. cbn [option_map tk_st tk_job app].
    split; [reflexivity|]. apply tst_set_task. rewrite nth_set_task, Nat.eqb_refl. autorewrite with ep. rewrite E. discriminate.
  Qed.
End Removed.
