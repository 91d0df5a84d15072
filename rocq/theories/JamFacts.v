(** Proofs about endpoints joined by a connection of finite capacity: a jam. *)
From Coq Require Import Strings.String.
From Verif Require Import Base BaseFacts BuilderFacts Codec Spec Ids IdsFacts Payload Builder Emit EmitFacts Ipc SpecIpc IpcFacts IpcChanFacts IpcUsers Pair SpecPair PairFacts Bounded SpecBounded BoundedFacts Proc.
From Coq Require Import ZifyBool ZifyNat ZifyN.

Lemma bstep_more cap cap' cf p l r : (cap <= cap')%nat -> bstep cap cf p l = Some r -> bstep cap' cf p l = Some r.
Proof.
  intros L. unfold bstep. destruct (pstep cf p l) as [[p' os]|]; [|discriminate]. destruct l as [sd l|]; [|auto].
  destruct (existsb is_sent os); [|auto]. cbn [andb]. destruct (Nat.ltb_spec (length (p_in p (other sd))) cap); [|discriminate]. destruct (Nat.ltb_spec (length (p_in p (other sd))) cap'); [auto|lia].
Qed.
Lemma brun_more cap cap' cf ls : (cap <= cap')%nat -> forall p r, brun cap cf p ls = Some r -> brun cap' cf p ls = Some r.
Proof.
  intros L. induction ls as [|l ls IH]; intros p r H; cbn [brun] in *; [exact H|].
  destruct (bstep cap cf p l) as [[p1 o1]|] eqn:E; [|discriminate]. rewrite (bstep_more _ _ _ _ _ _ L E).
  destruct (brun cap cf p1 ls) as [[p2 o2]|] eqn:E2; [|discriminate]. rewrite (IH _ _ E2). exact H.
Qed.
Lemma brun_app cap cf ls1 : forall p ls2, brun cap cf p (ls1 ++ ls2) =
  match brun cap cf p ls1 with
  | Some (p1, o1) => match brun cap cf p1 ls2 with Some (p2, o2) => Some (p2, o1 ++ o2) | None => None end
  | None => None
  end.
Proof.
  induction ls1 as [|l ls1 IH]; intros p ls2; cbn [app brun].
  - destruct (brun cap cf p ls2) as [[? ?]|]; reflexivity.
  - destruct (bstep cap cf p l) as [[p1 o1]|]; [|reflexivity]. rewrite IH. destruct (brun cap cf p1 ls1) as [[p2 o2]|]; [|reflexivity].
    destruct (brun cap cf p2 ls2) as [[p3 o3]|]; [|reflexivity]. rewrite app_assoc. reflexivity.
Qed.
Lemma put_same {A} i (x : A) l : nth_error l i = Some x -> put i x l = l.
Proof. revert i. induction l as [|y l IH]; intros [|i] H; cbn in *; try discriminate; [congruence|]. f_equal. auto. Qed.

(** ** A state nothing leads out of *)
Definition stuck_side (cap : nat) (p : pair) (sd : side) : Prop :=
  (exists c e arm ch, e_conns (p_ep p sd) = [mk_conn (LSend c e) arm false] /\ nth_error (e_chans (p_ep p sd)) c = Some ch /\ ch_open ch = true /\ (8 <= length (ch_buf ch))%nat)
  /\ (forall i tk, nth_error (e_tasks (p_ep p sd)) i = Some tk -> exists ctx e k, tk_st tk = TSend ctx e (ForEmit k))
  /\ (cap <= length (p_in p sd))%nat.
Lemma jammed cap cf p : (forall sd, stuck_side cap p sd) -> forall l, from_outside l = false -> bstep cap cf p l = None.
Proof.
  intros ST l FO. destruct l as [sd l|sd].
  - destruct (ST sd) as ((c & e & arm & ch & C & Hc & Eo & L8) & T & _). destruct (ST (other sd)) as (_ & _ & W). unfold bstep, pstep. destruct l as [i a|n e'|n|n|n|h|]; try discriminate FO; cbn [own_label]; try reflexivity.
    + cbn [step]. unfold task_step. destruct (nth_error (e_tasks (p_ep p sd)) i) as [tk|] eqn:Hi; [|reflexivity]. destruct (T _ _ Hi) as (ctx & e1 & k & ->).
      destruct a as [t v|io| |]; try reflexivity; try discriminate FO. destruct (Nat.ltb_spec (length (p_in p (other sd))) cap); [lia|]. reflexivity.
    + cbn [step]. rewrite C. destruct n as [|n]; [|destruct n; reflexivity]. cbn [nth_error cn_loop]. unfold place. rewrite Hc, Eo. destruct (Nat.ltb_spec (length (ch_buf ch)) 8); [lia|]. reflexivity.
    + cbn [step]. rewrite C. destruct n as [|n]; [|destruct n; reflexivity]. reflexivity.
  - destruct (ST sd) as ((c & e & arm & ch & C & Hc & Eo & L8) & _). unfold bstep, pstep. destruct (p_in p sd); [reflexivity|]. cbn [step]. rewrite C. reflexivity.
Qed.

(** ** The code *)
(** a handler that goes on sending responses *)
CoFixpoint talk (ctx : context) : prog := PEmit (mk_request ctx None (str "more") (Ok [])) (fun _ => talk ctx).
(** a task that sends a note for every reply *)
CoFixpoint eat (h : nat) : prog := PNext h (fun _ => PEmit (mk_request (mk_context 0 None) None (str "note") (Ok [])) (fun _ => eat h)).
Definition eater : prog := PStream (mk_request (mk_context 0 None) None (str "q") (Ok [])) (fun r => match r with Some (Ok h) => eat h | _ => PRet (inl []) end).
Definition talk_cf : config := mk_config [(str "q", fun ctx _ => talk ctx)] [] (fun _ => []) (mk_env true 1000).
Definition both : side -> config := fun _ => talk_cf.
Definition pair0 : pair := pair_new (fun _ => [eater]) (fun _ => 0) (fun _ => []).
Definition goj : action := AStep (mk_instant 1 0) 0.
Definition one (sd : side) : list plabel := [PDo (other sd) (LTask 1 goj); PDo (other sd) (LTask 1 goj); PDeliver sd; PDo sd (LPlace 0)].
Definition flood (sd : side) : list plabel :=
  one sd ++ one sd ++ one sd ++ one sd ++ one sd ++ one sd ++ one sd ++ one sd ++ [PDo sd (LTask 0 goj); PDo sd (LTask 0 goj); PDo sd (LTask 0 goj)] ++ one sd ++ firstn 3 (one sd).
Definition open (sd : side) : list plabel := [PDo sd (LTask 0 goj); PDo sd (LTask 0 goj); PDo sd (LTask 0 goj); PDeliver (other sd)].
Definition pre : list plabel := open SideA ++ open SideB ++ flood SideA ++ flood SideB.
Definition p0 : pair := match brun 1 both pair0 pre with Some (p, _) => p | None => pair0 end.
Lemma pre_runs : exists tr, brun 1 both pair0 pre = Some (p0, tr).
Proof. unfold p0. destruct (brun 1 both pair0 pre) as [[p tr]|] eqn:E; [eauto|]. exfalso. revert E. vm_compute. discriminate. Qed.
(** both receive loops are holding a reply for a full queue, one task of each has something to send, the other goes on talking *)
Record primed (p : pair) (sd : side) : Prop := mk_primed {
  m_loop : exists c e arm ch, e_conns (p_ep p sd) = [mk_conn (LSend c e) arm false] /\ nth_error (e_chans (p_ep p sd)) c = Some ch /\ ch_open ch = true /\ (8 <= length (ch_buf ch))%nat;
  m_tasks : exists ctx e k ctx' x, e_tasks (p_ep p sd) = [mk_task None (TSend ctx e (ForEmit k)); mk_task (Some (ctx', x)) (TRun (talk ctx'))]
}.
Lemma p0_primed sd : primed p0 sd /\ p_in p0 sd = [].
Proof.
  destruct sd.
  - split; [constructor|vm_compute; reflexivity].
    + do 4 eexists. split; [vm_compute; reflexivity|]. split; [vm_compute; reflexivity|]. split; [reflexivity|cbn; lia].
    + do 5 eexists. vm_compute. reflexivity.
  - split; [constructor|vm_compute; reflexivity].
    + do 4 eexists. split; [vm_compute; reflexivity|]. split; [vm_compute; reflexivity|]. split; [reflexivity|cbn; lia].
    + do 5 eexists. vm_compute. reflexivity.
Qed.
Definition fill (sd : side) : list plabel := [PDo sd (LTask 1 goj); PDo sd (LTask 1 goj)].
Definition alike (s s' : ep) : Prop := e_conns s' = e_conns s /\ e_chans s' = e_chans s.
Lemma talk_step cap p sd ctx e k ctx' x : e_tasks (p_ep p sd) = [mk_task None (TSend ctx e (ForEmit k)); mk_task (Some (ctx', x)) (TRun (talk ctx'))] ->
  exists p' e', bstep cap both p (PDo sd (LTask 1 goj)) = Some (p', []) /\ alike (p_ep p sd) (p_ep p' sd) /\ p_ep p' (other sd) = p_ep p (other sd) /\ p_in p' sd = p_in p sd /\ p_in p' (other sd) = p_in p (other sd)
    /\ e_tasks (p_ep p' sd) = [mk_task None (TSend ctx e (ForEmit k)); mk_task (Some (ctx', x)) (TSend ctx' e' (ForEmit (fun _ => talk ctx')))].
Proof.
  intros E. unfold bstep, pstep. cbn [own_label]. unfold both at 1. cbn [step]. unfold task_step. rewrite E. cbn [nth_error tk_st tk_job]. unfold run_prog. cbn [goj talk rq_payload rq_ctx].
  cbn [existsb map flat_map andb]. eexists _, _. split; [reflexivity|]. cbn [p_ep p_in]. rewrite upd_eq, upd_ne by apply other_ne. rewrite upd_eq, app_nil_r.
  split; [|split; [reflexivity|split; [apply upd_ne; intros Q; symmetry in Q; exact (other_ne _ Q)|split; [reflexivity|]]]].
  - unfold alike, set_task, next_id. cbn [e_tasks e_conns e_chans]. rewrite E. split; reflexivity.
  - unfold set_task, next_id. cbn [e_tasks]. rewrite E. reflexivity.
Qed.
Lemma fill_one cap p sd : primed p sd -> (length (p_in p (other sd)) < cap)%nat ->
  exists p' tr, brun cap both p (fill sd) = Some (p', tr) /\ primed p' sd /\ p_ep p' (other sd) = p_ep p (other sd) /\ p_in p' sd = p_in p sd /\ length (p_in p' (other sd)) = S (length (p_in p (other sd))).
Proof.
  intros [L (ctx & e & k & ctx' & x & T)] W. unfold fill. cbn [brun]. destruct (talk_step cap p sd _ _ _ _ _ T) as (p1 & e' & S1 & (A1 & A2) & A3 & A4 & A5 & T1). rewrite S1.
  unfold bstep at 1, pstep. cbn [own_label]. unfold both at 1. cbn [step]. unfold task_step. rewrite T1. cbn [nth_error tk_st tk_job goj]. cbn [existsb is_cut orb map is_sent snd]. rewrite A5.
  destruct (Nat.ltb_spec (length (p_in p (other sd))) cap); [|lia]. cbn [negb andb]. eexists _, _. split; [reflexivity|]. cbn [p_ep p_in]. split; [|split; [|split]].
  - constructor; cbn [p_ep]; rewrite upd_eq.
    + destruct L as (c & e0 & arm & ch & B1 & B2 & B3 & B4). exists c, e0, arm, ch. unfold set_task. rewrite T1. cbn [nth_error e_conns e_chans]. rewrite A1, A2. auto.
    + exists ctx, e, k, ctx', x. unfold set_task. rewrite T1. reflexivity.
  - rewrite upd_ne by apply other_ne. exact A3.
  - rewrite upd_ne by (intros Q; symmetry in Q; exact (other_ne _ Q)). exact A4.
  - rewrite upd_eq. cbn [flat_map wire_of app]. rewrite app_length. cbn. lia.
Qed.
Lemma fill_up cap sd : forall n p, primed p sd -> (n + length (p_in p (other sd)) = cap)%nat ->
  exists p' tr, brun cap both p (concat (repeat (fill sd) n)) = Some (p', tr) /\ primed p' sd /\ p_ep p' (other sd) = p_ep p (other sd) /\ p_in p' sd = p_in p sd /\ length (p_in p' (other sd)) = cap.
Proof.
  induction n as [|n IH]; intros p P L.
  - exists p, []. cbn. auto.
  - destruct (fill_one cap p sd P) as (p1 & tr1 & R1 & P1 & A & B & C); [lia|]. destruct (IH p1 P1) as (p2 & tr2 & R2 & P2 & A2 & B2 & C2); [lia|].
    exists p2, (tr1 ++ tr2). cbn [repeat concat]. rewrite brun_app, R1, R2. split; [reflexivity|]. split; [exact P2|]. split; [congruence|]. split; [congruence|exact C2].
Qed.
(** both fill the connection and then want to send once more *)
Definition jam (cap : nat) : list plabel :=
  pre ++ concat (repeat (fill SideA) cap) ++ concat (repeat (fill SideB) cap) ++ [PDo SideA (LTask 1 goj); PDo SideB (LTask 1 goj)].
Lemma jam_runs cap : (0 < cap)%nat -> exists p tr, brun cap both pair0 (jam cap) = Some (p, tr) /\ forall sd, stuck_side cap p sd.
Proof.
  intros CAP. destruct pre_runs as [tr0 R0]. apply (brun_more 1 cap) in R0; [|lia]. destruct (p0_primed SideA) as [PA WA]. destruct (p0_primed SideB) as [PB WB].
  destruct (fill_up cap SideA cap p0 PA) as (p1 & tr1 & R1 & P1 & A1 & B1 & C1); [cbn [other]; rewrite WB; cbn; lia|]. cbn [other] in *.
  assert (P1B : primed p1 SideB) by (destruct PB as [X Y]; constructor; rewrite A1; assumption).
  destruct (fill_up cap SideB cap p1 P1B) as (p2 & tr2 & R2 & P2 & A2 & B2 & C2); [cbn [other]; rewrite B1, WA; cbn; lia|]. cbn [other] in *.
  assert (P2A : primed p2 SideA) by (destruct P1 as [X Y]; constructor; rewrite A2; assumption).
  destruct P2A as [LA (ctx & e & k & ctx' & x & TA)]. destruct P2 as [LB (ctxb & eb & kb & ctxb' & xb & TB)].
  destruct (talk_step cap p2 SideA _ _ _ _ _ TA) as (p3 & e3 & S3 & (A3 & D3) & E3 & F3 & G3 & T3). cbn [other] in *. rewrite <- E3 in TB.
  destruct (talk_step cap p3 SideB _ _ _ _ _ TB) as (p4 & e4 & S4 & (A4 & D4) & E4 & F4 & G4 & T4). cbn [other] in *.
  exists p4, (tr0 ++ tr1 ++ tr2 ++ []). split.
  - unfold jam. rewrite brun_app, R0, brun_app, R1, brun_app, R2. cbn [brun]. rewrite S3, S4. reflexivity.
  - intros [|].
    + split; [|split].
      * destruct LA as (c & e0 & arm & ch & Q1 & Q2 & Q3). exists c, e0, arm, ch. rewrite E4, A3, D3. auto.
      * rewrite E4, T3. intros [|[|[|i]]] tk Q; cbn in Q; try discriminate Q; injection Q as <-; cbn; eauto.
      * rewrite G4, F3, C2. lia.
    + split; [|split].
      * destruct LB as (c & e0 & arm & ch & Q1 & Q2 & Q3). exists c, e0, arm, ch. rewrite A4, D4, E3. auto.
      * rewrite T4. intros [|[|[|i]]] tk Q; cbn in Q; try discriminate Q; injection Q as <-; cbn; eauto.
      * rewrite F4, G3, B2, C1. lia.
Qed.
Lemma jam_labels cap l : In l (jam cap) -> goes_on l = true /\ forall sd i t v, l = PDo sd (LTask i (AStep t v)) -> rust_instant t.
Proof.
  assert (G : forall l, In l [PDo SideA (LTask 0 goj); PDo SideA (LTask 1 goj); PDo SideB (LTask 0 goj); PDo SideB (LTask 1 goj); PDeliver SideA; PDeliver SideB; PDo SideA (LPlace 0); PDo SideB (LPlace 0)] ->
    goes_on l = true /\ forall sd i t v, l = PDo sd (LTask i (AStep t v)) -> rust_instant t).
  { intros l0 Q. cbn [In] in Q. assert (RI : rust_instant (mk_instant 1 0)) by (split; reflexivity).
    repeat (destruct Q as [<-|Q]; [split; [reflexivity|]; intros sd i t v E; try discriminate E; injection E as _ _ <- _; exact RI|]). destruct Q. }
  assert (P : Forall (fun l => goes_on l = true /\ forall sd i t v, l = PDo sd (LTask i (AStep t v)) -> rust_instant t) (jam cap)).
  { unfold jam. rewrite !Forall_app. split; [|split; [|split]].
    - apply Forall_forall. intros l0 Q. apply G. unfold pre, flood, one, open in Q. cbn [app other firstn] in Q. repeat (destruct Q as [<-|Q]; [cbn; tauto|]). destruct Q.
    - induction cap as [|n IH]; cbn [repeat concat]; [constructor|]. apply Forall_app. split; [|exact IH]. unfold fill. constructor; [apply G; cbn; tauto|]. constructor; [apply G; cbn; tauto|constructor].
    - induction cap as [|n IH]; cbn [repeat concat]; [constructor|]. apply Forall_app. split; [|exact IH]. unfold fill. constructor; [apply G; cbn; tauto|]. constructor; [apply G; cbn; tauto|constructor].
    - constructor; [apply G; cbn; tauto|]. constructor; [apply G; cbn; tauto|constructor]. }
  rewrite Forall_forall in P. apply P.
Qed.
