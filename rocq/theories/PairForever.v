(** Proofs about two joined endpoints: error handlers that fail. *)
From Verif Require Import Base BaseFacts BuilderFacts Codec Spec Ids IdsFacts Payload Builder Emit EmitFacts Ipc SpecIpc IpcFacts IpcChanFacts IpcUsers IpcLoops IpcTasks Pair SpecPair PairFacts PairServer PairQuiet.
From Coq Require Import ZifyBool ZifyNat ZifyN.

Definition calm (armed : bool) (s : ep) : Prop := e_lis s = [] /\ e_streams s = [] /\ e_conns s = [mk_conn LRun armed false].
Definition idle (armed : bool) (s : ep) : Prop := calm armed s /\ forall i tk, nth_error (e_tasks s) i = Some tk -> tk_st tk = TDone.
Definition busy (armed : bool) (s : ep) (i : nat) (st : tstate) : Prop :=
  calm armed s /\ (exists job, nth_error (e_tasks s) i = Some (mk_task (Some job) st)) /\ forall j tk, nth_error (e_tasks s) j = Some tk -> j <> i -> tk_st tk = TDone.
Definition not_own (l : label) : bool := match l with LClosed _ | LRecv _ _ => true | _ => false end.

Section Forever.
  Context (cf : config) (armed : bool).
  Lemma calm_step s l s' os : calm armed s -> own_label l = true -> step cf s l = Some (s', os) -> (l = LOther /\ s' = next_id s /\ os = []) \/ exists i a, l = LTask i a /\ task_step cf s i a = Some (s', os).
  Proof.
    intros (A & B & C) O H. destruct l as [i a|n e|n|n|n|h|]; try discriminate O; cbn [step] in H.
    - eauto.
    - rewrite C in H. destruct n as [|[|n]]; discriminate H.
    - rewrite C in H. destruct n as [|[|n]]; discriminate H.
    - rewrite B in H. destruct h; discriminate H.
    - apply some_pair in H. destruct H as [<- <-]. auto.
  Qed.
  Lemma calm_next s : calm armed s -> calm armed (next_id s). Proof. intros H. exact H. Qed.
  Lemma idle_step s l s' os : idle armed s -> own_label l = true -> step cf s l = Some (s', os) -> l = LOther /\ idle armed s' /\ os = [].
  Proof.
    intros [C T] O H. destruct (calm_step _ _ _ _ C O H) as [(-> & -> & ->)|(i & a & -> & K)]; [split; [reflexivity|]; split; [split; assumption|reflexivity]|].
    unfold task_step in K. destruct (nth_error (e_tasks s) i) as [tk|] eqn:Hi; [|discriminate]. rewrite (T _ _ Hi) in K. destruct a; discriminate.
  Qed.
  Lemma idle_recv s e s' os : idle armed s -> fails cf e -> step cf s (LRecv 0 e) = Some (s', os) -> wired os = [] /\ exists er, busy armed s' (length (e_tasks s)) (TRun (PRet (inr er))).
  Proof.
    intros [(A & B & C) T] (NE & cb & Hcb & Hf) H. cbn [step] in H. rewrite C in H. cbn [nth_error cn_loop] in H. unfold receive in H. rewrite A in H. cbn [lookup] in H.
    replace (match ev_ref e with Some _ => None | None => None end) with (@None nat) in H by (destruct (ev_ref e); reflexivity).
    destruct (etype_eqb (ev_type e) End) eqn:Ee; [apply etype_End in Ee; contradiction|].
    destruct (Hf (mk_context 0 (Some (ev_id e)))) as (er & Hr).
    assert (HE : forall (h : event_handler callback) sc, eh_get h (ev_name e) = Some cb -> busy armed (fst (handle_event s 0 h sc e)) (length (e_tasks s)) (TRun (PRet (inr er)))).
    { intros h sc Hh. unfold handle_event. rewrite Hh, Hr. cbn [fst]. split; [|split].
      - split; [exact A|]. split; [exact B|exact C].
      - eexists. rewrite tasks_add_task, nth_snoc, Nat.eqb_refl. reflexivity.
      - intros j tk X N. rewrite tasks_add_task, nth_snoc in X. destruct (Nat.eqb_spec j (length (e_tasks s))); [contradiction|eauto]. }
    unfold scope_of in Hcb. destruct (match ev_ns e with Some ns => lookup bytes_eqb ns (cf_namespaces cf) | None => None end) as [nsp|] eqn:En.
    - unfold handle_event in H. apply some_pair in H. destruct H as [<- <-]. split; [reflexivity|]. exists er. apply (HE (ns_handler nsp) (ev_ns e)).
      destruct (ev_ns e) as [ns|]; [|discriminate]. rewrite lookup_existsb, En in Hcb. cbn [callbacks] in Hcb. rewrite En in Hcb. exact Hcb.
    - unfold handle_event in H. apply some_pair in H. destruct H as [<- <-]. split; [reflexivity|]. exists er. apply (HE (cf_handler cf) None).
      destruct (ev_ns e) as [ns|]; [|exact Hcb]. rewrite lookup_existsb, En in Hcb. exact Hcb.
  Qed.
  Lemma busy_set s i st0 st s1 : busy armed s i st0 -> calm armed s1 -> e_tasks s1 = e_tasks s -> busy armed (set_task i st s1) i st.
  Proof.
    intros (_ & (job & Hi) & T) (A & B & C) E. split; [|split].
    - unfold calm. autorewrite with ep. auto.
    - exists job. rewrite nth_set_task, Nat.eqb_refl, E, Hi. reflexivity.
    - intros j tk X N. rewrite nth_set_task, E in X. destruct (Nat.eqb_spec j i); [contradiction|eauto].
  Qed.
  Lemma busy_run s i er l s' os : busy armed s i (TRun (PRet (inr er))) -> own_label l = true -> step cf s l = Some (s', os) ->
    (l = LOther /\ busy armed s' i (TRun (PRet (inr er))) /\ os = [])
    \/ (exists t v ctx nid, l = LTask i (AStep t v) /\ os = [OReturned i (inr er)] /\
        busy armed s' i (TSend ctx (event_new nid None ERROR_EVENT_NAME (be 2 500 ++ be 4 (blen (cf_debug cf er)) ++ cf_debug cf er) (c_ref ctx) Error) (ForAnswer false))).
  Proof.
    intros Bz O H. pose proof Bz as (C & ((ctx & x) & Hi) & T). destruct (calm_step _ _ _ _ C O H) as [(-> & -> & ->)|(j & a & -> & K)].
    - left. split; [reflexivity|]. split; [|reflexivity]. split; [exact C|]. split; [exists (ctx, x); exact Hi|exact T].
    - right. destruct (Nat.eq_dec j i) as [->|N].
      + unfold task_step in K. rewrite Hi in K. cbn [tk_st tk_job] in K. destruct a as [t v| | |]; try discriminate K. unfold run_prog in K. cbn zeta in K.
        change (answer_event cf ctx (nth_id t (e_ctr s)) (inr er)) with (Ok (event_new (nth_id t (e_ctr s)) None ERROR_EVENT_NAME (be 2 500 ++ be 4 (blen (cf_debug cf er)) ++ cf_debug cf er) (c_ref ctx) Error)) in K.
        apply some_pair in K. destruct K as [<- <-]. exists t, v, ctx, (nth_id t (e_ctr s)). split; [reflexivity|]. split; [reflexivity|]. eapply busy_set; eauto.
      + unfold task_step in K. destruct (nth_error (e_tasks s) j) as [tk|] eqn:Hj; [|discriminate]. rewrite (T _ _ Hj N) in K. destruct a; discriminate.
  Qed.
  Lemma busy_send s i ctx e l s' os : busy armed s i (TSend ctx e (ForAnswer false)) -> own_label l = true -> step cf s l = Some (s', os) -> existsb is_cut os = false ->
    (l = LOther /\ busy armed s' i (TSend ctx e (ForAnswer false)) /\ os = [])
    \/ (exists t v, l = LTask i (AStep t v) /\ os = [OSent i ctx e] /\ idle armed s').
  Proof.
    intros Bz O H NCut. pose proof Bz as (C & (job & Hi) & T). destruct (calm_step _ _ _ _ C O H) as [(-> & -> & ->)|(j & a & -> & K)].
    - left. split; [reflexivity|]. split; [|reflexivity]. split; [exact C|]. split; [exists job; exact Hi|exact T].
    - right. destruct (Nat.eq_dec j i) as [->|N].
      + unfold task_step in K. rewrite Hi in K. cbn [tk_st tk_job] in K. destruct a as [t v| | |]; try discriminate K; apply some_pair in K; destruct K as [<- <-]; [|discriminate].
        exists t, v. split; [reflexivity|]. split; [reflexivity|]. destruct (busy_set s i _ TDone s Bz C eq_refl) as (C' & (job' & Hi') & T'). split; [exact C'|].
        intros j tk X. destruct (Nat.eq_dec j i) as [->|N]; [rewrite Hi' in X; injection X as <-; reflexivity|eauto].
      + unfold task_step in K. destruct (nth_error (e_tasks s) j) as [tk|] eqn:Hj; [|discriminate]. rewrite (T _ _ Hj N) in K. destruct a; discriminate.
  Qed.
  Lemma error_fails ctx nid d : failing_error_handler cf -> fails cf (event_new nid None ERROR_EVENT_NAME d (c_ref ctx) Error).
  Proof. intros (cb & A & B). split; [discriminate|]. exists cb. split; [exact A|]. intros c. apply B. Qed.
End Forever.

Definition arm (sd : side) : bool := side_eqb sd SideA.
(** how many steps since the last send *)
Inductive phase (cf : side -> config) (p : pair) : nat -> Prop :=
| ph_wire sd e : p_in p sd = [e] -> p_in p (other sd) = [] -> idle (arm sd) (p_ep p sd) -> idle (arm (other sd)) (p_ep p (other sd)) -> fails (cf sd) e -> phase cf p 0
| ph_run sd i er : (forall sd, p_in p sd = []) -> busy (arm sd) (p_ep p sd) i (TRun (PRet (inr er))) -> idle (arm (other sd)) (p_ep p (other sd)) -> phase cf p 1
| ph_send sd i ctx nid d : (forall sd, p_in p sd = []) -> busy (arm sd) (p_ep p sd) i (TSend ctx (event_new nid None ERROR_EVENT_NAME d (c_ref ctx) Error) (ForAnswer false)) ->
    idle (arm (other sd)) (p_ep p (other sd)) -> phase cf p 2.
Definition only_errors (tr : list (side * obs)) : Prop := forall sd i ctx e, In (sd, OSent i ctx e) tr -> ev_type e = Error.
Definition going (ls : list plabel) : nat := length (filter goes_on ls).

Section Forever2.
  Context (cf : side -> config) (ctr : side -> N) (e0 : event).
  Hypothesis F0 : fails (cf SideA) e0.
  Hypothesis FE : forall sd, failing_error_handler (cf sd).
  Local Notation w0 := (fun sd => match sd with SideA => [e0] | SideB => [] end).
  Local Notation pruns' := (pruns cf (fun _ => []) ctr w0).
  Lemma sides sd (P : side -> Prop) : P sd -> P (other sd) -> forall sd', P sd'.
  Proof. intros A B sd'. destruct (two_sides sd sd') as [ -> | -> ]; assumption. Qed.
  Lemma phase_step p n l p' os : phase cf p n -> pstep cf p l = Some (p', os) -> only_errors os /\ exists m, phase cf p' m /\ (n + (if goes_on l then 1 else 0) = 3 * count_sent os + m)%nat.
  Proof.
    intros Ph H. pose proof (pstep_view _ _ _ _ _ H) as V.
    assert (OE : forall sd, only_errors (map (fun x : obs => (sd, x)) [])) by (intros sd sd' i ctx e []).
    destruct Ph as [sd e W1 W2 I1 I2 F|sd i er W B I|sd i ctx nid d W B I].
    - destruct V as [sd' l s' o A1 A2 A3 A4 A5 A6 A7 A8|sd' e' w s' o A1 A2 A4 A5 A6 A7 A8]; subst os s'.
      + assert (D : idle (arm sd') (p_ep p sd')) by (destruct (two_sides sd sd') as [ -> | -> ]; assumption).
        destruct (idle_step _ _ _ _ _ _ D A1 A2) as (-> & D' & ->). cbn [flat_map map] in *. rewrite app_nil_r in A7. split; [apply (OE sd')|]. exists 0%nat. split; [|reflexivity].
        destruct (two_sides sd sd') as [ -> | -> ]; [|rewrite other_other in A5, A7]; eapply ph_wire with (sd := sd) (e := e); eauto; try congruence.
      + destruct (two_sides sd sd') as [ -> | -> ]; [|congruence]. rewrite W1 in A1. injection A1 as <- <-.
        destruct (idle_recv _ _ _ _ _ _ I1 F A2) as (Wo & er & Bz). rewrite count_map. unfold sends. rewrite Wo. split.
        * intros sd' i ctx a X. apply in_map_iff in X. destruct X as (o' & X1 & X2). injection X1 as <- ->. exfalso. assert (Y : In (drop_empty_ns a) (wired o)) by (apply in_wired; eauto). rewrite Wo in Y. destruct Y.
        * exists 1%nat. split; [|reflexivity]. eapply ph_run with (sd := sd); [|exact Bz|rewrite A5; exact I2]. apply (sides sd); congruence.
    - destruct V as [sd' l s' o A1 A2 A3 A4 A5 A6 A7 A8|sd' e' w s' o A1 A2 A4 A5 A6 A7 A8]; subst os s'; [|rewrite W in A1; discriminate].
      destruct (two_sides sd sd') as [ -> | -> ].
      + destruct (busy_run _ _ _ _ _ _ _ _ B A1 A2) as [(-> & B' & ->)|(t & v & ctx & nid & -> & -> & B')].
        * cbn [flat_map map] in *. rewrite app_nil_r in A7. split; [apply (OE sd)|]. exists 1%nat. split; [|reflexivity]. eapply ph_run with (sd := sd); [|exact B'|rewrite A5; exact I]. apply (sides sd); [rewrite A6|rewrite A7]; apply W.
        * cbn [flat_map wire_of app] in A7. rewrite app_nil_r in A7. split; [intros sd' j c a [X|[]]; discriminate|]. exists 2%nat. split; [|reflexivity].
          eapply ph_send with (sd := sd); [|exact B'|rewrite A5; exact I]. apply (sides sd); [rewrite A6|rewrite A7]; apply W.
      + rewrite other_other in A5, A7. destruct (idle_step _ _ _ _ _ _ I A1 A2) as (-> & D' & ->). cbn [flat_map map] in *. rewrite app_nil_r in A7. split; [apply (OE sd)|]. exists 1%nat. split; [|reflexivity].
        eapply ph_run with (sd := sd); [|rewrite A5; exact B|exact D']. apply (sides sd); [rewrite A7|rewrite A6]; apply W.
    - destruct V as [sd' l s' o A1 A2 A3 A4 A5 A6 A7 A8|sd' e' w s' o A1 A2 A4 A5 A6 A7 A8]; subst os s'; [|rewrite W in A1; discriminate].
      destruct (two_sides sd sd') as [ -> | -> ].
      + destruct (busy_send _ _ _ _ _ _ _ _ _ B A1 A2 A3) as [(-> & B' & ->)|(t & v & -> & -> & I')].
        * cbn [flat_map map] in *. rewrite app_nil_r in A7. split; [apply (OE sd)|]. exists 2%nat. split; [|reflexivity]. eapply ph_send with (sd := sd); [|exact B'|rewrite A5; exact I]. apply (sides sd); [rewrite A6|rewrite A7]; apply W.
        * cbn [flat_map wire_of app] in A7. rewrite W in A7. cbn [app] in A7. split; [intros sd' j c a [X|[]]; injection X as <- <- <- <-; reflexivity|]. exists 0%nat. split; [|reflexivity].
          eapply ph_wire with (sd := other sd); [exact A7|rewrite other_other, A6; apply W|rewrite A5; exact I|rewrite other_other; exact I'|]. apply error_fails. apply FE.
      + rewrite other_other in A5, A7. destruct (idle_step _ _ _ _ _ _ I A1 A2) as (-> & D' & ->). cbn [flat_map map] in *. rewrite app_nil_r in A7. split; [apply (OE sd)|]. exists 2%nat. split; [|reflexivity].
        eapply ph_send with (sd := sd); [|rewrite A5; exact B|exact D']. apply (sides sd); [rewrite A7|rewrite A6]; apply W.
  Qed.
  Lemma going_app a b : going (a ++ b) = (going a + going b)%nat. Proof. unfold going. rewrite filter_app, app_length. reflexivity. Qed.
  Lemma forever ls p tr : pruns' ls p tr -> only_errors tr /\ exists m, phase cf p m /\ (m <= 2)%nat /\ (going ls = 3 * count_sent tr + m)%nat.
  Proof.
    apply (prun_ind cf _ (fun ls p tr => only_errors tr /\ exists m, phase cf p m /\ (m <= 2)%nat /\ (going ls = 3 * count_sent tr + m)%nat)).
    - split; [intros sd i ctx e []|]. exists 0%nat. split; [|split; [lia|reflexivity]].
      eapply ph_wire with (sd := SideA); [reflexivity|reflexivity| |  |exact F0]; (split; [repeat split; reflexivity|intros [|i] tk X; discriminate X]).
    - intros ls0 p0 tr0 l p' os (O & m & A & B & C) HR H. destruct (phase_step _ _ _ _ _ A H) as (O' & m' & A' & C'). split.
      + intros sd i ctx e X. apply in_app_or in X. destruct X; eauto.
      + exists m'. split; [exact A'|]. split; [destruct A'; lia|]. rewrite going_app, count_app. unfold going at 2. cbn [filter]. destruct (goes_on l); cbn [length] in *; lia.
  Qed.
  Lemma never_rests p m : phase cf p m -> ~ at_rest cf p.
  Proof.
    intros Ph R. destruct Ph as [sd e W1 W2 [(A & B & C) T] I2 F|sd i er W [K [(job & Hi) T]] I|sd i ctx nid d W [K [(job & Hi) T]] I].
    - specialize (R (PDeliver sd) eq_refl). cbn [pstep] in R. rewrite W1 in R. cbn [step] in R. rewrite C in R. cbn [nth_error cn_loop] in R. destruct (receive (cf sd) (p_ep p sd) 0 e); discriminate.
    - specialize (R (PDo sd (LTask i (AStep (mk_instant 0 0) 0))) eq_refl). cbn [pstep own_label step] in R. unfold task_step in R. rewrite Hi in R. cbn [tk_st tk_job run_prog] in R. destruct job. discriminate R.
    - specialize (R (PDo sd (LTask i (AStep (mk_instant 0 0) 0))) eq_refl). cbn [pstep own_label step] in R. unfold task_step in R. rewrite Hi in R. cbn [tk_st tk_job] in R. discriminate R.
  Qed.
  Lemma can_go p m : phase cf p m -> exists l p' os, goes_on l = true /\ pstep cf p l = Some (p', os).
  Proof.
    intros Ph. destruct Ph as [sd e W1 W2 [(A & B & C) T] I2 F|sd i er W [K [(job & Hi) T]] I|sd i ctx nid d W [K [(job & Hi) T]] I].
    - exists (PDeliver sd). cbn [pstep]. rewrite W1. cbn [step]. rewrite C. cbn [nth_error cn_loop]. destruct (receive (cf sd) (p_ep p sd) 0 e) as [s' o]. do 2 eexists. split; reflexivity.
    - exists (PDo sd (LTask i (AStep (mk_instant 0 0) 0))). cbn [pstep own_label step]. unfold task_step. rewrite Hi. cbn [tk_st tk_job run_prog]. destruct job as [ctx x]. do 2 eexists. split; reflexivity.
    - exists (PDo sd (LTask i (AStep (mk_instant 0 0) 0))). cbn [pstep own_label step]. unfold task_step. rewrite Hi. cbn [tk_st tk_job]. do 2 eexists. split; reflexivity.
  Qed.
  Lemma goes_far n : forall ls p tr, pruns' ls p tr -> exists ls' p' tr', pruns' (ls ++ ls') p' (tr ++ tr') /\ (n <= going ls')%nat.
  Proof.
    induction n as [|n IH]; intros ls p tr HR.
    - exists [], p, []. rewrite !app_nil_r. split; [exact HR|lia].
    - destruct (IH _ _ _ HR) as (ls' & p' & tr' & HR' & L). destruct (forever _ _ _ HR') as (_ & m & Ph & _). destruct (can_go _ _ Ph) as (l & p2 & os & G & H).
      exists (ls' ++ [l]), p2, (tr' ++ os). rewrite !app_assoc. split; [exact (psnoc_run _ _ _ _ _ _ _ _ HR' H)|]. rewrite going_app. unfold going at 2. cbn [filter]. rewrite G. cbn [length]. lia.
  Qed.
End Forever2.
