(** Proofs about endpoints joined by byte streams when nothing goes on by itself. *)
From Verif Require Import Base BaseFacts Reader ReaderFacts Codec Spec Ids IdsFacts Payload Builder Emit DecodeFacts EventProofs CodecFacts Ipc SpecIpc IpcFacts IpcChanFacts IpcUsers IpcLoops IpcTasks IpcIds IpcReplies IpcClaims IpcFlow
  Pair SpecPair PairFacts PairServer PairEnd PairRest Bounded SpecBounded BoundedFacts BytePair SpecBytes BytePairFacts.
From Coq Require Import ZifyBool ZifyNat ZifyN.

Lemma read_enabled cap cf x sd : lp (x_ep x sd) 0 = Some LRun -> x_wire x sd <> [] -> xstep cap cf x (XRead sd) <> None.
Proof.
  intros L W. unfold lp in L. destruct (nth_error (e_conns (x_ep x sd)) 0) as [cn|] eqn:Ec; [|discriminate]. cbn in L. injection L as L.
  cbn [xstep]. unfold reading. rewrite Ec, L. destruct (x_wire x sd) as [|b w]; [contradiction|]. cbn zeta.
  assert (A : forall e, step (cf sd) (x_ep x sd) (LRecv 0 e) = Some (receive (cf sd) (x_ep x sd) 0 e)) by (intros e; cbn [step]; rewrite Ec, L; reflexivity).
  assert (B : step (cf sd) (x_ep x sd) (LClosed 0) = Some (set_loop 0 LDone (x_ep x sd), [OClosed 0])) by (cbn [step]; rewrite Ec, L; reflexivity).
  destruct (run_bytes (cf_env (cf sd)) (from_async_read (cf_env (cf sd))) (x_buf x sd ++ [b])) as [[e|er|cr] rest|]; [rewrite A; destruct (receive (cf sd) (x_ep x sd) 0 e)|rewrite B..|]; discriminate.
Qed.
Lemma write_enabled cap cf x sd i ctx e pu b r : tst (x_ep x sd) i = Some (TSend ctx e pu) -> to_write (x_out x sd) i e = Some (b :: r) -> (length (x_wire x (other sd)) < cap)%nat -> xstep cap cf x (XWrite sd i) <> None.
Proof.
  intros T W L. cbn [xstep]. unfold tst in T. rewrite T. destruct (Nat.ltb_spec (length (x_wire x (other sd))) cap); [|lia]. rewrite W. destruct r as [|b' r]; [|discriminate].
  destruct (send_step (cf sd) (x_ep x sd) i ctx e pu (mk_instant 0 0) 0 T) as (s1 & o1 & S1 & _). unfold completes. rewrite S1. discriminate.
Qed.

Section Still.
  Context (cap : nat) (cf : side -> config).
  Hypothesis CAP : (0 < cap)%nat.
  (** a task that sends is held up only by a full connection *)
  Lemma send_full x p : sim x p -> xstill cap cf x -> forall sd i ctx e pu, tst (x_ep x sd) i = Some (TSend ctx e pu) -> (cap <= length (x_wire x (other sd)))%nat.
  Proof.
    intros S ST sd i ctx e pu T. destruct (le_lt_dec cap (length (x_wire x (other sd)))) as [L|L]; [exact L|exfalso].
    destruct (x_out x sd) as [[j rest]|] eqn:Eo.
    - destruct (s_wire _ _ S (other sd)) as (part & _ & B). rewrite other_other, Eo in B. destruct B as (ctx' & e' & pu' & B1 & _ & B3). destruct rest as [|b r]; [contradiction|].
      apply (write_enabled cap cf x sd j ctx' e' pu' b r B1); [unfold to_write; rewrite Eo, Nat.eqb_refl; reflexivity|exact L|]. apply ST. reflexivity.
    - destruct (wire_some e) as (b & _ & W & N). destruct b as [|b r]; [contradiction|]. apply (write_enabled cap cf x sd i ctx e pu b r T); [unfold to_write; rewrite Eo, W; reflexivity|exact L|]. apply ST. reflexivity.
  Qed.
  Lemma full_not_reading x : xstill cap cf x -> forall sd, (cap <= length (x_wire x sd))%nat -> lp (x_ep x sd) 0 <> Some LRun.
  Proof. intros ST sd L R. apply (read_enabled cap cf x sd R); [intros Q; rewrite Q in L; cbn in L; lia|]. apply ST. reflexivity. Qed.
  Lemma xstill_held x p : sim x p -> xstill cap cf x -> held_up cf p (fun sd => (cap <= length (x_wire x sd))%nat).
  Proof.
    intros S ST. constructor.
    - intros l G. destruct (pstep cf p l) as [[p' os]|] eqn:E; [|left; reflexivity]. right. destruct l as [sd l|sd]; cbn [pstep] in E.
      + destruct (own_label l) eqn:OL; [|discriminate E]. rewrite (s_ep _ _ S) in E. destruct (step (cf sd) (x_ep x sd) l) as [[s' os']|] eqn:E1; [|discriminate E]. destruct (existsb is_cut os') eqn:NC; [discriminate E|]. injection E as <- <-.
        destruct (existsb is_sent (map (fun o => (sd, o)) os')) eqn:Es.
        * apply existsb_exists in Es. destruct Es as (q & Q1 & Q2). apply in_map_iff in Q1. destruct Q1 as (o & <- & Q1). unfold is_sent in Q2. cbn [snd] in Q2. destruct o; try discriminate Q2.
          assert (N : In (ev_id e) (ended os')) by (eapply sent_ended; eauto). destruct (step_ended _ _ _ _ _ E1) as [Q|(i' & a & ->)]; [rewrite Q in N; destruct N|].
          cbn [step] in E1. destruct (tst (x_ep x sd) i') as [st|] eqn:Hi; [|unfold task_step in E1; unfold tst in Hi; destruct (nth_error (e_tasks (x_ep x sd)) i'); discriminate].
          destruct (task_step_fid _ _ _ _ _ _ _ E1 Hi) as (st' & _ & [(D & _)|[(D & _)|(ctx1 & e1 & pu1 & D & _)]]); [rewrite D in N; destruct N..|]. subst st.
          exists sd, i', a, ctx1, e1, pu1. rewrite (s_ep _ _ S). split; [reflexivity|]. split; [exact Hi|]. exact (send_full _ _ S ST _ _ _ _ _ Hi).
        * exfalso. assert (N : xstep cap cf x (XDo sd l) = None) by (apply ST; destruct l as [? []| | | | | |]; try discriminate G; reflexivity). cbn [xstep] in N. rewrite OL, E1, NC, Es in N. discriminate N.
      + exfalso. destruct (p_in p sd) as [|e w] eqn:Ep; [discriminate E|]. rewrite (s_ep _ _ S) in E. destruct (step (cf sd) (x_ep x sd) (LRecv 0 e)) as [[s' os']|] eqn:E1; [|discriminate E].
        assert (L : lp (x_ep x sd) 0 = Some LRun). { cbn [step] in E1. unfold lp. destruct (nth_error (e_conns (x_ep x sd)) 0) as [cn|]; [|discriminate E1]. cbn. destruct (cn_loop cn); try discriminate E1. reflexivity. }
        apply (read_enabled cap cf x sd L); [|apply ST; reflexivity]. destruct (s_buf _ _ S _ _ _ Ep) as (more & M1 & M2). destruct (s_wire _ _ S sd) as (part & A & _). rewrite Ep in A. cbn [map concat] in A. rewrite M1, <- !app_assoc in A. apply app_inv_head in A.
        rewrite A. intros Q. apply app_eq_nil in Q. destruct Q; contradiction.
    - intros sd L. rewrite (s_ep _ _ S). exact (full_not_reading _ ST sd L).
  Qed.
  (** nothing is on the way to an endpoint that is reading *)
  Lemma drained x p : sim x p -> xstill cap cf x -> forall sd, lp (x_ep x sd) 0 = Some LRun -> x_wire x sd = [] /\ x_out x (other sd) = None /\ (p_in p sd = [] -> x_buf x sd = []).
  Proof.
    intros S ST sd L. assert (W : x_wire x sd = []) by (destruct (x_wire x sd) eqn:E; [reflexivity|exfalso; apply (read_enabled cap cf x sd L); [congruence|apply ST; reflexivity]]).
    destruct (s_wire _ _ S sd) as (part & A & B). assert (O : x_out x (other sd) = None).
    { destruct (x_out x (other sd)) as [[i rest]|] eqn:Eo; [exfalso|reflexivity]. destruct B as (ctx & e & pu & B1 & _). assert (Q := send_full _ _ S ST _ _ _ _ _ B1). rewrite other_other, W in Q. cbn in Q. lia. }
    split; [exact W|]. split; [exact O|]. intros Q. rewrite O in B. rewrite Q, B, W, app_nil_r in A. exact A.
  Qed.
End Still.

Section NoJam.
  Context (cap : nat) (cf : side -> config) (ps : side -> list prog) (ctr : side -> N).
  Hypothesis CAP : (0 < cap)%nat.
  Theorem byte_progress ls x tr : (forall sd, plain_handlers (cf sd)) -> (forall sd, Forall (plain_code None) (ps sd)) ->
    xruns cap cf ps ctr ls x tr -> all_deliverable cf x tr -> good_xclocks ls -> (forall sd, few_events (x_ep x sd)) -> xstill cap cf x ->
    forall sd, x_wire x sd = [] /\ x_buf x sd = [] /\ x_out x sd = None /\ lp (x_ep x sd) 0 = Some LRun /\ forall i st, tst (x_ep x sd) i = Some st -> finished_or_waiting (x_ep x sd) st.
  Proof.
    intros PH PP HX AD GX FE ST. destruct (same _ _ _ _ _ _ _ HX AD) as (pls & p & PR & GC & S). assert (FE' : forall sd, few_events (p_ep p sd)) by (intros sd; rewrite (s_ep _ _ S); apply FE).
    assert (K := progress_held cf ps ctr PH PP pls p tr _ PR (GC GX) FE' (xstill_held cap cf CAP x p S ST)).
    assert (D : forall sd, x_wire x sd = [] /\ x_buf x sd = [] /\ x_out x (other sd) = None).
    { intros sd. destruct (K sd) as (K1 & K2 & _). rewrite (s_ep _ _ S) in K2. destruct (drained cap cf CAP x p S ST sd K2) as (A & B & C). auto. }
    intros sd. destruct (K sd) as (_ & K2 & K3). rewrite (s_ep _ _ S) in K2, K3. destruct (D sd) as (A & B & _). destruct (D (other sd)) as (_ & _ & C). rewrite other_other in C. auto.
  Qed.
End NoJam.

Section End.
  Context (cap : nat) (cf : side -> config) (ps : side -> list prog) (ctr : side -> N).
  Hypothesis CAP : (0 < cap)%nat.
  Hypothesis RO : only_replies (cf SideB).
  Hypothesis PB : ps SideB = [].
  Hypothesis DF : debug_fits (cf SideB) (cf_env (cf SideA)).
  Lemma unheld_rest x p : held_up cf p (fun sd => (cap <= length (x_wire x sd))%nat) -> (forall sd, x_wire x sd = []) -> at_rest cf p.
  Proof. intros HU W l G. destruct (hu_next _ _ _ HU l G) as [Q|(sd & i & a & ctx & e & pu & _ & _ & Q)]; [exact Q|exfalso]. rewrite W in Q. cbn in Q. lia. Qed.
  Theorem byte_rest ls x tr : xruns cap cf ps ctr ls x tr -> all_deliverable cf x tr -> xstill cap cf x -> ~ In (OAborted 0) (at_side SideA tr) -> room (at_side SideA tr) ->
    exists pls p, pruns cf ps ctr (fun _ => []) pls p tr /\ (good_xclocks ls -> good_clocks pls) /\ sim x p /\ at_rest cf p.
  Proof.
    intros HX AD ST NA RM. destruct (same _ _ _ _ _ _ _ HX AD) as (pls & p & PR & GC & S). assert (HU := xstill_held cap cf CAP x p S ST). exists pls, p. split; [exact PR|]. split; [exact GC|]. split; [exact S|].
    destruct (serves _ _ _ PB _ _ _ PR) as (lb & RB & NWF & NC). assert (V := inv_server _ _ _ RO _ _ _ RB NC).
    assert (LB : lp (x_ep x SideB) 0 = Some LRun) by (rewrite <- (s_ep _ _ S); unfold lp; rewrite (v_conns _ _ _ V); reflexivity).
    destruct (drained cap cf CAP x p S ST SideB LB) as (WB & _).
    assert (LA : lp (x_ep x SideA) 0 = Some LRun).
    { rewrite <- (s_ep _ _ S). eapply (client_runs cf ps ctr); eauto.
      - intros i t v. destruct (tst (p_ep p SideA) i) as [st|] eqn:Hi.
        + destruct (still_task cf p _ SideA i st HU Hi) as [Q|(ctx & e & pu & _ & Q)]; [apply Q|]. exfalso. cbn [other] in Q. rewrite WB in Q. cbn in Q. lia.
        + cbn [step]. unfold task_step. unfold tst in Hi. destruct (nth_error (e_tasks (p_ep p SideA)) i); [discriminate|reflexivity].
      - exact (still_place cf p _ SideA HU). }
    destruct (drained cap cf CAP x p S ST SideA LA) as (WA & _). eapply unheld_rest; [exact HU|]. intros [|]; assumption.
  Qed.
End End.
