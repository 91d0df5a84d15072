(** Proofs about two joined endpoints: handlers that answer each other. *)
From Verif Require Import Base BaseFacts BuilderFacts Codec Spec Ids IdsFacts Payload Builder Emit EmitFacts Ipc SpecIpc IpcFacts IpcChanFacts IpcUsers IpcLoops IpcTasks Pair SpecPair PairFacts PairServer PairQuiet SpecRest.
From Coq Require Import ZifyBool ZifyNat ZifyN.

Section Echo.
  Context (cf : side -> config) (nm : bytes).
  Hypothesis EC : forall sd, echoes (cf sd) nm.
  Definition calm (s : ep) : Prop := e_lis s = [] /\ exists a, e_conns s = [mk_conn LRun a false].
  Definition flying (e : event) : Prop := ev_name e = nm /\ ev_ns e = None /\ etype_eqb (ev_type e) End = false.
  Definition echo (sd : side) (p : pair) : Prop := (forall x, calm (p_ep p x)) /\ exists e, p_in p sd = [e] /\ p_in p (other sd) = [] /\ flying e.
  Lemma echo_round sd p : echo sd p -> exists ls p' tr, prun cf p ls = Some (p', tr) /\ echo (other sd) p' /\ count_sent tr = 1%nat /\ good_clocks ls.
  Proof.
    intros [CA (e & W1 & W2 & N & Ns & T)]. destruct (EC sd) as (cb & G & Hcb). destruct (Hcb (mk_context 0 (Some (ev_id e))) e) as (d & k & Hk).
    destruct (CA sd) as [L (a & C)]. pose proof (other_ne sd) as NE. set (s := p_ep p sd) in *. set (i := length (e_tasks s)). set (ctx := mk_context 0 (Some (ev_id e))) in *. set (t := mk_instant 0 0).
    set (s1 := add_task (mk_task (Some (ctx, e)) (TRun (cb ctx e))) s).
    set (o := event_for (mk_request ctx None nm (Ok d)) (nth_id t (e_ctr s)) d).
    set (s2 := set_task i (TSend ctx o (ForEmit k)) (next_id s1)).
    set (s3 := set_task i (TRun (k (Some (Ok (ev_id o))))) s2).
    assert (R1 : step (cf sd) s (LRecv 0 e) = Some (s1, [OReceived 0 e; OCalled 0 i ctx None e])).
    { cbn [step]. rewrite C. cbn [nth_error cn_loop]. unfold receive. rewrite L. cbn [lookup]. replace (match ev_ref e with Some _ => None | None => None end) with (@None nat) by (destruct (ev_ref e); reflexivity).
      rewrite T, Ns. unfold handle_event. rewrite N, G. reflexivity. }
    assert (I1 : nth_error (e_tasks s1) i = Some (mk_task (Some (ctx, e)) (TRun (cb ctx e)))) by (subst s1 i; rewrite tasks_add_task, nth_snoc, Nat.eqb_refl; reflexivity).
    assert (R2 : step (cf sd) s1 (LTask i (AStep t 0)) = Some (s2, [])) by (cbn [step]; unfold task_step; rewrite I1; cbn [tk_st tk_job]; rewrite Hk; reflexivity).
    assert (I2 : nth_error (e_tasks s2) i = Some (mk_task (Some (ctx, e)) (TSend ctx o (ForEmit k)))) by (subst s2; rewrite nth_set_task, Nat.eqb_refl, tasks_next_id, I1; reflexivity).
    assert (R3 : step (cf sd) s2 (LTask i (AStep t 0)) = Some (s3, [OSent i ctx o])) by (cbn [step]; unfold task_step; rewrite I2; reflexivity).
    set (p3 := mk_pair (upd (upd (upd (p_ep p) sd s1) sd s2) sd s3) (upd (upd (upd (p_in p) sd []) (other sd) (upd (p_in p) sd [] (other sd) ++ [])) (other sd) (upd (upd (p_in p) sd []) (other sd) (upd (p_in p) sd [] (other sd) ++ []) (other sd) ++ [drop_empty_ns o]))).
    exists [PDeliver sd; PDo sd (LTask i (AStep t 0)); PDo sd (LTask i (AStep t 0))], p3.
    eexists. split.
    { cbn [prun pstep]. rewrite W1. fold s. rewrite R1. cbn [own_label]. cbn [p_ep p_in]. rewrite upd_eq, R2. cbn [existsb flat_map map p_ep p_in]. rewrite upd_eq, R3. cbn [existsb is_cut orb flat_map wire_of app]. reflexivity. }
    split; [|split].
    - split.
      + intros x. unfold p3. cbn [p_ep]. destruct (two_sides sd x) as [ -> | -> ]; [rewrite upd_eq|rewrite !upd_ne by exact NE; apply CA].
        assert (X : e_lis s3 = e_lis s /\ e_conns s3 = e_conns s) by (unfold s3, s2, s1, set_task; repeat match goal with |- context[nth_error ?a ?b] => destruct (nth_error a b) end; split; reflexivity).
        destruct X as [X1 X2]. split; [rewrite X1; exact L|]. exists a. rewrite X2. exact C.
      + exists (drop_empty_ns o). unfold p3. cbn [p_in]. rewrite upd_eq. rewrite upd_eq, (upd_ne _ sd [] (other sd) NE), W2, other_other.
        assert (NE' : sd <> other sd) by (intros X; apply NE; symmetry; exact X). rewrite !(upd_ne _ (other sd) _ sd NE'), upd_eq. split; [reflexivity|]. split; [reflexivity|]. split; [reflexivity|]. split; reflexivity.
    - reflexivity.
    - intros sd' j t' v [X|[X|[X|[]]]]; try discriminate X; injection X as _ _ <- _; split; reflexivity.
  Qed.
  Lemma echo_far n sd p : echo sd p -> exists ls p' tr, prun cf p ls = Some (p', tr) /\ count_sent tr = n /\ good_clocks ls.
  Proof.
    revert sd p. induction n as [|n IH]; intros sd p H.
    - exists [], p, []. split; [reflexivity|]. split; [reflexivity|]. intros ? ? ? ? [].
    - destruct (echo_round sd p H) as (l1 & p1 & t1 & A & B & C & D). destruct (IH _ _ B) as (l2 & p2 & t2 & A2 & C2 & D2). exists (l1 ++ l2), p2, (t1 ++ t2).
      split; [rewrite prun_app, A, A2; reflexivity|]. split; [rewrite count_app; lia|]. intros sd' i t v X. apply in_app_or in X. destruct X; [eapply D|eapply D2]; eauto.
  Qed.
End Echo.
