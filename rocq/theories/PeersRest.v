(** Proofs about two endpoints that both ask and answer: what can be left when nothing goes on. *)
From Verif Require Import Base BaseFacts BuilderFacts Codec Spec Ids IdsFacts Payload Builder Emit EmitFacts Ipc SpecIpc IpcFacts IpcChanFacts IpcUsers IpcLoops IpcTasks IpcIds IpcReplies IpcStreams IpcClaims IpcMore IpcFlow IpcLimits IpcRemoved IpcFate Pair SpecPair PairFacts PairServer PairEnd PairRest Bounded SpecBounded BoundedFacts SpecOrder OrderFacts SpecPeers PeersFacts.
From Coq Require Import ZifyBool ZifyNat ZifyN.

Lemma plain_polite own : forall p, plain_code own p -> polite own p.
Proof. cofix CH. intros p H. destruct H; constructor; auto. Qed.
Lemma plain_polite_handlers cf : plain_handlers cf -> polite_handlers cf.
Proof. intros H sc name cb E ctx e. apply plain_polite. eapply H; eauto. Qed.
Lemma plain_polite_all own ps : Forall (plain_code own) ps -> Forall (polite own) ps.
Proof. intros H. eapply Forall_impl; [|exact H]. intros p. apply plain_polite. Qed.

(** ** One end *)
Section One.
  Context (cf : config) (nc : nat) (armed : bool) (ps : list prog) (ctr : N).
  Local Notation runs' := (runs cf nc armed ps ctr).
  Lemma ignored_end ls s tr : runs' ls s tr -> forall n e, In (OIgnored n e) tr -> ev_type e = End.
  Proof.
    apply (run_ind cf _ (fun ls s tr => forall n e, In (OIgnored n e) tr -> ev_type e = End)); [intros n e []|].
    intros l0 s0 tr0 l s' os IH _ H n e Q. apply in_app_or in Q. destruct Q as [Q|Q]; [eauto|].
    destruct (step_loop _ _ _ _ _ n H) as [l NB E1|e0 c0 E0 -> E1 E2|e0 E0 -> E1 E2 E3|e0 E0 -> E1 E2 E3|c0 e0 ch E0 -> E1 E2 E3 E4|c0 e0 ch E0 -> E1 E2 E3|E0 -> E2|cn E0 E1 -> E2];
      cbn [In] in Q; repeat (destruct Q as [Q|Q]; try discriminate Q); try contradiction; try (inversion Q; subst; assumption).
    exfalso. assert (existsb (about n) os = true); [|congruence]. apply existsb_exists. eexists. split; [exact Q|]. cbn. apply Nat.eqb_refl.
  Qed.
  Lemma aborted_done ls s tr : runs' ls s tr -> forall n, In (OAborted n) tr -> lp s n = Some LDone.
  Proof.
    apply (run_ind cf _ (fun ls s tr => forall n, In (OAborted n) tr -> lp s n = Some LDone)); [intros n []|].
    intros l0 s0 tr0 l s' os IH _ H n Q. apply in_app_or in Q. unfold lp in *.
    destruct (step_loop _ _ _ _ _ n H) as [l NB E1|e0 c0 E0 -> E1 E2|e0 E0 -> E1 E2 E3|e0 E0 -> E1 E2 E3|c0 e0 ch E0 -> E1 E2 E3 E4|c0 e0 ch E0 -> E1 E2 E3|E0 -> E2|cn E0 E1 -> E2]; try assumption;
      try (destruct Q as [Q|Q]; [apply IH in Q; congruence|cbn [In] in Q; repeat (destruct Q as [Q|Q]; try discriminate Q); contradiction]).
    rewrite E1. destruct Q as [Q|Q]; [auto|]. destruct (IpcFlow.not_about _ _ NB) as (_ & _ & N). contradiction.
  Qed.
  (** a task is dead iff it panicked *)
  Lemma panicked_by i os : In (OPanicked i) os -> existsb (by_task i) os = true.
  Proof. intros Q. apply existsb_exists. eexists. split; [exact Q|]. cbn. apply Nat.eqb_refl. Qed.
  Lemma dead_iff ls s tr : runs' ls s tr -> forall i, In (OPanicked i) tr <-> tst s i = Some TDead.
  Proof.
    apply (run_ind cf _ (fun ls s tr => forall i, In (OPanicked i) tr <-> tst s i = Some TDead)).
    { intros i. unfold tst. cbn. rewrite nth_error_map. destruct (nth_error ps i); cbn; split; try discriminate; try tauto. }
    intros l0 s0 tr0 l s' os IH HR H i. rewrite in_app_iff. specialize (IH i). unfold tst in *.
    destruct (step_task _ _ _ _ _ i H) as [l N E|a tk st E1 Ht E2|l q E1 -> E|l n' sc' e' E1 E2 E].
    - rewrite E, <- IH. split; [|auto]. intros [Q|Q]; [exact Q|]. apply panicked_by in Q. congruence.
    - rewrite E2. cbn [option_map tk_st]. rewrite E1 in IH. cbn [option_map] in IH. clear H.
      assert (D : (In (OPanicked i) os <-> st = TDead) /\ tk_st tk <> TDead).
      { clear IH HR. unfold task_step in Ht. rewrite E1 in Ht.
        assert (L : (i <> length (e_tasks s0))%nat) by (pose proof (proj1 (nth_error_Some (e_tasks s0) i)); rewrite E1 in *; intuition (try congruence; try lia)).
        destruct (tk_st tk) as [p|ctx e w|ctx e pu|d rid k|d rid e k|h1 k|h1 oe k|rid| |]; destruct a; try discriminate Ht; (split; [|discriminate]); unfold run_prog, answer_event in Ht; cbn zeta in Ht;
        repeat (match type of Ht with context[match ?x with _ => _ end] => destruct x eqn:? end; try discriminate Ht);
        apply some_pair in Ht; destruct Ht as [<- <-]; autorewrite with ep in E2; rewrite ?Nat.eqb_refl, ?(proj2 (Nat.eqb_neq _ _) L), ?E1 in E2; cbn [option_map tk_st tk_job] in E2;
        apply (f_equal (fun o => match o with Some x => tk_st x | None => st end)) in E2; cbn in E2; subst st; cbn [In];
        (split; [let Q := fresh in intros Q; repeat (destruct Q as [Q|Q]); try discriminate Q; try contradiction; try reflexivity|
                 let Q := fresh in intros Q; try discriminate Q; auto]). }
      destruct D as (D1 & D2). split.
      + intros [Q|Q]; [apply IH in Q; congruence|]. apply D1 in Q. subst st. reflexivity.
      + intros Q. right. apply D1. congruence.
    - rewrite E. rewrite (proj2 (nth_error_None _ _)) in IH by lia. cbn in IH. split; [|discriminate]. intros [Q|[]]. apply IH in Q. discriminate Q.
    - rewrite E. rewrite (proj2 (nth_error_None _ _)) in IH by lia. cbn in IH. split; [|discriminate]. intros [Q|Q]; [apply IH in Q; discriminate Q|].
      destruct E2 as [-> | ->]; cbn in Q; repeat (destruct Q as [Q|Q]; try discriminate Q); contradiction.
  Qed.
  (** a listener whose receiver is gone: its task has a result or has panicked, unless it is a stream *)
  Lemma over_how ls s tr : runs' ls s tr -> forall i x c, In (OListen i x c) tr ->
    (exists st, tst s i = Some st /\ tchan st = Some c) \/ (exists h, In (OOpened i h x c) tr) \/ (exists r, In (OReply i x r) tr) \/ (exists ctx e, In (OCut i ctx e) tr) \/ In (OPanicked i) tr.
  Proof.
    apply (run_ind cf _ (fun ls s tr => forall i x c, In (OListen i x c) tr ->
      (exists st, tst s i = Some st /\ tchan st = Some c) \/ (exists h, In (OOpened i h x c) tr) \/ (exists r, In (OReply i x r) tr) \/ (exists ctx e, In (OCut i ctx e) tr) \/ In (OPanicked i) tr)); [intros i x c []|].
    intros l0 s0 tr0 l s' os IH HR H i x c Q. apply in_app_or in Q. destruct Q as [Q|Q].
    - destruct (IH _ _ _ Q) as [(st & A & B)|[(h & A)|[(r & A)|[(ctx & e & A)|A]]]].
      + pose proof (inv_users _ _ _ _ _ _ _ _ HR) as U. destruct (u_task _ U _ _ _ A B) as (ch & C1 & C2 & C3).
        pose proof (inv_chan _ _ _ _ _ _ _ _ HR c) as CT. rewrite C1 in CT. destruct CT as (_ & _ & CT & _). pose proof (CT _ _ Q) as Ex. subst x.
        assert (D : (forall a, l <> LTask i a) \/ exists a, l = LTask i a) by (destruct l as [j a| | | | | |]; try (left; discriminate); destruct (Nat.eq_dec j i) as [->|]; [right; eauto|left; congruence]).
        destruct D as [D|(a & ->)].
        * left. exists st. split; [|exact B]. rewrite (tst_kept _ _ _ _ _ _ H D) by congruence. exact A.
        * unfold tst in A. destruct (nth_error (e_tasks s0) i) as [tk|] eqn:Hi; [|discriminate]. cbn in A. injection A as A.
          cbn [step] in H. unfold task_step in H. rewrite Hi, A in H.
          destruct st as [p|? ? ?|ctx e [k|d k|d k|ok]|d rid k|d rid e k|h k|h oe k|rid| |]; try discriminate B; cbn in B, C2; injection B as ->; injection C2 as C2; rewrite <- C2; destruct a; try discriminate H.
          -- apply some_pair in H. destruct H as [<- <-]. left. eexists. split; [apply tst_set_task; congruence|reflexivity].
          -- apply some_pair in H. destruct H as [<- <-]. right. right. left. eexists. apply in_or_app. right. right. right. left. reflexivity.
          -- apply some_pair in H. destruct H as [<- <-]. right. right. left. eexists. apply in_or_app. right. right. right. left. reflexivity.
          -- apply some_pair in H. destruct H as [<- <-]. right. left. eexists. apply in_or_app. right. right. left. reflexivity.
          -- apply some_pair in H. destruct H as [<- <-]. right. right. right. left. exists ctx, e. apply in_or_app; right; left; reflexivity.
          -- apply some_pair in H. destruct H as [<- <-]. right. right. right. left. exists ctx, e. apply in_or_app; right; left; reflexivity.
          -- rewrite C1 in H. destruct (ch_buf ch) as [|e0 b0].
             ++ destruct (has_sender s0 c); [discriminate|]. apply some_pair in H. destruct H as [<- <-]. right. right. left. eexists. apply in_or_app. right. right. left. reflexivity.
             ++ apply some_pair in H. destruct H as [<- <-]. left. eexists. split; [apply tst_set_task; rewrite tasks_set_chan; congruence|reflexivity].
          -- apply some_pair in H. destruct H as [<- <-]. right. right. left. eexists. apply in_or_app. right. right. left. reflexivity.
          -- apply some_pair in H. destruct H as [<- <-]. right. right. left. eexists. apply in_or_app. right. right. left. reflexivity.
          -- cbn zeta in H. destruct (reply_result (cf_env cf) e) as [r|er|cr] eqn:Er; apply some_pair in H; destruct H as [<- <-]; right; right.
             ++ left. eexists. apply in_or_app. right. right. right. left. reflexivity.
             ++ left. eexists. apply in_or_app. right. right. right. left. reflexivity.
             ++ right. right. apply in_or_app. right. right. right. left. reflexivity.
      + right. left. exists h. apply in_or_app. auto.
      + right. right. left. exists r. apply in_or_app. auto.
      + right. right. right. left. exists ctx, e. apply in_or_app. auto.
      + right. right. right. right. apply in_or_app. auto.
    - destruct (listen_step _ _ _ _ _ _ _ _ H Q) as (a & ctx & e & w & pu & _ & _ & _ & _ & _ & A & B). left. eexists. split; eassumption.
  Qed.
  (** who waits and has received nothing is still listening *)
  Lemma still_listening ls s tr i c x k : runs' ls s tr -> good_clock ls -> few_events s -> tst s i = Some (TWait c x k) -> option_map ch_buf (nth_error (e_chans s) c) = Some [] -> stuck cf s i -> (forall n e, lp s n <> Some (LSend c e)) ->
    lookup N.eqb x (e_lis s) = Some c /\ gone_b c tr = false /\ queued c tr = [].
  Proof.
    intros H GC FE T B ST NL. pose proof (inv_users _ _ _ _ _ _ _ _ H) as U. destruct (u_task _ U i _ c T eq_refl) as (ch & Ec & Ei & Eo). cbn in Ei. injection Ei as Ex.
    pose proof (inv_chan _ _ _ _ _ _ _ _ H c) as C. rewrite Ec in C, B. cbn in B. injection B as B. destruct C as (C1 & (i1 & C2) & C3 & rest & C4 & C5). rewrite Eo in C1. specialize (C5 Eo). subst rest.
    destruct (inv_ask _ _ _ _ _ _ _ _ H _ _ T) as ((A1 & _) & A2).
    split; [|split; [exact C1|rewrite C4, A2, B; reflexivity]].
    assert (HS : has_sender s c = true).
    { specialize (ST (mk_instant 0 0) 0). cbn [step] in ST. unfold task_step in ST. unfold tst in T. destruct (nth_error (e_tasks s) i) as [tk|]; [|discriminate]. cbn in T. injection T as T. rewrite T, Ec, B in ST. destruct (has_sender s c); [reflexivity|discriminate ST]. }
    unfold has_sender in HS. apply orb_true_iff in HS. destruct HS as [HS|HS].
    - apply existsb_exists in HS. destruct HS as ([k' v'] & A & D). cbn in D. apply Nat.eqb_eq in D. subst v'.
      pose proof (inv_raw _ _ _ _ _ _ _ _ H _ _ A) as Q. unfold cid in Q. rewrite Ec in Q. cbn in Q. injection Q as Q. rewrite <- Ex in Q. subst k'.
      assert (LK : exists d, lookup N.eqb x (e_lis s) = Some d).
      { clear - A. induction (e_lis s) as [|[k' v'] m IH]; [destruct A|]. cbn. destruct (N.eqb_spec x k'); [eauto|]. destruct A as [A|A]; [inversion A; congruence|]. auto. }
      destruct LK as (d & LK). rewrite LK. f_equal. pose proof (u_lis _ U _ _ LK) as Q. unfold cid in Q. destruct (nth_error (e_chans s) d) as [ch'|] eqn:Ed; [|discriminate]. cbn in Q. injection Q as Q.
      pose proof (inv_chan _ _ _ _ _ _ _ _ H d) as CD. rewrite Ed in CD. destruct CD as (_ & (i2 & D2) & _). rewrite Q in D2. pose proof (inv_idents _ _ _ _ _ _ _ _ H GC FE) as ID. destruct (j_unique _ _ ID _ _ _ _ _ D2 A1) as (_ & E). exact E.
    - exfalso. apply existsb_exists in HS. destruct HS as (cn & A & D). destruct (cn_loop cn) as [|d e0|] eqn:El; try discriminate. apply In_nth_error in A. destruct A as (m & A). apply Nat.eqb_eq in D. subst d. apply (NL m e0). unfold lp. rewrite A. cbn. congruence.
  Qed.
End One.

(** ** Order of what happens at both ends *)
Definition sent_at (tr : list (side * obs)) (sd : side) (x : N) (n : nat) : Prop := exists i ctx e, nth_error tr n = Some (sd, OSent i ctx e) /\ ev_id e = x.
Lemma sent_at_app tr os sd x n : sent_at tr sd x n -> sent_at (tr ++ os) sd x n.
Proof. intros (i & ctx & e & A & B). exists i, ctx, e. split; [|exact B]. rewrite nth_error_app1; [exact A|]. apply nth_error_Some. congruence. Qed.
Section Two.
  Context (cf : side -> config) (ps : side -> list prog) (ctr : side -> N).
  Local Notation pruns' := (pruns cf ps ctr (fun _ => [])).
  Lemma in_nth_lt {A} (l : list A) x : In x l -> exists n, nth_error l n = Some x /\ (n < length l)%nat.
  Proof. intros H. apply In_nth_error in H. destruct H as (n & E). exists n. split; [exact E|]. apply nth_error_Some. congruence. Qed.
  Lemma called_after_sent ls p tr : pruns' ls p tr -> forall sd n k j ctx sc q, nth_error tr n = Some (other sd, OCalled k j ctx sc q) -> exists m, (m < n)%nat /\ sent_at tr sd (ev_id q) m.
  Proof.
    apply (prun_ind cf _ (fun ls p tr => forall sd n k j ctx sc q, nth_error tr n = Some (other sd, OCalled k j ctx sc q) -> exists m, (m < n)%nat /\ sent_at tr sd (ev_id q) m)).
    - intros sd [|n] k j ctx sc q E; discriminate E.
    - intros ls0 p0 tr0 l p' os IH HR H sd n k j ctx sc q E. destruct (Nat.lt_ge_cases n (length tr0)) as [L|L].
      + rewrite nth_error_app1 in E by exact L. destruct (IH _ _ _ _ _ _ _ E) as (m & A & B). exists m. split; [exact A|]. apply sent_at_app. exact B.
      + assert (Q : In (OCalled k j ctx sc q) (at_side (other sd) os)). { apply at_side_in. rewrite nth_error_app2 in E by exact L. eapply nth_error_In. exact E. }
        assert (N : at_side sd os = []). { destruct (pstep_side cf (other sd) _ _ _ _ H) as [_ Z|l' _ Z _ _ _]; [rewrite Z in Q; destruct Q|]. rewrite other_other in Z. exact Z. }
        pose proof (psnoc_run _ _ _ _ _ _ _ _ HR H) as HR'. assert (Q' : In (OCalled k j ctx sc q) (at_side (other sd) (tr0 ++ os))) by (rewrite at_side_app; apply in_or_app; auto).
        destruct (called_was_sent _ _ _ _ _ _ _ HR' _ _ _ _ _ Q') as (W & _). rewrite at_side_app, N, app_nil_r in W. apply in_wired in W. destruct W as (i & c & a & W & ->).
        apply at_side_in in W. apply in_nth_lt in W. destruct W as (m & W1 & W2). exists m. split; [lia|]. apply sent_at_app. exists i, c, a. split; [exact W1|]. symmetry. apply drop_id.
  Qed.
  Lemma sent_after_called ls p tr : pruns' ls p tr -> forall sd j k ctx sc q, In (OCalled k j ctx sc q) (at_side sd tr) -> forall n c e, nth_error tr n = Some (sd, OSent j c e) -> exists m, (m < n)%nat /\ nth_error tr m = Some (sd, OCalled k j ctx sc q).
  Proof.
    apply (prun_ind cf _ (fun ls p tr => forall sd j k ctx sc q, In (OCalled k j ctx sc q) (at_side sd tr) -> forall n c e, nth_error tr n = Some (sd, OSent j c e) -> exists m, (m < n)%nat /\ nth_error tr m = Some (sd, OCalled k j ctx sc q))).
    - intros sd j k ctx sc q [].
    - intros ls0 p0 tr0 l p' os IH HR H sd j k ctx sc q HC n c e E. rewrite at_side_app in HC. apply in_app_or in HC.
      assert (OLD : In (OCalled k j ctx sc q) (at_side sd tr0)).
      { destruct HC as [HC|HC]; [exact HC|exfalso].
        destruct (project _ _ _ _ _ _ _ HR sd) as (la & RA & _).
        destruct (pstep_side cf sd _ _ _ _ H) as [_ Z|l' E1 _ _ _ _]; [rewrite Z in HC; destruct HC|].
        destruct (step_task _ _ _ _ _ j E1) as [l0 N Z|a tk st Z1 Ht Z2|l0 q0 Z1 Z2 Z|l0 n' sc' e' Z1 Z2 Z].
        + destruct (quiet_sent _ _ N) as (_ & _ & C). destruct (C _ _ _ _ HC).
        + exact (called_not_step _ _ _ _ _ _ _ _ _ _ _ Ht HC).
        + rewrite Z2 in HC. destruct HC.
        + assert (Q : In (OSent j c e) (at_side sd (tr0 ++ os))) by (apply at_side_in; eapply nth_error_In; exact E). rewrite at_side_app in Q. apply in_app_or in Q. destruct Q as [Q|Q].
          * assert (B : existsb (by_task j) (at_side sd tr0) = true) by (apply existsb_exists; eexists; split; [exact Q|cbn; apply Nat.eqb_refl]).
            destruct (by_task_exists _ _ _ _ _ _ _ _ _ RA B) as (tk & X). assert (j < length (e_tasks (p_ep p0 sd)))%nat by (apply nth_error_Some; congruence). lia.
          * destruct Z2 as [Z2|Z2]; rewrite Z2 in Q; cbn in Q; repeat (destruct Q as [Q|Q]; try discriminate Q); contradiction. }
      destruct (Nat.lt_ge_cases n (length tr0)) as [L|L].
      + rewrite nth_error_app1 in E by exact L. destruct (IH _ _ _ _ _ _ OLD _ _ _ E) as (m & A & B). exists m. split; [exact A|]. rewrite nth_error_app1; [exact B|]. apply nth_error_Some. congruence.
      + apply at_side_in in OLD. apply in_nth_lt in OLD. destruct OLD as (m & A & B). exists m. split; [lia|]. rewrite nth_error_app1 by exact B. exact A.
  Qed.
End Two.

Lemma processed_in q tr : In q (processed 0 tr) -> (exists d, In (OQueued 0 d q) tr) \/ In (OIgnored 0 q) tr \/ exists j cx sc, In (OCalled 0 j cx sc q) tr.
Proof.
  unfold processed. intros P. apply in_flat_map in P. destruct P as (o & P1 & P2). destruct o; try (destruct P2; fail); cbn in P2; (destruct (Nat.eqb_spec n 0) as [->|]; [|destruct P2]); destruct P2 as [ -> |[]].
  - left. eauto.
  - right. left. exact P1.
  - right. right. eauto.
Qed.
(** ** At rest *)
Section AtRest.
  Context (cf : side -> config) (ps : side -> list prog) (ctr : side -> N).
  Hypothesis PH : forall sd, plain_handlers (cf sd).
  Hypothesis PP : forall sd, Forall (plain_code None) (ps sd).
  Local Notation pruns' := (pruns cf ps ctr (fun _ => [])).
  Context (ls : list plabel) (p : pair) (tr : list (side * obs)) (full : side -> Prop).
  Hypothesis HR : pruns' ls p tr.
  Hypothesis GC : good_clocks ls.
  Hypothesis FE : forall sd, few_events (p_ep p sd).
  Hypothesis HU : held_up cf p full.
  Let PH' sd : polite_handlers (cf sd) := plain_polite_handlers _ (PH sd).
  Let PP' sd : Forall (polite None) (ps sd) := plain_polite_all _ _ (PP sd).
  Lemma rests sd : p_in p sd = [] /\ lp (p_ep p sd) 0 = Some LRun /\ forall i st, tst (p_ep p sd) i = Some st -> finished_or_waiting (p_ep p sd) st.
  Proof. exact (progress_held cf ps ctr PH PP ls p tr full HR GC FE HU sd). Qed.
  Lemma waits_stuck sd i c x k : tst (p_ep p sd) i = Some (TWait c x k) -> stuck (cf sd) (p_ep p sd) i.
  Proof.
    intros T. destruct (still_task cf p full sd i _ HU T) as [Q|(? & ? & ? & Q & _)]; [exact Q|discriminate Q].
  Qed.
  Lemma one_loop sd n d e : lp (p_ep p sd) n <> Some (LSend d e).
  Proof.
    pose proof (side_tame cf ps ctr PH PP ls p tr sd HR) as T. destruct (t_conns _ _ T) as (lo & arm & C & _). destruct (rests sd) as (_ & L & _). unfold lp in *. rewrite C in *. destruct n as [|n]; [rewrite L; discriminate|]. cbn. destruct n; discriminate.
  Qed.
  (** a waiting task has a pending request *)
  Lemma waits_pending sd i c x k : tst (p_ep p sd) i = Some (TWait c x k) -> pending (at_side sd tr) i x /\ In (OListen i x c) (at_side sd tr).
  Proof.
    intros T. destruct (project _ _ _ _ _ _ _ HR sd) as (la & RA & GA & _ & _ & NC). specialize (GA GC).
    destruct (rests sd) as (_ & _ & FW). pose proof (FW _ _ T) as B. destruct B as [B|[B|(c0 & x0 & k0 & B & B')]]; try discriminate B. injection B as <- <- <-.
    destruct (still_listening _ _ _ _ _ _ _ _ _ _ _ _ RA GA (FE sd) T B' (waits_stuck _ _ _ _ _ T) (fun n e => one_loop sd n c e)) as (LK & G & _).
    destruct (inv_ask _ _ _ _ _ _ _ _ RA _ _ T) as ((A1 & ctx & e & A2 & A3) & A4). split; [|exact A1]. split; [eauto|]. split; [eauto|]. split.
    - intros r Q. destruct (results _ _ _ _ _ _ _ _ RA _ _ _ Q) as (d & Q1 & Q2 & _). destruct (j_unique _ _ (inv_idents _ _ _ _ _ _ _ _ RA GA (FE sd)) _ _ _ _ _ A1 Q1) as (_ & <-). congruence.
    - intros Q. apply (dead_iff _ _ _ _ _ _ _ _ RA) in Q. congruence.
  Qed.
  (** a pending request has a waiting task *)
  Lemma pending_waits sd i x : pending (at_side sd tr) i x -> exists c k, tst (p_ep p sd) i = Some (TWait c x k).
  Proof.
    intros ((c & A1) & (ctx & e & A2 & A3) & A4 & A5). destruct (project _ _ _ _ _ _ _ HR sd) as (la & RA & GA & _ & _ & NC). specialize (GA GC).
    destruct (over_how _ _ _ _ _ _ _ _ RA _ _ _ A1) as [(st & B1 & B2)|[(h & B)|[(r & B)|[(cx & e' & B)|B]]]].
    - destruct (rests sd) as (_ & _ & FW). destruct (FW _ _ B1) as [-> |[-> |(c0 & x0 & k0 & -> & _)]]; try discriminate B2. cbn in B2. injection B2 as ->.
      exists c, k0. rewrite B1. f_equal. f_equal. pose proof (inv_users _ _ _ _ _ _ _ _ RA) as U. destruct (u_task _ U _ _ c B1 eq_refl) as (ch & C1 & C2 & _). cbn in C2. injection C2 as ->.
      pose proof (inv_chan _ _ _ _ _ _ _ _ RA c) as CT. rewrite C1 in CT. destruct CT as (_ & _ & CT & _). symmetry. eapply CT; eauto.
    - exfalso. pose proof (side_tame cf ps ctr PH PP ls p tr sd HR) as T. destruct (opened_stream _ _ _ _ _ _ _ _ RA _ _ _ _ B) as (y & Q & _). rewrite (t_streams _ _ T) in Q. destruct h; discriminate Q.
    - exfalso. exact (A4 _ B).
    - exfalso. assert (existsb is_cut (at_side sd tr) = true) by (apply existsb_exists; eexists; split; [exact B|reflexivity]). congruence.
    - contradiction.
  Qed.
  (** why it waits *)
  Lemma waiting_cause sd i c x k : tst (p_ep p sd) i = Some (TWait c x k) ->
    (exists d q, In (OQueued 0 d q) (at_side (other sd) tr) /\ ev_id q = x)
    \/ exists j, called_for (at_side (other sd) tr) x j /\ (In (OPanicked j) (at_side (other sd) tr) \/ exists d y k', tst (p_ep p (other sd)) j = Some (TWait d y k')).
  Proof.
    intros T. destruct (project _ _ _ _ _ _ _ HR sd) as (la & RA & GA & _ & _ & NC). specialize (GA GC).
    destruct (project _ _ _ _ _ _ _ HR (other sd)) as (lb & RB & GB & NWF & _ & NCB). specialize (GB GC).
    destruct (rests sd) as (WA & LA & FA). destruct (rests (other sd)) as (WB & LB & FB).
    destruct (inv_ask _ _ _ _ _ _ _ _ RA _ _ T) as ((A1 & ctx & e & A2 & A3) & A4).
    pose proof (inv_idents _ _ _ _ _ _ _ _ RA GA (FE sd)) as ID.
    assert (EM : emitted ctx e).
    { destruct (listen_plain _ _ _ _ _ _ _ _ RA _ _ _ A1) as [(ctx1 & e1 & pu & A & B & _)|(ctx1 & e1 & A & B & C)]; [congruence|].
      destruct A as [A|A].
      - pose proof (ended_same _ _ _ x (j_nodup _ _ ID) A2 A (or_introl A3) (or_introl B)) as Q. injection Q as <- <-. exact C.
      - exfalso. assert (existsb is_cut (at_side sd tr) = true) by (apply existsb_exists; eexists; split; [exact A|reflexivity]). congruence. }
    destruct (relayed _ _ _ _ _ _ HR (other sd)) as (hd & RL & HD). rewrite LB in HD. cbn in HD. subst hd. rewrite other_other, WB, !app_nil_r in RL.
    assert (P : In (drop_empty_ns e) (processed 0 (at_side (other sd) tr))).
    { rewrite <- RL. apply in_map. unfold sent_events. apply in_flat_map. eexists. split; [exact A2|]. left. reflexivity. }
    assert (Xq : ev_id (drop_empty_ns e) = x) by (rewrite drop_id; exact A3).
    destruct (processed_in _ _ P) as [(d & P1)|[P1|(j & cx & sc & P1)]]; clear P.
    - left. eauto.
    - exfalso. apply (ignored_end _ _ _ _ _ _ _ _ RB) in P1. rewrite drop_type in P1. destruct EM as [_ EM]. rewrite EM in P1. destruct (c_ref ctx); discriminate P1.
    - right. exists j. destruct (called_job _ _ _ _ _ _ _ _ _ _ _ _ _ RB P1) as (st & J1 & J2 & J3). subst cx. rewrite Xq in *.
      split; [exists sc, (drop_empty_ns e); split; [exact P1|rewrite drop_id; exact A3]|].
      assert (J1' : tst (p_ep p (other sd)) j = Some st) by (unfold tst; rewrite J1; reflexivity).
      destruct (FB _ _ J1') as [-> |[-> |(d & y & k' & -> & _)]]; [exfalso| |right; eauto].
      + cbn [state_trace] in J3. destruct J3 as (r & pre & a & J3 & J4 & J5 & J6). destruct J6 as [J6|(_ & k' & J6)]; [|destruct (NWF _ _ J6)].
        assert (Q : In (OSent j (mk_context 0 (Some x)) a) (at_side (other sd) tr)).
        { assert (In (mk_context 0 (Some x), a) (sent j (at_side (other sd) tr))) by (rewrite J6; apply in_or_app; right; left; reflexivity).
          unfold sent in H. apply in_flat_map in H. destruct H as (o & O1 & O2). destruct o; try contradiction. cbn in O2. destruct (Nat.eqb_spec i0 j) as [->|]; [|contradiction]. destruct O2 as [O2|[]]. injection O2 as -> ->. exact O1. }
        assert (NE : replies_to x (at_side (other sd) tr) <> []).
        { unfold replies_to. intros Z. apply map_eq_nil in Z. assert (Y : In a (filter (refers x) (sent_events (at_side (other sd) tr)))); [|rewrite Z in Y; destruct Y].
          apply filter_In. split; [unfold sent_events; apply in_flat_map; eexists; split; [exact Q|left; reflexivity]|]. destruct J4 as (J4 & _). unfold refers. rewrite J4, drop_id, A3. apply N.eqb_refl. }
        rewrite <- (reads cf ps ctr sd _ _ _ HR x), WA, app_nil_r in NE.
        destruct (FA _ _ T) as [B|[B|(c0 & x0 & k0 & B & B')]]; try discriminate B. injection B as <- <- <-.
        destruct (still_listening _ _ _ _ _ _ _ _ _ _ _ _ RA GA (FE sd) T B' (waits_stuck _ _ _ _ _ T) (fun n e => one_loop sd n c e)) as (LK & G & Qc).
        pose proof A1 as HL. apply in_split in HL. destruct HL as (a1 & b1 & Sp). 
        rewrite Sp, received_for_app, (none_before cf ps ctr sd (PH' (other sd)) (PP' (other sd)) _ _ _ HR GC (FE sd) _ _ _ _ _ Sp) in NE. cbn [app] in NE. change (OListen i x c :: b1) with ([OListen i x c] ++ b1) in NE. rewrite received_for_app in NE. cbn [app] in NE.
        assert (NA : ~ In (OAborted 0) (at_side sd tr)) by (intros Z; apply (aborted_done _ _ _ _ _ _ _ _ RA) in Z; congruence).
        pose proof (flow_kept _ _ _ _ _ 0 i x c _ _ _ RA GA (FE sd) _ _ Sp LK G NA) as F. rewrite F in NE.
        pose proof RA as RA'. rewrite Sp in RA', Qc. rewrite (queued_after _ _ _ _ _ _ _ _ _ _ _ _ RA' eq_refl) in Qc. rewrite Qc in NE. unfold held in NE. rewrite LA in NE. apply NE. reflexivity.
      + left. apply (dead_iff _ _ _ _ _ _ _ _ RB). exact J1'.
  Qed.
  Lemma waiting_blocked : forall n sd i c x k, tst (p_ep p sd) i = Some (TWait c x k) -> (forall m, sent_at tr sd x m -> (length tr <= n + m)%nat) -> blocked tr sd i x.
  Proof.
    induction n as [|n IH]; intros sd i c x k T M; destruct (waits_pending _ _ _ _ _ T) as (PD & _).
    - exfalso. destruct PD as (_ & (ctx & e & A2 & A3) & _). apply at_side_in in A2. apply in_nth_lt in A2. destruct A2 as (m & A & B). assert (L : (length tr <= 0 + m)%nat) by (apply M; exists i, ctx, e; auto). lia.
    - destruct (waiting_cause _ _ _ _ _ T) as [(d & q & Q1 & Q2)|(j & C & [D|(d & y & k' & D)])].
      + eapply bl_taken; eauto.
      + eapply bl_panic; eauto.
      + eapply bl_waits; [exact PD|exact C|]. apply IH with d k'; [exact D|].
        intros m (i2 & c2 & e2 & M1 & M2). destruct (waits_pending _ _ _ _ _ D) as ((_ & (c3 & e3 & A2 & A3) & _) & _).
        destruct (project _ _ _ _ _ _ _ HR (other sd)) as (lb & RB & GB & _). specialize (GB GC).
        assert (M3 : In (OSent i2 c2 e2) (at_side (other sd) tr)) by (apply at_side_in; eapply nth_error_In; exact M1).
        pose proof (ended_same _ _ _ y (j_nodup _ _ (inv_idents _ _ _ _ _ _ _ _ RB GB (FE (other sd)))) A2 M3 (or_introl A3) (or_introl M2)) as Q. injection Q as <- <- <-.
        destruct C as (sc & q & C1 & C2). destruct (sent_after_called _ _ _ _ _ _ HR _ _ _ _ _ _ C1 _ _ _ M1) as (m1 & L1 & N1).
        destruct (called_after_sent _ _ _ _ _ _ HR _ _ _ _ _ _ _ N1) as (m2 & L2 & N2). rewrite C2 in N2. specialize (M _ N2). lia.
  Qed.
  Theorem pending_blocked sd i x : pending (at_side sd tr) i x -> blocked tr sd i x.
  Proof. intros PD. destruct (pending_waits _ _ _ PD) as (c & k & T). apply (waiting_blocked (length tr) _ _ c x k T). intros m _. lia. Qed.
  Theorem all_done : (forall sd i, ~ In (OPanicked i) (at_side sd tr)) -> asks_freely tr -> forall sd i st, tst (p_ep p sd) i = Some st -> st = TDone.
  Proof.
    intros NP AF sd i st T. destruct (project _ _ _ _ _ _ _ HR sd) as (la & RA & _). destruct (rests sd) as (_ & _ & FW). destruct (FW _ _ T) as [-> |[-> |(c & x & k & -> & _)]]; [reflexivity| |].
    - exfalso. apply (NP sd i). apply (dead_iff _ _ _ _ _ _ _ _ RA). exact T.
    - exfalso. destruct (waits_pending _ _ _ _ _ T) as (PD & _). apply pending_blocked in PD. revert PD. clear - NP AF. intros B. induction B as [sd i x j P1 P2 P3|sd i x c q P1 P2 P3|sd i x j y P1 P2 P3 IH].
      + exact (NP _ _ P3).
      + destruct P1 as ((d & P1) & _). exact (AF _ _ _ _ _ _ P1 P2 P3).
      + exact IH.
  Qed.
  (** then every request has a result *)
  Theorem all_replied : (forall sd i, ~ In (OPanicked i) (at_side sd tr)) -> asks_freely tr -> forall sd i x c, In (OListen i x c) (at_side sd tr) -> exists r, In (OReply i x r) (at_side sd tr).
  Proof.
    intros NP AF sd i x c HL. destruct (project _ _ _ _ _ _ _ HR sd) as (la & RA & _ & _ & _ & NC).
    destruct (over_how _ _ _ _ _ _ _ _ RA _ _ _ HL) as [(st & B1 & B2)|[(h & B)|[B|[(cx & e' & B)|B]]]].
    - rewrite (all_done NP AF _ _ _ B1) in B2. discriminate B2.
    - exfalso. pose proof (side_tame cf ps ctr PH PP ls p tr sd HR) as T. destruct (opened_stream _ _ _ _ _ _ _ _ RA _ _ _ _ B) as (y & Q & _). rewrite (t_streams _ _ T) in Q. destruct h; discriminate Q.
    - exact B.
    - exfalso. assert (existsb is_cut (at_side sd tr) = true) by (apply existsb_exists; eexists; split; [exact B|reflexivity]). congruence.
    - destruct (NP _ _ B).
  Qed.
End AtRest.
