(** Proofs for C75. *)
From Coq Require Import Lia.
From Verif Require Import Base BaseFacts Reader Codec Spec Ids Payload Builder Emit Ipc SpecIpc IpcFacts IpcChanFacts IpcTasks IpcIds IpcFlow IpcReplies IpcLost Pair SpecPair PairFacts PairRest BytePair SpecBytes BytePairFacts SpecOrder SpecStop.

Section Stop.
  Variable cap : nat.
  Variable cf : side -> config.

  Lemma other_ne'' sd : sd <> other sd. Proof. destruct sd; discriminate. Qed.

  (** ** What a step is for each of the ends *)
  Lemma xstep_side sd x l x' os : xstep cap cf x l = Some (x', os) ->
    (x_ep x' sd = x_ep x sd /\ at_side sd os = []) \/ exists l', step (cf sd) (x_ep x sd) l' = Some (x_ep x' sd, at_side sd os).
  Proof.
    intros H. destruct l as [s0 l|s0 i|s0]; cbn [xstep] in H.
    - destruct (own_label l); [|discriminate]. destruct (step (cf s0) (x_ep x s0) l) as [[s' os']|] eqn:E; [|discriminate]. destruct (_ || _); [discriminate|]. injection H as <- <-.
      rewrite at_side_map. cbn [x_ep]. destruct (side_eqb s0 sd) eqn:D; [apply side_eqb_eq in D; subst; rewrite upd_eq; eauto | left; rewrite upd_ne; [auto|]; intros ->; rewrite side_eqb_refl in D; discriminate].
    - destruct (option_map tk_st (nth_error (e_tasks (x_ep x s0)) i)) as [[]|]; try discriminate. destruct (Nat.ltb _ _); [|discriminate]. destruct (to_write (x_out x s0) i e) as [[|b [|b' r]]|]; try discriminate.
      + destruct (step (cf s0) (x_ep x s0) (LTask i completes)) as [[s' os']|] eqn:E; [|discriminate]. injection H as <- <-. rewrite at_side_map. cbn [x_ep].
        destruct (side_eqb s0 sd) eqn:D; [apply side_eqb_eq in D; subst; rewrite upd_eq; eauto | left; rewrite upd_ne; [auto|]; intros ->; rewrite side_eqb_refl in D; discriminate].
      + injection H as <- <-. left. auto.
    - destruct (reading (x_ep x s0)); [|discriminate]. destruct (x_wire x s0) as [|b w]; [discriminate|].
      destruct (run_bytes _ _ _) as [[e|er|cr] rest|].
      + destruct (step (cf s0) (x_ep x s0) (LRecv 0 e)) as [[s' os']|] eqn:E; [|discriminate]. injection H as <- <-. rewrite at_side_map. cbn [x_ep].
        destruct (side_eqb s0 sd) eqn:D; [apply side_eqb_eq in D; subst; rewrite upd_eq; eauto | left; rewrite upd_ne; [auto|]; intros ->; rewrite side_eqb_refl in D; discriminate].
      + destruct (step (cf s0) (x_ep x s0) (LClosed 0)) as [[s' os']|] eqn:E; [|discriminate]. injection H as <- <-. rewrite at_side_map. cbn [x_ep].
        destruct (side_eqb s0 sd) eqn:D; [apply side_eqb_eq in D; subst; rewrite upd_eq; eauto | left; rewrite upd_ne; [auto|]; intros ->; rewrite side_eqb_refl in D; discriminate].
      + destruct (step (cf s0) (x_ep x s0) (LClosed 0)) as [[s' os']|] eqn:E; [|discriminate]. injection H as <- <-. rewrite at_side_map. cbn [x_ep].
        destruct (side_eqb s0 sd) eqn:D; [apply side_eqb_eq in D; subst; rewrite upd_eq; eauto | left; rewrite upd_ne; [auto|]; intros ->; rewrite side_eqb_refl in D; discriminate].
      + injection H as <- <-. left. cbn [x_ep]. split; [|reflexivity]. unfold upd. destruct (side_eqb sd s0) eqn:D; [apply side_eqb_eq in D; subst; reflexivity | reflexivity].
  Qed.

  Lemma xrun_side sd ls : forall x x' tr, xrun cap cf x ls = Some (x', tr) -> exists ls', run (cf sd) (x_ep x sd) ls' = Some (x_ep x' sd, at_side sd tr).
  Proof.
    induction ls as [|l ls IH]; intros x x' tr H; cbn [xrun] in H; [injection H as <- <-; exists []; reflexivity|].
    destruct (xstep cap cf x l) as [[x1 o1]|] eqn:E; [|discriminate]. destruct (xrun cap cf x1 ls) as [[x2 o2]|] eqn:R; [|discriminate]. injection H as <- <-.
    destruct (IH _ _ _ R) as (ls' & R'). rewrite at_side_app. destruct (xstep_side sd _ _ _ _ E) as [[A B]|(l' & A)].
    - rewrite B, <- A. exists ls'. exact R'.
    - exists (l' :: ls'). cbn [run]. rewrite A, R'. reflexivity.
  Qed.
  Lemma xruns_side sd ps ctr ls x tr : xruns cap cf ps ctr ls x tr -> exists ls', runs (cf sd) 1 (side_eqb sd SideA) (ps sd) (ctr sd) ls' (x_ep x sd) (at_side sd tr).
  Proof. intros H. destruct (xrun_side sd _ _ _ _ H) as (ls' & R). exists ls'. exact R. Qed.

  (** ** An end that does not read *)
  Lemma ended_not_reading sd ps ctr ls x tr : xruns cap cf ps ctr ls x tr -> loop_ended tr sd -> reading (x_ep x sd) = false.
  Proof.
    intros H D. destruct (xruns_side sd _ _ _ _ _ H) as (ls' & R). assert (L : lp (x_ep x sd) 0 = Some LDone) by (eapply down_done; [exact R|]; destruct D; auto).
    unfold reading, lp in *. destruct (nth_error (e_conns (x_ep x sd)) 0); [|reflexivity]. cbn in L. injection L as ->. reflexivity.
  Qed.

  Lemma sent_bytes_app sd a b : sent_bytes sd (a ++ b) = sent_bytes sd a ++ sent_bytes sd b.
  Proof. unfold sent_bytes, sent_events. rewrite at_side_app, flat_map_app, map_app, concat_app. reflexivity. Qed.

  Lemma sent_none sd os : existsb is_sent (map (fun o => (sd, o)) os) = false -> sent_events os = [].
  Proof. induction os as [|o os IH]; [reflexivity|]. cbn [map existsb]. intros H. apply orb_false_iff in H. destruct H as [H1 H2]. cbn [sent_events flat_map]. fold (sent_events os). rewrite (IH H2). destruct o; try reflexivity. discriminate H1. Qed.
  Lemma not_sent_label cf' s l s' os : step cf' s l = Some (s', os) -> (match l with LTask _ _ => False | _ => True end) -> sent_events os = [].
  Proof.
    destruct l as [i a|n e|n|n|n|h|]; intros H Q; try destruct Q; cbn [step] in H.
    - destruct (nth_error (e_conns s) n) as [c|]; [|discriminate]. destruct (cn_loop c); try discriminate. injection H as H. unfold receive in H.
      destruct (match ev_ref e with Some _ => _ | None => _ end); [injection H as _ <-; reflexivity|]. destruct (etype_eqb (ev_type e) End); [injection H as _ <-; reflexivity|].
      destruct (match ev_ns e with Some _ => _ | None => _ end); unfold handle_event in H; injection H as _ <-; reflexivity.
    - destruct (nth_error (e_conns s) n) as [c|]; [|discriminate]. destruct (cn_loop c) as [|d e|]; try discriminate. unfold place in H. destruct (nth_error (e_chans s) d) as [ch|]; [|discriminate].
      destruct (ch_open ch); [destruct (Nat.ltb _ _); [|discriminate]; injection H as _ <-; reflexivity|]. unfold handle_event in H. injection H as _ <-. reflexivity.
    - destruct (nth_error (e_conns s) n) as [c|]; [|discriminate]. destruct (cn_loop c); try discriminate. injection H as _ <-. reflexivity.
    - destruct (nth_error (e_conns s) n) as [c|]; [|discriminate]. destruct (cn_signal c); try discriminate. injection H as _ <-. reflexivity.
    - destruct (nth_error (e_streams s) h) as [x|]; [|discriminate]. destruct (st_state x); try discriminate; injection H as _ <-; reflexivity.
    - injection H as _ <-. reflexivity.
  Qed.

  Lemma at_own sd os : at_side sd (map (fun o => (sd, o)) os) = os. Proof. rewrite at_side_map, side_eqb_refl. reflexivity. Qed.
  Lemma at_else sd sd' os : sd' <> sd -> at_side sd (map (fun o => (sd', o)) os) = [].
  Proof. intros N. rewrite at_side_map. destruct (side_eqb sd' sd) eqn:D; [apply side_eqb_eq in D; contradiction | reflexivity]. Qed.
  Lemma sent_own sd os : sent_bytes sd (map (fun o => (sd, o)) os) = concat (map wire_bytes (sent_events os)).
  Proof. unfold sent_bytes. rewrite at_own. reflexivity. Qed.
  Lemma sent_else sd sd' os : sd' <> sd -> sent_bytes sd (map (fun o => (sd', o)) os) = [].
  Proof. intros N. unfold sent_bytes. rewrite at_else by exact N. reflexivity. Qed.
  Lemma side_cases (a b : side) : a = b \/ a = other b. Proof. destruct a, b; auto. Qed.

  Lemma send_completes' c s i ctx e pu s' os : tst s i = Some (TSend ctx e pu) -> step c s (LTask i completes) = Some (s', os) -> sent_events os = [e].
  Proof.
    unfold tst. cbn [step]. unfold task_step. destruct (nth_error (e_tasks s) i) as [tk|]; [|discriminate]. cbn. intros H. injection H as ->. unfold completes.
    destruct pu; intros H; injection H as _ <-; reflexivity.
  Qed.

  Definition reads (l : xlabel) (sd : side) : Prop := l = XRead sd.
  Lemma begun_step w b x l x' os : xstep cap cf x l = Some (x', os) -> begun x w b ->
    exists b' more, begun x' w b' /\ b ++ more = sent_bytes w os ++ b' /\
      (reads l (other w) \/ (x_wire x' (other w) = x_wire x (other w) ++ more /\ (more = [] \/ (length (x_wire x' (other w)) <= cap)%nat))).
  Proof.
    intros H B. destruct l as [s0 l|s0 i|s0]; cbn [xstep] in H.
    - destruct (own_label l) eqn:O; [|discriminate]. destruct (step (cf s0) (x_ep x s0) l) as [[s' os']|] eqn:E; [|discriminate]. destruct (_ || _) eqn:N; [discriminate|]. injection H as <- <-.
      exists b, []. rewrite app_nil_r. destruct (side_cases s0 w) as [->| ->].
      + split; [|split; [|right; cbn; rewrite app_nil_r; auto]].
        * unfold begun in *. cbn [x_out x_ep]. destruct (x_out x w) as [[i rest]|]; [|exact B]. destruct B as (ctx & e & pu & T & I & R). exists ctx, e, pu. split; [|auto]. rewrite upd_eq.
          eapply sending_kept; eauto.
        * rewrite sent_own, (sent_none w); [reflexivity|]. apply orb_false_iff in N. apply N.
      + split; [|split; [|right; cbn; rewrite app_nil_r; auto]].
        * unfold begun in *. cbn [x_out x_ep]. rewrite upd_ne by apply other_ne''. exact B.
        * rewrite sent_else by apply other_ne. reflexivity.
    - destruct (option_map tk_st (nth_error (e_tasks (x_ep x s0)) i)) as [[| ctx e pu | ctx e pu | | | | | | |]|] eqn:T; try discriminate. destruct (Nat.ltb_spec (length (x_wire x (other s0))) cap) as [LC|]; [|discriminate].
      destruct (side_cases s0 w) as [->| ->].
      + assert (W : exists rest, to_write (x_out x w) i e = Some rest /\ into_bytes e = Ok (b ++ rest)).
        { unfold begun in B. unfold to_write in *. destruct (x_out x w) as [[j rest]|].
          - destruct (Nat.eqb_spec i j) as [->|]; [|discriminate]. destruct B as (ctx' & e' & pu' & T' & I' & _). rewrite T in T'. injection T' as _ <- _. eauto.
          - subst b. exists (wire_bytes e). split; [reflexivity|]. destruct (wire_some e) as (z & Z1 & Z2 & _). cbn [app]. unfold wire_bytes. rewrite Z1. reflexivity. }
        destruct W as (rest & W1 & W2). rewrite W1 in H. destruct rest as [|c [|c' r]]; try discriminate.
        * destruct (step (cf w) (x_ep x w) (LTask i completes)) as [[s' os']|] eqn:E; [|discriminate]. injection H as <- <-. exists [], [c]. split; [unfold begun; cbn [x_out]; rewrite upd_eq; reflexivity|]. split.
          -- rewrite sent_own, (send_completes' _ _ _ _ _ _ _ _ T E). cbn [map concat]. rewrite !app_nil_r. unfold wire_bytes. rewrite W2. reflexivity.
          -- right. cbn [x_wire]. rewrite upd_eq. split; [reflexivity|]. right. rewrite app_length. cbn. lia.
        * injection H as <- <-. exists (b ++ [c]), [c]. split; [|split; [reflexivity|]].
          -- unfold begun. cbn [x_out x_ep]. rewrite upd_eq. exists ctx, e, pu. split; [exact T|]. split; [|discriminate]. rewrite <- app_assoc. exact W2.
          -- right. cbn [x_wire]. rewrite upd_eq. split; [reflexivity|]. right. rewrite app_length. cbn. lia.
      + exists b, []. rewrite app_nil_r. rewrite other_other in *. destruct (to_write (x_out x (other w)) i e) as [[|c [|c' r]]|]; try discriminate.
        * destruct (step _ _ (LTask i completes)) as [[s' os']|] eqn:E; [|discriminate]. injection H as <- <-. split; [|split].
          -- unfold begun in *. cbn [x_out x_ep]. rewrite !upd_ne by apply other_ne''. exact B.
          -- rewrite sent_else by apply other_ne. reflexivity.
          -- right. cbn [x_wire]. rewrite upd_ne by apply other_ne. rewrite app_nil_r. auto.
        * injection H as <- <-. split; [|split].
          -- unfold begun in *. cbn [x_out x_ep]. rewrite !upd_ne by apply other_ne''. exact B.
          -- reflexivity.
          -- right. cbn [x_wire]. rewrite upd_ne by apply other_ne. rewrite app_nil_r. auto.
    - destruct (reading (x_ep x s0)); [|discriminate]. destruct (x_wire x s0) as [|c wr]; [discriminate|].
      assert (K : forall s' rest os', step (cf s0) (x_ep x s0) (LRecv 0 (mk_event (mk_header 0 Initiator None None []) [])) = step (cf s0) (x_ep x s0) (LRecv 0 (mk_event (mk_header 0 Initiator None None []) [])) ->
        (forall i ctx e pu, tst (x_ep x s0) i = Some (TSend ctx e pu) -> tst s' i = Some (TSend ctx e pu)) -> sent_events os' = [] ->
        exists b' more, begun (mk_xpair (upd (x_ep x) s0 s') (x_out x) (upd (x_wire x) s0 wr) (upd (x_buf x) s0 rest)) w b' /\ b ++ more = sent_bytes w (map (fun o => (s0, o)) os') ++ b' /\
          (reads (XRead s0) (other w) \/ (upd (x_wire x) s0 wr (other w) = x_wire x (other w) ++ more /\ (more = [] \/ (length (upd (x_wire x) s0 wr (other w)) <= cap)%nat)))).
      { intros s' rest os' _ K1 K2. exists b, []. rewrite app_nil_r. destruct (side_cases s0 w) as [->| ->].
        - split; [|split].
          + unfold begun in *. cbn [x_out x_ep]. destruct (x_out x w) as [[i rs]|]; [|exact B]. destruct B as (ctx & e & pu & T & I & R). exists ctx, e, pu. split; [|auto]. rewrite upd_eq. apply K1. exact T.
          + rewrite sent_own, K2. reflexivity.
          + right. rewrite upd_ne by apply other_ne. rewrite app_nil_r. auto.
        - split; [|split].
          + unfold begun in *. cbn [x_out x_ep]. rewrite !upd_ne by apply other_ne''. exact B.
          + rewrite sent_else by apply other_ne. reflexivity.
          + left. reflexivity. }
      destruct (run_bytes _ _ _) as [[e|er|cr] rest|].
      + destruct (step (cf s0) (x_ep x s0) (LRecv 0 e)) as [[s' os']|] eqn:E; [|discriminate]. injection H as <- <-. apply K; [reflexivity | | eapply not_sent_label; [exact E | exact Logic.I]].
        intros i ctx e' pu T. rewrite (tst_kept _ _ _ _ _ _ E); [exact T | discriminate | congruence].
      + destruct (step (cf s0) (x_ep x s0) (LClosed 0)) as [[s' os']|] eqn:E; [|discriminate]. injection H as <- <-. apply K; [reflexivity | | eapply not_sent_label; [exact E | exact Logic.I]].
        intros i ctx e' pu T. rewrite (tst_kept _ _ _ _ _ _ E); [exact T | discriminate | congruence].
      + destruct (step (cf s0) (x_ep x s0) (LClosed 0)) as [[s' os']|] eqn:E; [|discriminate]. injection H as <- <-. apply K; [reflexivity | | eapply not_sent_label; [exact E | exact Logic.I]].
        intros i ctx e' pu T. rewrite (tst_kept _ _ _ _ _ _ E); [exact T | discriminate | congruence].
      + injection H as <- <-. apply (K (x_ep x s0) (x_buf x s0 ++ [c]) []); [reflexivity | auto | reflexivity].
  Qed.

  Lemma begun_reachable ps ctr ls x tr w : xruns cap cf ps ctr ls x tr -> exists b, begun x w b.
  Proof.
    apply (xrun_ind cap cf _ (fun ls x tr => exists b, begun x w b)); [exists []; reflexivity|].
    intros ls0 x0 tr0 l x' os (b & B) _ H. destruct (begun_step _ _ _ _ _ _ H B) as (b' & _ & B' & _). eauto.
  Qed.

  (** ** Runs from a state in which one end does not read any more *)
  Lemma xruns_more ps ctr ls x tr ls2 x' tr2 : xruns cap cf ps ctr ls x tr -> xrun cap cf x ls2 = Some (x', tr2) -> xruns cap cf ps ctr (ls ++ ls2) x' (tr ++ tr2).
  Proof. unfold xruns. intros A B. rewrite xrun_app, A, B. reflexivity. Qed.
  Lemma ended_more tr tr2 sd : loop_ended tr sd -> loop_ended (tr ++ tr2) sd.
  Proof. unfold loop_ended. rewrite at_side_app. intros [H|H]; [left|right]; apply in_or_app; auto. Qed.

  Lemma only_what_fits ps ctr sd ls2 : forall ls x tr x' tr2 b, xruns cap cf ps ctr ls x tr -> loop_ended tr sd -> xrun cap cf x ls2 = Some (x', tr2) -> begun x (other sd) b ->
    exists b' more, begun x' (other sd) b' /\ b ++ more = sent_bytes (other sd) tr2 ++ b' /\ x_wire x' sd = x_wire x sd ++ more /\ (more = [] \/ (length (x_wire x' sd) <= cap)%nat).
  Proof.
    induction ls2 as [|l ls2 IH]; intros ls x tr x' tr2 b R D H B; cbn [xrun] in H.
    - injection H as <- <-. exists b, []. rewrite !app_nil_r. auto.
    - destruct (xstep cap cf x l) as [[x1 o1]|] eqn:E; [|discriminate]. destruct (xrun cap cf x1 ls2) as [[x2 o2]|] eqn:R2; [|discriminate]. injection H as <- <-.
      destruct (begun_step _ _ _ _ _ _ E B) as (b1 & m1 & B1 & E1 & F1). rewrite other_other in F1. destruct F1 as [F1|[F1 F2]].
      { exfalso. unfold reads in F1. subst l. cbn [xstep] in E. rewrite (ended_not_reading sd _ _ _ _ _ R D) in E. discriminate. }
      assert (E' : xrun cap cf x [l] = Some (x1, o1)) by (cbn [xrun]; rewrite E, app_nil_r; reflexivity).
      destruct (IH _ _ _ _ _ b1 (xruns_more _ _ _ _ _ _ _ _ R E') (ended_more _ _ _ D) R2 B1) as (b2 & m2 & B2 & E2 & F3 & F4).
      exists b2, (m1 ++ m2). split; [exact B2|]. split; [|split].
      + rewrite sent_bytes_app, app_assoc, E1, <- app_assoc, E2, app_assoc. reflexivity.
      + rewrite F3, F1, app_assoc. reflexivity.
      + destruct F4 as [->|F4]; [|auto]. rewrite app_nil_r in *. rewrite F3. destruct F2 as [->|F2]; auto.
  Qed.

  (** a sending task whose connection is full *)
  Lemma full_step sd x l x' os : (cap <= length (x_wire x sd))%nat -> reading (x_ep x sd) = false -> xstep cap cf x l = Some (x', os) ->
    sent_events (at_side (other sd) os) = [] /\ x_wire x' sd = x_wire x sd /\ x_out x' (other sd) = x_out x (other sd) /\
    forall i ctx e pu, tst (x_ep x (other sd)) i = Some (TSend ctx e pu) -> tst (x_ep x' (other sd)) i = Some (TSend ctx e pu).
  Proof.
    intros F ND H. destruct l as [s0 l|s0 i|s0]; cbn [xstep] in H.
    - destruct (own_label l) eqn:O; [|discriminate]. destruct (step (cf s0) (x_ep x s0) l) as [[s' os']|] eqn:E; [|discriminate]. destruct (_ || _) eqn:N; [discriminate|]. injection H as <- <-. cbn [x_wire x_out x_ep].
      destruct (side_cases s0 (other sd)) as [->| ->]; [|rewrite other_other].
      + rewrite at_own, upd_eq. split; [apply (sent_none (other sd)); apply orb_false_iff in N; apply N|]. split; [reflexivity|]. split; [reflexivity|]. intros i ctx e pu T. eapply sending_kept; eauto.
      + rewrite at_else by apply other_ne''. rewrite upd_ne by apply other_ne. auto.
    - destruct (option_map tk_st (nth_error (e_tasks (x_ep x s0)) i)) as [[| | ctx e pu | | | | | | |]|] eqn:T; try discriminate. destruct (Nat.ltb_spec (length (x_wire x (other s0))) cap) as [LC|]; [|discriminate].
      destruct (side_cases s0 sd) as [->| ->]; [|rewrite other_other in LC; lia].
      destruct (to_write (x_out x sd) i e) as [[|c [|c' r]]|]; try discriminate.
      + destruct (step _ _ (LTask i completes)) as [[s' os']|] eqn:E; [|discriminate]. injection H as <- <-. cbn [x_wire x_out x_ep]. rewrite at_else by apply other_ne''. rewrite !upd_ne by first [apply other_ne | apply other_ne'']. auto.
      + injection H as <- <-. cbn [x_wire x_out x_ep]. rewrite !upd_ne by first [apply other_ne | apply other_ne'']. auto.
    - destruct (side_cases s0 sd) as [->| ->]; [rewrite ND in H; discriminate|].
      destruct (reading (x_ep x (other sd))); [|discriminate]. destruct (x_wire x (other sd)) as [|c wr]; [discriminate|].
      destruct (run_bytes _ _ _) as [[e|er|cr] rest|].
      + destruct (step _ _ (LRecv 0 e)) as [[s' os']|] eqn:E; [|discriminate]. injection H as <- <-. cbn [x_wire x_out x_ep]. rewrite at_own, upd_eq, upd_ne by apply other_ne''.
        split; [eapply not_sent_label; [exact E | exact Logic.I]|]. split; [reflexivity|]. split; [reflexivity|]. intros i ctx e' pu T. rewrite (tst_kept _ _ _ _ _ _ E); [exact T | discriminate | congruence].
      + destruct (step _ _ (LClosed 0)) as [[s' os']|] eqn:E; [|discriminate]. injection H as <- <-. cbn [x_wire x_out x_ep]. rewrite at_own, upd_eq, upd_ne by apply other_ne''.
        split; [eapply not_sent_label; [exact E | exact Logic.I]|]. split; [reflexivity|]. split; [reflexivity|]. intros i ctx e' pu T. rewrite (tst_kept _ _ _ _ _ _ E); [exact T | discriminate | congruence].
      + destruct (step _ _ (LClosed 0)) as [[s' os']|] eqn:E; [|discriminate]. injection H as <- <-. cbn [x_wire x_out x_ep]. rewrite at_own, upd_eq, upd_ne by apply other_ne''.
        split; [eapply not_sent_label; [exact E | exact Logic.I]|]. split; [reflexivity|]. split; [reflexivity|]. intros i ctx e' pu T. rewrite (tst_kept _ _ _ _ _ _ E); [exact T | discriminate | congruence].
      + injection H as <- <-. cbn [x_wire x_out x_ep]. rewrite upd_eq, upd_ne by apply other_ne''. auto.
  Qed.

  Lemma full_for_ever ps ctr sd ls2 : forall ls x tr x' tr2, xruns cap cf ps ctr ls x tr -> loop_ended tr sd -> (cap <= length (x_wire x sd))%nat -> xrun cap cf x ls2 = Some (x', tr2) ->
    sent_events (at_side (other sd) tr2) = [] /\ x_wire x' sd = x_wire x sd /\
    forall i ctx e pu, tst (x_ep x (other sd)) i = Some (TSend ctx e pu) -> tst (x_ep x' (other sd)) i = Some (TSend ctx e pu).
  Proof.
    induction ls2 as [|l ls2 IH]; intros ls x tr x' tr2 R D F H; cbn [xrun] in H; [injection H as <- <-; auto|].
    destruct (xstep cap cf x l) as [[x1 o1]|] eqn:E; [|discriminate]. destruct (xrun cap cf x1 ls2) as [[x2 o2]|] eqn:R2; [|discriminate]. injection H as <- <-.
    destruct (full_step sd _ _ _ _ F (ended_not_reading sd _ _ _ _ _ R D) E) as (A1 & A2 & _ & A4).
    assert (E' : xrun cap cf x [l] = Some (x1, o1)) by (cbn [xrun]; rewrite E, app_nil_r; reflexivity).
    assert (F' : (cap <= length (x_wire x1 sd))%nat) by (rewrite A2; exact F).
    destruct (IH _ _ _ _ _ (xruns_more _ _ _ _ _ _ _ _ R E') (ended_more _ _ _ D) F' R2) as (B1 & B2 & B3).
    rewrite at_side_app. unfold sent_events in *. rewrite flat_map_app, A1, B1. split; [reflexivity|]. split; [congruence|]. intros. eauto.
  Qed.
End Stop.
