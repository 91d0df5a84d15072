(** Every run on whole events is also possible on bytes. *)
From Verif Require Import Base BaseFacts Reader ReaderFacts Codec Spec Ids IdsFacts Payload Builder Emit DecodeFacts EventProofs CodecFacts Ipc SpecIpc IpcFacts IpcChanFacts IpcUsers IpcLoops IpcTasks IpcIds IpcReplies IpcClaims IpcFlow
  Pair SpecPair PairFacts PairServer PairEnd PairRest BytePair SpecBytes BytePairFacts ByteRest.
From Coq Require Import ZifyBool ZifyNat ZifyN.

(** whole events only *)
Record exact (x : xpair) (p : pair) : Prop := {
  ex_ep : forall sd, p_ep p sd = x_ep x sd; ex_out : forall sd, x_out x sd = None; ex_buf : forall sd, x_buf x sd = []; ex_wire : forall sd, x_wire x sd = concat (map wire_bytes (p_in p sd)) }.
Lemma upd_same {X} (f : side -> X) sd y sd' z : upd (upd f sd y) sd z sd' = upd f sd z sd'. Proof. unfold upd. destruct (side_eqb sd' sd); reflexivity. Qed.

Section All.
  Context (cf : side -> config).
  (** writing a whole event *)
  Lemma write_all cap sd i ctx e pu s' os : forall rest x, rest <> [] -> tst (x_ep x sd) i = Some (TSend ctx e pu) -> to_write (x_out x sd) i e = Some rest -> (length (x_wire x (other sd)) + length rest <= cap)%nat ->
    step (cf sd) (x_ep x sd) (LTask i completes) = Some (s', os) ->
    exists x', xrun cap cf x (repeat (XWrite sd i) (length rest)) = Some (x', map (fun o => (sd, o)) os) /\ x_ep x' sd = s' /\ x_ep x' (other sd) = x_ep x (other sd)
      /\ x_out x' sd = None /\ x_out x' (other sd) = x_out x (other sd) /\ x_wire x' (other sd) = x_wire x (other sd) ++ rest /\ x_wire x' sd = x_wire x sd /\ (forall y, x_buf x' y = x_buf x y).
  Proof.
    induction rest as [|b rest IH]; intros x NE T W L ST; [contradiction|]. cbn [length repeat xrun]. cbn [length] in L.
    assert (H : (length (x_wire x (other sd)) <? cap)%nat = true) by (apply Nat.ltb_lt; lia). assert (T' := T). unfold tst in T'.
    destruct rest as [|b' rest].
    - eexists. cbn [xstep]. rewrite T', H, W, ST. cbn [repeat length xrun]. split; [rewrite app_nil_r; reflexivity|]. cbn [x_ep x_out x_wire x_buf]. rewrite !upd_eq.
      rewrite !(upd_ne _ sd _ (other sd)) by apply other_ne. rewrite !(upd_ne _ (other sd) _ sd) by (intros Q; symmetry in Q; exact (other_ne _ Q)). auto 10.
    - cbn [xstep]. rewrite T', H, W. set (x1 := mk_xpair _ _ _ _). destruct (IH x1) as (x' & R & A1 & A2 & A3 & A4 & A5 & A6 & A7).
      + discriminate.
      + exact T.
      + subst x1. cbn [x_out]. rewrite upd_eq. cbn [to_write]. rewrite Nat.eqb_refl. reflexivity.
      + subst x1. cbn [x_wire]. rewrite upd_eq, app_length. cbn [length] in *. lia.
      + exact ST.
      + exists x'. rewrite R. split; [reflexivity|]. subst x1. cbn [x_ep x_out x_wire x_buf] in *. rewrite upd_ne in A4 by apply other_ne. rewrite upd_eq in A5. rewrite upd_ne in A6 by (intros Q; symmetry in Q; exact (other_ne _ Q)).
        split; [exact A1|]. split; [exact A2|]. split; [exact A3|]. split; [exact A4|]. split; [rewrite A5, <- app_assoc; reflexivity|]. split; [exact A6|exact A7].
  Qed.
  (** reading a whole event *)
  Lemma read_all cap sd a s' os w : deliverable (cf_env (cf sd)) a -> forall more x, more <> [] -> wire_bytes a = x_buf x sd ++ more -> x_wire x sd = more ++ w ->
    step (cf sd) (x_ep x sd) (LRecv 0 (drop_empty_ns a)) = Some (s', os) ->
    exists x', xrun cap cf x (repeat (XRead sd) (length more)) = Some (x', map (fun o => (sd, o)) os) /\ x_ep x' sd = s' /\ x_ep x' (other sd) = x_ep x (other sd) /\ (forall y, x_out x' y = x_out x y)
      /\ x_wire x' sd = w /\ x_wire x' (other sd) = x_wire x (other sd) /\ x_buf x' sd = [] /\ x_buf x' (other sd) = x_buf x (other sd).
  Proof.
    intros DA. induction more as [|b more IH]; intros x NE M W ST; [contradiction|]. cbn [length repeat xrun].
    assert (RD : reading (x_ep x sd) = true). { cbn [step] in ST. unfold reading. destruct (nth_error (e_conns (x_ep x sd)) 0) as [cn|]; [|discriminate ST]. destruct (cn_loop cn); try discriminate ST. reflexivity. }
    assert (M' : wire_bytes a = (x_buf x sd ++ [b]) ++ more) by (rewrite M, <- app_assoc; reflexivity).
    destruct more as [|b' more].
    - rewrite app_nil_r in M'. eexists. cbn [xstep]. rewrite RD, W. cbn [app]. cbn zeta. rewrite <- M', (read_whole _ _ DA), ST. cbn [repeat length xrun]. split; [rewrite app_nil_r; reflexivity|]. cbn [x_ep x_out x_wire x_buf].
      rewrite !upd_eq, !upd_ne by apply other_ne. auto 10.
    - cbn [xstep]. rewrite RD, W. cbn [app]. cbn zeta. rewrite (read_part _ _ _ _ DA M') by discriminate. cbn [map]. set (x1 := mk_xpair _ _ _ _).
      assert (E1 : x_ep x1 sd = x_ep x sd) by (subst x1; cbn [x_ep]; apply upd_eq). destruct (IH x1) as (x' & R & A1 & A2 & A3 & A4 & A5 & A6 & A7).
      + discriminate.
      + subst x1. cbn [x_buf]. rewrite upd_eq. exact M'.
      + subst x1. cbn [x_wire]. rewrite upd_eq. reflexivity.
      + rewrite E1. exact ST.
      + exists x'. rewrite R. split; [reflexivity|]. subst x1. cbn [x_ep x_out x_wire x_buf] in *. rewrite upd_ne in A2 by apply other_ne. rewrite upd_ne in A5 by apply other_ne. rewrite upd_ne in A7 by apply other_ne. auto 10.
  Qed.
  Lemma xstep_more cap cap' x l r : (cap <= cap')%nat -> xstep cap cf x l = Some r -> xstep cap' cf x l = Some r.
  Proof.
    intros L H. destruct l as [sd l|sd i|sd]; [exact H| |exact H]. cbn [xstep] in *. destruct (option_map tk_st (nth_error (e_tasks (x_ep x sd)) i)) as [[| |ctx e pu| | | | | | |]|]; try discriminate H.
    destruct (Nat.ltb_spec (length (x_wire x (other sd))) cap); [|discriminate H]. destruct (Nat.ltb_spec (length (x_wire x (other sd))) cap'); [exact H|lia].
  Qed.
  (** one step on events *)
  Lemma one_step x p l p' os : exact x p -> pstep cf p l = Some (p', os) -> (forall sd e, In e (p_in p sd) -> exists a, e = drop_empty_ns a /\ deliverable (cf_env (cf sd)) a) ->
    exists cap0, forall cap, (cap0 <= cap)%nat -> exists ls x', xrun cap cf x ls = Some (x', os) /\ exact x' p'.
  Proof.
    intros EX H GD. destruct l as [sd l|sd]; cbn [pstep] in H.
    - destruct (own_label l) eqn:OL; [|discriminate H]. rewrite (ex_ep _ _ EX) in H. destruct (step (cf sd) (x_ep x sd) l) as [[s' os']|] eqn:E; [|discriminate H]. destruct (existsb is_cut os') eqn:NC; [discriminate H|]. injection H as <- <-.
      destruct (existsb is_sent (map (fun o => (sd, o)) os')) eqn:Es.
      + apply existsb_exists in Es. destruct Es as (q & Q1 & Q2). apply in_map_iff in Q1. destruct Q1 as (o & <- & Q1). unfold is_sent in Q2. cbn [snd] in Q2. destruct o; try discriminate Q2.
        assert (N : In (ev_id e) (ended os')) by (eapply sent_ended; eauto). destruct (step_ended _ _ _ _ _ E) as [Q|(i' & a & ->)]; [rewrite Q in N; destruct N|].
        destruct (tst (x_ep x sd) i') as [st|] eqn:Hi; [|cbn [step] in E; unfold task_step in E; unfold tst in Hi; destruct (nth_error (e_tasks (x_ep x sd)) i'); discriminate].
        assert (E' := E). cbn [step] in E'. destruct (task_step_fid _ _ _ _ _ _ _ E' Hi) as (st' & _ & [(D & _)|[(D & _)|(ctx1 & e1 & pu1 & D & _)]]); [rewrite D in N; destruct N..|]. subst st.
        assert (C : step (cf sd) (x_ep x sd) (LTask i' completes) = Some (s', os') /\ flat_map wire_of os' = [drop_empty_ns e1]).
        { cbn [step] in E |- *. unfold task_step, tst in *. destruct (nth_error (e_tasks (x_ep x sd)) i') as [tk|]; [|discriminate Hi]. cbn in Hi. injection Hi as Hi. rewrite Hi in *. cbn [completes].
          destruct a as [t v| | |]; destruct pu1; try discriminate E; apply some_pair in E; destruct E as [<- <-]; try discriminate NC; split; reflexivity. }
        destruct C as [C W]. destruct (wire_some e1) as (bs & _ & B2 & B3). exists (length (x_wire x (other sd)) + length bs)%nat. intros cap L.
        destruct (write_all cap sd i' ctx1 e1 pu1 s' os' bs x B3 Hi) as (x' & R & A1 & A2 & A3 & A4 & A5 & A6 & A7); [rewrite (ex_out _ _ EX); cbn [to_write]; rewrite B2; reflexivity|exact L|exact C|].
        eexists _, x'. split; [exact R|]. rewrite W. constructor; cbn [p_ep p_in].
        * intros sd0. destruct (two_sides sd sd0) as [-> | ->]; [rewrite upd_eq; congruence|rewrite upd_ne by apply other_ne; rewrite A2; apply (ex_ep _ _ EX)].
        * intros sd0. destruct (two_sides sd sd0) as [-> | ->]; [exact A3|rewrite A4; apply (ex_out _ _ EX)].
        * intros sd0. rewrite A7. apply (ex_buf _ _ EX).
        * intros sd0. destruct (two_sides sd sd0) as [-> | ->].
          -- rewrite upd_ne by (intros Q; symmetry in Q; exact (other_ne _ Q)). rewrite A6. apply (ex_wire _ _ EX).
          -- rewrite upd_eq, A5, map_app, concat_app, (ex_wire _ _ EX). cbn [map concat]. rewrite wire_drop, app_nil_r, B2. reflexivity.
      + exists 0%nat. intros cap _. exists [XDo sd l]. eexists. cbn [xrun xstep]. rewrite OL, E, NC, Es. cbn [orb]. split; [rewrite app_nil_r; reflexivity|]. rewrite (unsent_wire _ _ Es), app_nil_r.
        constructor; cbn [p_ep p_in x_ep x_out x_wire x_buf].
        * intros sd0. destruct (two_sides sd sd0) as [-> | ->]; [rewrite !upd_eq; reflexivity|rewrite !upd_ne by apply other_ne; apply (ex_ep _ _ EX)].
        * apply (ex_out _ _ EX).
        * apply (ex_buf _ _ EX).
        * intros sd0. destruct (two_sides sd sd0) as [-> | ->]; [rewrite upd_ne by (intros Q; symmetry in Q; exact (other_ne _ Q))|rewrite upd_eq]; apply (ex_wire _ _ EX).
    - destruct (p_in p sd) as [|e w] eqn:Ep; [discriminate H|]. rewrite (ex_ep _ _ EX) in H. destruct (step (cf sd) (x_ep x sd) (LRecv 0 e)) as [[s' os']|] eqn:E; [|discriminate H]. injection H as <- <-.
      destruct (GD sd e) as (a & -> & DA); [rewrite Ep; left; reflexivity|]. exists 0%nat. intros cap _. destruct (wire_some a) as (bs & _ & B2 & B3).
      destruct (read_all cap sd a s' os' (concat (map wire_bytes w)) DA bs x B3) as (x' & R & A1 & A2 & A3 & A4 & A5 & A6 & A7).
      + rewrite (ex_buf _ _ EX). exact B2.
      + rewrite (ex_wire _ _ EX), Ep. cbn [map concat]. rewrite wire_drop, B2. reflexivity.
      + exact E.
      + eexists _, x'. split; [exact R|]. constructor; cbn [p_ep p_in].
        * intros sd0. destruct (two_sides sd sd0) as [-> | ->]; [rewrite upd_eq; congruence|rewrite upd_ne by apply other_ne; rewrite A2; apply (ex_ep _ _ EX)].
        * intros sd0. rewrite A3. apply (ex_out _ _ EX).
        * intros sd0. destruct (two_sides sd sd0) as [-> | ->]; [exact A6|rewrite A7; apply (ex_buf _ _ EX)].
        * intros sd0. destruct (two_sides sd sd0) as [-> | ->]; [rewrite upd_eq; exact A4|rewrite upd_ne by apply other_ne; rewrite A5; apply (ex_wire _ _ EX)].
  Qed.
  Lemma xrun_more cap cap' ls : (cap <= cap')%nat -> forall x r, xrun cap cf x ls = Some r -> xrun cap' cf x ls = Some r.
  Proof.
    intros L. induction ls as [|l ls IH]; intros x r H; [exact H|]. cbn [xrun] in *. destruct (xstep cap cf x l) as [[x1 o1]|] eqn:E; [|discriminate H]. rewrite (xstep_more _ _ _ _ _ L E).
    destruct (xrun cap cf x1 ls) as [[x2 o2]|] eqn:E2; [|discriminate H]. rewrite (IH _ _ E2). exact H.
  Qed.
  Context (ps : side -> list prog) (ctr : side -> N).
  Lemma all_possible pls p tr : pruns cf ps ctr (fun _ => []) pls p tr -> (forall sd i ctx e, In (OSent i ctx e) (at_side sd tr) -> deliverable (cf_env (cf (other sd))) e) ->
    exists cap ls x, xruns cap cf ps ctr ls x tr /\ exact x p.
  Proof.
    unfold pruns. revert pls p tr. apply (prun_ind cf _ (fun pls p tr => (forall sd i ctx e, In (OSent i ctx e) (at_side sd tr) -> deliverable (cf_env (cf (other sd))) e) -> exists cap ls x, xruns cap cf ps ctr ls x tr /\ exact x p)).
    - intros _. exists 0%nat, [], (xpair_new ps ctr). split; [reflexivity|]. constructor; reflexivity.
    - intros pls p tr l p' os IH PR H GD. assert (GD' : forall sd i ctx e, In (OSent i ctx e) (at_side sd tr) -> deliverable (cf_env (cf (other sd))) e) by (intros sd i ctx e Q; apply (GD sd i ctx e); rewrite at_side_app; apply in_or_app; auto).
      destruct (IH GD') as (cap & ls & x & R & EX).
      destruct (one_step x p l p' os EX H) as (cap0 & K).
      { intros sd e Q. assert (W := wires _ _ _ _ _ _ _ PR sd). cbn [app] in W. assert (Q' : In e (wired (at_side (other sd) tr))) by (rewrite <- W; apply in_or_app; auto).
        apply in_wired in Q'. destruct Q' as (i & ctx & a & A & ->). exists a. split; [reflexivity|]. rewrite <- (other_other sd). eapply GD'. exact A. }
      destruct (K (Nat.max cap cap0)) as (ls1 & x1 & R1 & EX1); [lia|]. exists (Nat.max cap cap0), (ls ++ ls1), x1. split; [|exact EX1]. unfold xruns in *. rewrite xrun_app, (xrun_more cap (Nat.max cap cap0) ls (Nat.le_max_l _ _) _ _ R), R1. reflexivity.
  Qed.
End All.
