(** Proofs about endpoints joined by byte streams: they behave as endpoints joined by event streams. *)
From Verif Require Import Base BaseFacts Reader ReaderFacts Codec Spec Ids IdsFacts Payload Builder Emit DecodeFacts EventProofs CodecFacts Ipc SpecIpc IpcFacts IpcChanFacts IpcUsers IpcLoops IpcTasks IpcIds IpcReplies IpcFlow
  Pair SpecPair PairFacts PairRest CryptFacts WireClaims BytePair SpecBytes.
From Coq Require Import ZifyBool ZifyNat ZifyN.

Lemma xrun_app cap cf ls1 : forall x ls2, xrun cap cf x (ls1 ++ ls2) =
  match xrun cap cf x ls1 with
  | Some (x1, o1) => match xrun cap cf x1 ls2 with Some (x2, o2) => Some (x2, o1 ++ o2) | None => None end
  | None => None
  end.
Proof.
  induction ls1 as [|l ls1 IH]; intros x ls2; cbn [xrun app].
  - destruct (xrun cap cf x ls2) as [[x2 o2]|]; reflexivity.
  - destruct (xstep cap cf x l) as [[x1 o1]|]; [|reflexivity]. rewrite IH. destruct (xrun cap cf x1 ls1) as [[x2 o2]|]; [|reflexivity]. destruct (xrun cap cf x2 ls2) as [[x3 o3]|]; [|reflexivity]. rewrite app_assoc. reflexivity.
Qed.
Lemma xrun_ind cap cf x0 (P : list xlabel -> xpair -> list (side * obs) -> Prop) : P [] x0 [] ->
  (forall ls x tr l x' os, P ls x tr -> xrun cap cf x0 ls = Some (x, tr) -> xstep cap cf x l = Some (x', os) -> P (ls ++ [l]) x' (tr ++ os)) ->
  forall ls x tr, xrun cap cf x0 ls = Some (x, tr) -> P ls x tr.
Proof.
  intros H0 HS ls. induction ls as [|l ls IH] using rev_ind; intros x tr H; [injection H as <- <-; exact H0|].
  rewrite xrun_app in H. destruct (xrun cap cf x0 ls) as [[x1 tr1]|] eqn:E; [|discriminate]. cbn [xrun] in H. destruct (xstep cap cf x1 l) as [[x2 o2]|] eqn:E2; [|discriminate]. injection H as <- <-.
  rewrite app_nil_r. eapply HS; eauto.
Qed.

(** ** Steps of a sending task *)
Lemma send_step cf s i ctx e pu t v : tst s i = Some (TSend ctx e pu) -> exists s' os, step cf s (LTask i (AStep t v)) = Some (s', os) /\ flat_map wire_of os = [drop_empty_ns e] /\ In (OSent i ctx e) os /\ existsb is_cut os = false.
Proof.
  unfold tst. intros H. cbn [step]. unfold task_step. destruct (nth_error (e_tasks s) i) as [tk|]; [|discriminate]. cbn in H. injection H as H. rewrite H.
  destruct pu; eexists _, _; (split; [reflexivity|]); (split; [reflexivity|]); (split; [left; reflexivity|reflexivity]).
Qed.
Lemma sending_kept cf s l s' os i ctx e pu sd : step cf s l = Some (s', os) -> own_label l = true -> existsb is_cut os || existsb is_sent (map (fun o => (sd, o)) os) = false ->
  tst s i = Some (TSend ctx e pu) -> tst s' i = Some (TSend ctx e pu).
Proof.
  intros H O N Hi. assert (D : (forall a, l <> LTask i a) \/ exists a, l = LTask i a) by (destruct l as [j a| | | | | |]; try (left; discriminate); destruct (Nat.eq_dec j i) as [->|]; [right; eauto|left; congruence]).
  destruct D as [D|(a & ->)].
  - rewrite (tst_kept _ _ _ _ _ _ H D) by congruence. exact Hi.
  - exfalso. cbn [step] in H. unfold task_step in H. unfold tst in Hi. destruct (nth_error (e_tasks s) i) as [tk|]; [|discriminate]. cbn in Hi. injection Hi as Hi. rewrite Hi in H.
    destruct a, pu; try discriminate H; apply some_pair in H; destruct H as [_ <-]; discriminate N.
Qed.
Lemma unsent_wire sd os : existsb is_sent (map (fun o => (sd, o)) os) = false -> flat_map wire_of os = [].
Proof. induction os as [|o os IH]; [reflexivity|]. cbn [map existsb flat_map]. unfold is_sent at 1. cbn [snd]. destruct o; cbn [wire_of orb app]; intros H; try discriminate H; auto. Qed.

(** ** Bytes of events *)
Lemma wire_drop e : wire_bytes (drop_empty_ns e) = wire_bytes e.
Proof. unfold drop_empty_ns. destruct e as [[i t r ns name] d]. cbn [ev_ns ev_header h_ns]. destruct ns as [[|? ?]|]; reflexivity. Qed.
Lemma wire_some e : exists b, into_bytes e = Ok b /\ wire_bytes e = b /\ b <> [].
Proof.
  unfold wire_bytes. destruct (into_bytes e) as [b| |] eqn:E; [|discriminate E..]. exists b. split; [reflexivity|]. split; [reflexivity|]. intros ->. unfold into_bytes in E.
  apply (f_equal (fun o => match o with Ok b => length b | _ => 0%nat end)) in E. cbv beta iota zeta in E. rewrite app_length, be_length in E. cbn [length] in E. lia.
Qed.
Lemma read_whole E e : deliverable E e -> run_bytes E (from_async_read E) (wire_bytes e) = POut (Ok (drop_empty_ns e)) [].
Proof.
  intros (A & B & C). destruct (decode_encoded E e [] A C B) as (l & D & F). unfold wire_bytes. rewrite D. rewrite app_nil_r in F. apply decode_run. exact F.
Qed.
Lemma read_part E e cut more : deliverable E e -> wire_bytes e = cut ++ more -> more <> [] -> run_bytes E (from_async_read E) cut = PMore.
Proof. intros (A & B & C) D N. destruct (wire_some e) as (b & H1 & H2 & _). eapply cut_more; eauto. congruence. Qed.

(** ** The same run on events *)
Record sim (x : xpair) (p : pair) : Prop := {
  s_ep : forall sd, p_ep p sd = x_ep x sd;
  s_wire : forall sd, exists part, x_buf x sd ++ x_wire x sd = concat (map wire_bytes (p_in p sd)) ++ part
    /\ match x_out x (other sd) with
       | None => part = []
       | Some (i, rest) => exists ctx e pu, tst (x_ep x (other sd)) i = Some (TSend ctx e pu) /\ wire_bytes e = part ++ rest /\ rest <> []
       end;
  s_buf : forall sd e w, p_in p sd = e :: w -> exists more, wire_bytes e = x_buf x sd ++ more /\ more <> [] }.
Lemma other_other sd : other (other sd) = sd. Proof. destruct sd; reflexivity. Qed.
Lemma tst_of x sd i st : option_map tk_st (nth_error (e_tasks (x_ep x sd)) i) = st -> tst (x_ep x sd) i = st. Proof. exact (fun H => H). Qed.

Section Same.
  Context (cap : nat) (cf : side -> config) (ps : side -> list prog) (ctr : side -> N).
  Local Notation pruns' := (pruns cf ps ctr (fun _ => [])).
  (** the events were deliverable before *)
  Lemma deliverable_before x tr l x' os : xstep cap cf x l = Some (x', os) -> all_deliverable cf x' (tr ++ os) -> all_deliverable cf x tr.
  Proof.
    intros H AD sd e [(i & ctx & Q)|(i & ctx & pu & rest & Q1 & Q2)].
    - apply AD. left. exists i, ctx. rewrite at_side_app. apply in_or_app. auto.
    - apply AD. destruct l as [sd' l|sd' j|sd']; cbn [xstep] in H.
      + destruct (own_label l) eqn:OL; [|discriminate H]. destruct (step (cf sd') (x_ep x sd') l) as [[s' os']|] eqn:E; [|discriminate H].
        destruct (existsb is_cut os' || existsb is_sent (map (fun o => (sd', o)) os')) eqn:NC; [discriminate H|]. injection H as <- <-. right. exists i, ctx, pu, rest. split; [exact Q1|]. cbn [x_ep].
        destruct (two_sides sd' sd) as [-> | ->].
        * rewrite upd_eq. exact (sending_kept _ _ _ _ _ _ _ _ _ _ E OL NC Q2).
        * rewrite upd_ne by apply other_ne. exact Q2.
      + destruct (option_map tk_st (nth_error (e_tasks (x_ep x sd')) j)) as [[| |ctx' e' pu'| | | | | | |]|] eqn:Hj; try discriminate H. destruct (Nat.ltb (length (x_wire x (other sd'))) cap); [|discriminate H].
        destruct (to_write (x_out x sd') j e') as [[|b [|b' r]]|] eqn:TW; try discriminate H.
        * destruct (step (cf sd') (x_ep x sd') (LTask j completes)) as [[s' os']|] eqn:E; [|discriminate H]. injection H as <- <-. destruct (two_sides sd' sd) as [-> | ->].
          -- left. unfold to_write in TW. rewrite Q1 in TW. destruct (Nat.eqb_spec j i) as [->|]; [|discriminate TW]. rewrite Hj in Q2. injection Q2 as -> -> ->.
             destruct (send_step (cf sd') (x_ep x sd') i ctx e pu (mk_instant 0 0) 0 Hj) as (s1 & o1 & S1 & _ & S2 & _). change (LTask i (AStep (mk_instant 0 0) 0)) with (LTask i completes) in S1. rewrite S1 in E. injection E as <- <-.
             exists i, ctx. rewrite at_side_app, at_side_map, side_eqb_refl. apply in_or_app. right. exact S2.
          -- right. exists i, ctx, pu, rest. cbn [x_out x_ep]. rewrite !upd_ne by apply other_ne. auto.
        * injection H as <- <-. destruct (two_sides sd' sd) as [-> | ->].
          -- right. unfold to_write in TW. rewrite Q1 in TW. destruct (Nat.eqb_spec j i) as [->|]; [|discriminate TW]. exists i, ctx, pu, (b' :: r). cbn [x_out x_ep]. rewrite upd_eq. auto.
          -- right. exists i, ctx, pu, rest. cbn [x_out x_ep]. rewrite !upd_ne by apply other_ne. auto.
      + destruct (reading (x_ep x sd')); [|discriminate H]. destruct (x_wire x sd') as [|b w]; [discriminate H|].
        assert (K : forall s' rest' os', tst s' i = tst (x_ep x sd) i \/ sd <> sd' -> Some (mk_xpair (upd (x_ep x) sd' s') (x_out x) (upd (x_wire x) sd' w) (upd (x_buf x) sd' rest'), map (fun o => (sd', o)) os') = Some (x', os) -> being_written x' sd e).
        { intros s' rest' os' K E. injection E as <- _. exists i, ctx, pu, rest. cbn [x_out x_ep]. split; [exact Q1|]. destruct (two_sides sd' sd) as [-> | ->].
          - rewrite upd_eq. destruct K as [K|K]; [|congruence]. unfold tst in K. rewrite K. exact Q2.
          - rewrite upd_ne by apply other_ne. exact Q2. }
        assert (KT : forall s' k o', (forall a, k <> LTask i a) -> step (cf sd') (x_ep x sd') k = Some (s', o') -> tst s' i = tst (x_ep x sd) i \/ sd <> sd').
        { intros s' k o' NL E. destruct (two_sides sd' sd) as [-> | ->]; [left|right; apply other_ne]. eapply tst_kept; [exact E|exact NL|]. unfold tst. rewrite Q2. discriminate. }
        right. destruct (run_bytes (cf_env (cf sd')) (from_async_read (cf_env (cf sd'))) (x_buf x sd' ++ [b])) as [[a|er|cr] rest'|].
        * destruct (step (cf sd') (x_ep x sd') (LRecv 0 a)) as [[s' o']|] eqn:E; [|discriminate H]. eapply K; [|exact H]. eapply KT; [|exact E]. discriminate.
        * destruct (step (cf sd') (x_ep x sd') (LClosed 0)) as [[s' o']|] eqn:E; [|discriminate H]. eapply K; [|exact H]. eapply KT; [|exact E]. discriminate.
        * destruct (step (cf sd') (x_ep x sd') (LClosed 0)) as [[s' o']|] eqn:E; [|discriminate H]. eapply K; [|exact H]. eapply KT; [|exact E]. discriminate.
        * eapply K; [|exact H]. destruct (two_sides sd' sd) as [-> | ->]; [left; reflexivity|right; apply other_ne].
  Qed.
  Lemma prun_more pls p tr l p' os : pruns' pls p tr -> pstep cf p l = Some (p', os) -> pruns' (pls ++ [l]) p' (tr ++ os).
  Proof. unfold pruns. intros H E. rewrite prun_app, H. cbn [prun]. rewrite E, app_nil_r. reflexivity. Qed.
  Lemma clocks_more pls l : good_clocks pls -> (forall sd i t v, l = PDo sd (LTask i (AStep t v)) -> rust_instant t) -> good_clocks (pls ++ [l]).
  Proof. intros A B sd i t v Q. apply in_app_or in Q. destruct Q as [Q|[Q|[]]]; eauto. Qed.
  Lemma good_in x pls p tr : pruns' pls p tr -> all_deliverable cf x tr -> forall sd e, In e (p_in p sd) -> exists a, e = drop_empty_ns a /\ deliverable (cf_env (cf sd)) a.
  Proof.
    intros H AD sd e Q. assert (W := wires _ _ _ _ _ _ _ H sd). cbn [app] in W. assert (Q' : In e (wired (at_side (other sd) tr))) by (rewrite <- W; apply in_or_app; auto).
    apply in_wired in Q'. destruct Q' as (i & ctx & a & A & ->). exists a. split; [reflexivity|]. rewrite <- (other_other sd). apply AD. left. eauto.
  Qed.
  (** the step on events that a step on bytes amounts to, if any *)
  Definition xlab (x : xpair) (l : xlabel) : option plabel :=
    match l with
    | XDo sd l => Some (PDo sd l)
    | XWrite sd i =>
      match option_map tk_st (nth_error (e_tasks (x_ep x sd)) i) with
      | Some (TSend ctx e pu) => match to_write (x_out x sd) i e with Some [b] => Some (PDo sd (LTask i completes)) | _ => None end
      | _ => None
      end
    | XRead sd =>
      match x_wire x sd with
      | b :: _ => match run_bytes (cf_env (cf sd)) (from_async_read (cf_env (cf sd))) (x_buf x sd ++ [b]) with PMore => None | _ => Some (PDeliver sd) end
      | [] => None
      end
    end.
  Lemma one pls p x tr l x' os : pruns' pls p tr -> sim x p -> all_deliverable cf x tr -> xstep cap cf x l = Some (x', os) ->
    match xlab x l with Some pl => exists p', pstep cf p pl = Some (p', os) /\ sim x' p' | None => os = [] /\ sim x' p end.
  Proof.
    intros PR S AD H.
    destruct l as [sd l|sd i|sd]; cbn [xstep] in H.
    + (* other steps *)
      destruct (own_label l) eqn:OL; [|discriminate H]. destruct (step (cf sd) (x_ep x sd) l) as [[s' os']|] eqn:E; [|discriminate H].
      destruct (existsb is_cut os' || existsb is_sent (map (fun o => (sd, o)) os')) eqn:NC; [discriminate H|]. injection H as <- <-. assert (NC' := NC). apply orb_false_iff in NC'. destruct NC' as [N1 N2].
      cbn [xlab]. eexists. split.
      * cbn [pstep]. rewrite OL, (s_ep _ _ S), E, N1. reflexivity.
      * rewrite (unsent_wire _ _ N2), app_nil_r. constructor; cbn [p_ep p_in x_ep x_out x_wire x_buf].
        -- intros sd0. destruct (two_sides sd sd0) as [-> | ->]; [rewrite !upd_eq; reflexivity|rewrite !upd_ne by apply other_ne; apply (s_ep _ _ S)].
        -- intros sd0. destruct (s_wire _ _ S sd0) as (part & A & B). exists part. split.
           ++ destruct (two_sides sd sd0) as [-> | ->]; [rewrite upd_ne by (intros Q; symmetry in Q; exact (other_ne _ Q)); exact A|rewrite upd_eq; exact A].
           ++ destruct (x_out x (other sd0)) as [[i rest]|]; [|exact B]. destruct B as (ctx & e & pu & B & C). exists ctx, e, pu. split; [|exact C].
              destruct (two_sides sd (other sd0)) as [Q|Q]; rewrite Q in *; [rewrite upd_eq; exact (sending_kept _ _ _ _ _ _ _ _ _ _ E OL NC B)|rewrite upd_ne by apply other_ne; exact B].
        -- intros sd0 e w Q. apply (s_buf _ _ S sd0 e w). destruct (two_sides sd sd0) as [-> | ->]; [rewrite upd_ne in Q by (intros Q'; symmetry in Q'; exact (other_ne _ Q')); exact Q|rewrite upd_eq in Q; exact Q].
    + (* a byte written *)
      cbn [xlab]. destruct (option_map tk_st (nth_error (e_tasks (x_ep x sd)) i)) as [[| |ctx e pu| | | | | | |]|] eqn:Hi; try discriminate H. destruct (Nat.ltb (length (x_wire x (other sd))) cap); [|discriminate H].
      destruct (s_wire _ _ S (other sd)) as (part & A & B). rewrite other_other in B.
      assert (TW : forall r, to_write (x_out x sd) i e = Some r -> exists pre, wire_bytes e = pre ++ r /\ x_buf x (other sd) ++ x_wire x (other sd) = concat (map wire_bytes (p_in p (other sd))) ++ pre).
      { intros r T. unfold to_write in T. destruct (x_out x sd) as [[j rest]|].
        - destruct (Nat.eqb_spec i j) as [->|]; [|discriminate T]. injection T as ->. destruct B as (ctx' & e' & pu' & B1 & B2 & _). unfold tst in B1. rewrite B1 in Hi. injection Hi as -> -> ->. exists part. auto.
        - injection T as <-. subst part. exists []. auto. }
      destruct (to_write (x_out x sd) i e) as [[|b [|b' r]]|]; try discriminate H; destruct (TW _ eq_refl) as (pre & T1 & T2).
      * destruct (send_step (cf sd) (x_ep x sd) i ctx e pu (mk_instant 0 0) 0 Hi) as (s1 & o1 & S1 & S2 & S3 & S4). change (LTask i (AStep (mk_instant 0 0) 0)) with (LTask i completes) in S1. rewrite S1 in H. injection H as <- <-.
        eexists. split.
        -- cbn [pstep own_label]. rewrite (s_ep _ _ S), S1, S4. reflexivity.
        -- rewrite S2. constructor; cbn [p_ep p_in x_ep x_out x_wire x_buf].
           ++ intros sd0. destruct (two_sides sd sd0) as [-> | ->]; [rewrite !upd_eq; reflexivity|rewrite !upd_ne by apply other_ne; apply (s_ep _ _ S)].
           ++ intros sd0. destruct (two_sides sd sd0) as [-> | ->].
              ** destruct (s_wire _ _ S sd) as (part' & A' & B'). exists part'. rewrite !upd_ne by (apply other_ne || intros Q; symmetry in Q; exact (other_ne _ Q)). auto.
              ** exists []. rewrite other_other, !upd_eq. split; [|reflexivity]. rewrite map_app, concat_app, app_nil_r. cbn [map concat]. rewrite wire_drop, T1, app_nil_r, app_assoc, T2, app_assoc. reflexivity.
           ++ intros sd0 e0 w Q. destruct (two_sides sd sd0) as [-> | ->].
              ** rewrite upd_ne in Q by (intros Q'; symmetry in Q'; exact (other_ne _ Q')). exact (s_buf _ _ S _ _ _ Q).
              ** rewrite upd_eq in Q. destruct (p_in p (other sd)) as [|e1 w1] eqn:Ep; [|injection Q as <- _; exact (s_buf _ _ S _ _ _ Ep)]. injection Q as <- _. cbn [map concat app] in T2. rewrite wire_drop, T1, <- T2.
                 exists (x_wire x (other sd) ++ [b]). split; [rewrite app_assoc; reflexivity|]. intros Q. apply app_eq_nil in Q. destruct Q; discriminate.
      * injection H as <- <-. split; [reflexivity|]. constructor; cbn [x_ep x_out x_wire x_buf].
        -- apply (s_ep _ _ S).
        -- intros sd0. destruct (two_sides sd sd0) as [-> | ->].
           ++ destruct (s_wire _ _ S sd) as (part' & A' & B'). exists part'. rewrite !upd_ne by (apply other_ne || intros Q; symmetry in Q; exact (other_ne _ Q)). auto.
           ++ exists (pre ++ [b]). rewrite other_other, !upd_eq. split; [rewrite app_assoc, T2, app_assoc; reflexivity|]. exists ctx, e, pu. split; [exact Hi|]. split; [rewrite T1, <- app_assoc; reflexivity|discriminate].
        -- apply (s_buf _ _ S).
    + (* a byte read *)
      cbn [xlab]. destruct (reading (x_ep x sd)) eqn:RD; [|discriminate H]. destruct (x_wire x sd) as [|b w] eqn:Ew; [discriminate H|].
      destruct (s_wire _ _ S sd) as (part & A & B). rewrite Ew in A. change (b :: w) with ([b] ++ w) in A. rewrite app_assoc in A.
      destruct (p_in p sd) as [|e q] eqn:Ep.
      * (* the event is still being written *)
        cbn [map concat app] in A. assert (PM : run_bytes (cf_env (cf sd)) (from_async_read (cf_env (cf sd))) (x_buf x sd ++ [b]) = PMore).
        { destruct (x_out x (other sd)) as [[i rest]|] eqn:Eo; [|exfalso; rewrite B in A; destruct (x_buf x sd); discriminate A].
          destruct B as (ctx & e & pu & B1 & B2 & B3). rewrite <- A in B2. rewrite <- app_assoc in B2. eapply (read_part _ e).
          - rewrite <- (other_other sd). apply AD. right. exists i, ctx, pu, rest. auto.
          - exact B2.
          - intros Q. apply app_eq_nil in Q. destruct Q; contradiction. }
        rewrite PM in H |- *. injection H as <- <-. split; [reflexivity|]. constructor; cbn [x_ep x_out x_wire x_buf].
        -- intros sd0. destruct (two_sides sd sd0) as [-> | ->]; [rewrite upd_eq|rewrite upd_ne by apply other_ne]; apply (s_ep _ _ S).
        -- intros sd0. destruct (two_sides sd sd0) as [-> | ->].
           ++ exists part. rewrite !upd_eq, Ep. split; [exact A|]. rewrite upd_ne by apply other_ne. exact B.
           ++ destruct (s_wire _ _ S (other sd)) as (part' & A' & B'). exists part'. rewrite !(upd_ne _ _ _ (other sd)) by apply other_ne. split; [exact A'|]. rewrite other_other in *. rewrite upd_eq. exact B'.
        -- intros sd0 e w0 Q. destruct (two_sides sd sd0) as [-> | ->]; [congruence|]. rewrite upd_ne by apply other_ne. exact (s_buf _ _ S _ _ _ Q).
      * destruct (good_in x _ _ _ PR AD sd e) as (a & -> & DA); [rewrite Ep; left; reflexivity|]. destruct (s_buf _ _ S _ _ _ Ep) as (more & M1 & M2). rewrite wire_drop in M1.
        cbn [map concat] in A. rewrite wire_drop, M1 in A. rewrite <- !app_assoc in A. apply app_inv_head in A. destruct more as [|m more]; [contradiction|]. injection A as <- A.
        assert (M1' : wire_bytes a = (x_buf x sd ++ [b]) ++ more) by (rewrite M1, <- app_assoc; reflexivity). destruct more as [|m more].
        -- (* the last byte *)
           rewrite app_nil_r in M1'. rewrite <- M1', (read_whole _ _ DA) in H |- *. destruct (step (cf sd) (x_ep x sd) (LRecv 0 (drop_empty_ns a))) as [[s' os']|] eqn:E; [|discriminate H]. injection H as <- <-.
           eexists. split.
           ++ cbn [pstep]. rewrite Ep, (s_ep _ _ S), E. reflexivity.
           ++ constructor; cbn [p_ep p_in x_ep x_out x_wire x_buf].
              ** intros sd0. destruct (two_sides sd sd0) as [-> | ->]; [rewrite !upd_eq; reflexivity|rewrite !upd_ne by apply other_ne; apply (s_ep _ _ S)].
              ** intros sd0. destruct (two_sides sd sd0) as [-> | ->].
                 --- exists part. rewrite !upd_eq. split; [exact A|]. rewrite upd_ne by apply other_ne. exact B.
                 --- destruct (s_wire _ _ S (other sd)) as (part' & A' & B'). exists part'. rewrite !(upd_ne _ _ _ (other sd)) by apply other_ne. split; [exact A'|]. rewrite other_other in *. rewrite upd_eq.
                     destruct (x_out x sd) as [[i rest]|]; [|exact B']. destruct B' as (ctx & e & pu & B1 & B2). exists ctx, e, pu. split; [|exact B2]. rewrite <- B1. eapply tst_kept; [exact E|discriminate|]. rewrite B1. discriminate.
              ** intros sd0 e0 w0 Q. destruct (two_sides sd sd0) as [-> | ->].
                 --- rewrite upd_eq in Q. rewrite upd_eq. exists (wire_bytes e0). split; [reflexivity|]. destruct (wire_some e0) as (b0 & _ & -> & Nb). exact Nb.
                 --- rewrite upd_ne in Q by apply other_ne. rewrite upd_ne by apply other_ne. exact (s_buf _ _ S _ _ _ Q).
        -- rewrite (read_part _ _ _ _ DA M1') in H |- * by discriminate. injection H as <- <-. split; [reflexivity|]. constructor; cbn [x_ep x_out x_wire x_buf].
           ++ intros sd0. destruct (two_sides sd sd0) as [-> | ->]; [rewrite upd_eq|rewrite upd_ne by apply other_ne]; apply (s_ep _ _ S).
           ++ intros sd0. destruct (two_sides sd sd0) as [-> | ->].
              ** exists part. rewrite !upd_eq, Ep. split; [|rewrite upd_ne by apply other_ne; exact B]. cbn [map concat]. rewrite wire_drop, M1', A, <- !app_assoc. reflexivity.
              ** destruct (s_wire _ _ S (other sd)) as (part' & A' & B'). exists part'. rewrite !(upd_ne _ _ _ (other sd)) by apply other_ne. split; [exact A'|]. rewrite other_other in *. rewrite upd_eq. exact B'.
           ++ intros sd0 e0 w0 Q. destruct (two_sides sd sd0) as [-> | ->].
              ** rewrite upd_eq. rewrite Ep in Q. injection Q as <- <-. exists (m :: more). rewrite wire_drop. split; [exact M1'|discriminate].
              ** rewrite upd_ne by apply other_ne. exact (s_buf _ _ S _ _ _ Q).
  Qed.
  Lemma xlab_clock x l sd i t v : xlab x l = Some (PDo sd (LTask i (AStep t v))) -> l = XDo sd (LTask i (AStep t v)) \/ rust_instant t.
  Proof.
    destruct l as [sd' l|sd' j|sd']; cbn [xlab]; intros H.
    - injection H as -> ->. auto.
    - right. destruct (option_map tk_st (nth_error (e_tasks (x_ep x sd')) j)) as [[]|]; try discriminate H. destruct (to_write _ _ _) as [[|b [|]]|]; try discriminate H. injection H as _ _ <- _. split; reflexivity.
    - destruct (x_wire x sd'); [discriminate H|]. destruct (run_bytes _ _ _); discriminate H.
  Qed.
  Lemma same ls x tr : xruns cap cf ps ctr ls x tr -> all_deliverable cf x tr -> exists pls p, pruns' pls p tr /\ (good_xclocks ls -> good_clocks pls) /\ sim x p.
  Proof.
    unfold xruns. revert ls x tr. apply (xrun_ind cap cf _ (fun ls x tr => all_deliverable cf x tr -> exists pls p, pruns' pls p tr /\ (good_xclocks ls -> good_clocks pls) /\ sim x p)).
    - intros _. exists [], (pair_new ps ctr (fun _ => [])). split; [reflexivity|]. split; [intros _ ? ? ? ? []|]. constructor; cbn; [reflexivity|intros sd; exists []; auto|discriminate].
    - intros ls x tr l x' os IH _ H AD'. assert (AD := deliverable_before _ _ _ _ _ H AD'). destruct (IH AD) as (pls & p & PR & GC & S). clear IH.
      assert (GCL : good_xclocks (ls ++ [l]) -> good_xclocks ls) by (intros G sd i t v Q; eapply G; apply in_or_app; left; exact Q).
      pose proof (one _ _ _ _ _ _ _ PR S AD H) as O. destruct (xlab x l) as [pl|] eqn:XL.
      + destruct O as (p' & A & B). exists (pls ++ [pl]), p'. split; [eapply prun_more; eauto|]. split; [|exact B]. intros G. apply clocks_more; [auto|]. intros sd i t v ->.
        destruct (xlab_clock _ _ _ _ _ _ XL) as [->|C]; [|exact C]. apply (G sd i t v). apply in_or_app. right. left. reflexivity.
      + destruct O as [-> B]. exists pls, p. rewrite app_nil_r. auto.
  Qed.
End Same.
