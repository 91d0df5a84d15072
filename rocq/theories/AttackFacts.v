(** Proofs about attacked encrypted connections (C76). *)
From Verif Require Import Base BaseFacts Reader ReaderFacts Codec Spec Ids IdsFacts Payload Builder Emit DecodeFacts EventProofs CodecFacts Crypt SpecCrypt CryptWriteFacts CryptReadFacts CryptFacts CryptExchangeFacts CryptAttackFacts Wire
  Ipc SpecIpc IpcFacts IpcChanFacts IpcUsers IpcLoops IpcTasks IpcIds IpcReplies IpcClaims IpcFlow IpcLost Pair SpecPair PairFacts PairRest BytePair SpecBytes BytePairFacts SpecOrder OrderFacts ByteStop Link SpecLink LinkFacts LinkSim Attack SpecAttack.
From Coq Require Import ZifyBool ZifyNat ZifyN.

(** a sequence of packages can be read in one way only *)
Lemma boxes_same E cs : forall cs' c t, boxes cs ++ c = boxes cs' ++ t -> Forall (receivable E) cs -> Forall (receivable E) cs' -> length cs = length cs' -> cs = cs'.
Proof.
  induction cs as [|d cs IH]; intros [|d' cs'] c t H F F' L; try discriminate L; [reflexivity|].
  inversion F as [|x y Q FQ]; inversion F' as [|x' y' Q' FQ']; subst. assert (A := boxes_run E d cs c Q). assert (B := boxes_run E d' cs' t Q'). rewrite H, B in A. injection A as <- A. f_equal. eapply IH; eauto.
Qed.

Section Attacked.
  Context (enc : bytes -> bytes -> bytes -> bytes) (dec : bytes -> bytes -> bytes -> option bytes) (GC : good_cipher enc dec).
  Context (cf : side -> config).
  Local Notation E sd := (cf_env (cf sd)).
  Local Notation tstep := (attack_step enc dec cf).
  Local Notation trun := (attack_run enc dec cf).

  (** ** Runs *)
  Lemma trun_app ls1 : forall x ls2, trun x (ls1 ++ ls2) =
    match trun x ls1 with
    | Some (x1, o1) => match trun x1 ls2 with Some (x2, o2) => Some (x2, o1 ++ o2) | None => None end
    | None => None
    end.
  Proof.
    induction ls1 as [|l ls1 IH]; intros x ls2; cbn [attack_run app].
    - destruct (trun x ls2) as [[x2 o2]|]; reflexivity.
    - destruct (tstep x l) as [[x1 o1]|]; [|reflexivity]. rewrite IH. destruct (trun x1 ls1) as [[x2 o2]|]; [|reflexivity]. destruct (trun x2 ls2) as [[x3 o3]|]; [|reflexivity]. rewrite app_assoc. reflexivity.
  Qed.
  Lemma trun_ind x0 (P : list tlabel -> tapped -> list (side * obs) -> Prop) : P [] x0 [] ->
    (forall ls x tr l x' os, P ls x tr -> trun x0 ls = Some (x, tr) -> tstep x l = Some (x', os) -> P (ls ++ [l]) x' (tr ++ os)) ->
    forall ls x tr, trun x0 ls = Some (x, tr) -> P ls x tr.
  Proof.
    intros H0 HS ls. induction ls as [|l ls IH] using rev_ind; intros x tr H; [injection H as <- <-; exact H0|].
    rewrite trun_app in H. destruct (trun x0 ls) as [[x1 tr1]|] eqn:Er; [|discriminate]. cbn [attack_run] in H. destruct (tstep x1 l) as [[x2 o2]|] eqn:E2; [|discriminate]. injection H as <- <-.
    rewrite app_nil_r. eapply HS; eauto.
  Qed.

  (** ** What a step is for an end *)
  Lemma tstep_side sd t l t' os : tstep t l = Some (t', os) ->
    (t_ep t' sd = t_ep t sd /\ t_rd t' sd = t_rd t sd /\ t_in t' sd = t_in t sd /\ at_side sd os = [])
    \/ (exists l', step (cf sd) (t_ep t sd) l' = Some (t_ep t' sd, at_side sd os) /\ (own_label l' = true \/ l' = LClosed 0) /\ t_rd t' sd = t_rd t sd /\ t_in t' sd = t_in t sd)
    \/ (exists b, l = TGive sd b).
  Proof.
    intros H. assert (TWO : forall sd0, sd0 = sd \/ sd = other sd0) by (intros sd0; destruct (two_sides sd sd0) as [-> | ->]; [left; reflexivity|right; symmetry; apply other_other]).
    assert (AT : forall sd0 o, sd = other sd0 -> at_side sd (map (fun o => (sd0, o)) o) = []) by (intros sd0 o ->; rewrite at_side_map; destruct sd0; reflexivity).
    destruct l as [sd0 l|sd0 i n|sd0 b|sd0]; cbn [attack_step] in H; destruct (TWO sd0) as [S0|S0].
    - subst sd0. destruct (own_label l) eqn:OL; [|discriminate H]. destruct (step (cf sd) (t_ep t sd) l) as [[s' o]|] eqn:Es; [|discriminate H].
      destruct (existsb is_cut o || existsb is_sent (map (fun o => (sd, o)) o)); [discriminate H|]. injection H as <- <-. right; left. exists l. cbn [t_ep t_rd t_in]. rewrite upd_eq, at_side_map, side_eqb_refl. auto.
    - destruct (own_label l); [|discriminate H]. destruct (step (cf sd0) (t_ep t sd0) l) as [[s' o]|]; [|discriminate H].
      destruct (existsb is_cut o || existsb is_sent (map (fun o => (sd0, o)) o)); [discriminate H|]. injection H as <- <-. left. cbn [t_ep t_rd t_in]. rewrite (AT _ _ S0), S0, upd_ne by apply other_ne. auto.
    - subst sd0. destruct (option_map tk_st (nth_error (e_tasks (t_ep t sd)) i)) as [[| |ctx e pu| | | | | | |]|]; try discriminate H.
      destruct (to_send (t_hold t sd) i e) as [f0|]; [|discriminate H]. destruct (g_fut _ _ i free_world _ f0) as [[[wd w'] f'] r]. destruct r as [|[id|er|cr]]; try discriminate H.
      + injection H as <- <-. left. auto.
      + destruct (step (cf sd) (t_ep t sd) (LTask i completes)) as [[s' o]|] eqn:Es; [|discriminate H]. injection H as <- <-. right; left. exists (LTask i completes). cbn [t_ep t_rd t_in]. rewrite upd_eq, at_side_map, side_eqb_refl. auto.
    - destruct (option_map tk_st (nth_error (e_tasks (t_ep t sd0)) i)) as [[| |ctx e pu| | | | | | |]|]; try discriminate H.
      destruct (to_send (t_hold t sd0) i e) as [f0|]; [|discriminate H]. destruct (g_fut _ _ i free_world _ f0) as [[[wd w'] f'] r]. destruct r as [|[id|er|cr]]; try discriminate H.
      + injection H as <- <-. left. auto.
      + destruct (step (cf sd0) (t_ep t sd0) (LTask i completes)) as [[s' o]|]; [|discriminate H]. injection H as <- <-. left. cbn [t_ep t_rd t_in]. rewrite (AT _ _ S0), S0, upd_ne by apply other_ne. auto.
    - subst sd0. right; right. eauto.
    - left. destruct (reading (t_ep t sd0)); [|discriminate H]. destruct (t_rd t sd0) as [[p0 got0] r0]. cbn zeta in H.
      assert (K : forall s' i' rd' o, Some (mk_tapped (upd (t_ep t) sd0 s') (t_hold t) (t_wr t) (upd (t_in t) sd0 i') (upd (t_rd t) sd0 rd'), map (fun o => (sd0, o)) o) = Some (t', os) -> t_ep t' sd = t_ep t sd /\ t_rd t' sd = t_rd t sd /\ t_in t' sd = t_in t sd /\ at_side sd os = []).
      { intros s' i' rd' o J. injection J as <- <-. cbn [t_ep t_rd t_in]. rewrite (AT _ _ S0), S0, !upd_ne by apply other_ne. auto. }
      destruct (exec _ _ _ _ _ _) as [[a|er|cr] r'|p' g' r'|p' g' r'|]; try discriminate H.
      + destruct (step (cf sd0) (t_ep t sd0) (LRecv 0 a)) as [[s' o]|]; [|discriminate H]. eapply K; exact H.
      + destruct (step (cf sd0) (t_ep t sd0) (LClosed 0)) as [[s' o]|]; [|discriminate H]. eapply K; exact H.
      + destruct (step (cf sd0) (t_ep t sd0) (LClosed 0)) as [[s' o]|]; [|discriminate H]. eapply K; exact H.
      + eapply K; exact H.
      + eapply K; exact H.
    - subst sd0. destruct (step (cf sd) (t_ep t sd) (LClosed 0)) as [[s' o]|] eqn:Es; [|discriminate H]. injection H as <- <-. right; left. exists (LClosed 0). cbn [t_ep t_rd t_in]. rewrite upd_eq, at_side_map, side_eqb_refl. auto.
    - destruct (step (cf sd0) (t_ep t sd0) (LClosed 0)) as [[s' o]|]; [|discriminate H]. injection H as <- <-. left. cbn [t_ep t_rd t_in]. rewrite (AT _ _ S0), S0, upd_ne by apply other_ne. auto.
  Qed.
  (** bytes arrive at [sd] *)
  Definition read_now (sd : side) (b : bytes) (t : tapped) : xres event eread := exec (er_poll_read dec (E sd)) (E sd) (S (length (er_sock (arrived b (snd (t_rd t sd)))))) (fst (fst (t_rd t sd))) (snd (fst (t_rd t sd))) (arrived b (snd (t_rd t sd))).
  Inductive gives (sd : side) (b : bytes) (t t' : tapped) (os : list obs) : Prop :=
  | gv_wait p' g' r' : (read_now sd b t = XIdle p' g' r'
                     \/ read_now sd b t = XLost p' g' r') ->
      t_ep t' sd = t_ep t sd -> os = [] -> t_in t' sd = t_in t sd ++ b -> t_rd t' sd = (p', g', r') -> gives sd b t t' os
  | gv_event e r' : read_now sd b t = XOut (Ok e) r' ->
      step (cf sd) (t_ep t sd) (LRecv 0 e) = Some (t_ep t' sd, os) -> t_in t' sd = t_in t sd ++ b -> t_rd t' sd = (from_async_read (E sd), [], r') -> gives sd b t t' os
  | gv_end (r' : eread) : step (cf sd) (t_ep t sd) (LClosed 0) = Some (t_ep t' sd, os) -> t_in t' sd = t_in t sd ++ b -> gives sd b t t' os.
  Lemma give_view sd b t t' os : tstep t (TGive sd b) = Some (t', os) -> reading (t_ep t sd) = true /\ gives sd b t t' (at_side sd os).
  Proof.
    intros H. cbn [attack_step] in H. destruct (reading (t_ep t sd)) eqn:R; [|discriminate H]. split; [reflexivity|]. destruct (t_rd t sd) as [[p0 got0] r0] eqn:Er. cbn zeta in H.
    destruct (exec _ _ _ _ _ _) as [[a|er|cr] r'|p' g' r'|p' g' r'|] eqn:X; try discriminate H.
    - destruct (step (cf sd) (t_ep t sd) (LRecv 0 a)) as [[s' o]|] eqn:Es; [|discriminate H]. injection H as <- <-. eapply gv_event; unfold read_now; cbn [t_ep t_rd t_in]; rewrite ?upd_eq, ?at_side_map, ?side_eqb_refl, ?Er; eauto.
    - destruct (step (cf sd) (t_ep t sd) (LClosed 0)) as [[s' o]|] eqn:Es; [|discriminate H]. injection H as <- <-. eapply gv_end; cbn [t_ep t_rd t_in]; rewrite ?upd_eq, ?at_side_map, ?side_eqb_refl; eauto.
    - destruct (step (cf sd) (t_ep t sd) (LClosed 0)) as [[s' o]|] eqn:Es; [|discriminate H]. injection H as <- <-. eapply gv_end; cbn [t_ep t_rd t_in]; rewrite ?upd_eq, ?at_side_map, ?side_eqb_refl; eauto.
    - injection H as <- <-. eapply gv_wait; unfold read_now; cbn [t_ep t_rd t_in]; rewrite ?upd_eq, ?Er; eauto.
    - injection H as <- <-. eapply gv_wait; unfold read_now; cbn [t_ep t_rd t_in]; rewrite ?upd_eq, ?Er; eauto.
  Qed.
  Lemma taken_more sd t l t' os : tstep t l = Some (t', os) -> exists more, t_in t' sd = t_in t sd ++ more.
  Proof.
    intros H. destruct (tstep_side sd _ _ _ _ H) as [(_ & _ & A & _)|[(l' & _ & _ & _ & A)|(b & ->)]].
    - exists []. rewrite app_nil_r. exact A.
    - exists []. rewrite app_nil_r. exact A.
    - destruct (give_view _ _ _ _ _ H) as (_ & G). destruct G; eexists; eassumption.
  Qed.
  Lemma side_runs sd ps ctr st ls t tr : attacked enc dec cf ps ctr st ls t tr -> exists ls', runs (cf sd) 1 (side_eqb sd SideA) (ps sd) (ctr sd) ls' (t_ep t sd) (at_side sd tr).
  Proof.
    unfold attacked. revert ls t tr. apply (trun_ind _ (fun ls t tr => exists ls', runs (cf sd) 1 (side_eqb sd SideA) (ps sd) (ctr sd) ls' (t_ep t sd) (at_side sd tr))); [exists []; reflexivity|].
    intros ls t tr l t' os (ls' & IH) _ H. rewrite at_side_app. destruct (tstep_side sd _ _ _ _ H) as [(A & _ & _ & ->)|[(l' & A & _)|(b & ->)]].
    - exists ls'. rewrite app_nil_r, A. exact IH.
    - exists (ls' ++ [l']). eapply snoc_run; eauto.
    - destruct (give_view _ _ _ _ _ H) as (_ & G). destruct G as [p' g' r' _ A B _ _|e r' _ A _ _|r' A _]; [exists ls'; rewrite B, app_nil_r, A; exact IH|eexists (ls' ++ [_]); eapply snoc_run; eauto..].
  Qed.
  Lemma over_silent sd ps ctr st ls t tr : attacked enc dec cf ps ctr st ls t tr -> over tr sd -> reading (t_ep t sd) = false.
  Proof.
    intros H D. destruct (side_runs sd _ _ _ _ _ _ H) as (ls' & R). assert (L : lp (t_ep t sd) 0 = Some LDone) by (eapply down_done; [exact R|exact D]).
    unfold reading, lp in *. destruct (nth_error (e_conns (t_ep t sd)) 0); [|reflexivity]. cbn in L. injection L as ->. reflexivity.
  Qed.
  Lemma over_more sd tr os : over tr sd -> over (tr ++ os) sd.
  Proof. intros [H|H]; [left|right]; rewrite at_side_app; apply in_or_app; auto. Qed.

  (** ** Reading *)
  (** the read half has dealt with [m] packages, [l] is what it was given after them *)
  Record rd_at (E0 : env) (key : bytes) (m : N) (l : bytes) (r : eread) : Prop := { g_rem : er_rem r = []; g_key : er_key r = key; g_de : er_de r = m mod U64; g_at : er_at E0 r l EndIdle }.
  Lemma more_at E0 key m l r b : rd_at E0 key m l r -> rd_at E0 key m (l ++ b) (arrived b r).
  Proof.
    intros [A B C [D1 D2]]. split; [exact A|exact B|exact C|]. unfold arrived. split; cbn [er_sock er_fut er_rem]; rewrite (content_more b _ D1); [reflexivity|]. cbn [fst]. destruct (er_fut r) as [|q g|].
    - rewrite D2. reflexivity.
    - destruct D2 as (D2 & D3 & D4). split; [exact D2|]. split; [exact D3|]. intros x. rewrite <- !app_assoc. exact (D4 (b ++ x)).
    - destruct D2.
  Qed.
  Lemma waits E0 key m l r : rd_at E0 key m l r -> run_bytes E0 read_package l = PMore ->
    exists r', exec (er_poll_read dec E0) E0 (S (length (er_sock r))) (from_async_read E0) [] r = XIdle (from_async_read E0) [] r' /\ rd_at E0 key m l r'.
  Proof.
    intros [A1 A2 A3 A4] PM. destruct (far_starts E0) as [cc Hs].
    destruct (idle_more dec E0 _ false 8 cc Hs ltac:(lia) (S (length (er_sock r))) r l A1 A4 ltac:(lia) PM) as (r' & X & B1 & B2 & B3 & B4 & B5).
    exists r'. split; [exact X|]. split; [exact B4|congruence|congruence|exact B1].
  Qed.
  Lemma refused_package E0 key m l r ct x : rd_at E0 key m l r -> run_bytes E0 read_package l = POut (Ok ct) x -> dec key (nonce_from_number (m mod U64)) ct = None ->
    exists e r', exec (er_poll_read dec E0) E0 (S (length (er_sock r))) (from_async_read E0) [] r = XOut (Err e) r'.
  Proof.
    intros [A1 A2 A3 A4] PM D. destruct (far_starts E0) as [cc Hs]. rewrite <- A2, <- A3 in D.
    destruct (exec_bad dec E0 _ false 8 cc Hs ltac:(lia) (S (length (er_sock r))) r l EndIdle ct x A1 A4 ltac:(lia) PM D) as (r' & X & _). eauto.
  Qed.
  Lemma too_large E0 key m l r cr x : rd_at E0 key m l r -> run_bytes E0 read_package l = POut (Crash cr) x ->
    exists r', exec (er_poll_read dec E0) E0 (S (length (er_sock r))) (from_async_read E0) [] r = XOut (Crash cr) r'.
  Proof.
    intros [A1 A2 A3 A4] PM. destruct (far_starts E0) as [cc Hs].
    destruct (exec_oom dec E0 _ false 8 cc Hs ltac:(lia) (S (length (er_sock r))) r l EndIdle cr x A1 A4 ltac:(lia) PM) as (r' & X & _). eauto.
  Qed.
  Lemma genuine_package E0 key m l r e x : rd_at E0 key m l r -> sendable E0 e (wire_bytes e) -> run_bytes E0 read_package l = POut (Ok (enc key (nonce_from_number (m mod U64)) (wire_bytes e))) x ->
    exists r', exec (er_poll_read dec E0) E0 (S (length (er_sock r))) (from_async_read E0) [] r = XOut (Ok (drop_empty_ns e)) r' /\ rd_at E0 key (m + 1) x r'.
  Proof.
    intros [A1 A2 A3 A4] (S1 & S2 & S3 & S4 & S5 & S6) RP. destruct (GC key (nonce_from_number (m mod U64)) (wire_bytes e)) as [G1 G2]. destruct (far_starts E0) as [cc Hs].
    destruct (decode_encoded E0 e [] S1 S3 S2) as (l' & D1 & D2). rewrite S4 in D1. injection D1 as <-. rewrite app_nil_r in D2. apply decode_run in D2.
    rewrite <- A2, <- A3 in G1, RP. destruct (exec_package dec E0 _ false 8 cc Hs ltac:(lia) (S (length (er_sock r))) r l EndIdle _ x _ _ [] A1 A4 ltac:(lia) RP G1 D2) as (r' & X & B1 & B2 & B3 & B4 & B5).
    exists r'. split; [exact X|]. split; [exact B5|congruence| |exact B1]. rewrite B4, A3. apply next_mod.
  Qed.

  (** ** What has been read *)
  Section Read.
    Context (key : bytes) (from : side -> list side) (F : side -> list event).
    Context (FS : forall sd s e, In s (from sd) -> In e (F s) -> exists l, sendable (E sd) e l).
    Definition genuine_in (sd : side) (D : bytes) : Prop := forall cs tail i c, D = boxes cs ++ tail -> Forall (receivable (E sd)) cs -> nth_error cs i = Some c ->
      dec key (nonce_from_number (N.of_nat i mod 2 ^ 64)) c <> None -> exists s e, In s (from sd) /\ nth_error (F s) i = Some e /\ c = pack enc key i e.
    Lemma genuine_less sd D D' : genuine_in sd (D ++ D') -> genuine_in sd D.
    Proof. intros G cs tail i c H. apply (G cs (tail ++ D') i c). rewrite H, <- app_assoc. reflexivity. Qed.
    (** the read half between two packages *)
    Definition r_ok (sd : side) (t : tapped) (tr : list (side * obs)) : Prop := exists cs l r, t_rd t sd = (from_async_read (E sd), [], r) /\ rd_at (E sd) key (N.of_nat (length cs)) l r
      /\ t_in t sd = boxes cs ++ l /\ Forall (receivable (E sd)) cs /\ length cs = length (events_read 0 (at_side sd tr)).
    (** the packages of the events read *)
    Definition accepted (sd : side) (t : tapped) (tr : list (side * obs)) : Prop := exists cs l, t_in t sd = boxes cs ++ l /\ Forall (receivable (E sd)) cs /\ length cs = length (events_read 0 (at_side sd tr))
      /\ forall i c, nth_error cs i = Some c -> dec key (nonce_from_number (N.of_nat i mod 2 ^ 64)) c <> None.
    Definition genuine_events (sd : side) (tr : list (side * obs)) : Prop :=
      forall j e, nth_error (events_read 0 (at_side sd tr)) j = Some e -> exists s e0, In s (from sd) /\ nth_error (F s) j = Some e0 /\ e = drop_empty_ns e0.
    Lemma closed_over sd tr os s s' : step (cf sd) s (LClosed 0) = Some (s', at_side sd os) -> over (tr ++ os) sd /\ events_read 0 (at_side sd os) = [].
    Proof.
      intros H. cbn [step] in H. destruct (nth_error (e_conns s) 0) as [cn|]; [|discriminate H]. destruct (cn_loop cn); try discriminate H. injection H as _ H. rewrite <- H. split; [|reflexivity].
      left. rewrite at_side_app, <- H. apply in_or_app. right. left. reflexivity.
    Qed.
    Lemma reads sd ps ctr st ls t tr : (forall sd, exists s, content s = ([], EndIdle) /\ fresh_read key s (fst (st sd))) ->
      attacked enc dec cf ps ctr st ls t tr -> genuine_in sd (t_in t sd) -> (over tr sd \/ r_ok sd t tr) /\ accepted sd t tr /\ genuine_events sd tr.
    Proof.
      intros FR. unfold attacked. revert ls t tr. apply (trun_ind _ (fun ls t tr => genuine_in sd (t_in t sd) -> (over tr sd \/ r_ok sd t tr) /\ accepted sd t tr /\ genuine_events sd tr)).
      - intros _. split; [right|split; [exists [], []; repeat split; [constructor|intros [|i] c J; discriminate J]|intros j e Q; destruct j; discriminate Q]]. destruct (FR sd) as (s & C & Q). unfold fresh_read in Q. exists [], [], (fst (st sd)). cbn [tapped_new t_rd t_in length]. split; [reflexivity|].
        split; [|split; [reflexivity|split; [constructor|reflexivity]]]. rewrite Q. split; cbn; try reflexivity. split; cbn; rewrite C; reflexivity.
      - intros ls t tr l t' os IH HR H G. destruct (taken_more sd _ _ _ _ H) as (more & TM). assert (G0 : genuine_in sd (t_in t sd)) by (apply (genuine_less sd _ more); rewrite <- TM; exact G). destruct (IH G0) as (R & AC & V). clear IH.
        assert (SAME : events_read 0 (at_side sd os) = [] -> accepted sd t' (tr ++ os) /\ genuine_events sd (tr ++ os)).
        { intros Q3. assert (Q4 : events_read 0 (at_side sd (tr ++ os)) = events_read 0 (at_side sd tr)) by (rewrite at_side_app, read_app, Q3, app_nil_r; reflexivity). unfold accepted, genuine_events. rewrite Q4. split; [|exact V].
          destruct AC as (cs & l0 & B1 & B2 & B3 & B4). exists cs, (l0 ++ more). rewrite TM, B1, <- app_assoc. auto. }
        assert (KEEP : t_rd t' sd = t_rd t sd -> t_in t' sd = t_in t sd -> events_read 0 (at_side sd os) = [] -> (over (tr ++ os) sd \/ r_ok sd t' (tr ++ os)) /\ accepted sd t' (tr ++ os) /\ genuine_events sd (tr ++ os)).
        { intros Q1 Q2 Q3. split; [|auto]. destruct R as [R|R]; [left; apply over_more; exact R|right]. unfold r_ok in *. rewrite Q1, Q2, at_side_app, read_app, Q3, app_nil_r. exact R. }
        destruct (tstep_side sd _ _ _ _ H) as [(_ & A & B & C)|[(l' & A & B & C & D)|(b & ->)]].
        + apply KEEP; auto. rewrite C. reflexivity.
        + apply KEEP; auto. destruct B as [B| ->]; [apply got_read; exact (own_got _ _ _ _ _ A B)|]. apply (closed_over sd tr os _ _ A).
        + destruct (give_view _ _ _ _ _ H) as (RD & GV). destruct R as [R|R]; [rewrite (over_silent sd _ _ _ _ _ _ HR R) in RD; discriminate RD|].
          assert (CLOSED : over (tr ++ os) sd /\ events_read 0 (at_side sd os) = [] -> (over (tr ++ os) sd \/ r_ok sd t' (tr ++ os)) /\ accepted sd t' (tr ++ os) /\ genuine_events sd (tr ++ os)) by (intros (Q1 & Q2); auto).
          destruct R as (cs & l & r & A1 & A2 & A3 & A4 & A5). assert (RN : read_now sd b t = exec (er_poll_read dec (E sd)) (E sd) (S (length (er_sock (arrived b r)))) (from_async_read (E sd)) [] (arrived b r)) by (unfold read_now; rewrite A1; reflexivity). assert (A2' := more_at _ _ _ _ _ b A2).
          destruct (read_package_cases (E sd) (l ++ b)) as [(ct & x & B1 & B2 & B3 & B4)|[(n & x & _ & _ & _ & B4)|(B4 & _)]].
          * (* a package *)
            destruct (dec key (nonce_from_number (N.of_nat (length cs) mod U64)) ct) as [pl|] eqn:ED.
            2: { destruct (refused_package _ _ _ _ _ _ _ A2' B4 ED) as (e & r1 & X). destruct GV as [p' g' r' [X'|X'] _ _ _ _|e' r' X' _ _ _|r' S1 _]; [rewrite RN, X in X'; discriminate X'..|]. apply CLOSED. eapply closed_over; exact S1. }
            assert (TI' : t_in t' sd = t_in t sd ++ b) by (destruct GV; assumption).
            assert (TI2 : t_in t' sd = boxes (cs ++ [ct]) ++ x) by (rewrite TI', A3, <- app_assoc, B1, boxes_app; cbn; rewrite app_nil_r, <- app_assoc; reflexivity).
            assert (RC : Forall (receivable (E sd)) (cs ++ [ct])) by (apply Forall_app; split; [exact A4|constructor; [split; assumption|constructor]]).
            assert (NX : nth_error (cs ++ [ct]) (length cs) = Some ct) by (rewrite nth_error_app2, Nat.sub_diag by lia; reflexivity).
            assert (DN : dec key (nonce_from_number (N.of_nat (length cs) mod 2 ^ 64)) ct <> None) by (change (2 ^ 64) with U64; rewrite ED; discriminate).
            destruct (G _ _ _ _ TI2 RC NX DN) as (s & e & F1 & F2 & F3).
            assert (SE : exists l0, sendable (E sd) e l0) by (eapply FS; [exact F1|eapply nth_error_In; exact F2]). destruct SE as (l0 & SE). apply sendable_wire in SE. destruct SE as (_ & _ & SE).
            unfold pack in F3. change (2 ^ 64) with U64 in F3. rewrite F3 in B4. destruct (genuine_package _ _ _ _ _ _ _ A2' SE B4) as (r1 & X & R1).
            destruct GV as [p' g' r' [X'|X'] _ _ _ _|e' r' X' S1 TI RD'|r' S1 _]; try (rewrite RN, X in X'; discriminate X').
            -- rewrite RN, X in X'. injection X' as <- <-. assert (Q4 : events_read 0 (at_side sd (tr ++ os)) = events_read 0 (at_side sd tr) ++ [drop_empty_ns e]) by (rewrite at_side_app, read_app, (recv_read _ _ _ _ _ S1); reflexivity).
               assert (LN : length (cs ++ [ct]) = length (events_read 0 (at_side sd (tr ++ os)))) by (rewrite Q4, !app_length, A5; reflexivity).
               split; [right|split].
               ++ exists (cs ++ [ct]), x, r1. split; [exact RD'|]. split; [rewrite app_length; cbn [length]; replace (N.of_nat (length cs + 1)) with (N.of_nat (length cs) + 1) by lia; exact R1|]. auto.
               ++ exists (cs ++ [ct]), x. split; [exact TI2|]. split; [exact RC|]. split; [exact LN|]. intros i c Q.
                  destruct AC as (cs0 & l1 & C1 & C2 & C3 & C4). destruct (Nat.eq_dec i (length cs)) as [->|NE]; [rewrite NX in Q; injection Q as <-; exact DN|].
                  assert (LT : (i < length cs)%nat) by (assert (i < length (cs ++ [ct]))%nat by (apply nth_error_Some; congruence); rewrite app_length in *; cbn in *; lia).
                  apply C4. rewrite nth_error_app1 in Q by exact LT. rewrite <- Q. f_equal. rewrite A3 in C1.
                  apply (boxes_same (E sd) cs0 cs l1 l); auto. congruence.
               ++ intros j e1 Q. rewrite Q4 in Q. destruct (Nat.eq_dec j (length cs)) as [->|NE].
                  ** rewrite A5, nth_error_app2, Nat.sub_diag in Q by lia. injection Q as <-. exists s, e. auto.
                  ** assert (LT : (j < length cs)%nat) by (assert (j < length (events_read 0 (at_side sd tr) ++ [drop_empty_ns e]))%nat by (apply nth_error_Some; congruence); rewrite app_length in *; cbn in *; lia).
                     rewrite nth_error_app1 in Q by lia. exact (V _ _ Q).
            -- apply CLOSED. eapply closed_over; exact S1.
          * destruct (too_large _ _ _ _ _ _ _ A2' B4) as (r1 & X). destruct GV as [p' g' r' [X'|X'] _ _ _ _|e' r' X' _ _ _|r' S1 _]; [rewrite RN, X in X'; discriminate X'..|]. apply CLOSED. eapply closed_over; exact S1.
          * (* not yet a package *)
            destruct (waits _ _ _ _ _ A2' B4) as (r1 & X & R1). destruct GV as [p' g' r' [X'|X'] S1 S2 TI RD'|e' r' X' _ _ _|r' S1 _]; try (rewrite RN, X in X'; discriminate X').
            -- rewrite RN, X in X'. injection X' as <- <- <-. assert (Q3 : events_read 0 (at_side sd os) = []) by (rewrite S2; reflexivity). split; [right|auto].
               exists cs, (l ++ b), r1. rewrite at_side_app, read_app, Q3, app_nil_r. split; [exact RD'|]. split; [exact R1|]. split; [rewrite TI, A3, <- app_assoc; reflexivity|]. auto.
            -- apply CLOSED. eapply closed_over; exact S1.
    Qed.
  End Read.

  (** ** What has been written *)
  Section Written.
    Context (key : bytes) (st : side -> Crypt.stream).
    Definition t_out (t : tapped) (sd : side) : bytes := ws_out (ew_sock (t_wr t sd)).
    Definition w_ok (sd : side) (t : tapped) (tr : list (side * obs)) : Prop := let es := sent_events (at_side sd tr) in
      exists part, t_out t sd = ws_out (ew_sock (snd (st sd))) ++ seals enc key 0 es ++ part
      /\ match t_hold t sd with
         | None => part = [] /\ w_idle key (N.of_nat (length es) mod U64) (t_out t sd) (t_wr t sd)
         | Some (i, f) => exists ctx e pu rest, tst (t_ep t sd) i = Some (TSend ctx e pu) /\ sealed enc key (N.of_nat (length es) mod U64) (wire_bytes e) = part ++ rest /\ rest <> []
             /\ w_busy key ((N.of_nat (length es) + 1) mod U64) (t_out t sd) (wire_bytes e) rest f (t_wr t sd)
         end.
    (** for the writer of [sd] a step is nothing, or a poll of a sending task *)
    Lemma tstep_writer sd t l t' os : tstep t l = Some (t', os) ->
      (t_wr t' sd = t_wr t sd /\ t_hold t' sd = t_hold t sd /\ sent_events (at_side sd os) = [] /\ (forall i ctx e pu, tst (t_ep t sd) i = Some (TSend ctx e pu) -> tst (t_ep t' sd) i = Some (TSend ctx e pu)))
      \/ (exists i n, l = TWrite sd i n).
    Proof.
      intros H. assert (TWO : forall sd0, sd0 = sd \/ sd = other sd0) by (intros sd0; destruct (two_sides sd sd0) as [-> | ->]; [left; reflexivity|right; symmetry; apply other_other]).
      assert (AT : forall sd0 o, sd = other sd0 -> at_side sd (map (fun o => (sd0, o)) o) = []) by (intros sd0 o ->; rewrite at_side_map; destruct sd0; reflexivity).
      assert (NS : forall s lb s' o, step (cf sd) s lb = Some (s', o) -> own_label lb = false -> sent_events o = [] /\ forall i ctx e pu, tst s i = Some (TSend ctx e pu) -> tst s' i = Some (TSend ctx e pu)).
      { intros s lb s' o Q OL. split.
        - destruct lb; try discriminate OL; step_cases Q; reflexivity.
        - intros i ctx e pu T. rewrite <- T. eapply tst_kept; [exact Q|destruct lb; try discriminate OL; discriminate|]. rewrite T. discriminate. }
      destruct l as [sd0 l|sd0 i n|sd0 b|sd0]; destruct (TWO sd0) as [S0|S0].
      - cbn [attack_step] in H. subst sd0. destruct (own_label l) eqn:OL; [|discriminate H]. destruct (step (cf sd) (t_ep t sd) l) as [[s' o]|] eqn:Es; [|discriminate H].
        destruct (existsb is_cut o || existsb is_sent (map (fun o => (sd, o)) o)) eqn:NC; [discriminate H|]. injection H as <- <-. left. cbn [t_ep t_wr t_hold]. rewrite upd_eq, at_side_map, side_eqb_refl. split; [reflexivity|]. split; [reflexivity|].
        split; [apply (sent_none sd); apply orb_false_iff in NC; apply NC|]. intros i ctx e pu T. exact (sending_kept _ _ _ _ _ _ _ _ _ _ Es OL NC T).
      - cbn [attack_step] in H. destruct (own_label l); [|discriminate H]. destruct (step (cf sd0) (t_ep t sd0) l) as [[s' o]|]; [|discriminate H].
        destruct (existsb is_cut o || existsb is_sent (map (fun o => (sd0, o)) o)); [discriminate H|]. injection H as <- <-. left. cbn [t_ep t_wr t_hold]. rewrite (AT _ _ S0), S0, upd_ne by apply other_ne. auto.
      - subst sd0. right. eauto.
      - cbn [attack_step] in H. left. destruct (option_map tk_st (nth_error (e_tasks (t_ep t sd0)) i)) as [[| |ctx e pu| | | | | | |]|]; try discriminate H.
        destruct (to_send (t_hold t sd0) i e) as [f0|]; [|discriminate H]. destruct (g_fut _ _ i free_world _ f0) as [[[wd w'] f'] r]. destruct r as [|[id|er|cr]]; try discriminate H.
        + injection H as <- <-. cbn [t_ep t_wr t_hold]. rewrite S0, !upd_ne by apply other_ne. auto.
        + destruct (step (cf sd0) (t_ep t sd0) (LTask i completes)) as [[s' o]|]; [|discriminate H]. injection H as <- <-. cbn [t_ep t_wr t_hold]. rewrite (AT _ _ S0), S0, !upd_ne by apply other_ne. auto.
      - subst sd0. left. assert (GV := give_view _ _ _ _ _ H). destruct GV as (_ & GV). assert (W : t_wr t' sd = t_wr t sd /\ t_hold t' sd = t_hold t sd).
        { clear GV. cbn [attack_step] in H. destruct (reading (t_ep t sd)); [|discriminate H]. destruct (t_rd t sd) as [[p0 got0] r0]. cbn zeta in H. destruct (exec _ _ _ _ _ _) as [[a|er|cr] r'|p' g' r'|p' g' r'|]; try discriminate H.
          - destruct (step (cf sd) (t_ep t sd) (LRecv 0 a)) as [[s' o]|]; [|discriminate H]. injection H as <- <-. auto.
          - destruct (step (cf sd) (t_ep t sd) (LClosed 0)) as [[s' o]|]; [|discriminate H]. injection H as <- <-. auto.
          - destruct (step (cf sd) (t_ep t sd) (LClosed 0)) as [[s' o]|]; [|discriminate H]. injection H as <- <-. auto.
          - injection H as <- <-. auto.
          - injection H as <- <-. auto. }
        destruct W as (W1 & W2). split; [exact W1|]. split; [exact W2|]. destruct GV as [p' g' r' _ A B _ _|e r' _ A _ _|r' A _].
        + rewrite B, A. split; [reflexivity|auto].
        + exact (NS _ _ _ _ A eq_refl).
        + exact (NS _ _ _ _ A eq_refl).
      - cbn [attack_step] in H. left. destruct (reading (t_ep t sd0)); [|discriminate H]. destruct (t_rd t sd0) as [[p0 got0] r0]. cbn zeta in H.
        assert (K : forall s' i' rd' o, Some (mk_tapped (upd (t_ep t) sd0 s') (t_hold t) (t_wr t) i' rd', map (fun o => (sd0, o)) o) = Some (t', os) -> t_wr t' sd = t_wr t sd /\ t_hold t' sd = t_hold t sd /\ sent_events (at_side sd os) = [] /\ (forall i ctx e pu, tst (t_ep t sd) i = Some (TSend ctx e pu) -> tst (t_ep t' sd) i = Some (TSend ctx e pu))).
        { intros s' i' rd' o J. injection J as <- <-. cbn [t_ep t_wr t_hold]. rewrite (AT _ _ S0), S0, !upd_ne by apply other_ne. auto. }
        destruct (exec _ _ _ _ _ _) as [[a|er|cr] r'|p' g' r'|p' g' r'|]; try discriminate H.
        + destruct (step (cf sd0) (t_ep t sd0) (LRecv 0 a)) as [[s' o]|]; [|discriminate H]. eapply K; exact H.
        + destruct (step (cf sd0) (t_ep t sd0) (LClosed 0)) as [[s' o]|]; [|discriminate H]. eapply K; exact H.
        + destruct (step (cf sd0) (t_ep t sd0) (LClosed 0)) as [[s' o]|]; [|discriminate H]. eapply K; exact H.
        + eapply K; exact H.
        + eapply K; exact H.
      - cbn [attack_step] in H. subst sd0. destruct (step (cf sd) (t_ep t sd) (LClosed 0)) as [[s' o]|] eqn:Es; [|discriminate H]. injection H as <- <-. left. cbn [t_ep t_wr t_hold]. rewrite upd_eq, at_side_map, side_eqb_refl. split; [reflexivity|]. split; [reflexivity|]. exact (NS _ _ _ _ Es eq_refl).
      - cbn [attack_step] in H. destruct (step (cf sd0) (t_ep t sd0) (LClosed 0)) as [[s' o]|]; [|discriminate H]. injection H as <- <-. left. cbn [t_ep t_wr t_hold]. rewrite (AT _ _ S0), S0, upd_ne by apply other_ne. auto.
    Qed.
    Lemma flight_is t sd i f ctx e pu : t_hold t sd = Some (i, f) -> tst (t_ep t sd) i = Some (TSend ctx e pu) -> in_flight t sd = [e].
    Proof. intros H T. unfold in_flight. rewrite H. unfold tst in T. destruct (nth_error (e_tasks (t_ep t sd)) i); [|discriminate T]. cbn in T. injection T as ->. reflexivity. Qed.
    Lemma flight_none t sd : t_hold t sd = None -> in_flight t sd = [].
    Proof. intros H. unfold in_flight. rewrite H. reflexivity. Qed.
    Definition fits (sd : side) (t : tapped) (tr : list (side * obs)) : Prop := forall e, In e (made t tr sd) -> exists E0 l, sendable E0 e l.
    Lemma written sd ps ctr ls t tr : (forall sd, exists sk, fresh_write key sk (snd (st sd))) -> attacked enc dec cf ps ctr st ls t tr -> fits sd t tr -> w_ok sd t tr.
    Proof.
      intros FW. unfold attacked. revert ls t tr. apply (trun_ind _ (fun ls t tr => fits sd t tr -> w_ok sd t tr)).
      - intros _. destruct (FW sd) as (sk & Q). unfold fresh_write in Q. exists []. unfold t_out. cbn [tapped_new t_wr t_hold]. cbn. rewrite Q. cbn. rewrite app_nil_r. split; [reflexivity|]. split; [reflexivity|]. exists (ws_script sk). destruct sk; reflexivity.
      - intros ls t tr l t' os IH HR H FT. destruct (tstep_writer sd _ _ _ _ H) as [(A & B & C & D)|(i & n & ->)].
        + assert (SE : sent_events (at_side sd (tr ++ os)) = sent_events (at_side sd tr)) by (rewrite at_side_app, sent_events_app, C, app_nil_r; reflexivity).
          assert (FT0 : fits sd t tr).
          { intros e Q. apply FT. unfold made in *. rewrite SE. apply in_app_or in Q. apply in_or_app. destruct Q as [Q|Q]; [left; exact Q|right]. unfold in_flight in *. rewrite B. destruct (t_hold t sd) as [[i f]|]; [|destruct Q].
            destruct (nth_error (e_tasks (t_ep t sd)) i) as [tk|] eqn:Et; [|destruct Q]. destruct (tk_st tk) as [| |ctx e' pu| | | | | | |] eqn:Ek; try (destruct Q; fail). destruct Q as [Q|[]]. subst e'.
            assert (T : tst (t_ep t sd) i = Some (TSend ctx e pu)) by (unfold tst; rewrite Et; cbn; rewrite Ek; reflexivity). apply D in T. unfold tst in T. destruct (nth_error (e_tasks (t_ep t' sd)) i); [|discriminate T]. cbn in T. injection T as ->. left. reflexivity. }
          destruct (IH FT0) as (part & W1 & W2). exists part. unfold t_out in *. rewrite SE, A, B. split; [exact W1|]. destruct (t_hold t sd) as [[i f]|]; [|exact W2]. destruct W2 as (ctx & e & pu & rest & W2 & W3). exists ctx, e, pu, rest. split; [apply D; exact W2|exact W3].
        + cbn [attack_step] in H. destruct (option_map tk_st (nth_error (e_tasks (t_ep t sd)) i)) as [[| |ctx e pu| | | | | | |]|] eqn:Hi; try discriminate H. change (tst (t_ep t sd) i = Some (TSend ctx e pu)) in Hi.
          destruct (to_send (t_hold t sd) i e) as [f0|] eqn:TS; [|discriminate H]. destruct (g_fut _ _ i free_world _ f0) as [[[wd w'] f'] r] eqn:Eg.
          (* what is made *)
          assert (MK : incl (made t tr sd) (made t' (tr ++ os) sd) /\ In e (made t' (tr ++ os) sd)).
          { assert (FL : incl (in_flight t sd) [e]).
            { destruct (t_hold t sd) as [[j f]|] eqn:Eh; [|rewrite (flight_none _ _ Eh); intros x []]. cbn [to_send] in TS. destruct (Nat.eqb_spec i j) as [<-|]; [|discriminate TS]. rewrite (flight_is _ _ _ _ _ _ _ Eh Hi). apply incl_refl. }
            destruct r as [|[id|er|cr]]; try discriminate H.
            - injection H as <- <-. rewrite app_nil_r. assert (Q : in_flight (mk_tapped (t_ep t) (upd (t_hold t) sd (Some (i, f'))) (upd (t_wr t) sd w') (t_in t) (t_rd t)) sd = [e]) by (eapply flight_is; cbn [t_hold t_ep]; [apply upd_eq|exact Hi]).
              unfold made. rewrite Q. split; [apply incl_app_app; [apply incl_refl|exact FL]|apply in_or_app; right; left; reflexivity].
            - destruct (send_step (cf sd) (t_ep t sd) i ctx e pu (mk_instant 0 0) 0 Hi) as (s1 & o1 & S1 & _ & S3 & _). change (LTask i (AStep (mk_instant 0 0) 0)) with (LTask i completes) in S1. rewrite S1 in H. injection H as <- <-.
              assert (IN : In e (sent_events (at_side sd (tr ++ map (fun o => (sd, o)) o1)))).
              { rewrite at_side_app, at_side_map, side_eqb_refl, sent_events_app. apply in_or_app. right. unfold sent_events. apply in_flat_map. eexists. split; [exact S3|left; reflexivity]. }
              unfold made. split; [|apply in_or_app; left; exact IN]. intros x Q. apply in_or_app. left. apply in_app_or in Q. destruct Q as [Q|Q]; [rewrite at_side_app, sent_events_app; apply in_or_app; left; exact Q|]. apply FL in Q. destruct Q as [<-|[]]. exact IN. }
          destruct MK as (MK & IN). assert (FT0 : fits sd t tr) by (intros x Q; apply FT, MK, Q). destruct (IH FT0) as (part & W1 & W2). destruct (FT e IN) as (E0 & l0 & SE). apply sendable_wire in SE. destruct SE as (_ & SM & _).
          set (es := sent_events (at_side sd tr)) in *.
          assert (PT : exists rest, sealed enc key (N.of_nat (length es) mod U64) (wire_bytes e) = part ++ rest /\ rest <> [] /\ polled_to n key ((N.of_nat (length es) + 1) mod U64) (t_out t sd) (wire_bytes e) rest w' f' r).
          { destruct (t_hold t sd) as [[j f]|] eqn:Eh.
            - cbn [to_send] in TS. destruct (Nat.eqb_spec i j) as [<-|]; [|discriminate TS]. injection TS as <-. destruct W2 as (ctx' & e' & pu' & rest & F1 & F2 & F3 & F4). rewrite Hi in F1. injection F1 as <- <- <-. exists rest. split; [exact F2|]. split; [exact F3|]. eapply busy_polled; eauto. apply SM.
            - cbn [to_send] in TS. injection TS as <-. destruct W2 as (-> & W2). exists (sealed enc key (N.of_nat (length es) mod U64) (wire_bytes e)). split; [reflexivity|]. split; [apply sealed_ne|]. rewrite <- next_mod. eapply new_polled; eauto. }
          destruct PT as (rest & P1 & P2 & PT). unfold polled_to in PT. destruct (n =? 0); [destruct PT as (er & ->); discriminate H|]. destruct (skipn (N.to_nat n) rest) as [|b rest'] eqn:Esk.
          * destruct PT as ((id & ->) & WI). destruct (send_step (cf sd) (t_ep t sd) i ctx e pu (mk_instant 0 0) 0 Hi) as (s1 & o1 & S1 & S2 & S3 & S4). change (LTask i (AStep (mk_instant 0 0) 0)) with (LTask i completes) in S1. rewrite S1 in H. injection H as <- <-.
            assert (SO : sent_events o1 = [e]) by (exact (send_completes' _ _ _ _ _ _ _ _ Hi S1)).
            assert (Q : sent_events (at_side sd (tr ++ map (fun o => (sd, o)) o1)) = es ++ [e]) by (rewrite at_side_app, at_side_map, side_eqb_refl, sent_events_app, SO; reflexivity).
            assert (WO : ws_out (ew_sock w') = t_out t sd ++ rest) by (destruct WI as (items & ->); reflexivity).
            exists []. rewrite Q. unfold t_out. cbn [t_wr t_hold]. rewrite !upd_eq, WO, app_length. cbn [length]. split; [|split; [reflexivity|]].
            -- rewrite W1, seals_app, seals_cons, N.add_0_l, P1. cbn [seals map ciphertexts boxes concat]. rewrite <- !app_assoc, !app_nil_r. reflexivity.
            -- replace (N.of_nat (length es + 1)) with (N.of_nat (length es) + 1) by lia. exact WI.
          * destruct PT as (-> & WB). injection H as <- <-. rewrite app_nil_r. fold es. assert (WO : ws_out (ew_sock w') = t_out t sd ++ firstn (N.to_nat n) rest) by (destruct WB as (items & id & [(_ & ->)|(_ & ->)]); reflexivity).
            exists (part ++ firstn (N.to_nat n) rest). fold es. unfold t_out. cbn [t_wr t_hold t_ep]. rewrite !upd_eq, WO. split; [rewrite W1, <- !app_assoc; reflexivity|].
            exists ctx, e, pu, (b :: rest'). split; [exact Hi|]. split; [rewrite P1, <- app_assoc, <- Esk, firstn_skipn; reflexivity|]. split; [discriminate|exact WB].
    Qed.
  End Written.
End Attacked.

(** ** Sequences of packages *)
Lemma no_package E : run_bytes E read_package [] = PMore.
Proof. reflexivity. Qed.
(** what can be read as packages is the beginning of the packages there are *)
Lemma parsed E cs0 tail0 : Forall (receivable E) cs0 -> run_bytes E read_package tail0 = PMore -> forall cs tail, boxes cs ++ tail = boxes cs0 ++ tail0 -> Forall (receivable E) cs -> exists more, cs0 = cs ++ more.
Proof.
  intros F0 T. induction F0 as [|c0 cs0 R0 F0 IH]; intros [|c cs] tail H F.
  - exists []. reflexivity.
  - exfalso. inversion F as [|x y Q FQ]; subst. assert (A := boxes_run E c cs tail Q). rewrite H in A. cbn [boxes map concat app] in A. rewrite T in A. discriminate A.
  - eexists. reflexivity.
  - inversion F as [|x y Q FQ]; subst. assert (A := boxes_run E c cs tail Q). assert (B := boxes_run E c0 cs0 tail0 R0). rewrite H, B in A. injection A as <- A. destruct (IH cs tail (eq_sym A) FQ) as (more & ->). exists more. reflexivity.
Qed.
Lemma parsed_with E cs0 : Forall (receivable E) cs0 -> forall cs tail y, (boxes cs ++ tail) ++ y = boxes cs0 -> Forall (receivable E) cs -> exists more, cs0 = cs ++ more.
Proof. intros F0 cs tail y H F. rewrite <- app_assoc in H. apply (parsed E cs0 [] F0 (no_package E) cs (tail ++ y)); [|exact F]. rewrite app_nil_r. exact H. Qed.
Lemma parsed_long E cs c0 rest tail : receivable E c0 -> Forall (receivable E) cs -> forall cs' l, boxes cs' ++ l = boxes (cs ++ c0 :: rest) ++ tail -> Forall (receivable E) cs' -> length cs' = length cs -> cs' = cs /\ l = boxes (c0 :: rest) ++ tail.
Proof.
  intros R0 F cs' l H F' L. rewrite boxes_app, <- app_assoc in H. assert (Q : cs' = cs) by (eapply boxes_same; [exact H|exact F'|exact F|exact L]). split; [exact Q|]. rewrite Q in H. apply app_inv_head in H. exact H.
Qed.
Lemma receivable_ct enc dec key E e l n : good_cipher enc dec -> sendable E e l -> receivable E (enc key n (wire_bytes e)).
Proof. intros G Q. apply sendable_wire in Q. destruct Q as (_ & _ & (_ & _ & _ & _ & A & B)). destruct (G key n (wire_bytes e)) as [_ L]. unfold receivable. rewrite L. split; [lia|exact B]. Qed.
Lemma receivable_all enc dec key E es : good_cipher enc dec -> (forall e, In e es -> exists l, sendable E e l) -> forall m, Forall (receivable E) (ciphertexts enc key m (map wire_bytes es)).
Proof.
  intros G. induction es as [|e es IH]; intros H m; cbn [map ciphertexts]; constructor.
  - destruct (H e (or_introl eq_refl)) as (l & Q). exact (receivable_ct enc dec key E e l _ G Q).
  - apply IH. intros e' Q. apply H. right. exact Q.
Qed.
(** the bytes written, with the package being written completed *)
Lemma written_all enc dec cf key st sd ps ctr ls t tr : (forall sd, exists sk, fresh_write key sk (snd (st sd))) -> attacked enc dec cf ps ctr st ls t tr -> fits sd t tr ->
  exists part rest, written_by st t sd (packages enc key (sent_events (at_side sd tr)) ++ part) /\ (part ++ rest = boxes (ciphertexts enc key (N.of_nat (length (sent_events (at_side sd tr)))) (map wire_bytes (in_flight t sd)))) /\ (rest = [] -> in_flight t sd = []).
Proof.
  intros FW H F. destruct (written enc dec cf key st sd ps ctr ls t tr FW H F) as (part & A & B). destruct (t_hold t sd) as [[i f]|] eqn:Eh.
  - destruct B as (ctx & e & pu & rest & B1 & B2 & B3 & _). rewrite (flight_is _ _ _ _ _ _ _ Eh B1). exists part, rest. split; [exact A|]. split; [|intros ->; destruct B3; reflexivity]. rewrite <- B2. unfold boxes, sealed. cbn [map ciphertexts concat]. rewrite app_nil_r. reflexivity.
  - destruct B as (-> & _). rewrite (flight_none _ _ Eh). exists [], []. split; [exact A|]. split; reflexivity.
Qed.
Lemma passed_genuine enc dec cf (GC : good_cipher enc dec) key st sd ps ctr ls t tr y : (forall sd, exists sk, fresh_write key sk (snd (st sd))) -> attacked enc dec cf ps ctr st ls t tr -> all_fit cf opposite t tr ->
  written_by st t (other sd) (t_in t sd ++ y) -> genuine_in enc dec cf key opposite (made t tr) sd (t_in t sd).
Proof.
  intros FW H F W cs tail i c A B C _. exists (other sd). destruct (written_all enc dec cf key st (other sd) ps ctr ls t tr FW H) as (part & rest & W1 & W2 & _).
  { intros e Q. destruct (F sd (other sd) e (or_introl eq_refl) Q) as (l & S). eauto. }
  unfold written_by in *. rewrite W in W1. apply app_inv_head in W1.
  assert (Q : (boxes cs ++ tail) ++ (y ++ rest) = boxes (ciphertexts enc key 0 (map wire_bytes (made t tr (other sd))))).
  { rewrite <- A, app_assoc, W1, <- app_assoc, W2. unfold packages, made. rewrite map_app, ciphertexts_app, boxes_app, map_length. reflexivity. }
  destruct (parsed_with (cf_env (cf sd)) _ (receivable_all enc dec key (cf_env (cf sd)) _ GC (fun e J => F sd (other sd) e (or_introl eq_refl) J) 0) cs tail _ Q B) as (more & D).
  assert (N1 : nth_error (ciphertexts enc key 0 (map wire_bytes (made t tr (other sd)))) i = Some c) by (rewrite D, nth_error_app1; [exact C|apply nth_error_Some; congruence]).
  rewrite ciphertexts_nth, nth_error_map in N1. destruct (nth_error (made t tr (other sd)) i) as [e|]; [|discriminate N1]. cbn in N1. injection N1 as <-. exists e. split; [left; reflexivity|]. split; [reflexivity|]. unfold pack. reflexivity.
Qed.
(** what is read is the beginning of a list *)
Lemma list_prefix {A} (l : list A) : forall m, (forall j e, nth_error l j = Some e -> nth_error m j = Some e) -> exists more, m = l ++ more.
Proof.
  induction l as [|a l IH]; intros m H; [exists m; reflexivity|]. destruct m as [|b m]; [discriminate (H 0%nat a eq_refl)|]. assert (Q := H 0%nat a eq_refl). injection Q as ->. destruct (IH m) as (more & ->); [intros j e J; exact (H (S j) e J)|]. exists more. reflexivity.
Qed.
(** a read half between packages, given a package of any event *)
Lemma next_read enc dec cf (GC : good_cipher enc dec) key sd t tr cs0 e l0 : r_ok cf key sd t tr -> t_in t sd = boxes cs0 -> Forall (receivable (cf_env (cf sd))) cs0 -> length cs0 = length (events_read 0 (at_side sd tr)) ->
  reading (t_ep t sd) = true -> sendable (cf_env (cf sd)) e l0 ->
  exists t' os, attack_step enc dec cf t (TGive sd (boxed (pack enc key (length cs0) e))) = Some (t', os) /\ In (sd, OReceived 0 (drop_empty_ns e)) os.
Proof.
  intros (cs & l & r & A1 & A2 & A3 & A4 & A5) TI RC0 LC RD SE.
  assert (Q1 : cs = cs0) by (apply (boxes_same (cf_env (cf sd)) _ _ l []); [rewrite app_nil_r, <- A3; exact TI|exact A4|exact RC0|congruence]).
  assert (L : l = []) by (rewrite TI, Q1 in A3; rewrite <- (app_nil_r (boxes cs0)) in A3 at 1; apply app_inv_head in A3; symmetry; exact A3).
  subst cs l. set (j := length cs0) in *. assert (RC := receivable_ct enc dec key (cf_env (cf sd)) e l0 (nonce_from_number (N.of_nat j mod 2 ^ 64)) GC SE).
  apply sendable_wire in SE. destruct SE as (_ & _ & SE). set (b := boxed (pack enc key j e)). assert (A2' := more_at _ _ _ _ _ b A2). rewrite app_nil_l in A2'.
  assert (B4 := boxes_run (cf_env (cf sd)) _ [] [] RC). cbn [boxes map concat app] in B4. rewrite !app_nil_r in B4. fold (pack enc key j e) in B4. fold b in B4.
  unfold pack in B4. change (2 ^ 64)%N with U64 in B4.
  destruct (genuine_package enc dec GC _ _ _ _ _ _ _ A2' SE B4) as (r1 & X & _).
  cbn [attack_step]. rewrite RD, A1. cbn zeta. rewrite X.
  destruct (step (cf sd) (t_ep t sd) (LRecv 0 (drop_empty_ns e))) as [[s' o]|] eqn:Es.
  - eexists _, _. split; [reflexivity|]. assert (RR := recv_read _ _ _ _ _ Es). apply in_map_iff. exists (OReceived 0 (drop_empty_ns e)). split; [reflexivity|].
    assert (IN : In (drop_empty_ns e) (events_read 0 o)) by (rewrite RR; left; reflexivity). unfold events_read in IN. apply in_flat_map in IN. destruct IN as (ob & I1 & I2). destruct ob; try (destruct I2; fail). cbn in I2. destruct (Nat.eqb_spec n 0) as [->|]; [|destruct I2]. destruct I2 as [->|[]]. exact I1.
  - exfalso. cbn [step] in Es. unfold reading in RD. destruct (nth_error (e_conns (t_ep t sd)) 0) as [cn|]; [|discriminate RD]. destruct (cn_loop cn); try discriminate RD.
    repeat match type of Es with context[match ?x with _ => _ end] => destruct x end; discriminate Es.
Qed.
