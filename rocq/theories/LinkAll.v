(** Every run on whole events is also possible over an encrypted connection. *)
From Verif Require Import Base BaseFacts Reader ReaderFacts Codec Spec Ids IdsFacts Payload Builder Emit DecodeFacts EventProofs CodecFacts Crypt SpecCrypt CryptWriteFacts CryptReadFacts CryptFacts CryptExchangeFacts Wire
  Ipc SpecIpc IpcFacts IpcChanFacts IpcUsers IpcLoops IpcTasks IpcIds IpcReplies IpcClaims IpcFlow Pair SpecPair PairFacts PairServer PairEnd PairRest BytePair SpecBytes BytePairFacts Link SpecLink LinkFacts LinkSim.
From Coq Require Import ZifyBool ZifyNat ZifyN.

Section All.
  Context (enc : bytes -> bytes -> bytes -> bytes) (dec : bytes -> bytes -> bytes -> option bytes) (GC : good_cipher enc dec) (key : bytes).
  Context (cf : side -> config) (ps : side -> list prog) (ctr : side -> N).
  Local Notation E sd := (cf_env (cf sd)).
  Local Notation way := (way enc key cf). Local Notation ksim := (ksim enc key cf). Local Notation seals := (seals enc key).
  (** nothing is half written *)
  Record kexact (k : linked) (p : pair) : Prop := { ke_sim : ksim k p; ke_hold : forall sd, k_hold k sd = None }.

  Lemma kstep_more cap cap' k l r : (cap <= cap')%nat -> kstep enc dec cap cf k l = Some r -> kstep enc dec cap' cf k l = Some r.
  Proof.
    intros L H. destruct l as [sd l|sd i n|sd n]; [exact H| |exact H]. cbn [kstep] in *. destruct (option_map tk_st (nth_error (e_tasks (k_ep k sd)) i)) as [[| |ctx e pu| | | | | | |]|]; try discriminate H.
    destruct (to_send (k_hold k sd) i e) as [f|]; [|discriminate H]. destruct (g_fut _ _ i free_world _ f) as [[[wd w'] f'] r'].
    destruct (Nat.leb_spec (length (ws_out (ew_sock w')) - k_seen k (other sd)) cap); [|discriminate H]. destruct (Nat.leb_spec (length (ws_out (ew_sock w')) - k_seen k (other sd)) cap'); [exact H|lia].
  Qed.
  Lemma krun_more cap cap' ls : (cap <= cap')%nat -> forall k r, krun enc dec cap cf k ls = Some r -> krun enc dec cap' cf k ls = Some r.
  Proof.
    intros L. induction ls as [|l ls IH]; intros k r H; [exact H|]. cbn [krun] in *. destruct (kstep enc dec cap cf k l) as [[k1 o1]|] eqn:E1; [|discriminate H]. rewrite (kstep_more _ _ _ _ _ L E1).
    destruct (krun enc dec cap cf k1 ls) as [[k2 o2]|] eqn:E2; [|discriminate H]. rewrite (IH _ _ E2). exact H.
  Qed.

  (** anything but sending *)
  Lemma do_other cap k p sd l s' os : kexact k p -> own_label l = true -> step (cf sd) (k_ep k sd) l = Some (s', os) -> existsb is_cut os || existsb is_sent (map (fun o => (sd, o)) os) = false ->
    exists k', kstep enc dec cap cf k (KDo sd l) = Some (k', map (fun o => (sd, o)) os) /\ kexact k' (mk_pair (upd (p_ep p) sd s') (p_in p)).
  Proof.
    intros [S HN] OL Es NC. eexists. cbn [kstep]. rewrite OL, Es, NC. split; [reflexivity|]. split; [|exact HN]. constructor; cbn [p_ep p_in k_ep].
    - intros sd0. destruct (two_sides sd sd0) as [-> | ->]; [rewrite !upd_eq; reflexivity|rewrite !upd_ne by apply other_ne; apply (q_ep _ _ _ _ _ S)].
    - intros sd0. eapply (way_same enc key cf k); try reflexivity; [|apply (q_way _ _ _ _ _ S)].
      cbn [k_ep]. intros i ctx e pu B. destruct (two_sides sd (other sd0)) as [Q|Q]; rewrite Q in *; [rewrite upd_eq; exact (sending_kept _ _ _ _ _ _ _ _ _ _ Es OL NC B)|rewrite upd_ne by apply other_ne; exact B].
  Qed.
  Lemma sealed_len a b l : length (sealed enc key a l) = length (sealed enc key b l).
  Proof. unfold sealed, package. rewrite !app_length, !be_length. destruct (GC key (nonce_from_number a) l) as [_ A]. destruct (GC key (nonce_from_number b) l) as [_ B]. unfold blen in *. lia. Qed.
  (** a whole event is written in one poll *)
  Lemma do_write k p sd i ctx e pu s' os : kexact k p -> tst (k_ep k sd) i = Some (TSend ctx e pu) -> sendable (E (other sd)) e (wire_bytes e) -> step (cf sd) (k_ep k sd) (LTask i completes) = Some (s', os) ->
    exists cap0 n, forall cap, (cap0 <= cap)%nat -> exists k', kstep enc dec cap cf k (KWrite sd i n) = Some (k', map (fun o => (sd, o)) os)
      /\ kexact k' (mk_pair (upd (p_ep p) sd s') (upd (p_in p) (other sd) (p_in p (other sd) ++ [drop_empty_ns e]))).
  Proof.
    intros [S HN] T SE ST. assert (T' := T). unfold tst in T'.
    assert (TS : to_send (k_hold k sd) i e = Some (GLock (ev_id e) (wire_bytes e))) by (rewrite HN; reflexivity).
    set (n := N.of_nat (length (sealed enc key 0 (wire_bytes e)))).
    destruct (g_fut (crypt_write enc) (crypt_flush enc) i free_world (offered [WAcc n] (k_wr k sd)) (GLock (ev_id e) (wire_bytes e))) as [[[wd w'] f'] r] eqn:Eg.
    exists (length (ws_out (ew_sock w'))), n. intros cap CAP.
    destruct (sending enc key cf k _ sd i ctx e pu n _ wd w' f' r (q_way _ _ _ _ _ S (other sd)) T TS SE Eg) as (m & c & part & rest & A & B & C & D & F1 & F2 & PT).
    assert (LR : (length rest <= N.to_nat n)%nat) by (subst n; rewrite Nat2N.id, (sealed_len 0 ((m + N.of_nat (length (p_in p (other sd)))) mod U64)), F1, app_length; lia).
    unfold polled_to in PT. replace (n =? 0) with false in PT by (destruct rest; [contradiction|cbn [length] in LR; lia]). rewrite (skipn_all2 _ LR) in PT. destruct PT as ((id & ->) & WI).
    eexists. cbn [kstep]. rewrite T', TS, Eg. destruct (Nat.leb_spec (length (ws_out (ew_sock w')) - k_seen k (other sd)) cap); [|lia]. rewrite ST. split; [reflexivity|].
    split; [|cbn [k_hold]; intros sd0; destruct (two_sides sd sd0) as [-> | ->]; [apply upd_eq|rewrite upd_ne by apply other_ne; apply HN]].
    constructor; cbn [p_ep p_in k_ep].
    - intros sd0. destruct (two_sides sd sd0) as [-> | ->]; [rewrite !upd_eq; reflexivity|rewrite !upd_ne by apply other_ne; apply (q_ep _ _ _ _ _ S)].
    - intros sd0. destruct (two_sides sd sd0) as [-> | ->].
      + rewrite upd_ne by apply other_ne'. eapply (way_same enc key cf k); cbn [k_rd k_seen k_wr k_hold k_ep]; try reflexivity; try (apply upd_ne, other_ne); [|apply (q_way _ _ _ _ _ S)].
        intros j c1 e1 p1 Q. rewrite upd_ne by apply other_ne. exact Q.
      + assert (WO : ws_out (ew_sock w') = out_of k sd ++ rest) by (destruct WI as (items & ->); reflexivity).
        rewrite upd_eq. exists m, c, []. unfold k_wire, out_of. cbn [k_rd k_seen k_wr k_hold k_ep]. rewrite other_other, !upd_eq, WO. split; [exact A|]. split; [|split; [|split]].
        * rewrite skipn_more by exact C. unfold k_wire in B. rewrite other_other in B. rewrite app_assoc. unfold out_of. rewrite B, seals_app, <- !app_assoc, !app_nil_r. f_equal. rewrite seals_cons, wire_drop, F1, app_nil_r. reflexivity.
        * rewrite app_length. unfold out_of in *. lia.
        * intros e1 w1 Q. destruct (p_in p (other sd)) as [|e2 w2] eqn:Ep; [|injection Q as <- _; exact (D _ _ eq_refl)]. injection Q as <- _. cbn [length] in F1. rewrite N.add_0_r in F1. rewrite wire_drop, F1. cbn [LinkSim.seals map ciphertexts boxes concat app] in B.
          exists (k_wire k (other sd) ++ rest). split; [rewrite app_assoc; f_equal; symmetry; exact B|]. intros Q. apply app_eq_nil in Q. destruct Q; contradiction.
        * split; [reflexivity|]. rewrite app_length. cbn [length]. replace (m + N.of_nat (length (p_in p (other sd)) + 1)) with (m + N.of_nat (length (p_in p (other sd))) + 1) by lia. exact WI.
  Qed.
  (** a whole event is read in one poll *)
  Lemma do_read cap k p sd a w s' os : kexact k p -> p_in p sd = drop_empty_ns a :: w -> sendable (E sd) a (wire_bytes a) -> step (cf sd) (k_ep k sd) (LRecv 0 (drop_empty_ns a)) = Some (s', os) ->
    exists n k', kstep enc dec cap cf k (KRead sd n) = Some (k', map (fun o => (sd, o)) os) /\ kexact k' (mk_pair (upd (p_ep p) sd s') (upd (p_in p) sd w)).
  Proof.
    intros [S HN] Ep SE ST. destruct (q_way _ _ _ _ _ S sd) as (m & c & part & (r0 & A1 & A2) & B & C & D & F). rewrite Ep in B, D, F. destruct (D _ _ eq_refl) as (more & M1 & M2). rewrite wire_drop in M1.
    rewrite seals_cons, wire_drop, M1, <- !app_assoc in B. apply app_inv_head in B.
    exists (length more).
    assert (RD : reading (k_ep k sd) = true). { cbn [step] in ST. unfold reading. destruct (nth_error (e_conns (k_ep k sd)) 0) as [cn|]; [|discriminate ST]. destruct (cn_loop cn); try discriminate ST. reflexivity. }
    assert (FN : firstn (length more) (k_wire k sd) = more) by (rewrite B, firstn_app, firstn_all, Nat.sub_diag; cbn [firstn]; apply app_nil_r).
    assert (G2 : Nat.leb 1 (length more) = true) by (destruct more; [contradiction|reflexivity]).
    assert (G3 : Nat.leb (length more) (length (k_wire k sd)) = true) by (apply Nat.leb_le; rewrite B, app_length; lia).
    destruct (reads_whole enc dec GC (E sd) key m c more r0 a _ [] SE A2) as (r' & X & U & R'); [rewrite M1, app_nil_r; reflexivity|].
    eexists. cbn [kstep]. rewrite RD, G2, G3. cbn [andb]. rewrite A1. cbn zeta. rewrite FN, X, ST. split; [reflexivity|].
    split; [|exact HN]. rewrite U. cbn [length]. rewrite Nat.sub_0_r. constructor; cbn [p_ep p_in k_ep].
    - intros sd0. destruct (two_sides sd sd0) as [-> | ->]; [rewrite !upd_eq; reflexivity|rewrite !upd_ne by apply other_ne; apply (q_ep _ _ _ _ _ S)].
    - intros sd0. destruct (two_sides sd sd0) as [-> | ->].
      + rewrite upd_eq. exists (m + 1), [], part. unfold k_wire, out_of. cbn [k_rd k_seen k_wr k_hold k_ep]. rewrite !upd_eq, !(upd_ne _ _ _ (other sd)) by apply other_ne. split; [exists (given_back r'); split; [reflexivity|exact R']|].
        split; [rewrite skipn_plus; fold (k_wire k sd); rewrite B, skipn_app, skipn_all, Nat.sub_diag; reflexivity|].
        split; [assert (L := f_equal (@length byte) B); unfold k_wire in L; rewrite skipn_length, app_length in L; unfold out_of in C; lia|].
        split; [intros e1 w1 _; exists (sealed enc key ((m + 1) mod U64) (wire_bytes e1)); split; [reflexivity|apply sealed_ne]|].
        cbn [length] in F. replace (m + 1 + N.of_nat (length w)) with (m + N.of_nat (Datatypes.S (length w))) by lia. exact F.
      + rewrite upd_ne by apply other_ne. eapply (way_same enc key cf k); cbn [k_rd k_seen k_wr k_hold k_ep]; try reflexivity; try (apply upd_ne, other_ne); [|apply (q_way _ _ _ _ _ S)]. rewrite other_other. intros j c1 e1 p1 Q. rewrite upd_eq. rewrite <- Q. eapply tst_kept; [exact ST|discriminate|]. rewrite Q. discriminate.
  Qed.
  (** one step on events *)
  Lemma kone_step k p l p' os : kexact k p -> pstep cf p l = Some (p', os) -> (forall sd e, In e (p_in p sd) -> exists a, e = drop_empty_ns a /\ sendable (E sd) a (wire_bytes a)) ->
    (forall sd i ctx e, In (OSent i ctx e) (at_side sd os) -> sendable (E (other sd)) e (wire_bytes e)) ->
    exists cap0, forall cap, (cap0 <= cap)%nat -> exists l' k', kstep enc dec cap cf k l' = Some (k', os) /\ kexact k' p'.
  Proof.
    intros EX H GD GS. assert (S := ke_sim _ _ EX). destruct l as [sd l|sd]; cbn [pstep] in H.
    - destruct (own_label l) eqn:OL; [|discriminate H]. rewrite (q_ep _ _ _ _ _ S) in H. destruct (step (cf sd) (k_ep k sd) l) as [[s' os']|] eqn:E; [|discriminate H]. destruct (existsb is_cut os') eqn:NC; [discriminate H|]. injection H as <- <-.
      destruct (existsb is_sent (map (fun o => (sd, o)) os')) eqn:Es.
      + apply existsb_exists in Es. destruct Es as (q & Q1 & Q2). apply in_map_iff in Q1. destruct Q1 as (o & <- & Q1). unfold is_sent in Q2. cbn [snd] in Q2. destruct o; try discriminate Q2.
        assert (N : In (ev_id e) (ended os')) by (eapply sent_ended; eauto). destruct (step_ended _ _ _ _ _ E) as [Q|(i' & a & ->)]; [rewrite Q in N; destruct N|].
        destruct (tst (k_ep k sd) i') as [st|] eqn:Hi; [|cbn [step] in E; unfold task_step in E; unfold tst in Hi; destruct (nth_error (e_tasks (k_ep k sd)) i'); discriminate].
        assert (E' := E). cbn [step] in E'. destruct (task_step_fid _ _ _ _ _ _ _ E' Hi) as (st' & _ & [(D & _)|[(D & _)|(ctx1 & e1 & pu1 & D & _)]]); [rewrite D in N; destruct N..|]. subst st.
        assert (C : step (cf sd) (k_ep k sd) (LTask i' completes) = Some (s', os') /\ flat_map wire_of os' = [drop_empty_ns e1] /\ In (OSent i' ctx1 e1) os').
        { cbn [step] in E |- *. unfold task_step, tst in *. destruct (nth_error (e_tasks (k_ep k sd)) i') as [tk|]; [|discriminate Hi]. cbn in Hi. injection Hi as Hi. rewrite Hi in *. cbn [completes].
          destruct a as [t v| | |]; destruct pu1; try discriminate E; apply some_pair in E; destruct E as [<- <-]; try discriminate NC; (split; [reflexivity|split; [reflexivity|left; reflexivity]]). }
        destruct C as (C & W & O1).
        assert (SE : sendable (cf_env (cf (other sd))) e1 (wire_bytes e1)).
        { apply (GS sd i' ctx1). unfold at_side. apply in_flat_map. exists (sd, OSent i' ctx1 e1). split; [apply in_map_iff; exists (OSent i' ctx1 e1); auto|]. cbn. destruct sd; left; reflexivity. }
        destruct (do_write k p sd i' ctx1 e1 pu1 s' os' EX Hi SE C) as (cap0 & n & K). exists cap0. intros cap L. destruct (K cap L) as (k' & R & X). exists (KWrite sd i' n), k'. rewrite W. split; [exact R|exact X].
      + exists 0%nat. intros cap _. destruct (do_other cap k p sd l s' os' EX OL E) as (k' & R & X); [rewrite NC, Es; reflexivity|]. exists (KDo sd l), k'. split; [exact R|]. rewrite (unsent_wire _ _ Es), app_nil_r.
        destruct X as [[X1 X2] X3]. split; [|exact X3]. constructor; [exact X1|]. intros sd0. cbn [p_in] in *. destruct (two_sides sd sd0) as [-> | ->]; [rewrite upd_ne by apply other_ne'|rewrite upd_eq]; apply X2.
    - destruct (p_in p sd) as [|e w] eqn:Ep; [discriminate H|]. rewrite (q_ep _ _ _ _ _ S) in H. destruct (step (cf sd) (k_ep k sd) (LRecv 0 e)) as [[s' os']|] eqn:E; [|discriminate H]. injection H as <- <-.
      destruct (GD sd e) as (a & -> & DA); [rewrite Ep; left; reflexivity|]. exists 0%nat. intros cap _. destruct (do_read cap k p sd a w s' os' EX Ep DA E) as (n & k' & R & X). exists (KRead sd n), k'. split; [exact R|exact X].
  Qed.
  Lemma all_possible_linked st pls p tr : (forall sd, exists s, content s = ([], EndIdle) /\ fresh_read key s (fst (st sd))) -> (forall sd, exists sk, fresh_write key sk (snd (st sd))) ->
    pruns cf ps ctr (fun _ => []) pls p tr -> (forall sd i ctx e, In (OSent i ctx e) (at_side sd tr) -> exists l, sendable (E (other sd)) e l) ->
    exists cap ls k, kruns enc dec cap cf ps ctr st ls k tr /\ kexact k p.
  Proof.
    intros FR FW. unfold pruns. revert pls p tr. apply (prun_ind cf _ (fun pls p tr => (forall sd i ctx e, In (OSent i ctx e) (at_side sd tr) -> exists l, sendable (E (other sd)) e l) -> exists cap ls k, kruns enc dec cap cf ps ctr st ls k tr /\ kexact k p)).
    - intros _. exists 0%nat, [], (linked_new cf ps ctr st). split; [reflexivity|]. split; [|reflexivity]. constructor; [reflexivity|]. intros sd. exists 0, [], [].
      destruct (FR sd) as (s & C & F). destruct (FW (other sd)) as (sk & F'). unfold fresh_read in F. unfold fresh_write in F'. unfold k_wire, out_of. cbn [linked_new k_rd k_hold k_wr k_seen k_ep pair_new p_in]. rewrite F, F'. cbn [ew_sock length].
      split; [|split; [|split; [|split]]].
      + eexists. split; [reflexivity|]. split; cbn; try reflexivity; [|exact C]. split; cbn; rewrite C; reflexivity.
      + rewrite skipn_all. reflexivity.
      + lia.
      + discriminate.
      + split; [reflexivity|]. exists (ws_script sk). cbn. destruct sk; reflexivity.
    - intros pls p tr l p' os IH PR H GD. assert (GD' : forall sd i ctx e, In (OSent i ctx e) (at_side sd tr) -> exists l, sendable (E (other sd)) e l) by (intros sd i ctx e Q; apply (GD sd i ctx e); rewrite at_side_app; apply in_or_app; auto).
      destruct (IH GD') as (cap & ls & k & R & EX).
      destruct (kone_step k p l p' os EX H) as (cap0 & K).
      { intros sd e Q. assert (W := wires _ _ _ _ _ _ _ PR sd). cbn [app] in W. assert (Q' : In e (wired (at_side (other sd) tr))) by (rewrite <- W; apply in_or_app; auto).
        apply in_wired in Q'. destruct Q' as (i & ctx & a & A & ->). exists a. split; [reflexivity|]. destruct (GD' (other sd) i ctx a A) as (b & B). rewrite other_other in B. apply (sendable_wire _ _ _ B). }
      { intros sd i ctx e Q. destruct (GD sd i ctx e) as (b & B); [rewrite at_side_app; apply in_or_app; auto|]. apply (sendable_wire _ _ _ B). }
      destruct (K (Nat.max cap cap0)) as (l1 & k1 & R1 & EX1); [lia|]. exists (Nat.max cap cap0), (ls ++ [l1]), k1. split; [|exact EX1]. unfold kruns in *. rewrite krun_app, (krun_more cap (Nat.max cap cap0) ls (Nat.le_max_l _ _) _ _ R). cbn [krun]. rewrite R1, app_nil_r. reflexivity.
  Qed.
End All.
