(** Endpoints joined by an encrypted connection behave as endpoints joined by event streams. *)
From Verif Require Import Base BaseFacts Reader ReaderFacts Codec Spec Ids IdsFacts Payload Builder Emit DecodeFacts EventProofs CodecFacts Crypt SpecCrypt CryptWriteFacts CryptReadFacts CryptFacts CryptExchangeFacts Wire
  Ipc SpecIpc IpcFacts IpcChanFacts IpcUsers IpcLoops IpcTasks IpcIds IpcReplies IpcFlow Pair SpecPair PairFacts PairRest BytePair SpecBytes BytePairFacts Link SpecLink LinkFacts.
From Coq Require Import ZifyBool ZifyNat ZifyN.

Section Runs.
  Context (enc : bytes -> bytes -> bytes -> bytes) (dec : bytes -> bytes -> bytes -> option bytes) (cap : nat) (cf : side -> config).
  Lemma krun_app ls1 : forall x ls2, krun enc dec cap cf x (ls1 ++ ls2) =
    match krun enc dec cap cf x ls1 with
    | Some (x1, o1) => match krun enc dec cap cf x1 ls2 with Some (x2, o2) => Some (x2, o1 ++ o2) | None => None end
    | None => None
    end.
  Proof.
    induction ls1 as [|l ls1 IH]; intros x ls2; cbn [krun app].
    - destruct (krun enc dec cap cf x ls2) as [[x2 o2]|]; reflexivity.
    - destruct (kstep enc dec cap cf x l) as [[x1 o1]|]; [|reflexivity]. rewrite IH. destruct (krun enc dec cap cf x1 ls1) as [[x2 o2]|]; [|reflexivity]. destruct (krun enc dec cap cf x2 ls2) as [[x3 o3]|]; [|reflexivity]. rewrite app_assoc. reflexivity.
  Qed.
  Lemma krun_ind x0 (P : list klabel -> linked -> list (side * obs) -> Prop) : P [] x0 [] ->
    (forall ls x tr l x' os, P ls x tr -> krun enc dec cap cf x0 ls = Some (x, tr) -> kstep enc dec cap cf x l = Some (x', os) -> P (ls ++ [l]) x' (tr ++ os)) ->
    forall ls x tr, krun enc dec cap cf x0 ls = Some (x, tr) -> P ls x tr.
  Proof.
    intros H0 HS ls. induction ls as [|l ls IH] using rev_ind; intros x tr H; [injection H as <- <-; exact H0|].
    rewrite krun_app in H. destruct (krun enc dec cap cf x0 ls) as [[x1 tr1]|] eqn:E; [|discriminate]. cbn [krun] in H. destruct (kstep enc dec cap cf x1 l) as [[x2 o2]|] eqn:E2; [|discriminate]. injection H as <- <-.
    rewrite app_nil_r. eapply HS; eauto.
  Qed.
End Runs.
Lemma sendable_wire E e l : sendable E e l -> l = wire_bytes e /\ small_msg (wire_bytes e) /\ sendable E e (wire_bytes e).
Proof.
  intros Q. assert (W : wire_bytes e = l) by (unfold wire_bytes; destruct Q as (_ & _ & _ & -> & _); reflexivity). rewrite W. split; [reflexivity|]. split; [|exact Q].
  pose proof (sendable_small E [e] [l] ltac:(constructor; [exact Q|constructor])) as S1. inversion S1; subst; assumption.
Qed.
Lemma skipn_more {A} n (l m : list A) : (n <= length l)%nat -> skipn n (l ++ m) = skipn n l ++ m.
Proof. intros H. rewrite skipn_app. replace (n - length l)%nat with 0%nat by lia. reflexivity. Qed.
Lemma skipn_plus {A} n m (l : list A) : skipn (n + m) l = skipn m (skipn n l).
Proof. revert l. induction n as [|n IH]; intros l; [reflexivity|]. destruct l as [|x l]; [rewrite !skipn_nil; reflexivity|exact (IH l)]. Qed.

Section Same.
  Context (enc : bytes -> bytes -> bytes -> bytes) (dec : bytes -> bytes -> bytes -> option bytes) (GC : good_cipher enc dec) (key : bytes).
  Context (cap : nat) (cf : side -> config) (ps : side -> list prog) (ctr : side -> N).
  Local Notation pruns' := (pruns cf ps ctr (fun _ => [])).
  Local Notation E sd := (cf_env (cf sd)).
  Definition seals (m : N) (es : list event) : bytes := boxes (ciphertexts enc key m (map wire_bytes es)).
  Definition out_of (k : linked) (sd : side) : bytes := ws_out (ew_sock (k_wr k sd)).
  (** [es] are the events sent to [sd] and not received *)
  Definition way (k : linked) (es : list event) (sd : side) : Prop := exists m c part,
    (exists r, k_rd k sd = (from_async_read (E sd), [], r) /\ r_at (E sd) key m c r)
    /\ c ++ k_wire k sd = seals m es ++ part
    /\ (k_seen k sd <= length (out_of k (other sd)))%nat
    /\ (forall e w, es = e :: w -> exists more, sealed enc key (m mod U64) (wire_bytes e) = c ++ more /\ more <> [])
    /\ match k_hold k (other sd) with
       | None => part = [] /\ w_idle key ((m + N.of_nat (length es)) mod U64) (out_of k (other sd)) (k_wr k (other sd))
       | Some (i, f) => exists ctx e pu rest, tst (k_ep k (other sd)) i = Some (TSend ctx e pu) /\ sealed enc key ((m + N.of_nat (length es)) mod U64) (wire_bytes e) = part ++ rest /\ rest <> []
           /\ w_busy key ((m + N.of_nat (length es) + 1) mod U64) (out_of k (other sd)) (wire_bytes e) rest f (k_wr k (other sd))
       end.
  Lemma way_same k k' es sd : k_rd k' sd = k_rd k sd -> k_seen k' sd = k_seen k sd -> k_wr k' (other sd) = k_wr k (other sd) -> k_hold k' (other sd) = k_hold k (other sd) ->
    (forall i ctx e pu, tst (k_ep k (other sd)) i = Some (TSend ctx e pu) -> tst (k_ep k' (other sd)) i = Some (TSend ctx e pu)) -> way k es sd -> way k' es sd.
  Proof.
    intros H1 H2 H3 H4 H5 (m & c & part & A & B & C & D & F). exists m, c, part. unfold k_wire, out_of in *. rewrite H1, H2, H3, H4. split; [exact A|]. split; [exact B|]. split; [exact C|]. split; [exact D|].
    destruct (k_hold k (other sd)) as [[i f]|]; [|exact F]. destruct F as (ctx & e & pu & rest & F1 & F2). exists ctx, e, pu, rest. split; [apply H5; exact F1|exact F2].
  Qed.
  Record ksim (k : linked) (p : pair) : Prop := { q_ep : forall sd, p_ep p sd = k_ep k sd; q_way : forall sd, way k (p_in p sd) sd }.
  Lemma seals_app m a b : seals m (a ++ b) = seals m a ++ seals (m + N.of_nat (length a)) b.
  Proof. unfold seals. rewrite map_app, ciphertexts_app, boxes_app, map_length. reflexivity. Qed.
  Lemma seals_cons m e es : seals m (e :: es) = sealed enc key (m mod U64) (wire_bytes e) ++ seals (m + 1) es.
  Proof. reflexivity. Qed.

  (** everything could be sent before *)
  Lemma sendable_before k tr l k' os : kstep enc dec cap cf k l = Some (k', os) -> all_sendable cf k' (tr ++ os) -> all_sendable cf k tr.
  Proof.
    intros H AD sd e [(i & ctx & Q)|(i & ctx & pu & Q2)].
    - apply AD. left. exists i, ctx. rewrite at_side_app. apply in_or_app. auto.
    - apply AD. destruct l as [sd' l|sd' j n|sd' n]; cbn [kstep] in H.
      + destruct (own_label l) eqn:OL; [|discriminate H]. destruct (step (cf sd') (k_ep k sd') l) as [[s' os']|] eqn:Es; [|discriminate H].
        destruct (existsb is_cut os' || existsb is_sent (map (fun o => (sd', o)) os')) eqn:NC; [discriminate H|]. injection H as <- <-. right. exists i, ctx, pu. cbn [k_ep].
        destruct (two_sides sd' sd) as [-> | ->]; [rewrite upd_eq; exact (sending_kept _ _ _ _ _ _ _ _ _ _ Es OL NC Q2)|rewrite upd_ne by apply other_ne; exact Q2].
      + destruct (option_map tk_st (nth_error (e_tasks (k_ep k sd')) j)) as [[| |ctx' e' pu'| | | | | | |]|] eqn:Hj; try discriminate H.
        destruct (to_send (k_hold k sd') j e') as [f0|] eqn:TS; [|discriminate H]. destruct (g_fut _ _ j free_world _ f0) as [[[wd w'] f'] r] eqn:Eg. destruct (Nat.leb _ cap); [|discriminate H].
        destruct r as [|[id|er|cr]]; try discriminate H. all: cycle 1.
        * destruct (step (cf sd') (k_ep k sd') (LTask j completes)) as [[s' os']|] eqn:Es; [|discriminate H]. injection H as <- <-. destruct (two_sides sd' sd) as [-> | ->].
          -- destruct (Nat.eq_dec j i) as [->|NE].
             ++ left. rewrite Hj in Q2. injection Q2 as -> -> ->.
                destruct (send_step (cf sd') (k_ep k sd') i ctx e pu (mk_instant 0 0) 0 Hj) as (s1 & o1 & S1 & _ & S2 & _). change (LTask i (AStep (mk_instant 0 0) 0)) with (LTask i completes) in S1. rewrite S1 in Es. injection Es as <- <-.
                exists i, ctx. rewrite at_side_app, at_side_map, side_eqb_refl. apply in_or_app. right. exact S2.
             ++ right. exists i, ctx, pu. cbn [k_ep]. rewrite upd_eq. rewrite <- Q2. apply (tst_kept _ _ _ _ _ i Es); [congruence|]. unfold tst. rewrite Q2. discriminate.
          -- right. exists i, ctx, pu. cbn [k_ep]. rewrite !upd_ne by apply other_ne. auto.
        * injection H as <- <-. right. exists i, ctx, pu. exact Q2.
      + destruct (reading (k_ep k sd') && Nat.leb 1 n && Nat.leb n (length (k_wire k sd'))); [|discriminate H]. destruct (k_rd k sd') as [[p0 got] r0]. cbn zeta in H.
        assert (K : forall s' sn rd' os', tst s' i = tst (k_ep k sd) i \/ sd <> sd' -> Some (mk_linked (upd (k_ep k) sd' s') (k_hold k) (k_wr k) sn rd', map (fun o => (sd', o)) os') = Some (k', os) -> being_sent k' sd e).
        { intros s' sn rd' os' K J. injection J as <- _. exists i, ctx, pu. cbn [k_ep]. destruct (two_sides sd' sd) as [-> | ->].
          - rewrite upd_eq. destruct K as [K|K]; [|congruence]. unfold tst in K. rewrite K. exact Q2.
          - rewrite upd_ne by apply other_ne. exact Q2. }
        assert (KT : forall s' lb o', (forall a, lb <> LTask i a) -> step (cf sd') (k_ep k sd') lb = Some (s', o') -> tst s' i = tst (k_ep k sd) i \/ sd <> sd').
        { intros s' lb o' NL J. destruct (two_sides sd' sd) as [-> | ->]; [left|right; apply other_ne]. eapply tst_kept; [exact J|exact NL|]. unfold tst. rewrite Q2. discriminate. }
        right. destruct (exec _ _ _ _ _ _) as [[a|er|cr] r'|p' g' r'| |]; try discriminate H.
        * destruct (step (cf sd') (k_ep k sd') (LRecv 0 a)) as [[s' o']|] eqn:Es; [|discriminate H]. eapply K; [|exact H]. eapply KT; [|exact Es]. discriminate.
        * destruct (step (cf sd') (k_ep k sd') (LClosed 0)) as [[s' o']|] eqn:Es; [|discriminate H]. eapply K; [|exact H]. eapply KT; [|exact Es]. discriminate.
        * destruct (step (cf sd') (k_ep k sd') (LClosed 0)) as [[s' o']|] eqn:Es; [|discriminate H]. eapply K; [|exact H]. eapply KT; [|exact Es]. discriminate.
        * eapply K; [|exact H]. destruct (two_sides sd' sd) as [-> | ->]; [left; reflexivity|right; apply other_ne].
  Qed.
  Lemma sendable_in k pls p tr : pruns' pls p tr -> all_sendable cf k tr -> forall sd e, In e (p_in p sd) -> exists a, e = drop_empty_ns a /\ sendable (E sd) a (wire_bytes a).
  Proof.
    intros H AD sd e Q. assert (W := wires _ _ _ _ _ _ _ H sd). cbn [app] in W. assert (Q' : In e (wired (at_side (other sd) tr))) by (rewrite <- W; apply in_or_app; auto).
    apply in_wired in Q'. destruct Q' as (i & ctx & a & A & ->). exists a. split; [reflexivity|]. destruct (AD (other sd) a) as (l & B); [left; eauto|]. rewrite other_other in B. apply (sendable_wire _ _ _ B).
  Qed.
  Lemma other_ne' sd : sd <> other sd. Proof. destruct sd; discriminate. Qed.

  (** what a poll of a sending task leads to *)
  Lemma sending k es sd i ctx e pu n f wd w' f' r : way k es (other sd) -> tst (k_ep k sd) i = Some (TSend ctx e pu) -> to_send (k_hold k sd) i e = Some f -> sendable (E (other sd)) e (wire_bytes e) ->
    g_fut (crypt_write enc) (crypt_flush enc) i free_world (offered [WAcc n] (k_wr k sd)) f = (wd, w', f', r) ->
    exists m c part rest, (exists r0, k_rd k (other sd) = (from_async_read (E (other sd)), [], r0) /\ r_at (E (other sd)) key m c r0)
      /\ c ++ k_wire k (other sd) = seals m es ++ part /\ (k_seen k (other sd) <= length (out_of k sd))%nat
      /\ (forall e w, es = e :: w -> exists more, sealed enc key (m mod U64) (wire_bytes e) = c ++ more /\ more <> [])
      /\ sealed enc key ((m + N.of_nat (length es)) mod U64) (wire_bytes e) = part ++ rest /\ rest <> []
      /\ polled_to n key ((m + N.of_nat (length es) + 1) mod U64) (out_of k sd) (wire_bytes e) rest w' f' r.
  Proof.
    intros (m & c & part & A & B & C & D & F) T TS SE G. rewrite other_other in *. destruct (sendable_wire _ _ _ SE) as (_ & SM & _). exists m, c, part. destruct (k_hold k sd) as [[j f0]|] eqn:Eh.
    - cbn [to_send] in TS. destruct (Nat.eqb_spec i j) as [->|]; [|discriminate TS]. injection TS as ->. destruct F as (ctx' & e' & pu' & rest & F1 & F2 & F3 & F4). rewrite T in F1. injection F1 as <- <- <-.
      exists rest. repeat (split; [assumption|]). eapply busy_polled; eauto. apply SM.
    - cbn [to_send] in TS. injection TS as <-. destruct F as (-> & F). exists (sealed enc key ((m + N.of_nat (length es)) mod U64) (wire_bytes e)). repeat (split; [assumption || reflexivity|]). split; [apply sealed_ne|].
      rewrite <- next_mod. eapply new_polled; eauto.
  Qed.

  Lemma ksame st ls k tr : (forall sd, exists s, content s = ([], EndIdle) /\ fresh_read key s (fst (st sd))) -> (forall sd, exists sk, fresh_write key sk (snd (st sd))) ->
    kruns enc dec cap cf ps ctr st ls k tr -> all_sendable cf k tr -> exists pls p, pruns' pls p tr /\ (good_kclocks ls -> good_clocks pls) /\ ksim k p.
  Proof.
    intros FR FW. unfold kruns. revert ls k tr. apply (krun_ind enc dec cap cf _ (fun ls k tr => all_sendable cf k tr -> exists pls p, pruns' pls p tr /\ (good_kclocks ls -> good_clocks pls) /\ ksim k p)).
    - intros _. exists [], (pair_new ps ctr (fun _ => [])). split; [reflexivity|]. split; [intros _ ? ? ? ? []|]. constructor; [reflexivity|]. intros sd. exists 0, [], [].
      destruct (FR sd) as (s & C & F). destruct (FW (other sd)) as (sk & F'). unfold fresh_read in F. unfold fresh_write in F'. unfold k_wire, out_of. cbn [linked_new k_rd k_hold k_wr k_seen k_ep pair_new p_in]. rewrite F, F'. cbn [ew_sock length].
      split; [|split; [|split; [|split]]].
      + eexists. split; [reflexivity|]. split; cbn; try reflexivity; [|exact C]. split; cbn; rewrite C; reflexivity.
      + rewrite skipn_all. reflexivity.
      + lia.
      + discriminate.
      + split; [reflexivity|]. exists (ws_script sk). cbn. destruct sk; reflexivity.
    - intros ls k tr l k' os IH _ H AD'. assert (AD := sendable_before _ _ _ _ _ H AD'). destruct (IH AD) as (pls & p & PR & CL & S). clear IH.
      assert (GCL : good_kclocks (ls ++ [l]) -> good_kclocks ls) by (intros G sd i t v Q; eapply G; apply in_or_app; left; exact Q).
      destruct l as [sd l|sd i n|sd n]; cbn [kstep] in H.
      + (* other steps *)
        destruct (own_label l) eqn:OL; [|discriminate H]. destruct (step (cf sd) (k_ep k sd) l) as [[s' os']|] eqn:Es; [|discriminate H].
        destruct (existsb is_cut os' || existsb is_sent (map (fun o => (sd, o)) os')) eqn:NC; [discriminate H|]. injection H as <- <-. assert (NC' := NC). apply orb_false_iff in NC'. destruct NC' as [N1 N2].
        eexists (pls ++ [PDo sd l]), _. split; [|split].
        * eapply (prun_more cf ps ctr); [exact PR|]. cbn [pstep]. rewrite OL, (q_ep _ _ S), Es, N1. reflexivity.
        * intros G. apply clocks_more; [auto|]. intros sd0 i0 t v Q. injection Q as -> ->. apply (G sd0 i0 t v). apply in_or_app. right. left. reflexivity.
        * rewrite (unsent_wire _ _ N2), app_nil_r. constructor; cbn [p_ep p_in k_ep].
          -- intros sd0. destruct (two_sides sd sd0) as [-> | ->]; [rewrite !upd_eq; reflexivity|rewrite !upd_ne by apply other_ne; apply (q_ep _ _ S)].
          -- intros sd0. eapply (way_same k); try reflexivity.
             ++ cbn [k_ep]. intros i ctx e pu B. destruct (two_sides sd (other sd0)) as [Q|Q]; rewrite Q in *; [rewrite upd_eq; exact (sending_kept _ _ _ _ _ _ _ _ _ _ Es OL NC B)|rewrite upd_ne by apply other_ne; exact B].
             ++ destruct (two_sides sd sd0) as [-> | ->]; [rewrite upd_ne by (apply other_ne'); apply (q_way _ _ S)|rewrite upd_eq; apply (q_way _ _ S)].
      + (* a poll of a sending task *)
        destruct (option_map tk_st (nth_error (e_tasks (k_ep k sd)) i)) as [[| |ctx e pu| | | | | | |]|] eqn:Hi; try discriminate H.
        destruct (to_send (k_hold k sd) i e) as [f0|] eqn:TS; [|discriminate H]. destruct (g_fut _ _ i free_world _ f0) as [[[wd w'] f'] r] eqn:Eg. destruct (Nat.leb _ cap); [|discriminate H].
        assert (SE : sendable (E (other sd)) e (wire_bytes e)).
        { assert (Q : exists l, sendable (E (other sd)) e l) by (apply AD; right; exists i, ctx, pu; exact Hi). destruct Q as (l & Q). apply (sendable_wire _ _ _ Q). }
        destruct (sending k _ sd i ctx e pu n f0 wd w' f' r (q_way _ _ S (other sd)) Hi TS SE Eg) as (m & c & part & rest & A & B & C & D & F1 & F2 & PT).
        unfold polled_to in PT. destruct (n =? 0); [destruct PT as (er & ->); discriminate H|].
        destruct (skipn (N.to_nat n) rest) as [|b rest'] eqn:Esk.
        * destruct PT as ((id & ->) & WI). destruct (send_step (cf sd) (k_ep k sd) i ctx e pu (mk_instant 0 0) 0 Hi) as (s1 & o1 & S1 & S2 & S3 & S4). change (LTask i (AStep (mk_instant 0 0) 0)) with (LTask i completes) in S1. rewrite S1 in H. injection H as <- <-.
          eexists (pls ++ [PDo sd (LTask i completes)]), _. split; [|split].
          -- eapply (prun_more cf ps ctr); [exact PR|]. cbn [pstep own_label]. rewrite (q_ep _ _ S), S1, S4. reflexivity.
          -- intros G. apply clocks_more; [auto|]. intros sd0 i0 t v Q. injection Q as _ _ <- _. split; reflexivity.
          -- rewrite S2. constructor; cbn [p_ep p_in k_ep].
             ++ intros sd0. destruct (two_sides sd sd0) as [-> | ->]; [rewrite !upd_eq; reflexivity|rewrite !upd_ne by apply other_ne; apply (q_ep _ _ S)].
             ++ intros sd0. destruct (two_sides sd sd0) as [-> | ->].
                ** rewrite upd_ne by apply other_ne'. eapply (way_same k); cbn [k_rd k_seen k_wr k_hold k_ep]; try reflexivity; try (apply upd_ne, other_ne); [|apply (q_way _ _ S)].
                   intros j c1 e1 p1 Q. rewrite upd_ne by apply other_ne. exact Q.
                ** assert (WO : ws_out (ew_sock w') = out_of k sd ++ rest) by (destruct WI as (items & ->); reflexivity).
                   rewrite upd_eq. exists m, c, []. unfold k_wire, out_of. cbn [k_rd k_seen k_wr k_hold k_ep]. rewrite other_other, !upd_eq, WO. split; [exact A|]. split; [|split; [|split]].
                   --- rewrite skipn_more by exact C. unfold k_wire in B. rewrite other_other in B. rewrite app_assoc. unfold out_of. rewrite B, seals_app, <- !app_assoc, !app_nil_r. f_equal. rewrite seals_cons, wire_drop, F1, app_nil_r. reflexivity.
                   --- rewrite app_length. unfold out_of in *. lia.
                   --- intros e1 w1 Q. destruct (p_in p (other sd)) as [|e2 w2] eqn:Ep; [|injection Q as <- _; exact (D _ _ eq_refl)]. injection Q as <- _. cbn [length] in F1. rewrite N.add_0_r in F1. rewrite wire_drop, F1. cbn [seals map ciphertexts boxes concat app] in B.
                       exists (k_wire k (other sd) ++ rest). split; [rewrite app_assoc; f_equal; symmetry; exact B|]. intros Q. apply app_eq_nil in Q. destruct Q; contradiction.
                   --- split; [reflexivity|]. rewrite app_length. cbn [length]. replace (m + N.of_nat (length (p_in p (other sd)) + 1)) with (m + N.of_nat (length (p_in p (other sd))) + 1) by lia. exact WI.
        * destruct PT as (-> & WB). injection H as <- <-. exists pls, p. rewrite app_nil_r. split; [exact PR|]. split; [auto|]. constructor; cbn [k_ep].
          -- apply (q_ep _ _ S).
          -- intros sd0. destruct (two_sides sd sd0) as [-> | ->].
             ++ eapply (way_same k); cbn [k_rd k_seen k_wr k_hold k_ep]; try reflexivity; try (apply upd_ne, other_ne); [|apply (q_way _ _ S)]. auto.
             ++ assert (WO : ws_out (ew_sock w') = out_of k sd ++ firstn (N.to_nat n) rest) by (destruct WB as (items & id & [(_ & ->)|(_ & ->)]); reflexivity).
                exists m, c, (part ++ firstn (N.to_nat n) rest). unfold k_wire, out_of. cbn [k_rd k_seen k_wr k_hold k_ep]. rewrite other_other, !upd_eq, WO. split; [exact A|]. split; [|split; [|split]].
                ** rewrite skipn_more by exact C. unfold k_wire in B. rewrite other_other in B. unfold out_of. rewrite !app_assoc, B. reflexivity.
                ** rewrite app_length. unfold out_of in *. lia.
                ** exact D.
                ** exists ctx, e, pu, (b :: rest'). split; [exact Hi|]. split; [|split; [discriminate|exact WB]]. rewrite F1, <- app_assoc, <- Esk, firstn_skipn. reflexivity.
      + (* a poll of the receive loop *)
        destruct (reading (k_ep k sd) && Nat.leb 1 n && Nat.leb n (length (k_wire k sd))) eqn:GD; [|discriminate H]. apply andb_true_iff in GD. destruct GD as [GD G3]. apply andb_true_iff in GD. destruct GD as [G1 G2].
        apply Nat.leb_le in G2, G3. assert (W := q_way _ _ S sd). destruct W as (m & c & part & (r0 & A1 & A2) & B & C & D & F). rewrite A1 in H. cbn zeta in H.
        assert (B' : (c ++ firstn n (k_wire k sd)) ++ skipn n (k_wire k sd) = seals m (p_in p sd) ++ part) by (rewrite <- app_assoc, firstn_skipn; exact B).
        assert (OTH : forall s' sn rd', (forall j ctx e pu, tst (k_ep k sd) j = Some (TSend ctx e pu) -> tst s' j = Some (TSend ctx e pu)) -> way (mk_linked (upd (k_ep k) sd s') (k_hold k) (k_wr k) (upd (k_seen k) sd sn) (upd (k_rd k) sd rd')) (p_in p (other sd)) (other sd)).
        { intros s' sn rd' K. eapply (way_same k); cbn [k_rd k_seen k_wr k_hold k_ep]; try reflexivity; try (apply upd_ne, other_ne); [|apply (q_way _ _ S)]. rewrite other_other. intros j c1 e1 p1 Q. rewrite upd_eq. auto. }
        assert (IDLE : forall e, sendable (E sd) e (wire_bytes e) -> (exists more, sealed enc key (m mod U64) (wire_bytes e) = (c ++ firstn n (k_wire k sd)) ++ more /\ more <> [] /\ (forall e1 w1, p_in p sd = e1 :: w1 -> wire_bytes e1 = wire_bytes e)) ->
          exists pls0 p0, pruns' pls0 p0 (tr ++ os) /\ (good_kclocks (ls ++ [KRead sd n]) -> good_clocks pls0) /\ ksim k' p0).
        { intros e SE (more & M1 & M2 & M3). destruct (reads_part enc dec GC (E sd) key m c _ r0 e _ more SE A2 M1 M2) as (r' & X & U & R'). rewrite X in H. injection H as <- <-. exists pls, p. cbn [map]. rewrite app_nil_r. split; [exact PR|]. split; [auto|].
          constructor; cbn [k_ep]; [intros sd0; destruct (two_sides sd sd0) as [-> | ->]; [rewrite upd_eq|rewrite upd_ne by apply other_ne]; apply (q_ep _ _ S)|].
          intros sd0. destruct (two_sides sd sd0) as [-> | ->]; [|apply OTH; auto]. exists m, (c ++ firstn n (k_wire k sd)), part. rewrite U, Nat.sub_0_r.
          set (k1 := mk_linked _ _ _ _ _). assert (WK : k_wire k1 sd = skipn n (k_wire k sd)) by (unfold k1, k_wire; cbn [k_seen k_wr]; rewrite upd_eq, skipn_plus; reflexivity). rewrite WK. unfold k1, out_of. cbn [k_rd k_seen k_wr k_hold k_ep]. rewrite !upd_eq, !(upd_ne _ _ _ (other sd)) by apply other_ne.
          split; [exists (given_back r'); split; [reflexivity|exact R']|]. split; [exact B'|]. split; [unfold k_wire in G3; rewrite skipn_length in G3; unfold out_of in C; lia|].
          split; [intros e1 w1 Q; exists more; rewrite (M3 _ _ Q); auto|exact F]. }
        destruct (p_in p sd) as [|a q] eqn:Ep.
        * (* the event is still being written *)
          cbn [seals map ciphertexts boxes concat app] in B'. destruct (k_hold k (other sd)) as [[i f]|] eqn:Eh.
          2: { exfalso. destruct F as (-> & _). destruct (k_wire k sd); [cbn in G3; lia|]. destruct n; [lia|]. destruct c; discriminate B'. }
          destruct F as (ctx & e & pu & rest & F1 & F2 & F3 & F4). cbn [length] in F2. rewrite N.add_0_r in F2.
          assert (SE : exists l, sendable (E (other (other sd))) e l) by (apply AD; right; exists i, ctx, pu; exact F1). destruct SE as (l & SE). rewrite other_other in SE. apply sendable_wire in SE. destruct SE as (_ & _ & SE).
          apply (IDLE e SE). exists (skipn n (k_wire k sd) ++ rest). split; [rewrite F2, <- B', <- app_assoc; reflexivity|]. split; [|discriminate]. intros Q. apply app_eq_nil in Q. destruct Q; contradiction.
        * destruct (sendable_in k _ _ _ PR AD sd a) as (e & -> & SE); [rewrite Ep; left; reflexivity|]. destruct (D _ _ eq_refl) as (more & M1 & M2). rewrite wire_drop in M1.
          rewrite seals_cons, wire_drop, M1, <- !app_assoc in B. apply app_inv_head in B.
          destruct (le_lt_dec (length more) n) as [LE|LT].
          -- (* a whole package *)
             assert (FN : firstn n (k_wire k sd) = more ++ firstn (n - length more) (seals (m + 1) q ++ part)) by (rewrite B, firstn_app, firstn_all2 by exact LE; reflexivity).
             destruct (reads_whole enc dec GC (E sd) key m c (firstn n (k_wire k sd)) r0 e _ (firstn (n - length more) (seals (m + 1) q ++ part)) SE A2) as (r' & X & U & R').
             { rewrite M1, FN, <- app_assoc. reflexivity. }
             rewrite X in H. destruct (step (cf sd) (k_ep k sd) (LRecv 0 (drop_empty_ns e))) as [[s' os']|] eqn:Es; [|discriminate H]. injection H as <- <-.
             assert (UN : (n - untaken r')%nat = length more).
             { rewrite U, firstn_length. rewrite B, app_length in G3. lia. }
             eexists (pls ++ [PDeliver sd]), _. split; [|split].
             ++ eapply (prun_more cf ps ctr); [exact PR|]. cbn [pstep]. rewrite Ep, (q_ep _ _ S), Es. reflexivity.
             ++ intros G. apply clocks_more; [auto|]. discriminate.
             ++ constructor; cbn [p_ep p_in k_ep].
                ** intros sd0. destruct (two_sides sd sd0) as [-> | ->]; [rewrite !upd_eq; reflexivity|rewrite !upd_ne by apply other_ne; apply (q_ep _ _ S)].
                ** intros sd0. destruct (two_sides sd sd0) as [-> | ->].
                   --- rewrite upd_eq. exists (m + 1), [], part. unfold k_wire, out_of. cbn [k_rd k_seen k_wr k_hold k_ep]. rewrite !upd_eq, !(upd_ne _ _ _ (other sd)) by apply other_ne. rewrite UN. split; [exists (given_back r'); split; [reflexivity|exact R']|].
                       split; [rewrite skipn_plus; fold (k_wire k sd); rewrite B, skipn_app, skipn_all, Nat.sub_diag; reflexivity|].
                       split; [assert (L := f_equal (@length byte) B); unfold k_wire in L; rewrite skipn_length, app_length in L; unfold out_of in C; lia|].
                       split; [intros e1 w1 _; exists (sealed enc key ((m + 1) mod U64) (wire_bytes e1)); split; [reflexivity|apply sealed_ne]|].
                       cbn [length] in F. replace (m + 1 + N.of_nat (length q)) with (m + N.of_nat (Datatypes.S (length q))) by lia. exact F.
                   --- rewrite upd_ne by apply other_ne. apply OTH. intros j c1 e1 p1 Q. rewrite <- Q. eapply tst_kept; [exact Es|discriminate|]. rewrite Q. discriminate.
          -- apply (IDLE e SE). exists (skipn n more). split; [|split].
             ++ rewrite B, firstn_app. replace (n - length more)%nat with 0%nat by lia. cbn [firstn]. rewrite app_nil_r, <- app_assoc, firstn_skipn. exact M1.
             ++ intros Q. apply (f_equal (@length byte)) in Q. rewrite skipn_length in Q. cbn in Q. lia.
             ++ intros e1 w1 Q. injection Q as <- _. apply wire_drop.
  Qed.
End Same.
