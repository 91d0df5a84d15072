(** Proofs for C75 over an encrypted connection. *)
From Verif Require Import Base BaseFacts Reader ReaderFacts Codec Spec Ids IdsFacts Payload Builder Emit DecodeFacts EventProofs CodecFacts Crypt SpecCrypt CryptWriteFacts CryptReadFacts CryptFacts CryptExchangeFacts Wire
  Ipc SpecIpc IpcFacts IpcChanFacts IpcUsers IpcLoops IpcTasks IpcIds IpcReplies IpcClaims IpcFlow IpcLost Pair SpecPair PairFacts PairServer PairEnd PairRest BytePair SpecBytes BytePairFacts SpecOrder SpecStop ByteStop
  Link SpecLink LinkFacts LinkSim.
From Coq Require Import ZifyBool ZifyNat ZifyN.
Open Scope nat_scope.

Section Stop.
  Context (enc : bytes -> bytes -> bytes -> bytes) (dec : bytes -> bytes -> bytes -> option bytes) (GC : good_cipher enc dec) (key : bytes).
  Context (cap : nat) (cf : side -> config) (ps : side -> list prog) (ctr : side -> N) (st : side -> Crypt.stream).
  Hypothesis FR : forall sd, exists s, content s = ([], EndIdle) /\ fresh_read key s (fst (st sd)).
  Hypothesis FW : forall sd, exists sk, fresh_write key sk (snd (st sd)).
  Local Notation E sd := (cf_env (cf sd)).
  Local Notation kruns' := (kruns enc dec cap cf ps ctr st).

  Lemma sealed_length n e : length (sealed enc key n (wire_bytes e)) = package_len e.
  Proof. unfold sealed, package, package_len. rewrite app_length, be_length. destruct (GC key (nonce_from_number n) (wire_bytes e)) as [_ A]. unfold blen in A. lia. Qed.
  (** [n] bytes of the package that [w] is writing have been written *)
  Definition acct (k : linked) (w : side) (n : nat) : Prop :=
    match k_hold k w with
    | None => n = 0
    | Some (i, f) => exists ctx e pu rest a o, tst (k_ep k w) i = Some (TSend ctx e pu) /\ n + length rest = package_len e /\ rest <> [] /\ w_busy key a o (wire_bytes e) rest f (k_wr k w)
    end.
  Definition sum_len (es : list event) : nat := list_sum (map package_len es).
  Definition out_len (k : linked) (w : side) : nat := length (ws_out (ew_sock (k_wr k w))).
  Lemma acct_of k p w : ksim enc key cf k p -> exists n, acct k w n.
  Proof.
    intros S. destruct (q_way _ _ _ _ _ S (other w)) as (m & c & part & _ & _ & _ & _ & F). rewrite other_other in F. unfold acct. destruct (k_hold k w) as [[i f]|]; [|eauto].
    destruct F as (ctx & e & pu & rest & F1 & F2 & F3 & F4). eexists (length part), ctx, e, pu, rest, _, _. split; [exact F1|]. split; [|split; [exact F3|exact F4]]. assert (Q := f_equal (@length _) F2). rewrite sealed_length, app_length in Q. lia.
  Qed.
  Lemma acct_same k k' w n : k_hold k' w = k_hold k w -> k_wr k' w = k_wr k w -> (forall i ctx e pu, tst (k_ep k w) i = Some (TSend ctx e pu) -> tst (k_ep k' w) i = Some (TSend ctx e pu)) -> acct k w n -> acct k' w n.
  Proof.
    intros H1 H2 H3 A. unfold acct in *. rewrite H1, H2. destruct (k_hold k w) as [[i f]|]; [|exact A]. destruct A as (ctx & e & pu & rest & a & o & A1 & A2). exists ctx, e, pu, rest, a, o. split; [apply H3; exact A1|exact A2].
  Qed.
  Lemma busy_out a o l rest f w : w_busy key a o l rest f w -> ws_out (ew_sock w) = o.
  Proof. intros (items & id & [(_ & ->)|(_ & ->)]); reflexivity. Qed.

  (** one step, seen from the writer [w] *)
  Lemma acct_step k p l k' os w n : ksim enc key cf k p -> all_sendable cf k [] -> kstep enc dec cap cf k l = Some (k', os) -> acct k w n ->
    exists n' more, acct k' w n' /\ n + more = sum_len (sent_events (at_side w os)) + n' /\ out_len k' w = out_len k w + more
      /\ (exists b, ws_out (ew_sock (k_wr k' w)) = ws_out (ew_sock (k_wr k w)) ++ b)
      /\ (more = 0 \/ out_len k' w - k_seen k' (other w) <= cap) /\ (reading (k_ep k (other w)) = false -> k_seen k' (other w) = k_seen k (other w))
      /\ (more = 0 -> sent_events (at_side w os) = [] /\ forall i ctx e pu, tst (k_ep k w) i = Some (TSend ctx e pu) -> tst (k_ep k' w) i = Some (TSend ctx e pu)).
  Proof.
    intros S AD H A. destruct l as [s0 l|s0 i m|s0 m]; cbn [kstep] in H.
    - destruct (own_label l) eqn:O; [|discriminate]. destruct (step (cf s0) (k_ep k s0) l) as [[s' os']|] eqn:Es; [|discriminate]. destruct (_ || _) eqn:N; [discriminate|]. injection H as <- <-.
      assert (K : forall i ctx e pu, tst (k_ep k w) i = Some (TSend ctx e pu) -> tst (upd (k_ep k) s0 s' w) i = Some (TSend ctx e pu)).
      { intros i ctx e pu T. destruct (side_cases s0 w) as [->| ->]; [rewrite upd_eq; eapply sending_kept; eauto|rewrite upd_ne by apply other_ne''; exact T]. }
      assert (SN : sent_events (at_side w (map (fun o => (s0, o)) os')) = []) by (destruct (side_cases s0 w) as [->| ->]; [rewrite at_own; apply (sent_none w); apply orb_false_iff in N; apply N|rewrite at_else by apply other_ne; reflexivity]).
      exists n, 0. split; [eapply (acct_same k); try reflexivity; [exact K|exact A]|]. rewrite SN. split; [cbn; lia|]. split; [unfold out_len; cbn [k_wr]; lia|]. split; [exists []; rewrite app_nil_r; reflexivity|]. split; [left; reflexivity|]. split; [reflexivity|]. intros _. split; [reflexivity|exact K].
    - destruct (option_map tk_st (nth_error (e_tasks (k_ep k s0)) i)) as [[| |ctx e pu| | | | | | |]|] eqn:Hi; try discriminate H.
      destruct (to_send (k_hold k s0) i e) as [f0|] eqn:TS; [|discriminate H]. destruct (g_fut _ _ i free_world _ f0) as [[[wd w'] f'] r] eqn:Eg. destruct (Nat.leb_spec (length (ws_out (ew_sock w')) - k_seen k (other s0)) cap) as [LC|]; [|discriminate H].
      destruct (side_cases s0 w) as [->| ->].
      + assert (SE : small_msg (wire_bytes e)).
        { assert (Q : exists l, sendable (E (other w)) e l) by (apply AD; right; exists i, ctx, pu; exact Hi). destruct Q as (l & Q). apply (sendable_wire _ _ _ Q). }
        assert (PT : exists rest a, n + length rest = package_len e /\ rest <> [] /\ polled_to m key a (ws_out (ew_sock (k_wr k w))) (wire_bytes e) rest w' f' r).
        { unfold acct in A. destruct (k_hold k w) as [[j f1]|] eqn:Eh.
          - cbn [to_send] in TS. destruct (Nat.eqb_spec i j) as [->|]; [|discriminate TS]. injection TS as ->. destruct A as (ctx' & e' & pu' & rest & a & o & A1 & A2 & A3 & A4). unfold tst in A1. rewrite Hi in A1. injection A1 as <- <- <-.
            exists rest, a. split; [exact A2|]. split; [exact A3|]. rewrite (busy_out _ _ _ _ _ _ A4). eapply busy_polled; eauto. apply SE.
          - cbn [to_send] in TS. injection TS as <-. subst n. destruct (q_way _ _ _ _ _ S (other w)) as (m0 & c & part & _ & _ & _ & _ & F). rewrite other_other, Eh in F. destruct F as (_ & F).
            eexists _, _. split; [|split; [|eapply new_polled; [exact SE|exact F|exact Eg]]]; [cbn [plus]; apply sealed_length|apply sealed_ne]. }
        destruct PT as (rest & a & P1 & P2 & PT). unfold polled_to in PT. destruct (m =? 0)%N; [destruct PT as (er & ->); discriminate H|].
        destruct (skipn (N.to_nat m) rest) as [|b rest'] eqn:Esk.
        * destruct PT as ((id & ->) & WI). destruct (step (cf w) (k_ep k w) (LTask i completes)) as [[s1 o1]|] eqn:S1; [|discriminate H]. injection H as <- <-.
          assert (WO : ws_out (ew_sock w') = ws_out (ew_sock (k_wr k w)) ++ rest) by (destruct WI as (items & ->); reflexivity).
          exists 0, (length rest). split; [unfold acct; cbn [k_hold]; rewrite upd_eq; reflexivity|]. split; [rewrite at_own, (send_completes' _ _ _ _ _ _ _ _ Hi S1); cbn [sum_len map list_sum fold_right]; lia|].
          split; [unfold out_len; cbn [k_wr]; rewrite upd_eq, WO, app_length; reflexivity|]. split; [cbn [k_wr]; rewrite upd_eq; eauto|]. split; [right; unfold out_len; cbn [k_wr k_seen]; rewrite upd_eq; exact LC|]. split; [reflexivity|].
          intros Q. destruct rest; [contradiction|discriminate Q].
        * destruct PT as (-> & WB). injection H as <- <-. assert (WO := busy_out _ _ _ _ _ _ WB).
          exists (n + length (firstn (N.to_nat m) rest)), (length (firstn (N.to_nat m) rest)). split; [|split; [cbn; lia|split; [|split; [|split; [|split; [reflexivity|auto]]]]]].
          -- unfold acct. cbn [k_hold k_ep k_wr]. rewrite !upd_eq. exists ctx, e, pu, (b :: rest'), a, (ws_out (ew_sock (k_wr k w)) ++ firstn (N.to_nat m) rest). split; [exact Hi|]. split; [|split; [discriminate|exact WB]].
             rewrite <- P1. rewrite <- (firstn_skipn (N.to_nat m) rest) at 2. rewrite Esk, app_length. lia.
          -- unfold out_len. cbn [k_wr]. rewrite upd_eq, WO, app_length. reflexivity.
          -- cbn [k_wr]. rewrite upd_eq. eauto.
          -- right. unfold out_len. cbn [k_wr k_seen]. rewrite upd_eq. exact LC.
      + assert (K : k' = mk_linked (k_ep k') (k_hold k') (k_wr k') (k_seen k') (k_rd k') /\ k_ep k' w = k_ep k w /\ k_hold k' w = k_hold k w /\ k_wr k' w = k_wr k w /\ k_seen k' = k_seen k /\ at_side w os = []).
        { destruct r as [|[?| |]]; try discriminate H.
          - injection H as <- <-. cbn [k_ep k_hold k_wr k_seen k_rd]. rewrite !upd_ne by apply other_ne''. auto 8.
          - destruct (step (cf (other w)) (k_ep k (other w)) (LTask i completes)) as [[s1 o1]|]; [|discriminate H]. injection H as <- <-. cbn [k_ep k_hold k_wr k_seen k_rd]. rewrite !upd_ne by apply other_ne''. rewrite at_else by apply other_ne. auto 8. }
        destruct K as (_ & K1 & K2 & K3 & K4 & K5). exists n, 0. rewrite K5. split; [apply (acct_same k); auto; rewrite K1; auto|]. split; [cbn; lia|]. unfold out_len. rewrite K3, K4. split; [lia|]. split; [exists []; rewrite app_nil_r; reflexivity|]. split; [auto|]. split; [auto|]. intros _. split; [reflexivity|]. rewrite K1. auto.
    - destruct (reading (k_ep k s0)) eqn:RD; [|discriminate H]. cbn [andb] in H. destruct (Nat.leb 1 m && Nat.leb m (length (k_wire k s0))); [|discriminate H]. destruct (k_rd k s0) as [[p0 got] r0]. cbn zeta in H.
      assert (K : exists s' sn rd' o1, k' = mk_linked (upd (k_ep k) s0 s') (k_hold k) (k_wr k) (upd (k_seen k) s0 sn) (upd (k_rd k) s0 rd') /\ os = map (fun o => (s0, o)) o1 /\ sent_events o1 = []
                /\ forall j ctx e pu, tst (k_ep k s0) j = Some (TSend ctx e pu) -> tst s' j = Some (TSend ctx e pu)).
      { destruct (exec _ _ _ _ _ _) as [[e| |] r'|p' g' r'| |]; try discriminate H.
        - destruct (step (cf s0) (k_ep k s0) (LRecv 0 e)) as [[s' o1]|] eqn:Es; [|discriminate H]. injection H as <- <-. eexists _, _, _, o1. split; [reflexivity|]. split; [reflexivity|]. split; [eapply not_sent_label; [exact Es|exact Logic.I]|].
          intros j ctx e1 pu T. rewrite (tst_kept _ _ _ _ _ _ Es); [exact T|discriminate|congruence].
        - destruct (step (cf s0) (k_ep k s0) (LClosed 0)) as [[s' o1]|] eqn:Es; [|discriminate H]. injection H as <- <-. eexists _, _, _, o1. split; [reflexivity|]. split; [reflexivity|]. split; [eapply not_sent_label; [exact Es|exact Logic.I]|].
          intros j ctx e1 pu T. rewrite (tst_kept _ _ _ _ _ _ Es); [exact T|discriminate|congruence].
        - destruct (step (cf s0) (k_ep k s0) (LClosed 0)) as [[s' o1]|] eqn:Es; [|discriminate H]. injection H as <- <-. eexists _, _, _, o1. split; [reflexivity|]. split; [reflexivity|]. split; [eapply not_sent_label; [exact Es|exact Logic.I]|].
          intros j ctx e1 pu T. rewrite (tst_kept _ _ _ _ _ _ Es); [exact T|discriminate|congruence].
        - injection H as <- <-. eexists _, _, _, []. split; [reflexivity|]. split; [reflexivity|]. split; [reflexivity|auto]. }
      destruct K as (s' & sn & rd' & o1 & -> & -> & K1 & K2).
      assert (T : forall i ctx e pu, tst (k_ep k w) i = Some (TSend ctx e pu) -> tst (upd (k_ep k) s0 s' w) i = Some (TSend ctx e pu)).
      { intros i ctx e pu T. destruct (side_cases s0 w) as [->| ->]; [rewrite upd_eq; auto|rewrite upd_ne by apply other_ne''; exact T]. }
      assert (SN : sent_events (at_side w (map (fun o => (s0, o)) o1)) = []) by (destruct (side_cases s0 w) as [->| ->]; [rewrite at_own; exact K1|rewrite at_else by apply other_ne; reflexivity]).
      exists n, 0. split; [eapply (acct_same k); try reflexivity; [exact T|exact A]|]. rewrite SN. split; [cbn; lia|].
      unfold out_len. cbn [k_wr k_seen k_ep]. split; [lia|]. split; [exists []; rewrite app_nil_r; reflexivity|]. split; [auto|]. split; [|auto]. intros R. apply upd_ne. intros Q. subst s0. congruence.
  Qed.
  Lemma sendable_run ls2 : forall k tr k' tr2, krun enc dec cap cf k ls2 = Some (k', tr2) -> all_sendable cf k' (tr ++ tr2) -> all_sendable cf k tr.
  Proof.
    induction ls2 as [|l ls2 IH]; intros k tr k' tr2 H AD; cbn [krun] in H; [injection H as <- <-; rewrite app_nil_r in AD; exact AD|].
    destruct (kstep enc dec cap cf k l) as [[k1 o1]|] eqn:E1; [|discriminate]. destruct (krun enc dec cap cf k1 ls2) as [[k2 o2]|] eqn:E2; [|discriminate]. injection H as <- <-.
    rewrite app_assoc in AD. eapply sendable_before; [exact E1|]. eapply IH; eauto.
  Qed.
  Lemma kruns_more ls k tr ls2 k' tr2 : kruns' ls k tr -> krun enc dec cap cf k ls2 = Some (k', tr2) -> kruns' (ls ++ ls2) k' (tr ++ tr2).
  Proof. unfold kruns. intros A B. rewrite krun_app, A, B. reflexivity. Qed.
  Lemma link_ended ls k tr sd : kruns' ls k tr -> all_sendable cf k tr -> loop_ended tr sd -> reading (k_ep k sd) = false.
  Proof.
    intros R AD D. destruct (ksame enc dec GC key cap cf ps ctr st _ _ _ FR FW R AD) as (pls & p & PR & _ & S). destruct (project _ _ _ _ _ _ _ PR sd) as (l & R' & _).
    assert (L : lp (k_ep k sd) 0 = Some LDone) by (rewrite <- (q_ep _ _ _ _ _ S); eapply down_done; [exact R'|]; destruct D; auto).
    unfold reading, lp in *. destruct (nth_error (e_conns (k_ep k sd)) 0); [|reflexivity]. cbn in L. injection L as ->. reflexivity.
  Qed.
  Lemma link_stopped sd ls2 : forall ls k tr k' tr2 n, kruns' ls k tr -> loop_ended tr sd -> krun enc dec cap cf k ls2 = Some (k', tr2) -> all_sendable cf k' (tr ++ tr2) -> acct k (other sd) n ->
    exists n' b, acct k' (other sd) n' /\ n + length b = sum_len (sent_events (at_side (other sd) tr2)) + n' /\ k_wire k' sd = k_wire k sd ++ b /\ (b = [] \/ length (k_wire k' sd) <= cap)
      /\ (b = [] -> sent_events (at_side (other sd) tr2) = [] /\ forall i ctx e pu, tst (k_ep k (other sd)) i = Some (TSend ctx e pu) -> tst (k_ep k' (other sd)) i = Some (TSend ctx e pu)).
  Proof.
    induction ls2 as [|l ls2 IH]; intros ls k tr k' tr2 n R D H AD A.
    - cbn [krun] in H. injection H as <- <-. exists n, []. rewrite app_nil_r. cbn. auto 8.
    - assert (AD0 := sendable_run _ _ _ _ _ H AD). cbn [krun] in H. destruct (kstep enc dec cap cf k l) as [[k1 o1]|] eqn:E1; [|discriminate]. destruct (krun enc dec cap cf k1 ls2) as [[k2 o2]|] eqn:E2; [|discriminate]. injection H as <- <-.
      destruct (ksame enc dec GC key cap cf ps ctr st _ _ _ FR FW R AD0) as (pls & p & PR & _ & S).
      assert (AD1 : all_sendable cf k []). { intros s0 e [(i & ctx & Q)|Q]; [destruct Q|]. apply AD0. auto. }
      destruct (acct_step k p l k1 o1 (other sd) n S AD1 E1 A) as (n1 & m1 & A1 & B1 & C1 & (b1 & D1) & F1 & G1 & H1). rewrite other_other in *.
      specialize (G1 (link_ended _ _ _ _ R AD0 D)).
      assert (R1 : kruns' (ls ++ [l]) k1 (tr ++ o1)) by (eapply kruns_more; [exact R|cbn [krun]; rewrite E1, app_nil_r; reflexivity]).
      rewrite app_assoc in AD. destruct (IH _ _ _ _ _ _ R1 (ended_more _ _ _ D) E2 AD A1) as (n2 & b2 & A2 & B2 & C2 & F2 & H2).
      assert (LB : length b1 = m1) by (unfold out_len in C1; rewrite D1, app_length in C1; lia).
      assert (W1 : k_wire k1 sd = k_wire k sd ++ b1).
      { destruct (q_way _ _ _ _ _ S sd) as (m & c & part & _ & _ & LS & _). unfold k_wire. rewrite D1, G1. apply skipn_more. exact LS. }
      exists n2, (b1 ++ b2). split; [exact A2|]. split; [|split; [rewrite C2, W1, app_assoc; reflexivity|split]].
      + rewrite app_length, at_side_app. unfold sent_events, sum_len in *. rewrite flat_map_app, map_app, list_sum_app. lia.
      + destruct F2 as [->|F2]; [|auto]. rewrite app_nil_r in *. destruct F1 as [F1|F1]; [left; destruct b1; [reflexivity|cbn in LB; lia]|]. right. rewrite C2. unfold k_wire. rewrite skipn_length. exact F1.
      + intros Q. apply app_eq_nil in Q. destruct Q as [-> ->]. destruct (H1 (eq_sym LB)) as (H3 & H4). destruct (H2 eq_refl) as (H5 & H6). split; [|auto]. unfold sent_events in *. rewrite at_side_app, flat_map_app, H3, H5. reflexivity.
  Qed.
  Lemma link_full sd ls2 ls k tr k' tr2 : kruns' ls k tr -> loop_ended tr sd -> cap <= length (k_wire k sd) -> krun enc dec cap cf k ls2 = Some (k', tr2) -> all_sendable cf k' (tr ++ tr2) ->
    sent_events (at_side (other sd) tr2) = [] /\ k_wire k' sd = k_wire k sd /\ forall i ctx e pu, tst (k_ep k (other sd)) i = Some (TSend ctx e pu) -> tst (k_ep k' (other sd)) i = Some (TSend ctx e pu).
  Proof.
    intros R D F H AD. assert (AD0 := sendable_run _ _ _ _ _ H AD). destruct (ksame enc dec GC key cap cf ps ctr st _ _ _ FR FW R AD0) as (pls & p & PR & _ & S). destruct (acct_of k p (other sd) S) as (n & A).
    destruct (link_stopped sd ls2 _ _ _ _ _ _ R D H AD A) as (n' & b & A' & B & C & G & K).
    assert (b = []) as ->. { destruct G as [G|G]; [exact G|]. rewrite C, app_length in G. destruct b; [reflexivity|cbn in G; lia]. }
    rewrite app_nil_r in C. destruct (K eq_refl) as (K1 & K2). split; [exact K1|]. split; [exact C|exact K2].
  Qed.
End Stop.
