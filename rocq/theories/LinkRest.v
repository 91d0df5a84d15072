(** Proofs about endpoints joined by an encrypted connection when nothing goes on by itself. *)
From Verif Require Import Base BaseFacts Reader ReaderFacts Codec Spec Ids IdsFacts Payload Builder Emit DecodeFacts EventProofs CodecFacts Crypt SpecCrypt CryptWriteFacts CryptReadFacts CryptFacts CryptExchangeFacts Wire
  Ipc SpecIpc IpcFacts IpcChanFacts IpcUsers IpcLoops IpcTasks IpcIds IpcReplies IpcClaims IpcFlow Pair SpecPair PairFacts PairServer PairEnd PairRest Bounded SpecBounded BoundedFacts BytePair SpecBytes BytePairFacts
  Link SpecLink LinkFacts LinkSim.
From Coq Require Import ZifyBool ZifyNat ZifyN.

Section Still.
  Context (enc : bytes -> bytes -> bytes -> bytes) (dec : bytes -> bytes -> bytes -> option bytes) (GC : good_cipher enc dec) (key : bytes).
  Context (cap : nat) (cf : side -> config) (ps : side -> list prog) (ctr : side -> N).
  Hypothesis CAP : (0 < cap)%nat.
  Local Notation E sd := (cf_env (cf sd)).
  Local Notation way := (way enc key cf). Local Notation ksim := (ksim enc key cf).
  Section At.
    Context (k : linked) (p : pair) (pls : list plabel) (tr : list (side * obs)).
    Hypothesis PR : pruns cf ps ctr (fun _ => []) pls p tr.
    Hypothesis AD : all_sendable cf k tr.
    Hypothesis S : ksim k p.
    Lemma read_enabled sd : lp (k_ep k sd) 0 = Some LRun -> k_wire k sd <> [] -> kstep enc dec cap cf k (KRead sd 1) <> None.
    Proof.
      intros L W. unfold lp in L. destruct (nth_error (e_conns (k_ep k sd)) 0) as [cn|] eqn:Ec; [|discriminate]. cbn in L. injection L as L.
      cbn [kstep]. unfold reading. rewrite Ec, L. destruct (k_wire k sd) as [|b w] eqn:Ew; [contradiction|]. cbn [andb Nat.leb length firstn].
      assert (A : forall e, step (cf sd) (k_ep k sd) (LRecv 0 e) = Some (receive (cf sd) (k_ep k sd) 0 e)) by (intros e; cbn [step]; rewrite Ec, L; reflexivity).
      destruct (q_way _ _ _ _ _ S sd) as (m & c & part & (r0 & A1 & A2) & B & C & D & F). rewrite A1. cbn zeta.
      assert (X : (exists r', exec (er_poll_read dec (E sd)) (E sd) (Datatypes.S (length (er_sock (arrived [b] r0)))) (from_async_read (E sd)) [] (arrived [b] r0) = XIdle (from_async_read (E sd)) [] r')
        \/ exists e r', exec (er_poll_read dec (E sd)) (E sd) (Datatypes.S (length (er_sock (arrived [b] r0)))) (from_async_read (E sd)) [] (arrived [b] r0) = XOut (Ok e) r').
      { rewrite Ew in B. destruct (p_in p sd) as [|a q] eqn:Ep.
        - left. cbn [seals map ciphertexts boxes concat app] in B. destruct (k_hold k (other sd)) as [[i f]|] eqn:Eh; [|exfalso; destruct F as (-> & _); destruct c; discriminate B].
          destruct F as (ctx & e & pu & rest & F1 & F2 & F3 & F4). cbn [length] in F2. rewrite N.add_0_r in F2. destruct (AD (other sd) e) as (l & SE); [right; exists i, ctx, pu; exact F1|]. rewrite other_other in SE. apply sendable_wire in SE. destruct SE as (_ & _ & SE).
          destruct (reads_part enc dec GC (E sd) key m c [b] r0 e _ (w ++ rest) SE A2) as (r' & X & _); [|intros Q; apply app_eq_nil in Q; destruct Q; contradiction|eauto].
          rewrite F2, <- B, <- !app_assoc. reflexivity.
        - destruct (sendable_in cf ps ctr k _ _ _ PR AD sd a) as (e & -> & SE); [rewrite Ep; left; reflexivity|]. destruct (D _ _ eq_refl) as (more & M1 & M2). rewrite wire_drop in M1.
          rewrite seals_cons, wire_drop, M1, <- !app_assoc in B. apply app_inv_head in B. destruct more as [|b' more]; [contradiction|]. injection B as <- B. destruct more as [|b' more].
          + right. destruct (reads_whole enc dec GC (E sd) key m c [b] r0 e _ [] SE A2) as (r' & X & _); [rewrite M1, app_nil_r; reflexivity|eauto].
          + left. destruct (reads_part enc dec GC (E sd) key m c [b] r0 e _ (b' :: more) SE A2) as (r' & X & _); [rewrite M1, <- app_assoc; reflexivity|discriminate|eauto]. }
      destruct X as [(r' & X)|(e & r' & X)]; rewrite X; [discriminate|]. rewrite A. destruct (receive (cf sd) (k_ep k sd) 0 e). discriminate.
    Qed.
    Lemma write_enabled sd i ctx e pu f : tst (k_ep k sd) i = Some (TSend ctx e pu) -> to_send (k_hold k sd) i e = Some f -> (length (k_wire k (other sd)) < cap)%nat -> kstep enc dec cap cf k (KWrite sd i 1) <> None.
    Proof.
      intros T W L. destruct (AD sd e) as (l & SE); [right; exists i, ctx, pu; exact T|]. apply sendable_wire in SE. destruct SE as (_ & _ & SE).
      cbn [kstep]. assert (T' := T). unfold tst in T'. rewrite T', W. destruct (g_fut _ _ i free_world _ f) as [[[wd w'] f'] r] eqn:Eg.
      destruct (sending enc key cf k _ sd i ctx e pu 1 f wd w' f' r (q_way _ _ _ _ _ S (other sd)) T W SE Eg) as (m & c & part & rest & _ & _ & C & _ & _ & F2 & PT).
      unfold k_wire in L. rewrite other_other, skipn_length in L. unfold out_of in C. unfold polled_to, out_of in PT. change (1 =? 0) with false in PT. cbv iota in PT. change (N.to_nat 1) with 1%nat in PT. destruct rest as [|b rest]; [contradiction|]. cbn [skipn firstn] in PT. destruct rest as [|b' rest].
      - destruct PT as ((id & ->) & (items & ->)). cbn [ew_sock ws_out]. rewrite app_length. cbn [length]. destruct (Nat.leb_spec (length (ws_out (ew_sock (k_wr k sd))) + 1 - k_seen k (other sd)) cap); [|lia].
        destruct (send_step (cf sd) (k_ep k sd) i ctx e pu (mk_instant 0 0) 0 T) as (s1 & o1 & S1 & _). unfold completes. rewrite S1. discriminate.
      - destruct PT as (-> & WB). assert (WO : ws_out (ew_sock w') = ws_out (ew_sock (k_wr k sd)) ++ [b]) by (destruct WB as (items & id & [(_ & ->)|(_ & ->)]); reflexivity).
        rewrite WO, app_length. cbn [length]. destruct (Nat.leb_spec (length (ws_out (ew_sock (k_wr k sd))) + 1 - k_seen k (other sd)) cap); [discriminate|lia].
    Qed.
    Hypothesis ST : kstill enc dec cap cf k.
    Lemma send_full sd i ctx e pu : tst (k_ep k sd) i = Some (TSend ctx e pu) -> (cap <= length (k_wire k (other sd)))%nat.
    Proof.
      intros T. destruct (le_lt_dec cap (length (k_wire k (other sd)))) as [L|L]; [exact L|exfalso].
      destruct (k_hold k sd) as [[j f]|] eqn:Eo.
      - destruct (q_way _ _ _ _ _ S (other sd)) as (m & c & part & _ & _ & _ & _ & F). rewrite other_other, Eo in F. destruct F as (ctx' & e' & pu' & rest & F1 & _).
        apply (write_enabled sd j ctx' e' pu' f F1); [unfold to_send; rewrite Eo, Nat.eqb_refl; reflexivity|exact L|]. apply ST. reflexivity.
      - eapply (write_enabled sd i ctx e pu _ T); [unfold to_send; rewrite Eo; reflexivity|exact L|]. apply ST. reflexivity.
    Qed.
    Lemma full_not_reading sd : (cap <= length (k_wire k sd))%nat -> lp (k_ep k sd) 0 <> Some LRun.
    Proof. intros L R. apply (read_enabled sd R); [intros Q; rewrite Q in L; cbn in L; lia|]. apply ST. reflexivity. Qed.
    Lemma kstill_held : held_up cf p (fun sd => (cap <= length (k_wire k sd))%nat).
    Proof.
      constructor.
      - intros l G. destruct (pstep cf p l) as [[p' os]|] eqn:Ep; [|left; reflexivity]. right. destruct l as [sd l|sd]; cbn [pstep] in Ep.
        + destruct (own_label l) eqn:OL; [|discriminate Ep]. rewrite (q_ep _ _ _ _ _ S) in Ep. destruct (step (cf sd) (k_ep k sd) l) as [[s' os']|] eqn:E1; [|discriminate Ep]. destruct (existsb is_cut os') eqn:NC; [discriminate Ep|]. injection Ep as <- <-.
          destruct (existsb is_sent (map (fun o => (sd, o)) os')) eqn:Es.
          * apply existsb_exists in Es. destruct Es as (q & Q1 & Q2). apply in_map_iff in Q1. destruct Q1 as (o & <- & Q1). unfold is_sent in Q2. cbn [snd] in Q2. destruct o; try discriminate Q2.
            assert (N : In (ev_id e) (ended os')) by (eapply sent_ended; eauto). destruct (step_ended _ _ _ _ _ E1) as [Q|(i' & a & ->)]; [rewrite Q in N; destruct N|].
            cbn [step] in E1. destruct (tst (k_ep k sd) i') as [st|] eqn:Hi; [|unfold task_step in E1; unfold tst in Hi; destruct (nth_error (e_tasks (k_ep k sd)) i'); discriminate].
            destruct (task_step_fid _ _ _ _ _ _ _ E1 Hi) as (st' & _ & [(D & _)|[(D & _)|(ctx1 & e1 & pu1 & D & _)]]); [rewrite D in N; destruct N..|]. subst st.
            exists sd, i', a, ctx1, e1, pu1. rewrite (q_ep _ _ _ _ _ S). split; [reflexivity|]. split; [exact Hi|]. exact (send_full _ _ _ _ _ Hi).
          * exfalso. assert (N : kstep enc dec cap cf k (KDo sd l) = None) by (apply ST; destruct l as [? []| | | | | |]; try discriminate G; reflexivity). cbn [kstep] in N. rewrite OL, E1, NC, Es in N. discriminate N.
        + exfalso. destruct (p_in p sd) as [|e w] eqn:Ei; [discriminate Ep|]. rewrite (q_ep _ _ _ _ _ S) in Ep. destruct (step (cf sd) (k_ep k sd) (LRecv 0 e)) as [[s' os']|] eqn:E1; [|discriminate Ep].
          assert (L : lp (k_ep k sd) 0 = Some LRun). { cbn [step] in E1. unfold lp. destruct (nth_error (e_conns (k_ep k sd)) 0) as [cn|]; [|discriminate E1]. cbn. destruct (cn_loop cn); try discriminate E1. reflexivity. }
          apply (read_enabled sd L); [|apply ST; reflexivity]. destruct (q_way _ _ _ _ _ S sd) as (m & c & part & _ & B & _ & D & _). rewrite Ei in *. destruct (D _ _ eq_refl) as (more & M1 & M2). rewrite seals_cons, M1, <- !app_assoc in B. apply app_inv_head in B.
          rewrite B. intros Q. apply app_eq_nil in Q. destruct Q; contradiction.
      - intros sd L. rewrite (q_ep _ _ _ _ _ S). exact (full_not_reading sd L).
    Qed.
    Lemma drained sd : lp (k_ep k sd) 0 = Some LRun -> k_wire k sd = [] /\ k_hold k (other sd) = None.
    Proof.
      intros L. assert (W : k_wire k sd = []) by (destruct (k_wire k sd) eqn:Ew; [reflexivity|exfalso; apply (read_enabled sd L); [congruence|apply ST; reflexivity]]). split; [exact W|].
      destruct (q_way _ _ _ _ _ S sd) as (m & c & part & _ & _ & _ & _ & F). destruct (k_hold k (other sd)) as [[i f]|] eqn:Eo; [exfalso|reflexivity]. destruct F as (ctx & e & pu & rest & F1 & _).
      assert (Q := send_full _ _ _ _ _ F1). rewrite other_other, W in Q. cbn in Q. lia.
    Qed.
  End At.

  Context (st : side -> Crypt.stream).
  Hypothesis FR : forall sd, exists s, content s = ([], EndIdle) /\ fresh_read key s (fst (st sd)).
  Hypothesis FW : forall sd, exists sk, fresh_write key sk (snd (st sd)).
  Theorem link_progress ls k tr : (forall sd, plain_handlers (cf sd)) -> (forall sd, Forall (plain_code None) (ps sd)) ->
    kruns enc dec cap cf ps ctr st ls k tr -> all_sendable cf k tr -> good_kclocks ls -> (forall sd, few_events (k_ep k sd)) -> kstill enc dec cap cf k ->
    forall sd, k_wire k sd = [] /\ k_hold k sd = None /\ lp (k_ep k sd) 0 = Some LRun /\ forall i x, tst (k_ep k sd) i = Some x -> finished_or_waiting (k_ep k sd) x.
  Proof.
    intros PH PP HX AD GX FE ST. destruct (ksame enc dec GC key cap cf ps ctr st _ _ _ FR FW HX AD) as (pls & p & PR & CL & S). assert (FE' : forall sd, few_events (p_ep p sd)) by (intros sd; rewrite (q_ep _ _ _ _ _ S); apply FE).
    assert (K := progress_held cf ps ctr PH PP pls p tr _ PR (CL GX) FE' (kstill_held k p pls tr PR AD S ST)).
    assert (D : forall sd, k_wire k sd = [] /\ k_hold k (other sd) = None).
    { intros sd. destruct (K sd) as (K1 & K2 & _). rewrite (q_ep _ _ _ _ _ S) in K2. exact (drained k p pls tr PR AD S ST sd K2). }
    intros sd. destruct (K sd) as (_ & K2 & K3). rewrite (q_ep _ _ _ _ _ S) in K2, K3. destruct (D sd) as (A & _). destruct (D (other sd)) as (_ & C). rewrite other_other in C. auto.
  Qed.
  Theorem link_rest ls k tr : only_replies (cf SideB) -> ps SideB = [] -> kruns enc dec cap cf ps ctr st ls k tr -> all_sendable cf k tr -> kstill enc dec cap cf k -> ~ In (OAborted 0) (at_side SideA tr) -> room (at_side SideA tr) ->
    exists pls p, pruns cf ps ctr (fun _ => []) pls p tr /\ (good_kclocks ls -> good_clocks pls) /\ (forall sd, p_ep p sd = k_ep k sd) /\ at_rest cf p.
  Proof.
    intros RO PB HX AD ST NA RM. destruct (ksame enc dec GC key cap cf ps ctr st _ _ _ FR FW HX AD) as (pls & p & PR & CL & S). assert (HU := kstill_held k p pls tr PR AD S ST). exists pls, p. split; [exact PR|]. split; [exact CL|]. split; [apply (q_ep _ _ _ _ _ S)|].
    destruct (serves _ _ _ PB _ _ _ PR) as (lb & RB & NWF & NC). assert (V := inv_server _ _ _ RO _ _ _ RB NC).
    assert (LB : lp (k_ep k SideB) 0 = Some LRun) by (rewrite <- (q_ep _ _ _ _ _ S); unfold lp; rewrite (v_conns _ _ _ V); reflexivity).
    destruct (drained k p pls tr PR AD S ST SideB LB) as (WB & _).
    assert (LA : lp (k_ep k SideA) 0 = Some LRun).
    { rewrite <- (q_ep _ _ _ _ _ S). eapply (client_runs cf ps ctr); eauto.
      - intros i t v. destruct (tst (p_ep p SideA) i) as [x|] eqn:Hi.
        + destruct (still_task cf p _ SideA i x HU Hi) as [Q|(ctx & e & pu & _ & Q)]; [apply Q|]. exfalso. cbn [other] in Q. rewrite WB in Q. cbn in Q. lia.
        + cbn [step]. unfold task_step. unfold tst in Hi. destruct (nth_error (e_tasks (p_ep p SideA)) i); [discriminate|reflexivity].
      - exact (still_place cf p _ SideA HU). }
    destruct (drained k p pls tr PR AD S ST SideA LA) as (WA & _). intros l G. destruct (hu_next _ _ _ HU l G) as [Q|(sd & i & a & ctx & e & pu & _ & _ & Q)]; [exact Q|exfalso]. destruct sd; cbn [other] in Q; rewrite ?WA, ?WB in Q; cbn in Q; lia.
  Qed.
End Still.
