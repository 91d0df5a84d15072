(** Proofs about networks of endpoints: reply streams; requests when nothing is left to do. *)
From Verif Require Import Base BaseFacts BuilderFacts Codec Spec Ids IdsFacts Payload Builder Emit EmitFacts Ipc SpecIpc IpcFacts IpcChanFacts IpcUsers IpcLoops IpcTasks IpcIds IpcReplies IpcStreams IpcClaims IpcMore IpcFlow IpcLimits IpcRemoved IpcFate Pair SpecPair PairFacts PairServer PairEnd PairRest PairStream Net SpecNet NetServer NetFacts NetEnd.
From Coq Require Import ZifyBool ZifyNat ZifyN.

(** ** Streams *)
Lemma yields_inj u : forall v k m, yields u ++ repeat None k = yields v ++ repeat None m -> u = v.
Proof.
  induction u as [|x u IH]; intros [|z v] k m E; [reflexivity| | |].
  - destruct k; discriminate.
  - destruct m; discriminate.
  - cbn in E. injection E as -> E. f_equal. eauto.
Qed.
Lemma stream_queued cf nc armed ps ctr ls s tr : runs cf nc armed ps ctr ls s tr -> good_clock ls -> few_events s -> forall i h x c, In (OOpened i h x c) tr -> never_handled x tr ->
  exists l more, queued c tr = l ++ more /\ stream_history l (items h tr) /\ (In None (items h tr) -> ~ no_end l).
Proof.
  intros RA GC FE i h x c HO NH. destruct (history _ _ _ _ _ _ _ _ _ _ _ _ RA HO) as (l & more & P & S). exists l, more. split; [exact P|]. split; [exact S|]. intros I0 NE.
  destruct (opened_stream _ _ _ _ _ _ _ _ RA _ _ _ _ HO) as (y & Ey & <- & <-). destruct (none_after_end _ _ _ _ _ _ _ _ RA GC FE h y Ey NH I0) as (e & A & B).
  destruct (proj1 (inv_stream _ _ _ _ _ _ _ _ RA) _ _ Ey) as [_ S0].
  assert (ON : forall u, ~ In None (yields u)) by (intros u F; unfold yields in F; apply in_map_iff in F; destruct F as (? & F & _); discriminate).
  assert (H0 : forall u, stream_history u (items h tr) -> u = l).
  { intros u F. assert (Z : forall v, stream_history v (items h tr) -> exists k, items h tr = yields v ++ repeat None k).
    { intros v V. remember (items h tr) as its eqn:Ei. clear Ei. destruct V as [N|pre e' k E1 N E2|k N|N].
      - exists 0%nat. cbn. rewrite app_nil_r. reflexivity.
      - exists k. reflexivity.
      - exists (Datatypes.S k). reflexivity.
      - exfalso. apply in_app_or in I0. destruct I0 as [I0|[I0|I0]]; [exact (ON _ I0)|discriminate|destruct I0]. }
    destruct (Z _ F) as (k1 & F1). destruct (Z _ S) as (k2 & F2). rewrite F1 in F2. exact (yields_inj _ _ _ _ F2). }
  assert (T : taken (st_chan y) tr = l).
  { destruct (st_state y).
    - destruct S0 as [S0 N]. exfalso. rewrite S0 in I0. exact (ON _ I0).
    - destruct S0 as (pre & S0 & _). exfalso. rewrite S0 in I0. exact (ON _ I0).
    - apply H0. destruct S0 as [(pre & e' & k & A1 & B1 & C1 & ->)|(k & A1 & ->)]; [eapply sh_end; eauto|apply sh_none; exact A1].
    - apply H0. destruct S0 as [-> S0]. apply sh_timeout. exact S0.
    - apply H0. exact S0. }
  rewrite T in A. exact (no_end_in _ _ NE A B).
Qed.

(** ** Rest *)
Lemma step_keeps cf s i t v s' os : step cf s (LTask i (AStep t v)) = Some (s', os) -> forall bad, existsb (on_bad bad) os = true -> exists ctx e pu, tst s i = Some (TSend ctx e pu) /\ bad (c_conn ctx) = true.
Proof.
  intros H bad B. apply existsb_exists in B. destruct B as (o & B1 & B2). destruct o; try discriminate B2. cbn in B2. unfold tst.
  assert (S : i0 = i /\ exists tk pu, nth_error (e_tasks s) i = Some tk /\ tk_st tk = TSend ctx e pu).
  { step_cases H; cbn [In] in B1; repeat (destruct B1 as [B1|B1]); try discriminate B1; try contradiction; injection B1 as <- <- <-; eauto. }
  destruct S as (-> & tk & pu & -> & S). cbn. rewrite S. eauto 6.
Qed.
Lemma place_sends cf s n s' os : step cf s (LPlace n) = Some (s', os) -> forall bad, existsb (on_bad bad) os = false.
Proof. intros H bad. step_cases H; reflexivity. Qed.
Lemma net_stuck w s : net_rest w s -> forall a i, stuck (nd_cf (node_of w a)) (n_ep s a) i.
Proof.
  intros [R1 R2] a i t v. specialize (R1 (NDo a (LTask i (AStep t v))) eq_refl). cbn [nstep own_label drops_send orb] in R1.
  destruct (step (nd_cf (node_of w a)) (n_ep s a) (LTask i (AStep t v))) as [[s' os]|] eqn:E; [|reflexivity].
  destruct (existsb (on_bad (n_bad s a)) os) eqn:B; [|discriminate]. exfalso. destruct (step_keeps _ _ _ _ _ _ _ E _ B) as (ctx & e & pu & T & Bd).
  assert (F : fails_further s a (LTask i (AFail WriteZero))) by (exists i, ctx, e, pu, WriteZero; auto). specialize (R2 _ _ F). cbn [nstep own_label drops_send orb step] in R2. unfold tst in T. unfold task_step in R2.
  destruct (nth_error (e_tasks (n_ep s a)) i) as [tk|]; [|discriminate]. cbn in T. injection T as T. rewrite T in R2. destruct pu; discriminate R2.
Qed.
Lemma net_place w s : net_rest w s -> forall a k, step (nd_cf (node_of w a)) (n_ep s a) (LPlace k) = None.
Proof.
  intros [R1 _] a k. specialize (R1 (NDo a (LPlace k)) eq_refl). cbn [nstep own_label drops_send orb] in R1.
  destruct (step (nd_cf (node_of w a)) (n_ep s a) (LPlace k)) as [[s' os]|] eqn:E; [|reflexivity]. rewrite (place_sends _ _ _ _ _ E) in R1. discriminate.
Qed.
Lemma net_read w s : net_rest w s -> forall a k, lp (n_ep s a) k = Some LRun -> n_in s a k = [].
Proof.
  intros [R1 _] a k L. specialize (R1 (NDeliver a k) eq_refl). cbn [nstep] in R1. destruct (n_in s a k) as [|e rest]; [reflexivity|]. cbn [step] in R1. unfold lp in L.
  destruct (nth_error (e_conns (n_ep s a)) k) as [cn|]; [|discriminate]. cbn in L. injection L as L. rewrite L in R1. destruct (receive (nd_cf (node_of w a)) (n_ep s a) k e); discriminate.
Qed.
Lemma fail_cut cf nc armed ps ctr ls s tr : runs cf nc armed ps ctr ls s tr -> forall i k, In (LTask i (AFail k)) ls -> exists j ctx e, In (OCut j ctx e) tr.
Proof.
  apply (run_ind cf _ (fun ls s tr => forall i k, In (LTask i (AFail k)) ls -> exists j ctx e, In (OCut j ctx e) tr)); [intros i k []|].
  intros l0 s0 tr0 l s' os IH HR H i k Q. apply in_app_or in Q. destruct Q as [Q|[->|[]]].
  - destruct (IH _ _ Q) as (j & ctx & e & A). exists j, ctx, e. apply in_or_app. auto.
  - apply fail_cuts in H. apply existsb_exists in H. destruct H as (o & A & B). destruct o; try discriminate B. do 3 eexists. apply in_or_app. right. exact A.
Qed.
(** the loop of a connection waits only for events *)
Lemma loop_waits cf nc armed ps ctr ls s tr k : runs cf nc armed ps ctr ls s tr -> (k < nc)%nat -> (forall i, stuck cf s i) -> step cf s (LPlace k) = None -> ~ In (OAborted k) tr -> ~ In (OClosed k) tr -> room tr -> lp s k = Some LRun.
Proof.
  intros RA Lk RS RP NA NC RM. pose proof (inv_loop _ _ _ _ _ _ _ _ RA k) as L. pose proof (conns_len _ _ _ _ _ _ _ _ RA) as CL.
  fold (lp s k) in L. destruct (lp s k) as [[|c e|]|] eqn:El; [reflexivity| | |].
  - exfalso. destruct (unblocked _ _ _ _ _ _ _ _ k c e RA El) as [U1 U2].
    destruct (gone_b c tr) eqn:Eg.
    + destruct U1 as (s' & j & U); [apply gone_iff; exact Eg|]. congruence.
    + assert (NG : ~ gone tr c) by (apply gone_iff_not; exact Eg).
      assert (RMc : (length (queued c tr) < length (taken c tr) + 8)%nat -> False) by (intros Q; destruct (U2 NG Q) as (s' & U); congruence).
      pose proof (inv_users _ _ _ _ _ _ _ _ RA) as U. destruct (u_loop _ U _ _ _ El) as (r & _ & Cd). unfold cid in Cd. destruct (nth_error (e_chans s) c) as [ch|] eqn:Hc; [|discriminate].
      pose proof (inv_chan _ _ _ _ _ _ _ _ RA c) as CT. rewrite Hc in CT. destruct CT as (C1 & (i & C2) & _ & rest & C3 & C4). rewrite Eg in C1. destruct (ch_open ch) eqn:Eo; [|discriminate]. specialize (C4 eq_refl). subst rest.
      pose proof (f_equal (@length event) C3) as C5. rewrite app_length in C5.
      destruct (inv_fate _ _ _ _ _ _ _ _ RA _ _ _ C2) as [(st & F1 & F2)|[(h & F)|(F & _)]]; [| |congruence].
      * pose proof (RS i (mk_instant 0 0) 0) as SK. unfold tst in F1. destruct (nth_error (e_tasks s) i) as [tk|] eqn:Hi; [|discriminate]. cbn in F1. injection F1 as F1.
        cbn [step] in SK. unfold task_step in SK. rewrite Hi, F1 in SK.
        destruct st as [?|? ? ?|? ? [?|?|?|?]|d rid k0|d rid e1 k0|?|?|?| |]; try discriminate F2; cbn in F2; injection F2 as ->; try discriminate SK.
        -- rewrite Hc in SK. destruct (ch_buf ch) as [|? ?]; [apply RMc; cbn in C5; lia|discriminate SK].
        -- cbn zeta in SK. destruct (reply_result (cf_env cf) e1); discriminate SK.
      * destruct (RM _ _ _ _ F) as [Q|Q]; [contradiction|auto].
  - exfalso. cbn in L. destruct L as [L|L]; apply last_in in L; contradiction.
  - exfalso. unfold lp in El. destruct (nth_error (e_conns s) k) eqn:En; [discriminate|]. apply nth_error_None in En. lia.
Qed.

Section Requests.
  Context (w : network) (a : nat).
  Hypothesis WJ : well_joined w.
  Hypothesis SV : served w a.
  Local Notation cfa := (nd_cf (node_of w a)).
  Lemma net_stream ls s tr : nruns w ls s tr -> net_clocks ls -> few_events (n_ep s a) -> forall i h x c, In (OOpened i h x c) (at_node a tr) -> never_handled x (at_node a tr) ->
    exists i' ctx q, In (OSent i' ctx q) (at_node a tr) /\ ev_id q = x
      /\ (streamed [] (items h (at_node a tr))
          \/ exists b j sc, peer w a (c_conn ctx) = Some (b, 0%nat) /\ In (OCalled 0 j (mk_context 0 (Some x)) sc (drop_empty_ns q)) (at_node b tr)
               /\ streamed (replies_of_task j (at_node b tr)) (items h (at_node a tr))).
  Proof.
    intros HR GC FE i h x c HO NH. destruct (asker w a _ _ _ HR) as (la & RA & GA). destruct (stream_request _ _ _ _ _ _ _ _ _ _ _ _ RA HO) as (i' & HL & ctx & q & HS & <-).
    exists i', ctx, q. split; [exact HS|]. split; [reflexivity|]. destruct (queued_one_conn w a WJ SV _ _ _ HR GC FE _ _ _ _ _ HL HS NH) as (rest & F & _).
    destruct (stream_queued _ _ _ _ _ _ _ _ RA (GA GC) FE _ _ _ _ HO NH) as (l & more & P & S & NN). rewrite P, <- app_assoc in F.
    destruct (received_for (c_conn ctx) (ev_id q) (at_node a tr)) as [|e r] eqn:Er.
    - left. destruct l; [|discriminate F]. apply (history_streamed [] [] _ S NN); [exists []; reflexivity|]. intros [|? ?] ? ? Q; discriminate Q.
    - right. destruct (net_first w a WJ SV _ _ _ HR GC FE _ _ _ _ _ HS Er) as (b & j & sc & mr & A & B & C & _). exists b, j, sc. split; [exact A|]. split; [exact B|].
      apply (history_streamed l _ _ S NN).
      + rewrite C, F, <- app_assoc. eauto.
      + intros pre e' more' Q Et. destruct (nproject _ _ _ _ HR b) as (lb & RB & _). exact (site_end _ _ _ _ _ _ _ _ RB _ _ _ _ _ _ _ _ B Q Et).
  Qed.
  (** what a listener was registered for was emitted *)
  Lemma request_emitted ls s tr : nruns w ls s tr -> net_clocks ls -> few_events (n_ep s a) -> forall i j ctx e c, In (OSent i ctx e) (at_node a tr) -> In (OListen j (ev_id e) c) (at_node a tr) -> emitted ctx e.
  Proof.
    intros HR GC FE i j ctx e c HS HL. destruct (asker w a _ _ _ HR) as (la & RA & GA). pose proof (inv_idents _ _ _ _ _ _ _ _ RA (GA GC) FE) as ID.
    destruct (listen_plain _ _ _ _ _ _ _ _ RA _ _ _ HL) as [(ctx1 & e1 & pu & A & B & _)|(ctx1 & e1 & A & B & C)].
    - exfalso. eapply (j_once _ _ ID); [exact A|reflexivity|]. rewrite B. eapply sent_ended; eauto.
    - destruct A as [A|A]; pose proof (ended_same _ _ _ (ev_id e) (j_nodup _ _ ID) HS A (or_introl eq_refl) (or_introl B)) as Q; [injection Q as <- <- <-; exact C|discriminate Q].
  Qed.
  (** a connection that is intact has delivered everything, and the server has handled it *)
  Lemma all_handled ls s tr : nruns w ls s tr -> net_rest w s -> forall k b, peer w a k = Some (b, 0%nat) -> ~ In (OClosed 0) (at_node b tr) ->
    forall i ctx e, In (OSent i ctx e) (at_node a tr) -> c_conn ctx = k -> ev_type e <> End ->
    exists j sc st, In (OCalled 0 j (mk_context 0 (Some (ev_id e))) sc (drop_empty_ns e)) (at_node b tr) /\ nth_error (e_tasks (n_ep s b)) j = Some (mk_task (Some (mk_context 0 (Some (ev_id e)), drop_empty_ns e)) st).
  Proof.
    intros HR R k b P NC i ctx e HS Ek Et. destruct (peer_site w a WJ SV _ _ _ _ _ _ HR P) as (_ & RO & lb & RB). destruct (WJ _ _ _ _ P) as [P' _].
    pose proof (inv_site _ _ _ RO _ _ _ RB) as V.
    assert (LB : lp (n_ep s b) 0 = Some LRun).
    { unfold lp. destruct (z_conns _ _ _ V) as [D|D]; rewrite D; [reflexivity|]. exfalso. pose proof (inv_loop _ _ _ _ _ _ _ _ RB 0) as L. fold (lp (n_ep s b) 0) in L. unfold lp in L. rewrite D in L. cbn in L.
      destruct L as [L|L]; apply last_in in L; [contradiction|]. pose proof (inv_conn _ _ _ _ _ _ _ _ RB 0%nat) as C. rewrite D in C. cbn in C. unfold conn_trace in C. cbn in C. destruct (nd_armed (node_of w b)); apply C; exact L. }
    pose proof (net_read _ _ R _ _ LB) as WB. pose proof (nwires _ _ _ _ HR _ _ _ _ P') as TS. rewrite WB, app_nil_r, <- (got_zero _ _ _ _ _ _ _ RB) in TS.
    assert (G : In (drop_empty_ns e) (filter not_end (got (at_node b tr)))).
    { apply filter_In. split; [rewrite TS; apply in_sent_to; eauto 8|]. unfold not_end. rewrite drop_type. destruct (ev_type e); try reflexivity. congruence. }
    rewrite <- (site_calls _ _ _ RO _ _ _ RB) in G. apply in_map_iff in G. destruct G as ([j q] & G1 & G2). cbn in G1. subst q. apply in_calls in G2. destruct G2 as (n & cx & sc & J).
    destruct (called_job _ _ _ _ _ _ _ _ _ _ _ _ _ RB J) as (st & J1 & J2 & J3).
    destruct (z_tasks _ _ _ V _ _ J1) as (q & J4 & _). cbn [tk_job] in J4. injection J4 as J4 J5.
    assert (n = 0%nat) by (rewrite J4 in J2; injection J2; auto). subst n. rewrite drop_id in J2. rewrite J2 in J, J1. eauto.
  Qed.
  (** a connection between [a] and [b] over which nothing was lost *)
  Lemma net_end ls s tr : nruns w ls s tr -> net_clocks ls -> few_events (n_ep s a) -> net_rest w s -> room (at_node a tr) -> forall k b, peer w a k = Some (b, 0%nat) ->
    ~ In (OAborted k) (at_node a tr) -> ~ In (OClosed k) (at_node a tr) -> ~ In (OClosed 0) (at_node b tr) -> (forall j cx r, ~ In (OCut j cx r) (at_node b tr)) ->
    forall i ctx e c, In (OSent i ctx e) (at_node a tr) -> c_conn ctx = k -> In (OListen i (ev_id e) c) (at_node a tr) -> (forall h, ~ In (OOpened i h (ev_id e) c) (at_node a tr)) -> never_handled (ev_id e) (at_node a tr) ->
    exists j sc, In (OCalled 0 j (mk_context 0 (Some (ev_id e))) sc (drop_empty_ns e)) (at_node b tr)
      /\ ((exists r, In (OReply i (ev_id e) r) (at_node a tr) /\ (r = None \/ r = Some (Err Timeout) \/ exists r', r = Some r' /\ answered (nd_cf (node_of w b)) (at_node b tr) j r'))
          \/ (In (OPanicked j) (at_node b tr) /\ sent j (at_node b tr) = [])).
  Proof.
    intros HR GC FE R RM k b P NA NCA NCB NCut i ctx e c HS Ek HL NO NH. destruct (asker w a _ _ _ HR) as (la & RA & GA). destruct (peer_site w a WJ SV _ _ _ _ _ _ HR P) as (_ & RO & lb & RB).
    pose proof (inv_idents _ _ _ _ _ _ _ _ RA (GA GC) FE) as ID. pose proof (request_emitted _ _ _ HR GC FE _ _ _ _ _ HS HL) as EM.
    destruct (all_handled _ _ _ HR R _ _ P NCB _ _ _ HS Ek) as (j & sc & st & J & J1); [destruct EM as [_ EM]; rewrite EM; destruct (c_ref ctx); discriminate|].
    destruct (WJ _ _ _ _ P) as [_ Lk]. pose proof (loop_waits _ _ _ _ _ _ _ _ k RA Lk (net_stuck _ _ R a) (net_place _ _ R a k) NA NCA RM) as LA. pose proof (net_read _ _ R _ _ LA) as WA.
    exists j, sc. split; [exact J|].
    destruct (inv_fate _ _ _ _ _ _ _ _ RA _ _ _ HL) as [(sti & F1 & F2)|[(h & F)|(Fg & [(r & F)|[(c1 & e1 & F & F0)|(e1 & cr & F & F')]])]].
    - right.
      assert (SJ : sent j (at_node b tr) = []).
      { pose proof (net_stuck _ _ R a i (mk_instant 0 0) 0) as SK. pose proof F1 as F1'. unfold tst in F1. destruct (nth_error (e_tasks (n_ep s a)) i) as [tk|] eqn:Hi; [|discriminate]. cbn in F1. injection F1 as F1.
        cbn [step] in SK. unfold task_step in SK. rewrite Hi, F1 in SK.
        destruct sti as [?|? ? ?|? ? [?|?|?|?]|d rid k0|d rid e1 k0|?|?|?| |]; try discriminate F2; cbn in F2; injection F2 as ->; try discriminate SK.
        - pose proof (inv_users _ _ _ _ _ _ _ _ RA) as U. destruct (u_task _ U _ _ c F1' eq_refl) as (ch & C1 & C2 & C3). pose proof (inv_chan _ _ _ _ _ _ _ _ RA c) as CT. rewrite C1 in CT. destruct CT as (G1 & _ & G3 & rest & G4 & G5).
          specialize (G5 C3). subst rest. rewrite C3 in G1. cbn in G1. rewrite C1 in SK. destruct (ch_buf ch) as [|? ?]; [|discriminate SK].
          pose proof (inv_ask _ _ _ _ _ _ _ _ RA _ _ F1') as AK. cbn in AK. destruct AK as [_ AK]. rewrite AK in G4. cbn in G4.
          destruct (queued_one_conn w a WJ SV _ _ _ HR GC FE _ _ _ _ _ HL HS NH) as (rest & FL1 & FL2). rewrite Ek in FL1, FL2. specialize (FL2 G1 NA). unfold held in FL2. rewrite LA in FL2. subst rest. rewrite G4 in FL1.
          pose proof (net_replies_of w a WJ SV _ _ _ _ _ HR GC FE P _ _ _ _ _ J) as RP. rewrite drop_id, FL1, WA in RP. cbn in RP. unfold replies_of_task in RP. destruct (sent j (at_node b tr)); [reflexivity|discriminate RP].
        - cbn zeta in SK. destruct (reply_result (cf_env cfa) e1); discriminate SK. }
      split; [|exact SJ]. destruct (called_job _ _ _ _ _ _ _ _ _ _ _ _ _ RB J) as (st' & J1' & _ & J3). rewrite J1 in J1'. injection J1' as <-.
      destruct (site_rest _ _ _ RO _ _ _ _ _ RB J1 (net_stuck _ _ R b j)) as [D|[_ D]]; [|exact D]. exfalso. cbn [tk_st] in D. subst st. cbn in J3. destruct J3 as (r & pre & r' & _ & _ & _ & [J3|(_ & k' & J3)]).
      + rewrite SJ in J3. destruct pre; discriminate.
      + destruct (fail_cut _ _ _ _ _ _ _ _ RB _ _ J3) as (j' & cx & r'' & X). exact (NCut _ _ _ X).
    - destruct (NO _ F).
    - left. exists r. split; [exact F|]. destruct r as [r|]; [|auto]. right.
      destruct (net_reply w a WJ SV _ _ _ HR GC FE _ _ _ F NH) as [->|[(io & cx & q & _ & X & Y)|(cx & q & b' & j' & sc' & X & Y & Z & V & W)]]; [auto| |].
      + exfalso. pose proof (ended_same _ _ _ (ev_id e) (j_nodup _ _ ID) HS X (or_introl eq_refl) (or_introl Y)). discriminate.
      + right. exists r. split; [reflexivity|]. pose proof (ended_same _ _ _ (ev_id e) (j_nodup _ _ ID) HS X (or_introl eq_refl) (or_introl Y)) as Q. injection Q as <- <-.
        rewrite Ek, P in Z. injection Z as <-. destruct (net_call_unique w a WJ SV _ _ _ _ _ HR GC FE P j' (drop_empty_ns e) j (drop_empty_ns e)) as [-> _]; [apply in_calls; eauto|apply in_calls; eauto|reflexivity|exact W].
    - exfalso. pose proof (ended_same _ _ _ (ev_id e) (j_nodup _ _ ID) HS F (or_introl eq_refl) (or_introl F0)). discriminate.
    - exfalso. destruct (taken_received _ _ _ _ _ _ _ _ _ _ RA F) as (m & Q). destruct (read_over w a WJ SV _ _ _ _ _ HR Q) as (b' & j' & cx & r & P2 & S2 & ->).
      destruct (SV _ _ _ P2) as (_ & DF). destruct (nproject _ _ _ _ HR b') as (lb' & RB' & _). revert F'. unfold reply_result. rewrite drop_type, drop_data.
      destruct (ended_emitted _ _ _ _ _ _ _ _ RB' j' cx r (or_introl S2)) as [[E1 E2]|(n0 & sc0 & x & rr & E1 & E2 & E3)].
      + rewrite E2. destruct (c_ref cx); discriminate.
      + destruct E3 as (_ & _ & E3). destruct rr as [bb|er]; destruct E3 as (E3 & _ & E4); rewrite E3; [discriminate|]. change (etype_eqb Error Error) with true. cbn iota. rewrite (DF er _ E4). discriminate.
  Qed.
  Lemma net_stream_end ls s tr : nruns w ls s tr -> net_clocks ls -> few_events (n_ep s a) -> net_rest w s -> room (at_node a tr) -> forall k b, peer w a k = Some (b, 0%nat) ->
    ~ In (OAborted k) (at_node a tr) -> ~ In (OClosed k) (at_node a tr) -> ~ In (OClosed 0) (at_node b tr) -> (forall j cx r, ~ In (OCut j cx r) (at_node b tr)) ->
    forall i h c i' ctx e, In (OOpened i h (ev_id e) c) (at_node a tr) -> In (OSent i' ctx e) (at_node a tr) -> c_conn ctx = k -> never_handled (ev_id e) (at_node a tr) ->
    exists j sc, In (OCalled 0 j (mk_context 0 (Some (ev_id e))) sc (drop_empty_ns e)) (at_node b tr) /\ streamed (replies_of_task j (at_node b tr)) (items h (at_node a tr))
      /\ (In (OPanicked j) (at_node b tr) \/ exists r, returned j (at_node b tr) = [r])
      /\ forall t kk, tst (n_ep s a) t = Some (TNext h kk) -> items h (at_node a tr) = yields (replies_of_task j (at_node b tr)) /\ (In (OPanicked j) (at_node b tr) \/ exists er, returned j (at_node b tr) = [inr er]).
  Proof.
    intros HR GC FE R RM k b P NA NCA NCB NCut i h c i' ctx e HO HS Ek NH. destruct (asker w a _ _ _ HR) as (la & RA & GA). destruct (peer_site w a WJ SV _ _ _ _ _ _ HR P) as (_ & RO & lb & RB).
    pose proof (inv_idents _ _ _ _ _ _ _ _ RA (GA GC) FE) as ID.
    destruct (stream_request _ _ _ _ _ _ _ _ _ _ _ _ RA HO) as (i2 & HL & _). pose proof (request_emitted _ _ _ HR GC FE _ _ _ _ _ HS HL) as EM.
    destruct (all_handled _ _ _ HR R _ _ P NCB _ _ _ HS Ek) as (j & sc & st & J & J1); [destruct EM as [_ EM]; rewrite EM; destruct (c_ref ctx); discriminate|].
    destruct (WJ _ _ _ _ P) as [_ Lk]. pose proof (loop_waits _ _ _ _ _ _ _ _ k RA Lk (net_stuck _ _ R a) (net_place _ _ R a k) NA NCA RM) as LA. pose proof (net_read _ _ R _ _ LA) as WA.
    exists j, sc. split; [exact J|].
    pose proof (net_replies_of w a WJ SV _ _ _ _ _ HR GC FE P _ _ _ _ _ J) as AL. rewrite drop_id, WA in AL. cbn [filter] in AL. rewrite app_nil_r in AL.
    destruct (queued_one_conn w a WJ SV _ _ _ HR GC FE _ _ _ _ _ HL HS NH) as (rest & FL1 & FL2). rewrite Ek in FL1, FL2.
    assert (FN : In (OPanicked j) (at_node b tr) \/ exists r, returned j (at_node b tr) = [r] /\ exists pre r', sent j (at_node b tr) = pre ++ [(mk_context 0 (Some (ev_id e)), r')] /\ answers (nd_cf (node_of w b)) (drop_empty_ns e) r r').
    { destruct (called_job _ _ _ _ _ _ _ _ _ _ _ _ _ RB J) as (st' & J1' & _ & J3). rewrite J1 in J1'. injection J1' as <-.
      destruct (site_rest _ _ _ RO _ _ _ _ _ RB J1 (net_stuck _ _ R b j)) as [D|[_ D]]; [|left; exact D]. right. cbn [tk_st] in D. subst st. cbn in J3. destruct J3 as (r & pre & r' & X1 & X2 & X3 & [X4|(_ & k' & X4)]).
      - exists r. split; [exact X1|]. exists pre, r'. auto.
      - destruct (fail_cut _ _ _ _ _ _ _ _ RB _ _ X4) as (j' & cx & r'' & X). destruct (NCut _ _ _ X). }
    split; [|split].
    - destruct (stream_queued _ _ _ _ _ _ _ _ RA (GA GC) FE _ _ _ _ HO NH) as (l & more & Pq & S & NN). apply (history_streamed l); [exact S|exact NN| |].
      + rewrite <- AL, FL1, Pq, <- app_assoc. eauto.
      + intros pre e' more' Q Et. exact (site_end _ _ _ _ _ _ _ _ RB _ _ _ _ _ _ _ _ J Q Et).
    - destruct FN as [FN|(r & FN & _)]; eauto.
    - intros t kk T. pose proof (inv_users _ _ _ _ _ _ _ _ RA) as U.
      destruct (opened_stream _ _ _ _ _ _ _ _ RA _ _ _ _ HO) as (y & Ey & Y1 & Y2).
      destruct (proj2 (inv_stream _ _ _ _ _ _ _ _ RA) _ _ T) as (y' & Ey' & It & Ne). rewrite Ey in Ey'. injection Ey' as <-.
      destruct (u_poll _ U _ _ h T eq_refl) as (y' & Ey'' & Sb). rewrite Ey in Ey''. injection Ey'' as <-.
      destruct (u_stream _ U _ _ Ey) as (ch & Ech & Ei & Eo). rewrite Sb in Eo. cbn in Eo.
      pose proof (inv_chan _ _ _ _ _ _ _ _ RA (st_chan y)) as C. rewrite Ech in C. destruct C as (Gb & _ & _ & rest0 & Q & F). specialize (F Eo). rewrite Eo in Gb. cbn in Gb.
      assert (B : ch_buf ch = []).
      { pose proof (net_stuck _ _ R a t (mk_instant 0 0) 0) as ST. cbn [step] in ST. unfold task_step in ST. unfold tst in T. destruct (nth_error (e_tasks (n_ep s a)) t) as [tk|]; [|discriminate]. cbn in T. injection T as T. rewrite T, Ey, Ech in ST.
        destruct (ch_buf ch) as [|e0 b0]; [reflexivity|]. destruct (etype_eqb (ev_type e0) End); discriminate. }
      subst rest0. rewrite B, app_nil_r in Q. rewrite Y2 in *. specialize (FL2 Gb NA). unfold held in FL2. rewrite LA in FL2. subst rest. rewrite app_nil_r, AL, Q in FL1.
      rewrite <- FL1 in It, Ne. split; [exact It|].
      destruct FN as [FN|([b0|er] & FN & pre & r' & S1 & S2)]; eauto. exfalso. unfold replies_of_task in Ne. rewrite S1, map_app in Ne. apply Forall_app in Ne. destruct Ne as [_ Y]. apply Forall_inv in Y. cbn [snd] in Y. rewrite drop_type in Y. destruct S2 as (_ & _ & S2 & _). contradiction.
  Qed.
End Requests.
