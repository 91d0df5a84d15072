(** Proofs about two endpoints that both ask and answer. *)
From Verif Require Import Base BaseFacts BuilderFacts Codec Spec Ids IdsFacts Payload Builder Emit EmitFacts Ipc SpecIpc IpcFacts IpcChanFacts IpcUsers IpcLoops IpcTasks IpcIds IpcReplies IpcStreams IpcClaims IpcMore IpcFlow IpcLimits IpcRemoved IpcFate Pair SpecPair PairFacts PairServer PairEnd PairRest Bounded SpecBounded BoundedFacts SpecOrder OrderFacts SpecPeers.
From Coq Require Import ZifyBool ZifyNat ZifyN.

(** ** Replies to a request whose listener is still there are handed on in order (as [flow], whatever ids are handled) *)
Lemma fold_kept x c os : forall r, (forall j d, ~ In (OListen j x d) os) -> fold_left (note_listener x) os r = Some c -> r = Some c.
Proof.
  induction os as [|o os IH]; intros r D LK; [exact LK|]. cbn [fold_left] in LK.
  assert (Q : note_listener x r o = Some c) by (apply IH; [intros j d Q; apply (D j d); right; exact Q|exact LK]).
  destruct o; cbn [note_listener] in Q; try exact Q.
  - destruct (N.eqb_spec id x) as [->|]; [|exact Q]. exfalso. apply (D i c0). left. reflexivity.
  - destruct (N.eqb id x); [discriminate|exact Q].
Qed.
Section Kept.
  Context (cf : config) (nc : nat) (armed : bool) (ps : list prog) (ctr : N).
  Local Notation runs' := (runs cf nc armed ps ctr).
  Lemma kept_before ls s tr l s' os i x c : runs' ls s tr -> step cf s l = Some (s', os) -> good_clock ls -> few_events s -> In (OListen i x c) tr ->
    lookup N.eqb x (e_lis s') = Some c -> runs' (ls ++ [l]) s' (tr ++ os) -> lookup N.eqb x (e_lis s) = Some c.
  Proof.
    intros HR H GC FE HL LK HR'. rewrite (inv_lis _ _ _ _ _ _ _ _ HR') in LK. rewrite (inv_lis _ _ _ _ _ _ _ _ HR). rewrite registered_app in LK.
    assert (D : (exists j d, In (OListen j x d) os) \/ (forall j d, ~ In (OListen j x d) os)).
    { destruct (existsb (fun o => match o with OListen _ y _ => N.eqb y x | _ => false end) os) eqn:E.
      - left. apply existsb_exists in E. destruct E as (o & A & B). destruct o; try discriminate B. apply N.eqb_eq in B. subst. eauto.
      - right. intros j d Q. assert (T : existsb (fun o => match o with OListen _ y _ => N.eqb y x | _ => false end) os = true) by (apply existsb_exists; eexists; split; [exact Q|apply N.eqb_refl]). congruence. }
    destruct D as [(j & d & Q)|D].
    - exfalso. destruct (listen_step _ _ _ _ _ _ _ _ H Q) as (a & ctx & e & w & pu & -> & A & B & C & _).
      pose proof (inv_idents _ _ _ _ _ _ _ _ HR GC FE) as ID. destruct (j_listen _ _ ID _ _ _ HL) as [N|(ctx1 & e1 & pu1 & N1 & N2 & _)].
      + apply (j_once _ _ ID _ _ x A); [cbn; congruence|exact N].
      + assert (j = i) by (eapply (j_distinct _ _ ID); [exact A|exact N1|cbn; rewrite B; reflexivity|cbn; rewrite N2; reflexivity]). subst j. congruence.
    - exact (fold_kept _ _ _ _ D LK).
  Qed.
  Lemma flow_kept n i x c ls s tr : runs' ls s tr -> good_clock ls -> few_events s -> forall a b, tr = a ++ OListen i x c :: b -> lookup N.eqb x (e_lis s) = Some c -> gone_b c tr = false -> ~ In (OAborted n) tr ->
    received_for n x b = queued_by n c b ++ held s n c.
  Proof.
    apply (run_ind cf _ (fun ls s tr => good_clock ls -> few_events s -> forall a b, tr = a ++ OListen i x c :: b -> lookup N.eqb x (e_lis s) = Some c -> gone_b c tr = false -> ~ In (OAborted n) tr ->
      received_for n x b = queued_by n c b ++ held s n c)).
    { intros _ _ [|? ?] b Q; discriminate. }
    clear ls s tr. intros ls s tr l s' os IH HR H GC FE a b E LK G NA.
    assert (FE' : few_events s) by (unfold few_events in *; pose proof (step_ctr _ _ _ _ _ H); lia).
    assert (GC' : good_clock ls) by (eapply good_prefix; eauto). pose proof (inv_users _ _ _ _ _ _ _ _ HR) as U. pose proof (snoc_run cf nc armed ps ctr _ _ _ _ _ _ HR H) as HR'.
    rewrite gone_app in G. apply orb_false_iff in G. destruct G as [G _].
    destruct (app_mid _ _ _ _ _ E) as [(m & -> & ->)|(m & -> & ->)].
    - set (tr := a ++ OListen i x c :: m) in *.
      assert (HL : In (OListen i x c) tr) by (unfold tr; apply in_or_app; right; left; reflexivity).
      assert (RG : lookup N.eqb x (e_lis s) = Some c) by (eapply kept_before; eauto).
      assert (NA' : ~ In (OAborted n) tr) by (intros Q; apply NA; apply in_or_app; auto).
      specialize (IH GC' FE' a m eq_refl RG G NA'). rewrite received_for_app, queued_by_app, IH.
      unfold held, lp in *.
      destruct (step_loop _ _ _ _ _ n H) as [l NB E1|e0 c0 E0 -> E1 E2|e0 E0 -> E1 E2 E3|e0 E0 -> E1 E2 E3|c0 e0 ch E0 -> E1 E2 E3 E4|c0 e0 ch E0 -> E1 E2 E3|E0 -> E2|cn E0 E1 -> E2].
      + destruct (IpcFlow.not_about _ _ NB) as (A & B & _). rewrite A, B, !app_nil_r, E1. reflexivity.
      + rewrite received_one, E2, E0. change (queued_by n c [OReceived n e0]) with (@nil event). rewrite !app_nil_r. f_equal. destruct (ev_ref e0) as [r|] eqn:Er; [|discriminate]. destruct (N.eqb_spec r x) as [->|N].
        * rewrite RG in E1. injection E1 as <-. rewrite Nat.eqb_refl. reflexivity.
        * destruct (Nat.eqb_spec c0 c) as [->|_]; [|reflexivity]. exfalso. pose proof (u_lis _ U _ _ E1) as Q1. pose proof (u_lis _ U _ _ RG) as Q2. congruence.
      + change (received_for n x [OReceived n e0; OIgnored n e0]) with (received_for n x [OReceived n e0]). change (queued_by n c [OReceived n e0; OIgnored n e0]) with (@nil event).
        rewrite E0, E3, received_one, !app_nil_r. destruct (ev_ref e0) as [r|]; [|apply app_nil_r]. destruct (N.eqb_spec r x) as [->|N]; [congruence|apply app_nil_r].
      + match goal with |- context [received_for n x ?l] => change (received_for n x l) with (received_for n x [OReceived n e0]); change (queued_by n c l) with (@nil event) end.
        rewrite E0, E3, received_one, !app_nil_r. destruct (ev_ref e0) as [r|]; [|apply app_nil_r]. destruct (N.eqb_spec r x) as [->|N]; [congruence|apply app_nil_r].
      + rewrite queued_one, E0, E4. change (received_for n x [OQueued n c0 e0]) with (@nil event). rewrite !app_nil_r. destruct (Nat.eqb_spec c0 c); reflexivity.
      + match goal with |- context [received_for n x ?l] => change (received_for n x l) with (@nil event); change (queued_by n c l) with (@nil event) end.
        rewrite E0, E3, !app_nil_r. destruct (Nat.eqb_spec c0 c) as [->|_]; [|apply app_nil_r]. exfalso. pose proof (inv_chan _ _ _ _ _ _ _ _ HR c) as C. rewrite E1 in C. destruct C as (C & _). rewrite E2 in C. cbn [negb] in C. congruence.
      + match goal with |- context [received_for n x ?l] => change (received_for n x l) with (@nil event); change (queued_by n c l) with (@nil event) end.
        rewrite E0, E2, !app_nil_r. reflexivity.
      + exfalso. apply NA. apply in_or_app. right. left. reflexivity.
    - assert (Hin : In (OListen i x c) (m ++ OListen i x c :: b)) by (apply in_or_app; right; left; reflexivity).
      destruct (listen_step _ _ _ _ _ _ _ _ H Hin) as (act & ctx & e & w & pu & -> & A & Ex & Ec & Eo & _).
      destruct m as [|o m]; [|destruct m; discriminate]. inversion Eo; subst b. unfold held.
      destruct (step_loop _ _ _ _ _ n H) as [l NB E1| | | | | | |]; try discriminate. unfold lp. rewrite E1. destruct (option_map cn_loop (nth_error (e_conns s) n)) as [[|d e1|]|] eqn:El; try reflexivity.
      destruct (Nat.eqb_spec d c) as [->|]; [|reflexivity]. exfalso. destruct (u_loop _ U _ _ _ El) as (r & _ & Q). unfold cid in Q. rewrite (proj2 (nth_error_None _ _)) in Q by lia. discriminate.
  Qed.
End Kept.

(** ** Who speaks only for what it handles refers only to what was handled *)
Definition heard (tr : list obs) (r : option N) : Prop := match r with None => True | Some x => exists n j ctx sc q, In (OCalled n j ctx sc q) tr /\ ev_id q = x end.
Lemma heard_app tr os r : heard tr r -> heard (tr ++ os) r.
Proof. destruct r as [x|]; cbn; [|auto]. intros (n & j & ctx & sc & q & A & B). exists n, j, ctx, sc, q. split; [apply in_or_app; auto|exact B]. Qed.
Definition civil_st (own : option N) (tr : list obs) (st : tstate) : Prop :=
  match st with
  | TRun p => polite own p
  | TRegister _ e w => heard tr (ev_ref e) /\ match w with WantReply k => forall o, polite own (k o) | WantStream k => forall o, polite own (k o) end
  | TSend _ e pu => heard tr (ev_ref e) /\ match pu with ForEmit k => forall o, polite own (k o) | ForAwait _ k => forall o, polite own (k o) | ForStream _ k => forall o, polite own (k o) | ForAnswer _ => True end
  | TWait _ _ k | TGot _ _ _ k => forall o, polite own (k o)
  | TNext _ k | TNextGot _ _ k => forall o, polite own (k o)
  | TForget _ | TDone | TDead => True
  end.
Lemma civil_st_app own tr os st : civil_st own tr st -> civil_st own (tr ++ os) st.
Proof. destruct st; cbn; try tauto; intuition (apply heard_app; assumption). Qed.
Definition civil_task (tr : list obs) (tk : task) : Prop :=
  match tk_job tk with Some (ctx, _) => heard tr (c_ref ctx) | None => True end /\ exists own, heard tr own /\ civil_st own tr (tk_st tk).
Lemma civil_task_app tr os tk : civil_task tr tk -> civil_task (tr ++ os) tk.
Proof.
  intros (A & own & B & C). split; [destruct (tk_job tk) as [[ctx x]|]; [apply heard_app; exact A|exact I]|].
  exists own. split; [apply heard_app; exact B|apply civil_st_app; exact C].
Qed.
Record civil (s : ep) (tr : list obs) : Prop := mk_civil {
  v_task : forall i tk, nth_error (e_tasks s) i = Some tk -> civil_task tr tk;
  v_sent : forall i ctx e, In (OSent i ctx e) tr -> heard tr (ev_ref e)
}.
Section Civil.
  Context (cf : config) (nc : nat) (armed : bool) (ps : list prog) (ctr : N).
  Hypothesis PH : polite_handlers cf.
  Hypothesis PP : Forall (polite None) ps.
  Local Notation runs' := (runs cf nc armed ps ctr).
  Lemma civil_upd s tr s' os : civil s tr ->
    (forall i tk, nth_error (e_tasks s') i = Some tk -> nth_error (e_tasks s) i = Some tk \/ civil_task (tr ++ os) tk) ->
    (forall i ctx e, In (OSent i ctx e) os -> heard tr (ev_ref e)) -> civil s' (tr ++ os).
  Proof.
    intros T K N. constructor.
    - intros i tk Q. destruct (K _ _ Q) as [Q'|Q']; [|exact Q']. apply civil_task_app. exact (v_task _ _ T _ _ Q').
    - intros i ctx e Q. apply in_app_or in Q. apply heard_app. destruct Q as [Q|Q]; [exact (v_sent _ _ T _ _ _ Q)|eauto].
  Qed.
  Lemma civil_set s tr i tk own st s1 os : civil s tr -> nth_error (e_tasks s) i = Some tk -> heard tr own -> civil_st own (tr ++ os) st ->
    e_tasks s1 = e_tasks s -> (forall i ctx e, In (OSent i ctx e) os -> heard tr (ev_ref e)) -> civil (set_task i st s1) (tr ++ os).
  Proof.
    intros T Hi KO TS E3 N. apply civil_upd with (s := s); auto.
    intros j tj. rewrite nth_set_task, E3, Hi. cbn [option_map]. destruct (Nat.eqb_spec j i) as [->|]; [|auto].
    intros Q. injection Q as <-. right. destruct (v_task _ _ T _ _ Hi) as (A & _). split; [cbn [tk_job]; destruct (tk_job tk) as [[? ?]|]; [apply heard_app; exact A|exact I]|].
    exists own. split; [apply heard_app; exact KO|exact TS].
  Qed.
  Lemma heard_ref tr own rq x d : heard tr own -> through own rq -> heard tr (ev_ref (event_for rq x d)).
  Proof. intros K [E|E]; unfold event_for; cbn; rewrite E; [exact I|exact K]. Qed.
  Ltac nosent := let Q := fresh in cbn; intros ? ? ? Q; repeat (destruct Q as [Q|Q]; [discriminate Q|]); destruct Q.
  Ltac onesent := let Q := fresh in cbn; intros ? ? ? Q; repeat (destruct Q as [Q|Q]; [try discriminate Q; injection Q as <- <- <-; assumption|]); destruct Q.
  Ltac ts T Hi KO := eapply civil_set; [exact T|exact Hi|exact KO| |autorewrite with ep; reflexivity|try (solve [nosent | onesent])].
  Lemma civil_call s tr n e (h : event_handler callback) sc : civil s tr -> (forall cb : callback, eh_get h (ev_name e) = Some cb -> forall ctx x, polite (c_ref ctx) (cb ctx x)) ->
    civil (fst (handle_event s n h sc e)) (tr ++ snd (handle_event s n h sc e)).
  Proof.
    intros T HH. unfold handle_event. cbn [fst snd]. apply civil_upd with (s := s); auto.
    - intros j tj. unfold add_task. cbn [e_tasks]. rewrite nth_snoc. destruct (Nat.eqb_spec j (length (e_tasks s))); [|auto]. intros Q. injection Q as <-. right.
      assert (K : heard (tr ++ [OCalled n (length (e_tasks s)) (mk_context n (Some (ev_id e))) sc e]) (Some (ev_id e))).
      { cbn. do 5 eexists. split; [apply in_or_app; right; left; reflexivity|reflexivity]. }
      split; [exact K|]. exists (Some (ev_id e)). split; [exact K|]. cbn.
      destruct (eh_get h (ev_name e)) eqn:Eh; [|constructor]. exact (HH _ eq_refl (mk_context n (Some (ev_id e))) e).
    - nosent.
  Qed.
  Lemma civil_same s tr s' os : civil s tr -> e_tasks s' = e_tasks s -> (forall i ctx e, ~ In (OSent i ctx e) os) -> civil s' (tr ++ os).
  Proof. intros T E N. apply civil_upd with (s := s); [exact T|rewrite E; auto|]. intros i ctx e Q. destruct (N _ _ _ Q). Qed.
  Lemma civil_step s tr l s' os : civil s tr -> step cf s l = Some (s', os) -> civil s' (tr ++ os).
  Proof.
    intros T H. destruct l as [i a|n e|n|n|n|h|].
    - cbn [step] in H. unfold task_step in H. destruct (nth_error (e_tasks s) i) as [[job st]|] eqn:Hi; [|discriminate].
      destruct (v_task _ _ T _ _ Hi) as (KJ & own & KO & TS). cbn [tk_job tk_st] in *.
      destruct st as [p|ctx e [k|k]|ctx e [k|c k|c k|ok]|c x k|c x e k|h k|h oe k|x| |]; cbn [civil_st] in TS; try (destruct a; discriminate H).
      + destruct a as [t v| | |]; try discriminate H. unfold run_prog in H. cbn zeta in H. destruct TS as [r| |rq k TH Hk|rq k TH Hk|rq k TH Hk|h k Hk|n k Hk|k Hk|q k Hq Hk].
        * destruct job as [[ctx x]|]; [|apply some_pair in H; destruct H as [<- <-]; ts T Hi KO; exact I].
          destruct (answer_event cf ctx (nth_id t (e_ctr s)) r) as [a| |] eqn:Ea; try discriminate H. apply some_pair in H. destruct H as [<- <-].
          ts T Hi KO. cbn [civil_st]. split; [|exact I]. apply heard_app.
          assert (ev_ref a = c_ref ctx) as -> by (destruct r; cbn in Ea; injection Ea as <-; reflexivity). exact KJ.
        * apply some_pair in H. destruct H as [<- <-]. ts T Hi KO. exact I.
        * destruct (rq_payload rq) as [d|er|cr]; apply some_pair in H; destruct H as [<- <-]; ts T Hi KO; try exact I.
          -- cbn [civil_st]. split; [apply heard_app; eapply heard_ref; eauto|exact Hk].
          -- exact (Hk _).
        * destruct (rq_payload rq) as [d|er|cr]; apply some_pair in H; destruct H as [<- <-]; ts T Hi KO; try exact I.
          -- cbn [civil_st]. split; [apply heard_app; eapply heard_ref; eauto|exact Hk].
          -- exact (Hk _).
        * destruct (rq_payload rq) as [d|er|cr]; apply some_pair in H; destruct H as [<- <-]; ts T Hi KO; try exact I.
          -- cbn [civil_st]. split; [apply heard_app; eapply heard_ref; eauto|exact Hk].
          -- exact (Hk _).
        * destruct (nth_error (e_streams s) h) as [y|]; [|discriminate]. destruct (st_state y); try discriminate H; apply some_pair in H; destruct H as [<- <-]; ts T Hi KO; try exact (Hk _); try exact Hk; exact I.
        * destruct (nth_error (e_conns s) n) as [cn|]; [|discriminate]. destruct (cn_armed cn); apply some_pair in H; destruct H as [<- <-]; ts T Hi KO; exact (Hk _).
        * apply some_pair in H. destruct H as [<- <-]. ts T Hi KO. exact (Hk _).
        * apply some_pair in H. destruct H as [<- <-]. apply civil_upd with (s := s); auto; [|intros ? ? ? []].
          intros j tj. rewrite nth_set_task. unfold add_task. cbn [e_tasks]. rewrite nth_error_app1 by (apply nth_error_Some; congruence). rewrite Hi. cbn [option_map].
          destruct (Nat.eqb_spec j i) as [->|N].
          -- intros Q. injection Q as <-. right. rewrite app_nil_r. split; [exact KJ|]. exists own. auto.
          -- rewrite nth_snoc. destruct (Nat.eqb_spec j (length (e_tasks s))); [|auto]. intros Q. injection Q as <-. right. rewrite app_nil_r. split; [exact I|]. exists own. auto.
      + destruct a as [t v| | |]; try discriminate H. apply some_pair in H. destruct H as [<- <-]. destruct TS. ts T Hi KO. cbn [civil_st]. split; [apply heard_app; assumption|assumption].
      + destruct a as [t v| | |]; try discriminate H. apply some_pair in H. destruct H as [<- <-]. destruct TS. ts T Hi KO. cbn [civil_st]. split; [apply heard_app; assumption|assumption].
      + destruct TS as [KE Hk]. destruct a as [t v|io| |]; try discriminate H; apply some_pair in H; destruct H as [<- <-]; ts T Hi KO; exact (Hk _).
      + destruct TS as [KE Hk]. destruct a as [t v|io| |]; try discriminate H; apply some_pair in H; destruct H as [<- <-]; ts T Hi KO; try exact (Hk _); exact Hk.
      + destruct TS as [KE Hk]. destruct a as [t v|io| |]; try discriminate H; apply some_pair in H; destruct H as [<- <-]; ts T Hi KO; exact (Hk _).
      + destruct TS as [KE _]. destruct a as [t v|io| |]; try discriminate H; apply some_pair in H; destruct H as [<- <-]; ts T Hi KO; destruct ok; [destruct job as [[? ?]|]| |destruct job as [[? ?]|]|]; exact I.
      + destruct a as [t v|io| |]; try discriminate H.
        * destruct (nth_error (e_chans s) c) as [ch|]; [|discriminate]. destruct (ch_buf ch) as [|b1 b].
          -- destruct (has_sender s c); [discriminate|]. apply some_pair in H. destruct H as [<- <-]. ts T Hi KO. exact (TS _).
          -- apply some_pair in H. destruct H as [<- <-]. ts T Hi KO. exact TS.
        * apply some_pair in H. destruct H as [<- <-]. ts T Hi KO. exact (TS _).
        * apply some_pair in H. destruct H as [<- <-]. ts T Hi KO. exact (TS _).
      + destruct a as [t v|io| |]; try discriminate H. cbn zeta in H.
        destruct (reply_result (cf_env cf) e); apply some_pair in H; destruct H as [<- <-]; ts T Hi KO; try exact (TS _); exact I.
      + destruct a as [t v|io| |]; try discriminate H.
        * destruct (nth_error (e_streams s) h) as [y|]; [|discriminate]. destruct (nth_error (e_chans s) (st_chan y)) as [ch|]; [|discriminate]. destruct (ch_buf ch) as [|b1 b].
          -- destruct (has_sender s (st_chan y)); [discriminate|]. apply some_pair in H. destruct H as [<- <-]. ts T Hi KO. exact TS.
          -- cbn zeta in H. destruct (etype_eqb (ev_type b1) End); apply some_pair in H; destruct H as [<- <-]; ts T Hi KO; try exact (TS _); exact TS.
        * destruct (nth_error (e_streams s) h) as [y|]; [|discriminate]. apply some_pair in H. destruct H as [<- <-]. ts T Hi KO. exact (TS _).
        * apply some_pair in H. destruct H as [<- <-]. ts T Hi KO. exact (TS _).
      + destruct a as [t v|io| |]; try discriminate H. destruct (nth_error (e_streams s) h) as [y|]; [|discriminate]. cbn zeta in H. apply some_pair in H. destruct H as [<- <-]. ts T Hi KO. exact (TS _).
      + destruct a as [t v|io| |]; try discriminate H. apply some_pair in H. destruct H as [<- <-]. ts T Hi KO. exact I.
    - cbn [step] in H. destruct (nth_error (e_conns s) n) as [cn|]; [|discriminate]. destruct (cn_loop cn); try discriminate H. injection H as H. unfold receive in H.
      assert (NS : forall i ctx e0, ~ In (OSent i ctx e0) [OReceived n e]) by (intros i ctx e0 [Q|[]]; discriminate Q).
      assert (T1 : civil s (tr ++ [OReceived n e])) by (apply civil_same with (s := s); auto).
      assert (APP : forall o, (tr ++ [OReceived n e]) ++ o = tr ++ OReceived n e :: o) by (intros o; rewrite <- app_assoc; reflexivity).
      destruct (match ev_ref e with Some r => lookup N.eqb r (e_lis s) | None => None end) as [c|].
      + injection H as <- <-. apply civil_same with (s := s); auto. autorewrite with ep. reflexivity.
      + destruct (etype_eqb (ev_type e) End).
        * injection H as <- <-. apply civil_same with (s := s); auto. intros i ctx e0 [Q|[Q|[]]]; discriminate Q.
        * destruct (match ev_ns e with Some ns => lookup bytes_eqb ns (cf_namespaces cf) | None => None end) as [nsp|] eqn:En.
          -- destruct (ev_ns e) as [ns|]; [|discriminate]. assert (Q := civil_call s _ n e (ns_handler nsp) (Some ns) T1).
             destruct (handle_event s n (ns_handler nsp) (Some ns) e) as [s2 o2]. injection H as <- <-. rewrite <- APP. apply Q.
             intros cb Hcb. apply (PH (Some ns) (ev_name e)). cbn. rewrite En. exact Hcb.
          -- assert (Q := civil_call s _ n e (cf_handler cf) None T1). destruct (handle_event s n (cf_handler cf) None e) as [s2 o2]. injection H as <- <-. rewrite <- APP. apply Q.
             intros cb Hcb. apply (PH None (ev_name e)). exact Hcb.
    - cbn [step] in H. destruct (nth_error (e_conns s) n) as [cn|]; [|discriminate]. destruct (cn_loop cn) as [|c e|]; try discriminate H. unfold place in H. destruct (nth_error (e_chans s) c) as [ch|]; [|discriminate]. destruct (ch_open ch).
      + destruct (Nat.ltb _ _); [|discriminate]. apply some_pair in H; destruct H as [<- <-]. apply civil_same with (s := s); [exact T|autorewrite with ep; reflexivity|intros i ctx e0 [Q|[]]; discriminate Q].
      + assert (T1 : civil (set_loop n LRun s) tr) by (rewrite <- (app_nil_r tr); apply civil_same with (s := s); auto; autorewrite with ep; reflexivity).
        assert (Q := civil_call _ _ n e (cf_handler cf) None T1). destruct (handle_event (set_loop n LRun s) n (cf_handler cf) None e) as [s2 o2]. apply some_pair in H; destruct H as [<- <-]. apply Q.
        intros cb Hcb. apply (PH None (ev_name e)). exact Hcb.
    - cbn [step] in H. destruct (nth_error (e_conns s) n) as [cn|]; [|discriminate]. destruct (cn_loop cn); try discriminate H. apply some_pair in H; destruct H as [<- <-]. apply civil_same with (s := s); [exact T|autorewrite with ep; reflexivity|intros i ctx e0 [Q|[]]; discriminate Q].
    - cbn [step] in H. destruct (nth_error (e_conns s) n) as [cn|]; [|discriminate]. destruct (cn_signal cn); [|discriminate]. apply some_pair in H; destruct H as [<- <-]. apply civil_same with (s := s); [exact T|autorewrite with ep; reflexivity|intros i ctx e0 [Q|[]]; discriminate Q].
    - cbn [step] in H. destruct (nth_error (e_streams s) h) as [y|]; [|discriminate]. destruct (st_state y); try discriminate H; apply some_pair in H; destruct H as [<- <-]; (apply civil_same with (s := s); [exact T|autorewrite with ep; reflexivity|intros i ctx e0 [Q|[]]; discriminate Q]).
    - cbn [step] in H. apply some_pair in H; destruct H as [<- <-]. apply civil_same with (s := s); auto.
  Qed.
  Lemma inv_civil ls s tr : runs' ls s tr -> civil s tr.
  Proof.
    apply (run_ind cf _ (fun ls s tr => civil s tr)).
    - constructor; [|intros ? ? ? []]. intros i tk Q. cbn in Q. rewrite nth_error_map in Q. destruct (nth_error ps i) as [p|] eqn:Ep; [|discriminate]. injection Q as <-. split; [exact I|]. exists None. split; [exact I|]. cbn.
      rewrite Forall_forall in PP. apply PP. eapply nth_error_In. exact Ep.
    - intros l0 s0 tr0 l s' os IH HR H. eapply civil_step; eauto.
  Qed.
End Civil.

(** ** Two ends *)
Lemma called_zero cf armed ps ctr ls s tr : runs cf 1 armed ps ctr ls s tr -> forall n j ctx sc e, In (OCalled n j ctx sc e) tr -> n = 0%nat.
Proof.
  apply (run_ind cf _ (fun ls s tr => forall n j ctx sc e, In (OCalled n j ctx sc e) tr -> n = 0%nat)); [intros n j ctx sc e []|].
  intros l0 s0 tr0 l s' os IH HR H n j ctx sc e Q. apply in_app_or in Q. destruct Q as [Q|Q]; [eauto|].
  pose proof (conns_len _ _ _ _ _ _ _ _ HR) as L.
  assert (exists cn, nth_error (e_conns s0) n = Some cn) as (cn & E).
  { step_cases H; cbn [In] in Q; repeat (destruct Q as [Q|Q]); try discriminate Q; try contradiction; inversion Q; subst; eauto. }
  assert (n < 1)%nat by (rewrite <- L; apply nth_error_Some; congruence). lia.
Qed.
Lemma filter_wired x tr : filter (is_ref x) (wired tr) = replies_to x tr.
Proof.
  rewrite wired_sent. unfold replies_to. induction (sent_events tr) as [|e l IH]; [reflexivity|]. cbn [map filter].
  replace (is_ref x (drop_empty_ns e)) with (refers x e) by (unfold is_ref, refers; rewrite drop_ref; reflexivity). destruct (refers x e); cbn [map]; rewrite IH; reflexivity.
Qed.
Section Peers.
  Context (cf : side -> config) (ps : side -> list prog) (ctr : side -> N) (sd : side).
  Hypothesis PH : polite_handlers (cf (other sd)).
  Hypothesis PP : Forall (polite None) (ps (other sd)).
  Local Notation pruns' := (pruns cf ps ctr (fun _ => [])).
  Lemma called_was_sent ls p tr s1 : pruns' ls p tr -> forall n j ctx sc q, In (OCalled n j ctx sc q) (at_side (other s1) tr) -> In q (wired (at_side s1 tr)) /\ n = 0%nat /\ ctx = mk_context 0 (Some (ev_id q)).
  Proof.
    intros H n j ctx sc q Q. destruct (project _ _ _ _ _ _ _ H (other s1)) as (lb & R & _). assert (n = 0%nat) by (eapply called_zero; eauto). subst n.
    split; [|split; [reflexivity|]].
    - rewrite wired_sent. pose proof (handled_sent _ _ _ _ _ _ (other s1) H) as SB. rewrite other_other in SB. eapply subseq_In; [exact SB|]. unfold handled. apply in_flat_map. eexists. split; [exact Q|]. cbn. left. reflexivity.
    - destruct (called_job _ _ _ _ _ _ _ _ _ _ _ _ _ R Q) as (st & _ & E & _). exact E.
  Qed.
  Lemma asked_for ls p tr : pruns' ls p tr -> forall j ctx a x, In (OSent j ctx a) (at_side (other sd) tr) -> ev_ref a = Some x -> exists j', called_for (at_side (other sd) tr) x j' /\ In x (map ev_id (wired (at_side sd tr))).
  Proof.
    intros H j ctx a x Q R. destruct (project _ _ _ _ _ _ _ H (other sd)) as (lb & RB & _). pose proof (v_sent _ _ (inv_civil _ _ _ _ _ PH PP _ _ _ RB) _ _ _ Q) as K. rewrite R in K.
    destruct K as (n & j' & cx & sc & q & K & <-). destruct (called_was_sent _ _ _ _ H _ _ _ _ _ K) as (A & -> & ->). exists j'. split; [exists sc, q; auto|]. apply in_map. exact A.
  Qed.
  Lemma reads ls p tr : pruns' ls p tr -> forall x, received_for 0 x (at_side sd tr) ++ filter (is_ref x) (p_in p sd) = replies_to x (at_side (other sd) tr).
  Proof.
    intros H x. destruct (project _ _ _ _ _ _ _ H sd) as (la & RA & _). rewrite (received_refs _ _ (received_zero _ _ _ _ _ _ _ RA)), <- filter_app. pose proof (wires _ _ _ _ _ _ _ H sd) as W. cbn [app] in W. rewrite W. apply filter_wired.
  Qed.
  Lemma few_before p l p' os : pstep cf p l = Some (p', os) -> few_events (p_ep p' sd) -> few_events (p_ep p sd).
  Proof. intros H. apply (pstep_side cf sd) in H. destruct H as [E _|l' E _ _ _ _]; [rewrite E; auto|]. apply step_ctr in E. unfold few_events. lia. Qed.
  (** no reply to a request is read before the listener is there *)
  Lemma none_before ls p tr : pruns' ls p tr -> good_clocks ls -> few_events (p_ep p sd) -> forall i x c a b, at_side sd tr = a ++ OListen i x c :: b -> received_for 0 x a = [].
  Proof.
    apply (prun_ind cf _ (fun ls p tr => good_clocks ls -> few_events (p_ep p sd) -> forall i x c a b, at_side sd tr = a ++ OListen i x c :: b -> received_for 0 x a = [])).
    - intros _ _ i x c [|? a] b Q; discriminate Q.
    - intros ls0 p0 tr0 l p' os IH HR H GC FE i x c a b Q.
      assert (GC0 : good_clocks ls0) by (intros s1 j t v X; apply (GC s1 j t v); apply in_or_app; auto).
      pose proof (few_before _ _ _ _ H FE) as FE0. pose proof (psnoc_run _ _ _ _ _ _ _ _ HR H) as HR'.
      rewrite at_side_app in Q. pose proof Q as Q0. apply app_mid in Q. destruct Q as [(m & Q1 & Q2)|(m & Q1 & Q2)]; [eauto|].
      pose proof (pstep_side cf sd _ _ _ _ H) as V. destruct V as [_ E|l' E _ _ _ _]; [rewrite E in Q1; destruct m; discriminate|].
      assert (Hin : In (OListen i x c) (at_side sd os)) by (rewrite Q1; apply in_or_app; right; left; reflexivity).
      destruct (listen_step _ _ _ _ _ _ _ _ E Hin) as (_ & _ & _ & _ & _ & _ & _ & _ & _ & Os & _).
      rewrite Os in Q1. destruct m as [|? [|? ?]]; try discriminate Q1. rewrite app_nil_r in Q2. subst a.
      destruct (project _ _ _ _ _ _ _ HR sd) as (la & RA & _). destruct (project _ _ _ _ _ _ _ HR' sd) as (la' & RA' & GA' & _). rewrite at_side_app, Os in RA'.
      pose proof (listens_first _ _ _ _ _ _ _ _ RA' (GA' GC) FE i x c _ [] eq_refl) as LF.
      destruct (received_for 0 x (at_side sd tr0)) as [|e rest] eqn:Ef; [reflexivity|exfalso].
      pose proof (reads _ _ _ HR x) as RD. rewrite Ef in RD. unfold replies_to in RD.
      assert (He : In e (map drop_empty_ns (filter (refers x) (sent_events (at_side (other sd) tr0))))) by (rewrite <- RD; left; reflexivity).
      apply in_map_iff in He. destruct He as (a & _ & He). apply filter_In in He. destruct He as [He1 He2].
      unfold sent_events in He1. apply in_flat_map in He1. destruct He1 as (o & O1 & O2). destruct o; cbn in O2; try contradiction. destruct O2 as [->|[]].
      assert (Ra : ev_ref a = Some x) by (apply is_ref_iff; exact He2).
      destruct (asked_for _ _ _ HR _ _ _ _ O1 Ra) as (j' & _ & N). apply LF. apply in_map_iff in N. destruct N as (q & <- & N). apply in_wired in N. destruct N as (i' & c0 & q0 & N & ->). rewrite drop_id. eapply sent_ended; eauto.
  Qed.
  Lemma result_from_reply E e : reply_result E e = result_from E e.
  Proof. unfold reply_result, result_from. destruct (ev_type e); try reflexivity. Qed.
  Lemma replied_called ls p tr x e rest : pruns' ls p tr -> replies_to x (at_side (other sd) tr) = e :: rest -> exists j, called_for (at_side (other sd) tr) x j.
  Proof.
    intros H Q. unfold replies_to in Q. assert (He : In e (map drop_empty_ns (filter (refers x) (sent_events (at_side (other sd) tr))))) by (rewrite Q; left; reflexivity).
    apply in_map_iff in He. destruct He as (a & _ & He). apply filter_In in He. destruct He as [He1 He2].
    unfold sent_events in He1. apply in_flat_map in He1. destruct He1 as (o & O1 & O2). destruct o; cbn in O2; try contradiction. destruct O2 as [->|[]].
    assert (Ra : ev_ref a = Some x) by (apply is_ref_iff; exact He2). destruct (asked_for _ _ _ H _ _ _ _ O1 Ra) as (j' & A & _). eauto.
  Qed.
  (** what is handed to a request or stream is what the other end sent in reply to it *)
  Lemma handed_on ls p tr : pruns' ls p tr -> good_clocks ls -> few_events (p_ep p sd) -> forall i x c, In (OListen i x c) (at_side sd tr) -> never_handled x (at_side sd tr) ->
    exists more, replies_to x (at_side (other sd) tr) = queued c (at_side sd tr) ++ more.
  Proof.
    intros H GC FE i x c HL NH. destruct (project _ _ _ _ _ _ _ H sd) as (la & RA & GA & _ & _ & NCut).
    apply in_split in HL. destruct HL as (a & b & Q). pose proof RA as RA'. rewrite Q in RA'.
    destruct (flow _ _ _ _ _ 0 i x c _ _ _ RA (GA GC) FE NH a b Q) as (rest & F1 & _).
    rewrite <- (reads _ _ _ H x), Q, received_for_app, (none_before _ _ _ H GC FE _ _ _ _ _ Q). change (OListen i x c :: b) with ([OListen i x c] ++ b). rewrite received_for_app, F1.
    exists (rest ++ filter (is_ref x) (p_in p sd)). change ([OListen i x c] ++ b) with (OListen i x c :: b). rewrite (queued_after _ _ _ _ _ _ _ _ _ _ _ _ RA' eq_refl). change (received_for 0 x [OListen i x c]) with (@nil event). cbn [app]. rewrite <- app_assoc. reflexivity.
  Qed.
  Lemma replied_first ls p tr : pruns' ls p tr -> good_clocks ls -> few_events (p_ep p sd) -> forall i x r, In (OReply i x (Some r)) (at_side sd tr) -> never_handled x (at_side sd tr) ->
    r = Err Timeout \/ exists a rest, replies_to x (at_side (other sd) tr) = a :: rest /\ r = result_from (cf_env (cf sd)) a /\ exists j, called_for (at_side (other sd) tr) x j.
  Proof.
    intros HR GC FE i x r Hr NH. destruct (project _ _ _ _ _ _ _ HR sd) as (la & RA & GA & _ & _ & NCut).
    destruct (results _ _ _ _ _ _ _ _ RA _ _ _ Hr) as (c & L1 & L2 & L3). unfold reported in L3. destruct (taken c (at_side sd tr)) as [|e [|e' tk]] eqn:Et.
    - destruct L3 as [L3|[L3|[L3|(io & ctx & e & L3 & L4 & _)]]].
      + discriminate.
      + injection L3 as ->. auto.
      + injection L3 as ->. destruct (no_send_error _ _ _ _ _ _ _ _ RA (GA GC) FE i x NH Hr).
      + exfalso. assert (existsb is_cut (at_side sd tr) = true) by (apply existsb_exists; eexists; split; [exact L4|reflexivity]). congruence.
    - destruct L3 as (L3 & _). injection L3 as ->. right. destruct (chan_prefix _ _ _ _ _ _ _ _ c RA) as (more & Qc). rewrite Et in Qc.
      destruct (handed_on _ _ _ HR GC FE _ _ _ L1 NH) as (more' & RT). rewrite Qc in RT. cbn [app] in RT. exists e, (more ++ more'). split; [exact RT|]. split; [apply result_from_reply|]. eapply replied_called; eauto.
    - destruct L3.
  Qed.
End Peers.
