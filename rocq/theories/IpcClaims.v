(** Proofs about endpoints: what follows for single properties (C38-C45, C51). *)
From Verif Require Import Base Reader BaseFacts BuilderFacts Codec Spec Ids IdsFacts Payload Builder Emit EmitFacts Ipc SpecIpc IpcFacts IpcChanFacts IpcUsers IpcLoops IpcIds IpcTasks IpcReplies IpcStreams.
From Coq Require Import ZifyBool ZifyNat ZifyN.

Section Claims.
  Context (cf : config) (nc : nat) (armed : bool) (ps : list prog) (ctr : N).
  Notation runs' := (runs cf nc armed ps ctr).

  Lemma run_more ls s tr ls' s' tr' : runs' ls s tr -> run cf s ls' = Some (s', tr') -> runs' (ls ++ ls') s' (tr ++ tr').
  Proof. unfold runs. intros H H'. rewrite run_app, H, H'. reflexivity. Qed.
  Lemma snoc_run ls s tr l s' os : runs' ls s tr -> step cf s l = Some (s', os) -> runs' (ls ++ [l]) s' (tr ++ os).
  Proof. intros H H'. eapply run_more; eauto. cbn. rewrite H', app_nil_r. reflexivity. Qed.

  (** ** Streams: C38, C42 *)
  Lemma opened_stream ls s tr : runs' ls s tr -> forall i h x c, In (OOpened i h x c) tr -> exists y, nth_error (e_streams s) h = Some y /\ st_id y = x /\ st_chan y = c.
  Proof.
    apply (run_ind cf _ (fun ls s tr => forall i h x c, In (OOpened i h x c) tr -> exists y, nth_error (e_streams s) h = Some y /\ st_id y = x /\ st_chan y = c)).
    { cbn. tauto. }
    clear ls s tr. intros ls s tr l s' os IH HR H i h x c Hin. apply in_app_or in Hin.
    destruct (step_stream _ _ _ _ _ h H) as [l E1 E2 E3|j a ctx e d k E1 E2 E3 E4 E5|j a y E1 E2 E3 E4|j a y k E1 E2 E3 E4 E5|j a y k ch1 e b E1 E2 E3 E4 E5 E6 E7
         |j y k E1 E2 E3 E4|j y k E1 E2 E3 E4|j a y oe k E1 E2 E3 E4|y E1 E2 E3 E4 E5]; destruct Hin as [Hin|Hin].
    - rewrite E1. eauto.
    - destruct (E3 _ _ _ Hin).
    - exfalso. destruct (IH _ _ _ _ Hin) as (y & Hy & _). pose proof (proj1 (nth_error_Some (e_streams s) h)) as Z. rewrite Hy in Z. specialize (Z ltac:(discriminate)). lia.
    - subst os. destruct Hin as [Q|[Q|[]]]; [discriminate|]. inversion Q; subst. eexists. split; [exact E4|auto].
    - destruct (IH _ _ _ _ Hin) as (z & Hz & ? & ?). assert (z = y) by congruence. subst z. eauto.
    - subst os. destruct Hin as [Q|[]]; discriminate.
    - destruct (IH _ _ _ _ Hin) as (z & Hz & ? & ?). assert (z = y) by congruence. subst z. eexists. split; [exact E3|]. cbn. auto.
    - subst os. destruct Hin.
    - destruct (IH _ _ _ _ Hin) as (z & Hz & ? & ?). assert (z = y) by congruence. subst z. eexists. split; [exact E6|]. cbn. auto.
    - subst os. destruct Hin as [Q|[Q|[]]]; discriminate.
    - destruct (IH _ _ _ _ Hin) as (z & Hz & ? & ?). assert (z = y) by congruence. subst z. eexists. split; [exact E3|]. cbn. auto.
    - subst os. destruct Hin as [Q|[Q|[]]]; discriminate.
    - destruct (IH _ _ _ _ Hin) as (z & Hz & ? & ?). assert (z = y) by congruence. subst z. eexists. split; [exact E3|]. cbn. auto.
    - subst os. destruct Hin as [Q|[]]; discriminate.
    - destruct (IH _ _ _ _ Hin) as (z & Hz & ? & ?). assert (z = y) by congruence. subst z. eexists. split; [exact E3|]. cbn. auto.
    - subst os. destruct Hin as [Q|[Q|[Q|[]]]]; discriminate.
    - destruct (IH _ _ _ _ Hin) as (z & Hz & ? & ?). assert (z = y) by congruence. subst z. eexists. split; [exact E4|]. cbn. auto.
    - subst os. destruct Hin as [Q|[]]; discriminate.
  Qed.
  Lemma chan_prefix ls s tr c : runs' ls s tr -> exists rest, queued c tr = taken c tr ++ rest.
  Proof.
    intros H. pose proof (inv_chan _ _ _ _ _ _ _ _ H c) as C. destruct (nth_error (e_chans s) c); cbn in C.
    - destruct C as (_ & _ & _ & rest & C & _). eauto.
    - destruct C as (A & B & _). exists []. rewrite A, B. reflexivity.
  Qed.
  Lemma history ls s tr i h x c : runs' ls s tr -> In (OOpened i h x c) tr -> exists l more, queued c tr = l ++ more /\ stream_history l (items h tr).
  Proof.
    intros H Hin. destruct (opened_stream _ _ _ H _ _ _ _ Hin) as (y & Hy & <- & <-). destruct (proj1 (inv_stream _ _ _ _ _ _ _ _ H) _ _ Hy) as [_ S].
    destruct (chan_prefix _ _ _ (st_chan y) H) as [rest E]. rewrite E.
    destruct (st_state y).
    - destruct S as [-> S]. exists (taken (st_chan y) tr), rest. split; [reflexivity|]. apply sh_open. exact S.
    - destruct S as (pre & -> & S & [T|(e & T & _)]); rewrite T.
      + exists pre, rest. split; [reflexivity|apply sh_open; exact S].
      + exists pre, (e :: rest). split; [rewrite <- app_assoc; reflexivity|apply sh_open; exact S].
    - exists (taken (st_chan y) tr), rest. split; [reflexivity|]. destruct S as [(pre & e & k & A & B & C & ->)|(k & A & ->)]; [eapply sh_end; eauto|apply sh_none; exact A].
    - exists (taken (st_chan y) tr), rest. split; [reflexivity|]. destruct S as [-> S]. apply sh_timeout. exact S.
    - exists (taken (st_chan y) tr), rest. split; [reflexivity|exact S].
  Qed.
  Lemma history_in l its e : stream_history l its -> In (Some (Ok e)) its -> In e l.
  Proof.
    assert (Y : forall l, In (Some (Ok e)) (yields l) -> In e l).
    { intros l0 Q. unfold yields in Q. apply in_map_iff in Q. destruct Q as (e' & A & B). inversion A; subst. exact B. }
    intros S Q. destruct S; auto; apply in_app_or in Q; destruct Q as [Q|Q]; auto.
    - apply repeat_spec in Q. discriminate.
    - apply repeat_spec in Q. discriminate.
    - destruct Q as [Q|[]]. discriminate.
  Qed.
  Lemma stream_request ls s tr i h x c : runs' ls s tr -> In (OOpened i h x c) tr -> exists i', asked tr i' x c.
  Proof.
    intros H Hin. destruct (opened_stream _ _ _ H _ _ _ _ Hin) as (y & Hy & <- & <-). destruct (proj1 (inv_stream _ _ _ _ _ _ _ _ H) _ _ Hy) as [(i' & _ & A) _]. eauto.
  Qed.
  Lemma listen_same ls s tr i j x y c : runs' ls s tr -> In (OListen i x c) tr -> In (OListen j y c) tr -> x = y.
  Proof.
    intros H A B. pose proof (inv_chan _ _ _ _ _ _ _ _ H c) as C. destruct (nth_error (e_chans s) c); cbn in C.
    - destruct C as (_ & _ & C & _). rewrite (C _ _ A), (C _ _ B). reflexivity.
    - destruct C as (_ & _ & _ & C). destruct (C _ _ A).
  Qed.
  Lemma stream_items ls s tr i h x c e : runs' ls s tr -> In (OOpened i h x c) tr -> In (Some (Ok e)) (items h tr) -> ev_ref e = Some x /\ received tr e.
  Proof.
    intros H Ho Hi. destruct (history _ _ _ _ _ _ _ H Ho) as (l & more & E & S). assert (Q : In e (queued c tr)) by (rewrite E; apply in_or_app; left; eapply history_in; eauto).
    split; [|eapply queued_in; eauto]. destruct (queued_ref _ _ _ _ _ _ _ _ H _ _ Q) as (j & y & A & B). destruct (stream_request _ _ _ _ _ _ _ H Ho) as (i' & (C & _)).
    rewrite (listen_same _ _ _ _ _ _ _ _ H C A). exact B.
  Qed.
  Lemma items_in j h r tr : In (OItem j h (Some r)) tr -> In r (items h tr).
  Proof. intros H. unfold items. apply in_flat_map. exists (OItem j h (Some r)). split; [exact H|]. cbn. rewrite Nat.eqb_refl. left. reflexivity. Qed.

  (** ** No SendError and no premature end of streams while nothing with that id is handled *)
  Lemma lookup_sender s x c : lookup N.eqb x (e_lis s) = Some c -> has_sender s c = true.
  Proof.
    intros H. unfold has_sender. apply orb_true_iff. left. apply existsb_exists. exists (x, c). split; [|cbn; apply Nat.eqb_refl].
    revert H. induction (e_lis s) as [|[k v] m IH]; cbn; [discriminate|]. destruct (N.eqb_spec x k); [intros Q; inversion Q; subst; auto|auto].
  Qed.
  Lemma error_dec_errors E l er : error_dec E l = Err er -> er = CorruptedEvent \/ exists k, er = IoError k.
  Proof.
    intros D. unfold error_dec in D. revert D. unfold sread_int, sread_exact, vec_alloc.
    repeat (cbn [bind]; match goal with |- context[match ?x with _ => _ end] => destruct x eqn:? end; try discriminate); cbn [bind]; intros D; inversion D; subst; eauto.
  Qed.
  Lemma reply_result_errors E e er : reply_result E e = Err er -> (exists d, er = ErrorEvent d) \/ er = CorruptedEvent \/ exists k, er = IoError k.
  Proof.
    unfold reply_result. destruct (etype_eqb (ev_type e) Error); [|discriminate]. destruct (error_dec E (ev_data e)) as [d|er'|] eqn:D; intros Q; inversion Q; subst; eauto.
    right. exact (error_dec_errors _ _ _ D).
  Qed.
  Lemma no_send_error ls s tr : runs' ls s tr -> good_clock ls -> few_events s -> forall i x, never_handled x tr -> ~ In (OReply i x (Some (Err SendError))) tr.
  Proof.
    apply (run_ind cf _ (fun ls s tr => good_clock ls -> few_events s -> forall i x, never_handled x tr -> ~ In (OReply i x (Some (Err SendError))) tr)).
    { cbn. tauto. }
    clear ls s tr. intros ls s tr l s' os IH HR H GC FE i x NH Hin.
    assert (FE' : few_events s) by (unfold few_events in *; pose proof (step_ctr _ _ _ _ _ H); lia).
    assert (GC' : good_clock ls) by (eapply good_prefix; eauto). apply handled_prefix in NH.
    apply in_app_or in Hin. destruct Hin as [Hin|Hin]; [eapply IH; eauto|].
    destruct (reply_step _ _ _ _ _ _ _ _ H Hin) as (st & a & -> & Hi & [(c & ctx & e & k & -> & -> & -> & [Q|(io & Q)])|[(c & k & -> & -> & [Q|[Q|(_ & Q)]])|(c & e & k & -> & -> & Q)]]); try discriminate.
    - destruct (inv_ask _ _ _ _ _ _ _ _ HR _ _ Hi) as [(A & _) _]. pose proof (inv_users _ _ _ _ _ _ _ _ HR) as U. destruct (u_task _ U _ _ _ Hi eq_refl) as (ch & Ech & _ & Eo).
      pose proof (inv_chan _ _ _ _ _ _ _ _ HR c) as C. rewrite Ech in C. destruct C as (G & _). rewrite Eo in G.
      pose proof (stays_registered _ _ _ _ _ _ _ _ HR GC' FE' _ _ _ A NH G) as R. rewrite <- (inv_lis _ _ _ _ _ _ _ _ HR) in R. rewrite (lookup_sender _ _ _ R) in Q. discriminate.
    - inversion Q as [Q1]. symmetry in Q1. destruct (reply_result_errors _ _ _ Q1) as [(d & X)|[X|(k1 & X)]]; discriminate.
  Qed.
  Lemma no_early_end ls s tr : runs' ls s tr -> good_clock ls -> few_events s -> forall i h k y, tst s i = Some (TNextGot h None k) -> nth_error (e_streams s) h = Some y -> never_handled (st_id y) tr -> False.
  Proof.
    apply (run_ind cf _ (fun ls s tr => good_clock ls -> few_events s -> forall i h k y, tst s i = Some (TNextGot h None k) -> nth_error (e_streams s) h = Some y -> never_handled (st_id y) tr -> False)).
    { intros _ _ i h k y E. unfold tst in E. cbn [ep_new e_tasks] in E. rewrite nth_error_map in E. destruct (nth_error ps i); cbn in E; discriminate. }
    clear ls s tr. intros ls s tr l s' os IH HR H GC FE i h k y Hi Hy NH.
    assert (FE' : few_events s) by (unfold few_events in *; pose proof (step_ctr _ _ _ _ _ H); lia).
    assert (GC' : good_clock ls) by (eapply good_prefix; eauto). apply handled_prefix in NH. pose proof (inv_users _ _ _ _ _ _ _ _ HR) as U.
    destruct (tst_after _ _ _ _ _ _ _ H Hi) as [[Hi' Hl]|[(a & st0 & -> & H0 & Ht)|(p & Q & _)]]; [| |discriminate].
    - destruct (u_poll _ U _ _ _ Hi' eq_refl) as (z & Hz & Sz).
      assert (H0 : st_id z = st_id y).
      { destruct (step_stream _ _ _ _ _ h H) as [l E1 E2 E3|j a ctx e d k0 E1 E2 E3 E4 E5|j a z' E1 E2 E3 E4|j a z' k0 E1 E2 E3 E4 E5|j a z' k0 ch1 e b E1 E2 E3 E4 E5 E6 E7
         |j z' k0 E1 E2 E3 E4|j z' k0 E1 E2 E3 E4|j a z' oe k0 E1 E2 E3 E4|z' E1 E2 E3 E4 E5]; try congruence.
        - exfalso. pose proof (proj1 (nth_error_Some (e_streams s) h)) as Z. rewrite Hz in Z. specialize (Z ltac:(discriminate)). lia.
        - rewrite E6 in Hy. inversion Hy. cbn. congruence.
        - rewrite E3 in Hy. inversion Hy. cbn. congruence.
        - rewrite E3 in Hy. inversion Hy. cbn. congruence.
        - rewrite E3 in Hy. inversion Hy. cbn. congruence. }
      apply (IH GC' FE' i h k z Hi' Hz). intros ? ? ? ? ? Q. rewrite H0. exact (NH _ _ _ _ _ Q).
    - destruct (task_step_poll _ _ _ _ _ _ _ _ _ Ht H0 Hi eq_refl) as [[A B]|(A & x & B & D & E)].
      + rewrite B in Hy. 
        assert (Q : has_sender s (st_chan y) = false /\ tpoll st0 = Some h).
        { clear - Ht H0 Hi A Hy. unfold task_step in Ht. unfold tst in *. destruct (nth_error (e_tasks s) i) as [tk|] eqn:Et; [|discriminate]. cbn in H0. inversion H0 as [Ej]. rewrite Ej in *. clear H0.
            destruct st0 as [p|ctx e1 w|ctx e1 pu|d rid k1|d rid e1 k1|h1 k1|h1 oe k1|rid| |]; try discriminate A; inversion A; subst h1; destruct a; try discriminate Ht.
            - rewrite Hy in Ht. destruct (nth_error (e_chans s) (st_chan y)) as [ch|]; [|discriminate]. destruct (ch_buf ch) as [|e b].
              + destruct (has_sender s (st_chan y)); [discriminate|]. auto.
              + destruct (etype_eqb (ev_type e) End) eqn:Ee; apply some_pair in Ht; destruct Ht as [<- <-]; autorewrite with ep in Hi; rewrite Nat.eqb_refl, Et in Hi; inversion Hi.
            - rewrite Hy in Ht. apply some_pair in Ht; destruct Ht as [<- <-]. autorewrite with ep in Hi. rewrite Nat.eqb_refl, Et in Hi. inversion Hi.
            - apply some_pair in Ht; destruct Ht as [<- <-]. autorewrite with ep in Hi. rewrite Nat.eqb_refl, Et in Hi. inversion Hi.
            - rewrite Hy in Ht. apply some_pair in Ht; destruct Ht as [<- <-]. autorewrite with ep in Hi. rewrite Nat.eqb_refl, Et in Hi. inversion Hi. }
        destruct Q as [Q _]. destruct (u_poll _ U _ _ _ H0 A) as (z & Hz & Sz). assert (z = y) by congruence. subst z.
        destruct (proj1 (inv_stream _ _ _ _ _ _ _ _ HR) _ _ Hy) as [(i' & _ & (L & _)) _]. destruct (u_stream _ U _ _ Hy) as (ch & Ech & _ & Eo). rewrite Sz in Eo. cbn in Eo.
        pose proof (inv_chan _ _ _ _ _ _ _ _ HR (st_chan y)) as C. rewrite Ech in C. destruct C as (G & _). rewrite Eo in G.
        pose proof (stays_registered _ _ _ _ _ _ _ _ HR GC' FE' _ _ _ L NH G) as R. rewrite <- (inv_lis _ _ _ _ _ _ _ _ HR) in R. rewrite (lookup_sender _ _ _ R) in Q. discriminate.
      + exfalso. clear - Ht H0 Hi A. unfold task_step in Ht. unfold tst in *. destruct (nth_error (e_tasks s) i) as [tk|] eqn:Et; [|discriminate]. cbn in H0. inversion H0 as [Ej]. rewrite Ej in *. clear H0.
        assert (L : (i <> length (e_tasks s))%nat) by (pose proof (proj1 (nth_error_Some (e_tasks s) i)); rewrite Et in *; intuition (try congruence; try lia)).
        destruct st0 as [p|ctx e w|ctx e pu|d rid k1|d rid e k1|h1 k1|h1 oe k1|rid| |]; destruct a; try discriminate Ht; try discriminate A; unfold run_prog, answer_event in Ht; cbn zeta in Ht;
              repeat (match type of Ht with context[match ?x with _ => _ end] => destruct x eqn:? end; try discriminate Ht);
              apply some_pair in Ht; destruct Ht as [<- <-]; autorewrite with ep in Hi; rewrite Nat.eqb_refl, ?(proj2 (Nat.eqb_neq _ _) L), ?Et in Hi; cbn [option_map tk_st tk_job] in Hi; discriminate Hi.
  Qed.
  Lemma none_after_end ls s tr : runs' ls s tr -> good_clock ls -> few_events s -> forall h y, nth_error (e_streams s) h = Some y -> never_handled (st_id y) tr -> In None (items h tr) ->
    exists e, In e (taken (st_chan y) tr) /\ ev_type e = End.
  Proof.
    apply (run_ind cf _ (fun ls s tr => good_clock ls -> few_events s -> forall h y, nth_error (e_streams s) h = Some y -> never_handled (st_id y) tr -> In None (items h tr) ->
      exists e, In e (taken (st_chan y) tr) /\ ev_type e = End)).
    { intros _ _ [|h] y E; discriminate. }
    clear ls s tr. intros ls s tr l s' os IH HR H GC FE h y Hy NH Hin.
    assert (FE' : few_events s) by (unfold few_events in *; pose proof (step_ctr _ _ _ _ _ H); lia).
    assert (GC' : good_clock ls) by (eapply good_prefix; eauto). apply handled_prefix in NH.
    rewrite items_app in Hin. rewrite taken_app. apply in_app_or in Hin.
    assert (K : forall z, nth_error (e_streams s) h = Some z -> st_id z = st_id y -> st_chan z = st_chan y -> In None (items h tr) -> exists e, In e (taken (st_chan y) tr ++ taken (st_chan y) os) /\ ev_type e = End).
    { intros z Hz Ei Ec Q. destruct (IH GC' FE' h z Hz) as (e & A & B); [rewrite Ei; exact NH|exact Q|]. exists e. split; [apply in_or_app; left; congruence|exact B]. }
    destruct (step_stream _ _ _ _ _ h H) as [l E1 E2 E3|j a ctx e d k0 E1 E2 E3 E4 E5|j a z E1 E2 E3 E4|j a z k0 E1 E2 E3 E4 E5|j a z k0 ch1 e b E1 E2 E3 E4 E5 E6 E7
         |j z k0 E1 E2 E3 E4|j z k0 E1 E2 E3 E4|j a z oe k0 E1 E2 E3 E4|z E1 E2 E3 E4 E5].
    - rewrite E2 in Hin. destruct Hin as [Hin|[]]. eapply K; eauto. congruence.
    - exfalso. assert (Q : In (OOpened j h (ev_id e) d) (tr ++ os)) by (apply in_or_app; right; subst os; right; left; reflexivity).
      rewrite E4 in Hy. inversion Hy; subst y. destruct (proj1 (inv_stream _ _ _ _ _ _ _ _ (snoc_run _ _ _ _ _ _ HR H)) _ _ E4) as [_ S]. cbn in S. destruct S as [S _]. rewrite items_app in S.
      apply in_or_app in Hin. rewrite S in Hin. unfold yields in Hin. apply in_map_iff in Hin. destruct Hin as (? & ? & _). discriminate.
    - assert (z = y) by congruence. subst z. destruct (proj1 (inv_stream _ _ _ _ _ _ _ _ HR) _ _ E1) as [_ S]. rewrite E2 in S. destruct S as [(pre & e & k & A & B & C & D)|(k & A & D)].
      + exists e. split; [|exact C]. rewrite A. apply in_or_app. left. apply in_or_app. right. left. reflexivity.
      + apply (K y); auto. rewrite D. apply in_or_app. right. left. reflexivity.
    - subst os. destruct Hin as [Hin|[]]. rewrite E3 in Hy. inversion Hy; subst y. eapply K; eauto.
    - rewrite E6 in Hy. inversion Hy; subst y. destruct Hin as [Hin|Hin]; [eapply K; eauto|]. subst os. cbn in Hin. rewrite Nat.eqb_refl in Hin. destruct Hin as [Q|[]]. discriminate.
    - rewrite E3 in Hy. inversion Hy; subst y. destruct Hin as [Hin|Hin]; [eapply K; eauto|]. subst os. cbn in Hin. rewrite Nat.eqb_refl in Hin. destruct Hin as [Q|[]]. discriminate.
    - rewrite E3 in Hy. inversion Hy; subst y. destruct Hin as [Hin|Hin]; [eapply K; eauto|]. subst os. destruct Hin.
    - rewrite E3 in Hy. inversion Hy; subst y. destruct Hin as [Hin|Hin]; [eapply K; eauto|]. subst os. destruct oe as [e|]; cbn in Hin; rewrite Nat.eqb_refl in Hin; destruct Hin as [Q|[]]; [discriminate|].
      exfalso. eapply no_early_end; eauto.
    - rewrite E4 in Hy. inversion Hy; subst y. destruct Hin as [Hin|Hin]; [eapply K; eauto|]. subst os. destruct Hin.
  Qed.
End Claims.
