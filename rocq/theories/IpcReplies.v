(** Proofs about endpoints: requests, their replies and their listeners. *)
From Verif Require Import Base BaseFacts BuilderFacts Codec Spec Ids IdsFacts Payload Builder Emit EmitFacts Ipc SpecIpc IpcFacts IpcChanFacts IpcUsers IpcLoops IpcIds IpcTasks.
From Coq Require Import ZifyBool ZifyNat ZifyN.

(** ** Steps with certain observations *)
Lemma reply_step cf s l s' os i x r : step cf s l = Some (s', os) -> In (OReply i x r) os -> exists st a, l = LTask i a /\ tst s i = Some st /\
  ((exists c ctx e k, st = TSend ctx e (ForAwait c k) /\ x = ev_id e /\ os = [OCut i ctx e; OGone c; OReply i x r] /\ (r = None \/ exists io, r = Some (Err (IoError io))))
   \/ (exists c k, st = TWait c x k /\ os = [OGone c; OReply i x r] /\ (r = None \/ r = Some (Err Timeout) \/ (r = Some (Err SendError) /\ has_sender s c = false)))
   \/ (exists c e k, st = TGot c x e k /\ os = [OUnlisten x; OGone c; OReply i x r] /\ r = Some (reply_result (cf_env cf) e))).
Proof.
  intros H Hin. destruct l as [j a|m e|m|m|m|h|]; try (exfalso; step_cases H; cbn [In] in Hin; intuition discriminate).
  cbn [step] in H. unfold task_step in H. destruct (nth_error (e_tasks s) j) as [tk|] eqn:Et; [|discriminate].
  destruct (tk_st tk) as [p|ctx e w|ctx e pu|d rid k|d rid e k|h1 k|h1 oe k|rid| |] eqn:Es; destruct a; try discriminate H;
    try (exfalso; step_cases H; cbn [In] in Hin; intuition discriminate).
  - destruct pu as [k1|d k1|d k1|ok]; apply some_pair in H; destruct H as [_ <-]; cbn [In] in Hin; repeat (destruct Hin as [Hin|Hin]; try discriminate Hin); try contradiction.
    inversion Hin; subst. eexists _, _. split; [reflexivity|]. split; [unfold tst; rewrite Et; cbn; rewrite Es; reflexivity|]. left. exists d, ctx, e, k1. repeat split; auto. right; eauto.
  - destruct pu as [k1|d k1|d k1|ok]; try discriminate H; apply some_pair in H; destruct H as [_ <-]; cbn [In] in Hin; repeat (destruct Hin as [Hin|Hin]; try discriminate Hin); try contradiction.
    inversion Hin; subst. eexists _, _. split; [reflexivity|]. split; [unfold tst; rewrite Et; cbn; rewrite Es; reflexivity|]. left. exists d, ctx, e, k1. repeat split; auto.
  - destruct (nth_error (e_chans s) d) as [ch|]; [|discriminate]. destruct (ch_buf ch); [|apply some_pair in H; destruct H as [_ <-]; cbn in Hin; intuition discriminate].
    destruct (has_sender s d) eqn:Eh; [discriminate|]. apply some_pair in H; destruct H as [_ <-]. cbn [In] in Hin; repeat (destruct Hin as [Hin|Hin]; try discriminate Hin); try contradiction.
    inversion Hin; subst. eexists _, _. split; [reflexivity|]. split; [unfold tst; rewrite Et; cbn; rewrite Es; reflexivity|]. right; left. exists d, k. repeat split; auto.
  - apply some_pair in H; destruct H as [_ <-]. cbn [In] in Hin; repeat (destruct Hin as [Hin|Hin]; try discriminate Hin); try contradiction.
    inversion Hin; subst. eexists _, _. split; [reflexivity|]. split; [unfold tst; rewrite Et; cbn; rewrite Es; reflexivity|]. right; left. exists d, k. repeat split; auto.
  - apply some_pair in H; destruct H as [_ <-]. cbn [In] in Hin; repeat (destruct Hin as [Hin|Hin]; try discriminate Hin); try contradiction.
    inversion Hin; subst. eexists _, _. split; [reflexivity|]. split; [unfold tst; rewrite Et; cbn; rewrite Es; reflexivity|]. right; left. exists d, k. repeat split; auto.
  - destruct (reply_result (cf_env cf) e) eqn:Er; apply some_pair in H; destruct H as [_ <-]; cbn [In] in Hin; repeat (destruct Hin as [Hin|Hin]; try discriminate Hin); try contradiction;
      inversion Hin; subst; (eexists _, _; split; [reflexivity|]; split; [unfold tst; rewrite Et; cbn; rewrite Es; reflexivity|]; right; right; exists d, e, k; repeat split; auto; congruence).
Qed.
Lemma unlisten_step cf s l s' os x : step cf s l = Some (s', os) -> In (OUnlisten x) os -> exists i a st, l = LTask i a /\ tst s i = Some st /\
  ((exists c e k, st = TGot c x e k /\ gone_b c os = true) \/ (exists h oe k y, st = TNextGot h oe k /\ nth_error (e_streams s) h = Some y /\ st_id y = x /\ gone_b (st_chan y) os = true)
   \/ (st = TForget x /\ os = [OUnlisten x])).
Proof.
  intros H Hin. destruct l as [j a|m e|m|m|m|h|]; try (exfalso; step_cases H; cbn [In] in Hin; intuition discriminate).
  cbn [step] in H. unfold task_step in H. destruct (nth_error (e_tasks s) j) as [tk|] eqn:Et; [|discriminate].
  destruct (tk_st tk) as [p|ctx e w|ctx e pu|d rid k|d rid e k|h1 k|h1 oe k|rid| |] eqn:Es; destruct a; try discriminate H;
    try (exfalso; step_cases H; cbn [In] in Hin; intuition discriminate); try (exfalso; destruct pu; step_cases H; cbn [In] in Hin; intuition discriminate).
  - eexists j, _, _. split; [reflexivity|]. split; [unfold tst; rewrite Et; cbn; rewrite Es; reflexivity|]. left.
    destruct (reply_result (cf_env cf) e); apply some_pair in H; destruct H as [_ <-]; cbn [In] in Hin; repeat (destruct Hin as [Hin|Hin]; try discriminate Hin); try contradiction;
      inversion Hin; subst; exists d, e, k; (split; [reflexivity|]); cbn; rewrite Nat.eqb_refl; reflexivity.
  - eexists j, _, _. split; [reflexivity|]. split; [unfold tst; rewrite Et; cbn; rewrite Es; reflexivity|]. right; left.
    destruct (nth_error (e_streams s) h1) as [y|] eqn:Ey; [|discriminate]. apply some_pair in H; destruct H as [_ <-]; cbn [In] in Hin; repeat (destruct Hin as [Hin|Hin]; try discriminate Hin); try contradiction.
    inversion Hin; subst. exists h1, oe, k, y. repeat split; auto. cbn. rewrite Nat.eqb_refl. reflexivity.
  - eexists j, _, _. split; [reflexivity|]. split; [unfold tst; rewrite Et; cbn; rewrite Es; reflexivity|]. right; right.
    apply some_pair in H; destruct H as [_ <-]. destruct Hin as [Hin|[]]. inversion Hin; subst. auto.
Qed.
Lemma not_user s i st c l : users s -> tst s i = Some st -> tchan st = Some c -> (forall a, l <> LTask i a) -> ~ uses s c l.
Proof.
  intros U Hi Hc Hl Hu. destruct Hu as [j a st' Hj Hcj|j a st' h x Hj Hp Hx Hc'|h x Hx Hc' _ _].
  - apply (Hl a). f_equal. exact (u_tt _ U _ _ _ _ _ Hj Hi Hcj Hc).
  - exact (u_ts _ U _ _ _ _ _ Hi Hc Hx Hc').
  - exact (u_ts _ U _ _ _ _ _ Hi Hc Hx Hc').
Qed.
Lemma not_taken cf s l s' os c : step cf s l = Some (s', os) -> ~ uses s c l -> taken c os = [] /\ gone_b c os = false.
Proof.
  intros H N. destruct (step_chan _ _ _ _ _ c H) as [E1 Q K G NL|j ctx e w E -> E' _|m e ch _ -> El E1 Eo L E'|e b ch E1 Eb Q K G NL Hu E'|ch E1 Q K G NL Hu E'|E1 E' Q K NL Hu]; auto; contradiction.
Qed.

(** ** What waiting tasks have done *)
Definition asked (tr : list obs) (i : nat) (x : N) (c : nat) : Prop := In (OListen i x c) tr /\ exists ctx e, In (OSent i ctx e) tr /\ ev_id e = x.
Definition ask_trace (tr : list obs) (i : nat) (st : tstate) : Prop :=
  match st with
  | TSend _ e (ForAwait c _) | TSend _ e (ForStream c _) => In (OListen i (ev_id e) c) tr /\ taken c tr = []
  | TWait c x _ => asked tr i x c /\ taken c tr = []
  | TGot c x r _ => asked tr i x c /\ taken c tr = [r]
  | _ => True
  end.
Lemma asked_app tr os i x c : asked tr i x c -> asked (tr ++ os) i x c.
Proof. intros (A & ctx & e & B & C). split; [apply in_or_app; auto|]. exists ctx, e. split; [apply in_or_app; auto|exact C]. Qed.
Lemma ask_trace_app tr os i st : (forall c, tchan st = Some c -> taken c os = []) -> ask_trace tr i st -> ask_trace (tr ++ os) i st.
Proof.
  intros N. destruct st as [p|ctx e w|ctx e [k|c k|c k|ok]|c x k|c x e k|h k|h oe k|rid| |]; cbn in *; auto; rewrite ?taken_app, ?(N _ eq_refl), ?app_nil_r;
    intros [A B]; auto using asked_app, in_or_app.
Qed.

Section Replies.
  Context (cf : config) (nc : nat) (armed : bool) (ps : list prog) (ctr : N).
  Lemma inv_ask ls s tr : runs cf nc armed ps ctr ls s tr -> forall i st, tst s i = Some st -> ask_trace tr i st.
  Proof.
    apply (run_ind cf _ (fun ls s tr => forall i st, tst s i = Some st -> ask_trace tr i st)).
    { intros i st. unfold tst. cbn [ep_new e_tasks]. rewrite nth_error_map. destruct (nth_error ps i); cbn; [|discriminate]. intros E. inversion E. cbn. exact I. }
    clear ls s tr. intros ls s tr l s' os IH HR H i st Hi. pose proof (inv_users _ _ _ _ _ _ _ _ HR) as U.
    destruct (tst_after _ _ _ _ _ _ _ H Hi) as [[Hi' Hl]|[(a & st0 & -> & H0 & Ht)|(p & -> & _)]]; [| |exact I].
    { apply ask_trace_app; [|eauto]. intros c Hc. apply (not_taken _ _ _ _ _ _ H). eapply not_user; eauto. }
    specialize (IH _ _ H0). pose proof (inv_chan _ _ _ _ _ _ _ _ HR (length (e_chans s))) as FC. rewrite (proj2 (nth_error_None _ _) (le_n _)) in FC. clear HR H.
    unfold tst in *. unfold task_step in Ht. destruct (nth_error (e_tasks s) i) as [tk|] eqn:Et; [|discriminate]. cbn [option_map] in H0. inversion H0 as [E0]. clear H0.
    assert (L : (i <> length (e_tasks s))%nat) by (pose proof (proj1 (nth_error_Some (e_tasks s) i)); rewrite Et in *; intuition (try congruence; try lia)).
    rewrite E0 in Ht. destruct st0 as [p|ctx e w|ctx e pu|d rid k|d rid e k|h1 k|h1 oe k|rid| |]; destruct a; try discriminate Ht; unfold run_prog, answer_event in Ht; cbn zeta in Ht;
      repeat (match type of Ht with context[match ?x with _ => _ end] => destruct x eqn:? end; try discriminate Ht);
      apply some_pair in Ht; destruct Ht as [<- <-]; autorewrite with ep in Hi; rewrite Nat.eqb_refl, ?(proj2 (Nat.eqb_neq _ _) L), ?Et in Hi; cbn [option_map tk_st tk_job] in Hi;
      apply (f_equal (fun o => match o with Some x => x | None => st end)) in Hi; cbn in Hi; subst st; try exact I; cbn [ask_trace] in *.
    - destruct FC as (_ & A & _). rewrite taken_app, A. split; [apply in_or_app; right; left; reflexivity|reflexivity].
    - destruct FC as (_ & A & _). rewrite taken_app, A. split; [apply in_or_app; right; left; reflexivity|reflexivity].
    - destruct IH as [A B]. rewrite taken_app, B. split; [|reflexivity]. split; [apply in_or_app; auto|]. exists ctx, e. split; [apply in_or_app; right; left; reflexivity|reflexivity].
    - destruct IH as [A B]. rewrite taken_app, B. split; [apply asked_app; exact A|]. cbn. rewrite Nat.eqb_refl. reflexivity.
  Qed.

  (** ** C38 *)
  (** [e] is the first event delivered for the request [x] of task [i] *)
  Definition got_reply (tr : list obs) (i : nat) (x : N) (e : event) : Prop :=
    exists c rest, asked tr i x c /\ queued c tr = e :: rest /\ ev_ref e = Some x.
  Lemma got_reply_app tr os i x e : got_reply tr i x e -> got_reply (tr ++ os) i x e.
  Proof. intros (c & rest & A & B & C). exists c, (rest ++ queued c os). split; [apply asked_app; exact A|]. rewrite queued_app, B. auto. Qed.
  Lemma replies ls s tr : runs cf nc armed ps ctr ls s tr -> forall i x r, In (OReply i x (Some r)) tr ->
    (exists e, got_reply tr i x e /\ r = reply_result (cf_env cf) e) \/ r = Err Timeout \/ r = Err SendError \/ (exists io ctx e, r = Err (IoError io) /\ In (OCut i ctx e) tr /\ ev_id e = x).
  Proof.
    apply (run_ind cf _ (fun ls s tr => forall i x r, In (OReply i x (Some r)) tr ->
      (exists e, got_reply tr i x e /\ r = reply_result (cf_env cf) e) \/ r = Err Timeout \/ r = Err SendError \/ (exists io ctx e, r = Err (IoError io) /\ In (OCut i ctx e) tr /\ ev_id e = x))).
    { cbn. tauto. }
    clear ls s tr. intros ls s tr l s' os IH HR H i x r Hin. apply in_app_or in Hin. destruct Hin as [Hin|Hin].
    { destruct (IH _ _ _ Hin) as [(e & A & B)|[A|[A|(io & ctx & e & A & B & C)]]]; auto.
      - left. exists e. auto using got_reply_app.
      - right; right; right. exists io, ctx, e. auto using in_or_app. }
    destruct (reply_step _ _ _ _ _ _ _ _ H Hin) as (st & a & -> & Hi & [(c & ctx & e & k & -> & -> & -> & [Q|(io & Q)])|[(c & k & -> & -> & [Q|[Q|(Q & _)]])|(c & e & k & -> & -> & Q)]]); inversion Q; subst.
    - right; right; right. exists io, ctx, e. split; [reflexivity|]. split; [apply in_or_app; right; left; reflexivity|reflexivity].
    - auto.
    - auto.
    - left. exists e. split; [|reflexivity]. apply got_reply_app.
      destruct (inv_ask _ _ _ HR _ _ Hi) as [A B]. pose proof (inv_users _ _ _ _ _ _ _ _ HR) as U.
      destruct (u_task _ U _ _ _ Hi eq_refl) as (ch & Ech & _). pose proof (inv_chan _ _ _ _ _ _ _ _ HR c) as C. rewrite Ech in C. destruct C as (_ & _ & _ & rest & C & _). rewrite B in C.
      exists c, rest. split; [exact A|]. split; [exact C|]. exact (u_got _ U _ _ _ _ _ Hi).
  Qed.
  Lemma queued_in ls s tr c e : runs cf nc armed ps ctr ls s tr -> In e (queued c tr) -> received tr e.
  Proof.
    intros H Hin. unfold queued in Hin. apply in_flat_map in Hin. destruct Hin as (o & A & B). destruct o; try contradiction. cbn in B. destruct (Nat.eqb_spec c0 c); [|contradiction].
    destruct B as [B|[]]. subst. exists n. exact (queued_received _ _ _ _ _ _ _ _ _ _ _ H A).
  Qed.
  Lemma queued_ref ls s tr : runs cf nc armed ps ctr ls s tr -> forall c e, In e (queued c tr) -> exists i x, In (OListen i x c) tr /\ ev_ref e = Some x.
  Proof.
    apply (run_ind cf _ (fun ls s tr => forall c e, In e (queued c tr) -> exists i x, In (OListen i x c) tr /\ ev_ref e = Some x)).
    { cbn. tauto. }
    clear ls s tr. intros ls s tr l s' os IH HR H c e Hin. rewrite queued_app in Hin. apply in_app_or in Hin. destruct Hin as [Hin|Hin].
    { destruct (IH _ _ Hin) as (i & x & A & B). exists i, x. auto using in_or_app. }
    destruct (step_chan _ _ _ _ _ c H) as [E1 Q K G NL|j ctx e1 w E -> E' _|m e1 ch _ -> El E1 Eo L E'|e1 b ch E1 Eb Q K G NL Hu E'|ch E1 Q K G NL Hu E'|E1 E' Q K NL Hu]; try (rewrite Q in Hin; contradiction).
    - destruct Hin.
    - cbn in Hin. rewrite Nat.eqb_refl in Hin. destruct Hin as [<-|[]]. pose proof (inv_users _ _ _ _ _ _ _ _ HR) as U. destruct (u_loop _ U _ _ _ El) as (x & A & B).
      pose proof (inv_chan _ _ _ _ _ _ _ _ HR c) as C. rewrite E1 in C. destruct C as (_ & (i & C) & _). unfold cid in B. rewrite E1 in B. inversion B; subst.
      exists i, (ch_id ch). auto using in_or_app.
  Qed.

  (** ** Listeners that stay *)
  Lemma good_prefix ls l : good_clock (ls ++ [l]) -> good_clock ls.
  Proof. intros H i t v Q. apply (H i t v). apply in_or_app. auto. Qed.
  Lemma handled_prefix x tr os : never_handled x (tr ++ os) -> never_handled x tr.
  Proof. intros H n i ctx sc e Q. apply (H n i ctx sc e). apply in_or_app. auto. Qed.
  (** what can remove the listener of a request *)
  Lemma unlistened ls s tr l s' os i x c : runs cf nc armed ps ctr ls s tr -> idents s tr -> step cf s l = Some (s', os) -> In (OUnlisten x) os -> In (OListen i x c) tr -> never_handled x tr ->
    gone_b c tr = false /\ gone_b c os = true.
  Proof.
    intros HR J H Hin HL NH. pose proof (inv_users _ _ _ _ _ _ _ _ HR) as U.
    assert (X : forall d ch, nth_error (e_chans s) d = Some ch -> ch_id ch = x -> d = c).
    { intros d ch Ed Ex. pose proof (inv_chan _ _ _ _ _ _ _ _ HR d) as C. rewrite Ed in C. destruct C as (_ & (j & C) & _). rewrite Ex in C. exact (proj2 (j_unique _ _ J _ _ _ _ _ C HL)). }
    destruct (unlisten_step _ _ _ _ _ _ H Hin) as (j & a & st & -> & Hj & [(d & e & k & -> & G)|[(h & oe & k & y & -> & Hy & Ey & G)|(-> & _)]]).
    - destruct (u_task _ U _ _ _ Hj eq_refl) as (ch & Ed & Et & Eo). cbn in Et. inversion Et. subst x.
      assert (d = c) by (eapply X; eauto). subst d. split; [|exact G]. pose proof (inv_chan _ _ _ _ _ _ _ _ HR c) as C. rewrite Ed in C. destruct C as (C & _). rewrite C, Eo. reflexivity.
    - destruct (u_poll _ U _ _ _ Hj eq_refl) as (y' & Hy' & Sy). assert (y' = y) by congruence. subst y'.
      destruct (u_stream _ U _ _ Hy) as (ch & Ed & Et & Eo). rewrite Sy in Eo. cbn in Eo.
      assert (st_chan y = c) by (eapply X; eauto; congruence). subst c. split; [|exact G]. pose proof (inv_chan _ _ _ _ _ _ _ _ HR (st_chan y)) as C. rewrite Ed in C. destruct C as (C & _). rewrite C, Eo. reflexivity.
    - exfalso. pose proof (inv_task _ _ _ _ _ _ _ _ HR j) as T. unfold tst in Hj. destruct (nth_error (e_tasks s) j) as [tk|]; [|discriminate]. cbn in Hj. inversion Hj as [Ej]. destruct T as [T1 T2]. rewrite Ej in T2.
      destruct T2 as (ctx & y & r & pre & z & Q & Ey & _). rewrite Q in T1. destruct T1 as (n & sc & _ & T & _). apply (NH _ _ _ _ _ T). congruence.
  Qed.
  Lemma note_kept x c os : forall r, r = Some c -> ~ In (OUnlisten x) os -> (forall j d, In (OListen j x d) os -> d = c) -> fold_left (note_listener x) os r = Some c.
  Proof.
    induction os as [|o os IH]; intros r E N1 N2; cbn [fold_left]; [exact E|]. apply IH.
    - destruct o; cbn [note_listener]; auto.
      + destruct (N.eqb_spec id x); [|exact E]. subst. f_equal. apply (N2 i). left. reflexivity.
      + destruct (N.eqb_spec id x); [|exact E]. subst. exfalso. apply N1. left. reflexivity.
    - intros Q. apply N1. right. exact Q.
    - intros j d Q. apply (N2 j). right. exact Q.
  Qed.
  (** a listener not removed by its own request stays *)
  Lemma kept_step ls s tr l s' os i x c : runs cf nc armed ps ctr ls s tr -> step cf s l = Some (s', os) -> good_clock (ls ++ [l]) -> few_events s' -> never_handled x (tr ++ os) ->
    In (OListen i x c) tr -> registered tr x = Some c -> (gone_b c tr = false /\ gone_b c os = true -> ~ In (OUnlisten x) os) -> registered (tr ++ os) x = Some c.
  Proof.
    intros HR H GC FE NH HL R G.
    assert (FE' : few_events s) by (unfold few_events in *; pose proof (step_ctr _ _ _ _ _ H); lia).
    assert (J : idents s tr) by (eapply inv_idents; eauto using good_prefix).
    assert (HR' : runs cf nc armed ps ctr (ls ++ [l]) s' (tr ++ os)).
    { unfold runs in *. rewrite run_app, HR. cbn. rewrite H, app_nil_r. reflexivity. }
    assert (J' : idents s' (tr ++ os)) by (eapply inv_idents; eauto).
    rewrite registered_app. apply note_kept; [exact R| |].
    - intros Q. destruct (unlistened _ _ _ _ _ _ _ _ _ HR J H Q HL) as [A B]; [eapply handled_prefix; eauto|]. apply G; auto.
    - intros j d Q. symmetry. apply (j_unique _ _ J' i j x c d); apply in_or_app; auto.
  Qed.
  (** C39: the listener is there as long as the receiver is *)
  Lemma stays_registered ls s tr : runs cf nc armed ps ctr ls s tr -> good_clock ls -> few_events s -> forall i x c, In (OListen i x c) tr -> never_handled x tr -> gone_b c tr = false -> registered tr x = Some c.
  Proof.
    apply (run_ind cf _ (fun ls s tr => good_clock ls -> few_events s -> forall i x c, In (OListen i x c) tr -> never_handled x tr -> gone_b c tr = false -> registered tr x = Some c)).
    { cbn. tauto. }
    clear ls s tr. intros ls s tr l s' os IH HR H GC FE i x c Hin NH G. rewrite gone_app in G. apply orb_false_iff in G. destruct G as [G1 G2].
    assert (FE' : few_events s) by (unfold few_events in *; pose proof (step_ctr _ _ _ _ _ H); lia).
    apply in_app_or in Hin. destruct Hin as [Hin|Hin].
    - eapply kept_step; eauto.
      + eapply IH; eauto using good_prefix, handled_prefix.
      + intros [_ Q]. congruence.
    - destruct (listen_step _ _ _ _ _ _ _ _ H Hin) as (a & ctx & e & w & pu & -> & A & Ex & Ec & -> & _). rewrite registered_app. cbn. rewrite N.eqb_refl. reflexivity.
  Qed.
  (** C39: nothing with the id of a request is sent before its listener is registered *)
  Lemma listens_first ls s tr : runs cf nc armed ps ctr ls s tr -> good_clock ls -> few_events s -> forall i x c a b, tr = a ++ OListen i x c :: b -> ~ In x (ended a).
  Proof.
    apply (run_ind cf _ (fun ls s tr => good_clock ls -> few_events s -> forall i x c a b, tr = a ++ OListen i x c :: b -> ~ In x (ended a))).
    { intros _ _ i x c [|? ?] b Q; discriminate. }
    clear ls s tr. intros ls s tr l s' os IH HR H GC FE i x c a b Q.
    assert (FE' : few_events s) by (unfold few_events in *; pose proof (step_ctr _ _ _ _ _ H); lia).
    destruct (app_mid _ _ _ _ _ Q) as [(m & -> & ->)|(m & -> & ->)]; [eapply IH; eauto using good_prefix|].
    assert (Hin : In (OListen i x c) (m ++ OListen i x c :: b)) by (apply in_or_app; right; left; reflexivity).
    destruct (listen_step _ _ _ _ _ _ _ _ H Hin) as (act & ctx & e & w & pu & -> & A & Ex & Ec & Eo & _).
    destruct m as [|o m]; [|destruct m; discriminate]. rewrite app_nil_r.
    assert (J : idents s tr) by (eapply inv_idents; eauto using good_prefix). apply (j_once _ _ J _ _ _ A). cbn. congruence.
  Qed.
  (** C41: unregistered listeners stay unregistered *)
  Lemma unregistered_stays ls s tr l s' os i x c : runs cf nc armed ps ctr ls s tr -> step cf s l = Some (s', os) -> good_clock (ls ++ [l]) -> few_events s' ->
    In (OListen i x c) tr -> registered tr x = None -> registered (tr ++ os) x = None.
  Proof.
    intros HR H GC FE HL R.
    assert (HR' : runs cf nc armed ps ctr (ls ++ [l]) s' (tr ++ os)).
    { unfold runs in *. rewrite run_app, HR. cbn. rewrite H, app_nil_r. reflexivity. }
    assert (J' : idents s' (tr ++ os)) by (eapply inv_idents; eauto).
    rewrite registered_app, R. assert (N : forall j d, ~ In (OListen j x d) os).
    { intros j d Q. assert (d = c) by (symmetry; apply (j_unique _ _ J' i j x c d); apply in_or_app; auto). subst d.
      destruct (listen_step _ _ _ _ _ _ _ _ H Q) as (a & ctx & e & w & pu & _ & _ & _ & Ec & _). pose proof (inv_chan _ _ _ _ _ _ _ _ HR c) as C.
      rewrite (proj2 (nth_error_None _ _)) in C by lia. destruct C as (_ & _ & _ & C). exact (C _ _ HL). }
    clear - N. induction os as [|o os IH]; cbn [fold_left]; [reflexivity|]. 
    replace (note_listener x None o) with (@None nat); [apply IH; intros j d Q; apply (N j d); right; exact Q|].
    destruct o; cbn [note_listener]; auto.
    - destruct (N.eqb_spec id x); [|reflexivity]. subst. exfalso. apply (N i c). left. reflexivity.
    - destruct (N.eqb id x); reflexivity.
  Qed.
End Replies.
