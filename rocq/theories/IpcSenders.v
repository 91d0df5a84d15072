(** Proofs about endpoints: nobody is told that there are no more replies while a receive loop holds one. *)
From Verif Require Import Base BaseFacts BuilderFacts Codec Spec Ids IdsFacts Payload Builder Emit EmitFacts Ipc SpecIpc IpcFacts IpcChanFacts IpcUsers IpcLoops IpcIds IpcTasks IpcReplies IpcStreams IpcClaims IpcMore.
From Coq Require Import ZifyBool ZifyNat ZifyN.

(** nothing can be put into channel [c] any more *)
Definition senderless (s : ep) (c : nat) : Prop :=
  (c < length (e_chans s))%nat /\ (forall rid, lookup N.eqb rid (e_lis s) <> Some c) /\ forall n e, option_map cn_loop (nth_error (e_conns s) n) <> Some (LSend c e).
Lemma no_sender s c : (c < length (e_chans s))%nat -> has_sender s c = false -> senderless s c.
Proof.
  intros L H. unfold has_sender in H. apply orb_false_iff in H. destruct H as [H1 H2]. split; [exact L|]. split.
  - intros rid E. assert (X : existsb (fun kv => Nat.eqb (snd kv) c) (e_lis s) = true); [|congruence]. clear H1. induction (e_lis s) as [|[k v] m IH]; [discriminate|].
    cbn in *. destruct (N.eqb rid k); [|rewrite IH, orb_true_r; auto]. inversion E. subst. rewrite Nat.eqb_refl. reflexivity.
  - intros n e E. destruct (nth_error (e_conns s) n) as [cn|] eqn:En; [|discriminate]. cbn in E. inversion E as [El]. apply nth_error_In in En.
    assert (X : existsb (fun cn => match cn_loop cn with LSend c' _ => Nat.eqb c' c | _ => false end) (e_conns s) = true); [|congruence].
    apply existsb_exists. exists cn. rewrite El, Nat.eqb_refl. auto.
Qed.
(** all that was received for channel [c] was handed to its reader, or lost when a loop was aborted *)
Definition all_taken (tr : list obs) (c : nat) : Prop := forall a n e b, tr = a ++ OReceived n e :: b -> listener_of a e = Some c ->
  next_about n b = Some (OAborted n) \/ In e (taken c tr).

Section Senders.
  Context (cf : config) (nc : nat) (armed : bool) (ps : list prog) (ctr : N).
  Lemma chans_grow s l s' os : step cf s l = Some (s', os) -> (length (e_chans s) <= length (e_chans s'))%nat.
  Proof.
    intros H. destruct (le_lt_dec (length (e_chans s)) (length (e_chans s'))) as [Q|Q]; [exact Q|]. exfalso.
    destruct (step_chan _ _ _ _ _ (length (e_chans s')) H) as [E1 _ _ _ _|j ctx e w E _ E' _|m e ch _ _ El E1 Eo L E'|e b ch E1 Eb _ _ _ _ Hu E'|ch E1 _ _ _ _ Hu E'|E1 E' _ _ _ Hu];
      try (rewrite (proj2 (nth_error_None _ _) (le_n _)) in E'; discriminate).
    - rewrite (proj2 (nth_error_None _ _) (le_n _)) in E1. symmetry in E1. apply nth_error_None in E1. lia.
    - apply nth_error_None in E1. lia.
  Qed.
  Lemma senderless_step ls s tr l s' os c : runs cf nc armed ps ctr ls s tr -> step cf s l = Some (s', os) -> senderless s c -> senderless s' c.
  Proof.
    intros HR H (L & A & B). pose proof (chans_grow _ _ _ _ H) as G. split; [lia|].
    assert (HR' : runs cf nc armed ps ctr (ls ++ [l]) s' (tr ++ os)).
    { unfold runs in *. rewrite run_app, HR. cbn. rewrite H, app_nil_r. reflexivity. }
    split.
    - intros rid. rewrite (inv_lis _ _ _ _ _ _ _ _ HR'), registered_app. specialize (A rid). rewrite (inv_lis _ _ _ _ _ _ _ _ HR) in A.
      assert (N : forall i d, In (OListen i rid d) os -> d <> c).
      { intros i d Q. destruct (listen_step _ _ _ _ _ _ _ _ H Q) as (? & ? & ? & ? & ? & _ & _ & _ & -> & _). lia. }
      clear - A N. revert A N. generalize (registered tr rid). induction os as [|o os IH]; intros r A N; cbn [fold_left]; [exact A|]. apply IH; [|intros i d Q; apply (N i d); right; exact Q].
      destruct o; cbn [note_listener]; auto.
      + destruct (N.eqb_spec id rid); [|exact A]. subst. intros Q. inversion Q. apply (N i c0); [left|]; congruence.
      + destruct (N.eqb id rid); [discriminate|exact A].
    - intros n e Q. destruct (step_loop _ _ _ _ _ n H) as [l N E|e' c' E0 -> E1 E2|e' E0 -> E1 Et E2|e' E0 -> E1 Et E2|c' e' ch E0 -> E1 Eo El E2|c' e' ch E0 -> E1 Eo E2|E0 -> E2|cn E0 Es -> E2];
        try congruence.
      + rewrite E in Q. exact (B _ _ Q).
      + rewrite E2 in Q. inversion Q. subst. destruct (ev_ref e) as [r|]; [|discriminate]. exact (A _ E1).
  Qed.
  Lemma all_taken_step ls s tr l s' os c : runs cf nc armed ps ctr ls s tr -> step cf s l = Some (s', os) -> senderless s c -> all_taken tr c -> all_taken (tr ++ os) c.
  Proof.
    intros HR H (_ & S & _) A a n e b Q E. rewrite taken_app. destruct (app_mid _ _ _ _ _ Q) as [(m & -> & ->)|(m & -> & ->)].
    - destruct (A _ _ _ _ eq_refl E) as [R|R]; [left|right; apply in_or_app; auto]. rewrite next_app, R. reflexivity.
    - exfalso. destruct (step_loop _ _ _ _ _ n H) as [l N E'|e' c' E0 Eq E1 E2|e' E0 Eq E1 Et E2|e' E0 Eq E1 Et E2|c' e' ch E0 Eq E1 Eo Elen E2|c' e' ch E0 Eq E1 Eo E2|E0 Eq E2|cn E0 Es Eq E2].
      { rewrite existsb_app in N. cbn in N. rewrite Nat.eqb_refl, orb_true_r in N. discriminate. }
      all: destruct m as [|o [|o2 m]]; cbn in Eq; inversion Eq; subst; try (destruct m; discriminate); rewrite app_nil_r in E; rewrite <- (lis_of _ _ _ _ _ _ _ _ _ HR) in E;
        (destruct (ev_ref e') as [r|]; [|discriminate]); exact (S _ E).
  Qed.
  (** what holds when the reader of [c] finds its queue empty and without senders *)
  Lemma senderless_taken ls s tr c ch : runs cf nc armed ps ctr ls s tr -> senderless s c -> nth_error (e_chans s) c = Some ch -> ch_open ch = true -> ch_buf ch = [] -> all_taken tr c.
  Proof.
    intros HR (_ & _ & S) E O B a n e b -> El. pose proof (all_placed _ _ _ _ _ _ _ _ HR _ _ _ _ eq_refl) as P. unfold placed in P. rewrite El in P.
    pose proof (inv_chan _ _ _ _ _ _ _ _ HR c) as C. rewrite E in C. destruct C as (C1 & _ & _ & rest & C2 & C3). rewrite (C3 O), B, app_nil_r in C2.
    destruct P as [P|[P|[P|(a1 & i & a2 & -> & P & G)]]]; [|auto| |].
    - exfalso. pose proof (inv_loop _ _ _ _ _ _ _ _ HR n) as V. destruct (option_map cn_loop (nth_error (e_conns s) n)) as [[|d y|]|] eqn:En; cbn in V.
      + rewrite (last_mid _ a (OReceived n e) b) in V; [exact V|cbn; apply Nat.eqb_refl|exact P].
      + destruct V as (a' & b' & Q & N & L). destruct (mid_unique n _ _ _ _ _ _ Q) as (-> & Qe & ->); try (cbn; apply Nat.eqb_refl); auto. inversion Qe. subst y. rewrite El in L. inversion L. subst d. exact (S _ _ En).
      + rewrite (last_mid _ a (OReceived n e) b) in V; [destruct V; discriminate|cbn; apply Nat.eqb_refl|exact P].
      + rewrite next_app in V. destruct (next_about n a); [discriminate|]. unfold next_about in V. cbn in V. rewrite Nat.eqb_refl in V. discriminate.
    - right. rewrite <- C2. unfold next_about in P. apply find_some in P. destruct P as [P _]. unfold queued. apply in_flat_map. exists (OQueued n c e).
      split; [apply in_or_app; right; right; exact P|]. cbn. rewrite Nat.eqb_refl. left. reflexivity.
    - exfalso. rewrite O in C1. assert (X : gone_b c (a ++ OReceived n e :: a1 ++ OCalled n i (mk_context n (Some (ev_id e))) None e :: a2) = true); [|rewrite X in C1; discriminate].
      unfold gone in G. unfold gone_b. apply existsb_exists. exists (OGone c). split; [|cbn; apply Nat.eqb_refl].
      apply in_app_or in G. apply in_or_app. destruct G as [G|G]; [auto|]. right. right. apply in_or_app. auto.
  Qed.

  (** *** requests *)
  Lemma send_error_step s l s' os i x : step cf s l = Some (s', os) -> In (OReply i x (Some (Err SendError))) os ->
    exists c k ch, tst s i = Some (TWait c x k) /\ os = [OGone c; OReply i x (Some (Err SendError))] /\ has_sender s c = false /\ nth_error (e_chans s) c = Some ch /\ ch_buf ch = [].
  Proof.
    intros H Hin. destruct (reply_step _ _ _ _ _ _ _ _ H Hin) as (st & a & -> & Hi & [(c & ctx & e & k & _ & _ & _ & [Q|(io & Q)])|[(c & k & -> & -> & [Q|[Q|(_ & S)]])|(c & e & k & -> & -> & Q)]]); try discriminate.
    - exists c, k. cbn [step] in H. unfold task_step in H. unfold tst in *. destruct (nth_error (e_tasks s) i) as [tk|]; [|discriminate]. cbn in Hi. inversion Hi as [Et]. rewrite Et in H.
      destruct a; try discriminate H. destruct (nth_error (e_chans s) c) as [ch|]; [|discriminate]. destruct (ch_buf ch) eqn:B; [|discriminate H].
      exists ch. cbn. rewrite Et. auto.
    - exfalso. unfold reply_result in Q. destruct (etype_eqb (ev_type e) Error); [|discriminate]. destruct (error_dec (cf_env cf) (ev_data e)) as [d|er|] eqn:D; try discriminate.
      inversion Q. subst er. destruct (error_dec_errors _ _ _ D) as [R|[z R]]; discriminate.
  Qed.
  Lemma send_errors ls s tr : runs cf nc armed ps ctr ls s tr -> forall i x, In (OReply i x (Some (Err SendError))) tr ->
    exists c, In (OListen i x c) tr /\ senderless s c /\ gone_b c tr = true /\ taken c tr = [] /\ all_taken tr c.
  Proof.
    apply (run_ind cf _ (fun ls s tr => forall i x, In (OReply i x (Some (Err SendError))) tr -> exists c, In (OListen i x c) tr /\ senderless s c /\ gone_b c tr = true /\ taken c tr = [] /\ all_taken tr c)); [cbn; tauto|].
    clear ls s tr. intros ls s tr l s' os IH HR H i x Hin. apply in_app_or in Hin. destruct Hin as [Hin|Hin].
    - destruct (IH _ _ Hin) as (c & A & B & G & C & D). exists c. split; [apply in_or_app; auto|]. split; [eapply senderless_step; eauto|]. split; [rewrite gone_app, G; reflexivity|]. split; [|eapply all_taken_step; eauto].
      rewrite taken_app, C. exact (proj2 (gone_quiet _ _ _ _ _ _ _ _ _ _ _ c HR H G)).
    - destruct (send_error_step _ _ _ _ _ _ H Hin) as (c & k & ch & Hi & -> & S & Ec & Eb). exists c.
      pose proof (inv_ask _ _ _ _ _ _ _ _ HR _ _ Hi) as [[A1 A2] A3].
      assert (NS : senderless s c) by (apply no_sender; [apply nth_error_Some; congruence|exact S]).
      destruct (u_task _ (inv_users _ _ _ _ _ _ _ _ HR) _ _ _ Hi eq_refl) as (ch' & Ec' & _ & O). assert (ch' = ch) by congruence. subst ch'.
      split; [apply in_or_app; auto|]. split; [eapply senderless_step; eauto|]. split; [rewrite gone_app; cbn; rewrite Nat.eqb_refl; apply orb_true_r|]. split; [rewrite taken_app, A3; reflexivity|].
      eapply all_taken_step; eauto. eapply senderless_taken; eauto.
  Qed.

  (** *** streams *)
  (** why a stream on channel [c] may say that there are no more items *)
  Definition settled (s : ep) (tr : list obs) (c : nat) : Prop := (exists z, In z (taken c tr) /\ ev_type z = End) \/ (senderless s c /\ all_taken tr c).
  Lemma settled_step ls s tr l s' os c : runs cf nc armed ps ctr ls s tr -> step cf s l = Some (s', os) -> settled s tr c -> settled s' (tr ++ os) c.
  Proof.
    intros HR H [(z & A & B)|[A B]]; [left|right].
    - exists z. rewrite taken_app. auto using in_or_app.
    - split; [eapply senderless_step; eauto|eapply all_taken_step; eauto].
  Qed.
  Definition settled_at (s : ep) (tr : list obs) (h : nat) : Prop := exists x, nth_error (e_streams s) h = Some x /\ settled s tr (st_chan x).
  Lemma stream_kept s l s' os h x : step cf s l = Some (s', os) -> nth_error (e_streams s) h = Some x -> exists x', nth_error (e_streams s') h = Some x' /\ st_chan x' = st_chan x.
  Proof.
    intros H E. destruct (step_stream _ _ _ _ _ h H) as [l E1 E2 E3|i a ctx e c k E1 E2 E3 E4 E5|i a y E1 E2 E3 E4|i a y k E1 E2 E3 E4 E5|i a y k ch1 e b E1 E2 E3 E4 E5 E6 E7
         |i y k E1 E2 E3 E4|i y k E1 E2 E3 E4|i a y oe k E1 E2 E3 E4|y E1 E2 E3 E4 E5]; try (assert (y = x) by congruence; subst y; eexists; split; [eassumption|reflexivity]).
    - exists x. split; congruence.
    - subst h. rewrite (proj2 (nth_error_None _ _) (le_n _)) in E. discriminate.
  Qed.
  Lemma settled_at_step ls s tr l s' os h : runs cf nc armed ps ctr ls s tr -> step cf s l = Some (s', os) -> settled_at s tr h -> settled_at s' (tr ++ os) h.
  Proof. intros HR H (x & A & B). destruct (stream_kept _ _ _ _ _ _ H A) as (x' & A' & E). exists x'. split; [exact A'|]. rewrite E. eapply settled_step; eauto. Qed.
  (** the reader gives up, or has got the End event *)
  Lemma got_end ls s tr l s' os i h oe k : runs cf nc armed ps ctr ls s tr -> step cf s l = Some (s', os) -> tst s' i = Some (TNextGot h oe k) ->
    (tst s i = Some (TNextGot h oe k)) \/ settled_at s' (tr ++ os) h.
  Proof.
    intros HR H Hi. destruct (tst_after _ _ _ _ _ _ _ H Hi) as [[Hi' Hl]|[(a & st0 & -> & H0 & Ht)|(p & Q & _)]]; [auto| |discriminate]. right.
    pose proof (inv_users _ _ _ _ _ _ _ _ HR) as U.
    cut (settled_at s' (tr ++ os) h \/ settled_at s tr h); [intros [Q|Q]; [exact Q|eapply settled_at_step; eauto]|].
    unfold tst in *. unfold task_step in Ht. destruct (nth_error (e_tasks s) i) as [tk|] eqn:Et; [|discriminate]. cbn [option_map] in H0. inversion H0 as [E0]. clear H0.
    assert (L : (i <> length (e_tasks s))%nat) by (pose proof (proj1 (nth_error_Some (e_tasks s) i)); rewrite Et in *; intuition (try congruence; try lia)).
    assert (P : forall h1 k1, st0 = TNext h1 k1 -> exists x, nth_error (e_streams s) h1 = Some x /\ st_state x = SBusy).
    { intros h1 k1 ->. apply (u_poll _ U i (TNext h1 k1)); [unfold tst; rewrite Et; cbn; congruence|reflexivity]. }
    rewrite E0 in Ht. clear E0. destruct st0 as [p|ctx e w|ctx e pu|d rid k0|d rid e k0|h1 k0|h1 oe0 k0|rid| |]; destruct a; try discriminate Ht; unfold run_prog, answer_event in Ht; cbn zeta in Ht;
      repeat (match type of Ht with context[match ?x with _ => _ end] => destruct x eqn:? end; try discriminate Ht);
      apply some_pair in Ht; destruct Ht as [<- <-]; autorewrite with ep in Hi; rewrite Nat.eqb_refl, ?(proj2 (Nat.eqb_neq _ _) L), ?Et in Hi; cbn [option_map tk_st tk_job] in Hi;
      try discriminate Hi; injection Hi as -> <- <-.
    - right. destruct (P _ _ eq_refl) as (x & Ex & Sx). assert (x = s0) by congruence. subst s0. exists x. split; [exact Ex|].
      destruct (u_stream _ U _ _ Ex) as (ch & Ec & _ & O). rewrite Sx in O. cbn in O. assert (ch = c) by congruence. subst c.
      assert (NS : senderless s (st_chan x)) by (apply no_sender; [apply nth_error_Some; congruence|assumption]).
      right. split; [exact NS|]. eapply senderless_taken; eauto.
    - left. exists s0. split; [autorewrite with ep; assumption|]. left. eexists. rewrite taken_app. split; [apply in_or_app; right; cbn; rewrite Nat.eqb_refl; left; reflexivity|]. apply etype_End. assumption.
  Qed.
  Lemma nothing_more ls s tr : runs cf nc armed ps ctr ls s tr ->
    (forall h x, nth_error (e_streams s) h = Some x -> st_state x = SEnded -> settled_at s tr h) /\
    (forall i h oe k, tst s i = Some (TNextGot h oe k) -> settled_at s tr h) /\
    (forall i h, In (OItem i h (Some None)) tr -> settled_at s tr h).
  Proof.
    apply (run_ind cf _ (fun ls s tr =>
      (forall h x, nth_error (e_streams s) h = Some x -> st_state x = SEnded -> settled_at s tr h) /\
      (forall i h oe k, tst s i = Some (TNextGot h oe k) -> settled_at s tr h) /\ (forall i h, In (OItem i h (Some None)) tr -> settled_at s tr h))).
    { split; [intros [|h] x E; discriminate|]. split; [|cbn; tauto]. intros i h oe k. unfold tst. cbn [ep_new e_tasks]. rewrite nth_error_map. destruct (nth_error ps i); discriminate. }
    clear ls s tr. intros ls s tr l s' os (I1 & I2 & I3) HR H.
    assert (SS : forall h, settled_at s tr h -> settled_at s' (tr ++ os) h) by (intros h; eapply settled_at_step; eauto).
    split; [|split].
    - intros h x Hx Ex. destruct (step_stream _ _ _ _ _ h H) as [l E1 E2 E3|i a ctx e c k E1 E2 E3 E4 E5|i a y E1 E2 E3 E4|i a y k E1 E2 E3 E4 E5|i a y k ch1 e b E1 E2 E3 E4 E5 E6 E7
         |i y k E1 E2 E3 E4|i y k E1 E2 E3 E4|i a y oe k E1 E2 E3 E4|y E1 E2 E3 E4 E5];
        try (apply SS; eauto; fail); try (match goal with E : nth_error (e_streams s') h = Some _ |- _ => rewrite E in Hx; inversion Hx; subst x; discriminate Ex end).
      + apply SS. rewrite E1 in Hx. eauto.
    - intros i h oe k Hi. destruct (got_end _ _ _ _ _ _ _ _ _ _ HR H Hi) as [Q|Q]; eauto.
    - intros i h Hin. apply in_app_or in Hin. destruct Hin as [Hin|Hin]; [eauto|].
      assert (Q : items h os <> []). { intros Q. unfold items in Q. assert (X : In (@None (outcome event)) []); [|destruct X]. rewrite <- Q. apply in_flat_map. exists (OItem i h (Some None)). split; [exact Hin|]. cbn. rewrite Nat.eqb_refl. left. reflexivity. }
      destruct (step_stream _ _ _ _ _ h H) as [l E1 E2 E3|j a ctx e c k E1 E2 E3 E4 E5|j a y E1 E2 E3 E4|j a y k E1 E2 E3 E4 E5|j a y k ch1 e b E1 E2 E3 E4 E5 E6 E7
         |j y k E1 E2 E3 E4|j y k E1 E2 E3 E4|j a y oe k E1 E2 E3 E4|y E1 E2 E3 E4 E5]; try contradiction; subst os; try (cbn [In] in Hin; intuition discriminate).
      + apply SS. eauto.
      + apply SS. eauto.
  Qed.
End Senders.
