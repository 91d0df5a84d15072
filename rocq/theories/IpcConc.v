(** The receive loop and the handlers: nothing a task does keeps a loop from going on. *)
From Coq Require Import Lia.
From Verif Require Import Base BaseFacts Codec Ids Payload Builder Emit EmitFacts Ipc SpecIpc SpecConc IpcFacts IpcChanFacts IpcUsers IpcLoops.

Section Conc.
  Variable cf : config.

  Lemma receive_call s n e : match ev_ref e with Some r => lookup N.eqb r (e_lis s) | None => None end = None -> ev_type e <> End ->
    exists p, receive cf s n e = (add_task (mk_task (Some (mk_context n (Some (ev_id e)), e)) (TRun p)) s, [OReceived n e; OCalled n (length (e_tasks s)) (mk_context n (Some (ev_id e))) (scope_of cf e) e]).
  Proof.
    intros L T. unfold receive. rewrite L. destruct (etype_eqb (ev_type e) End) eqn:E; [exfalso; apply T; destruct (ev_type e); try discriminate E; reflexivity|].
    unfold scope_of. destruct (ev_ns e) as [ns|] eqn:En; [rewrite lookup_existsb; destruct (lookup bytes_eqb ns (cf_namespaces cf))|];
      unfold handle_event; rewrite ?En; eexists; reflexivity.
  Qed.

  Lemma dispatch_all es : forall s n, (exists c, nth_error (e_conns s) n = Some c /\ cn_loop c = LRun) ->
    Forall (fun e => match ev_ref e with Some r => lookup N.eqb r (e_lis s) | None => None end = None /\ ev_type e <> End) es ->
    exists s', Ipc.run cf s (map (LRecv n) es) = Some (s', dispatched cf n (length (e_tasks s)) es) /\ exists new, e_tasks s' = e_tasks s ++ new /\ length new = length es /\ Forall (fun tk => tk_job tk <> None /\ exists p, tk_st tk = TRun p) new.
  Proof.
    induction es as [|e es IH]; intros s n (c & Ec & Lc) F; [exists s; split; [reflexivity|]; exists []; rewrite app_nil_r; auto|].
    inversion F as [|? ? [L T] F']; subst. destruct (receive_call s n e L T) as (p & R).
    destruct (IH (add_task (mk_task (Some (mk_context n (Some (ev_id e)), e)) (TRun p)) s) n) as (s' & R' & new & N1 & N2 & N3); [exists c; auto | exact F'|].
    exists s'. split.
    - cbn [map Ipc.run]. cbn [step]. rewrite Ec, Lc, R, R'. cbn [dispatched app]. cbn [add_task e_tasks]. rewrite app_length. cbn [length]. rewrite Nat.add_1_r. reflexivity.
    - eexists (_ :: new). cbn [add_task e_tasks] in N1. rewrite N1, <- app_assoc. split; [reflexivity|]. split; [cbn; lia|]. constructor; [split; [discriminate | eexists; reflexivity] | exact N3].
  Qed.

  (** channels as far as a loop is concerned: not fuller than before *)
  Definition roomier (s s' : ep) : Prop :=
    (forall n, option_map cn_loop (nth_error (e_conns s') n) = option_map cn_loop (nth_error (e_conns s) n)) /\
    forall c ch, nth_error (e_chans s) c = Some ch -> exists ch', nth_error (e_chans s') c = Some ch' /\ (ch_open ch = false -> ch_open ch' = false) /\ (length (ch_buf ch') <= length (ch_buf ch))%nat.

  Lemma roomier_refl s : roomier s s.
  Proof. split; [reflexivity|]. intros c ch E. exists ch. auto. Qed.
  Lemma roomier_eq s s' : e_conns s' = e_conns s -> e_chans s' = e_chans s -> roomier s s'.
  Proof. intros A B. split; [rewrite A; reflexivity | rewrite B; intros c ch E; exists ch; auto]. Qed.
  Lemma roomier_trans a b c : roomier a b -> roomier b c -> roomier a c.
  Proof.
    intros [A1 A2] [B1 B2]. split; [intros n; rewrite B1; apply A1|]. intros i ch E. destruct (A2 _ _ E) as (ch1 & E1 & O1 & L1). destruct (B2 _ _ E1) as (ch2 & E2 & O2 & L2).
    exists ch2. split; [exact E2|]. split; [auto | lia].
  Qed.
  Lemma r_task i st s : roomier s (set_task i st s).
  Proof. unfold set_task. destruct (nth_error (e_tasks s) i); [apply roomier_eq; reflexivity | apply roomier_refl]. Qed.
  Lemma r_stream h st s : roomier s (set_stream h st s).
  Proof. unfold set_stream. destruct (nth_error (e_streams s) h); [apply roomier_eq; reflexivity | apply roomier_refl]. Qed.
  Lemma r_chan c ch ch' s : nth_error (e_chans s) c = Some ch -> (ch_open ch = false -> ch_open ch' = false) -> (length (ch_buf ch') <= length (ch_buf ch))%nat -> roomier s (set_chan c ch' s).
  Proof.
    intros E O L. split; [reflexivity|]. cbn. intros d x Ed. destruct (Nat.eq_dec c d) as [->|n].
    - rewrite (put_eq _ _ _ _ Ed). rewrite E in Ed. injection Ed as <-. eauto.
    - rewrite put_ne by auto. exists x. auto.
  Qed.
  Lemma r_close c s : roomier s (close_chan c s).
  Proof. unfold close_chan. destruct (nth_error (e_chans s) c) as [ch|] eqn:E; [|apply roomier_refl]. eapply r_chan; [exact E | auto | cbn; lia]. Qed.
  Lemma r_listen id s : roomier s (listen id s).
  Proof.
    split; [reflexivity|]. cbn. intros c ch E. exists ch. split; [|auto]. rewrite nth_error_app1; [exact E|]. apply nth_error_Some. congruence.
  Qed.
  Lemma r_conn n c c' s : nth_error (e_conns s) n = Some c -> cn_loop c' = cn_loop c -> roomier s (set_conn n c' s).
  Proof.
    intros E L. split; [|intros d x Ed; exists x; auto]. cbn. intros m. destruct (Nat.eq_dec n m) as [->|ne]; [rewrite (put_eq _ _ _ _ E), E; cbn; congruence | rewrite put_ne; auto].
  Qed.

  Ltac room := repeat first
    [ apply roomier_refl
    | eapply roomier_trans; [|apply r_task] | eapply roomier_trans; [|apply r_stream] | eapply roomier_trans; [|apply r_close] | eapply roomier_trans; [|apply r_listen]
    | apply roomier_eq; reflexivity
    | match goal with |- roomier _ (unlisten _ ?x) => eapply (roomier_trans _ x); [|apply roomier_eq; reflexivity] | |- roomier _ (next_id ?x) => eapply (roomier_trans _ x); [|apply roomier_eq; reflexivity]
        | |- roomier _ (add_task _ ?x) => eapply (roomier_trans _ x); [|apply roomier_eq; reflexivity] | |- roomier _ (add_stream _ ?x) => eapply (roomier_trans _ x); [|apply roomier_eq; reflexivity]
        | E : nth_error (e_chans ?s) ?c = Some _ |- roomier ?s (set_chan ?c _ ?s) => eapply r_chan; [exact E | cbn; auto | cbn; lia]
        | E : nth_error (e_conns ?s) ?c = Some _ |- roomier ?s (set_conn ?c _ ?s) => eapply r_conn; [exact E | reflexivity] end ].

  Lemma task_roomier s i a s' os : task_step cf s i a = Some (s', os) -> roomier s s'.
  Proof.
    unfold task_step. destruct (nth_error (e_tasks s) i) as [tk|] eqn:Et; [|discriminate].
    destruct (tk_st tk) as [p|ctx e w|ctx e pu|c id k|c id e k|h k|h oe k|id| |], a as [t v|io| |]; try discriminate.
    all: try (destruct pu as [k|c k|c k|ok]; try discriminate).
    all: try (intros H; injection H as <- <-; room; fail).
    - unfold run_prog. destruct p as [r| |rq k|rq k|rq k|h k|n k|k|q k].
      + destruct (tk_job tk) as [[ctx x]|]; [destruct (answer_event cf ctx _ r); try discriminate|]; intros H; injection H as <- <-; room.
      + intros H; injection H as <- <-; room.
      + destruct (rq_payload rq); intros H; injection H as <- <-; room.
      + destruct (rq_payload rq); intros H; injection H as <- <-; room.
      + destruct (rq_payload rq); intros H; injection H as <- <-; room.
      + destruct (nth_error (e_streams s) h) as [x|]; [|discriminate]. destruct (st_state x); try discriminate; intros H; injection H as <- <-; room.
      + destruct (nth_error (e_conns s) n) as [c|] eqn:Ec; [|discriminate]. destruct (cn_armed c); intros H; injection H as <- <-; room.
      + intros H; injection H as <- <-; room.
      + intros H; injection H as <- <-; room.
    - destruct (nth_error (e_chans s) c) as [ch|] eqn:Ec; [|discriminate]. destruct (ch_buf ch) as [|e b] eqn:Eb.
      + destruct (has_sender s c); [discriminate|]. intros H; injection H as <- <-; room.
      + intros H; injection H as <- <-. eapply roomier_trans; [|apply r_task]. eapply r_chan; [exact Ec | cbn; auto | cbn; rewrite Eb; cbn; lia].
    - destruct (reply_result (cf_env cf) e); intros H; injection H as <- <-; room.
    - destruct (nth_error (e_streams s) h) as [x|]; [|discriminate]. destruct (nth_error (e_chans s) (st_chan x)) as [ch|] eqn:Ec; [|discriminate]. destruct (ch_buf ch) as [|e b] eqn:Eb.
      + destruct (has_sender s (st_chan x)); [discriminate|]. intros H; injection H as <- <-; room.
      + assert (R : roomier s (set_chan (st_chan x) (mk_chan (ch_id ch) b (ch_open ch)) s)) by (eapply r_chan; [exact Ec | cbn; auto | cbn; rewrite Eb; cbn; lia]).
        destruct (etype_eqb (ev_type e) End); intros H; injection H as <- <-; (eapply roomier_trans; [exact R|]); room.
    - destruct (nth_error (e_streams s) h) as [x|]; [|discriminate]. intros H; injection H as <- <-; room.
    - destruct (nth_error (e_streams s) h) as [x|]; [|discriminate]. intros H; injection H as <- <-; room.
  Qed.

  Lemma roomier_loop s s' l : roomier s s' -> by_loop l -> step cf s l <> None -> step cf s' l <> None.
  Proof.
    intros [R1 R2] B. destruct l as [i a|n e|n|n|n|h|]; try (destruct B; fail); cbn [step]; specialize (R1 n).
    all: destruct (nth_error (e_conns s) n) as [c|] eqn:Ec; [|congruence]; destruct (nth_error (e_conns s') n) as [c'|] eqn:Ec'; [|discriminate R1]; cbn in R1; injection R1 as R1; rewrite R1.
    - destruct (cn_loop c); congruence.
    - destruct (cn_loop c) as [|d e|]; try congruence. unfold place. destruct (nth_error (e_chans s) d) as [ch|] eqn:Ed; [|congruence].
      destruct (R2 _ _ Ed) as (ch' & Ed' & O & L). rewrite Ed'. destruct (ch_open ch) eqn:Oc.
      + destruct (Nat.ltb_spec (length (ch_buf ch)) 8); [|congruence]. intros _. destruct (ch_open ch'); [|discriminate]. destruct (Nat.ltb_spec (length (ch_buf ch')) 8); [discriminate | lia].
      + rewrite (O eq_refl). discriminate.
    - destruct (cn_loop c); congruence.
  Qed.

  Lemma tasks_never_block s i a s' os l : step cf s (LTask i a) = Some (s', os) -> by_loop l -> step cf s l <> None -> step cf s' l <> None.
  Proof. intros H. apply roomier_loop. eapply task_roomier; eauto. Qed.

  (** ** Panics *)
  Definition panic_state (s : ep) (i : nat) (s' : ep) : Prop :=
    s' = set_task i TDead s \/ exists c id e k, tst s i = Some (TGot c id e k) /\ s' = set_task i TDead (close_chan c (unlisten id s)).

  Lemma panic_is s i a s' os : step cf s (LTask i a) = Some (s', os) -> In (OPanicked i) os -> panic_state s i s'.
  Proof.
    cbn [step]. unfold task_step, panic_state, tst. destruct (nth_error (e_tasks s) i) as [tk|] eqn:Et; [|discriminate].
    destruct (tk_st tk) as [p|ctx e w|ctx e pu|c id k|c id e k|h k|h oe k|id| |] eqn:Es, a as [t v|io| |]; try discriminate.
    all: try (destruct pu as [k|c k|c k|ok]; try discriminate).
    all: try (intros H; injection H as <- <-; cbn [In]; intros Q; exfalso; repeat (destruct Q as [Q|Q]; [discriminate Q|]); destruct Q; fail).
    all: cbn [option_map].
    - unfold run_prog. destruct p as [r| |rq k|rq k|rq k|h k|n k|k|q k].
      + destruct (tk_job tk) as [[ctx x]|]; [destruct (answer_event cf ctx _ r); try discriminate|]; intros H; injection H as <- <-; intros [Q|[]]; discriminate Q.
      + intros H; injection H as <- <-; auto.
      + destruct (rq_payload rq); intros H; injection H as <- <-; auto; intros [].
      + destruct (rq_payload rq); intros H; injection H as <- <-; auto; intros [].
      + destruct (rq_payload rq); intros H; injection H as <- <-; auto; intros [].
      + destruct (nth_error (e_streams s) h) as [x|]; [|discriminate]. destruct (st_state x); try discriminate; intros H; injection H as <- <-; auto; intros Q; exfalso; cbn in Q; intuition discriminate.
      + destruct (nth_error (e_conns s) n) as [c|] eqn:Ec; [|discriminate]. destruct (cn_armed c); intros H; injection H as <- <-; intros [Q|[]]; discriminate Q.
      + intros H; injection H as <- <-; intros [].
      + intros H; injection H as <- <-; intros [].
    - destruct (nth_error (e_chans s) c) as [ch|] eqn:Ec; [|discriminate]. destruct (ch_buf ch) as [|e b] eqn:Eb.
      + destruct (has_sender s c); [discriminate|]. intros H; injection H as <- <-; cbn; intuition discriminate.
      + intros H; injection H as <- <-; cbn; intuition discriminate.
    - destruct (reply_result (cf_env cf) e); intros H; injection H as <- <-; intros Q; try (exfalso; cbn in Q; intuition discriminate). right. rewrite Es. do 4 eexists. split; reflexivity.
    - destruct (nth_error (e_streams s) h) as [x|]; [|discriminate]. destruct (nth_error (e_chans s) (st_chan x)) as [ch|] eqn:Ec; [|discriminate]. destruct (ch_buf ch) as [|e b] eqn:Eb.
      + destruct (has_sender s (st_chan x)); [discriminate|]. intros H; injection H as <- <-; cbn; intuition discriminate.
      + destruct (etype_eqb (ev_type e) End); intros H; injection H as <- <-; cbn; intuition discriminate.
    - destruct (nth_error (e_streams s) h) as [x|]; [|discriminate]. intros H; injection H as <- <-; cbn; intuition discriminate.
    - destruct (nth_error (e_streams s) h) as [x|]; [|discriminate]. intros H; injection H as <- <-; cbn; intuition discriminate.
  Qed.

  Lemma sender_less s s' c : e_conns s' = e_conns s -> (forall x, In x (e_lis s') -> In x (e_lis s)) -> has_sender s' c = true -> has_sender s c = true.
  Proof.
    intros E1 E2. unfold has_sender. rewrite E1. intros H. apply orb_true_iff in H. apply orb_true_iff. destruct H as [H|H]; [left|auto].
    apply existsb_exists in H. destruct H as (x & H & Q). apply existsb_exists. exists x. auto.
  Qed.

  Lemma panics_contained s i a s' os : users s -> step cf s (LTask i a) = Some (s', os) -> In (OPanicked i) os ->
    e_conns s' = e_conns s /\ e_streams s' = e_streams s /\ (forall j, j <> i -> nth_error (e_tasks s') j = nth_error (e_tasks s) j) /\
    forall l, (forall b, l <> LTask i b) -> step cf s l <> None -> step cf s' l <> None.
  Proof.
    intros U H P. pose proof (panic_is _ _ _ _ _ H P) as D.
    assert (B : (forall l, by_loop l -> step cf s l <> None -> step cf s' l <> None)) by (intros; eapply tasks_never_block; eauto).
    assert (F : e_conns s' = e_conns s /\ e_streams s' = e_streams s /\ (forall j, j <> i -> nth_error (e_tasks s') j = nth_error (e_tasks s) j) /\
      e_ctr s' = e_ctr s /\ (forall x, In x (e_lis s') -> In x (e_lis s)) /\
      forall c, (exists j st, j <> i /\ tst s j = Some st /\ tchan st = Some c) \/ (exists h x, nth_error (e_streams s) h = Some x /\ st_chan x = c) -> nth_error (e_chans s') c = nth_error (e_chans s) c).
    { assert (T : forall s0, e_tasks s0 = e_tasks s -> forall j, j <> i -> nth_error (e_tasks (set_task i TDead s0)) j = nth_error (e_tasks s) j).
      { intros s0 E0 j Nj. unfold set_task. destruct (nth_error (e_tasks s0) i); [|congruence]. cbn. rewrite put_ne by auto. congruence. }
      destruct D as [->|(c & id & e & k & Es & ->)].
      - repeat (split; [first [apply T; reflexivity | unfold set_task; destruct (nth_error (e_tasks s) i); reflexivity | unfold set_task; destruct (nth_error (e_tasks s) i); auto]|]).
        intros; unfold set_task; destruct (nth_error (e_tasks s) i); reflexivity.
      - assert (C : forall f : ep -> Prop, (forall ch, f (set_task i TDead (set_chan c ch (unlisten id s)))) -> f (set_task i TDead (unlisten id s)) -> f (set_task i TDead (close_chan c (unlisten id s)))).
        { intros f X Y. unfold close_chan. destruct (nth_error (e_chans (unlisten id s)) c); auto. }
        assert (L : forall x, In x (e_lis (unlisten id s)) -> In x (e_lis s)) by (cbn; intros x; unfold remove; intros I; apply filter_In in I; apply I).
        pattern (set_task i TDead (close_chan c (unlisten id s))). apply C; [intros ch|].
        + repeat (split; [first [apply T; reflexivity | unfold set_task; cbn [e_tasks set_chan unlisten]; destruct (nth_error (e_tasks s) i); first [reflexivity | exact L]]|]).
          intros d Hd. assert (Nd : c <> d).
          { intros <-. destruct Hd as [(j & st & Nj & Ej & Cj)|(h & x & Eh & Ch)].
            - apply Nj. eapply (u_tt _ U); [exact Ej | exact Es | exact Cj | reflexivity].
            - eapply (u_ts _ U); [exact Es | reflexivity | exact Eh | exact Ch]. }
          unfold set_task; cbn [e_tasks set_chan unlisten]; destruct (nth_error (e_tasks s) i); cbn; apply put_ne; auto.
        + repeat (split; [first [apply T; reflexivity | unfold set_task; cbn [e_tasks set_chan unlisten]; destruct (nth_error (e_tasks s) i); first [reflexivity | exact L]]|]).
          intros. unfold set_task; cbn [e_tasks set_chan unlisten]; destruct (nth_error (e_tasks s) i); reflexivity. }
    destruct F as (F1 & F2 & F3 & F4 & F5 & F6). split; [exact F1|]. split; [exact F2|]. split; [exact F3|].
    intros l Nl. destruct l as [j b|n e|n|n|n|h|]; try (apply B; exact Logic.I).
    - assert (Nj : j <> i) by (intros ->; eapply Nl; reflexivity). cbn [step]. unfold task_step. rewrite (F3 _ Nj), F2.
      destruct (nth_error (e_tasks s) j) as [tk|] eqn:Ej; [|auto]. assert (Tj : tst s j = Some (tk_st tk)) by (unfold tst; rewrite Ej; reflexivity).
      destruct (tk_st tk) as [p|ctx e w|ctx e pu|c id k|c id e k|h k|h oe k|id| |] eqn:Es, b as [t v|io| |]; try congruence.
      all: try (destruct pu as [k|c k|c k|ok]; congruence).
      + unfold run_prog. rewrite F1, F2, F4. destruct p as [r| |rq k|rq k|rq k|h k|n k|k|q k]; try congruence.
        * destruct (tk_job tk) as [[ctx x]|]; [destruct (answer_event cf ctx _ r)|]; congruence.
        * destruct (rq_payload rq); congruence.
        * destruct (rq_payload rq); congruence.
        * destruct (rq_payload rq); congruence.
        * destruct (nth_error (e_streams s) h) as [x|]; [|congruence]. destruct (st_state x); congruence.
        * destruct (nth_error (e_conns s) n) as [c|]; [|congruence]. destruct (cn_armed c); congruence.
      + rewrite (F6 c) by (left; exists j, (TWait c id k); auto). destruct (nth_error (e_chans s) c) as [ch|]; [|congruence]. destruct (ch_buf ch); [|congruence].
        destruct (has_sender s c) eqn:H1; [congruence|]. destruct (has_sender s' c) eqn:H2; [|congruence]. rewrite (sender_less _ _ _ F1 F5 H2) in H1. discriminate.
      + destruct (reply_result (cf_env cf) e); congruence.
      + destruct (nth_error (e_streams s) h) as [x|] eqn:Ex; [|congruence]. rewrite (F6 (st_chan x)) by (right; eauto). destruct (nth_error (e_chans s) (st_chan x)) as [ch|]; [|congruence]. destruct (ch_buf ch); [|destruct (etype_eqb (ev_type e) End); congruence].
        destruct (has_sender s (st_chan x)) eqn:H1; [congruence|]. destruct (has_sender s' (st_chan x)) eqn:H2; [|congruence]. rewrite (sender_less _ _ _ F1 F5 H2) in H1. discriminate.
      + destruct (nth_error (e_streams s) h); congruence.
      + destruct (nth_error (e_streams s) h); congruence.
    - cbn [step]. rewrite F1. destruct (nth_error (e_conns s) n) as [c|]; [|congruence]. destruct (cn_signal c); congruence.
    - cbn [step]. rewrite F2. destruct (nth_error (e_streams s) h) as [x|]; [|congruence]. destruct (st_state x); congruence.
    - cbn [step]. congruence.
  Qed.
End Conc.
