(** Proofs about endpoints: who uses which reply channel. *)
From Verif Require Import Base BaseFacts BuilderFacts Codec Spec Ids IdsFacts Payload Builder Emit EmitFacts Ipc SpecIpc IpcFacts IpcChanFacts.
From Coq Require Import ZifyBool ZifyNat ZifyN.

Definition cid (s : ep) (c : nat) : option N := option_map ch_id (nth_error (e_chans s) c).
Definition live_stream (st : sstate) : bool := match st with SOpen | SBusy => true | _ => false end.
Lemma cid_mono cf s l s' os c x : step cf s l = Some (s', os) -> cid s c = Some x -> cid s' c = Some x.
Proof.
  intros H. unfold cid. destruct (step_chan _ _ _ _ _ c H) as [E|i ctx e w E _ E' _|n e ch _ _ _ E _ _ E'|e b ch E _ _ _ _ _ _ E'|ch E _ _ _ _ _ E'|E E'];
    try (rewrite ?E, ?E'; cbn [option_map ch_id]; auto; fail).
  intros Q. exfalso. assert (N : nth_error (e_chans s) c = None) by (apply nth_error_None; lia). rewrite N in Q. discriminate Q.
Qed.
(** open channels stay open unless a user closes them *)
Lemma open_kept cf s l s' os c ch : step cf s l = Some (s', os) -> nth_error (e_chans s) c = Some ch -> ch_open ch = true ->
  (exists ch', nth_error (e_chans s') c = Some ch' /\ ch_id ch' = ch_id ch /\ ch_open ch' = true) \/ (uses s c l /\ gone_b c os = true).
Proof.
  intros H Ec Eo. destruct (step_chan _ _ _ _ _ c H) as [E|i ctx e w E _ E' _|n e ch1 _ _ _ E _ _ E'|e b ch1 E _ _ _ _ _ _ E'|ch1 E _ _ ? ? ? E'|E E'].
  - left. exists ch. rewrite E. auto.
  - exfalso. assert (c < length (e_chans s))%nat by (apply nth_error_Some; congruence). lia.
  - left. eexists. split; [exact E'|]. cbn. split; congruence.
  - left. eexists. split; [exact E'|]. cbn. split; congruence.
  - right. auto.
  - congruence.
Qed.
Lemma closed_kept cf s l s' os c ch : step cf s l = Some (s', os) -> nth_error (e_chans s) c = Some ch -> ch_open ch = false -> ch_buf ch = [] ->
  exists ch', nth_error (e_chans s') c = Some ch' /\ ch_id ch' = ch_id ch /\ ch_open ch' = false /\ ch_buf ch' = [].
Proof.
  intros H Ec Eo Eb. destruct (step_chan _ _ _ _ _ c H) as [E|i ctx e w E _ E' _|n e ch1 _ _ _ E ? _ E'|e b ch1 E ? _ _ _ _ _ E'|ch1 E _ _ _ _ _ E'|E E'].
  - exists ch. rewrite E. auto.
  - exfalso. assert (c < length (e_chans s))%nat by (apply nth_error_Some; congruence). lia.
  - congruence.
  - congruence.
  - eexists. split; [exact E'|]. cbn. repeat split; congruence.
  - congruence.
Qed.

Record users (s : ep) : Prop := mk_users {
  u_lis : forall rid c, lookup N.eqb rid (e_lis s) = Some c -> cid s c = Some rid;
  u_loop : forall n c e, option_map cn_loop (nth_error (e_conns s) n) = Some (LSend c e) -> exists r, ev_ref e = Some r /\ cid s c = Some r;
  u_buf : forall c ch, nth_error (e_chans s) c = Some ch ->
    Forall (fun e => ev_ref e = Some (ch_id ch)) (ch_buf ch) /\ (length (ch_buf ch) <= 8)%nat /\ (ch_open ch = false -> ch_buf ch = []);
  u_task : forall i st c, tst s i = Some st -> tchan st = Some c ->
    exists ch, nth_error (e_chans s) c = Some ch /\ tid st = Some (ch_id ch) /\ ch_open ch = true;
  u_stream : forall h x, nth_error (e_streams s) h = Some x ->
    exists ch, nth_error (e_chans s) (st_chan x) = Some ch /\ ch_id ch = st_id x /\ ch_open ch = live_stream (st_state x);
  u_tt : forall i j st st' c, tst s i = Some st -> tst s j = Some st' -> tchan st = Some c -> tchan st' = Some c -> i = j;
  u_ts : forall i st c h x, tst s i = Some st -> tchan st = Some c -> nth_error (e_streams s) h = Some x -> st_chan x <> c;
  u_ss : forall h h' x x', nth_error (e_streams s) h = Some x -> nth_error (e_streams s) h' = Some x' -> st_chan x = st_chan x' -> h = h';
  u_poll : forall i st h, tst s i = Some st -> tpoll st = Some h -> exists x, nth_error (e_streams s) h = Some x /\ st_state x = SBusy;
  u_pp : forall i j st st' h, tst s i = Some st -> tst s j = Some st' -> tpoll st = Some h -> tpoll st' = Some h -> i = j;
  u_got : forall i c rid e k, tst s i = Some (TGot c rid e k) -> ev_ref e = Some rid
}.

(** tasks after a step *)
Lemma tst_after cf s l s' os i st : step cf s l = Some (s', os) -> tst s' i = Some st ->
  (tst s i = Some st /\ (forall a, l <> LTask i a)) \/ (exists a st0, l = LTask i a /\ tst s i = Some st0 /\ task_step cf s i a = Some (s', os)) \/ (exists p, st = TRun p /\ tst s i = None).
Proof.
  intros H. destruct (step_task _ _ _ _ _ i H) as [l N E|a tk st1 E1 Ht E2|l q E1 E2 E|l n sc e E1 E2 E]; unfold tst.
  - intros Hs. destruct l as [j a| | | | | |]; try (left; split; [congruence|discriminate]).
    destruct (Nat.eq_dec j i) as [->|D].
    + right; left. cbn [step] in H. exists a. destruct (task_step_self _ _ _ _ _ _ H) as (tk & st0 & A & B). exists (tk_st tk). rewrite A. auto.
    + left. split; [congruence|]. intros a' Q. congruence.
  - intros _. right; left. exists a, (tk_st tk). rewrite E1. auto.
  - rewrite E. cbn. intros Q. right; right. exists q. split; [congruence|]. replace (nth_error (e_tasks s) i) with (@None task); [reflexivity|].
    symmetry. apply nth_error_None. lia.
  - rewrite E. cbn. intros Q. right; right. eexists. split; [inversion Q; reflexivity|]. replace (nth_error (e_tasks s) i) with (@None task); [reflexivity|].
    symmetry. apply nth_error_None. lia.
Qed.

Lemma users_step cf s l s' os : users s -> step cf s l = Some (s', os) -> users s'.
Proof.
  intros U H.
  (* the users of a channel held by another task do not act *)
  assert (foreign_t : forall i st c, tst s i = Some st -> tchan st = Some c -> (forall a, l <> LTask i a) -> ~ uses s c l).
  { intros i st c Hi Hc Hl Hu. destruct Hu as [j a st' Hj Hcj|j a st' h x Hj Hp Hx Hc'|h x Hx Hc' _ _].
    - apply (Hl a). f_equal. exact (u_tt _ U _ _ _ _ _ Hj Hi Hcj Hc).
    - exact (u_ts _ U _ _ _ _ _ Hi Hc Hx Hc').
    - exact (u_ts _ U _ _ _ _ _ Hi Hc Hx Hc'). }
  assert (T : forall i st c, tst s' i = Some st -> tchan st = Some c ->
     (exists st0, tst s i = Some st0 /\ tchan st0 = Some c /\ tid st = tid st0 /\ ~ (uses s c l /\ gone_b c os = true))
     \/ (c = length (e_chans s) /\ exists ctx e w a, l = LTask i a /\ tst s i = Some (TRegister ctx e w) /\ tid st = Some (ev_id e) /\ os = [OListen i (ev_id e) c])).
  { intros i st c Hi Hc. destruct (tst_after _ _ _ _ _ _ _ H Hi) as [[Hi' Hl]|[(a & st0 & -> & H0 & Ht)|(p & -> & _)]].
    - left. exists st. repeat split; auto. intros [Hu _]. exact (foreign_t _ _ _ Hi' Hc Hl Hu).
    - destruct (task_step_chan _ _ _ _ _ _ _ _ _ Ht H0 Hi Hc) as [(A & B & G)|(A & ctx & e & w & -> & B & G)].
      + left. exists st0. repeat split; auto. intros [_ Q]. congruence.
      + right. split; [exact A|]. exists ctx, e, w, a. auto.
    - discriminate. }
  assert (C : forall c ch, nth_error (e_chans s) c = Some ch -> (c < length (e_chans s))%nat) by (intros; apply nth_error_Some; congruence).
  assert (TT : forall i j st st' c, tst s' i = Some st -> tst s' j = Some st' -> tchan st = Some c -> tchan st' = Some c -> i = j).
  { intros i j st st' c Hi Hj Hci Hcj.
    destruct (T _ _ _ Hi Hci) as [(st0 & A & B & _ & _)|(-> & ctx & e & w & a & -> & A & _)];
    destruct (T _ _ _ Hj Hcj) as [(st1 & A' & B' & _ & _)|(E & ctx' & e' & w' & a' & E' & A' & _)].
    - exact (u_tt _ U _ _ _ _ _ A A' B B').
    - destruct (u_task _ U _ _ _ A B) as (ch & D & _). specialize (C _ _ D). lia.
    - destruct (u_task _ U _ _ _ A' B') as (ch & D & _). specialize (C _ _ D). lia.
    - congruence. }
  assert (S : forall h x, nth_error (e_streams s') h = Some x ->
     (exists x0, nth_error (e_streams s) h = Some x0 /\ st_chan x = st_chan x0 /\ st_id x = st_id x0)
     \/ (h = length (e_streams s) /\ exists i a ctx e k, l = LTask i a /\ tst s i = Some (TSend ctx e (ForStream (st_chan x) k)) /\ st_id x = ev_id e /\ st_state x = SOpen
          /\ tchan (TSend ctx e (ForStream (st_chan x) k)) = Some (st_chan x) /\ gone_b (st_chan x) os = false
          /\ forall st, tst s' i = Some st -> tchan st = None)).
  { intros h x Hx.
    destruct (step_stream _ _ _ _ _ h H) as [l0 E1 E2 E3|i a ctx e c k E1 E2 E3 E4 E5|i a y E1 E2 E3 E4|i a y k E1 E2 E3 E4 E5|i a y k ch1 e b E1 E2 E3 E4 E5 E6 E7
         |i y k E1 E2 E3 E4|i y k E1 E2 E3 E4|i a y oe k E1 E2 E3 E4|y E1 E2 E3 E4 E5].
    1: left; rewrite E1 in Hx; eauto.
    1: { right. split; [assumption|]. subst os. rewrite E4 in Hx; inversion Hx; subst x; cbn [st_chan st_id st_state].
         exists i, a, ctx, e, k. repeat split; auto. intros st Q. rewrite E5 in Q. inversion Q. reflexivity. }
    all: left; eexists; split; [exact E1|]; first [rewrite E3 in Hx|rewrite E6 in Hx|rewrite E4 in Hx]; inversion Hx; subst; auto. }
  constructor.
  - intros rid c.
    assert (lookup N.eqb rid (e_lis s') = fold_left (note_listener rid) os (lookup N.eqb rid (e_lis s)) ) as ->.
    { clear - H. step_cases H; autorewrite with ep; cbn [fold_left note_listener]; try reflexivity;
      match goal with |- context[N.eqb ?a rid] => destruct (N.eqb_spec a rid) as [->|?] end;
      rewrite ?lookup_Neqb_insert_eq, ?lookup_Neqb_remove_eq, ?lookup_Neqb_insert_ne, ?lookup_Neqb_remove_ne by congruence; reflexivity. }
    intros E.
    assert (lookup N.eqb rid (e_lis s) = Some c \/ exists i, In (OListen i rid c) os) as [E1|[i E1]].
    { clear - E. revert E. generalize (lookup N.eqb rid (e_lis s)). induction os as [|o os IH]; intros a; cbn [fold_left]; [auto|].
      intros E. destruct (IH _ E) as [E1|[i E1]]; [|right; exists i; right; exact E1].
      destruct o; cbn [note_listener] in E1; auto.
      - destruct (N.eqb_spec id rid) as [->|?]; [|auto]. inversion E1; subst. right. eexists. left. reflexivity.
      - destruct (N.eqb_spec id rid); [discriminate|auto]. }
    + exact (cid_mono _ _ _ _ _ _ _ H (u_lis _ U _ _ E1)).
    + destruct (step_chan _ _ _ _ _ c H) as [? ? ? ? Q|j ctx e w -> -> E' _|n e ch1 ? -> ? ? ? ? ?|? ? ? ? ? ? ? ? Q|? ? ? ? ? Q|? ? ? ? Q]; try (exfalso; eapply Q; exact E1).
      * destruct E1 as [E1|[]]. inversion E1; subst. unfold cid. rewrite E'. reflexivity.
      * destruct E1 as [E1|[]]. discriminate.
  - intros n c e E. destruct (step_loop _ _ _ _ _ n H) as [l ? E1|e0 c0 E0 -> E1 E2| | | | | |]; try congruence.
    + destruct (u_loop _ U n c e) as (r & A & B); [congruence|]. exists r. split; [exact A|]. exact (cid_mono _ _ _ _ _ _ _ H B).
    + rewrite E2 in E. inversion E; subst. destruct (ev_ref e) as [r|]; [|discriminate]. exists r. split; [reflexivity|].
      exact (cid_mono _ _ _ _ _ _ _ H (u_lis _ U _ _ E1)).
  - intros c ch E. destruct (step_chan _ _ _ _ _ c H) as [E1|j ctx e w _ _ E' _|n e ch1 _ _ El E1 Eo L E'|e b ch1 E1 Eb _ _ _ _ _ E'|ch1 _ _ _ _ _ _ E'|E1 E'].
    + rewrite E1 in E. exact (u_buf _ U _ _ E).
    + rewrite E' in E. inversion E; subst. cbn. repeat split; auto; lia.
    + rewrite E' in E. inversion E; subst. cbn [ch_buf ch_id ch_open]. destruct (u_buf _ U _ _ E1) as (A & B & _). destruct (u_loop _ U _ _ _ El) as (r & R & Q).
      unfold cid in Q. rewrite E1 in Q. inversion Q; subst. repeat split; try discriminate; [|rewrite app_length; cbn; lia].
      apply Forall_app. split; [exact A|]. auto.
    + rewrite E' in E. inversion E; subst. cbn [ch_buf ch_id ch_open]. destruct (u_buf _ U _ _ E1) as (A & B & D). rewrite Eb in *. cbn in B. inversion A; subst.
      repeat split; [assumption|lia|]. intros Q. specialize (D Q). discriminate.
    + rewrite E' in E. inversion E; subst. cbn. repeat split; auto; lia.
    + congruence.
  - intros i st c Hi Hc. destruct (T _ _ _ Hi Hc) as [(st0 & A & B & Ti & G)|(-> & ctx & e & w & a & -> & A & Ti & Eos)].
    + destruct (u_task _ U _ _ _ A B) as (ch & E & F & O). destruct (open_kept _ _ _ _ _ _ _ H E O) as [(ch' & E' & F' & O')|Q]; [|contradiction].
      exists ch'. repeat split; auto. congruence.
    + destruct (step_chan _ _ _ _ _ (length (e_chans s)) H) as [? ? ? ? Q|j ctx' e' w' _ E0 E' _|n e' ch1 ? E0 ? ? ? ? ?|? ? ? ? ? ? ? ? Q|? ? ? ? ? Q|? ? ? ? Q];
        try (exfalso; apply (Q i (ev_id e)); rewrite Eos; left; reflexivity).
      * eexists. split; [exact E'|]. cbn. split; [|reflexivity]. rewrite Eos in E0. inversion E0; subst. congruence.
      * rewrite Eos in E0. discriminate.
  - intros h x Hx. destruct (S _ _ Hx) as [(x0 & Hx0 & Ec & Ei)|(-> & i & a & ctx & e & k & -> & Hi & Ei & Es & Hc & G & _)].
    + destruct (u_stream _ U _ _ Hx0) as (ch & Ech & Eid & Eop). rewrite Ec, Ei.
      assert (foreign : forall i st, tst s i = Some st -> (forall a, l <> LTask i a) -> tpoll st = Some h -> l <> LDropStream h -> ~ uses s (st_chan x0) l).
      { intros i st Hi Hl Hp Hd Hu. destruct Hu as [j a st' Hj Hcj|j a st' h' x' Hj Hp' Hx' Hc'|h' x' Hx' Hc' _ _].
        - exact (u_ts _ U _ _ _ _ _ Hj Hcj Hx0 eq_refl).
        - assert (h' = h) by (eapply (u_ss _ U); eauto). subst h'. apply (Hl a). f_equal. exact (u_pp _ U _ _ _ _ _ Hj Hi Hp' Hp).
        - assert (h' = h) by (eapply (u_ss _ U); eauto). subst h'. congruence. }
      assert (used : uses s (st_chan x0) l -> (exists i a st, l = LTask i a /\ tst s i = Some st /\ tpoll st = Some h) \/ (l = LDropStream h /\ st_state x0 <> SBusy /\ st_state x0 <> SDropped)).
      { intros Hu. destruct Hu as [j a st' Hj Hcj|j a st' h' x' Hj Hp' Hx' Hc'|h' x' Hx' Hc' ? ?].
        - exfalso. exact (u_ts _ U _ _ _ _ _ Hj Hcj Hx0 eq_refl).
        - assert (h' = h) by (eapply (u_ss _ U); eauto). subst h'. left. exists j, a, st'. auto.
        - assert (h' = h) by (eapply (u_ss _ U); eauto). subst h'. right. replace x0 with x' by congruence. auto. }
      destruct (step_stream _ _ _ _ _ h H) as [l0 E1 E2 E3|i a ctx e c k E1 E2 E3 E4 E5|i a y E1 E2 E3 E4|i a y k E1 E2 E3 E4 E5|i a y k ch1 e b E1 E2 E3 E4 E5 E6 E7
         |i y k E1 E2 E3 E4|i y k E1 E2 E3 E4|i a y oe k E1 E2 E3 E4|y E1 E2 E3 E4 E5].
      * (* other: the stream does not change; can its channel be closed? only by a poller, which keeps or changes the stream *)
        assert (x = x0) by congruence. subst x0. clear Ec Ei.
        destruct (ch_open ch) eqn:Eo.
        -- destruct (open_kept _ _ _ _ _ _ _ H Ech Eo) as [(ch' & A & B & D)|[Hu G]]; [exists ch'; repeat split; congruence|].
           exfalso. destruct (used Hu) as [(i & a & st & -> & Hi & Hp)|(-> & Hb & Hd)].
           ++ cbn [step] in H. clear - H Hi Hp G E1 Hx U. unfold tst in Hi. unfold task_step in H.
              destruct (nth_error (e_tasks s) i) as [tk|] eqn:Et; [|discriminate]. inversion Hi; subst st.
              destruct (u_poll _ U i (tk_st tk) h) as (y & Ey & Esy); [unfold tst; rewrite Et; reflexivity|exact Hp|].
              destruct (tk_st tk) as [p|ctx e w|ctx e pu|d rid k|d rid e k|h1 k|h1 oe k|rid| |] eqn:Es; try discriminate Hp; inversion Hp; subst h1; clear Hp.
              ** destruct a; try discriminate H.
                 --- rewrite Ey in H. destruct (nth_error (e_chans s) (st_chan y)) as [ch|]; [|discriminate]. destruct (ch_buf ch).
                     +++ destruct (has_sender s (st_chan y)); [discriminate|]. apply some_pair in H. destruct H as [<- <-]. discriminate G.
                     +++ destruct (etype_eqb (ev_type e) End); apply some_pair in H; destruct H as [<- <-]; discriminate G.
                 --- rewrite Ey in H. apply some_pair in H. destruct H as [<- <-]. rewrite E1 in Hx. autorewrite with ep in E1. rewrite Nat.eqb_refl, Ey in E1. inversion E1 as [E2].
                     destruct y; cbn in *; inversion E2; subst; discriminate.
                 --- apply some_pair in H. destruct H as [<- <-]. discriminate G.
              ** destruct a; try discriminate H. rewrite Ey in H. apply some_pair in H. destruct H as [<- <-]. autorewrite with ep in E1. rewrite Nat.eqb_refl, Ey in E1. inversion E1 as [E2].
                 destruct y; cbn in *; inversion E2; subst; discriminate.
           ++ cbn [step] in H. rewrite Hx0 in H. destruct (st_state x) eqn:Est; try congruence; apply some_pair in H; destruct H as [<- <-]; autorewrite with ep in E1;
                rewrite Nat.eqb_refl, Hx0 in E1; inversion E1 as [E4]; apply (f_equal st_state) in E4; cbn in E4; congruence.
        -- destruct (closed_kept _ _ _ _ _ _ _ H Ech Eo (proj2 (proj2 (u_buf _ U _ _ Ech)) Eo)) as (ch' & A & B & D & _). exists ch'. repeat split; congruence.
      * exfalso. subst h. assert (length (e_streams s) < length (e_streams s))%nat by (apply nth_error_Some; congruence). lia.
      * assert (y = x0) by congruence. subst y. assert (x = x0) by congruence. subst x. rewrite E2 in *. cbn in Eop.
        destruct (closed_kept _ _ _ _ _ _ _ H Ech Eop (proj2 (proj2 (u_buf _ U _ _ Ech)) Eop)) as (ch' & A & B & D & _). exists ch'. cbn [live_stream]. repeat split; congruence.
      * assert (y = x0) by congruence. subst y. rewrite E3 in Hx. inversion Hx; subst x. cbn [st_state live_stream].
        rewrite E2 in Eop. cbn in Eop. destruct (open_kept _ _ _ _ _ _ _ H Ech Eop) as [(ch' & A & B & D)|[Hu G]]; [exists ch'; repeat split; congruence|].
        subst os. discriminate.
      * assert (y = x0) by congruence. subst y. rewrite E6 in Hx. inversion Hx; subst x. cbn [st_state live_stream].
        destruct (u_poll _ U _ _ h E2 eq_refl) as (y & Ey & Esy). assert (y = x0) by congruence. subst y. rewrite Esy in Eop. cbn in Eop.
        destruct (open_kept _ _ _ _ _ _ _ H Ech Eop) as [(ch' & A & B & D)|[Hu G]]; [exists ch'; repeat split; congruence|]. subst os. discriminate.
      * assert (y = x0) by congruence. subst y. rewrite E3 in Hx. inversion Hx; subst x. cbn [st_state live_stream].
        destruct (step_chan _ _ _ _ _ (st_chan x0) H) as [? ? ? Q ?|j ctx e w ? Q ? ?|n e ch1 ? Q ? ? ? ? ?|e b ch1 ? ? ? ? Q ? ? ?|ch1 F1 ? ? ? ? ? F2|Q];
          try (subst os; unfold gone_b in Q; cbn in Q; rewrite ?Nat.eqb_refl in Q; discriminate); [|congruence].
        eexists. split; [exact F2|]. cbn. split; congruence.
      * assert (y = x0) by congruence. subst y. rewrite E3 in Hx. inversion Hx; subst x. cbn [st_state live_stream].
        destruct (u_poll _ U _ _ h E2 eq_refl) as (y & Ey & Esy). assert (y = x0) by congruence. subst y. rewrite Esy in Eop. cbn in Eop.
        destruct (open_kept _ _ _ _ _ _ _ H Ech Eop) as [(ch' & A & B & D)|[Hu G]]; [exists ch'; repeat split; congruence|]. subst os. discriminate.
      * assert (y = x0) by congruence. subst y. rewrite E3 in Hx. inversion Hx; subst x. cbn [st_state live_stream].
        destruct (step_chan _ _ _ _ _ (st_chan x0) H) as [? ? ? Q ?|j ctx e w ? Q ? ?|n e ch1 ? Q ? ? ? ? ?|e b ch1 ? ? ? ? Q ? ? ?|ch1 F1 ? ? ? ? ? F2|Q];
          try (subst os; unfold gone_b in Q; cbn in Q; rewrite ?Nat.eqb_refl in Q; discriminate); [|congruence].
        eexists. split; [exact F2|]. cbn. split; congruence.
      * assert (y = x0) by congruence. subst y. rewrite E4 in Hx. inversion Hx; subst x. cbn [st_state live_stream].
        destruct (step_chan _ _ _ _ _ (st_chan x0) H) as [? ? ? Q ?|j ctx e w ? Q ? ?|n e ch1 ? Q ? ? ? ? ?|e b ch1 ? ? ? ? Q ? ? ?|ch1 F1 ? ? ? ? ? F2|Q];
          try (subst os; unfold gone_b in Q; cbn in Q; rewrite ?Nat.eqb_refl in Q; discriminate); [|congruence].
        eexists. split; [exact F2|]. cbn. split; congruence.
    + destruct (u_task _ U _ _ _ Hi Hc) as (ch & E & F & O). destruct (open_kept _ _ _ _ _ _ _ H E O) as [(ch' & E' & F' & O')|[_ Q]]; [|congruence].
      exists ch'. rewrite Es. cbn in F. inversion F. cbn [live_stream]. repeat split; congruence.
  - exact TT.
  - intros i st c h x Hi Hc Hx Ec. destruct (S _ _ Hx) as [(x0 & Hx0 & Ec' & Ei)|(-> & j & a & ctx & e & k & -> & Hj & Ei & Es & Hcj & G & Hn)].
    + destruct (T _ _ _ Hi Hc) as [(st0 & A & B & _ & _)|(-> & _)].
      * apply (u_ts _ U _ _ _ _ _ A B Hx0). congruence.
      * destruct (u_stream _ U _ _ Hx0) as (ch & D & _). specialize (C _ _ D). lia.
    + destruct (T _ _ _ Hi Hc) as [(st0 & A & B & _ & _)|(-> & _)].
      * assert (i = j) by (eapply (u_tt _ U); eauto; congruence). subst j. rewrite (Hn _ Hi) in Hc. discriminate.
      * destruct (u_task _ U _ _ _ Hj Hcj) as (ch & D & _). specialize (C _ _ D). lia.
  - intros h h' x x' Hx Hx' E. destruct (S _ _ Hx) as [(x0 & Hx0 & Ec & Ei)|(-> & j & a & ctx & e & k & -> & Hj & Ei & Es & Hcj & G & Hn)];
    destruct (S _ _ Hx') as [(x0' & Hx0' & Ec' & Ei')|(-> & j' & a' & ctx' & e' & k' & E' & Hj' & Ei' & Es' & Hcj' & G' & Hn')].
    + eapply (u_ss _ U); eauto. congruence.
    + exfalso. apply (u_ts _ U _ _ _ _ _ Hj' Hcj' Hx0). congruence.
    + exfalso. apply (u_ts _ U _ _ _ _ _ Hj Hcj Hx0'). congruence.
    + reflexivity.
  - intros i st h Hi Hp. destruct (tst_after _ _ _ _ _ _ _ H Hi) as [[Hi' Hl]|[(a & st0 & -> & H0 & Ht)|(p & -> & _)]]; [| |discriminate].
    + destruct (u_poll _ U _ _ _ Hi' Hp) as (x & Ex & Es).
      destruct (step_stream _ _ _ _ _ h H) as [l0 E1 E2 E3|j a ctx e c k E1 E2 E3 E4 E5|j a y E1 E2 E3 E4|j a y k E1 E2 E3 E4 E5|j a y k ch1 e b E1 E2 E3 E4 E5 E6 E7
         |j y k E1 E2 E3 E4|j y k E1 E2 E3 E4|j a y oe k E1 E2 E3 E4|y E1 E2 E3 E4 E5]; try congruence.
      * exists x. split; congruence.
      * exfalso. subst h. assert (length (e_streams s) < length (e_streams s))%nat by (apply nth_error_Some; congruence). lia.
      * exfalso. apply (Hl a). f_equal. exact (u_pp _ U _ _ _ _ _ E2 Hi' eq_refl Hp).
      * exfalso. apply (Hl ATimeout). f_equal. exact (u_pp _ U _ _ _ _ _ E2 Hi' eq_refl Hp).
      * exfalso. apply (Hl ADrop). f_equal. exact (u_pp _ U _ _ _ _ _ E2 Hi' eq_refl Hp).
      * exfalso. apply (Hl a). f_equal. exact (u_pp _ U _ _ _ _ _ E2 Hi' eq_refl Hp).
    + destruct (task_step_poll _ _ _ _ _ _ _ _ _ Ht H0 Hi Hp) as [[A B]|(A & x & B & D & E)].
      * rewrite B. exact (u_poll _ U _ _ _ H0 A).
      * eexists. split; [exact E|reflexivity].
  - assert (P : forall i st h, tst s' i = Some st -> tpoll st = Some h -> (exists st0, tst s i = Some st0 /\ tpoll st0 = Some h) \/ (exists a x, l = LTask i a /\ nth_error (e_streams s) h = Some x /\ st_state x = SOpen)).
    { intros i st h Hi Hp. destruct (tst_after _ _ _ _ _ _ _ H Hi) as [[Hi' Hl]|[(a & st0 & -> & H0 & Ht)|(p & -> & _)]]; [| |discriminate].
      - left. eauto.
      - destruct (task_step_poll _ _ _ _ _ _ _ _ _ Ht H0 Hi Hp) as [[A B]|(A & x & B & D & E)]; [left; eauto|right; eauto]. }
    intros i j st st' h Hi Hj Hp Hp'. destruct (P _ _ _ Hi Hp) as [(st0 & A & B)|(a & x & -> & A & B)]; destruct (P _ _ _ Hj Hp') as [(st1 & A' & B')|(a' & x' & E' & A' & B')].
    + exact (u_pp _ U _ _ _ _ _ A A' B B').
    + destruct (u_poll _ U _ _ _ A B) as (y & Ey & Es). congruence.
    + destruct (u_poll _ U _ _ _ A' B') as (y & Ey & Es). congruence.
    + congruence.
  - intros i c rid e k Hi. destruct (tst_after _ _ _ _ _ _ _ H Hi) as [[Hi' Hl]|[(a & st0 & -> & H0 & Ht)|(p & Q & _)]]; [| |discriminate].
    + exact (u_got _ U _ _ _ _ _ Hi').
    + assert (Q : exists ch b, st0 = TWait c rid k /\ nth_error (e_chans s) c = Some ch /\ ch_buf ch = e :: b).
      { clear - Ht H0 Hi. unfold tst, task_step in *. destruct (nth_error (e_tasks s) i) as [tk|] eqn:Et; [|discriminate]. cbn in H0. inversion H0; subst st0. clear H0.
        assert (L : (i <> length (e_tasks s))%nat) by (pose proof (proj1 (nth_error_Some (e_tasks s) i)); rewrite Et in *; intuition (try congruence; try lia)).
        destruct (tk_st tk) eqn:Es; destruct a; try discriminate Ht; unfold run_prog, answer_event in Ht; cbn zeta in Ht;
        repeat (match type of Ht with context[match ?x with _ => _ end] => destruct x eqn:? end; try discriminate Ht);
        apply some_pair in Ht; destruct Ht as [<- <-]; autorewrite with ep in Hi; rewrite Nat.eqb_refl, ?(proj2 (Nat.eqb_neq _ _) L), ?Et in Hi; cbn [option_map tk_st tk_job] in Hi; try discriminate Hi.
        inversion Hi; subst. eauto. }
      destruct Q as (ch & b & -> & Ec & Eb). destruct (u_task _ U _ _ _ H0 eq_refl) as (ch' & E' & F & O). cbn in F. assert (ch' = ch) by congruence. subst ch'.
      destruct (u_buf _ U _ _ Ec) as (A & _). rewrite Eb in A. inversion A; subst. congruence.
Qed.

Lemma users_new n armed ps ctr : users (ep_new n armed ps ctr).
Proof.
  assert (T : forall i st, tst (ep_new n armed ps ctr) i = Some st -> exists p, st = TRun p).
  { intros i st. unfold tst, ep_new. cbn [e_tasks]. rewrite nth_error_map. destruct (nth_error ps i); [|discriminate]. cbn. intros E. inversion E. eauto. }
  assert (L : forall m c e, option_map cn_loop (nth_error (e_conns (ep_new n armed ps ctr)) m) <> Some (LSend c e)).
  { intros m c e. cbn [ep_new e_conns]. destruct (nth_error (repeat (mk_conn LRun armed false) n) m) as [cn|] eqn:E; [|discriminate].
    apply nth_error_In, repeat_spec in E. subst. discriminate. }
  constructor; try (intros; cbn in *; discriminate).
  - intros m c e E. destruct (L _ _ _ E).
  - intros c ch E. destruct c; discriminate.
  - intros i st c E. destruct (T _ _ E) as [p ->]. discriminate.
  - intros h x E. destruct h; discriminate.
  - intros i j st st' c E. destruct (T _ _ E) as [p ->]. discriminate.
  - intros i st c h x E. destruct (T _ _ E) as [p ->]. discriminate.
  - intros h h' x x' E. destruct h; discriminate.
  - intros i st h E. destruct (T _ _ E) as [p ->]. discriminate.
  - intros i j st st' h E. destruct (T _ _ E) as [p ->]. discriminate.
  - intros i c rid e k E. destruct (T _ _ E) as [p Q]. discriminate.
Qed.
Lemma inv_users cf n armed ps ctr ls s tr : runs cf n armed ps ctr ls s tr -> users s.
Proof.
  apply (run_ind cf _ (fun ls s tr => users s)); [apply users_new|]. intros. eapply users_step; eauto.
Qed.
Lemma uses_chan s c l : users s -> uses s c l -> exists ch, nth_error (e_chans s) c = Some ch.
Proof.
  intros U [j a st' Hj Hcj|j a st' h' x' Hj Hp' Hx' Hc'|h' x' Hx' Hc' ? ?].
  - destruct (u_task _ U _ _ _ Hj Hcj) as (ch & E & _). eauto.
  - destruct (u_stream _ U _ _ Hx') as (ch & E & _). subst. eauto.
  - destruct (u_stream _ U _ _ Hx') as (ch & E & _). subst. eauto.
Qed.

(** ** Channels and the trace *)
Lemma queued_app c tr os : queued c (tr ++ os) = queued c tr ++ queued c os.
Proof. apply flat_map_app. Qed.
Lemma taken_app c tr os : taken c (tr ++ os) = taken c tr ++ taken c os.
Proof. apply flat_map_app. Qed.
Lemma gone_app c tr os : gone_b c (tr ++ os) = gone_b c tr || gone_b c os.
Proof. apply existsb_app. Qed.
(** channel [c] of the state in terms of the trace *)
Definition chan_trace (tr : list obs) (c : nat) (o : option chan) : Prop :=
  match o with
  | None => queued c tr = [] /\ taken c tr = [] /\ gone_b c tr = false /\ forall i x, ~ In (OListen i x c) tr
  | Some ch => gone_b c tr = negb (ch_open ch) /\ (exists i, In (OListen i (ch_id ch) c) tr) /\ (forall i x, In (OListen i x c) tr -> x = ch_id ch)
      /\ exists rest, queued c tr = taken c tr ++ rest /\ (ch_open ch = true -> rest = ch_buf ch)
  end.
Lemma inv_chan cf n armed ps ctr ls s tr : runs cf n armed ps ctr ls s tr -> forall c, chan_trace tr c (nth_error (e_chans s) c).
Proof.
  apply (run_ind cf _ (fun ls s tr => forall c, chan_trace tr c (nth_error (e_chans s) c))).
  { intros c. destruct c; cbn; auto. }
  clear ls s tr. intros ls s tr l s' os IH HR H c. specialize (IH c).
  assert (U : users s) by (eapply inv_users; exact HR).
  destruct (step_chan _ _ _ _ _ c H) as [E1 Q K G NL|j ctx e w E -> E' _|m e ch _ -> El E1 Eo L E'|e b ch E1 Eb Q K G NL Hu E'|ch E1 Q K G NL Hu E'|E1 E' Q K NL Hu].
  - rewrite E1. unfold chan_trace in *. rewrite queued_app, taken_app, gone_app, Q, K, G, !app_nil_r, orb_false_r.
    destruct (nth_error (e_chans s) c) as [ch|].
    + destruct IH as (A & (i & B) & C & D). repeat split; auto.
      * exists i. apply in_or_app. auto.
      * intros i0 x Hx. apply in_app_or in Hx. destruct Hx as [Hx|Hx]; [eauto|]. destruct (NL _ _ Hx).
    + destruct IH as (A & B & C & D). repeat split; auto. intros i x Hx. apply in_app_or in Hx. destruct Hx as [Hx|Hx]; [eapply D; eauto|]. destruct (NL _ _ Hx).
  - assert (E1 : nth_error (e_chans s) c = None) by (apply nth_error_None; lia). rewrite E1 in IH. rewrite E'. cbn [chan_trace ch_open ch_id ch_buf].
    destruct IH as (A & B & C & D). rewrite queued_app, taken_app, gone_app, A, B, C. cbn. repeat split.
    + exists j. apply in_or_app. right. left. reflexivity.
    + intros i x Hx. apply in_app_or in Hx. destruct Hx as [Hx|[Hx|[]]]; [destruct (D _ _ Hx)|]. congruence.
    + exists []. auto.
  - rewrite E1 in IH. rewrite E'. cbn [chan_trace ch_open ch_id ch_buf] in *. destruct IH as (A & (i & B) & C & r & D & F).
    rewrite queued_app, taken_app, gone_app, A, Eo. unfold queued at 2, taken at 2. cbn [flat_map queued_on taken_from app negb orb]. rewrite Nat.eqb_refl, app_nil_r. repeat split.
    + exists i. apply in_or_app. auto.
    + intros i0 x Hx. apply in_app_or in Hx. destruct Hx as [Hx|[Hx|[]]]; [eauto|discriminate].
    + exists (ch_buf ch ++ [e]). split; [|auto]. rewrite ?app_nil_r, D, <- app_assoc, (F Eo). reflexivity.
  - rewrite E1 in IH. rewrite E'. cbn [chan_trace ch_open ch_id ch_buf] in *. destruct IH as (A & (i & B) & C & r & D & F).
    rewrite queued_app, taken_app, gone_app, A, Q, K, G, app_nil_r, orb_false_r. repeat split; auto.
    + exists i. apply in_or_app. auto.
    + intros i0 x Hx. apply in_app_or in Hx. destruct Hx as [Hx|Hx]; [eauto|destruct (NL _ _ Hx)].
    + destruct (ch_open ch) eqn:Eo.
      * exists b. split; [|auto]. rewrite D, (F eq_refl), Eb, <- app_assoc. reflexivity.
      * destruct (u_buf _ U _ _ E1) as (_ & _ & X). rewrite (X Eo) in Eb. discriminate.
  - rewrite E1 in IH. rewrite E'. cbn [chan_trace ch_open ch_id ch_buf] in *. destruct IH as (A & (i & B) & C & r & D & F).
    rewrite queued_app, taken_app, gone_app, A, Q, K, G, !app_nil_r, orb_true_r. repeat split; auto.
    + exists i. apply in_or_app. auto.
    + intros i0 x Hx. apply in_app_or in Hx. destruct Hx as [Hx|Hx]; [eauto|destruct (NL _ _ Hx)].
    + exists r. split; [auto|discriminate].
  - destruct (uses_chan _ _ _ U Hu) as (ch & Ech). congruence.
Qed.
