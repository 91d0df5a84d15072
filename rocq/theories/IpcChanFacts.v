(** Proofs about endpoints: reply channels, their users and the listener table. *)
From Verif Require Import Base BaseFacts BuilderFacts Codec Spec Ids IdsFacts Payload Builder Emit EmitFacts Ipc SpecIpc IpcFacts.
From Coq Require Import ZifyBool ZifyNat ZifyN.

Definition gone_b (c : nat) (tr : list obs) : bool := existsb (fun o => match o with OGone d => Nat.eqb d c | _ => false end) tr.
Lemma gone_iff c tr : gone tr c <-> gone_b c tr = true.
Proof.
  unfold gone, gone_b. rewrite existsb_exists. split.
  - intros H. exists (OGone c). split; [exact H|apply Nat.eqb_refl].
  - intros (o & H & E). destruct o; try discriminate. apply Nat.eqb_eq in E. subst. exact H.
Qed.

(** ** Users of channels *)
(** the channel a task holds the receiver of, the request it belongs to, the stream it polls *)
Definition tchan (st : tstate) : option nat :=
  match st with TSend _ _ (ForAwait c _) | TSend _ _ (ForStream c _) | TWait c _ _ | TGot c _ _ _ => Some c | _ => None end.
Definition tid (st : tstate) : option N :=
  match st with TSend _ e (ForAwait _ _) | TSend _ e (ForStream _ _) => Some (ev_id e) | TWait _ x _ | TGot _ x _ _ => Some x | _ => None end.
Definition tpoll (st : tstate) : option nat := match st with TNext h _ | TNextGot h _ _ => Some h | _ => None end.
Definition tst (s : ep) (i : nat) : option tstate := option_map tk_st (nth_error (e_tasks s) i).
(** the step [l] is one of a user of channel [c] *)
Inductive uses (s : ep) (c : nat) : label -> Prop :=
| us_task i a st : tst s i = Some st -> tchan st = Some c -> uses s c (LTask i a)
| us_poll i a st h x : tst s i = Some st -> tpoll st = Some h -> nth_error (e_streams s) h = Some x -> st_chan x = c -> uses s c (LTask i a)
| us_drop h x : nth_error (e_streams s) h = Some x -> st_chan x = c -> st_state x <> SBusy -> st_state x <> SDropped -> uses s c (LDropStream h).

(** ** What a step does to channel [c] *)
Inductive chan_view (cf : config) (s : ep) (c : nat) (s' : ep) (os : list obs) (l : label) : Prop :=
| cv_other : nth_error (e_chans s') c = nth_error (e_chans s) c -> queued c os = [] -> taken c os = [] -> gone_b c os = false ->
    (forall i rid, ~ In (OListen i rid c) os) -> chan_view cf s c s' os l
| cv_new i ctx e w : c = length (e_chans s) -> os = [OListen i (ev_id e) c] -> nth_error (e_chans s') c = Some (mk_chan (ev_id e) [] true) ->
    tst s i = Some (TRegister ctx e w) -> chan_view cf s c s' os l
| cv_queue n e ch : l = LPlace n -> os = [OQueued n c e] -> option_map cn_loop (nth_error (e_conns s) n) = Some (LSend c e) ->
    nth_error (e_chans s) c = Some ch -> ch_open ch = true -> (length (ch_buf ch) < 8)%nat ->
    nth_error (e_chans s') c = Some (mk_chan (ch_id ch) (ch_buf ch ++ [e]) true) -> chan_view cf s c s' os l
| cv_take e b ch : nth_error (e_chans s) c = Some ch -> ch_buf ch = e :: b -> queued c os = [] -> taken c os = [e] -> gone_b c os = false ->
    (forall i rid, ~ In (OListen i rid c) os) -> uses s c l ->
    nth_error (e_chans s') c = Some (mk_chan (ch_id ch) b (ch_open ch)) -> chan_view cf s c s' os l
| cv_close ch : nth_error (e_chans s) c = Some ch -> queued c os = [] -> taken c os = [] -> gone_b c os = true ->
    (forall i rid, ~ In (OListen i rid c) os) -> uses s c l ->
    nth_error (e_chans s') c = Some (mk_chan (ch_id ch) [] false) -> chan_view cf s c s' os l
| cv_close_none : nth_error (e_chans s) c = None -> nth_error (e_chans s') c = None -> queued c os = [] -> taken c os = [] ->
    (forall i rid, ~ In (OListen i rid c) os) -> uses s c l -> chan_view cf s c s' os l.

Ltac nolisten := let Q := fresh in intros ? ? Q; cbn [In] in Q; intuition discriminate.
Ltac user :=
  match goal with
  | |- uses _ _ (LTask _ _) =>
      first [ eapply us_task; [unfold tst; match goal with H : nth_error (e_tasks _) _ = Some _ |- _ => rewrite H end; cbn [option_map]; match goal with H : tk_st _ = _ |- _ => rewrite H end; reflexivity|reflexivity]
            | eapply us_poll; [unfold tst; match goal with H : nth_error (e_tasks _) _ = Some _ |- _ => rewrite H end; cbn [option_map]; match goal with H : tk_st _ = _ |- _ => rewrite H end; reflexivity|reflexivity|eassumption|assumption || reflexivity] ]
  | |- uses _ _ (LDropStream _) => eapply us_drop; [eassumption|assumption || reflexivity|congruence|congruence]
  end.
Ltac chansimp := autorewrite with ep; unfold queued, taken, gone_b; cbn [flat_map queued_on taken_from existsb app orb].
(** steps that drop the receiver of [d] and do nothing else to channels *)
Ltac closing s c d :=
  let N := fresh in let E := fresh in
  destruct (Nat.eq_dec d c) as [N|N];
  [ rewrite N in *; destruct (nth_error (e_chans s) c) as [?|] eqn:E;
    [ eapply cv_close; [exact E|..] | eapply cv_close_none; [exact E|..] ]; chansimp; rewrite ?Nat.eqb_refl, ?E; try reflexivity; try nolisten; try user
  | apply cv_other; chansimp; rewrite ?(proj2 (Nat.eqb_neq d c) N), ?(proj2 (Nat.eqb_neq c d) (not_eq_sym N)); try reflexivity; try nolisten ].
Lemma step_chan cf s l s' os c : step cf s l = Some (s', os) -> chan_view cf s c s' os l.
Proof.
  intros H. destruct l as [i a|m e|m|m|m|h|].
  - cbn [step] in H. unfold task_step in H. destruct (nth_error (e_tasks s) i) as [tk|] eqn:Et; [|discriminate].
    destruct (tk_st tk) as [p|ctx e w|ctx e pu|d rid k|d rid e k|h k|h oe k|rid| |] eqn:Es; destruct a; try discriminate H.
    + apply cv_other; unfold run_prog, answer_event in H; cbn zeta in H;
        repeat (match type of H with context[match ?x with _ => _ end] => destruct x eqn:? end; try discriminate H);
        apply some_pair in H; destruct H as [<- <-]; autorewrite with ep; try reflexivity; try nolisten.
    + apply some_pair in H; destruct H as [<- <-]. destruct (Nat.eq_dec c (length (e_chans s))) as [->|N].
      * eapply cv_new; [reflexivity|reflexivity| |unfold tst; rewrite Et; cbn; rewrite Es; reflexivity]. autorewrite with ep. rewrite Nat.eqb_refl. reflexivity.
      * apply cv_other; try reflexivity. { autorewrite with ep. rewrite (proj2 (Nat.eqb_neq _ _) N). reflexivity. }
        intros j rid [Q|[]]. congruence.
    + apply cv_other; step_cases H; autorewrite with ep; try reflexivity; try nolisten.
    + destruct pu as [k1|d k1|d k1|ok]; apply some_pair in H; destruct H as [<- <-]; try closing s c d; apply cv_other; chansimp; try reflexivity; try nolisten.
    + destruct pu as [k1|d k1|d k1|ok]; try discriminate H; apply some_pair in H; destruct H as [<- <-]; try closing s c d; apply cv_other; chansimp; try reflexivity; try nolisten.
    + destruct (nth_error (e_chans s) d) as [ch|] eqn:Ed; [|discriminate].
      destruct (ch_buf ch) as [|e b] eqn:Eb.
      * destruct (has_sender s d); [discriminate|]. apply some_pair in H; destruct H as [<- <-]. closing s c d.
      * apply some_pair in H; destruct H as [<- <-]. destruct (Nat.eq_dec d c) as [->|N].
        -- eapply cv_take; eauto; chansimp; rewrite ?Nat.eqb_refl, ?Ed; try reflexivity; try nolisten; try user.
        -- apply cv_other; chansimp; rewrite ?(proj2 (Nat.eqb_neq d c) N), ?(proj2 (Nat.eqb_neq c d) (not_eq_sym N)); try reflexivity; try nolisten.
    + apply some_pair in H; destruct H as [<- <-]. closing s c d.
    + apply some_pair in H; destruct H as [<- <-]. closing s c d.
    + destruct (reply_result (cf_env cf) e); apply some_pair in H; destruct H as [<- <-]; closing s c d.
    + destruct (nth_error (e_streams s) h) as [x|] eqn:Ex; [|discriminate].
      destruct (nth_error (e_chans s) (st_chan x)) as [ch|] eqn:Ed; [|discriminate].
      destruct (ch_buf ch) as [|e b] eqn:Eb.
      * destruct (has_sender s (st_chan x)); [discriminate|]. apply some_pair in H; destruct H as [<- <-].
        apply cv_other; chansimp; try reflexivity; try nolisten.
      * destruct (etype_eqb (ev_type e) End); apply some_pair in H; destruct H as [<- <-]; (destruct (Nat.eq_dec (st_chan x) c) as [E|N];
        [rewrite E in *; eapply cv_take; eauto; chansimp; rewrite ?Nat.eqb_refl, ?Ed; try reflexivity; try nolisten; try user
        |apply cv_other; chansimp; rewrite ?(proj2 (Nat.eqb_neq _ c) N), ?(proj2 (Nat.eqb_neq c _) (not_eq_sym N)); try reflexivity; try nolisten]).
    + destruct (nth_error (e_streams s) h) as [x|] eqn:Ex; [|discriminate]. apply some_pair in H; destruct H as [<- <-]. closing s c (st_chan x).
    + apply some_pair in H; destruct H as [<- <-]. apply cv_other; chansimp; try reflexivity; try nolisten.
    + destruct (nth_error (e_streams s) h) as [x|] eqn:Ex; [|discriminate]. apply some_pair in H; destruct H as [<- <-]. closing s c (st_chan x).
    + apply some_pair in H; destruct H as [<- <-]. apply cv_other; chansimp; try reflexivity; try nolisten.
  - apply cv_other; step_cases H; autorewrite with ep; try reflexivity; try nolisten.
  - cbn [step] in H. destruct (nth_error (e_conns s) m) as [cn|] eqn:Ec; [|discriminate]. destruct (cn_loop cn) as [|d e|] eqn:El; try discriminate.
    unfold place in H. destruct (nth_error (e_chans s) d) as [ch|] eqn:Ed; [|discriminate].
    destruct (ch_open ch) eqn:Eo.
    + destruct (Nat.ltb_spec (length (ch_buf ch)) 8); [|discriminate]. apply some_pair in H; destruct H as [<- <-].
      destruct (Nat.eq_dec d c) as [->|N].
      * eapply cv_queue; eauto; [rewrite Ec; cbn; congruence|]. autorewrite with ep. rewrite Nat.eqb_refl, Ed. reflexivity.
      * apply cv_other; chansimp; rewrite ?(proj2 (Nat.eqb_neq d c) N), ?(proj2 (Nat.eqb_neq c d) (not_eq_sym N)); try reflexivity; try nolisten.
    + unfold handle_event in H. apply some_pair in H; destruct H as [<- <-]. apply cv_other; chansimp; try reflexivity; try nolisten.
  - apply cv_other; step_cases H; autorewrite with ep; try reflexivity; try nolisten.
  - apply cv_other; step_cases H; autorewrite with ep; try reflexivity; try nolisten.
  - cbn [step] in H. destruct (nth_error (e_streams s) h) as [x|] eqn:Ex; [|discriminate].
    destruct (st_state x) eqn:?; try discriminate; apply some_pair in H; destruct H as [<- <-]; closing s c (st_chan x).
  - apply cv_other; step_cases H; autorewrite with ep; try reflexivity; try nolisten.
Qed.

(** ** What a step does to stream [h] *)
Inductive stream_view (cf : config) (s : ep) (h : nat) (s' : ep) (os : list obs) : label -> Prop :=
| sv_other l : nth_error (e_streams s') h = nth_error (e_streams s) h -> items h os = [] -> (forall i x c, ~ In (OOpened i h x c) os) ->
    stream_view cf s h s' os l
| sv_open i a ctx e c k : h = length (e_streams s) -> tst s i = Some (TSend ctx e (ForStream c k)) -> os = [OSent i ctx e; OOpened i h (ev_id e) c] ->
    nth_error (e_streams s') h = Some (mk_rstream (ev_id e) c SOpen) -> tst s' i = Some (TRun (k (Some (Ok h)))) -> stream_view cf s h s' os (LTask i a)
| sv_ended i a x : nth_error (e_streams s) h = Some x -> st_state x = SEnded -> nth_error (e_streams s') h = Some x -> os = [OItem i h (Some None)] ->
    stream_view cf s h s' os (LTask i a)
| sv_poll i a x k : nth_error (e_streams s) h = Some x -> st_state x = SOpen -> nth_error (e_streams s') h = Some (mk_rstream (st_id x) (st_chan x) SBusy) ->
    os = [] -> tst s' i = Some (TNext h k) -> stream_view cf s h s' os (LTask i a)
| sv_item i a x k ch e b : nth_error (e_streams s) h = Some x -> tst s i = Some (TNext h k) -> nth_error (e_chans s) (st_chan x) = Some ch ->
    ch_buf ch = e :: b -> ev_type e <> End -> nth_error (e_streams s') h = Some (mk_rstream (st_id x) (st_chan x) SOpen) ->
    os = [OTaken (st_chan x) e; OItem i h (Some (Some (Ok e)))] -> stream_view cf s h s' os (LTask i a)
| sv_timeout i x k : nth_error (e_streams s) h = Some x -> tst s i = Some (TNext h k) ->
    nth_error (e_streams s') h = Some (mk_rstream (st_id x) (st_chan x) SPoisoned) ->
    os = [OGone (st_chan x); OItem i h (Some (Some (Err Timeout)))] -> stream_view cf s h s' os (LTask i ATimeout)
| sv_release i x k : nth_error (e_streams s) h = Some x -> tst s i = Some (TNext h k) ->
    nth_error (e_streams s') h = Some (mk_rstream (st_id x) (st_chan x) SOpen) ->
    os = [OItem i h None] -> stream_view cf s h s' os (LTask i ADrop)
| sv_end i a x oe k : nth_error (e_streams s) h = Some x -> tst s i = Some (TNextGot h oe k) ->
    nth_error (e_streams s') h = Some (mk_rstream (st_id x) (st_chan x) SEnded) ->
    os = [OUnlisten (st_id x); OGone (st_chan x); OItem i h (match oe with Some e => Some (Some (Ok e)) | None => Some None end)] ->
    stream_view cf s h s' os (LTask i a)
| sv_drop x : nth_error (e_streams s) h = Some x -> st_state x <> SBusy -> st_state x <> SDropped ->
    nth_error (e_streams s') h = Some (mk_rstream (st_id x) (st_chan x) SDropped) -> os = [OGone (st_chan x)] -> stream_view cf s h s' os (LDropStream h).
Ltac noopen := let Q := fresh in intros ? ? ? Q; cbn [In] in Q; intuition discriminate.
Ltac quiet := apply sv_other; autorewrite with ep; try reflexivity; try noopen.
Lemma tst_set_task i st s : nth_error (e_tasks s) i <> None -> tst (set_task i st s) i = Some st.
Proof. intros H. unfold tst. rewrite nth_set_task, Nat.eqb_refl. destruct (nth_error (e_tasks s) i); [reflexivity|congruence]. Qed.
Lemma step_stream cf s l s' os h : step cf s l = Some (s', os) -> stream_view cf s h s' os l.
Proof.
  intros H. destruct l as [i a|m e|m|m|m|h1|].
  - cbn [step] in H. unfold task_step in H. destruct (nth_error (e_tasks s) i) as [tk|] eqn:Et; [|discriminate].
    assert (T : tst s i = Some (tk_st tk)) by (unfold tst; rewrite Et; reflexivity).
    assert (T' : nth_error (e_tasks s) i <> None) by congruence.
    destruct (tk_st tk) as [p|ctx e w|ctx e pu|d rid k|d rid e k|h1 k|h1 oe k|rid| |] eqn:Es; destruct a; try discriminate H.
    + unfold run_prog in H. destruct p as [r| |rq k|rq k|rq k|h1 k|n k|k|q k]; cbn zeta in H;
        try (repeat (match type of H with context[match ?x with _ => _ end] => destruct x eqn:? end; try discriminate H);
             apply some_pair in H; destruct H as [<- <-]; quiet; fail).
      destruct (nth_error (e_streams s) h1) as [x|] eqn:Ex; [|discriminate].
      destruct (st_state x) eqn:Est; try discriminate; apply some_pair in H; destruct H as [<- <-].
      * destruct (Nat.eq_dec h1 h) as [->|N].
        -- eapply sv_poll; eauto; [|rewrite tst_set_task by (autorewrite with ep; exact T'); reflexivity].
           autorewrite with ep. rewrite Nat.eqb_refl, Ex. reflexivity.
        -- quiet. rewrite (proj2 (Nat.eqb_neq h h1)) by congruence. reflexivity.
      * destruct (Nat.eq_dec h1 h) as [->|N].
        -- eapply sv_ended; eauto. autorewrite with ep. exact Ex.
        -- quiet. unfold items. cbn [flat_map item_of app]. rewrite (proj2 (Nat.eqb_neq h1 h)) by congruence. reflexivity.
      * quiet.
    + apply some_pair in H; destruct H as [<- <-]. quiet.
    + destruct pu as [k1|d k1|d k1|ok]; apply some_pair in H; destruct H as [<- <-]; try (quiet; fail).
      destruct (Nat.eq_dec (length (e_streams s)) h) as [E|N].
      * eapply sv_open; eauto; [rewrite E; reflexivity| |rewrite tst_set_task by (autorewrite with ep; exact T'); rewrite E; reflexivity].
        autorewrite with ep. rewrite E, Nat.eqb_refl. reflexivity.
      * apply sv_other; autorewrite with ep; try reflexivity.
        -- destruct (Nat.eqb_spec h (length (e_streams s))); [congruence|reflexivity].
        -- intros j x c [Q|[Q|[]]]; congruence.
    + destruct pu as [k1|d k1|d k1|ok]; apply some_pair in H; destruct H as [<- <-]; quiet.
    + destruct pu as [k1|d k1|d k1|ok]; try discriminate H; apply some_pair in H; destruct H as [<- <-]; quiet.
    + step_cases H; quiet.
    + apply some_pair in H; destruct H as [<- <-]. quiet.
    + apply some_pair in H; destruct H as [<- <-]. quiet.
    + destruct (reply_result (cf_env cf) e); apply some_pair in H; destruct H as [<- <-]; quiet.
    + destruct (nth_error (e_streams s) h1) as [x|] eqn:Ex; [|discriminate].
      destruct (nth_error (e_chans s) (st_chan x)) as [ch|] eqn:Ed; [|discriminate].
      destruct (ch_buf ch) as [|e b] eqn:Eb.
      * destruct (has_sender s (st_chan x)); [discriminate|]. apply some_pair in H; destruct H as [<- <-]. quiet.
      * destruct (etype_eqb (ev_type e) End) eqn:Ee; apply some_pair in H; destruct H as [<- <-]; [quiet|].
        assert (ev_type e <> End) by (rewrite <- etype_End; congruence).
        destruct (Nat.eq_dec h1 h) as [->|N].
        -- eapply sv_item; eauto. autorewrite with ep. rewrite Nat.eqb_refl, Ex. reflexivity.
        -- quiet; unfold items; cbn [flat_map item_of app]; rewrite ?(proj2 (Nat.eqb_neq h1 h)), ?(proj2 (Nat.eqb_neq h h1)) by congruence; reflexivity.
    + destruct (nth_error (e_streams s) h1) as [x|] eqn:Ex; [|discriminate]. apply some_pair in H; destruct H as [<- <-].
      destruct (Nat.eq_dec h1 h) as [->|N].
      * eapply sv_timeout; eauto. autorewrite with ep. rewrite Nat.eqb_refl, Ex. reflexivity.
      * quiet; unfold items; cbn [flat_map item_of app]; rewrite ?(proj2 (Nat.eqb_neq h1 h)), ?(proj2 (Nat.eqb_neq h h1)) by congruence; reflexivity.
    + apply some_pair in H; destruct H as [<- <-].
      destruct (Nat.eq_dec h1 h) as [->|N].
      * destruct (nth_error (e_streams s) h) as [x|] eqn:Ex.
        -- eapply sv_release; eauto. autorewrite with ep. rewrite Nat.eqb_refl, Ex. reflexivity.
        -- quiet. rewrite Nat.eqb_refl, Ex. reflexivity.
      * quiet; unfold items; cbn [flat_map item_of app]; rewrite ?(proj2 (Nat.eqb_neq h1 h)), ?(proj2 (Nat.eqb_neq h h1)) by congruence; reflexivity.
    + destruct (nth_error (e_streams s) h1) as [x|] eqn:Ex; [|discriminate]. apply some_pair in H; destruct H as [<- <-].
      destruct (Nat.eq_dec h1 h) as [->|N].
      * eapply sv_end; eauto. autorewrite with ep. rewrite Nat.eqb_refl, Ex. reflexivity.
      * quiet; unfold items; destruct oe; cbn [flat_map item_of app]; rewrite ?(proj2 (Nat.eqb_neq h1 h)), ?(proj2 (Nat.eqb_neq h h1)) by congruence; reflexivity.
    + apply some_pair in H; destruct H as [<- <-]. quiet.
  - step_cases H; quiet.
  - step_cases H; quiet.
  - step_cases H; quiet.
  - step_cases H; quiet.
  - cbn [step] in H. destruct (nth_error (e_streams s) h1) as [x|] eqn:Ex; [|discriminate].
    destruct (Nat.eq_dec h1 h) as [->|N].
    + destruct (st_state x) eqn:E; try discriminate; apply some_pair in H; destruct H as [<- <-];
        (eapply sv_drop; eauto; try congruence; autorewrite with ep; rewrite Nat.eqb_refl, Ex; reflexivity).
    + destruct (st_state x) eqn:E; try discriminate; apply some_pair in H; destruct H as [<- <-];
        quiet; rewrite ?(proj2 (Nat.eqb_neq h h1)) by congruence; reflexivity.
  - step_cases H; quiet.
Qed.

(** ** What a task holds after a step of its own *)
Lemma task_step_chan cf s i a s' os st st' c : task_step cf s i a = Some (s', os) -> tst s i = Some st -> tst s' i = Some st' -> tchan st' = Some c ->
  (tchan st = Some c /\ tid st' = tid st /\ gone_b c os = false)
  \/ (c = length (e_chans s) /\ exists ctx e w, st = TRegister ctx e w /\ tid st' = Some (ev_id e) /\ os = [OListen i (ev_id e) c]).
Proof.
  unfold tst, task_step. intros H. destruct (nth_error (e_tasks s) i) as [tk|] eqn:Et; [|discriminate]. cbn [option_map].
  assert (L : (i <> length (e_tasks s))%nat) by (pose proof (proj1 (nth_error_Some (e_tasks s) i)); rewrite Et in *; intuition (try congruence; try lia)).
  intros E. apply (f_equal (fun o => match o with Some x => x | None => st end)) in E. cbn in E. subst st.
  destruct (tk_st tk) eqn:Es; destruct a; try discriminate H; unfold run_prog, answer_event in H; cbn zeta in H;
  repeat (match type of H with context[match ?x with _ => _ end] => destruct x eqn:? end; try discriminate H);
  apply some_pair in H; destruct H as [<- <-]; autorewrite with ep; rewrite Nat.eqb_refl, ?(proj2 (Nat.eqb_neq _ _) L), ?Et; cbn [option_map tk_st tk_job];
  intros E; apply (f_equal (fun o => match o with Some x => x | None => st' end)) in E; cbn in E; subst st'; cbn [tchan tid];
  intros E; try discriminate E; try (left; split; [exact E|split; reflexivity]);
  (right; inversion E; subst; split; [reflexivity|]; do 3 eexists; split; [reflexivity|split; reflexivity]).
Qed.
Lemma task_step_poll cf s i a s' os st st' h : task_step cf s i a = Some (s', os) -> tst s i = Some st -> tst s' i = Some st' -> tpoll st' = Some h ->
  tpoll st = Some h /\ e_streams s' = e_streams s
  \/ tpoll st = None /\ exists x, nth_error (e_streams s) h = Some x /\ st_state x = SOpen /\ nth_error (e_streams s') h = Some (mk_rstream (st_id x) (st_chan x) SBusy).
Proof.
  unfold tst, task_step. intros H. destruct (nth_error (e_tasks s) i) as [tk|] eqn:Et; [|discriminate]. cbn [option_map].
  assert (L : (i <> length (e_tasks s))%nat) by (pose proof (proj1 (nth_error_Some (e_tasks s) i)); rewrite Et in *; intuition (try congruence; try lia)).
  intros E. apply (f_equal (fun o => match o with Some x => x | None => st end)) in E. cbn in E. subst st.
  destruct (tk_st tk) eqn:Es; destruct a; try discriminate H; unfold run_prog, answer_event in H; cbn zeta in H;
  repeat (match type of H with context[match ?x with _ => _ end] => destruct x eqn:? end; try discriminate H);
  apply some_pair in H; destruct H as [<- <-]; autorewrite with ep; rewrite Nat.eqb_refl, ?(proj2 (Nat.eqb_neq _ _) L), ?Et; cbn [option_map tk_st tk_job];
  intros E; apply (f_equal (fun o => match o with Some x => x | None => st' end)) in E; cbn in E; subst st'; cbn [tpoll];
  intros E; try discriminate E; try (left; auto; fail); right; inversion E; subst; split; [reflexivity|];
  match goal with H : nth_error (e_streams s) h = Some ?x |- _ => exists x; autorewrite with ep; rewrite Nat.eqb_refl, H; auto end.
Qed.
