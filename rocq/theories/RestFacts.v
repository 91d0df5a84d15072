(** Proofs about two joined endpoints: requests come to rest. *)
From Verif Require Import Base BaseFacts BuilderFacts Codec Spec Ids IdsFacts Payload Builder Emit EmitFacts Ipc SpecIpc IpcFacts IpcChanFacts IpcUsers IpcLoops IpcTasks IpcIds IpcReplies IpcStreams IpcClaims IpcMore IpcFlow IpcLimits IpcRemoved Pair SpecPair PairFacts PairServer PairQuiet Multi SpecRest.
From Coq Require Import ZifyBool ZifyNat ZifyN Permutation.

(** what a task may become *)
Inductive nxt : tstate -> tstate -> Prop :=
| nx_answer r ctx a ok : nxt (TSend ctx a (ForAnswer ok)) (TRun (PRet r))
| nx_done r : nxt TDone (TRun (PRet r))
| nx_dead p : nxt TDead (TRun p)
| nx_emit rq k ctx e : nxt (TSend ctx e (ForEmit k)) (TRun (PEmit rq k))
| nx_emit_err rq k o : nxt (TRun (k o)) (TRun (PEmit rq k))
| nx_emitted ctx e k o : nxt (TRun (k o)) (TSend ctx e (ForEmit k))
| nx_await rq k ctx e : nxt (TRegister ctx e (WantReply k)) (TRun (PAwait rq k))
| nx_await_err rq k o : nxt (TRun (k o)) (TRun (PAwait rq k))
| nx_listen ctx e k c : nxt (TSend ctx e (ForAwait c k)) (TRegister ctx e (WantReply k))
| nx_asked ctx e k c x : nxt (TWait c x k) (TSend ctx e (ForAwait c k))
| nx_unasked ctx e k c o : nxt (TRun (k o)) (TSend ctx e (ForAwait c k))
| nx_got c x k e : nxt (TGot c x e k) (TWait c x k)
| nx_waited c x k o : nxt (TRun (k o)) (TWait c x k)
| nx_reply c x k e o : nxt (TRun (k o)) (TGot c x e k)
| nx_reply_dead c x k e : nxt TDead (TGot c x e k)
| nx_stream rq k ctx e : nxt (TRegister ctx e (WantStream k)) (TRun (PStream rq k))
| nx_stream_err rq k o : nxt (TRun (k o)) (TRun (PStream rq k))
| nx_listen_all ctx e k c : nxt (TSend ctx e (ForStream c k)) (TRegister ctx e (WantStream k))
| nx_opened ctx e k c o : nxt (TRun (k o)) (TSend ctx e (ForStream c k))
| nx_next h k : nxt (TNext h k) (TRun (PNext h k))
| nx_no_next h k o : nxt (TRun (k o)) (TRun (PNext h k))
| nx_item h k o : nxt (TRun (k o)) (TNext h k)
| nx_last h k x : nxt (TNextGot h x k) (TNext h k)
| nx_ended h k x o : nxt (TRun (k o)) (TNextGot h x k)
| nx_stop n k o : nxt (TRun (k o)) (TRun (PStop n k))
| nx_env k v : nxt (TRun (k v)) (TRun (PEnv k))
| nx_spawn q k : nxt (TRun k) (TRun (PSpawn q k))
| nx_spawned q k : nxt (TRun q) (TRun (PSpawn q k))
| nx_forget ctx a ok x : nxt (TForget x) (TSend ctx a (ForAnswer ok))
| nx_failed ctx a ok : nxt TDone (TSend ctx a (ForAnswer ok))
| nx_forgotten x : nxt TDone (TForget x).
Lemma acc_stop st : (forall st', ~ nxt st' st) -> Acc nxt st.
Proof. intros H. constructor. intros st' Q. destruct (H _ Q). Qed.
Lemma acc_done : Acc nxt TDone. Proof. apply acc_stop. intros st' H. inversion H. Qed.
Lemma acc_dead : Acc nxt TDead. Proof. apply acc_stop. intros st' H. inversion H. Qed.
Lemma acc_answer ctx a ok : Acc nxt (TSend ctx a (ForAnswer ok)).
Proof. constructor. intros st' H. inversion H; subst; [|apply acc_done]. constructor. intros st' H'. inversion H'; subst. apply acc_done. Qed.
Lemma acc_ends p : ends p -> Acc nxt (TRun p).
Proof.
  induction 1 as [r| |rq k _ IH|rq k _ IH|rq k _ IH|h k _ IH|n k _ IH|k _ IH|p k _ IH1 _ IH2]; constructor; intros st' H; inversion H; subst; try exact acc_dead; try exact acc_done; try exact (acc_answer _ _ _); auto.
  - constructor. intros st1 H1. inversion H1; subst. auto.
  - constructor. intros st1 H1. inversion H1; subst. constructor. intros st2 H2. inversion H2; subst; auto. constructor. intros st3 H3. inversion H3; subst; auto.
    constructor. intros st4 H4. inversion H4; subst; auto using acc_dead.
  - constructor. intros st1 H1. inversion H1; subst. constructor. intros st2 H2. inversion H2; subst; auto.
  - constructor. intros st1 H1. inversion H1; subst; auto. constructor. intros st2 H2. inversion H2; subst; auto.
Qed.

(** ** Items *)
Definition item : Type := nat * tstate.
Definition ilt (y x : item) : Prop := Acc nxt (snd y) /\ ((fst y < fst x)%nat \/ (fst y = fst x /\ nxt (snd y) (snd x))).
Lemma acc_item : forall n st, Acc nxt st -> Acc ilt (n, st).
Proof.
  induction n as [n IHn] using lt_wf_ind. intros st H. induction H as [st _ IH]. constructor. intros [m st'] [Hs [L|[E N]]]; cbn [fst snd] in *; [apply IHn; assumption|]. subst m. apply IH. exact N.
Qed.

(** events held by receive loops; stop signals pending and streams not dropped *)
Definition held (s : ep) : list event := flat_map (fun c => match cn_loop c with LSend _ e => [e] | _ => [] end) (e_conns s).
Definition one_if (b : bool) : nat := if b then 1 else 0.
Definition undropped (x : stream) : bool := match st_state x with SDropped => false | _ => true end.
Definition loose (s : ep) : nat := total (fun c => one_if (cn_signal c)) (e_conns s) + total (fun x => one_if (undropped x)) (e_streams s).
Lemma held_set_conn n c c' s : nth_error (e_conns s) n = Some c -> cn_loop c' = cn_loop c -> held (set_conn n c' s) = held s.
Proof.
  unfold held, set_conn. cbn [e_conns]. generalize (e_conns s). intros l. revert n. induction l as [|x l IH]; intros [|n] H E; cbn in H; try discriminate; cbn [put flat_map].
  - injection H as ->. rewrite E. reflexivity.
  - rewrite (IH n H E). reflexivity.
Qed.
Lemma one_le b : (one_if b <= 1)%nat. Proof. destruct b; cbn; lia. Qed.
Lemma loose_set_conn n c s : (loose (set_conn n c s) <= S (loose s))%nat.
Proof.
  unfold loose, set_conn. cbn [e_conns e_streams]. destruct (nth_error (e_conns s) n) as [c0|] eqn:E.
  - pose proof (total_put (fun c => one_if (cn_signal c)) c (e_conns s) n c0 E). pose proof (one_le (cn_signal c)). cbn beta in *. lia.
  - assert (X : put n c (e_conns s) = e_conns s) by (clear - E; revert n E; induction (e_conns s) as [|x l IH]; intros [|n] E; cbn in *; try reflexivity; [discriminate|f_equal; auto]). rewrite X. lia.
Qed.
Lemma loose_set_stream h st s : (loose (set_stream h st s) <= S (loose s))%nat.
Proof.
  unfold set_stream. destruct (nth_error (e_streams s) h) as [x|] eqn:E; [|lia]. unfold loose. cbn [e_conns e_streams].
  pose proof (total_put (fun x => one_if (undropped x)) (mk_rstream (st_id x) (st_chan x) st) (e_streams s) h x E). pose proof (one_le (undropped (mk_rstream (st_id x) (st_chan x) st))). cbn beta in *. lia.
Qed.
Lemma loose_add_stream x s : (loose (add_stream x s) <= S (loose s))%nat.
Proof. unfold loose, add_stream. cbn [e_conns e_streams]. rewrite total_app. cbn [total]. pose proof (one_le (undropped x)). lia. Qed.
Definition same_rest (s' s : ep) : Prop := e_conns s' = e_conns s /\ e_streams s' = e_streams s.
Lemma same_loose s' s : same_rest s' s -> loose s' = loose s /\ held s' = held s.
Proof. intros [A B]. unfold loose, held. rewrite A, B. auto. Qed.

Lemma put_out {A} (x : A) l : forall i, nth_error l i = None -> put i x l = l.
Proof. induction l as [|y l IH]; intros [|i] H; cbn in *; try reflexivity; [discriminate|f_equal; auto]. Qed.

(** a step of a task *)
Lemma task_moves cf s i a s' os : step cf s (LTask i a) = Some (s', os) -> existsb is_cut os = false -> exists tk st' sp, nth_error (e_tasks s) i = Some tk /\ nxt st' (tk_st tk)
  /\ e_tasks s' = put i (mk_task (tk_job tk) st') (e_tasks s) ++ map (fun q => mk_task None (TRun q)) sp
  /\ (sp = [] \/ exists q k, tk_st tk = TRun (PSpawn q k) /\ sp = [q])
  /\ held s' = held s /\ (loose s' <= S (loose s))%nat
  /\ (wired os = [] \/ exists ctx e pu, tk_st tk = TSend ctx e pu /\ wired os = [drop_empty_ns e]).
Proof.
  intros H HC. cbn [step] in H. unfold task_step in H. destruct (nth_error (e_tasks s) i) as [tk|] eqn:Hi; [|discriminate].
  assert (SET : forall st s1, e_tasks s1 = e_tasks s -> e_tasks (set_task i st s1) = put i (mk_task (tk_job tk) st) (e_tasks s)) by (intros st s1 E; unfold set_task; rewrite E, Hi; cbn [e_tasks]; rewrite ?E; reflexivity).
  assert (HS : forall st s1, held (set_task i st s1) = held s1) by (intros st s1; unfold set_task, held; destruct (nth_error (e_tasks s1) i); reflexivity).
  assert (LS : forall st s1, loose (set_task i st s1) = loose s1) by (intros st s1; unfold set_task, loose; destruct (nth_error (e_tasks s1) i); reflexivity).
  assert (FIN : forall st s1 o, e_tasks s1 = e_tasks s -> held s1 = held s -> (loose s1 <= S (loose s))%nat -> nxt st (tk_st tk) -> Some (set_task i st s1, o) = Some (s', os) ->
    (wired o = [] \/ exists ctx e pu, tk_st tk = TSend ctx e pu /\ wired o = [drop_empty_ns e]) ->
    exists tk0 st' sp, Some tk = Some tk0 /\ nxt st' (tk_st tk0)
    /\ e_tasks s' = put i (mk_task (tk_job tk0) st') (e_tasks s) ++ map (fun q => mk_task None (TRun q)) sp
    /\ (sp = [] \/ exists q k, tk_st tk0 = TRun (PSpawn q k) /\ sp = [q])
    /\ held s' = held s /\ (loose s' <= S (loose s))%nat
    /\ (wired os = [] \/ exists ctx e pu, tk_st tk0 = TSend ctx e pu /\ wired os = [drop_empty_ns e])).
  { intros st s1 o E1 E2 E3 N X W. apply some_pair in X. destruct X as [<- <-]. exists tk, st, []. rewrite (SET _ _ E1), HS, LS. cbn [map]. rewrite app_nil_r. repeat (split; auto). }
  assert (RE : forall s1, same_rest s1 s -> held s1 = held s /\ (loose s1 <= S (loose s))%nat) by (intros s1 X; apply same_loose in X; destruct X as [-> ->]; auto).
  assert (TC : forall c s1, e_tasks (close_chan c s1) = e_tasks s1 /\ same_rest (close_chan c s1) s1) by (intros c s1; unfold close_chan; destruct (nth_error (e_chans s1) c); repeat split).
  assert (TS : forall h st s1, e_tasks (set_stream h st s1) = e_tasks s1 /\ held (set_stream h st s1) = held s1) by (intros h st s1; unfold set_stream, held; destruct (nth_error (e_streams s1) h); repeat split).
  destruct (tk_st tk) as [p|ctx e w|ctx e pu|c x k|c x e k|h k|h oe k|x| |] eqn:Es.
  Local Ltac plain R FIN := match type of R with Some (set_task _ ?st ?s1, ?o) = _ => eapply (FIN st s1 o); [..|exact R|]; auto; try match goal with |- nxt _ _ => constructor end; try (left; reflexivity) end.
  - destruct a as [t v| | |]; try discriminate H. destruct p as [r| |rq k|rq k|rq k|h k|n k|k|q k]; unfold run_prog in H; cbn zeta in H.
    + destruct (tk_job tk) as [[ctx x]|] eqn:Ej.
      * destruct (answer_event cf ctx (nth_id t (e_ctr s)) r) as [a| |]; try discriminate H. rewrite <- Ej in *. plain H FIN.
      * rewrite <- Ej in *. plain H FIN.
    + plain H FIN.
    + destruct (rq_payload rq); [plain H FIN|plain H FIN|plain H FIN].
    + destruct (rq_payload rq); [plain H FIN|plain H FIN|plain H FIN].
    + destruct (rq_payload rq); [plain H FIN|plain H FIN|plain H FIN].
    + destruct (nth_error (e_streams s) h) as [x|]; [|discriminate]. destruct (st_state x); try discriminate H.
      * plain H FIN; [apply TS|apply TS|apply loose_set_stream].
      * plain H FIN.
      * plain H FIN.
    + destruct (nth_error (e_conns s) n) as [c|] eqn:Ec; [|discriminate]. destruct (cn_armed c); plain H FIN.
      * eapply held_set_conn; eauto.
      * apply loose_set_conn.
    + plain H FIN.
    + apply some_pair in H. destruct H as [<- <-]. exists tk, (TRun k), [q]. split; [reflexivity|]. rewrite Es. split; [constructor|]. rewrite HS, LS.
      split; [|split; [right; eauto|split; [reflexivity|split; [unfold loose, add_task; cbn [e_conns e_streams]; lia|left; reflexivity]]]].
      unfold set_task. rewrite tasks_add_task. assert (X : nth_error (e_tasks s ++ [mk_task None (TRun q)]) i = Some tk) by (rewrite nth_error_app1; [exact Hi|apply nth_error_Some; congruence]). rewrite X. cbn [e_tasks map add_task].
      clear - Hi. revert i Hi. induction (e_tasks s) as [|y l IH]; intros [|i] Hi; cbn in *; try discriminate; [reflexivity|f_equal; auto].
  - destruct a as [t v| | |]; try discriminate H. destruct w as [k|k]; plain H FIN.
  - destruct pu as [k|c k|c k|ok]; destruct a as [t v|io| |]; try discriminate H; try (apply some_pair in H; destruct H as [<- <-]; discriminate HC).
    + plain H FIN; [right; eauto 10].
    + plain H FIN; [right; eauto 10].
    + plain H FIN; [apply loose_add_stream|right; do 3 eexists; split; reflexivity].
    + destruct ok; [destruct (tk_job tk) as [[? ?]|] eqn:Ej; rewrite <- Ej in *|]; (plain H FIN; [right; eauto 10]).
  - destruct a as [t v|io| |]; try discriminate H.
    + destruct (nth_error (e_chans s) c) as [ch|]; [|discriminate]. destruct (ch_buf ch) as [|e b].
      * destruct (has_sender s c); [discriminate|]. plain H FIN; try apply TC; try (apply RE; apply TC).
      * plain H FIN.
    + plain H FIN; try apply TC; try (apply RE; apply TC).
    + plain H FIN; try apply TC; try (apply RE; apply TC).
  - destruct a as [t v|io| |]; try discriminate H. 
    assert (U : e_tasks (close_chan c (unlisten x s)) = e_tasks s /\ same_rest (close_chan c (unlisten x s)) s) by (destruct (TC c (unlisten x s)) as [-> [A B]]; repeat split; assumption).
    cbn zeta in H. destruct (reply_result (cf_env cf) e); plain H FIN; try apply U; try (apply RE; apply U).
  - destruct a as [t v|io| |]; try discriminate H.
    + destruct (nth_error (e_streams s) h) as [y|]; [|discriminate]. destruct (nth_error (e_chans s) (st_chan y)) as [ch|]; [|discriminate]. destruct (ch_buf ch) as [|e b].
      * destruct (has_sender s (st_chan y)); [discriminate|]. plain H FIN.
      * cbn zeta in H. destruct (etype_eqb (ev_type e) End).
        -- plain H FIN.
        -- plain H FIN; [rewrite (proj1 (TS _ _ _)); reflexivity|rewrite (proj2 (TS _ _ _)); reflexivity|etransitivity; [apply loose_set_stream|apply le_n]].
    + destruct (nth_error (e_streams s) h) as [y|]; [|discriminate].
      plain H FIN; [rewrite (proj1 (TS _ _ _)); apply TC|rewrite (proj2 (TS _ _ _)); apply RE; apply TC|etransitivity; [apply loose_set_stream|]; destruct (same_loose _ _ (proj2 (TC (st_chan y) s))) as [-> _]; apply le_n].
    + plain H FIN; [apply TS|apply TS|apply loose_set_stream].
  - destruct a as [t v|io| |]; try discriminate H. destruct (nth_error (e_streams s) h) as [y|]; [|discriminate]. cbn zeta in H.
    assert (U : e_tasks (close_chan (st_chan y) (unlisten (st_id y) s)) = e_tasks s /\ same_rest (close_chan (st_chan y) (unlisten (st_id y) s)) s) by (destruct (TC (st_chan y) (unlisten (st_id y) s)) as [-> [A B]]; repeat split; assumption).
    plain H FIN; [rewrite (proj1 (TS _ _ _)); apply U|rewrite (proj2 (TS _ _ _)); apply RE; apply U|etransitivity; [apply loose_set_stream|]; destruct (same_loose _ _ (proj2 U)) as [-> _]; apply le_n].
  - destruct a as [t v|io| |]; try discriminate H. plain H FIN.
  - discriminate H.
  - discriminate H.
Qed.

(** ** Levels *)
Definition end_ev (e : event) : bool := etype_eqb (ev_type e) End && bytes_eqb (ev_name e) END_EVENT_NAME.
(** events to the client, events to the server, tasks of the client, tasks of the server *)
Definition levA (e : event) : nat := if end_ev e then 4 else 10.
Definition levB (E : env) (e : event) : nat := if etype_eqb (ev_type e) End then 1 else if good_err E e then 7 else 13.
Definition lvA (tk : task) : nat := match tk_job tk with None => 14 | Some (_, e) => if end_ev e then 2 else 8 end.
Definition lvB (E : env) (tk : task) : nat := match tk_job tk with None => 0 | Some (_, e) => if good_err E e then 5 else 11 end.
Definition titems (lv : task -> nat) (ts : list task) : list item := map (fun tk => (lv tk, tk_st tk)) ts.
Definition z0 : item := (0%nat, TDone).

Lemma titems_put lv ts i tk tk' : nth_error ts i = Some tk -> exists r, Permutation (titems lv ts) ((lv tk, tk_st tk) :: r) /\ Permutation (titems lv (put i tk' ts)) ((lv tk', tk_st tk') :: r).
Proof.
  revert i. induction ts as [|x ts IH]; intros [|i] H; cbn in H; try discriminate.
  - injection H as ->. exists (titems lv ts). split; reflexivity.
  - destruct (IH _ H) as (r & P1 & P2). exists ((lv x, tk_st x) :: r). cbn [put titems map]. unfold titems in *. rewrite P1, P2. split; apply perm_swap.
Qed.
Lemma repeat_split (l' l : nat) : (l' <= S l)%nat -> exists d y q, repeat z0 l = d ++ q /\ repeat z0 l' = y ++ q /\ Forall (eq z0) y.
Proof.
  intros H. destruct (Nat.le_gt_cases l' l) as [L|L].
  - exists (repeat z0 (l - l')), [], (repeat z0 l'). split; [rewrite <- repeat_app; f_equal; lia|]. split; [reflexivity|constructor].
  - exists [], [z0], (repeat z0 l). replace l' with (S l) by lia. split; [reflexivity|]. split; [reflexivity|]. constructor; [reflexivity|constructor].
Qed.
Lemma mlt_task lv ts i tk tk' ys h l l' : nth_error ts i = Some tk -> lv tk' = lv tk -> Acc nxt (tk_st tk) -> nxt (tk_st tk') (tk_st tk) ->
  Forall (fun y => ilt y (lv tk, tk_st tk)) ys -> (0 < lv tk)%nat -> (l' <= S l)%nat ->
  mlt ilt (titems lv (put i tk' ts) ++ ys ++ h ++ repeat z0 l') (titems lv ts ++ h ++ repeat z0 l).
Proof.
  intros Hi El Ha N F Z L. destruct (titems_put lv ts i tk tk' Hi) as (r & P1 & P2). destruct (repeat_split _ _ L) as (d & y & q & -> & -> & Fy).
  exists (lv tk, tk_st tk), ((lv tk', tk_st tk') :: ys ++ y), d, (r ++ h ++ q). split; [|split].
  - rewrite P1. cbn [app]. constructor. rewrite (Permutation_app_swap_app d r). apply Permutation_app_head. apply Permutation_app_swap_app.
  - rewrite P2. cbn [app]. constructor. rewrite <- app_assoc. rewrite (Permutation_app_swap_app y r), (Permutation_app_swap_app ys r). apply Permutation_app_head. apply Permutation_app_head. apply Permutation_app_swap_app.
  - constructor; [|apply Forall_app; split; [exact F|]].
    + split; [eapply Acc_inv; eauto|]. right. auto.
    + eapply Forall_impl; [|exact Fy]. intros x <-. split; [exact acc_done|]. left. exact Z.
Qed.

(** ** The client *)
Section Client.
  Context (cf : config) (EB : env).
  Hypothesis Q : quiet cf.
  Hypothesis AR : all_return cf.
  Hypothesis NE : eh_get (cf_handler cf) END_EVENT_NAME = None.
  Hypothesis DF : debug_fits cf EB.
  Definition atask (tk : task) : Prop :=
    Acc nxt (tk_st tk) /\
    match tk_job tk with
    | None => True
    | Some (_, e) =>
      match tk_st tk with
      | TRun p => silent p /\ (end_ev e = true -> p = PRet (inl []))
      | TSend _ a (ForAnswer _) => drop_empty_ns a = a /\ (levB EB a <= 7)%nat /\ (end_ev e = true -> levB EB a = 1%nat)
      | TForget _ | TDone | TDead => True
      | _ => False
      end
    end.
  Definition atasks (s : ep) : Prop := forall tk, In tk (e_tasks s) -> atask tk.
  Lemma answer_level ctx nid r a : answer_event cf ctx nid r = Ok a -> drop_empty_ns a = a /\ (levB EB a <= 7)%nat /\ (forall b, r = inl b -> levB EB a = 1%nat).
  Proof.
    intros H. destruct (answer_weight cf EB DF _ _ _ _ H) as [W D]. split; [exact D|]. unfold ew in W. unfold levB. destruct (etype_eqb (ev_type a) End); [auto with arith|]. destruct (good_err EB a); [split; [lia|]|destruct r; lia].
    intros b ->. lia.
  Qed.
  Lemma in_put {A} (x y : A) l i : In x (put i y l) -> x = y \/ In x l.
  Proof. revert i. induction l as [|z l IH]; intros [|i] H; cbn in H; [destruct H|destruct H| |]; destruct H as [<-|H]; [auto|right; right; exact H|right; left; reflexivity|]. destruct (IH _ H); [auto|right; right; assumption]. Qed.
  Lemma atask_step s i a s' os : atasks s -> step cf s (LTask i a) = Some (s', os) -> existsb is_cut os = false -> atasks s'.
  Proof.
    intros AT H HC. destruct (task_moves _ _ _ _ _ _ H HC) as (tk & st' & sp & Hi & N & Et & Sp & _).
    assert (Hk : atask tk) by (apply AT; eapply nth_error_In; eauto). destruct Hk as [Ha Hj].
    assert (A' : Acc nxt st') by (eapply Acc_inv; eauto).
    assert (R : match tk_job tk with None => True | Some _ => atask (mk_task (tk_job tk) st') /\ sp = [] end).
    { destruct (tk_job tk) as [[ctx e]|] eqn:Ej; [|exact I]. split; [split; [exact A'|]|].
      - cbn [tk_job tk_st]. cbn [step] in H. unfold task_step in H. rewrite Hi, Ej in H.
        assert (SET : forall st s1, e_tasks s1 = e_tasks s -> e_tasks (set_task i st s1) = e_tasks s' -> st = st').
        { intros st s1 E1 E2. assert (sp = []) by (destruct Sp as [|(q & k & E & _)]; [assumption|]; rewrite E in Hj; destruct Hj as [X _]; inversion X). subst sp. cbn [map] in Et. rewrite app_nil_r in Et.
          assert (X : nth_error (e_tasks (set_task i st s1)) i = Some (mk_task (tk_job tk) st)) by (rewrite nth_set_task, E1, Nat.eqb_refl, Hi; reflexivity). rewrite E2, Et, nth_put, Nat.eqb_refl, Hi in X. congruence. }
        destruct (tk_st tk) as [p|? ? ?|c0 a0 [k|c k|c k|ok]|? ? ?|? ? ? ?|? ?|? ? ?|x| |] eqn:Es; try contradiction; try discriminate H.
        + destruct Hj as [Hp He]. destruct a as [t v| | |]; try discriminate H. destruct Hp as [r| |k Hk]; unfold run_prog in H; cbn zeta in H.
          * destruct (answer_event cf ctx (nth_id t (e_ctr s)) r) as [b| |] eqn:Eb; try discriminate H. apply answer_level in Eb. apply some_pair in H. destruct H as [H _]. 
            rewrite <- (SET (TSend ctx b (ForAnswer (match r with inl _ => true | inr _ => false end))) (next_id s) (tasks_next_id s) (f_equal e_tasks H)). destruct Eb as (B1 & B2 & B3). split; [exact B1|]. split; [exact B2|]. intros X. specialize (He X). injection He as ->. eauto.
          * apply some_pair in H. destruct H as [H _]. rewrite <- (SET TDead s eq_refl (f_equal e_tasks H)). exact I.
          * apply some_pair in H. destruct H as [H _]. rewrite <- (SET (TRun (k v)) s eq_refl (f_equal e_tasks H)). split; [apply Hk|]. intros X. specialize (He X). discriminate.
        + destruct a as [t v| | |]; try discriminate H; (apply some_pair in H; destruct H as [H _]; rewrite <- (SET _ s eq_refl (f_equal e_tasks H)); destruct ok; exact I).
        + destruct a as [t v| | |]; try discriminate H; (apply some_pair in H; destruct H as [H _]; rewrite <- (SET _ (unlisten x s) (tasks_unlisten s x) (f_equal e_tasks H))); exact I.
      - destruct Sp as [|(q & k & E & _)]; [assumption|]. rewrite E in Hj. destruct Hj as [X _]. inversion X. }
    intros tj Hin. rewrite Et in Hin. apply in_app_or in Hin. destruct Hin as [Hin|Hin].
    - apply in_put in Hin. destruct Hin as [->|Hin]; [|auto]. destruct (tk_job tk) eqn:Ej; [apply R|]. split; [exact A'|exact I].
    - apply in_map_iff in Hin. destruct Hin as (q & <- & Hq). split; [|exact I]. destruct Sp as [->|(q' & k & E & ->)]; [destruct Hq|]. destruct Hq as [<-|[]]. cbn [tk_st]. eapply Acc_inv; [exact Ha|]. rewrite E. constructor.
  Qed.
  Definition itemsA (s : ep) : list item := titems lvA (e_tasks s) ++ map (fun e => (pred (levA e), TDone)) (held s) ++ repeat z0 (loose s).
  Definition witems (l : list event) : list item := map (fun e => (levB EB e, TDone)) l.
  Lemma lvA_pos tk : (0 < lvA tk)%nat. Proof. unfold lvA. destruct (tk_job tk) as [[? e]|]; [destruct (end_ev e)|]; lia. Qed.
  Lemma levB_le e : (levB EB e <= 13)%nat. Proof. unfold levB. destruct (etype_eqb _ _); [lia|]. destruct (good_err _ _); lia. Qed.
  Lemma task_less s i a s' os : atasks s -> step cf s (LTask i a) = Some (s', os) -> existsb is_cut os = false -> mlt ilt (itemsA s' ++ witems (wired os)) (itemsA s).
  Proof.
    intros AT H HC. destruct (task_moves _ _ _ _ _ _ H HC) as (tk & st' & sp & Hi & N & Et & Sp & Hh & Hl & W).
    assert (Hk : atask tk) by (apply AT; eapply nth_error_In; eauto). destruct Hk as [Ha Hj].
    pose proof (mlt_task lvA (e_tasks s) i tk (mk_task (tk_job tk) st') (titems lvA (map (fun q => mk_task None (TRun q)) sp) ++ witems (wired os)) (map (fun e => (pred (levA e), TDone)) (held s)) (loose s) (loose s') Hi eq_refl Ha N) as M.
    assert (F : Forall (fun y => ilt y (lvA tk, tk_st tk)) (titems lvA (map (fun q => mk_task None (TRun q)) sp) ++ witems (wired os))).
    { apply Forall_app. split.
      - destruct Sp as [->|(q & k & E & ->)]; [constructor|]. rewrite E in Hj. constructor; [|constructor].
        destruct (tk_job tk) as [[ctx e]|] eqn:Ej; [destruct Hj as [X _]; inversion X|]. split; cbn [fst snd tk_st]; [eapply Acc_inv; [exact Ha|]; rewrite E; constructor|].
        right. unfold lvA. rewrite Ej. split; [reflexivity|]. rewrite E. constructor.
      - destruct W as [->|(ctx & e & pu & E & ->)]; [constructor|]. rewrite E in Hj. constructor; [|constructor]. split; [exact acc_done|]. left. cbn [fst]. unfold lvA.
        destruct (tk_job tk) as [[c0 x]|]; [|pose proof (levB_le (drop_empty_ns e)); lia]. destruct pu; try contradiction. destruct Hj as (D & L & L1). rewrite D. destruct (end_ev x); [rewrite (L1 eq_refl)|]; lia. }
    specialize (M F (lvA_pos tk) Hl). unfold itemsA. rewrite Et, Hh. eapply (mlt_ctx ilt []); [exact M|rewrite app_nil_r; reflexivity|]. rewrite app_nil_r. unfold titems at 1. rewrite map_app. fold (titems lvA (put i (mk_task (tk_job tk) st') (e_tasks s))). fold (titems lvA (map (fun q => mk_task None (TRun q)) sp)).
    rewrite <- !app_assoc. apply Permutation_app_head. apply Permutation_app_head. rewrite (Permutation_app_comm (witems _)). rewrite <- !app_assoc. reflexivity.
  Qed.
  (** a new task of the client for [e] *)
  Lemma new_atask e (h : event_handler callback) sc : h = callbacks cf sc -> (end_ev e = true -> sc = None) ->
    atask (mk_task (Some (mk_context 0 (Some (ev_id e)), e)) (TRun (match eh_get h (ev_name e) with Some cb => cb (mk_context 0 (Some (ev_id e))) e | None => PRet (inl []) end))).
  Proof.
    intros Hh He. split; cbn [tk_st tk_job].
    - destruct (eh_get h (ev_name e)) as [cb|] eqn:E; [|apply acc_ends; constructor]. assert (R : returns (cb (mk_context 0 (Some (ev_id e))) e)) by (eapply AR; rewrite <- Hh; exact E).
      apply acc_ends. clear - R. induction R; constructor; auto.
    - split.
      + destruct (eh_get h (ev_name e)) as [cb|] eqn:E; [|constructor]. destruct Q as [Q1 _]. eapply Q1. rewrite <- Hh. exact E.
      + intros X. rewrite Hh, (He X). cbn [callbacks]. unfold end_ev in X. apply andb_true_iff in X. destruct X as [_ X]. apply bytes_eqb_spec in X. rewrite X, NE. reflexivity.
  Qed.
  Lemma lvA_job c e st : lvA (mk_task (Some (c, e)) st) = if end_ev e then 2%nat else 8%nat. Proof. reflexivity. Qed.
  Lemma in_snoc {A} (x y : A) l : In x (l ++ [y]) -> In x l \/ x = y.
  Proof. intros H. apply in_app_or in H. destruct H as [H|[H|[]]]; auto. Qed.
  Lemma recv_less s e s' os cn : atasks s -> e_conns s = [cn] -> step cf s (LRecv 0 e) = Some (s', os) -> atasks s' /\ wired os = [] /\ mlt ilt (itemsA s') ((levA e, TDone) :: itemsA s).
  Proof.
    intros AT C H. cbn [step] in H. rewrite C in H. cbn [nth_error] in H. destruct (cn_loop cn) eqn:El; try discriminate H.
    assert (DR : mlt ilt (itemsA s) ((levA e, TDone) :: itemsA s)) by (exists (levA e, TDone), [], [], (itemsA s); split; [reflexivity|split; [reflexivity|constructor]]).
    assert (HE : forall (h : event_handler callback) sc, h = callbacks cf sc -> end_ev e = false -> let s1 := fst (handle_event s 0 h sc e) in atasks s1 /\ mlt ilt (itemsA s1) ((levA e, TDone) :: itemsA s)).
    { intros h sc Hh He s1. assert (NA := new_atask e h sc Hh (fun X => ltac:(congruence))). split.
      - intros tk Hin. subst s1. unfold handle_event in Hin. cbn [fst] in Hin. rewrite tasks_add_task in Hin. apply in_snoc in Hin. destruct Hin as [Hin| ->]; [auto|exact NA].
      - unfold itemsA, s1, handle_event. cbn [fst]. rewrite tasks_add_task. set (tk := mk_task _ _) in *.
        exists (levA e, TDone), [(lvA tk, tk_st tk)], [], (titems lvA (e_tasks s) ++ map (fun e => (pred (levA e), TDone)) (held s) ++ repeat z0 (loose s)). split; [reflexivity|]. split.
        + unfold titems at 1. rewrite map_app. cbn [map]. rewrite <- app_assoc. cbn [app]. symmetry. apply Permutation_middle.
        + constructor; [|constructor]. split; [apply NA|]. left. cbn [fst]. unfold lvA, levA. subst tk. cbn [tk_job]. rewrite He. lia. }
    unfold receive in H. destruct (match ev_ref e with Some r => lookup N.eqb r (e_lis s) | None => None end) as [c|].
    - apply some_pair in H. destruct H as [<- <-]. split; [intros tk Hin; rewrite tasks_set_loop in Hin; auto|]. split; [reflexivity|].
      unfold itemsA. rewrite tasks_set_loop. assert (X : loose (set_loop 0 (LSend c e) s) = loose s /\ held (set_loop 0 (LSend c e) s) = [e] /\ held s = []).
      { unfold loose, held, set_loop, set_conn. rewrite C. cbn [nth_error e_conns e_streams put total flat_map cn_loop cn_signal]. rewrite El. auto. }
      destruct X as (-> & -> & ->). cbn [map app].
      exists (levA e, TDone), [(pred (levA e), TDone)], [], (titems lvA (e_tasks s) ++ repeat z0 (loose s)). split; [reflexivity|]. split; [cbn [app]; symmetry; apply Permutation_middle|].
      constructor; [|constructor]. split; [exact acc_done|]. left. cbn [fst]. unfold levA. destruct (end_ev e); cbn; lia.
    - destruct (etype_eqb (ev_type e) End) eqn:Ee.
      + apply some_pair in H. destruct H as [<- <-]. auto.
      + assert (He : end_ev e = false) by (unfold end_ev; rewrite Ee; reflexivity).
        destruct (match ev_ns e with Some ns => lookup bytes_eqb ns (cf_namespaces cf) | None => None end) as [nsp|] eqn:En; unfold handle_event in *; apply some_pair in H; destruct H as [<- <-].
        * destruct (HE (ns_handler nsp) (ev_ns e)) as [X1 X2]; [unfold callbacks; destruct (ev_ns e); [|discriminate]; rewrite En; reflexivity|exact He|]. auto.
        * destruct (HE (cf_handler cf) None) as [X1 X2]; [reflexivity|exact He|]. auto.
  Qed.
  Lemma place_less s s' os cn : atasks s -> e_conns s = [cn] -> step cf s (LPlace 0) = Some (s', os) -> atasks s' /\ wired os = [] /\ mlt ilt (itemsA s') (itemsA s).
  Proof.
    intros AT C H. cbn [step] in H. rewrite C in H. cbn [nth_error] in H. destruct (cn_loop cn) as [|c e|] eqn:El; try discriminate H.
    assert (X : forall s1, e_conns s1 = [mk_conn LRun (cn_armed cn) (cn_signal cn)] -> e_streams s1 = e_streams s -> loose s1 = loose s /\ held s1 = [] /\ held s = [e]).
    { intros s1 C1 S1. unfold loose, held. rewrite C, C1, S1. cbn [total flat_map cn_loop cn_signal app]. rewrite El. auto. }
    assert (CL : forall s1, e_conns s1 = e_conns s -> e_conns (set_loop 0 LRun s1) = [mk_conn LRun (cn_armed cn) (cn_signal cn)]) by (intros s1 E; unfold set_loop, set_conn; rewrite E, C; reflexivity).
    unfold place in H. destruct (nth_error (e_chans s) c) as [ch|]; [|discriminate]. destruct (ch_open ch).
    - destruct (Nat.ltb (length (ch_buf ch)) 8); [|discriminate]. apply some_pair in H. destruct H as [<- <-].
      set (s1 := set_loop 0 LRun _). assert (T1 : e_tasks s1 = e_tasks s) by (subst s1; rewrite tasks_set_loop; reflexivity).
      split; [intros tk Hin; rewrite T1 in Hin; auto|]. split; [reflexivity|]. destruct (X s1) as (X1 & X2 & X3); [apply CL; reflexivity|subst s1; unfold set_loop; cbn [set_chan e_conns]; rewrite C; reflexivity|].
      unfold itemsA. rewrite T1, X1, X2, X3. cbn [map app]. exists (pred (levA e), TDone), [], [], (titems lvA (e_tasks s) ++ repeat z0 (loose s)). split; [cbn [app]; symmetry; apply Permutation_middle|]. split; [reflexivity|constructor].
    - unfold handle_event in H. apply some_pair in H. destruct H as [<- <-]. assert (NA := new_atask e (cf_handler cf) None eq_refl (fun _ => eq_refl)). set (tk := mk_task _ _) in *.
      set (s1 := set_loop 0 LRun s). assert (T1 : e_tasks (add_task tk s1) = e_tasks s ++ [tk]) by (rewrite tasks_add_task; subst s1; rewrite tasks_set_loop; reflexivity).
      split; [intros tj Hin; rewrite T1 in Hin; apply in_snoc in Hin; destruct Hin as [Hin| ->]; [auto|exact NA]|]. split; [reflexivity|].
      destruct (X (add_task tk s1)) as (X1 & X2 & X3); [cbn [add_task e_conns]; apply CL; reflexivity|cbn [add_task e_streams]; subst s1; unfold set_loop; rewrite C; reflexivity|].
      unfold itemsA. rewrite T1, X1, X2, X3. cbn [map app]. exists (pred (levA e), TDone), [(lvA tk, tk_st tk)], [], (titems lvA (e_tasks s) ++ repeat z0 (loose s)). split; [cbn [app]; symmetry; apply Permutation_middle|]. split.
      + unfold titems at 1. rewrite map_app. cbn [map]. rewrite <- app_assoc. cbn [app]. symmetry. apply Permutation_middle.
      + constructor; [|constructor]. split; [apply NA|]. left. cbn [fst]. unfold lvA, levA. subst tk. cbn [tk_job]. destruct (end_ev e); cbn; lia.
  Qed.
  Lemma loose_less h d l k : (k < l)%nat -> mlt ilt (titems lvA h ++ repeat z0 k) (titems lvA h ++ d ++ repeat z0 l).
  Proof.
    intros L. assert (E : exists m, l = S (m + k)) by (exists (pred l - k)%nat; lia). destruct E as (m & ->). exists z0, [], (d ++ repeat z0 m), (titems lvA h ++ repeat z0 k). split; [|split; [reflexivity|constructor]].
    cbn [repeat]. rewrite repeat_app. rewrite app_assoc. rewrite <- Permutation_middle. constructor. rewrite <- !app_assoc. rewrite Permutation_app_swap_app. apply Permutation_app_head. rewrite Permutation_app_swap_app. apply Permutation_app_head. reflexivity.
  Qed.
  Lemma own_less s l s' os cn : atasks s -> e_conns s = [cn] -> step cf s l = Some (s', os) -> existsb is_cut os = false -> own_label l = true -> l <> LOther ->
    atasks s' /\ mlt ilt (itemsA s' ++ witems (wired os)) (itemsA s).
  Proof.
    intros AT C H HC OW NO. destruct l as [i a|n e|n|n|n|h|]; try discriminate OW.
    - split; [eapply atask_step; eauto|eapply task_less; eauto].
    - assert (n = 0)%nat by (cbn [step] in H; rewrite C in H; destruct n as [|[|n]]; [reflexivity|discriminate|discriminate]). subst n.
      destruct (place_less _ _ _ _ AT C H) as (A & B & D). rewrite B. cbn [witems map]. rewrite app_nil_r. auto.
    - cbn [step] in H. rewrite C in H. destruct n as [|[|n]]; cbn [nth_error] in H; try discriminate. destruct (cn_signal cn) eqn:Es; [|discriminate]. apply some_pair in H. destruct H as [<- <-]. split; [exact AT|].
      cbn [wired flat_map wire_of witems map]. rewrite app_nil_r. unfold itemsA. cbn [set_conn e_tasks]. assert (Hh : held (set_conn 0 (mk_conn LDone (cn_armed cn) false) s) = []) by (unfold held, set_conn; cbn [e_conns]; rewrite C; reflexivity). rewrite Hh. cbn [map app].
      apply loose_less. unfold loose, set_conn. cbn [e_conns e_streams]. rewrite C. cbn [put total cn_signal]. rewrite Es. cbn [one_if]. lia.
    - cbn [step] in H. destruct (nth_error (e_streams s) h) as [x|] eqn:Ex; [|discriminate].
      assert (K : undropped x = true -> Some (set_stream h SDropped (close_chan (st_chan x) s), [OGone (st_chan x)]) = Some (s', os) -> atasks s' /\ mlt ilt (itemsA s' ++ witems (wired os)) (itemsA s)).
      { intros U K. apply some_pair in K. destruct K as [<- <-]. set (s1 := set_stream h SDropped (close_chan (st_chan x) s)).
        assert (T1 : e_tasks s1 = e_tasks s /\ e_conns s1 = e_conns s /\ e_streams s1 = put h (mk_rstream (st_id x) (st_chan x) SDropped) (e_streams s)).
        { subst s1. unfold close_chan, set_stream. destruct (nth_error (e_chans s) (st_chan x)); cbn [set_chan e_streams]; rewrite Ex; repeat split. }
        destruct T1 as (T1 & T2 & T3). split; [intros tk Hin; rewrite T1 in Hin; auto|]. cbn [wired flat_map wire_of witems map]. rewrite app_nil_r. unfold itemsA. rewrite T1.
        replace (held s1) with (held s) by (unfold held; rewrite T2; reflexivity).
        set (hh := map _ (held s)). pose proof (total_put (fun x => one_if (undropped x)) (mk_rstream (st_id x) (st_chan x) SDropped) _ _ _ Ex) as TP. cbn beta in TP. rewrite U in TP. cbn [one_if undropped st_state] in TP.
        assert (L : loose s = S (loose s1)) by (unfold loose; rewrite T2, T3; lia). rewrite L. cbn [repeat].
        exists z0, [], [], (titems lvA (e_tasks s) ++ hh ++ repeat z0 (loose s1)). split; [|split; [reflexivity|constructor]]. cbn [app]. rewrite !app_assoc. symmetry. apply Permutation_middle. }
      destruct (st_state x) eqn:Est; try discriminate H; (apply K; [unfold undropped; rewrite Est; reflexivity|exact H]).
    - destruct NO; reflexivity.
  Qed.
End Client.

(** ** The server *)
Lemma levA_drop e : levA (drop_empty_ns e) = levA e.
Proof. unfold levA, end_ev, drop_empty_ns. destruct (ev_ns e) as [[|? ?]|]; reflexivity. Qed.
Lemma levA_le e : (levA e <= 10)%nat. Proof. unfold levA. destruct (end_ev e); lia. Qed.
Section Server.
  Context (cf : config).
  Hypothesis AE : all_end cf.
  Hypothesis KE : keeps_error_handler cf.
  Local Notation E := (cf_env cf).
  Definition btask (tk : task) : Prop :=
    Acc nxt (tk_st tk) /\
    match tk_job tk with
    | None => False
    | Some (_, e) => good_err E e = true -> match tk_st tk with TRun p => p = PRet (inl []) | TSend _ a (ForAnswer _) => levA a = 4%nat | TSend _ _ _ => False | _ => True end
    end.
  Definition btasks (s : ep) : Prop := forall tk, In tk (e_tasks s) -> btask tk.
  Definition itemsB (s : ep) : list item := titems (lvB E) (e_tasks s).
  Definition vitems (l : list event) : list item := map (fun e => (levA e, TDone)) l.
  Lemma server_task_less s tr i a s' os : server false s tr -> btasks s -> step cf s (LTask i a) = Some (s', os) -> existsb is_cut os = false -> btasks s' /\ mlt ilt (itemsB s' ++ vitems (wired os)) (itemsB s).
  Proof.
    intros V BT H HC. destruct (task_moves _ _ _ _ _ _ H HC) as (tk & st' & sp & Hi & N & Et & Sp & _ & _ & W).
    assert (Hk : btask tk) by (apply BT; eapply nth_error_In; eauto). destruct Hk as [Ha Hg]. destruct (v_tasks _ _ _ V _ _ Hi) as (e & Hj & Hs). rewrite Hj in Hg.
    assert (sp = []) by (destruct Sp as [|(q & k & X & _)]; [assumption|]; rewrite X in Hs; cbn [serving] in Hs; inversion Hs). subst sp. cbn [map] in Et. rewrite app_nil_r in Et.
    assert (A' : Acc nxt st') by (eapply Acc_inv; eauto).
    split.
    - intros tj Hin. rewrite Et in Hin. apply in_put in Hin. destruct Hin as [->|Hin]; [|auto]. split; [exact A'|]. cbn [tk_job tk_st]. rewrite Hj. intros G. specialize (Hg G).
      cbn [step] in H. unfold task_step in H. rewrite Hi, Hj in H.
      assert (SET : forall st s1, e_tasks s1 = e_tasks s -> e_tasks (set_task i st s1) = e_tasks s' -> st = st').
      { intros st s1 E1 E2. assert (X : nth_error (e_tasks (set_task i st s1)) i = Some (mk_task (tk_job tk) st)) by (rewrite nth_set_task, E1, Nat.eqb_refl, Hi; reflexivity). rewrite E2, Et, nth_put, Nat.eqb_refl, Hi in X. congruence. }
      destruct (tk_st tk) as [p|? ? ?|c0 a0 [k|c k|c k|ok]|? ? ?|? ? ? ?|? ?|? ? ?|x| |] eqn:Es; cbn [serving] in Hs; try (destruct Hs; fail); try discriminate H.
      + subst p. destruct a as [t v| | |]; try discriminate H. unfold run_prog in H. cbn [answer_event] in H. apply some_pair in H. destruct H as [H _].
        rewrite <- (SET _ (next_id s) (tasks_next_id s) (f_equal e_tasks H)). reflexivity.
      + destruct Hg.
      + destruct a as [t v| | |]; try discriminate H; (apply some_pair in H; destruct H as [H _]; rewrite <- (SET _ s eq_refl (f_equal e_tasks H)); destruct ok; exact I).
      + destruct a as [t v| | |]; try discriminate H; (apply some_pair in H; destruct H as [H _]; rewrite <- (SET _ (unlisten x s) (tasks_unlisten s x) (f_equal e_tasks H))); exact I.
    - pose proof (mlt_task (lvB E) (e_tasks s) i tk (mk_task (tk_job tk) st') (vitems (wired os)) [] 0 0 Hi eq_refl Ha N) as M. cbn [repeat app] in M. rewrite !app_nil_r in M. unfold itemsB. rewrite Et. apply M; [| |lia].
      + destruct W as [->|(ctx & a0 & pu & X & ->)]; [constructor|]. constructor; [|constructor]. split; [exact acc_done|]. left. cbn [fst]. unfold lvB. rewrite Hj, levA_drop. rewrite X in Hg.
        destruct (good_err E e); [specialize (Hg eq_refl); destruct pu; try contradiction; lia|pose proof (levA_le a0); lia].
      + unfold lvB. rewrite Hj. destruct (good_err E e); lia.
  Qed.
  Lemma server_recv_less s tr e s' os : server false s tr -> btasks s -> step cf s (LRecv 0 e) = Some (s', os) -> btasks s' /\ wired os = [] /\ mlt ilt (itemsB s') ((levB E e, TDone) :: itemsB s).
  Proof.
    intros V BT H. destruct V as [A B C D T]. cbn [step] in H. rewrite D in H. cbn [nth_error cn_loop] in H.
    unfold receive in H. rewrite A in H. cbn [lookup] in H.
    replace (match ev_ref e with Some _ => None | None => None end) with (@None nat) in H by (destruct (ev_ref e); reflexivity).
    destruct (etype_eqb (ev_type e) End) eqn:Ee.
    - apply some_pair in H. destruct H as [<- <-]. split; [exact BT|]. split; [reflexivity|]. exists (levB E e, TDone), [], [], (itemsB s). split; [reflexivity|]. split; [reflexivity|constructor].
    - assert (HE : forall (h : event_handler callback) sc, h = callbacks cf sc -> (good_err E e = true -> sc = None) -> let s1 := fst (handle_event s 0 h sc e) in btasks s1 /\ mlt ilt (itemsB s1) ((levB E e, TDone) :: itemsB s)).
      { intros h sc Hh Hsc s1. subst s1. unfold handle_event. cbn [fst]. set (tk := mk_task _ _). unfold btasks, itemsB. rewrite tasks_add_task.
        assert (NB : btask tk).
        { split; subst tk; cbn [tk_st tk_job].
          - destruct (eh_get h (ev_name e)) as [cb|] eqn:Eg; [|apply acc_ends; constructor]. apply acc_ends. eapply AE. rewrite <- Hh. exact Eg.
          - intros G. rewrite Hh, (Hsc G). cbn [callbacks]. unfold good_err in G. apply andb_true_iff in G. destruct G as [G1 G2]. apply andb_true_iff in G1. destruct G1 as [G1 _]. apply bytes_eqb_spec in G1. rewrite G1, KE.
            unfold default_error. destruct (error_dec E (ev_data e)); [reflexivity|discriminate|discriminate]. }
        split; [intros tj Hin; apply in_snoc in Hin; destruct Hin as [Hin| ->]; [auto|exact NB]|].
        exists (levB E e, TDone), [(lvB E tk, tk_st tk)], [], (titems (lvB E) (e_tasks s)). split; [reflexivity|]. split.
        - unfold titems at 1. rewrite map_app. cbn [map app]. symmetry. apply Permutation_cons_append.
        - constructor; [|constructor]. split; [apply NB|]. left. cbn [fst]. unfold lvB, levB. subst tk. cbn [tk_job]. rewrite Ee. destruct (good_err E e); lia. }
      destruct (match ev_ns e with Some ns => lookup bytes_eqb ns (cf_namespaces cf) | None => None end) as [nsp|] eqn:En; unfold handle_event in *; apply some_pair in H; destruct H as [<- <-].
      + destruct (HE (ns_handler nsp) (ev_ns e)) as [X1 X2]; [unfold callbacks; destruct (ev_ns e); [|discriminate]; rewrite En; reflexivity| |auto].
        unfold good_err. intros G. destruct (ev_ns e); [|reflexivity]. rewrite andb_false_r in G. discriminate.
      + destruct (HE (cf_handler cf) None) as [X1 X2]; [reflexivity|reflexivity|auto].
  Qed.
  Lemma server_own_less s tr l s' os : server false s tr -> btasks s -> step cf s l = Some (s', os) -> existsb is_cut os = false -> own_label l = true -> l <> LOther ->
    btasks s' /\ mlt ilt (itemsB s' ++ vitems (wired os)) (itemsB s).
  Proof.
    intros V BT H HC OW NO. pose proof V as [A B C D T]. destruct l as [i a|n e|n|n|n|h|]; try discriminate OW.
    - eapply server_task_less; eauto.
    - cbn [step] in H. rewrite D in H. destruct n as [|[|n]]; discriminate H.
    - cbn [step] in H. rewrite D in H. destruct n as [|[|n]]; discriminate H.
    - cbn [step] in H. rewrite C in H. destruct h; discriminate H.
    - destruct NO; reflexivity.
  Qed.
End Server.

Section Requests.
  Context (cf : side -> config) (ps : side -> list prog) (ctr : side -> N).
  Hypothesis Q : quiet (cf SideA).
  Hypothesis AR : all_return (cf SideA).
  Hypothesis NE : eh_get (cf_handler (cf SideA)) END_EVENT_NAME = None.
  Hypothesis PA : Forall ends (ps SideA).
  Hypothesis RO : only_replies (cf SideB).
  Hypothesis AE : all_end (cf SideB).
  Hypothesis KE : keeps_error_handler (cf SideB).
  Hypothesis PB : ps SideB = [].
  Hypothesis DF : debug_fits (cf SideA) (cf_env (cf SideB)).
  Local Notation EB := (cf_env (cf SideB)).
  Local Notation pruns' := (pruns cf ps ctr (fun _ => [])).
  Lemma one_conn ls p tr : pruns' ls p tr -> exists cn, e_conns (p_ep p SideA) = [cn].
  Proof.
    intros H. destruct (project _ _ _ _ _ _ _ H SideA) as (l & R & _). pose proof (conns_len _ _ _ _ _ _ _ _ R) as L. destruct (e_conns (p_ep p SideA)) as [|cn [|? ?]]; try discriminate L. eauto.
  Qed.
  Lemma serves' ls p tr : pruns' ls p tr -> server false (p_ep p SideB) (at_side SideB tr).
  Proof. intros H. destruct (project _ _ _ _ _ _ _ H SideB) as (l & R & _ & _ & NC & _). rewrite PB in R. eapply inv_server; eauto. Qed.
  Definition all_items (p : pair) : list item := itemsA (p_ep p SideA) ++ vitems (p_in p SideA) ++ itemsB (cf SideB) (p_ep p SideB) ++ witems EB (p_in p SideB).
  Definition good (p : pair) : Prop := atasks EB (p_ep p SideA) /\ btasks (cf SideB) (p_ep p SideB).
  Lemma next_less ls p tr l p' os : pruns' ls p tr -> good p -> idle_label l = false -> pstep cf p l = Some (p', os) -> good p' /\ mlt ilt (all_items p') (all_items p).
  Proof.
    intros HR [GA GB] NI H. destruct (one_conn _ _ _ HR) as (cn & C). pose proof (serves' _ _ _ HR) as V. apply pstep_view in H. unfold good, all_items.
    destruct H as [sd l s' o A B HC D F I J K|sd e v s' o A B D F I J K]; subst os s'; destruct sd; cbn [other] in *.
    - assert (NO : l <> LOther) by (intros ->; discriminate NI). destruct (own_less (cf SideA) EB Q AR NE DF _ _ _ _ _ GA C B HC A NO) as [X Y]. rewrite F, I, J. split; [auto|]. fold (wired o).
      eapply (mlt_ctx ilt (vitems (p_in p SideA) ++ itemsB (cf SideB) (p_ep p SideB) ++ witems EB (p_in p SideB))); [exact Y|reflexivity|]. unfold witems. rewrite map_app. rewrite <- !app_assoc. apply Permutation_app_head.
      rewrite (Permutation_app_comm (map _ (wired o))). rewrite <- !app_assoc. reflexivity.
    - assert (NO : l <> LOther) by (intros ->; discriminate NI). destruct (server_own_less (cf SideB) _ _ _ _ _ V GB B HC A NO) as [X Y]. rewrite F, I, J. split; [auto|]. fold (wired o).
      set (a := itemsA (p_ep p SideA)). set (c := witems EB (p_in p SideB)). unfold vitems in *. rewrite map_app. set (b := map _ (p_in p SideA)). set (w := map _ (wired o)) in *. set (x := itemsB _ (p_ep p SideB)) in *. set (x' := itemsB _ (p_ep p' SideB)) in *.
      eapply (mlt_ctx ilt (a ++ b ++ c)); [exact Y| |].
      + rewrite (Permutation_app_swap_app x a). apply Permutation_app_head. apply Permutation_app_swap_app.
      + rewrite <- !app_assoc. rewrite (Permutation_app_swap_app w a), (Permutation_app_swap_app x' a). apply Permutation_app_head. rewrite (Permutation_app_swap_app w b), (Permutation_app_swap_app x' b). apply Permutation_app_head. apply Permutation_app_swap_app.
    - destruct (recv_less (cf SideA) EB Q AR NE _ _ _ _ _ GA C B) as (X & _ & Y). rewrite F, I, J, A. split; [auto|]. cbn [vitems map]. fold (vitems v).
      eapply (mlt_ctx ilt (vitems v ++ itemsB (cf SideB) (p_ep p SideB) ++ witems EB (p_in p SideB))); [exact Y| |reflexivity]. cbn [app]. symmetry. apply Permutation_middle.
    - destruct (server_recv_less (cf SideB) AE KE _ _ _ _ _ V GB B) as (X & _ & Y). rewrite F, I, J, A. split; [auto|]. cbn [witems map]. fold (witems EB v).
      set (a := itemsA (p_ep p SideA)). set (b := vitems (p_in p SideA)). set (c := witems EB v). set (x := itemsB _ (p_ep p SideB)) in *. set (x' := itemsB _ (p_ep p' SideB)) in *.
      eapply (mlt_ctx ilt (a ++ b ++ c)); [exact Y| |].
      + cbn [app]. rewrite (Permutation_app_swap_app x a), (Permutation_app_swap_app x b). rewrite <- !Permutation_middle. constructor. reflexivity.
      + rewrite (Permutation_app_swap_app x' a). apply Permutation_app_head. apply Permutation_app_swap_app.
  Qed.
  Lemma start_good : good (pair_new ps ctr (fun _ => [])).
  Proof.
    split; intros tk Hin; cbn in Hin.
    - apply in_map_iff in Hin. destruct Hin as (q & <- & Hq). split; [|exact I]. cbn [tk_st]. apply acc_ends. rewrite Forall_forall in PA. auto.
    - rewrite PB in Hin. destruct Hin.
  Qed.
  Lemma all_good ls p tr : pruns' ls p tr -> good p.
  Proof.
    apply (prun_ind cf _ (fun ls p tr => good p)); [exact start_good|]. intros ls0 p0 tr0 l p' os IH HR H. destruct (idle_label l) eqn:El; [|eapply next_less; eauto].
    apply pstep_view in H. destruct IH as [GA GB]. destruct H as [sd l s' o A B HC D F I J K|sd e v s' o A B D F I J K]; [|discriminate El]. destruct l; try discriminate El. cbn [step] in B. apply some_pair in B. destruct B as [<- _].
    destruct sd; cbn [other] in *; split; rewrite ?D, ?F; auto.
  Qed.
  Lemma items_acc p : good p -> Forall (Acc ilt) (all_items p).
  Proof.
    intros [GA GB]. unfold all_items, itemsA, itemsB. rewrite !Forall_app. repeat split; apply Forall_forall; intros x Hx.
    - apply in_map_iff in Hx. destruct Hx as (tk & <- & Hx). apply acc_item. apply GA. exact Hx.
    - apply in_map_iff in Hx. destruct Hx as (e & <- & Hx). apply acc_item. exact acc_done.
    - apply repeat_spec in Hx. subst x. apply acc_item. exact acc_done.
    - apply in_map_iff in Hx. destruct Hx as (e & <- & Hx). apply acc_item. exact acc_done.
    - apply in_map_iff in Hx. destruct Hx as (tk & <- & Hx). apply acc_item. apply GB. exact Hx.
    - apply in_map_iff in Hx. destruct Hx as (e & <- & Hx). apply acc_item. exact acc_done.
  Qed.
  Lemma requests_rest ls p tr : pruns' ls p tr -> Acc (next_state cf) p.
  Proof.
    intros HR. pose proof (mlt_acc ilt _ (items_acc _ (all_good _ _ _ HR))) as A. remember (all_items p) as m eqn:Em. revert ls p tr HR Em. induction A as [m _ IH]. intros ls p tr HR ->.
    constructor. intros p' (l & os & NI & H). destruct (next_less _ _ _ _ _ _ HR (all_good _ _ _ HR) NI H) as [_ L]. eapply (IH _ L); [eapply psnoc_run; eauto|reflexivity].
  Qed.
End Requests.

(** ** Rest is reached *)
Lemma cannot_cut cf s i t v s' os : step cf s (LTask i (AStep t v)) = Some (s', os) -> existsb is_cut os = false.
Proof. intros H. step_cases H; reflexivity. Qed.
Lemma answer_some cf ctx nid r : exists a, answer_event cf ctx nid r = Ok a.
Proof. destruct r; cbn; eexists; reflexivity. Qed.
Lemma stuck_any cf s i t v t' v' : step cf s (LTask i (AStep t v)) = None -> step cf s (LTask i (AStep t' v')) = None.
Proof.
  cbn [step]. unfold task_step. destruct (nth_error (e_tasks s) i) as [tk|]; [|auto]. destruct (tk_st tk) as [p|ctx e w|ctx e pu|c x k|c x e k|h k|h oe k|x| |]; auto.
  unfold run_prog. cbn zeta. destruct p as [r| |rq k|rq k|rq k|h k|n k|k|q k]; auto; try (destruct (rq_payload rq); intros H; discriminate H).
  - destruct (tk_job tk) as [[ctx x]|]; [|auto]. destruct (answer_some cf ctx (nth_id t (e_ctr s)) r) as (a & ->). intros H. discriminate H.
  - intros H. discriminate H.
Qed.
Lemma none_or_some {A} (f : nat -> option A) n : (forall i, (i < n)%nat -> f i = None) \/ exists i a, f i = Some a.
Proof.
  induction n as [|n [IH|IH]]; [left; intros; lia| |auto]. destruct (f n) as [a|] eqn:E; [right; eauto|]. left. intros i H. destruct (Nat.eq_dec i n) as [->|N]; [exact E|apply IH; lia].
Qed.
Definition t0 : instant := mk_instant 0 0.
Lemma side_rest cf p sd : (forall l, own_label l = true -> goes_on (PDo sd l) = true -> pstep cf p (PDo sd l) = None) \/
  exists l p' os, goes_on (PDo sd l) = true /\ pstep cf p (PDo sd l) = Some (p', os) /\ forall i t v, l = LTask i (AStep t v) -> t = t0.
Proof.
  assert (P : forall l s' os, own_label l = true -> goes_on (PDo sd l) = true -> step (cf sd) (p_ep p sd) l = Some (s', os) -> existsb is_cut os = false -> (forall i t v, l = LTask i (AStep t v) -> t = t0) ->
    exists l p' os, goes_on (PDo sd l) = true /\ pstep cf p (PDo sd l) = Some (p', os) /\ forall i t v, l = LTask i (AStep t v) -> t = t0).
  { intros l s' os O G H C T. exists l. cbn [pstep]. rewrite O, H, C. do 2 eexists. eauto. }
  destruct (none_or_some (fun i => step (cf sd) (p_ep p sd) (LTask i (AStep t0 0))) (length (e_tasks (p_ep p sd)))) as [H1|(i & [s' os] & H1)].
  2:{ right. eapply P; [| |exact H1|eapply cannot_cut; exact H1|]; [reflexivity|reflexivity|]. intros j t v X. congruence. }
  destruct (none_or_some (fun n => step (cf sd) (p_ep p sd) (LPlace n)) (length (e_conns (p_ep p sd)))) as [H2|(n & [s' os] & H2)].
  2:{ right. eapply P; [| |exact H2| |]; [reflexivity|reflexivity| |discriminate]. step_cases H2; reflexivity. }
  destruct (none_or_some (fun n => step (cf sd) (p_ep p sd) (LAbort n)) (length (e_conns (p_ep p sd)))) as [H3|(n & [s' os] & H3)].
  2:{ right. eapply P; [| |exact H3| |]; [reflexivity|reflexivity| |discriminate]. step_cases H3; reflexivity. }
  left. intros l O G. cbn [pstep]. rewrite O. destruct l as [i [t v| | |]|n e|n|n|n|h|]; try discriminate G.
  - assert (X : step (cf sd) (p_ep p sd) (LTask i (AStep t v)) = None); [|rewrite X; reflexivity]. apply (stuck_any _ _ _ t0 0). destruct (Nat.lt_ge_cases i (length (e_tasks (p_ep p sd)))) as [L|L]; [apply H1; exact L|].
    apply nth_error_None in L. cbn [step]. unfold task_step. rewrite L. reflexivity.
  - assert (X : step (cf sd) (p_ep p sd) (LPlace n) = None); [|rewrite X; reflexivity]. destruct (Nat.lt_ge_cases n (length (e_conns (p_ep p sd)))) as [L|L]; [apply H2; exact L|]. apply nth_error_None in L. cbn [step]. rewrite L. reflexivity.
  - assert (X : step (cf sd) (p_ep p sd) (LAbort n) = None); [|rewrite X; reflexivity]. destruct (Nat.lt_ge_cases n (length (e_conns (p_ep p sd)))) as [L|L]; [apply H3; exact L|]. apply nth_error_None in L. cbn [step]. rewrite L. reflexivity.
Qed.
Lemma rest_or_on cf p : at_rest cf p \/ exists l p' os, goes_on l = true /\ pstep cf p l = Some (p', os) /\ forall sd i t v, l = PDo sd (LTask i (AStep t v)) -> t = t0.
Proof.
  assert (S1 : forall sd, (forall l, goes_on (PDo sd l) = true -> pstep cf p (PDo sd l) = None) \/ exists l p' os, goes_on l = true /\ pstep cf p l = Some (p', os) /\ forall sd i t v, l = PDo sd (LTask i (AStep t v)) -> t = t0).
  { intros sd. destruct (side_rest cf p sd) as [H|(l & p' & os & A & B & C)].
    - left. intros l G. destruct (own_label l) eqn:O; [auto|]. cbn [pstep]. rewrite O. reflexivity.
    - right. exists (PDo sd l), p', os. split; [exact A|]. split; [exact B|]. intros sd' i t v X. injection X as _ ->. eauto. }
  destruct (S1 SideA) as [HA|HA]; [|auto]. destruct (S1 SideB) as [HB|HB]; [|auto].
  assert (S2 : forall sd, pstep cf p (PDeliver sd) = None \/ exists l p' os, goes_on l = true /\ pstep cf p l = Some (p', os) /\ forall sd i t v, l = PDo sd (LTask i (AStep t v)) -> t = t0).
  { intros sd. destruct (pstep cf p (PDeliver sd)) as [[p' os]|] eqn:X; [|auto]. right. exists (PDeliver sd), p', os. split; [reflexivity|]. split; [exact X|discriminate]. }
  destruct (S2 SideA) as [DA|DA]; [|auto]. destruct (S2 SideB) as [DB|DB]; [|auto].
  left. intros [[|] l|[|]] G; auto.
Qed.
Lemma good_t0 : rust_instant t0. Proof. split; reflexivity. Qed.
Lemma acc_reaches cf p : Acc (next_state cf) p -> exists ls p' tr, prun cf p ls = Some (p', tr) /\ at_rest cf p' /\ good_clocks ls /\ Forall (fun l => goes_on l = true) ls.
Proof.
  induction 1 as [p _ IH]. destruct (rest_or_on cf p) as [R|(l & p1 & o1 & G & H & T)].
  - exists [], p, []. split; [reflexivity|]. split; [exact R|]. split; [intros sd i t v []|constructor].
  - destruct (IH p1) as (ls & p' & tr & A & B & C & D).
    + exists l, o1. split; [|exact H]. destruct l as [sd [| | | | | |]|sd]; try discriminate G; reflexivity.
    + exists (l :: ls), p', (o1 ++ tr). cbn [prun]. rewrite H, A. split; [reflexivity|]. split; [exact B|]. split; [|constructor; assumption].
      intros sd i t v [X|X]; [rewrite (T _ _ _ _ X); exact good_t0|exact (C _ _ _ _ X)].
Qed.
