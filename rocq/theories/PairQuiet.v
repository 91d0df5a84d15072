(** Proofs about two joined endpoints: cascades of automatic answers. *)
From Verif Require Import Base BaseFacts BuilderFacts Codec Spec Ids IdsFacts Payload Builder Emit EmitFacts Ipc SpecIpc IpcFacts IpcChanFacts IpcUsers IpcLoops IpcTasks Pair SpecPair PairFacts PairServer.
From Coq Require Import ZifyBool ZifyNat ZifyN.

Lemma silent_replier ctx : forall p, silent p -> replier ctx p.
Proof. cofix IH. intros p [r| |k Hk]; constructor. intros v. apply IH. apply Hk. Qed.
Lemma quiet_replies cf : quiet cf -> only_replies cf.
Proof. intros [Q _] sc name cb Hcb ctx e. apply silent_replier. eapply Q; eauto. Qed.

Fixpoint total {A} (f : A -> nat) (l : list A) : nat := match l with [] => 0 | x :: l' => f x + total f l' end.
Lemma total_app {A} (f : A -> nat) a b : total f (a ++ b) = (total f a + total f b)%nat.
Proof. induction a as [|x a IH]; cbn; [reflexivity|]. rewrite IH. lia. Qed.
Lemma total_put {A} (f : A -> nat) x l : forall i y, nth_error l i = Some y -> (total f (put i x l) + f y = total f l + f x)%nat.
Proof.
  induction l as [|z l IH]; intros [|i] y H; cbn in H; try discriminate.
  - injection H as ->. cbn. lia.
  - specialize (IH _ _ H). cbn. lia.
Qed.
Lemma total_le {A} (f : A -> nat) n l : (forall x, f x <= n)%nat -> (total f l <= n * length l)%nat.
Proof. intros H. induction l as [|x l IH]; cbn; [lia|]. specialize (H x). lia. Qed.

(** an Error event the predefined handler accepts *)
Definition good_err (E : env) (e : event) : bool :=
  bytes_eqb (ev_name e) ERROR_EVENT_NAME && match ev_ns e with None => true | Some _ => false end && match error_dec E (ev_data e) with Ok _ => true | _ => false end.
Definition ew (E : env) (e : event) : nat := if etype_eqb (ev_type e) End then 0 else if good_err E e then 1 else 2.
Definition tw (E E' : env) (tk : task) : nat :=
  match tk_st tk with
  | TRun _ => match tk_job tk with Some (_, e) => if good_err E e then 1 else 2 | None => 0 end
  | TSend _ a _ => S (ew E' a)
  | _ => 0
  end.
Definition quiet_task (E E' : env) (tk : task) : Prop :=
  match tk_st tk with
  | TRun p => silent p /\ match tk_job tk with Some (_, e) => good_err E e = true -> p = PRet (inl []) | None => False end
  | TSend _ a (ForAnswer _) => (ew E' a <= 1)%nat /\ drop_empty_ns a = a
  | TForget _ | TDone | TDead => True
  | _ => False
  end.
Definition sends (os : list obs) : nat := length (wired os).

Section Quiet.
  Context (cf : config) (E' : env) (armed : bool).
  Hypothesis Q : quiet cf.
  Hypothesis DF : debug_fits cf E'.
  Local Notation E := (cf_env cf).
  Lemma answer_weight ctx nid r a : answer_event cf ctx nid r = Ok a -> (ew E' a <= match r with inl _ => 0 | inr _ => 1 end)%nat /\ drop_empty_ns a = a.
  Proof.
    destruct r as [b|er]; unfold answer_event.
    - intros H. assert (a = event_new nid None END_EVENT_NAME b (c_ref ctx) End) by congruence. subst a. split; [apply Nat.le_0_l|reflexivity].
    - destruct (error_enc_ok (mk_err_data 500 (cf_debug cf er))) as (d & Hd). intros H.
      assert (Ea : a = event_new nid None ERROR_EVENT_NAME (be 2 500 ++ be 4 (blen (cf_debug cf er)) ++ cf_debug cf er) (c_ref ctx) Error) by (unfold omap, error_enc in H; cbn [ed_code ed_message] in H; congruence).
      rewrite Ea. split; [|reflexivity]. unfold ew. change (ev_type _) with Error. change (etype_eqb Error End) with false. cbn iota.
      assert (G : good_err E' (event_new nid None ERROR_EVENT_NAME (be 2 500 ++ be 4 (blen (cf_debug cf er)) ++ cf_debug cf er) (c_ref ctx) Error) = true).
      { unfold good_err. change (ev_name _) with ERROR_EVENT_NAME. change (ev_ns _) with (@None bytes).
        change (ev_data _) with (be 2 500 ++ be 4 (blen (cf_debug cf er)) ++ cf_debug cf er). rewrite (DF er (be 2 500 ++ be 4 (blen (cf_debug cf er)) ++ cf_debug cf er) eq_refl).
        rewrite (proj2 (bytes_eqb_spec _ _) eq_refl). reflexivity. }
      rewrite G. apply le_n.
  Qed.
  Definition quiet_tasks (s : ep) : Prop := forall i tk, nth_error (e_tasks s) i = Some tk -> quiet_task E E' tk.
  Definition tsum (s : ep) : nat := total (tw E E') (e_tasks s).
  Lemma quiet_set s i tk st s1 : quiet_tasks s -> nth_error (e_tasks s) i = Some tk -> quiet_task E E' (mk_task (tk_job tk) st) -> e_tasks s1 = e_tasks (set_task i st s) ->
    quiet_tasks s1 /\ (tsum s1 + tw E E' tk = tsum s + tw E E' (mk_task (tk_job tk) st))%nat.
  Proof.
    intros H Hi Hq Hs. split.
    - intros j tj. rewrite Hs, nth_set_task, Hi. cbn [option_map]. destruct (Nat.eqb_spec j i) as [->|N]; [|apply H]. intros X. injection X as <-. exact Hq.
    - unfold tsum. rewrite Hs. unfold set_task. rewrite Hi. cbn [e_tasks]. apply total_put. exact Hi.
  Qed.
  Lemma tasks_of_set i st s s1 : e_tasks s1 = e_tasks s -> e_tasks (set_task i st s1) = e_tasks (set_task i st s).
  Proof. intros H. unfold set_task. rewrite H. destruct (nth_error (e_tasks s) i); cbn [e_tasks]; rewrite ?H; reflexivity. Qed.

  Lemma quiet_step s tr l s' os : server armed s tr -> quiet_tasks s -> step cf s l = Some (s', os) -> (forall n, l <> LClosed n) ->
    quiet_tasks s' /\ (tsum s' + sends os + total (ew E') (wired os) <= tsum s + match l with LRecv _ e => ew E e | _ => 0 end)%nat.
  Proof.
    intros V QT H NC. pose proof V as [A B C D T]. destruct l as [i a|n e|n|n|n|h|].
    - cbn [step] in H. unfold task_step in H. destruct (nth_error (e_tasks s) i) as [tk|] eqn:Hi; [|discriminate].
      pose proof (QT _ _ Hi) as Hq. pose proof (T _ _ Hi) as (e & Hj & _). unfold quiet_task in Hq. rewrite Hj in *.
      destruct (tk_st tk) as [p|? ? ?|ctx a0 [k|c k|c k|ok]|? ? ?|? ? ? ?|? ?|? ? ?|x| |] eqn:Es; try contradiction; try discriminate H.
      + destruct Hq as [Hp Hg]. destruct a as [t v| | |]; try discriminate H. destruct Hp as [r| |k Hk]; unfold run_prog in H; cbn zeta in H.
        * destruct (answer_event cf (ctx0 e) (nth_id t (e_ctr s)) r) as [a|er|cr] eqn:Ha; try discriminate H. destruct (answer_weight _ _ _ _ Ha) as [W1 W2]. apply some_pair in H. destruct H as [<- <-].
          set (st1 := TSend (ctx0 e) a (ForAnswer (match r with inl _ => true | inr _ => false end))).
          destruct (quiet_set s i tk st1 (set_task i st1 (next_id s)) QT Hi) as [X1 X2]; [cbn; split; [destruct r; lia|exact W2]|apply tasks_of_set; apply tasks_next_id|]. split; [exact X1|].
          unfold tw in X2. rewrite Es, Hj in X2. cbn [tk_st tk_job] in X2. change (sends [OReturned i r]) with 0%nat. change (total (ew E') (wired [OReturned i r])) with 0%nat. subst st1. cbn iota beta in X2.
          destruct (good_err E e) eqn:Eg; [specialize (Hg eq_refl)|].
          -- injection Hg as ->. lia.
          -- destruct r; lia.
        * apply some_pair in H. destruct H as [<- <-]. destruct (quiet_set s i tk TDead (set_task i TDead s) QT Hi I eq_refl) as [X1 X2]. split; [exact X1|]. unfold tw in X2. cbn [tk_st] in X2. cbn [wired sends flat_map wire_of app length]. change (total (ew E') []) with 0%nat. lia.
        * apply some_pair in H. destruct H as [<- <-]. destruct (quiet_set s i tk (TRun (k v)) (set_task i (TRun (k v)) s) QT Hi) as [X1 X2]; [|reflexivity|].
          -- cbn. rewrite Hj. split; [apply Hk|]. intros G. specialize (Hg G). discriminate Hg.
          -- split; [exact X1|]. unfold tw in X2. rewrite Es in X2. cbn [tk_st tk_job] in X2. cbn [wired sends flat_map length]. change (total (ew E') []) with 0%nat. lia.
      + destruct a as [t v|io| |]; try discriminate H; apply some_pair in H; destruct H as [<- <-].
        * set (st1 := if ok then TForget (ev_id e) else TDone). replace (match ok with true => TForget (ev_id e) | false => TDone end) with st1 by (destruct ok; reflexivity).
          destruct (quiet_set s i tk st1 (set_task i st1 s) QT Hi) as [X1 X2]; [subst st1; destruct ok; exact I|reflexivity|]. split; [exact X1|].
          assert (tw E E' (mk_task (tk_job tk) st1) = 0%nat) by (subst st1; destruct ok; reflexivity).
          unfold tw in X2 at 1. rewrite Es in X2. cbn [wired sends flat_map wire_of app length]. cbn [total]. destruct Hq as [_ Hq]. rewrite Hq. lia.
        * set (st1 := if ok then TForget (ev_id e) else TDone). replace (match ok with true => TForget (ev_id e) | false => TDone end) with st1 by (destruct ok; reflexivity).
          destruct (quiet_set s i tk st1 (set_task i st1 s) QT Hi) as [X1 X2]; [subst st1; destruct ok; exact I|reflexivity|]. split; [exact X1|].
          assert (tw E E' (mk_task (tk_job tk) st1) = 0%nat) by (subst st1; destruct ok; reflexivity).
          cbn [wired sends flat_map wire_of app length]. change (total (ew E') []) with 0%nat. lia.
      + destruct a; try discriminate H. apply some_pair in H. destruct H as [<- <-]. destruct (quiet_set s i tk TDone (set_task i TDone (unlisten x s)) QT Hi I) as [X1 X2]; [apply tasks_of_set; apply tasks_unlisten|].
        split; [exact X1|]. unfold tw in X2. cbn [tk_st] in X2. cbn [wired sends flat_map wire_of app length]. change (total (ew E') []) with 0%nat. lia.
    - cbn [step] in H. rewrite D in H. destruct n as [|[|n]]; cbn [nth_error cn_loop] in H; try discriminate H.
      assert (HE : forall (h : event_handler callback) sc, h = callbacks cf sc -> (good_err E e = true -> sc = None) -> etype_eqb (ev_type e) End = false ->
          quiet_tasks (fst (handle_event s 0 h sc e)) /\ (tsum (fst (handle_event s 0 h sc e)) = tsum s + ew E e)%nat).
      { intros h sc Hh Hsc He. unfold handle_event. cbn [fst]. set (tk := mk_task _ _).
        assert (QK : quiet_task E E' tk).
        { subst tk. cbn. split.
          - destruct (eh_get h (ev_name e)) eqn:Eg; [|constructor]. destruct Q as [Q1 _]. eapply Q1. rewrite <- Hh. exact Eg.
          - intros G. rewrite Hh, (Hsc G). cbn [callbacks]. unfold good_err in G. apply andb_true_iff in G. destruct G as [G1 G2]. apply andb_true_iff in G1. destruct G1 as [G1 _]. apply bytes_eqb_spec in G1. rewrite G1.
            destruct Q as [_ Q2]. rewrite Q2. unfold default_error. destruct (error_dec E (ev_data e)); [reflexivity|discriminate|discriminate]. }
        split.
        - intros j tj X. rewrite tasks_add_task, nth_snoc in X. destruct (Nat.eqb_spec j (length (e_tasks s))); [injection X as <-; exact QK|eauto].
        - unfold tsum. rewrite tasks_add_task, total_app. f_equal. subst tk. cbn. unfold ew. rewrite He. lia. }
      unfold receive in H. rewrite A in H. cbn [lookup] in H.
      replace (match ev_ref e with Some _ => None | None => None end) with (@None nat) in H by (destruct (ev_ref e); reflexivity).
      destruct (etype_eqb (ev_type e) End) eqn:Ee.
      + apply some_pair in H. destruct H as [<- <-]. split; [exact QT|]. cbn [wired sends flat_map wire_of app length]. change (total (ew E') []) with 0%nat. lia.
      + destruct (match ev_ns e with Some ns => lookup bytes_eqb ns (cf_namespaces cf) | None => None end) as [nsp|] eqn:En.
        * unfold handle_event in H. apply some_pair in H. destruct H as [<- <-]. destruct (HE (ns_handler nsp) (ev_ns e)) as [X1 X2].
          -- unfold callbacks. destruct (ev_ns e); [|discriminate]. rewrite En. reflexivity.
          -- unfold good_err. intros G. destruct (ev_ns e); [|reflexivity]. rewrite andb_false_r in G. discriminate.
          -- reflexivity.
          -- unfold handle_event in X1, X2. cbn [fst] in X1, X2. split; [exact X1|]. cbn [wired sends flat_map wire_of app length]. change (total (ew E') []) with 0%nat. lia.
        * unfold handle_event in H. apply some_pair in H. destruct H as [<- <-]. destruct (HE (cf_handler cf) None) as [X1 X2]; [reflexivity|reflexivity|reflexivity|].
          unfold handle_event in X1, X2. cbn [fst] in X1, X2. split; [exact X1|]. cbn [wired sends flat_map wire_of app length]. change (total (ew E') []) with 0%nat. lia.
    - cbn [step] in H. rewrite D in H. destruct n as [|[|n]]; discriminate H.
    - destruct (NC n eq_refl).
    - cbn [step] in H. rewrite D in H. destruct n as [|[|n]]; discriminate H.
    - cbn [step] in H. rewrite C in H. destruct h; discriminate H.
    - cbn [step] in H. apply some_pair in H. destruct H as [<- <-]. split; [intros i tk; rewrite tasks_next_id; apply QT|]. unfold tsum. rewrite tasks_next_id. cbn. lia.
  Qed.
End Quiet.

Lemma count_app a b : count_sent (a ++ b) = (count_sent a + count_sent b)%nat.
Proof. unfold count_sent. rewrite filter_app, app_length. reflexivity. Qed.
Lemma count_map sd os : count_sent (map (fun o => (sd, o)) os) = sends os.
Proof. unfold sends, count_sent, wired. induction os as [|o os IH]; [reflexivity|]. cbn [map filter flat_map]. rewrite app_length, <- IH. destruct o; reflexivity. Qed.

Section Cascade.
  Context (cf : side -> config) (ctr : side -> N) (w : side -> list event).
  Hypothesis Q : forall sd, quiet (cf sd).
  Hypothesis DF : forall sd, debug_fits (cf sd) (cf_env (cf (other sd))).
  Local Notation pruns' := (pruns cf (fun _ => []) ctr w).
  Definition load (p : pair) (sd : side) : nat := total (ew (cf_env (cf sd))) (p_in p sd) + tsum (cf sd) (cf_env (cf (other sd))) (p_ep p sd).
  Lemma side_server ls p tr sd : pruns' ls p tr -> server (side_eqb sd SideA) (p_ep p sd) (at_side sd tr).
  Proof. intros H. destruct (project _ _ _ _ _ _ _ H sd) as (la & R & _ & _ & NC & _). eapply inv_server; eauto. apply quiet_replies. apply Q. Qed.
  Lemma side_step p l s' o sd tr : server (side_eqb sd SideA) (p_ep p sd) tr -> quiet_tasks (cf sd) (cf_env (cf (other sd))) (p_ep p sd) -> step (cf sd) (p_ep p sd) l = Some (s', o) -> (forall n, l <> LClosed n) ->
    quiet_tasks (cf sd) (cf_env (cf (other sd))) s' /\ (tsum (cf sd) (cf_env (cf (other sd))) s' + sends o + total (ew (cf_env (cf (other sd)))) (wired o)
      <= tsum (cf sd) (cf_env (cf (other sd))) (p_ep p sd) + match l with LRecv _ e => ew (cf_env (cf sd)) e | _ => 0 end)%nat.
  Proof. intros V T H NC. eapply quiet_step; eauto. Qed.
  Lemma cascade ls p tr : pruns' ls p tr -> (forall sd, quiet_tasks (cf sd) (cf_env (cf (other sd))) (p_ep p sd))
    /\ (load p SideA + load p SideB + count_sent tr <= load (pair_new (fun _ => []) ctr w) SideA + load (pair_new (fun _ => []) ctr w) SideB)%nat.
  Proof.
    intros HR. revert ls p tr HR.
    apply (prun_ind cf _ (fun ls p tr => (forall sd, quiet_tasks (cf sd) (cf_env (cf (other sd))) (p_ep p sd))
      /\ (load p SideA + load p SideB + count_sent tr <= load (pair_new (fun _ => []) ctr w) SideA + load (pair_new (fun _ => []) ctr w) SideB)%nat)).
    - split; [intros sd [|i] tk X; discriminate X|]. unfold count_sent. cbn [filter length]. lia.
    - intros ls p tr l p' os [IH1 IH2] HR H.
      enough (G : (forall sd, quiet_tasks (cf sd) (cf_env (cf (other sd))) (p_ep p' sd)) /\ (load p' SideA + load p' SideB + count_sent os <= load p SideA + load p SideB)%nat) by (rewrite count_app; split; [apply G|lia]).
      assert (G : exists sd, quiet_tasks (cf sd) (cf_env (cf (other sd))) (p_ep p' sd) /\ p_ep p' (other sd) = p_ep p (other sd) /\ (load p' sd + load p' (other sd) + count_sent os <= load p sd + load p (other sd))%nat).
      { pose proof (pstep_view _ _ _ _ _ H) as V. destruct V as [sd l s' o A B C D F G I K|sd e v s' o A B D F G I K]; exists sd; subst os s'; rewrite count_map.
        - destruct (side_step _ _ _ _ _ _ (side_server _ _ _ sd HR) (IH1 sd) B) as [X1 X2]; [intros n ->; discriminate|]. split; [exact X1|]. split; [exact F|].
          unfold load. rewrite F, I, G, total_app. fold (wired o). destruct l; try discriminate A; lia.
        - destruct (side_step _ _ _ _ _ _ (side_server _ _ _ sd HR) (IH1 sd) B) as [X1 X2]; [intros n; discriminate|]. split; [exact X1|]. split; [exact F|].
          unfold load. rewrite F, I, G, A. cbn [total]. destruct (recv_uncut _ _ _ _ _ _ B) as [_ W]. fold (wired o) in W. rewrite W in X2. cbn [total] in X2. lia. }
      destruct G as (sd & G1 & G2 & G3). split.
      + intros sd'. destruct (two_sides sd sd') as [ -> | -> ]; [exact G1|rewrite G2; apply IH1].
      + destruct sd; cbn [other] in G3; lia.
  Qed.
  Lemma bounded_cascade ls p tr : pruns' ls p tr -> (count_sent tr <= 2 * (length (w SideA) + length (w SideB)))%nat.
  Proof.
    intros HR. destruct (cascade _ _ _ HR) as [_ H].
    assert (L : forall sd, (load (pair_new (fun _ => []) ctr w) sd <= 2 * length (w sd))%nat).
    { intros sd. unfold load. cbn [p_in pair_new p_ep ep_new e_tasks map]. unfold tsum. cbn [e_tasks map total ep_new]. rewrite Nat.add_0_r. apply total_le. intros e. unfold ew. destruct (etype_eqb (ev_type e) End), (good_err (cf_env (cf sd)) e); lia. }
    pose proof (L SideA). pose proof (L SideB). lia.
  Qed.
End Cascade.
