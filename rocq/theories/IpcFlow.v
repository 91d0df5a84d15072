(** Proofs about endpoints: completeness of streams, back pressure, stopping (C42-C44, C51). *)
From Verif Require Import Base Reader BaseFacts BuilderFacts Codec Spec Ids IdsFacts Payload Builder Emit EmitFacts Ipc SpecIpc IpcFacts IpcChanFacts IpcUsers IpcLoops IpcIds IpcTasks IpcReplies IpcStreams IpcClaims IpcMore.
From Coq Require Import ZifyBool ZifyNat ZifyN.

Definition lp (s : ep) (n : nat) : option loop := option_map cn_loop (nth_error (e_conns s) n).
Definition held (s : ep) (n c : nat) : list event := match lp s n with Some (LSend d e) => if Nat.eqb d c then [e] else [] | _ => [] end.
Lemma received_for_app n x a b : received_for n x (a ++ b) = received_for n x a ++ received_for n x b. Proof. apply flat_map_app. Qed.
Lemma queued_by_app n c a b : queued_by n c (a ++ b) = queued_by n c a ++ queued_by n c b. Proof. apply flat_map_app. Qed.
Lemma stops_app n a b : stops n (a ++ b) = stops n a ++ stops n b. Proof. apply flat_map_app. Qed.
Lemma not_about n os : existsb (about n) os = false -> (forall x, received_for n x os = []) /\ (forall c, queued_by n c os = []) /\ ~ In (OAborted n) os.
Proof.
  induction os as [|o os IH]; cbn [existsb]; [cbn; auto|]. intros H. apply orb_false_iff in H. destruct H as [H1 H2]. destruct (IH H2) as (A & B & C).
  repeat split.
  - intros x. unfold received_for in *. cbn [flat_map]. rewrite A. destruct o; try reflexivity. cbn in *. rewrite H1. reflexivity.
  - intros c. unfold queued_by in *. cbn [flat_map]. rewrite B. destruct o; try reflexivity. cbn in *. rewrite H1. reflexivity.
  - intros [Q|Q]; [|exact (C Q)]. subst o. cbn in H1. rewrite Nat.eqb_refl in H1. discriminate.
Qed.

Lemma received_one n x e : received_for n x [OReceived n e] = match ev_ref e with Some r => if N.eqb r x then [e] else [] | None => [] end.
Proof. unfold received_for. cbn [flat_map recv_one]. rewrite Nat.eqb_refl, app_nil_r. reflexivity. Qed.
Lemma queued_one n c d e : queued_by n c [OQueued n d e] = if Nat.eqb d c then [e] else [].
Proof. unfold queued_by. cbn [flat_map put_one]. rewrite Nat.eqb_refl, app_nil_r. reflexivity. Qed.

Section Flow.
  Context (cf : config) (nc : nat) (armed : bool) (ps : list prog) (ctr : N).
  Notation runs' := (runs cf nc armed ps ctr).
  (** ** Stopping *)
  Definition conn_trace (tr : list obs) (n : nat) (cn : conn) : Prop :=
    if cn_armed cn then armed = true /\ stops n tr = [] /\ cn_signal cn = false /\ ~ In (OAborted n) tr
    else if armed then (exists k, stops n tr = true :: repeat false k) /\ (cn_signal cn = true -> ~ In (OAborted n) tr) /\ (cn_signal cn = false -> In (OAborted n) tr /\ cn_loop cn = LDone)
    else (exists k, stops n tr = repeat false k) /\ cn_signal cn = false /\ ~ In (OAborted n) tr.
  Lemma inv_conn ls s tr : runs' ls s tr -> forall n, match nth_error (e_conns s) n with Some cn => conn_trace tr n cn | None => ~ In (OAborted n) tr end.
  Proof.
    apply (run_ind cf _ (fun ls s tr => forall n, match nth_error (e_conns s) n with Some cn => conn_trace tr n cn | None => ~ In (OAborted n) tr end)).
    { intros n. cbn [ep_new e_conns]. destruct (nth_error (repeat (mk_conn LRun armed false) nc) n) as [cn|] eqn:E; [|auto].
      apply nth_error_In, repeat_spec in E. subst cn. unfold conn_trace. cbn. destruct armed; repeat split; auto. exists 0%nat. reflexivity. }
    clear ls s tr. intros ls s tr l s' os IH HR H n. specialize (IH n).
    assert (Q : (nth_error (e_conns s') n = nth_error (e_conns s) n /\ stops n os = [] /\ ~ In (OAborted n) os)
      \/ (exists cn lp', nth_error (e_conns s) n = Some cn /\ cn_loop cn <> LDone /\ nth_error (e_conns s') n = Some (mk_conn lp' (cn_armed cn) (cn_signal cn)) /\ stops n os = [] /\ ~ In (OAborted n) os)
      \/ (exists cn, nth_error (e_conns s) n = Some cn /\ cn_signal cn = true /\ nth_error (e_conns s') n = Some (mk_conn LDone (cn_armed cn) false) /\ os = [OAborted n])
      \/ (exists cn i, nth_error (e_conns s) n = Some cn /\ cn_armed cn = true /\ nth_error (e_conns s') n = Some (mk_conn (cn_loop cn) false true) /\ os = [OStop i n true])
      \/ (exists cn i, nth_error (e_conns s) n = Some cn /\ cn_armed cn = false /\ nth_error (e_conns s') n = Some cn /\ os = [OStop i n false])).
    { clear IH HR. destruct l as [i a|m e|m|m|m|h|].
      - cbn [step] in H. unfold task_step in H. destruct (nth_error (e_tasks s) i) as [tk|] eqn:Et; [|discriminate].
        destruct (tk_st tk) as [p|ctx1 e1 w|ctx1 e1 pu|d rid k1|d rid e1 k1|h1 k1|h1 oe k1|rid| |] eqn:Es; destruct a; try discriminate H.
        2-14: left; step_cases H; autorewrite with ep; (split; [reflexivity|]); (split; [reflexivity|]); cbn [In]; intuition discriminate.
        unfold run_prog in H. destruct p as [r| |rq k|rq k|rq k|h1 k|m k|k|q k];
          try (left; step_cases H; autorewrite with ep; (split; [reflexivity|]); (split; [reflexivity|]); cbn [In]; intuition discriminate).
        cbn zeta in H. destruct (nth_error (e_conns s) m) as [cn|] eqn:Ec; [|discriminate]. destruct (Nat.eq_dec m n) as [->|N].
        + destruct (cn_armed cn) eqn:Ea; apply some_pair in H; destruct H as [<- <-]; autorewrite with ep; rewrite ?Nat.eqb_refl, ?Ec.
          * right; right; right; left. exists cn, i. auto.
          * right; right; right; right. exists cn, i. auto.
        + left. destruct (cn_armed cn); apply some_pair in H; destruct H as [<- <-]; autorewrite with ep; rewrite ?(proj2 (Nat.eqb_neq n m)) by congruence;
            (split; [reflexivity|]); cbn; rewrite (proj2 (Nat.eqb_neq m n)) by congruence; (split; [reflexivity|]); intuition discriminate.
      - destruct (Nat.eq_dec m n) as [->|N].
        + cbn [step] in H. destruct (nth_error (e_conns s) n) as [cn|] eqn:Ec; [|discriminate]. destruct (cn_loop cn) eqn:El; try discriminate.
          unfold receive in H. destruct (match ev_ref e with Some r => lookup N.eqb r (e_lis s) | None => None end).
          * apply some_pair in H; destruct H as [<- <-]. right; left. exists cn, (LSend n0 e). autorewrite with ep. rewrite Nat.eqb_refl, Ec. repeat split; try congruence. cbn; intuition discriminate.
          * left. step_cases H; autorewrite with ep; rewrite ?Ec; (split; [reflexivity|]); (split; [reflexivity|]); cbn [In]; intuition discriminate.
        + left. step_cases H; autorewrite with ep; rewrite ?(proj2 (Nat.eqb_neq n m)) by congruence; (split; [reflexivity|]); (split; [reflexivity|]); cbn [In]; intuition discriminate.
      - destruct (Nat.eq_dec m n) as [->|N].
        + cbn [step] in H. destruct (nth_error (e_conns s) n) as [cn|] eqn:Ec; [|discriminate]. destruct (cn_loop cn) eqn:El; try discriminate.
          right; left. exists cn, LRun. step_cases H; autorewrite with ep; rewrite Nat.eqb_refl, Ec; repeat split; try congruence; cbn; intuition discriminate.
        + left. step_cases H; autorewrite with ep; rewrite ?(proj2 (Nat.eqb_neq n m)) by congruence; (split; [reflexivity|]); (split; [reflexivity|]); cbn [In]; intuition discriminate.
      - destruct (Nat.eq_dec m n) as [->|N].
        + cbn [step] in H. destruct (nth_error (e_conns s) n) as [cn|] eqn:Ec; [|discriminate]. destruct (cn_loop cn) eqn:El; try discriminate.
          right; left. exists cn, LDone. step_cases H; autorewrite with ep; rewrite Nat.eqb_refl, Ec; repeat split; try congruence; cbn; intuition discriminate.
        + left. step_cases H; autorewrite with ep; rewrite ?(proj2 (Nat.eqb_neq n m)) by congruence; (split; [reflexivity|]); (split; [reflexivity|]); cbn [In]; intuition discriminate.
      - destruct (Nat.eq_dec m n) as [->|N].
        + cbn [step] in H. destruct (nth_error (e_conns s) n) as [cn|] eqn:Ec; [|discriminate]. destruct (cn_signal cn) eqn:El; try discriminate.
          right; right; left. exists cn. apply some_pair in H; destruct H as [<- <-]. autorewrite with ep. rewrite Nat.eqb_refl, Ec. auto.
        + left. step_cases H; autorewrite with ep; rewrite ?(proj2 (Nat.eqb_neq n m)) by congruence; (split; [reflexivity|]); (split; [reflexivity|]); cbn [In]; intuition congruence.
      - left. step_cases H; autorewrite with ep; (split; [reflexivity|]); (split; [reflexivity|]); cbn [In]; intuition discriminate.
      - left. step_cases H; autorewrite with ep; (split; [reflexivity|]); (split; [reflexivity|]); cbn [In]; intuition discriminate. }
    assert (NI : forall o, ~ In (OAborted n) tr -> ~ In (OAborted n) o -> ~ In (OAborted n) (tr ++ o)) by (intros o A B Q0; apply in_app_or in Q0; tauto).
    destruct Q as [(A & B & C)|[(cn & lp' & A & L & B & C & D)|[(cn & A & B & C & ->)|[(cn & i & A & B & C & ->)|(cn & i & A & B & C & ->)]]]].
    - rewrite A. destruct (nth_error (e_conns s) n) as [cn|]; [|auto]. unfold conn_trace in *. rewrite stops_app, B, app_nil_r.
      destruct (cn_armed cn); [intuition|]. destruct armed; [|intuition]. destruct IH as (X & Y & Z). split; [exact X|]. split; [auto|]. intros Q. split; [apply in_or_app; left|]; apply Z; exact Q.
    - rewrite A in IH. rewrite B. unfold conn_trace in *. cbn [cn_armed cn_signal cn_loop]. rewrite stops_app, C, app_nil_r.
      destruct (cn_armed cn); [intuition|]. destruct armed; [|intuition]. destruct IH as (X & Y & Z). split; [exact X|]. split; [auto|]. intros Q. exfalso. apply L. apply Z. exact Q.
    - rewrite A in IH. rewrite C. unfold conn_trace in *. cbn [cn_armed cn_signal cn_loop]. rewrite B in IH. destruct (cn_armed cn); [exfalso; intuition congruence|]. destruct armed; [|exfalso; intuition congruence].
      destruct IH as (X & Y & Z). rewrite stops_app, app_nil_r. split; [exact X|]. split; [discriminate|]. intros _. split; [apply in_or_app; right; left; reflexivity|reflexivity].
    - rewrite A in IH. rewrite C. unfold conn_trace in *. cbn [cn_armed cn_signal cn_loop]. rewrite B in IH. destruct IH as (-> & X & Y & Z). rewrite stops_app, X. cbn. rewrite Nat.eqb_refl.
      split; [exists 0%nat; reflexivity|]. split; [|discriminate]. intros _ Q. apply in_app_or in Q. destruct Q as [Q|[Q|[]]]; [auto|discriminate].
    - rewrite A in IH. rewrite C. unfold conn_trace in *. rewrite B in *. rewrite stops_app. cbn [stops flat_map stop_of app]. rewrite Nat.eqb_refl. cbn [app].
      assert (NB : ~ In (OAborted n) [OStop i n false]) by (intros [Q|[]]; discriminate).
      destruct armed.
      + destruct IH as ((k & X) & Y & Z). split; [exists (S k); rewrite X; cbn [app]; rewrite repeat_snoc; reflexivity|]. split; [auto|]. intros Q. split; [apply in_or_app; left|]; apply Z; exact Q.
      + destruct IH as ((k & X) & Y & Z). split; [exists (S k); rewrite X, repeat_snoc; reflexivity|]. split; auto.
  Qed.
  Lemma aborted_done ls s tr n : runs' ls s tr -> In (OAborted n) tr -> lp s n = Some LDone.
  Proof.
    intros H Q. pose proof (inv_conn _ _ _ H n) as C. unfold lp. destruct (nth_error (e_conns s) n) as [cn|]; [|contradiction]. unfold conn_trace in C.
    destruct (cn_armed cn); [exfalso; apply C; exact Q|]. destruct armed; [|exfalso; apply C; exact Q]. destruct C as (_ & C & D). destruct (cn_signal cn); [destruct (C eq_refl Q)|]. cbn. f_equal. apply D. reflexivity.
  Qed.
  Lemma done_quiet ls2 : forall ls s tr n s' os, runs' ls s tr -> In (OAborted n) tr -> run cf s ls2 = Some (s', os) -> next_about n os = None.
  Proof.
    induction ls2 as [|l ls2 IH]; intros ls s tr n s' os HR A H; cbn [run] in H; [inversion H; reflexivity|].
    destruct (step cf s l) as [[s1 o1]|] eqn:E1; [|discriminate]. destruct (run cf s1 ls2) as [[s2 o2]|] eqn:E2; [|discriminate]. inversion H; subst.
    pose proof (aborted_done _ _ _ _ HR A) as D. unfold lp in D.
    rewrite next_app, (IH _ _ _ n _ _ (snoc_run _ _ _ _ _ _ _ _ _ _ _ HR E1)) with (1 := in_or_app _ _ _ (or_introl A)) (2 := E2).
    assert (next_about n o1 = None) as ->; [|reflexivity]. apply next_none.
    destruct (step_loop _ _ _ _ _ n E1) as [l NB ?|e0 c0 E0 _ _ _|e0 E0 _ _ _ _|e0 E0 _ _ _ _|c0 e0 ch E0 _ _ _ _ _|c0 e0 ch E0 _ _ _ _|E0 _ _|cn E0 E3 _ _]; try congruence.
    exfalso. pose proof (inv_conn _ _ _ HR n) as C. rewrite E0 in C. unfold conn_trace in C. rewrite E3 in C. destruct (cn_armed cn); [intuition congruence|]. destruct armed; [|intuition congruence]. destruct C as (_ & C & _). exact (C eq_refl A).
  Qed.
  (** ** Events for a request since it was registered *)
  Lemma flow n i x c ls s tr : runs' ls s tr -> good_clock ls -> few_events s -> never_handled x tr -> forall a b, tr = a ++ OListen i x c :: b ->
    exists rest, received_for n x b = queued_by n c b ++ rest /\ (gone_b c tr = false -> ~ In (OAborted n) tr -> rest = held s n c).
  Proof.
    apply (run_ind cf _ (fun ls s tr => good_clock ls -> few_events s -> never_handled x tr -> forall a b, tr = a ++ OListen i x c :: b ->
      exists rest, received_for n x b = queued_by n c b ++ rest /\ (gone_b c tr = false -> ~ In (OAborted n) tr -> rest = held s n c))).
    { intros _ _ _ [|? ?] b Q; discriminate. }
    clear ls s tr. intros ls s tr l s' os IH HR H GC FE NH a b E.
    assert (FE' : few_events s) by (unfold few_events in *; pose proof (step_ctr _ _ _ _ _ H); lia).
    assert (GC' : good_clock ls) by (eapply good_prefix; eauto). pose proof (inv_users _ _ _ _ _ _ _ _ HR) as U. pose proof (handled_prefix _ _ _ NH) as NH'.
    destruct (app_mid _ _ _ _ _ E) as [(m & -> & ->)|(m & -> & ->)].
    - destruct (IH GC' FE' NH' a m eq_refl) as (rest & R & K). clear IH. rewrite received_for_app, queued_by_app, R.
      set (tr := a ++ OListen i x c :: m) in *.
      assert (HL : In (OListen i x c) tr) by (unfold tr; apply in_or_app; right; left; reflexivity).
      assert (RG : gone_b c tr = false -> lookup N.eqb x (e_lis s) = Some c).
      { intros G. rewrite (inv_lis _ _ _ _ _ _ _ _ HR). eapply stays_registered; eauto. }
      assert (CI : cid s c = Some x).
      { pose proof (inv_chan _ _ _ _ _ _ _ _ HR c) as C. unfold cid. destruct (nth_error (e_chans s) c) as [ch|]; cbn in C; [|destruct C as (_ & _ & _ & C); destruct (C _ _ HL)].
        cbn. f_equal. symmetry. apply C with (i := i). exact HL. }
      assert (NG : forall t u, gone_b c (t ++ u) = false -> gone_b c t = false) by (intros t u Q; rewrite gone_app in Q; apply orb_false_iff in Q; tauto).
      assert (NA : ~ In (OAborted n) (tr ++ os) -> ~ In (OAborted n) tr) by (intros Q Q'; apply Q; apply in_or_app; auto).
      unfold held, lp in *.
      destruct (step_loop _ _ _ _ _ n H) as [l NB E1|e0 c0 E0 -> E1 E2|e0 E0 -> E1 E2 E3|e0 E0 -> E1 E2 E3|c0 e0 ch E0 -> E1 E2 E3 E4|c0 e0 ch E0 -> E1 E2 E3|E0 -> E2|cn E0 E1 -> E2].
      + destruct (not_about _ _ NB) as (A & B & _). rewrite A, B, !app_nil_r. exists rest. split; [reflexivity|]. intros G Q. rewrite E1. exact (K (NG _ _ G) (NA Q)).
      + rewrite received_one. change (queued_by n c [OReceived n e0]) with (@nil event). rewrite app_nil_r. destruct (ev_ref e0) as [r|] eqn:Er; [|discriminate]. destruct (N.eqb_spec r x) as [->|N].
        * exists (rest ++ [e0]). split; [rewrite <- app_assoc; reflexivity|]. intros G Q. rewrite E2. rewrite (RG (NG _ _ G)) in E1. inversion E1; subst c0. rewrite Nat.eqb_refl.
          rewrite (K (NG _ _ G) (NA Q)), E0. reflexivity.
        * exists rest. rewrite !app_nil_r. split; [reflexivity|]. intros G Q. rewrite E2. destruct (Nat.eqb_spec c0 c) as [->|_].
          -- exfalso. pose proof (u_lis _ U _ _ E1). congruence.
          -- rewrite (K (NG _ _ G) (NA Q)), E0. reflexivity.
      + change (received_for n x [OReceived n e0; OIgnored n e0]) with (received_for n x [OReceived n e0]). change (queued_by n c [OReceived n e0; OIgnored n e0]) with (@nil event).
        exists (rest ++ received_for n x [OReceived n e0]). split; [rewrite !app_nil_r, <- app_assoc; reflexivity|].
        intros G Q. rewrite E3. rewrite (K (NG _ _ G) (NA Q)), E0, received_one. destruct (ev_ref e0) as [r|]; [|reflexivity]. destruct (N.eqb_spec r x) as [->|N]; [|reflexivity].
        rewrite (RG (NG _ _ G)) in E1. discriminate.
      + match goal with |- context [received_for n x ?l] => change (received_for n x l) with (received_for n x [OReceived n e0]); change (queued_by n c l) with (@nil event) end.
        exists (rest ++ received_for n x [OReceived n e0]). split; [rewrite !app_nil_r, <- app_assoc; reflexivity|].
        intros G Q. rewrite E3. rewrite (K (NG _ _ G) (NA Q)), E0, received_one. destruct (ev_ref e0) as [r|]; [|reflexivity]. destruct (N.eqb_spec r x) as [->|N]; [|reflexivity].
        rewrite (RG (NG _ _ G)) in E1. discriminate.
      + rewrite queued_one. change (received_for n x [OQueued n c0 e0]) with (@nil event). rewrite !app_nil_r. destruct (Nat.eqb_spec c0 c) as [->|N].
        * assert (G : gone_b c tr = false) by (pose proof (inv_chan _ _ _ _ _ _ _ _ HR c) as C; rewrite E1 in C; destruct C as (C & _); rewrite C, E2; reflexivity).
          assert (Q : ~ In (OAborted n) tr).
          { intros Q. apply (aborted_done _ _ _ _ HR) in Q. unfold lp in Q. congruence. }
          rewrite (K G Q), E0, Nat.eqb_refl. exists []. rewrite E4, app_nil_r. auto.
        * exists rest. rewrite app_nil_r. split; [reflexivity|]. intros G Q. rewrite (K (NG _ _ G) (NA Q)), E0, E4. destruct (Nat.eqb_spec c0 c); [congruence|reflexivity].
      + match goal with |- context [received_for n x ?l] => change (received_for n x l) with (@nil event); change (queued_by n c l) with (@nil event) end.
        rewrite !app_nil_r. exists rest. split; [reflexivity|]. intros G Q. rewrite (K (NG _ _ G) (NA Q)), E0, E3.
        destruct (Nat.eqb_spec c0 c) as [->|_]; [|reflexivity]. exfalso. pose proof (inv_chan _ _ _ _ _ _ _ _ HR c) as C. rewrite E1 in C. destruct C as (C & _). rewrite E2 in C. specialize (NG _ _ G). cbn [negb] in C. congruence.
      + match goal with |- context [received_for n x ?l] => change (received_for n x l) with (@nil event); change (queued_by n c l) with (@nil event) end.
        rewrite !app_nil_r. exists rest. split; [reflexivity|]. intros G Q. rewrite (K (NG _ _ G) (NA Q)), E0, E2. reflexivity.
      + match goal with |- context [received_for n x ?l] => change (received_for n x l) with (@nil event); change (queued_by n c l) with (@nil event) end.
        rewrite !app_nil_r. exists rest. split; [reflexivity|]. intros G Q. exfalso. apply Q. apply in_or_app. right. left. reflexivity.
    - assert (Hin : In (OListen i x c) (m ++ OListen i x c :: b)) by (apply in_or_app; right; left; reflexivity).
      destruct (listen_step _ _ _ _ _ _ _ _ H Hin) as (act & ctx & e & w & pu & -> & A & Ex & Ec & Eo & _).
      destruct m as [|o m]; [|destruct m; discriminate]. inversion Eo; subst b. exists []. split; [reflexivity|]. intros _ _. unfold held.
      destruct (step_loop _ _ _ _ _ n H) as [l NB E1| | | | | | |]; try discriminate. unfold lp. rewrite E1. destruct (option_map cn_loop (nth_error (e_conns s) n)) as [[|d e1|]|] eqn:El; try reflexivity.
      destruct (Nat.eqb_spec d c) as [->|]; [|reflexivity]. exfalso. destruct (u_loop _ U _ _ _ El) as (r & _ & Q). unfold cid in Q. rewrite (proj2 (nth_error_None _ _)) in Q by lia. discriminate.
  Qed.
End Flow.
