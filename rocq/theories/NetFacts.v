(** Proofs about networks of endpoints: each endpoint by itself, what connections carry. *)
From Verif Require Import Base BaseFacts BuilderFacts Codec Spec Ids IdsFacts Payload Builder Emit EmitFacts Ipc SpecIpc IpcFacts IpcChanFacts IpcUsers IpcLoops IpcTasks IpcIds IpcReplies IpcStreams IpcClaims IpcMore IpcFlow IpcLimits IpcRemoved Pair SpecPair PairFacts PairServer PairEnd Net SpecNet NetServer.
From Coq Require Import ZifyBool ZifyNat ZifyN.

(** ** Runs *)
Lemma nrun_app w ls1 : forall p ls2, nrun w p (ls1 ++ ls2) =
  match nrun w p ls1 with
  | Some (p1, o1) => match nrun w p1 ls2 with Some (p2, o2) => Some (p2, o1 ++ o2) | None => None end
  | None => None
  end.
Proof.
  induction ls1 as [|l ls1 IH]; intros p ls2; cbn [nrun app].
  - destruct (nrun w p ls2) as [[p2 o2]|]; reflexivity.
  - destruct (nstep w p l) as [[p1 o1]|]; [|reflexivity]. rewrite IH. destruct (nrun w p1 ls1) as [[p2 o2]|]; [|reflexivity].
    destruct (nrun w p2 ls2) as [[p3 o3]|]; [|reflexivity]. rewrite app_assoc. reflexivity.
Qed.
Lemma nrun_ind w p0 (P : list nlabel -> net -> list (nat * obs) -> Prop) : P [] p0 [] ->
  (forall ls p tr l p' os, P ls p tr -> nrun w p0 ls = Some (p, tr) -> nstep w p l = Some (p', os) -> P (ls ++ [l]) p' (tr ++ os)) ->
  forall ls p tr, nrun w p0 ls = Some (p, tr) -> P ls p tr.
Proof.
  intros H0 HS ls. induction ls as [|l ls IH] using rev_ind; intros p tr H.
  - cbn in H. inversion H; subst. exact H0.
  - pose proof H as HR. rewrite nrun_app in H. destruct (nrun w p0 ls) as [[p1 o1]|] eqn:E1; [|discriminate].
    cbn [nrun] in H. destruct (nstep w p1 l) as [[p2 o2]|] eqn:E2; [|discriminate]. rewrite app_nil_r in H. inversion H; subst.
    eapply HS; eauto.
Qed.
Lemma nsnoc_run w p0 ls p tr l p' os : nrun w p0 ls = Some (p, tr) -> nstep w p l = Some (p', os) -> nrun w p0 (ls ++ [l]) = Some (p', tr ++ os).
Proof. intros H1 H2. rewrite nrun_app, H1. cbn [nrun]. rewrite H2, app_nil_r. reflexivity. Qed.
Lemma put_at_eq {X} f i (x : X) : put_at f i x i = x. Proof. unfold put_at. rewrite Nat.eqb_refl. reflexivity. Qed.
Lemma put_at_ne {X} f i (x : X) j : j <> i -> put_at f i x j = f j. Proof. unfold put_at. destruct (Nat.eqb_spec j i); congruence. Qed.
Lemma at_node_app i a b : at_node i (a ++ b) = at_node i a ++ at_node i b. Proof. apply flat_map_app. Qed.
Lemma at_node_map i j os : at_node i (map (fun o => (j, o)) os) = if Nat.eqb j i then os else [].
Proof. induction os as [|o os IH]; [destruct (Nat.eqb j i); reflexivity|]. cbn [map at_node flat_map]. unfold at_node in IH. rewrite IH. cbn [fst snd]. destruct (Nat.eqb j i); reflexivity. Qed.
Lemma at_node_in i o tr : In o (at_node i tr) <-> In (i, o) tr.
Proof.
  unfold at_node. rewrite in_flat_map. split.
  - intros ([j o'] & A & B). cbn [fst snd] in B. destruct (Nat.eqb_spec j i) as [->|]; [|destruct B]. destruct B as [->|[]]. exact A.
  - intros A. exists (i, o). split; [exact A|]. cbn [fst snd]. rewrite Nat.eqb_refl. left. reflexivity.
Qed.

(** what a step of a network is *)
Inductive nview (w : network) (s s' : net) (i : nat) (os : list (nat * obs)) : nlabel -> Prop :=
| nv_do l e' o : own_label l = true -> step (nd_cf (node_of w i)) (n_ep s i) l = Some (e', o) -> drops_send l o = false -> existsb (on_bad (n_bad s i)) o = false ->
    n_ep s' = put_at (n_ep s) i e' -> (forall j m, n_in s' j m = n_in s j m ++ carried w i o j m) -> (forall j k, n_bad s' j k = n_bad s j k || (Nat.eqb j i && existsb (cut_on k) o)) ->
    os = map (fun x => (i, x)) o -> nview w s s' i os (NDo i l)
| nv_deliver k e rest e' o : n_in s i k = e :: rest -> step (nd_cf (node_of w i)) (n_ep s i) (LRecv k e) = Some (e', o) ->
    n_ep s' = put_at (n_ep s) i e' -> n_in s' i k = rest -> (forall j m, (j, m) <> (i, k) -> n_in s' j m = n_in s j m) -> n_bad s' = n_bad s ->
    os = map (fun x => (i, x)) o -> nview w s s' i os (NDeliver i k)
| nv_close k e' o : step (nd_cf (node_of w i)) (n_ep s i) (LClosed k) = Some (e', o) ->
    n_ep s' = put_at (n_ep s) i e' -> n_in s' = n_in s -> n_bad s' = n_bad s ->
    os = map (fun x => (i, x)) o -> nview w s s' i os (NClose i k).
Lemma nstep_view w s l s' os : nstep w s l = Some (s', os) -> exists i, nview w s s' i os l.
Proof.
  destruct l as [i l|i k|i k]; cbn [nstep]; intros H; exists i.
  - destruct (own_label l) eqn:E0; [|discriminate]. destruct (step (nd_cf (node_of w i)) (n_ep s i) l) as [[e' o]|] eqn:E; [|discriminate].
    destruct (drops_send l o || existsb (on_bad (n_bad s i)) o) eqn:E1; [discriminate|]. apply orb_false_iff in E1. destruct E1 as [E1 E2].
    apply some_pair in H. destruct H as [<- <-]. eapply nv_do; eauto.
  - destruct (n_in s i k) as [|e rest] eqn:E0; [discriminate|]. destruct (step (nd_cf (node_of w i)) (n_ep s i) (LRecv k e)) as [[e' o]|] eqn:E; [|discriminate].
    apply some_pair in H. destruct H as [<- <-]. eapply nv_deliver; eauto; cbn [n_in].
    + rewrite !Nat.eqb_refl. reflexivity.
    + intros j m N. destruct (Nat.eqb_spec j i) as [->|]; [|reflexivity]. destruct (Nat.eqb_spec m k) as [->|]; [congruence|reflexivity].
  - destruct (step (nd_cf (node_of w i)) (n_ep s i) (LClosed k)) as [[e' o]|] eqn:E; [|discriminate]. apply some_pair in H. destruct H as [<- <-]. eapply nv_close; eauto.
Qed.
(** seen from one endpoint *)
Definition local_label (w : network) (i : nat) (s : net) (l : nlabel) (l' : label) : Prop :=
  (l = NDo i l' /\ own_label l' = true) \/ (exists k e, l = NDeliver i k /\ l' = LRecv k e) \/ exists k, l = NClose i k /\ l' = LClosed k.
Lemma nstep_node w i s l s' os : nstep w s l = Some (s', os) ->
  (n_ep s' i = n_ep s i /\ at_node i os = []) \/ exists l', local_label w i s l l' /\ step (nd_cf (node_of w i)) (n_ep s i) l' = Some (n_ep s' i, at_node i os).
Proof.
  intros H. apply nstep_view in H. destruct H as (j & H). destruct H as [l e' o A B C D E F G I|k e rest e' o A B D E F G I|k e' o A D E F I]; subst os; rewrite at_node_map; destruct (Nat.eqb_spec j i) as [->|N].
  1,3,5: right; eexists; rewrite ?E, ?D, put_at_eq; split; [|eassumption]; unfold local_label; eauto 6.
  all: left; rewrite ?E, ?D, put_at_ne by congruence; auto.
Qed.
Lemma nproject w ls s tr : nruns w ls s tr -> forall i, exists ls',
  runs (nd_cf (node_of w i)) (nd_conns (node_of w i)) (nd_armed (node_of w i)) (nd_tasks (node_of w i)) (nd_ctr (node_of w i)) ls' (n_ep s i) (at_node i tr) /\ (net_clocks ls -> good_clock ls').
Proof.
  intros HR i. revert ls s tr HR. apply (nrun_ind w _ (fun ls s tr => exists ls', runs (nd_cf (node_of w i)) (nd_conns (node_of w i)) (nd_armed (node_of w i)) (nd_tasks (node_of w i)) (nd_ctr (node_of w i)) ls' (n_ep s i) (at_node i tr) /\ (net_clocks ls -> good_clock ls'))).
  - exists []. split; [reflexivity|]. intros _ j t v [].
  - intros ls s tr l s' os (ls' & A & B) _ H. apply (nstep_node w i) in H. rewrite at_node_app.
    assert (G : net_clocks (ls ++ [l]) -> net_clocks ls) by (intros G n j t v Q; apply (G n j t v); apply in_or_app; auto).
    destruct H as [[E1 E2]|(l' & L & E)].
    + exists ls'. rewrite E1, E2, app_nil_r. auto.
    + exists (ls' ++ [l']). split; [eapply snoc_run; eauto|]. intros Hg j t v Q. apply in_app_or in Q. destruct Q as [Q|[Q|[]]]; [exact (B (G Hg) j t v Q)|]. subst l'.
      destruct L as [[-> _]|[(k & e & _ & L)|(k & _ & L)]]; try discriminate L. apply (Hg i j t v). apply in_or_app. right. left. reflexivity.
Qed.

(** ** Connections *)
Lemma read_app k a b : read_from k (a ++ b) = read_from k a ++ read_from k b. Proof. apply flat_map_app. Qed.
Lemma sent_to_app k a b : sent_to k (a ++ b) = sent_to k a ++ sent_to k b. Proof. apply flat_map_app. Qed.
Lemma recv_read' cf s n e s' o k : step cf s (LRecv n e) = Some (s', o) -> read_from k o = (if Nat.eqb n k then [e] else []) /\ sent_to k o = [].
Proof. intros H. unfold read_from, sent_to. step_cases H; cbn; rewrite ?app_nil_r; auto. Qed.
Lemma own_read cf s l s' o k : step cf s l = Some (s', o) -> own_label l = true -> read_from k o = [].
Proof. intros H E. step_cases H; try discriminate; reflexivity. Qed.
Lemma close_read cf s n s' o k : step cf s (LClosed n) = Some (s', o) -> read_from k o = [] /\ sent_to k o = [].
Proof. intros H. step_cases H; auto. Qed.
Lemma carried_eq w i o j m k : peer w j m = Some (i, k) -> carried w i o j m = sent_to k o.
Proof. unfold carried. intros ->. rewrite Nat.eqb_refl. reflexivity. Qed.
Lemma carried_ne w i o j m b k : peer w j m = Some (b, k) -> b <> i -> carried w i o j m = [].
Proof. unfold carried. intros -> N. destruct (Nat.eqb_spec b i); congruence. Qed.
Lemma nwires w ls s tr : nruns w ls s tr -> forall i k j m, peer w i k = Some (j, m) -> read_from k (at_node i tr) ++ n_in s i k = sent_to m (at_node j tr).
Proof.
  intros HR i k j m P. revert ls s tr HR. apply (nrun_ind w _ (fun ls s tr => read_from k (at_node i tr) ++ n_in s i k = sent_to m (at_node j tr))); [reflexivity|].
  intros ls s tr l s' os IH _ H. apply nstep_view in H. destruct H as (b & H). rewrite !at_node_app, read_app, sent_to_app.
  destruct H as [l e' o A B C D E F G I|k' e rest e' o A B D E F G I|k' e' o A D E F I]; subst os; rewrite !at_node_map.
  - rewrite F. assert (R : read_from k (if Nat.eqb b i then o else []) = []) by (destruct (Nat.eqb b i); [exact (own_read _ _ _ _ _ k B A)|reflexivity]).
    rewrite R, app_nil_r, app_assoc, IH. f_equal. destruct (Nat.eqb_spec b j) as [->|N]; [apply carried_eq; exact P|]. rewrite (carried_ne _ _ _ _ _ _ _ P) by congruence. reflexivity.
  - destruct (recv_read' _ _ _ _ _ _ k B) as [R _]. destruct (recv_read' _ _ _ _ _ _ m B) as [_ S].
    assert (S' : sent_to m (if Nat.eqb b j then o else []) = []) by (destruct (Nat.eqb b j); [exact S|reflexivity]). rewrite S', app_nil_r.
    destruct (Nat.eqb_spec b i) as [->|N]; [destruct (Nat.eqb_spec k' k) as [->|N]|].
    + rewrite R, E, <- app_assoc. cbn [app]. rewrite <- A. exact IH.
    + rewrite R, app_nil_r, F by congruence. exact IH.
    + cbn [read_from flat_map]. rewrite app_nil_r, F by congruence. exact IH.
  - destruct (close_read _ _ _ _ _ k A) as [R _]. destruct (close_read _ _ _ _ _ m A) as [_ S].
    assert (S' : sent_to m (if Nat.eqb b j then o else []) = []) by (destruct (Nat.eqb b j); [exact S|reflexivity]).
    assert (R' : read_from k (if Nat.eqb b i then o else []) = []) by (destruct (Nat.eqb b i); [exact R|reflexivity]).
    rewrite S', R', !app_nil_r, E. exact IH.
Qed.
Lemma unjoined w ls s tr : nruns w ls s tr -> forall i k, peer w i k = None -> read_from k (at_node i tr) = [] /\ n_in s i k = [].
Proof.
  intros HR i k P. revert ls s tr HR. apply (nrun_ind w _ (fun ls s tr => read_from k (at_node i tr) = [] /\ n_in s i k = [])); [auto|].
  intros ls s tr l s' os [I1 I2] _ H. apply nstep_view in H. destruct H as (b & H). rewrite !at_node_app, read_app, I1.
  destruct H as [l e' o A B C D E F G I|k' e rest e' o A B D E F G I|k' e' o A D E F I]; subst os; rewrite !at_node_map.
  - rewrite F, I2. unfold carried. rewrite P. split; [|reflexivity]. destruct (Nat.eqb b i); [exact (own_read _ _ _ _ _ k B A)|reflexivity].
  - destruct (recv_read' _ _ _ _ _ _ k B) as [R _]. destruct (Nat.eqb_spec b i) as [->|N]; [destruct (Nat.eqb_spec k' k) as [->|N]|]; [congruence| |].
    + rewrite R, F by congruence. auto.
    + rewrite F by congruence. auto.
  - destruct (close_read _ _ _ _ _ k A) as [R _]. rewrite E. split; [|exact I2]. destruct (Nat.eqb b i); [exact R|reflexivity].
Qed.
Lemma in_sent_to e k tr : In e (sent_to k tr) <-> exists i ctx a, In (OSent i ctx a) tr /\ c_conn ctx = k /\ e = drop_empty_ns a.
Proof.
  unfold sent_to. rewrite in_flat_map. split.
  - intros (o & A & B). destruct o; cbn in B; try contradiction. destruct (Nat.eqb_spec (c_conn ctx) k) as [E|]; [|contradiction]. destruct B as [<-|[]]. eauto 6.
  - intros (i & ctx & a & A & <- & ->). exists (OSent i ctx a). split; [exact A|]. cbn. rewrite Nat.eqb_refl. left. reflexivity.
Qed.
Lemma in_read_from e k tr : In e (read_from k tr) <-> In (OReceived k e) tr.
Proof.
  unfold read_from. rewrite in_flat_map. split.
  - intros (o & A & B). destruct o; cbn in B; try contradiction. destruct (Nat.eqb_spec n k) as [->|]; [|contradiction]. destruct B as [<-|[]]. exact A.
  - intros A. exists (OReceived k e). split; [exact A|]. cbn. rewrite Nat.eqb_refl. left. reflexivity.
Qed.
Lemma received_read k x tr : received_for k x tr = filter (is_ref x) (read_from k tr).
Proof.
  induction tr as [|o tr IH]; [reflexivity|]. unfold received_for, read_from in *. cbn [flat_map]. rewrite filter_app, IH. f_equal.
  destruct o; try reflexivity. cbn [recv_one read_one]. destruct (Nat.eqb n k); [|reflexivity]. cbn. unfold is_ref. destruct (ev_ref e) as [r|]; [|reflexivity]. destruct (N.eqb r x); reflexivity.
Qed.
(** a connection that does not exist is neither read *)
Lemma nfew w s l s' os i : nstep w s l = Some (s', os) -> few_events (n_ep s' i) -> few_events (n_ep s i).
Proof.
  intros H. apply (nstep_node w i) in H. destruct H as [[E _]|(l' & _ & E)]; [rewrite E; auto|]. apply step_ctr in E. unfold few_events. lia.
Qed.
