(** Proofs about the order in which events are processed (C72). *)
From Verif Require Import Base BaseFacts Codec Spec Ids Payload Builder Emit Ipc SpecIpc IpcFacts IpcChanFacts IpcFlow IpcIds Pair SpecPair PairFacts SpecOrder.

Lemma read_app n a b : events_read n (a ++ b) = events_read n a ++ events_read n b. Proof. apply flat_map_app. Qed.
Lemma processed_app n a b : processed n (a ++ b) = processed n a ++ processed n b. Proof. apply flat_map_app. Qed.
Lemma handled_app n a b : handled n (a ++ b) = handled n a ++ handled n b. Proof. apply flat_map_app. Qed.
Lemma sent_events_app a b : sent_events (a ++ b) = sent_events a ++ sent_events b. Proof. apply flat_map_app. Qed.
Lemma not_about n os : existsb (about n) os = false -> events_read n os = [] /\ processed n os = [].
Proof.
  induction os as [|o os IH]; cbn [existsb]; [split; reflexivity|]. intros H. apply orb_false_iff in H. destruct H as (A & B). destruct (IH B) as (C & D). unfold events_read, processed in *. cbn [flat_map]. rewrite C, D.
  destruct o; cbn in *; rewrite ?A; split; reflexivity.
Qed.
Lemma subseq_refl {A} (l : list A) : subseq l l. Proof. induction l; [apply sub_nil|apply sub_take; assumption]. Qed.
Lemma subseq_app {A} (a b c d : list A) : subseq a b -> subseq c d -> subseq (a ++ c) (b ++ d).
Proof.
  intros H K. induction H as [l|x l m H IH|x l m H IH].
  - induction l as [|y l IH]; cbn [app] in *; [exact K|apply sub_skip; exact IH].
  - cbn. apply sub_skip. exact IH.
  - cbn. apply sub_take. exact IH.
Qed.
Lemma subseq_more {A} (a b c : list A) : subseq a b -> subseq a (b ++ c).
Proof. intros H. rewrite <- (app_nil_r a). apply subseq_app; [exact H|constructor]. Qed.
Lemma subseq_In {A} (a b : list A) x : subseq a b -> In x a -> In x b.
Proof. induction 1; cbn; intuition. Qed.
Lemma subseq_nodup {A} (a b : list A) : subseq a b -> NoDup b -> NoDup a.
Proof. induction 1 as [l|x l m H IH|x l m H IH]; intros N; [constructor|inversion N; subst; auto|]. inversion N; subst. constructor; [|auto]. intros Q. apply H2. eapply subseq_In; eauto. Qed.
Lemma subseq_map {A B} (f : A -> B) a b : subseq a b -> subseq (map f a) (map f b).
Proof. induction 1; cbn; [apply sub_nil|apply sub_skip|apply sub_take]; assumption. Qed.
Lemma handled_processed n tr : subseq (handled n tr) (processed n tr).
Proof.
  induction tr as [|o tr IH]; [constructor|]. unfold handled, processed in *. cbn [flat_map]. apply subseq_app; [|exact IH]. destruct o; try apply sub_nil. apply subseq_refl.
Qed.

(** what the loop of connection [n] has read and not processed *)
Definition holds (lo : option loop) (held : list event) : Prop :=
  match lo with Some LRun => held = [] | Some (LSend _ e) => held = [e] | _ => (length held <= 1)%nat end.
Lemma in_order cf nc armed ps ctr ls s tr : runs cf nc armed ps ctr ls s tr -> forall n, exists held, events_read n tr = processed n tr ++ held /\ holds (lp s n) held.
Proof.
  intros H n. revert ls s tr H. apply (run_ind cf _ (fun ls s tr => exists held, events_read n tr = processed n tr ++ held /\ holds (lp s n) held)).
  - exists []. split; [reflexivity|]. unfold lp, ep_new. cbn. destruct (nth_error (repeat (mk_conn LRun armed false) nc) n) as [cn|] eqn:E; [|cbn; lia]. apply nth_error_In, repeat_spec in E. subst cn. reflexivity.
  - intros ls s tr l s' os (held & A & B) _ H. rewrite read_app, processed_app, A. unfold lp in *.
    destruct (step_loop _ _ _ _ _ n H) as [l N E|e c E0 -> _ E|e E0 -> _ _ E|e E0 -> _ _ E|c e ch E0 -> _ _ _ E|c e ch E0 -> _ _ E|E0 -> E|cn Ec _ -> E].
    + destruct (not_about n os N) as (-> & ->). rewrite !app_nil_r, E. eauto.
    + rewrite E0 in B. cbn in B. subst held. rewrite E. exists [e]. cbn. rewrite Nat.eqb_refl, !app_nil_r. split; reflexivity.
    + rewrite E0 in B. cbn in B. subst held. rewrite E. exists []. cbn. rewrite Nat.eqb_refl, !app_nil_r. split; reflexivity.
    + rewrite E0 in B. cbn in B. subst held. rewrite E. exists []. cbn. rewrite Nat.eqb_refl, !app_nil_r. split; reflexivity.
    + rewrite E0 in B. cbn in B. subst held. rewrite E. exists []. cbn. rewrite Nat.eqb_refl, !app_nil_r. split; reflexivity.
    + rewrite E0 in B. cbn in B. subst held. rewrite E. exists []. cbn. rewrite Nat.eqb_refl, !app_nil_r. split; reflexivity.
    + rewrite E0 in B. cbn in B. subst held. rewrite E. exists []. cbn. rewrite !app_nil_r. split; [reflexivity|lia].
    + rewrite E. exists held. cbn. rewrite !app_nil_r. split; [reflexivity|]. rewrite Ec in B. cbn in B. destruct (cn_loop cn); cbn in B; subst; cbn; try lia; exact B.
Qed.
Lemma wired_sent tr : wired tr = map drop_empty_ns (sent_events tr).
Proof. unfold wired, sent_events. induction tr as [|o tr IH]; [reflexivity|]. cbn [flat_map]. rewrite map_app, IH. destruct o; reflexivity. Qed.
Lemma got_read os : got os = [] -> events_read 0 os = [].
Proof. induction os as [|o os IH]; [reflexivity|]. unfold got, events_read in *. cbn [flat_map]. intros H. apply app_eq_nil in H. destruct H as (A & B). rewrite (IH B). destruct o; try reflexivity. discriminate A. Qed.
Lemma recv_read cf s e s' o : step cf s (LRecv 0 e) = Some (s', o) -> events_read 0 o = [e].
Proof. intros H. step_cases H; reflexivity. Qed.
Lemma pair_read cf ps ctr w ls p tr : pruns cf ps ctr w ls p tr -> forall sd, events_read 0 (at_side sd tr) = got (at_side sd tr).
Proof.
  intros HR sd. revert ls p tr HR. apply (prun_ind cf _ (fun ls p tr => events_read 0 (at_side sd tr) = got (at_side sd tr))); [reflexivity|].
  intros ls p tr l p' os IH _ H. rewrite at_side_app, read_app, got_app, IH. f_equal. apply (pstep_side cf sd) in H. destruct H as [E1 E2|l' E1 E2 E3 E4 E5]; [rewrite E2; reflexivity|].
  destruct E5 as [(_ & O & _)|(e & _ & -> & _)].
  - rewrite (own_got _ _ _ _ _ E1 O). apply got_read. exact (own_got _ _ _ _ _ E1 O).
  - rewrite (recv_got _ _ _ _ _ _ E1). exact (recv_read _ _ _ _ _ E1).
Qed.
(** what one end sent: processed, then at most one held by the loop, then those on the way *)
Lemma relayed cf ps ctr ls p tr : pruns cf ps ctr (fun _ => []) ls p tr -> forall sd, exists held,
  map drop_empty_ns (sent_events (at_side (other sd) tr)) = processed 0 (at_side sd tr) ++ held ++ p_in p sd /\ holds (lp (p_ep p sd) 0) held.
Proof.
  intros H sd. destruct (project _ _ _ _ _ _ _ H sd) as (l & R & _). destruct (in_order _ _ _ _ _ _ _ _ R 0) as (held & A & B). exists held. split; [|exact B].
  rewrite <- wired_sent, app_assoc, <- A, (pair_read _ _ _ _ _ _ _ H). symmetry. exact (wires _ _ _ _ _ _ _ H sd).
Qed.
Lemma holds_one lo held : holds lo held -> (length held <= 1)%nat.
Proof. destruct lo as [[]|]; cbn; intros H; subst; cbn; auto. Qed.
Lemma subseq_trans {A} (a b c : list A) : subseq a b -> subseq b c -> subseq a c.
Proof.
  intros H K. revert a H. induction K as [l|x l m K IH|x l m K IH]; intros a H.
  - inversion H; subst. apply sub_nil.
  - apply sub_skip. auto.
  - inversion H; subst; [apply sub_nil|apply sub_skip; auto|apply sub_take; auto].
Qed.
Lemma sent_ids tr : subseq (map ev_id (sent_events tr)) (ended tr).
Proof. induction tr as [|o tr IH]; [apply sub_nil|]. unfold sent_events, ended in *. cbn [flat_map]. rewrite map_app. apply subseq_app; [|exact IH]. destruct o; try apply sub_nil. apply subseq_refl. Qed.
Lemma handled_sent cf ps ctr ls p tr sd : pruns cf ps ctr (fun _ => []) ls p tr -> subseq (handled 0 (at_side sd tr)) (map drop_empty_ns (sent_events (at_side (other sd) tr))).
Proof. intros H. destruct (relayed _ _ _ _ _ _ H sd) as (held & A & _). rewrite A. apply subseq_more, handled_processed. Qed.
Lemma sent_once cf ps ctr ls p tr sd : pruns cf ps ctr (fun _ => []) ls p tr -> good_clocks ls -> few_events (p_ep p sd) -> NoDup (map ev_id (map drop_empty_ns (sent_events (at_side sd tr)))).
Proof.
  intros H GC FE. destruct (project _ _ _ _ _ _ _ H sd) as (l & R & C & _). assert (J := j_nodup _ _ (inv_idents _ _ _ _ _ _ _ _ R (C GC) FE)).
  rewrite map_map, (map_ext _ ev_id drop_id). exact (subseq_nodup _ _ (sent_ids _) J).
Qed.
Lemma subseq_ids a b : subseq a b -> NoDup (map ev_id b) -> NoDup (map ev_id a).
Proof. intros H. apply subseq_nodup. apply subseq_map. exact H. Qed.
