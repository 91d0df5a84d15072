(** Settings of the builder reach the contexts, connections and listeners built from it: C62. *)
From Coq Require Import Strings.String.
From Verif Require Import Base BaseFacts Payload Builder SpecBuilder BuilderFacts SettingsFacts.

Section C62.
  Context {CB Addr LO SO Val : Type} (derr : CB) (first : format) (lo : LO) (so : SO).
  Let built (l : list (call CB Addr LO SO Val)) := do_calls (builder_new derr first lo so) l.

  (** whatever else is called and in whichever order: every context of a client, a pooled client or a server has the last timeout
      (else 60 s) and the last serializer (else the first available one) *)
  Theorem C62_contexts_have_the_settings : forall l net t f, setting (timeouts l) 60 t -> setting (serializers l) first f ->
    (forall fs c, build_client net (built l) = (fs, Ok c) -> cc_timeout c = t /\ cc_serializer c = f)
    /\ (forall n fs cs c, build_pooled_client net (built l) n = (fs, Ok cs) -> In c cs -> cc_timeout c = t /\ cc_serializer c = f)
    /\ (forall n, cc_timeout (server_context (built l) n) = t /\ cc_serializer (server_context (built l) n) = f).
  Proof.
    intros l net t f Ht Hf. assert (Et : b_timeout (built l) = t) by (unfold built; rewrite calls_timeout; apply setting_fold; exact Ht).
    assert (Ef : b_serializer (built l) = f) by (unfold built; rewrite calls_serializer; apply setting_fold; exact Hf). split; [|split].
    - intros fs c H. destruct (b_address (built l)) as [a|] eqn:Ea.
      + rewrite (client_spec _ _ _ Ea) in H. destruct (net 0); inversion H; subst c. cbn. auto.
      + rewrite (proj1 (no_address _ net (Ok tt) (Ok tt) 1 Ea)) in H. discriminate.
    - intros n fs cs c H Hin. destruct (b_address (built l)) as [a|] eqn:Ea.
      + destruct n as [|n]; [rewrite pool_zero in H; discriminate|]. destruct (pooled_spec _ _ _ _ _ _ Ea (Nat.lt_0_succ n) H) as [(cs' & Q & Hl & _ & _ & Hj)|(j & _ & _ & _ & _ & [(e & _ & Q)|(e & _ & Q)])]; [|discriminate..].
        inversion Q; subst cs'. apply In_nth_error in Hin. destruct Hin as (j & Hin). assert (L : (j < S n)%nat) by (rewrite <- Hl; apply nth_error_Some; congruence).
        destruct (Hj j L) as (c' & A & _ & _ & _ & B & C & _). assert (c = c') as -> by congruence. split; congruence.
      + destruct n as [|n]; [rewrite pool_zero in H; discriminate|]. destruct (no_address _ net (Ok tt) (Ok tt) (S n) Ea) as (_ & _ & Q). rewrite Q in H by lia. discriminate.
    - intros n. cbn. auto.
  Qed.
  (** [stop] on a context of a client ends its connection's loop; contexts of a server have no such signal *)
  Theorem C62_only_clients_stop : forall l net,
    (forall fs c, build_client net (built l) = (fs, Ok c) -> cc_stoppable c = true)
    /\ (forall n fs cs c, build_pooled_client net (built l) n = (fs, Ok cs) -> In c cs -> cc_stoppable c = true)
    /\ (forall n, cc_stoppable (server_context (built l) n) = false).
  Proof.
    intros l net. split; [|split].
    - intros fs c H. destruct (b_address (built l)) as [a|] eqn:Ea.
      + rewrite (client_spec _ _ _ Ea) in H. destruct (net 0); inversion H; subst c. reflexivity.
      + rewrite (proj1 (no_address _ net (Ok tt) (Ok tt) 1 Ea)) in H. discriminate.
    - intros n fs cs c H Hin. destruct (b_address (built l)) as [a|] eqn:Ea.
      + destruct n as [|n]; [rewrite pool_zero in H; discriminate|]. destruct (pooled_spec _ _ _ _ _ _ Ea (Nat.lt_0_succ n) H) as [(cs' & Q & Hl & _ & _ & Hj)|(j & _ & _ & _ & _ & [(e & _ & Q)|(e & _ & Q)])]; [|discriminate..].
        inversion Q; subst cs'. apply In_nth_error in Hin. destruct Hin as (j & Hin). assert (L : (j < S n)%nat) by (rewrite <- Hl; apply nth_error_Some; congruence).
        destruct (Hj j L) as (c' & A & _ & _ & _ & _ & _ & B). assert (c = c') as -> by congruence. exact B.
      + destruct n as [|n]; [rewrite pool_zero in H; discriminate|]. destruct (no_address _ net (Ok tt) (Ok tt) (S n) Ea) as (_ & _ & Q). rewrite Q in H by lia. discriminate.
    - reflexivity.
  Qed.
  (** connecting uses the last client options and address for every connection, binding the last server options *)
  Theorem C62_options_are_used : forall l net bind serve a o p, last_given (addresses l) tt a -> setting (stream_opts l) so o -> setting (listener_opts l) lo p ->
    (forall n fs r x y, build_pooled_client net (built l) n = (fs, r) -> In (FConnect x y) fs -> x = a /\ y = o)
    /\ (forall fs r x y, build_client net (built l) = (fs, r) -> In (FConnect x y) fs -> x = a /\ y = o)
    /\ fst (build_server bind serve (built l)) = [FBind a p].
  Proof.
    intros l net bind serve a o p Ha Ho Hp. assert (Ea : b_address (built l) = Some a) by (exact (address_last derr first lo so l a Ha)).
    assert (Eo : b_sopts (built l) = o) by (unfold built; rewrite calls_sopts; apply setting_fold; exact Ho).
    assert (Ep : b_lopts (built l) = p) by (unfold built; rewrite calls_lopts; apply setting_fold; exact Hp). split; [|split].
    - intros n fs r x y H Hin. unfold build_pooled_client, validate in H. rewrite Ea in H. destruct (Nat.eqb n 0); [inversion H; subst; destruct Hin|].
      rewrite <- Eo. eapply connect_many_opts; eauto.
    - intros fs r x y H Hin. rewrite (client_spec _ _ _ Ea) in H. destruct (net 0); inversion H; subst; destruct Hin as [Q|Q]; try (inversion Q; subst; auto; fail); destruct Q as [Q|Q]; try contradiction; discriminate.
    - unfold build_server, validate. rewrite Ea, Ep. reflexivity.
  Qed.
  (** shared data: the value last inserted under a key, alone or in bulk, and nothing else *)
  Theorem C62_last_insert_wins : forall l k v, last_given (data_given l) k v -> lookup N.eqb k (initial_data (built l)) = Some v.
  Proof. intros l k v H. unfold initial_data, built. rewrite calls_data. apply data_last. exact H. Qed.
  Theorem C62_no_other_data : forall l k, never_given (data_given l) k -> lookup N.eqb k (initial_data (built l)) = None.
  Proof. intros l k H. unfold initial_data, built. rewrite calls_data, data_never by exact H. reflexivity. Qed.
  (** the connections of a server share the data, not the reply tables; those of a pool share both *)
  Theorem C62_sharing : forall l net,
    (forall m n, cc_data (server_context (built l) m) = cc_data (server_context (built l) n) /\ (cc_listeners (server_context (built l) m) = cc_listeners (server_context (built l) n) -> m = n))
    /\ (forall n fs cs c d, build_pooled_client net (built l) n = (fs, Ok cs) -> In c cs -> In d cs -> cc_data c = cc_data d /\ cc_listeners c = cc_listeners d).
  Proof.
    intros l net. split; [intros m n; cbn; auto|]. intros n fs cs c d H Hc Hd. destruct (b_address (built l)) as [a|] eqn:Ea.
    - destruct n as [|n]; [rewrite pool_zero in H; discriminate|]. destruct (pooled_spec _ _ _ _ _ _ Ea (Nat.lt_0_succ n) H) as [(cs' & Q & Hl & _ & _ & Hj)|(j & _ & _ & _ & _ & [(e & _ & Q)|(e & _ & Q)])]; [|discriminate..].
      inversion Q; subst cs'. assert (G : forall c, In c cs -> cc_data c = 0 /\ cc_listeners c = 0).
      { intros x Hin. apply In_nth_error in Hin. destruct Hin as (j & Hin). assert (L : (j < S n)%nat) by (rewrite <- Hl; apply nth_error_Some; congruence).
        destruct (Hj j L) as (c' & A & _ & B & C & _). assert (x = c') as -> by congruence. auto. }
      destruct (G c Hc), (G d Hd). split; congruence.
    - destruct n as [|n]; [rewrite pool_zero in H; discriminate|]. destruct (no_address _ net (Ok tt) (Ok tt) (S n) Ea) as (_ & _ & Q). rewrite Q in H by lia. discriminate.
  Qed.
End C62.
(** every sequence of calls determines each setting *)
Theorem C62_settings_exist : forall A (given : list (unit * A)) d, (exists a, setting given d a) /\ forall a b, setting given d a -> setting given d b -> a = b.
Proof. intros A given d. split; [apply setting_exists|]. intros a b Ha Hb. rewrite <- (setting_fold _ _ _ Ha), <- (setting_fold _ _ _ Hb). reflexivity. Qed.
Print Assumptions C62_contexts_have_the_settings.
Print Assumptions C62_only_clients_stop.
Print Assumptions C62_options_are_used.
Print Assumptions C62_last_insert_wins.
Print Assumptions C62_no_other_data.
Print Assumptions C62_sharing.
Print Assumptions C62_settings_exist.

(** addresses, options and data are numbers here *)
Definition calls62 : list (call nat nat nat nat nat) :=
  [CTimeout 5; CInsert 1 10%nat; CAddress 7%nat; CInsertAll [(2, 20%nat); (1, 11%nat)]; CClientOptions 3%nat; CTimeout 9; CSerializer Postcard; CNamespace (str "ns") [(str "a", 1%nat)]; CInsert 2 21%nat].
Example C62_case : setting (timeouts calls62) 60 9 /\ setting (serializers calls62) Json Postcard /\ last_given (addresses calls62) tt 7%nat /\ setting (stream_opts calls62) 0%nat 3%nat
  /\ setting (listener_opts calls62) 8%nat 8%nat /\ last_given (data_given calls62) 1 11%nat /\ last_given (data_given calls62) 2 21%nat /\ never_given (data_given calls62) 3
  /\ exists fs c d, build_pooled_client (fun i => Ok (100 + i)) (do_calls (builder_new 0%nat Json 8%nat 0%nat) calls62) 2 = (fs, Ok [c; d]) /\ cc_timeout d = 9.
Proof.
  repeat apply conj.
  - left. exists [(tt, 5)], []. split; [reflexivity|intros v []].
  - left. exists [], []. split; [reflexivity|intros v []].
  - exists [], []. split; [reflexivity|intros v []].
  - left. exists [], []. split; [reflexivity|intros v []].
  - right. split; [intros v []|reflexivity].
  - exists [(1, 10%nat); (2, 20%nat)], [(2, 21%nat)]. split; [reflexivity|]. intros v [Q|[]]. discriminate.
  - exists [(1, 10%nat); (2, 20%nat); (1, 11%nat)], []. split; [reflexivity|]. intros v [].
  - intros v Q. cbn in Q. repeat (destruct Q as [Q|Q]; [discriminate|]). exact Q.
  - eexists _, _, _. split; [vm_compute; reflexivity|]. reflexivity.
Qed.
