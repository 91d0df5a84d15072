(** Proofs about registration and building. *)
From Coq Require Import Strings.String.
From Verif Require Import Base BaseFacts Builder SpecBuilder.

Section Map.
  Context {K V : Type} (eqb : K -> K -> bool) (Heq : forall a b, eqb a b = true <-> a = b).
  Lemma eqb_refl' a : eqb a a = true. Proof. apply Heq. reflexivity. Qed.
  Lemma eqb_neq' a b : a <> b -> eqb a b = false.
  Proof. intros H. destruct (eqb a b) eqn:E; [|reflexivity]. apply Heq in E. contradiction. Qed.
  Lemma lookup_remove_eq k (m : amap K V) : lookup eqb k (remove eqb k m) = None.
  Proof.
    induction m as [|[k' v] m IH]; [reflexivity|]. cbn. destruct (eqb k k') eqn:E; cbn; [exact IH|].
    rewrite E. exact IH.
  Qed.
  Lemma lookup_remove_ne k k' (m : amap K V) : k <> k' -> lookup eqb k (remove eqb k' m) = lookup eqb k m.
  Proof.
    intros H. unfold remove. induction m as [|[k2 v] m IH]; [reflexivity|]. cbn. destruct (eqb k' k2) eqn:E; cbn.
    - apply Heq in E. subst k2. rewrite eqb_neq' by exact H. exact IH.
    - rewrite IH. reflexivity.
  Qed.
  Lemma lookup_insert_eq k v (m : amap K V) : lookup eqb k (insert eqb k v m) = Some v.
  Proof. cbn. rewrite eqb_refl'. reflexivity. Qed.
  Lemma lookup_insert_ne k k' v (m : amap K V) : k <> k' -> lookup eqb k (insert eqb k' v m) = lookup eqb k m.
  Proof. intros H. cbn. rewrite eqb_neq' by exact H. apply lookup_remove_ne. exact H. Qed.
End Map.

Lemma lookup_Neqb_insert_eq {V} k v (m : amap N V) : lookup N.eqb k (insert N.eqb k v m) = Some v.
Proof. apply lookup_insert_eq. apply N.eqb_eq. Qed.
Lemma lookup_Neqb_insert_ne {V} k k' v (m : amap N V) : k <> k' -> lookup N.eqb k (insert N.eqb k' v m) = lookup N.eqb k m.
Proof. apply lookup_insert_ne. apply N.eqb_eq. Qed.
Lemma lookup_Neqb_remove_eq {V} k (m : amap N V) : lookup N.eqb k (remove N.eqb k m) = None.
Proof. apply lookup_remove_eq. Qed.
Lemma lookup_Neqb_remove_ne {V} k k' (m : amap N V) : k <> k' -> lookup N.eqb k (remove N.eqb k' m) = lookup N.eqb k m.
Proof. apply lookup_remove_ne. apply N.eqb_eq. Qed.

(** folding insertions: the last one wins *)
Lemma fold_insert_last {V} (l : list (bytes * V)) m k v : last_given l k v ->
  lookup bytes_eqb k (fold_left (fun h p => insert bytes_eqb (fst p) (snd p) h) l m) = Some v.
Proof.
  intros (pre & post & -> & Hp). rewrite fold_left_app. cbn [fold_left fst snd].
  set (m' := fold_left _ pre m). clearbody m'.
  assert (G : forall h, lookup bytes_eqb k h = Some v ->
     lookup bytes_eqb k (fold_left (fun h p => insert bytes_eqb (fst p) (snd p) h) post h) = Some v).
  { induction post as [|[k2 v2] post IH]; intros h Hh; [exact Hh|]. cbn [fold_left fst snd].
    apply IH; [intros v' Hv; exact (Hp v' (or_intror Hv))|].
    rewrite (lookup_insert_ne _ bytes_eqb_spec); [exact Hh|]. intros ->. exact (Hp v2 (or_introl eq_refl)). }
  apply G. apply (lookup_insert_eq _ bytes_eqb_spec).
Qed.
Lemma fold_insert_never {V} (l : list (bytes * V)) m k : never_given l k ->
  lookup bytes_eqb k (fold_left (fun h p => insert bytes_eqb (fst p) (snd p) h) l m) = lookup bytes_eqb k m.
Proof.
  revert m. induction l as [|[k2 v2] l IH]; intros m H; [reflexivity|]. cbn [fold_left fst snd].
  rewrite IH by (intros v Hv; exact (H v (or_intror Hv))).
  apply (lookup_insert_ne _ bytes_eqb_spec). intros ->. exact (H v2 (or_introl eq_refl)).
Qed.
Lemma last_or_never {V} (l : list (bytes * V)) k : (exists v, last_given l k v) \/ never_given l k.
Proof.
  induction l as [|[k2 v2] l IH]; [right; intros v []|].
  destruct IH as [(v & pre & post & -> & H)|H].
  - left. exists v, ((k2, v2) :: pre), post. split; [reflexivity|exact H].
  - destruct (bytes_eqb k2 k) eqn:E.
    + apply bytes_eqb_spec in E. subst. left. exists v2, [], l. split; [reflexivity|exact H].
    + right. intros v [Hv|Hv]; [|exact (H v Hv)]. inversion Hv; subst. rewrite bytes_eqb_refl in E. discriminate.
Qed.

Section Facts.
  Context {CB Addr LO SO Val : Type}.
  Notation call := (call CB Addr LO SO Val).
  Notation builder := (builder CB Addr LO SO Val).
  Notation effect := (effect Addr LO SO).

  Lemma ns_fold (l : list (bytes * CB)) (nb : @ns_builder CB Addr LO SO Val) :
    fold_left (fun nb p => nb_on nb (fst p) (snd p)) l nb
    = mk_ns_builder (nb_name nb) (fold_left (fun h p => insert bytes_eqb (fst p) (snd p) h) l (nb_handler nb)) (nb_ipc nb).
  Proof.
    revert nb. induction l as [|p l IH]; intros nb; [destruct nb; reflexivity|].
    cbn [fold_left]. rewrite IH. reflexivity.
  Qed.

  Lemma insert_all_eq (l : list (N * Val)) (b : builder) :
    b_insert_all b l = mk_builder (b_handler b) (b_address b) (b_namespaces b) (fold_left (fun h p => insert N.eqb (fst p) (snd p) h) l (b_data b)) (b_timeout b) (b_serializer b) (b_lopts b) (b_sopts b).
  Proof. revert b. induction l as [|p l IH]; intros b; [destruct b; reflexivity|]. unfold b_insert_all in *. cbn [fold_left]. rewrite IH. reflexivity. Qed.

  Definition ns_of (x : list (bytes * CB) + namespace CB) (name : bytes) : namespace CB :=
    match x with
    | inl r => mk_namespace name (fold_left (fun h p => insert bytes_eqb (fst p) (snd p) h) r [])
    | inr n => n
    end.

  Lemma calls_handler (l : list call) (b : builder) :
    b_handler (do_calls b l) = fold_left (fun h p => insert bytes_eqb (fst p) (snd p) h) (global_regs l) (b_handler b).
  Proof.
    revert b. induction l as [|c l IH]; intros b; [reflexivity|]. unfold do_calls in *. cbn [fold_left]. rewrite IH.
    unfold global_regs. cbn [flat_map]. rewrite fold_left_app. f_equal.
    destruct c; try reflexivity; cbn [do_call]; rewrite ?ns_fold, ?insert_all_eq; reflexivity.
  Qed.
  Lemma calls_namespaces (l : list call) (b : builder) :
    b_namespaces (do_calls b l)
    = fold_left (fun h p => insert bytes_eqb (fst p) (snd p) h)
        (map (fun p => (fst p, ns_of (snd p) (fst p))) (added_namespaces l)) (b_namespaces b).
  Proof.
    revert b. induction l as [|c l IH]; intros b; [reflexivity|]. unfold do_calls in *. cbn [fold_left]. rewrite IH.
    unfold added_namespaces. cbn [flat_map]. rewrite map_app, fold_left_app. f_equal.
    destruct c; try reflexivity; cbn [do_call]; rewrite ?ns_fold, ?insert_all_eq; reflexivity.
  Qed.
  Lemma last_given_map {V W} (f : bytes -> V -> W) (l : list (bytes * V)) k v :
    last_given l k v -> last_given (map (fun p => (fst p, f (fst p) (snd p))) l) k (f k v).
  Proof.
    intros (pre & post & -> & H). exists (map (fun p => (fst p, f (fst p) (snd p))) pre), (map (fun p => (fst p, f (fst p) (snd p))) post).
    split; [rewrite map_app; reflexivity|]. intros w Hw. apply in_map_iff in Hw. destruct Hw as ([k2 v2] & E & Hin).
    cbn in E. inversion E; subst. exact (H _ Hin).
  Qed.
  Lemma never_given_map {V W} (f : bytes -> V -> W) (l : list (bytes * V)) k :
    never_given l k -> never_given (map (fun p => (fst p, f (fst p) (snd p))) l) k.
  Proof.
    intros H w Hw. apply in_map_iff in Hw. destruct Hw as ([k2 v2] & E & Hin). cbn in E. inversion E; subst. exact (H _ Hin).
  Qed.

  Section New.
    Variables (derr : CB) (first : format) (lo : LO) (so : SO).
    Let new : builder := builder_new derr first lo so.

    Lemma global_last (l : list call) name cb : last_given (global_regs l) name cb -> global_callback (do_calls new l) name = Some cb.
    Proof. intros H. unfold global_callback, eh_get. rewrite calls_handler. apply fold_insert_last. exact H. Qed.
    Lemma global_never (l : list call) name : never_given (global_regs l) name ->
      (name = str "error" -> global_callback (do_calls new l) name = Some derr)
      /\ (name <> str "error" -> global_callback (do_calls new l) name = None).
    Proof.
      intros H. unfold global_callback, eh_get. rewrite calls_handler, fold_insert_never by exact H. split; intros Hn.
      - subst. reflexivity.
      - cbn [b_handler builder_new new]. unfold eh_on, eh_new.
        rewrite (lookup_insert_ne _ bytes_eqb_spec) by exact Hn. reflexivity.
    Qed.
    Lemma ns_last_regs (l : list call) ns r : last_given (added_namespaces l) ns (inl r) ->
      has_namespace (do_calls new l) ns
      /\ (forall name cb, last_given r name cb -> namespace_callback (do_calls new l) ns name = Some cb)
      /\ (forall name, never_given r name -> namespace_callback (do_calls new l) ns name = None).
    Proof.
      intros H. unfold has_namespace, namespace_callback. rewrite calls_namespaces.
      rewrite (fold_insert_last _ _ _ _ (last_given_map (fun k v => ns_of v k) _ _ _ H)).
      split; [discriminate|]. cbn [ns_of ns_handler]. split; intros name.
      - intros cb Hl. unfold eh_get. apply fold_insert_last. exact Hl.
      - intros Hl. unfold eh_get. rewrite fold_insert_never by exact Hl. reflexivity.
    Qed.
    Lemma ns_last_obj (l : list call) ns n : last_given (added_namespaces l) ns (inr n) ->
      has_namespace (do_calls new l) ns
      /\ (forall name, namespace_callback (do_calls new l) ns name = eh_get (ns_handler n) name).
    Proof.
      intros H. unfold has_namespace, namespace_callback. rewrite calls_namespaces.
      rewrite (fold_insert_last _ _ _ _ (last_given_map (fun k v => ns_of v k) _ _ _ H)).
      split; [discriminate|]. reflexivity.
    Qed.
    Lemma ns_never (l : list call) ns : never_given (added_namespaces l) ns ->
      ~ has_namespace (do_calls new l) ns /\ (forall name, namespace_callback (do_calls new l) ns name = None).
    Proof.
      intros H. unfold has_namespace, namespace_callback. rewrite calls_namespaces.
      rewrite fold_insert_never by (apply (never_given_map (fun k v => ns_of v k)); exact H).
      split; [intros G; apply G; reflexivity|reflexivity].
    Qed.

    Lemma calls_address (l : list call) (b : builder) :
      b_address (do_calls b l) = fold_left (fun _ p => Some (snd p)) (addresses l) (b_address b).
    Proof.
      revert b. induction l as [|c l IH]; intros b; [reflexivity|]. unfold do_calls in *. cbn [fold_left]. rewrite IH.
      unfold addresses. cbn [flat_map]. rewrite fold_left_app. f_equal.
      destruct c; try reflexivity; cbn [do_call]; rewrite ?ns_fold, ?insert_all_eq; reflexivity.
    Qed.
    Lemma fold_some_last {A B} (l : list (A * B)) (o : option B) :
      fold_left (fun _ p => Some (snd p)) l o = match rev l with [] => o | p :: _ => Some (snd p) end.
    Proof.
      revert o. induction l as [|p l IH]; intros o; [reflexivity|]. cbn [fold_left rev]. rewrite IH.
      destruct (rev l); reflexivity.
    Qed.
    Lemma address_last (l : list call) a : last_given (addresses l) tt a -> b_address (do_calls new l) = Some a.
    Proof.
      intros (pre & post & E & H). rewrite calls_address, E, fold_left_app. cbn [fold_left].
      assert (post = []) as -> by (destruct post as [|[[] a'] post]; [reflexivity|exfalso; exact (H a' (or_introl eq_refl))]).
      reflexivity.
    Qed.
    Lemma address_never (l : list call) : never_given (addresses l) tt -> b_address (do_calls new l) = None.
    Proof.
      intros H. rewrite calls_address. destruct (addresses l) as [|[[] a] r]; [reflexivity|exfalso; exact (H a (or_introl eq_refl))].
    Qed.
    Lemma timeout_last (l : list call) t : last_given (timeouts l) tt t -> b_timeout (do_calls new l) = t.
    Proof.
      intros (pre & post & E & H).
      assert (G : forall (l : list call) (b : builder), b_timeout (do_calls b l) = fold_left (fun _ p => snd p) (timeouts l) (b_timeout b)).
      { clear. induction l as [|c l IH]; intros b; [reflexivity|]. unfold do_calls in *. cbn [fold_left]. rewrite IH.
        unfold timeouts. cbn [flat_map]. rewrite fold_left_app. f_equal.
        destruct c; try reflexivity; cbn [do_call]; rewrite ?ns_fold, ?insert_all_eq; reflexivity. }
      rewrite G, E, fold_left_app. cbn [fold_left].
      assert (post = []) as -> by (destruct post as [|[[] a'] post]; [reflexivity|exfalso; exact (H a' (or_introl eq_refl))]).
      reflexivity.
    Qed.
  End New.

  (** building *)
  Lemma no_address (b : builder) (net : N -> outcome N) bd sv n : b_address b = None ->
    build_client net b = ([], Err (BuildError (str "Missing Address")))
    /\ build_server bd sv b = ([], Err (BuildError (str "Missing Address")))
    /\ ((0 < n)%nat -> build_pooled_client net b n = ([], Err (BuildError (str "Missing Address")))).
  Proof.
    intros H. unfold build_client, build_server, build_pooled_client, validate. rewrite H. repeat split.
    intros Hn. destruct n; [lia|]. reflexivity.
  Qed.
  Lemma pool_zero (b : builder) net : build_pooled_client net b 0 = ([], Err (BuildError (str "Pool size must be greater than 0"))).
  Proof. reflexivity. Qed.

  Lemma connect_many_spec (net : N -> outcome N) (b : builder) a n i fs r :
    connect_many net b a i n = (fs, r) ->
    (exists cs, r = Ok cs /\ length cs = n /\ connects fs = n
       /\ loops fs = map cc_conn cs
       /\ (forall j, (j < n)%nat -> exists c, nth_error cs j = Some c /\ net (i + N.of_nat j) = Ok (cc_conn c)
             /\ cc_listeners c = 0 /\ cc_data c = 0 /\ cc_timeout c = b_timeout b /\ cc_serializer c = b_serializer b /\ cc_stoppable c = true))
    \/ (exists j, (j < n)%nat /\ connects fs = S j /\ length (loops fs) = j
          /\ (forall j', (j' < j)%nat -> exists c, net (i + N.of_nat j') = Ok c /\ nth_error (loops fs) j' = Some c)
          /\ ((exists e, net (i + N.of_nat j) = Err e /\ r = Err e) \/ (exists c, net (i + N.of_nat j) = Crash c /\ r = Crash c))).
  Proof.
    revert i fs r. induction n as [|n IH]; intros i fs r H; cbn [connect_many] in H.
    - inversion H; subst. left. exists []. repeat split; try reflexivity. intros j Hj. lia.
    - unfold connect in H. destruct (net i) as [c|e|c] eqn:En.
      + destruct (connect_many net b a (i + 1) n) as [fs' r'] eqn:Em. inversion H; subst. clear H.
        destruct (IH _ _ _ Em) as [(cs & -> & Hl & Hc & Hlo & Hj)|(j & Hj & Hc & Hl & Hok & Hr)].
        * left. eexists. split; [reflexivity|]. split; [cbn; lia|]. split; [unfold connects in *; cbn; lia|].
          split; [cbn; unfold loops in Hlo; rewrite Hlo; reflexivity|].
          intros [|j] Hjn; cbn [nth_error].
          { eexists. split; [reflexivity|]. cbn. rewrite N.add_0_r. repeat split; try reflexivity. exact En. }
          destruct (Hj j ltac:(lia)) as (c' & A & B & C). exists c'. split; [exact A|]. split; [|exact C].
          rewrite <- B. f_equal. lia.
        * right. exists (S j). split; [lia|]. split; [unfold connects in *; cbn; lia|].
          split; [cbn; unfold loops in Hl; lia|]. split.
          { intros [|j'] Hj'; [exists c; rewrite N.add_0_r; split; [exact En|reflexivity]|].
            destruct (Hok j' ltac:(lia)) as (c' & A & B). exists c'. split; [rewrite <- A; f_equal; lia|exact B]. }
          replace (i + N.of_nat (S j)) with (i + 1 + N.of_nat j) by lia.
          destruct Hr as [(e & A & ->)|(e & A & ->)]; [left|right]; exists e; split; auto.
      + inversion H; subst. right. exists 0%nat. split; [lia|]. split; [reflexivity|]. split; [reflexivity|].
        split; [intros j' Hj'; lia|]. left. exists e. rewrite N.add_0_r. auto.
      + inversion H; subst. right. exists 0%nat. split; [lia|]. split; [reflexivity|]. split; [reflexivity|].
        split; [intros j' Hj'; lia|]. right. exists c. rewrite N.add_0_r. auto.
  Qed.

  Lemma pooled_spec (net : N -> outcome N) (b : builder) a n fs r : b_address b = Some a -> (0 < n)%nat ->
    build_pooled_client net b n = (fs, r) ->
    (exists cs, r = Ok cs /\ length cs = n /\ connects fs = n
       /\ loops fs = map cc_conn cs
       /\ (forall j, (j < n)%nat -> exists c, nth_error cs j = Some c /\ net (N.of_nat j) = Ok (cc_conn c)
             /\ cc_listeners c = 0 /\ cc_data c = 0 /\ cc_timeout c = b_timeout b /\ cc_serializer c = b_serializer b /\ cc_stoppable c = true))
    \/ (exists j, (j < n)%nat /\ connects fs = S j /\ length (loops fs) = j
          /\ (forall j', (j' < j)%nat -> exists c, net (N.of_nat j') = Ok c /\ nth_error (loops fs) j' = Some c)
          /\ ((exists e, net (N.of_nat j) = Err e /\ r = Err e) \/ (exists c, net (N.of_nat j) = Crash c /\ r = Crash c))).
  Proof.
    intros Ha Hn H. unfold build_pooled_client, validate in H. rewrite Ha in H.
    destruct n as [|n]; [lia|]. cbn [Nat.eqb] in H. exact (connect_many_spec _ _ _ _ _ _ _ H).
  Qed.

  Lemma client_spec (net : N -> outcome N) (b : builder) a : b_address b = Some a ->
    build_client net b =
      match net 0 with
      | Ok c => ([FConnect a (b_sopts b); FLoop c], Ok (mk_cc c 0 0 (b_timeout b) (b_serializer b) true))
      | Err e => ([FConnect a (b_sopts b)], Err e)
      | Crash c => ([FConnect a (b_sopts b)], Crash c)
      end.
  Proof. intros H. unfold build_client, validate, connect. rewrite H. reflexivity. Qed.
End Facts.

Lemma provider_last {CB} name (l : list (bytes * CB)) ev cb : last_given l ev cb ->
  eh_get (ns_handler (from_provider name (fun h => fold_left (fun h p => eh_on h (fst p) (snd p)) l h))) ev = Some cb.
Proof. intros H. exact (fold_insert_last _ _ _ _ H). Qed.
Lemma provider_never {CB} name (l : list (bytes * CB)) ev : never_given l ev ->
  eh_get (ns_handler (from_provider name (fun h => fold_left (fun h p => eh_on h (fst p) (snd p)) l h))) ev = None.
Proof. intros H. unfold eh_get, from_provider. cbn [ns_handler]. unfold eh_on. rewrite fold_insert_never by exact H. reflexivity. Qed.
