(** Proofs about the settings of a builder (C62). *)
From Verif Require Import Base BaseFacts Payload Builder SpecBuilder BuilderFacts.

Section Settings.
  Context {CB Addr LO SO Val : Type} (derr : CB) (first : format) (lo : LO) (so : SO).
  Notation call := (call CB Addr LO SO Val).
  Let new : builder CB Addr LO SO Val := builder_new derr first lo so.

  Lemma setting_fold {A} (given : list (unit * A)) d a : setting given d a -> fold_left (fun _ p => snd p) given d = a.
  Proof.
    intros [(pre & post & -> & H)|(H & ->)].
    - rewrite fold_left_app. cbn [fold_left]. assert (post = []) as -> by (destruct post as [|[[] a'] post]; [reflexivity|exfalso; exact (H a' (or_introl eq_refl))]). reflexivity.
    - destruct given as [|[[] x] r]; [reflexivity|exfalso; exact (H x (or_introl eq_refl))].
  Qed.
  Lemma setting_exists {A} (given : list (unit * A)) d : exists a, setting given d a.
  Proof.
    destruct (rev given) as [|[[] a] r] eqn:E.
    - exists d. right. apply (f_equal (@rev _)) in E. rewrite rev_involutive in E. subst. split; [intros v []|reflexivity].
    - exists a. left. exists (rev r), []. apply (f_equal (@rev _)) in E. rewrite rev_involutive in E. subst. split; [reflexivity|intros v []].
  Qed.
  Ltac folded := intros l; induction l as [|c l IH]; intros b; [reflexivity|]; unfold do_calls in *; cbn [fold_left]; rewrite IH; cbn [flat_map]; rewrite fold_left_app; f_equal;
    destruct c; try reflexivity; cbn [do_call]; rewrite ?ns_fold, ?insert_all_eq; reflexivity.
  Lemma calls_timeout : forall (l : list call) b, b_timeout (do_calls b l) = fold_left (fun _ p => snd p) (timeouts l) (b_timeout b).
  Proof. unfold timeouts. folded. Qed.
  Lemma calls_serializer : forall (l : list call) b, b_serializer (do_calls b l) = fold_left (fun _ p => snd p) (serializers l) (b_serializer b).
  Proof. unfold serializers. folded. Qed.
  Lemma calls_lopts : forall (l : list call) b, b_lopts (do_calls b l) = fold_left (fun _ p => snd p) (listener_opts l) (b_lopts b).
  Proof. unfold listener_opts. folded. Qed.
  Lemma calls_sopts : forall (l : list call) b, b_sopts (do_calls b l) = fold_left (fun _ p => snd p) (stream_opts l) (b_sopts b).
  Proof. unfold stream_opts. folded. Qed.
  Lemma calls_data : forall (l : list call) b, b_data (do_calls b l) = fold_left (fun h p => insert N.eqb (fst p) (snd p) h) (data_given l) (b_data b).
  Proof. unfold data_given. folded. Qed.

  Lemma data_last (l : list (N * Val)) m k v : last_given l k v -> lookup N.eqb k (fold_left (fun h p => insert N.eqb (fst p) (snd p) h) l m) = Some v.
  Proof.
    intros (pre & post & -> & Hp). rewrite fold_left_app. cbn [fold_left fst snd].
    assert (G : forall h, lookup N.eqb k h = Some v -> lookup N.eqb k (fold_left (fun h p => insert N.eqb (fst p) (snd p) h) post h) = Some v).
    { induction post as [|[k2 v2] post IH]; intros h Hh; [exact Hh|]. cbn [fold_left fst snd]. apply IH; [intros v' Hv; exact (Hp v' (or_intror Hv))|].
      rewrite lookup_Neqb_insert_ne; [exact Hh|]. intros ->. exact (Hp v2 (or_introl eq_refl)). }
    apply G. apply lookup_Neqb_insert_eq.
  Qed.
  Lemma data_never (l : list (N * Val)) : forall m k, never_given l k -> lookup N.eqb k (fold_left (fun h p => insert N.eqb (fst p) (snd p) h) l m) = lookup N.eqb k m.
  Proof.
    induction l as [|[k2 v2] l IH]; intros m k H; [reflexivity|]. cbn [fold_left fst snd]. rewrite IH by (intros v Hv; exact (H v (or_intror Hv))).
    apply lookup_Neqb_insert_ne. intros ->. exact (H v2 (or_introl eq_refl)).
  Qed.
  Lemma connect_many_opts (net : N -> outcome N) b a n : forall i fs (r : outcome (list client_context)) x y, connect_many net b a i n = (fs, r) -> In (@FConnect Addr LO SO x y) fs -> x = a /\ y = b_sopts (CB:=CB) (Val:=Val) b.
  Proof.
    induction n as [|n IH]; intros i fs r x y H Hin; cbn [connect_many] in H; [inversion H; subst; destruct Hin|]. unfold connect in H. destruct (net i) as [c|e|c].
    - destruct (connect_many net b a (i + 1) n) as [fs' r'] eqn:E. inversion H; subst. destruct Hin as [Q|[Q|Q]]; [inversion Q; auto|discriminate|eapply IH; eauto].
    - inversion H; subst. destruct Hin as [Q|[]]. inversion Q. auto.
    - inversion H; subst. destruct Hin as [Q|[]]. inversion Q. auto.
  Qed.
  Lemma connect_many_no_bind (net : N -> outcome N) b a n : forall i fs (r : outcome (list client_context)) x y, connect_many (CB:=CB) (Val:=Val) net b a i n = (fs, r) -> ~ In (@FBind Addr LO SO x y) fs.
  Proof.
    induction n as [|n IH]; intros i fs r x y H Hin; cbn [connect_many] in H; [inversion H; subst; destruct Hin|]. unfold connect in H. destruct (net i) as [c|e|c].
    - destruct (connect_many net b a (i + 1) n) as [fs' r'] eqn:E. inversion H; subst. destruct Hin as [Q|[Q|Q]]; [discriminate|discriminate|eapply IH; eauto].
    - inversion H; subst. destruct Hin as [Q|[]]. discriminate.
    - inversion H; subst. destruct Hin as [Q|[]]. discriminate.
  Qed.
End Settings.
