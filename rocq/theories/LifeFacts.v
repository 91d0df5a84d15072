(** Facts about the lifetime of connections. *)
From Verif Require Import Base Pool Life SpecLife.
Open Scope nat_scope.

(** references an owner holds: to the write half, to the stop sender *)
Definition ns (o : own) : nat := match o with EmitFut | Asking | Answering => 2 | _ => 1 end.
Definition nt (o : own) : nat := match o with Writing => 0 | _ => 1 end.
Definition sum (f : own -> nat) (l : list own) : nat := fold_right (fun o n => f o + n) 0 l.
Definition b2 (b : bool) : nat := if b then 1 else 0.

Record good (s : sided) : Prop := {
  g_streams : sd_streams s = b2 (sd_loop s) + sum ns (sd_owners s);
  g_stops : sd_stops s = b2 (sd_loop s) + sum nt (sd_owners s);
  g_write : sd_write s = (0 <? sd_streams s) }.

Lemma sum_app f l m : sum f (l ++ m) = sum f l + sum f m.
Proof. unfold sum. induction l as [|o l IH]; cbn; lia. Qed.
Lemma sum_del f i l o : nth_error l i = Some o -> sum f l = f o + sum f (del_nth i l).
Proof.
  unfold del_nth. revert i. induction l as [|x l IH]; intros [|i] E; cbn in E; try discriminate.
  - injection E as ->. reflexivity.
  - cbn [firstn skipn app]. cbn [sum fold_right]. fold (sum f l). rewrite (IH i E). unfold sum. cbn. lia.
Qed.
Lemma sum_set f i l o n : nth_error l i = Some o -> sum f (set_nth i n l) + f o = f n + sum f l.
Proof.
  revert i. induction l as [|x l IH]; intros [|i] E; cbn in E; try discriminate.
  - injection E as ->. cbn. unfold sum. lia.
  - cbn [set_nth]. cbn. fold (sum f l). fold (sum f (set_nth i n l)). pose proof (IH i E). lia.
Qed.
Lemma sum_ge1 l : l <> [] -> 1 <= sum ns l.
Proof. destruct l as [|o l]; [congruence|]. intros _. cbn. destruct o; cbn; lia. Qed.

Definition ups (a b : nat) (s : sided) : sided :=
  mk_sided (sd_loop s) (sd_owners s) (sd_streams s + a) (sd_stops s + b) (sd_write s) (sd_sender s) (sd_signal s) (sd_out s).

(** the primitive operations, by their effect on a record with enough references left *)
Ltac prim := unfold loop_ends, drop_ctx, clone_ctx, clone_stop, clone_stream, take_sender, add_own, put_own, del_own, with_owners, with_loop, with_out in *; cbn [sd_loop sd_owners sd_streams sd_stops sd_write sd_sender sd_signal sd_out] in *.

Lemma drop_stream_eff s : drop_stream s =
  mk_sided (sd_loop s) (sd_owners s) (pred (sd_streams s)) (sd_stops s) (if sd_streams s <=? 1 then false else sd_write s) (sd_sender s) (sd_signal s) (sd_out s).
Proof. unfold drop_stream. destruct (sd_streams s) as [|[|k]] eqn:E; reflexivity. Qed.
Lemma drop_stop_eff s : drop_stop s =
  mk_sided (sd_loop s) (sd_owners s) (sd_streams s) (pred (sd_stops s)) (sd_write s) (if sd_stops s <=? 1 then false else sd_sender s) (if sd_stops s <=? 1 then sd_signal s || sd_sender s else sd_signal s) (sd_out s).
Proof. unfold drop_stop. destruct (sd_stops s) as [|[|k]] eqn:E; reflexivity. Qed.

Lemma good_client : good client_new.
Proof. constructor; reflexivity. Qed.
Lemma good_server : good server_new.
Proof. constructor; reflexivity. Qed.

Lemma sum_pos l i o : nth_error l i = Some o -> 1 <= sum ns l.
Proof. intros E. apply sum_ge1. intros ->. destruct i; discriminate. Qed.
Lemma lb a b : (if a <=? 1 then false else b) = (negb (a <=? 1) && b).
Proof. destruct (a <=? 1); reflexivity. Qed.

Lemma end_good s p w s' : good s -> end_step s p w = Some s' -> good s'.
Proof.
  intros [G1 G2 G3] H. destruct w; cbn [end_step] in H;
  repeat match type of H with context [match nth_error ?l ?i with _ => _ end] => destruct (nth_error l i) as [[]|] eqn:?; try discriminate H end;
  repeat match type of H with context [callable ?o] => destruct o as [[]|] eqn:?; cbn [callable] in H; try discriminate H end;
  repeat match type of H with (if ?b then _ else _) = _ => destruct b eqn:?; try discriminate H end;
  repeat match type of H with Some (if ?b then _ else _) = _ => destruct b eqn:? end;
  injection H as <-; prim; rewrite ?drop_stop_eff, ?drop_stream_eff; cbn [sd_loop sd_owners sd_streams sd_stops sd_write sd_sender sd_signal sd_out] in *;
  repeat match goal with E : nth_error ?l ?i = Some ?o |- context [del_nth ?i ?l] => lazymatch goal with X : sum ns l = _ |- _ => fail | _ => pose proof (sum_del ns i l o E); pose proof (sum_del nt i l o E) end end;
  repeat match goal with E : nth_error ?l ?i = Some ?o |- context [set_nth ?i ?n ?l] => lazymatch goal with X : sum ns (set_nth i n l) + _ = _ |- _ => fail | _ => pose proof (sum_set ns i l o n E); pose proof (sum_set nt i l o n E) end end;
  repeat match goal with E : nth_error ?l ?i = Some ?o |- _ => pose proof (sum_pos l i o E); clear E end;
  repeat match goal with E : _ && _ = true |- _ => apply andb_prop in E as [E ?] end;
  constructor; cbn [sd_loop sd_owners sd_streams sd_stops sd_write sd_sender sd_signal sd_out] in *;
  repeat match goal with E : sd_loop s = _ |- _ => rewrite E in *; clear E end;
  rewrite ?sum_app; cbn [sum fold_right ns nt b2] in *; rewrite ?G3, ?lb; try lia.
Qed.

(** ** Whole histories *)
Lemma run_snoc h : forall l x w l', life_run l (h ++ [(x, w)]) = Some l' <-> exists m, life_run l h = Some m /\ life_step m x w = Some l'.
Proof.
  induction h as [|[y v] h IH]; intros l x w l'; cbn [app life_run].
  - split; [intros H; exists l; split; [reflexivity|]; destruct (life_step l x w); [exact H | discriminate]|].
    intros (m & E & H). injection E as <-. rewrite H. reflexivity.
  - destruct (life_step l y v) as [k|]; [apply IH|]. split; [discriminate|]. intros (m & E & _). discriminate.
Qed.
Lemma run_ind (P : list (endp * what) -> life -> Prop) :
  P [] life_new ->
  (forall h l x w l', history h l -> P h l -> life_step l x w = Some l' -> P (h ++ [(x, w)]) l') ->
  forall h l, history h l -> P h l.
Proof.
  intros P0 PS h. induction h as [|[x w] h IH] using rev_ind; intros l H.
  - cbv [history life_run] in H. injection H as <-. exact P0.
  - apply run_snoc in H as (m & E & H). eapply PS; [exact E | apply IH; exact E | exact H].
Qed.

(** what a step does to either end *)
Lemma step_ends l x w l' : life_step l x w = Some l' ->
  end_step (at_end l x) (at_end l (peer x)) w = Some (at_end l' x) /\ at_end l' (peer x) = at_peer (at_end l (peer x)) w.
Proof.
  unfold life_step. destruct (end_step _ _ w) as [s|] eqn:E; [|discriminate]. intros H. injection H as <-.
  destruct x; cbn in *; auto.
Qed.
Lemma good_with_out s n : good s -> good (with_out s n).
Proof. intros []. constructor; assumption. Qed.
Lemma good_peer s w : good s -> good (at_peer s w).
Proof. intros G. destruct w; try exact G. apply good_with_out. exact G. Qed.

Lemma good_always h l : history h l -> forall x, good (at_end l x).
Proof.
  revert h l. apply (run_ind (fun h l => forall x, good (at_end l x))).
  - intros []; [exact good_client | exact good_server].
  - intros h l x w l' _ IH H y. apply step_ends in H as [H1 H2]. assert (C : y = x \/ y = peer x) by (destruct x, y; cbn; auto).
    destruct C as [-> | ->]; [exact (end_good _ _ _ _ (IH x) H1) | rewrite H2; apply good_peer, IH].
Qed.

Lemma good_closed s : good s -> sd_write s = false -> sd_loop s = false /\ sd_owners s = [].
Proof.
  intros [G1 G2 G3] W. rewrite W in G3. symmetry in G3. apply Nat.ltb_ge in G3. destruct (sd_loop s); cbn [b2] in *; [lia|].
  split; [reflexivity|]. destruct (sd_owners s) as [|o os]; [reflexivity|]. pose proof (sum_ge1 (o :: os) ltac:(discriminate)). lia.
Qed.
(** nothing can happen any more at an end without loop and owners *)
Lemma dead_stays s p w : sd_loop s = false -> sd_owners s = [] -> end_step s p w = None.
Proof.
  intros L O. destruct w; cbn [end_step]; rewrite ?L, ?O; try (destruct i; reflexivity); try reflexivity.
  destruct (sd_signal s); reflexivity.
Qed.

Lemma server_quiet h l : history h l -> sd_sender (l_server l) = false /\ sd_signal (l_server l) = false.
Proof.
  revert h l. apply (run_ind (fun h l => sd_sender (l_server l) = false /\ sd_signal (l_server l) = false)); [split; reflexivity|].
  intros h l x w l' _ [I1 I2] H. apply step_ends in H as [H1 H2]. destruct x; cbn [peer at_end] in *.
  - rewrite H2. destruct w; cbn; auto.
  - clear H2. set (s := l_server l) in *. set (p := l_client l) in *. set (s' := l_server l') in *. clearbody s p s'. destruct w; cbn [end_step] in H1;
    repeat match type of H1 with context [match nth_error ?l ?i with _ => _ end] => destruct (nth_error l i) as [[]|] eqn:?; try discriminate H1 end;
    repeat match type of H1 with (if ?b then _ else _) = _ => destruct b eqn:?; try discriminate H1 end;
    repeat match type of H1 with Some (if ?b then _ else _) = _ => destruct b eqn:? end;
    injection H1 as <-; prim; rewrite ?drop_stop_eff, ?drop_stream_eff; cbn [sd_loop sd_owners sd_streams sd_stops sd_write sd_sender sd_signal sd_out] in *;
    rewrite ?I1, ?I2; cbn; repeat match goal with |- context [if ?b then _ else _] => destruct b end; auto.
Qed.

(** the client's stop sender and the task waiting for it *)
Definition stopped (h : list (endp * what)) : Prop := exists i, In (Client, StopOn i) h.
Record cinv (h : list (endp * what)) (s : sided) : Prop := {
  c_wake : sd_loop s = true -> sd_sender s = true \/ sd_signal s = true;
  c_why : sd_signal s = true \/ sd_loop s = false -> stopped h \/ In (Client, ReadFails) h \/ In (Client, ReadsEof) h;
  c_taken : stopped h -> sd_sender s = false }.

Lemma stopped_app h x w : stopped (h ++ [(x, w)]) -> stopped h \/ exists i, x = Client /\ w = StopOn i.
Proof. intros [i H]. apply in_app_or in H as [H | [H | []]]; [left; exists i; exact H | right; exists i]. injection H as -> ->. auto. Qed.
Lemma stopped_mono h k : stopped h -> stopped (h ++ k).
Proof. intros [i H]. exists i. apply in_or_app. auto. Qed.

Ltac cases H :=
  repeat match type of H with context [match nth_error ?l ?i with _ => _ end] => destruct (nth_error l i) as [[]|] eqn:?; try discriminate H end;
  repeat match type of H with (if ?b then _ else _) = _ => destruct b eqn:?; try discriminate H end;
  repeat match type of H with Some (if ?b then _ else _) = _ => destruct b eqn:? end.
Ltac effects := prim; rewrite ?drop_stop_eff, ?drop_stream_eff; cbn [sd_loop sd_owners sd_streams sd_stops sd_write sd_sender sd_signal sd_out] in *.

Lemma loop_kept s p w s' : end_step s p w = Some s' -> w <> Abort -> w <> ReadsEof -> w <> ReadFails -> sd_loop s' = sd_loop s.
Proof.
  intros H N1 N2 N3. destruct w; cbn [end_step] in H; try congruence; cases H; injection H as <-; effects; reflexivity.
Qed.
Lemma sender_effect s p w s' : end_step s p w = Some s' -> (forall i, w <> StopOn i) ->
  (sd_sender s' = sd_sender s /\ sd_signal s' = sd_signal s) \/ (sd_stops s' = 0 /\ sd_sender s' = false /\ sd_signal s' = sd_signal s || sd_sender s).
Proof.
  intros H N. destruct w; cbn [end_step] in H; cases H; injection H as <-; effects; auto;
  try (exfalso; eapply N; reflexivity);
  match goal with |- context [?a <=? 1] => destruct (a <=? 1) eqn:? end; auto; right; repeat split; lia.
Qed.
Lemma stop_effect s p i s' : end_step s p (StopOn i) = Some s' -> sd_sender s' = false /\ sd_signal s' = sd_signal s || sd_sender s.
Proof.
  intros H. cbn [end_step] in H. cases H. injection H as <-. effects. destruct (_ <=? 1); split; auto. destruct (sd_signal s), (sd_sender s); reflexivity.
Qed.

Lemma cinv_step h s p w s' : good s -> cinv h s -> end_step s p w = Some s' -> cinv (h ++ [(Client, w)]) s'.
Proof.
  intros G [A B C] H. pose proof (end_good _ _ _ _ G H) as G'.
  assert (B1 : stopped h \/ In (Client, ReadFails) h \/ In (Client, ReadsEof) h -> stopped (h ++ [(Client, w)]) \/ In (Client, ReadFails) (h ++ [(Client, w)]) \/ In (Client, ReadsEof) (h ++ [(Client, w)])).
  { intros [X | [X | X]]; [left; apply stopped_mono, X | right; left | right; right]; apply in_or_app; auto. }
  assert (W : (exists i, w = StopOn i) \/ forall i, w <> StopOn i) by (destruct w; eauto; right; discriminate).
  destruct W as [[i ->] | N].
  - pose proof (stop_effect _ _ _ _ H) as [E1 E2]. pose proof (loop_kept _ _ _ _ H ltac:(discriminate) ltac:(discriminate) ltac:(discriminate)) as L.
    constructor.
    + intros Q. right. rewrite L in Q. rewrite E2. destruct (A Q) as [-> | ->]; auto using orb_true_r.
    + intros _. left. exists i. apply in_or_app. right. left. reflexivity.
    + intros _. exact E1.
  - assert (Z : sd_stops s' = 0 -> sd_loop s' = false) by (intros Z; destruct G' as [_ G2 _]; rewrite Z in G2; destruct (sd_loop s'); [cbn in G2; lia | reflexivity]).
    assert (D : w = Abort \/ w = ReadsEof \/ w = ReadFails \/ sd_loop s' = sd_loop s).
    { destruct w; try tauto; right; right; right; apply (loop_kept _ _ _ _ H); discriminate. }
    constructor.
    + intros Q. assert (Q0 : sd_loop s = true).
      { destruct D as [-> | [-> | [-> | <-]]]; [| | |exact Q]; exfalso; cbn [end_step] in H; cases H; injection H as <-; revert Q; effects; discriminate. }
      destruct (sender_effect _ _ _ _ H N) as [[-> ->] | (E0 & _)]; [exact (A Q0)|]. rewrite (Z E0) in Q. discriminate.
    + intros Q. destruct D as [-> | [-> | [-> | L]]].
      * apply B1, B. left. cbn [end_step] in H. cases H. apply andb_prop in Heqb as [X _]. exact X.
      * right. right. apply in_or_app. right. left. reflexivity.
      * right. left. apply in_or_app. right. left. reflexivity.
      * apply B1, B. rewrite <- L. destruct (sender_effect _ _ _ _ H N) as [[_ E] | (E0 & _)]; [rewrite <- E; exact Q | right; exact (Z E0)].
    + intros Q. apply stopped_app in Q as [Q | (i & _ & E)]; [|exfalso; exact (N i E)].
      destruct (sender_effect _ _ _ _ H N) as [[-> _] | (_ & -> & _)]; [exact (C Q) | reflexivity].
Qed.
Lemma cinv_peer h s w : cinv h s -> cinv (h ++ [(Server, w)]) (at_peer s w).
Proof.
  intros [A B C]. assert (E : sd_loop (at_peer s w) = sd_loop s /\ sd_sender (at_peer s w) = sd_sender s /\ sd_signal (at_peer s w) = sd_signal s) by (destruct w; auto).
  destruct E as (E1 & E2 & E3). constructor; rewrite ?E1, ?E2, ?E3; auto.
  - intros Q. destruct (B Q) as [X | [X | X]]; [left; apply stopped_mono, X | right; left | right; right]; apply in_or_app; auto.
  - intros Q. apply stopped_app in Q as [Q | (i & E & _)]; [exact (C Q) | discriminate].
Qed.
Lemma cinv_always h l : history h l -> cinv h (l_client l).
Proof.
  intros H. pose proof (good_always h l H) as _. revert h l H.
  apply (run_ind (fun h l => cinv h (l_client l))).
  - constructor; cbn; auto; [intros [X | X]; discriminate | intros [i []]].
  - intros h l x w l' H I E. pose proof (good_always h l H Client) as G. apply step_ends in E as [E1 E2]. destruct x; cbn [peer at_end] in *.
    + exact (cinv_step _ _ _ _ _ G I E1).
    + rewrite E2. apply cinv_peer, I.
Qed.

(** without failures the server's loop ends after everything of the client, and the client's loop only after a stop *)
Lemma ends_order h l : history h l -> unbroken h ->
  (sd_loop (l_server l) = false -> sd_write (l_client l) = false) /\ ~ In (Client, ReadsEof) h.
Proof.
  revert h l. apply (run_ind (fun h l => unbroken h -> (sd_loop (l_server l) = false -> sd_write (l_client l) = false) /\ ~ In (Client, ReadsEof) h)).
  - intros _. split; [discriminate | intros []].
  - intros h l x w l' H IH E U. assert (U0 : unbroken h) by (intros y I; apply (U y), in_or_app; auto). specialize (IH U0) as [I1 I2].
    pose proof (good_always h l H) as G. apply step_ends in E as [E1 E2]. destruct x; cbn [peer at_end] in *.
    + assert (L0 : sd_loop (l_server l) = true).
      { destruct (sd_loop (l_server l)) eqn:L; [reflexivity|]. destruct (good_closed _ (G Client) (I1 eq_refl)) as [X Y]. cbn [at_end] in *. rewrite (dead_stays _ _ _ X Y) in E1. discriminate. }
      split.
      * intros Q. exfalso. rewrite E2 in Q. destruct w; cbn in Q; congruence.
      * intros Q. apply in_app_or in Q as [Q | [Q | []]]; [exact (I2 Q)|]. injection Q as ->. cbn [end_step] in E1. cases E1.
        apply andb_prop in Heqb as [Q _]. apply andb_prop in Q as [_ Q]. apply negb_true_iff in Q. destruct (good_closed _ (G Server) Q) as [X _]. cbn [at_end] in *. congruence.
    + split.
      * intros Q. rewrite E2. assert (W : w = ReadsEof \/ w <> ReadsEof) by (destruct w; auto; right; discriminate). destruct W as [-> | W].
        -- cbn [at_peer]. cbn [end_step] in E1. cases E1. apply andb_prop in Heqb as [X _]. apply andb_prop in X as [_ X]. apply negb_true_iff in X. exact X.
        -- destruct (server_quiet h l H) as [_ S2]. assert (A : w <> Abort) by (intros ->; cbn [end_step] in E1; cbn [at_end] in *; rewrite S2 in E1; discriminate).
           assert (F : w <> ReadFails) by (intros ->; apply (U Server), in_or_app; right; left; reflexivity).
           rewrite (loop_kept _ _ _ _ E1 A W F) in Q. pose proof (I1 Q) as K. destruct w; exact K.
      * intros Q. apply in_app_or in Q as [Q | [Q | []]]; [exact (I2 Q) | discriminate].
Qed.

(** ** The claims *)
Lemma open_iff s : good s -> (sd_write s = true <-> sd_loop s = true \/ sd_owners s <> []).
Proof.
  intros G. split.
  - intros W. destruct (sd_loop s) eqn:L; [auto|]. right. intros O. destruct G as [G1 _ G3]. rewrite W, L, O in *. cbn in G1. rewrite G1 in G3. discriminate.
  - intros X. destruct (sd_write s) eqn:W; [reflexivity|]. destruct (good_closed s G W) as [L O]. destruct X; congruence.
Qed.
Lemma not_stopped_runs h l : history h l -> unbroken h -> never_stopped Client h -> forall x, receiving l x /\ sending_open l x.
Proof.
  intros H U N. pose proof (good_always h l H) as G. destruct (cinv_always h l H) as [_ B _]. destruct (ends_order h l H U) as [E1 E2].
  assert (NS : sd_signal (l_client l) = true \/ sd_loop (l_client l) = false -> False).
  { intros Q. destruct (B Q) as [[i X] | [X | X]]; [exact (N i X) | exact (U Client X) | exact (E2 X)]. }
  assert (LC : sd_loop (l_client l) = true) by (destruct (sd_loop (l_client l)) eqn:L; [reflexivity | exfalso; apply NS; auto]).
  assert (LS : sd_loop (l_server l) = true).
  { destruct (sd_loop (l_server l)) eqn:L; [reflexivity|]. destruct (good_closed _ (G Client) (E1 eq_refl)) as [X _]. cbn [at_end] in X. congruence. }
  intros x. assert (R : sd_loop (at_end l x) = true) by (destruct x; assumption). split; [exact R|]. apply (open_iff _ (G x)). auto.
Qed.
Lemma abandoned_stays h l : history h l -> unbroken h -> never_stopped Client h -> (forall x, nothing_held l x) -> (forall x, all_read l x) ->
  forall x w, possible l x w -> w = ReadFails.
Proof.
  intros H U N O A x w P. destruct (not_stopped_runs h l H U N x) as [R _]. destruct (not_stopped_runs h l H U N (peer x)) as [_ W].
  unfold possible, life_step in P. specialize (O x). specialize (A (peer x)). unfold nothing_held, all_read, receiving, sending_open in *.
  assert (G : sd_signal (at_end l x) = false).
  { destruct x; [|exact (proj2 (server_quiet h l H))]. destruct (cinv_always h l H) as [_ B _]. destruct (sd_signal (at_end l Client)) eqn:S1; [|reflexivity].
    destruct (B (or_introl S1)) as [[i X] | [X | X]]; [exfalso; exact (N i X) | exfalso; exact (U Client X) | exfalso; exact (proj2 (ends_order h l H U) X)]. }
  destruct w; try reflexivity; exfalso; apply P; cbn [end_step]; rewrite ?O, ?A, ?W, ?G, ?R; try (destruct i; reflexivity); reflexivity.
Qed.
Lemma server_last h l : history h l -> unbroken h -> ~ receiving l Server ->
  ~ receiving l Client /\ nothing_held l Client /\ ~ sending_open l Client /\ exists i, In (Client, StopOn i) h.
Proof.
  intros H U R. unfold receiving, sending_open, nothing_held in *. cbn [at_end] in *. apply not_true_is_false in R. destruct (ends_order h l H U) as [E1 E2]. pose proof (E1 R) as W.
  destruct (good_closed _ (good_always h l H Client) W) as [L O]. cbn [at_end] in *. rewrite L, W. repeat split; try discriminate; [exact O|].
  destruct (cinv_always h l H) as [_ B _]. destruct (B (or_intror L)) as [X | [X | X]]; [exact X | exfalso; exact (U Client X) | exfalso; exact (E2 X)].
Qed.
Lemma client_by_stop h l : history h l -> unbroken h -> ~ receiving l Client -> exists i, In (Client, StopOn i) h.
Proof.
  intros H U R. unfold receiving in R. cbn [at_end] in R. apply not_true_is_false in R. destruct (ends_order h l H U) as [_ E2].
  destruct (cinv_always h l H) as [_ B _]. destruct (B (or_intror R)) as [X | [X | X]]; [exact X | exfalso; exact (U Client X) | exfalso; exact (E2 X)].
Qed.
Lemma stop_works h l i : history h l -> In (Client, StopOn i) h -> receiving l Client -> exists l', life_step l Client Abort = Some l' /\ ~ receiving l' Client.
Proof.
  intros H I R. destruct (cinv_always h l H) as [A _ C]. unfold receiving in *. cbn [at_end] in *. destruct (A R) as [X | X].
  - rewrite (C (ex_intro _ i I)) in X. discriminate.
  - unfold life_step. cbn [at_end peer end_step]. rewrite X, R. cbn [andb]. eexists. split; [reflexivity|]. cbn [set_end l_client at_peer]. unfold loop_ends. effects. discriminate.
Qed.
Lemma close_reaches h l : history h l -> ~ sending_open l Client -> receiving l Server -> exists w, by_itself w /\ possible l Server w.
Proof.
  intros H W R. unfold sending_open, receiving, possible, life_step in *. cbn [at_end peer] in *. apply not_true_is_false in W.
  destruct (sd_out (l_client l)) as [|n] eqn:O.
  - exists ReadsEof. split; [exact I|]. cbn [end_step]. rewrite R, W, O. discriminate.
  - exists (Receive false). split; [exact I|]. cbn [end_step]. rewrite R, O. discriminate.
Qed.
Lemma close_bound hs : forall l l', good (l_client l) -> sd_write (l_client l) = false -> Forall (fun xw => by_itself (snd xw)) hs -> sd_signal (l_server l) = false -> sd_sender (l_server l) = false -> good (l_server l) ->
  life_run l hs = Some l' -> length hs <= sd_out (l_client l) + b2 (sd_loop (l_server l)).
Proof.
  induction hs as [|[x w] hs IH]; intros l l' G W F SS SE GS H; [cbn; lia|]. cbn [life_run] in H. inversion F as [|? ? F1 F2]; subst. cbn [snd] in F1.
  destruct (life_step l x w) as [m|] eqn:E; [|discriminate]. apply step_ends in E as [E1 E2]. destruct (good_closed _ G W) as [L O].
  destruct x; cbn [peer at_end] in *; [rewrite (dead_stays _ _ _ L O) in E1; discriminate|].
  assert (Gm : good (l_client m)) by (rewrite E2; apply good_peer, G). assert (Wm : sd_write (l_client m) = false) by (rewrite E2; destruct w; exact W).
  pose proof (end_good _ _ _ _ GS E1) as GSm.
  assert (SQ : sd_signal (l_server m) = false /\ sd_sender (l_server m) = false).
  { destruct (sender_effect _ _ _ _ E1) as [[-> ->] | (_ & -> & ->)]; [intros i ->; exact F1 | auto | rewrite SS, SE; auto]. }
  destruct SQ as [SQ1 SQ2]. specialize (IH m l' Gm Wm F2 SQ1 SQ2 GSm H). cbn [length].
  destruct w; try (exfalso; exact F1); cbn [end_step at_peer] in *; cases E1.
  - apply andb_prop in Heqb as [Q _]. congruence.
  - apply andb_prop in Heqb0 as [Q1 Q2]. apply Nat.ltb_lt in Q2. rewrite E2 in IH. injection E1 as E1. rewrite <- E1 in IH. revert IH. effects. intros IH. lia.
  - apply andb_prop in Heqb0 as [Q1 Q2]. apply Nat.ltb_lt in Q2. rewrite E2 in IH. injection E1 as E1. rewrite <- E1 in IH. revert IH. effects. intros IH. lia.
  - apply andb_prop in Heqb as [Q _]. apply andb_prop in Q as [Q _]. rewrite E2 in IH. injection E1 as E1. rewrite <- E1 in IH. revert IH. effects. rewrite Q. cbn [b2]. intros IH. lia.
Qed.
(** a Context left can always send *)
Lemma still_sends l i : nth_error (sd_owners (l_client l)) i = Some UserCtx -> sd_loop (l_server l) = true ->
  let n := length (sd_owners (l_client l)) in
  exists l', life_run l [(Client, EmitOn i); (Client, PollEmit n); (Client, Written n); (Server, Receive true)] = Some l'
    /\ sd_out (l_client l') = sd_out (l_client l) /\ sd_owners (l_server l') = sd_owners (l_server l) ++ [Handling].
Proof.
  intros E R n. assert (N : forall (A : Type) (o : list A) (x : A), nth_error (o ++ [x]) (length o) = Some x) by (intros A o x; rewrite nth_error_app2, Nat.sub_diag by lia; reflexivity).
  assert (Z : forall (o : list own) x y, set_nth (length o) y (o ++ [x]) = o ++ [y]) by (induction o as [|a o IHo]; intros; cbn; [reflexivity | rewrite IHo; reflexivity]).
  cbn [life_run]. unfold life_step at 1. cbn [at_end peer end_step]. rewrite E. cbn [callable]. cbn [set_end l_client l_server at_peer].
  unfold life_step at 1. cbn [at_end peer end_step l_client l_server]. effects. unfold n. rewrite N. cbn [set_end l_client l_server at_peer]. effects.
  unfold life_step at 1. cbn [at_end peer end_step l_client l_server]. effects. rewrite Z, N. cbn [set_end l_client l_server at_peer]. effects.
  unfold life_step at 1. cbn [at_end peer end_step l_client l_server]. effects. rewrite R. cbn [andb Nat.ltb Nat.leb]. cbn [set_end l_client l_server at_peer]. effects.
  eexists. split; [reflexivity|]. split; reflexivity.
Qed.
