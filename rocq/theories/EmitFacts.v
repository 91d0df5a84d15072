(** Proofs about emitting. *)
From Verif Require Import Base BaseFacts BuilderFacts Codec Spec Ids Emit SpecEmit DecodeFacts EventProofs CodecFacts.
From Coq Require Import ZifyBool ZifyNat ZifyN.

Lemma put_length {A} i (x : A) l : length (put i x l) = length l.
Proof. revert i. induction l as [|y l IH]; intros [|i]; cbn; try reflexivity. f_equal. apply IH. Qed.
Lemma put_eq {A} i (x y : A) l : nth_error l i = Some y -> nth_error (put i x l) i = Some x.
Proof. revert i. induction l as [|z l IH]; intros [|i] H; cbn in *; try discriminate; [reflexivity|]. apply IH. exact H. Qed.
Lemma put_ne {A} i j (x : A) l : i <> j -> nth_error (put i x l) j = nth_error l j.
Proof. revert i j. induction l as [|z l IH]; intros [|i] [|j] H; cbn; try reflexivity; try contradiction. apply IH. lia. Qed.

Lemma send_nil w : send_bytes [] w = w.
Proof. destruct w. unfold send_bytes. cbn. rewrite app_nil_r. reflexivity. Qed.
Lemma send_send a b w : send_bytes b (send_bytes a w) = send_bytes (a ++ b) w.
Proof. unfold send_bytes. cbn. rewrite app_assoc. reflexivity. Qed.

(** what one poll of the writing part does *)
Inductive wrote_outcome (w : world) (id : N) (sent rest : bytes) : world -> emit_fut -> polled N -> Prop :=
| wo_more b rest' : rest = b ++ rest' -> rest' <> [] -> wrote_outcome w id sent rest (send_bytes b w) (FWrite id (sent ++ b) rest') Waiting
| wo_flush : wrote_outcome w id sent rest (send_bytes rest w) (FFlush id (sent ++ rest)) Waiting
| wo_done : wrote_outcome w id sent rest (unlock (send_bytes rest w)) FDone (Ready (Ok id))
| wo_fail b rest' k : rest = b ++ rest' -> wrote_outcome w id sent rest (unlock (send_bytes b w)) FDone (Ready (Err (IoError k))).

Lemma write_all_outcome l : forall w id sent rest w' f r, poll_write_all w id sent rest l = (w', f, r) -> wrote_outcome w id sent rest w' f r.
Proof.
  assert (FL : forall w id sent l w' f r, poll_flush w id sent l = (w', f, r) -> wrote_outcome w id sent [] w' f r).
  { intros w id sent l' w' f r H. destruct l' as [|[n| |k] l']; cbn in H; inversion H; subst.
    - rewrite <- (send_nil w') at 2. rewrite <- (app_nil_r sent) at 2. apply wo_flush.
    - rewrite <- (send_nil w) at 2. apply wo_done.
    - rewrite <- (send_nil w') at 2. rewrite <- (app_nil_r sent) at 2. apply wo_flush.
    - rewrite <- (send_nil w) at 2. apply (wo_fail _ _ _ _ [] []). reflexivity. }
  induction l as [|a l IH]; intros w id sent rest w' f r H; destruct rest as [|x rest]; try (exact (FL _ _ _ _ _ _ _ H)).
  - cbn in H. inversion H; subst. rewrite <- (send_nil w') at 2. rewrite <- (app_nil_r sent) at 2.
    apply wo_more; [reflexivity|discriminate].
  - cbn [poll_write_all] in H. destruct a as [n| |k].
    + destruct n as [|n].
      * cbn in H. inversion H; subst. rewrite <- (send_nil w) at 2. apply (wo_fail _ _ _ _ [] (x :: rest)). reflexivity.
      * cbn [firstn] in H. change (skipn (S n) (x :: rest)) with (skipn n rest) in H.
        assert (E : x :: rest = (x :: firstn n rest) ++ skipn n rest) by (cbn; rewrite firstn_skipn; reflexivity).
        set (b := x :: firstn n rest) in *. clearbody b. rewrite E. specialize (IH _ _ _ _ _ _ _ H). clear H E.
        inversion IH; subst.
        -- rewrite send_send, <- app_assoc. apply wo_more; [rewrite H, app_assoc; reflexivity|assumption].
        -- rewrite send_send, <- app_assoc. apply wo_flush.
        -- rewrite send_send. apply wo_done.
        -- rewrite send_send. apply (wo_fail _ _ _ _ _ rest'). rewrite H, app_assoc. reflexivity.
    + inversion H; subst. rewrite <- (send_nil w') at 2. rewrite <- (app_nil_r sent) at 2. apply wo_more; [reflexivity|discriminate].
    + inversion H; subst. rewrite <- (send_nil w) at 2. apply (wo_fail _ _ _ _ [] (x :: rest)). reflexivity.
Qed.
Lemma flush_outcome w id sent l w' f r : poll_flush w id sent l = (w', f, r) -> wrote_outcome w id sent [] w' f r.
Proof. intros H. apply (write_all_outcome l). destruct l; exact H. Qed.

Lemma write_all_clean l : forall w id sent rest w' f k, no_failure l -> poll_write_all w id sent rest l <> (w', f, Ready (Err (IoError k))).
Proof.
  assert (FL : forall w id sent l w' f k, no_failure l -> poll_flush w id sent l <> (w', f, Ready (Err (IoError k)))).
  { intros w id sent l' w' f k Hl H. destruct l' as [|[n| |k'] l']; cbn in H; try discriminate. inversion Hl; subst. contradiction. }
  induction l as [|a l IH]; intros w id sent rest w' f k Hl; destruct rest as [|x rest]; try (apply FL; exact Hl); [cbn; discriminate|].
  inversion Hl; subst. cbn [poll_write_all]. destruct a as [[|n]| |k'].
  - lia.
  - cbn [firstn]. apply IH. assumption.
  - discriminate.
  - contradiction.
Qed.

(** building the event of a fresh future *)
Definition fresh_meta (o : order) : event_metadata :=
  mk_meta None (Some (o_ctx o)) (Some (o_ns o)) (Some (o_name o)) (Some (o_ref o)) (Some (o_type o)) (Some (o_payload o)).
Definition made (o : order) (id : N) (data : bytes) : event := event_new id (o_ns o) (o_name o) data (o_ref o) (o_type o).
Definition bump (w : world) : world := mk_world (w_ctr w + 1) (w_lis w) (w_chans w) (w_out w) (w_lock w).
Definition spent_meta (e : option event) : event_metadata := mk_meta e None None None None None None.
Lemma build_fresh t w o : build_event t w (fresh_meta o) =
  match o_payload o with
  | Ok data => (bump w, spent_meta (Some (made o (nth_id t (w_ctr w)) data)), Ok tt)
  | Err e => (w, spent_meta None, Err e)
  | Crash c => (w, spent_meta None, Crash c)
  end.
Proof. unfold build_event, fresh_meta. cbn. destruct (o_payload o); reflexivity. Qed.
Lemma made_event o id data : o_payload o = Ok data -> event_of o (made o id data) /\ ev_id (made o id data) = id.
Proof. intros H. unfold event_of, made. cbn. repeat split; auto. Qed.

Definition spent : emit_metadata := mk_emit None false None.
Lemma poll_spent i t w l : poll_emit i t w spent l = (w, spent, Ready (Err InvalidState)).
Proof. reflexivity. Qed.

Lemma poll_fresh i t w o l : poll_emit i t w (future_of o) l =
  match o_payload o with
  | Ok data =>
    let e := made o (nth_id t (w_ctr w)) data in
    let '(w2, f, r) := poll_fut i (bump w) (FStart e) l in (w2, mk_emit None false (Some f), r)
  | Err e => (w, spent, Ready (Err e))
  | Crash c => (w, spent, Ready (Crash c))
  end.
Proof.
  unfold poll_emit, future_of, emit_new. cbn [em_fut em_meta em_stream]. unfold take_event. cbn [m_event].
  change (mk_meta None _ _ _ _ _ _) with (fresh_meta o). rewrite build_fresh. destruct (o_payload o); reflexivity.
Qed.

(** the states an emit future goes through *)
Inductive fut_state (o : order) (e : event) (enc : bytes) : emit_fut -> Prop :=
| fs_lock : fut_state o e enc (FLock (ev_id e) enc)
| fs_write sent rest : enc = sent ++ rest -> rest <> [] -> fut_state o e enc (FWrite (ev_id e) sent rest)
| fs_flush : fut_state o e enc (FFlush (ev_id e) enc)
| fs_done : fut_state o e enc FDone.

(** ** C47 *)
Definition running (f : emit_fut) : emit_metadata := mk_emit None false (Some f).
Inductive fut_ok (w : world) (ord : list (nat * event)) (part : bytes) (i : nat) (o : order) : option emit_metadata -> Prop :=
| fo_dropped : w_lock w <> Some i -> fut_ok w ord part i o None
| fo_fresh : w_lock w <> Some i -> ~ In i (map fst ord) -> fut_ok w ord part i o (Some (future_of o))
| fo_spent : w_lock w <> Some i -> fut_ok w ord part i o (Some spent)
| fo_lock e enc : event_of o e -> into_bytes e = Ok enc -> w_lock w <> Some i -> ~ In i (map fst ord) -> fut_ok w ord part i o (Some (running (FLock (ev_id e) enc)))
| fo_write e sent rest : event_of o e -> into_bytes e = Ok (sent ++ rest) -> rest <> [] -> w_lock w = Some i -> ~ In i (map fst ord) -> part = sent ->
    fut_ok w ord part i o (Some (running (FWrite (ev_id e) sent rest)))
| fo_flush e enc : event_of o e -> into_bytes e = Ok enc -> w_lock w = Some i -> In (i, e) ord -> part = [] ->
    fut_ok w ord part i o (Some (running (FFlush (ev_id e) enc)))
| fo_done : w_lock w <> Some i -> fut_ok w ord part i o (Some (running FDone)).

Definition enc_all (ord : list (nat * event)) (b : bytes) : Prop := encodings (map snd ord) b.

Record sys_inv (os : list order) (w0 : world) (s : emit_sys) (res : list (nat * polled N)) (ord : list (nat * event)) (part : bytes) : Prop := {
  si_len : length (y_futs s) = length os;
  si_fut : forall i o, nth_error os i = Some o -> exists f, nth_error (y_futs s) i = Some f /\ fut_ok (y_world s) ord part i o f;
  si_nodup : NoDup (map fst ord);
  si_made : forall i e, In (i, e) ord -> exists o, nth_error os i = Some o /\ event_of o e;
  si_out : exists b, enc_all ord b /\ w_out (y_world s) = w_out w0 ++ b ++ part;
  si_part : w_lock (y_world s) = None -> part = [];
  si_lock : forall i, w_lock (y_world s) = Some i -> (i < length os)%nat;
  si_res : forall i id, In (i, Ready (Ok id)) res -> exists e, In (i, e) ord /\ ev_id e = id }.

Lemma encodings_snoc es b e l : encodings es b -> into_bytes e = Ok l -> encodings (es ++ [e]) (b ++ l).
Proof.
  intros H He. induction H as [|x es lx ls Hx H IH]; cbn.
  - rewrite <- (app_nil_r l). apply enc_cons; [exact He|apply enc_nil].
  - rewrite <- app_assoc. apply enc_cons; assumption.
Qed.
Lemma encoding_not_empty e l : into_bytes e = Ok l -> l <> [].
Proof. unfold into_bytes. intros H E. subst. apply (f_equal (fun o => match o with Ok b => blen b | _ => 0 end)) in H. rewrite !blen_app, blen_be in H. change (blen []) with 0 in H. lia. Qed.

(** other futures are unaffected by what [i] does while it holds, takes or releases the mutex *)
Lemma fut_ok_other w w' ord ord' part part' i j o f : i <> j ->
  fut_ok w ord part j o f ->
  (w_lock w = Some j -> False) ->
  w_lock w' = None \/ w_lock w' = Some i ->
  (forall x, In x (map fst ord') -> In x (map fst ord) \/ x = i) ->
  fut_ok w' ord' part' j o f.
Proof.
  intros Hij H Hl Hw Ho.
  assert (L : w_lock w' <> Some j) by (destruct Hw as [-> | ->]; [discriminate|congruence]).
  assert (N : ~ In j (map fst ord) -> ~ In j (map fst ord')) by (intros X Y; destruct (Ho _ Y); [auto|congruence]).
  inversion H; subst; try (exfalso; auto; fail); econstructor; eauto.
Qed.
(** nothing happened to the mutex and nothing was completed *)
Lemma fut_ok_same w w' ord part i o f : fut_ok w ord part i o f -> w_lock w' = w_lock w -> fut_ok w' ord part i o f.
Proof. intros H E. inversion H; subst; econstructor; eauto; congruence. Qed.

Lemma start_inv os w : w_lock w = None -> sys_inv os w (all_fresh w os) [] [] [].
Proof.
  intros Hl. split; cbn; try (intros; contradiction); try (constructor; fail); auto.
  - apply map_length.
  - intros i o H. exists (Some (future_of o)). split; [rewrite nth_error_map, H; reflexivity|]. apply fo_fresh; [congruence|intros []].
  - exists []. split; [apply enc_nil|]. rewrite app_nil_r. reflexivity.
  - intros i H. congruence.
Qed.

(** one poll of the writing part, from a state where [i] holds the mutex *)
Lemma step_writing os w0 s res ord part i o l em0 w1 e sent rest w' f r :
  sys_inv os w0 s res ord part -> nth_error os i = Some o -> nth_error (y_futs s) i = Some em0 ->
  no_failure l ->
  event_of o e -> into_bytes e = Ok (sent ++ rest) ->
  (w_lock (y_world s) = None \/ w_lock (y_world s) = Some i) ->
  w_lock w1 = Some i -> w_out w1 = w_out (y_world s) -> part = sent ->
  ~ In i (map fst ord) -> rest <> [] ->
  poll_write_all w1 (ev_id e) sent rest l = (w', f, r) ->
  exists ord' part', sys_inv os w0 (mk_sys w' (put i (Some (running f)) (y_futs s))) (res ++ [(i, r)]) ord' part'
    /\ (exists x, ord' = ord ++ x).
Proof.
  intros I Ho Hf Hl Hev Henc Hlk Hw1 Hout Hpart Hni Hrest Hp.
  pose proof (write_all_clean l w1 (ev_id e) sent rest) as Hcl.
  apply write_all_outcome in Hp as Hw. destruct I.
  destruct si_out0 as (b & Hb & Hout0).
  assert (Oth : forall ord' part' wl, (w_lock wl = None \/ w_lock wl = Some i) -> (forall x, In x (map fst ord') -> In x (map fst ord) \/ x = i) ->
     forall j oj, j <> i -> nth_error os j = Some oj -> exists f0, nth_error (put i (Some (running f)) (y_futs s)) j = Some f0 /\ fut_ok wl ord' part' j oj f0).
  { intros ord' part' wl Hwl Hord j oj Hj Hoj. destruct (si_fut0 j oj Hoj) as (fj & A & B). exists fj.
    split; [rewrite put_ne by congruence; exact A|].
    apply (fut_ok_other (y_world s) wl ord ord' part part' i j); auto; try congruence.
    intros X. destruct Hlk; congruence. }
  inversion Hw; subst w' f r.
  - (* more to write *) exists ord, (sent ++ b0). split; [|exists []; rewrite app_nil_r; reflexivity]. split; cbn [y_futs y_world].
    + rewrite put_length. exact si_len0.
    + intros j oj Hoj. destruct (Nat.eq_dec j i) as [->|Hj].
      * assert (oj = o) as -> by congruence. eexists. split; [apply (put_eq _ _ _ _ Hf)|].
        apply fo_write; auto. rewrite <- app_assoc, <- H. exact Henc.
      * apply Oth; auto.
    + exact si_nodup0.
    + exact si_made0.
    + exists b. split; [exact Hb|]. cbn [send_bytes w_out]. rewrite Hout, Hout0, Hpart, <- !app_assoc. reflexivity.
    + cbn. congruence.
    + cbn. intros j Hj. assert (j = i) as -> by congruence. apply nth_error_Some. congruence.
    + intros j id Hin. apply in_app_or in Hin. destruct Hin as [X|[X|[]]]; [exact (si_res0 j id X)|discriminate].
  - (* everything written, flushing *) exists (ord ++ [(i, e)]), []. split; [|eexists; reflexivity]. split; cbn [y_futs y_world].
    + rewrite put_length. exact si_len0.
    + intros j oj Hoj. destruct (Nat.eq_dec j i) as [->|Hj].
      * assert (oj = o) as -> by congruence. eexists. split; [apply (put_eq _ _ _ _ Hf)|].
        apply fo_flush; auto. apply in_or_app. right. left. reflexivity.
      * apply Oth; auto. rewrite map_app. cbn. intros x Hx. apply in_app_or in Hx. cbn in Hx. intuition.
    + rewrite map_app. cbn. apply NoDup_rev in si_nodup0. rewrite <- (rev_involutive (map fst ord ++ [i])). apply NoDup_rev.
      rewrite rev_app_distr. cbn. constructor; [|exact si_nodup0]. rewrite <- in_rev. exact Hni.
    + intros j e' Hin. apply in_app_or in Hin. destruct Hin as [X|[X|[]]]; [exact (si_made0 j e' X)|]. inversion X; subst. eauto.
    + exists (b ++ sent ++ rest). split.
      * unfold enc_all. rewrite map_app. cbn. apply encodings_snoc; assumption.
      * cbn [send_bytes w_out]. rewrite Hout, Hout0, Hpart, app_nil_r, <- !app_assoc. reflexivity.
    + reflexivity.
    + cbn. intros j Hj. assert (j = i) as -> by congruence. apply nth_error_Some. congruence.
    + intros j id Hin. apply in_app_or in Hin. destruct Hin as [X|[X|[]]]; [|discriminate].
      destruct (si_res0 j id X) as (e' & A & B). exists e'. split; [apply in_or_app; left; exact A|exact B].
  - (* finished *) exists (ord ++ [(i, e)]), []. split; [|eexists; reflexivity]. split; cbn [y_futs y_world].
    + rewrite put_length. exact si_len0.
    + intros j oj Hoj. destruct (Nat.eq_dec j i) as [->|Hj].
      * assert (oj = o) as -> by congruence. eexists. split; [apply (put_eq _ _ _ _ Hf)|].
        apply fo_done. cbn. discriminate.
      * apply Oth; auto. rewrite map_app. cbn. intros x Hx. apply in_app_or in Hx. cbn in Hx. intuition.
    + rewrite map_app. cbn. apply NoDup_rev in si_nodup0. rewrite <- (rev_involutive (map fst ord ++ [i])). apply NoDup_rev.
      rewrite rev_app_distr. cbn. constructor; [|exact si_nodup0]. rewrite <- in_rev. exact Hni.
    + intros j e' Hin. apply in_app_or in Hin. destruct Hin as [X|[X|[]]]; [exact (si_made0 j e' X)|]. inversion X; subst. eauto.
    + exists (b ++ sent ++ rest). split.
      * unfold enc_all. rewrite map_app. cbn. apply encodings_snoc; assumption.
      * cbn [unlock send_bytes w_out]. rewrite Hout, Hout0, Hpart, app_nil_r, <- !app_assoc. reflexivity.
    + reflexivity.
    + cbn. intros j Hj. discriminate.
    + intros j id Hin. apply in_app_or in Hin. destruct Hin as [X|[X|[]]].
      * destruct (si_res0 j id X) as (e' & A & B). exists e'. split; [apply in_or_app; left; exact A|exact B].
      * inversion X; subst. exists e. split; [apply in_or_app; right; left; reflexivity|reflexivity].
  - (* failed *) exfalso. exact (Hcl _ _ k Hl Hp).
Qed.

Lemma step_flushing os w0 s res ord part i o l em0 e enc w' f r :
  sys_inv os w0 s res ord part -> nth_error os i = Some o -> nth_error (y_futs s) i = Some em0 ->
  no_failure l -> event_of o e -> into_bytes e = Ok enc -> w_lock (y_world s) = Some i -> In (i, e) ord -> part = [] ->
  poll_flush (y_world s) (ev_id e) enc l = (w', f, r) ->
  sys_inv os w0 (mk_sys w' (put i (Some (running f)) (y_futs s))) (res ++ [(i, r)]) ord [].
Proof.
  intros I Ho Hf Hl Hev Henc Hlk Hin Hpart Hp. destruct I.
  assert (G : (w' = y_world s /\ f = FFlush (ev_id e) enc /\ r = Waiting) \/ (w' = unlock (y_world s) /\ f = FDone /\ r = Ready (Ok (ev_id e)))).
  { destruct l as [|[n| |k] l]; cbn in Hp; inversion Hp; subst; auto. inversion Hl; subst. contradiction. }
  assert (Oth : forall wl, (w_lock wl = None \/ w_lock wl = Some i) ->
     forall j oj, j <> i -> nth_error os j = Some oj -> exists f0, nth_error (put i (Some (running f)) (y_futs s)) j = Some f0 /\ fut_ok wl ord [] j oj f0).
  { intros wl Hwl j oj Hj Hoj. destruct (si_fut0 j oj Hoj) as (fj & A & B). exists fj.
    split; [rewrite put_ne by congruence; exact A|].
    apply (fut_ok_other (y_world s) wl ord ord part [] i j); auto; congruence. }
  destruct si_out0 as (b & Hb & Hout0). subst part.
  destruct G as [(-> & -> & ->)|(-> & -> & ->)].
  - split; cbn [y_futs y_world]; auto.
    + rewrite put_length. exact si_len0.
    + intros j oj Hoj. destruct (Nat.eq_dec j i) as [->|Hj]; [|apply Oth; auto].
      assert (oj = o) as -> by congruence. eexists. split; [apply (put_eq _ _ _ _ Hf)|]. apply fo_flush; auto.
    + exists b. auto.
    + intros j id X. apply in_app_or in X. destruct X as [X|[X|[]]]; [exact (si_res0 j id X)|discriminate].
  - split; cbn [y_futs y_world unlock w_lock w_out]; auto.
    + rewrite put_length. exact si_len0.
    + intros j oj Hoj. destruct (Nat.eq_dec j i) as [->|Hj]; [|apply Oth; auto].
      assert (oj = o) as -> by congruence. eexists. split; [apply (put_eq _ _ _ _ Hf)|]. apply fo_done. cbn. discriminate.
    + exists b. auto.
    + intros j X. discriminate.
    + intros j id X. apply in_app_or in X. destruct X as [X|[X|[]]]; [exact (si_res0 j id X)|]. inversion X; subst. eauto.
Qed.

(** a poll that only waits or answers an error, with the mutex and the output untouched *)
Lemma step_idle os w0 s res ord part i o em0 em1 w' r :
  sys_inv os w0 s res ord part -> nth_error os i = Some o -> nth_error (y_futs s) i = Some em0 ->
  w_lock w' = w_lock (y_world s) -> w_out w' = w_out (y_world s) -> fut_ok w' ord part i o em1 -> (forall id, r <> Ready (Ok id)) ->
  sys_inv os w0 (mk_sys w' (put i em1 (y_futs s))) (res ++ [(i, r)]) ord part.
Proof.
  intros I Ho Hf Hl Hout Hok Hr. destruct I. destruct si_out0 as (b & Hb & Hout0). split; cbn [y_futs y_world]; auto.
  - rewrite put_length. exact si_len0.
  - intros j oj Hoj. destruct (Nat.eq_dec j i) as [->|Hj].
    + assert (oj = o) as -> by congruence. eexists. split; [apply (put_eq _ _ _ _ Hf)|exact Hok].
    + destruct (si_fut0 j oj Hoj) as (fj & A & B). exists fj. split; [rewrite put_ne by congruence; exact A|]. apply (fut_ok_same (y_world s)); auto.
  - exists b. split; [exact Hb|congruence].
  - rewrite Hl. exact si_part0.
  - rewrite Hl. exact si_lock0.
  - intros j id X. apply in_app_or in X. destruct X as [X|[X|[]]]; [exact (si_res0 j id X)|]. inversion X. subst. exfalso. eapply Hr. reflexivity.
Qed.

(** polling the lock *)
Lemma step_locking os w0 s res ord part i o l em0 w1 e enc w' f r :
  sys_inv os w0 s res ord part -> nth_error os i = Some o -> nth_error (y_futs s) i = Some em0 -> no_failure l ->
  event_of o e -> into_bytes e = Ok enc -> w_lock (y_world s) <> Some i -> ~ In i (map fst ord) ->
  w_lock w1 = w_lock (y_world s) -> w_out w1 = w_out (y_world s) ->
  poll_lock i w1 (ev_id e) enc l = (w', f, r) ->
  exists ord' part', sys_inv os w0 (mk_sys w' (put i (Some (running f)) (y_futs s))) (res ++ [(i, r)]) ord' part'
    /\ (exists x, ord' = ord ++ x).
Proof.
  intros I Ho Hf Hl Hev Henc Hlk Hni Hl1 Ho1 Hp. unfold poll_lock in Hp. destruct (w_lock w1) as [j|] eqn:Ej.
  - inversion Hp; subst. exists ord, part. split; [|exists []; rewrite app_nil_r; reflexivity].
    apply (step_idle os w0 s res ord part i o em0); auto; try congruence; try discriminate.
    apply fo_lock; auto; congruence.
  - assert (part = []) as -> by (destruct I; apply si_part0; congruence).
    apply (step_writing os w0 s res ord [] i o l em0 (lock i w1) e [] enc w' f r); auto.
    exact (encoding_not_empty _ _ Henc).
Qed.

Lemma step_poll os w0 s res ord part i t l s' x : sys_inv os w0 s res ord part -> no_failure l ->
  emit_step s (YPoll i t l) = Some (s', x) ->
  exists ord' part' r, x = Some (i, r) /\ sys_inv os w0 s' (res ++ [(i, r)]) ord' part' /\ (exists y, ord' = ord ++ y).
Proof.
  intros I Hl H. cbn [emit_step] in H. destruct (nth_error (y_futs s) i) as [[em|]|] eqn:Ei; [|discriminate..].
  destruct (poll_emit i t (y_world s) em l) as [[w' em'] r] eqn:Ep. inversion H; subst. clear H.
  assert (Hi : exists o, nth_error os i = Some o).
  { destruct (nth_error os i) eqn:E; [eauto|]. apply nth_error_None in E. destruct I. rewrite <- si_len0 in E. apply nth_error_None in E. congruence. }
  destruct Hi as [o Ho]. pose proof I as I0. destruct I0. destruct (si_fut0 i o Ho) as (f0 & A & B). rewrite Ei in A. inversion A; subst f0. clear A.
  assert (D : forall ord' part', sys_inv os w0 (mk_sys w' (put i (Some em') (y_futs s))) (res ++ [(i, r)]) ord' part' -> (exists y, ord' = ord ++ y) ->
     exists ord' part' r0, Some (i, r) = Some (i, r0) /\ sys_inv os w0 (mk_sys w' (put i (Some em') (y_futs s))) (res ++ [(i, r0)]) ord' part' /\ (exists y, ord' = ord ++ y)).
  { intros ord' part' X Y. exists ord', part', r. auto. }
  assert (Id : (w_lock w' = w_lock (y_world s) -> w_out w' = w_out (y_world s) -> fut_ok w' ord part i o (Some em') -> (forall id, r <> Ready (Ok id)) ->
     exists ord' part' r0, Some (i, r) = Some (i, r0) /\ sys_inv os w0 (mk_sys w' (put i (Some em') (y_futs s))) (res ++ [(i, r0)]) ord' part' /\ (exists y, ord' = ord ++ y))).
  { intros P1 P2 P3 P4. apply (D ord part); [|exists []; rewrite app_nil_r; reflexivity].
    exact (step_idle os w0 s res ord part i o (Some em) (Some em') w' r I Ho Ei P1 P2 P3 P4). }
  inversion B; subst.
  - (* fresh *) rewrite poll_fresh in Ep. destruct (o_payload o) as [data|er|c] eqn:Eo.
    + cbv zeta in Ep. destruct (poll_fut i (bump (y_world s)) (FStart (made o (nth_id t (w_ctr (y_world s))) data)) l) as [[w2 f2] r2] eqn:Ef.
      inversion Ep; subst. clear Ep. cbn [poll_fut] in Ef. destruct (made_event o (nth_id t (w_ctr (y_world s))) data Eo) as [E1 E2].
      destruct (into_bytes (made o (nth_id t (w_ctr (y_world s))) data)) as [enc|er|c] eqn:Eb; try discriminate Eb.
      change (ev_id (made o (nth_id t (w_ctr (y_world s))) data)) with (ev_id (made o (nth_id t (w_ctr (y_world s))) data)) in Ef.
      destruct (step_locking os w0 s res ord part i o l _ (bump (y_world s)) _ enc w' f2 r I Ho Ei Hl E1 Eb ltac:(assumption) ltac:(assumption) eq_refl eq_refl Ef) as (ord' & part' & P & Q).
      exact (D ord' part' P Q).
    + inversion Ep; subst. apply Id; auto; try discriminate; try (apply fo_spent; assumption).
    + inversion Ep; subst. apply Id; auto; try discriminate; try (apply fo_spent; assumption).
  - (* spent *) rewrite poll_spent in Ep. inversion Ep; subst. apply Id; auto; try discriminate. 
  - (* lock *) unfold running in Ep. cbn [poll_emit em_fut em_meta em_stream poll_fut] in Ep.
    destruct (poll_lock i (y_world s) (ev_id e) enc l) as [[w2 f2] r2] eqn:Ef. inversion Ep; subst.
    destruct (step_locking os w0 s res ord part i o l _ (y_world s) e enc w' f2 r I Ho Ei Hl ltac:(assumption) ltac:(assumption) ltac:(assumption) ltac:(assumption) eq_refl eq_refl Ef) as (ord' & part' & P & Q).
    exact (D ord' part' P Q).
  - (* write *) unfold running in Ep. cbn [poll_emit em_fut em_meta em_stream poll_fut] in Ep.
    destruct (poll_write_all (y_world s) (ev_id e) sent rest l) as [[w2 f2] r2] eqn:Ef. inversion Ep; subst.
    destruct (step_writing os w0 s res ord sent i o l _ (y_world s) e sent rest w' f2 r I Ho Ei Hl ltac:(assumption) ltac:(assumption) ltac:(auto) ltac:(assumption) eq_refl eq_refl ltac:(assumption) ltac:(assumption) Ef) as (ord' & part' & P & Q).
    exact (D ord' part' P Q).
  - (* flush *) unfold running in Ep. cbn [poll_emit em_fut em_meta em_stream poll_fut] in Ep.
    destruct (poll_flush (y_world s) (ev_id e) enc l) as [[w2 f2] r2] eqn:Ef. inversion Ep; subst.
    apply (D ord []); [|exists []; rewrite app_nil_r; reflexivity].
    exact (step_flushing os w0 s res ord [] i o l _ e enc w' f2 r I Ho Ei Hl ltac:(assumption) ltac:(assumption) ltac:(assumption) ltac:(assumption) eq_refl Ef).
  - (* done *) unfold running in Ep. cbn [poll_emit em_fut em_meta em_stream poll_fut] in Ep. inversion Ep; subst.
    apply Id; auto; try discriminate.
Qed.

Lemma step_drop os w0 s res ord part i s' x : sys_inv os w0 s res ord part -> ~ mid_event s i ->
  emit_step s (YDrop i) = Some (s', x) -> x = None /\ exists part', sys_inv os w0 s' res ord part'.
Proof.
  intros I Hm H. cbn [emit_step] in H. destruct (nth_error (y_futs s) i) as [[em|]|] eqn:Ei; [|discriminate..].
  inversion H; subst. clear H. split; [reflexivity|].
  assert (Hi : exists o, nth_error os i = Some o).
  { destruct (nth_error os i) eqn:E; [eauto|]. apply nth_error_None in E. destruct I. rewrite <- si_len0 in E. apply nth_error_None in E. congruence. }
  destruct Hi as [o Ho]. pose proof I as I0. destruct I0. destruct (si_fut0 i o Ho) as (f0 & A & B). rewrite Ei in A. inversion A; subst f0. clear A.
  destruct si_out0 as (b & Hb & Hout0).
  assert (P0 : w_lock (y_world s) = Some i -> part = []).
  { intros L. inversion B; subst; try contradiction; try reflexivity.
    destruct sent as [|x sent]; [reflexivity|]. exfalso. apply Hm. eexists _, _, _, _. split; [exact Ei|]. split; [reflexivity|discriminate]. }
  unfold drop_emit. destruct (w_lock (y_world s)) as [j|] eqn:El; [destruct (Nat.eqb_spec i j) as [->|Hij]|].
  - exists []. rewrite P0 in Hout0 by reflexivity. split; cbn [y_futs y_world unlock w_lock w_out]; auto; try (intros; discriminate).
    + rewrite put_length. exact si_len0.
    + intros k ok Hok. destruct (Nat.eq_dec k j) as [->|Hk].
      * eexists. split; [apply (put_eq _ _ _ _ Ei)|]. apply fo_dropped. cbn. discriminate.
      * destruct (si_fut0 k ok Hok) as (fk & A & C). exists fk. split; [rewrite put_ne by congruence; exact A|].
        apply (fut_ok_other (y_world s) (unlock (y_world s)) ord ord part [] j k); auto. congruence.
    + exists b. auto.
  - exists part. split; cbn [y_futs y_world]; auto; try (intros; congruence).
    + rewrite put_length. exact si_len0.
    + intros k ok Hok. destruct (Nat.eq_dec k i) as [->|Hk].
      * eexists. split; [apply (put_eq _ _ _ _ Ei)|]. apply fo_dropped. congruence.
      * destruct (si_fut0 k ok Hok) as (fk & A & C). exists fk. split; [rewrite put_ne by congruence; exact A|exact C].
    + exists b. auto.
    + rewrite El. exact si_lock0.
  - exists part. split; cbn [y_futs y_world]; auto; try (intros; congruence).
    + rewrite put_length. exact si_len0.
    + intros k ok Hok. destruct (Nat.eq_dec k i) as [->|Hk].
      * eexists. split; [apply (put_eq _ _ _ _ Ei)|]. apply fo_dropped. congruence.
      * destruct (si_fut0 k ok Hok) as (fk & A & C). exists fk. split; [rewrite put_ne by congruence; exact A|exact C].
    + exists b. auto.
Qed.

Lemma run_inv os w0 ls : forall s res ord part s' rs, sys_inv os w0 s res ord part -> clean s ls -> emit_run s ls = Some (s', rs) ->
  exists ord' part', sys_inv os w0 s' (res ++ rs) ord' part' /\ (exists y, ord' = ord ++ y).
Proof.
  induction ls as [|lb ls IH]; intros s res ord part s' rs I Hc H; cbn [emit_run] in H.
  - inversion H; subst. rewrite app_nil_r. exists ord, part. split; [exact I|]. exists []. rewrite app_nil_r. reflexivity.
  - destruct (emit_step s lb) as [[s1 o]|] eqn:E; [|discriminate]. destruct (emit_run s1 ls) as [[s2 os2]|] eqn:E2; [|discriminate].
    cbn [clean] in Hc. rewrite E in Hc. destruct Hc as [Hc1 Hc2]. destruct lb as [i t l|i].
    + destruct (step_poll _ _ _ _ _ _ _ _ _ _ _ I Hc1 E) as (ord1 & part1 & r & -> & I1 & y1 & ->).
      destruct (IH _ _ _ _ _ _ I1 Hc2 E2) as (ord2 & part2 & I2 & y2 & ->). inversion H; subst. exists ((ord ++ y1) ++ y2), part2.
      split; [rewrite <- app_assoc in I2; exact I2|]. exists (y1 ++ y2). rewrite app_assoc. reflexivity.
    + destruct (step_drop _ _ _ _ _ _ _ _ _ I Hc1 E) as (-> & part1 & I1).
      destruct (IH _ _ _ _ _ _ I1 Hc2 E2) as (ord2 & part2 & I2 & y2 & ->). inversion H; subst. exists (ord ++ y2), part2. split; [exact I2|]. eexists. reflexivity.
Qed.

Lemma inv_layout os w0 s res ord part : sys_inv os w0 s res ord part -> layout os w0 s res ord part.
Proof.
  intros []. split; auto.
  destruct (w_lock (y_world s)) as [i|] eqn:L; [|left; apply si_part0; reflexivity].
  specialize (si_lock0 i eq_refl). destruct (nth_error os i) as [o|] eqn:Ho; [|apply nth_error_None in Ho; lia].
  destruct (si_fut0 i o Ho) as (f & A & B). inversion B; subst; try congruence; [|left; reflexivity].
  right. exists i, o, e, rest. auto 10.
Qed.
Lemma run_layout os w ls s rs : w_lock w = None -> clean (all_fresh w os) ls -> emit_run (all_fresh w os) ls = Some (s, rs) ->
  exists ord part, layout os w s rs ord part.
Proof.
  intros Hl Hc H. destruct (run_inv os w ls _ _ _ _ _ _ (start_inv os w Hl) Hc H) as (ord & part & I & _).
  exists ord, part. apply inv_layout. exact I.
Qed.
Lemma run_layout_ordered os w ls1 ls2 s1 rs1 s2 rs2 : w_lock w = None ->
  emit_run (all_fresh w os) ls1 = Some (s1, rs1) -> clean (all_fresh w os) ls1 ->
  emit_run s1 ls2 = Some (s2, rs2) -> clean s1 ls2 ->
  exists ord1 part1 ord2 part2, layout os w s1 rs1 ord1 part1 /\ layout os w s2 (rs1 ++ rs2) (ord1 ++ ord2) part2.
Proof.
  intros Hl H1 C1 H2 C2. destruct (run_inv os w ls1 _ _ _ _ _ _ (start_inv os w Hl) C1 H1) as (ord1 & part1 & I1 & _).
  destruct (run_inv os w ls2 _ _ _ _ _ _ I1 C2 H2) as (ord & part2 & I2 & ord2 & ->).
  exists ord1, part1, ord2, part2. split; apply inv_layout; assumption.
Qed.

(** ** The general description: pieces *)
Definition opiece := (nat * (event * bytes))%type.
Inductive fut_pc (w : world) (ps : list opiece) (i : nat) (o : order) : option emit_metadata -> Prop :=
| fp_dropped : w_lock w <> Some i -> fut_pc w ps i o None
| fp_fresh : w_lock w <> Some i -> ~ In i (map fst ps) -> fut_pc w ps i o (Some (future_of o))
| fp_spent : w_lock w <> Some i -> fut_pc w ps i o (Some spent)
| fp_lock e enc : event_of o e -> into_bytes e = Ok enc -> w_lock w <> Some i -> ~ In i (map fst ps) -> fut_pc w ps i o (Some (running (FLock (ev_id e) enc)))
| fp_write e sent rest ps' : event_of o e -> into_bytes e = Ok (sent ++ rest) -> w_lock w = Some i -> ps = ps' ++ [(i, (e, sent))] ->
    fut_pc w ps i o (Some (running (FWrite (ev_id e) sent rest)))
| fp_flush e enc ps' : event_of o e -> into_bytes e = Ok enc -> w_lock w = Some i -> ps = ps' ++ [(i, (e, enc))] ->
    fut_pc w ps i o (Some (running (FFlush (ev_id e) enc)))
| fp_done : w_lock w <> Some i -> fut_pc w ps i o (Some (running FDone)).

Record pc_inv (os : list order) (w0 : world) (s : emit_sys) (res : list (nat * polled N)) (ps : list opiece) : Prop := {
  pi_len : length (y_futs s) = length os;
  pi_fut : forall i o, nth_error os i = Some o -> exists f, nth_error (y_futs s) i = Some f /\ fut_pc (y_world s) ps i o f;
  pi_pc : pieces os w0 s res ps;
  pi_done : forall j id, In (j, Ready (Ok id)) res -> nth_error (y_futs s) j = Some None \/ nth_error (y_futs s) j = Some (Some (running FDone)) }.

Lemma fut_pc_other w w' ps ps' i j o f : i <> j -> fut_pc w ps j o f -> (w_lock w = Some j -> False) ->
  w_lock w' <> Some j -> (forall x, In x (map fst ps') -> In x (map fst ps) \/ x = i) -> fut_pc w' ps' j o f.
Proof.
  intros Hij H Hl Hw Ho.
  assert (N : ~ In j (map fst ps) -> ~ In j (map fst ps')) by (intros X Y; destruct (Ho _ Y); [auto|congruence]).
  inversion H; subst; try (exfalso; auto; fail); econstructor; eauto.
Qed.
Lemma fut_pc_same w w' ps i o f : fut_pc w ps i o f -> w_lock w' = w_lock w -> fut_pc w' ps i o f.
Proof. intros H E. inversion H; subst; econstructor; eauto; congruence. Qed.

Lemma pieces_grow os w0 s s' res r i e b b1 ps0 :
  pieces os w0 s res (ps0 ++ [(i, (e, b))]) -> w_out (y_world s') = w_out (y_world s) ++ b1 ->
  (exists o more, nth_error os i = Some o /\ event_of o e /\ into_bytes e = Ok ((b ++ b1) ++ more)) ->
  (forall id, r = Ready (Ok id) -> into_bytes e = Ok (b ++ b1) /\ ev_id e = id) ->
  ~ (exists id, In (i, Ready (Ok id)) res) \/ b1 = [] ->
  pieces os w0 s' (res ++ [(i, r)]) (ps0 ++ [(i, (e, b ++ b1))]).
Proof.
  intros P Hout Hb Hr Hn. destruct P as [pc_once0 pc_begin0 pc_bytes0 pc_done0]. split.
  - rewrite map_app in *. exact pc_once0.
  - intros j ej bj Hin. apply in_app_or in Hin. destruct Hin as [X|[X|[]]].
    + apply pc_begin0. apply in_or_app. left. exact X.
    + inversion X; subst. destruct Hb as (o & more & A & B & C). exists o, more. auto.
  - rewrite Hout, pc_bytes0, !map_app, !concat_app. cbn. rewrite !app_nil_r, !app_assoc. reflexivity.
  - intros j id Hin. apply in_app_or in Hin. destruct Hin as [X|[X|[]]].
    + destruct (pc_done0 j id X) as (e' & b' & A & B & C). apply in_app_or in A. destruct A as [A|[A|[]]].
      * exists e', b'. split; [apply in_or_app; left; exact A|auto].
      * inversion A; subst. destruct Hn as [Hn| ->]; [exfalso; apply Hn; eauto|]. exists e', b'. rewrite app_nil_r.
        split; [apply in_or_app; right; left; reflexivity|auto].
    + inversion X; subst. destruct (Hr id eq_refl). exists e, (b ++ b1). split; [apply in_or_app; right; left; reflexivity|auto].
Qed.
Lemma pieces_start os w0 s s' res i o e enc ps0 :
  pieces os w0 s res ps0 -> ~ In i (map fst ps0) -> nth_error os i = Some o -> event_of o e -> into_bytes e = Ok enc -> w_out (y_world s') = w_out (y_world s) ->
  pieces os w0 s' res (ps0 ++ [(i, (e, []))]).
Proof.
  intros P Hi Ho He Henc Hout. destruct P as [pc_once0 pc_begin0 pc_bytes0 pc_done0]. split.
  - rewrite map_app. cbn. apply NoDup_rev in pc_once0. rewrite <- (rev_involutive (map fst ps0 ++ [i])). apply NoDup_rev.
    rewrite rev_app_distr. cbn. constructor; [|exact pc_once0]. rewrite <- in_rev. exact Hi.
  - intros j ej bj Hin. apply in_app_or in Hin. destruct Hin as [X|[X|[]]]; [apply pc_begin0; exact X|].
    inversion X; subst. exists o, enc. auto.
  - rewrite Hout, pc_bytes0, map_app, concat_app. cbn. rewrite !app_nil_r. reflexivity.
  - intros j id Hin. destruct (pc_done0 j id Hin) as (e' & b' & A & B). exists e', b'. split; [apply in_or_app; left; exact A|exact B].
Qed.
Lemma done_in_pieces os w0 s res ps i : pieces os w0 s res ps -> (exists id, In (i, Ready (Ok id)) res) -> In i (map fst ps).
Proof. intros P (id & H). destruct P as [pc_once0 pc_begin0 pc_bytes0 pc_done0]. destruct (pc_done0 i id H) as (e & b & A & _). apply (in_map fst) in A. exact A. Qed.

(** one poll of the writing part; [ps0 ++ [(i, (e, sent))]] are the pieces once [i] has the mutex *)
Lemma pc_writing os w0 s s0 res ps0 i o l em0 w1 e sent rest w' f r :
  pieces os w0 s0 res (ps0 ++ [(i, (e, sent))]) -> w_out (y_world s0) = w_out w1 ->
  ~ (exists id, In (i, Ready (Ok id)) res) ->
  length (y_futs s) = length os ->
  (forall j id, In (j, Ready (Ok id)) res -> nth_error (y_futs s) j = Some None \/ nth_error (y_futs s) j = Some (Some (running FDone))) ->
  (forall j oj, j <> i -> nth_error os j = Some oj -> exists fj, nth_error (y_futs s) j = Some fj /\
     forall w2 ps2, w_lock w2 <> Some j -> (forall x, In x (map fst ps2) -> In x (map fst ps0) \/ x = i) -> fut_pc w2 ps2 j oj fj) ->
  nth_error os i = Some o -> nth_error (y_futs s) i = Some em0 ->
  event_of o e -> into_bytes e = Ok (sent ++ rest) -> w_lock w1 = Some i ->
  poll_write_all w1 (ev_id e) sent rest l = (w', f, r) ->
  exists ps', map fst ps' = map fst ps0 ++ [i] /\ pc_inv os w0 (mk_sys w' (put i (Some (running f)) (y_futs s))) (res ++ [(i, r)]) ps'.
Proof.
  intros P Hout Hnd Hlen Hdn Hoth Ho Hf Hev Henc Hlk Hp. apply write_all_outcome in Hp as Hw.
  assert (G : forall b1 more w2 f2 r2, rest = b1 ++ more -> w_out w2 = w_out w1 ++ b1 ->
    (forall id, r2 = Ready (Ok id) -> more = [] /\ ev_id e = id /\ f2 = FDone) ->
    (w_lock w2 = None \/ w_lock w2 = Some i) ->
    fut_pc w2 (ps0 ++ [(i, (e, sent ++ b1))]) i o (Some (running f2)) ->
    exists ps', map fst ps' = map fst ps0 ++ [i] /\ pc_inv os w0 (mk_sys w2 (put i (Some (running f2)) (y_futs s))) (res ++ [(i, r2)]) ps').
  { intros b1 more w2 f2 r2 E1 E2 E3 E4 E5. exists (ps0 ++ [(i, (e, sent ++ b1))]). split; [rewrite map_app; reflexivity|]. split; cbn [y_futs y_world].
    - rewrite put_length. exact Hlen.
    - intros j oj Hoj. destruct (Nat.eq_dec j i) as [->|Hj].
      + assert (oj = o) as -> by congruence. eexists. split; [apply (put_eq _ _ _ _ Hf)|exact E5].
      + destruct (Hoth j oj Hj Hoj) as (fj & A & B). exists fj. split; [rewrite put_ne by congruence; exact A|].
        apply B; [destruct E4 as [-> | ->]; congruence|]. rewrite map_app. cbn. intros x Hx. apply in_app_or in Hx. cbn in Hx. intuition.
    - apply (pieces_grow os w0 s0 _ res r2 i e sent b1 ps0); auto.
      + cbn [y_world]. rewrite E2, Hout. reflexivity.
      + exists o, more. split; [exact Ho|]. split; [exact Hev|]. rewrite <- app_assoc, <- E1. exact Henc.
      + intros id Hid. destruct (E3 id Hid) as (-> & ? & ?). rewrite app_nil_r in E1. subst. auto.
    - intros j id Hin. apply in_app_or in Hin. destruct Hin as [X|[X|[]]].
      + destruct (Nat.eq_dec j i) as [->|Hj]; [exfalso; apply Hnd; eauto|]. rewrite put_ne by congruence. exact (Hdn j id X).
      + inversion X; subst. destruct (E3 id eq_refl) as (_ & _ & ->). right. apply (put_eq _ _ _ _ Hf). }
  inversion Hw; subst w' f r.
  - apply (G b rest'); [exact H|reflexivity|intros id X; discriminate|right; exact Hlk|].
    apply (fp_write _ _ _ _ e _ _ ps0); auto. rewrite <- app_assoc, <- H. exact Henc.
  - apply (G rest []); [rewrite app_nil_r; reflexivity|reflexivity|intros id X; discriminate|right; exact Hlk|].
    apply (fp_flush _ _ _ _ e _ ps0); auto.
  - apply (G rest []); [rewrite app_nil_r; reflexivity|reflexivity|intros id X; inversion X; auto|left; reflexivity|].
    apply fp_done. cbn. discriminate.
  - apply (G b rest'); [exact H|reflexivity|intros id X; discriminate|left; reflexivity|]. apply fp_done. cbn. discriminate.
Qed.

Lemma pc_idle os w0 s res ps i o em0 em1 w' r : pc_inv os w0 s res ps -> nth_error os i = Some o -> nth_error (y_futs s) i = Some em0 ->
  w_lock w' = w_lock (y_world s) -> w_out w' = w_out (y_world s) -> fut_pc w' ps i o em1 -> (forall id, r <> Ready (Ok id)) -> (em0 = Some (running FDone) -> em1 = Some (running FDone)) -> em0 <> None ->
  pc_inv os w0 (mk_sys w' (put i em1 (y_futs s))) (res ++ [(i, r)]) ps.
Proof.
  intros [] Ho Hf Hl Hout Hok Hr Hdn Hnn. split; cbn [y_futs y_world].
  - rewrite put_length. exact pi_len0.
  - intros j oj Hoj. destruct (Nat.eq_dec j i) as [->|Hj].
    + assert (oj = o) as -> by congruence. eexists. split; [apply (put_eq _ _ _ _ Hf)|exact Hok].
    + destruct (pi_fut0 j oj Hoj) as (fj & A & B). exists fj. split; [rewrite put_ne by congruence; exact A|]. apply (fut_pc_same (y_world s)); auto.
  - destruct pi_pc0 as [pc_once0 pc_begin0 pc_bytes0 pc_done0]. split; auto.
    + cbn [y_world]. congruence.
    + intros j id X. apply in_app_or in X. destruct X as [X|[X|[]]]; [exact (pc_done0 j id X)|]. inversion X. subst. exfalso. eapply Hr. reflexivity.
  - intros j id X. apply in_app_or in X. destruct X as [X|[X|[]]]; [|inversion X; subst; exfalso; eapply Hr; reflexivity].
    destruct (Nat.eq_dec j i) as [->|Hj]; [|rewrite put_ne by congruence; exact (pi_done0 j id X)].
    destruct (pi_done0 i id X) as [Y|Y]; rewrite Hf in Y; [congruence|]. right. rewrite <- Hdn by congruence. apply (put_eq _ _ _ _ Hf).
Qed.

Lemma others_pc os w0 s res ps i : pc_inv os w0 s res ps -> (w_lock (y_world s) = None \/ w_lock (y_world s) = Some i) ->
  forall j oj, j <> i -> nth_error os j = Some oj -> exists fj, nth_error (y_futs s) j = Some fj /\
     forall w2 ps2, w_lock w2 <> Some j -> (forall x, In x (map fst ps2) -> In x (map fst ps) \/ x = i) -> fut_pc w2 ps2 j oj fj.
Proof.
  intros [] L j oj Hj Hoj. destruct (pi_fut0 j oj Hoj) as (fj & A & B). exists fj. split; [exact A|]. intros w2 ps2 X Y.
  apply (fut_pc_other (y_world s) w2 ps ps2 i j); auto. intros Z. destruct L; congruence.
Qed.

Lemma pc_locking os w0 s res ps i o l em0 w1 e enc w' f r :
  pc_inv os w0 s res ps -> nth_error os i = Some o -> nth_error (y_futs s) i = Some em0 -> em0 <> None -> em0 <> Some (running FDone) -> em0 <> Some spent ->
  event_of o e -> into_bytes e = Ok enc -> w_lock (y_world s) <> Some i -> ~ In i (map fst ps) ->
  w_lock w1 = w_lock (y_world s) -> w_out w1 = w_out (y_world s) ->
  poll_lock i w1 (ev_id e) enc l = (w', f, r) ->
  exists ps', (map fst ps' = map fst ps \/ w_lock (y_world s) = None /\ map fst ps' = map fst ps ++ [i] /\ nth_error (y_futs s) i <> Some (Some spent) /\ nth_error (y_futs s) i <> Some (Some (running FDone))) /\ pc_inv os w0 (mk_sys w' (put i (Some (running f)) (y_futs s))) (res ++ [(i, r)]) ps'.
Proof.
  intros I Ho Hf Hn1 Hn2 Hn3 Hev Henc Hlk Hni Hl1 Ho1 Hp. unfold poll_lock in Hp. destruct (w_lock w1) as [j|] eqn:Ej.
  - inversion Hp; subst. exists ps. split; [left; reflexivity|]. apply (pc_idle os w0 s res ps i o em0); auto; try congruence; try discriminate; try (apply fp_lock; auto; congruence).
  - pose proof I as I0. destruct I0.
    assert (X : exists ps', map fst ps' = map fst ps ++ [i] /\ pc_inv os w0 (mk_sys w' (put i (Some (running f)) (y_futs s))) (res ++ [(i, r)]) ps').
    2: { destruct X as (ps' & X1 & X2). exists ps'. split; [right; split; [congruence|]; split; [exact X1|]; split; congruence|exact X2]. }
    apply (pc_writing os w0 s (mk_sys (lock i w1) (y_futs s)) res ps i o l em0 (lock i w1) e [] enc w' f r); auto.
    + apply (pieces_start os w0 s _ res i o e enc ps); auto.
    + intros X. apply Hni. exact (done_in_pieces _ _ _ _ _ _ pi_pc0 X).
    + apply (others_pc os w0 s res ps i I). left. congruence.
Qed.

Lemma pc_poll os w0 s res ps i t l s' x : pc_inv os w0 s res ps ->
  emit_step s (YPoll i t l) = Some (s', x) ->
  exists ps' r, x = Some (i, r) /\ (map fst ps' = map fst ps \/ w_lock (y_world s) = None /\ map fst ps' = map fst ps ++ [i] /\ nth_error (y_futs s) i <> Some (Some spent) /\ nth_error (y_futs s) i <> Some (Some (running FDone))) /\ pc_inv os w0 s' (res ++ [(i, r)]) ps'.
Proof.
  intros I H. cbn [emit_step] in H. destruct (nth_error (y_futs s) i) as [[em|]|] eqn:Ei; [|discriminate..].
  destruct (poll_emit i t (y_world s) em l) as [[w' em'] r] eqn:Ep. inversion H; subst. clear H. rewrite <- Ei.
  assert (Hi : exists o, nth_error os i = Some o).
  { destruct (nth_error os i) eqn:E; [eauto|]. apply nth_error_None in E. destruct I. rewrite <- pi_len0 in E. apply nth_error_None in E. congruence. }
  destruct Hi as [o Ho]. pose proof I as I0. destruct I0. destruct (pi_fut0 i o Ho) as (f0 & A & B). rewrite Ei in A. inversion A; subst f0. clear A.
  assert (D : (exists ps', (map fst ps' = map fst ps \/ w_lock (y_world s) = None /\ map fst ps' = map fst ps ++ [i] /\ nth_error (y_futs s) i <> Some (Some spent) /\ nth_error (y_futs s) i <> Some (Some (running FDone))) /\ pc_inv os w0 (mk_sys w' (put i (Some em') (y_futs s))) (res ++ [(i, r)]) ps') ->
     exists ps' r0, Some (i, r) = Some (i, r0) /\ (map fst ps' = map fst ps \/ w_lock (y_world s) = None /\ map fst ps' = map fst ps ++ [i] /\ nth_error (y_futs s) i <> Some (Some spent) /\ nth_error (y_futs s) i <> Some (Some (running FDone))) /\ pc_inv os w0 (mk_sys w' (put i (Some em') (y_futs s))) (res ++ [(i, r0)]) ps').
  { intros [ps' X]. exists ps', r. auto. }
  assert (D2 : forall p0 : list opiece, map fst ps = map fst p0 ++ [i] -> (exists q, map fst q = map fst p0 ++ [i] /\ pc_inv os w0 (mk_sys w' (put i (Some em') (y_futs s))) (res ++ [(i, r)]) q) ->
     exists ps' r0, Some (i, r) = Some (i, r0) /\ (map fst ps' = map fst ps \/ w_lock (y_world s) = None /\ map fst ps' = map fst ps ++ [i] /\ nth_error (y_futs s) i <> Some (Some spent) /\ nth_error (y_futs s) i <> Some (Some (running FDone))) /\ pc_inv os w0 (mk_sys w' (put i (Some em') (y_futs s))) (res ++ [(i, r0)]) ps').
  { intros p0 X (q & X1 & X2). apply D. exists q. split; [left; congruence|exact X2]. }
  assert (Id : w_lock w' = w_lock (y_world s) -> w_out w' = w_out (y_world s) -> fut_pc w' ps i o (Some em') -> (forall id, r <> Ready (Ok id)) -> (em = running FDone -> em' = running FDone) ->
     exists ps' r0, Some (i, r) = Some (i, r0) /\ (map fst ps' = map fst ps \/ w_lock (y_world s) = None /\ map fst ps' = map fst ps ++ [i] /\ nth_error (y_futs s) i <> Some (Some spent) /\ nth_error (y_futs s) i <> Some (Some (running FDone))) /\ pc_inv os w0 (mk_sys w' (put i (Some em') (y_futs s))) (res ++ [(i, r0)]) ps').
  { intros P1 P2 P3 P4 P5. apply D. exists ps. split; [left; reflexivity|]. apply (pc_idle os w0 s res ps i o (Some em) (Some em') w' r I Ho Ei P1 P2 P3 P4); [|discriminate].
    intros X. f_equal. apply P5. congruence. }
  inversion B; subst.
  - rewrite poll_fresh in Ep. destruct (o_payload o) as [data|er|c] eqn:Eo.
    + cbv zeta in Ep. destruct (poll_fut i (bump (y_world s)) (FStart (made o (nth_id t (w_ctr (y_world s))) data)) l) as [[w2 f2] r2] eqn:Ef.
      inversion Ep; subst. clear Ep. cbn [poll_fut] in Ef. destruct (made_event o (nth_id t (w_ctr (y_world s))) data Eo) as [E1 E2].
      destruct (into_bytes (made o (nth_id t (w_ctr (y_world s))) data)) as [enc|er|c] eqn:Eb; try discriminate Eb.
      apply D. exact (pc_locking os w0 s res ps i o l _ (bump (y_world s)) _ enc w' f2 r I Ho Ei ltac:(discriminate) ltac:(discriminate) ltac:(discriminate) E1 Eb ltac:(assumption) ltac:(assumption) eq_refl eq_refl Ef).
    + inversion Ep; subst. apply Id; auto; try discriminate; try (apply fp_spent; assumption).
    + inversion Ep; subst. apply Id; auto; try discriminate; try (apply fp_spent; assumption).
  - rewrite poll_spent in Ep. inversion Ep; subst. apply Id; auto; try discriminate.
  - unfold running in Ep. cbn [poll_emit em_fut em_meta em_stream poll_fut] in Ep.
    destruct (poll_lock i (y_world s) (ev_id e) enc l) as [[w2 f2] r2] eqn:Ef. inversion Ep; subst.
    apply D. exact (pc_locking os w0 s res ps i o l _ (y_world s) e enc w' f2 r I Ho Ei ltac:(discriminate) ltac:(discriminate) ltac:(discriminate) ltac:(assumption) ltac:(assumption) ltac:(assumption) ltac:(assumption) eq_refl eq_refl Ef).
  - unfold running in Ep. cbn [poll_emit em_fut em_meta em_stream poll_fut] in Ep.
    destruct (poll_write_all (y_world s) (ev_id e) sent rest l) as [[w2 f2] r2] eqn:Ef. inversion Ep; subst.
    apply (D2 ps' ltac:(rewrite map_app; reflexivity)). eapply (pc_writing os w0 s s res ps' i o l _ (y_world s) e sent rest w' f2 r pi_pc0); eauto.
    + intros (id & X). destruct (pi_done0 i id X) as [Y|Y]; rewrite Ei in Y; discriminate Y.
    + intros j oj Hj Hoj. destruct (others_pc os w0 s res _ i I ltac:(auto) j oj Hj Hoj) as (fj & P & Q). exists fj. split; [exact P|].
      intros w3 ps3 X Y. apply Q; auto. intros x Hx. destruct (Y x Hx) as [Z|Z]; [left|right; exact Z]. rewrite map_app. apply in_or_app. left. exact Z.
  - unfold running in Ep. cbn [poll_emit em_fut em_meta em_stream poll_fut] in Ep.
    destruct (poll_flush (y_world s) (ev_id e) enc l) as [[w2 f2] r2] eqn:Ef. inversion Ep; subst.
    apply (D2 ps' ltac:(rewrite map_app; reflexivity)). eapply (pc_writing os w0 s s res ps' i o l _ (y_world s) e enc [] w' f2 r pi_pc0); eauto.
    + intros (id & X). destruct (pi_done0 i id X) as [Y|Y]; rewrite Ei in Y; discriminate Y.
    + intros j oj Hj Hoj. destruct (others_pc os w0 s res _ i I ltac:(auto) j oj Hj Hoj) as (fj & P & Q). exists fj. split; [exact P|].
      intros w3 ps3 X Y. apply Q; auto. intros x Hx. destruct (Y x Hx) as [Z|Z]; [left|right; exact Z]. rewrite map_app. apply in_or_app. left. exact Z.
    + rewrite app_nil_r. assumption.
    + destruct l; exact Ef.
  - unfold running in Ep. cbn [poll_emit em_fut em_meta em_stream poll_fut] in Ep. inversion Ep; subst. apply Id; auto; try discriminate.
Qed.

Lemma pc_drop os w0 s res ps i s' x : pc_inv os w0 s res ps -> emit_step s (YDrop i) = Some (s', x) -> x = None /\ pc_inv os w0 s' res ps.
Proof.
  intros I H. cbn [emit_step] in H. destruct (nth_error (y_futs s) i) as [[em|]|] eqn:Ei; [|discriminate..].
  inversion H; subst. clear H. split; [reflexivity|]. pose proof I as I0. destruct I0 as [pi_len0 pi_fut0 pi_pc0 pi_done0].
  assert (L : w_lock (drop_emit i (y_world s)) <> Some i).
  { unfold drop_emit. destruct (w_lock (y_world s)) as [j|] eqn:E; [|congruence]. destruct (Nat.eqb_spec i j); cbn; congruence. }
  split; cbn [y_futs y_world].
  - rewrite put_length. exact pi_len0.
  - intros j oj Hoj. destruct (Nat.eq_dec j i) as [->|Hj].
    + eexists. split; [apply (put_eq _ _ _ _ Ei)|]. apply fp_dropped. exact L.
    + destruct (pi_fut0 j oj Hoj) as (fj & A & B). exists fj. split; [rewrite put_ne by congruence; exact A|].
      unfold drop_emit. destruct (w_lock (y_world s)) as [k|] eqn:E; [|exact B]. destruct (Nat.eqb_spec i k) as [->|Hk]; [|exact B].
      apply (fut_pc_other (y_world s) (unlock (y_world s)) ps ps k j); auto; [congruence|cbn; discriminate].
  - destruct pi_pc0 as [pc_once0 pc_begin0 pc_bytes0 pc_done0]. split; auto. rewrite <- pc_bytes0. cbn [y_world].
    unfold drop_emit. destruct (w_lock (y_world s)) as [k|]; [destruct (Nat.eqb i k)|]; reflexivity.
  - intros j id X. destruct (Nat.eq_dec j i) as [->|Hj]; [left; apply (put_eq _ _ _ _ Ei)|]. rewrite put_ne by congruence. exact (pi_done0 j id X).
Qed.
Lemma pc_run os w0 ls : forall s res ps s' rs, pc_inv os w0 s res ps -> emit_run s ls = Some (s', rs) -> exists ps', pc_inv os w0 s' (res ++ rs) ps'.
Proof.
  induction ls as [|lb ls IH]; intros s res ps s' rs I H; cbn [emit_run] in H.
  - inversion H; subst. rewrite app_nil_r. eauto.
  - destruct (emit_step s lb) as [[s1 o]|] eqn:E; [|discriminate]. destruct (emit_run s1 ls) as [[s2 os2]|] eqn:E2; [|discriminate].
    destruct lb as [i t l|i].
    + destruct (pc_poll _ _ _ _ _ _ _ _ _ _ I E) as (ps1 & r & -> & _ & I1). destruct (IH _ _ _ _ _ I1 E2) as (ps2 & I2).
      inversion H; subst. exists ps2. rewrite <- app_assoc in I2. exact I2.
    + destruct (pc_drop _ _ _ _ _ _ _ _ I E) as (-> & I1). destruct (IH _ _ _ _ _ I1 E2) as (ps2 & I2). inversion H; subst. eauto.
Qed.
Lemma run_pieces os w ls s rs : w_lock w = None -> emit_run (all_fresh w os) ls = Some (s, rs) -> exists ps, pieces os w s rs ps.
Proof.
  intros Hl H. assert (I : pc_inv os w (all_fresh w os) [] []).
  { split; cbn.
    - apply map_length.
    - intros i o Ho. exists (Some (future_of o)). split; [rewrite nth_error_map, Ho; reflexivity|]. apply fp_fresh; [congruence|intros []].
    - split; cbn; try (intros; contradiction); [constructor|rewrite app_nil_r; reflexivity].
    - intros; contradiction. }
  destruct (pc_run os w ls _ _ _ _ _ I H) as (ps & J). exists ps. apply J.
Qed.
