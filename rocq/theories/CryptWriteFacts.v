(** Facts about the encrypted write half. *)
From Verif Require Import Base BaseFacts Reader CodecFacts DecodeFacts Crypt SpecCrypt.

Definition item_kind (i : witem) (k : io_kind) : Prop := i = WFail k \/ (i = WAcc 0 /\ k = WriteZero).

Lemma write_all_spec items : forall l out l' sk r, write_all l items out = (l', sk, r) ->
  ws_out sk ++ l' = out ++ l
  /\ (exists used, items = used ++ ws_script sk)
  /\ match r with
     | WReady => l' = []
     | WPending => l' <> [] /\ (length (ws_script sk) < length items)%nat
     | WStuck => l' <> [] /\ ws_script sk = []
     | WErr k => exists i, In i items /\ item_kind i k
     | _ => False
     end.
Proof.
  induction items as [|[n| |k] items IH]; intros l out l' sk r; destruct l as [|b l]; cbn [write_all];
    try (intros H; injection H as <- <- <-; cbn [ws_out ws_script];
         split; [reflexivity|split; [exists []; reflexivity|first [reflexivity|split; [discriminate|reflexivity]]]]).
  - destruct (n =? 0) eqn:En.
    + intros H; injection H as <- <- <-. cbn [ws_out ws_script]. split; [reflexivity|]. split; [exists [WAcc n]; reflexivity|].
      exists (WAcc n). split; [left; reflexivity|]. right. split; [f_equal; lia|reflexivity].
    + intros H. apply IH in H as (H1 & (u & Hu) & H2). split; [|split].
      * rewrite H1, <- app_assoc. f_equal. apply firstn_skipn.
      * exists (WAcc n :: u). rewrite Hu at 1. reflexivity.
      * destruct r; auto.
        -- destruct H2 as (i & Hi & Hk). exists i. split; [right|]; assumption.
        -- destruct H2; split; [assumption|cbn [length]; lia].
  - intros H; injection H as <- <- <-. cbn [ws_out ws_script length]. split; [reflexivity|].
    split; [exists [WPend]; reflexivity|]. split; [discriminate|lia].
  - intros H; injection H as <- <- <-. cbn [ws_out ws_script]. split; [reflexivity|].
    split; [exists [WFail k]; reflexivity|]. exists (WFail k). split; left; reflexivity.
Qed.

Lemma ample_le n m items : (m <= n)%nat -> ample n items -> ample m items.
Proof. intros H [A B]. split; [assumption|lia]. Qed.

Lemma write_all_ample items : forall l out l' sk r m, write_all l items out = (l', sk, r) ->
  ample (length l + m) items -> (r = WReady \/ r = WPending) /\ ample (length l' + m) (ws_script sk).
Proof.
  induction items as [|[n| |k] items IH]; intros l out l' sk r m; destruct l as [|b l]; cbn [write_all];
    try (intros H; injection H as <- <- <-; cbn [ws_out ws_script]; intros A; split; [auto|exact A]).
  - destruct A as [_ A]. cbn in A. lia.
  - intros H [A B]. cbn [forallb healthy] in A. apply andb_prop in A as [A0 A].
    replace (n =? 0) with false in H by (destruct (n =? 0); [discriminate|reflexivity]).
    apply (IH _ _ _ _ _ m) in H; [assumption|]. split; [assumption|].
    cbn [filter accepts length] in B. rewrite skipn_length. cbn [length].
    destruct (n =? 0) eqn:En; [discriminate|]. lia.
  - intros _ [A _]. cbn in A. discriminate.
Qed.

Section W.
  Context (enc : bytes -> bytes -> bytes -> bytes).
  Notation sealed := (sealed enc). Notation ciphertexts := (ciphertexts enc).
  Notation poll_op := (poll_op enc). Notation await_op := (await_op enc).
  Notation run_op := (run_op enc). Notation run_ops := (run_ops enc).

  Lemma ciphertexts_app key ps : forall i qs,
    ciphertexts key i (ps ++ qs) = ciphertexts key i ps ++ ciphertexts key (i + N.of_nat (length ps)) qs.
  Proof.
    induction ps as [|p ps IH]; intros i qs; cbn [app length SpecCrypt.ciphertexts].
    - f_equal. lia.
    - rewrite IH. cbn [app]. do 2 f_equal. f_equal. lia.
  Qed.
  Lemma boxes_app a b : boxes (a ++ b) = boxes a ++ boxes b.
  Proof. unfold boxes. rewrite map_app, concat_app. reflexivity. Qed.
  Lemma boxes_one c : boxes [c] = boxed c.
  Proof. unfold boxes. cbn. apply app_nil_r. Qed.
  Lemma sealed_boxed key n p : sealed key n p = boxed (enc key (nonce_from_number n) p).
  Proof. reflexivity. Qed.

  Lemma next_mod n : next (n mod U64) = (n + 1) mod U64.
  Proof. unfold next. rewrite N.add_mod_idemp_l; [reflexivity|discriminate]. Qed.

  (** bytes of the package being written *)
  Definition in_flight (st : ewrite) : bytes :=
    match ew_fut_write st, ew_fut_flush st with Some l, _ => l | None, Some l => l | None, None => [] end.

  Record winv (out0 key : bytes) (ps : list bytes) (W : bytes) (st : ewrite) : Prop := {
    wi_key : ew_key st = key;
    wi_en : ew_en st = N.of_nat (length ps) mod U64;
    wi_data : concat ps ++ ew_buf st = W;
    wi_out : ws_out (ew_sock st) ++ in_flight st = out0 ++ boxes (ciphertexts key 0 ps);
    wi_ne : Forall (fun p => p <> [] /\ blen p <= MAX_PLAIN) ps;
    wi_sd : ew_fut_shutdown st = false }.
  Definition idle (st : ewrite) : Prop := ew_fut_write st = None /\ ew_fut_flush st = None /\ ew_inner st = true.
  Definition writing (st : ewrite) : Prop := ew_fut_write st <> None /\ ew_fut_flush st = None /\ ew_inner st = false.
  Definition flushing (st : ewrite) : Prop := ew_fut_write st = None /\ ew_fut_flush st <> None /\ ew_inner st = false.
  (** after an error the package is cut *)
  Record broken (out0 key : bytes) (ps : list bytes) (W : bytes) (st : ewrite) : Prop := {
    br_data : concat ps ++ ew_buf st = W;
    br_out : exists cut, ws_out (ew_sock st) ++ cut = out0 ++ boxes (ciphertexts key 0 ps);
    br_ne : Forall (fun p => p <> [] /\ blen p <= MAX_PLAIN) ps }.

  Lemma winv_broken out0 key ps W st : winv out0 key ps W st -> broken out0 key ps W st.
  Proof. intros []. split; [assumption|eexists; eassumption|assumption]. Qed.

  Definition script_of st := ws_script (ew_sock st).
  Definition result_ok (sc : list witem) (st' : ewrite) (r : wstat) : Prop :=
    (exists used, sc = used ++ script_of st')
    /\ match r with
       | WPending => (length (script_of st') < length sc)%nat
       | WStuck => script_of st' = []
       | WErr k => exists i, In i sc /\ item_kind i k
       | WReady => True
       | _ => False
       end.

  Lemma poll_fut_write_spec out0 key ps W st l : winv out0 key ps W st -> ew_fut_write st = Some l -> ew_fut_flush st = None ->
    ew_inner st = false ->
    forall st' r, poll_fut_write st l = (st', r) ->
    result_ok (script_of st) st' r /\ ew_buf st' = ew_buf st /\
    match r with
    | WReady => winv out0 key ps W st' /\ idle st'
    | WPending | WStuck => winv out0 key ps W st' /\ writing st'
    | WErr _ => broken out0 key ps W st'
    | _ => False
    end.
  Proof.
    intros I Hl Hf Hn st' r. unfold poll_fut_write.
    destruct (write_all l (ws_script (ew_sock st)) (ws_out (ew_sock st))) as [[l' sk] x] eqn:E.
    apply write_all_spec in E as (E1 & E2 & E3).
    assert (Ho : ws_out sk ++ l' = out0 ++ boxes (ciphertexts key 0 ps)).
    { rewrite E1. rewrite <- (wi_out _ _ _ _ _ I). unfold in_flight. rewrite Hl. reflexivity. }
    destruct x; try contradiction; intros H; injection H as <- <-.
    - split; [split; [exact E2|exact Coq.Init.Logic.I]|]. split; [reflexivity|]. split; [|repeat split; assumption].
      destruct I. split; try assumption. cbn [ew_sock in_flight ew_fut_write ew_fut_flush]. unfold in_flight; cbn. rewrite Hf. subst l'. exact Ho.
    - split; [split; [exact E2|exact E3]|]. split; [reflexivity|].
      destruct I. split; [assumption|exists l'; exact Ho|assumption].
    - split; [split; [exact E2|exact (proj2 E3)]|]. split; [reflexivity|]. split; [|repeat split; [discriminate|assumption|assumption]].
      destruct I. split; try assumption.
    - split; [split; [exact E2|exact (proj2 E3)]|]. split; [reflexivity|]. split; [|repeat split; [discriminate|assumption|assumption]].
      destruct I. split; try assumption.
  Qed.

  Lemma poll_fut_flush_spec out0 key ps W st l : winv out0 key ps W st -> ew_fut_flush st = Some l -> ew_fut_write st = None ->
    ew_inner st = false ->
    forall st' r, poll_fut_flush st l = (st', r) ->
    result_ok (script_of st) st' r /\ ew_buf st' = ew_buf st /\
    match r with
    | WReady => winv out0 key ps W st' /\ idle st'
    | WPending | WStuck => winv out0 key ps W st' /\ flushing st'
    | WErr _ => broken out0 key ps W st'
    | _ => False
    end.
  Proof.
    intros I Hl Hf Hn st' r. unfold poll_fut_flush.
    destruct (write_all l (ws_script (ew_sock st)) (ws_out (ew_sock st))) as [[l' sk] x] eqn:E.
    apply write_all_spec in E as (E1 & E2 & E3).
    assert (Ho : ws_out sk ++ l' = out0 ++ boxes (ciphertexts key 0 ps)).
    { rewrite E1. rewrite <- (wi_out _ _ _ _ _ I). unfold in_flight. rewrite Hl, Hf. reflexivity. }
    destruct x; try contradiction; intros H; injection H as <- <-.
    - split; [split; [exact E2|exact Coq.Init.Logic.I]|]. split; [reflexivity|]. split; [|repeat split; assumption].
      destruct I. split; try assumption. unfold in_flight; cbn. rewrite Hf. subst l'. exact Ho.
    - split; [split; [exact E2|exact E3]|]. split; [reflexivity|].
      destruct I. split; [assumption|exists l'; exact Ho|assumption].
    - split; [split; [exact E2|exact (proj2 E3)]|]. split; [reflexivity|]. split; [|repeat split; [assumption|discriminate|assumption]].
      destruct I. split; try assumption. unfold in_flight; cbn. rewrite Hf. exact Ho.
    - split; [split; [exact E2|exact (proj2 E3)]|]. split; [reflexivity|]. split; [|repeat split; [assumption|discriminate|assumption]].
      destruct I. split; try assumption. unfold in_flight; cbn. rewrite Hf. exact Ho.
  Qed.

  Lemma take_plain b : let n := N.to_nat (N.min MAX_PLAIN (blen b)) in
    0 < blen b -> firstn n b <> [] /\ blen (firstn n b) <= MAX_PLAIN.
  Proof.
    intros n Hb. assert (blen (firstn n b) = N.min MAX_PLAIN (blen b)) as Hl by (apply blen_firstn; lia).
    split; [|lia]. intros Hz. rewrite Hz, blen_nil in Hl. unfold MAX_PLAIN in Hl. lia.
  Qed.

  (** sealing the first [n] bytes of the buffer [b] *)
  Lemma seal_inv out0 key ps W st b n fw ff : winv out0 key ps W st -> idle st -> firstn n b <> [] -> blen (firstn n b) <= MAX_PLAIN ->
    let l := sealed (ew_key st) (ew_en st) (firstn n b) in
    forall X, concat ps ++ b = X ->
    (fw = Some l /\ ff = None) \/ (fw = None /\ ff = Some l) ->
    winv out0 key (ps ++ [firstn n b]) X
      (mk_ewrite (ew_sock st) (ew_key st) (next (ew_en st)) (skipn n b) fw ff (ew_fut_shutdown st) false).
  Proof.
    intros [] (Hw & Hf & Hi) Hne Hmax l X HX Hfut. split; cbn [ew_key ew_en ew_buf ew_sock ew_fut_shutdown]; try assumption.
    - rewrite wi_en0, next_mod, app_length. f_equal. cbn [length]. lia.
    - rewrite concat_app. cbn [concat]. rewrite app_nil_r, <- app_assoc, firstn_skipn. exact HX.
    - unfold in_flight. cbn [ew_fut_write ew_fut_flush].
      assert (Hl : match fw with Some x => x | None => match ff with Some x => x | None => [] end end = l).
      { destruct Hfut as [[-> ->]|[-> ->]]; reflexivity. }
      replace (match fw, ff with Some x, _ => x | None, Some x => x | None, None => [] end) with l
        by (rewrite <- Hl; destruct fw; reflexivity).
      unfold in_flight in wi_out0. rewrite Hw, Hf, app_nil_r in wi_out0. rewrite wi_out0, ciphertexts_app, boxes_app, <- app_assoc.
      do 2 f_equal. cbn [SpecCrypt.ciphertexts]. rewrite boxes_one. subst l. rewrite wi_key0, wi_en0. reflexivity.
    - apply Forall_app. split; [assumption|]. constructor; [split; assumption|constructor].
  Qed.

  (** The packages made so far and the buffer, after a write of [l] / a flush. *)
  Definition cutoff (b : bytes) : nat := N.to_nat (N.min MAX_PLAIN (blen b)).
  Definition after_write (ps : list bytes) (b l : bytes) : list bytes * bytes :=
    match l with
    | [] => (ps, b)
    | _ => if WRITE_BUF_SIZE <=? blen (b ++ l)
           then (ps ++ [firstn (cutoff (b ++ l)) (b ++ l)], skipn (cutoff (b ++ l)) (b ++ l)) else (ps, b ++ l)
    end.
  Definition after_flush (ps : list bytes) (b : bytes) : list bytes * bytes :=
    match b with [] => (ps, []) | _ => (ps ++ [firstn (cutoff b) b], skipn (cutoff b) b) end.

  Definition step_ok out0 key (pb : list bytes * bytes) W' (st st' : ewrite) r (pend : ewrite -> Prop) : Prop :=
    result_ok (script_of st) st' r /\ ew_buf st' = snd pb /\
    match r with
    | WReady => winv out0 key (fst pb) W' st' /\ idle st'
    | WPending | WStuck => winv out0 key (fst pb) W' st' /\ pend st'
    | WErr _ => broken out0 key (fst pb) W' st'
    | _ => False
    end.

  Lemma result_ok_refl st : result_ok (script_of st) st WReady.
  Proof. split; [exists []; reflexivity|exact I]. Qed.

  Lemma poll_write_new out0 key ps W st buf : buf <> [] -> winv out0 key ps W st -> idle st ->
    forall st' r, ew_poll_write enc st buf = (st', r) ->
    step_ok out0 key (after_write ps (ew_buf st) buf) (W ++ buf) st st' r writing.
  Proof.
    intros Hne I D st' r. pose proof D as (Hw & Hf & Hi). unfold ew_poll_write, after_write. rewrite Hw.
    destruct buf as [|b0 bt]; [contradiction|]. set (buf := b0 :: bt) in *.
    assert (HX : concat ps ++ ew_buf st ++ buf = W ++ buf) by (rewrite app_assoc; f_equal; apply I).
    fold (cutoff (ew_buf st ++ buf)).
    destruct (WRITE_BUF_SIZE <=? blen (ew_buf st ++ buf)) eqn:Eb.
    - rewrite Hi. unfold WRITE_BUF_SIZE in Eb.
      destruct (take_plain (ew_buf st ++ buf) ltac:(lia)) as [T1 T2]. fold (cutoff (ew_buf st ++ buf)) in T1, T2.
      set (n := cutoff (ew_buf st ++ buf)) in *.
      pose proof (seal_inv _ _ _ _ _ _ n (Some (sealed (ew_key st) (ew_en st) (firstn n (ew_buf st ++ buf)))) None I D T1 T2 _ HX (or_introl (conj eq_refl eq_refl))) as I'.
      rewrite Hf. intros H. eapply poll_fut_write_spec in H; [|exact I'|reflexivity|reflexivity|reflexivity].
      destruct H as (H1 & H3 & H2). split; [exact H1|]. split; [exact H3|]. exact H2.
    - intros H; injection H as <- <-. split; [apply (result_ok_refl st)|]. split; [reflexivity|]. split; [|repeat split; assumption].
      destruct I. split; try assumption. unfold in_flight in *; cbn. rewrite Hw in wi_out0. exact wi_out0.
  Qed.

  Lemma poll_write_again out0 key ps W st buf : winv out0 key ps W st -> writing st ->
    forall st' r, ew_poll_write enc st buf = (st', r) -> step_ok out0 key (ps, ew_buf st) W st st' r writing.
  Proof.
    intros I (Hw & Hf & Hi) st' r. unfold ew_poll_write. destruct (ew_fut_write st) as [l|] eqn:El; [|contradiction].
    intros H. eapply poll_fut_write_spec in H; [|exact I|assumption..]. exact H.
  Qed.

  Lemma poll_flush_new out0 key ps W st : winv out0 key ps W st -> idle st ->
    forall st' r, ew_poll_flush enc st = (st', r) -> step_ok out0 key (after_flush ps (ew_buf st)) W st st' r flushing.
  Proof.
    intros I D st' r. pose proof D as (Hw & Hf & Hi). unfold ew_poll_flush. rewrite Hf, Hi.
    fold (cutoff (ew_buf st)).
    destruct (ew_buf st) as [|b0 t] eqn:Hb.
    - cbn [after_flush]. rewrite firstn_nil, skipn_nil. cbn [blen].
      assert (I' : winv out0 key ps W (mk_ewrite (ew_sock st) (ew_key st) (ew_en st) [] (ew_fut_write st) (Some []) (ew_fut_shutdown st) false)).
      { destruct I. split; cbn [ew_key ew_en ew_buf ew_sock ew_fut_shutdown]; try assumption.
        - rewrite Hb in wi_data0. exact wi_data0.
        - unfold in_flight in *. cbn. rewrite Hw in *. rewrite Hf in wi_out0. exact wi_out0. }
      intros H. exact (poll_fut_flush_spec _ _ _ _ _ _ I' eq_refl Hw eq_refl _ _ H).
    - unfold after_flush. rewrite <- Hb in *.
      assert (0 < blen (ew_buf st)) as H0 by (rewrite Hb, blen_cons; lia).
      destruct (take_plain (ew_buf st) H0) as [T1 T2]. fold (cutoff (ew_buf st)) in T1, T2.
      set (n := cutoff (ew_buf st)) in *.
      replace (0 <? blen (firstn n (ew_buf st))) with true
        by (destruct (firstn n (ew_buf st)); [contradiction|rewrite blen_cons; lia]).
      pose proof (seal_inv _ _ _ _ _ _ n None (Some (sealed (ew_key st) (ew_en st) (firstn n (ew_buf st)))) I D T1 T2 _ (wi_data _ _ _ _ _ I) (or_intror (conj eq_refl eq_refl))) as I'.
      rewrite Hw. intros H. eapply poll_fut_flush_spec in H; [|exact I'|reflexivity|reflexivity|reflexivity]. exact H.
  Qed.

  Lemma poll_flush_again out0 key ps W st : winv out0 key ps W st -> flushing st ->
    forall st' r, ew_poll_flush enc st = (st', r) -> step_ok out0 key (ps, ew_buf st) W st st' r flushing.
  Proof.
    intros I (Hw & Hf & Hi) st' r. unfold ew_poll_flush. destruct (ew_fut_flush st) as [l|] eqn:El; [|contradiction].
    intros H. eapply poll_fut_flush_spec in H; [|exact I|assumption..]. exact H.
  Qed.

  Lemma used_trans (a b c u v : list witem) : a = u ++ b -> b = v ++ c -> a = (u ++ v) ++ c.
  Proof. intros -> ->. apply app_assoc. Qed.

  Lemma result_trans sc st1 st2 r : (exists u, sc = u ++ script_of st1) -> result_ok (script_of st1) st2 r -> result_ok sc st2 r.
  Proof.
    intros [u Hu] [[v Hv] H]. split; [exists (u ++ v); eapply used_trans; eassumption|].
    destruct r; auto.
    - destruct H as (i & Hi & Hk). exists i. split; [rewrite Hu; apply in_or_app; right; exact Hi|exact Hk].
    - rewrite Hu, app_length. lia.
  Qed.
  Lemma step_trans out0 key pb W st st1 st2 r p : (exists u, script_of st = u ++ script_of st1) ->
    step_ok out0 key pb W st1 st2 r p -> step_ok out0 key pb W st st2 r p.
  Proof. intros H (A & B). split; [eapply result_trans; eassumption|exact B]. Qed.

  (** awaiting a pending write or flush *)
  Lemma await_write out0 key buf : buf <> [] -> forall fuel ps W st, winv out0 key ps W st -> writing st ->
    (length (script_of st) < fuel)%nat ->
    forall st' r, await_op fuel (OWrite buf) st = (st', r) -> r <> WPending /\ step_ok out0 key (ps, ew_buf st) W st st' r writing.
  Proof.
    intros Hne. induction fuel as [|fuel IH]; intros ps W st I D Hf st' r; [lia|]. cbn [Crypt.await_op Crypt.poll_op].
    replace (match buf with [] => (st, WReady) | _ => ew_poll_write enc st buf end) with (ew_poll_write enc st buf)
      by (destruct buf; [contradiction|reflexivity]).
    destruct (ew_poll_write enc st buf) as [st1 r1] eqn:E.
    pose proof (poll_write_again _ _ _ _ _ _ I D _ _ E) as [R (B & H)].
    destruct r1; try (intros H0; injection H0 as <- <-; split; [discriminate|split; [exact R|split; [exact B|exact H]]]).
    destruct H as [I1 D1]. intros H0. destruct (IH _ _ _ I1 D1 ltac:(destruct R; lia) _ _ H0) as [N1 R1].
    split; [exact N1|]. eapply step_trans; [apply R|]. cbn [snd] in B. rewrite <- B. exact R1.
  Qed.

  Lemma await_flush out0 key : forall fuel ps W st, winv out0 key ps W st -> flushing st ->
    (length (script_of st) < fuel)%nat ->
    forall st' r, await_op fuel OFlush st = (st', r) -> r <> WPending /\ step_ok out0 key (ps, ew_buf st) W st st' r flushing.
  Proof.
    induction fuel as [|fuel IH]; intros ps W st I D Hf st' r; [lia|]. cbn [Crypt.await_op Crypt.poll_op].
    destruct (ew_poll_flush enc st) as [st1 r1] eqn:E.
    pose proof (poll_flush_again _ _ _ _ _ I D _ _ E) as [R (B & H)].
    destruct r1; try (intros H0; injection H0 as <- <-; split; [discriminate|split; [exact R|split; [exact B|exact H]]]).
    destruct H as [I1 D1]. intros H0. destruct (IH _ _ _ I1 D1 ltac:(destruct R; lia) _ _ H0) as [N1 R1].
    split; [exact N1|]. eapply step_trans; [apply R|]. cbn [snd] in B. rewrite <- B. exact R1.
  Qed.

  Definition any (st : ewrite) : Prop := True.
  Lemma step_any out0 key pb W st st' r p : step_ok out0 key pb W st st' r p -> step_ok out0 key pb W st st' r any.
  Proof. intros [R (B & H)]. split; [exact R|]. split; [exact B|]. destruct r; auto; destruct H; split; auto; exact I. Qed.

  Lemma run_write out0 key ps W st buf : winv out0 key ps W st -> idle st ->
    forall st' r, run_op (OWrite buf) st = (st', r) ->
    r <> WPending /\ step_ok out0 key (after_write ps (ew_buf st) buf) (W ++ buf) st st' r any.
  Proof.
    intros I D st' r. unfold Crypt.run_op. cbn [Crypt.await_op Crypt.poll_op]. destruct buf as [|b0 bt].
    - rewrite app_nil_r. intros H; injection H as <- <-. split; [discriminate|]. split; [apply result_ok_refl|]. split; [reflexivity|]. split; assumption.
    - destruct (ew_poll_write enc st (b0 :: bt)) as [st1 r1] eqn:E.
      pose proof (poll_write_new _ _ _ _ _ (b0 :: bt) ltac:(discriminate) I D _ _ E) as [R (B & H)].
      destruct r1; try (intros H0; injection H0 as <- <-; split; [discriminate|apply (step_any _ _ _ _ _ _ _ writing); split; [exact R|split; [exact B|exact H]]]).
      destruct H as [I1 D1]. intros H0. destruct (await_write out0 key (b0 :: bt) ltac:(discriminate) _ _ _ _ I1 D1 (proj2 R) _ _ H0) as [N1 R1].
      split; [exact N1|]. apply (step_any _ _ _ _ _ _ _ writing). eapply step_trans; [apply R|]. rewrite B in R1.
      rewrite <- surjective_pairing in R1. exact R1.
  Qed.

  Lemma run_flush out0 key ps W st : winv out0 key ps W st -> idle st ->
    forall st' r, run_op OFlush st = (st', r) -> r <> WPending /\ step_ok out0 key (after_flush ps (ew_buf st)) W st st' r any.
  Proof.
    intros I D st' r. unfold Crypt.run_op. cbn [Crypt.await_op Crypt.poll_op].
    destruct (ew_poll_flush enc st) as [st1 r1] eqn:E.
    pose proof (poll_flush_new _ _ _ _ _ I D _ _ E) as [R (B & H)].
    destruct r1; try (intros H0; injection H0 as <- <-; split; [discriminate|apply (step_any _ _ _ _ _ _ _ flushing); split; [exact R|split; [exact B|exact H]]]).
    destruct H as [I1 D1]. intros H0. destruct (await_flush out0 key _ _ _ _ I1 D1 (proj2 R) _ _ H0) as [N1 R1].
    split; [exact N1|]. apply (step_any _ _ _ _ _ _ _ flushing). eapply step_trans; [apply R|]. rewrite B in R1.
    rewrite <- surjective_pairing in R1. exact R1.
  Qed.

  (** the packages and the buffer after a list of operations *)
  Fixpoint plan (os : list wop) (pb : list bytes * bytes) : list bytes * bytes :=
    match os with
    | [] => pb
    | OWrite l :: os' => plan os' (after_write (fst pb) (snd pb) l)
    | OFlush :: os' => plan os' (after_flush (fst pb) (snd pb))
    | OShutdown :: os' => pb
    end.

  Lemma run_ops_spec out0 key : forall os ps W st, no_shutdown os -> winv out0 key ps W st -> idle st ->
    forall st' r, run_ops os st = (st', r) ->
    result_ok (script_of st) st' r /\ r <> WPending /\
    match r with
    | WReady => winv out0 key (fst (plan os (ps, ew_buf st))) (W ++ written os) st' /\ idle st' /\ ew_buf st' = snd (plan os (ps, ew_buf st))
    | _ => exists done later ps', os = done ++ later /\ broken out0 key ps' (W ++ written done) st'
      /\ (ps', ew_buf st') = plan done (ps, ew_buf st)
    end.
  Proof.
    induction os as [|o os IH]; intros ps W st Hs I D st' r; cbn [Crypt.run_ops].
    - intros H; injection H as <- <-. split; [apply result_ok_refl|]. split; [discriminate|].
      unfold written; cbn. rewrite app_nil_r. auto.
    - assert (Hs' : no_shutdown os) by (intros H; apply Hs; right; exact H).
      assert (exists pb, (forall os', plan (o :: os') (ps, ew_buf st) = plan os' pb) /\ forall st1 r1, run_op o st = (st1, r1) ->
        r1 <> WPending /\ step_ok out0 key pb (W ++ written [o]) st st1 r1 any) as (pb & HP & Hop).
      { destruct o as [buf| |].
        - eexists. split; [reflexivity|]. intros st1 r1 H. unfold written; cbn. rewrite app_nil_r. eapply run_write; eassumption.
        - eexists. split; [reflexivity|]. intros st1 r1 H. unfold written; cbn. rewrite app_nil_r. eapply run_flush; eassumption.
        - exfalso. apply Hs. left; reflexivity. }
      assert (HW : forall l, (W ++ written [o]) ++ written l = W ++ written (o :: l)).
      { intros l. unfold written. cbn. rewrite app_nil_r, <- app_assoc. reflexivity. }
      destruct (run_op o st) as [st1 r1] eqn:E. destruct (Hop _ _ eq_refl) as [N1 [R (B & H1)]].
      assert (Hpb : (fst pb, ew_buf st1) = pb) by (rewrite B; symmetry; apply surjective_pairing).
      destruct r1; try contradiction.
      + destruct H1 as [I1 D1]. intros H. destruct (IH _ _ _ Hs' I1 D1 _ _ H) as (R2 & N2 & H2).
        split; [eapply result_trans; [apply R|exact R2]|]. split; [exact N2|]. rewrite Hpb, HW in H2. rewrite HP.
        destruct r; [exact H2| | | | |]; destruct H2 as (dn & later & ps' & -> & H2 & H3); exists (o :: dn), later, ps';
          rewrite HW in H2; rewrite HP; auto.
      + intros H0; injection H0 as <- <-. split; [exact R|]. split; [discriminate|].
        exists [o], os, (fst pb). split; [reflexivity|]. split; [exact H1|]. rewrite HP. exact Hpb.
      + intros H0; injection H0 as <- <-. split; [exact R|]. split; [discriminate|].
        exists [o], os, (fst pb). split; [reflexivity|]. split; [apply winv_broken, H1|]. rewrite HP. exact Hpb.
  Qed.

  Lemma new_inv out0 key items : winv out0 key [] [] (ewrite_new (mk_wsock items out0) key).
  Proof. split; cbn; try reflexivity. constructor. Qed.
  Lemma new_idle sk key : idle (ewrite_new sk key).
  Proof. repeat split. Qed.

  (** ** progress: an ample transport takes everything *)
  Definition phi (sk : wsock) : nat := (length (filter accepts (ws_script sk)) + length (ws_out sk))%nat.
  Definition better (a b : wsock) : Prop := forallb healthy (ws_script a) = true ->
    forallb healthy (ws_script b) = true /\ (phi a <= phi b)%nat.
  Lemma better_refl a : better a a. Proof. intros H; auto. Qed.
  Lemma better_trans a b c : better a b -> better b c -> better a c.
  Proof. intros H1 H2 H. apply H1 in H as [H L]. apply H2 in H as [H L']. split; [exact H|lia]. Qed.

  Lemma write_all_better items : forall l out l' sk r, write_all l items out = (l', sk, r) -> better (mk_wsock items out) sk.
  Proof.
    induction items as [|[n| |k] items IH]; intros l out l' sk r; destruct l as [|b l]; cbn [write_all];
      try (intros H; injection H as <- <- <-; apply better_refl).
    - destruct (n =? 0) eqn:En.
      + intros H; injection H as <- <- <-. unfold better. cbn. rewrite En. discriminate.
      + intros H. apply IH in H. eapply better_trans; [|exact H]. unfold better, phi. cbn [ws_script ws_out forallb healthy filter accepts length].
        intros A. apply andb_prop in A as [_ A]. split; [exact A|]. rewrite app_length, firstn_length. cbn [length]. lia.
    - intros H; injection H as <- <- <-. unfold better, phi. cbn. auto.
    - intros H; injection H as <- <- <-. unfold better, phi. cbn. discriminate.
  Qed.

  Lemma fut_write_better st l st' r : poll_fut_write st l = (st', r) -> better (ew_sock st) (ew_sock st').
  Proof.
    unfold poll_fut_write. destruct (write_all _ _ _) as [[l' sk] x] eqn:E. apply write_all_better in E.
    assert (better (ew_sock st) sk) by (destruct (ew_sock st); exact E).
    destruct x; intros H0; injection H0 as <- <-; assumption.
  Qed.
  Lemma fut_flush_better st l st' r : poll_fut_flush st l = (st', r) -> better (ew_sock st) (ew_sock st').
  Proof.
    unfold poll_fut_flush. destruct (write_all _ _ _) as [[l' sk] x] eqn:E. apply write_all_better in E.
    assert (better (ew_sock st) sk) by (destruct (ew_sock st); exact E).
    destruct x; intros H0; injection H0 as <- <-; assumption.
  Qed.
  Lemma poll_flush_better st st' r : ew_poll_flush enc st = (st', r) -> better (ew_sock st) (ew_sock st').
  Proof.
    unfold ew_poll_flush. destruct (ew_fut_flush st); [apply fut_flush_better|].
    destruct (ew_inner st); [|intros H; injection H as <- <-; apply better_refl].
    destruct (0 <? _); intros H; apply fut_flush_better in H; exact H.
  Qed.
  Lemma poll_op_better o st st' r : poll_op o st = (st', r) -> better (ew_sock st) (ew_sock st').
  Proof.
    destruct o as [[|b0 bt]| |]; cbn [Crypt.poll_op].
    - intros H; injection H as <- <-; apply better_refl.
    - unfold ew_poll_write. destruct (ew_fut_write st); [apply fut_write_better|].
      destruct (WRITE_BUF_SIZE <=? _); [|intros H; injection H as <- <-; apply better_refl].
      destruct (ew_inner st); [|intros H; injection H as <- <-; apply better_refl].
      intros H; apply fut_write_better in H; exact H.
    - apply poll_flush_better.
    - unfold ew_poll_shutdown. destruct (ew_fut_shutdown st); [intros H; injection H as <- <-; apply better_refl|].
      destruct (ew_poll_flush enc st) as [st1 r1] eqn:E. apply poll_flush_better in E.
      destruct r1; try (intros H; injection H as <- <-; exact E).
      destruct (ew_inner st1); intros H; injection H as <- <-; exact E.
  Qed.
  Lemma await_op_better o : forall fuel st st' r, await_op fuel o st = (st', r) -> better (ew_sock st) (ew_sock st').
  Proof.
    induction fuel as [|fuel IH]; intros st st' r; cbn [Crypt.await_op].
    - intros H; injection H as <- <-; apply better_refl.
    - destruct (poll_op o st) as [st1 r1] eqn:E. apply poll_op_better in E.
      destruct r1; try (intros H; injection H as <- <-; exact E).
      intros H. apply IH in H. eapply better_trans; eassumption.
  Qed.
  Lemma run_ops_better : forall os st st' r, run_ops os st = (st', r) -> better (ew_sock st) (ew_sock st').
  Proof.
    induction os as [|o os IH]; intros st st' r; cbn [Crypt.run_ops].
    - intros H; injection H as <- <-; apply better_refl.
    - destruct (run_op o st) as [st1 r1] eqn:E. apply await_op_better in E.
      destruct r1; try (intros H; injection H as <- <-; exact E).
      intros H. apply IH in H. eapply better_trans; eassumption.
  Qed.

  Lemma plan_grows : forall os pb, exists qs, fst (plan os pb) = fst pb ++ qs.
  Proof.
    induction os as [|[l| |] os IH]; intros pb; cbn [plan]; [exists []; symmetry; apply app_nil_r| | |exists []; symmetry; apply app_nil_r].
    - destruct (IH (after_write (fst pb) (snd pb) l)) as [qs ->].
      unfold after_write. destruct l; [eexists; reflexivity|]. destruct (WRITE_BUF_SIZE <=? _); cbn [fst]; [|eexists; reflexivity].
      rewrite <- app_assoc. eexists; reflexivity.
    - destruct (IH (after_flush (fst pb) (snd pb))) as [qs ->].
      unfold after_flush. destruct (snd pb); cbn [fst]; [eexists; reflexivity|]. rewrite <- app_assoc. eexists; reflexivity.
  Qed.
  Lemma plan_app os1 os2 pb : no_shutdown os1 -> plan (os1 ++ os2) pb = plan os2 (plan os1 pb).
  Proof.
    revert pb. induction os1 as [|[l| |] os1 IH]; intros pb H; cbn [app plan]; try apply IH; try reflexivity.
    1,2: intros X; apply H; right; exact X.
    exfalso. apply H. left; reflexivity.
  Qed.

  Lemma run_ops_progress os st key out0 ps W : no_shutdown os -> winv out0 key ps W st -> idle st ->
    ws_out (ew_sock st) = out0 ++ boxes (ciphertexts key 0 ps) ->
    ample (S (length (boxes (ciphertexts key (N.of_nat (length ps)) (skipn (length ps) (fst (plan os (ps, ew_buf st)))))))) (script_of st) ->
    exists st', run_ops os st = (st', WReady).
  Proof.
    intros Hs I D Ho [A1 A2]. destruct (run_ops os st) as [st' r] eqn:E. pose proof (run_ops_better _ _ _ _ E A1) as [_ P].
    destruct (run_ops_spec _ _ _ _ _ _ Hs I D _ _ E) as ([[u Hu] R] & NP & H).
    destruct r; try contradiction; [eexists; reflexivity| |].
    - exfalso. destruct R as (i & Hi & Hk). rewrite forallb_forall in A1. specialize (A1 _ Hi).
      destruct Hk as [->|[-> _]]; discriminate.
    - exfalso. destruct H as (dn & later & ps' & -> & [_ [cut Hc] _] & Hp).
      assert (Hd : no_shutdown dn) by (intros X; apply Hs, in_or_app; left; exact X).
      rewrite plan_app, <- Hp in A2 by assumption.
      destruct (plan_grows dn (ps, ew_buf st)) as [q1 Hq1]. rewrite <- Hp in Hq1. cbn [fst] in Hq1. subst ps'.
      destruct (plan_grows later (ps ++ q1, ew_buf st')) as [q2 Hq2]. rewrite Hq2 in A2. cbn [fst] in A2.
      rewrite <- app_assoc, skipn_app, skipn_all, Nat.sub_diag in A2. cbn [app skipn] in A2.
      rewrite ciphertexts_app, boxes_app, app_length in A2.
      unfold phi in P. unfold script_of in R, A2. rewrite R in P. cbn [filter length] in P.
      apply (f_equal (@length byte)) in Hc. rewrite Ho in P. rewrite ciphertexts_app, boxes_app in Hc.
      rewrite !app_length in *. cbn [N.add] in *. lia.
  Qed.

  Definition small_msg (l : bytes) : Prop := l <> [] /\ blen l <= MAX_PLAIN.
  Lemma cutoff_small l : blen l <= MAX_PLAIN -> firstn (cutoff l) l = l /\ skipn (cutoff l) l = [].
  Proof.
    clear enc. intros H. assert (cutoff l = length l) as -> by (unfold cutoff, blen in *; lia).
    split; [apply firstn_all|apply skipn_all].
  Qed.
  Lemma plan_emit ls : Forall small_msg ls -> forall ps, plan (emit_all ls) (ps, []) = (ps ++ ls, []).
  Proof.
    induction 1 as [|l ls [Hn Hm] _ IH]; intros ps; [cbn; rewrite app_nil_r; reflexivity|].
    cbn [emit_all flat_map app plan]. unfold after_write at 1. cbn [fst snd app].
    assert (plan (OFlush :: emit_all ls) (after_write ps [] l) = (ps ++ l :: ls, [])) as HH; [|exact HH].
    unfold after_write. destruct l as [|b0 t]; [contradiction|]. cbn [app]. set (l := b0 :: t) in *.
    destruct (cutoff_small l Hm) as [C1 C2].
    destruct (WRITE_BUF_SIZE <=? blen l).
    - rewrite C1, C2. cbn [plan after_flush fst snd]. rewrite IH, <- app_assoc. reflexivity.
    - cbn [plan fst snd]. change (after_flush ps l) with (ps ++ [firstn (cutoff l) l], skipn (cutoff l) l). rewrite C1, C2, IH, <- app_assoc. reflexivity.
  Qed.
  Lemma emit_no_shutdown ls : no_shutdown (emit_all ls).
  Proof. unfold no_shutdown, emit_all. rewrite in_flat_map. intros (l & _ & [H|[H|[]]]); discriminate. Qed.
End W.
