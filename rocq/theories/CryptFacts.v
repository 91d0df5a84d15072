(** Proofs about encrypted connections: nonces, packages, delivery, tampering, cancellation. *)
From Verif Require Import Base BaseFacts Reader Codec Spec CodecFacts DecodeFacts ReaderFacts Crypt SpecCrypt CryptWriteFacts CryptReadFacts.

Lemma F2_length {A B} (R : A -> B -> Prop) l m : Forall2 R l m -> length l = length m.
Proof. induction 1; cbn; congruence. Qed.

(** * Nonces *)
Lemma be_inj k a b : a < 256 ^ N.of_nat k -> b < 256 ^ N.of_nat k -> be k a = be k b -> a = b.
Proof. intros Ha Hb H. rewrite <- (unbe_be_small k a Ha), <- (unbe_be_small k b Hb), H. reflexivity. Qed.
Lemma nonce_eq n : nonce_from_number n = be 8 n ++ firstn 4 (be 8 n).
Proof.
  unfold nonce_from_number. rewrite firstn_app, be_length. rewrite firstn_all2 by (rewrite be_length; lia). reflexivity.
Qed.
Lemma nonce_length n : length (nonce_from_number n) = 12%nat.
Proof. rewrite nonce_eq, app_length, firstn_length, be_length. reflexivity. Qed.
Lemma nonce_inj i j : i < U64 -> j < U64 -> nonce_from_number i = nonce_from_number j -> i = j.
Proof.
  intros Hi Hj H. rewrite !nonce_eq in H. apply (f_equal (firstn 8)) in H.
  rewrite !firstn_len in H by apply be_length. apply (be_inj 8); assumption.
Qed.

Lemma ciphertexts_nth enc key ps : forall i j, nth_error (ciphertexts enc key i ps) j
  = option_map (fun p => enc key (nonce_from_number ((i + N.of_nat j) mod U64)) p) (nth_error ps j).
Proof.
  induction ps as [|p ps IH]; intros i j; destruct j as [|j]; cbn [ciphertexts nth_error option_map]; try reflexivity.
  - rewrite N.add_0_r. reflexivity.
  - rewrite IH. destruct (nth_error ps j); [|reflexivity]. cbn [option_map]. do 4 f_equal. lia.
Qed.
Lemma ciphertexts_length enc key ps : forall i, length (ciphertexts enc key i ps) = length ps.
Proof. induction ps as [|p ps IH]; intros i; cbn; [reflexivity|]. rewrite IH. reflexivity. Qed.

(** * The writer: from a fresh write half *)
Lemma writer_general enc os key items out0 st r : no_shutdown os ->
  run_ops enc os (ewrite_new (mk_wsock items out0) key) = (st, r) ->
  exists ps cut done later, ws_out (ew_sock st) ++ cut = out0 ++ boxes (ciphertexts enc key 0 ps)
    /\ Forall (fun p => p <> [] /\ blen p < 2 ^ 32) ps
    /\ os = done ++ later /\ concat ps ++ ew_buf st = written done
    /\ match r with
       | WReady => cut = [] /\ later = []
       | WErr k => In (WFail k) items \/ (k = WriteZero /\ In (WAcc 0) items)
       | WStuck => ws_script (ew_sock st) = []
       | _ => False
       end.
Proof.
  intros Hs H. destruct (run_ops_spec enc out0 key os [] [] _ Hs (new_inv enc out0 key items) (new_idle _ _) _ _ H) as ([[u Hu] R] & NP & HH).
  assert (Hmax : forall ps, Forall (fun p : list byte => p <> [] /\ blen p <= MAX_PLAIN) ps -> Forall (fun p => p <> [] /\ blen p < 2 ^ 32) ps).
  { intros ps. apply Forall_impl. intros p [A B]. split; [exact A|]. unfold MAX_PLAIN in B. lia. }
  destruct r; try contradiction.
  - destruct HH as ([] & (D1 & D2 & D3) & HB). eexists _, [], os, []. rewrite app_nil_r.
    unfold in_flight in wi_out. rewrite D1, D2, app_nil_r in wi_out. rewrite !app_nil_r. repeat split; eauto.
  - destruct HH as (dn & later & ps' & -> & [A [cut B] C] & _). exists ps', cut, dn, later. repeat split; eauto.
    destruct R as (i & Hi & [->|[-> ->]]); auto.
  - destruct HH as (dn & later & ps' & -> & [A [cut B] C] & _). exists ps', cut, dn, later. repeat split; eauto.
Qed.

Lemma after_flush_small ps b : blen b <= MAX_PLAIN -> snd (after_flush ps b) = [].
Proof. intros Hl. unfold after_flush. destruct b as [|b0 t]; [reflexivity|]. apply cutoff_small; exact Hl. Qed.

Lemma writer_flushed enc os key items out0 st : no_shutdown os ->
  run_ops enc (os ++ [OFlush]) (ewrite_new (mk_wsock items out0) key) = (st, WReady) ->
  blen (written os) < 2 ^ 32 -> ew_buf st = [].
Proof.
  intros Hs H Hw.
  assert (Hs' : no_shutdown (os ++ [OFlush])).
  { intros X. apply in_app_or in X as [X|[X|[]]]; [exact (Hs X)|discriminate]. }
  destruct (run_ops_spec enc out0 key _ [] [] _ Hs' (new_inv enc out0 key items) (new_idle _ _) _ _ H) as (_ & _ & I & _ & HB).
  rewrite plan_app in HB by assumption. cbn [plan] in HB.
  assert (blen (snd (plan os ([], []))) <= MAX_PLAIN) as Hl.
  { assert (G : forall os pb, no_shutdown os -> concat (fst (plan os pb)) ++ snd (plan os pb) = concat (fst pb) ++ snd pb ++ written os).
    { clear. induction os as [|[l| |] os IH]; intros pb Hs; cbn [plan]; [unfold written; cbn; rewrite app_nil_r; reflexivity| | |exfalso; apply Hs; left; reflexivity].
      - rewrite IH by (intros X; apply Hs; right; exact X). unfold written; cbn. rewrite !app_assoc. f_equal. unfold after_write.
        destruct l as [|b0 t]; [cbn; rewrite app_nil_r; reflexivity|]. destruct (WRITE_BUF_SIZE <=? _); cbn [fst snd]; [|apply app_assoc].
        rewrite concat_app. cbn [concat]. rewrite app_nil_r, <- !app_assoc, firstn_skipn. reflexivity.
      - rewrite IH by (intros X; apply Hs; right; exact X). unfold written; cbn. rewrite !app_assoc. f_equal. unfold after_flush.
        destruct (snd pb) as [|b0 t]; [reflexivity|]. cbn [fst snd].
        rewrite concat_app. cbn [concat]. rewrite app_nil_r, <- !app_assoc, firstn_skipn. reflexivity. }
    specialize (G os ([], []) Hs). cbn [fst snd concat app] in G. rewrite <- G in Hw. rewrite blen_app in Hw. unfold MAX_PLAIN. lia. }
  change (ew_buf (ewrite_new (mk_wsock items out0) key)) with (@nil byte) in HB. rewrite HB.
  apply after_flush_small; exact Hl.
Qed.

Lemma emit_ready enc ls key items out0 st : Forall small_msg ls ->
  run_ops enc (emit_all ls) (ewrite_new (mk_wsock items out0) key) = (st, WReady) ->
  ws_out (ew_sock st) = out0 ++ boxes (ciphertexts enc key 0 ls) /\ ew_buf st = [] /\ idle st /\ ew_key st = key /\ ew_en st = N.of_nat (length ls) mod U64.
Proof.
  intros Hl H. destruct (run_ops_spec enc out0 key _ [] [] _ (emit_no_shutdown ls) (new_inv enc out0 key items) (new_idle _ _) _ _ H) as (_ & _ & I & D & HB).
  change (ew_buf st = snd (plan (emit_all ls) ([], []))) in HB. change (winv enc out0 key (fst (plan (emit_all ls) ([], []))) (written (emit_all ls)) st) in I.
  rewrite (plan_emit ls Hl []) in HB, I. cbn [fst snd app] in HB, I.
  split; [|split; [exact HB|split; [exact D|split; apply I]]]. destruct D as (D1 & D2 & D3). destruct I. unfold in_flight in wi_out.
  rewrite D1, D2, app_nil_r in wi_out. exact wi_out.
Qed.

(** whatever happens to the sender, what it put on the transport is a prefix of the packages of its messages *)
Lemma emit_prefix enc ls key items out0 st r : Forall small_msg ls ->
  run_ops enc (emit_all ls) (ewrite_new (mk_wsock items out0) key) = (st, r) ->
  exists y, ws_out (ew_sock st) ++ y = out0 ++ boxes (ciphertexts enc key 0 ls).
Proof.
  intros Hl H. destruct r; try (eapply emit_ready in H; [|exact Hl]; exists []; rewrite app_nil_r; apply H);
  (destruct (run_ops_spec enc out0 key _ [] [] _ (emit_no_shutdown ls) (new_inv enc out0 key items) (new_idle _ _) _ _ H) as (R & NP & HH);
   try (destruct R as [_ []]; fail); try contradiction;
   destruct HH as (dn & later & ps' & He & [A [cut B] C] & Hp);
   change ((ps', ew_buf st) = plan dn ([], [])) in Hp;
   assert (Hd : no_shutdown dn) by (intros X; apply (emit_no_shutdown ls); rewrite He; apply in_or_app; left; exact X);
   pose proof (plan_emit ls Hl []) as P; rewrite He, plan_app, <- Hp in P by exact Hd;
   destruct (plan_grows later (ps', ew_buf st)) as [q Hq]; rewrite P in Hq; cbn [fst app] in Hq;
   exists (cut ++ boxes (ciphertexts enc key (N.of_nat (length ps')) q)); rewrite app_assoc, B, Hq, ciphertexts_app, boxes_app, app_assoc; reflexivity).
Qed.

Lemma boxes_length enc key (Hc : forall k n p, blen (enc k n p) = blen p + 16) ls : forall i,
  length (boxes (ciphertexts enc key i ls)) = (length (concat ls) + 20 * length ls)%nat.
Proof.
  induction ls as [|l ls IH]; intros i; cbn [ciphertexts]; [reflexivity|].
  change (boxes (?a :: ?b)) with (boxed a ++ boxes b). rewrite app_length, IH. unfold boxed. rewrite app_length, be_length.
  cbn [concat length]. rewrite app_length. specialize (Hc key (nonce_from_number (i mod U64)) l). unfold blen in Hc. lia.
Qed.

Lemma emit_completes enc ls key items out0 : (forall k n p, blen (enc k n p) = blen p + 16) -> Forall small_msg ls ->
  ample (S (length (concat ls) + 20 * length ls)) items ->
  exists st, run_ops enc (emit_all ls) (ewrite_new (mk_wsock items out0) key) = (st, WReady).
Proof.
  intros Hc Hl Ha. eapply run_ops_progress; [apply emit_no_shutdown|apply new_inv|apply new_idle|cbn; symmetry; apply app_nil_r|].
  change (ample (S (length (boxes (ciphertexts enc key 0 (fst (plan (emit_all ls) ([], []))))))) items). rewrite (plan_emit ls Hl []). cbn [fst app].
  rewrite (boxes_length enc key Hc). exact Ha.
Qed.

(** * Delivery *)
Lemma far_starts E : exists c, starts (from_async_read E) false 8 c.
Proof. eexists. right. eexists 8%nat, _. repeat split. Qed.

Lemma decode_run E l e rest : decode E l = Ok (e, rest) -> run_bytes E (from_async_read E) l = POut (Ok e) rest.
Proof.
  unfold decode. destruct (run_bytes E (from_async_read E) l) as [o r|]; [|discriminate].
  destruct o; cbn; intros H; [|discriminate|discriminate]. injection H as <- <-. reflexivity.
Qed.

(** The i-th package decrypts at nonce i to the encoding of an event. *)
Inductive carries (dec : bytes -> bytes -> bytes -> option bytes) (E : env) (key : bytes) : N -> list bytes -> list event -> Prop :=
| carries_nil i : carries dec E key i [] []
| carries_cons i c cs l e es : blen c < U32 -> blen c <= mem E -> dec key (nonce_from_number (i mod U64)) c = Some l ->
    decode E l = Ok (e, []) -> carries dec E key (i + 1) cs es -> carries dec E key i (c :: cs) (e :: es).

Lemma receives_good dec E key : forall i cs es, carries dec E key i cs es ->
  forall st rest en es2 r, er_rem st = [] -> er_key st = key -> er_de st = i mod U64 -> er_at E st (boxes cs ++ rest) en ->
  (forall st', er_rem st' = [] -> er_key st' = key -> er_de st' = (i + N.of_nat (length cs)) mod U64 -> er_at E st' rest en ->
     receives dec E st' es2 r) ->
  receives dec E st (es ++ es2) r.
Proof.
  induction 1 as [i|i c cs l e es H1 H2 H3 H4 H5 IH]; intros st rest en es2 r Hr Hk Hd Ha K.
  - apply K; try assumption. rewrite N.add_0_r. exact Hd.
  - cbn [app]. destruct (far_starts E) as [cc Hs].
    change (boxes (c :: cs)) with (boxed c ++ boxes cs) in Ha. rewrite <- app_assoc in Ha.
    rewrite <- Hk, <- Hd in H3.
    destruct (exec_package dec E (from_async_read E) false 8 cc Hs ltac:(lia) (S (length (er_sock st))) st _ en c (boxes cs ++ rest) l (Ok e) []
      Hr Ha ltac:(lia) (read_package_run E c _ H1 H2) H3 (decode_run _ _ _ _ H4)) as (st' & X & A & F & K' & D & R).
    eapply receives_event; [exact X|]. eapply IH; try eassumption; [congruence|rewrite D, Hd; apply next_mod|].
    intros st2 R2 K2 D2 A2. apply K; try assumption. rewrite D2. f_equal. cbn [length]. lia.
Qed.

Lemma receives_end dec E st l en : er_rem st = [] -> er_at E st l en -> run_bytes E read_package l = PMore ->
  exists r, receives dec E st [] r /\ ends_with en r.
Proof.
  intros Hr Ha Hp. destruct (far_starts E) as [cc Hs].
  pose proof (exec_nothing dec E (from_async_read E) false 8 cc Hs ltac:(lia) (S (length (er_sock st))) st l en Hr Ha ltac:(lia) Hp) as X.
  eexists. split; [|exact X]. apply receives_stop; [reflexivity|].
  intros e st' Hx. rewrite Hx in X. destruct en; cbn in X.
  - destruct X as (? & ? & ? & X); discriminate.
  - destruct X as (? & X); discriminate.
  - destruct X as (? & X); discriminate.
Qed.

Lemma receives_bad dec E st l en c rest : er_rem st = [] -> er_at E st l en -> run_bytes E read_package l = POut (Ok c) rest ->
  dec (er_key st) (nonce_from_number (er_de st)) c = None ->
  exists st', receives dec E st [] (XOut (Err (IoError InvalidData)) st').
Proof.
  intros Hr Ha Hp Hd. destruct (far_starts E) as [cc Hs].
  destruct (exec_bad dec E (from_async_read E) false 8 cc Hs ltac:(lia) (S (length (er_sock st))) st l en c rest Hr Ha ltac:(lia) Hp Hd) as (st' & X & _).
  exists st'. apply receives_stop; [exact X|]. intros e st2; discriminate.
Qed.

(** a package cut anywhere is not a package *)
Lemma boxed_cut E c cut more : boxed c = cut ++ more -> more <> [] -> blen c < U32 -> blen c <= mem E ->
  run_bytes E read_package cut = PMore.
Proof.
  intros H Hm H1 H2. destruct (run_bytes E read_package cut) as [o r|] eqn:X; [|reflexivity].
  pose proof (run_bytes_mono _ _ _ _ _ more X) as Y. rewrite <- H in Y.
  pose proof (read_package_run E c [] H1 H2) as Z. rewrite app_nil_r in Z. rewrite Z in Y. injection Y as _ Y.
  destruct r; [destruct more; [contradiction|discriminate]|discriminate].
Qed.

Lemma boxes_cut cs : forall x y, x ++ y = boxes cs -> exists m part,
  x = boxes (firstn m cs) ++ part /\ (part = [] \/ exists c more, nth_error cs m = Some c /\ boxed c = part ++ more /\ more <> []).
Proof.
  induction cs as [|c cs IH]; intros x y H.
  - apply app_eq_nil in H as [-> _]. exists O, []. auto.
  - change (boxes (c :: cs)) with (boxed c ++ boxes cs) in H.
    destruct (le_lt_dec (length (boxed c)) (length x)) as [L|L].
    + assert (x = boxed c ++ skipn (length (boxed c)) x) as Hx.
      { rewrite <- (firstn_skipn (length (boxed c)) x) at 1. f_equal.
        apply (f_equal (firstn (length (boxed c)))) in H. rewrite firstn_app in H.
        replace (length (boxed c) - length x)%nat with O in H by lia. rewrite firstn_O, app_nil_r in H. rewrite H.
        apply firstn_len. reflexivity. }
      rewrite Hx in H. rewrite <- app_assoc in H. apply app_inv_head in H. apply IH in H as (m & part & P1 & P2).
      exists (S m), part. split; [|exact P2]. rewrite Hx, P1. change (boxes (firstn (S m) (c :: cs))) with (boxed c ++ boxes (firstn m cs)).
      apply app_assoc.
    + exists O, x. split; [reflexivity|]. right. exists c, (skipn (length x) (boxed c)). split; [reflexivity|].
      assert (boxed c = x ++ skipn (length x) (boxed c)) as Hx.
      { rewrite <- (firstn_skipn (length x) (boxed c)) at 1. f_equal.
        apply (f_equal (firstn (length x))) in H. rewrite firstn_len in H by reflexivity. rewrite firstn_app in H.
        replace (length x - length (boxed c))%nat with O in H by lia. rewrite firstn_O, app_nil_r in H. exact (eq_sym H). }
      split; [exact Hx|]. intros Hz. rewrite Hz, app_nil_r in Hx. rewrite Hx in L. lia.
Qed.

Lemma sendable_small E es ls : Forall2 (sendable E) es ls -> Forall small_msg ls.
Proof.
  induction 1 as [|e l es ls (H1 & H2 & H3 & H4 & H5 & H6) _ IH]; constructor; [|exact IH].
  split; [|unfold MAX_PLAIN; lia]. intros ->.
  destruct (decode_encoded E e [] H1 H3 H2) as (l & A & B). rewrite H4 in A. injection A as <-. discriminate B.
Qed.

Lemma sendable_carries enc dec E key es ls : good_cipher enc dec -> Forall2 (sendable E) es ls ->
  forall i, carries dec E key i (ciphertexts enc key i ls) (map drop_empty_ns es).
Proof.
  intros G. induction 1 as [|e l es ls (H1 & H2 & H3 & H4 & H5 & H6) _ IH]; intros i; cbn [ciphertexts map]; [constructor|].
  destruct (G key (nonce_from_number (i mod U64)) l) as [G1 G2].
  destruct (decode_encoded E e [] H1 H3 H2) as (l' & A & B). assert (l' = l) as -> by congruence. rewrite app_nil_r in B.
  econstructor; [rewrite G2; unfold U32; lia|rewrite G2; lia|exact G1|exact B|apply IH].
Qed.

Lemma carries_firstn dec E key i cs es : carries dec E key i cs es -> forall m, carries dec E key i (firstn m cs) (firstn m es).
Proof. induction 1; intros [|m]; cbn [firstn]; try constructor; auto. econstructor; eauto. Qed.
Lemma carries_size dec E key i cs es : carries dec E key i cs es -> Forall (fun c => blen c < U32 /\ blen c <= mem E) cs.
Proof. induction 1; constructor; auto. Qed.

(** C22 on the receiving side: any cut of the packages *)
Lemma delivery_prefix dec E key cs es x y s en : carries dec E key 0 cs es -> x ++ y = boxes cs -> content s = (x, en) ->
  exists m r, receives dec E (eread_new s key) (firstn m es) r /\ ends_with en r
    /\ exists part, x = boxes (firstn m cs) ++ part /\ (part = [] \/ exists c more, nth_error cs m = Some c /\ boxed c = part ++ more /\ more <> []).
Proof.
  intros C Hx Hs. destruct (boxes_cut cs x y Hx) as (m & part & P1 & P2).
  assert (HP : run_bytes E read_package part = PMore).
  { destruct P2 as [->|(c & more & N1 & N2 & N3)]; [reflexivity|].
    pose proof (carries_size _ _ _ _ _ _ C) as F. rewrite Forall_forall in F. destruct (F c (nth_error_In _ _ N1)) as [F1 F2].
    eapply boxed_cut; eassumption. }
  (* the end of the stream is determined by the state after the packages: choose it *)
  assert (exists r, receives dec E (eread_new s key) (firstn m es ++ []) r /\ ends_with en r) as (r & R1 & R2).
  { assert (Q : forall i cs es, carries dec E key i cs es -> forall st, er_rem st = [] -> er_key st = key -> er_de st = i mod U64 ->
              er_at E st (boxes cs ++ part) en -> exists r, receives dec E st (es ++ []) r /\ ends_with en r).
    { clear -HP. induction 1 as [i|i c cs l e es H1 H2 H3 H4 H5 IH]; intros st Hr Hk Hd Ha.
      - cbn in Ha. eapply receives_end; eassumption.
      - change (boxes (c :: cs)) with (boxed c ++ boxes cs) in Ha. rewrite <- app_assoc in Ha. rewrite <- Hk, <- Hd in H3.
        destruct (far_starts E) as [cc Hs].
        destruct (exec_package dec E (from_async_read E) false 8 cc Hs ltac:(lia) (S (length (er_sock st))) st _ en c (boxes cs ++ part) l (Ok e) []
          Hr Ha ltac:(lia) (read_package_run E c _ H1 H2) H3 (decode_run _ _ _ _ H4)) as (st' & X & A & F & K' & D & R).
        destruct (IH st' R ltac:(congruence) ltac:(rewrite D, Hd; apply next_mod) A) as (r & R1 & R2).
        exists r. split; [|exact R2]. cbn [app]. eapply receives_event; eassumption. }
    eapply Q; [apply carries_firstn; exact C|reflexivity|reflexivity|reflexivity|].
    rewrite <- P1. split; cbn; rewrite Hs; reflexivity. }
  rewrite app_nil_r in R1. exists m, r. eauto.
Qed.

Lemma delivery_all enc dec E es ls key items out0 st s en x : good_cipher enc dec -> Forall2 (sendable E) es ls ->
  run_ops enc (emit_all ls) (ewrite_new (mk_wsock items out0) key) = (st, WReady) ->
  ws_out (ew_sock st) = out0 ++ x -> content s = (x, en) ->
  exists r, receives dec E (eread_new s key) (map drop_empty_ns es) r /\ ends_with en r.
Proof.
  intros G F H Hx Hs. apply emit_ready in H as (Ho & _); [|eapply sendable_small; exact F].
  rewrite Ho in Hx. apply app_inv_head in Hx.
  pose proof (sendable_carries enc dec E key es ls G F 0) as C.
  destruct (delivery_prefix dec E key _ _ x [] s en C ltac:(rewrite app_nil_r; symmetry; exact Hx) Hs) as (m & r & R & En & part & P1 & P2).
  exists r. split; [|exact En].
  assert (Hm : firstn m (map drop_empty_ns es) = map drop_empty_ns es).
  { apply firstn_all2. rewrite map_length. pose proof (F2_length _ _ _ F) as L.
    destruct (le_lt_dec (length es) m) as [Q|Q]; [exact Q|exfalso].
    assert (length (firstn m (ciphertexts enc key 0 ls)) = m) as L2 by (rewrite firstn_length, ciphertexts_length; lia).
    rewrite <- Hx in P1. rewrite <- (firstn_skipn m (ciphertexts enc key 0 ls)) in P1 at 1. rewrite boxes_app in P1.
    apply app_inv_head in P1.
    destruct (skipn m (ciphertexts enc key 0 ls)) as [|c0 t] eqn:Sk.
    { apply (f_equal (@length bytes)) in Sk. rewrite skipn_length, ciphertexts_length in Sk. cbn in Sk. lia. }
    change (boxes (c0 :: t)) with (boxed c0 ++ boxes t) in P1.
    assert (nth_error (ciphertexts enc key 0 ls) m = Some c0) as N0.
    { rewrite <- (firstn_skipn m (ciphertexts enc key 0 ls)), Sk, nth_error_app2 by lia. rewrite L2, Nat.sub_diag. reflexivity. }
    destruct P2 as [->|(c & more & N1 & N2 & N3)].
    - apply (f_equal (@length byte)) in P1. rewrite app_length in P1. unfold boxed in P1. rewrite app_length, be_length in P1. cbn in P1. lia.
    - rewrite N0 in N1. injection N1 as <-. rewrite N2 in P1. apply (f_equal (@length byte)) in P1. rewrite !app_length in P1.
      destruct more; [contradiction|]. cbn in P1. lia. }
  rewrite Hm in R. exact R.
Qed.

Lemma delivery_cut enc dec E es ls key items out0 st r0 s en x y : good_cipher enc dec -> Forall2 (sendable E) es ls ->
  run_ops enc (emit_all ls) (ewrite_new (mk_wsock items out0) key) = (st, r0) ->
  ws_out (ew_sock st) = out0 ++ x ++ y -> content s = (x, en) ->
  exists m r, receives dec E (eread_new s key) (map drop_empty_ns (firstn m es)) r /\ ends_with en r.
Proof.
  intros G F H Hx Hs. apply emit_prefix in H as (z & Hz); [|eapply sendable_small; exact F].
  rewrite Hx, <- app_assoc in Hz. apply app_inv_head in Hz.
  rewrite <- app_assoc in Hz.
  destruct (delivery_prefix dec E key _ _ x (y ++ z) s en (sendable_carries enc dec E key es ls G F 0) Hz Hs) as (m & r & R & En & _).
  exists m, r. rewrite <- firstn_map. auto.
Qed.
