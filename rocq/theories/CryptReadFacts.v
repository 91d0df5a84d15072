(** Facts about the encrypted read half. *)
From Verif Require Import Base BaseFacts Reader Codec CodecFacts DecodeFacts ReaderFacts Crypt SpecCrypt.

Lemma read_package_run E c rest : blen c < U32 -> blen c <= mem E ->
  run_bytes E read_package (boxed c ++ rest) = POut (Ok c) rest.
Proof.
  intros H1 H2. unfold read_package, boxed. cbn [run_bytes].
  rewrite <- app_assoc, blen_app, blen_be. replace (N.of_nat 4 <=? N.of_nat 4 + blen (c ++ rest)) with true by lia.
  rewrite firstn_len, skipn_len by apply be_length.
  rewrite unbe_be_small by exact H1. rewrite alloc_ok by (unfold U32, ISIZE_MAX in *; lia).
  rewrite blen_app. replace (blen c <=? blen c + blen rest) with true by lia.
  rewrite firstn_blen, skipn_blen. reflexivity.
Qed.
Lemma read_package_oom E n rest : n < U32 -> mem E < n ->
  run_bytes E read_package (be 4 n ++ rest) = POut (Crash AbortOom) rest.
Proof.
  intros H1 H2. unfold read_package. cbn [run_bytes].
  rewrite blen_app, blen_be. replace (N.of_nat 4 <=? N.of_nat 4 + blen rest) with true by lia.
  rewrite firstn_len, skipn_len by apply be_length. rewrite unbe_be_small by exact H1.
  unfold vec_alloc. replace (ISIZE_MAX <? n) with false by (unfold U32, ISIZE_MAX in *; lia).
  replace (mem E <? n) with true by lia. reflexivity.
Qed.
(** every byte string starts with a package, or is too short for one, or announces too much *)
Lemma read_package_cases E l :
  (exists c rest, l = boxed c ++ rest /\ blen c < U32 /\ blen c <= mem E /\ run_bytes E read_package l = POut (Ok c) rest)
  \/ (exists n rest, l = be 4 n ++ rest /\ n < U32 /\ mem E < n /\ run_bytes E read_package l = POut (Crash AbortOom) rest)
  \/ (run_bytes E read_package l = PMore
      /\ (blen l < 4 \/ exists n b, l = be 4 n ++ b /\ n < U32 /\ blen b < n)).
Proof.
  destruct (blen l <? 4) eqn:H4.
  { right; right. unfold read_package. cbn [run_bytes]. replace (N.of_nat 4 <=? blen l) with false by lia. split; [reflexivity|left; lia]. }
  assert (Hl : l = be 4 (unbe (firstn 4 l)) ++ skipn 4 l).
  { rewrite (be_unbe_len 4); [symmetry; apply firstn_skipn|]. rewrite firstn_length. unfold blen in H4. lia. }
  set (n := unbe (firstn 4 l)) in *. set (b := skipn 4 l) in *.
  assert (Hn : n < U32).
  { subst n. pose proof (unbe_lt (firstn 4 l)) as H. rewrite firstn_length in H. replace (Nat.min 4 (length l)) with 4%nat in H by (unfold blen in H4; lia).
    exact H. }
  destruct (mem E <? n) eqn:Hm.
  { right; left. exists n, b. repeat split; try assumption; [lia|]. rewrite Hl. apply read_package_oom; [assumption|lia]. }
  destruct (n <=? blen b) eqn:Hb.
  - left. exists (firstn (N.to_nat n) b), (skipn (N.to_nat n) b).
    assert (blen (firstn (N.to_nat n) b) = n) as Hc by (apply blen_firstn; lia).
    assert (l = boxed (firstn (N.to_nat n) b) ++ skipn (N.to_nat n) b) as Hl'.
    { unfold boxed. rewrite Hc, <- app_assoc, firstn_skipn. exact Hl. }
    repeat split; try assumption; [lia|lia|]. rewrite Hl' at 1. apply read_package_run; lia.
  - right; right. rewrite Hl. unfold read_package. cbn [run_bytes]. rewrite blen_app, blen_be.
    replace (N.of_nat 4 <=? N.of_nat 4 + blen b) with true by lia.
    rewrite firstn_len, skipn_len by apply be_length. rewrite unbe_be_small by exact Hn.
    rewrite alloc_ok by (unfold U32, ISIZE_MAX in *; lia). rewrite Hb. split; [reflexivity|].
    right. exists n, b. repeat split; [assumption|lia].
Qed.

Lemma if_keep (keep : bool) : (if keep then [] ++ [] else []) = @nil byte.
Proof. destruct keep; reflexivity. Qed.

Section R.
  Context (dec : bytes -> bytes -> bytes -> option bytes).
  Notation er_poll_read := (er_poll_read dec). Notation poll_fut_read := (poll_fut_read dec).

  (** The read half is at position [l]: the bytes it has not yet decrypted, from the beginning of the package being received. *)
  Definition er_at (E : env) (st : eread) (l : bytes) (en : tend) : Prop :=
    snd (content (er_sock st)) = en /\
    match er_fut st with
    | RNone => fst (content (er_sock st)) = l
    | RRun q g => er_rem st = [] /\ ready_got q g /\
        forall x, run_bytes E q (g ++ fst (content (er_sock st)) ++ x) = run_bytes E read_package (l ++ x)
    | RDead => False
    end.

  (** what polling for a package of the remaining stream [l] ends with *)
  Inductive fetch_case (E : env) (st : eread) (l : bytes) (en : tend) (n : N) (put : bytes) : eread * bytes * pstat -> Prop :=
  | fc_pend st1 : er_at E st1 l en -> er_key st1 = er_key st -> er_de st1 = er_de st -> er_rem st1 = [] ->
      (exists q g, er_fut st1 = RRun q g) -> (length (er_sock st1) < length (er_sock st))%nat ->
      fetch_case E st l en n put (st1, put, PPend)
  | fc_ok st1 c rest pl : run_bytes E read_package l = POut (Ok c) rest ->
      dec (er_key st) (nonce_from_number (er_de st)) c = Some pl ->
      er_at E st1 rest en -> er_key st1 = er_key st -> er_de st1 = next (er_de st) -> er_fut st1 = RNone ->
      er_rem st1 = skipn (N.to_nat (N.min (blen pl) n)) pl ->
      fetch_case E st l en n put (st1, put ++ firstn (N.to_nat (N.min (blen pl) n)) pl, if n <=? blen pl then PReady else PLost)
  | fc_bad st1 c rest : run_bytes E read_package l = POut (Ok c) rest ->
      dec (er_key st) (nonce_from_number (er_de st)) c = None ->
      er_fut st1 = RDead -> er_rem st1 = [] -> fetch_case E st l en n put (st1, put, PFail InvalidData)
  | fc_crash st1 c rest : run_bytes E read_package l = POut (Crash c) rest -> er_fut st1 = RDead -> er_rem st1 = [] ->
      fetch_case E st l en n put (st1, put, PPanic c)
  | fc_idle st1 : run_bytes E read_package l = PMore -> en = EndIdle -> er_at E st1 l en -> er_key st1 = er_key st ->
      er_de st1 = er_de st -> er_rem st1 = [] -> er_sock st1 = [] -> fetch_case E st l en n put (st1, put, PIdle)
  | fc_eof st1 : run_bytes E read_package l = PMore -> en = EndEof -> er_fut st1 = RDead -> er_rem st1 = [] ->
      fetch_case E st l en n put (st1, put, PFail UnexpectedEof)
  | fc_fail st1 k : run_bytes E read_package l = PMore -> en = EndFail k -> er_fut st1 = RDead -> er_rem st1 = [] ->
      fetch_case E st l en n put (st1, put, PFail k).

  Lemma fetch_spec E st q g l en n put : er_rem st = [] -> snd (content (er_sock st)) = en -> ready_got q g ->
    (forall x, run_bytes E q (g ++ fst (content (er_sock st)) ++ x) = run_bytes E read_package (l ++ x)) ->
    fetch_case E st l en n put (poll_fut_read E st q g n put).
  Proof.
    intros Hr He Hg Hx. unfold Crypt.poll_fut_read.
    pose proof (Hx []) as H0. rewrite !app_nil_r in H0.
    destruct (poll_sock E (S (length (er_sock st))) q g (er_sock st) ltac:(lia) Hg) as [(q' & g' & s' & HP & Hlen & Hq1 & Hq2 & Hq3 & Hq4)|H].
    - rewrite HP. apply fc_pend; cbn; try reflexivity; [|exact Hr|eauto|exact Hlen].
      split; [cbn; congruence|]. cbn. split; [exact Hr|]. split; [exact Hq4|]. intros x. rewrite Hq2. apply Hx.
    - rewrite H0 in H. destruct (read_package_cases E l) as [(c & rest & Hl & _ & _ & HR)|[(m & rest & Hl & _ & _ & HR)|[HR _]]]; rewrite HR in H.
      + destruct H as (s' & -> & Hs).
        destruct (dec (er_key st) (nonce_from_number (er_de st)) c) as [pl|] eqn:Ed.
        * rewrite Hr. cbn [app].
          apply (fc_ok E st l en n put _ c rest pl); cbn; try reflexivity; try assumption.
          split; cbn; rewrite Hs; [exact He|reflexivity].
        * apply (fc_bad E st l en n put _ c rest); cbn; assumption || reflexivity.
      + destruct H as (s' & -> & Hs). apply (fc_crash E st l en n put _ AbortOom rest); cbn; assumption || reflexivity.
      + rewrite He in H. destruct en.
        * destruct H as (q' & g' & -> & Hq1 & Hq2 & Hq3 & Hq4). apply fc_idle; try assumption; try reflexivity.
          split; [reflexivity|]. cbn [er_fut er_rem er_sock]. split; [exact Hr|]. split; [exact Hq4|]. intros x. rewrite <- Hx. exact (Hq2 x).
        * destruct H as (s' & ->). apply fc_eof; cbn; assumption || reflexivity.
        * destruct H as (s' & ->). apply fc_fail; cbn; assumption || reflexivity.
  Qed.

  (** One poll of the read half. *)
  Lemma er_poll_spec0 E st l en n : er_at E st l en ->
    (n <= blen (er_rem st) /\ er_poll_read E st n
        = (mk_eread (er_sock st) (er_key st) (er_de st) (skipn (N.to_nat n) (er_rem st)) RNone, firstn (N.to_nat n) (er_rem st), PReady)
        /\ er_fut st = RNone)
    \/ (blen (er_rem st) <= n /\ (0 < n -> blen (er_rem st) < n) /\ fetch_case E st l en (n - blen (er_rem st)) (er_rem st) (er_poll_read E st n)).
  Proof.
    intros [He Ha]. unfold Crypt.er_poll_read. destruct (er_fut st) as [|q g|] eqn:Ef; [| |contradiction].
    - destruct (n <=? blen (er_rem st)) eqn:En.
      + left. split; [lia|]. split; [|reflexivity]. replace (N.min n (blen (er_rem st))) with n by lia.
        rewrite blen_firstn by lia. replace (0 <? n - n) with false by lia. reflexivity.
      + right. split; [lia|]. split; [lia|]. replace (N.min n (blen (er_rem st))) with (blen (er_rem st)) by lia.
        replace (firstn (N.to_nat (blen (er_rem st))) (er_rem st)) with (er_rem st)
          by (unfold blen; rewrite Nat2N.id, firstn_all; reflexivity).
        replace (skipn (N.to_nat (blen (er_rem st))) (er_rem st)) with (@nil byte)
          by (unfold blen; rewrite Nat2N.id, skipn_all; reflexivity).
        replace (0 <? n - blen (er_rem st)) with true by lia.
        pose proof (fetch_spec E (mk_eread (er_sock st) (er_key st) (er_de st) [] RNone) read_package [] l en (n - blen (er_rem st)) (er_rem st)
          eq_refl He) as F. cbn [er_sock] in F. specialize (F ltac:(cbn; lia)).
        specialize (F ltac:(intros x; cbn [app]; rewrite Ha; reflexivity)).
        inversion F; [eapply fc_pend|eapply fc_ok|eapply fc_bad|eapply fc_crash|eapply fc_idle|eapply fc_eof|eapply fc_fail]; eassumption.
    - destruct Ha as (Hr & Hg & Hx). right. rewrite Hr. rewrite blen_nil, N.sub_0_r. split; [lia|]. split; [lia|].
      apply fetch_spec; assumption.
  Qed.
  Lemma er_poll_spec E st l en n : 0 < n -> er_at E st l en ->
    (n <= blen (er_rem st) /\ er_poll_read E st n
        = (mk_eread (er_sock st) (er_key st) (er_de st) (skipn (N.to_nat n) (er_rem st)) RNone, firstn (N.to_nat n) (er_rem st), PReady)
        /\ er_fut st = RNone)
    \/ (blen (er_rem st) < n /\ fetch_case E st l en (n - blen (er_rem st)) (er_rem st) (er_poll_read E st n)).
  Proof.
    intros Hn Ha. destruct (er_poll_spec0 E st l en n Ha) as [H|(_ & H & F)]; [left; exact H|right; auto].
  Qed.


  (** ** Reads inside one package *)
  Definition with_rem (st : eread) (r : bytes) : eread := mk_eread (er_sock st) (er_key st) (er_de st) r RNone.

  Lemma loop_inside E keep fuel n st : er_fut st = RNone -> n <= blen (er_rem st) ->
    loop (er_poll_read E) keep (S fuel) n [] st
    = LGot (firstn (N.to_nat n) (er_rem st)) (with_rem st (skipn (N.to_nat n) (er_rem st))).
  Proof.
    intros Hf Hn. cbn [loop]. rewrite blen_nil. destruct (n <=? 0) eqn:E0.
    - replace n with 0 by lia. cbn. unfold with_rem. rewrite <- Hf. destruct st; reflexivity.
    - assert (Ha : er_at E st (fst (content (er_sock st))) (snd (content (er_sock st)))) by (split; [|rewrite Hf]; reflexivity).
      destruct (er_poll_spec E st _ _ (n - 0) ltac:(lia) Ha) as [(_ & -> & _)|[H _]]; [|lia].
      rewrite N.sub_0_r.
      assert (Hb : blen (firstn (N.to_nat n) (er_rem st)) = n) by (apply blen_firstn; lia).
      destruct (firstn (N.to_nat n) (er_rem st)) as [|b0 t] eqn:Eb; [rewrite blen_nil in Hb; lia|].
      rewrite <- Eb in *. unfold with_rem. cbn [app].
      assert (n <=? blen (firstn (N.to_nat n) (er_rem st)) = true) as Hle by lia.
      destruct fuel; cbn [loop]; rewrite Hle; reflexivity.
  Qed.

  Lemma poll_inside {A} E fuel (p : rd A) : forall st o r, er_fut st = RNone -> run_bytes E p (er_rem st) = POut o r ->
    poll_fut (er_poll_read E) E (S fuel) p [] st = FOut o (with_rem st r).
  Proof.
    induction p as [o'|n p IH|k c IH|n c IH]; intros st o r Hf; cbn [run_bytes poll_fut].
    - intros H; injection H as <- <-. unfold with_rem. rewrite <- Hf. destruct st; reflexivity.
    - destruct (vec_alloc E n); [apply IH, Hf| |]; intros H; injection H as <- <-; unfold with_rem; rewrite <- Hf; destruct st; reflexivity.
    - destruct (N.of_nat k <=? blen (er_rem st)) eqn:Hk; [|discriminate]. intros H.
      rewrite loop_inside by (assumption || lia). rewrite Nat2N.id. rewrite (IH _ _ o r); [reflexivity|reflexivity|exact H].
    - destruct (n <=? blen (er_rem st)) eqn:Hk; [|discriminate]. intros H.
      rewrite loop_inside by (assumption || lia). rewrite (IH _ _ o r); [reflexivity|reflexivity|exact H].
  Qed.

  (** ** The first read of a program, when the buffer is empty: it fetches the next package. *)
  Definition starts {A} (p : rd A) (keep : bool) (n : N) (c : bytes -> rd A) : Prop :=
    (p = RExact n c /\ keep = true) \/ (exists k c', p = RInt k c' /\ n = N.of_nat k /\ keep = false /\ c = fun b => c' (unbe b)).
  Lemma starts_poll {A} E fuel (p : rd A) keep n c got (st : eread) : starts p keep n c ->
    poll_fut (er_poll_read E) E fuel p got st
    = match loop (er_poll_read E) keep fuel n got st with
      | LGot bs s' => poll_fut (er_poll_read E) E fuel (c bs) [] s'
      | LOut o s' => FOut (outF o) s'
      | LPend g s' => FPend p g s'
      | LIdle g s' => FIdle p g s'
      | LLost g s' => FLost p g s'
      | LFuel => FFuel
      end.
  Proof. intros [[-> ->]|(k & c' & -> & -> & -> & ->)]; reflexivity. Qed.
  Lemma starts_run {A} E (p : rd A) keep n c l : starts p keep n c ->
    run_bytes E p l = if n <=? blen l then run_bytes E (c (firstn (N.to_nat n) l)) (skipn (N.to_nat n) l) else PMore.
  Proof. intros [[-> ->]|(k & c' & -> & -> & -> & ->)]; cbn [run_bytes]; rewrite ?Nat2N.id; reflexivity. Qed.

  (** reading [p] from the beginning of a package whose plaintext holds all [p] wants *)
  Lemma exec_package {A} E (p : rd A) keep n c : starts p keep n c -> 0 < n ->
    forall fuel st l en ct rest pl o r, er_rem st = [] -> er_at E st l en -> (length (er_sock st) < fuel)%nat ->
    run_bytes E read_package l = POut (Ok ct) rest ->
    dec (er_key st) (nonce_from_number (er_de st)) ct = Some pl -> run_bytes E p pl = POut o r ->
    exists st', exec (er_poll_read E) E fuel p [] st = XOut o st'
      /\ er_at E st' rest en /\ er_fut st' = RNone /\ er_key st' = er_key st /\ er_de st' = next (er_de st) /\ er_rem st' = r.
  Proof.
    intros Hs Hn. induction fuel as [|fuel IH]; intros st l en ct rest pl o r Hr Ha Hf Hl Hd Hp; [lia|]. cbn [exec].
    rewrite (starts_poll E (S fuel) p keep n c [] st Hs). cbn [loop]. rewrite blen_nil. replace (n <=? 0) with false by lia.
    rewrite N.sub_0_r. destruct (er_poll_spec E st l en n Hn Ha) as [[H _]|[_ F]]; [rewrite Hr, blen_nil in H; lia|].
    rewrite Hr, blen_nil, N.sub_0_r in F.
    pose proof Hp as Hp0. rewrite (starts_run E p keep n c pl Hs) in Hp. destruct (n <=? blen pl) eqn:Hnp; [|discriminate].
    inversion F as [st1 A1 K1 D1 R1 F1 L1 HE | st1 c' rest' pl' Q1 Q2 A1 K1 D1 F1 R1 HE|st1 c' rest' Q1 Q2 _ _ HE|st1 c' rest' Q1 _ _ HE
                   | st1 Q1 _ _ _ _ _ _ HE|st1 Q1 _ _ _ HE|st1 k Q1 _ _ _ HE]; subst; try congruence.
    - clear HE. cbv iota; rewrite if_keep.
      rewrite <- K1, <- D1. eapply IH; try eassumption; try lia. congruence.
    - rewrite Hl in Q1. injection Q1 as <- <-. rewrite Hd in Q2. injection Q2 as <-. rewrite Hnp.
      replace (N.min (blen pl) n) with n in * by lia. cbn [app].
      assert (Hb : blen (firstn (N.to_nat n) pl) = n) by (apply blen_firstn; lia).
      destruct (firstn (N.to_nat n) pl) as [|b0 t] eqn:Eb; [rewrite blen_nil in Hb; lia|].
      assert (n <=? blen (b0 :: t) = true) as Hle by lia.
      assert (loop (er_poll_read E) keep fuel n (b0 :: t) st1 = LGot (b0 :: t) st1) as -> by (destruct fuel; cbn [loop]; rewrite Hle; reflexivity).
      rewrite <- R1 in Hp. rewrite (poll_inside E fuel _ _ _ _ F1 Hp).
      eexists. split; [reflexivity|]. unfold with_rem. split; [|cbn; auto].
      destruct A1 as [A1 A2]. rewrite F1 in A2. split; cbn; assumption.
  Qed.

  (** reading when the remaining stream holds no (acceptable) complete package *)
  Lemma exec_nothing {A} E (p : rd A) keep n c : starts p keep n c -> 0 < n ->
    forall fuel st l en, er_rem st = [] -> er_at E st l en -> (length (er_sock st) < fuel)%nat ->
    run_bytes E read_package l = PMore -> ends_with en (exec (er_poll_read E) E fuel p [] st).
  Proof.
    intros Hs Hn. induction fuel as [|fuel IH]; intros st l en Hr Ha Hf Hl; [lia|]. cbn [exec].
    rewrite (starts_poll E (S fuel) p keep n c [] st Hs). cbn [loop]. rewrite blen_nil. replace (n <=? 0) with false by lia.
    rewrite N.sub_0_r. destruct (er_poll_spec E st l en n Hn Ha) as [[H _]|[_ F]]; [rewrite Hr, blen_nil in H; lia|].
    rewrite Hr, blen_nil, N.sub_0_r in F.
    inversion F as [st1 A1 K1 D1 R1 F1 L1 HE | st1 c' rest' pl' Q1 Q2 A1 K1 D1 F1 R1 HE|st1 c' rest' Q1 Q2 _ _ HE|st1 c' rest' Q1 _ _ HE
                   | st1 Q1 Q2 _ _ _ _ _ HE|st1 Q1 Q2 _ _ HE|st1 k Q1 Q2 _ _ HE]; try congruence; clear HE.
    - cbv iota; rewrite if_keep.
      eapply IH; try eassumption; lia.
    - subst en. cbn. eauto.
    - subst en. cbn. eauto.
    - subst en. cbn. eauto.
  Qed.

  Lemma exec_bad {A} E (p : rd A) keep n c : starts p keep n c -> 0 < n ->
    forall fuel st l en ct rest, er_rem st = [] -> er_at E st l en -> (length (er_sock st) < fuel)%nat ->
    run_bytes E read_package l = POut (Ok ct) rest ->
    dec (er_key st) (nonce_from_number (er_de st)) ct = None ->
    exists st', exec (er_poll_read E) E fuel p [] st = XOut (Err (IoError InvalidData)) st' /\ er_fut st' = RDead.
  Proof.
    intros Hs Hn. induction fuel as [|fuel IH]; intros st l en ct rest Hr Ha Hf Hl Hd; [lia|]. cbn [exec].
    rewrite (starts_poll E (S fuel) p keep n c [] st Hs). cbn [loop]. rewrite blen_nil. replace (n <=? 0) with false by lia.
    rewrite N.sub_0_r. destruct (er_poll_spec E st l en n Hn Ha) as [[H _]|[_ F]]; [rewrite Hr, blen_nil in H; lia|].
    rewrite Hr, blen_nil, N.sub_0_r in F.
    inversion F as [st1 A1 K1 D1 R1 F1 L1 HE | st1 c' rest' pl' Q1 Q2 A1 K1 D1 F1 R1 HE|st1 c' rest' Q1 Q2 F1 _ HE|st1 c' rest' Q1 _ _ HE
                   | st1 Q1 Q2 _ _ _ _ _ HE|st1 Q1 Q2 _ _ HE|st1 k Q1 Q2 _ _ HE]; try congruence; clear HE.
    - cbv iota; rewrite if_keep.
      eapply IH; try eassumption; try lia. congruence.
    - cbn. eauto.
  Qed.

  Lemma exec_oom {A} E (p : rd A) keep n c : starts p keep n c -> 0 < n ->
    forall fuel st l en cr rest, er_rem st = [] -> er_at E st l en -> (length (er_sock st) < fuel)%nat ->
    run_bytes E read_package l = POut (Crash cr) rest ->
    exists st', exec (er_poll_read E) E fuel p [] st = XOut (Crash cr) st' /\ er_fut st' = RDead.
  Proof.
    intros Hs Hn. induction fuel as [|fuel IH]; intros st l en cr rest Hr Ha Hf Hl; [lia|]. cbn [exec].
    rewrite (starts_poll E (S fuel) p keep n c [] st Hs). cbn [loop]. rewrite blen_nil. replace (n <=? 0) with false by lia.
    rewrite N.sub_0_r. destruct (er_poll_spec E st l en n Hn Ha) as [[H _]|[_ F]]; [rewrite Hr, blen_nil in H; lia|].
    rewrite Hr, blen_nil, N.sub_0_r in F.
    inversion F as [st1 A1 K1 D1 R1 F1 L1 HE | st1 c' rest' pl' Q1 Q2 A1 K1 D1 F1 R1 HE|st1 c' rest' Q1 Q2 F1 _ HE|st1 c' rest' Q1 F1 _ HE
                   | st1 Q1 Q2 _ _ _ _ _ HE|st1 Q1 Q2 _ _ HE|st1 k Q1 Q2 _ _ HE]; try congruence; clear HE.
    - cbv iota; rewrite if_keep.
      eapply IH; try eassumption; try lia.
    - assert (c' = cr) as -> by congruence. cbn. eauto.
  Qed.
End R.
