(** Proofs about tampering, reflection, cancellation and reads across packages. *)
From Verif Require Import Base BaseFacts Reader Codec Spec CodecFacts DecodeFacts ReaderFacts Crypt SpecCrypt CryptWriteFacts CryptReadFacts CryptFacts.

Lemma incomplete_more E l : incomplete E l -> run_bytes E read_package l = PMore.
Proof.
  intros [H|(n & b & -> & H1 & H2 & H3)].
  - unfold read_package. cbn [run_bytes]. replace (N.of_nat 4 <=? blen l) with false by lia. reflexivity.
  - unfold read_package. cbn [run_bytes]. rewrite blen_app, blen_be. replace (N.of_nat 4 <=? N.of_nat 4 + blen b) with true by lia.
    rewrite firstn_len, skipn_len by apply be_length. rewrite unbe_be_small by exact H1.
    rewrite alloc_ok by (unfold ISIZE_MAX in *; lia). replace (n <=? blen b) with false by lia. reflexivity.
Qed.

Lemma every_stream E : forall l, exists cs tail, l = boxes cs ++ tail /\ Forall (receivable E) cs
  /\ (incomplete E tail \/ exists n b, tail = be 4 n ++ b /\ n < 2 ^ 32 /\ mem E < n).
Proof.
  intros l. remember (length l) as k eqn:Hk. assert (Hle : (length l <= k)%nat) by lia. clear Hk. revert l Hle.
  induction k as [|k IH]; intros l Hle.
  - exists [], []. destruct l; [|cbn in Hle; lia]. repeat split; [constructor|left; left; reflexivity].
  - destruct (read_package_cases E l) as [(c & rest & -> & H1 & H2 & _)|[(n & rest & -> & H1 & H2 & _)|[_ H]]].
    + destruct (IH rest) as (cs & tail & -> & F & T).
      { unfold boxed in Hle. rewrite !app_length, be_length in Hle. lia. }
      exists (c :: cs), tail. split; [change (boxes (c :: cs)) with (boxed c ++ boxes cs); rewrite app_assoc; reflexivity|].
      split; [constructor; [split; assumption|exact F]|exact T].
    + exists [], (be 4 n ++ rest). repeat split; [constructor|]. right. eauto.
    + destruct H as [H|(n & b & -> & H1 & H2)].
      * exists [], l. repeat split; [constructor|]. left. left. exact H.
      * exists [], (be 4 n ++ b). repeat split; [constructor|]. destruct (mem E <? n) eqn:Hm; [right; exists n, b; repeat split; [exact H1|lia]|].
        left. right. exists n, b. repeat split; [exact H1|lia|exact H2].
Qed.

Lemma boxes_run E c cs rest : receivable E c -> run_bytes E read_package (boxes (c :: cs) ++ rest) = POut (Ok c) (boxes cs ++ rest).
Proof.
  intros [H1 H2]. change (boxes (c :: cs)) with (boxed c ++ boxes cs). rewrite <- app_assoc. apply read_package_run; assumption.
Qed.

(** the plaintexts of the packages accepted before the first refused one *)
Fixpoint opened (dec : bytes -> bytes -> bytes -> option bytes) (key : bytes) (i : N) (cs : list bytes) : list bytes :=
  match cs with
  | [] => []
  | c :: cs' => match dec key (nonce_from_number (i mod U64)) c with Some p => p :: opened dec key (i + 1) cs' | None => [] end
  end.

Lemma dead_polls dec E : forall ns st, er_fut st = RDead -> fst (polls dec E st ns) = [] /\ snd (polls dec E st ns) = map (fun _ => PPanic PanicResumed) ns.
Proof.
  induction ns as [|n ns IH]; intros st H; cbn [polls]; [auto|].
  unfold er_poll_read. rewrite H. destruct (IH st H) as [A B]. destruct (polls dec E st ns). cbn in *. subst. auto.
Qed.

Lemma polls_prefix dec E en tail key : run_bytes E read_package tail = PMore \/ (exists cr r, run_bytes E read_package tail = POut (Crash cr) r) ->
  forall ns st i cs, Forall (receivable E) cs ->
  er_key st = key -> er_de st = i mod U64 -> er_at E st (boxes cs ++ tail) en ->
  exists more, fst (polls dec E st ns) ++ more = er_rem st ++ concat (opened dec key i cs).
Proof.
  intros Ht. induction ns as [|n ns IH]; intros st i cs F Hk Hd Ha; cbn [polls]; [eexists; reflexivity|].
  destruct (er_poll_spec0 dec E st _ en n Ha) as [(Hn & -> & Hf)|(Hn & _ & C)].
  - set (st' := mk_eread _ _ _ _ _) in *.
    destruct (IH st' i cs F Hk Hd) as [more Hm].
    { destruct Ha as [A1 A2]. rewrite Hf in A2. split; assumption. }
    destruct (polls dec E st' ns) as [bs rs]. cbn [fst] in *. exists more. rewrite <- app_assoc, Hm.
    cbn [er_rem st']. rewrite app_assoc, firstn_skipn. reflexivity.
  - inversion C as [st1 A1 K1 D1 R1 F1 L1 HE | st1 c' rest' pl Q1 Q2 A1 K1 D1 F1 R1 HE|st1 c' rest' Q1 Q2 F1 _ HE|st1 c' rest' Q1 F1 _ HE
                   | st1 Q1 Q2 A1 K1 D1 R1 _ HE|st1 Q1 Q2 F1 _ HE|st1 k Q1 Q2 F1 _ HE]; clear HE.
    + destruct (IH st1 i cs F ltac:(congruence) ltac:(congruence) A1) as [more Hm].
      destruct (polls dec E st1 ns) as [bs rs]. cbn [fst] in *. exists more. rewrite R1 in Hm. rewrite <- app_assoc, Hm. reflexivity.
    + destruct cs as [|c cs].
      { change (boxes [] ++ tail) with tail in Q1. destruct Ht as [Ht|(? & ? & Ht)]; rewrite Ht in Q1; discriminate. }
      inversion F as [|? ? F0 F']; subst. rewrite boxes_run in Q1 by assumption. injection Q1 as <- <-. cbn [opened].
      rewrite <- Hd, Q2. destruct (IH st1 (i + 1) cs F' K1 ltac:(rewrite D1, Hd; apply next_mod) A1) as [more Hm].
      destruct (polls dec E st1 ns) as [bs rs]. cbn [fst] in *. exists more. rewrite <- !app_assoc, Hm, R1. cbn [concat].
      f_equal. rewrite !app_assoc. f_equal. apply firstn_skipn.
    + destruct (dead_polls dec E ns st1 F1) as [H _]. destruct (polls dec E st1 ns) as [bs rs]. cbn in *. subst bs.
      exists (concat (opened dec key i cs)). rewrite app_nil_r. reflexivity.
    + destruct (dead_polls dec E ns st1 F1) as [H _]. destruct (polls dec E st1 ns) as [bs rs]. cbn in *. subst bs.
      exists (concat (opened dec key i cs)). rewrite app_nil_r. reflexivity.
    + destruct (IH st1 i cs F ltac:(congruence) ltac:(congruence) A1) as [more Hm].
      destruct (polls dec E st1 ns) as [bs rs]. cbn [fst] in *. exists more. rewrite R1 in Hm. rewrite <- app_assoc, Hm. reflexivity.
    + destruct (dead_polls dec E ns st1 F1) as [H _]. destruct (polls dec E st1 ns) as [bs rs]. cbn in *. subst bs.
      exists (concat (opened dec key i cs)). rewrite app_nil_r. reflexivity.
    + destruct (dead_polls dec E ns st1 F1) as [H _]. destruct (polls dec E st1 ns) as [bs rs]. cbn in *. subst bs.
      exists (concat (opened dec key i cs)). rewrite app_nil_r. reflexivity.
Qed.

(** the intact prefix *)
Lemma bytes_dec_eq (a b : bytes) : {a = b} + {a <> b}.
Proof. destruct (bytes_eqb a b) eqn:H; [left; apply bytes_eqb_spec; exact H|right; intros ->; rewrite bytes_eqb_refl in H; discriminate]. Qed.

Lemma intact_exists : forall cs sent, exists m, intact m sent cs.
Proof.
  induction cs as [|c cs IH]; intros [|s sent]; try (exists O; repeat split; cbn; intros; try lia; discriminate).
  destruct (bytes_dec_eq c s) as [->|Hn].
  - destruct (IH sent) as (m & H1 & H2 & H3 & H4). exists (S m). repeat split; cbn; [rewrite H1; reflexivity|lia|lia|exact H4].
  - exists O. repeat split; cbn; intros; try lia. injection H as <-. congruence.
Qed.

Lemma opened_intact enc dec key (G : good_cipher enc dec) : forall ls cs i m,
  i + N.of_nat (length cs) <= U64 ->
  (forall j c, nth_error cs j = Some c -> nth_error (ciphertexts enc key i ls) j <> Some c -> dec key (nonce_from_number (i + N.of_nat j)) c = None) ->
  intact m (ciphertexts enc key i ls) cs -> opened dec key i cs = firstn m ls.
Proof.
  induction ls as [|l ls IH]; intros cs i m Hi Hu (H1 & H2 & H3 & H4).
  - rewrite firstn_nil. cbn in H2. destruct cs as [|c cs]; [reflexivity|]. cbn [opened].
    cbn [length] in Hi. rewrite N.mod_small by lia. pose proof (Hu O c eq_refl ltac:(discriminate)) as X. change (N.of_nat 0) with 0 in X. rewrite N.add_0_r in X. rewrite X. reflexivity.
  - destruct cs as [|c cs]. { destruct m; [reflexivity|cbn in H3; lia]. }
    cbn [length] in Hi. cbn [opened]. destruct m as [|m].
    + rewrite N.mod_small by lia. pose proof (Hu O c eq_refl (H4 c eq_refl)) as X. change (N.of_nat 0) with 0 in X. rewrite N.add_0_r in X. rewrite X. reflexivity.
    + cbn [ciphertexts firstn] in H1. injection H1 as -> H1. rewrite (proj1 (G key _ l)). cbn [firstn]. f_equal.
      apply IH; [lia| |].
      * intros j c' Hc Hn. specialize (Hu (S j) c' Hc Hn). replace (i + 1 + N.of_nat j) with (i + N.of_nat (S j)) by lia. exact Hu.
      * cbn in H2, H3. repeat split; [exact H1|lia|lia|exact H4].
Qed.

Lemma tampered_bytes enc dec E key ls cs tail s en ns : good_cipher enc dec ->
  unforged dec key (ciphertexts enc key 0 ls) cs -> N.of_nat (length cs) <= U64 -> Forall (receivable E) cs -> incomplete E tail ->
  content s = (boxes cs ++ tail, en) ->
  exists m more, intact m (ciphertexts enc key 0 ls) cs /\ fst (polls dec E (eread_new s key) ns) ++ more = concat (firstn m ls).
Proof.
  intros G Hu Hl F Ht Hs. destruct (intact_exists cs (ciphertexts enc key 0 ls)) as [m Hm].
  destruct (polls_prefix dec E en tail key (or_introl (incomplete_more _ _ Ht)) ns (eread_new s key) 0 cs F eq_refl eq_refl) as [more H].
  { split; cbn; rewrite Hs; reflexivity. }
  exists m, more. split; [exact Hm|]. rewrite H. cbn [eread_new er_rem app]. f_equal.
  eapply opened_intact; [exact G|exact Hl|exact Hu|exact Hm].
Qed.

(** at the level of events *)
Lemma tampered_from enc dec E key en tail (G : good_cipher enc dec) (Ht : incomplete E tail) :
  forall es ls, Forall2 (sendable E) es ls -> forall cs i m st, i + N.of_nat (length cs) <= U64 -> Forall (receivable E) cs ->
  (forall j c, nth_error cs j = Some c -> nth_error (ciphertexts enc key i ls) j <> Some c -> dec key (nonce_from_number (i + N.of_nat j)) c = None) ->
  intact m (ciphertexts enc key i ls) cs ->
  er_rem st = [] -> er_key st = key -> er_de st = i mod U64 -> er_at E st (boxes cs ++ tail) en ->
  exists r, receives dec E st (map drop_empty_ns (firstn m es)) r
    /\ (m = length cs -> ends_with en r) /\ (m <> length cs -> exists st', r = XOut (Err (IoError InvalidData)) st').
Proof.
  induction 1 as [|e l es ls Hse Hrest IH]; intros cs i m st Hi F Hu (H1 & H2 & H3 & H4) Hr Hk Hd Ha.
  - cbn in H2. assert (m = O) as -> by lia. cbn [firstn map]. destruct cs as [|c cs].
    + destruct (receives_end dec E st _ en Hr Ha (incomplete_more _ _ Ht)) as (r & A & B). exists r. repeat split; auto. intros X; contradiction X; reflexivity.
    + inversion F as [|? ? F0 F']; subst. cbn [length] in Hi.
      destruct (receives_bad dec E st _ en c _ Hr Ha (boxes_run E c cs tail F0)) as (st' & R).
      { rewrite Hd, N.mod_small by lia. pose proof (Hu O c eq_refl ltac:(discriminate)) as X. change (N.of_nat 0) with 0 in X. rewrite N.add_0_r in X. exact X. }
      eexists. split; [exact R|]. split; [cbn; lia|eauto].
  - destruct m as [|m].
    + cbn [firstn map]. destruct cs as [|c cs].
      * destruct (receives_end dec E st _ en Hr Ha (incomplete_more _ _ Ht)) as (r & A & B). exists r. repeat split; auto. intros X; contradiction X; reflexivity.
      * inversion F as [|? ? F0 F']; subst. cbn [length] in Hi.
        destruct (receives_bad dec E st _ en c _ Hr Ha (boxes_run E c cs tail F0)) as (st' & R).
        { rewrite Hd, N.mod_small by lia. pose proof (Hu O c eq_refl (H4 c eq_refl)) as X. change (N.of_nat 0) with 0 in X. rewrite N.add_0_r in X. exact X. }
        eexists. split; [exact R|]. split; [cbn; lia|eauto].
    + destruct cs as [|c cs]; [cbn in H3; lia|]. inversion F as [|? ? F0 F']; subst. cbn [length ciphertexts firstn map] in *.
      injection H1 as -> H1. destruct Hse as (S1 & S2 & S3 & S4 & S5 & S6).
      destruct (decode_encoded E e [] S1 S3 S2) as (l' & A & B). assert (l' = l) as -> by congruence. rewrite app_nil_r in B.
      destruct (far_starts E) as [cc Hs].
      destruct (exec_package dec E (from_async_read E) false 8 cc Hs ltac:(lia) (S (length (er_sock st))) st _ en _ _ l (Ok (drop_empty_ns e)) []
        Hr Ha ltac:(lia) (boxes_run E _ cs tail F0)) as (st' & X & A' & F1 & K' & D & R).
      { rewrite Hd. apply G. }
      { apply decode_run, B. }
      destruct (IH cs (i + 1) m st' ltac:(lia) F') as (r & R1 & R2 & R3); try assumption; [| |rewrite D, Hd; apply next_mod|].
      * intros j c' Hc Hn. specialize (Hu (S j) c' Hc Hn). replace (i + 1 + N.of_nat j) with (i + N.of_nat (S j)) by lia. exact Hu.
      * repeat split; [exact H1|lia|lia|exact H4].
      * exists r. split; [eapply receives_event; eassumption|]. split; intros Hm; [apply R2|apply R3]; lia.
Qed.

Lemma tampered_events enc dec E key es ls cs tail s en : good_cipher enc dec -> Forall2 (sendable E) es ls ->
  unforged dec key (ciphertexts enc key 0 ls) cs -> N.of_nat (length cs) <= U64 -> Forall (receivable E) cs -> incomplete E tail ->
  content s = (boxes cs ++ tail, en) ->
  exists m r, intact m (ciphertexts enc key 0 ls) cs /\ receives dec E (eread_new s key) (map drop_empty_ns (firstn m es)) r
    /\ (m = length cs -> ends_with en r) /\ (m <> length cs -> exists st', r = XOut (Err (IoError InvalidData)) st').
Proof.
  intros G Hf Hu Hl F Ht Hs. destruct (intact_exists cs (ciphertexts enc key 0 ls)) as [m Hm].
  destruct (tampered_from enc dec E key en tail G Ht es ls Hf cs 0 m (eread_new s key) Hl F Hu Hm eq_refl eq_refl eq_refl) as (r & R).
  { split; cbn; rewrite Hs; reflexivity. }
  exists m, r. split; [exact Hm|exact R].
Qed.

(** * A failed read half *)
Lemma failed_poll dec E st n st' b k : er_poll_read dec E st n = (st', b, PFail k) -> er_fut st' = RDead.
Proof.
  assert (Q : forall st p g n put st' b k, poll_fut_read dec E st p g n put = (st', b, PFail k) -> er_fut st' = RDead).
  { clear. intros st p g n put st' b k. unfold poll_fut_read. destruct (poll_fut _ _ _ _ _ _) as [o s'|p' g' s'|p' g' s'|p' g' s'|].
    - destruct o as [c|e|c].
      + destruct (dec _ _ c) as [pl|].
        * intros H. injection H as _ _ H. destruct (n <=? _); discriminate.
        * intros H; injection H as <- _ _. reflexivity.
      + intros H; injection H as <- _ _. reflexivity.
      + discriminate.
    - discriminate. - discriminate. - discriminate. - discriminate. }
  unfold er_poll_read. destruct (er_fut st) eqn:Ef; [|apply Q|discriminate].
  match goal with |- context [if ?b then _ else _] => destruct b end; [apply Q|discriminate].
Qed.
Lemma after_failure dec E st n st' b k : er_poll_read dec E st n = (st', b, PFail k) ->
  forall ns, polls dec E st' ns = ([], map (fun _ => PPanic PanicResumed) ns).
Proof.
  intros H ns. destruct (dead_polls dec E ns st' (failed_poll _ _ _ _ _ _ _ H)) as [A B].
  rewrite (surjective_pairing (polls dec E st' ns)), A, B. reflexivity.
Qed.

(** * Package length *)
Lemma package_exact E c rest s en fuel : (length s < fuel)%nat -> receivable E c -> content s = (package c ++ rest, en) ->
  exists s', exec sock_read E fuel read_package [] s = XOut (Ok c) s' /\ content s' = (rest, en).
Proof.
  intros Hf [H1 H2] Hs. pose proof (exec_sock E fuel read_package [] s Hf ltac:(cbn; lia)) as X.
  rewrite Hs in X. cbn [fst snd app] in X. change (package c) with (boxed c) in X. rewrite read_package_run in X by assumption. exact X.
Qed.
Lemma package_wrong_length enc E key n p rest : (forall k n p, blen (enc k n p) = blen p + 16) ->
  2 ^ 32 - 16 <= blen p -> blen p < 2 ^ 32 -> 16 <= mem E ->
  exists c, sealed enc key n p = package c /\ blen c = blen p + 16 /\
  run_bytes E read_package (sealed enc key n p ++ rest)
  = POut (Ok (firstn (N.to_nat (blen c - 2 ^ 32)) c)) (skipn (N.to_nat (blen c - 2 ^ 32)) c ++ rest).
Proof.
  intros Hc H1 H2 Hm. unfold sealed. set (c := enc key (nonce_from_number n) p). assert (Hl : blen c = blen p + 16) by apply Hc.
  exists c. split; [reflexivity|]. split; [exact Hl|]. unfold package, read_package. cbn [run_bytes].
  rewrite <- app_assoc, blen_app, blen_be. replace (N.of_nat 4 <=? N.of_nat 4 + blen (c ++ rest)) with true by lia.
  rewrite firstn_len, skipn_len by apply be_length. rewrite unbe_be.
  change (256 ^ N.of_nat 4) with (2 ^ 32).
  assert (blen c mod 2 ^ 32 = blen c - 2 ^ 32) as ->.
  { rewrite Hl. replace (blen p + 16) with ((blen p + 16 - 2 ^ 32) + 1 * 2 ^ 32) by lia. rewrite N.mod_add by discriminate. rewrite N.mod_small by lia. lia. }
  rewrite alloc_ok by (unfold ISIZE_MAX in *; lia). rewrite blen_app. replace (blen c - 2 ^ 32 <=? blen c + blen rest) with true by lia.
  rewrite firstn_app, skipn_app. replace (N.to_nat (blen c - 2 ^ 32) - length c)%nat with O by (unfold blen; lia).
  rewrite firstn_O, app_nil_r, skipn_O. reflexivity.
Qed.

(** * Reads across packages *)
Lemma exec_inside {A} dec E fuel (p : rd A) st o r : er_fut st = RNone -> run_bytes E p (er_rem st) = POut o r ->
  exec (er_poll_read dec E) E (S fuel) p [] st = XOut o (with_rem st r).
Proof. intros Hf Hp. cbn [exec]. rewrite (poll_inside dec E fuel p st o r Hf Hp). reflexivity. Qed.

Lemma exec_short {A} dec E (p : rd A) keep n c : starts p keep n c ->
  forall fuel st l en ct rest pl, er_rem st = [] -> er_at E st l en -> (length (er_sock st) < fuel)%nat ->
  run_bytes E read_package l = POut (Ok ct) rest ->
  dec (er_key st) (nonce_from_number (er_de st)) ct = Some pl -> blen pl < n ->
  exists st', exec (er_poll_read dec E) E fuel p [] st = XLost p (if keep then pl else []) st'
    /\ er_at E st' rest en /\ er_fut st' = RNone /\ er_rem st' = [] /\ er_de st' = next (er_de st).
Proof.
  intros Hs. induction fuel as [|fuel IH]; intros st l en ct rest pl Hr Ha Hf Hl Hd Hp; [lia|]. cbn [exec].
  rewrite (starts_poll dec E (S fuel) p keep n c [] st Hs). cbn [loop]. rewrite blen_nil. replace (n <=? 0) with false by lia.
  rewrite N.sub_0_r. destruct (er_poll_spec dec E st l en n ltac:(lia) Ha) as [[H _]|[_ F]]; [rewrite Hr, blen_nil in H; lia|].
  rewrite Hr, blen_nil, N.sub_0_r in F.
  inversion F as [st1 A1 K1 D1 R1 F1 L1 HE | st1 c' rest' pl' Q1 Q2 A1 K1 D1 F1 R1 HE|st1 c' rest' Q1 Q2 _ _ HE|st1 c' rest' Q1 _ _ HE
                 | st1 Q1 _ _ _ _ _ _ HE|st1 Q1 _ _ _ HE|st1 k Q1 _ _ _ HE]; subst; try congruence.
  - clear HE. cbv iota. rewrite if_keep. rewrite <- D1. eapply IH; try eassumption; try lia. congruence.
  - rewrite Hl in Q1. injection Q1 as <- <-. rewrite Hd in Q2. injection Q2 as <-.
    replace (N.min (blen pl) n) with (blen pl) in * by lia. replace (n <=? blen pl) with false by lia.
    assert (firstn (N.to_nat (blen pl)) pl = pl) as -> by (unfold blen; rewrite Nat2N.id; apply firstn_all).
    assert (skipn (N.to_nat (blen pl)) pl = []) as Hsk by (unfold blen; rewrite Nat2N.id; apply skipn_all).
    exists st1. cbn [app]. rewrite Hsk in R1. auto.
Qed.

(** The next package is not there yet (the first poll of the socket is not ready). *)
Lemma loop_pending dec E keep fuel n k s key de r : 0 < k -> 0 < blen r -> blen r < k -> n = k ->
  loop (er_poll_read dec E) keep (S fuel) n [] (mk_eread (TPend :: s) key de r RNone)
  = LPend (if keep then r else []) (mk_eread s key de [] (RRun read_package [])).
Proof.
  intros Hk Hr Hrk ->. cbn [loop]. rewrite blen_nil. replace (k <=? 0) with false by lia. rewrite N.sub_0_r.
  unfold er_poll_read. cbn [er_fut er_rem er_sock er_key er_de].
  replace (N.min k (blen r)) with (blen r) by lia.
  assert (firstn (N.to_nat (blen r)) r = r) as -> by (unfold blen; rewrite Nat2N.id; apply firstn_all).
  assert (skipn (N.to_nat (blen r)) r = []) as -> by (unfold blen; rewrite Nat2N.id; apply skipn_all).
  replace (0 <? k - blen r) with true by lia. cbn. reflexivity.
Qed.

Lemma int_read_loses {A} dec E k (c : N -> rd A) fuel s key de r ct rest pl en o r2 :
  0 < blen r -> blen r < N.of_nat k -> (length s < fuel)%nat ->
  content s = (boxed ct ++ rest, en) -> receivable E ct -> dec key (nonce_from_number de) ct = Some pl ->
  run_bytes E (RInt k c) pl = POut o r2 ->
  exists st', exec (er_poll_read dec E) E (S fuel) (RInt k c) [] (mk_eread (TPend :: s) key de r RNone) = XOut o st'.
Proof.
  intros H1 H2 Hf Hs [G1 G2] Hd Hp. cbn [exec].
  assert (Hst : starts (RInt k c) false (N.of_nat k) (fun b => c (unbe b))) by (right; exists k, c; auto).
  rewrite (starts_poll dec E (S fuel) _ _ _ _ [] _ Hst). rewrite (loop_pending dec E false fuel (N.of_nat k) (N.of_nat k)) by (lia || reflexivity).
  destruct (exec_package dec E _ _ _ _ Hst ltac:(lia) fuel (mk_eread s key de [] (RRun read_package [])) (boxed ct ++ rest) en ct rest pl o r2) as (st' & X & _);
    cbn; try assumption; try reflexivity.
  - split; [cbn; rewrite Hs; reflexivity|]. cbn. split; [reflexivity|]. split; [lia|]. intros x. rewrite Hs. reflexivity.
  - apply read_package_run; assumption.
  - exists st'. exact X.
Qed.

Lemma exact_read_keeps dec E fuel s key de r ct rest pl en n :
  0 < blen r -> blen r < n -> n <= blen r + blen pl -> (length s < fuel)%nat ->
  content s = (boxed ct ++ rest, en) -> receivable E ct -> dec key (nonce_from_number de) ct = Some pl ->
  exists st', exec (er_poll_read dec E) E (S fuel) (RExact n (fun b => RDone (Ok b))) [] (mk_eread (TPend :: s) key de r RNone)
    = XOut (Ok (firstn (N.to_nat n) (r ++ pl))) st'.
Proof.
  intros H1 H2 H3 Hf Hs [G1 G2] Hd. cbn [exec]. set (p := RExact n (fun b => RDone (Ok b))).
  assert (Hst : starts p true n (fun b => RDone (Ok b))) by (left; auto).
  rewrite (starts_poll dec E (S fuel) _ _ _ _ [] _ Hst). rewrite (loop_pending dec E true fuel n n) by (lia || reflexivity).
  (* now got = r, the rest comes from the package *)
  assert (Q : forall fuel st, (length (er_sock st) < fuel)%nat -> er_rem st = [] -> er_at E st (boxed ct ++ rest) en ->
     er_key st = key -> er_de st = de ->
     exists st', exec (er_poll_read dec E) E fuel p r st = XOut (Ok (firstn (N.to_nat n) (r ++ pl))) st').
  { clear -H1 H2 H3 G1 G2 Hd Hst. induction fuel as [|fuel IH]; intros st Hf Hr Ha Hk Hde; [lia|]. cbn [exec].
    rewrite (starts_poll dec E (S fuel) _ _ _ _ r _ Hst). cbn [loop]. replace (n <=? blen r) with false by lia.
    destruct (er_poll_spec dec E st _ en (n - blen r) ltac:(lia) Ha) as [[H _]|[_ F]]; [rewrite Hr, blen_nil in H; lia|].
    rewrite Hr, blen_nil, N.sub_0_r in F. pose proof (read_package_run E ct rest G1 G2) as HR. subst key de.
    inversion F as [st1 A1 K1 D1 R1 F1 L1 HE | st1 c' rest' pl' Q1 Q2 A1 K1 D1 F1 R1 HE|st1 c' rest' Q1 Q2 _ _ HE|st1 c' rest' Q1 _ _ HE
                   | st1 Q1 _ _ _ _ _ _ HE|st1 Q1 _ _ _ HE|st1 k Q1 _ _ _ HE]; try congruence; clear HE.
    - rewrite app_nil_r. apply IH; try congruence. lia. 
    - rewrite HR in Q1. injection Q1 as <- <-. rewrite Hd in Q2. injection Q2 as <-.
      replace (N.min (blen pl) (n - blen r)) with (n - blen r) in * by lia. replace (n - blen r <=? blen pl) with true by lia. cbn [app].
      assert (Hb : blen (firstn (N.to_nat (n - blen r)) pl) = n - blen r) by (apply blen_firstn; lia).
      destruct (firstn (N.to_nat (n - blen r)) pl) as [|b0 t] eqn:Eb; [rewrite blen_nil in Hb; lia|]. rewrite <- Eb in *.
      assert (Hle : (n <=? blen (r ++ firstn (N.to_nat (n - blen r)) pl)) = true) by (rewrite blen_app; lia).
      assert (loop (er_poll_read dec E) true fuel n (r ++ firstn (N.to_nat (n - blen r)) pl) st1
              = LGot (r ++ firstn (N.to_nat (n - blen r)) pl) st1) as -> by (destruct fuel; cbn [loop]; rewrite Hle; reflexivity).
      cbn [poll_fut]. exists st1. do 2 f_equal. rewrite firstn_app. rewrite (firstn_all2 r) by (unfold blen in *; lia).
      do 2 f_equal. unfold blen. lia. }
  apply Q; cbn; try reflexivity; try assumption.
  split; [cbn; rewrite Hs; reflexivity|]. cbn. split; [reflexivity|]. split; [lia|]. intros x. rewrite Hs. reflexivity.
Qed.

(** * Cancellation *)
Lemma cancelled_write enc key items out0 os st0 b st1 : no_shutdown os ->
  run_ops enc os (ewrite_new (mk_wsock items out0) key) = (st0, WReady) -> b <> [] ->
  poll_op enc (OWrite b) st0 = (st1, WPending) ->
  (* the next write reports success, but its bytes are neither sent nor buffered *)
  (forall b' st2, b' <> [] -> run_op enc (OWrite b') st1 = (st2, WReady) ->
     exists ps, ws_out (ew_sock st2) = out0 ++ boxes (ciphertexts enc key 0 ps) /\ concat ps ++ ew_buf st2 = written os ++ b)
  (* and a flush kills the task *)
  /\ snd (run_op enc OFlush st1) = WPanic PanicNone
  /\ snd (run_op enc OShutdown st1) = WPanic PanicNone.
Proof.
  intros Hs H Hb Hp.
  destruct (run_ops_spec enc out0 key os [] [] _ Hs (new_inv enc out0 key items) (new_idle _ _) _ _ H) as (_ & _ & I & D & _).
  assert (Hp' : ew_poll_write enc st0 b = (st1, WPending)) by (destruct b; [contradiction|exact Hp]).
  destruct (poll_write_new _ _ _ _ _ _ b Hb I D _ _ Hp') as (_ & _ & I1 & D1). split; [|split].
  - intros b' st2 Hb' H2. unfold run_op in H2.
    destruct (await_write enc out0 key b' Hb' _ _ _ _ I1 D1 (Nat.lt_succ_diag_r _) _ _ H2) as (_ & _ & _ & I2 & (W1 & W2 & _)).
    eexists. split; [|apply (wi_data _ _ _ _ _ _ I2)]. pose proof (wi_out _ _ _ _ _ _ I2) as Ho. unfold in_flight in Ho. rewrite W1, W2, app_nil_r in Ho. exact Ho.
  - destruct D1 as (_ & D2 & D3). unfold run_op. cbn [await_op poll_op]. unfold ew_poll_flush. rewrite D2, D3. reflexivity.
  - destruct D1 as (_ & D2 & D3). unfold run_op. cbn [await_op poll_op]. unfold ew_poll_shutdown. rewrite (wi_sd _ _ _ _ _ _ I1).
    unfold ew_poll_flush. rewrite D2, D3. reflexivity.
Qed.

(** a flush given up half way: the next message is written, its flush reports success, and it is still in the buffer *)
Lemma cancelled_flush enc key items out0 os st0 st1 : no_shutdown os ->
  run_ops enc os (ewrite_new (mk_wsock items out0) key) = (st0, WReady) -> blen (ew_buf st0) < 2 ^ 32 ->
  poll_op enc OFlush st0 = (st1, WPending) ->
  (forall b st2, b <> [] -> blen b < 1024 -> run_ops enc [OWrite b; OFlush] st1 = (st2, WReady) ->
     ew_buf st2 = b /\ exists ps, ws_out (ew_sock st2) = out0 ++ boxes (ciphertexts enc key 0 ps) /\ concat ps = written os)
  /\ (forall b, 1024 <= blen b -> snd (run_op enc (OWrite b) st1) = WPanic PanicNone).
Proof.
  intros Hs H Hl Hp.
  destruct (run_ops_spec enc out0 key os [] [] _ Hs (new_inv enc out0 key items) (new_idle _ _) _ _ H) as (_ & _ & I & D & _).
  cbn [poll_op] in Hp. destruct (poll_flush_new _ _ _ _ _ _ I D _ _ Hp) as (_ & B1 & I1 & D1).
  rewrite after_flush_small in B1 by (unfold MAX_PLAIN; lia). destruct D1 as (F1 & F2 & F3).
  split.
  - intros b st2 Hb Hsm. cbn [run_ops]. unfold run_op at 1. cbn [await_op poll_op].
    destruct b as [|b0 bt]; [contradiction|]. set (b := b0 :: bt) in *. unfold ew_poll_write. rewrite F1, B1. cbn [app].
    replace (WRITE_BUF_SIZE <=? blen b) with false by (unfold WRITE_BUF_SIZE; lia).
    set (st' := mk_ewrite _ _ _ b _ _ _ _).
    assert (I' : winv enc out0 key (fst (after_flush (fst (plan os ([], []))) (ew_buf st0))) (([] ++ written os) ++ b) st').
    { destruct I1. split; try assumption.
      - cbn [ew_buf st']. rewrite B1, app_nil_r in wi_data. rewrite <- wi_data. reflexivity.
      - unfold in_flight in *. cbn. rewrite F1 in wi_out. exact wi_out. }
    assert (D' : flushing st') by (repeat split; cbn; assumption || reflexivity).
    destruct (run_op enc OFlush st') as [st3 r3] eqn:E3. unfold run_op in E3.
    destruct (await_flush enc out0 key _ _ _ _ I' D' (Nat.lt_succ_diag_r _) _ _ E3) as (_ & _ & B3 & Q).
    destruct r3; try discriminate. destruct Q as [I3 (W1 & W2 & _)]. intros X; injection X as <-. cbn [snd] in B3. split; [exact B3|].
    eexists. split; [|].
    + pose proof (wi_out _ _ _ _ _ _ I3) as Ho. unfold in_flight in Ho. rewrite W1, W2, app_nil_r in Ho. exact Ho.
    + pose proof (wi_data _ _ _ _ _ _ I3) as Ho. rewrite B3 in Ho. apply app_inv_tail in Ho. exact Ho.
  - intros b Hb. unfold run_op. cbn [await_op poll_op]. destruct b as [|b0 bt]; [cbn in Hb; lia|]. set (b := b0 :: bt) in *.
    unfold ew_poll_write. rewrite F1, B1, F3. cbn [app]. replace (WRITE_BUF_SIZE <=? blen b) with true by (unfold WRITE_BUF_SIZE; lia). reflexivity.
Qed.
