From Coq Require Import Strings.String.
From Verif Require Import Base BaseFacts Utf8 Utf8Facts Reader Codec Spec CodecFacts DecodeFacts Payload SpecPayload.
From Coq Require Import ZifyBool ZifyNat ZifyN.
Arguments N.pow : simpl never.
Arguments be : simpl never.
Arguments unbe : simpl never.

Lemma too_big_dec E n : {too_big E n} + {~ too_big E n}.
Proof. destruct (mem E <? n) eqn:A; [left; left; lia|]. destruct (ISIZE_MAX <? n) eqn:B; [left; right; lia|]. right. unfold too_big. lia. Qed.
Lemma alloc_small E n : ~ too_big E n -> vec_alloc E n = Ok tt.
Proof. unfold too_big. intros. apply alloc_ok; lia. Qed.
Lemma alloc_big E n : too_big E n -> exists c, vec_alloc E n = Crash c.
Proof. apply alloc_crash. Qed.
Lemma small_u64 E n : ~ too_big E n -> n < U64.
Proof. unfold too_big. intros. ulia. Qed.

Lemma tandem_layout {A B} (p : payload A) (q : payload B) a b x y :
  p_enc p a = Ok x -> p_enc q b = Ok y -> tandem_enc p q (a, b) = Ok (be 8 (blen x) ++ x ++ be 8 (blen y) ++ y).
Proof. intros H1 H2. unfold tandem_enc. cbn [fst snd]. rewrite H1. cbn [bind]. rewrite H2. reflexivity. Qed.

Lemma tandem_parts {A B} E (p : payload A) (q : payload B) x y extra : ~ too_big E (blen x) -> ~ too_big E (blen y) ->
  tandem_dec E p q (be 8 (blen x) ++ x ++ be 8 (blen y) ++ y ++ extra) =
  bind (p_dec p x) (fun a => bind (p_dec q y) (fun b => Ok (a, b))).
Proof.
  intros Hx Hy. unfold tandem_dec. rewrite sread_int_app. cbn [bind]. change (256 ^ N.of_nat 8) with U64.
  rewrite !N.mod_small by (eapply small_u64; eassumption). rewrite alloc_small by exact Hx. cbn [bind].
  rewrite sread_exact_app. cbn [bind]. rewrite sread_int_app. cbn [bind]. change (256 ^ N.of_nat 8) with U64.
  rewrite !N.mod_small by (eapply small_u64; eassumption). rewrite alloc_small by exact Hy. cbn [bind].
  rewrite sread_exact_app. reflexivity.
Qed.

Lemma tandem_round_trip {A B} E (p : payload A) (q : payload B) a b extra : survives E p a -> survives E q b ->
  exists l, p_enc (tandem E p q) (a, b) = Ok l /\ p_dec (tandem E p q) (l ++ extra) = Ok (a, b).
Proof.
  intros (x & H1 & H2 & H3) (y & H4 & H5 & H6). cbn [tandem p_enc p_dec].
  rewrite (tandem_layout p q a b x y H1 H4). eexists. split; [reflexivity|].
  rewrite <- !app_assoc. rewrite tandem_parts by assumption. rewrite H3. cbn [bind]. rewrite H6. reflexivity.
Qed.

Lemma Ok_inj {A} (x y : A) : Ok x = Ok y -> x = y.
Proof. congruence. Qed.
Lemma nest_enc_size {A} E (p : payload A) n : forall v l, p_enc (nest E n p) v = Ok l -> blen l = nest_size p n v.
Proof.
  induction n as [|n IH]; intros v y E2; cbn [nest nest_type] in *.
  - cbn [nest_size]. rewrite E2. reflexivity.
  - destruct v as [a v]. cbn [tandem p_enc] in E2. unfold tandem_enc in E2. cbn [fst snd] in E2.
    apply bind_Ok in E2 as (x1 & E1 & Ey). apply bind_Ok in Ey as (y1 & E2 & Ey). apply Ok_inj in Ey. subst y.
    rewrite !blen_app, !blen_be. cbn [nest_size fst snd]. rewrite E1. rewrite (IH v y1 E2). lia.
Qed.
Lemma nest_survives {A} E (p : payload A) n : forall v : nest_type n A,
  nest_all (survives E p) n v -> ~ too_big E (nest_size p n v) -> survives E (nest E n p) v.
Proof.
  induction n as [|n IH]; intros v; [auto|]. destruct v as [a v]. intros Hall Hs.
  assert (Hs' : ~ too_big E (nest_size p n v)) by (cbn [nest_size snd] in Hs; unfold too_big in *; lia).
  destruct Hall as [Ha Hv]. cbn [fst snd] in Ha, Hv.
  destruct (tandem_round_trip E p (nest E n p) a v [] Ha (IH v Hv Hs')) as (l & H1 & H2). rewrite app_nil_r in H2.
  exists l. split; [exact H1|]. split; [|exact H2].
  rewrite (nest_enc_size E p (S n) (a, v) l H1). exact Hs.
Qed.

Lemma tandem_accepts {A B} E (p : payload A) (q : payload B) l a b :
  tandem_dec E p q l = Ok (a, b) ->
  exists x y extra, l = be 8 (blen x) ++ x ++ be 8 (blen y) ++ y ++ extra
    /\ ~ too_big E (blen x) /\ ~ too_big E (blen y) /\ p_dec p x = Ok a /\ p_dec q y = Ok b.
Proof.
  unfold tandem_dec. intros H.
  apply bind_Ok in H as ([n1 l1] & H1 & H). apply sread_int_inv in H1 as [-> H1].
  apply bind_Ok in H as ([] & A1 & H). apply alloc_inv in A1.
  apply bind_Ok in H as ([x l2] & H2 & H). apply sread_exact_inv in H2 as [-> <-].
  apply bind_Ok in H as ([n2 l3] & H3 & H). apply sread_int_inv in H3 as [-> H3].
  apply bind_Ok in H as ([] & A2 & H). apply alloc_inv in A2.
  apply bind_Ok in H as ([y l4] & H4 & H). apply sread_exact_inv in H4 as [-> <-].
  apply bind_Ok in H as (a' & H5 & H). apply bind_Ok in H as (b' & H6 & H). injection H as <- <-.
  exists x, y, l4. unfold too_big. repeat split; auto; lia.
Qed.

Lemma sread_int_cases k l : (exists n r, l = be k n ++ r /\ n < 256 ^ N.of_nat k) \/ sread_int k l = Err (IoError UnexpectedEof).
Proof.
  unfold sread_int, sread_exact. destruct (N.of_nat k <=? blen l) eqn:E; [|right; reflexivity]. left.
  exists (unbe (firstn k l)), (skipn k l).
  assert (L : length (firstn k l) = k) by (rewrite firstn_length; unfold blen in E; lia).
  rewrite (be_unbe_len k _ L), firstn_skipn. split; [reflexivity|]. pose proof (unbe_lt (firstn k l)) as U. rewrite L in U. exact U.
Qed.
Lemma sread_exact_cases n l : (exists x r, l = x ++ r /\ blen x = n) \/ sread_exact n l = Err (IoError UnexpectedEof).
Proof.
  unfold sread_exact. destruct (n <=? blen l) eqn:E; [|right; reflexivity]. left.
  exists (firstn (N.to_nat n) l), (skipn (N.to_nat n) l). rewrite firstn_skipn. split; [reflexivity|apply blen_firstn; lia].
Qed.

Lemma tandem_crash_iff {A B} E (p : payload A) (q : payload B) l :
  (exists c, tandem_dec E p q l = Crash c) <-> tandem_crash E p q l.
Proof.
  split.
  - intros [c H]. unfold tandem_dec in H.
    destruct (sread_int_cases 8 l) as [(n1 & l1 & -> & Hn1)|Hs]; [|rewrite Hs in H; discriminate].
    rewrite sread_int_app in H. cbn [bind] in H. rewrite N.mod_small in H by exact Hn1.
    destruct (too_big_dec E n1) as [T1|T1]; [left; eauto|]. rewrite alloc_small in H by exact T1. cbn [bind] in H.
    destruct (sread_exact_cases n1 l1) as [(x & l2 & -> & <-)|Hs]; [|rewrite Hs in H; discriminate].
    rewrite sread_exact_app in H. cbn [bind] in H.
    destruct (sread_int_cases 8 l2) as [(n2 & l3 & -> & Hn2)|Hs]; [|rewrite Hs in H; discriminate].
    rewrite sread_int_app in H. cbn [bind] in H. rewrite N.mod_small in H by exact Hn2.
    destruct (too_big_dec E n2) as [T2|T2]; [right; left; exists x, n2, l3; auto|]. rewrite alloc_small in H by exact T2. cbn [bind] in H.
    destruct (sread_exact_cases n2 l3) as [(y & l4 & -> & <-)|Hs]; [|rewrite Hs in H; discriminate].
    rewrite sread_exact_app in H. cbn [bind] in H. right; right. exists x, y, l4. repeat split; auto.
    destruct (p_dec p x) as [a|e|c1] eqn:Ep; cbn [bind] in H; [|discriminate|left; eauto].
    destruct (p_dec q y) as [b|e|c1] eqn:Eq; cbn [bind] in H; [discriminate|discriminate|right; eauto].
  - intros [(n & r & -> & Hn & T)|[(x & n & r & -> & Tx & Hn & T)|(x & y & extra & -> & Tx & Ty & H)]].
    + unfold tandem_dec. rewrite sread_int_app. cbn [bind]. rewrite N.mod_small by exact Hn.
      destruct (alloc_big E n T) as [c ->]. cbn. eauto.
    + unfold tandem_dec. rewrite sread_int_app. cbn [bind]. rewrite (N.mod_small (blen x)) by (eapply small_u64; eassumption).
      rewrite alloc_small by exact Tx. cbn [bind]. rewrite sread_exact_app. cbn [bind]. rewrite sread_int_app. cbn [bind].
      rewrite N.mod_small by exact Hn. destruct (alloc_big E n T) as [c ->]. cbn. eauto.
    + rewrite tandem_parts by assumption. destruct H as [[c ->]|(a & c & -> & ->)]; cbn; eauto.
Qed.

Lemma app_len_prefix {X} (a b c d : list X) : a ++ b = c ++ d -> (length c < length a)%nat ->
  exists e, e <> [] /\ a = c ++ e.
Proof.
  revert c. induction a as [|x a IH]; intros c; destruct c as [|y c]; cbn [length app]; intros H L; [lia|lia|..].
  - exists (x :: a). split; [discriminate|reflexivity].
  - injection H as -> H. destruct (IH c H) as (e & He & ->); [lia|]. exists e. auto.
Qed.
Lemma app_len_over {X} (a b c d : list X) : a ++ b = c ++ d -> (length a <= length c)%nat ->
  exists e, c = a ++ e /\ b = e ++ d.
Proof.
  revert c. induction a as [|x a IH]; intros c; cbn [length app]; intros H L.
  - exists c. auto.
  - destruct c as [|y c]; cbn [length app] in *; [lia|]. injection H as -> H. destruct (IH c H) as (e & -> & ->); [lia|]. exists e. auto.
Qed.
Lemma sread_int_short k l : blen l < N.of_nat k -> sread_int k l = Err (IoError UnexpectedEof).
Proof. intros. unfold sread_int, sread_exact. replace (N.of_nat k <=? blen l) with false by lia. reflexivity. Qed.
Lemma sread_exact_short n l : blen l < n -> sread_exact n l = Err (IoError UnexpectedEof).
Proof. intros. unfold sread_exact. replace (n <=? blen l) with false by lia. reflexivity. Qed.

Lemma tandem_truncated {A B} E (p : payload A) (q : payload B) x y cut more :
  ~ too_big E (blen x) -> ~ too_big E (blen y) ->
  be 8 (blen x) ++ x ++ be 8 (blen y) ++ y = cut ++ more -> more <> [] ->
  tandem_dec E p q cut = Err (IoError UnexpectedEof).
Proof.
  intros Hx Hy H Hm. unfold tandem_dec.
  assert (Hmore : (0 < length more)%nat) by (destruct more; [contradiction|cbn; lia]).
  destruct (Nat.lt_ge_cases (length cut) 8) as [L|L].
  { rewrite sread_int_short by (unfold blen; lia). reflexivity. }
  apply app_len_over in H as (c1 & -> & H); [|rewrite be_length; exact L].
  rewrite sread_int_app. cbn [bind]. change (256 ^ N.of_nat 8) with U64. rewrite N.mod_small by (eapply small_u64; eassumption).
  rewrite alloc_small by exact Hx. cbn [bind].
  destruct (Nat.lt_ge_cases (length c1) (length x)) as [L1|L1].
  { rewrite sread_exact_short by (unfold blen; lia). reflexivity. }
  apply app_len_over in H as (c2 & -> & H); [|exact L1]. rewrite sread_exact_app. cbn [bind].
  destruct (Nat.lt_ge_cases (length c2) 8) as [L2|L2].
  { rewrite sread_int_short by (unfold blen; lia). reflexivity. }
  apply app_len_over in H as (c3 & -> & H); [|rewrite be_length; exact L2].
  rewrite sread_int_app. cbn [bind]. change (256 ^ N.of_nat 8) with U64. rewrite N.mod_small by (eapply small_u64; eassumption).
  rewrite alloc_small by exact Hy. cbn [bind].
  rewrite sread_exact_short; [reflexivity|]. rewrite H, blen_app. unfold blen. lia.
Qed.

Lemma bytes_end_to_end E b id t ref ns name rest : 65535 <= mem E -> blen b <= mem E ->
  rust_event (mk_event (mk_header id t ref ns name) b) -> fits (mk_event (mk_header id t ref ns name) b) ->
  exists d l e', p_enc byte_payload b = Ok d /\ into_bytes (mk_event (mk_header id t ref ns name) d) = Ok l
    /\ decode E (l ++ rest) = Ok (e', rest) /\ p_dec byte_payload (ev_data e') = Ok b.
Proof.
  intros Hm1 Hm2 Hr Hf. destruct (decode_encoded E _ rest Hr (conj Hm1 Hm2) Hf) as (l & H1 & H2).
  exists b, l. eexists. split; [reflexivity|]. split; [exact H1|]. split; [exact H2|].
  unfold drop_empty_ns. cbn. destruct ns as [[|]|]; reflexivity.
Qed.

(** * error payload *)
Lemma be4_small n : n < U32 -> n mod 256 ^ N.of_nat 4 = n.
Proof. intros. apply N.mod_small. exact H. Qed.

Lemma error_round_trip E d extra : rust_err d -> blen (ed_message d) < U32 -> blen (ed_message d) <= mem E ->
  exists l, error_enc d = Ok l /\ error_dec E (l ++ extra) = Ok d.
Proof.
  intros [Hc Ht] Hl Hm. eexists. split; [reflexivity|]. unfold error_dec.
  rewrite <- !app_assoc. rewrite sread_int_app. cbn [bind]. rewrite N.mod_small by exact Hc.
  rewrite sread_int_app. cbn [bind]. rewrite be4_small by exact Hl.
  rewrite alloc_ok; [|exact Hm|change U32 with 4294967296 in *; ulia]. cbn [bind]. rewrite sread_exact_app. cbn [bind].
  replace (utf8_valid (ed_message d)) with true by (symmetry; apply utf8_valid_iff, Ht). destruct d; reflexivity.
Qed.

Lemma error_accepts E l d : error_dec E l = Ok d ->
  rust_err d /\ blen (ed_message d) < U32 /\ exists extra, l = be 2 (ed_code d) ++ be 4 (blen (ed_message d)) ++ ed_message d ++ extra.
Proof.
  unfold error_dec. intros H.
  apply bind_Ok in H as ([c l1] & H1 & H). apply sread_int_inv in H1 as [-> H1].
  apply bind_Ok in H as ([n l2] & H2 & H). apply sread_int_inv in H2 as [-> H2].
  apply bind_Ok in H as ([] & A1 & H).
  apply bind_Ok in H as ([m l3] & H3 & H). apply sread_exact_inv in H3 as [-> <-].
  destruct (utf8_valid m) eqn:Eu; [|discriminate]. injection H as <-. cbn [ed_code ed_message].
  split; [split; [exact H1|apply utf8_valid_iff, Eu]|]. split; [exact H2|]. eauto.
Qed.

Lemma error_long_refuted E d extra : U32 <= blen (ed_message d) ->
  exists l, error_enc d = Ok l /\ error_dec E (l ++ extra) <> Ok d.
Proof.
  intros Hl. eexists. split; [reflexivity|]. intros H. apply error_accepts in H as (_ & H & _). lia.
Qed.

Lemma error_short E l : blen l < 6 \/ (exists c n m, l = be 2 c ++ be 4 n ++ m /\ n < U32 /\ n <= mem E /\ blen m < n) ->
  error_dec E l = Err (IoError UnexpectedEof).
Proof.
  intros [H|(c & n & m & -> & Hn & Hm & H)]; unfold error_dec.
  - destruct (sread_int_cases 2 l) as [(x & r & -> & Hx)|Hs]; [|rewrite Hs; reflexivity].
    rewrite sread_int_app. cbn [bind].
    destruct (sread_int_cases 4 r) as [(x' & r' & -> & Hx')|Hs]; [|rewrite Hs; reflexivity].
    rewrite !blen_app, !blen_be in H. lia.
  - rewrite sread_int_app. cbn [bind]. rewrite sread_int_app. cbn [bind]. rewrite be4_small by exact Hn.
    rewrite alloc_ok; [|exact Hm|change U32 with 4294967296 in *; ulia]. cbn [bind].
    unfold sread_exact. replace (n <=? blen m) with false by lia. reflexivity.
Qed.

Lemma error_bad_text E c m extra : blen m < U32 -> blen m <= mem E -> ~ is_text m ->
  error_dec E (be 2 c ++ be 4 (blen m) ++ m ++ extra) = Err CorruptedEvent.
Proof.
  intros Hl Hm Ht. unfold error_dec. rewrite sread_int_app. cbn [bind]. rewrite sread_int_app. cbn [bind]. rewrite be4_small by exact Hl.
  rewrite alloc_ok; [|exact Hm|change U32 with 4294967296 in *; ulia]. cbn [bind]. rewrite sread_exact_app. cbn [bind].
  destruct (utf8_valid m) eqn:Eu; [|reflexivity]. exfalso. apply Ht, utf8_valid_iff, Eu.
Qed.

Lemma error_crash_iff E l :
  (exists c, error_dec E l = Crash c) <-> exists code n m, l = be 2 code ++ be 4 n ++ m /\ n < U32 /\ mem E < n.
Proof.
  split.
  - intros [c H]. unfold error_dec in H.
    destruct (sread_int_cases 2 l) as [(x & r & -> & Hx)|Hs]; [|rewrite Hs in H; discriminate].
    rewrite sread_int_app in H. cbn [bind] in H.
    destruct (sread_int_cases 4 r) as [(n & r' & -> & Hx')|Hs]; [|rewrite Hs in H; discriminate].
    rewrite sread_int_app in H. cbn [bind] in H. rewrite N.mod_small in H by exact Hx'.
    exists x, n, r'. split; [reflexivity|]. split; [exact Hx'|].
    destruct (mem E <? n) eqn:Em; [lia|]. exfalso.
    rewrite alloc_ok in H; [|lia|change (256 ^ N.of_nat 4) with 4294967296 in *; ulia]. cbn [bind] in H.
    destruct (sread_exact_cases n r') as [(m & r2 & -> & <-)|Hs]; [|rewrite Hs in H; discriminate].
    rewrite sread_exact_app in H. cbn [bind] in H. destruct (utf8_valid m); discriminate.
  - intros (code & n & m & -> & Hn & Hm). unfold error_dec. rewrite sread_int_app. cbn [bind]. rewrite sread_int_app. cbn [bind].
    rewrite be4_small by exact Hn. destruct (alloc_crash E n) as [c ->]; [left; exact Hm|]. cbn. eauto.
Qed.

(** * serde *)
Section SerdeFacts.
  Context {T : Type} (lib_ser : format -> T -> outcome bytes) (lib_des : format -> bytes -> outcome T).

  Lemma from_primitive_id ft f : ft f = true -> from_primitive ft (format_id f) = Ok f.
  Proof. intros H. destruct f; unfold from_primitive; cbn; rewrite H, ?andb_true_r; try reflexivity;
    repeat match goal with |- context [(?a =? ?b) && _] => change (a =? b) with false; cbn end; reflexivity. Qed.

  Lemma serde_round_trip ftS ftR f v b : ftS f = true -> ftR f = true ->
    lib_ser f v = Ok b -> lib_des f b = Ok v ->
    exists l, serde_enc lib_ser ftS f v = Ok l /\ serde_dec lib_des ftR l = Ok (f, v).
  Proof.
    intros H1 H2 H3 H4. unfold serde_enc, dyn_serialize. rewrite H1, H3. cbn [bind]. eexists. split; [reflexivity|].
    unfold serde_dec. rewrite sread_int_app. cbn [bind].
    rewrite N.mod_small by (destruct f; reflexivity). rewrite from_primitive_id by exact H2. cbn [bind].
    unfold dyn_deserialize. rewrite H2, H4. reflexivity.
  Qed.

  Lemma value_round_trip ftS ftR d v b : ftS d = true -> ftR d = true ->
    lib_ser d v = Ok b -> lib_des d b = Ok v ->
    exists l, value_enc lib_ser ftS d v = Ok l /\ value_dec lib_des ftR l = Ok v.
  Proof.
    intros H1 H2 H3 H4. destruct (serde_round_trip ftS ftR d v b H1 H2 H3 H4) as (l & A & B).
    exists l. split; [exact A|]. unfold value_dec. rewrite B. reflexivity.
  Qed.

  Lemma disabled_at_receiver ftR f l : ftR f = false ->
    serde_dec lib_des ftR (be 1 (format_id f) ++ l) = Err (Serialization (UnknownFormat (format_id f))).
  Proof.
    intros H. unfold serde_dec. rewrite sread_int_app. cbn [bind]. rewrite N.mod_small by (destruct f; reflexivity).
    unfold from_primitive. destruct f; cbn; rewrite H; reflexivity.
  Qed.

  Lemma unknown_format ftR b l : 3 < b2n b ->
    serde_dec lib_des ftR (b :: l) = Err (Serialization (UnknownFormat (b2n b))).
  Proof.
    intros H. unfold serde_dec. change (b :: l) with ([b] ++ l). rewrite <- (be_unbe_len 1 [b]) by reflexivity.
    rewrite sread_int_app. cbn [bind]. change (unbe [b]) with (b2n b). rewrite N.mod_small by apply b2n_lt.
    unfold from_primitive. replace (b2n b =? 0) with false by lia. replace (b2n b =? 1) with false by lia.
    replace (b2n b =? 2) with false by lia. replace (b2n b =? 3) with false by lia. reflexivity.
  Qed.

  Lemma empty_serde ftR : serde_dec lib_des ftR [] = Err (IoError UnexpectedEof).
  Proof. reflexivity. Qed.

  Lemma disabled_at_sender ftS f v : ftS f = false -> serde_enc lib_ser ftS f v = Err (Serialization (UnavailableFormat f)).
  Proof. intros H. unfold serde_enc, dyn_serialize. rewrite H. reflexivity. Qed.
End SerdeFacts.

Lemma first_available_spec ft f : first_available ft = Some f <->
  ft f = true /\ forall g, format_id g < format_id f -> ft g = false.
Proof.
  unfold first_available. split.
  - destruct (ft Messagepack) eqn:E1; [intros H; injection H as <-; split; [auto|intros []; cbn; lia]|].
    destruct (ft Bincode) eqn:E2; [intros H; injection H as <-; split; [auto|intros []; cbn; auto; lia]|].
    destruct (ft Postcard) eqn:E3; [intros H; injection H as <-; split; [auto|intros []; cbn; auto; lia]|].
    destruct (ft Json) eqn:E4; [intros H; injection H as <-; split; [auto|intros []; cbn; auto; lia]|discriminate].
  - intros [H1 H2].
    assert (Q : forall g, format_id g < format_id f -> ft g = false) by exact H2.
    pose proof (Q Messagepack) as Q0. pose proof (Q Bincode) as Q1. pose proof (Q Postcard) as Q2. pose proof (Q Json) as Q3.
    destruct f; cbn in Q0, Q1, Q2, Q3; rewrite ?H1; try rewrite Q0 by lia; try rewrite Q1 by lia; try rewrite Q2 by lia; rewrite ?H1; reflexivity.
Qed.
