(** Derived statements about encrypted connections, and the toy primitives used in examples. *)
From Verif Require Import Base BaseFacts Reader Codec Spec CodecFacts DecodeFacts ReaderFacts Crypt SpecCrypt CryptWriteFacts CryptReadFacts CryptFacts CryptAttackFacts CryptExchangeFacts.

(** ** C20 *)
Fixpoint number_from {A} (i : N) (l : list A) : list (N * A) :=
  match l with [] => [] | a :: l' => (i, a) :: number_from (i + 1) l' end.
Lemma number_nth {A} (l : list A) : forall i j, nth_error (number_from i l) j = option_map (fun a => (i + N.of_nat j, a)) (nth_error l j).
Proof.
  induction l as [|a l IH]; intros i [|j]; cbn [number_from nth_error option_map]; try reflexivity; [rewrite N.add_0_r; reflexivity|].
  rewrite IH. replace (i + 1 + N.of_nat j) with (i + N.of_nat (S j)) by lia. reflexivity.
Qed.
Lemma ciphertexts_numbered enc key ps : forall i, ciphertexts enc key i ps
  = map (fun np => enc key (fst np) (snd np)) (map (fun ip => (nonce_from_number (fst ip mod U64), snd ip)) (number_from i ps)).
Proof. induction ps as [|p ps IH]; intros i; cbn; [reflexivity|]. rewrite IH. reflexivity. Qed.

Lemma writer_nonces enc os key items out0 st r : no_shutdown os ->
  run_ops enc os (ewrite_new (mk_wsock items out0) key) = (st, r) ->
  exists nps cut, ws_out (ew_sock st) ++ cut = out0 ++ boxes (map (fun np => enc key (fst np) (snd np)) nps)
    /\ Forall (fun np => length (fst np) = 12%nat) nps
    /\ forall i j n p q, N.of_nat i < 2 ^ 64 -> N.of_nat j < 2 ^ 64 -> nth_error nps i = Some (n, p) -> nth_error nps j = Some (n, q) -> i = j.
Proof.
  intros Hs H. destruct (writer_general _ _ _ _ _ _ _ Hs H) as (ps & cut & dn & later & H1 & _).
  rewrite ciphertexts_numbered in H1. eexists _, cut. split; [exact H1|]. split.
  - rewrite Forall_map, Forall_forall. intros [i p] _. apply nonce_length.
  - intros i j n p q Hi Hj. rewrite !nth_error_map, !number_nth.
    destruct (nth_error ps i) as [p'|]; [|discriminate]. destruct (nth_error ps j) as [q'|]; [|discriminate]. cbn [option_map fst snd].
    rewrite !N.add_0_l, !N.mod_small by assumption.
    intros X Y.
    assert (nonce_from_number (N.of_nat i) = nonce_from_number (N.of_nat j)) as Z by congruence.
    apply nonce_inj in Z; [lia|assumption..].
Qed.

(** ** established connections *)
Section E.
  Context (enc : bytes -> bytes -> bytes -> bytes) (dec : bytes -> bytes -> bytes -> option bytes).
  Context (pub : bytes -> bytes) (dh : bytes -> bytes -> bytes).

  Lemma emitted_packages E es ls key sk st st' x : Forall2 (sendable E) es ls -> fresh_write key sk st ->
    run_ops enc (emit_all ls) st = (st', WReady) -> ws_out (ew_sock st') = ws_out (ew_sock st) ++ x ->
    x = boxes (ciphertexts enc key 0 ls).
  Proof.
    intros Hl -> H Ho. destruct sk as [items out0]. change (mk_ewrite _ key 0 [] None None false true) with (ewrite_new (mk_wsock items out0) key) in *.
    destruct (emit_ready enc ls key items out0 st' (sendable_small _ _ _ Hl) H) as (E1 & _).
    rewrite E1 in Ho. cbn in Ho. apply app_inv_head in Ho. symmetry; exact Ho.
  Qed.

  Lemma same_nonces E ks kc secret rest_s en_s rest_c en_c ers ews erc ewc es fs ls ms ews' ewc' : good_cipher enc dec -> good_dh pub dh ->
    established enc dec pub dh E ks kc secret rest_s en_s rest_c en_c ers ews erc ewc ->
    Forall2 (sendable E) es ls -> Forall2 (sendable E) fs ms ->
    run_ops enc (emit_all ls) ews = (ews', WReady) -> run_ops enc (emit_all ms) ewc = (ewc', WReady) ->
    exists xs xc, ws_out (ew_sock ews') = ws_out (ew_sock ews) ++ boxes xs /\ ws_out (ew_sock ewc') = ws_out (ew_sock ewc) ++ boxes xc
      /\ length xs = length ls /\ length xc = length ms
      /\ forall i p q, nth_error ls i = Some p -> nth_error ms i = Some q ->
         exists nonce, nth_error xs i = Some (enc secret nonce p) /\ nth_error xc i = Some (enc secret nonce q).
  Proof.
    intros G D Es Hl Hm R1 R2. destruct (established_facts _ _ _ _ _ _ _ _ _ _ _ _ _ _ _ _ G D Es) as (_ & _ & _ & (sks & F1) & _ & (skc & F2)).
    assert (forall es ls key sk st st', Forall2 (sendable E) es ls -> fresh_write key sk st -> run_ops enc (emit_all ls) st = (st', WReady) ->
      ws_out (ew_sock st') = ws_out (ew_sock st) ++ boxes (ciphertexts enc key 0 ls)) as K.
    { intros es0 ls0 key [items out0] st st' Hl0 -> H0. destruct (emit_ready enc ls0 key items out0 st' (sendable_small _ _ _ Hl0) H0) as (E1 & _). exact E1. }
    exists (ciphertexts enc secret 0 ls), (ciphertexts enc secret 0 ms).
    split; [eapply K; eassumption|]. split; [eapply K; eassumption|]. rewrite !ciphertexts_length. split; [reflexivity|]. split; [reflexivity|].
    intros i p q Hp Hq. rewrite !ciphertexts_nth, Hp, Hq. eexists. split; reflexivity.
  Qed.

  (** ** C24 *)
  Lemma reflection E ks kc secret rest_s en_s rest_c en_c ers ews erc ewc fs ms ewc' : good_cipher enc dec -> good_dh pub dh ->
    established enc dec pub dh E ks kc secret rest_s en_s rest_c en_c ers ews erc ewc ->
    Forall2 (sendable E) fs ms -> run_ops enc (emit_all ms) ewc = (ewc', WReady) ->
    ws_out (ew_sock ewc') = ws_out (ew_sock ewc) ++ rest_c ->
    exists r, receives dec E erc (map drop_empty_ns fs) r /\ ends_with en_c r.
  Proof.
    intros G D Es Hm R Ho. destruct (established_facts _ _ _ _ _ _ _ _ _ _ _ _ _ _ _ _ G D Es) as (_ & _ & _ & _ & (sc & C & F3) & (skc & F2)).
    rewrite F2 in R, Ho. rewrite F3. destruct skc as [items out0].
    eapply (delivery_all enc dec E fs ms secret items out0 ewc' sc en_c rest_c); eauto.
  Qed.
  Lemma reflection_server E ks kc secret rest_s en_s rest_c en_c ers ews erc ewc es ls ews' : good_cipher enc dec -> good_dh pub dh ->
    established enc dec pub dh E ks kc secret rest_s en_s rest_c en_c ers ews erc ewc ->
    Forall2 (sendable E) es ls -> run_ops enc (emit_all ls) ews = (ews', WReady) ->
    ws_out (ew_sock ews') = ws_out (ew_sock ews) ++ rest_s ->
    exists r, receives dec E ers (map drop_empty_ns es) r /\ ends_with en_s r.
  Proof.
    intros G D Es Hm R Ho. destruct (established_facts _ _ _ _ _ _ _ _ _ _ _ _ _ _ _ _ G D Es) as (_ & _ & (ss & C & F3) & (sks & F2) & _).
    rewrite F2 in R, Ho. rewrite F3. destruct sks as [items out0].
    eapply (delivery_all enc dec E es ls secret items out0 ews' ss en_s rest_s); eauto.
  Qed.
  (** the intended direction, end to end from the key exchange *)
  Lemma connection_delivers E ks kc secret rest_s en_s rest_c en_c ers ews erc ewc es ls ews' : good_cipher enc dec -> good_dh pub dh ->
    established enc dec pub dh E ks kc secret rest_s en_s rest_c en_c ers ews erc ewc ->
    Forall2 (sendable E) es ls -> run_ops enc (emit_all ls) ews = (ews', WReady) ->
    ws_out (ew_sock ews') = ws_out (ew_sock ews) ++ rest_c ->
    exists r, receives dec E erc (map drop_empty_ns es) r /\ ends_with en_c r.
  Proof.
    intros G D Es Hm R Ho. destruct (established_facts _ _ _ _ _ _ _ _ _ _ _ _ _ _ _ _ G D Es) as (_ & _ & _ & (sks & F2) & (sc & C & F3) & _).
    rewrite F2 in R, Ho. rewrite F3. destruct sks as [items out0].
    eapply (delivery_all enc dec E es ls secret items out0 ews' sc en_c rest_c); eauto.
  Qed.
  Lemma connection_delivers_back E ks kc secret rest_s en_s rest_c en_c ers ews erc ewc fs ms ewc' : good_cipher enc dec -> good_dh pub dh ->
    established enc dec pub dh E ks kc secret rest_s en_s rest_c en_c ers ews erc ewc ->
    Forall2 (sendable E) fs ms -> run_ops enc (emit_all ms) ewc = (ewc', WReady) ->
    ws_out (ew_sock ewc') = ws_out (ew_sock ewc) ++ rest_s ->
    exists r, receives dec E ers (map drop_empty_ns fs) r /\ ends_with en_s r.
  Proof.
    intros G D Es Hm R Ho. destruct (established_facts _ _ _ _ _ _ _ _ _ _ _ _ _ _ _ _ G D Es) as (_ & _ & (ss & C & F3) & _ & _ & (skc & F2)).
    rewrite F2 in R, Ho. rewrite F3. destruct skc as [items out0].
    eapply (delivery_all enc dec E fs ms secret items out0 ewc' ss en_s rest_s); eauto.
  Qed.

  (** ** C31 *)
  Lemma server_peer E k secret s sk er ew sk' : blen secret = 32 ->
    server_exchange enc pub dh E k secret s sk = KxDone (Ok (er, ew)) sk' ->
    exists pk rest en, content s = (pk ++ rest, en) /\ blen pk = 32 /\ accepts_peer k pk.
  Proof. intros Hl H. destruct (server_done enc dec pub dh _ _ _ _ _ _ _ _ Hl H) as (pk & rest & en & _ & H1 & H2 & H3 & _). eauto 6. Qed.
  Lemma client_peer E k s sk er ew sk' : client_exchange dec pub dh E k s sk = KxDone (Ok (er, ew)) sk' ->
    exists pk rest en, content s = (pk ++ rest, en) /\ blen pk = 32 /\ accepts_peer k pk.
  Proof. intros H. destruct (client_done dec pub dh _ _ _ _ _ _ _ H) as (pk & rest & en & H1 & H2 & H3 & _). eauto 6. Qed.
  Lemma default_refuses secret pk : ~ accepts_peer (default_keys secret) pk.
  Proof. intros [H|[]]. discriminate. Qed.

  (** ** C32 *)
  Lemma serve_ok E k (good : list conn) (streams : list stream) : Forall2 (fun c s => exists sk, exchange_on enc pub dh E k c = KxDone (Ok s) sk) good streams ->
    map (encrypted_attempt conn stream (exchange_on enc pub dh E k)) (map AOk good) = map AOk streams.
  Proof. induction 1 as [|c s good streams [sk H] _ IH]; cbn [map encrypted_attempt]; [reflexivity|]. rewrite H, IH. reflexivity. Qed.

  Lemma one_unknown_peer E k good streams s sk secret pk rest en later :
    Forall2 (fun c st => exists sk, exchange_on enc pub dh E k c = KxDone (Ok st) sk) good streams ->
    content s = (pk ++ rest, en) -> blen pk = 32 -> ~ accepts_peer k pk ->
    serve enc pub dh E k (map AOk good ++ AOk (s, sk, secret) :: later) = (streams, ServeOk).
  Proof.
    intros H1 H2 H3 H4. unfold serve. rewrite map_app, (serve_ok _ _ _ _ H1). cbn [map encrypted_attempt exchange_on].
    rewrite (server_refuses enc pub dh E k secret s sk pk rest en H3 H2 H4). apply accept_until_failure.
  Qed.
  Lemma one_dropped_peer E k good streams s sk secret later :
    Forall2 (fun c st => exists sk, exchange_on enc pub dh E k c = KxDone (Ok st) sk) good streams ->
    blen (fst (content s)) < 32 -> snd (content s) <> EndIdle ->
    serve enc pub dh E k (map AOk good ++ AOk (s, sk, secret) :: later) = (streams, ServeOk).
  Proof.
    intros H1 H2 H3. unfold serve. rewrite map_app, (serve_ok _ _ _ _ H1). cbn [map encrypted_attempt exchange_on].
    destruct (read_key_sock E s) as [(pk & rest & en & s' & G1 & G2 & _)|[_ H]].
    - rewrite G2 in H2. cbn [fst] in H2. rewrite blen_app in H2. lia.
    - unfold server_exchange. destruct (snd (content s)); [contradiction| |]; destruct H as (s' & ->); apply accept_until_failure.
  Qed.
  Lemma silent_peer E k good streams s sk secret later :
    Forall2 (fun c st => exists sk, exchange_on enc pub dh E k c = KxDone (Ok st) sk) good streams ->
    blen (fst (content s)) < 32 -> snd (content s) = EndIdle ->
    serve enc pub dh E k (map AOk good ++ AOk (s, sk, secret) :: later) = (streams, ServeWaiting).
  Proof.
    intros H1 H2 H3. unfold serve. rewrite map_app, (serve_ok _ _ _ _ H1). cbn [map encrypted_attempt exchange_on].
    rewrite (server_waits enc dec pub dh E k secret s sk H2 H3). apply accept_until_stall.
  Qed.

  (** ** C53 *)
  Lemma handshake_reuse E k s1 s2 sk1 sk2 pk r1 r2 e1 e2 k1 k2 st1 st2 sk1' sk2' : blen k1 = 32 -> blen k2 = 32 -> blen pk = 32 ->
    content s1 = (pk ++ r1, e1) -> content s2 = (pk ++ r2, e2) ->
    server_exchange enc pub dh E k k1 s1 sk1 = KxDone (Ok st1) sk1' -> server_exchange enc pub dh E k k2 s2 sk2 = KxDone (Ok st2) sk2' ->
    exists key nonce, ws_out sk1' = ws_out sk1 ++ pub (k_secret k) ++ boxed (enc key nonce k1)
                   /\ ws_out sk2' = ws_out sk2 ++ pub (k_secret k) ++ boxed (enc key nonce k2).
  Proof.
    intros L1 L2 Lp C1 C2 H1 H2. destruct st1 as [er1 ew1], st2 as [er2 ew2].
    destruct (server_done enc dec pub dh _ _ _ _ _ _ _ _ L1 H1) as (p1 & x1 & y1 & z1 & A1 & A2 & _ & A3 & _).
    destruct (server_done enc dec pub dh _ _ _ _ _ _ _ _ L2 H2) as (p2 & x2 & y2 & z2 & B1 & B2 & _ & B3 & _).
    rewrite C1 in A1. rewrite C2 in B1. apply pk_unique in A1 as (<- & _); [|assumption..]. apply pk_unique in B1 as (<- & _); [|assumption..].
    exists (dh (k_secret k) pk), (nonce_from_number 0). split; assumption.
  Qed.
  Lemma handshake_leak E k s1 s2 sk1 sk2 pk r1 r2 e1 e2 k1 k2 st1 st2 sk1' sk2' : stream_cipher enc -> blen k1 = 32 -> blen k2 = 32 -> blen pk = 32 ->
    content s1 = (pk ++ r1, e1) -> content s2 = (pk ++ r2, e2) ->
    server_exchange enc pub dh E k k1 s1 sk1 = KxDone (Ok st1) sk1' -> server_exchange enc pub dh E k k2 s2 sk2 = KxDone (Ok st2) sk2' ->
    exists c1 c2, ws_out sk1' = ws_out sk1 ++ pub (k_secret k) ++ boxed c1 /\ ws_out sk2' = ws_out sk2 ++ pub (k_secret k) ++ boxed c2
      /\ mix (firstn 32 c1) (firstn 32 c2) = mix k1 k2.
  Proof.
    intros S L1 L2 Lp C1 C2 H1 H2. destruct (handshake_reuse _ _ _ _ _ _ _ _ _ _ _ _ _ _ _ _ _ L1 L2 Lp C1 C2 H1 H2) as (key & n & A & B).
    eexists _, _. split; [exact A|]. split; [exact B|].
    pose proof (reuse_leaks enc S key n k1 k2) as X. unfold blen in *.
    replace (length k1) with 32%nat in X by lia. replace (length k2) with 32%nat in X by lia. apply X. reflexivity.
  Qed.
End E.

Lemma writer_wrong_length enc E key p sk rest : (forall k n p, blen (enc k n p) = blen p + 16) ->
  2 ^ 32 - 16 <= blen p -> blen p < 2 ^ 32 -> 16 <= mem E -> ample (length p + 21) (ws_script sk) ->
  exists st c, run_ops enc [OWrite p; OFlush] (ewrite_new sk key) = (st, WReady) /\ blen c = blen p + 16 /\
  ws_out (ew_sock st) = ws_out sk ++ package c /\
  run_bytes E read_package (package c ++ rest)
  = POut (Ok (firstn (N.to_nat (blen c - 2 ^ 32)) c)) (skipn (N.to_nat (blen c - 2 ^ 32)) c ++ rest).
Proof.
  intros Hc H1 H2 Hm Ha. assert (Hne : p <> []) by (intros ->; rewrite blen_nil in H1; lia). assert (Hmax : blen p <= MAX_PLAIN) by (unfold MAX_PLAIN; lia).
  destruct (emit_one_ample enc (fun _ _ _ => None) (fun a => a) (fun a _ => a) sk key p Hc Hne Hmax Ha) as (st & R). pose proof (emit_one enc sk key p st WReady Hne Hmax R) as (O & _).
  destruct (package_wrong_length enc E key 0 p rest Hc H1 H2 Hm) as (c & S1 & S2 & S3). exists st, c. split; [exact R|]. split; [exact S2|]. rewrite <- S1. split; [exact O|exact S3].
Qed.

(** ** Toy primitives for the examples *)
Definition toy_tag (k n : bytes) : bytes := firstn 16 (n ++ k ++ repeat x00 16).
Definition toy_enc (k n p : bytes) : bytes := p ++ toy_tag k n.
Definition toy_dec (k n c : bytes) : option bytes :=
  let m := (length c - 16)%nat in
  if bytes_eqb (skipn m c) (toy_tag k n) then Some (firstn m c) else None.
Lemma toy_tag_length k n : length (toy_tag k n) = 16%nat.
Proof. unfold toy_tag. rewrite firstn_length, !app_length, repeat_length. lia. Qed.
Lemma toy_good : good_cipher toy_enc toy_dec.
Proof.
  intros k n p. unfold toy_enc, toy_dec. split.
  - rewrite app_length, toy_tag_length. replace (length p + 16 - 16)%nat with (length p) by lia.
    rewrite skipn_app, skipn_all, Nat.sub_diag. cbn [app skipn]. rewrite bytes_eqb_refl, firstn_app, Nat.sub_diag, firstn_all, firstn_O, app_nil_r. reflexivity.
  - rewrite blen_app. unfold blen at 2. rewrite toy_tag_length. reflexivity.
Qed.
Lemma mix_zero p : mix p (repeat x00 (length p)) = p.
Proof.
  induction p as [|b p IH]; [reflexivity|]. cbn [length repeat mix]. rewrite IH. f_equal.
  change (b2n x00) with 0. rewrite N.lxor_0_r. apply n2b_b2n.
Qed.
Lemma firstn_repeat {A} (a : A) : forall m n, (m <= n)%nat -> firstn m (repeat a n) = repeat a m.
Proof. induction m as [|m IH]; intros [|n] H; cbn; try reflexivity; [lia|]. rewrite IH by lia. reflexivity. Qed.
Lemma toy_stream : stream_cipher toy_enc.
Proof.
  exists (fun _ _ m => repeat x00 m), (fun k n _ => toy_tag k n). intros k n p. split; [rewrite mix_zero; reflexivity|].
  split; [apply repeat_length|]. intros m Hm. symmetry. apply firstn_repeat; exact Hm.
Qed.
Definition toy_pub (a : bytes) : bytes := firstn 32 (a ++ repeat x00 32).
Definition toy_dh (a P : bytes) : bytes := mix (toy_pub a) (toy_pub P).
Lemma toy_pub_length a : length (toy_pub a) = 32%nat.
Proof. unfold toy_pub. rewrite firstn_length, app_length, repeat_length. lia. Qed.
Lemma toy_pub_pub a : toy_pub (toy_pub a) = toy_pub a.
Proof. unfold toy_pub at 1. rewrite firstn_app, toy_pub_length. rewrite firstn_all2 by (rewrite toy_pub_length; lia). cbn. apply app_nil_r. Qed.
Lemma mix_comm : forall a b, mix a b = mix b a.
Proof. induction a as [|x a IH]; intros [|y b]; cbn; try reflexivity. rewrite IH, N.lxor_comm. reflexivity. Qed.
Lemma toy_good_dh : good_dh toy_pub toy_dh.
Proof.
  split.
  - intros a b. unfold toy_dh. rewrite !toy_pub_pub. apply mix_comm.
  - intros a. unfold blen. rewrite toy_pub_length. reflexivity.
Qed.

(** ** more derived statements *)
Lemma nonce_wraps enc E es ls key items out0 st p q : Forall2 (sendable E) es ls ->
  run_ops enc (emit_all ls) (ewrite_new (mk_wsock items out0) key) = (st, WReady) ->
  nth_error ls 0 = Some p -> nth_error ls (N.to_nat (2 ^ 64)) = Some q ->
  exists cs nonce, ws_out (ew_sock st) = out0 ++ boxes cs
    /\ nth_error cs 0 = Some (enc key nonce p) /\ nth_error cs (N.to_nat (2 ^ 64)) = Some (enc key nonce q).
Proof.
  intros Hl H Hp Hq. destruct (emit_ready enc ls key items out0 st (sendable_small _ _ _ Hl) H) as (E1 & _).
  eexists _, _. split; [exact E1|]. rewrite !ciphertexts_nth, Hp, Hq, N2Nat.id. split; reflexivity.
Qed.
Lemma emitting_completes enc E es ls key items out0 : (forall k n p, blen (enc k n p) = blen p + 16) -> Forall2 (sendable E) es ls ->
  ample (S (length (concat ls) + 20 * length ls)) items ->
  exists st, run_ops enc (emit_all ls) (ewrite_new (mk_wsock items out0) key) = (st, WReady).
Proof. intros Hc Hl Ha. apply emit_completes; [exact Hc|eapply sendable_small; exact Hl|exact Ha]. Qed.
Lemma short_package_hangs dec E n s key de ct rest pl en : 0 < n ->
  content s = (boxed ct ++ rest, en) -> receivable E ct -> dec key (nonce_from_number de) ct = Some pl -> blen pl < n ->
  exists q got st, exec (er_poll_read dec E) E (S (length s)) (RExact n (fun b => RDone (Ok b))) [] (mk_eread s key de [] RNone) = XLost q got st
    /\ got = pl /\ er_rem st = [].
Proof.
  intros Hn Hs [R1 R2] Hd Hl.
  destruct (exec_short dec E (RExact n (fun b => RDone (Ok b))) true n _ (or_introl (conj eq_refl eq_refl)) (S (length s)) (mk_eread s key de [] RNone)
    (boxed ct ++ rest) en ct rest pl eq_refl) as (st & X & _ & _ & X2 & _).
  - split; cbn; rewrite Hs; reflexivity.
  - apply Nat.lt_succ_diag_r.
  - apply read_package_run; assumption.
  - exact Hd.
  - exact Hl.
  - eexists _, _, st. split; [exact X|]. split; [reflexivity|exact X2].
Qed.
Lemma server_completes_any (enc : bytes -> bytes -> bytes -> bytes) pub dh E k secret s sk pk rest en :
  (forall k n p, blen (enc k n p) = blen p + 16) -> (forall a, blen (pub a) = 32) ->
  blen secret = 32 -> blen pk = 32 -> content s = (pk ++ rest, en) -> accepts_peer k pk -> ample 85 (ws_script sk) ->
  exists er ew sk', server_exchange enc pub dh E k secret s sk = KxDone (Ok (er, ew)) sk'.
Proof. exact (server_completes enc (fun _ _ _ => None) pub dh E k secret s sk pk rest en). Qed.
