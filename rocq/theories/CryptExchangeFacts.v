(** Proofs about the key exchange and the accept loop. *)
From Verif Require Import Base BaseFacts Reader Codec Spec CodecFacts DecodeFacts ReaderFacts Crypt SpecCrypt CryptWriteFacts CryptReadFacts CryptFacts CryptAttackFacts.

Lemma refused_spec k pk : refused k pk = false <-> accepts_peer k pk.
Proof.
  unfold refused, accepts_peer. destruct (k_allow_unknown k); cbn; [split; auto|].
  destruct (existsb (bytes_eqb pk) (k_known k)) eqn:X; cbn.
  - split; [|reflexivity]. intros _. right. apply existsb_exists in X as (x & Hx & He). apply bytes_eqb_spec in He. subst. exact Hx.
  - split; [discriminate|]. intros [H|H]; [discriminate|]. assert (existsb (bytes_eqb pk) (k_known k) = true); [|congruence].
    apply existsb_exists. exists pk. split; [exact H|apply bytes_eqb_refl].
Qed.

Lemma await_write_all_spec : forall fuel l sk sk' r, await_write_all fuel l sk = (sk', r) -> (length (ws_script sk) < fuel)%nat ->
  (exists cut, ws_out sk' ++ cut = ws_out sk ++ l /\ (r = WReady -> cut = []))
  /\ match r with
     | WReady => True
     | WErr k => exists i, In i (ws_script sk) /\ item_kind i k
     | WStuck => ws_script sk' = []
     | _ => False
     end.
Proof.
  induction fuel as [|fuel IH]; intros l sk sk' r; cbn [await_write_all]; [lia|].
  destruct (write_all l (ws_script sk) (ws_out sk)) as [[l' sk1] x] eqn:X. apply write_all_spec in X as (X1 & (u & X2) & X3).
  intros H Hf. destruct x; try contradiction.
  - injection H as <- <-. subst l'. split; [exists []; rewrite X1; auto|exact I].
  - injection H as <- <-. split; [exists l'; rewrite X1; split; [reflexivity|discriminate]|exact X3].
  - apply IH in H as ((cut & C1 & C2) & C3); [|lia]. split; [exists cut; rewrite C1, X1; auto|].
    destruct r; auto. destruct C3 as (i & Hi & Hk). exists i. split; [rewrite X2; apply in_or_app; right; exact Hi|exact Hk].
  - injection H as <- <-. split; [exists l'; rewrite X1; split; [reflexivity|discriminate]|apply X3].
Qed.
Lemma await_write_all_ample : forall fuel l sk m, (length (ws_script sk) < fuel)%nat -> ample (length l + m) (ws_script sk) ->
  exists sk', await_write_all fuel l sk = (sk', WReady) /\ ample m (ws_script sk').
Proof.
  induction fuel as [|fuel IH]; intros l sk m Hf Ha; [lia|]. cbn [await_write_all].
  destruct (write_all l (ws_script sk) (ws_out sk)) as [[l' sk1] x] eqn:X. pose proof (write_all_spec _ _ _ _ _ _ X) as (X1 & X2 & X3).
  destruct (write_all_ample _ _ _ _ _ _ m X Ha) as [[ -> | -> ] A].
  - subst l'. eauto.
  - apply IH; [lia|exact A].
Qed.

Lemma read_key_run E l : run_bytes E read_key l = if 32 <=? blen l then POut (Ok (firstn 32 l)) (skipn 32 l) else PMore.
Proof. reflexivity. Qed.

Lemma read_key_sock E s : 
  (exists pk rest en s', blen pk = 32 /\ content s = (pk ++ rest, en) /\ exec sock_read E (S (length s)) read_key [] s = XOut (Ok pk) s' /\ content s' = (rest, en))
  \/ (blen (fst (content s)) < 32 /\
     match snd (content s) with
     | EndIdle => exists q g s', exec sock_read E (S (length s)) read_key [] s = XIdle q g s'
     | EndEof => exists s', exec sock_read E (S (length s)) read_key [] s = XOut (Err (IoError UnexpectedEof)) s'
     | EndFail k => exists s', exec sock_read E (S (length s)) read_key [] s = XOut (Err (IoError k)) s'
     end).
Proof.
  pose proof (exec_sock E (S (length s)) read_key [] s ltac:(lia) ltac:(cbn; lia)) as X. cbn [app] in X. rewrite read_key_run in X.
  destruct (content s) as [l en] eqn:Hc. cbn [fst snd] in *. destruct (32 <=? blen l) eqn:H32.
  - left. destruct X as (s' & X1 & X2). exists (firstn 32 l), (skipn 32 l), en, s'. rewrite firstn_skipn.
    repeat split; auto. change 32%nat with (N.to_nat 32). apply blen_firstn. lia.
  - right. split; [lia|]. destruct en; auto. destruct X as (q & g & X & _). eauto.
Qed.
Lemma read_key_sock_pk E s pk rest en : blen pk = 32 -> content s = (pk ++ rest, en) ->
  exists s', exec sock_read E (S (length s)) read_key [] s = XOut (Ok pk) s' /\ content s' = (rest, en).
Proof.
  intros Hl Hc. destruct (read_key_sock E s) as [(pk' & rest' & en' & s' & H1 & H2 & H3 & H4)|[H _]].
  - rewrite Hc in H2. injection H2 as H2 <-.
    assert (pk' = pk) as ->.
    { apply (f_equal (firstn 32)) in H2. rewrite !firstn_len in H2 by (unfold blen in *; lia). congruence. }
    apply app_inv_head in H2. subst. eauto.
  - rewrite Hc in H. cbn [fst] in H. rewrite blen_app in H. lia.
Qed.

Section X.
  Context (enc : bytes -> bytes -> bytes -> bytes) (dec : bytes -> bytes -> bytes -> option bytes).
  Context (pub : bytes -> bytes) (dh : bytes -> bytes -> bytes).
  Notation server := (server_exchange enc pub dh). Notation client := (client_exchange dec pub dh).

  (** what the server puts on the wire in a completed exchange *)
  Definition server_hello (k : keys) (pk secret32 : bytes) : bytes :=
    pub (k_secret k) ++ boxed (enc (dh (k_secret k) pk) (nonce_from_number 0) secret32).

  Lemma emit_one sk key l st r : l <> [] -> blen l <= MAX_PLAIN -> run_ops enc [OWrite l; OFlush] (ewrite_new sk key) = (st, r) ->
    match r with
    | WReady => ws_out (ew_sock st) = ws_out sk ++ boxed (enc key (nonce_from_number 0) l)
        /\ st = mk_ewrite (ew_sock st) key 1 [] None None false true
    | WErr k => exists i, In i (ws_script sk) /\ item_kind i k
    | WStuck => ws_script (ew_sock st) = []
    | _ => False
    end.
  Proof.
    intros H1 H2 H. destruct sk as [items out0].
    change [OWrite l; OFlush] with (emit_all [l]) in H.
    assert (Hm : Forall small_msg [l]) by (constructor; [split; assumption|constructor]).
    destruct (run_ops_spec enc out0 key _ [] [] _ (emit_no_shutdown _) (new_inv enc out0 key items) (new_idle _ _) _ _ H) as ([_ R] & NP & HH).
    destruct r; try contradiction; try assumption.
    destruct HH as (I & (D1 & D2 & D3) & _). destruct (emit_ready enc [l] key items out0 st Hm H) as (E1 & E2 & _ & E4 & E5).
    split; [rewrite E1; cbn [ciphertexts]; rewrite boxes_one; reflexivity|].
    pose proof (wi_sd _ _ _ _ _ _ I) as D4. destruct st; cbn in *. subst. reflexivity.
  Qed.
  Lemma emit_one_ample sk key l : (forall k n p, blen (enc k n p) = blen p + 16) -> l <> [] -> blen l <= MAX_PLAIN ->
    ample (length l + 21) (ws_script sk) -> exists st, run_ops enc [OWrite l; OFlush] (ewrite_new sk key) = (st, WReady).
  Proof.
    intros Hc H1 H2 Ha. destruct sk as [items out0].
    apply (emit_completes enc [l] key items out0 Hc); [constructor; [split; assumption|constructor]|].
    cbn [concat length]. rewrite app_nil_r. eapply ample_le; [|exact Ha]. lia.
  Qed.

  Lemma server_done E k secret32 s sk er ew sk' : blen secret32 = 32 -> server E k secret32 s sk = KxDone (Ok (er, ew)) sk' ->
    exists pk rest en s', content s = (pk ++ rest, en) /\ blen pk = 32 /\ accepts_peer k pk
      /\ ws_out sk' = ws_out sk ++ server_hello k pk secret32
      /\ content s' = (rest, en) /\ fresh_read secret32 s' er /\ fresh_write secret32 sk' ew.
  Proof.
    intros Hl. unfold server_exchange. destruct (read_key_sock E s) as [(pk & rest & en & s' & H1 & H2 & H3 & H4)|[H1 H2]].
    - rewrite H3. destruct (refused k pk) eqn:Rf; [discriminate|]. destruct (send_plain (pub (k_secret k)) sk) as [sk1 r1] eqn:S1.
      unfold send_plain in S1. apply await_write_all_spec in S1 as ((cut & C1 & C2) & C3); [|lia].
      destruct r1; try discriminate. destruct (run_ops enc [OWrite secret32; OFlush] _) as [st r] eqn:RR.
      assert (Hne : secret32 <> []) by (intros ->; discriminate Hl).
      apply emit_one in RR; [|exact Hne|unfold MAX_PLAIN; lia]. destruct r; try discriminate. intros X.
      assert (Hx : (er_update_key secret32 (eread_new s' (dh (k_secret k) pk)), ew_update_key secret32 st) = (er, ew) /\ ew_sock st = sk').
      { injection X as X1 X2 X3. subst. auto. }
      destruct Hx as [X1 <-]. apply pair_equal_spec in X1 as [<- <-].
      destruct RR as [R1 R2]. exists pk, rest, en, s'. repeat split; auto.
      + apply refused_spec; exact Rf.
      + rewrite R1. rewrite (C2 eq_refl), app_nil_r in C1. rewrite C1. unfold server_hello. rewrite app_assoc. reflexivity.
      + unfold fresh_write. rewrite R2 at 1. reflexivity.
    - destruct (snd (content s)).
      + destruct H2 as (q & g & s' & ->). discriminate.
      + destruct H2 as (s' & ->). discriminate.
      + destruct H2 as (s' & ->). discriminate.
  Qed.

  Lemma server_completes E k secret32 s sk pk rest en : (forall k n p, blen (enc k n p) = blen p + 16) -> (forall a, blen (pub a) = 32) ->
    blen secret32 = 32 -> blen pk = 32 -> content s = (pk ++ rest, en) -> accepts_peer k pk -> ample 85 (ws_script sk) ->
    exists er ew sk', server E k secret32 s sk = KxDone (Ok (er, ew)) sk'.
  Proof.
    intros Hc Hp Hl Hpk Hs Ha Hm. unfold server_exchange. destruct (read_key_sock_pk E s pk rest en Hpk Hs) as (s' & -> & _).
    apply refused_spec in Ha. rewrite Ha.
    destruct (await_write_all_ample (S (length (ws_script sk))) (pub (k_secret k)) sk 53 ltac:(lia)) as (sk1 & S1 & A1).
    { specialize (Hp (k_secret k)). unfold blen in Hp. eapply ample_le; [|exact Hm]. lia. }
    unfold send_plain. rewrite S1.
    assert (Hne : secret32 <> []) by (intros ->; discriminate Hl).
    destruct (emit_one_ample sk1 (dh (k_secret k) pk) secret32 Hc Hne) as (st & ->).
    - unfold MAX_PLAIN; lia.
    - unfold blen in Hl. eapply ample_le; [|exact A1]. lia.
    - eauto.
  Qed.

  Lemma server_refuses E k secret32 s sk pk rest en : blen pk = 32 -> content s = (pk ++ rest, en) -> ~ accepts_peer k pk ->
    server E k secret32 s sk = KxDone (Err (UnknownPeer pk)) sk.
  Proof.
    intros Hpk Hs Ha. unfold server_exchange. destruct (read_key_sock_pk E s pk rest en Hpk Hs) as (s' & -> & _).
    destruct (refused k pk) eqn:Rf; [reflexivity|]. apply refused_spec in Rf. contradiction.
  Qed.
  Lemma server_waits E k secret32 s sk : blen (fst (content s)) < 32 -> snd (content s) = EndIdle ->
    server E k secret32 s sk = KxIdle sk.
  Proof.
    intros H1 H2. unfold server_exchange. destruct (read_key_sock E s) as [(pk & rest & en & s' & G1 & G2 & _)|[_ H]].
    - rewrite G2 in H1. cbn [fst] in H1. rewrite blen_app in H1. lia.
    - rewrite H2 in H. destruct H as (q & g & s' & ->). reflexivity.
  Qed.

  Lemma client_done E k s sk er ew sk' : client E k s sk = KxDone (Ok (er, ew)) sk' ->
    exists pk rest en, content s = (pk ++ rest, en) /\ blen pk = 32 /\ accepts_peer k pk
      /\ ws_out sk' = ws_out sk ++ pub (k_secret k) /\ er_key er = ew_key ew /\ fresh_write (ew_key ew) sk' ew.
  Proof.
    unfold client_exchange. destruct (send_plain (pub (k_secret k)) sk) as [sk1 r1] eqn:S1.
    unfold send_plain in S1. apply await_write_all_spec in S1 as ((cut & C1 & C2) & C3); [|lia].
    destruct r1; try discriminate.
    destruct (read_key_sock E s) as [(pk & rest & en & s' & H1 & H2 & H3 & H4)|[H1 H2]].
    - rewrite H3. destruct (refused k pk) eqn:Rf; [discriminate|].
      destruct (exec (er_poll_read dec E) _ _ read_key [] _) as [o er'|? ? ?|? ? ?|]; try discriminate. destruct o as [key|e|c]; try discriminate.
      intros X. assert (Hx : (er_update_key key er', ew_update_key key (ewrite_new sk1 (dh (k_secret k) pk))) = (er, ew) /\ sk1 = sk').
      { injection X as X1 X2 X3. subst. auto. }
      destruct Hx as [X1 <-]. apply pair_equal_spec in X1 as [<- <-].
      exists pk, rest, en. repeat split; auto; [apply refused_spec; exact Rf|]. rewrite (C2 eq_refl), app_nil_r in C1. exact C1.
    - destruct (snd (content s)).
      + destruct H2 as (q & g & s' & ->). discriminate.
      + destruct H2 as (s' & ->). discriminate.
      + destruct H2 as (s' & ->). discriminate.
  Qed.

  Lemma client_refuses E k s sk pk rest en : (forall a, blen (pub a) = 32) -> ample 32 (ws_script sk) ->
    blen pk = 32 -> content s = (pk ++ rest, en) -> ~ accepts_peer k pk ->
    exists sk', client E k s sk = KxDone (Err (UnknownPeer pk)) sk' /\ ws_out sk' = ws_out sk ++ pub (k_secret k).
  Proof.
    intros Hp Hm Hpk Hs Ha. unfold client_exchange.
    destruct (await_write_all_ample (S (length (ws_script sk))) (pub (k_secret k)) sk 0 ltac:(lia)) as (sk1 & S1 & A1).
    { specialize (Hp (k_secret k)). unfold blen in Hp. eapply ample_le; [|exact Hm]. lia. }
    unfold send_plain. rewrite S1. apply await_write_all_spec in S1 as ((cut & C1 & C2) & _); [|lia].
    destruct (read_key_sock_pk E s pk rest en Hpk Hs) as (s' & -> & _).
    destruct (refused k pk) eqn:Rf; [|apply refused_spec in Rf; contradiction].
    exists sk1. split; [reflexivity|]. rewrite (C2 eq_refl), app_nil_r in C1. exact C1.
  Qed.

  (** the client, given the server's public key and a package *)
  Lemma client_completes E k s sk pk ct key more rest en : (forall a, blen (pub a) = 32) ->
    blen pk = 32 -> accepts_peer k pk -> receivable E ct ->
    dec (dh (k_secret k) pk) (nonce_from_number 0) ct = Some (key ++ more) -> blen key = 32 ->
    content s = (pk ++ boxed ct ++ rest, en) -> ample 32 (ws_script sk) ->
    exists er ew sk' s', client E k s sk = KxDone (Ok (er, ew)) sk' /\ ws_out sk' = ws_out sk ++ pub (k_secret k)
      /\ content s' = (rest, en) /\ er = mk_eread s' key 0 more RNone /\ fresh_write key sk' ew.
  Proof.
    intros Hp Hpk Ha [R1 R2] Hd Hk Hs Hm. unfold client_exchange.
    destruct (await_write_all_ample (S (length (ws_script sk))) (pub (k_secret k)) sk 0 ltac:(lia)) as (sk1 & S1 & A1).
    { specialize (Hp (k_secret k)). unfold blen in Hp. eapply ample_le; [|exact Hm]. lia. }
    unfold send_plain. rewrite S1. apply await_write_all_spec in S1 as ((cut & C1 & C2) & _); [|lia].
    destruct (read_key_sock_pk E s pk _ en Hpk Hs) as (s' & -> & Hs').
    apply refused_spec in Ha. rewrite Ha.
    assert (Hst : starts read_key true 32 (fun b => RDone (Ok b))) by (left; auto).
    pose proof (read_package_run E ct rest R1 R2) as HR.
    assert (Hat : er_at E (eread_new s' (dh (k_secret k) pk)) (boxed ct ++ rest) en) by (split; cbn; rewrite Hs'; reflexivity).
    destruct (exec_package dec E read_key true 32 _ Hst ltac:(lia) (S (length s')) (eread_new s' (dh (k_secret k) pk)) (boxed ct ++ rest) en ct rest (key ++ more)
      (Ok key) more eq_refl Hat (Nat.lt_succ_diag_r _) HR Hd) as (st & -> & A & F & K & D & Rm).
    - rewrite read_key_run, blen_app. replace (32 <=? blen key + blen more) with true by lia.
      rewrite firstn_len, skipn_len by (unfold blen in Hk; lia). reflexivity.
    - eexists _, _, sk1, (er_sock st). split; [reflexivity|]. split; [rewrite (C2 eq_refl), app_nil_r in C1; exact C1|].
      destruct A as [A1' A2]. rewrite F in A2. split; [rewrite (surjective_pairing (content (er_sock st))), A1', A2; reflexivity|].
      split; [|reflexivity]. unfold er_update_key. rewrite Rm, F. reflexivity.
  Qed.

  (** a handshake package that decrypts to fewer than 32 bytes hangs the client *)
  Lemma client_hangs E k s sk pk ct pl rest en : (forall a, blen (pub a) = 32) ->
    blen pk = 32 -> accepts_peer k pk -> receivable E ct ->
    dec (dh (k_secret k) pk) (nonce_from_number 0) ct = Some pl -> blen pl < 32 ->
    content s = (pk ++ boxed ct ++ rest, en) -> ample 32 (ws_script sk) ->
    exists sk', client E k s sk = KxHang sk'.
  Proof.
    intros Hp Hpk Ha [R1 R2] Hd Hk Hs Hm. unfold client_exchange.
    destruct (await_write_all_ample (S (length (ws_script sk))) (pub (k_secret k)) sk 0 ltac:(lia)) as (sk1 & S1 & A1).
    { specialize (Hp (k_secret k)). unfold blen in Hp. eapply ample_le; [|exact Hm]. lia. }
    unfold send_plain. rewrite S1.
    destruct (read_key_sock_pk E s pk _ en Hpk Hs) as (s' & -> & Hs').
    apply refused_spec in Ha. rewrite Ha.
    assert (Hst : starts read_key true 32 (fun b => RDone (Ok b))) by (left; auto).
    pose proof (read_package_run E ct rest R1 R2) as HR.
    assert (Hat : er_at E (eread_new s' (dh (k_secret k) pk)) (boxed ct ++ rest) en) by (split; cbn; rewrite Hs'; reflexivity).
    destruct (exec_short dec E read_key true 32 _ Hst (S (length s')) (eread_new s' (dh (k_secret k) pk)) (boxed ct ++ rest) en ct rest pl
      eq_refl Hat (Nat.lt_succ_diag_r _) HR Hd ltac:(lia)) as (st & -> & _). eauto.
  Qed.

  (** the client's key comes from the bytes it receives alone *)
  Lemma client_replay E k s1 s2 sk1 sk2 er1 ew1 sk1' rest1 rest2 en1 en2 hello : (forall a, blen (pub a) = 32) ->
    client E k s1 sk1 = KxDone (Ok (er1, ew1)) sk1' ->
    content s1 = (hello ++ rest1, en1) -> content s2 = (hello ++ rest2, en2) ->
    (exists pk ct, hello = pk ++ boxed ct /\ blen pk = 32 /\ receivable E ct) ->
    ample 32 (ws_script sk2) ->
    exists er2 ew2 sk2', client E k s2 sk2 = KxDone (Ok (er2, ew2)) sk2'
      /\ ew_key ew2 = ew_key ew1 /\ er_key er2 = er_key er1 /\ ew_en ew2 = 0 /\ ew_en ew1 = 0.
  Proof.
    intros Hp H1 C1 C2 (pk & ct & -> & Hpk & Hr) Hm. rewrite <- app_assoc in C1, C2.
    assert (exists key more, accepts_peer k pk /\ dec (dh (k_secret k) pk) (nonce_from_number 0) ct = Some (key ++ more) /\ blen key = 32
       /\ ew_key ew1 = key /\ er_key er1 = key /\ ew_en ew1 = 0) as (key & more & Ha & Hd & Hk & K1 & K2 & K3).
    { revert H1. unfold client_exchange. destruct (send_plain (pub (k_secret k)) sk1) as [sk3 r1]. destruct r1; try discriminate.
      destruct (read_key_sock_pk E s1 pk _ en1 Hpk C1) as (s' & -> & Hs').
      destruct (refused k pk) eqn:Rf; [discriminate|]. apply refused_spec in Rf.
      assert (Hst : starts read_key true 32 (fun b => RDone (Ok b))) by (left; auto).
      pose proof (read_package_run E ct rest1 (proj1 Hr) (proj2 Hr)) as HR.
      assert (Hat : er_at E (eread_new s' (dh (k_secret k) pk)) (boxed ct ++ rest1) en1) by (split; cbn; rewrite Hs'; reflexivity).
      destruct (dec (dh (k_secret k) pk) (nonce_from_number 0) ct) as [pl|] eqn:Hd.
      - destruct (32 <=? blen pl) eqn:H32.
        + destruct (exec_package dec E read_key true 32 _ Hst ltac:(lia) (S (length s')) (eread_new s' (dh (k_secret k) pk)) _ en1 ct rest1 pl
            (Ok (firstn 32 pl)) (skipn 32 pl) eq_refl Hat (Nat.lt_succ_diag_r _) HR Hd) as (st & -> & A & F & K & D & Rm).
          { rewrite read_key_run, H32. reflexivity. }
          intros X. exists (firstn 32 pl), (skipn 32 pl). rewrite firstn_skipn. split; [exact Rf|]. split; [reflexivity|].
          split; [change 32%nat with (N.to_nat 32); apply blen_firstn; lia|].
          injection X as X1 X2 X3. subst er1 ew1. auto.
        + destruct (exec_short dec E read_key true 32 _ Hst (S (length s')) (eread_new s' (dh (k_secret k) pk)) _ en1 ct rest1 pl
            eq_refl Hat (Nat.lt_succ_diag_r _) HR Hd ltac:(lia)) as (st & -> & _). discriminate.
      - destruct (exec_bad dec E read_key true 32 _ Hst ltac:(lia) (S (length s')) (eread_new s' (dh (k_secret k) pk)) _ en1 ct rest1
            eq_refl Hat (Nat.lt_succ_diag_r _) HR Hd) as (st & -> & _). discriminate. }
    destruct (client_completes E k s2 sk2 pk ct key more rest2 en2 Hp Hpk Ha Hr Hd Hk C2 Hm) as (er & ew & sk' & s' & X & _ & _ & X1 & X2).
    exists er, ew, sk'. split; [exact X|]. subst er. rewrite X2. cbn. repeat split; congruence.
  Qed.

  Lemma agreement E ks kc secret32 ss sks rest_s en_s : good_cipher enc dec -> good_dh pub dh -> blen secret32 = 32 -> 48 <= mem E ->
    accepts_peer ks (pub (k_secret kc)) -> accepts_peer kc (pub (k_secret ks)) ->
    content ss = (pub (k_secret kc) ++ rest_s, en_s) -> ample 85 (ws_script sks) ->
    exists ers ews sks' ss', server E ks secret32 ss sks = KxDone (Ok (ers, ews)) sks'
      /\ fresh_read secret32 ss' ers /\ content ss' = (rest_s, en_s) /\ fresh_write secret32 sks' ews
      /\ forall sc skc rest_c en_c x, ws_out sks' = ws_out sks ++ x -> content sc = (x ++ rest_c, en_c) -> ample 32 (ws_script skc) ->
         exists erc ewc skc' sc', client E kc sc skc = KxDone (Ok (erc, ewc)) skc'
           /\ fresh_read secret32 sc' erc /\ content sc' = (rest_c, en_c) /\ fresh_write secret32 skc' ewc
           /\ ws_out skc' = ws_out skc ++ pub (k_secret kc).
  Proof.
    intros G [D1 D2] Hl Hmem As Ac Hs Hm.
    destruct (server_completes E ks secret32 ss sks (pub (k_secret kc)) rest_s en_s (fun k n p => proj2 (G k n p)) D2 Hl (D2 _) Hs As Hm) as (ers & ews & sks' & Hd).
    destruct (server_done _ _ _ _ _ _ _ _ Hl Hd) as (pk & rest & en & ss' & C1 & Hpk & _ & Ho & C2 & Fr & Fw).
    rewrite Hs in C1. injection C1 as C1 <-.
    assert (pk = pub (k_secret kc)) as ->.
    { apply (f_equal (firstn 32)) in C1. specialize (D2 (k_secret kc)). rewrite !firstn_len in C1 by (unfold blen in *; lia). congruence. }
    apply app_inv_head in C1. subst rest.
    exists ers, ews, sks', ss'. repeat split; auto.
    intros sc skc rest_c en_c x Hx Hc Hm2. rewrite Ho in Hx. apply app_inv_head in Hx. subst x. unfold server_hello in Hc. rewrite <- app_assoc in Hc.
    destruct (G (dh (k_secret ks) (pub (k_secret kc))) (nonce_from_number 0) secret32) as [G1 G2].
    destruct (client_completes E kc sc skc (pub (k_secret ks)) (enc (dh (k_secret ks) (pub (k_secret kc))) (nonce_from_number 0) secret32) secret32 [] rest_c en_c D2 (D2 _) Ac)
      as (erc & ewc & skc' & sc' & X1 & X2 & X3 & X4 & X5); auto.
    - split; rewrite G2, Hl; [reflexivity|exact Hmem].
    - rewrite app_nil_r, D1. exact G1.
    - exists erc, ewc, skc', sc'. repeat split; auto.
  Qed.
End X.

(** * accept loop *)
Lemma accept_until_failure C (cs : list C) e later : accept_loop (map AOk cs ++ AErr e :: later) = (cs, ServeOk).
Proof. induction cs as [|c cs IH]; cbn; [reflexivity|]. rewrite IH. reflexivity. Qed.
Lemma accept_until_stall C (cs : list C) later : accept_loop (map AOk cs ++ AStall :: later) = (cs, ServeWaiting).
Proof. induction cs as [|c cs IH]; cbn; [reflexivity|]. rewrite IH. reflexivity. Qed.
Lemma accept_all C (cs : list C) : accept_loop (map AOk cs) = (cs, ServeWaiting).
Proof. induction cs as [|c cs IH]; cbn; [reflexivity|]. rewrite IH. reflexivity. Qed.
Lemma accept_loop_inv C (l : list (attempt C)) cs r : accept_loop l = (cs, r) ->
  exists later, l = map AOk cs ++ later /\
  match r with
  | ServeWaiting => later = [] \/ exists l', later = AStall :: l'
  | ServeOk => exists e l', later = AErr e :: l'
  | ServeCrash c => exists l', later = ACrash c :: l'
  end.
Proof.
  revert cs r. induction l as [|a l IH]; intros cs r; cbn [accept_loop].
  - intros H; injection H as <- <-. exists []. auto.
  - destruct a as [c|e|c|].
    + destruct (accept_loop l) as [cs' r']. intros H; injection H as <- <-. destruct (IH _ _ eq_refl) as (later & -> & H).
      exists later. split; [reflexivity|exact H].
    + intros H; injection H as <- <-. eexists. split; [reflexivity|]. eauto.
    + intros H; injection H as <- <-. eexists. split; [reflexivity|]. eauto.
    + intros H; injection H as <- <-. eexists. split; [reflexivity|]. eauto.
Qed.

(** * consequences of nonce reuse for a stream cipher *)
Lemma mix_n x y z : length x = length y -> length y = length z -> mix (mix x z) (mix y z) = mix x y.
Proof.
  revert y z. induction x as [|a x IH]; intros [|b y] [|c z]; cbn; try discriminate; try reflexivity.
  intros H1 H2. injection H1 as H1. injection H2 as H2. f_equal; [|apply IH; assumption].
  rewrite !b2n_n2b. f_equal.
  assert (X : forall u v, u < 256 -> v < 256 -> N.lxor u v < 256).
  { intros u v Hu Hv. destruct (N.eq_dec (N.lxor u v) 0) as [->|Hz]; [lia|].
    change 256 with (2 ^ 8). apply N.log2_lt_pow2; [lia|]. eapply N.le_lt_trans; [apply N.log2_lxor|].
    apply N.max_lub_lt; (destruct (N.eq_dec u 0) as [->|]; [cbn; lia|]) || idtac;
    [apply N.log2_lt_pow2; [lia|exact Hu]|destruct (N.eq_dec v 0) as [->|]; [cbn; lia|apply N.log2_lt_pow2; [lia|exact Hv]]]. }
  rewrite !N.mod_small by (apply X; apply b2n_lt).
  rewrite (N.lxor_comm (b2n b) (b2n c)), N.lxor_assoc, <- (N.lxor_assoc (b2n c) (b2n c)), N.lxor_nilpotent, N.lxor_0_l. reflexivity.
Qed.
Lemma mix_length a : forall b, length a = length b -> length (mix a b) = length a.
Proof. induction a as [|x a IH]; intros [|y b]; cbn; try discriminate; auto. Qed.

Lemma reuse_leaks enc : stream_cipher enc -> forall k n p q, length p = length q ->
  mix (firstn (length p) (enc k n p)) (firstn (length q) (enc k n q)) = mix p q.
Proof.
  intros (ks & tag & H) k n p q Hl. destruct (H k n p) as (-> & L1 & _). destruct (H k n q) as (-> & L2 & _).
  rewrite !firstn_len by (apply mix_length; congruence). rewrite <- Hl in *. apply mix_n; congruence.
Qed.

Section Y.
  Context (enc : bytes -> bytes -> bytes -> bytes) (dec : bytes -> bytes -> bytes -> option bytes).
  Context (pub : bytes -> bytes) (dh : bytes -> bytes -> bytes).
  Notation server := (server_exchange enc pub dh). Notation client := (client_exchange dec pub dh).

  Lemma client_done_given E k s sk er ew sk' pk ct rest en pl : client E k s sk = KxDone (Ok (er, ew)) sk' ->
    content s = (pk ++ boxed ct ++ rest, en) -> blen pk = 32 -> receivable E ct ->
    dec (dh (k_secret k) pk) (nonce_from_number 0) ct = Some pl ->
    accepts_peer k pk /\ 32 <= blen pl /\ ws_out sk' = ws_out sk ++ pub (k_secret k) /\
    exists s', content s' = (rest, en) /\ er = mk_eread s' (firstn 32 pl) 0 (skipn 32 pl) RNone /\ fresh_write (firstn 32 pl) sk' ew.
  Proof.
    intros H1 Hs Hpk [R1 R2] Hd. revert H1. unfold client_exchange.
    destruct (send_plain (pub (k_secret k)) sk) as [sk1 r1] eqn:S1.
    unfold send_plain in S1. apply await_write_all_spec in S1 as ((cut & C1 & C2) & C3); [|lia].
    destruct r1; try discriminate. rewrite (C2 eq_refl), app_nil_r in C1.
    destruct (read_key_sock_pk E s pk _ en Hpk Hs) as (s' & -> & Hs').
    destruct (refused k pk) eqn:Rf; [discriminate|]. apply refused_spec in Rf.
    assert (Hst : starts read_key true 32 (fun b => RDone (Ok b))) by (left; auto).
    pose proof (read_package_run E ct rest R1 R2) as HR.
    assert (Hat : er_at E (eread_new s' (dh (k_secret k) pk)) (boxed ct ++ rest) en) by (split; cbn; rewrite Hs'; reflexivity).
    destruct (32 <=? blen pl) eqn:H32.
    - destruct (exec_package dec E read_key true 32 _ Hst ltac:(lia) (S (length s')) (eread_new s' (dh (k_secret k) pk)) _ en ct rest pl
        (Ok (firstn 32 pl)) (skipn 32 pl) eq_refl Hat (Nat.lt_succ_diag_r _) HR Hd) as (st & -> & A & F & K & D & Rm).
      { rewrite read_key_run, H32. reflexivity. }
      intros X. assert (Hx : (er_update_key (firstn 32 pl) st, ew_update_key (firstn 32 pl) (ewrite_new sk1 (dh (k_secret k) pk))) = (er, ew) /\ sk1 = sk').
      { inversion X. subst. auto. }
      destruct Hx as [X1 <-]. apply pair_equal_spec in X1 as [<- <-].
      split; [exact Rf|]. split; [lia|]. split; [exact C1|]. exists (er_sock st). destruct A as [A1 A2]. rewrite F in A2.
      split; [rewrite (surjective_pairing (content (er_sock st))), A1, A2; reflexivity|].
      split; [|reflexivity]. unfold er_update_key. rewrite Rm, F. reflexivity.
    - destruct (exec_short dec E read_key true 32 _ Hst (S (length s')) (eread_new s' (dh (k_secret k) pk)) _ en ct rest pl
        eq_refl Hat (Nat.lt_succ_diag_r _) HR Hd ltac:(lia)) as (st & -> & _). discriminate.
  Qed.

  Lemma pk_unique (a b r1 r2 : bytes) (e1 e2 : tend) : blen a = 32 -> blen b = 32 -> (a ++ r1, e1) = (b ++ r2, e2) -> a = b /\ r1 = r2 /\ e1 = e2.
  Proof.
    intros Ha Hb H. injection H as H <-. assert (a = b) as ->.
    { apply (f_equal (firstn 32)) in H. rewrite !firstn_len in H by (unfold blen in *; lia). exact H. }
    apply app_inv_head in H. auto.
  Qed.

  Lemma established_facts E ks kc secret rest_s en_s rest_c en_c ers ews erc ewc : good_cipher enc dec -> good_dh pub dh ->
    established enc dec pub dh E ks kc secret rest_s en_s rest_c en_c ers ews erc ewc ->
    accepts_peer ks (pub (k_secret kc)) /\ accepts_peer kc (pub (k_secret ks)) /\
    (exists ss, content ss = (rest_s, en_s) /\ fresh_read secret ss ers) /\ (exists sks, fresh_write secret sks ews) /\
    (exists sc, content sc = (rest_c, en_c) /\ fresh_read secret sc erc) /\ (exists skc, fresh_write secret skc ewc).
  Proof.
    intros G [D1 D2] [Hl Hm (ss & sks & sc & skc & sks' & skc' & x & S1 & S2 & C1 & Ho & C2)].
    destruct (server_done enc dec pub dh E ks secret ss sks ers ews sks' Hl S1) as (pk & rest & en & ss' & C3 & Hpk & Ac & Ho' & C4 & Fr & Fw).
    rewrite C1 in C3. apply pk_unique in C3 as (<- & <- & <-); [|apply D2|exact Hpk].
    rewrite Ho' in Ho. apply app_inv_head in Ho. subst x. unfold server_hello in C2. rewrite <- app_assoc in C2.
    destruct (G (dh (k_secret ks) (pub (k_secret kc))) (nonce_from_number 0) secret) as [G1 G2].
    destruct (client_done_given E kc sc skc erc ewc skc' _ _ _ _ secret S2 C2 (D2 _)) as (Ac' & _ & _ & sc' & X1 & X2 & X3).
    - split; rewrite G2, Hl; [reflexivity|exact Hm].
    - rewrite D1. exact G1.
    - rewrite firstn_all2 in X2 by (unfold blen in Hl; lia). rewrite skipn_all2 in X2 by (unfold blen in Hl; lia).
      rewrite firstn_all2 in X3 by (unfold blen in Hl; lia).
      repeat split; auto; eauto.
  Qed.
End Y.

(** ** shutting down an encrypted write half *)
Lemma flush_keeps_sd enc st st' r : ew_poll_flush enc st = (st', r) -> ew_fut_shutdown st' = ew_fut_shutdown st.
Proof.
  assert (P : forall s0 l s1 r1, poll_fut_flush s0 l = (s1, r1) -> ew_fut_shutdown s1 = ew_fut_shutdown s0).
  { intros s0 l s1 r1. unfold poll_fut_flush. destruct (write_all _ _ _) as [[l' sk] x]. destruct x; intros H; injection H as <- <-; reflexivity. }
  unfold ew_poll_flush. destruct (ew_fut_flush st); [apply P|]. destruct (ew_inner st); [|intros H; injection H as <- <-; reflexivity].
  destruct (0 <? _); intros H; apply P in H; exact H.
Qed.
Lemma await_shutdown enc : forall fuel st, ew_fut_shutdown st = false ->
  await_op enc fuel OShutdown st = match await_op enc fuel OFlush st with
    | (st', WReady) => if ew_inner st'
        then (mk_ewrite (ew_sock st') (ew_key st') (ew_en st') (ew_buf st') (ew_fut_write st') (ew_fut_flush st') true false, WLost)
        else (st', WPanic PanicNone)
    | r => r
    end.
Proof.
  induction fuel as [|fuel IH]; intros st Hs; cbn [await_op poll_op]; [reflexivity|].
  unfold ew_poll_shutdown. rewrite Hs. destruct (ew_poll_flush enc st) as [st1 r1] eqn:E. pose proof (flush_keeps_sd _ _ _ _ E) as K.
  destruct r1; try reflexivity.
  - destruct (ew_inner st1) eqn:Hi; reflexivity.
  - apply IH. congruence.
Qed.

Lemma shutdown_lost enc os key items out0 st0 st1 r : no_shutdown os ->
  run_ops enc os (ewrite_new (mk_wsock items out0) key) = (st0, WReady) ->
  run_op enc OShutdown st0 = (st1, r) ->
  match r with
  | WErr k => In (WFail k) items \/ (k = WriteZero /\ In (WAcc 0) items)
  | WStuck => ws_script (ew_sock st1) = []
  | WLost => exists st2, poll_op enc OShutdown st1 = (st2, WReady) /\ ws_out (ew_sock st2) = ws_out (ew_sock st1)
     /\ (exists ps, ws_out (ew_sock st2) = out0 ++ boxes (ciphertexts enc key 0 ps) /\ concat ps ++ ew_buf st2 = written os)
     /\ snd (run_op enc OFlush st2) = WPanic PanicNone /\ snd (run_op enc OShutdown st2) = WPanic PanicNone
     /\ forall b, 1024 <= blen b -> snd (run_op enc (OWrite b) st2) = WPanic PanicNone
  | _ => False
  end.
Proof.
  intros Hs H0 H.
  destruct (run_ops_spec enc out0 key os [] [] _ Hs (new_inv enc out0 key items) (new_idle _ _) _ _ H0) as ([[u Hu] _] & _ & I & D & _).
  unfold run_op in H. rewrite await_shutdown in H by (apply (wi_sd _ _ _ _ _ _ I)).
  destruct (await_op enc _ OFlush st0) as [st' r'] eqn:E.
  pose proof (run_flush enc out0 key _ _ _ I D _ _ E) as [N [[_ R] (B & Q)]].
  destruct r'; try contradiction.
  - destruct Q as [I1 (F1 & F2 & F3)]. rewrite F3 in H. injection H as <- <-.
    eexists. split; [reflexivity|]. cbn [ew_sock ws_out]. split; [reflexivity|].
    split.
    { eexists. split; [|apply (wi_data _ _ _ _ _ _ I1)]. pose proof (wi_out _ _ _ _ _ _ I1) as Ho. unfold in_flight in Ho.
      rewrite F1, F2, app_nil_r in Ho. exact Ho. }
    unfold run_op. cbn [await_op poll_op]. unfold ew_poll_shutdown, ew_poll_flush. cbn [ew_fut_shutdown ew_fut_flush ew_inner].
    rewrite F2. split; [reflexivity|]. split; [reflexivity|]. intros b Hb. destruct b as [|b0 bt]; [cbn in Hb; lia|].
    unfold ew_poll_write. cbn [ew_fut_write ew_buf ew_inner]. rewrite F1.
    replace (WRITE_BUF_SIZE <=? blen (ew_buf st' ++ b0 :: bt)) with true by (rewrite blen_app; unfold WRITE_BUF_SIZE; lia). reflexivity.
  - injection H as <- <-. destruct R as (i & Hi & Hk).
    assert (Hin : In i items) by (cbn in Hu; rewrite Hu; apply in_or_app; right; exact Hi).
    destruct Hk as [->|[-> ->]]; auto.
  - injection H as <- <-. exact R.
Qed.
(** on a transport that takes the bytes, shutdown always ends without a wake-up *)
Lemma shutdown_ample enc os key items out0 st0 : (forall k n p, blen (enc k n p) = blen p + 16) -> no_shutdown os ->
  run_ops enc os (ewrite_new (mk_wsock items out0) key) = (st0, WReady) -> blen (ew_buf st0) < 2 ^ 32 ->
  ample (S (length (ew_buf st0) + 20)) (ws_script (ew_sock st0)) ->
  snd (run_op enc OShutdown st0) = WLost.
Proof.
  intros Hc Hs H0 Hl Ha.
  destruct (run_ops_spec enc out0 key os [] [] _ Hs (new_inv enc out0 key items) (new_idle _ _) _ _ H0) as (_ & _ & I & D & _).
  destruct (run_ops enc [OFlush] st0) as [st1 r1] eqn:E1.
  assert (exists st', run_ops enc [OFlush] st0 = (st', WReady)) as [st' E].
  { eapply (run_ops_progress enc [OFlush]); [intros [X|[]]; discriminate|exact I|exact D| |].
    - pose proof (wi_out _ _ _ _ _ _ I) as Ho. destruct D as (F1 & F2 & F3). unfold in_flight in Ho. rewrite F1, F2, app_nil_r in Ho. exact Ho.
    - eapply ample_le; [|exact Ha]. apply le_n_S. cbn [plan fst snd]. unfold after_flush. destruct (ew_buf st0) as [|b0 t] eqn:Eb.
      + cbn [fst]. rewrite skipn_all. cbn. lia.
      + rewrite <- Eb in *. cbn [fst]. rewrite skipn_app, skipn_all, Nat.sub_diag. cbn [app skipn].
        rewrite (boxes_length enc key Hc). cbn [concat length]. rewrite app_nil_r.
        destruct (cutoff_small (ew_buf st0)) as [-> _]; [unfold MAX_PLAIN; lia|]. lia. }
  unfold run_op. rewrite await_shutdown by (apply (wi_sd _ _ _ _ _ _ I)).
  cbn [run_ops] in E. unfold run_op in E. destruct (await_op enc _ OFlush st0) as [st2 r2] eqn:E2.
  pose proof (run_flush enc out0 key _ _ _ I D _ _ E2) as [_ [_ (_ & Q)]].
  destruct r2; try discriminate. destruct Q as [_ (_ & _ & ->)]. reflexivity.
Qed.
