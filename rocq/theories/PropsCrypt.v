(** Theorems about encrypted connections: C20-C32 and C53-C57.
    [enc]/[dec] stand for ChaCha20-Poly1305, [pub]/[dh] for X25519; what is assumed of them is in each statement
    ([good_cipher], [good_dh], [stream_cipher], [unforged] in SpecCrypt.v). *)
From Coq Require Import Strings.String.
From Verif Require Import Base BaseFacts Utf8Facts Reader Codec Spec Crypt SpecCrypt CryptFacts CryptAttackFacts CryptExchangeFacts CryptClaims PropsEvent.

(** ** Concrete material for the examples *)
Definition key1 : bytes := repeat x41 32.
Definition takes (n : nat) : list witem := repeat (WAcc 1) n.
Definition feed (l : bytes) : script := map TB l.
Definition sample_bytes : bytes := match into_bytes sample_event with Ok l => l | _ => [] end.
Example sample_sendable : sendable sample_env sample_event sample_bytes.
Proof.
  destruct sample_ok as (A & B & C & _). split; [exact A|]. split; [exact C|]. split; [exact B|].
  split; [vm_compute; reflexivity|]. split; vm_compute; [reflexivity|discriminate].
Qed.
Example sample_ample : forall n, ample n (takes n).
Proof.
  intros n. split; induction n as [|n IH]; cbn; auto. apply le_n_S. exact IH.
Qed.

(** ** C20 *)
Theorem C20_one_nonce_per_package : forall enc os key items out0 st r, no_shutdown os ->
  run_ops enc os (ewrite_new (mk_wsock items out0) key) = (st, r) ->
  exists nps cut, ws_out (ew_sock st) ++ cut = out0 ++ boxes (map (fun np => enc key (fst np) (snd np)) nps)
    /\ Forall (fun np => length (fst np) = 12%nat) nps
    /\ forall i j n p q, N.of_nat i < 2 ^ 64 -> N.of_nat j < 2 ^ 64 -> nth_error nps i = Some (n, p) -> nth_error nps j = Some (n, q) -> i = j.
Proof. exact writer_nonces. Qed.
Print Assumptions C20_one_nonce_per_package.

Theorem C20_nonce_of_number : forall i j, i < 2 ^ 64 -> j < 2 ^ 64 -> nonce_from_number i = nonce_from_number j -> i = j.
Proof. exact nonce_inj. Qed.
Print Assumptions C20_nonce_of_number.

(** the counter wraps: package 2^64 has the nonce of package 0 *)
Theorem C20_wraps_refuted : forall enc E es ls key items out0 st p q, Forall2 (sendable E) es ls ->
  run_ops enc (emit_all ls) (ewrite_new (mk_wsock items out0) key) = (st, WReady) ->
  nth_error ls 0 = Some p -> nth_error ls (N.to_nat (2 ^ 64)) = Some q ->
  exists cs nonce, ws_out (ew_sock st) = out0 ++ boxes cs
    /\ nth_error cs 0 = Some (enc key nonce p) /\ nth_error cs (N.to_nat (2 ^ 64)) = Some (enc key nonce q).
Proof. exact nonce_wraps. Qed.
Print Assumptions C20_wraps_refuted.

Example C20_case : let run := run_ops toy_enc [OWrite (str "one"); OFlush; OWrite (str "two"); OFlush] (ewrite_new (mk_wsock (takes 100) []) key1) in
  snd run = WReady /\ ws_out (ew_sock (fst run))
    = boxes [toy_enc key1 (repeat x00 12) (str "one"); toy_enc key1 ([x00;x00;x00;x00;x00;x00;x00;x01] ++ repeat x00 4) (str "two")].
Proof. vm_compute. split; reflexivity. Qed.

(** ** C21 *)
Theorem C21_both_directions_share_nonces : forall enc dec pub dh E ks kc secret rest_s en_s rest_c en_c ers ews erc ewc es fs ls ms ews' ewc',
  good_cipher enc dec -> good_dh pub dh ->
  established enc dec pub dh E ks kc secret rest_s en_s rest_c en_c ers ews erc ewc ->
  Forall2 (sendable E) es ls -> Forall2 (sendable E) fs ms ->
  run_ops enc (emit_all ls) ews = (ews', WReady) -> run_ops enc (emit_all ms) ewc = (ewc', WReady) ->
  exists xs xc, ws_out (ew_sock ews') = ws_out (ew_sock ews) ++ boxes xs /\ ws_out (ew_sock ewc') = ws_out (ew_sock ewc) ++ boxes xc
    /\ length xs = length ls /\ length xc = length ms
    /\ forall i p q, nth_error ls i = Some p -> nth_error ms i = Some q ->
       exists nonce, nth_error xs i = Some (enc secret nonce p) /\ nth_error xc i = Some (enc secret nonce q).
Proof. exact same_nonces. Qed.
Print Assumptions C21_both_directions_share_nonces.

(** what an eavesdropper learns from two packages of equal length under one nonce of a stream cipher *)
Theorem C21_two_packages_leak : forall enc, stream_cipher enc -> forall key nonce p q, length p = length q ->
  mix (firstn (length p) (enc key nonce p)) (firstn (length q) (enc key nonce q)) = mix p q.
Proof. exact reuse_leaks. Qed.
Print Assumptions C21_two_packages_leak.

(** an established connection, with what it takes to establish it *)
Definition secret1 : bytes := repeat x53 32.
Definition skey : keys := mk_keys (repeat x07 32) [toy_pub (repeat x09 32)] false.
Definition ckey : keys := mk_keys (repeat x09 32) [toy_pub (repeat x07 32)] false.
Definition hello : bytes := server_hello toy_enc toy_pub toy_dh skey (toy_pub (repeat x09 32)) secret1.
Definition srv (rest : bytes) := server_exchange toy_enc toy_pub toy_dh sample_env skey secret1 (feed (toy_pub (k_secret ckey) ++ rest)) (mk_wsock (takes 300) []).
Definition cli (rest : bytes) := client_exchange toy_dec toy_pub toy_dh sample_env ckey (feed (hello ++ rest)) (mk_wsock (takes 300) []).
Lemma content_feed l : content (feed l) = (l, EndIdle).
Proof. induction l as [|b l IH]; [reflexivity|]. change (content (feed (b :: l))) with (let (x, e) := content (feed l) in (b :: x, e)). rewrite IH. reflexivity. Qed.
Example established_case : forall rest_s rest_c,
  exists ers ews erc ewc, established toy_enc toy_dec toy_pub toy_dh sample_env skey ckey secret1 rest_s EndIdle rest_c EndIdle ers ews erc ewc.
Proof.
  intros rest_s rest_c.
  destruct (agreement toy_enc toy_dec toy_pub toy_dh sample_env skey ckey secret1 (feed (toy_pub (k_secret ckey) ++ rest_s)) (mk_wsock (takes 85) []) rest_s EndIdle
    toy_good toy_good_dh eq_refl ltac:(vm_compute; discriminate) ltac:(right; left; reflexivity) ltac:(right; left; reflexivity) (content_feed _) (sample_ample 85))
    as (ers & ews & sks' & ss' & H1 & _ & _ & _ & H2).
  destruct (server_done toy_enc toy_dec toy_pub toy_dh _ _ _ _ _ _ _ _ (eq_refl : blen secret1 = 32) H1) as (pk & rest & en & s' & _ & _ & _ & Ho & _).
  destruct (H2 (feed (server_hello toy_enc toy_pub toy_dh skey pk secret1 ++ rest_c)) (mk_wsock (takes 32) []) rest_c EndIdle _ Ho (content_feed _) (sample_ample 32))
    as (erc & ewc & skc' & sc' & H3 & _).
  exists ers, ews, erc, ewc. split; [reflexivity|vm_compute; discriminate|].
  do 7 eexists. split; [exact H1|]. split; [exact H3|]. split; [apply content_feed|]. split; [exact Ho|apply content_feed].
Qed.

(** ** C22 *)
Theorem C22_events_arrive : forall enc dec E es ls key items out0 st s en x, good_cipher enc dec -> Forall2 (sendable E) es ls ->
  run_ops enc (emit_all ls) (ewrite_new (mk_wsock items out0) key) = (st, WReady) ->
  ws_out (ew_sock st) = out0 ++ x -> content s = (x, en) ->
  exists r, receives dec E (eread_new s key) (map drop_empty_ns es) r /\ ends_with en r.
Proof. exact delivery_all. Qed.
Print Assumptions C22_events_arrive.

(** if the writer fails or the connection breaks at any byte, the reader still gets a prefix of the events and the right end *)
Theorem C22_a_prefix_arrives : forall enc dec E es ls key items out0 st r0 s en x y, good_cipher enc dec -> Forall2 (sendable E) es ls ->
  run_ops enc (emit_all ls) (ewrite_new (mk_wsock items out0) key) = (st, r0) ->
  ws_out (ew_sock st) = out0 ++ x ++ y -> content s = (x, en) ->
  exists m r, receives dec E (eread_new s key) (map drop_empty_ns (firstn m es)) r /\ ends_with en r.
Proof. exact delivery_cut. Qed.
Print Assumptions C22_a_prefix_arrives.

(** a transport that keeps accepting bytes, however few at a time, takes everything *)
Theorem C22_emitting_completes : forall enc E es ls key items out0, (forall k n p, blen (enc k n p) = blen p + 16) -> Forall2 (sendable E) es ls ->
  ample (S (length (concat ls) + 20 * length ls)) items ->
  exists st, run_ops enc (emit_all ls) (ewrite_new (mk_wsock items out0) key) = (st, WReady).
Proof. exact emitting_completes. Qed.
Print Assumptions C22_emitting_completes.

(** from the key exchange on, in both directions *)
Theorem C22_connection_server_to_client : forall enc dec pub dh E ks kc secret rest_s en_s rest_c en_c ers ews erc ewc es ls ews',
  good_cipher enc dec -> good_dh pub dh ->
  established enc dec pub dh E ks kc secret rest_s en_s rest_c en_c ers ews erc ewc ->
  Forall2 (sendable E) es ls -> run_ops enc (emit_all ls) ews = (ews', WReady) ->
  ws_out (ew_sock ews') = ws_out (ew_sock ews) ++ rest_c ->
  exists r, receives dec E erc (map drop_empty_ns es) r /\ ends_with en_c r.
Proof. exact connection_delivers. Qed.
Print Assumptions C22_connection_server_to_client.
Theorem C22_connection_client_to_server : forall enc dec pub dh E ks kc secret rest_s en_s rest_c en_c ers ews erc ewc fs ms ewc',
  good_cipher enc dec -> good_dh pub dh ->
  established enc dec pub dh E ks kc secret rest_s en_s rest_c en_c ers ews erc ewc ->
  Forall2 (sendable E) fs ms -> run_ops enc (emit_all ms) ewc = (ewc', WReady) ->
  ws_out (ew_sock ewc') = ws_out (ew_sock ewc) ++ rest_s ->
  exists r, receives dec E ers (map drop_empty_ns fs) r /\ ends_with en_s r.
Proof. exact connection_delivers_back. Qed.
Print Assumptions C22_connection_client_to_server.

(** the sender's socket takes one byte every other poll, the receiver's socket delivers one byte every other poll *)
Example C22_case :
  let out := ws_out (ew_sock (fst (run_ops toy_enc (emit_all [sample_bytes; sample_bytes]) (ewrite_new (mk_wsock (flat_map (fun _ => [WPend; WAcc 1]) (seq 0 200)) []) key1)))) in
  let s := flat_map (fun b => [TPend; TB b; TCut]) out ++ [TEof] in
  match read_event toy_dec sample_env (eread_new s key1) with
  | XOut (Ok e) st => e = sample_event /\ match read_event toy_dec sample_env st with
     | XOut (Ok e) st => e = sample_event /\ match read_event toy_dec sample_env st with XOut (Err (IoError UnexpectedEof)) _ => True | _ => False end
     | _ => False end
  | _ => False
  end.
Proof. vm_compute. repeat split. Qed.

(** ** C23: [cs] is the packages that arrive, in whatever relation to those sent. *)
Theorem C23_accepted_bytes : forall enc dec E key ls cs tail s en ns, good_cipher enc dec ->
  unforged dec key (ciphertexts enc key 0 ls) cs -> N.of_nat (length cs) <= 2 ^ 64 -> Forall (receivable E) cs -> incomplete E tail ->
  content s = (boxes cs ++ tail, en) ->
  exists m more, intact m (ciphertexts enc key 0 ls) cs /\ fst (polls dec E (eread_new s key) ns) ++ more = concat (firstn m ls).
Proof. exact tampered_bytes. Qed.
Print Assumptions C23_accepted_bytes.

Theorem C23_accepted_events : forall enc dec E key es ls cs tail s en, good_cipher enc dec -> Forall2 (sendable E) es ls ->
  unforged dec key (ciphertexts enc key 0 ls) cs -> N.of_nat (length cs) <= 2 ^ 64 -> Forall (receivable E) cs -> incomplete E tail ->
  content s = (boxes cs ++ tail, en) ->
  exists m r, intact m (ciphertexts enc key 0 ls) cs /\ receives dec E (eread_new s key) (map drop_empty_ns (firstn m es)) r
    /\ (m = length cs -> ends_with en r) /\ (m <> length cs -> exists st', r = XOut (Err (IoError InvalidData)) st').
Proof. exact tampered_events. Qed.
Print Assumptions C23_accepted_events.

(** every byte stream is such a sequence of packages, up to a length field the receiver has no memory for *)
Theorem C23_every_stream : forall E l, exists cs tail, l = boxes cs ++ tail /\ Forall (receivable E) cs
  /\ (incomplete E tail \/ exists n b, tail = be 4 n ++ b /\ n < 2 ^ 32 /\ mem E < n).
Proof. exact every_stream. Qed.
Print Assumptions C23_every_stream.

(** two packages swapped; the second repeated *)
Example C23_case : let c := ciphertexts toy_enc key1 0 [sample_bytes; str "other"; str "x"] in
  match c with
  | [a; b; d] => unforged toy_dec key1 c [b; a] /\ unforged toy_dec key1 c [a; b; b] /\ intact 2 c [a; b; b] /\ Forall (receivable sample_env) [a; b; b]
  | _ => False
  end.
Proof.
  cbn [ciphertexts]. split; [|split; [|split]].
  - intros [|[|[|i]]] c; cbn [nth_error]; intros H; try discriminate; injection H as <-; intros _; vm_compute; reflexivity.
  - intros [|[|[|[|i]]]] c; cbn [nth_error]; intros H; try discriminate; injection H as <-; intros X;
      first [exfalso; apply X; vm_compute; reflexivity | vm_compute; reflexivity].
  - split; [reflexivity|]. split; [cbn; auto|]. split; [cbn; auto|]. intros c. cbn [nth_error]. intros H. injection H as <-. vm_compute. discriminate.
  - repeat constructor; vm_compute; (reflexivity || discriminate).
Qed.

(** ** C24: a side that receives back exactly what it sent itself takes it for the peer's events. *)
Theorem C24_client_accepts_its_own_packages_refuted : forall enc dec pub dh E ks kc secret rest_s en_s rest_c en_c ers ews erc ewc fs ms ewc',
  good_cipher enc dec -> good_dh pub dh ->
  established enc dec pub dh E ks kc secret rest_s en_s rest_c en_c ers ews erc ewc ->
  Forall2 (sendable E) fs ms -> run_ops enc (emit_all ms) ewc = (ewc', WReady) ->
  ws_out (ew_sock ewc') = ws_out (ew_sock ewc) ++ rest_c ->
  exists r, receives dec E erc (map drop_empty_ns fs) r /\ ends_with en_c r.
Proof. exact reflection. Qed.
Print Assumptions C24_client_accepts_its_own_packages_refuted.
Theorem C24_server_accepts_its_own_packages_refuted : forall enc dec pub dh E ks kc secret rest_s en_s rest_c en_c ers ews erc ewc es ls ews',
  good_cipher enc dec -> good_dh pub dh ->
  established enc dec pub dh E ks kc secret rest_s en_s rest_c en_c ers ews erc ewc ->
  Forall2 (sendable E) es ls -> run_ops enc (emit_all ls) ews = (ews', WReady) ->
  ws_out (ew_sock ews') = ws_out (ew_sock ews) ++ rest_s ->
  exists r, receives dec E ers (map drop_empty_ns es) r /\ ends_with en_s r.
Proof. exact reflection_server. Qed.
Print Assumptions C24_server_accepts_its_own_packages_refuted.

Example C24_case : let reflected := boxes (ciphertexts toy_enc secret1 0 [sample_bytes]) in
  match cli reflected with
  | KxDone (Ok (er, ew)) _ =>
    match run_ops toy_enc (emit_all [sample_bytes]) ew with
    | (ew', WReady) => ws_out (ew_sock ew') = ws_out (ew_sock ew) ++ reflected
        /\ match read_event toy_dec sample_env er with XOut (Ok e) _ => e = sample_event | _ => False end
    | _ => False
    end
  | _ => False
  end.
Proof. vm_compute. split; reflexivity. Qed.

(** ** C25 *)
Theorem C25_writer_loses_nothing : forall enc os key items out0 st r, no_shutdown os ->
  run_ops enc os (ewrite_new (mk_wsock items out0) key) = (st, r) ->
  exists ps cut done later, ws_out (ew_sock st) ++ cut = out0 ++ boxes (ciphertexts enc key 0 ps)
    /\ Forall (fun p => p <> [] /\ blen p < 2 ^ 32) ps
    /\ os = done ++ later /\ concat ps ++ ew_buf st = written done
    /\ match r with
       | WReady => cut = [] /\ later = []
       | WErr k => In (WFail k) items \/ (k = WriteZero /\ In (WAcc 0) items)
       | WStuck => ws_script (ew_sock st) = []
       | _ => False
       end.
Proof. exact writer_general. Qed.
Print Assumptions C25_writer_loses_nothing.
Theorem C25_flush_empties_the_buffer : forall enc os key items out0 st, no_shutdown os ->
  run_ops enc (os ++ [OFlush]) (ewrite_new (mk_wsock items out0) key) = (st, WReady) ->
  blen (written os) < 2 ^ 32 -> ew_buf st = [].
Proof. exact writer_flushed. Qed.
Print Assumptions C25_flush_empties_the_buffer.

(** ** C26 *)
Theorem C26_cancelled_write_refuted : forall enc key items out0 os st0 b st1, no_shutdown os ->
  run_ops enc os (ewrite_new (mk_wsock items out0) key) = (st0, WReady) -> b <> [] ->
  poll_op enc (OWrite b) st0 = (st1, WPending) ->
  (forall b' st2, b' <> [] -> run_op enc (OWrite b') st1 = (st2, WReady) ->
     exists ps, ws_out (ew_sock st2) = out0 ++ boxes (ciphertexts enc key 0 ps) /\ concat ps ++ ew_buf st2 = written os ++ b)
  /\ snd (run_op enc OFlush st1) = WPanic PanicNone
  /\ snd (run_op enc OShutdown st1) = WPanic PanicNone.
Proof. exact cancelled_write. Qed.
Print Assumptions C26_cancelled_write_refuted.
Theorem C26_cancelled_flush_refuted : forall enc key items out0 os st0 st1, no_shutdown os ->
  run_ops enc os (ewrite_new (mk_wsock items out0) key) = (st0, WReady) -> blen (ew_buf st0) < 2 ^ 32 ->
  poll_op enc OFlush st0 = (st1, WPending) ->
  (forall b st2, b <> [] -> blen b < 1024 -> run_ops enc [OWrite b; OFlush] st1 = (st2, WReady) ->
     ew_buf st2 = b /\ exists ps, ws_out (ew_sock st2) = out0 ++ boxes (ciphertexts enc key 0 ps) /\ concat ps = written os)
  /\ (forall b, 1024 <= blen b -> snd (run_op enc (OWrite b) st1) = WPanic PanicNone).
Proof. exact cancelled_flush. Qed.
Print Assumptions C26_cancelled_flush_refuted.

Example C26_case : exists st1 st2, poll_op toy_enc (OWrite (repeat x61 1024)) (ewrite_new (mk_wsock ([WAcc 100; WPend] ++ takes 2000) []) key1) = (st1, WPending)
  /\ run_op toy_enc (OWrite (str "lost")) st1 = (st2, WReady)
  /\ ew_buf st2 = [] /\ ws_out (ew_sock st2) = boxed (toy_enc key1 (repeat x00 12) (repeat x61 1024)).
Proof. eexists _, _. split; [vm_compute; reflexivity|]. split; [vm_compute; reflexivity|]. split; vm_compute; reflexivity. Qed.
Example C26_case_flush : exists st0 st1 st2, run_ops toy_enc [OWrite (str "first")] (ewrite_new (mk_wsock ([WAcc 1; WPend] ++ takes 2000) []) key1) = (st0, WReady)
  /\ poll_op toy_enc OFlush st0 = (st1, WPending) /\ run_ops toy_enc [OWrite (str "second"); OFlush] st1 = (st2, WReady) /\ ew_buf st2 = str "second".
Proof. do 3 eexists. split; [vm_compute; reflexivity|]. split; [vm_compute; reflexivity|]. split; vm_compute; reflexivity. Qed.

(** ** C27 *)
Theorem C27_package_round_trip : forall E c rest s en fuel, (length s < fuel)%nat -> receivable E c -> content s = (package c ++ rest, en) ->
  exists s', exec sock_read E fuel read_package [] s = XOut (Ok c) s' /\ content s' = (rest, en).
Proof. exact package_exact. Qed.
Print Assumptions C27_package_round_trip.
Theorem C27_largest_packages_refuted : forall enc E key n p rest, (forall k n p, blen (enc k n p) = blen p + 16) ->
  2 ^ 32 - 16 <= blen p -> blen p < 2 ^ 32 -> 16 <= mem E ->
  exists c, sealed enc key n p = package c /\ blen c = blen p + 16 /\
  run_bytes E read_package (sealed enc key n p ++ rest)
  = POut (Ok (firstn (N.to_nat (blen c - 2 ^ 32)) c)) (skipn (N.to_nat (blen c - 2 ^ 32)) c ++ rest).
Proof. exact package_wrong_length. Qed.
Print Assumptions C27_largest_packages_refuted.
(** and the writer does send such packages: one write of so many bytes and a flush *)
Theorem C27_writer_sends_them_refuted : forall enc E key p sk rest, (forall k n p, blen (enc k n p) = blen p + 16) ->
  2 ^ 32 - 16 <= blen p -> blen p < 2 ^ 32 -> 16 <= mem E -> ample (length p + 21) (ws_script sk) ->
  exists st c, run_ops enc [OWrite p; OFlush] (ewrite_new sk key) = (st, WReady) /\ blen c = blen p + 16 /\
  ws_out (ew_sock st) = ws_out sk ++ package c /\
  run_bytes E read_package (package c ++ rest)
  = POut (Ok (firstn (N.to_nat (blen c - 2 ^ 32)) c)) (skipn (N.to_nat (blen c - 2 ^ 32)) c ++ rest).
Proof. exact writer_wrong_length. Qed.
Print Assumptions C27_writer_sends_them_refuted.
Example C27_case : receivable sample_env (str "ciphertext") /\ package (str "ab") = [x00; x00; x00; x02; x61; x62].
Proof. split; [split; vm_compute; [reflexivity|discriminate]|reflexivity]. Qed.

(** ** C28 *)
(** what the current package holds is served exactly, without touching the transport *)
Theorem C28_inside_a_package : forall A dec E fuel (p : rd A) st o r, er_fut st = RNone -> run_bytes E p (er_rem st) = POut o r ->
  exec (er_poll_read dec E) E (S fuel) p [] st = XOut o (mk_eread (er_sock st) (er_key st) (er_de st) r RNone).
Proof. exact @exec_inside. Qed.
Print Assumptions C28_inside_a_package.
(** a read of [n] bytes from a package that holds fewer: the whole package is consumed and nobody is woken *)
Theorem C28_package_too_short_refuted : forall dec E n s key de ct rest pl en, 0 < n ->
  content s = (boxed ct ++ rest, en) -> receivable E ct -> dec key (nonce_from_number de) ct = Some pl -> blen pl < n ->
  exists q got st, exec (er_poll_read dec E) E (S (length s)) (RExact n (fun b => RDone (Ok b))) [] (mk_eread s key de [] RNone) = XLost q got st
    /\ got = pl /\ er_rem st = [].
Proof. exact short_package_hangs. Qed.
Print Assumptions C28_package_too_short_refuted.
(** an integer read that starts with [r] left over and finds the next package not there yet drops [r] *)
Theorem C28_straddling_integer_refuted : forall A dec E k (c : N -> rd A) fuel s key de r ct rest pl en o r2,
  0 < blen r -> blen r < N.of_nat k -> (length s < fuel)%nat ->
  content s = (boxed ct ++ rest, en) -> receivable E ct -> dec key (nonce_from_number de) ct = Some pl ->
  run_bytes E (RInt k c) pl = POut o r2 ->
  exists st', exec (er_poll_read dec E) E (S fuel) (RInt k c) [] (mk_eread (TPend :: s) key de r RNone) = XOut o st'.
Proof. exact @int_read_loses. Qed.
Print Assumptions C28_straddling_integer_refuted.
(** reading into a buffer keeps them *)
Theorem C28_straddling_buffer : forall dec E fuel s key de r ct rest pl en n,
  0 < blen r -> blen r < n -> n <= blen r + blen pl -> (length s < fuel)%nat ->
  content s = (boxed ct ++ rest, en) -> receivable E ct -> dec key (nonce_from_number de) ct = Some pl ->
  exists st', exec (er_poll_read dec E) E (S fuel) (RExact n (fun b => RDone (Ok b))) [] (mk_eread (TPend :: s) key de r RNone)
    = XOut (Ok (firstn (N.to_nat n) (r ++ pl))) st'.
Proof. exact exact_read_keeps. Qed.
Print Assumptions C28_straddling_buffer.

(** the number 0x01020304 sent as two packages of two bytes is read as 0x03040506 *)
Example C28_case : let ct := toy_enc key1 (nonce_from_number 1) [x03; x04; x05; x06] in
  match exec (er_poll_read toy_dec sample_env) sample_env 60 (RInt 4 (fun n => RDone (Ok n))) [] (mk_eread (TPend :: feed (boxed ct)) key1 1 [x01; x02] RNone) with
  | XOut (Ok n) _ => n = 0x03040506
  | _ => False
  end.
Proof. vm_compute. reflexivity. Qed.

(** ** C29 *)
Theorem C29_polling_after_an_error : forall dec E st n st' b k, er_poll_read dec E st n = (st', b, PFail k) ->
  forall ns, polls dec E st' ns = ([], map (fun _ => PPanic PanicResumed) ns).
Proof. exact after_failure. Qed.
Print Assumptions C29_polling_after_an_error.
Example C29_case : exists st', er_poll_read toy_dec sample_env (eread_new (feed (boxed (str "not an authentic package"))) key1) 8 = (st', [], PFail InvalidData).
Proof. eexists. vm_compute. reflexivity. Qed.

(** ** C30 *)
Theorem C30_exchange_completes : forall enc dec pub dh E ks kc secret32 ss sks rest_s en_s,
  good_cipher enc dec -> good_dh pub dh -> blen secret32 = 32 -> 48 <= mem E ->
  accepts_peer ks (pub (k_secret kc)) -> accepts_peer kc (pub (k_secret ks)) ->
  content ss = (pub (k_secret kc) ++ rest_s, en_s) -> ample 85 (ws_script sks) ->
  exists ers ews sks' ss', server_exchange enc pub dh E ks secret32 ss sks = KxDone (Ok (ers, ews)) sks'
    /\ fresh_read secret32 ss' ers /\ content ss' = (rest_s, en_s) /\ fresh_write secret32 sks' ews
    /\ forall sc skc rest_c en_c x, ws_out sks' = ws_out sks ++ x -> content sc = (x ++ rest_c, en_c) -> ample 32 (ws_script skc) ->
       exists erc ewc skc' sc', client_exchange dec pub dh E kc sc skc = KxDone (Ok (erc, ewc)) skc'
         /\ fresh_read secret32 sc' erc /\ content sc' = (rest_c, en_c) /\ fresh_write secret32 skc' ewc
         /\ ws_out skc' = ws_out skc ++ pub (k_secret kc).
Proof. exact agreement. Qed.
Print Assumptions C30_exchange_completes.
Theorem C30_both_sides_agree : forall enc dec pub dh E ks kc secret rest_s en_s rest_c en_c ers ews erc ewc, good_cipher enc dec -> good_dh pub dh ->
  established enc dec pub dh E ks kc secret rest_s en_s rest_c en_c ers ews erc ewc ->
  accepts_peer ks (pub (k_secret kc)) /\ accepts_peer kc (pub (k_secret ks)) /\
  (exists ss, content ss = (rest_s, en_s) /\ fresh_read secret ss ers) /\ (exists sks, fresh_write secret sks ews) /\
  (exists sc, content sc = (rest_c, en_c) /\ fresh_read secret sc erc) /\ (exists skc, fresh_write secret skc ewc).
Proof. exact established_facts. Qed.
Print Assumptions C30_both_sides_agree.

(** ** C31 *)
Theorem C31_server_peer_is_accepted : forall (enc : bytes -> bytes -> bytes -> bytes) pub dh E k secret s sk er ew sk',
  blen secret = 32 -> server_exchange enc pub dh E k secret s sk = KxDone (Ok (er, ew)) sk' ->
  exists pk rest en, content s = (pk ++ rest, en) /\ blen pk = 32 /\ accepts_peer k pk.
Proof. exact (fun enc => server_peer enc (fun _ _ _ => None)). Qed.
Print Assumptions C31_server_peer_is_accepted.
Theorem C31_client_peer_is_accepted : forall dec pub dh E k s sk er ew sk',
  client_exchange dec pub dh E k s sk = KxDone (Ok (er, ew)) sk' ->
  exists pk rest en, content s = (pk ++ rest, en) /\ blen pk = 32 /\ accepts_peer k pk.
Proof. exact client_peer. Qed.
Print Assumptions C31_client_peer_is_accepted.
(** the server's side of the connection is as before: nothing was sent *)
Theorem C31_server_refuses_unknown : forall enc pub dh E k secret s sk pk rest en, blen pk = 32 -> content s = (pk ++ rest, en) -> ~ accepts_peer k pk ->
  server_exchange enc pub dh E k secret s sk = KxDone (Err (UnknownPeer pk)) sk.
Proof. exact server_refuses. Qed.
Print Assumptions C31_server_refuses_unknown.
Theorem C31_client_refuses_unknown : forall dec pub dh E k s sk pk rest en, (forall a, blen (pub a) = 32) -> ample 32 (ws_script sk) ->
  blen pk = 32 -> content s = (pk ++ rest, en) -> ~ accepts_peer k pk ->
  exists sk', client_exchange dec pub dh E k s sk = KxDone (Err (UnknownPeer pk)) sk' /\ ws_out sk' = ws_out sk ++ pub (k_secret k).
Proof. exact (client_refuses (fun _ _ p => p)). Qed.
Print Assumptions C31_client_refuses_unknown.
Theorem C31_default_options_refuse_everyone : forall secret pk, ~ accepts_peer (default_keys secret) pk.
Proof. exact default_refuses. Qed.
Print Assumptions C31_default_options_refuse_everyone.
Example C31_case : server_exchange toy_enc toy_pub toy_dh sample_env skey secret1 (feed (repeat x2a 32)) (mk_wsock (takes 300) [])
  = KxDone (Err (UnknownPeer (repeat x2a 32))) (mk_wsock (takes 300) []).
Proof. vm_compute. reflexivity. Qed.

(** ** C32 *)
Theorem C32_serves_until_the_first_failure : forall C (l : list (attempt C)) cs r, accept_loop l = (cs, r) ->
  exists later, l = map AOk cs ++ later /\
  match r with
  | ServeWaiting => later = [] \/ exists l', later = AStall :: l'
  | ServeOk => exists e l', later = AErr e :: l'
  | ServeCrash c => exists l', later = ACrash c :: l'
  end.
Proof. exact accept_loop_inv. Qed.
Print Assumptions C32_serves_until_the_first_failure.
Theorem C32_an_unknown_peer_ends_the_server : forall enc pub dh E k good streams s sk secret pk rest en later,
  Forall2 (fun c st => exists sk, exchange_on enc pub dh E k c = KxDone (Ok st) sk) good streams ->
  content s = (pk ++ rest, en) -> blen pk = 32 -> ~ accepts_peer k pk ->
  serve enc pub dh E k (map AOk good ++ AOk (s, sk, secret) :: later) = (streams, ServeOk).
Proof. exact one_unknown_peer. Qed.
Print Assumptions C32_an_unknown_peer_ends_the_server.
Theorem C32_a_dropped_connection_ends_the_server : forall enc pub dh E k good streams s sk secret later,
  Forall2 (fun c st => exists sk, exchange_on enc pub dh E k c = KxDone (Ok st) sk) good streams ->
  blen (fst (content s)) < 32 -> snd (content s) <> EndIdle ->
  serve enc pub dh E k (map AOk good ++ AOk (s, sk, secret) :: later) = (streams, ServeOk).
Proof. exact (fun enc => one_dropped_peer enc (fun _ _ _ => None)). Qed.
Print Assumptions C32_a_dropped_connection_ends_the_server.
(** a port scan between two good clients *)
Example C32_case : let good := AOk (feed (toy_pub (k_secret ckey)), mk_wsock (takes 300) [], secret1) in
  let r := serve toy_enc toy_pub toy_dh sample_env skey [good; AOk ([TEof], mk_wsock [] [], secret1); good] in
  length (fst r) = 1%nat /\ snd r = ServeOk.
Proof. vm_compute. split; reflexivity. Qed.

(** ** C53 *)
Theorem C53_handshakes_share_key_and_nonce : forall (enc : bytes -> bytes -> bytes -> bytes) pub dh
    E k s1 s2 sk1 sk2 pk r1 r2 e1 e2 k1 k2 st1 st2 sk1' sk2', blen k1 = 32 -> blen k2 = 32 -> blen pk = 32 ->
  content s1 = (pk ++ r1, e1) -> content s2 = (pk ++ r2, e2) ->
  server_exchange enc pub dh E k k1 s1 sk1 = KxDone (Ok st1) sk1' -> server_exchange enc pub dh E k k2 s2 sk2 = KxDone (Ok st2) sk2' ->
  exists key nonce, ws_out sk1' = ws_out sk1 ++ pub (k_secret k) ++ boxed (enc key nonce k1)
                 /\ ws_out sk2' = ws_out sk2 ++ pub (k_secret k) ++ boxed (enc key nonce k2).
Proof. exact (fun enc => handshake_reuse enc (fun _ _ _ => None)). Qed.
Print Assumptions C53_handshakes_share_key_and_nonce.
(** so the difference of the two session keys is on the wire *)
Theorem C53_session_keys_leak : forall (enc : bytes -> bytes -> bytes -> bytes) pub dh
    E k s1 s2 sk1 sk2 pk r1 r2 e1 e2 k1 k2 st1 st2 sk1' sk2', stream_cipher enc -> blen k1 = 32 -> blen k2 = 32 -> blen pk = 32 ->
  content s1 = (pk ++ r1, e1) -> content s2 = (pk ++ r2, e2) ->
  server_exchange enc pub dh E k k1 s1 sk1 = KxDone (Ok st1) sk1' -> server_exchange enc pub dh E k k2 s2 sk2 = KxDone (Ok st2) sk2' ->
  exists c1 c2, ws_out sk1' = ws_out sk1 ++ pub (k_secret k) ++ boxed c1 /\ ws_out sk2' = ws_out sk2 ++ pub (k_secret k) ++ boxed c2
    /\ mix (firstn 32 c1) (firstn 32 c2) = mix k1 k2.
Proof. exact (fun enc => handshake_leak enc (fun _ _ _ => None)). Qed.
Print Assumptions C53_session_keys_leak.
Example C53_case : stream_cipher toy_enc /\ exists st1 sk1 st2 sk2,
  srv [] = KxDone (Ok st1) sk1 /\ server_exchange toy_enc toy_pub toy_dh sample_env skey (repeat x54 32) (feed (toy_pub (k_secret ckey))) (mk_wsock (takes 300) []) = KxDone (Ok st2) sk2.
Proof. split; [exact toy_stream|]. do 4 eexists. split; vm_compute; reflexivity. Qed.

(** ** C54 *)
Theorem C54_replayed_handshake : forall dec pub dh E k s1 s2 sk1 sk2 er1 ew1 sk1' rest1 rest2 en1 en2 hello, (forall a, blen (pub a) = 32) ->
  client_exchange dec pub dh E k s1 sk1 = KxDone (Ok (er1, ew1)) sk1' ->
  content s1 = (hello ++ rest1, en1) -> content s2 = (hello ++ rest2, en2) ->
  (exists pk ct, hello = pk ++ boxed ct /\ blen pk = 32 /\ receivable E ct) ->
  ample 32 (ws_script sk2) ->
  exists er2 ew2 sk2', client_exchange dec pub dh E k s2 sk2 = KxDone (Ok (er2, ew2)) sk2'
    /\ ew_key ew2 = ew_key ew1 /\ er_key er2 = er_key er1 /\ ew_en ew2 = 0 /\ ew_en ew1 = 0.
Proof. exact (client_replay (fun _ _ p => p)). Qed.
Print Assumptions C54_replayed_handshake.
Example C54_case : exists er ew sk, cli [] = KxDone (Ok (er, ew)) sk /\ ew_key ew = secret1
  /\ hello = toy_pub (k_secret skey) ++ boxed (toy_enc (toy_dh (k_secret skey) (toy_pub (k_secret ckey))) (repeat x00 12) secret1).
Proof. do 3 eexists. split; [vm_compute; reflexivity|]. split; vm_compute; reflexivity. Qed.

(** ** C55: nothing but the public key is needed *)
Theorem C55_public_key_is_enough : forall (enc : bytes -> bytes -> bytes -> bytes) pub dh E k secret s sk pk rest en,
  (forall k n p, blen (enc k n p) = blen p + 16) -> (forall a, blen (pub a) = 32) ->
  blen secret = 32 -> blen pk = 32 -> content s = (pk ++ rest, en) -> accepts_peer k pk -> ample 85 (ws_script sk) ->
  exists er ew sk', server_exchange enc pub dh E k secret s sk = KxDone (Ok (er, ew)) sk'.
Proof. exact server_completes_any. Qed.
Print Assumptions C55_public_key_is_enough.
Example C55_case : exists st sk, srv (str "no secret key was needed to send this") = KxDone (Ok st) sk.
Proof. do 2 eexists. vm_compute. reflexivity. Qed.

(** ** C56 *)
Theorem C56_what_shutdown_does : forall enc os key items out0 st0 st1 r, no_shutdown os ->
  run_ops enc os (ewrite_new (mk_wsock items out0) key) = (st0, WReady) ->
  run_op enc OShutdown st0 = (st1, r) ->
  match r with
  | WErr k => In (WFail k) items \/ (k = WriteZero /\ In (WAcc 0) items)
  | WStuck => ws_script (ew_sock st1) = []
  | WLost => exists st2, poll_op enc OShutdown st1 = (st2, WReady) /\ ws_out (ew_sock st2) = ws_out (ew_sock st1)
     /\ (exists ps, ws_out (ew_sock st2) = out0 ++ boxes (ciphertexts enc key 0 ps) /\ concat ps ++ ew_buf st2 = written os)
     /\ snd (run_op enc OFlush st2) = WPanic PanicNone /\ snd (run_op enc OShutdown st2) = WPanic PanicNone
     /\ forall b, 1024 <= blen b -> snd (run_op enc (OWrite b) st2) = WPanic PanicNone
  | _ => False
  end.
Proof. exact shutdown_lost. Qed.
Print Assumptions C56_what_shutdown_does.
Theorem C56_shutdown_never_returns : forall enc os key items out0 st0, (forall k n p, blen (enc k n p) = blen p + 16) -> no_shutdown os ->
  run_ops enc os (ewrite_new (mk_wsock items out0) key) = (st0, WReady) -> blen (ew_buf st0) < 2 ^ 32 ->
  ample (S (length (ew_buf st0) + 20)) (ws_script (ew_sock st0)) ->
  snd (run_op enc OShutdown st0) = WLost.
Proof. exact shutdown_ample. Qed.
Print Assumptions C56_shutdown_never_returns.
Example C56_case : snd (run_op toy_enc OShutdown (fst (run_ops toy_enc (emit_all [sample_bytes]) (ewrite_new (mk_wsock (takes 300) []) key1)))) = WLost.
Proof. vm_compute. reflexivity. Qed.

(** ** C57 *)
Theorem C57_a_silent_peer_blocks_the_server : forall (enc : bytes -> bytes -> bytes -> bytes) pub dh E k good streams s sk secret later,
  Forall2 (fun c st => exists sk, exchange_on enc pub dh E k c = KxDone (Ok st) sk) good streams ->
  blen (fst (content s)) < 32 -> snd (content s) = EndIdle ->
  serve enc pub dh E k (map AOk good ++ AOk (s, sk, secret) :: later) = (streams, ServeWaiting).
Proof. exact (fun enc => silent_peer enc (fun _ _ _ => None)). Qed.
Print Assumptions C57_a_silent_peer_blocks_the_server.
Theorem C57_a_short_secret_hangs_the_client : forall dec pub dh E k s sk pk ct pl rest en, (forall a, blen (pub a) = 32) ->
  blen pk = 32 -> accepts_peer k pk -> receivable E ct ->
  dec (dh (k_secret k) pk) (nonce_from_number 0) ct = Some pl -> blen pl < 32 ->
  content s = (pk ++ boxed ct ++ rest, en) -> ample 32 (ws_script sk) ->
  exists sk', client_exchange dec pub dh E k s sk = KxHang sk'.
Proof. exact (client_hangs (fun _ _ p => p)). Qed.
Print Assumptions C57_a_short_secret_hangs_the_client.
Example C57_case : let good := AOk (feed (toy_pub (k_secret ckey)), mk_wsock (takes 300) [], secret1) in
  let r := serve toy_enc toy_pub toy_dh sample_env skey [good; AOk (feed (repeat x00 31), mk_wsock [] [], secret1); good] in
  length (fst r) = 1%nat /\ snd r = ServeWaiting.
Proof. vm_compute. split; reflexivity. Qed.
