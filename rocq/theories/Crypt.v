(** The encryption layer (src/protocol/encrypted). *)
From Verif Require Import Base Reader.

(** nonce_from_number (crypt_handling.rs:92-99): the 8 big-endian bytes of the number, repeated, first 12 *)
Definition nonce_from_number (n : N) : bytes := firstn 12 (be 8 n ++ be 8 n).

(** [AtomicU64::fetch_add(1)] wraps (crypt_handling.rs:77-87) *)
Definition next (n : N) : N := (n + 1) mod U64.

(** EncryptedPackage::into_bytes (encrypted/mod.rs:142-148): [len() as u32] *)
Definition package (c : bytes) : bytes := be 4 (blen c) ++ c.
(** EncryptedPackage::from_async_read (encrypted/mod.rs:150-158) *)
Definition read_package : rd bytes :=
  RInt 4 (fun n => RAlloc n (RExact n (fun b => RDone (Ok b)))).

(** * Write transport
    What the socket answers to successive [poll_write]s: accepts up to [n] bytes, not ready, or an error; after that
    it stays not ready. [poll_flush] of TCP and unix sockets does nothing. *)
Inductive witem := WAcc (n : N) | WPend | WFail (k : io_kind).
(** the write half of a socket: what it will answer and the bytes it has accepted *)
Record wsock := mk_wsock { ws_script : list witem; ws_out : bytes }.

(** What one poll of a writing future reports. [WLost]: Pending and nobody will wake the task. *)
Inductive wstat := WReady | WErr (k : io_kind) | WPending | WStuck | WLost | WPanic (c : crash).

(** tokio [WriteAll::poll] (tokio/src/io/util/write_all.rs) with [l] still to be written;
    returns what is left to write. Structural on the script. *)
Fixpoint write_all (l : bytes) (items : list witem) (out : bytes) : bytes * wsock * wstat :=
  match l with
  | [] => ([], mk_wsock items out, WReady)
  | _ =>
    match items with
    | [] => (l, mk_wsock [] out, WStuck)
    | WPend :: items' => (l, mk_wsock items' out, WPending)
    | WFail k :: items' => (l, mk_wsock items' out, WErr k)
    | WAcc n :: items' =>
      if n =? 0 then (l, mk_wsock items' out, WErr WriteZero)
      else write_all (skipn (N.to_nat n) l) items' (out ++ firstn (N.to_nat n) l)
    end
  end.

(** WRITE_BUF_SIZE (io_impl.rs:14), [u32::MAX as usize] (io_impl.rs:115, 142) *)
Definition WRITE_BUF_SIZE : N := 1024.
Definition MAX_PLAIN : N := 4294967295.

Section Cipher.
  (** ChaCha20Poly1305: [enc key nonce plaintext] (plaintexts of at most u32::MAX bytes are never refused) and [dec]. *)
  Context (enc : bytes -> bytes -> bytes -> bytes) (dec : bytes -> bytes -> bytes -> option bytes).

  (** ** Write half (EncryptedWriteStream, encrypted/mod.rs:111-131)
      [CipherBox.en_count] is only used by the write half and [de_count] only by the read half, so each half carries
      its own counter although the [CipherBox]es share both. A future made by [write_bytes] (io_impl.rs:201-222) is
      polled in the call that creates it, and its first poll encrypts; from then on it is the rest of its package.
      [inner] (and [cipher]) is [Some] exactly when none of the three futures holds it and it was not shut down. *)
  Record ewrite := mk_ewrite {
    ew_sock : wsock; ew_key : bytes; ew_en : N; ew_buf : bytes;
    ew_fut_write : option bytes; ew_fut_flush : option bytes; ew_fut_shutdown : bool; ew_inner : bool }.
  (** EncryptedWriteStream::new (encrypted/mod.rs:121-130) *)
  Definition ewrite_new (sk : wsock) (key : bytes) : ewrite := mk_ewrite sk key 0 [] None None false true.

  (** CipherBox::encrypt (crypt_handling.rs:43-48, 77-81) then EncryptedPackage (io_impl.rs:208-214) *)
  Definition sealed (key : bytes) (n : N) (p : bytes) : bytes := package (enc key (nonce_from_number n) p).

  (** polling [fut_write] and the rest of [poll_write] (io_impl.rs:126-135) *)
  Definition poll_fut_write (st : ewrite) (l : bytes) : ewrite * wstat :=
    match write_all l (ws_script (ew_sock st)) (ws_out (ew_sock st)) with
    | (_, sk, WReady) => (mk_ewrite sk (ew_key st) (ew_en st) (ew_buf st) None (ew_fut_flush st) (ew_fut_shutdown st) true, WReady)
    | (_, sk, WErr k) => (mk_ewrite sk (ew_key st) (ew_en st) (ew_buf st) None (ew_fut_flush st) (ew_fut_shutdown st) true, WErr k)
    | (l', sk, r) => (mk_ewrite sk (ew_key st) (ew_en st) (ew_buf st) (Some l') (ew_fut_flush st) (ew_fut_shutdown st) (ew_inner st), r)
    end.

  (** EncryptedWriteStream::poll_write (io_impl.rs:102-136). When it is Ready it always reports [buf.len()]. *)
  Definition ew_poll_write (st : ewrite) (buf : bytes) : ewrite * wstat :=
    match ew_fut_write st with
    | Some l => poll_fut_write st l
    | None =>
      let b := ew_buf st ++ buf in
      if WRITE_BUF_SIZE <=? blen b then
        let n := N.to_nat (N.min MAX_PLAIN (blen b)) in
        let st' := mk_ewrite (ew_sock st) (ew_key st) (ew_en st) (skipn n b) None (ew_fut_flush st) (ew_fut_shutdown st) (ew_inner st) in
        if ew_inner st then
          let l := sealed (ew_key st) (ew_en st) (firstn n b) in
          poll_fut_write (mk_ewrite (ew_sock st) (ew_key st) (next (ew_en st)) (skipn n b) (Some l) (ew_fut_flush st) (ew_fut_shutdown st) false) l
        else (st', WPanic PanicNone)
      else (mk_ewrite (ew_sock st) (ew_key st) (ew_en st) b None (ew_fut_flush st) (ew_fut_shutdown st) (ew_inner st), WReady)
    end.

  (** polling [fut_flush] (io_impl.rs:164-173); the flush of the inner socket is immediate *)
  Definition poll_fut_flush (st : ewrite) (l : bytes) : ewrite * wstat :=
    match write_all l (ws_script (ew_sock st)) (ws_out (ew_sock st)) with
    | (_, sk, WReady) => (mk_ewrite sk (ew_key st) (ew_en st) (ew_buf st) (ew_fut_write st) None (ew_fut_shutdown st) true, WReady)
    | (_, sk, WErr k) => (mk_ewrite sk (ew_key st) (ew_en st) (ew_buf st) (ew_fut_write st) None (ew_fut_shutdown st) true, WErr k)
    | (l', sk, r) => (mk_ewrite sk (ew_key st) (ew_en st) (ew_buf st) (ew_fut_write st) (Some l') (ew_fut_shutdown st) (ew_inner st), r)
    end.

  (** EncryptedWriteStream::poll_flush (io_impl.rs:138-174) *)
  Definition ew_poll_flush (st : ewrite) : ewrite * wstat :=
    match ew_fut_flush st with
    | Some l => poll_fut_flush st l
    | None =>
      let n := N.to_nat (N.min MAX_PLAIN (blen (ew_buf st))) in
      let p := firstn n (ew_buf st) in
      let b := skipn n (ew_buf st) in
      if ew_inner st then
        if 0 <? blen p then
          let l := sealed (ew_key st) (ew_en st) p in
          poll_fut_flush (mk_ewrite (ew_sock st) (ew_key st) (next (ew_en st)) b (ew_fut_write st) (Some l) (ew_fut_shutdown st) false) l
        else
          poll_fut_flush (mk_ewrite (ew_sock st) (ew_key st) (ew_en st) b (ew_fut_write st) (Some []) (ew_fut_shutdown st) false) []
      else (mk_ewrite (ew_sock st) (ew_key st) (ew_en st) b (ew_fut_write st) None (ew_fut_shutdown st) (ew_inner st), WPanic PanicNone)
    end.

  (** EncryptedWriteStream::poll_shutdown (io_impl.rs:176-199). After a successful flush it takes the socket, makes the
      shutdown future without polling it and answers Pending, so nobody arranged a wake-up; the next poll shuts the
      socket down (immediate for TCP and unix sockets) and the socket is gone. *)
  Definition ew_poll_shutdown (st : ewrite) : ewrite * wstat :=
    if ew_fut_shutdown st then
      (mk_ewrite (ew_sock st) (ew_key st) (ew_en st) (ew_buf st) (ew_fut_write st) (ew_fut_flush st) false (ew_inner st), WReady)
    else
      match ew_poll_flush st with
      | (st', WReady) =>
        if ew_inner st'
        then (mk_ewrite (ew_sock st') (ew_key st') (ew_en st') (ew_buf st') (ew_fut_write st') (ew_fut_flush st') true false, WLost)
        else (st', WPanic PanicNone)
      | r => r
      end.

  (** A user operation on the write half, awaited: [write_all(buf)] (one [poll_write] that is Ready reports the whole
      length, so tokio's [WriteAll] finishes with it; an empty buffer is not polled at all), [flush()], [shutdown()]. *)
  Inductive wop := OWrite (buf : bytes) | OFlush | OShutdown.
  (** one poll of the future of an operation *)
  Definition poll_op (o : wop) (st : ewrite) : ewrite * wstat :=
    match o with
    | OWrite [] => (st, WReady)
    | OWrite buf => ew_poll_write st buf
    | OFlush => ew_poll_flush st
    | OShutdown => ew_poll_shutdown st
    end.
  (** The executor polls again after every wake-up; every Pending poll consumes a script item, so
      [S (length script)] polls are enough. *)
  Fixpoint await_op (fuel : nat) (o : wop) (st : ewrite) : ewrite * wstat :=
    match fuel with
    | O => (st, WStuck)
    | S f => match poll_op o st with
             | (st', WPending) => await_op f o st'
             | r => r
             end
    end.
  (** an operation awaited, several awaited one after the other, stopping at the first that does not succeed *)
  Definition run_op (o : wop) (st : ewrite) : ewrite * wstat := await_op (S (length (ws_script (ew_sock st)))) o st.
  Fixpoint run_ops (os : list wop) (st : ewrite) : ewrite * wstat :=
    match os with
    | [] => (st, WReady)
    | o :: os' => match run_op o st with
                  | (st', WReady) => run_ops os' st'
                  | r => r
                  end
    end.

  (** ** Read half (EncryptedReadStream, encrypted/mod.rs:93-109)
      [er_fut]: the future made by [read_bytes] (io_impl.rs:224-240): not there, running, or finished but kept. *)
  Inductive rfut := RNone | RRun (p : rd bytes) (got : bytes) | RDead.
  (** EncryptedReadStream (encrypted/mod.rs:93-98): socket, key, [de_count], [remaining], [fut] *)
  Record eread := mk_eread { er_sock : script; er_key : bytes; er_de : N; er_rem : bytes; er_fut : rfut }.
  (** EncryptedReadStream::new (encrypted/mod.rs:101-108) *)
  Definition eread_new (s : script) (key : bytes) : eread := mk_eread s key 0 [] RNone.

  (** polling [fut] and the rest of [poll_read] (io_impl.rs:70-96); [n] bytes of space are left in the buffer,
      [put] was put into it before *)
  Definition poll_fut_read (E : env) (st : eread) (p : rd bytes) (got : bytes) (n : N) (put : bytes) : eread * bytes * pstat :=
    match poll_fut sock_read E (S (length (er_sock st))) p got (er_sock st) with
    | FOut (Ok c) s' =>
      match dec (er_key st) (nonce_from_number (er_de st)) c with
      | Some pl =>
        let all := er_rem st ++ pl in
        let m := N.to_nat (N.min (blen all) n) in
        let st' := mk_eread s' (er_key st) (next (er_de st)) (skipn m all) RNone in
        (st', put ++ firstn m all, if n <=? blen all then PReady else PLost)
      | None => (mk_eread s' (er_key st) (next (er_de st)) (er_rem st) RDead, put, PFail InvalidData)
      end
    | FOut (Err e) s' =>
      (mk_eread s' (er_key st) (er_de st) (er_rem st) RDead, put,
        PFail match e with IoError k => k | _ => InvalidData (* no other error occurs *) end)
    | FOut (Crash c) s' => (mk_eread s' (er_key st) (er_de st) (er_rem st) RDead, put, PPanic c)
    | FPend p' g s' => (mk_eread s' (er_key st) (er_de st) (er_rem st) (RRun p' g), put, PPend)
    | FIdle p' g s' => (mk_eread s' (er_key st) (er_de st) (er_rem st) (RRun p' g), put, PIdle)
    | FLost p' g s' => (mk_eread s' (er_key st) (er_de st) (er_rem st) (RRun p' g), put, PLost)  (* not with sockets *)
    | FFuel => (st, put, PIdle)                                                                 (* excluded by the fuel *)
    end.

  (** EncryptedReadStream::poll_read (io_impl.rs:49-97) with [n] bytes of space in the buffer *)
  Definition er_poll_read (E : env) (st : eread) (n : N) : eread * bytes * pstat :=
    match er_fut st with
    | RDead => (st, [], PPanic PanicResumed)
    | RRun p got => poll_fut_read E st p got n []
    | RNone =>
      let m := N.to_nat (N.min n (blen (er_rem st))) in
      let put := firstn m (er_rem st) in
      let st' := mk_eread (er_sock st) (er_key st) (er_de st) (skipn m (er_rem st)) RNone in
      if 0 <? n - blen put then poll_fut_read E st' read_package [] (n - blen put) put
      else (st', put, PReady)
    end.

  (** EncryptedStream::update_key (encrypted/mod.rs:79-90) with CipherBox::update_key (crypt_handling.rs:62-75),
      seen from each half *)
  Definition ew_update_key (k : bytes) (st : ewrite) : ewrite :=
    mk_ewrite (ew_sock st) k 0 (ew_buf st) (ew_fut_write st) (ew_fut_flush st) (ew_fut_shutdown st) (ew_inner st).
  Definition er_update_key (k : bytes) (st : eread) : eread :=
    mk_eread (er_sock st) k 0 (er_rem st) (er_fut st).

  (** ** Key exchange *)
  (** x25519: public key of a secret, and Diffie-Hellman *)
  Context (pub : bytes -> bytes) (dh : bytes -> bytes -> bytes).

  (** Keys (encrypted/mod.rs:26-31) *)
  Record keys := mk_keys { k_secret : bytes; k_known : list bytes; k_allow_unknown : bool }.
  (** Default for EncryptionOptions (encrypted/mod.rs:33-48): no known peers, unknown peers refused *)
  Definition default_keys (secret : bytes) : keys := mk_keys secret [] false.
  (** the test at crypt_handling.rs:113 and 139 *)
  Definition refused (k : keys) (pk : bytes) : bool := negb (k_allow_unknown k) && negb (existsb (bytes_eqb pk) (k_known k)).

  (** An established stream: both halves. *)
  Definition stream := (eread * ewrite)%type.
  (** Result of an exchange: done (stream or error, and the write socket in any case), waiting for the peer, hanging, or
      waiting for the socket to accept bytes *)
  Inductive kx (A : Type) := KxDone (o : outcome A) (sk : wsock) | KxIdle (sk : wsock) | KxHang (sk : wsock) | KxWriteStuck (sk : wsock).
  Arguments KxDone {A}. Arguments KxIdle {A}. Arguments KxHang {A}. Arguments KxWriteStuck {A}.

  (** plain [write_all] awaited (tokio), for send_public_key (crypt_handling.rs:162-171) *)
  Fixpoint await_write_all (fuel : nat) (l : bytes) (sk : wsock) : wsock * wstat :=
    match fuel with
    | O => (sk, WStuck)
    | S f => match write_all l (ws_script sk) (ws_out sk) with
             | (l', sk', WPending) => await_write_all f l' sk'
             | (_, sk', r) => (sk', r)
             end
    end.
  (** the same with enough polls *)
  Definition send_plain (l : bytes) (sk : wsock) : wsock * wstat := await_write_all (S (length (ws_script sk))) l sk.

  (** receive_public_key (crypt_handling.rs:154-159) and the read at crypt_handling.rs:144-145; a 32 byte buffer *)
  Definition read_key : rd bytes := RExact 32 (fun b => RDone (Ok b)).

  (** from_server_key_exchange (crypt_handling.rs:109-126); [secret32] is what generate_secret (174-180) returns *)
  Definition server_exchange (E : env) (k : keys) (secret32 : bytes) (s : script) (sk : wsock) : kx stream :=
    match exec sock_read E (S (length s)) read_key [] s with
    | XOut (Ok other_pub) s' =>
      if refused k other_pub then KxDone (Err (UnknownPeer other_pub)) sk else
      match send_plain (pub (k_secret k)) sk with
      | (sk', WReady) =>
        let shared := dh (k_secret k) other_pub in
        match run_ops [OWrite secret32; OFlush] (ewrite_new sk' shared) with
        | (ew, WReady) => KxDone (Ok (er_update_key secret32 (eread_new s' shared), ew_update_key secret32 ew)) (ew_sock ew)
        | (ew, WErr e) => KxDone (Err (IoError e)) (ew_sock ew)
        | (ew, WPanic c) => KxDone (Crash c) (ew_sock ew)
        | (ew, _) => KxWriteStuck (ew_sock ew)
        end
      | (sk', WErr e) => KxDone (Err (IoError e)) sk'
      | (sk', _) => KxWriteStuck sk'
      end
    | XOut (Err e) _ => KxDone (Err e) sk
    | XOut (Crash c) _ => KxDone (Crash c) sk
    | XIdle _ _ _ => KxIdle sk
    | XLost _ _ _ => KxHang sk
    | XFuel => KxHang sk           (* excluded by the fuel *)
    end.

  (** from_client_key_exchange (crypt_handling.rs:134-150). Each package read needs at most as many polls as script items. *)
  Definition client_exchange (E : env) (k : keys) (s : script) (sk : wsock) : kx stream :=
    match send_plain (pub (k_secret k)) sk with
    | (sk', WReady) =>
      match exec sock_read E (S (length s)) read_key [] s with
      | XOut (Ok other_pub) s' =>
        if refused k other_pub then KxDone (Err (UnknownPeer other_pub)) sk' else
        let shared := dh (k_secret k) other_pub in
        match exec (er_poll_read E) E (S (length s')) read_key [] (eread_new s' shared) with
        | XOut (Ok key) er => KxDone (Ok (er_update_key key er, ew_update_key key (ewrite_new sk' shared))) sk'
        | XOut (Err e) _ => KxDone (Err e) sk'
        | XOut (Crash c) _ => KxDone (Crash c) sk'
        | XIdle _ _ _ => KxIdle sk'
        | XLost _ _ _ => KxHang sk'
        | XFuel => KxHang sk'
        end
      | XOut (Err e) _ => KxDone (Err e) sk'
      | XOut (Crash c) _ => KxDone (Crash c) sk'
      | XIdle _ _ _ => KxIdle sk'
      | XLost _ _ _ => KxHang sk'
      | XFuel => KxHang sk'
      end
    | (sk', WErr e) => KxDone (Err (IoError e)) sk'
    | (sk', _) => KxWriteStuck sk'
    end.
End Cipher.
Arguments KxDone {A}. Arguments KxIdle {A}. Arguments KxHang {A}. Arguments KxWriteStuck {A}.

(** ** Accept loop (src/ipc/server.rs:46-78)
    One attempt of [protocol_accept]: it gives a connection, an error, or never finishes
    (with the encrypted listener the key exchange runs inside [protocol_accept], protocol_impl.rs:24-29). *)
Inductive attempt (C : Type) := AOk (c : C) | AErr (e : error) | ACrash (c : crash) | AStall.
Arguments AOk {C}. Arguments AErr {C}. Arguments ACrash {C}. Arguments AStall {C}.
(** how [IPCServer::start] ended: returned Ok, died, still waiting in an accept *)
Inductive serve_end := ServeOk | ServeCrash (c : crash) | ServeWaiting.
(** The connections served, in order, and how the loop ended; the list is what happens at the listener, in order. *)
Fixpoint accept_loop {C} (l : list (attempt C)) : list C * serve_end :=
  match l with
  | [] => ([], ServeWaiting)
  | AOk c :: l' => let (cs, e) := accept_loop l' in (c :: cs, e)
  | AErr _ :: _ => ([], ServeOk)
  | ACrash c :: _ => ([], ServeCrash c)
  | AStall :: _ => ([], ServeWaiting)
  end.
(** EncryptedListener::protocol_accept (protocol_impl.rs:24-29) on what the inner listener gave *)
Definition encrypted_attempt (C S : Type) (exchange : C -> kx S) (a : attempt C) : attempt S :=
  match a with
  | AOk c => match exchange c with
             | KxDone (Ok s) _ => AOk s
             | KxDone (Err e) _ => AErr e
             | KxDone (Crash c) _ => ACrash c
             | _ => AStall
             end
  | AErr e => AErr e
  | ACrash c => ACrash c
  | AStall => AStall
  end.
