(** Specifications used in the statements about encrypted connections. *)
From Verif Require Import Base Reader Codec Spec Crypt.

(** What is assumed of the AEAD cipher: decryption inverts encryption and the tag takes 16 bytes. *)
Definition good_cipher (enc : bytes -> bytes -> bytes -> bytes) (dec : bytes -> bytes -> bytes -> option bytes) : Prop :=
  forall k n p, dec k n (enc k n p) = Some p /\ blen (enc k n p) = blen p + 16.

(** A length prefixed package. *)
Definition boxed (c : bytes) : bytes := be 4 (blen c) ++ c.
(** A stream of packages. *)
Definition boxes (cs : list bytes) : bytes := concat (map boxed cs).

Section S.
  Context (enc : bytes -> bytes -> bytes -> bytes) (dec : bytes -> bytes -> bytes -> option bytes).

  (** The ciphertexts of plaintexts [ps], the first encrypted with the nonce of number [i]. Numbers are u64. *)
  Fixpoint ciphertexts (key : bytes) (i : N) (ps : list bytes) : list bytes :=
    match ps with
    | [] => []
    | p :: ps' => enc key (nonce_from_number (i mod U64)) p :: ciphertexts key (i + 1) ps'
    end.

  (** The bytes handed to the writer by a list of operations. *)
  Definition written (os : list wop) : bytes :=
    concat (map (fun o => match o with OWrite b => b | _ => [] end) os).
  Definition no_shutdown (os : list wop) : Prop := ~ In OShutdown os.

  (** Emitting one encoded event: StreamEmitter sends with [write_all] then [flush] (src/events/event.rs and
      src/ipc/stream_emitter/mod.rs) *)
  Definition emit_all (ls : list bytes) : list wop := flat_map (fun l => [OWrite l; OFlush]) ls.

  (** The receive loop on an encrypted read half: reads event after event; [receives st es r]: it gets exactly
      the events [es] and the read after them ends with [r], which is not an event. *)
  Definition read_event (E : env) (st : eread) : xres event eread :=
    exec (er_poll_read dec E) E (S (length (er_sock st))) (from_async_read E) [] st.
  Inductive receives (E : env) : eread -> list event -> xres event eread -> Prop :=
  | receives_stop st r : read_event E st = r -> (forall e st', r <> XOut (Ok e) st') -> receives E st [] r
  | receives_event st e st' es r : read_event E st = XOut (Ok e) st' -> receives E st' es r -> receives E st (e :: es) r.

  (** A user polling a read half again and again with buffers of the given sizes: all bytes delivered and what the polls reported. *)
  Fixpoint polls (E : env) (st : eread) (ns : list N) : bytes * list pstat :=
    match ns with
    | [] => ([], [])
    | n :: ns' => let '(st', b, r) := er_poll_read dec E st n in
                  let (bs, rs) := polls E st' ns' in (b ++ bs, r :: rs)
    end.
End S.

(** A transport that never fails and accepts at least [n] more bytes. *)
Definition healthy (i : witem) : bool := match i with WAcc n => negb (n =? 0) | WPend => true | WFail _ => false end.
Definition accepts (i : witem) : bool := match i with WAcc _ => true | _ => false end.
Definition ample (n : nat) (items : list witem) : Prop :=
  forallb healthy items = true /\ (n <= length (filter accepts items))%nat.

(** How a run of a reader that needs more bytes than there are ends: it waits on an open connection, and reports the end
    or the failure of the connection. *)
Definition ends_with {A S} (en : tend) (r : xres A S) : Prop :=
  match en with
  | EndIdle => exists p got s, r = XIdle p got s
  | EndEof => exists s, r = XOut (Err (IoError UnexpectedEof)) s
  | EndFail k => exists s, r = XOut (Err (IoError k)) s
  end.

(** Neither half of a fresh stream has anything in flight. *)
Definition fresh_read (key : bytes) (s : script) (st : eread) : Prop := st = mk_eread s key 0 [] RNone.
Definition fresh_write (key : bytes) (sk : wsock) (st : ewrite) : Prop := st = mk_ewrite sk key 0 [] None None false true.

(** Bytes that are not (yet) a whole package: fewer than the length field, or fewer than it announces. *)
Definition incomplete (E : env) (l : bytes) : Prop :=
  blen l < 4 \/ exists n b, l = be 4 n ++ b /\ n < 2 ^ 32 /\ n <= mem E /\ blen b < n.
(** A package the receiver has memory for. *)
Definition receivable (E : env) (c : bytes) : Prop := blen c < 2 ^ 32 /\ blen c <= mem E.
(** Nobody can make a package that decrypts in the place of another: every package that is not the one the peer sent
    in that place is refused there. [cs] is what arrives, [sent] what was sent. *)
Definition unforged (dec : bytes -> bytes -> bytes -> option bytes) (key : bytes) (sent cs : list bytes) : Prop :=
  forall i c, nth_error cs i = Some c -> nth_error sent i <> Some c -> dec key (nonce_from_number (N.of_nat i)) c = None.
(** [m] is the number of packages that arrived as sent, before the first that did not. *)
Definition intact (m : nat) (sent cs : list bytes) : Prop :=
  firstn m cs = firstn m sent /\ (m <= length sent)%nat /\ (m <= length cs)%nat
  /\ forall c, nth_error cs m = Some c -> nth_error sent m <> Some c.

(** A peer is accepted if unknown peers are allowed or its key is listed. *)
Definition accepts_peer (k : keys) (pk : bytes) : Prop := k_allow_unknown k = true \/ In pk (k_known k).

(** What is assumed of X25519: both sides compute the same secret; keys are 32 bytes. *)
Definition good_dh (pub : bytes -> bytes) (dh : bytes -> bytes -> bytes) : Prop :=
  (forall a b, dh a (pub b) = dh b (pub a)) /\ forall a, blen (pub a) = 32.

(** A stream cipher with a tag: plaintext combined byte by byte with a key stream that depends on key and nonce only. *)
Fixpoint mix (a b : bytes) : bytes :=
  match a, b with
  | x :: a', y :: b' => n2b (N.lxor (b2n x) (b2n y)) :: mix a' b'
  | _, _ => []
  end.
Definition stream_cipher (enc : bytes -> bytes -> bytes -> bytes) : Prop :=
  exists ks : bytes -> bytes -> nat -> bytes, exists tag : bytes -> bytes -> bytes -> bytes,
    forall k n p, enc k n p = mix p (ks k n (length p)) ++ tag k n p /\ length (ks k n (length p)) = length p
      /\ forall m, (m <= length p)%nat -> ks k n m = firstn m (ks k n (length p)).

(** An event that can go through an encrypted stream as one package the receiver has memory for; [l] is its encoding. *)
Definition sendable (E : env) (e : event) (l : bytes) : Prop :=
  rust_event e /\ fits e /\ enough_mem E e /\ into_bytes e = Ok l /\ blen l < 2 ^ 32 - 16 /\ blen l + 16 <= mem E.


(** An established connection: client and server ran the key exchange with each other over a loss-free transport.
    The server read the client's key, the client read everything the server wrote; [rest_s] and [rest_c] are the
    bytes that arrive at the server and the client afterwards. *)
Record established enc dec pub dh (E : env) (ks kc : keys) (secret rest_s : bytes) (en_s : tend) (rest_c : bytes) (en_c : tend)
    (ers : eread) (ews : ewrite) (erc : eread) (ewc : ewrite) : Prop := {
  est_secret : blen secret = 32;
  est_mem : 48 <= mem E;
  est_links : exists ss sks sc skc sks' skc' x,
    server_exchange enc pub dh E ks secret ss sks = KxDone (Ok (ers, ews)) sks'
    /\ client_exchange dec pub dh E kc sc skc = KxDone (Ok (erc, ewc)) skc'
    /\ content ss = (pub (k_secret kc) ++ rest_s, en_s)
    /\ ws_out sks' = ws_out sks ++ x /\ content sc = (x ++ rest_c, en_c) }.

(** The encrypted server: a connection handed out by the inner listener is what its socket delivers and accepts and the
    secret drawn for it; [serve] gives the streams served, in order, and how the accept loop ended. *)
Definition conn := (script * wsock * bytes)%type.
Definition exchange_on enc pub dh (E : env) (k : keys) (c : conn) : kx stream :=
  let '(s, sk, secret) := c in server_exchange enc pub dh E k secret s sk.
Definition serve enc pub dh (E : env) (k : keys) (l : list (attempt conn)) : list stream * serve_end :=
  accept_loop (map (encrypted_attempt conn stream (exchange_on enc pub dh E k)) l).
