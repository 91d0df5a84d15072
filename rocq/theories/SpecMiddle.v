(** Specifications for an attacker between the ends during the key exchange (C77). *)
From Verif Require Import Base Reader Codec Spec Ids Payload Builder Emit Crypt SpecCrypt Wire Ipc SpecIpc Pair SpecPair BytePair SpecBytes SpecOrder Link SpecLink Attack SpecAttack.

(** What an attacker with secret key [m] computes from [x], what the server wrote, and [pk], what the client wrote: the session
    key, and what he gives the client. *)
Definition middle enc (dec : bytes -> bytes -> bytes -> option bytes) (pub : bytes -> bytes) (dh : bytes -> bytes -> bytes) (m pk x : bytes) : option (bytes * bytes) :=
  match dec (dh m (firstn 32 x)) (nonce_from_number 0) (skipn 36 x) with
  | Some key => Some (key, pub m ++ boxed (enc (dh m pk) (nonce_from_number 0) key))
  | None => None
  end.
(** Both ends completed the exchange; the server was given the attacker's public key, the client what he made of the server's bytes. *)
Definition intercepted enc dec pub dh (m : bytes) (ks kc : keys) (key : bytes) (st : side -> Crypt.stream) : Prop :=
  good_cipher enc dec /\ good_dh pub dh /\
  exists E secret ss sks sks' sc skc skc' x y, blen secret = 32 /\ 48 <= mem E
    /\ server_exchange enc pub dh E ks secret ss sks = KxDone (Ok (st SideB)) sks' /\ content ss = (pub m, EndIdle) /\ ws_out sks' = ws_out sks ++ x
    /\ client_exchange dec pub dh E kc sc skc = KxDone (Ok (st SideA)) skc' /\ ws_out skc' = ws_out skc ++ pub (k_secret kc)
    /\ middle enc dec pub dh m (pub (k_secret kc)) x = Some (key, y) /\ content sc = (y, EndIdle).
(** The events someone who knows the key finds in the bytes of one direction; package numbers start at [i] *)
Fixpoint spied (dec : bytes -> bytes -> bytes -> option bytes) (E : env) (key : bytes) (fuel : nat) (i : N) (l : bytes) : list event :=
  match fuel with
  | O => []
  | S f =>
    match run_bytes E read_package l with
    | POut (Ok c) rest =>
      match dec key (nonce_from_number (i mod 2 ^ 64)) c with
      | Some p => match run_bytes E (from_async_read E) p with POut (Ok e) _ => e :: spied dec E key f (i + 1) rest | _ => [] end
      | None => []
      end
    | _ => []
    end
  end.
