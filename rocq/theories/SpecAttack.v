(** Specifications for an attacked encrypted connection (C76). *)
From Verif Require Import Base Reader Codec Spec Ids Payload Builder Emit Crypt SpecCrypt Wire Ipc SpecIpc Pair SpecPair BytePair SpecBytes SpecOrder Link SpecLink Attack.

Definition attacked enc dec (cf : side -> config) (ps : side -> list prog) (ctr : side -> N) (st : side -> Crypt.stream) (ls : list tlabel) (t : tapped) (tr : list (side * obs)) : Prop :=
  attack_run enc dec cf (tapped_new cf ps ctr st) ls = Some (t, tr).
(** the key both ends agreed on *)
Definition session_key (st : side -> Crypt.stream) : bytes := er_key (fst (st SideA)).
(** all bytes [sd] has written on the connection after the key exchange, and what they would be with the package being written completed *)
Definition written_by (st : side -> Crypt.stream) (t : tapped) (sd : side) (l : bytes) : Prop := ws_out (ew_sock (t_wr t sd)) = ws_out (ew_sock (snd (st sd))) ++ l.
Definition packages enc (key : bytes) (es : list event) : bytes := boxes (ciphertexts enc key 0 (map wire_bytes es)).
(** the event [sd] is in the middle of sending *)
Definition in_flight (t : tapped) (sd : side) : list event :=
  match t_hold t sd with
  | Some (i, _) => match nth_error (e_tasks (t_ep t sd)) i with Some tk => match tk_st tk with TSend _ e _ => [e] | _ => [] end | None => [] end
  | None => []
  end.
(** the events for which [sd] has made packages, in order *)
Definition made (t : tapped) (tr : list (side * obs)) (sd : side) : list event := sent_events (at_side sd tr) ++ in_flight t sd.
(** package number [i] with event [e] *)
Definition pack enc (key : bytes) (i : nat) (e : event) : bytes := enc key (nonce_from_number (N.of_nat i mod 2 ^ 64)) (wire_bytes e).
(** The cipher cannot be forged: of the packages given to [sd], number [i] decrypts only if it is package number [i] of an end in [from sd]. *)
Definition unforgeable enc (dec : bytes -> bytes -> bytes -> option bytes) (cf : side -> config) (from : side -> list side) (key : bytes) (t : tapped) (tr : list (side * obs)) : Prop :=
  forall sd cs tail i c, t_in t sd = boxes cs ++ tail -> Forall (receivable (cf_env (cf sd))) cs -> nth_error cs i = Some c ->
    dec key (nonce_from_number (N.of_nat i mod 2 ^ 64)) c <> None -> exists s e, In s (from sd) /\ nth_error (made t tr s) i = Some e /\ c = pack enc key i e.
(** everything [from sd] make packages of fits in one, and [sd] has memory for it *)
Definition all_fit (cf : side -> config) (from : side -> list side) (t : tapped) (tr : list (side * obs)) : Prop :=
  forall sd s e, In s (from sd) -> In e (made t tr s) -> exists l, sendable (cf_env (cf sd)) e l.
(** the packages may come from either end, as the two use the same key and numbers; or only from the other end *)
Definition either (sd : side) : list side := [SideA; SideB].
Definition opposite (sd : side) : list side := [other sd].
(** the loop of [sd] has ended *)
Definition over (tr : list (side * obs)) (sd : side) : Prop := In (OClosed 0) (at_side sd tr) \/ In (OAborted 0) (at_side sd tr).
