(** Specifications for C75: what the other end can still send to an end that does not read any more. *)
From Verif Require Import Base Reader Codec Spec Ids Payload Builder Emit Ipc SpecIpc Pair SpecPair BytePair SpecBytes SpecOrder.

(** the receive loop of [sd] has ended: by stop(), or because reading failed *)
Definition loop_ended (tr : list (side * obs)) (sd : side) : Prop := In (OAborted 0) (at_side sd tr) \/ In (OClosed 0) (at_side sd tr).
(** [b]: the bytes already written of the event that [sd] is writing, if any *)
Definition begun (x : xpair) (sd : side) (b : bytes) : Prop :=
  match x_out x sd with
  | None => b = []
  | Some (i, rest) => exists ctx e pu, option_map tk_st (nth_error (e_tasks (x_ep x sd)) i) = Some (TSend ctx e pu) /\ into_bytes e = Ok (b ++ rest) /\ rest <> []
  end.
(** the bytes of the events that went out completely *)
Definition sent_bytes (sd : side) (tr : list (side * obs)) : bytes := concat (map wire_bytes (sent_events (at_side sd tr))).
(** task [i] of [s] is sending [e] *)
Definition is_sending (s : ep) (i : nat) (e : event) : Prop := exists ctx pu, option_map tk_st (nth_error (e_tasks s) i) = Some (TSend ctx e pu).
(** the bytes of the package in which [e] goes over an encrypted connection: a length, and a tag of the cipher *)
Definition package_len (e : event) : nat := length (wire_bytes e) + 20.
