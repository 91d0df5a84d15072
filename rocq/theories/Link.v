(** Two endpoints joined by an encrypted connection: the endpoints of [Pair.v], the emit futures of [Wire.v] on the write half of an
    encrypted stream, the receive loop of [Ipc.v] on its read half, and a transport that takes and delivers bytes in portions of
    any size. At most [cap] bytes per direction are accepted by the transport and not read. As in [Pair.v] no write fails and no
    send is dropped. *)
From Verif Require Import Base Reader Codec Spec Ids Payload Builder Emit Crypt Wire Ipc Pair SpecPair BytePair.

(** [k_hold sd]: the task of [sd] that holds the writer, and its emit future (emit_metadata.rs:89-98); [k_wr sd], [k_rd sd]: the halves of
    the stream of [sd], the latter with the read under way (ipc/mod.rs:24); [k_seen sd]: how many of the bytes written to [sd] it has
    taken from the transport. [er_sock] holds what is offered to the read half in one step and is empty between steps. *)
Record linked := mk_linked { k_ep : side -> ep; k_hold : side -> option (nat * gfut); k_wr : side -> ewrite; k_seen : side -> nat; k_rd : side -> rd event * bytes * eread }.
(** steps *)
Inductive klabel :=
| KDo (sd : side) (l : label)                (* anything an endpoint does by itself, except sending *)
| KWrite (sd : side) (i : nat) (n : N)       (* task [i] of [sd], which is sending, is polled and the transport takes up to [n] bytes *)
| KRead (sd : side) (n : nat).               (* [n] of the bytes under way are there, and the receive loop of [sd] is polled *)

(** the bytes written to [sd] that it has not taken *)
Definition k_wire (k : linked) (sd : side) : bytes := skipn (k_seen k sd) (ws_out (ew_sock (k_wr k (other sd)))).
(** what the transport answers to the next writes *)
Definition offered (items : list witem) (w : ewrite) : ewrite :=
  mk_ewrite (mk_wsock items (ws_out (ew_sock w))) (ew_key w) (ew_en w) (ew_buf w) (ew_fut_write w) (ew_fut_flush w) (ew_fut_shutdown w) (ew_inner w).
(** bytes that are there to be read *)
Definition arrived (b : bytes) (r : eread) : eread := mk_eread (er_sock r ++ map TB b) (er_key r) (er_de r) (er_rem r) (er_fut r).
(** what was not taken stays in the transport *)
Definition untaken (r : eread) : nat := length (fst (content (er_sock r))).
Definition given_back (r : eread) : eread := mk_eread [] (er_key r) (er_de r) (er_rem r) (er_fut r).
(** the emit future of the task (emit_metadata.rs:91-97), if it has the writer or the writer is free *)
Definition to_send (o : option (nat * gfut)) (i : nat) (e : event) : option gfut :=
  match o with
  | None => Some (GLock (ev_id e) (wire_bytes e))
  | Some (j, f) => if Nat.eqb i j then Some f else None
  end.
(** polling an emit future uses nothing of the world but the lock, which is free or its own *)
Definition free_world : world := mk_world 0 [] 0 [] None.

Section Link.
  Context (enc : bytes -> bytes -> bytes -> bytes) (dec : bytes -> bytes -> bytes -> option bytes).
  Definition kstep (cap : nat) (cf : side -> config) (k : linked) (l : klabel) : option (linked * list (side * obs)) :=
    match l with
    | KDo sd l =>
      if own_label l then
        match step (cf sd) (k_ep k sd) l with
        | Some (s', os) =>
          if existsb is_cut os || existsb is_sent (map (fun o => (sd, o)) os) then None
          else Some (mk_linked (upd (k_ep k) sd s') (k_hold k) (k_wr k) (k_seen k) (k_rd k), map (fun o => (sd, o)) os)
        | None => None
        end
      else None
    | KWrite sd i n =>
      match option_map tk_st (nth_error (e_tasks (k_ep k sd)) i) with
      | Some (TSend ctx e pu) =>
        match to_send (k_hold k sd) i e with
        | Some f =>
          let '(_, w', f', r) := g_fut (crypt_write enc) (crypt_flush enc) i free_world (offered [WAcc n] (k_wr k sd)) f in
          if Nat.leb (length (ws_out (ew_sock w')) - k_seen k (other sd))%nat cap then
            match r with
            | Waiting => Some (mk_linked (k_ep k) (upd (k_hold k) sd (Some (i, f'))) (upd (k_wr k) sd w') (k_seen k) (k_rd k), [])
            | Ready (Ok _) =>
              match step (cf sd) (k_ep k sd) (LTask i completes) with
              | Some (s', os) => Some (mk_linked (upd (k_ep k) sd s') (upd (k_hold k) sd None) (upd (k_wr k) sd w') (k_seen k) (k_rd k), map (fun o => (sd, o)) os)
              | None => None
              end
            | _ => None
            end
          else None
        | None => None
        end
      | _ => None
      end
    | KRead sd n =>
      if reading (k_ep k sd) && Nat.leb 1 n && Nat.leb n (length (k_wire k sd)) then
        let E := cf_env (cf sd) in
        let '(p, got, r) := k_rd k sd in
        let r1 := arrived (firstn n (k_wire k sd)) r in
        let after s' p' g' r' os := Some (mk_linked (upd (k_ep k) sd s') (k_hold k) (k_wr k) (upd (k_seen k) sd (k_seen k sd + (n - untaken r'))%nat)
                                            (upd (k_rd k) sd (p', g', given_back r')), map (fun o => (sd, o)) os) in
        match exec (er_poll_read dec E) E (S (length (er_sock r1))) p got r1 with
        | XIdle p' g' r' => after (k_ep k sd) p' g' r' []
        | XOut (Ok e) r' => match step (cf sd) (k_ep k sd) (LRecv 0 e) with Some (s', os) => after s' (from_async_read E) [] r' os | None => None end
        | XOut _ r' => match step (cf sd) (k_ep k sd) (LClosed 0) with Some (s', os) => after s' (from_async_read E) [] r' os | None => None end
        | XLost _ _ _ | XFuel => None      (* the loop would hang *)
        end
      else None
    end.
  (** a sequence of steps and what was observed at each side *)
  Fixpoint krun (cap : nat) (cf : side -> config) (k : linked) (ls : list klabel) : option (linked * list (side * obs)) :=
    match ls with
    | [] => Some (k, [])
    | l :: ls' =>
      match kstep cap cf k l with
      | Some (k1, o1) => match krun cap cf k1 ls' with Some (k2, o2) => Some (k2, o1 ++ o2) | None => None end
      | None => None
      end
    end.
End Link.
(** both endpoints new on streams whose bytes have all been taken (the key exchange) *)
Definition linked_new (cf : side -> config) (ps : side -> list prog) (ctr : side -> N) (st : side -> Crypt.stream) : linked :=
  mk_linked (fun sd => ep_new 1 (side_eqb sd SideA) (ps sd) (ctr sd)) (fun _ => None) (fun sd => snd (st sd))
    (fun sd => length (ws_out (ew_sock (snd (st (other sd)))))) (fun sd => (from_async_read (cf_env (cf sd)), [], fst (st sd))).
