(** Two endpoints on an encrypted connection whose transport is in the hands of an attacker: as [Link.v], but what arrives at an end
    is whatever the attacker gives it, in portions of any size; he also ends connections. He takes the bytes written as they come.
    As in [Link.v] no write fails and no send is dropped. *)
From Verif Require Import Base Reader Codec Spec Ids Payload Builder Emit Crypt Wire Ipc Pair SpecPair BytePair Link.

(** [t_in sd]: all bytes given to [sd] so far; those its read half has not taken are in [er_sock]. Otherwise as [linked]. *)
Record tapped := mk_tapped { t_ep : side -> ep; t_hold : side -> option (nat * gfut); t_wr : side -> ewrite; t_in : side -> bytes; t_rd : side -> rd event * bytes * eread }.
Inductive tlabel :=
| TDo (sd : side) (l : label)                (* anything an endpoint does by itself, except sending *)
| TWrite (sd : side) (i : nat) (n : N)       (* task [i] of [sd], which is sending, is polled and the transport takes up to [n] bytes *)
| TGive (sd : side) (b : bytes)              (* bytes [b] (possibly none) arrive at [sd], and its receive loop is polled *)
| TBreak (sd : side).                        (* the transport fails or ends for the receive loop of [sd] *)

Section Attack.
  Context (enc : bytes -> bytes -> bytes -> bytes) (dec : bytes -> bytes -> bytes -> option bytes).
  (** emit_metadata.rs:71-101, ipc/mod.rs:24-60, io_impl.rs:49-183 *)
  Definition attack_step (cf : side -> config) (t : tapped) (l : tlabel) : option (tapped * list (side * obs)) :=
    match l with
    | TDo sd l =>
      if own_label l then
        match step (cf sd) (t_ep t sd) l with
        | Some (s', os) =>
          if existsb is_cut os || existsb is_sent (map (fun o => (sd, o)) os) then None
          else Some (mk_tapped (upd (t_ep t) sd s') (t_hold t) (t_wr t) (t_in t) (t_rd t), map (fun o => (sd, o)) os)
        | None => None
        end
      else None
    | TWrite sd i n =>
      match option_map tk_st (nth_error (e_tasks (t_ep t sd)) i) with
      | Some (TSend ctx e pu) =>
        match to_send (t_hold t sd) i e with
        | Some f =>
          let '(_, w', f', r) := g_fut (crypt_write enc) (crypt_flush enc) i free_world (offered [WAcc n] (t_wr t sd)) f in
          match r with
          | Waiting => Some (mk_tapped (t_ep t) (upd (t_hold t) sd (Some (i, f'))) (upd (t_wr t) sd w') (t_in t) (t_rd t), [])
          | Ready (Ok _) =>
            match step (cf sd) (t_ep t sd) (LTask i completes) with
            | Some (s', os) => Some (mk_tapped (upd (t_ep t) sd s') (upd (t_hold t) sd None) (upd (t_wr t) sd w') (t_in t) (t_rd t), map (fun o => (sd, o)) os)
            | None => None
            end
          | _ => None
          end
        | None => None
        end
      | _ => None
      end
    | TGive sd b =>
      if reading (t_ep t sd) then
        let E := cf_env (cf sd) in
        let '(p, got, r) := t_rd t sd in
        let r1 := arrived b r in
        let after s' p' g' r' os := Some (mk_tapped (upd (t_ep t) sd s') (t_hold t) (t_wr t) (upd (t_in t) sd (t_in t sd ++ b)) (upd (t_rd t) sd (p', g', r')), map (fun o => (sd, o)) os) in
        match exec (er_poll_read dec E) E (S (length (er_sock r1))) p got r1 with
        | XIdle p' g' r' | XLost p' g' r' => after (t_ep t sd) p' g' r' []     (* XLost: nobody would wake the loop; here it may be polled again *)
        | XOut (Ok e) r' => match step (cf sd) (t_ep t sd) (LRecv 0 e) with Some (s', os) => after s' (from_async_read E) [] r' os | None => None end
        | XOut _ r' => match step (cf sd) (t_ep t sd) (LClosed 0) with Some (s', os) => after s' (from_async_read E) [] r' os | None => None end
        | XFuel => None                                                         (* excluded by the fuel *)
        end
      else None
    | TBreak sd =>
      match step (cf sd) (t_ep t sd) (LClosed 0) with
      | Some (s', os) => Some (mk_tapped (upd (t_ep t) sd s') (t_hold t) (t_wr t) (t_in t) (t_rd t), map (fun o => (sd, o)) os)
      | None => None
      end
    end.
  Fixpoint attack_run (cf : side -> config) (t : tapped) (ls : list tlabel) : option (tapped * list (side * obs)) :=
    match ls with
    | [] => Some (t, [])
    | l :: ls' =>
      match attack_step cf t l with
      | Some (t1, o1) => match attack_run cf t1 ls' with Some (t2, o2) => Some (t2, o1 ++ o2) | None => None end
      | None => None
      end
    end.
End Attack.
(** both endpoints new on streams a key exchange has left *)
Definition tapped_new (cf : side -> config) (ps : side -> list prog) (ctr : side -> N) (st : side -> Crypt.stream) : tapped :=
  mk_tapped (fun sd => ep_new 1 (side_eqb sd SideA) (ps sd) (ctr sd)) (fun _ => None) (fun sd => snd (st sd)) (fun _ => []) (fun sd => (from_async_read (cf_env (cf sd)), [], fst (st sd))).
