(** Two endpoints joined by two byte streams: what [Pair.v] says about events, down to single bytes. An emit writes the bytes of
    its event one after the other while it holds the writer (emit_metadata.rs:89-97, C47), the connection takes at most [cap]
    bytes per direction that have not been read, and the receive loop reads them one after the other
    (ipc/mod.rs:24, event.rs:136-157). Larger portions are several such steps (C04). As in [Pair.v] no write fails and no send is
    dropped. *)
From Verif Require Import Base Reader Codec Spec Ids Payload Builder Emit Ipc Pair SpecPair.

(** [x_out sd]: the task of [sd] that holds the writer and the bytes it has not written yet; [x_wire sd]: bytes written to [sd]
    and not read; [x_buf sd]: bytes [sd] has read of an event that is not complete *)
Record xpair := mk_xpair { x_ep : side -> ep; x_out : side -> option (nat * bytes); x_wire : side -> bytes; x_buf : side -> bytes }.
(** steps *)
Inductive xlabel :=
| XDo (sd : side) (l : label)      (* anything an endpoint does by itself, except sending *)
| XWrite (sd : side) (i : nat)     (* task [i] of [sd], which is sending, gets the writer if it has to, and writes a byte *)
| XRead (sd : side).               (* the receive loop of [sd] reads a byte *)

(** the bytes of an event (event.rs:159-175) *)
Definition wire_bytes (e : event) : bytes := match into_bytes e with Ok b => b | _ => [] end.
(** the task has [rest] to write (emit_metadata.rs:91-93): nothing has been written yet, or this is the one holding the writer *)
Definition to_write (o : option (nat * bytes)) (i : nat) (e : event) : option bytes :=
  match o with
  | None => Some (wire_bytes e)
  | Some (j, rest) => if Nat.eqb i j then Some rest else None
  end.
(** the action that completes a send; time and environment play no role there *)
Definition completes : action := AStep (mk_instant 0 0) 0.
(** the receive loop of the connection is reading *)
Definition reading (s : ep) : bool := match nth_error (e_conns s) 0 with Some c => match cn_loop c with LRun => true | _ => false end | None => false end.

Definition xstep (cap : nat) (cf : side -> config) (x : xpair) (l : xlabel) : option (xpair * list (side * obs)) :=
  match l with
  | XDo sd l =>
    if own_label l then
      match step (cf sd) (x_ep x sd) l with
      | Some (s', os) =>
        if existsb is_cut os || existsb is_sent (map (fun o => (sd, o)) os) then None
        else Some (mk_xpair (upd (x_ep x) sd s') (x_out x) (x_wire x) (x_buf x), map (fun o => (sd, o)) os)
      | None => None
      end
    else None
  | XWrite sd i =>
    match option_map tk_st (nth_error (e_tasks (x_ep x sd)) i) with
    | Some (TSend ctx e pu) =>
      if Nat.ltb (length (x_wire x (other sd))) cap then
        match to_write (x_out x sd) i e with
        | Some [b] =>
          match step (cf sd) (x_ep x sd) (LTask i completes) with
          | Some (s', os) => Some (mk_xpair (upd (x_ep x) sd s') (upd (x_out x) sd None) (upd (x_wire x) (other sd) (x_wire x (other sd) ++ [b])) (x_buf x), map (fun o => (sd, o)) os)
          | None => None
          end
        | Some (b :: rest) => Some (mk_xpair (x_ep x) (upd (x_out x) sd (Some (i, rest))) (upd (x_wire x) (other sd) (x_wire x (other sd) ++ [b])) (x_buf x), [])
        | _ => None
        end
      else None
    | _ => None
    end
  | XRead sd =>
    if reading (x_ep x sd) then
      match x_wire x sd with
      | b :: w =>
        let after s' rest os := Some (mk_xpair (upd (x_ep x) sd s') (x_out x) (upd (x_wire x) sd w) (upd (x_buf x) sd rest), map (fun o => (sd, o)) os) in
        match run_bytes (cf_env (cf sd)) (from_async_read (cf_env (cf sd))) (x_buf x sd ++ [b]) with
        | PMore => after (x_ep x sd) (x_buf x sd ++ [b]) []
        | POut (Ok e) rest => match step (cf sd) (x_ep x sd) (LRecv 0 e) with Some (s', os) => after s' rest os | None => None end
        | POut _ rest => match step (cf sd) (x_ep x sd) (LClosed 0) with Some (s', os) => after s' rest os | None => None end   (* also if reading panics *)
        end
      | [] => None
      end
    else None
  end.
(** a sequence of steps and what was observed at each side *)
Fixpoint xrun (cap : nat) (cf : side -> config) (x : xpair) (ls : list xlabel) : option (xpair * list (side * obs)) :=
  match ls with
  | [] => Some (x, [])
  | l :: ls' =>
    match xstep cap cf x l with
    | Some (x1, o1) => match xrun cap cf x1 ls' with Some (x2, o2) => Some (x2, o1 ++ o2) | None => None end
    | None => None
    end
  end.
(** both endpoints new, nothing on the way *)
Definition xpair_new (ps : side -> list prog) (ctr : side -> N) : xpair :=
  mk_xpair (fun sd => ep_new 1 (side_eqb sd SideA) (ps sd) (ctr sd)) (fun _ => None) (fun _ => []) (fun _ => []).
