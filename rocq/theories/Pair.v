(** Two endpoints joined by one loss-free connection, for example a client and one of a server's connections.
    Each has one connection (number 0), so every context belongs to it. The wires are lists of events in the order sent
    (C47: the bytes of different events are not mixed; C02, C22: the events read are those written, with an empty namespace
    read as none). Loss-free: no write fails, no send is dropped half way and reading does not fail, so the labels [AFail],
    [ADrop] of a task that is sending and [LClosed] do not occur. *)
From Verif Require Import Base Codec Spec Ids Payload Builder Emit Ipc.

(** the two ends of the connection *)
Inductive side := SideA | SideB.
Definition side_eqb (x y : side) : bool := match x, y with SideA, SideA | SideB, SideB => true | _, _ => false end.
Definition other (x : side) : side := match x with SideA => SideB | SideB => SideA end.

(** [p_ep]: the endpoints; [p_in sd]: events sent to [sd] and not yet read by it *)
Record pair := mk_pair { p_ep : side -> ep; p_in : side -> list event }.
(** steps of a pair *)
Inductive plabel :=
| PDo (sd : side) (l : label)      (* anything an endpoint does by itself *)
| PDeliver (sd : side).            (* the receive loop of [sd] reads the next event sent to it (ipc/mod.rs:24) *)

(** change the value at one side *)
Definition upd {X} (f : side -> X) (sd : side) (x : X) : side -> X := fun y => if side_eqb y sd then x else f y.
(** what an observation puts on the wire *)
Definition wire_of (o : obs) : list event := match o with OSent _ _ e => [drop_empty_ns e] | _ => [] end.
(** sends that did not complete; excluded, the connection is loss-free *)
Definition is_cut (o : obs) : bool := match o with OCut _ _ _ => true | _ => false end.
(** what an endpoint does without the connection *)
Definition own_label (l : label) : bool := match l with LRecv _ _ | LClosed _ => false | _ => true end.

(** One step of the pair *)
Definition pstep (cf : side -> config) (p : pair) (l : plabel) : option (pair * list (side * obs)) :=
  match l with
  | PDo sd l =>
    if own_label l then
      match step (cf sd) (p_ep p sd) l with
      | Some (s', os) =>
        if existsb is_cut os then None
        else Some (mk_pair (upd (p_ep p) sd s') (upd (p_in p) (other sd) (p_in p (other sd) ++ flat_map wire_of os)), map (fun o => (sd, o)) os)
      | None => None
      end
    else None
  | PDeliver sd =>
    match p_in p sd with
    | e :: w =>
      match step (cf sd) (p_ep p sd) (LRecv 0 e) with
      | Some (s', os) => Some (mk_pair (upd (p_ep p) sd s') (upd (p_in p) sd w), map (fun o => (sd, o)) os)
      | None => None
      end
    | [] => None
    end
  end.

(** a sequence of steps and what was observed at each side *)
Fixpoint prun (cf : side -> config) (p : pair) (ls : list plabel) : option (pair * list (side * obs)) :=
  match ls with
  | [] => Some (p, [])
  | l :: ls' =>
    match pstep cf p l with
    | Some (p1, o1) =>
      match prun cf p1 ls' with
      | Some (p2, o2) => Some (p2, o1 ++ o2)
      | None => None
      end
    | None => None
    end
  end.

(** Both endpoints new, [ps sd] the tasks of the user, [w sd] events already on the way to [sd]. [SideA] is a client. *)
Definition pair_new (ps : side -> list prog) (ctr : side -> N) (w : side -> list event) : pair :=
  mk_pair (fun sd => ep_new 1 (side_eqb sd SideA) (ps sd) (ctr sd)) w.
