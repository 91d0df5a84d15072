(** Any number of endpoints joined by connections: clients, pooled clients, the connections servers have accepted
    (src/ipc/server.rs:48-76, client.rs:45-80, builder.rs:215-285). Connection [k] of endpoint [i] leads to connection [m] of
    endpoint [j] when [peer i k = Some (j, m)]. As in Pair.v the wires are lists of events in the order sent (C47, C02, C22).
    Connections can break: a write can fail at any time, after which no further event is completely written to that connection,
    and reading can end at any time (closed, or the rest of an unfinished event). A send that is dropped half way while the
    connection works is left out (C64 has what happens then). *)
From Verif Require Import Base Codec Spec Ids Payload Builder Emit Ipc Pair.

(** What an endpoint starts with (server.rs:57-73, client.rs:45-66, builder.rs:219-266) *)
Record node := mk_node { nd_cf : config; nd_conns : nat; nd_armed : bool; nd_tasks : list prog; nd_ctr : N }.
Record network := mk_network { node_of : nat -> node; peer : nat -> nat -> option (nat * nat) }.
(** [n_in i k]: events sent to connection [k] of endpoint [i] and not yet read; [n_bad i k]: a write of [i] to [k] has failed *)
Record net := mk_net { n_ep : nat -> ep; n_in : nat -> nat -> list event; n_bad : nat -> nat -> bool }.
(** steps of a network *)
Inductive nlabel :=
| NDo (i : nat) (l : label)      (* anything endpoint [i] does by itself *)
| NDeliver (i k : nat)           (* the loop of its connection [k] reads the next event sent to it (ipc/mod.rs:24) *)
| NClose (i k : nat).            (* the loop of its connection [k] cannot read any more (ipc/mod.rs:24, 59) *)

(** change at one endpoint *)
Definition put_at {X} (f : nat -> X) (i : nat) (x : X) : nat -> X := fun j => if Nat.eqb j i then x else f j.
(** what an observation puts on connection [k] *)
Definition wire_on (k : nat) (o : obs) : list event := match o with OSent _ ctx e => if Nat.eqb (c_conn ctx) k then [drop_empty_ns e] else [] | _ => [] end.
(** a write to connection [k] that did not complete *)
Definition cut_on (k : nat) (o : obs) : bool := match o with OCut _ ctx _ => Nat.eqb (c_conn ctx) k | _ => false end.
(** the step drops the future of a send that has not completed *)
Definition drops_send (l : label) (os : list obs) : bool := match l with LTask _ ADrop => existsb is_cut os | _ => false end.
(** a completed write to a connection that is broken *)
Definition on_bad (bad : nat -> bool) (o : obs) : bool := match o with OSent _ ctx _ => bad (c_conn ctx) | _ => false end.
(** what endpoint [i] puts on the way to connection [m] of [j] *)
Definition carried (w : network) (i : nat) (os : list obs) (j m : nat) : list event :=
  match peer w j m with Some (i', k) => if Nat.eqb i' i then flat_map (wire_on k) os else [] | None => [] end.

(** One step of the network *)
Definition nstep (w : network) (s : net) (l : nlabel) : option (net * list (nat * obs)) :=
  match l with
  | NDo i l =>
    if own_label l then
      match step (nd_cf (node_of w i)) (n_ep s i) l with
      | Some (s', os) =>
        if drops_send l os || existsb (on_bad (n_bad s i)) os then None
        else Some (mk_net (put_at (n_ep s) i s') (fun j m => n_in s j m ++ carried w i os j m)
                          (fun j k => n_bad s j k || (Nat.eqb j i && existsb (cut_on k) os)), map (fun o => (i, o)) os)
      | None => None
      end
    else None
  | NDeliver i k =>
    match n_in s i k with
    | e :: rest =>
      match step (nd_cf (node_of w i)) (n_ep s i) (LRecv k e) with
      | Some (s', os) => Some (mk_net (put_at (n_ep s) i s') (fun j m => if Nat.eqb j i && Nat.eqb m k then rest else n_in s j m) (n_bad s), map (fun o => (i, o)) os)
      | None => None
      end
    | [] => None
    end
  | NClose i k =>
    match step (nd_cf (node_of w i)) (n_ep s i) (LClosed k) with
    | Some (s', os) => Some (mk_net (put_at (n_ep s) i s') (n_in s) (n_bad s), map (fun o => (i, o)) os)
    | None => None
    end
  end.

(** a sequence of steps and what was observed where *)
Fixpoint nrun (w : network) (s : net) (ls : list nlabel) : option (net * list (nat * obs)) :=
  match ls with
  | [] => Some (s, [])
  | l :: ls' =>
    match nstep w s l with
    | Some (s1, o1) =>
      match nrun w s1 ls' with
      | Some (s2, o2) => Some (s2, o1 ++ o2)
      | None => None
      end
    | None => None
    end
  end.

(** all endpoints new, nothing on the way *)
Definition net_new (w : network) : net :=
  mk_net (fun i => let d := node_of w i in ep_new (nd_conns d) (nd_armed d) (nd_tasks d) (nd_ctr d)) (fun _ _ => []) (fun _ _ => false).
