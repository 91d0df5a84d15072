(** Two joined endpoints ([Pair.v]) whose connection holds at most [cap] events per direction: a write completes only when the
    transport takes the bytes, and socket buffers are finite (tcp.rs, unix_socket.rs; emit_metadata.rs:77-90 waits in write_all).
    Simplification: the buffers are counted in events, not in bytes. *)
From Verif Require Import Base Codec Spec Ids Payload Builder Emit Ipc SpecIpc Pair SpecPair.

(** One step: as [pstep], but sending needs room *)
Definition bstep (cap : nat) (cf : side -> config) (p : pair) (l : plabel) : option (pair * list (side * obs)) :=
  match pstep cf p l with
  | Some (p', os) =>
    match l with
    | PDo sd _ => if existsb is_sent os && negb (Nat.ltb (length (p_in p (other sd))) cap) then None else Some (p', os)
    | PDeliver _ => Some (p', os)
    end
  | None => None
  end.
(** a sequence of steps *)
Fixpoint brun (cap : nat) (cf : side -> config) (p : pair) (ls : list plabel) : option (pair * list (side * obs)) :=
  match ls with
  | [] => Some (p, [])
  | l :: ls' =>
    match bstep cap cf p l with
    | Some (p1, o1) => match brun cap cf p1 ls' with Some (p2, o2) => Some (p2, o1 ++ o2) | None => None end
    | None => None
    end
  end.
