(** Specification for C74: what is seen when a connection's loop reads events for handlers one after the other. *)
From Verif Require Import Base Codec Spec Ids Payload Builder Emit Ipc SpecIpc.

(** Each of [es], in order, is received and its handler started as a task of its own, the first as task [k]. *)
Fixpoint dispatched (cf : config) (n k : nat) (es : list event) : list obs :=
  match es with
  | [] => []
  | e :: es' => OReceived n e :: OCalled n k (mk_context n (Some (ev_id e))) (scope_of cf e) e :: dispatched cf n (S k) es'
  end.

(** an event for a handler: not a reply somebody waits for, and no End event *)
Definition for_handlers (tr : list obs) (e : event) : Prop := listener_of tr e = None /\ ev_type e <> End.

(** what a receive loop does: read an event, hand on the reply it holds, end *)
Definition by_loop (l : label) : Prop := match l with LRecv _ _ | LPlace _ | LClosed _ => True | _ => False end.

(** task [i] is a running handler *)
Definition handler_runs (s : ep) (i : nat) : Prop := exists tk p, nth_error (e_tasks s) i = Some tk /\ tk_job tk <> None /\ tk_st tk = TRun p.
