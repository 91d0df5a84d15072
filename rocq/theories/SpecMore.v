(** More specifications for endpoints, read off the trace of observations (C58-C61). *)
From Verif Require Import Base Codec Emit Ipc.

(** all [nc] connections are lost: closed by the peer, unreadable, or stopped *)
Definition all_down (nc : nat) (tr : list obs) : Prop := forall n, (n < nc)%nat -> In (OClosed n) tr \/ In (OAborted n) tr.
(** the id of the event whose sending an observation completes or gives up *)
Definition started (o : obs) : option N := match o with OSent _ _ e | OCut _ _ e => Some (ev_id e) | _ => None end.
(** task [i] is awaiting the reply to request [x], whose replies go to queue [c]; its code goes on with [k] *)
Definition awaiting (s : ep) (i c : nat) (x : N) (k : option (outcome event) -> prog) : Prop := option_map tk_st (nth_error (e_tasks s) i) = Some (TWait c x k).
