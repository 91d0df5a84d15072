(** Specifications for the order in which events are processed (C72). *)
From Verif Require Import Base Codec Spec Ids Payload Builder Emit Ipc SpecIpc Pair SpecPair.

(** events that went out completely, in order *)
Definition out_one (o : obs) : list event := match o with OSent _ _ e => [e] | _ => [] end.
Definition sent_events (tr : list obs) : list event := flat_map out_one tr.
(** events connection [n] has read, those it has processed (given to a request, to a handler, or ignored), and those among them
    for which a handler was called *)
Definition read_one (n : nat) (o : obs) : list event := match o with OReceived m e => if Nat.eqb m n then [e] else [] | _ => [] end.
Definition events_read (n : nat) (tr : list obs) : list event := flat_map (read_one n) tr.
Definition processed_one (n : nat) (o : obs) : list event :=
  match o with OQueued m _ e | OIgnored m e | OCalled m _ _ _ e => if Nat.eqb m n then [e] else [] | _ => [] end.
Definition processed (n : nat) (tr : list obs) : list event := flat_map (processed_one n) tr.
Definition handled_one (n : nat) (o : obs) : list event := match o with OCalled m _ _ _ e => if Nat.eqb m n then [e] else [] | _ => [] end.
Definition handled (n : nat) (tr : list obs) : list event := flat_map (handled_one n) tr.
(** some of the elements, in the same order, each as often at most *)
Inductive subseq {A} : list A -> list A -> Prop :=
| sub_nil l : subseq [] l
| sub_skip x l m : subseq l m -> subseq l (x :: m)
| sub_take x l m : subseq l m -> subseq (x :: l) (x :: m).
