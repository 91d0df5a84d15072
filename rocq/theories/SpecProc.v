(** Specifications for processes with several endpoints, read off labels and observations (C65). *)
From Verif Require Import Base Codec Ids Emit Ipc SpecIpc SpecMore Proc.

(** what was observed at endpoint [j] *)
Definition at_ep (j : nat) (tr : list (nat * obs)) : list obs := flat_map (fun o => if Nat.eqb (fst o) j then [snd o] else []) tr.
(** the steps made by endpoint [j] *)
Definition labels_at (j : nat) (ls : list rlabel) : list label := flat_map (fun l => match l with RDo k l => if Nat.eqb k j then [l] else [] | _ => [] end) ls.
(** the endpoints opened, in order *)
Definition opened (ls : list rlabel) : list origin := flat_map (fun l => match l with ROpen o => [o] | _ => [] end) ls.
(** steps an endpoint makes itself *)
Definition own_step (l : label) : bool := match l with LOther => false | _ => true end.
(** the clock behaves like [SystemTime]; fewer than 2^32 events were created in the process *)
Definition proc_clock (ls : list rlabel) : Prop := forall j i t v, In (RDo j (LTask i (AStep t v))) ls -> rust_instant t.
Definition proc_few (p : proc) : Prop := pr_ctr p <= 2 ^ 32.
