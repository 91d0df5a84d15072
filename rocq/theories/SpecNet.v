(** Specifications for networks of endpoints. *)
From Verif Require Import Base Codec Spec Ids Payload Builder Emit Ipc SpecIpc Pair SpecPair Net.

Definition nruns (w : network) (ls : list nlabel) (s : net) (tr : list (nat * obs)) : Prop := nrun w (net_new w) ls = Some (s, tr).
(** what happens at endpoint [i] *)
Definition at_node (i : nat) (tr : list (nat * obs)) : list obs := flat_map (fun q => if Nat.eqb (fst q) i then [snd q] else []) tr.
Definition net_clocks (ls : list nlabel) : Prop := forall n i t v, In (NDo n (LTask i (AStep t v))) ls -> rust_instant t.
(** connections have two ends, and an endpoint has the connections that are joined *)
Definition well_joined (w : network) : Prop := forall i k j m, peer w i k = Some (j, m) -> peer w j m = Some (i, k) /\ (k < nd_conns (node_of w i))%nat.

(** events read from connection [k] *)
Definition read_one (k : nat) (o : obs) : list event := match o with OReceived n e => if Nat.eqb n k then [e] else [] | _ => [] end.
Definition read_from (k : nat) (tr : list obs) : list event := flat_map (read_one k) tr.
(** events sent to connection [k], as they are read *)
Definition sent_one (k : nat) (o : obs) : list event := match o with OSent _ ctx e => if Nat.eqb (c_conn ctx) k then [drop_empty_ns e] else [] | _ => [] end.
Definition sent_to (k : nat) (tr : list obs) : list event := flat_map (sent_one k) tr.

(** a connection a server has accepted: it has a table of its own, no tasks of the user; its handlers do anything but wait for
    replies and use contexts of others *)
Definition server_node (w : network) (b : nat) : Prop := only_replies (nd_cf (node_of w b)) /\ nd_tasks (node_of w b) = [] /\ nd_conns (node_of w b) = 1%nat.
(** everything endpoint [a] is joined to is such a connection, and its errors can be read by [a] *)
Definition served (w : network) (a : nat) : Prop :=
  forall k b m, peer w a k = Some (b, m) -> server_node w b /\ debug_fits (nd_cf (node_of w b)) (cf_env (nd_cf (node_of w a))).

(** nothing can go on by itself: only timers fire, futures be dropped, connections break, unrelated things happen *)
Definition goes_further (l : nlabel) : bool :=
  match l with
  | NDeliver _ _ | NDo _ (LTask _ (AStep _ _)) | NDo _ (LPlace _) | NDo _ (LAbort _) => true
  | _ => false
  end.
(** writes to a broken connection fail *)
Definition fails_further (s : net) (i : nat) (l : label) : Prop :=
  exists j ctx e pu k, l = LTask j (AFail k) /\ option_map tk_st (nth_error (e_tasks (n_ep s i)) j) = Some (TSend ctx e pu) /\ n_bad s i (c_conn ctx) = true.
Definition net_rest (w : network) (s : net) : Prop :=
  (forall l, goes_further l = true -> nstep w s l = None) /\ forall i l, fails_further s i l -> nstep w s (NDo i l) = None.
