(** Specifications for two endpoints joined by byte streams (C67). *)
From Verif Require Import Base Reader Codec Spec Ids Payload Builder Emit Ipc SpecIpc Pair SpecPair BytePair.

Definition xruns (cap : nat) (cf : side -> config) (ps : side -> list prog) (ctr : side -> N) (ls : list xlabel) (x : xpair) (tr : list (side * obs)) : Prop :=
  xrun cap cf (xpair_new ps ctr) ls = Some (x, tr).
(** the event can be written and a reader with [E] has memory for it *)
Definition deliverable (E : env) (e : event) : Prop := rust_event e /\ fits e /\ enough_mem E e.
(** [e] is being written by [sd] *)
Definition being_written (x : xpair) (sd : side) (e : event) : Prop :=
  exists i ctx pu rest, x_out x sd = Some (i, rest) /\ option_map tk_st (nth_error (e_tasks (x_ep x sd)) i) = Some (TSend ctx e pu).
(** everything written can be delivered *)
Definition all_deliverable (cf : side -> config) (x : xpair) (tr : list (side * obs)) : Prop :=
  forall sd e, (exists i ctx, In (OSent i ctx e) (at_side sd tr)) \/ being_written x sd e -> deliverable (cf_env (cf (other sd))) e.
Definition good_xclocks (ls : list xlabel) : Prop := forall sd i t v, In (XDo sd (LTask i (AStep t v))) ls -> rust_instant t.
(** what happens by itself *)
Definition xgoes_on (l : xlabel) : bool :=
  match l with
  | XWrite _ _ | XRead _ | XDo _ (LTask _ (AStep _ _)) | XDo _ (LPlace _) | XDo _ (LAbort _) => true
  | _ => false
  end.
Definition xstill (cap : nat) (cf : side -> config) (x : xpair) : Prop := forall l, xgoes_on l = true -> xstep cap cf x l = None.
