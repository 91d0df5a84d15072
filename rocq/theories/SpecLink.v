(** Specifications for two endpoints joined by an encrypted connection (C71). *)
From Verif Require Import Base Reader Codec Spec Ids Payload Builder Emit Crypt SpecCrypt Wire Ipc SpecIpc Pair SpecPair BytePair SpecBytes Link.

(** [SideA] connected to [SideB]: both ran the key exchange and nothing else has been written. *)
Definition connected enc dec pub dh (st : side -> Crypt.stream) : Prop :=
  good_cipher enc dec /\ good_dh pub dh /\
  exists E ks kc secret, established enc dec pub dh E ks kc secret [] EndIdle [] EndIdle (fst (st SideB)) (snd (st SideB)) (fst (st SideA)) (snd (st SideA)).
Definition kruns enc dec (cap : nat) (cf : side -> config) (ps : side -> list prog) (ctr : side -> N) (st : side -> Crypt.stream) (ls : list klabel) (k : linked) (tr : list (side * obs)) : Prop :=
  krun enc dec cap cf (linked_new cf ps ctr st) ls = Some (k, tr).
(** a task of [sd] is sending [e] *)
Definition being_sent (k : linked) (sd : side) (e : event) : Prop :=
  exists i ctx pu, option_map tk_st (nth_error (e_tasks (k_ep k sd)) i) = Some (TSend ctx e pu).
(** everything that is sent can be sent as one package, and the receiver has memory for it *)
Definition all_sendable (cf : side -> config) (k : linked) (tr : list (side * obs)) : Prop :=
  forall sd e, (exists i ctx, In (OSent i ctx e) (at_side sd tr)) \/ being_sent k sd e -> exists l, sendable (cf_env (cf (other sd))) e l.
Definition good_kclocks (ls : list klabel) : Prop := forall sd i t v, In (KDo sd (LTask i (AStep t v))) ls -> rust_instant t.
(** what happens by itself *)
Definition kgoes_on (l : klabel) : bool :=
  match l with
  | KWrite _ _ _ | KRead _ _ | KDo _ (LTask _ (AStep _ _)) | KDo _ (LPlace _) | KDo _ (LAbort _) => true
  | _ => false
  end.
Definition kstill enc dec (cap : nat) (cf : side -> config) (k : linked) : Prop := forall l, kgoes_on l = true -> kstep enc dec cap cf k l = None.
