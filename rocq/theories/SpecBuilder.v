(** Specifications for registration and building. *)
From Coq Require Import Strings.String.
From Verif Require Import Base Payload Builder.

(** [v] is the last value given to [k] in [l] *)
Definition last_given {K V} (l : list (K * V)) (k : K) (v : V) : Prop :=
  exists before after, l = before ++ (k, v) :: after /\ forall v', ~ In (k, v') after.
Definition never_given {K V} (l : list (K * V)) (k : K) : Prop := forall v, ~ In (k, v) l.

(** [a] is the value of a setting: the last one given, else the default [d] *)
Definition setting {A} (given : list (unit * A)) (d a : A) : Prop := last_given given tt a \/ (never_given given tt /\ a = d).

Section S.
  Context {CB Addr LO SO Val : Type}.
  Notation call := (call CB Addr LO SO Val).
  (** global registrations of a call sequence *)
  Definition global_regs (l : list call) : list (bytes * CB) :=
    flat_map (fun c => match c with COn name cb => [(name, cb)] | _ => [] end) l.
  (** namespaces added by a call sequence: name and either its registrations or the namespace object itself *)
  Definition added_namespaces (l : list call) : list (bytes * (list (bytes * CB) + namespace CB)) :=
    flat_map (fun c => match c with
                       | CNamespace name r => [(name, inl r)]
                       | CAdd n => [(ns_name n, inr n)]
                       | _ => [] end) l.
  Definition addresses (l : list call) : list (unit * Addr) :=
    flat_map (fun c => match c with CAddress a => [(tt, a)] | _ => [] end) l.
  Definition timeouts (l : list call) : list (unit * N) :=
    flat_map (fun c => match c with CTimeout a => [(tt, a)] | _ => [] end) l.

  Definition serializers (l : list call) : list (unit * format) :=
    flat_map (fun c => match c with CSerializer f => [(tt, f)] | _ => [] end) l.
  Definition listener_opts (l : list call) : list (unit * LO) :=
    flat_map (fun c => match c with CServerOptions o => [(tt, o)] | _ => [] end) l.
  Definition stream_opts (l : list call) : list (unit * SO) :=
    flat_map (fun c => match c with CClientOptions o => [(tt, o)] | _ => [] end) l.
  (** shared data given, one by one or in bulk *)
  Definition data_given (l : list call) : list (N * Val) :=
    flat_map (fun c => match c with CInsert k v => [(k, v)] | CInsertAll m => m | _ => [] end) l.

  (** the callback a built endpoint runs for an event name, globally or in a namespace *)
  Definition global_callback (b : builder CB Addr LO SO Val) (name : bytes) : option CB := eh_get (b_handler b) name.
  Definition has_namespace (b : builder CB Addr LO SO Val) (ns : bytes) : Prop := lookup bytes_eqb ns (b_namespaces b) <> None.
  Definition namespace_callback (b : builder CB Addr LO SO Val) (ns name : bytes) : option CB :=
    match lookup bytes_eqb ns (b_namespaces b) with Some n => eh_get (ns_handler n) name | None => None end.

  Definition is_connect (f : effect Addr LO SO) : bool := match f with FConnect _ _ => true | _ => false end.
  Definition connects (fs : list (effect Addr LO SO)) : nat := length (filter is_connect fs).
  Definition loops (fs : list (effect Addr LO SO)) : list N :=
    flat_map (fun f => match f with FLoop c => [c] | _ => [] end) fs.
End S.
