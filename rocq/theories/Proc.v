(** A process with any number of endpoints: the connections a server has accepted (server.rs:46-76: each gets an emitter and a
    reply table of its own), clients and pooled clients (client.rs:37-80, builder.rs:223-269). Endpoints share nothing but the
    event counter (events/mod.rs:15-17), the handlers (read only, Arc) and the data container (any effect it has on user
    code is a [PEnv] of that code). *)
From Verif Require Import Base Codec Ids Payload Builder Emit Ipc.

(** What an endpoint is started with. Server connections: one connection, no stop sender (server.rs:62-69); clients: one
    connection; pools: several. [o_tasks]: what the user's code ever does with contexts of this endpoint outside handlers. *)
Record origin := mk_origin { o_config : config; o_conns : nat; o_armed : bool; o_tasks : list prog }.
(** [pr_ctr]: the value of COUNTER (events/mod.rs:16); [e_ctr] of an endpoint is what it was when the endpoint last moved. *)
Record proc := mk_proc { pr_eps : list (config * ep); pr_ctr : N }.
(** steps of a process *)
Inductive rlabel :=
| ROpen (o : origin)              (* a connection is accepted (server.rs:46-75), a client or a pool has connected *)
| RDo (j : nat) (l : label)       (* endpoint j moves *)
| RElse.                          (* an event is created and never sent through an endpoint *)

(** an endpoint looking at the counter *)
Definition with_ctr (c : N) (s : ep) : ep := mk_ep (e_lis s) (e_chans s) (e_streams s) (e_conns s) (e_tasks s) c.

(** One step; observations carry the number of the endpoint *)
Definition rstep (p : proc) (l : rlabel) : option (proc * list (nat * obs)) :=
  match l with
  | ROpen o => Some (mk_proc (pr_eps p ++ [(o_config o, ep_new (o_conns o) (o_armed o) (o_tasks o) (pr_ctr p))]) (pr_ctr p), [])
  | RDo _ LOther => None          (* other endpoints' events are their own steps *)
  | RDo j l =>
    match nth_error (pr_eps p) j with
    | Some (cf, s) =>
      match step cf (with_ctr (pr_ctr p) s) l with
      | Some (s', os) => Some (mk_proc (put j (cf, s') (pr_eps p)) (e_ctr s'), map (fun o => (j, o)) os)
      | None => None
      end
    | None => None
    end
  | RElse => Some (mk_proc (pr_eps p) (pr_ctr p + 1), [])
  end.
(** a sequence of steps *)
Fixpoint rrun (p : proc) (ls : list rlabel) : option (proc * list (nat * obs)) :=
  match ls with
  | [] => Some (p, [])
  | l :: ls' =>
    match rstep p l with
    | Some (p1, o1) => match rrun p1 ls' with Some (p2, o2) => Some (p2, o1 ++ o2) | None => None end
    | None => None
    end
  end.
(** a process that has created no event *)
Definition proc_new : proc := mk_proc [] 0.
