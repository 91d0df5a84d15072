(** Registration and building (src/ipc/builder.rs, src/namespaces/*.rs, src/events/event_handler.rs). *)
From Coq Require Import Strings.String.
From Verif Require Import Base Payload.

(** ERROR_EVENT_NAME, END_EVENT_NAME (src/events/error_event.rs:11-12) *)
Definition ERROR_EVENT_NAME : bytes := str "error".
Definition END_EVENT_NAME : bytes := str "end".

Section Builder.
  (** [CB]: callbacks; [Addr]: addresses; [LO], [SO]: listener and stream options;
      [Val]: values of the shared data, keyed by a type (here a number) *)
  Context {CB Addr LO SO Val : Type}.

  (** EventHandler (event_handler.rs:41-45) *)
  Definition event_handler := amap bytes CB.
  (** EventHandler::new (event_handler.rs:60-63) *)
  Definition eh_new : event_handler := [].
  (** EventHandler::on (event_handler.rs:66-77) *)
  Definition eh_on (h : event_handler) (name : bytes) (cb : CB) : event_handler := insert bytes_eqb name cb h.
  (** [self.callbacks.get(event.name())] (event_handler.rs:83) *)
  Definition eh_get (h : event_handler) (name : bytes) : option CB := lookup bytes_eqb name h.

  (** Namespace (namespaces/namespace.rs:4-8), Namespace::new (12-17), name (19-21) *)
  Record namespace := mk_namespace { ns_name : bytes; ns_handler : event_handler }.
  (** Namespace::from_provider (namespaces/provider_trait.rs:9-17); the provider is its name and what [register] does *)
  Definition from_provider (name : bytes) (register : event_handler -> event_handler) : namespace :=
    mk_namespace name (register eh_new).

  (** IPCBuilder (builder.rs:60-70) *)
  Record builder := mk_builder {
    b_handler : event_handler;
    b_address : option Addr;
    b_namespaces : amap bytes namespace;
    b_data : amap N Val;
    b_timeout : N;                 (* seconds *)
    b_serializer : format;
    b_lopts : LO;
    b_sopts : SO }.

  (** IPCBuilder::new (builder.rs:82-104). [default_error]: the callback of lines 84-93;
      [first]: DynamicSerializer::first_available(). *)
  Definition builder_new (default_error : CB) (first : format) (lo : LO) (so : SO) : builder :=
    mk_builder (eh_on eh_new ERROR_EVENT_NAME default_error) None [] [] 60 first lo so.

  (** NamespaceBuilder (namespaces/builder.rs:12-16) *)
  Record ns_builder := mk_ns_builder { nb_name : bytes; nb_handler : event_handler; nb_ipc : builder }.
  (** IPCBuilder::namespace (builder.rs:149-151), NamespaceBuilder::new (namespaces/builder.rs:22-28) *)
  Definition b_namespace (b : builder) (name : bytes) : ns_builder := mk_ns_builder name eh_new b.
  (** NamespaceBuilder::on (namespaces/builder.rs:30-43) *)
  Definition nb_on (n : ns_builder) (name : bytes) (cb : CB) : ns_builder :=
    mk_ns_builder (nb_name n) (eh_on (nb_handler n) name cb) (nb_ipc n).

  (** IPCBuilder::on (builder.rs:127-139) *)
  Definition b_on (b : builder) (name : bytes) (cb : CB) : builder :=
    mk_builder (eh_on (b_handler b) name cb) (b_address b) (b_namespaces b) (b_data b) (b_timeout b) (b_serializer b) (b_lopts b) (b_sopts b).
  (** IPCBuilder::add_namespace (builder.rs:154-159) *)
  Definition b_add_namespace (b : builder) (n : namespace) : builder :=
    mk_builder (b_handler b) (b_address b) (insert bytes_eqb (ns_name n) n (b_namespaces b)) (b_data b) (b_timeout b) (b_serializer b) (b_lopts b) (b_sopts b).
  (** NamespaceBuilder::build (namespaces/builder.rs:45-50) *)
  Definition nb_build (n : ns_builder) : builder :=
    b_add_namespace (nb_ipc n) (mk_namespace (nb_name n) (nb_handler n)).
  (** address (builder.rs:142-146), insert (107-114), insert_all (117-124: the type map is extended by the entries in order), timeout (162-166), default_serializer (171-175),
      server_options (178-182), client_options (185-192) *)
  Definition set_address (b : builder) (a : Addr) : builder :=
    mk_builder (b_handler b) (Some a) (b_namespaces b) (b_data b) (b_timeout b) (b_serializer b) (b_lopts b) (b_sopts b).
  Definition b_insert (b : builder) (k : N) (v : Val) : builder :=
    mk_builder (b_handler b) (b_address b) (b_namespaces b) (insert N.eqb k v (b_data b)) (b_timeout b) (b_serializer b) (b_lopts b) (b_sopts b).
  Definition b_insert_all (b : builder) (l : list (N * Val)) : builder := fold_left (fun b p => b_insert b (fst p) (snd p)) l b.
  Definition set_timeout (b : builder) (t : N) : builder :=
    mk_builder (b_handler b) (b_address b) (b_namespaces b) (b_data b) t (b_serializer b) (b_lopts b) (b_sopts b).
  Definition set_serializer (b : builder) (f : format) : builder :=
    mk_builder (b_handler b) (b_address b) (b_namespaces b) (b_data b) (b_timeout b) f (b_lopts b) (b_sopts b).
  Definition set_lopts (b : builder) (o : LO) : builder :=
    mk_builder (b_handler b) (b_address b) (b_namespaces b) (b_data b) (b_timeout b) (b_serializer b) o (b_sopts b).
  Definition set_sopts (b : builder) (o : SO) : builder :=
    mk_builder (b_handler b) (b_address b) (b_namespaces b) (b_data b) (b_timeout b) (b_serializer b) (b_lopts b) o.

  (** A builder call as a value, for quantifying over call sequences. [CNamespace n l] is
      [.namespace(n).on(..)...build()] with the registrations [l] in order; [CAdd] is [.add_namespace(..)]. *)
  Inductive call :=
  | COn (name : bytes) (cb : CB)
  | CNamespace (name : bytes) (l : list (bytes * CB))
  | CAdd (n : namespace)
  | CAddress (a : Addr)
  | CInsert (k : N) (v : Val)
  | CInsertAll (l : list (N * Val))
  | CTimeout (t : N)
  | CSerializer (f : format)
  | CServerOptions (o : LO)
  | CClientOptions (o : SO).
  Definition do_call (b : builder) (c : call) : builder :=
    match c with
    | COn name cb => b_on b name cb
    | CNamespace name l => nb_build (fold_left (fun nb p => nb_on nb (fst p) (snd p)) l (b_namespace b name))
    | CAdd n => b_add_namespace b n
    | CAddress a => set_address b a
    | CInsert k v => b_insert b k v
    | CInsertAll l => b_insert_all b l
    | CTimeout t => set_timeout b t
    | CSerializer f => set_serializer b f
    | CServerOptions o => set_lopts b o
    | CClientOptions o => set_sopts b o
    end.
  Definition do_calls (b : builder) (l : list call) : builder := fold_left do_call l b.

  (** IPCBuilder::validate (builder.rs:276-282) *)
  Definition validate (b : builder) : outcome unit :=
    match b_address b with
    | None => Err (BuildError (str "Missing Address"))
    | Some _ => Ok tt
    end.

  (** ** Building. *)
  (** What the outside world is asked to do, in order. *)
  Inductive effect :=
  | FBind (a : Addr) (o : LO)                  (* protocol_bind, server.rs:40 *)
  | FConnect (a : Addr) (o : SO)               (* protocol_connect, client.rs:42 *)
  | FLoop (c : N).                             (* tokio::spawn of the receive loop of connection c, client.rs:68-73 *)

  (** A client context as far as building is concerned: the connection it writes to, the reply table and shared data
      it uses (numbers standing for the [Arc]s), the timeout and the serializer (context.rs:35-53). *)
  Record client_context := mk_cc { cc_conn : N; cc_listeners : N; cc_data : N; cc_timeout : N; cc_serializer : format; cc_stoppable : bool }.

  (** IPCClient::connect (client.rs:37-80). [net]: outcome of the i-th connection attempt of this build. *)
  Definition connect (net : N -> outcome N) (b : builder) (a : Addr) (i lis dat : N) : list effect * outcome client_context :=
    match net i with
    | Ok c => ([FConnect a (b_sopts b); FLoop c], Ok (mk_cc c lis dat (b_timeout b) (b_serializer b) true))
    | Err e => ([FConnect a (b_sopts b)], Err e)
    | Crash c => ([FConnect a (b_sopts b)], Crash c)
    end.

  (** IPCBuilder::build_client (builder.rs:216-236): one connection, new reply table and data (number 0) *)
  Definition build_client (net : N -> outcome N) (b : builder) : list effect * outcome client_context :=
    match validate b with
    | Err e => ([], Err e)
    | Crash c => ([], Crash c)
    | Ok _ =>
      match b_address b with
      | None => ([], Crash PanicNone)      (* self.address.unwrap() *)
      | Some a => connect net b a 0 0 0
      end
    end.

  (** the loop of build_pooled_client (builder.rs:253-269): attempts [i], [i+1], ...; all clients share table and data 0 *)
  Fixpoint connect_many (net : N -> outcome N) (b : builder) (a : Addr) (i : N) (n : nat) : list effect * outcome (list client_context) :=
    match n with
    | O => ([], Ok [])
    | S n' =>
      match connect net b a i 0 0 with
      | (fs, Ok c) =>
        let (fs', r) := connect_many net b a (i + 1) n' in (fs ++ fs', omap (cons c) r)
      | (fs, Err e) => (fs, Err e)
      | (fs, Crash c) => (fs, Crash c)
      end
    end.
  (** IPCBuilder::build_pooled_client (builder.rs:243-272) *)
  Definition build_pooled_client (net : N -> outcome N) (b : builder) (pool_size : nat) : list effect * outcome (list client_context) :=
    if Nat.eqb pool_size 0 then ([], Err (BuildError (str "Pool size must be greater than 0")))
    else
      match validate b with
      | Err e => ([], Err e)
      | Crash c => ([], Crash c)
      | Ok _ =>
        match b_address b with
        | None => ([], Crash PanicNone)
        | Some a => connect_many net b a 0 pool_size
        end
      end.

  (** the content of data number 0 when the endpoint starts (builder.rs:218 and 248, server.rs:43) *)
  Definition initial_data (b : builder) : amap N Val := b_data b.
  (** The context of a connection [c] accepted by a server (server.rs:47-71): the server's data, timeout and serializer, a
      reply table of its own (numbered like the connection), no stop signal *)
  Definition server_context (b : builder) (c : N) : client_context := mk_cc c c 0 (b_timeout b) (b_serializer b) false.
  (** IPCBuilder::build_server (builder.rs:196-212) with IPCServer::start (server.rs:35-79) up to the accept loop
      ([accept_loop] in Crypt.v): [bind] is the outcome of protocol_bind, [serve] what the accept loop then returns. *)
  Definition build_server (bind : outcome unit) (serve : outcome unit) (b : builder) : list effect * outcome unit :=
    match validate b with
    | Err e => ([], Err e)
    | Crash c => ([], Crash c)
    | Ok _ =>
      match b_address b with
      | None => ([], Crash PanicNone)
      | Some a => ([FBind a (b_lopts b)], match bind with Ok _ => serve | o => o end)
      end
    end.
End Builder.
Arguments event_handler : clear implicits.
Arguments namespace : clear implicits.
Arguments builder : clear implicits.
Arguments call : clear implicits.
Arguments effect : clear implicits.
