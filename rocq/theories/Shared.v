(** The data shared by everything built from one builder call (src/ipc/context.rs:39-40 [pub data], src/ipc/builder.rs:107-123,
    218, 248, src/ipc/server.rs:43): an [Arc<RwLock<SendSyncTypeMap>>] that user code locks with [context.data.read().await]
    and [context.data.write().await]. The lock is tokio's, which the crate exposes as is; it is modelled after
    [tokio::sync::RwLock] and its batch semaphore: [MAX_READS] permits, a reader takes one, a writer takes all, who finds too
    few takes what is there and queues for the rest, permits given back go to the queue in the order of arrival.
    Simplifications: a waiting future that has been given its last permit holds from then on (in tokio it does so from its next
    poll; dropping it before gives the permits back, as dropping the guard does); a guard holds until it is dropped; the type map is a map
    from numbers (the key types) to values. *)
From Verif Require Import Base.

Section Shared.
  Context {Val : Type}.

  (** tokio::sync::rwlock: [const MAX_READS: u32 = std::u32::MAX >> 3] *)
  Definition MAX_READS : N := 536870911.

  (** [data.read()], [data.write()] *)
  Inductive want := ForRead | ForWrite.
  (** RwLock::read acquires one permit, RwLock::write [mr] = MAX_READS *)
  Definition needs (k : want) : N := match k with ForRead => 1 | ForWrite => MAX_READS end.

  (** A call of read() or write(): waiting, holding its guard, or dropped *)
  Inductive gstate := GWaits | GHeld | GGone.
  (** [g_strand]: the sequential piece of user code that made the call (a handler, a task); [g_build], [g_conn]: the build call
      (build_client, build_pooled_client, build_server) and the connection whose context it used (context.rs:40) *)
  Record guard := mk_guard { g_strand : nat; g_build : nat; g_conn : N; g_want : want; g_state : gstate }.
  Definition with_state (x : guard) (s : gstate) : guard := mk_guard (g_strand x) (g_build x) (g_conn x) (g_want x) s.

  (** One [RwLock<SendSyncTypeMap>]: the map, the free permits, the waiting calls in the order of arrival with the permits each
      still lacks *)
  Record store := mk_store { s_map : amap N Val; s_permits : N; s_queue : list (nat * N) }.
  (** A process: the store of each build call, all calls of read() and write() ever made *)
  Record world := mk_world { w_stores : list store; w_guards : list guard }.

  Fixpoint put_nth {A} (i : nat) (x : A) (l : list A) : list A :=
    match l, i with
    | [], _ => []
    | _ :: l', O => x :: l'
    | y :: l', S i' => y :: put_nth i' x l'
    end.

  (** What user code does *)
  Inductive act :=
  | ABuild (m : amap N Val)                               (* build_client, build_pooled_client, build_server: Arc::new(RwLock::new(self.data)); [m]: [initial_data] of the builder *)
  | AAsk (w : nat) (d : nat) (c : N) (k : want)           (* context.data.read() / .write() first polled, by strand w *)
  | ADrop (g : nat)                                       (* the guard, or the waiting future, is dropped *)
  | AGet (g : nat) (k : N)                                (* guard.get::<K>() *)
  | APut (g : nat) (k : N) (v : Val)                      (* guard.insert::<K>(v), *guard.get_mut::<K>() = v *)
  | ARemove (g : nat) (k : N).                            (* guard.remove::<K>() *)

  (** A strand is sequential: while it waits for a lock it does nothing else *)
  Definition waits (w : nat) (gs : list guard) : bool :=
    existsb (fun x => Nat.eqb (g_strand x) w && match g_state x with GWaits => true | _ => false end) gs.

  (** Semaphore::add_permits_locked: give [n] permits to the queue, front first; what is left, the queue, who is done *)
  Fixpoint give (n : N) (q : list (nat * N)) : N * list (nat * N) * list nat :=
    match q with
    | [] => (n, [], [])
    | (g, lack) :: q' =>
      if lack <=? n then let '(rest, q2, done) := give (n - lack) q' in (rest, q2, g :: done)
      else (0, (g, lack - n) :: q', [])
    end.

  Definition set_state (s : gstate) (gs : list guard) (g : nat) : list guard :=
    match nth_error gs g with Some x => put_nth g (with_state x s) gs | None => gs end.

  (** Release [n] permits of store [d] whose queue is now [q] *)
  Definition release (w : world) (d : nat) (s : store) (n : N) (q : list (nat * N)) : world :=
    let '(rest, q2, done) := give n q in
    mk_world (put_nth d (mk_store (s_map s) (s_permits s + rest) q2) (w_stores w)) (fold_left (set_state GHeld) done (w_guards w)).

  (** The permits call [g] still lacks *)
  Fixpoint lacks (g : nat) (q : list (nat * N)) : option N :=
    match q with [] => None | (h, n) :: q' => if Nat.eqb g h then Some n else lacks g q' end.
  Definition dequeue (g : nat) (q : list (nat * N)) : list (nat * N) := filter (fun e => negb (Nat.eqb g (fst e))) q.

  (** The guard [g] if it can be used now: held, by a strand that is not waiting for another one; and its store *)
  Definition usable (w : world) (g : nat) : option (guard * store) :=
    match nth_error (w_guards w) g with
    | Some x =>
      match g_state x, waits (g_strand x) (w_guards w), nth_error (w_stores w) (g_build x) with
      | GHeld, false, Some s => Some (x, s)
      | _, _, _ => None
      end
    | None => None
    end.
  Definition set_map (w : world) (d : nat) (s : store) (m : amap N Val) : world :=
    mk_world (put_nth d (mk_store m (s_permits s) (s_queue s)) (w_stores w)) (w_guards w).

  (** One action; [None]: not possible now. A [get] shows what it returns. *)
  Definition step (w : world) (a : act) : option (world * option (option Val)) :=
    match a with
    | ABuild m => Some (mk_world (w_stores w ++ [mk_store m MAX_READS []]) (w_guards w), None)
    | AAsk st d c k =>
      (* Semaphore::acquire, Acquire::poll, poll_acquire *)
      if waits st (w_guards w) then None else
      match nth_error (w_stores w) d with
      | None => None
      | Some s =>
        let g := length (w_guards w) in
        if needs k <=? s_permits s
        then Some (mk_world (put_nth d (mk_store (s_map s) (s_permits s - needs k) (s_queue s)) (w_stores w))
                            (w_guards w ++ [mk_guard st d c k GHeld]), None)
        else Some (mk_world (put_nth d (mk_store (s_map s) 0 (s_queue s ++ [(g, needs k - s_permits s)])) (w_stores w))
                            (w_guards w ++ [mk_guard st d c k GWaits]), None)
      end
    | ADrop g =>
      match nth_error (w_guards w) g with
      | None => None
      | Some x =>
        match nth_error (w_stores w) (g_build x) with
        | None => None
        | Some s =>
          let w' := mk_world (w_stores w) (put_nth g (with_state x GGone) (w_guards w)) in
          match g_state x with
          | GWaits =>
            (* Drop for Acquire: leave the queue, give back what was already taken *)
            match lacks g (s_queue s) with
            | Some n => Some (release w' (g_build x) s (needs (g_want x) - n) (dequeue g (s_queue s)), None)
            | None => None
            end
          | GHeld =>
            (* Drop for RwLockReadGuard / RwLockWriteGuard: s.release(permits_acquired) *)
            if waits (g_strand x) (w_guards w) then None
            else Some (release w' (g_build x) s (needs (g_want x)) (s_queue s), None)
          | GGone => None
          end
        end
      end
    | AGet g k =>
      match usable w g with
      | Some (_, s) => Some (w, Some (lookup N.eqb k (s_map s)))
      | None => None
      end
    | APut g k v =>
      match usable w g with
      | Some (x, s) => match g_want x with ForWrite => Some (set_map w (g_build x) s (insert N.eqb k v (s_map s)), None) | ForRead => None end
      | None => None
      end
    | ARemove g k =>
      match usable w g with
      | Some (x, s) => match g_want x with ForWrite => Some (set_map w (g_build x) s (remove N.eqb k (s_map s)), None) | ForRead => None end
      | None => None
      end
    end.

  (** A run: the actions of all strands in the order in which they happen; with what each shows *)
  Fixpoint run (w : world) (l : list act) : option (world * list (option (option Val))) :=
    match l with
    | [] => Some (w, [])
    | a :: l' =>
      match step w a with
      | Some (w1, o) => match run w1 l' with Some (w2, os) => Some (w2, o :: os) | None => None end
      | None => None
      end
    end.

  (** A process before the first build *)
  Definition fresh : world := mk_world [] [].
End Shared.
Arguments world : clear implicits.
Arguments act : clear implicits.
Arguments store : clear implicits.
