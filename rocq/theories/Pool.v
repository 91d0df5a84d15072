(** Pools of client contexts (src/ipc/context.rs:163-275), at the granularity of the atomic counter operations. *)
From Verif Require Import Base.

(** [AtomicUsize::fetch_add(1)] and [fetch_sub(1)] (context.rs:234-248) wrap around at 2^64 *)
Definition fetch_add1 (n : N) : N := (n + 1) mod U64.
Definition fetch_sub1 (n : N) : N := (n + (U64 - 1)) mod U64.

(** [Iterator::min_by_key] on the counts (context.rs:269-273): the first of the least *)
Fixpoint min_from (best : nat) (bv : N) (i : nat) (l : list N) : nat :=
  match l with
  | [] => best
  | v :: l' => if v <? bv then min_from i v (S i) l' else min_from best bv (S i) l'
  end.
Definition min_by_key (l : list N) : option nat :=
  match l with [] => None | v :: l' => Some (min_from 0 v 1 l') end.

(** A PooledContext value (context.rs:163-166). It owns one guard per connection.
    [PWhole b]: usable, with [b] borrows in progress (acquires and clones of it; Rust does not let it be dropped then).
    [PFilling src k]: being built by [derive(Clone)] from pool [src], guards 0..k-1 cloned so far.
    [PEmptying k]: being dropped, guards k.. still alive. [PGone]: dropped. *)
Inductive pool_value := PWhole (b : nat) | PFilling (src k : nat) | PEmptying (k : nat) | PGone.
(** An [acquire] call in progress on pool [aq_pool]: the counts loaded so far. *)
Inductive acq := AReading (pool : nat) (reads : list N) | ADone.

(** [p_n] connections with their counters; all pool values ever created; the guards users hold (connection numbers);
    all acquire calls ever started. *)
Record pool_state := mk_pool { p_n : nat; p_counts : list N; p_pools : list pool_value; p_users : list nat; p_acqs : list acq }.

(** PooledContext::new (context.rs:258-262) with PoolGuard::new (227-232): every counter starts at 0 *)
Definition pool_new (n : nat) : pool_state := mk_pool n (repeat 0 n) [PWhole 0] [] [].

(** list updates: replace or delete an entry, change a counter *)
Fixpoint set_nth {A} (i : nat) (x : A) (l : list A) : list A :=
  match l, i with
  | [], _ => []
  | _ :: l', O => x :: l'
  | y :: l', S i' => y :: set_nth i' x l'
  end.
Definition del_nth {A} (i : nat) (l : list A) : list A := firstn i l ++ skipn (S i) l.
Definition upd_count (f : N -> N) (c : nat) (l : list N) : list N :=
  match nth_error l c with Some v => set_nth c (f v) l | None => l end.

(** Atomic steps of any number of threads. *)
Inductive pool_label :=
| AcqStart (p : nat)     (* pool.acquire() is called *)
| AcqStep (a : nat)      (* it loads the next counter, or, having loaded all, clones the chosen guard *)
| ClonePool (p : nat)    (* pool.clone() is called *)
| CloneStep (q : nat)    (* it clones the next guard *)
| DropPool (p : nat)     (* drop(pool) *)
| DropStep (q : nat)     (* it drops the next guard *)
| CloneGuard (u : nat)   (* guard.clone() *)
| DropGuard (u : nat).   (* drop(guard) *)
Inductive pool_obs := Quiet | Got (conn : nat) | Panics.

(** begin and end of a borrow [&pool] (Rust does not let a borrowed value be dropped) *)
Definition borrow (p : nat) (ps : list pool_value) : option (list pool_value) :=
  match nth_error ps p with Some (PWhole b) => Some (set_nth p (PWhole (S b)) ps) | _ => None end.
Definition unborrow (p : nat) (ps : list pool_value) : list pool_value :=
  match nth_error ps p with Some (PWhole (S b)) => set_nth p (PWhole b) ps | _ => ps end.

(** One atomic step; [None]: not possible in this state *)
Definition pool_step (s : pool_state) (l : pool_label) : option (pool_state * pool_obs) :=
  match l with
  | AcqStart p =>                                                      (* context.rs:268 *)
    match borrow p (p_pools s) with
    | Some ps => Some (mk_pool (p_n s) (p_counts s) ps (p_users s) (p_acqs s ++ [AReading p []]), Quiet)
    | None => None
    end
  | AcqStep a =>
    match nth_error (p_acqs s) a with
    | Some (AReading p reads) =>
      match nth_error (p_counts s) (length reads) with
      | Some v =>                                                      (* count(), context.rs:251-253 *)
        Some (mk_pool (p_n s) (p_counts s) (p_pools s) (p_users s) (set_nth a (AReading p (reads ++ [v])) (p_acqs s)), Quiet)
      | None =>
        match min_by_key reads with
        | Some c =>                                                    (* clone(), context.rs:198-211 *)
          Some (mk_pool (p_n s) (upd_count fetch_add1 c (p_counts s)) (unborrow p (p_pools s)) (p_users s ++ [c]) (set_nth a ADone (p_acqs s)), Got c)
        | None =>                                                      (* unwrap() on None *)
          Some (mk_pool (p_n s) (p_counts s) (unborrow p (p_pools s)) (p_users s) (set_nth a ADone (p_acqs s)), Panics)
        end
      end
    | _ => None
    end
  | ClonePool p =>                                                     (* derive(Clone), context.rs:163 *)
    match borrow p (p_pools s) with
    | Some ps => Some (mk_pool (p_n s) (p_counts s) (ps ++ [PFilling p 0]) (p_users s) (p_acqs s), Quiet)
    | None => None
    end
  | CloneStep q =>
    match nth_error (p_pools s) q with
    | Some (PFilling p k) =>
      if Nat.ltb k (p_n s)
      then Some (mk_pool (p_n s) (upd_count fetch_add1 k (p_counts s)) (set_nth q (PFilling p (S k)) (p_pools s)) (p_users s) (p_acqs s), Quiet)
      else Some (mk_pool (p_n s) (p_counts s) (unborrow p (set_nth q (PWhole 0) (p_pools s))) (p_users s) (p_acqs s), Quiet)
    | _ => None
    end
  | DropPool p =>
    match nth_error (p_pools s) p with
    | Some (PWhole 0) => Some (mk_pool (p_n s) (p_counts s) (set_nth p (PEmptying 0) (p_pools s)) (p_users s) (p_acqs s), Quiet)
    | _ => None
    end
  | DropStep q =>                                                      (* Drop for PoolGuard, context.rs:213-221 *)
    match nth_error (p_pools s) q with
    | Some (PEmptying k) =>
      if Nat.ltb k (p_n s)
      then Some (mk_pool (p_n s) (upd_count fetch_sub1 k (p_counts s)) (set_nth q (PEmptying (S k)) (p_pools s)) (p_users s) (p_acqs s), Quiet)
      else Some (mk_pool (p_n s) (p_counts s) (set_nth q PGone (p_pools s)) (p_users s) (p_acqs s), Quiet)
    | _ => None
    end
  | CloneGuard u =>                                                    (* Clone for PoolGuard, context.rs:198-211 *)
    match nth_error (p_users s) u with
    | Some c => Some (mk_pool (p_n s) (upd_count fetch_add1 c (p_counts s)) (p_pools s) (p_users s ++ [c]) (p_acqs s), Quiet)
    | None => None
    end
  | DropGuard u =>
    match nth_error (p_users s) u with
    | Some c => Some (mk_pool (p_n s) (upd_count fetch_sub1 c (p_counts s)) (p_pools s) (del_nth u (p_users s)) (p_acqs s), Quiet)
    | None => None
    end
  end.

(** a history of steps and what was observed *)
Fixpoint pool_run (s : pool_state) (ls : list pool_label) : option (pool_state * list pool_obs) :=
  match ls with
  | [] => Some (s, [])
  | l :: ls' =>
    match pool_step s l with
    | Some (s1, o) => match pool_run s1 ls' with Some (s2, os) => Some (s2, o :: os) | None => None end
    | None => None
    end
  end.
