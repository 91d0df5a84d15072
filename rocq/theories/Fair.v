(** The mutex around the write half of a connection (src/ipc/stream_emitter/mod.rs:32, emit_metadata.rs:92) with its queue:
    [tokio::sync::Mutex] is a batch semaphore with one permit. Who finds the permit taken queues; the permit given back goes to
    the first in the queue at once, which writes when it is polled next; dropping a future takes it out of the queue, or gives
    its permit back. A poll in which the task has used up its cooperative budget does not get to the mutex
    ([Acquire::poll] starts with [coop::poll_proceed]). Emit.v, whose futures these are, leaves the order of the lock open. *)
From Verif Require Import Base Codec Ids Payload Emit.

(** The futures of Emit.v and those queueing for the write half, first come first. [w_lock] is who has the permit. *)
Record fair_sys := mk_fair { q_sys : emit_sys; q_wait : list nat }.
Inductive fair_label :=
| QPoll (i : nat) (t : instant) (l : list io_answer)    (* future [i] is polled *)
| QStall (i : nat) (t : instant)                        (* future [i] is polled by a task without budget *)
| QDrop (i : nat).                                      (* future [i] is dropped *)

(** the future is in [stream.lock().await] (emit_metadata.rs:92) *)
Definition at_lock (em : emit_metadata) : bool := match em_fut em with Some (FLock _ _) => true | _ => false end.
Definition queued (i : nat) (q : list nat) : bool := existsb (Nat.eqb i) q.
Definition holds (i : nat) (w : world) : bool := match w_lock w with Some j => Nat.eqb i j | None => false end.

(** EmitMetadata::poll (emit_metadata.rs:76-101) of a future that may have been given the permit while it waited *)
Definition fair_poll (i : nat) (t : instant) (w : world) (em : emit_metadata) (l : list io_answer) : world * emit_metadata * polled N :=
  match em_fut em with
  | Some (FLock id b) =>
    if holds i w then let '(w', f, r) := poll_write_all w id [] b l in (w', mk_emit (em_meta em) (em_stream em) (Some f), r)
    else poll_emit i t w em l
  | _ => poll_emit i t w em l
  end.
(** The same without budget: as far as the mutex, which looks taken; a future that writes finds the connection not ready *)
Definition with_lock (w : world) (k : option nat) : world := mk_world (w_ctr w) (w_lis w) (w_chans w) (w_out w) k.
Definition stall_poll (i : nat) (t : instant) (w : world) (em : emit_metadata) : world * emit_metadata * polled N :=
  let '(w', em', r) := poll_emit i t (with_lock w (Some i)) em [] in (with_lock w' (w_lock w), em', r).

(** Semaphore::add_permits_locked: a free permit goes to the first in the queue *)
Definition hand_over (w : world) (q : list nat) : world * list nat :=
  match w_lock w, q with
  | None, j :: q' => (lock j w, q')
  | _, _ => (w, q)
  end.

(** one step; the second component is what a poll returned *)
Definition fair_step (s : fair_sys) (lb : fair_label) : option (fair_sys * option (nat * polled N)) :=
  match lb with
  | QPoll i t l =>
    match nth_error (y_futs (q_sys s)) i with
    | Some (Some em) =>
      let '(w', em', r) := fair_poll i t (y_world (q_sys s)) em l in
      let q1 := if at_lock em' && negb (queued i (q_wait s)) && negb (holds i w') then q_wait s ++ [i] else q_wait s in
      let (w2, q2) := hand_over w' q1 in
      Some (mk_fair (mk_sys w2 (put i (Some em') (y_futs (q_sys s)))) q2, Some (i, r))
    | _ => None
    end
  | QStall i t =>
    match nth_error (y_futs (q_sys s)) i with
    | Some (Some em) =>
      let '(w', em', r) := stall_poll i t (y_world (q_sys s)) em in
      Some (mk_fair (mk_sys w' (put i (Some em') (y_futs (q_sys s)))) (q_wait s), Some (i, r))
    | _ => None
    end
  | QDrop i =>
    match nth_error (y_futs (q_sys s)) i with
    | Some (Some em) =>
      let (w2, q2) := hand_over (drop_emit i (y_world (q_sys s))) (filter (fun j => negb (Nat.eqb i j)) (q_wait s)) in
      Some (mk_fair (mk_sys w2 (put i None (y_futs (q_sys s)))) q2, None)
    | _ => None
    end
  end.
(** any sequence of steps, and what the polls returned *)
Fixpoint fair_run (s : fair_sys) (ls : list fair_label) : option (fair_sys * list (nat * polled N)) :=
  match ls with
  | [] => Some (s, [])
  | lb :: ls' =>
    match fair_step s lb with
    | Some (s1, o) =>
      match fair_run s1 ls' with
      | Some (s2, os) => Some (s2, match o with Some x => x :: os | None => os end)
      | None => None
      end
    | None => None
    end
  end.
