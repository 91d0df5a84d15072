(** Event ids (src/events/mod.rs:13-23). *)
From Verif Require Import Base.

(** [SystemTime::now().duration_since(UNIX_EPOCH)]: seconds and milliseconds within the second.
    Clocks before 1970 are left out: [unwrap] would panic there, before the counter is touched. *)
Record instant := mk_instant { secs : N; millis : N }.
(** What [Duration] guarantees: [subsec_millis] is below 1000. *)
Definition rust_instant (t : instant) : Prop := secs t < U64 /\ millis t < 1000.

(** generate_event_id (src/events/mod.rs:14-23). [ctr] is what [COUNTER.fetch_add(1)] answers, that is the number of
    earlier calls in the process modulo 2^64 ([fetch_add] is atomic: each call gets its own number in one total order).
    [<<] on u64 drops the high bits: [mod U64]. *)
Definition generate_event_id (t : instant) (ctr : N) : N :=
  N.lor (N.lor (N.shiftl (secs t mod 65535) 48 mod U64) (N.shiftl (millis t) 32 mod U64)) ctr.

(** Id of the [n]-th event of a process (counting from 0), created at [t]. *)
Definition nth_id (t : instant) (n : N) : N := generate_event_id t (n mod U64).
