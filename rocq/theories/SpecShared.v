(** What users may expect of the shared data, in terms of the history of actions alone: no lock, no permits, no queue. *)
From Verif Require Import Base Shared.

Section SpecShared.
  Context {Val : Type}.

  (** The calls of read() and write() in a history, in order: call number [g] is the g-th *)
  Record call := mk_call { call_strand : nat; call_build : nat; call_conn : N; call_want : want }.
  Definition calls (l : list (act Val)) : list call :=
    flat_map (fun a => match a with AAsk w d c k => [mk_call w d c k] | _ => [] end) l.
  (** Call number [g] of history [l] was made, for the data of build [d], to read or write as [k] says *)
  Definition made (l : list (act Val)) (g : nat) (d : nat) (k : want) : Prop :=
    exists x, nth_error (calls l) g = Some x /\ call_build x = d /\ call_want x = k.
  Definition made_by (l : list (act Val)) (g : nat) (w : nat) : Prop :=
    exists x, nth_error (calls l) g = Some x /\ call_strand x = w.
  (** its future or guard was dropped *)
  Definition dropped (l : list (act Val)) (g : nat) : Prop := In (ADrop g) l.

  (** The maps given to the build calls, in order *)
  Definition builds (l : list (act Val)) : list (amap N Val) := flat_map (fun a => match a with ABuild m => [m] | _ => [] end) l.

  (** The last thing that happened to key [k] of the data of build [d]: [latest l d k o], [o] the value, [None] if removed or
      never there. Which connection or strand did it plays no role. *)
  Inductive latest : list (act Val) -> nat -> N -> option Val -> Prop :=
  | la_build l m k : latest (l ++ [ABuild m]) (length (builds l)) k (lookup N.eqb k m)
  | la_put l g d k v : made l g d ForWrite -> latest (l ++ [APut g k v]) d k (Some v)
  | la_remove l g d k : made l g d ForWrite -> latest (l ++ [ARemove g k]) d k None
  | la_other l a d k o : latest l d k o -> (forall m, a = ABuild m -> d <> length (builds l)) ->
      (forall g v, a = APut g k v -> ~ made l g d ForWrite) -> (forall g, a = ARemove g k -> ~ made l g d ForWrite) ->
      latest (l ++ [a]) d k o.

  (** Two calls exclude each other unless both are for reading *)
  Definition excludes (k k' : want) : Prop := k = ForWrite \/ k' = ForWrite.

  (** The action touches the data of build [d] through call [g] *)
  Definition touches (l : list (act Val)) (a : act Val) (g : nat) (d : nat) : Prop :=
    (exists k, made l g d k) /\ match a with AGet h _ | APut h _ _ | ARemove h _ => h = g | _ => False end.
  Definition changes (l : list (act Val)) (a : act Val) (d : nat) : Prop :=
    exists g, touches l a g d /\ match a with APut _ _ _ | ARemove _ _ => True | _ => False end.

  (** After history [l] the call [g] has its guard, or still waits for it *)
  Definition holds (w : world Val) (g : nat) : Prop := exists x, nth_error (w_guards w) g = Some x /\ g_state x = GHeld.
  Definition still_waits (w : world Val) (g : nat) : Prop := exists x, nth_error (w_guards w) g = Some x /\ g_state x = GWaits.

  (** [l] is possible, shows [os] and leads to [w] *)
  Definition history (l : list (act Val)) (os : list (option (option Val))) (w : world Val) : Prop := run fresh l = Some (w, os).
End SpecShared.

(** Counting: [puts l d k c]: history [l] stores a value for key [k] of the data of build [d] [c] times *)
Inductive puts : list (act N) -> nat -> N -> N -> Prop :=
| pu_nil d k : puts [] d k 0
| pu_put l g d k v c : puts l d k c -> made l g d ForWrite -> puts (l ++ [APut g k v]) d k (c + 1)
| pu_other l a d k c : puts l d k c -> (forall g v, a = APut g k v -> ~ made l g d ForWrite) -> puts (l ++ [a]) d k c.

(** In [l], showing [os], every change of key [k] of the data of build [d] stores one more than what the same guard read since its last own change *)
Definition only_increments (l : list (act N)) (os : list (option (option N))) (d : nat) (k : N) : Prop :=
  (forall pre g v post, l = pre ++ APut g k v :: post -> made pre g d ForWrite ->
     exists pre1 mid n, pre = pre1 ++ AGet g k :: mid /\ nth_error os (length pre1) = Some (Some (Some n)) /\ v = (n + 1)%N /\ forall v', ~ In (APut g k v') mid) /\
  (forall pre g post, l = pre ++ ARemove g k :: post -> ~ made pre g d ForWrite).

(** Fewer than [MAX_READS] calls for the data of build [d] wait or hold *)
Definition few {Val} (l : list (act Val)) (d : nat) : Prop :=
  forall gs, NoDup gs -> (forall g, In g gs -> ~ dropped l g /\ exists k, made l g d k) -> N.of_nat (length gs) < MAX_READS.
