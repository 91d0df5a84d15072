(** Specifications for emits on a connection and the events that arrive (C64). *)
From Verif Require Import Base Reader Codec Spec Ids Crypt SpecCrypt Emit SpecEmit Wire.

Definition g_future (o : order) : gemit := g_new (o_ctx o) (o_name o) (o_ns o) (o_payload o) (o_ref o) (o_type o).
(** all emit calls made, none polled yet, the writer free *)
Definition g_start {W} (w : world) (sk : W) (os : list order) : gsys := mk_g w sk (map (fun o => Some (g_future o)) os).

(** The clock is sane and no future is dropped while it holds the writer. *)
Fixpoint uncut {W} (pw : W -> bytes -> W * bytes * wstat) (pf : W -> W * wstat) (s : gsys) (ls : list glabel) : Prop :=
  match ls with
  | [] => True
  | lb :: ls' =>
    match lb with GPoll _ t => rust_instant t | GDrop i => w_lock (g_world s) <> Some i end
    /\ match g_step pw pf s lb with Some (s1, _) => uncut pw pf s1 ls' | None => True end
  end.

(** What a receive loop on a plain socket reads: exactly [es], then [r], which is not an event. *)
Definition hear (E : env) (s : script) : xres event script := exec sock_read E (S (length s)) (from_async_read E) [] s.
Inductive hears (E : env) : script -> list event -> xres event script -> Prop :=
| hears_stop s r : hear E s = r -> (forall e s', r <> XOut (Ok e) s') -> hears E s [] r
| hears_event s e s' es r : hear E s = XOut (Ok e) s' -> hears E s' es r -> hears E s (e :: es) r.

(** The events of [ord] belong to different emit calls (number, event), are what those calls asked for, and include those of all
    calls that answered Ok. *)
Record from_calls (os : list order) (rs : list (nat * polled N)) (ord : list (nat * event)) : Prop := {
  fc_once : NoDup (map fst ord);
  fc_asked : forall i e, In (i, e) ord -> exists o, nth_error os i = Some o /\ event_of o e;
  fc_done : forall i id, In (i, Ready (Ok id)) rs -> exists e, In (i, e) ord /\ ev_id e = id }.

(** The events a call can make are representable and the receiver has memory for them; on encrypted connections they fit into one
    package. *)
Definition acceptable (E : env) (o : order) : Prop := forall e, event_of o e -> ev_id e < U64 -> rust_event e /\ fits e /\ enough_mem E e.
Definition acceptable_encrypted (E : env) (o : order) : Prop := forall e, event_of o e -> ev_id e < U64 -> exists l, sendable E e l.
