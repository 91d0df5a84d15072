(** Specifications for the lifetime of connections. *)
From Verif Require Import Base Life.
Open Scope nat_scope.

(** nothing unreadable arrives and the transport does not break *)
Definition unbroken (h : list (endp * what)) : Prop := forall x, ~ In (x, ReadFails) h.
(** nobody calls stop() at this end *)
Definition never_stopped (x : endp) (h : list (endp * what)) : Prop := forall i, ~ In (x, StopOn i) h.
(** A state some history of a connection leads to. *)
Definition history (h : list (endp * what)) (l : life) : Prop := life_run life_new h = Some l.

(** An end receives: its loop runs and holds the read half *)
Definition receiving (l : life) (x : endp) : Prop := sd_loop (at_end l x) = true.
(** Its sending direction is open: the write half exists. While it is, the peer cannot read end of file. *)
Definition sending_open (l : life) (x : endp) : Prop := sd_write (at_end l x) = true.
(** Besides the loop, nothing is alive at an end: no Context, no future of an emit or request, no reply stream, no handler *)
Definition nothing_held (l : life) (x : endp) : Prop := sd_owners (at_end l x) = [].
(** everything written at this end has been read *)
Definition all_read (l : life) (x : endp) : Prop := sd_out (at_end l x) = 0.
(** what the library does by itself at an end (not the application, not a failing transport) *)
Definition by_itself (w : what) : Prop := match w with Abort | Receive _ | ReadsEof => True | _ => False end.
(** can [w] happen at end [x]? *)
Definition possible (l : life) (x : endp) (w : what) : Prop := life_step l x w <> None.
