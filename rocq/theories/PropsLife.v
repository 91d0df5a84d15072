(** Lifetime of connections: C69. *)
From Verif Require Import Base Life SpecLife LifeFacts.
Open Scope nat_scope.

(** ** C69 *)
(** At both ends the sending direction is open exactly as long as the loop runs or anything else (a Context or clone, a future of
    an emit, an awaited reply, a reply stream, a running handler) is alive. *)
Theorem C69_open_while_anything_lives : forall h l x, history h l -> (sending_open l x <-> receiving l x \/ ~ nothing_held l x).
Proof. intros h l x H. exact (open_iff _ (good_always h l H x)). Qed.
Print Assumptions C69_open_while_anything_lives.
(** Dropping contexts, whichever and how many, closes nothing: without stop() and without failures both ends go on receiving and
    both directions stay open. *)
Theorem C69_dropping_closes_nothing : forall h l x, history h l -> unbroken h -> never_stopped Client h -> receiving l x /\ sending_open l x.
Proof. intros h l x H U N. exact (not_stopped_runs h l H U N x). Qed.
Print Assumptions C69_dropping_closes_nothing.
(** So a connection whose contexts were all dropped stays for good: nothing is left that could happen, except a failing transport. *)
Theorem C69_abandoned_connections_stay : forall h l, history h l -> unbroken h -> never_stopped Client h ->
  (forall x, nothing_held l x) -> (forall x, all_read l x) -> forall x w, possible l x w -> w = ReadFails.
Proof. exact abandoned_stays. Qed.
Print Assumptions C69_abandoned_connections_stay.
(** stop() at the client is the only way to end a loop, at either end: one at the server has no effect. *)
Theorem C69_only_the_client_stops : forall h l x, history h l -> unbroken h -> ~ receiving l x -> exists i, In (Client, StopOn i) h.
Proof. intros h l [] H U R; [exact (client_by_stop h l H U R) | destruct (server_last h l H U R) as (_ & _ & _ & X); exact X]. Qed.
Print Assumptions C69_only_the_client_stops.
(** and once called it takes effect *)
Theorem C69_stop_takes_effect : forall h l i, history h l -> In (Client, StopOn i) h -> receiving l Client ->
  exists l', life_step l Client Abort = Some l' /\ ~ receiving l' Client.
Proof. exact stop_works. Qed.
Print Assumptions C69_stop_takes_effect.
(** The server's end lasts until nothing is alive at the client any more: stop() does not close the connection, any Context, future,
    reply stream or handler left keeps it ... *)
Theorem C69_server_lasts_longest : forall h l, history h l -> unbroken h -> ~ receiving l Server ->
  ~ receiving l Client /\ nothing_held l Client /\ ~ sending_open l Client.
Proof. intros h l H U R. destruct (server_last h l H U R) as (A & B & C & _). auto. Qed.
Print Assumptions C69_server_lasts_longest.
(** ... and usable: what a Context left emits reaches the server's handlers. *)
Theorem C69_half_open_connections_send : forall h l i, history h l -> unbroken h -> nth_error (sd_owners (at_end l Client)) i = Some UserCtx ->
  let n := length (sd_owners (at_end l Client)) in
  exists l', life_run l [(Client, EmitOn i); (Client, PollEmit n); (Client, Written n); (Server, Receive true)] = Some l'
    /\ sd_owners (at_end l' Server) = sd_owners (at_end l Server) ++ [Handling].
Proof.
  intros h l i H U E n. destruct (sd_loop (l_server l)) eqn:L.
  - destruct (still_sends l i E L) as (l' & R & _ & O). exists l'. split; [exact R | exact O].
  - exfalso. destruct (server_last h l H U) as (_ & O & _); [unfold receiving; cbn [at_end]; congruence|]. unfold nothing_held in O. rewrite O in E. destruct i; discriminate.
Qed.
Print Assumptions C69_half_open_connections_send.
(** When everything at the client is gone, the server's loop ends, by itself and after reading no more than what was on the way ... *)
Theorem C69_closing_reaches_the_server : forall h l, history h l -> ~ sending_open l Client ->
  (receiving l Server -> exists w, by_itself w /\ possible l Server w)
  /\ forall hs l', Forall (fun xw => by_itself (snd xw)) hs -> life_run l hs = Some l' -> length hs <= S (sd_out (at_end l Client)).
Proof.
  intros h l H W. split; [exact (close_reaches h l H W)|]. intros hs l' F R. destruct (server_quiet h l H) as [Q1 Q2]. unfold sending_open in W. apply not_true_is_false in W.
  pose proof (close_bound hs l l' (good_always h l H Client) W F Q2 Q1 (good_always h l H Server) R) as B. cbn [at_end] in *. destruct (sd_loop (l_server l)); cbn [b2] in B; lia.
Qed.
Print Assumptions C69_closing_reaches_the_server.
(** ... and when its last handler has finished, nothing of the connection is left. *)
Theorem C69_all_released : forall h l, history h l -> unbroken h -> ~ receiving l Server -> nothing_held l Server ->
  forall x, ~ receiving l x /\ ~ sending_open l x /\ nothing_held l x.
Proof.
  intros h l H U R O x. destruct (server_last h l H U R) as (A & B & C & _). destruct x; [auto|]. repeat split; auto.
  intros W. destruct (proj1 (open_iff _ (good_always h l H Server)) W) as [X | X]; [exact (R X) | exact (X O)].
Qed.
Print Assumptions C69_all_released.

(** A client drops its only Context while the reply of a request is awaited; the server's handler answers; nothing is left but two
    loops waiting for each other for good. *)
Example C69_abandoned_ex : exists l,
  history [(Client, EmitOn 0); (Client, DropIt 0); (Client, PollAsk 0); (Client, Written 0); (Server, Receive true); (Server, Returns 0); (Server, Written 0); (Client, Receive false); (Client, DropIt 0)] l
  /\ (forall x, nothing_held l x) /\ (forall x, all_read l x) /\ forall x, receiving l x.
Proof. eexists. split; [vm_compute; reflexivity|]. repeat split; intros []; reflexivity. Qed.
(** A client with a handler still running and a clone left calls stop(); the loop ends, the server goes on; when clone and handler
    are gone the server ends too. *)
Definition C69_ex : list (endp * what) :=
  [(Client, CloneCtx 0); (Client, EmitOn 0); (Client, PollEmit 2); (Client, Written 2); (Server, Receive true); (Server, EmitOn 0); (Server, PollEmit 1); (Server, Written 1); (Client, Receive true);
   (Client, StopOn 0); (Client, Abort)].
Example C69_stop_ex : exists l, history C69_ex l /\ unbroken C69_ex /\ ~ receiving l Client /\ sending_open l Client /\ receiving l Server /\ sd_owners (at_end l Client) = [UserCtx; Handling].
Proof. eexists. split; [vm_compute; reflexivity|]. split; [intros x I; cbn in I; intuition congruence|]. repeat split; discriminate. Qed.
Example C69_close_ex : exists l, history (C69_ex ++ [(Client, DropIt 0); (Client, Returns 0); (Client, Written 0); (Server, Receive false); (Server, ReadsEof); (Server, Returns 0); (Server, Written 0)]) l
  /\ forall x, ~ receiving l x /\ ~ sending_open l x.
Proof. eexists. split; [vm_compute; reflexivity|]. intros []; split; discriminate. Qed.
