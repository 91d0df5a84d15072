(** Properties of two endpoints joined by a connection of finite capacity: C66. *)
From Coq Require Import Strings.String.
From Verif Require Import Base BaseFacts Codec Spec Ids Payload Builder Emit Ipc SpecIpc IpcFlow Pair SpecPair PairFacts Bounded SpecBounded BoundedFacts JamFacts IpcChanFacts PropsDispatch PropsPair.

(** ** C66 *)
(** A connection that takes any number of events, at least one, per direction; both ends run any tasks and handlers that emit
    and await replies but open no reply streams. If nothing goes on by itself any more, then everything sent has been read, both
    event loops are ready for more, and every task and handler has ended or awaits a reply that was not sent. *)
Theorem C66_no_jam_without_streams : forall cap cf ps ctr ls p tr, (0 < cap)%nat -> (forall sd, plain_handlers (cf sd)) -> (forall sd, Forall (plain_code None) (ps sd)) ->
  brun cap cf (pair_new ps ctr (fun _ => [])) ls = Some (p, tr) -> good_clocks ls -> (forall sd, few_events (p_ep p sd)) -> still cap cf p ->
  forall sd, p_in p sd = [] /\ option_map cn_loop (nth_error (e_conns (p_ep p sd)) 0) = Some LRun
    /\ forall i tk, nth_error (e_tasks (p_ep p sd)) i = Some tk -> finished_or_waiting (p_ep p sd) (tk_st tk).
Proof.
  intros cap cf ps ctr ls p tr CAP PH PP H GC FE ST sd. destruct (progress cap cf ps ctr PH PP CAP ls p tr H GC FE ST sd) as (A & B & C).
  split; [exact A|]. split; [exact B|]. intros i tk Hi. apply (C i). unfold tst. rewrite Hi. reflexivity.
Qed.
Print Assumptions C66_no_jam_without_streams.
(** With reply streams both ends can block each other, however much the connection takes: each has a task that reads a stream and
    sends an event per item, and a handler that goes on sending responses. Then events are waiting in both directions, and
    neither a step of a task nor of an event loop nor a timer is possible; only dropping a future or a stream does. *)
Theorem C66_streams_can_jam : forall cap, (0 < cap)%nat -> exists cf ps ctr ls p tr, brun cap cf (pair_new ps ctr (fun _ => [])) ls = Some (p, tr) /\ good_clocks ls /\ (forall l, In l ls -> goes_on l = true)
  /\ (forall sd, (cap <= length (p_in p sd))%nat) /\ (forall l, from_outside l = false -> bstep cap cf p l = None).
Proof.
  intros cap CAP. destruct (jam_runs cap CAP) as (p & tr & R & ST). exists both, (fun _ => [eater]), (fun _ => 0), (jam cap), p, tr. split; [exact R|].
  split; [intros sd i t v Q; exact (proj2 (jam_labels _ _ Q) _ _ _ _ eq_refl)|]. split; [intros l Q; exact (proj1 (jam_labels _ _ Q))|]. split; [intros sd; exact (proj2 (proj2 (ST sd)))|exact (jammed _ _ _ ST)].
Qed.
Print Assumptions C66_streams_can_jam.

(** a connection that takes a single event per direction; both ends ask at once, one request meets a handler that panics *)
Definition boom : event_handler callback := [(str "boom", fun _ _ => PPanic); (str "ping", ping)].
Definition cf66 : side -> config := fun sd => match sd with SideA => ex_cf | SideB => mk_config boom [] (fun _ => []) ex_env end.
Definition ps66 : side -> list prog := fun sd => match sd with SideA => [asks (str "ping"); asks (str "boom")] | SideB => [asks (str "ping"); asks (str "fail")] end.
(** whatever can be done next is done *)
Definition tries : list plabel := flat_map (fun sd => map (fun i => PDo sd (LTask i go)) (seq 0 5) ++ [PDo sd (LPlace 0); PDeliver sd]) [SideA; SideB].
Fixpoint eagerly (n : nat) (p : pair) : list plabel :=
  match n with
  | O => []
  | S n' => match find (fun l => match bstep 1 cf66 p l with Some _ => true | None => false end) tries with
            | Some l => match bstep 1 cf66 p l with Some (p', _) => l :: eagerly n' p' | None => [] end
            | None => []
            end
  end.
Definition pair66 : pair := pair_new ps66 ctr2 (fun _ => []).
Definition run66 : list plabel := Eval vm_compute in eagerly 100 pair66.
Definition ended66 : pair * list (side * obs) := Eval vm_compute in match brun 1 cf66 pair66 run66 with Some r => r | None => (pair66, []) end.
Lemma asks_plain name : plain_code None (asks name).
Proof. constructor; [left; reflexivity|]. intros o. constructor. Qed.
Lemma ping_plain ctx e : plain_code (c_ref ctx) (ping ctx e).
Proof. constructor; [right; reflexivity|]. intros o. constructor; [right; reflexivity|]. intros o'. constructor. Qed.
Lemma ex_plain : plain_handlers ex_cf.
Proof.
  intros sc name cb H ctx e. unfold eh_get in H. apply (lookup_In _ bytes_eqb_spec) in H. destruct sc as [ns|]; cbn [callbacks] in H.
  - destruct (lookup bytes_eqb ns (cf_namespaces ex_cf)) as [nsp|] eqn:En; [|destruct H]. apply (lookup_In _ bytes_eqb_spec) in En. cbn in En. destruct En as [En|[]]. injection En as <- <-.
    cbn in H. destruct H as [H|[]]. injection H as <- <-. constructor.
  - cbn in H. destruct H as [H|[H|[H|[]]]]; injection H as <- <-.
    + apply ping_plain.
    + constructor.
    + unfold default_error. destruct (error_dec ex_env (ev_data e)); constructor.
Qed.
Lemma boom_plain : plain_handlers (cf66 SideB).
Proof.
  intros sc name cb H ctx e. unfold eh_get in H. apply (lookup_In _ bytes_eqb_spec) in H. destruct sc as [ns|]; cbn in H; [destruct H|].
  destruct H as [H|[H|[]]]; injection H as <- <-; [constructor|apply ping_plain].
Qed.
Example C66_case : exists p tr, brun 1 cf66 (pair_new ps66 ctr2 (fun _ => [])) run66 = Some (p, tr) /\ (0 < 1)%nat /\ (forall sd, plain_handlers (cf66 sd)) /\ (forall sd, Forall (plain_code None) (ps66 sd))
  /\ good_clocks run66 /\ (forall sd, few_events (p_ep p sd)) /\ still 1 cf66 p
  /\ flat_map (fun o => match o with (sd, OReply i x r) => [(sd, i)] | _ => [] end) tr = [(SideA, 0%nat); (SideB, 0%nat); (SideB, 1%nat)]
  /\ (exists c x k, option_map tk_st (nth_error (e_tasks (p_ep p SideA)) 1) = Some (TWait c x k)) /\ In (OPanicked 3) (at_side SideB tr)
  (* and the connection was full in between *)
  /\ exists n p1 tr1 l, brun 1 cf66 (pair_new ps66 ctr2 (fun _ => [])) (firstn n run66) = Some (p1, tr1) /\ bstep 1 cf66 p1 l = None /\ pstep cf66 p1 l <> None.
Proof.
  exists (fst ended66), (snd ended66). split; [vm_compute; reflexivity|]. split; [lia|]. split; [intros [|]; [exact ex_plain|exact boom_plain]|].
  split; [intros [|]; repeat constructor; apply asks_plain|].
  split; [intros sd i t v H; unfold run66 in H; cbn [In] in H; repeat (destruct H as [H|H]; [injection H as <- <- <- <- || discriminate H; split; reflexivity|]); destruct H|].
  split; [intros [|]; vm_compute; discriminate|]. split; [resting|]. split; [vm_compute; reflexivity|]. split; [eexists _, _, _; vm_compute; reflexivity|]. split; [vm_compute; intuition (reflexivity || fail)|].
  exists 5%nat. eexists _, _, (PDo SideA (LTask 1 go)). split; [vm_compute; reflexivity|]. split; [vm_compute; reflexivity|]. vm_compute. discriminate.
Qed.
