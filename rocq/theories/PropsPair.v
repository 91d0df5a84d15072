(** Properties of two joined endpoints: C46, C52. *)
From Coq Require Import Strings.String.
From Verif Require Import Base BaseFacts Codec Spec Ids Payload Builder Emit Ipc SpecIpc Pair SpecPair PairFacts PairServer PairEnd PairRest PairQuiet PairForever PairStops PropsDispatch.

(** ** C52 *)
(** [SideA] is a client with any tasks and handlers, [SideB] one connection of a server whose handlers do anything but wait for
    replies themselves. *)
(** at any time: a request that has got something has got the right thing *)
Theorem C52_reply_is_the_first_sent : forall cf ps ctr ls p tr, pruns cf ps ctr (fun _ => []) ls p tr -> only_replies (cf SideB) -> ps SideB = [] -> debug_fits (cf SideB) (cf_env (cf SideA)) ->
  good_clocks ls -> few_events (p_ep p SideA) ->
  forall i x r, In (OReply i x (Some r)) (at_side SideA tr) -> never_handled x (at_side SideA tr) ->
  r = Err Timeout \/ exists j sc q, In (OCalled 0 j (mk_context 0 (Some x)) sc q) (at_side SideB tr) /\ ev_id q = x /\ answered (cf SideB) (at_side SideB tr) j r.
Proof.
  intros cf ps ctr ls p tr HR RO PB DF GC FE i x r H NH. destruct (reply_first _ _ _ RO PB DF _ _ _ HR GC FE _ _ _ H NH) as [->|(j & sc & q & A & B & _ & C)]; [auto|]. right. exists j, sc, q. auto.
Qed.
Print Assumptions C52_reply_is_the_first_sent.
(** when nothing is left to do except timers *)
Theorem C52_end_to_end : forall cf ps ctr ls p tr, pruns cf ps ctr (fun _ => []) ls p tr -> only_replies (cf SideB) -> ps SideB = [] -> debug_fits (cf SideB) (cf_env (cf SideA)) ->
  good_clocks ls -> few_events (p_ep p SideA) -> at_rest cf p -> ~ In (OAborted 0) (at_side SideA tr) -> room (at_side SideA tr) ->
  forall i ctx e c, In (OSent i ctx e) (at_side SideA tr) -> In (OListen i (ev_id e) c) (at_side SideA tr) -> (forall h, ~ In (OOpened i h (ev_id e) c) (at_side SideA tr)) ->
    never_handled (ev_id e) (at_side SideA tr) ->
  exists j sc, In (OCalled 0 j (mk_context 0 (Some (ev_id e))) sc (drop_empty_ns e)) (at_side SideB tr)
    /\ ((exists r, In (OReply i (ev_id e) r) (at_side SideA tr) /\ (r = None \/ r = Some (Err Timeout) \/ exists r', r = Some r' /\ answered (cf SideB) (at_side SideB tr) j r'))
        \/ (In (OPanicked j) (at_side SideB tr) /\ sent j (at_side SideB tr) = [])).
Proof. intros cf ps ctr ls p tr HR RO PB DF. exact (at_end _ _ _ RO PB DF _ _ _ HR). Qed.
Print Assumptions C52_end_to_end.

(** a client that asks "ping" and "fail" *)
Definition c00 : context := mk_context 0 None.
Definition asks (name : bytes) : prog := PAwait (mk_request c00 (Some []) name (Ok [x07])) (fun _ => PRet (inl [])).
Definition cf2 : side -> config := fun _ => ex_cf.
Definition ps2 : side -> list prog := fun sd => match sd with SideA => [asks (str "ping"); asks (str "fail"); asks (str "none")] | SideB => [] end.
Definition ctr2 : side -> N := fun sd => match sd with SideA => 0 | SideB => 1000 end.
Definition doA (i : nat) : plabel := PDo SideA (LTask i go).
Definition doB (i : nat) : plabel := PDo SideB (LTask i go).
Definition schedule : list plabel :=
  [doA 0; doA 1; doA 2; doA 0; doA 1; doA 2; doA 1; doA 0; doA 2;       (* three requests, "fail" sent first *)
   PDeliver SideB; PDeliver SideB; PDeliver SideB;
   doB 1; doB 0; doB 1; doB 0; doB 2; doB 2; doB 2; doB 1; doB 1; doB 1; doB 1; doB 1;
   PDeliver SideA; PDo SideA (LPlace 0); PDeliver SideA; PDo SideA (LPlace 0); PDeliver SideA; PDo SideA (LPlace 0); PDeliver SideA; PDo SideA (LPlace 0);
   doA 0; doA 1; doA 2; doA 0; doA 1; doA 2; doA 0; doA 1; doA 2; PDeliver SideA].
Definition ended2 : pair * list (side * obs) := Eval vm_compute in match prun cf2 (pair_new ps2 ctr2 (fun _ => [])) schedule with Some r => r | None => (pair_new ps2 ctr2 (fun _ => []), []) end.
Ltac resting := let l := fresh in let H := fresh in intros l H; destruct l as [[|] [i [| | |]|n e|n|n|n|h|]|[|]]; try discriminate H; try reflexivity;
  match goal with
  | |- context[LTask ?i _] => do 6 (try (destruct i as [|i]; [reflexivity|])); reflexivity
  | |- context[LPlace ?n] => do 3 (try (destruct n as [|n]; [reflexivity|])); reflexivity
  | |- context[LAbort ?n] => do 3 (try (destruct n as [|n]; [reflexivity|])); reflexivity
  end.
Ltac pclock := let H := fresh in intros ? ? ? ? H; cbn [In schedule doA doB go] in H; repeat (destruct H as [H|H]; [injection H as <- <- <- <- || discriminate H; split; reflexivity|]); destruct H.
Lemma ex_only_replies : only_replies ex_cf.
Proof.
  intros sc name cb H ctx e. unfold eh_get in H. apply (lookup_In _ bytes_eqb_spec) in H. destruct sc as [ns|]; cbn [callbacks] in H.
  - destruct (lookup bytes_eqb ns (cf_namespaces ex_cf)) as [nsp|] eqn:En; [|destruct H]. apply (lookup_In _ bytes_eqb_spec) in En. cbn in En. destruct En as [En|[]]. injection En as <- <-.
    cbn in H. destruct H as [H|[]]. injection H as <- <-. constructor.
  - cbn in H. destruct H as [H|[H|[H|[]]]]; injection H as <- <-.
    + constructor; [reflexivity|]. intros o. constructor; [reflexivity|]. intros o'. constructor.
    + constructor.
    + unfold default_error. destruct (error_dec ex_env (ev_data e)); constructor.
Qed.
Lemma ex_debug_fits : debug_fits ex_cf ex_env.
Proof. intros er b H. injection H as <-. reflexivity. Qed.
Example C52_case : exists p tr, pruns cf2 ps2 ctr2 (fun _ => []) schedule p tr /\ only_replies (cf2 SideB) /\ ps2 SideB = [] /\ debug_fits (cf2 SideB) (cf_env (cf2 SideA))
  /\ good_clocks schedule /\ few_events (p_ep p SideA) /\ at_rest cf2 p /\ ~ In (OAborted 0) (at_side SideA tr) /\ room (at_side SideA tr)
  /\ (forall i name, In (i, name) [(0, str "ping"); (1, str "fail"); (2, str "none")]%nat ->
        exists e c, In (OSent i c00 e) (at_side SideA tr) /\ ev_name e = name /\ ev_id e = nth_id at1 (N.of_nat i) /\ In (OListen i (ev_id e) c) (at_side SideA tr)
          /\ (forall h, ~ In (OOpened i h (ev_id e) c) (at_side SideA tr)) /\ never_handled (ev_id e) (at_side SideA tr))
  /\ flat_map (fun o => match o with OReply i x r => [(i, x, r)] | _ => [] end) (at_side SideA tr)
     = [(0%nat, nth_id at1 0, Some (Ok (event_new (nth_id at1 1000) None (str "pong") [x01] (Some (nth_id at1 0)) Response)));
        (1%nat, nth_id at1 1, Some (Err (ErrorEvent (mk_err_data 500 (str "Timeout")))));
        (2%nat, nth_id at1 2, Some (Ok (event_new (nth_id at1 1002) None END_EVENT_NAME [] (Some (nth_id at1 2)) End)))].
Proof.
  exists (fst ended2), (snd ended2). split; [vm_compute; reflexivity|]. split; [exact ex_only_replies|]. split; [reflexivity|]. split; [exact ex_debug_fits|]. split; [pclock|].
  split; [vm_compute; discriminate|]. split; [resting|]. split; [vm_compute; intuition discriminate|]. split; [intros j h y c H; exfalso; vm_compute in H; intuition discriminate|].
  split; [|vm_compute; reflexivity]. intros i name H.
  exists (event_new (nth_id at1 (N.of_nat i)) (Some []) name [x07] None Initiator), i.
  assert (NH : forall x, never_handled x (at_side SideA (snd ended2))).
  { intros x n j ctx sc e H'. exfalso. vm_compute in H'. repeat (destruct H' as [H'|H']; [discriminate H'|]). destruct H'. }
  destruct H as [H|[H|[H|[]]]]; injection H as <- <-.
  all: split; [vm_compute; intuition (reflexivity || fail)|]; split; [reflexivity|]; split; [reflexivity|]; split; [vm_compute; intuition (reflexivity || fail)|]; split; [|apply NH].
  all: intros h H; vm_compute in H; repeat (destruct H as [H|H]; [discriminate H|]); destruct H.
Qed.

(** ** C46 *)
(** Both sides have the predefined Error handler and user handlers that emit nothing. Any events are on the wires. *)
Theorem C46_at_most_two_further_events : forall cf ctr w ls p tr, (forall sd, quiet (cf sd)) -> (forall sd, debug_fits (cf sd) (cf_env (cf (other sd)))) ->
  pruns cf (fun _ => []) ctr w ls p tr -> (count_sent tr <= 2 * (length (w SideA) + length (w SideB)))%nat.
Proof. intros cf ctr w ls p tr Q DF. exact (bounded_cascade cf ctr w Q DF ls p tr). Qed.
Print Assumptions C46_at_most_two_further_events.
(** If the handlers also end, no execution goes on forever: in whatever order things are done, a state of rest is reached. *)
Theorem C46_comes_to_rest : forall cf ctr w ls p tr, (forall sd, quiet (cf sd)) -> (forall sd, all_return (cf sd)) -> (forall sd, debug_fits (cf sd) (cf_env (cf (other sd)))) ->
  pruns cf (fun _ => []) ctr w ls p tr -> Acc (follows cf) p.
Proof. intros cf ctr w ls p tr Q AR DF. exact (rests cf ctr w Q AR DF ls p tr). Qed.
Print Assumptions C46_comes_to_rest.
(** what that excludes *)
Theorem C46_no_infinite_exchange : forall cf ctr w, (forall sd, quiet (cf sd)) -> (forall sd, all_return (cf sd)) -> (forall sd, debug_fits (cf sd) (cf_env (cf (other sd)))) ->
  forall f : nat -> pair, f 0%nat = pair_new (fun _ => []) ctr w -> ~ forall n, follows cf (f (S n)) (f n).
Proof.
  intros cf ctr w Q AR DF f F0 H. assert (A : Acc (follows cf) (f 0%nat)) by (rewrite F0; eapply (C46_comes_to_rest cf ctr w []); eauto; reflexivity).
  assert (G : forall p, Acc (follows cf) p -> forall n, f n = p -> False) by (induction 1 as [p _ IH]; intros n <-; exact (IH _ (H n) (S n) eq_refl)).
  exact (G _ A 0%nat eq_refl).
Qed.
Print Assumptions C46_no_infinite_exchange.
(** One event for which the handler fails arrives, Error handlers fail on both sides: the exchange of Error events never ends.
    Of three steps one sends an Error event, nothing else is sent, and it can always go on, for any number of steps. *)
Theorem C46_errors_forever : forall cf ctr e0 ls p tr, fails (cf SideA) e0 -> (forall sd, failing_error_handler (cf sd)) ->
  pruns cf (fun _ => []) ctr (fun sd => match sd with SideA => [e0] | SideB => [] end) ls p tr ->
  ~ at_rest cf p
  /\ (forall sd i ctx e, In (sd, OSent i ctx e) tr -> ev_type e = Error)
  /\ (length (filter goes_on ls) <= 3 * count_sent tr + 2)%nat
  /\ forall n, exists ls' p' tr', pruns cf (fun _ => []) ctr (fun sd => match sd with SideA => [e0] | SideB => [] end) (ls ++ ls') p' (tr ++ tr') /\ (n <= count_sent tr')%nat.
Proof.
  intros cf ctr e0 ls p tr F0 FE HR. destruct (forever cf ctr e0 F0 FE _ _ _ HR) as (O & m & Ph & M & G). split; [eapply never_rests; eauto|]. split; [exact O|]. split; [unfold going in G; lia|].
  intros n. destruct (goes_far cf ctr e0 F0 FE (3 * n + 2)%nat _ _ _ HR) as (ls' & p' & tr' & HR' & L). exists ls', p', tr'. split; [exact HR'|].
  destruct (forever cf ctr e0 F0 FE _ _ _ HR') as (_ & m' & _ & M' & G'). rewrite going_app, count_app in G'. lia.
Qed.
Print Assumptions C46_errors_forever.

(** a quiet pair: "fail" arrives at [SideA], which sends an Error event, whose handler at [SideB] ends with an End event *)
Definition quiet_cf : config := mk_config [(str "fail", fail); (ERROR_EVENT_NAME, default_error ex_env)] [] (fun _ => str "Timeout") ex_env.
Definition wires1 : side -> list event := fun sd => match sd with SideA => [ev 5 None (str "fail") []] | SideB => [] end.
Definition quiet_ls : list plabel := [PDeliver SideA; doA 0; doA 0; PDeliver SideB; doB 0; doB 0; doB 0; PDeliver SideA].
Definition quiet_end : pair * list (side * obs) := Eval vm_compute in match prun (fun _ => quiet_cf) (pair_new (fun _ => []) ctr2 wires1) quiet_ls with Some r => r | None => (pair_new ps2 ctr2 (fun _ => []), []) end.
Lemma quiet_handlers sc name cb : eh_get (callbacks quiet_cf sc) name = Some cb -> cb = fail \/ cb = default_error ex_env.
Proof.
  intros H. unfold eh_get in H. apply (lookup_In _ bytes_eqb_spec) in H. destruct sc as [ns|]; cbn in H; [destruct H|]. destruct H as [H|[H|[]]]; injection H as <- <-; auto.
Qed.
Example C46_case : exists p tr, (forall sd : side, quiet quiet_cf /\ all_return quiet_cf /\ debug_fits quiet_cf (cf_env quiet_cf))
  /\ pruns (fun _ => quiet_cf) (fun _ => []) ctr2 wires1 quiet_ls p tr /\ at_rest (fun _ => quiet_cf) p /\ count_sent tr = 2%nat /\ count_sent tr = (2 * (length (wires1 SideA) + length (wires1 SideB)))%nat.
Proof.
  exists (fst quiet_end), (snd quiet_end). split.
  - intros _. split; [split; [|reflexivity]|split].
    + intros sc name cb H ctx e. destruct (quiet_handlers _ _ _ H) as [-> | ->]; [constructor|]. unfold default_error. destruct (error_dec ex_env (ev_data e)); constructor.
    + intros sc name cb H ctx e. destruct (quiet_handlers _ _ _ H) as [-> | ->]; [constructor|]. unfold default_error. destruct (error_dec ex_env (ev_data e)); constructor.
    + exact ex_debug_fits.
  - split; [vm_compute; reflexivity|]. split; [resting|]. split; reflexivity.
Qed.
(** failing Error handlers *)
Definition bad_cf : config := mk_config [(str "fail", fail); (ERROR_EVENT_NAME, fail)] [] (fun _ => str "Timeout") ex_env.
Example C46_case_forever : fails bad_cf (ev 5 None (str "fail") []) /\ failing_error_handler bad_cf
  /\ exists p tr, pruns (fun _ => bad_cf) (fun _ => []) ctr2 wires1 [PDeliver SideA; doA 0; doA 0; PDeliver SideB; doB 0; doB 0; PDeliver SideA; doA 1; doA 1; PDeliver SideB; doB 1; doB 1] p tr /\ count_sent tr = 4%nat.
Proof.
  split; [split; [discriminate|exists fail; split; [reflexivity|eexists; reflexivity]]|]. split; [exists fail; split; [reflexivity|eexists; reflexivity]|].
  eexists _, _. split; [vm_compute; reflexivity|reflexivity].
Qed.
