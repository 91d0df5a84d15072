(** Properties of two joined endpoints: C68. *)
From Coq Require Import Strings.String.
From Verif Require Import Base BaseFacts Codec Spec Ids Payload Builder Emit Ipc SpecIpc Pair SpecPair PairFacts PairServer PairEnd PairRest SpecRest RestFacts EchoFacts PropsDispatch PropsPair.

(** ** C68 *)
(** [SideA] is a client: its own tasks do anything the API offers and end, whatever they are answered; its handlers emit nothing and end.
    [SideB] is one connection of a server: its handlers emit, as often as they like, and end. Both keep the predefined Error handler.
    Whatever happens in whatever order (timers firing, futures and streams being dropped, loops being stopped included), it comes
    to an end. *)
Theorem C68_requests_come_to_rest : forall cf ps ctr ls p tr,
  quiet (cf SideA) -> all_return (cf SideA) -> eh_get (cf_handler (cf SideA)) END_EVENT_NAME = None -> Forall ends (ps SideA) -> debug_fits (cf SideA) (cf_env (cf SideB)) ->
  only_replies (cf SideB) -> all_end (cf SideB) -> keeps_error_handler (cf SideB) -> ps SideB = [] ->
  pruns cf ps ctr (fun _ => []) ls p tr -> Acc (next_state cf) p.
Proof. intros cf ps ctr ls p tr Q AR NE PA DF RO AE KE PB. exact (requests_rest cf ps ctr Q AR NE PA RO AE KE PB DF ls p tr). Qed.
Print Assumptions C68_requests_come_to_rest.
(** what that excludes *)
Theorem C68_no_infinite_execution : forall cf ps ctr,
  quiet (cf SideA) -> all_return (cf SideA) -> eh_get (cf_handler (cf SideA)) END_EVENT_NAME = None -> Forall ends (ps SideA) -> debug_fits (cf SideA) (cf_env (cf SideB)) ->
  only_replies (cf SideB) -> all_end (cf SideB) -> keeps_error_handler (cf SideB) -> ps SideB = [] ->
  forall f : nat -> pair, f 0%nat = pair_new ps ctr (fun _ => []) -> ~ forall n, next_state cf (f (S n)) (f n).
Proof.
  intros cf ps ctr Q AR NE PA DF RO AE KE PB f F0 H. assert (A : Acc (next_state cf) (f 0%nat)) by (rewrite F0; eapply (C68_requests_come_to_rest cf ps ctr []); eauto; reflexivity).
  assert (G : forall p, Acc (next_state cf) p -> forall n, f n = p -> False) by (induction 1 as [p _ IH]; intros n <-; exact (IH _ (H n) (S n) eq_refl)).
  exact (G _ A 0%nat eq_refl).
Qed.
Print Assumptions C68_no_infinite_execution.
(** From every reachable state rest is reached without any timer, and then every request awaited has what the server's handler sent
    first, or was given up, or the handler panicked before it sent anything. *)
Theorem C68_requests_get_answered : forall cf ps ctr ls p tr,
  quiet (cf SideA) -> all_return (cf SideA) -> eh_get (cf_handler (cf SideA)) END_EVENT_NAME = None -> Forall ends (ps SideA) -> (forall sd, debug_fits (cf sd) (cf_env (cf (other sd)))) ->
  only_replies (cf SideB) -> all_end (cf SideB) -> keeps_error_handler (cf SideB) -> ps SideB = [] ->
  pruns cf ps ctr (fun _ => []) ls p tr -> good_clocks ls ->
  exists ls' p' tr', pruns cf ps ctr (fun _ => []) (ls ++ ls') p' (tr ++ tr') /\ good_clocks (ls ++ ls') /\ Forall (fun l => goes_on l = true) ls' /\ at_rest cf p' /\
    (few_events (p_ep p' SideA) -> ~ In (OAborted 0) (at_side SideA (tr ++ tr')) -> room (at_side SideA (tr ++ tr')) ->
     forall i ctx e c, In (OSent i ctx e) (at_side SideA (tr ++ tr')) -> In (OListen i (ev_id e) c) (at_side SideA (tr ++ tr')) ->
       (forall h, ~ In (OOpened i h (ev_id e) c) (at_side SideA (tr ++ tr'))) -> never_handled (ev_id e) (at_side SideA (tr ++ tr')) ->
     exists j sc, In (OCalled 0 j (mk_context 0 (Some (ev_id e))) sc (drop_empty_ns e)) (at_side SideB (tr ++ tr'))
       /\ ((exists r, In (OReply i (ev_id e) r) (at_side SideA (tr ++ tr')) /\ (r = None \/ r = Some (Err Timeout) \/ exists r', r = Some r' /\ answered (cf SideB) (at_side SideB (tr ++ tr')) j r'))
           \/ (In (OPanicked j) (at_side SideB (tr ++ tr')) /\ sent j (at_side SideB (tr ++ tr')) = []))).
Proof.
  intros cf ps ctr ls p tr Q AR NE PA DF RO AE KE PB HR GC.
  destruct (acc_reaches cf p (C68_requests_come_to_rest cf ps ctr ls p tr Q AR NE PA (DF SideA) RO AE KE PB HR)) as (ls' & p' & tr' & A & B & C & D).
  assert (HR' : pruns cf ps ctr (fun _ => []) (ls ++ ls') p' (tr ++ tr')) by (unfold pruns in *; rewrite prun_app, HR, A; reflexivity).
  assert (GC' : good_clocks (ls ++ ls')) by (intros sd i t v X; apply in_app_or in X; destruct X; [eapply GC|eapply C]; eauto).
  exists ls', p', tr'. split; [exact HR'|]. split; [exact GC'|]. split; [exact D|]. split; [exact B|]. intros FE NA RM.
  exact (C52_end_to_end cf ps ctr _ _ _ HR' RO PB (DF SideB) GC' FE B NA RM).
Qed.
Print Assumptions C68_requests_get_answered.
(** The client's handlers must not emit: if both sides answer an event by emitting one of the same name, one event is enough for any
    number of events. *)
Theorem C68_handlers_that_emit_refuted : forall cf ctr nm e, (forall sd, echoes (cf sd) nm) -> ev_name e = nm -> ev_ns e = None -> ev_type e <> End ->
  forall n, exists ls p tr, pruns cf (fun _ => []) ctr (fun sd => match sd with SideA => [] | SideB => [e] end) ls p tr /\ count_sent tr = n /\ good_clocks ls.
Proof.
  intros cf ctr nm e EC N Ns T n. apply (echo_far cf nm EC n SideB). split.
  - intros x. split; [reflexivity|]. eexists. reflexivity.
  - exists e. split; [reflexivity|]. split; [reflexivity|]. split; [exact N|]. split; [exact Ns|]. destruct (ev_type e); try reflexivity. destruct T. reflexivity.
Qed.
Print Assumptions C68_handlers_that_emit_refuted.

(** the client of C52 with quiet handlers *)
Definition cf68 : side -> config := fun sd => match sd with SideA => quiet_cf | SideB => ex_cf end.
Lemma ex_all_end : all_end ex_cf.
Proof.
  intros sc name cb H ctx e. unfold eh_get in H. apply (lookup_In _ bytes_eqb_spec) in H. destruct sc as [ns|]; cbn [callbacks] in H.
  - destruct (lookup bytes_eqb ns (cf_namespaces ex_cf)) as [nsp|] eqn:En; [|destruct H]. apply (lookup_In _ bytes_eqb_spec) in En. cbn in En. destruct En as [En|[]]. injection En as <- <-.
    cbn in H. destruct H as [H|[]]. injection H as <- <-. constructor.
  - cbn in H. destruct H as [H|[H|[H|[]]]]; injection H as <- <-.
    + unfold ping. constructor. intros o. constructor. intros o'. constructor.
    + constructor.
    + unfold default_error. destruct (error_dec ex_env (ev_data e)); constructor.
Qed.
Definition ended68 : pair * list (side * obs) := Eval vm_compute in match prun cf68 (pair_new ps2 ctr2 (fun _ => [])) schedule with Some r => r | None => (pair_new ps2 ctr2 (fun _ => []), []) end.
Example C68_case : quiet (cf68 SideA) /\ all_return (cf68 SideA) /\ eh_get (cf_handler (cf68 SideA)) END_EVENT_NAME = None /\ Forall ends (ps2 SideA) /\ (forall sd, debug_fits (cf68 sd) (cf_env (cf68 (other sd))))
  /\ only_replies (cf68 SideB) /\ all_end (cf68 SideB) /\ keeps_error_handler (cf68 SideB) /\ ps2 SideB = []
  /\ exists p tr, pruns cf68 ps2 ctr2 (fun _ => []) schedule p tr /\ good_clocks schedule /\ at_rest cf68 p /\ few_events (p_ep p SideA).
Proof.
  assert (QH : forall sc name cb, eh_get (callbacks quiet_cf sc) name = Some cb -> forall ctx e, exists r, cb ctx e = PRet r \/ cb ctx e = PPanic).
  { intros sc name cb H ctx e. destruct (quiet_handlers _ _ _ H) as [-> | ->]; [eexists; left; reflexivity|]. unfold default_error. destruct (error_dec ex_env (ev_data e)) as [|er|]; [exists (inl [])|exists (inr er)|exists (inl [])]; auto. }
  split; [split; [|reflexivity]; intros sc name cb H ctx e; destruct (QH _ _ _ H ctx e) as (r & [-> | ->]); constructor|].
  split; [intros sc name cb H ctx e; destruct (QH _ _ _ H ctx e) as (r & [-> | ->]); constructor|].
  split; [reflexivity|]. split; [repeat (constructor; [unfold asks; constructor; intros o; constructor|]); constructor|].
  split; [intros [|] er b H; cbn in *; injection H as <-; reflexivity|]. split; [exact ex_only_replies|]. split; [exact ex_all_end|]. split; [reflexivity|]. split; [reflexivity|].
  exists (fst ended68), (snd ended68). split; [vm_compute; reflexivity|]. split; [pclock|]. split; [resting|vm_compute; discriminate].
Qed.
Definition echo_cf : config := mk_config [(str "echo", fun ctx _ => PEmit (mk_request ctx None (str "echo") (Ok [])) (fun _ => PRet (inl [])))] [] (fun _ => str "Timeout") ex_env.
Example C68_case_echo : echoes echo_cf (str "echo") /\ ev_name (ev 5 None (str "echo") []) = str "echo".
Proof. split; [|reflexivity]. eexists. split; [reflexivity|]. intros ctx e. eexists _, _. reflexivity. Qed.
