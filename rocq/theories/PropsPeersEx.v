(** Concrete runs for C82. *)
From Coq Require Import Strings.String.
From Verif Require Import Base BaseFacts Reader Codec Spec Ids Payload Builder Emit Wire Ipc SpecIpc Pair SpecPair PairFacts Bounded SpecBounded SpecPeers PeersFacts PeersRest PeersFresh PropsDispatch PropsPair PropsBounded PropsNet PropsPeers.

(** ** Both ends ask each other, and their handlers ask before they answer. *)
Definition asks_then (name : bytes) (k : prog) : prog := PAwait (mk_request c00 None name (Ok [x07])) (fun _ => k).
(** answers after having asked the other end for "ping" *)
Definition relay : callback := fun ctx e => asks_then (str "ping") (PRet (inl (ev_data e))).
(** the same, and emits in between *)
Definition counts : callback := fun ctx e =>
  PEmit (mk_request ctx None (str "one") (Ok [x01])) (fun _ => asks_then (str "ping") (PEmit (mk_request ctx None (str "two") (Ok [x02])) (fun _ => PSpawn (asks_then (str "relay") (PEmit (mk_request ctx None (str "three") (Ok [x03])) (fun _ => PRet (inl [])))) (PRet (inl [x04]))))).
(** asks through its own context: the other end takes the question for the reply *)
Definition wait : callback := fun ctx e => PAwait (mk_request ctx None (str "well") (Ok [])) (fun _ => PRet (inl [])).
Definition chain : callback := fun ctx e => asks_then (str "boom") (PRet (inl [])).
Definition h82 : event_handler callback := [(str "ping", ping); (str "relay", relay); (str "wait", wait); (str "boom", fun _ _ => PPanic); (str "chain", chain); (str "counts", counts)].
Definition h82f : event_handler callback := [(str "ping", ping); (str "relay", relay)].
Definition cf82 : side -> config := fun _ => mk_config h82 [] (fun _ => str "Timeout") ex_env.
Definition cf82f : side -> config := fun _ => mk_config h82f [] (fun _ => str "Timeout") ex_env.
Definition ps82 : side -> list prog := fun sd => match sd with SideA => [asks (str "relay"); asks (str "wait")] | SideB => [asks (str "relay"); asks (str "chain")] end.
Definition ps82f : side -> list prog := fun sd => match sd with SideA => [asks (str "relay"); asks (str "relay")] | SideB => [asks (str "relay")] end.
Definition reader82 : prog :=
  PStream (mk_request c00 None (str "counts") (Ok [x07])) (fun r => match r with Some (Ok h) => PNext h (fun _ => PNext h (fun _ => PNext h (fun _ => PNext h (fun _ => PRet (inl []))))) | _ => PRet (inl []) end).
Definition ps82s : side -> list prog := fun sd => match sd with SideA => [reader82] | SideB => [asks (str "relay")] end.
Definition tries82 : list plabel := flat_map (fun sd => map (fun i => PDo sd (LTask i go)) (seq 0 9) ++ [PDo sd (LPlace 0); PDeliver sd]) [SideA; SideB].
Fixpoint eagerly82 (cf : side -> config) (n : nat) (p : pair) : list plabel :=
  match n with
  | O => []
  | S n' => match find (fun l => match pstep cf p l with Some _ => true | None => false end) tries82 with
            | Some l => match pstep cf p l with Some (p', _) => l :: eagerly82 cf n' p' | None => [] end
            | None => []
            end
  end.
Definition run82 : list plabel := Eval vm_compute in eagerly82 cf82 300 (pair_new ps82 ctr2 (fun _ => [])).
Definition run82f : list plabel := Eval vm_compute in eagerly82 cf82f 300 (pair_new ps82f ctr2 (fun _ => [])).
Definition run82s : list plabel := Eval vm_compute in eagerly82 cf82 300 (pair_new ps82s ctr2 (fun _ => [])).
Definition ended_by (cf : side -> config) ps ls := match prun cf (pair_new ps ctr2 (fun _ => [])) ls with Some r => r | None => (pair_new ps ctr2 (fun _ => []), []) end.
Definition ended82 : pair * list (side * obs) := Eval vm_compute in ended_by cf82 ps82 run82.
Definition ended82f : pair * list (side * obs) := Eval vm_compute in ended_by cf82f ps82f run82f.
Definition ended82s : pair * list (side * obs) := Eval vm_compute in ended_by cf82 ps82s run82s.
Ltac resting82 := let l := fresh in let H := fresh in intros l H; destruct l as [[|] [i [| | |]|n e|n|n|n|h|]|[|]]; try discriminate H; try reflexivity;
  match goal with
  | |- context[LTask ?i _] => do 9 (try (destruct i as [|i]; [reflexivity|])); reflexivity
  | |- context[LPlace ?n] => do 3 (try (destruct n as [|n]; [reflexivity|])); reflexivity
  | |- context[LAbort ?n] => do 3 (try (destruct n as [|n]; [reflexivity|])); reflexivity
  end.
Definition fine_clock (l : plabel) : bool := match l with PDo _ (LTask _ (AStep t v)) => N.eqb (secs t) 1 && N.eqb (millis t) 0 | _ => true end.
Lemma fine_clocks ls : forallb fine_clock ls = true -> good_clocks ls.
Proof.
  intros H sd i t v Q. apply forallb_forall with (x := PDo sd (LTask i (AStep t v))) in H; [|exact Q]. cbn in H. apply andb_prop in H. destruct H as [A B]. apply N.eqb_eq in A, B. destruct t as [a b]. cbn in A, B. subst. split; reflexivity.
Qed.
Lemma own_code (h : event_handler callback) (P : context -> prog -> Prop) : Forall (fun q => forall ctx e, P ctx (snd q ctx e)) h ->
  forall sc name cb, eh_get (callbacks (mk_config h [] (fun _ => str "Timeout") ex_env) sc) name = Some cb -> forall ctx e, P ctx (cb ctx e).
Proof.
  intros F sc name cb H. destruct sc as [ns|]; cbn in H; [discriminate H|]. unfold eh_get in H. apply (lookup_In _ bytes_eqb_spec) in H. rewrite Forall_forall in F. exact (F _ H).
Qed.
Ltac coded := repeat first [progress intros | progress cbn | left; reflexivity | right; reflexivity | progress (unfold ping, relay, counts, wait, chain, asks_then, asks, reader82) | constructor | match goal with |- context[match ?o with _ => _ end] => destruct o end].
Lemma plain82 sd : plain_handlers (cf82 sd).
Proof. unfold plain_handlers, cf82. apply (own_code h82 (fun ctx => plain_code (c_ref ctx))). unfold h82. coded. Qed.
Lemma plain82f sd : plain_handlers (cf82f sd).
Proof. unfold plain_handlers, cf82f. apply (own_code h82f (fun ctx => plain_code (c_ref ctx))). unfold h82f. coded. Qed.
Lemma fresh82f sd : fresh_handlers (cf82f sd).
Proof. unfold fresh_handlers, cf82f. apply (own_code h82f (fun _ => asks_fresh)). unfold h82f. coded. Qed.
Lemma polite82 sd : polite_handlers (cf82 sd).
Proof. exact (plain_polite_handlers _ (plain82 sd)). Qed.
Definition id82 (sd : side) (n : N) : N := match sd with SideA => 281474976710656 + n | SideB => 281474976711656 + n end.
Ltac listed := vm_compute; repeat (first [left; reflexivity | right]).
Ltac unlisted := let H := fresh in intros H; revert H; vm_compute; intros H; repeat (destruct H as [H|H]; [discriminate H|]); destruct H.
(** chains of requests: a handler waits for a handler that panicked; a handler's question was taken for the reply *)
Example C82_case : exists p tr, pruns cf82 ps82 ctr2 (fun _ => []) run82 p tr /\ (forall sd, plain_handlers (cf82 sd)) /\ (forall sd, Forall (plain_code None) (ps82 sd))
  /\ good_clocks run82 /\ (forall sd, few_events (p_ep p sd)) /\ at_rest cf82 p
  (* B waits for A's "chain", which waits for B's "boom", which panicked *)
  /\ pending (at_side SideB tr) 1 (id82 SideB 1) /\ called_for (at_side SideA tr) (id82 SideB 1) 3 /\ pending (at_side SideA tr) 3 (id82 SideA 3)
  /\ called_for (at_side SideB tr) (id82 SideA 3) 5 /\ In (OPanicked 5) (at_side SideB tr)
  (* B's "wait" asked through its own context: A got the question as reply to its request *)
  /\ pending (at_side SideB tr) 3 (id82 SideB 3) /\ (exists q, In (OReply 1 (id82 SideA 1) (Some (Ok q))) (at_side SideA tr) /\ ev_id q = id82 SideB 3).
Proof.
  exists (fst ended82), (snd ended82). split; [vm_compute; reflexivity|]. split; [exact plain82|]. split; [intros [|]; unfold ps82; coded|]. split; [apply fine_clocks; vm_compute; reflexivity|].
  split; [intros [|]; vm_compute; discriminate|]. split; [resting82|].
  assert (PE : forall sd i x, (exists c, In (OListen i x c) (at_side sd (snd ended82))) -> (exists ctx e, In (OSent i ctx e) (at_side sd (snd ended82)) /\ ev_id e = x) -> (forall r, ~ In (OReply i x r) (at_side sd (snd ended82))) -> ~ In (OPanicked i) (at_side sd (snd ended82)) -> pending (at_side sd (snd ended82)) i x) by (intros; split; auto).
  split; [apply PE; [eexists; listed|eexists _, _; split; [listed|reflexivity]|intros r; unlisted|unlisted]|].
  split; [eexists _, _; split; [listed|reflexivity]|].
  split; [apply PE; [eexists; listed|eexists _, _; split; [listed|reflexivity]|intros r; unlisted|unlisted]|].
  split; [eexists _, _; split; [listed|reflexivity]|].
  split; [listed|].
  split; [apply PE; [eexists; listed|eexists _, _; split; [listed|reflexivity]|intros r; unlisted|unlisted]|].
  eexists; split; [listed|reflexivity].
Qed.
(** everything is asked through contexts without reference and nobody panics: it all ends *)
Example C82_case_fresh : exists p tr, pruns cf82f ps82f ctr2 (fun _ => []) run82f p tr /\ (forall sd, plain_handlers (cf82f sd)) /\ (forall sd, Forall (plain_code None) (ps82f sd))
  /\ (forall sd, fresh_handlers (cf82f sd)) /\ (forall sd, Forall asks_fresh (ps82f sd)) /\ good_clocks run82f /\ (forall sd, few_events (p_ep p sd)) /\ at_rest cf82f p
  /\ (forall sd i, ~ In (OPanicked i) (at_side sd tr)) /\ asks_freely tr
  /\ (forall sd, length (e_tasks (p_ep p sd)) = 6%nat) /\ length (filter (fun q => match snd q with OReply _ _ (Some (Ok _)) => true | _ => false end) tr) = 6%nat.
Proof.
  exists (fst ended82f), (snd ended82f). assert (R : pruns cf82f ps82f ctr2 (fun _ => []) run82f (fst ended82f) (snd ended82f)) by (vm_compute; reflexivity).
  assert (G : good_clocks run82f) by (apply fine_clocks; vm_compute; reflexivity). assert (F : forall sd, few_events (p_ep (fst ended82f) sd)) by (intros [|]; vm_compute; discriminate).
  assert (AF : forall sd, Forall asks_fresh (ps82f sd)) by (intros [|]; unfold ps82f; coded).
  split; [exact R|]. split; [exact plain82f|]. split; [intros [|]; unfold ps82f; coded|]. split; [exact fresh82f|]. split; [exact AF|]. split; [exact G|]. split; [exact F|]. split; [resting82|].
  split; [intros [|] i; unlisted|]. split; [exact (C82_fresh_requests_ask_freely _ _ _ _ _ _ fresh82f AF R G F)|]. split; [intros [|]; vm_compute; reflexivity|vm_compute; reflexivity].
Qed.
(** a stream whose handler asks back, and a task spawned by it that goes on replying after the End event *)
Example C82_case_stream : exists p tr, pruns cf82 ps82s ctr2 (fun _ => []) run82s p tr /\ polite_handlers (cf82 SideB) /\ Forall (polite None) (ps82s SideB) /\ good_clocks run82s /\ few_events (p_ep p SideA)
  /\ In (OOpened 0 0 (id82 SideA 0) 0) (at_side SideA tr) /\ never_handled (id82 SideA 0) (at_side SideA tr)
  /\ map ev_name (replies_to (id82 SideA 0) (at_side SideB tr)) = [str "one"; str "two"; END_EVENT_NAME; str "three"]
  /\ map (option_map (fun o => match o with Ok e => ev_name e | _ => [] end)) (items 0 (at_side SideA tr)) = [Some (str "one"); Some (str "two"); Some END_EVENT_NAME; None].
Proof.
  exists (fst ended82s), (snd ended82s). split; [vm_compute; reflexivity|]. split; [exact (polite82 SideB)|]. split; [unfold ps82s; coded|]. split; [apply fine_clocks; vm_compute; reflexivity|]. split; [vm_compute; discriminate|].
  split; [listed|]. split; [|split; vm_compute; reflexivity].
  intros n i ctx sc e H. revert H. vm_compute. intros H Q. repeat (destruct H as [H|H]; [try discriminate H; injection H as <- <- <- <- <-; discriminate Q|]). destruct H.
Qed.
