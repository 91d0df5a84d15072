(** Properties of two endpoints joined by byte streams: C67. *)
From Coq Require Import Strings.String.
From Verif Require Import Base BaseFacts Reader Codec Spec Ids Payload Builder Emit Ipc SpecIpc IpcFlow IpcChanFacts Pair SpecPair PairFacts PairRest Bounded SpecBounded BoundedFacts BytePair SpecBytes BytePairFacts ByteRest ByteAll PropsDispatch PropsPair PropsBounded Utf8 Utf8Facts.

(** ** C67 *)
(** Whatever the user's code does and however writes and reads are portioned and interleaved: if the events can be carried at all,
    what is observed at both ends is what is observed in some run where whole events are passed on. The bytes on the way are the
    events sent and not received, one after the other, and then the beginning of the one being written. *)
Theorem C67_bytes_carry_events : forall cap cf ps ctr ls x tr, xruns cap cf ps ctr ls x tr -> all_deliverable cf x tr ->
  exists pls p, pruns cf ps ctr (fun _ => []) pls p tr /\ (good_xclocks ls -> good_clocks pls) /\ (forall sd, p_ep p sd = x_ep x sd)
    /\ forall sd, exists part, x_buf x sd ++ x_wire x sd = concat (map wire_bytes (p_in p sd)) ++ part
       /\ (part = [] \/ exists e rest, being_written x (other sd) e /\ rest <> [] /\ into_bytes e = Ok (part ++ rest)).
Proof.
  intros cap cf ps ctr ls x tr H AD. destruct (same _ _ _ _ _ _ _ H AD) as (pls & p & A & B & S). exists pls, p. split; [exact A|]. split; [exact B|]. split; [apply (s_ep _ _ S)|].
  intros sd. destruct (s_wire _ _ S sd) as (part & C & D). exists part. split; [exact C|]. destruct (x_out x (other sd)) as [[i rest]|] eqn:Eo; [right|left; exact D].
  destruct D as (ctx & e & pu & D1 & D2 & D3). exists e, rest. split; [exists i, ctx, pu, rest; auto|]. split; [exact D3|]. destruct (wire_some e) as (b & W1 & W2 & _). rewrite W1, <- W2, D2. reflexivity.
Qed.
Print Assumptions C67_bytes_carry_events.
(** and nothing is lost by looking at events only: each such run is also possible with bytes, if enough of them fit *)
Theorem C67_all_event_runs_possible : forall cf ps ctr pls p tr, pruns cf ps ctr (fun _ => []) pls p tr ->
  (forall sd i ctx e, In (OSent i ctx e) (at_side sd tr) -> deliverable (cf_env (cf (other sd))) e) ->
  exists cap ls x, xruns cap cf ps ctr ls x tr /\ (forall sd, p_ep p sd = x_ep x sd) /\ (forall sd, x_buf x sd ++ x_wire x sd = concat (map wire_bytes (p_in p sd))).
Proof.
  intros cf ps ctr pls p tr H GD. destruct (all_possible cf ps ctr pls p tr H GD) as (cap & ls & x & R & [A B C D]). exists cap, ls, x. split; [exact R|]. split; [exact A|]. intros sd. rewrite C, D. reflexivity.
Qed.
Print Assumptions C67_all_event_runs_possible.
(** no receive loop ends because of what it reads *)
Theorem C67_never_closed : forall cap cf ps ctr ls x tr sd n, xruns cap cf ps ctr ls x tr -> all_deliverable cf x tr -> ~ In (sd, OClosed n) tr.
Proof.
  intros cap cf ps ctr ls x tr sd n H AD Q. destruct (same _ _ _ _ _ _ _ H AD) as (pls & p & A & _). destruct (project _ _ _ _ _ _ _ A sd) as (l & R & _ & _ & NC & _).
  assert (Q' : In (OClosed n) (at_side sd tr)) by (unfold at_side; apply in_flat_map; exists (sd, OClosed n); split; [exact Q|]; cbn; destruct sd; left; reflexivity).
  exact (NC _ (closed_label _ _ _ _ _ _ _ _ R _ Q')).
Qed.
Print Assumptions C67_never_closed.
(** C52 over bytes: [SideA] a client, [SideB] a server's connection whose handlers only reply; at least one byte fits *)
Theorem C67_end_to_end : forall cap cf ps ctr ls x tr, (0 < cap)%nat -> xruns cap cf ps ctr ls x tr -> all_deliverable cf x tr ->
  only_replies (cf SideB) -> ps SideB = [] -> debug_fits (cf SideB) (cf_env (cf SideA)) ->
  good_xclocks ls -> few_events (x_ep x SideA) -> xstill cap cf x -> ~ In (OAborted 0) (at_side SideA tr) -> room (at_side SideA tr) ->
  forall i ctx e c, In (OSent i ctx e) (at_side SideA tr) -> In (OListen i (ev_id e) c) (at_side SideA tr) -> (forall h, ~ In (OOpened i h (ev_id e) c) (at_side SideA tr)) ->
    never_handled (ev_id e) (at_side SideA tr) ->
  exists j sc, In (OCalled 0 j (mk_context 0 (Some (ev_id e))) sc (drop_empty_ns e)) (at_side SideB tr)
    /\ ((exists r, In (OReply i (ev_id e) r) (at_side SideA tr) /\ (r = None \/ r = Some (Err Timeout) \/ exists r', r = Some r' /\ answered (cf SideB) (at_side SideB tr) j r'))
        \/ (In (OPanicked j) (at_side SideB tr) /\ sent j (at_side SideB tr) = [])).
Proof.
  intros cap cf ps ctr ls x tr CAP H AD RO PB DF GX FE ST NA RM. destruct (byte_rest cap cf ps ctr CAP RO PB ls x tr H AD ST NA RM) as (pls & p & A & B & S & R).
  apply (C52_end_to_end cf ps ctr pls p tr A RO PB DF (B GX)); [rewrite (s_ep _ _ S); exact FE|exact R|exact NA|exact RM].
Qed.
Print Assumptions C67_end_to_end.
(** C66 over bytes: without reply streams the two ends do not block each other, however few bytes fit *)
Theorem C67_no_jam_without_streams : forall cap cf ps ctr ls x tr, (0 < cap)%nat -> (forall sd, plain_handlers (cf sd)) -> (forall sd, Forall (plain_code None) (ps sd)) ->
  xruns cap cf ps ctr ls x tr -> all_deliverable cf x tr -> good_xclocks ls -> (forall sd, few_events (x_ep x sd)) -> xstill cap cf x ->
  forall sd, x_wire x sd = [] /\ x_buf x sd = [] /\ x_out x sd = None /\ option_map cn_loop (nth_error (e_conns (x_ep x sd)) 0) = Some LRun
    /\ forall i tk, nth_error (e_tasks (x_ep x sd)) i = Some tk -> finished_or_waiting (x_ep x sd) (tk_st tk).
Proof.
  intros cap cf ps ctr ls x tr CAP PH PP H AD GX FE ST sd. destruct (byte_progress cap cf ps ctr CAP ls x tr PH PP H AD GX FE ST sd) as (A & B & C & D & F).
  split; [exact A|]. split; [exact B|]. split; [exact C|]. split; [exact D|]. intros i tk Hi. apply (F i). unfold tst. rewrite Hi. reflexivity.
Qed.
Print Assumptions C67_no_jam_without_streams.

(** a connection that takes three bytes; both ends ask at once *)
Definition env67 : env := mk_env true 100000.
Definition cf67 : side -> config := fun sd => match sd with
  | SideA => mk_config [(str "ping", ping); (ERROR_EVENT_NAME, default_error env67)] [] (fun _ => []) env67
  | SideB => mk_config [(str "ping", ping); (str "boom", fun _ _ => PPanic)] [] (fun _ => str "Timeout") env67 end.
Definition ps67 (bs : list prog) : side -> list prog := fun sd => match sd with SideA => [asks (str "ping"); asks (str "boom")] | SideB => bs end.
Definition xtries : list xlabel := flat_map (fun sd => map (fun i => XDo sd (LTask i go)) (seq 0 5) ++ map (XWrite sd) (seq 0 5) ++ [XDo sd (LPlace 0); XRead sd]) [SideA; SideB].
Fixpoint xeagerly (n : nat) (p : xpair) : list xlabel :=
  match n with
  | O => []
  | S n' => match find (fun l => match xstep 3 cf67 p l with Some _ => true | None => false end) xtries with
            | Some l => match xstep 3 cf67 p l with Some (p', _) => l :: xeagerly n' p' | None => [] end
            | None => []
            end
  end.
Definition xpair67 : xpair := xpair_new (ps67 [asks (str "ping")]) ctr2.
Definition run67 : list xlabel := Eval vm_compute in xeagerly 3000 xpair67.
Definition ended67 : xpair * list (side * obs) := Eval vm_compute in match xrun 3 cf67 xpair67 run67 with Some r => r | None => (xpair67, []) end.
Lemma cf67_plain sd : plain_handlers (cf67 sd).
Proof.
  intros sc name cb H ctx e. unfold eh_get in H. apply (lookup_In _ bytes_eqb_spec) in H. destruct sd, sc as [ns|]; cbn in H; [destruct H| |destruct H|]; destruct H as [H|[H|[]]]; injection H as <- <-; [apply ping_plain| |apply ping_plain|constructor].
  unfold default_error. destruct (error_dec env67 (ev_data e)); constructor.
Qed.
Definition deliverable_b (e : event) : bool :=
  (ev_id e <? U64) && match ev_ref e with Some r => r <? U64 | None => true end && match ev_ns e with Some s => utf8_valid s | None => true end && utf8_valid (ev_name e)
  && (blen (ev_data e) <=? 1000) && (header_size (ev_header e) <=? 65535).
Lemma deliverable_yes e : deliverable_b e = true -> deliverable env67 e.
Proof.
  unfold deliverable_b. rewrite !andb_true_iff. intros (((((A & B) & C) & D) & F) & G). apply N.ltb_lt in A. apply N.leb_le in F, G. split; [|split; [exact G|split; cbn; lia]].
  split; [|unfold ISIZE_MAX; lia]. split; [exact A|]. split; [intros r Q; unfold ev_ref in B; rewrite Q in B; apply N.ltb_lt; exact B|]. split; [intros t Q; unfold ev_ns in C; rewrite Q in C; apply utf8_valid_iff; exact C|].
  apply utf8_valid_iff. exact D.
Qed.
Lemma all_yes cf x tr : (forall sd, cf_env (cf sd) = env67) -> forallb (fun q => match snd q with OSent _ _ e => deliverable_b e | _ => true end) tr = true -> (forall sd, x_out x sd = None) -> all_deliverable cf x tr.
Proof.
  intros C H O sd e [(i & ctx & Q)|(i & ctx & pu & rest & Q & _)]; [|rewrite O in Q; discriminate Q]. rewrite C. apply deliverable_yes. unfold at_side in Q. apply in_flat_map in Q. destruct Q as ((sd' & o) & Q1 & Q2).
  cbn [fst snd] in Q2. destruct (side_eqb sd' sd); [|destruct Q2]. destruct Q2 as [->|[]]. rewrite forallb_forall in H. exact (H _ Q1).
Qed.
Ltac xresting := let l := fresh in let H := fresh in intros l H; destruct l as [[|] [i [| | |]|n e|n|n|n|h|]|[|] i|[|]]; try discriminate H; try reflexivity;
  match goal with
  | |- context[LTask ?i _] => do 6 (try (destruct i as [|i]; [reflexivity|])); reflexivity
  | |- context[XWrite _ ?i] => do 6 (try (destruct i as [|i]; [reflexivity|])); reflexivity
  | |- context[LPlace ?n] => do 3 (try (destruct n as [|n]; [reflexivity|])); reflexivity
  | |- context[LAbort ?n] => do 3 (try (destruct n as [|n]; [reflexivity|])); reflexivity
  end.
Lemma xclock ls : forallb (fun l => match l with XDo _ (LTask _ (AStep t _)) => (secs t =? 1) && (millis t =? 0) | _ => true end) ls = true -> good_xclocks ls.
Proof.
  intros H sd i t v Q. rewrite forallb_forall in H. specialize (H _ Q). cbn in H. apply andb_true_iff in H. destruct H as [A B]. apply N.eqb_eq in A, B. destruct t as [a b]. cbn in A, B. subst. split; reflexivity.
Qed.
Example C67_case : exists x tr, xruns 3 cf67 (ps67 [asks (str "ping")]) ctr2 run67 x tr /\ (0 < 3)%nat /\ (forall sd, plain_handlers (cf67 sd)) /\ (forall sd, Forall (plain_code None) (ps67 [asks (str "ping")] sd))
  /\ all_deliverable cf67 x tr /\ good_xclocks run67 /\ (forall sd, few_events (x_ep x sd)) /\ xstill 3 cf67 x
  /\ flat_map (fun o => match o with (sd, OReply i x r) => [(sd, i)] | _ => [] end) tr = [(SideA, 0%nat); (SideB, 0%nat)]
  (* in between, an event was partly written and partly read *)
  /\ exists x1 tr1, xruns 3 cf67 (ps67 [asks (str "ping")]) ctr2 (firstn 20 run67) x1 tr1 /\ (exists e, being_written x1 SideB e) /\ x_buf x1 SideA <> [] /\ x_wire x1 SideA <> [].
Proof.
  exists (fst ended67), (snd ended67). split; [vm_compute; reflexivity|]. split; [lia|]. split; [exact cf67_plain|].
  split; [intros [|]; repeat constructor; apply asks_plain|]. split; [apply all_yes; [intros [|]; reflexivity|vm_compute; reflexivity|intros [|]; reflexivity]|].
  split; [apply xclock; vm_compute; reflexivity|]. split; [intros [|]; vm_compute; discriminate|]. split; [xresting|]. split; [vm_compute; reflexivity|].
  eexists _, _. split; [vm_compute; reflexivity|].
  split; [eexists _, 0%nat, _, _, _; split; vm_compute; reflexivity|]. split; vm_compute; discriminate.
Qed.

(** a client's two requests, one of which meets a handler that panics *)
Definition xpair67b : xpair := xpair_new (ps67 []) ctr2.
Definition run67b : list xlabel := Eval vm_compute in xeagerly 3000 xpair67b.
Definition ended67b : xpair * list (side * obs) := Eval vm_compute in match xrun 3 cf67 xpair67b run67b with Some r => r | None => (xpair67b, []) end.
Lemma cf67_replies : only_replies (cf67 SideB).
Proof.
  intros sc name cb H ctx e. unfold eh_get in H. apply (lookup_In _ bytes_eqb_spec) in H. destruct sc as [ns|]; cbn in H; [destruct H|]. destruct H as [H|[H|[]]]; injection H as <- <-; [|constructor].
  constructor; [reflexivity|]. intros o. constructor; [reflexivity|]. intros o'. constructor.
Qed.
Example C67_end_case : exists x tr, xruns 3 cf67 (ps67 []) ctr2 run67b x tr /\ all_deliverable cf67 x tr /\ only_replies (cf67 SideB) /\ debug_fits (cf67 SideB) (cf_env (cf67 SideA)) /\ good_xclocks run67b
  /\ few_events (x_ep x SideA) /\ xstill 3 cf67 x /\ ~ In (OAborted 0) (at_side SideA tr) /\ room (at_side SideA tr)
  /\ (forall i name, In (i, name) [(0, str "ping"); (1, str "boom")]%nat ->
        exists e c, In (OSent i c00 e) (at_side SideA tr) /\ ev_name e = name /\ In (OListen i (ev_id e) c) (at_side SideA tr)
          /\ (forall h, ~ In (OOpened i h (ev_id e) c) (at_side SideA tr)) /\ never_handled (ev_id e) (at_side SideA tr))
  /\ (exists r, In (OReply 0 (nth_id at1 0) (Some (Ok r))) (at_side SideA tr)) /\ (exists j, In (OPanicked j) (at_side SideB tr)).
Proof.
  exists (fst ended67b), (snd ended67b). split; [vm_compute; reflexivity|]. split; [apply all_yes; [intros [|]; reflexivity|vm_compute; reflexivity|intros [|]; reflexivity]|]. split; [exact cf67_replies|].
  split; [intros er b H; injection H as <-; reflexivity|]. split; [apply xclock; vm_compute; reflexivity|]. split; [vm_compute; discriminate|]. split; [xresting|].
  split; [vm_compute; intuition discriminate|]. split; [intros j h y c H; exfalso; vm_compute in H; intuition discriminate|]. split; [|split].
  - intros i name H. exists (event_new (nth_id at1 (N.of_nat i)) (Some []) name [x07] None Initiator), i.
    assert (NH : forall k, k < nth_id at1 1000 -> never_handled k (at_side SideA (snd ended67b))).
    { intros k Hk n j ctx sc e H' E. assert (Q : nth_id at1 1000 <= ev_id e).
      - vm_compute in H'. repeat (destruct H' as [H'|H']; [try discriminate H'; injection H' as _ _ _ _ <-; vm_compute; discriminate|]). destruct H'.
      - lia. }
    destruct H as [H|[H|[]]]; injection H as <- <-.
    all: split; [vm_compute; intuition (reflexivity || fail)|]; split; [reflexivity|]; split; [vm_compute; intuition (reflexivity || fail)|]; split; [|apply NH; vm_compute; reflexivity].
    all: intros h H; vm_compute in H; repeat (destruct H as [H|H]; [discriminate H|]); destruct H.
  - eexists. vm_compute. intuition (reflexivity || fail).
  - eexists. vm_compute. intuition (reflexivity || fail).
Qed.
