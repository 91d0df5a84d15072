(** Properties of two endpoints joined by an encrypted connection: C71. *)
From Coq Require Import Strings.String.
From Verif Require Import Base BaseFacts Reader Codec Spec Ids Payload Builder Emit Crypt SpecCrypt CryptExchangeFacts CryptClaims Wire Ipc SpecIpc IpcFlow IpcChanFacts Pair SpecPair PairFacts PairRest Bounded SpecBounded BoundedFacts BytePair SpecBytes
  Link SpecLink LinkFacts LinkSim LinkRest LinkAll PropsDispatch PropsPair PropsBounded PropsBytes PropsStreams PropsEvent PropsCrypt Utf8 Utf8Facts.

(** what the key exchange leaves at both ends *)
Lemma connected_streams enc dec pub dh st : connected enc dec pub dh st ->
  good_cipher enc dec /\ exists key, (forall sd, exists s, content s = ([], EndIdle) /\ fresh_read key s (fst (st sd))) /\ forall sd, exists sk, fresh_write key sk (snd (st sd)).
Proof.
  intros (G & D & E & ks & kc & secret & H). split; [exact G|]. exists secret. destruct (established_facts enc dec pub dh _ _ _ _ _ _ _ _ _ _ _ _ G D H) as (_ & _ & A & B & C & F). split; intros [|]; assumption.
Qed.
(** ** C71 *)
(** Whatever the user's code does and however the transport portions and delays writes and reads: if the events can be sent at all,
    what is observed at both ends is what is observed in some run where whole events are passed on. What is on the way to [sd] (with
    [c], the part of a package it has taken) are the packages of the events sent and not received, in order, sealed with
    consecutive nonces, and then the beginning of the package being written. *)
Theorem C71_encryption_carries_events : forall enc dec pub dh st cap cf ps ctr ls k tr, connected enc dec pub dh st -> kruns enc dec cap cf ps ctr st ls k tr -> all_sendable cf k tr ->
  exists pls p key, pruns cf ps ctr (fun _ => []) pls p tr /\ (good_kclocks ls -> good_clocks pls) /\ (forall sd, p_ep p sd = k_ep k sd)
    /\ forall sd, exists m c part, c ++ k_wire k sd = boxes (ciphertexts enc key m (map wire_bytes (p_in p sd))) ++ part
       /\ (part = [] \/ exists e rest, being_sent k (other sd) e /\ rest <> [] /\ boxes (ciphertexts enc key (m + N.of_nat (List.length (p_in p sd))) [wire_bytes e]) = part ++ rest).
Proof.
  intros enc dec pub dh st cap cf ps ctr ls k tr CN H AD. destruct (connected_streams _ _ _ _ _ CN) as (GC & key & FR & FW). destruct (ksame enc dec GC key cap cf ps ctr st ls k tr FR FW H AD) as (pls & p & A & B & S).
  exists pls, p, key. split; [exact A|]. split; [exact B|]. split; [apply (q_ep _ _ _ _ _ S)|].
  intros sd. destruct (q_way _ _ _ _ _ S sd) as (m & c & part & _ & C & _ & _ & F). exists m, c, part. split; [exact C|]. destruct (k_hold k (other sd)) as [[i f]|]; [right|left; apply F].
  destruct F as (ctx & e & pu & rest & F1 & F2 & F3 & _). exists e, rest. split; [exists i, ctx, pu; exact F1|]. split; [exact F3|]. rewrite <- F2. unfold boxes. cbn [ciphertexts map concat]. rewrite app_nil_r. reflexivity.
Qed.
Print Assumptions C71_encryption_carries_events.
(** and each run on whole events whose events can be sent is also possible over an encrypted connection through which enough bytes fit *)
Theorem C71_all_event_runs_possible : forall enc dec pub dh st cf ps ctr pls p tr, connected enc dec pub dh st -> pruns cf ps ctr (fun _ => []) pls p tr ->
  (forall sd i ctx e, In (OSent i ctx e) (at_side sd tr) -> exists l, sendable (cf_env (cf (other sd))) e l) ->
  exists cap ls k, kruns enc dec cap cf ps ctr st ls k tr /\ forall sd, p_ep p sd = k_ep k sd.
Proof.
  intros enc dec pub dh st cf ps ctr pls p tr CN H GD. destruct (connected_streams _ _ _ _ _ CN) as (GC & key & FR & FW).
  destruct (all_possible_linked enc dec GC key cf ps ctr st pls p tr FR FW H GD) as (cap & ls & k & R & [S _]). exists cap, ls, k. split; [exact R|]. apply (q_ep _ _ _ _ _ S).
Qed.
Print Assumptions C71_all_event_runs_possible.
(** no receive loop ends because of what it reads, and no poll of one blocks its thread *)
Theorem C71_never_closed : forall enc dec pub dh st cap cf ps ctr ls k tr, connected enc dec pub dh st -> kruns enc dec cap cf ps ctr st ls k tr -> all_sendable cf k tr ->
  (forall sd n, ~ In (sd, OClosed n) tr)
  /\ forall sd, option_map cn_loop (nth_error (e_conns (k_ep k sd)) 0) = Some LRun -> k_wire k sd <> [] -> kstep enc dec cap cf k (KRead sd 1) <> None.
Proof.
  intros enc dec pub dh st cap cf ps ctr ls k tr CN H AD. destruct (connected_streams _ _ _ _ _ CN) as (GC & key & FR & FW). destruct (ksame enc dec GC key cap cf ps ctr st ls k tr FR FW H AD) as (pls & p & A & B & S). split.
  - intros sd n Q. destruct (project _ _ _ _ _ _ _ A sd) as (l & R & _ & _ & NC & _).
    assert (Q' : In (OClosed n) (at_side sd tr)) by (unfold at_side; apply in_flat_map; exists (sd, OClosed n); split; [exact Q|]; cbn; destruct sd; left; reflexivity).
    exact (NC _ (closed_label _ _ _ _ _ _ _ _ R _ Q')).
  - intros sd L W. exact (read_enabled enc dec GC key cap cf ps ctr k p pls tr A AD S sd L W).
Qed.
Print Assumptions C71_never_closed.
(** C52 over an encrypted connection: [SideA] the client, [SideB] a server's connection whose handlers only reply *)
Theorem C71_end_to_end : forall enc dec pub dh st cap cf ps ctr ls k tr, (0 < cap)%nat -> connected enc dec pub dh st -> kruns enc dec cap cf ps ctr st ls k tr -> all_sendable cf k tr ->
  only_replies (cf SideB) -> ps SideB = [] -> debug_fits (cf SideB) (cf_env (cf SideA)) ->
  good_kclocks ls -> few_events (k_ep k SideA) -> kstill enc dec cap cf k -> ~ In (OAborted 0) (at_side SideA tr) -> room (at_side SideA tr) ->
  forall i ctx e c, In (OSent i ctx e) (at_side SideA tr) -> In (OListen i (ev_id e) c) (at_side SideA tr) -> (forall h, ~ In (OOpened i h (ev_id e) c) (at_side SideA tr)) ->
    never_handled (ev_id e) (at_side SideA tr) ->
  exists j sc, In (OCalled 0 j (mk_context 0 (Some (ev_id e))) sc (drop_empty_ns e)) (at_side SideB tr)
    /\ ((exists r, In (OReply i (ev_id e) r) (at_side SideA tr) /\ (r = None \/ r = Some (Err Timeout) \/ exists r', r = Some r' /\ answered (cf SideB) (at_side SideB tr) j r'))
        \/ (In (OPanicked j) (at_side SideB tr) /\ sent j (at_side SideB tr) = [])).
Proof.
  intros enc dec pub dh st cap cf ps ctr ls k tr CAP CN H AD RO PB DF GX FE ST NA RM. destruct (connected_streams _ _ _ _ _ CN) as (GC & key & FR & FW).
  destruct (link_rest enc dec GC key cap cf ps ctr CAP st FR FW ls k tr RO PB H AD ST NA RM) as (pls & p & A & B & S & R).
  apply (C52_end_to_end cf ps ctr pls p tr A RO PB DF (B GX)); [rewrite S; exact FE|exact R|exact NA|exact RM].
Qed.
Print Assumptions C71_end_to_end.
(** C70 over an encrypted connection *)
Theorem C71_streams : forall enc dec pub dh st cap cf ps ctr ls k tr, connected enc dec pub dh st -> kruns enc dec cap cf ps ctr st ls k tr -> all_sendable cf k tr ->
  only_replies (cf SideB) -> ps SideB = [] -> good_kclocks ls -> few_events (k_ep k SideA) ->
  forall i h r c, In (OOpened i h r c) (at_side SideA tr) -> never_handled r (at_side SideA tr) ->
  ((streamed [] (items h (at_side SideA tr)) /\ forall j ctx a, In (OSent j ctx a) (at_side SideB tr) -> ev_ref a <> Some r)
   \/ exists j sc q, In (OCalled 0 j (mk_context 0 (Some r)) sc q) (at_side SideB tr) /\ ev_id q = r /\ streamed (replies_of_task j (at_side SideB tr)) (items h (at_side SideA tr)))
  /\ ((0 < cap)%nat -> kstill enc dec cap cf k -> ~ In (OAborted 0) (at_side SideA tr) -> room (at_side SideA tr) ->
      exists j sc q, In (OCalled 0 j (mk_context 0 (Some r)) sc q) (at_side SideB tr) /\ ev_id q = r /\ streamed (replies_of_task j (at_side SideB tr)) (items h (at_side SideA tr))
        /\ (In (OPanicked j) (at_side SideB tr) \/ exists v, returned j (at_side SideB tr) = [v])
        /\ forall t kk, option_map tk_st (nth_error (e_tasks (k_ep k SideA)) t) = Some (TNext h kk) ->
             items h (at_side SideA tr) = yields (replies_of_task j (at_side SideB tr)) /\ (In (OPanicked j) (at_side SideB tr) \/ exists er, returned j (at_side SideB tr) = [inr er])).
Proof.
  intros enc dec pub dh st cap cf ps ctr ls k tr CN H AD RO PB GX FE i h r c HO NH. destruct (connected_streams _ _ _ _ _ CN) as (GC & key & FR & FW). split.
  - destruct (ksame enc dec GC key cap cf ps ctr st ls k tr FR FW H AD) as (pls & p & A & B & S). eapply (C70_stream_is_what_the_handler_sent cf ps ctr pls p tr A RO PB (B GX)); eauto. rewrite (q_ep _ _ _ _ _ S). exact FE.
  - intros CAP ST NA RM. destruct (link_rest enc dec GC key cap cf ps ctr CAP st FR FW ls k tr RO PB H AD ST NA RM) as (pls & p & A & B & C & R). rewrite <- C in *.
    exact (C70_streams_end_to_end cf ps ctr pls p tr A RO PB (B GX) FE R NA RM i h r c HO NH).
Qed.
Print Assumptions C71_streams.
(** C66 over an encrypted connection: without reply streams the two ends do not block each other, however few bytes fit *)
Theorem C71_no_jam_without_streams : forall enc dec pub dh st cap cf ps ctr ls k tr, (0 < cap)%nat -> connected enc dec pub dh st -> (forall sd, plain_handlers (cf sd)) -> (forall sd, Forall (plain_code None) (ps sd)) ->
  kruns enc dec cap cf ps ctr st ls k tr -> all_sendable cf k tr -> good_kclocks ls -> (forall sd, few_events (k_ep k sd)) -> kstill enc dec cap cf k ->
  forall sd, k_wire k sd = [] /\ k_hold k sd = None /\ option_map cn_loop (nth_error (e_conns (k_ep k sd)) 0) = Some LRun
    /\ forall i tk, nth_error (e_tasks (k_ep k sd)) i = Some tk -> finished_or_waiting (k_ep k sd) (tk_st tk).
Proof.
  intros enc dec pub dh st cap cf ps ctr ls k tr CAP CN PH PP H AD GX FE ST sd. destruct (connected_streams _ _ _ _ _ CN) as (GC & key & FR & FW).
  destruct (link_progress enc dec GC key cap cf ps ctr CAP st FR FW ls k tr PH PP H AD GX FE ST sd) as (A & B & C & D).
  split; [exact A|]. split; [exact B|]. split; [exact C|]. intros i tk Hi. apply (D i). unfold tst. rewrite Hi. reflexivity.
Qed.
Print Assumptions C71_no_jam_without_streams.

(** ** a connection that takes 40 bytes, written in portions of 29 and read in portions of 23 or single bytes *)
Definition st71 : side -> Crypt.stream := Eval vm_compute in
  match srv [], cli [] with
  | KxDone (Ok s) _, KxDone (Ok c) _ => fun sd => match sd with SideA => c | SideB => s end
  | _, _ => fun _ => (eread_new [] [], ewrite_new (mk_wsock [] []) [])
  end.
Lemma st71_connected : connected toy_enc toy_dec toy_pub toy_dh st71.
Proof.
  split; [exact toy_good|]. split; [exact toy_good_dh|]. exists sample_env, skey, ckey, secret1. split; [reflexivity|vm_compute; discriminate|].
  exists (feed (toy_pub (k_secret ckey) ++ [])), (mk_wsock (takes 300) []), (feed (hello ++ [])), (mk_wsock (takes 300) []).
  eexists _, _, hello. split; [vm_compute; reflexivity|]. split; [vm_compute; reflexivity|]. split; [apply content_feed|]. split; [vm_compute; reflexivity|apply content_feed].
Qed.
Local Notation kstep1 := (kstep toy_enc toy_dec 40).
Definition ktries : list klabel :=
  flat_map (fun sd => map (fun i => KDo sd (LTask i go)) (seq 0 5) ++ map (fun i => KWrite sd i 29) (seq 0 5) ++ map (fun i => KWrite sd i 1) (seq 0 5) ++ [KDo sd (LPlace 0); KRead sd 23; KRead sd 1]) [SideA; SideB].
Fixpoint keagerly (cf : side -> config) (n : nat) (k : linked) : list klabel * linked :=
  match n with
  | O => ([], k)
  | S n' => match find (fun l => match kstep1 cf k l with Some _ => true | None => false end) ktries with
            | Some l => match kstep1 cf k l with Some (k', _) => let '(ls, k2) := keagerly cf n' k' in (l :: ls, k2) | None => ([], k) end
            | None => ([], k)
            end
  end.
Definition run71 : list klabel := Eval vm_compute in fst (keagerly cf67 3000 (linked_new cf67 (ps67 [asks (str "ping")]) ctr2 st71)).
Definition run71b : list klabel := Eval vm_compute in fst (keagerly cf67 3000 (linked_new cf67 (ps67 []) ctr2 st71)).
Definition run71c : list klabel := Eval vm_compute in fst (keagerly cf70 3000 (linked_new cf70 ps70 ctr2 st71)).
(** [k'] shows the same at both ends; [canon] does, without keeping earlier states *)
Definition alike (k k' : linked) : Prop := forall sd, k_ep k sd = k_ep k' sd /\ k_hold k sd = k_hold k' sd /\ k_wr k sd = k_wr k' sd /\ k_seen k sd = k_seen k' sd /\ k_rd k sd = k_rd k' sd.
Definition both {A} (f : side -> A) : side -> A := let a := f SideA in let b := f SideB in fun sd => match sd with SideA => a | SideB => b end.
Definition canon (k : linked) : linked := mk_linked (both (k_ep k)) (both (k_hold k)) (both (k_wr k)) (both (k_seen k)) (both (k_rd k)).
Lemma alike_canon k : alike (canon k) k.
Proof. intros [|]; repeat split; reflexivity. Qed.
Lemma alike_step k k' cf l : alike k k' -> kstep1 cf k l = None -> kstep1 cf k' l = None.
Proof.
  intros A. destruct l as [sd l|sd i n|sd n]; cbn [kstep]; destruct (A sd) as (A1 & A2 & A3 & A4 & A5); destruct (A (other sd)) as (B1 & B2 & B3 & B4 & B5); unfold k_wire.
  - rewrite <- A1. intros H. repeat match type of H with context[if ?b then _ else _] => destruct b | context[match ?x with Some _ => _ | None => _ end] => destruct x as [[]|] end; congruence.
  - rewrite <- A1, <- A2, <- A3, <- B4. destruct (option_map _ _) as [[]|]; try exact (fun H => H). destruct (to_send _ _ _); [|exact (fun H => H)]. destruct (g_fut _ _ _ _ _ _) as [[[wd w'] f'] r]. destruct (Nat.leb _ _); [|reflexivity].
    destruct r as [|[]]; intros H; try congruence. destruct (step _ _ _) as [[]|]; congruence.
  - rewrite <- A1, <- A4, <- A5, <- B3. destruct (_ && _); [|reflexivity]. destruct (k_rd k sd) as [[p got] r]. cbn zeta. destruct (exec _ _ _ _ _ _); intros H; try congruence.
    destruct o; destruct (step _ _ _) as [[]|]; congruence.
Qed.
Lemma alike_still k k' cf : alike k k' -> kstill toy_enc toy_dec 40 cf k -> kstill toy_enc toy_dec 40 cf k'.
Proof. intros A H l G. exact (alike_step _ _ _ _ A (H l G)). Qed.
Definition end_of {A} (d : A) (o : option (A * list (side * obs))) : A * list (side * obs) := match o with Some r => r | None => (d, []) end.
Lemma reaches {A} (d : A) o : match o with Some _ => true | None => false end = true -> o = Some (fst (end_of d o), snd (end_of d o)).
Proof. destruct o as [[a b]|]; [reflexivity|discriminate]. Qed.
Definition ended (cf : side -> config) (ps : side -> list prog) (ls : list klabel) : linked * list (side * obs) := end_of (linked_new cf ps ctr2 st71) (krun toy_enc toy_dec 40 cf (linked_new cf ps ctr2 st71) ls).
Lemma ended_runs cf ps ls tr : match krun toy_enc toy_dec 40 cf (linked_new cf ps ctr2 st71) ls with Some _ => true | None => false end = true -> snd (ended cf ps ls) = tr -> kruns toy_enc toy_dec 40 cf ps ctr2 st71 ls (fst (ended cf ps ls)) tr.
Proof. intros H <-. exact (reaches _ _ H). Qed.
Definition ended71 : linked * list (side * obs) := ended cf67 (ps67 [asks (str "ping")]) run71.
Definition ended71b : linked * list (side * obs) := ended cf67 (ps67 []) run71b.
Definition ended71c : linked * list (side * obs) := ended cf70 ps70 run71c.
Definition fin71 : linked := Eval vm_compute in canon (fst ended71).
Definition fin71b : linked := Eval vm_compute in canon (fst ended71b).
Definition fin71c : linked := Eval vm_compute in canon (fst ended71c).
Definition tr71 : list (side * obs) := Eval vm_compute in snd ended71.
Definition tr71b : list (side * obs) := Eval vm_compute in snd ended71b.
Definition tr71c : list (side * obs) := Eval vm_compute in snd ended71c.
Lemma fin71_alike : alike fin71 (fst ended71). Proof. replace fin71 with (canon (fst ended71)) by (vm_compute; reflexivity). apply alike_canon. Qed.
Lemma fin71b_alike : alike fin71b (fst ended71b). Proof. replace fin71b with (canon (fst ended71b)) by (vm_compute; reflexivity). apply alike_canon. Qed.
Lemma fin71c_alike : alike fin71c (fst ended71c). Proof. replace fin71c with (canon (fst ended71c)) by (vm_compute; reflexivity). apply alike_canon. Qed.
Definition sendable_b (e : event) : bool := deliverable_b e && match into_bytes e with Ok l => blen l <=? 90000 | _ => false end.
Lemma sendable_yes e : sendable_b e = true -> exists l, sendable env67 e l.
Proof.
  unfold sendable_b. intros H. apply andb_true_iff in H. destruct H as (A & B). destruct (into_bytes e) as [l| |] eqn:IB; try discriminate B. apply N.leb_le in B. exists l. destruct (deliverable_yes e A) as (C & D & F).
  split; [exact C|]. split; [exact D|]. split; [exact F|]. split; [exact IB|]. split; [lia|]. change (mem env67) with 100000. lia.
Qed.
Definition no_sends (s : ep) : bool := forallb (fun tk => match tk_st tk with TSend _ _ _ => false | _ => true end) (e_tasks s).
Lemma all_sendable_yes cf k tr : (forall sd, cf_env (cf sd) = env67) -> forallb (fun q => match snd q with OSent _ _ e => sendable_b e | _ => true end) tr = true -> (forall sd, no_sends (k_ep k sd) = true) -> all_sendable cf k tr.
Proof.
  intros C H O sd e [(i & ctx & Q)|(i & ctx & pu & Q)].
  - rewrite C. apply sendable_yes. unfold at_side in Q. apply in_flat_map in Q. destruct Q as ((sd' & o) & Q1 & Q2).
    cbn [fst snd] in Q2. destruct (side_eqb sd' sd); [|destruct Q2]. destruct Q2 as [->|[]]. rewrite forallb_forall in H. exact (H _ Q1).
  - exfalso. specialize (O sd). unfold no_sends in O. rewrite forallb_forall in O. destruct (nth_error (e_tasks (k_ep k sd)) i) as [tk|] eqn:E; [|discriminate Q]. apply nth_error_In in E. specialize (O _ E). cbn in Q. injection Q as Q. rewrite Q in O. discriminate O.
Qed.
Lemma kclock ls : forallb (fun l => match l with KDo _ (LTask _ (AStep t _)) => (secs t =? 1) && (millis t =? 0) | _ => true end) ls = true -> good_kclocks ls.
Proof.
  intros H sd i t v Q. rewrite forallb_forall in H. specialize (H _ Q). cbn in H. apply andb_true_iff in H. destruct H as [A B]. apply N.eqb_eq in A, B. destruct t as [a b]. cbn in A, B. subst. split; reflexivity.
Qed.
Ltac kresting := let l := fresh in let H := fresh in intros l H; destruct l as [[|] [i [| | |]|n e|n|n|n|h|]|[|] i m|[|] [|m]]; try discriminate H; try reflexivity;
  match goal with
  | |- context[LTask ?i _] => do 6 (try (destruct i as [|i]; [reflexivity|])); reflexivity
  | |- context[KWrite _ ?i _] => do 6 (try (destruct i as [|i]; [reflexivity|])); reflexivity
  | |- context[LPlace ?n] => do 3 (try (destruct n as [|n]; [reflexivity|])); reflexivity
  | |- context[LAbort ?n] => do 3 (try (destruct n as [|n]; [reflexivity|])); reflexivity
  end.
Definition mid71 : linked := fst (ended cf67 (ps67 [asks (str "ping")]) (firstn 30 run71)).
Definition sends0 (l : list task) : bool := match l with tk :: _ => match tk_st tk with TSend _ _ _ => true | _ => false end | [] => false end.
(** both ends ask at once *)
Example C71_case : exists k tr, connected toy_enc toy_dec toy_pub toy_dh st71 /\ kruns toy_enc toy_dec 40 cf67 (ps67 [asks (str "ping")]) ctr2 st71 run71 k tr /\ (0 < 40)%nat
  /\ (forall sd, plain_handlers (cf67 sd)) /\ (forall sd, Forall (plain_code None) (ps67 [asks (str "ping")] sd))
  /\ all_sendable cf67 k tr /\ good_kclocks run71 /\ (forall sd, few_events (k_ep k sd)) /\ kstill toy_enc toy_dec 40 cf67 k
  /\ flat_map (fun o => match o with (sd, OReply i x r) => [(sd, i)] | _ => [] end) tr = [(SideA, 0%nat); (SideB, 0%nat)]
  (* in between, an event was partly written and partly read *)
  /\ exists k1 tr1, kruns toy_enc toy_dec 40 cf67 (ps67 [asks (str "ping")]) ctr2 st71 (firstn 30 run71) k1 tr1 /\ (exists e, being_sent k1 SideA e) /\ k_wire k1 SideB <> [] /\ er_fut (snd (k_rd k1 SideB)) <> RNone.
Proof.
  exists (fst ended71), tr71. split; [exact st71_connected|]. split; [apply ended_runs; vm_compute; reflexivity|]. split; [lia|]. split; [exact cf67_plain|].
  split; [intros [|]; repeat constructor; apply asks_plain|]. split; [apply all_sendable_yes; [intros [|]; reflexivity|vm_compute; reflexivity|intros [|]; vm_compute; reflexivity]|].
  split; [apply kclock; vm_compute; reflexivity|]. split; [intros [|]; vm_compute; discriminate|]. split; [apply (alike_still _ _ _ fin71_alike); kresting|]. split; [vm_compute; reflexivity|].
  exists mid71, (snd (ended cf67 (ps67 [asks (str "ping")]) (firstn 30 run71))). split; [apply ended_runs; vm_compute; reflexivity|].
  split; [|split; vm_compute; discriminate]. assert (Q : sends0 (e_tasks (k_ep mid71 SideA)) = true) by (vm_compute; reflexivity). unfold being_sent. destruct (e_tasks (k_ep mid71 SideA)) as [|tk l]; [discriminate Q|].
  cbn [sends0] in Q. destruct (tk_st tk) eqn:Et; try discriminate Q. eexists _, 0%nat, _, _. cbn. rewrite Et. reflexivity.
Qed.
(** the same on whole events *)
Example C71_event_run_case : exists pls p tr, pruns cf67 (ps67 [asks (str "ping")]) ctr2 (fun _ => []) pls p tr
  /\ (forall sd i ctx e, In (OSent i ctx e) (at_side sd tr) -> exists l, sendable (cf_env (cf67 (other sd))) e l)
  /\ flat_map (fun o => match o with (sd, OReply i x r) => [(sd, i)] | _ => [] end) tr = [(SideA, 0%nat); (SideB, 0%nat)].
Proof.
  destruct C71_case as (k & tr & CN & R & _ & _ & _ & AD & _ & _ & _ & RE & _). destruct (C71_encryption_carries_events _ _ _ _ _ _ _ _ _ _ _ _ CN R AD) as (pls & p & _ & A & _).
  exists pls, p, tr. split; [exact A|]. split; [|exact RE]. intros sd i ctx e Q. apply AD. left. eauto.
Qed.
(** a client's two requests, one of which meets a handler that panics *)
Example C71_end_case : exists k tr, kruns toy_enc toy_dec 40 cf67 (ps67 []) ctr2 st71 run71b k tr /\ all_sendable cf67 k tr /\ only_replies (cf67 SideB) /\ debug_fits (cf67 SideB) (cf_env (cf67 SideA)) /\ good_kclocks run71b
  /\ few_events (k_ep k SideA) /\ kstill toy_enc toy_dec 40 cf67 k /\ ~ In (OAborted 0) (at_side SideA tr) /\ room (at_side SideA tr)
  /\ (forall i name, In (i, name) [(0, str "ping"); (1, str "boom")]%nat ->
        exists e c, In (OSent i c00 e) (at_side SideA tr) /\ ev_name e = name /\ In (OListen i (ev_id e) c) (at_side SideA tr)
          /\ (forall h, ~ In (OOpened i h (ev_id e) c) (at_side SideA tr)) /\ never_handled (ev_id e) (at_side SideA tr))
  /\ (exists r, In (OReply 0 (nth_id at1 0) (Some (Ok r))) (at_side SideA tr)) /\ (exists j, In (OPanicked j) (at_side SideB tr)).
Proof.
  exists (fst ended71b), tr71b. split; [apply ended_runs; vm_compute; reflexivity|]. split; [apply all_sendable_yes; [intros [|]; reflexivity|vm_compute; reflexivity|intros [|]; vm_compute; reflexivity]|]. split; [exact cf67_replies|].
  split; [intros er b H; injection H as <-; reflexivity|]. split; [apply kclock; vm_compute; reflexivity|]. split; [vm_compute; discriminate|]. split; [apply (alike_still _ _ _ fin71b_alike); kresting|].
  split; [vm_compute; intuition discriminate|]. split; [intros j h y c H; exfalso; vm_compute in H; intuition discriminate|]. split; [|split].
  - intros i name H. exists (event_new (nth_id at1 (N.of_nat i)) (Some []) name [x07] None Initiator), i.
    assert (NH : forall k, k < nth_id at1 1000 -> never_handled k (at_side SideA tr71b)).
    { intros k Hk n j ctx sc e H' E. assert (Q : nth_id at1 1000 <= ev_id e).
      - vm_compute in H'. repeat (destruct H' as [H'|H']; [try discriminate H'; injection H' as _ _ _ _ <-; vm_compute; discriminate|]). destruct H'.
      - lia. }
    destruct H as [H|[H|[]]]; injection H as <- <-.
    all: split; [vm_compute; intuition (reflexivity || fail)|]; split; [reflexivity|]; split; [vm_compute; intuition (reflexivity || fail)|]; split; [|apply NH; vm_compute; reflexivity].
    all: intros h H; vm_compute in H; repeat (destruct H as [H|H]; [discriminate H|]); destruct H.
  - eexists. vm_compute. intuition (reflexivity || fail).
  - eexists. vm_compute. intuition (reflexivity || fail).
Qed.
(** a client that reads streams *)
Example C71_stream_case : exists k tr, kruns toy_enc toy_dec 40 cf70 ps70 ctr2 st71 run71c k tr /\ all_sendable cf70 k tr /\ only_replies (cf70 SideB) /\ ps70 SideB = [] /\ good_kclocks run71c /\ few_events (k_ep k SideA)
  /\ kstill toy_enc toy_dec 40 cf70 k /\ ~ In (OAborted 0) (at_side SideA tr) /\ room (at_side SideA tr)
  /\ (forall h, In h [0; 1; 2]%nat -> In (OOpened h h (nth_id at1 (N.of_nat h)) h) (at_side SideA tr)) /\ (forall y, never_handled y (at_side SideA tr))
  /\ items 0 (at_side SideA tr) = yields [ans 1000 0 (str "pong") None [x01] Response; ans 1001 0 (str "pong") (Some (str "ns")) [x02] Response; ans 1002 0 END_EVENT_NAME None [x07] End] ++ [None; None]
  /\ exists kk, option_map tk_st (nth_error (e_tasks (k_ep k SideA)) 1) = Some (TNext 1 kk).
Proof.
  exists (fst ended71c), tr71c. split; [apply ended_runs; vm_compute; reflexivity|]. split; [apply all_sendable_yes; [intros [|]; reflexivity|vm_compute; reflexivity|intros [|]; vm_compute; reflexivity]|].
  split; [exact cf70_replies|]. split; [reflexivity|]. split; [apply kclock; vm_compute; reflexivity|]. split; [vm_compute; discriminate|]. split; [apply (alike_still _ _ _ fin71c_alike); kresting|].
  split; [vm_compute; intuition discriminate|]. split.
  { intros j h y c H. right. vm_compute in H. repeat (destruct H as [H|H]; [try discriminate H; injection H as <- <- <- <-; vm_compute; lia|]). destruct H. }
  split; [intros h [<-|[<-|[<-|[]]]]; vm_compute; intuition (reflexivity || fail)|]. split.
  { intros y n j ctx sc e H. exfalso. vm_compute in H. repeat (destruct H as [H|H]; [discriminate H|]). destruct H. }
  split; [vm_compute; reflexivity|]. eexists; vm_compute; reflexivity.
Qed.
