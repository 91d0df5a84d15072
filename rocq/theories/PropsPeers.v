(** Properties of two endpoints that both ask and answer: C82. *)
From Coq Require Import Strings.String.
From Verif Require Import Base BaseFacts Reader Codec Spec Ids Payload Builder Emit Crypt SpecCrypt CryptExchangeFacts CryptClaims Wire Ipc SpecIpc IpcFacts IpcFlow IpcChanFacts IpcClaims Pair SpecPair PairFacts PairRest Bounded SpecBounded BoundedFacts BytePair SpecBytes BytePairFacts ByteRest
  Link SpecLink LinkFacts LinkSim LinkRest SpecOrder OrderFacts NetRest SpecPeers PeersFacts PeersRest PeersFresh PropsDispatch PropsPair PropsBounded PropsBytes PropsCrypt PropsLink.

(** ** C82 *)
(** Both ends run any tasks and handlers, which ask, answer, open streams and spawn. A request whose id the endpoint itself has no
    handler of gets Timeout or what the first reply says that the other end sent to it; and the other end has called a handler for it. *)
Theorem C82_replies_between_peers : forall cf ps ctr ls p tr sd, pruns cf ps ctr (fun _ => []) ls p tr -> polite_handlers (cf (other sd)) -> Forall (polite None) (ps (other sd)) ->
  good_clocks ls -> few_events (p_ep p sd) ->
  forall i x r, In (OReply i x (Some r)) (at_side sd tr) -> never_handled x (at_side sd tr) ->
  r = Err Timeout \/ exists a rest, replies_to x (at_side (other sd) tr) = a :: rest /\ r = result_from (cf_env (cf sd)) a /\ exists j, called_for (at_side (other sd) tr) x j.
Proof. intros cf ps ctr ls p tr sd H PH PP GC FE. exact (replied_first cf ps ctr sd PH PP ls p tr H GC FE). Qed.
Print Assumptions C82_replies_between_peers.
(** A reply stream yields the replies the other end sent to its request, in order and each once, up to the first End event. *)
Theorem C82_streams_between_peers : forall cf ps ctr ls p tr sd, pruns cf ps ctr (fun _ => []) ls p tr -> polite_handlers (cf (other sd)) -> Forall (polite None) (ps (other sd)) ->
  good_clocks ls -> few_events (p_ep p sd) ->
  forall i h x c, In (OOpened i h x c) (at_side sd tr) -> never_handled x (at_side sd tr) -> tells (replies_to x (at_side (other sd) tr)) (items h (at_side sd tr)).
Proof.
  intros cf ps ctr ls p tr sd H PH PP GC FE i h x c HO NH. destruct (project _ _ _ _ _ _ _ H sd) as (la & RA & GA & _).
  destruct (stream_request _ _ _ _ _ _ _ _ _ _ _ _ RA HO) as (i' & HL & _). destruct (handed_on cf ps ctr sd PH PP ls p tr H GC FE _ _ _ HL NH) as (more & R).
  destruct (stream_queued _ _ _ _ _ _ _ _ RA (GA GC) FE _ _ _ _ HO NH) as (l & mo & Q & SH & NN). rewrite R, Q, <- app_assoc. clear R Q. destruct SH as [N|pre e k -> N Ee|k N|N].
  - econstructor; [reflexivity|exact N].
  - rewrite <- app_assoc. eapply tell_ended; [reflexivity|exact N|exact Ee].
  - exfalso. refine (NN _ N). apply in_or_app. right. left. reflexivity.
  - eapply tell_timeout; [reflexivity|exact N].
Qed.
Print Assumptions C82_streams_between_peers.
(** Both ends run any tasks and handlers that ask, answer and spawn but open no reply streams. If nothing goes on by itself any more,
    each request without result leads to a panic of a handler or to a request that was read as a reply: there is no circle of
    requests waiting for each other. *)
Theorem C82_waiting_has_an_end : forall cf ps ctr ls p tr, (forall sd, plain_handlers (cf sd)) -> (forall sd, Forall (plain_code None) (ps sd)) ->
  pruns cf ps ctr (fun _ => []) ls p tr -> good_clocks ls -> (forall sd, few_events (p_ep p sd)) -> at_rest cf p ->
  forall sd i x, pending (at_side sd tr) i x -> blocked tr sd i x.
Proof. intros cf ps ctr ls p tr PH PP H GC FE AR. apply (pending_blocked cf ps ctr PH PP ls p tr (fun _ => False) H GC FE). split; [intros l G; left; exact (AR l G)|intros sd []]. Qed.
Print Assumptions C82_waiting_has_an_end.
(** So if no handler or task panics and no asking event is itself read as a reply, then everything ends: when nothing goes on by
    itself any more, every request has its result and every task and handler has ended. *)
Lemma ended_all cf ps ctr ls p tr full : (forall sd, plain_handlers (cf sd)) -> (forall sd, Forall (plain_code None) (ps sd)) ->
  pruns cf ps ctr (fun _ => []) ls p tr -> good_clocks ls -> (forall sd, few_events (p_ep p sd)) -> held_up cf p full ->
  (forall sd i, ~ In (OPanicked i) (at_side sd tr)) -> asks_freely tr -> all_ended (p_ep p) tr.
Proof.
  intros PH PP H GC FE HU NP AF sd. split.
  - intros i tk Q. apply (all_done cf ps ctr PH PP ls p tr full H GC FE HU NP AF sd i). unfold tst. rewrite Q. reflexivity.
  - exact (all_replied cf ps ctr PH PP ls p tr full H GC FE HU NP AF sd).
Qed.
Theorem C82_peers_do_not_deadlock : forall cf ps ctr ls p tr, (forall sd, plain_handlers (cf sd)) -> (forall sd, Forall (plain_code None) (ps sd)) ->
  pruns cf ps ctr (fun _ => []) ls p tr -> good_clocks ls -> (forall sd, few_events (p_ep p sd)) -> at_rest cf p ->
  (forall sd i, ~ In (OPanicked i) (at_side sd tr)) -> asks_freely tr ->
  forall sd, (forall i tk, nth_error (e_tasks (p_ep p sd)) i = Some tk -> tk_st tk = TDone) /\ (forall i x c, In (OListen i x c) (at_side sd tr) -> exists r, In (OReply i x r) (at_side sd tr)).
Proof. intros cf ps ctr ls p tr PH PP H GC FE AR. apply (ended_all cf ps ctr ls p tr (fun _ => False) PH PP H GC FE). split; [intros l G; left; exact (AR l G)|intros sd []]. Qed.
Print Assumptions C82_peers_do_not_deadlock.
(** An asking event is not read as a reply if tasks and handlers await replies only through contexts without reference (those of the
    client and the server, not the one a handler is called with). *)
Theorem C82_fresh_requests_ask_freely : forall cf ps ctr ls p tr, (forall sd, fresh_handlers (cf sd)) -> (forall sd, Forall asks_fresh (ps sd)) ->
  pruns cf ps ctr (fun _ => []) ls p tr -> good_clocks ls -> (forall sd, few_events (p_ep p sd)) -> asks_freely tr.
Proof. intros cf ps ctr ls p tr PH PP. exact (fresh_freely cf ps ctr PH PP ls p tr). Qed.
Print Assumptions C82_fresh_requests_ask_freely.
(** The same over a connection of finite capacity *)
Theorem C82_peers_bounded : forall cap cf ps ctr ls p tr, (0 < cap)%nat -> (forall sd, plain_handlers (cf sd)) -> (forall sd, Forall (plain_code None) (ps sd)) ->
  brun cap cf (pair_new ps ctr (fun _ => [])) ls = Some (p, tr) -> good_clocks ls -> (forall sd, few_events (p_ep p sd)) -> still cap cf p ->
  (forall sd i x, pending (at_side sd tr) i x -> blocked tr sd i x)
  /\ ((forall sd i, ~ In (OPanicked i) (at_side sd tr)) -> asks_freely tr -> all_ended (p_ep p) tr).
Proof.
  intros cap cf ps ctr ls p tr CAP PH PP H GC FE ST. pose proof (brun_prun _ _ _ _ _ H) as R. pose proof (still_held cap cf ps ctr PH PP CAP p ST) as HU. split.
  - exact (pending_blocked cf ps ctr PH PP ls p tr _ R GC FE HU).
  - exact (ended_all cf ps ctr ls p tr _ PH PP R GC FE HU).
Qed.
Print Assumptions C82_peers_bounded.
(** and when bytes are sent, portioned in any way *)
Theorem C82_peers_over_bytes : forall cap cf ps ctr ls x tr, (0 < cap)%nat -> (forall sd, plain_handlers (cf sd)) -> (forall sd, Forall (plain_code None) (ps sd)) ->
  xruns cap cf ps ctr ls x tr -> all_deliverable cf x tr -> good_xclocks ls -> (forall sd, few_events (x_ep x sd)) -> xstill cap cf x ->
  (forall sd i y, pending (at_side sd tr) i y -> blocked tr sd i y)
  /\ ((forall sd i, ~ In (OPanicked i) (at_side sd tr)) -> asks_freely tr -> all_ended (x_ep x) tr).
Proof.
  intros cap cf ps ctr ls x tr CAP PH PP H AD GX FE ST. destruct (same _ _ _ _ _ _ _ H AD) as (pls & p & A & B & S). pose proof (xstill_held cap cf CAP x p S ST) as HU.
  assert (FE' : forall sd, few_events (p_ep p sd)) by (intros sd; rewrite (s_ep _ _ S); apply FE). split.
  - exact (pending_blocked cf ps ctr PH PP pls p tr _ A (B GX) FE' HU).
  - intros NP AF sd. rewrite <- (s_ep _ _ S). exact (ended_all cf ps ctr pls p tr _ PH PP A (B GX) FE' HU NP AF sd).
Qed.
Print Assumptions C82_peers_over_bytes.
(** and over an encrypted connection *)
Theorem C82_peers_over_encryption : forall enc dec pub dh st cap cf ps ctr ls k tr, (0 < cap)%nat -> connected enc dec pub dh st -> (forall sd, plain_handlers (cf sd)) -> (forall sd, Forall (plain_code None) (ps sd)) ->
  kruns enc dec cap cf ps ctr st ls k tr -> all_sendable cf k tr -> good_kclocks ls -> (forall sd, few_events (k_ep k sd)) -> kstill enc dec cap cf k ->
  (forall sd i x, pending (at_side sd tr) i x -> blocked tr sd i x)
  /\ ((forall sd i, ~ In (OPanicked i) (at_side sd tr)) -> asks_freely tr -> all_ended (k_ep k) tr).
Proof.
  intros enc dec pub dh st cap cf ps ctr ls k tr CAP CN PH PP H AD GX FE ST. destruct (connected_streams _ _ _ _ _ CN) as (GC & key & FR & FW).
  destruct (ksame enc dec GC key cap cf ps ctr st ls k tr FR FW H AD) as (pls & p & A & B & S). pose proof (kstill_held enc dec GC key cap cf ps ctr CAP k p pls tr A AD S ST) as HU.
  assert (FE' : forall sd, few_events (p_ep p sd)) by (intros sd; rewrite (q_ep _ _ _ _ _ S); apply FE). split.
  - exact (pending_blocked cf ps ctr PH PP pls p tr _ A (B GX) FE' HU).
  - intros NP AF sd. rewrite <- (q_ep _ _ _ _ _ S). exact (ended_all cf ps ctr pls p tr _ PH PP A (B GX) FE' HU NP AF sd).
Qed.
Print Assumptions C82_peers_over_encryption.
