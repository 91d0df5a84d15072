(** Properties of the order in which events are processed: C72. *)
From Coq Require Import Strings.String.
From Verif Require Import Base BaseFacts Reader Codec Spec Ids Payload Builder Emit Crypt SpecCrypt CryptExchangeFacts CryptClaims Wire Ipc SpecIpc IpcFlow IpcChanFacts Pair SpecPair PairFacts PairRest Bounded SpecBounded BoundedFacts BytePair SpecBytes BytePairFacts ByteRest
  Link SpecLink LinkFacts LinkSim LinkRest SpecOrder OrderFacts PropsDispatch PropsPair PropsBounded PropsBytes PropsCrypt PropsLink.

(** ** C72 *)
(** On each connection, events are processed one by one in the order in which they are read: each is given to a request, passed to
    a handler or ignored. At most the last one read is not processed yet, and none if the loop goes on reading. *)
Theorem C72_processed_in_order : forall cf nc armed ps ctr ls s tr n, runs cf nc armed ps ctr ls s tr -> exists held, events_read n tr = processed n tr ++ held /\ (List.length held <= 1)%nat
  /\ (option_map cn_loop (nth_error (e_conns s) n) = Some LRun -> held = []).
Proof.
  intros cf nc armed ps ctr ls s tr n H. destruct (in_order _ _ _ _ _ _ _ _ H n) as (held & A & B). exists held. split; [exact A|]. split; [exact (holds_one _ _ B)|]. intros E. unfold lp in B. rewrite E in B. exact B.
Qed.
Print Assumptions C72_processed_in_order.
(** Two ends of a connection: what one sent is what the other has processed, in the same order, then at most one event it has read,
    and then those on the way. *)
Theorem C72_sent_in_order : forall cf ps ctr ls p tr sd, pruns cf ps ctr (fun _ => []) ls p tr -> exists held,
  map drop_empty_ns (sent_events (at_side (other sd) tr)) = processed 0 (at_side sd tr) ++ held ++ p_in p sd /\ (List.length held <= 1)%nat
  /\ (option_map cn_loop (nth_error (e_conns (p_ep p sd)) 0) = Some LRun -> held = []).
Proof.
  intros cf ps ctr ls p tr sd H. destruct (relayed _ _ _ _ _ _ H sd) as (held & A & B). exists held. split; [exact A|]. split; [exact (holds_one _ _ B)|]. intros E. unfold lp in B. rewrite E in B. exact B.
Qed.
Print Assumptions C72_sent_in_order.
(** So handlers are called in the order in which the other end sent, and never twice for the same event. *)
Theorem C72_handlers_called_in_order : forall cf ps ctr ls p tr sd, pruns cf ps ctr (fun _ => []) ls p tr ->
  subseq (handled 0 (at_side sd tr)) (map drop_empty_ns (sent_events (at_side (other sd) tr)))
  /\ (good_clocks ls -> few_events (p_ep p (other sd)) -> NoDup (map ev_id (handled 0 (at_side sd tr)))).
Proof.
  intros cf ps ctr ls p tr sd H. assert (Q := handled_sent _ _ _ _ _ _ sd H). split; [exact Q|]. intros GC FE. exact (subseq_ids _ _ Q (sent_once _ _ _ _ _ _ _ H GC FE)).
Qed.
Print Assumptions C72_handlers_called_in_order.
(** The same when bytes are sent, portioned in any way. If nothing goes on by itself, everything sent has been processed. *)
Theorem C72_over_bytes : forall cap cf ps ctr ls x tr sd, xruns cap cf ps ctr ls x tr -> all_deliverable cf x tr ->
  (exists rest, map drop_empty_ns (sent_events (at_side (other sd) tr)) = processed 0 (at_side sd tr) ++ rest)
  /\ subseq (handled 0 (at_side sd tr)) (map drop_empty_ns (sent_events (at_side (other sd) tr)))
  /\ (good_xclocks ls -> few_events (x_ep x (other sd)) -> NoDup (map ev_id (handled 0 (at_side sd tr))))
  /\ ((0 < cap)%nat -> (forall sd', plain_handlers (cf sd')) -> (forall sd', Forall (plain_code None) (ps sd')) -> good_xclocks ls -> (forall sd', few_events (x_ep x sd')) -> xstill cap cf x ->
      map drop_empty_ns (sent_events (at_side (other sd) tr)) = processed 0 (at_side sd tr)).
Proof.
  intros cap cf ps ctr ls x tr sd H AD. destruct (same _ _ _ _ _ _ _ H AD) as (pls & p & A & B & S). destruct (relayed _ _ _ _ _ _ A sd) as (held & R & L). destruct (C72_handlers_called_in_order _ _ _ _ _ _ sd A) as (C & D).
  split; [eauto|]. split; [exact C|]. split; [intros GX FE; apply D; [auto|rewrite (s_ep _ _ S); exact FE]|]. intros CAP PH PP GX FE ST.
  destruct (byte_progress cap cf ps ctr CAP ls x tr PH PP H AD GX FE ST sd) as (F1 & F2 & _ & F4 & _). rewrite (s_ep _ _ S), F4 in L. cbn in L. subst held. destruct (s_wire _ _ S sd) as (part & G & _). rewrite F1, F2 in G.
  assert (P : p_in p sd = []). { destruct (p_in p sd) as [|e w]; [reflexivity|exfalso]. destruct (wire_some e) as (b & _ & W1 & W2). cbn [map concat app] in G. rewrite W1 in G. destruct b; [contradiction|discriminate G]. }
  rewrite R, P. cbn [app]. apply app_nil_r.
Qed.
Print Assumptions C72_over_bytes.
(** and over an encrypted connection *)
Theorem C72_over_encryption : forall enc dec pub dh st cap cf ps ctr ls k tr sd, connected enc dec pub dh st -> kruns enc dec cap cf ps ctr st ls k tr -> all_sendable cf k tr ->
  (exists rest, map drop_empty_ns (sent_events (at_side (other sd) tr)) = processed 0 (at_side sd tr) ++ rest)
  /\ subseq (handled 0 (at_side sd tr)) (map drop_empty_ns (sent_events (at_side (other sd) tr)))
  /\ (good_kclocks ls -> few_events (k_ep k (other sd)) -> NoDup (map ev_id (handled 0 (at_side sd tr))))
  /\ ((0 < cap)%nat -> (forall sd', plain_handlers (cf sd')) -> (forall sd', Forall (plain_code None) (ps sd')) -> good_kclocks ls -> (forall sd', few_events (k_ep k sd')) -> kstill enc dec cap cf k ->
      map drop_empty_ns (sent_events (at_side (other sd) tr)) = processed 0 (at_side sd tr)).
Proof.
  intros enc dec pub dh st cap cf ps ctr ls k tr sd CN H AD. destruct (connected_streams _ _ _ _ _ CN) as (GC & key & FR & FW). destruct (ksame enc dec GC key cap cf ps ctr st ls k tr FR FW H AD) as (pls & p & A & B & S).
  destruct (relayed _ _ _ _ _ _ A sd) as (held & R & L). destruct (C72_handlers_called_in_order _ _ _ _ _ _ sd A) as (C & D).
  split; [eauto|]. split; [exact C|]. split; [intros GX FE; apply D; [auto|rewrite (q_ep _ _ _ _ _ S); exact FE]|]. intros CAP PH PP GX FE ST.
  destruct (link_progress enc dec GC key cap cf ps ctr CAP st FR FW ls k tr PH PP H AD GX FE ST sd) as (F1 & _ & F3 & _). rewrite (q_ep _ _ _ _ _ S), F3 in L. cbn in L. subst held.
  destruct (q_way _ _ _ _ _ S sd) as (m & c & part & _ & G & _ & W & _). rewrite F1, app_nil_r in G.
  assert (P : p_in p sd = []). { destruct (p_in p sd) as [|e w]; [reflexivity|exfalso]. destruct (W e w eq_refl) as (more & W1 & W2). rewrite seals_cons in G. assert (Q := f_equal (@List.length _) G). rewrite W1, !app_length in Q. destruct more; [contradiction|]. cbn [List.length] in Q. lia. }
  rewrite R, P. cbn [app]. apply app_nil_r.
Qed.
Print Assumptions C72_over_encryption.

(** [SideA]'s request for "fail" is sent before the one for "ping", so its handler is called first. The handler of "ping", called
    second, returns last. *)
Example C72_case : exists p tr, pruns cf2 ps2 ctr2 (fun _ => []) schedule p tr /\ good_clocks schedule /\ (forall sd, few_events (p_ep p sd))
  /\ map ev_name (sent_events (at_side SideA tr)) = [str "fail"; str "ping"; str "none"] /\ map ev_name (handled 0 (at_side SideB tr)) = [str "fail"; str "ping"; str "none"]
  /\ flat_map (fun o => match o with OReturned j _ => [j] | _ => [] end) (at_side SideB tr) = [0; 2; 1]%nat
  /\ map ev_name (sent_events (at_side SideB tr)) = [str "pong"; ERROR_EVENT_NAME; END_EVENT_NAME; str "pong"; END_EVENT_NAME] /\ handled 0 (at_side SideA tr) = [].
Proof.
  exists (fst ended2), (snd ended2). split; [vm_compute; reflexivity|]. split; [pclock|]. split; [intros [|]; vm_compute; discriminate|]. repeat (split; [vm_compute; reflexivity|]). vm_compute. reflexivity.
Qed.
(** before anything is read, all is on the way; a loop that waits for room in a reply channel holds one event *)
Example C72_on_the_way : exists p tr, pruns cf2 ps2 ctr2 (fun _ => []) (firstn 10 schedule) p tr /\ map ev_name (processed 0 (at_side SideB tr)) = [str "fail"] /\ map ev_name (p_in p SideB) = [str "ping"; str "none"].
Proof. eexists _, _. split; [vm_compute; reflexivity|]. split; vm_compute; reflexivity. Qed.
Example C72_held : exists p tr, pruns cf2 ps2 ctr2 (fun _ => []) (firstn 25 schedule) p tr /\ events_read 0 (at_side SideA tr) = sent_events (firstn 1 (filter (fun o => match o with OSent _ _ _ => true | _ => false end) (at_side SideB tr)))
  /\ processed 0 (at_side SideA tr) = [] /\ (exists c e, option_map cn_loop (nth_error (e_conns (p_ep p SideA)) 0) = Some (LSend c e)).
Proof. eexists _, _. split; [vm_compute; reflexivity|]. split; [vm_compute; reflexivity|]. split; [vm_compute; reflexivity|]. eexists _, _. vm_compute. reflexivity. Qed.
(** the runs of C67 and C71 in which both ends ask at once: they meet the hypotheses and everything sent was processed *)
Example C72_bytes_case : exists x tr, xruns 3 cf67 (ps67 [asks (str "ping")]) ctr2 run67 x tr /\ all_deliverable cf67 x tr /\ good_xclocks run67 /\ (forall sd, few_events (x_ep x sd)) /\ xstill 3 cf67 x
  /\ (forall sd, map drop_empty_ns (sent_events (at_side (other sd) tr)) = processed 0 (at_side sd tr))
  /\ map ev_name (sent_events (at_side SideA tr)) = [str "ping"; str "boom"; str "pong"; str "pong"; END_EVENT_NAME; END_EVENT_NAME] /\ map ev_name (handled 0 (at_side SideB tr)) = [str "ping"; str "boom"; str "pong"].
Proof.
  exists (fst ended67), (snd ended67). split; [vm_compute; reflexivity|]. split; [apply all_yes; [intros [|]; reflexivity|vm_compute; reflexivity|intros [|]; reflexivity]|].
  split; [apply xclock; vm_compute; reflexivity|]. split; [intros [|]; vm_compute; discriminate|]. split; [xresting|]. split; [intros [|]; vm_compute; reflexivity|]. split; vm_compute; reflexivity.
Qed.
Example C72_encryption_case : exists k tr, connected toy_enc toy_dec toy_pub toy_dh st71 /\ kruns toy_enc toy_dec 40 cf67 (ps67 [asks (str "ping")]) ctr2 st71 run71 k tr /\ all_sendable cf67 k tr /\ good_kclocks run71
  /\ (forall sd, few_events (k_ep k sd)) /\ kstill toy_enc toy_dec 40 cf67 k /\ (forall sd, map drop_empty_ns (sent_events (at_side (other sd) tr)) = processed 0 (at_side sd tr))
  /\ map ev_name (handled 0 (at_side SideB tr)) = [str "ping"; str "boom"; str "pong"].
Proof.
  exists (fst ended71), tr71. split; [exact st71_connected|]. split; [apply ended_runs; vm_compute; reflexivity|]. split; [apply all_sendable_yes; [intros [|]; reflexivity|vm_compute; reflexivity|intros [|]; vm_compute; reflexivity]|].
  split; [apply kclock; vm_compute; reflexivity|]. split; [intros [|]; vm_compute; discriminate|]. split; [apply (alike_still _ _ _ fin71_alike); kresting|]. split; [intros [|]; vm_compute; reflexivity|]. vm_compute. reflexivity.
Qed.
