(** Properties of reply streams between two joined endpoints: C70. *)
From Coq Require Import Strings.String.
From Verif Require Import Base BaseFacts Reader Codec Spec Ids Payload Builder Emit Ipc SpecIpc IpcFlow IpcChanFacts Pair SpecPair PairFacts PairRest PairStream Bounded SpecBounded BoundedFacts BytePair SpecBytes BytePairFacts ByteRest ByteAll PropsDispatch PropsPair PropsBounded PropsBytes Utf8 Utf8Facts.

(** ** C70 *)
(** [SideA] is a client with any tasks and handlers, [SideB] one connection of a server whose handlers do anything but wait for
    replies themselves. At any time: what a stream of the client has yielded is what the task handling its request has sent. *)
Theorem C70_stream_is_what_the_handler_sent : forall cf ps ctr ls p tr, pruns cf ps ctr (fun _ => []) ls p tr -> only_replies (cf SideB) -> ps SideB = [] -> good_clocks ls -> few_events (p_ep p SideA) ->
  forall i h x c, In (OOpened i h x c) (at_side SideA tr) -> never_handled x (at_side SideA tr) ->
  (streamed [] (items h (at_side SideA tr)) /\ forall j ctx a, In (OSent j ctx a) (at_side SideB tr) -> ev_ref a <> Some x)
  \/ exists j sc q, In (OCalled 0 j (mk_context 0 (Some x)) sc q) (at_side SideB tr) /\ ev_id q = x /\ streamed (replies_of_task j (at_side SideB tr)) (items h (at_side SideA tr)).
Proof. intros cf ps ctr ls p tr HR RO PB. exact (streams cf ps ctr RO PB ls p tr HR). Qed.
Print Assumptions C70_stream_is_what_the_handler_sent.
(** When nothing is left to do except timers: the handler was called and has ended; a stream that is still polled has yielded
    everything the handler sent, and the handler has panicked or failed. So if a handler returns Ok, a client that goes on
    polling has got everything up to the End event. *)
Theorem C70_streams_end_to_end : forall cf ps ctr ls p tr, pruns cf ps ctr (fun _ => []) ls p tr -> only_replies (cf SideB) -> ps SideB = [] -> good_clocks ls -> few_events (p_ep p SideA) ->
  at_rest cf p -> ~ In (OAborted 0) (at_side SideA tr) -> room (at_side SideA tr) ->
  forall i h x c, In (OOpened i h x c) (at_side SideA tr) -> never_handled x (at_side SideA tr) ->
  exists j sc q, In (OCalled 0 j (mk_context 0 (Some x)) sc q) (at_side SideB tr) /\ ev_id q = x /\ streamed (replies_of_task j (at_side SideB tr)) (items h (at_side SideA tr))
    /\ (In (OPanicked j) (at_side SideB tr) \/ exists r, returned j (at_side SideB tr) = [r])
    /\ forall t k, option_map tk_st (nth_error (e_tasks (p_ep p SideA)) t) = Some (TNext h k) ->
         items h (at_side SideA tr) = yields (replies_of_task j (at_side SideB tr)) /\ (In (OPanicked j) (at_side SideB tr) \/ exists er, returned j (at_side SideB tr) = [inr er]).
Proof. intros cf ps ctr ls p tr HR RO PB. exact (streams_rest cf ps ctr RO PB ls p tr HR). Qed.
Print Assumptions C70_streams_end_to_end.
(** both over byte streams that take at least one byte *)
Theorem C70_streams_over_bytes : forall cap cf ps ctr ls x tr, xruns cap cf ps ctr ls x tr -> all_deliverable cf x tr -> only_replies (cf SideB) -> ps SideB = [] -> good_xclocks ls -> few_events (x_ep x SideA) ->
  forall i h r c, In (OOpened i h r c) (at_side SideA tr) -> never_handled r (at_side SideA tr) ->
  ((streamed [] (items h (at_side SideA tr)) /\ forall j ctx a, In (OSent j ctx a) (at_side SideB tr) -> ev_ref a <> Some r)
   \/ exists j sc q, In (OCalled 0 j (mk_context 0 (Some r)) sc q) (at_side SideB tr) /\ ev_id q = r /\ streamed (replies_of_task j (at_side SideB tr)) (items h (at_side SideA tr)))
  /\ ((0 < cap)%nat -> xstill cap cf x -> ~ In (OAborted 0) (at_side SideA tr) -> room (at_side SideA tr) ->
      exists j sc q, In (OCalled 0 j (mk_context 0 (Some r)) sc q) (at_side SideB tr) /\ ev_id q = r /\ streamed (replies_of_task j (at_side SideB tr)) (items h (at_side SideA tr))
        /\ (In (OPanicked j) (at_side SideB tr) \/ exists v, returned j (at_side SideB tr) = [v])
        /\ forall t k, option_map tk_st (nth_error (e_tasks (x_ep x SideA)) t) = Some (TNext h k) ->
             items h (at_side SideA tr) = yields (replies_of_task j (at_side SideB tr)) /\ (In (OPanicked j) (at_side SideB tr) \/ exists er, returned j (at_side SideB tr) = [inr er])).
Proof.
  intros cap cf ps ctr ls x tr H AD RO PB GX FE i h r c HO NH. split.
  - destruct (same _ _ _ _ _ _ _ H AD) as (pls & p & A & B & C). eapply (C70_stream_is_what_the_handler_sent cf ps ctr pls p tr A RO PB (B GX)); eauto. rewrite (s_ep _ _ C). exact FE.
  - intros CAP ST NA RM. destruct (byte_rest cap cf ps ctr CAP RO PB ls x tr H AD ST NA RM) as (pls & p & A & B & C & R). rewrite <- (s_ep _ _ C) in *.
    exact (C70_streams_end_to_end cf ps ctr pls p tr A RO PB (B GX) FE R NA RM i h r c HO NH).
Qed.
Print Assumptions C70_streams_over_bytes.

(** three bytes fit; a client streams the replies of "ping" (two responses and an end), "fail" and "boom" (panics) *)
Definition reads (name : bytes) (n : nat) : prog := PStream (mk_request c00 (Some []) name (Ok [x07])) (fun r => match r with Some (Ok h) => (fix poll (n : nat) := match n with O => PRet (inl []) | S m => PNext h (fun _ => poll m) end) n | _ => PRet (inl []) end).
Definition cf70 : side -> config := fun sd => match sd with
  | SideA => mk_config [(ERROR_EVENT_NAME, default_error env67)] [] (fun _ => []) env67
  | SideB => mk_config [(str "ping", ping); (str "fail", fail); (str "boom", fun _ _ => PPanic)] [] (fun _ => str "Timeout") env67 end.
Definition ps70 : side -> list prog := fun sd => match sd with SideA => [reads (str "ping") 5; reads (str "fail") 3; reads (str "boom") 1] | SideB => [] end.
Fixpoint xeagerly70 (n : nat) (p : xpair) : list xlabel :=
  match n with
  | O => []
  | S n' => match find (fun l => match xstep 3 cf70 p l with Some _ => true | None => false end) xtries with
            | Some l => match xstep 3 cf70 p l with Some (p', _) => l :: xeagerly70 n' p' | None => [] end
            | None => []
            end
  end.
Definition xpair70 : xpair := xpair_new ps70 ctr2.
Definition run70 : list xlabel := Eval vm_compute in xeagerly70 3000 xpair70.
Definition ended70 : xpair * list (side * obs) := Eval vm_compute in match xrun 3 cf70 xpair70 run70 with Some r => r | None => (xpair70, []) end.
Lemma cf70_replies : only_replies (cf70 SideB).
Proof.
  intros sc name cb H ctx e. unfold eh_get in H. apply (lookup_In _ bytes_eqb_spec) in H. destruct sc as [ns|]; cbn in H; [destruct H|]. destruct H as [H|[H|[H|[]]]]; injection H as <- <-; [| |]; try constructor.
  - reflexivity.
  - intros o. constructor; [reflexivity|]. intros o'. constructor.
Qed.
Definition ans (n : N) (r : N) (name : bytes) (ns : option bytes) (d : bytes) (t : etype) : event := event_new (nth_id at1 n) ns name d (Some (nth_id at1 r)) t.
Example C70_case : exists x tr, xruns 3 cf70 ps70 ctr2 run70 x tr /\ all_deliverable cf70 x tr /\ only_replies (cf70 SideB) /\ ps70 SideB = [] /\ good_xclocks run70 /\ few_events (x_ep x SideA)
  /\ xstill 3 cf70 x /\ ~ In (OAborted 0) (at_side SideA tr) /\ room (at_side SideA tr)
  /\ (forall h, In h [0; 1; 2]%nat -> In (OOpened h h (nth_id at1 (N.of_nat h)) h) (at_side SideA tr)) /\ (forall y, never_handled y (at_side SideA tr))
  /\ items 0 (at_side SideA tr) = yields [ans 1000 0 (str "pong") None [x01] Response; ans 1001 0 (str "pong") (Some (str "ns")) [x02] Response; ans 1002 0 END_EVENT_NAME None [x07] End] ++ [None; None]
  /\ (exists d, items 1 (at_side SideA tr) = yields [ans 1003 1 ERROR_EVENT_NAME None d Error]) /\ items 2 (at_side SideA tr) = []
  /\ (exists k, option_map tk_st (nth_error (e_tasks (x_ep x SideA)) 1) = Some (TNext 1 k)) /\ exists k, option_map tk_st (nth_error (e_tasks (x_ep x SideA)) 2) = Some (TNext 2 k).
Proof.
  exists (fst ended70), (snd ended70). split; [vm_compute; reflexivity|]. split; [apply all_yes; [intros [|]; reflexivity|vm_compute; reflexivity|intros [|]; reflexivity]|].
  split; [exact cf70_replies|]. split; [reflexivity|]. split; [apply xclock; vm_compute; reflexivity|]. split; [vm_compute; discriminate|]. split; [xresting|].
  split; [vm_compute; intuition discriminate|]. split.
  { intros j h y c H. right. vm_compute in H. repeat (destruct H as [H|H]; [try discriminate H; injection H as <- <- <- <-; vm_compute; lia|]). destruct H. }
  split; [intros h [<-|[<-|[<-|[]]]]; vm_compute; intuition (reflexivity || fail)|]. split.
  { intros y n j ctx sc e H. exfalso. vm_compute in H. repeat (destruct H as [H|H]; [discriminate H|]). destruct H. }
  split; [vm_compute; reflexivity|]. split; [eexists; vm_compute; reflexivity|]. split; [vm_compute; reflexivity|]. split; eexists; vm_compute; reflexivity.
Qed.
(** the same at the level of whole events *)
Example C70_case_events : exists pls p tr, pruns cf70 ps70 ctr2 (fun _ => []) pls p tr /\ good_clocks pls /\ few_events (p_ep p SideA) /\ at_rest cf70 p /\ ~ In (OAborted 0) (at_side SideA tr) /\ room (at_side SideA tr)
  /\ (forall h, In h [0; 1; 2]%nat -> In (OOpened h h (nth_id at1 (N.of_nat h)) h) (at_side SideA tr)) /\ (forall y, never_handled y (at_side SideA tr)) /\ List.length (items 0 (at_side SideA tr)) = 5%nat.
Proof.
  destruct C70_case as (x & tr & A & B & C & D & F & G & H & J & K & L & M & N0 & _). destruct (byte_rest 3 cf70 ps70 ctr2 ltac:(lia) C D run70 x tr A B H J K) as (pls & p & P1 & P2 & P3 & P4).
  exists pls, p, tr. split; [exact P1|]. split; [exact (P2 F)|]. split; [rewrite (s_ep _ _ P3); exact G|]. split; [exact P4|]. split; [exact J|]. split; [exact K|]. split; [exact L|]. split; [exact M|]. rewrite N0. reflexivity.
Qed.
