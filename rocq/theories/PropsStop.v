(** C75: what an end that has stopped reading does to the other one. *)
From Coq Require Import Lia Strings.String.
From Verif Require Import Base BaseFacts Reader Codec Spec Ids Payload Builder Emit Ipc SpecIpc IpcFlow IpcChanFacts Pair SpecPair PairFacts BytePair SpecBytes BytePairFacts SpecOrder SpecStop ByteStop PropsDispatch PropsPair.
Open Scope nat_scope.

(** The loop of [sd] has ended (stop(), or a read error) while the connection is still open. From then on nothing on the way to [sd]
    is taken off, and the other end can send only what still fits: the bytes of the events it finishes sending, and of the one it
    is sending then, are those it had already written of the one it was at, and what the connection took since. *)
Theorem C75_only_what_fits : forall cap cf ps ctr ls x tr ls2 x' tr2 sd, xruns cap cf ps ctr ls x tr -> loop_ended tr sd -> xrun cap cf x ls2 = Some (x', tr2) ->
  exists before after more, begun x (other sd) before /\ begun x' (other sd) after /\
    x_wire x' sd = x_wire x sd ++ more /\ (more = [] \/ List.length (x_wire x' sd) <= cap) /\ before ++ more = sent_bytes (other sd) tr2 ++ after.
Proof.
  intros cap cf ps ctr ls x tr ls2 x' tr2 sd R D H. destruct (begun_reachable cap cf _ _ _ _ _ (other sd) R) as (b & B).
  destruct (only_what_fits cap cf _ _ sd _ _ _ _ _ _ _ R D H B) as (b' & more & B' & E & F & G). exists b, b', more. auto.
Qed.

(** So if it is not in the middle of an event, the events it can still send, however many and whoever sends them, have together no more bytes than
    there is room for. *)
Theorem C75_total_is_bounded : forall cap cf ps ctr ls x tr ls2 x' tr2 sd, xruns cap cf ps ctr ls x tr -> loop_ended tr sd -> xrun cap cf x ls2 = Some (x', tr2) ->
  x_out x (other sd) = None -> List.length (x_wire x sd) <= cap -> List.length (x_wire x sd) + List.length (sent_bytes (other sd) tr2) <= cap.
Proof.
  intros cap cf ps ctr ls x tr ls2 x' tr2 sd R D H N L. destruct (C75_only_what_fits _ _ _ _ _ _ _ _ _ _ _ R D H) as (b & a & more & B & A & F & G & E).
  unfold begun in B. rewrite N in B. subst b. cbn [app] in E. apply (f_equal (@List.length _)) in E. rewrite app_length in E. apply (f_equal (@List.length _)) in F. rewrite app_length in F.
  destruct G as [->|G]; cbn in E; lia.
Qed.

(** Once the connection is full, every task of the other end that is sending - user's tasks as well as handlers about to answer -
    is at that for good: no timer ends it, nothing any task of either end does, and no further event is ever sent. *)
Theorem C75_full_is_for_ever : forall cap cf ps ctr ls x tr ls2 x' tr2 sd, xruns cap cf ps ctr ls x tr -> loop_ended tr sd -> cap <= List.length (x_wire x sd) ->
  xrun cap cf x ls2 = Some (x', tr2) ->
  sent_events (at_side (other sd) tr2) = [] /\ x_wire x' sd = x_wire x sd /\ forall i e, is_sending (x_ep x (other sd)) i e -> is_sending (x_ep x' (other sd)) i e.
Proof.
  intros cap cf ps ctr ls x tr ls2 x' tr2 sd R D F H. destruct (full_for_ever cap cf _ _ sd _ _ _ _ _ _ R D F H) as (A & B & C). split; [exact A|]. split; [exact B|].
  intros i e (ctx & pu & T). exists ctx, pu. apply C. exact T.
Qed.

(** A client sends an event and stops; 20 bytes fit. The server's handler answers and never gets rid of its answer. *)
Definition env75 : env := mk_env true 100000.
Definition cf75 : side -> config := fun _ => mk_config [(str "ping", ping)] [] (fun _ => []) env75.
Definition ps75 : side -> list prog := fun sd => match sd with SideA => [PEmit (mk_request c00 None (str "ping") (Ok [])) (fun _ => PStop 0 (fun _ => PRet (inl [])))] | SideB => [] end.
Definition tries75 : list xlabel := [XDo SideA (LTask 0 go); XWrite SideA 0; XDo SideA (LAbort 0); XRead SideB; XDo SideB (LTask 0 go); XWrite SideB 0].
Fixpoint eagerly75 (n : nat) (x : xpair) : list xlabel :=
  match n with
  | O => []
  | S n' => match find (fun l => match xstep 20 cf75 x l with Some _ => true | None => false end) tries75 with
            | Some l => match xstep 20 cf75 x l with Some (x', _) => l :: eagerly75 n' x' | None => [] end
            | None => []
            end
  end.
Definition run75 : list xlabel := Eval vm_compute in eagerly75 300 (xpair_new ps75 (fun _ => 0%N)).
Example C75_case : exists x tr, xruns 20 cf75 ps75 (fun _ => 0%N) run75 x tr /\ loop_ended tr SideA /\ 20 <= List.length (x_wire x SideA) /\ (exists e, is_sending (x_ep x SideB) 0 e)
  /\ (exists n i ctx sc e, In (OCalled n i ctx sc e) (at_side SideB tr)) /\ sent_events (at_side SideB tr) = [].
Proof.
  eexists. eexists. split; [vm_compute; reflexivity|]. split; [left; vm_compute; tauto|]. split; [vm_compute; lia|]. split; [eexists; eexists; eexists; vm_compute; reflexivity|].
  split; [do 5 eexists; vm_compute; right; left; reflexivity | reflexivity].
Qed.
(** And right after the client stopped nothing is on the way to it and the server is not in the middle of an event: 20 bytes fit. *)
Definition run75_start : list xlabel := Eval vm_compute in firstn (S (List.length (fst (let fix upto l := match l with [] => ([], tt) | XDo SideA (LAbort 0) :: _ => ([], tt) | a :: l' => (a :: fst (upto l'), tt) end in upto run75)))) run75.
Example C75_case_start : exists x tr, xruns 20 cf75 ps75 (fun _ => 0%N) run75_start x tr /\ loop_ended tr SideA /\ x_out x SideB = None /\ x_wire x SideA = [].
Proof.
  eexists. eexists. split; [vm_compute; reflexivity|]. split; [left; vm_compute; tauto|]. split; vm_compute; reflexivity.
Qed.
Print Assumptions C75_only_what_fits.
Print Assumptions C75_total_is_bounded.
Print Assumptions C75_full_is_for_ever.
