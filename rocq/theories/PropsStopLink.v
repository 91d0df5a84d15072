(** C75 over an encrypted connection. *)
From Coq Require Import Lia Strings.String.
From Verif Require Import Base BaseFacts Reader Codec Spec Ids Payload Builder Emit Crypt SpecCrypt Wire Ipc SpecIpc IpcFlow IpcChanFacts Pair SpecPair PairFacts BytePair SpecBytes SpecOrder SpecStop ByteStop
  CryptClaims Link SpecLink LinkFacts LinkSim LinkStop PropsDispatch PropsPair PropsBytes PropsEvent PropsCrypt PropsLink PropsStop.
Open Scope nat_scope.

(** The loop of [sd] has ended while the connection stays open: what is on the way to [sd] only grows, and never beyond [cap]. *)
Theorem C75_encrypted_only_what_fits : forall enc dec pub dh st cap cf ps ctr ls k tr ls2 k' tr2 sd, connected enc dec pub dh st -> kruns enc dec cap cf ps ctr st ls k tr -> loop_ended tr sd ->
  krun enc dec cap cf k ls2 = Some (k', tr2) -> all_sendable cf k' (tr ++ tr2) ->
  exists more, k_wire k' sd = k_wire k sd ++ more /\ (more = [] \/ List.length (k_wire k' sd) <= cap).
Proof.
  intros enc dec pub dh st cap cf ps ctr ls k tr ls2 k' tr2 sd CN R D H AD. destruct (connected_streams _ _ _ _ _ CN) as (GC & key & FR & FW).
  assert (AD0 := sendable_run enc dec cap cf _ _ _ _ _ H AD). destruct (ksame enc dec GC key cap cf ps ctr st _ _ _ FR FW R AD0) as (pls & p & PR & _ & S). destruct (acct_of enc dec GC key cf ps ctr st FR FW k p (other sd) S) as (n & A).
  destruct (link_stopped enc dec GC key cap cf ps ctr st FR FW sd ls2 _ _ _ _ _ _ R D H AD A) as (n' & b & _ & _ & C & G & _). exists b. auto.
Qed.
Print Assumptions C75_encrypted_only_what_fits.
(** If the other end is not in the middle of an event, the packages of all the events it can still send fit in the room there is. *)
Theorem C75_encrypted_total_is_bounded : forall enc dec pub dh st cap cf ps ctr ls k tr ls2 k' tr2 sd, connected enc dec pub dh st -> kruns enc dec cap cf ps ctr st ls k tr -> loop_ended tr sd ->
  krun enc dec cap cf k ls2 = Some (k', tr2) -> all_sendable cf k' (tr ++ tr2) ->
  k_hold k (other sd) = None -> List.length (k_wire k sd) <= cap ->
  List.length (k_wire k sd) + list_sum (map package_len (sent_events (at_side (other sd) tr2))) <= cap.
Proof.
  intros enc dec pub dh st cap cf ps ctr ls k tr ls2 k' tr2 sd CN R D H AD N L. destruct (connected_streams _ _ _ _ _ CN) as (GC & key & FR & FW).
  assert (A : acct key k (other sd) 0) by (unfold acct; rewrite N; reflexivity).
  destruct (link_stopped enc dec GC key cap cf ps ctr st FR FW sd ls2 _ _ _ _ _ _ R D H AD A) as (n' & b & _ & B & C & G & _). unfold sum_len in B.
  apply (f_equal (@List.length _)) in C. rewrite app_length in C. destruct G as [->|G]; cbn in B; lia.
Qed.
Print Assumptions C75_encrypted_total_is_bounded.
(** Once the connection is full, every task of the other end that is sending is at that for good. *)
Theorem C75_encrypted_full_is_for_ever : forall enc dec pub dh st cap cf ps ctr ls k tr ls2 k' tr2 sd, connected enc dec pub dh st -> kruns enc dec cap cf ps ctr st ls k tr -> loop_ended tr sd ->
  cap <= List.length (k_wire k sd) -> krun enc dec cap cf k ls2 = Some (k', tr2) -> all_sendable cf k' (tr ++ tr2) ->
  sent_events (at_side (other sd) tr2) = [] /\ k_wire k' sd = k_wire k sd /\ forall i e, is_sending (k_ep k (other sd)) i e -> is_sending (k_ep k' (other sd)) i e.
Proof.
  intros enc dec pub dh st cap cf ps ctr ls k tr ls2 k' tr2 sd CN R D F H AD. destruct (connected_streams _ _ _ _ _ CN) as (GC & key & FR & FW).
  destruct (link_full enc dec GC key cap cf ps ctr st FR FW sd ls2 _ _ _ _ _ R D F H AD) as (A & B & C). split; [exact A|]. split; [exact B|].
  intros i e (ctx & pu & T). exists ctx, pu. apply C. exact T.
Qed.
Print Assumptions C75_encrypted_full_is_for_ever.

(** A client sends an event and stops; 40 bytes fit. The server's handler answers and never gets rid of its answer. *)
Definition cf75e : side -> config := fun _ => mk_config [(str "ping", ping)] [] (fun _ => []) env67.
Definition tries75e : list klabel := [KDo SideA (LTask 0 go); KWrite SideA 0 7; KWrite SideA 0 1; KDo SideA (LAbort 0); KRead SideB 5; KRead SideB 1; KDo SideB (LTask 0 go); KWrite SideB 0 7; KWrite SideB 0 1].
Fixpoint eagerly75e (n : nat) (k : linked) : list klabel :=
  match n with
  | O => []
  | S n' => match find (fun l => match kstep toy_enc toy_dec 40 cf75e k l with Some _ => true | None => false end) tries75e with
            | Some l => match kstep toy_enc toy_dec 40 cf75e k l with Some (k', _) => l :: eagerly75e n' k' | None => [] end
            | None => []
            end
  end.
Definition run75e : list klabel := Eval vm_compute in eagerly75e 400 (linked_new cf75e ps75 ctr2 st71).
Definition start75e : list klabel := Eval vm_compute in (fix upto l := match l with [] => [] | KDo SideA (LAbort 0) :: _ => [KDo SideA (LAbort 0)] | a :: l' => a :: upto l' end) run75e.
Lemma all_sendable_yes' cf k tr : (forall sd, cf_env (cf sd) = env67) -> forallb (fun q => match snd q with OSent _ _ e => sendable_b e | _ => true end) tr = true ->
  (forall sd, forallb (fun tk => match tk_st tk with TSend _ e _ => sendable_b e | _ => true end) (e_tasks (k_ep k sd)) = true) -> all_sendable cf k tr.
Proof.
  intros C H O sd e [(i & ctx & Q)|(i & ctx & pu & Q)]; rewrite C; apply sendable_yes.
  - unfold at_side in Q. apply in_flat_map in Q. destruct Q as ((sd' & o) & Q1 & Q2).
    cbn [fst snd] in Q2. destruct (side_eqb sd' sd); [|destruct Q2]. destruct Q2 as [->|[]]. rewrite forallb_forall in H. exact (H _ Q1).
  - specialize (O sd). rewrite forallb_forall in O. destruct (nth_error (e_tasks (k_ep k sd)) i) as [tk|] eqn:E; [|discriminate Q]. apply nth_error_In in E. specialize (O _ E). cbn in Q. injection Q as Q. rewrite Q in O. exact O.
Qed.
Example C75_encrypted_case : exists k tr, connected toy_enc toy_dec toy_pub toy_dh st71 /\ kruns toy_enc toy_dec 40 cf75e ps75 ctr2 st71 run75e k tr /\ loop_ended tr SideA /\ 40 <= List.length (k_wire k SideA)
  /\ all_sendable cf75e k tr /\ sends0 (e_tasks (k_ep k SideB)) = true /\ sent_events (at_side SideB tr) = [].
Proof.
  exists (fst (ended cf75e ps75 run75e)), (snd (ended cf75e ps75 run75e)). split; [exact st71_connected|]. split; [apply ended_runs; [vm_compute|]; reflexivity|]. split; [left; vm_compute; tauto|]. split; [vm_compute; lia|].
  split; [apply all_sendable_yes'; [intros [|]; reflexivity|vm_compute; reflexivity|intros [|]; vm_compute; reflexivity]|]. split; vm_compute; reflexivity.
Qed.
(** right after it stopped there is room for 40 bytes and the server is not writing *)
Example C75_encrypted_start_case : exists k tr, kruns toy_enc toy_dec 40 cf75e ps75 ctr2 st71 start75e k tr /\ loop_ended tr SideA /\ k_hold k SideB = None /\ k_wire k SideA = [] /\ all_sendable cf75e k tr.
Proof.
  exists (fst (ended cf75e ps75 start75e)), (snd (ended cf75e ps75 start75e)). split; [apply ended_runs; [vm_compute|]; reflexivity|]. split; [left; vm_compute; tauto|]. split; [vm_compute; reflexivity|]. split; [vm_compute; reflexivity|].
  apply all_sendable_yes'; [intros [|]; reflexivity|vm_compute; reflexivity|intros [|]; vm_compute; reflexivity].
Qed.
