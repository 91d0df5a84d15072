(** Proofs about endless runs over connections of bounded capacity: room comes again and again, so all tasks have their turns. *)
From Verif Require Import Base BaseFacts BuilderFacts Codec Spec Ids IdsFacts Payload Builder Emit EmitFacts Ipc SpecIpc IpcFacts IpcChanFacts IpcUsers IpcLoops IpcTasks IpcIds IpcReplies IpcStreams IpcClaims IpcMore IpcFlow IpcLimits IpcRemoved IpcFate Pair SpecPair PairFacts PairServer PairEnd PairRest SpecLive PairLive Bounded SpecBounded BoundedFacts SpecOrder OrderFacts SpecPeers PeersFacts PeersRest SpecNested PeersLive BytePairFacts.
From Coq Require Import ZifyBool ZifyNat ZifyN.

Lemma wire_one cf s l s' os : step cf s l = Some (s', os) -> (length (flat_map wire_of os) <= 1)%nat.
Proof.
  intros H. assert (L : (length (flat_map wire_of os) <= length (ended os))%nat).
  { clear H. induction os as [|o os IH]; [cbn; lia|]. unfold ended in *. cbn [flat_map]. rewrite !app_length. destruct o; cbn [wire_of ended_by length app]; lia. }
  destruct (step_ended _ _ _ _ _ H) as [E|(i & a & ->)]; [rewrite E in L; cbn in L; lia|]. cbn [step] in H. destruct (tst s i) as [x|] eqn:T.
  - destruct (task_step_fid _ _ _ _ _ _ _ H T) as (x' & _ & [(E & _)|[(E & _)|(ctx & e & pu & _ & E & _)]]); rewrite E in L; cbn in L; lia.
  - unfold tst in T. unfold task_step in H. destruct (nth_error (e_tasks s) i); discriminate.
Qed.
Definition sending (x : option tstate) : Prop := exists ctx e pu, x = Some (TSend ctx e pu).
Lemma sending_dec x : sending x \/ ~ sending x.
Proof. destruct x as [[]|]; try (right; intros (? & ? & ? & Q); discriminate Q). left. unfold sending. eauto. Qed.

Section Held.
  Context (cf : side -> config) (ps : side -> list prog) (ctr : side -> N) (f : nat -> option plabel) (st : nat -> pair) (ob : nat -> list (side * obs)).
  Hypothesis EN : endless cf ps ctr f st ob.
  Hypothesis CK : clocks f.
  Hypothesis FL : fair_loops cf f st.
  Hypothesis PH : forall sd, plain_handlers (cf sd).
  Hypothesis PP : forall sd, Forall (plain_code None) (ps sd).
  Local Notation at' sd n := (at_side sd (so_far ob n)).
  Local Notation eps sd n := (p_ep (st n) sd).
  Local Notation many := (too_many st).
  (* tasks that do not send have their turns *)
  Hypothesis FW : forall sd i n, exists m, (n <= m)%nat /\ ((exists a, f m = Some (PDo sd (LTask i a))) \/ stuck (cf sd) (eps sd m) i \/ many m \/ sending (tst (eps sd m) i)).

  (** nothing is queued for a request that has not been sent *)
  Lemma unsent_clear sd i m c : sending (tst (eps sd m) i) -> forall s0, tst (eps sd m) i = Some s0 -> tchan s0 = Some c -> clear ob sd c m \/ many m.
  Proof.
    intros (ctx & e & pu & T) s0 T' C. rewrite T in T'. injection T' as <-.
    destruct (N.le_gt_cases (e_ctr (eps sd m)) (2 ^ 32)) as [FE|FE]; [left|right; exists sd; unfold few_events; lia]. right.
    destruct (side_run _ _ _ _ _ _ EN CK sd m) as (ls & RA & GA & _). destruct (prefix _ _ _ _ _ _ EN CK m) as (lp' & HR & _).
    destruct (queued c (at' sd m)) as [|q l] eqn:Q; [cbn; lia|exfalso]. assert (QI : In q (queued c (at' sd m))) by (rewrite Q; left; reflexivity).
    destruct (queued_ref _ _ _ _ _ _ _ _ RA _ _ QI) as (i' & x & L1 & L2). pose proof (inv_users _ _ _ _ _ _ _ _ RA) as U. destruct (u_task _ U _ _ _ T C) as (ch & Hc & TI & _).
    pose proof (inv_chan _ _ _ _ _ _ _ _ RA c) as CT. rewrite Hc in CT. destruct CT as (_ & _ & CT & _). apply CT in L1. subst x.
    assert (F : fid (TSend ctx e pu) = Some (ch_id ch)) by (destruct pu; try discriminate C; exact TI).
    destruct (queued_in _ _ _ _ _ _ _ _ _ _ RA QI) as (n' & R).
    exact (j_once _ _ (inv_idents _ _ _ _ _ _ _ _ RA GA FE) _ _ _ T F (asked_first cf ps ctr PH PP _ _ _ sd n' q _ HR R L2)).
  Qed.
  Lemma held_reads sd n : p_in (st n) sd <> [] -> within many n (fun k => f k = Some (PDeliver sd)).
  Proof.
    apply (reads_x cf ps ctr f st ob EN CK many sd (fun i m => sending (tst (eps sd m) i)) (FW sd) FL (always_drained _ _ _ _ _ _ EN CK PH PP sd) (not_aborted _ _ _ _ _ _ EN CK PH PP sd)).
    intros i m s0 c X. apply unsent_clear. exact X.
  Qed.
  Lemma held_places sd n c e : lp (eps sd n) 0 = Some (LSend c e) -> within many n (fun k => placing f sd k /\ lp (eps sd k) 0 = Some (LSend c e)).
  Proof.
    apply (places_x cf ps ctr f st ob EN CK many sd (fun i m => sending (tst (eps sd m) i)) (FW sd) FL (always_drained _ _ _ _ _ _ EN CK PH PP sd) (not_aborted _ _ _ _ _ _ EN CK PH PP sd)).
    intros i m s0 c' X. apply unsent_clear. exact X.
  Qed.
End Held.

Section Room.
  Context (cap : nat) (cf : side -> config) (ps : side -> list prog) (ctr : side -> N) (f : nat -> option plabel) (st : nat -> pair) (ob : nat -> list (side * obs)).
  Hypothesis EB : endless_held cap cf ps ctr f st ob.
  Hypothesis CAP : (0 < cap)%nat.
  Hypothesis CK : clocks f.
  Hypothesis FS : eager_tasks cap cf f st.
  Hypothesis FL : fair_loops cf f st.
  Hypothesis PH : forall sd, plain_handlers (cf sd).
  Hypothesis PP : forall sd, Forall (plain_code None) (ps sd).
  Local Notation eps sd n := (p_ep (st n) sd).
  Local Notation many := (too_many st).
  Lemma held_endless : endless cf ps ctr f st ob.
  Proof. destruct EB as [E0 E]. split; [exact E0|]. intros n. specialize (E n). unfold happens. destruct (f n) as [l|]; [eapply bstep_pstep; exact E|exact E]. Qed.
  Lemma within_cap sd n : (length (p_in (st n) sd) <= cap)%nat.
  Proof using EB CAP.
    clear PH PP. revert sd. induction n as [|n IH]; intros sd; destruct EB as [E0 E]; [rewrite E0; cbn; lia|]. specialize (E n). destruct (f n) as [l|]; [|rewrite (proj1 E); apply IH].
    unfold bstep in E. destruct (pstep cf (st n) l) as [[p' os]|] eqn:PS; [|discriminate E]. destruct l as [sd' l|sd']; cbn [pstep] in PS.
    - destruct (own_label l); [|discriminate PS]. destruct (step (cf sd') (eps sd' n) l) as [[s' os']|] eqn:HS; [|discriminate PS]. destruct (existsb is_cut os'); [discriminate PS|]. injection PS as <- <-.
      destruct (existsb is_sent (map (fun o => (sd', o)) os')) eqn:Es; cbn [andb] in E.
      + destruct (Nat.ltb_spec (length (p_in (st n) (other sd'))) cap) as [L|L]; [|discriminate E]. cbn in E. injection E as E _. rewrite <- E. cbn [p_in]. destruct (two_sides (other sd') sd) as [-> | ->].
        * rewrite upd_eq, app_length. pose proof (wire_one _ _ _ _ _ HS). lia.
        * rewrite upd_ne; [apply IH|]. destruct sd'; discriminate.
      + injection E as E _. rewrite <- E. cbn [p_in]. rewrite (unsent_wire sd' os' Es), app_nil_r. destruct (two_sides (other sd') sd) as [-> | ->]; [rewrite upd_eq; apply IH|]. rewrite upd_ne; [apply IH|]. destruct sd'; discriminate.
    - destruct (p_in (st n) sd') as [|e w] eqn:Ei; [discriminate PS|]. destruct (step (cf sd') (eps sd' n) (LRecv 0 e)) as [[s' os']|]; [|discriminate PS]. injection PS as <- <-. injection E as E _. rewrite <- E. cbn [p_in].
      destruct (two_sides sd' sd) as [-> | ->]; [rewrite upd_eq; specialize (IH sd'); rewrite Ei in IH; cbn in IH; lia|]. rewrite upd_ne; [apply IH|]. destruct sd'; discriminate.
  Qed.
  Lemma halted_stuck sd n i : halted cap cf (st n) sd i -> ~ sending (tst (eps sd n) i) -> stuck (cf sd) (eps sd n) i.
  Proof.
    intros H N t v. specialize (H t v). destruct (step (cf sd) (eps sd n) (LTask i (AStep t v))) as [[s' os]|] eqn:HS; [exfalso|reflexivity].
    unfold bstep, pstep in H. cbn [own_label] in H. rewrite HS, (step_uncut _ _ _ _ _ _ _ HS) in H. destruct (existsb is_sent (map (fun o => (sd, o)) os)) eqn:Es; [|discriminate H].
    apply existsb_exists in Es. destruct Es as (q & Q1 & Q2). apply in_map_iff in Q1. destruct Q1 as (o & <- & Q1). unfold is_sent in Q2. cbn [snd] in Q2. destruct o; try discriminate Q2.
    assert (Q : In (ev_id e) (ended os)) by (eapply sent_ended; eauto). cbn [step] in HS.
    destruct (tst (eps sd n) i) as [x|] eqn:T; [|unfold tst in T; unfold task_step in HS; destruct (nth_error (e_tasks (eps sd n)) i); discriminate].
    destruct (task_step_fid _ _ _ _ _ _ _ HS T) as (x' & _ & [(D & _)|[(D & _)|(ctx1 & e1 & pu1 & D & _)]]); [rewrite D in Q; destruct Q..|]. apply N. unfold sending. subst x. eauto.
  Qed.
  Lemma halted_full sd n i : halted cap cf (st n) sd i -> sending (tst (eps sd n) i) -> (cap <= length (p_in (st n) (other sd)))%nat.
  Proof.
    intros H (ctx & e & pu & T). specialize (H (mk_instant 0 0) 0). destruct (send_step (cf sd) _ _ _ _ _ (mk_instant 0 0) 0 T) as (s' & os & HS & _ & _ & NC).
    unfold bstep, pstep in H. cbn [own_label] in H. rewrite HS, NC in H. destruct (Nat.ltb_spec (length (p_in (st n) (other sd))) cap) as [L|L]; [|exact L]. rewrite andb_false_r in H. discriminate H.
  Qed.
  (** if what is sent to the other end is read again and again, all tasks have their turns *)
  Lemma room_turns (G : nat -> Prop) sd : (forall n, p_in (st n) (other sd) <> [] -> within G n (fun k => f k = Some (PDeliver (other sd)))) -> turns cf f st G sd.
  Proof using EB CAP FS.
    clear PH PP. intros RD i n. destruct (FS sd i n) as (m & L & [A|A]); [exists m; auto|]. destruct (sending_dec (tst (eps sd m) i)) as [SM|SM]; [|exists m; split; [exact L|]; right; left; apply halted_stuck; auto].
    assert (R : within G m (fun k => f k = Some (PDeliver (other sd)))).
    { apply RD. intros Z. pose proof (halted_full sd m i (A m (le_n m)) SM) as Z'. rewrite Z in Z'. cbn in Z'. lia. }
    destruct R as (k & Lk & [R|R]); [exists k; split; [lia|auto]|].
    exists (S k). split; [lia|]. right. left. apply halted_stuck; [apply A; lia|]. intros SK. pose proof (halted_full sd (S k) i (A (S k) ltac:(lia)) SK) as Z.
    pose proof (within_cap (other sd) k) as W. destruct EB as [_ E]. specialize (E k). rewrite R in E. unfold bstep in E. cbn [pstep] in E.
    destruct (p_in (st k) (other sd)) as [|e w] eqn:Ei; [discriminate E|]. destruct (step (cf (other sd)) (eps (other sd) k) (LRecv 0 e)) as [[s' os']|]; [|discriminate E]. injection E as E _. rewrite <- E in Z. cbn [p_in] in Z. rewrite upd_eq in Z. cbn in W. lia.
  Qed.
  (** tasks that do not send have their turns anyway *)
  Lemma senders_excused (G : nat -> Prop) sd i n : exists m, (n <= m)%nat /\ ((exists a, f m = Some (PDo sd (LTask i a))) \/ stuck (cf sd) (eps sd m) i \/ G m \/ sending (tst (eps sd m) i)).
  Proof using FS.
    clear PH PP. destruct (FS sd i n) as (m & L & [B|B]); [exists m; auto|]. exists m. split; [exact L|]. right. destruct (sending_dec (tst (eps sd m) i)) as [S'|S']; [auto|]. left. apply halted_stuck; auto.
  Qed.
  Theorem all_have_turns sd : turns cf f st many sd.
  Proof. apply room_turns. apply (held_reads cf ps ctr f st ob held_endless CK FL PH PP). intros sd' i' n'. apply senders_excused. Qed.
End Room.
