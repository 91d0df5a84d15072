(** Proofs about endless runs of a client and a server over connections of bounded capacity (C86). *)
From Verif Require Import Base BaseFacts BuilderFacts Codec Spec Ids IdsFacts Payload Builder Emit EmitFacts Ipc SpecIpc IpcFacts IpcChanFacts IpcUsers IpcLoops IpcTasks IpcIds IpcReplies IpcStreams IpcClaims IpcMore IpcFlow IpcLimits IpcRemoved IpcFate Pair SpecPair PairFacts PairServer PairEnd PairRest SpecLive PairLive PairLiveMore Bounded SpecBounded SpecNested BoundLive.
From Coq Require Import ZifyBool ZifyNat ZifyN.

Section Served.
  Context (cf : side -> config) (ps : side -> list prog) (ctr : side -> N) (f : nat -> option plabel) (st : nat -> pair) (ob : nat -> list (side * obs)).
  Hypothesis EN : endless cf ps ctr f st ob.
  Hypothesis CK : clocks f.
  Hypothesis FL : fair_loops cf f st.
  Hypothesis RO : only_replies (cf SideB).
  Hypothesis PB : ps SideB = [].
  Hypothesis DR : drained ob SideA.
  Hypothesis NA : forall n, ~ In (OAborted 0) (at_side SideA (so_far ob n)).
  Local Notation at' sd n := (at_side sd (so_far ob n)).
  Local Notation eps sd n := (p_ep (st n) sd).
  Local Notation many := (many st).
  (** nothing is queued for a request the client has not sent *)
  Lemma unsent_empty i m c : sending (tst (eps SideA m) i) -> forall s0, tst (eps SideA m) i = Some s0 -> tchan s0 = Some c -> clear ob SideA c m \/ many m.
  Proof.
    intros (ctx & e & pu & T) s0 T' C. rewrite T in T'. injection T' as <-.
    destruct (N.le_gt_cases (e_ctr (eps SideA m)) (2 ^ 32)) as [FE|FE]; [left|right; unfold PairLive.many, few_events; lia]. right.
    destruct (prefix _ _ _ _ _ _ EN CK m) as (ls & HR & GC). destruct (client _ _ _ _ _ _ HR) as (la & RA & GA & _ & _ & NCut).
    destruct (queued c (at' SideA m)) as [|q l] eqn:Q; [cbn; lia|exfalso]. assert (QI : In q (queued c (at' SideA m))) by (rewrite Q; left; reflexivity).
    destruct (queued_ref _ _ _ _ _ _ _ _ RA _ _ QI) as (i' & x & L1 & L2). pose proof (inv_users _ _ _ _ _ _ _ _ RA) as U. destruct (u_task _ U _ _ _ T C) as (ch & Hc & TI & _).
    pose proof (inv_chan _ _ _ _ _ _ _ _ RA c) as CT. rewrite Hc in CT. destruct CT as (_ & _ & CT & _). apply CT in L1. subst x.
    assert (F : fid (TSend ctx e pu) = Some (ch_id ch)) by (destruct pu; try discriminate C; exact TI).
    destruct (queued_in _ _ _ _ _ _ _ _ _ _ RA QI) as (n' & R).
    assert (W : In q (wired (at' SideB m))) by (rewrite <- (to_client _ _ _ _ _ _ HR); apply in_or_app; left; apply in_got; eauto).
    apply in_wired in W. destruct W as (j & cx & a & W1 & ->). rewrite drop_ref in L2.
    destruct (asked_before _ _ _ RO PB _ _ _ HR _ _ _ _ W1 L2) as (sc & q & i2 & c0 & q0 & _ & _ & A3 & A4 & A5).
    apply (j_once _ _ (inv_idents _ _ _ _ _ _ _ _ RA (GA GC) FE) _ _ _ T F). rewrite <- A3, A5, drop_id. eapply sent_ended; eauto.
  Qed.
  Hypothesis FW : forall i n, exists m, (n <= m)%nat /\ ((exists a, f m = Some (PDo SideA (LTask i a))) \/ stuck (cf SideA) (eps SideA m) i \/ many m \/ sending (tst (eps SideA m) i)).
  Lemma client_takes n : p_in (st n) SideA <> [] -> within many n (fun k => f k = Some (PDeliver SideA)).
  Proof.
    apply (reads_x cf ps ctr f st ob EN CK many SideA (fun i m => sending (tst (eps SideA m) i)) FW FL DR NA).
    intros i m s0 c X. apply unsent_empty. exact X.
  Qed.
  Lemma client_places n c e : lp (eps SideA n) 0 = Some (LSend c e) -> within many n (fun k => placing f SideA k /\ lp (eps SideA k) 0 = Some (LSend c e)).
  Proof.
    apply (places_x cf ps ctr f st ob EN CK many SideA (fun i m => sending (tst (eps SideA m) i)) FW FL DR NA).
    intros i m s0 c' X. apply unsent_empty. exact X.
  Qed.
  Lemma server_loop n : lp (eps SideB n) 0 = Some LRun.
  Proof. destruct (server_run _ _ _ _ _ _ EN CK PB n) as (lb & RB & _ & NC & _). unfold lp. rewrite (v_conns _ _ _ (inv_server _ _ _ RO _ _ _ RB NC)). reflexivity. Qed.
  Lemma never_aborted sd n : ~ In (OAborted 0) (at' sd n).
  Proof.
    destruct sd; [apply NA|]. intros Q. destruct (server_run _ _ _ _ _ _ EN CK PB n) as (lb & RB & _). pose proof (aborted_done _ _ _ _ _ _ _ _ 0 RB Q) as L. rewrite server_loop in L. discriminate L.
  Qed.
  Lemma all_places sd n c e : lp (eps sd n) 0 = Some (LSend c e) -> within many n (fun k => placing f sd k /\ lp (eps sd k) 0 = Some (LSend c e)).
  Proof. destruct sd; [apply client_places|]. rewrite server_loop. discriminate. Qed.
End Served.
Section Roomy.
  Context (cap : nat) (cf : side -> config) (ps : side -> list prog) (ctr : side -> N) (f : nat -> option plabel) (st : nat -> pair) (ob : nat -> list (side * obs)).
  Hypothesis EB : endless_held cap cf ps ctr f st ob.
  Hypothesis CAP : (0 < cap)%nat.
  Hypothesis CK : clocks f.
  Hypothesis FS : eager_tasks cap cf f st.
  Hypothesis FL : fair_loops cf f st.
  Hypothesis RO : only_replies (cf SideB).
  Hypothesis PB : ps SideB = [].
  Hypothesis DR : drained ob SideA.
  Hypothesis NA : forall n, ~ In (OAborted 0) (at_side SideA (so_far ob n)).
  Local Notation many := (many st).
  Lemma both_read sd n : p_in (st n) sd <> [] -> within many n (fun k => f k = Some (PDeliver sd)).
  Proof.
    pose proof (held_endless cap cf ps ctr f st ob EB) as EN. destruct sd.
    - apply (client_takes cf ps ctr f st ob EN CK FL RO PB DR NA). intros i n'. apply (senders_excused cap cf f st FS).
    - apply (server_reads cf ps ctr f st ob many EN CK FL RO PB).
  Qed.
  Lemma both_turn sd : turns cf f st many sd.
  Proof. apply (room_turns cap cf ps ctr f st ob EB CAP FS). intros n. apply both_read. Qed.
  (** every send completes *)
  Lemma both_send sd n i ctx e pu : tst (p_ep (st n) sd) i = Some (TSend ctx e pu) -> within many n (fun k => In (OSent i ctx e) (at_side sd (so_far ob k))).
  Proof. apply (sends_t cf ps ctr f st ob (held_endless cap cf ps ctr f st ob EB) many sd (both_turn sd)). Qed.
End Roomy.
