(** Proofs about endless runs of a client and a server joined by byte streams (C87). *)
From Verif Require Import Base BaseFacts Reader Codec Spec Ids Payload Builder Emit Ipc SpecIpc IpcFacts IpcChanFacts IpcClaims IpcFlow Pair SpecPair PairFacts PairServer PairEnd SpecLive PairLive PairLiveMore BytePair SpecBytes BytePairFacts BoundLive SpecByteLive ByteLive RoomLive.
From Coq Require Import ZifyBool ZifyNat ZifyN.

Section ServedBytes.
  Context (cap : nat) (cf : side -> config) (ps : side -> list prog) (ctr : side -> N) (f : nat -> option xlabel) (st : nat -> xpair) (ob : nat -> list (side * obs)).
  Hypothesis EX : endless_bytes cap cf ps ctr f st ob.
  Hypothesis CAP : (0 < cap)%nat.
  Hypothesis AD : forall n, all_deliverable cf (st n) (so_far ob n).
  Hypothesis CK : xclocks f.
  Hypothesis FS : eager_xtasks cap cf f st.
  Hypothesis FX : fair_xloops cap cf f st.
  Hypothesis RO : only_replies (cf SideB).
  Hypothesis PB : ps SideB = [].
  Hypothesis DR : drained ob SideA.
  Hypothesis NA : forall n, ~ In (OAborted 0) (at_side SideA (so_far ob n)).
  Local Notation ef := (ef cf f st).
  Local Notation es := (es cf ps ctr f st).
  Local Notation many := (PairLive.many es).
  Lemma sb_endless : endless cf ps ctr ef es ob. Proof. exact (ev_endless cap cf ps ctr f st ob EX AD). Qed.
  Lemma sb_clocks : clocks ef. Proof. exact (ev_clocks cf f st CK). Qed.
  Lemma sb_loops : fair_loops cf ef es. Proof. exact (ev_loops cap cf ps ctr f st ob EX AD FX). Qed.
  Lemma sb_many n : many n -> ~ few_events (x_ep (st n) SideA).
  Proof. unfold PairLive.many. rewrite (ev_ep cap cf ps ctr f st ob EX AD). auto. Qed.
  Let NAB sd n : ~ In (OAborted 0) (at_side sd (so_far ob n)) := never_aborted cf ps ctr ef es ob sb_endless sb_clocks RO PB NA sd n.
  Let PLC sd n c e : lp (p_ep (es n) sd) 0 = Some (LSend c e) -> within many n (fun k => placing ef sd k /\ lp (p_ep (es k) sd) 0 = Some (LSend c e)) :=
    all_places cf ps ctr ef es ob sb_endless sb_clocks sb_loops RO PB DR NA (others_turns cap cf ps ctr f st ob EX AD FS many SideA) sd n c e.
  Lemma sb_bytes_read sd n : x_wire (st n) sd <> [] -> within many n (fun k => f k = Some (XRead sd)).
  Proof. exact (bytes_read cap cf ps ctr f st ob EX AD FX CK CAP many NAB PLC sd n). Qed.
  Lemma sb_sends_done sd n i ctx e pu : tst (x_ep (st n) sd) i = Some (TSend ctx e pu) -> within many n (fun m => In (OSent i ctx e) (at_side sd (so_far ob m))).
  Proof. exact (sends_done cap cf ps ctr f st ob EX AD FX CK FS CAP many NAB PLC sd n i ctx e pu). Qed.
  Lemma sb_turns sd : turns cf ef es many sd.
  Proof. exact (ev_turns cap cf ps ctr f st ob EX AD FX CK FS CAP many NAB PLC sd). Qed.
End ServedBytes.
