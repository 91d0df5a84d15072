(** Proofs about endless runs of two endpoints joined by byte streams: they are endless runs on events, and fair. *)
From Verif Require Import Base BaseFacts BuilderFacts Reader Codec Spec Ids IdsFacts Payload Builder Emit EmitFacts Ipc SpecIpc IpcFacts IpcChanFacts IpcUsers IpcLoops IpcTasks IpcIds IpcReplies IpcStreams IpcClaims IpcMore IpcFlow IpcLimits IpcRemoved IpcFate
  Pair SpecPair PairFacts PairServer PairEnd PairRest SpecLive PairLive Bounded SpecBounded BoundedFacts SpecOrder OrderFacts SpecPeers PeersFacts PeersRest SpecNested PeersLive BytePair SpecBytes BytePairFacts BoundLive ByteRest SpecByteLive.
From Coq Require Import ZifyBool ZifyNat ZifyN.

(** ** What a step changes *)
Ltac xcases H := match type of H with xstep _ _ _ ?l = Some _ => destruct l as [sd' l|sd' j|sd'] end; cbn [xstep] in H; cbv zeta in H;
  repeat match type of H with context[match ?c with _ => _ end] => destruct c eqn:?; try discriminate H end;
  injection H as <- <-.
Lemma out_kept cap cf x l x' os sd : xstep cap cf x l = Some (x', os) -> (forall i, l <> XWrite sd i) -> x_out x' sd = x_out x sd.
Proof.
  intros H N. xcases H; cbn [x_out]; try reflexivity; destruct (two_sides sd' sd) as [-> | ->]; try (destruct (N j eq_refl)); rewrite ?upd_ne by apply other_ne; reflexivity.
Qed.
Lemma buf_kept cap cf x l x' os sd : xstep cap cf x l = Some (x', os) -> l <> XRead sd -> x_buf x' sd = x_buf x sd.
Proof.
  intros H N. xcases H; cbn [x_buf]; try reflexivity; destruct (two_sides sd' sd) as [-> | ->]; try (destruct (N eq_refl)); rewrite ?upd_ne by apply other_ne; reflexivity.
Qed.
Lemma wire_more cap cf x l x' os sd : xstep cap cf x l = Some (x', os) -> l <> XRead sd -> exists w, x_wire x' sd = x_wire x sd ++ w.
Proof.
  intros H N. xcases H; cbn [x_wire]; try (exists []; rewrite app_nil_r; reflexivity).
  1,2: destruct (two_sides (other sd') sd) as [-> | ->]; [rewrite upd_eq; eauto|exists []; rewrite app_nil_r, upd_ne; [reflexivity|destruct sd'; discriminate]].
  all: destruct (two_sides sd' sd) as [-> | ->]; [destruct (N eq_refl)|]; exists []; rewrite app_nil_r, upd_ne by apply other_ne; reflexivity.
Qed.
Lemma wire_read cap cf x x' os sd : xstep cap cf x (XRead sd) = Some (x', os) -> exists b, x_wire x sd = b :: x_wire x' sd /\ (xlab cf x (XRead sd) = None -> x_buf x' sd = x_buf x sd ++ [b]).
Proof.
  intros H. cbn [xstep xlab] in *. cbv zeta in H. destruct (reading _); [|discriminate H]. destruct (x_wire x sd) as [|b w] eqn:W; [discriminate H|]. exists b.
  destruct (run_bytes _ _ _) as [[e|er|cr] rest|];
  repeat match type of H with context[match ?c with _ => _ end] => destruct c eqn:?; try discriminate H end; injection H as <- <-; cbn [x_wire x_buf]; rewrite !upd_eq; split; try reflexivity; discriminate.
Qed.
Lemma wire_cap cap cf x l x' os : xstep cap cf x l = Some (x', os) -> (forall sd, (length (x_wire x sd) <= cap)%nat) -> forall sd, (length (x_wire x' sd) <= cap)%nat.
Proof.
  intros H L sd. xcases H; cbn [x_wire]; auto.
  1,2: destruct (two_sides (other sd') sd) as [-> | ->]; [rewrite upd_eq, app_length; cbn [length]; match goal with E : Nat.ltb _ _ = true |- _ => apply Nat.ltb_lt in E; lia end|rewrite upd_ne; [auto|destruct sd'; discriminate]].
  all: destruct (two_sides sd' sd) as [-> | ->]; [rewrite upd_eq; specialize (L sd'); match goal with E : x_wire _ _ = _ :: _ |- _ => rewrite E in L end; cbn in L; lia|rewrite upd_ne by apply other_ne; auto].
Qed.
(** writing a byte: the last one, or there is one less to write *)
Lemma byte_written cap cf x sd i x' os : xstep cap cf x (XWrite sd i) = Some (x', os) -> exists ctx e pu rest b, tst (x_ep x sd) i = Some (TSend ctx e pu) /\ to_write (x_out x sd) i e = Some (b :: rest)
  /\ ((rest = [] /\ xlab cf x (XWrite sd i) = Some (PDo sd (LTask i completes)) /\ x_out x' sd = None) \/ (rest <> [] /\ x_out x' sd = Some (i, rest))).
Proof.
  intros H. cbn [xstep xlab] in *. unfold tst. destruct (option_map tk_st (nth_error (e_tasks (x_ep x sd)) i)) as [[| |ctx e pu| | | | | | |]|] eqn:T; try discriminate H.
  destruct (Nat.ltb _ _); [|discriminate H]. destruct (to_write (x_out x sd) i e) as [[|b [|b' r]]|] eqn:TW; try discriminate H; exists ctx, e, pu; eexists _, _; (split; [reflexivity|]); (split; [exact TW|]); try rewrite TW.
  - left. destruct (step _ _ _) as [[s' os']|]; [|discriminate H]. injection H as <- _. cbn [x_out]. rewrite upd_eq. auto.
  - right. injection H as <- _. cbn [x_out]. rewrite upd_eq. split; [discriminate|reflexivity].
Qed.
Lemma no_own cap cf x sd i a ctx e pu : tst (x_ep x sd) i = Some (TSend ctx e pu) -> xstep cap cf x (XDo sd (LTask i a)) = None.
Proof.
  intros T. cbn [xstep]. destruct (own_label _); [|reflexivity]. cbn [step]. unfold task_step. unfold tst in T. destruct (nth_error (e_tasks (x_ep x sd)) i) as [tk|]; [|discriminate]. cbn in T. injection T as T. rewrite T.
  destruct a, pu; reflexivity.
Qed.
Lemma place_unsent cf s n s' os sd : step cf s (LPlace n) = Some (s', os) -> existsb is_sent (map (fun o => (sd : side, o)) os) = false.
Proof.
  intros H. destruct (existsb is_sent (map (fun o => (sd, o)) os)) eqn:Es; [exfalso|reflexivity]. apply existsb_exists in Es. destruct Es as (q & Q1 & Q2). apply in_map_iff in Q1. destruct Q1 as (o & <- & Q1).
  unfold is_sent in Q2. cbn [snd] in Q2. destruct o; try discriminate Q2. assert (Q : In (ev_id e) (ended os)) by (eapply sent_ended; eauto).
  destruct (step_ended _ _ _ _ _ H) as [E|(i' & a & E)]; [rewrite E in Q; destruct Q|discriminate E].
Qed.

Section Events.
  Context (cap : nat) (cf : side -> config) (ps : side -> list prog) (ctr : side -> N) (f : nat -> option xlabel) (st : nat -> xpair) (ob : nat -> list (side * obs)).
  Hypothesis EX : endless_bytes cap cf ps ctr f st ob.
  Hypothesis AD : forall n, all_deliverable cf (st n) (so_far ob n).

  (** ** The run on events *)
  Definition ef (n : nat) : option plabel := match f n with Some l => xlab cf (st n) l | None => None end.
  Fixpoint es (n : nat) : pair :=
    match n with
    | O => pair_new ps ctr (fun _ => [])
    | S m => match ef m with Some l => match pstep cf (es m) l with Some (p, _) => p | None => es m end | None => es m end
    end.
  Lemma advance n pls : pruns cf ps ctr (fun _ => []) pls (es n) (so_far ob n) -> sim (st n) (es n) -> happens cf ef es ob n /\ sim (st (S n)) (es (S n)).
  Proof.
    intros PR S. destruct EX as [_ E]. specialize (E n). unfold happens. cbn [es]. unfold ef. destruct (f n) as [l|].
    - pose proof (one cap cf ps ctr _ _ _ _ _ _ _ PR S (AD n) E) as O. destruct (xlab cf (st n) l) as [pl|].
      + destruct O as (p' & A & B). rewrite A. auto.
      + destruct O as [-> B]. auto.
    - destruct E as [-> ->]. auto.
  Qed.
  Lemma along n : (exists pls, pruns cf ps ctr (fun _ => []) pls (es n) (so_far ob n)) /\ sim (st n) (es n).
  Proof.
    induction n as [|n ((pls & PR) & S)].
    - destruct EX as [E0 _]. rewrite E0. split; [exists []; reflexivity|]. constructor; cbn; [reflexivity|intros sd; exists []; auto|discriminate].
    - destruct (advance n pls PR S) as [H S']. split; [|exact S']. unfold happens in H. cbn [so_far]. destruct (ef n) as [l|]; [exists (pls ++ [l]); eapply prun_more; eauto|]. destruct H as [-> ->]. rewrite app_nil_r. eauto.
  Qed.
  Lemma ev_sim n : sim (st n) (es n). Proof. apply along. Qed.
  Lemma ev_endless : endless cf ps ctr ef es ob.
  Proof. split; [reflexivity|]. intros n. destruct (along n) as ((pls & PR) & S). exact (proj1 (advance n pls PR S)). Qed.
  Lemma ev_ep n sd : p_ep (es n) sd = x_ep (st n) sd. Proof. apply (s_ep _ _ (ev_sim n)). Qed.
  Lemma ev_clocks : xclocks f -> clocks ef.
  Proof. intros CK n sd i t v H. unfold ef in H. destruct (f n) as [l|] eqn:F; [|discriminate H]. destruct (xlab_clock cf _ _ _ _ _ _ H) as [->|Q]; [exact (CK _ _ _ _ _ F)|exact Q]. Qed.
  Lemma took n l : f n = Some l -> exists os, xstep cap cf (st n) l = Some (st (S n), os).
  Proof. intros F. destruct EX as [_ E]. specialize (E n). rewrite F in E. eauto. Qed.
  Lemma ef_read n sd : ef n = Some (PDeliver sd) -> f n = Some (XRead sd).
  Proof.
    unfold ef. intros H. destruct (f n) as [[sd' l|sd' j|sd']|]; cbn [xlab] in H; try discriminate H.
    - destruct (option_map tk_st _) as [[]|]; try discriminate H. destruct (to_write _ _ _) as [[|b [|]]|]; discriminate H.
    - destruct (x_wire (st n) sd'); [discriminate H|]. destruct (run_bytes _ _ _); try discriminate H; injection H as ->; reflexivity.
  Qed.

  (** ** Fairness *)
  Hypothesis FX : fair_xloops cap cf f st.
  Lemma nothing_to_read sd n : xstep cap cf (st n) (XRead sd) = None -> pstep cf (es n) (PDeliver sd) = None.
  Proof.
    intros H. cbn [pstep]. destruct (p_in (es n) sd) as [|e w] eqn:P; [reflexivity|]. rewrite ev_ep. cbn [step]. unfold lp in *.
    assert (R : lp (x_ep (st n) sd) 0 <> Some LRun).
    { intros R. apply (read_enabled cap cf (st n) sd R); [|exact H]. intros W. destruct (s_wire _ _ (ev_sim n) sd) as (part & A & _). destruct (s_buf _ _ (ev_sim n) _ _ _ P) as (more & M1 & M2).
      rewrite W, P in A. cbn [map concat] in A. rewrite M1 in A. rewrite <- !app_assoc in A. apply app_inv_head in A. destruct more; [contradiction|discriminate A]. }
    unfold lp in R. destruct (nth_error (e_conns (x_ep (st n) sd)) 0) as [cn|]; [|reflexivity]. cbn in R. destruct (cn_loop cn); [congruence|reflexivity..].
  Qed.
  Lemma head_reads sd : forall r n e w more, p_in (es n) sd = e :: w -> wire_bytes e = x_buf (st n) sd ++ more -> length more = r ->
    within (fun _ => False) n (fun m => ef m = Some (PDeliver sd) \/ pstep cf (es m) (PDeliver sd) = None).
  Proof.
    induction r as [|r IH]; intros n e w more P W L.
    - exfalso. destruct (s_buf _ _ (ev_sim n) _ _ _ P) as (more' & M1 & M2). rewrite W in M1. apply app_inv_head in M1. subst more'. destruct more; [contradiction|discriminate L].
    - set (buf := x_buf (st n) sd) in *.
      assert (ST : forall m, (exists w, p_in (es m) sd = e :: w) /\ x_buf (st m) sd = buf -> f m = Some (XRead sd) -> within (fun _ => False) m (fun m => ef m = Some (PDeliver sd) \/ pstep cf (es m) (PDeliver sd) = None)).
      { intros m ((w' & A) & B) F. destruct (took _ _ F) as (os & X). destruct (wire_read _ _ _ _ _ _ X) as (b & Y & Z). destruct (xlab cf (st m) (XRead sd)) as [pl|] eqn:XL.
        - apply now. left. unfold ef. rewrite F, XL. cbn [xlab] in XL. rewrite Y in XL. destruct (run_bytes _ _ _); congruence.
        - apply (later _ m (S m)); [lia|]. assert (ES : es (S m) = es m) by (cbn [es]; unfold ef; rewrite F, XL; reflexivity).
          assert (P' : p_in (es (S m)) sd = e :: w') by (rewrite ES; exact A). destruct (s_buf _ _ (ev_sim (S m)) _ _ _ P') as (more' & M1 & _). apply (IH _ e w' more' P' M1).
          apply (f_equal (@length byte)) in M1. apply (f_equal (@length byte)) in W. rewrite (Z eq_refl), B in M1. rewrite !app_length in *. cbn [length] in *. lia. }
      apply (lead _ n (fun m => (exists w, p_in (es m) sd = e :: w) /\ x_buf (st m) sd = buf)); [| |eauto].
      + intros m _ ((w' & A) & B).
        assert (D : f m = Some (XRead sd) \/ f m <> Some (XRead sd)) by (destruct (f m) as [[| |s]|]; try (right; discriminate); destruct (two_sides s sd) as [-> | ->]; [auto|right; pose proof (other_ne s); congruence]).
        destruct D as [D|D]; [left; exact (ST m (conj (ex_intro _ w' A) B) D)|right]. split.
        * destruct (view _ _ _ _ _ _ ev_endless sd m) as [_ _ _ _ (w2 & E)|l os _ _ _ _ _ E|e' os E _ _ _]; [rewrite E, A; cbn; eauto|rewrite E; eauto|destruct D; apply ef_read; exact E].
        * destruct EX as [_ E]. specialize (E m). destruct (f m) as [l|]; [|destruct E as [-> _]; exact B]. rewrite (buf_kept _ _ _ _ _ _ sd E); [exact B|congruence].
      + destruct (FX sd _ (or_introl eq_refl) n) as (k & Lk & [Q|Q]); exists k; (split; [exact Lk|]); intros A; [exact (ST k A Q)|]. apply now. right. apply nothing_to_read. exact Q.
  Qed.
  Lemma ev_loops : fair_loops cf ef es.
  Proof.
    intros sd l [-> | ->] n.
    - destruct (p_in (es n) sd) as [|e w] eqn:P; [exists n; split; [lia|]; right; cbn [pstep]; rewrite P; reflexivity|].
      destruct (s_buf _ _ (ev_sim n) _ _ _ P) as (more & M & _). destruct (head_reads sd _ n e w more P M eq_refl) as (m & L & [[]|Q]). exists m. auto.
    - destruct (FX sd _ (or_intror eq_refl) n) as (m & L & [Q|Q]); exists m; (split; [exact L|]); [left; unfold ef; rewrite Q; reflexivity|right].
      cbn [pstep own_label]. cbn [xstep own_label] in Q. rewrite ev_ep. destruct (step (cf sd) (x_ep (st m) sd) (LPlace 0)) as [[s' os]|] eqn:E; [|reflexivity]. rewrite (place_uncut _ _ _ _ _ E), (place_unsent _ _ _ _ _ sd E) in Q. discriminate Q.
  Qed.

  Hypothesis CK : xclocks f.
  Hypothesis FS : eager_xtasks cap cf f st.
  Hypothesis CAP : (0 < cap)%nat.
  Context (many : nat -> Prop). (* nothing is claimed once this holds *)
  Local Notation eps sd n := (x_ep (st n) sd).
  Lemma xhalted_stuck sd n i : xhalted cap cf (st n) sd i -> ~ sending (tst (eps sd n) i) -> stuck (cf sd) (p_ep (es n) sd) i.
  Proof.
    intros [H _] N t v. rewrite ev_ep. specialize (H t v). destruct (step (cf sd) (eps sd n) (LTask i (AStep t v))) as [[s' os]|] eqn:HS; [exfalso|reflexivity].
    cbn [xstep own_label] in H. rewrite HS, (step_uncut _ _ _ _ _ _ _ HS) in H. cbn [orb] in H. destruct (existsb is_sent (map (fun o => (sd, o)) os)) eqn:Es; [|discriminate H].
    apply existsb_exists in Es. destruct Es as (q & Q1 & Q2). apply in_map_iff in Q1. destruct Q1 as (o & <- & Q1). unfold is_sent in Q2. cbn [snd] in Q2. destruct o; try discriminate Q2.
    assert (Q : In (ev_id e) (ended os)) by (eapply sent_ended; eauto). cbn [step] in HS.
    destruct (tst (eps sd n) i) as [x|] eqn:T; [|unfold tst in T; unfold task_step in HS; destruct (nth_error (e_tasks (eps sd n)) i); discriminate].
    destruct (task_step_fid _ _ _ _ _ _ _ HS T) as (x' & _ & [(D & _)|[(D & _)|(ctx1 & e1 & pu1 & D & _)]]); [rewrite D in Q; destruct Q..|]. apply N. unfold sending. subst x. eauto.
  Qed.
  Lemma others_turns sd i n : exists m, (n <= m)%nat /\ ((exists a, ef m = Some (PDo sd (LTask i a))) \/ stuck (cf sd) (p_ep (es m) sd) i \/ many m \/ sending (tst (p_ep (es m) sd) i)).
  Proof.
    destruct (FS sd i n) as (m & L & [(a & Q)|[Q|Q]]); exists m; (split; [exact L|]).
    - left. exists a. unfold ef. rewrite Q. reflexivity.
    - right. right. right. destruct (took _ _ Q) as (os & X). destruct (byte_written _ _ _ _ _ _ _ X) as (ctx & e & pu & rest & b & T & _). rewrite ev_ep. unfold sending. eauto.
    - destruct (sending_dec (tst (eps sd m) i)) as [S|S]; [rewrite <- ev_ep in S; auto|]. right. left. apply xhalted_stuck; auto.
  Qed.
  (** ** Every byte written is read *)
  Lemma xread_dec m sd : f m = Some (XRead sd) \/ f m <> Some (XRead sd).
  Proof. destruct (f m) as [[| |s]|]; try (right; discriminate). destruct (two_sides s sd) as [-> | ->]; [auto|right; pose proof (other_ne s); congruence]. Qed.
  Lemma wire_grows m sd : f m <> Some (XRead sd) -> exists w, x_wire (st (S m)) sd = x_wire (st m) sd ++ w.
  Proof. intros D. destruct EX as [_ E]. specialize (E m). destruct (f m) as [l|]; [|destruct E as [-> _]; exists []; rewrite app_nil_r; reflexivity]. eapply wire_more; [exact E|congruence]. Qed.
  Lemma wire_stays m sd : f m <> Some (XRead sd) -> x_wire (st m) sd <> [] -> x_wire (st (S m)) sd <> [].
  Proof. intros D W. destruct (wire_grows m sd D) as (w & ->). destruct (x_wire (st m) sd); [contradiction|discriminate]. Qed.
  Hypothesis NA : forall sd n, ~ In (OAborted 0) (at_side sd (so_far ob n)).
  Hypothesis PLC : forall sd n c e, lp (p_ep (es n) sd) 0 = Some (LSend c e) -> within many n (fun k => placing ef sd k /\ lp (p_ep (es k) sd) 0 = Some (LSend c e)).
  Lemma bytes_read_run sd n : lp (eps sd n) 0 = Some LRun -> x_wire (st n) sd <> [] -> within many n (fun k => f k = Some (XRead sd)).
  Proof.
    intros R W. apply (lead many n (fun k => lp (eps sd k) 0 = Some LRun /\ x_wire (st k) sd <> [])); [| |auto].
    - intros m _ [A B]. destruct (xread_dec m sd) as [D|D]; [left; apply now; exact D|right]. split; [|apply wire_stays; auto].
      rewrite <- ev_ep. rewrite <- ev_ep in A. apply (loop_stays cf ps ctr ef es ob ev_endless sd (NA sd) m _ A).
      + apply (no_place cf ps ctr ef es ob ev_endless sd m A).
      + intros Q. apply D. apply ef_read. exact Q.
    - destruct (FX sd _ (or_introl eq_refl) n) as (k & Lk & [Q|Q]); exists k; (split; [exact Lk|]); intros [A B]; [apply now; exact Q|]. destruct (read_enabled cap cf (st k) sd A B Q).
  Qed.
  Lemma bytes_read sd n : x_wire (st n) sd <> [] -> within many n (fun k => f k = Some (XRead sd)).
  Proof.
    intros W. destruct (loop_kinds cf ps ctr ef es ob ev_endless (ev_clocks CK) sd (NA sd) n) as [A|(c & e & A)]; [apply bytes_read_run; [rewrite <- ev_ep; exact A|exact W]|].
    assert (P : forall d, x_wire (st (n + d)) sd <> [] \/ exists k, (n <= k)%nat /\ f k = Some (XRead sd)).
    { induction d as [|d IH]; [rewrite Nat.add_0_r; auto|]. destruct IH as [IH|IH]; [|auto]. destruct (xread_dec (n + d) sd) as [D|D]; [right; exists (n + d)%nat; split; [lia|exact D]|left]. rewrite <- plus_n_Sm. apply wire_stays; auto. }
    destruct (PLC sd n c e A) as (k & Lk & [B|[B1 B2]]); [exists k; auto|].
    destruct (P (S k - n)%nat) as [C|(k' & L' & C)]; [|exists k'; auto]. replace (n + (S k - n))%nat with (S k) in C by lia. apply (later many n (S k)); [lia|]. apply bytes_read_run; [|exact C]. rewrite <- ev_ep.
    unfold placing in B1. destruct (view _ _ _ _ _ _ ev_endless sd k) as [_ _ E _ _|l os E EO HS EA _ _|e' os E _ HS _]; [destruct (E _ B1)| |congruence]. rewrite E in B1. injection B1 as ->. apply (lp_placed _ _ _ _ HS).
  Qed.
  Lemma in_cap n : forall sd, (length (x_wire (st n) sd) <= cap)%nat.
  Proof.
    induction n as [|n IH]; intros sd; destruct EX as [E0 E]; [rewrite E0; cbn; lia|]. specialize (E n). destruct (f n) as [l|]; [|destruct E as [-> _]; apply IH]. eapply wire_cap; eauto.
  Qed.
  Lemma room_after sd k : f k = Some (XRead sd) -> (length (x_wire (st (S k)) sd) < cap)%nat.
  Proof. intros F. destruct (took _ _ F) as (os & X). destruct (wire_read _ _ _ _ _ _ X) as (b & Y & _). pose proof (in_cap k sd) as L. rewrite Y in L. cbn in L. lia. Qed.
  (** ** Every send completes *)
  Lemma xwrite_dec m sd i : f m = Some (XWrite sd i) \/ f m <> Some (XWrite sd i).
  Proof. destruct (f m) as [[|s j|]|]; try (right; discriminate). destruct (two_sides s sd) as [-> | ->]; [|right; pose proof (other_ne s); congruence]. destruct (Nat.eq_dec j i) as [->|]; [auto|right; congruence]. Qed.
  Lemma holds_send sd n i rest : x_out (st n) sd = Some (i, rest) -> exists ctx e pu, tst (eps sd n) i = Some (TSend ctx e pu) /\ rest <> [].
  Proof. intros H. destruct (s_wire _ _ (ev_sim n) (other sd)) as (part & _ & B). rewrite other_other, H in B. destruct B as (ctx & e & pu & B1 & _ & B3). eauto. Qed.
  Lemma to_write_some sd n i ctx e pu : tst (eps sd n) i = Some (TSend ctx e pu) -> x_out (st n) sd = None \/ (exists rest, x_out (st n) sd = Some (i, rest)) -> exists b r, to_write (x_out (st n) sd) i e = Some (b :: r).
  Proof.
    intros T [Q|(rest & Q)].
    - rewrite Q. cbn [to_write]. destruct (wire_some e) as (b & _ & -> & N). destruct b as [|b r]; [contradiction|eauto].
    - destruct (holds_send _ _ _ _ Q) as (_ & _ & _ & _ & N). rewrite Q. cbn [to_write]. rewrite Nat.eqb_refl. destruct rest as [|b r]; [contradiction|eauto].
  Qed.
  Lemma halted_no_room sd n i ctx e pu : xhalted cap cf (st n) sd i -> tst (eps sd n) i = Some (TSend ctx e pu) -> x_out (st n) sd = None \/ (exists rest, x_out (st n) sd = Some (i, rest)) ->
    (cap <= length (x_wire (st n) (other sd)))%nat.
  Proof.
    intros [_ H] T O. destruct (to_write_some _ _ _ _ _ _ T O) as (b & r & TW). destruct (Nat.le_gt_cases cap (length (x_wire (st n) (other sd)))) as [L|L]; [exact L|]. destruct (write_enabled cap cf (st n) sd i ctx e pu b r T TW L H).
  Qed.
  Definition acts (sd : side) (i m : nat) : Prop := exists a, ef m = Some (PDo sd (LTask i a)).
  Lemma writes sd m i : f m = Some (XWrite sd i) -> (acts sd i m /\ x_out (st (S m)) sd = None)
    \/ exists rest, rest <> [] /\ x_out (st (S m)) sd = Some (i, rest) /\ forall r, x_out (st m) sd = Some (i, r) -> length r = S (length rest).
  Proof.
    intros F. destruct (took _ _ F) as (os & X). destruct (byte_written _ _ _ _ _ _ _ X) as (ctx & e & pu & rest & b & _ & TW & [(-> & A & B)|[A B]]).
    - left. split; [|exact B]. exists completes. unfold ef. rewrite F. exact A.
    - right. exists rest. split; [exact A|]. split; [exact B|]. intros r Q. rewrite Q in TW. cbn [to_write] in TW. rewrite Nat.eqb_refl in TW. injection TW as ->. reflexivity.
  Qed.
  Lemma holder_kept sd m i rest : x_out (st m) sd = Some (i, rest) -> f m <> Some (XWrite sd i) -> x_out (st (S m)) sd = Some (i, rest).
  Proof.
    intros H N. destruct EX as [_ E]. specialize (E m). destruct (f m) as [l|] eqn:F; [|destruct E as [-> _]; exact H].
    assert (D : (forall j, l <> XWrite sd j) \/ exists j, l = XWrite sd j) by (destruct l as [|s j|]; try (left; discriminate); destruct (two_sides s sd) as [-> | ->]; [right; eauto|left; intros j' Q; injection Q as Q _; exact (other_ne _ (eq_sym Q))]).
    destruct D as [D|(j & ->)]; [rewrite (out_kept _ _ _ _ _ _ sd E D); exact H|]. exfalso. destruct (byte_written _ _ _ _ _ _ _ E) as (ctx & e & pu & rest' & b & _ & TW & _). rewrite H in TW. cbn [to_write] in TW. destruct (Nat.eqb_spec j i) as [->|]; [congruence|discriminate TW].
  Qed.
  Lemma holder_live sd i : forall r n rest, length rest = r -> x_out (st n) sd = Some (i, rest) -> within many n (fun k => acts sd i k /\ x_out (st (S k)) sd = None).
  Proof.
    induction r as [|r IH]; intros n rest L H.
    - destruct (holds_send _ _ _ _ H) as (_ & _ & _ & _ & N). destruct rest; [contradiction|discriminate L].
    - assert (ST : forall m, x_out (st m) sd = Some (i, rest) -> f m = Some (XWrite sd i) -> within many m (fun k => acts sd i k /\ x_out (st (S k)) sd = None)).
      { intros m A F. destruct (writes sd m i F) as [B|(rest' & _ & B & C)]; [apply now; exact B|]. apply (later many m (S m)); [lia|]. apply (IH (S m) rest'); [|exact B]. specialize (C _ A). lia. }
      apply (lead many n (fun m => x_out (st m) sd = Some (i, rest))); [| |exact H].
      + intros m _ A. destruct (xwrite_dec m sd i) as [D|D]; [left; auto|right]. apply holder_kept; auto.
      + destruct (FS sd i n) as (m & Lm & [(a & Q)|[Q|Q]]); exists m; (split; [exact Lm|]); intros A; [exfalso|auto|].
        * destruct (took _ _ Q) as (os & X). destruct (holds_send _ _ _ _ A) as (ctx & e & pu & T & _). rewrite (no_own cap cf _ _ _ _ _ _ _ T) in X. discriminate X.
        * assert (P : forall d, x_out (st (m + d)) sd = Some (i, rest)).
          { induction d as [|d IHd]; [rewrite Nat.add_0_r; exact A|]. rewrite <- plus_n_Sm. apply holder_kept; [exact IHd|]. intros F. destruct (took _ _ F) as (os & X). destruct (Q (m + d)%nat ltac:(lia)) as [_ Z]. congruence. }
          destruct (holds_send _ _ _ _ A) as (ctx & e & pu & T & _). pose proof (halted_no_room sd m i ctx e pu (Q m (le_n m)) T (or_intror (ex_intro _ rest A))) as FU.
          destruct (bytes_read (other sd) m) as (k & Lk & [B|B]); [intros Z; rewrite Z in FU; cbn in FU; lia|exists k; auto|]. exfalso. pose proof (room_after _ _ B) as RA.
          specialize (P (S k - m)%nat). replace (m + (S k - m))%nat with (S k) in P by lia. destruct (holds_send _ _ _ _ P) as (ctx' & e' & pu' & T' & _).
          pose proof (halted_no_room sd (S k) i ctx' e' pu' (Q (S k) ltac:(lia)) T' (or_intror (ex_intro _ rest P))). lia.
  Qed.
  Lemma writer_free sd n : within many n (fun k => x_out (st k) sd = None).
  Proof.
    destruct (x_out (st n) sd) as [[i rest]|] eqn:O; [|apply now; exact O]. destruct (holder_live sd i _ n rest eq_refl O) as (k & L & [B|[_ B]]); [exists k; auto|]. exists (S k). split; [lia|auto].
  Qed.
  Lemma send_stays sd m i ctx e pu : tst (eps sd m) i = Some (TSend ctx e pu) -> acts sd i m \/ tst (eps sd (S m)) i = Some (TSend ctx e pu).
  Proof.
    intros T. destruct (acts_dec ef m sd i) as [A|A]; [left; exact A|right]. rewrite <- ev_ep. apply (task_stays _ _ _ _ _ _ ev_endless); [rewrite ev_ep; exact T|exact A].
  Qed.
  Lemma sends_live sd n i ctx e pu : tst (eps sd n) i = Some (TSend ctx e pu) -> within many n (acts sd i).
  Proof.
    intros T0. apply (lead many n (fun m => tst (eps sd m) i = Some (TSend ctx e pu))); [| |exact T0].
    - intros m _ T. destruct (send_stays _ _ _ _ _ _ T) as [A|A]; [left; apply now; exact A|right; exact A].
    - destruct (FS sd i n) as (m & Lm & [(a & Q)|[Q|Q]]); exists m; (split; [exact Lm|]); intros T.
      + apply now. exists a. unfold ef. rewrite Q. reflexivity.
      + destruct (writes sd m i Q) as [[B _]|(rest & _ & B & _)]; [apply now; exact B|]. apply (later many m (S m)); [lia|]. apply (within_imp many (S m) _ _ (holder_live sd i _ (S m) rest eq_refl B)). intros k _ [C _]. exact C.
      + assert (P : forall d, tst (eps sd (m + d)) i = Some (TSend ctx e pu) \/ within many m (acts sd i)).
        { induction d as [|d [IH|IH]]; [rewrite Nat.add_0_r; auto| |auto]. destruct (send_stays _ _ _ _ _ _ IH) as [A|A]; [right; apply (later many m (m + d)); [lia|apply now; exact A]|left; rewrite <- plus_n_Sm; exact A]. }
        destruct (writer_free sd m) as (k & Lk & [B|B]); [exists k; auto|].
        (* nobody writes before a byte is read *)
        assert (F : forall d, (x_out (st (k + d)) sd = None /\ cap <= length (x_wire (st (k + d)) (other sd)))%nat
            \/ (exists k', (k <= k')%nat /\ x_out (st k') sd = None /\ f k' = Some (XRead (other sd)) /\ x_out (st (S k')) sd = None) \/ within many m (acts sd i)).
        { induction d as [|d [[I1 I2]|I]]; [| |auto].
          - destruct (P (k - m)%nat) as [Tk|R]; [|auto]. replace (m + (k - m))%nat with k in Tk by lia. rewrite Nat.add_0_r. left. split; [exact B|]. apply (halted_no_room sd k i ctx e pu); auto.
          - assert (NW : x_out (st (S (k + d))) sd = None).
            { destruct EX as [_ E]. specialize (E (k + d)%nat). destruct (f (k + d)%nat) as [l|] eqn:Fl; [|destruct E as [-> _]; exact I1]. rewrite (out_kept _ _ _ _ _ _ sd E); [exact I1|]. intros j ->.
              cbn [xstep] in E. destruct (option_map tk_st _) as [[]|]; try discriminate E. destruct (Nat.ltb_spec (length (x_wire (st (k + d)) (other sd))) cap); [lia|discriminate E]. }
            destruct (xread_dec (k + d) (other sd)) as [D|D]; [right; left; exists (k + d)%nat; split; [lia|auto]|]. left. rewrite <- plus_n_Sm. split; [exact NW|]. destruct (wire_grows _ _ D) as (w & ->). rewrite app_length. lia. }
        assert (Z : (exists k', (k <= k')%nat /\ x_out (st k') sd = None /\ f k' = Some (XRead (other sd)) /\ x_out (st (S k')) sd = None) \/ within many m (acts sd i)).
        { destruct (F 0%nat) as [[F1 F2]|F1]; [|exact F1]. rewrite Nat.add_0_r in F2. destruct (bytes_read (other sd) k) as (k2 & L2 & [C|C]); [intros Z; rewrite Z in F2; cbn in F2; lia|right; exists k2; split; [lia|auto]|].
          destruct (F (k2 - k)%nat) as [[F3 F4]|F3]; [|exact F3]. replace (k + (k2 - k))%nat with k2 in * by lia. left. exists k2. split; [lia|]. split; [exact F3|]. split; [exact C|].
          destruct (took _ _ C) as (os & X). rewrite (out_kept _ _ _ _ _ _ sd X); [exact F3|discriminate]. }
        destruct Z as [(k' & L' & _ & C & O)|Z]; [|exact Z]. destruct (P (S k' - m)%nat) as [T'|R]; [|exact R]. replace (m + (S k' - m))%nat with (S k') in T' by lia.
        exfalso. pose proof (room_after _ _ C). pose proof (halted_no_room sd (S k') i ctx e pu (Q (S k') ltac:(lia)) T' (or_introl O)). lia.
  Qed.
  Lemma send_done sd m i ctx e pu : tst (eps sd m) i = Some (TSend ctx e pu) -> acts sd i m -> In (OSent i ctx e) (at_side sd (so_far ob (S m))).
  Proof.
    intros T (a & A). destruct (act_view _ _ _ _ _ _ ev_endless sd m i a A) as (os & HS & EA & NC). rewrite EA. apply in_or_app. right. rewrite ev_ep in HS. unfold task_step in HS. unfold tst in T.
    destruct (nth_error (e_tasks (eps sd m)) i) as [tk|]; [|discriminate]. cbn in T. injection T as T. rewrite T in HS. destruct a, pu; try discriminate HS; cbn zeta in HS; apply some_pair in HS; destruct HS as [_ <-]; try discriminate NC; left; reflexivity.
  Qed.
  Lemma sends_done sd n i ctx e pu : tst (eps sd n) i = Some (TSend ctx e pu) -> within many n (fun m => In (OSent i ctx e) (at_side sd (so_far ob m))).
  Proof.
    intros T0. destruct (sends_live _ _ _ _ _ _ T0) as (k & Lk & [B|B]); [exists k; auto|].
    assert (P : forall d, tst (eps sd (n + d)) i = Some (TSend ctx e pu) \/ In (OSent i ctx e) (at_side sd (so_far ob (n + d)))).
    { induction d as [|d [IH|IH]]; [rewrite Nat.add_0_r; auto| |].
      - rewrite <- plus_n_Sm. destruct (send_stays _ _ _ _ _ _ IH) as [A|A]; [right; eapply send_done; eauto|left; exact A].
      - right. rewrite <- plus_n_Sm. apply (PairLive.still ob sd (n + d)); [lia|exact IH]. }
    destruct (P (k - n)%nat) as [T|I1]; replace (n + (k - n))%nat with k in * by lia.
    - exists (S k). split; [lia|]. right. eapply send_done; eauto.
    - exists k. auto.
  Qed.
  Theorem ev_turns sd : turns cf ef es many sd.
  Proof.
    intros i n.
    assert (SL : forall m, (n <= m)%nat -> sending (tst (eps sd m) i) -> exists m', (n <= m')%nat /\ ((exists a, ef m' = Some (PDo sd (LTask i a))) \/ stuck (cf sd) (p_ep (es m') sd) i \/ many m')).
    { intros m L (ctx & e & pu & T). destruct (sends_live _ _ _ _ _ _ T) as (k & Lk & [B|B]); exists k; (split; [lia|auto]). }
    destruct (FS sd i n) as (m & L & [(a & Q)|[Q|Q]]).
    - exists m. split; [exact L|]. left. exists a. unfold ef. rewrite Q. reflexivity.
    - destruct (took _ _ Q) as (os & X). destruct (byte_written _ _ _ _ _ _ _ X) as (ctx & e & pu & rest & b & T & _). apply (SL m L). unfold sending. eauto.
    - destruct (sending_dec (tst (eps sd m) i)) as [S|S]; [exact (SL m L S)|]. exists m. split; [exact L|]. right. left. apply xhalted_stuck; auto.
  Qed.
End Events.
(** tasks and handlers that ask and answer but open no streams *)
Section PlainEnds.
  Context (cap : nat) (cf : side -> config) (ps : side -> list prog) (ctr : side -> N) (f : nat -> option xlabel) (st : nat -> xpair) (ob : nat -> list (side * obs)).
  Hypothesis EX : endless_bytes cap cf ps ctr f st ob.
  Hypothesis AD : forall n, all_deliverable cf (st n) (so_far ob n).
  Hypothesis FX : fair_xloops cap cf f st.
  Hypothesis CK : xclocks f.
  Hypothesis FS : eager_xtasks cap cf f st.
  Hypothesis PH : forall sd, plain_handlers (cf sd).
  Hypothesis PP : forall sd, Forall (plain_code None) (ps sd).
  Hypothesis CAP : (0 < cap)%nat.
  Local Notation ef := (ef cf f st).
  Local Notation es := (es cf ps ctr f st).
  Local Notation many := (too_many es).
  Let EN : endless cf ps ctr ef es ob := ev_endless cap cf ps ctr f st ob EX AD.
  Let CE : clocks ef := ev_clocks cf f st CK.
  Let FL : fair_loops cf ef es := ev_loops cap cf ps ctr f st ob EX AD FX.
  Let NA sd n : ~ In (OAborted 0) (at_side sd (so_far ob n)) := not_aborted _ _ _ _ _ _ EN CE PH PP sd n.
  Let PLC sd n c e : lp (p_ep (es n) sd) 0 = Some (LSend c e) -> within many n (fun k => placing ef sd k /\ lp (p_ep (es k) sd) 0 = Some (LSend c e)) :=
    held_places cf ps ctr ef es ob EN CE FL PH PP (others_turns cap cf ps ctr f st ob EX AD FS many) sd n c e.
  Lemma plain_bytes_read sd n : x_wire (st n) sd <> [] -> within many n (fun k => f k = Some (XRead sd)).
  Proof. exact (bytes_read cap cf ps ctr f st ob EX AD FX CK CAP many NA PLC sd n). Qed.
  Lemma plain_sends_done sd n i ctx e pu : tst (x_ep (st n) sd) i = Some (TSend ctx e pu) -> within many n (fun m => In (OSent i ctx e) (at_side sd (so_far ob m))).
  Proof. exact (sends_done cap cf ps ctr f st ob EX AD FX CK FS CAP many NA PLC sd n i ctx e pu). Qed.
  Lemma plain_turns sd : turns cf ef es many sd.
  Proof. exact (ev_turns cap cf ps ctr f st ob EX AD FX CK FS CAP many NA PLC sd). Qed.
End PlainEnds.
(** ** Runs from a list of steps *)
Section XScheduler.
  Context (cap : nat) (cf : side -> config) (ps : side -> list prog) (ctr : side -> N) (g : nat -> xlabel).
  (** try [g n] at time [n] *)
  Fixpoint xsst (n : nat) : xpair := match n with O => xpair_new ps ctr | S m => match xstep cap cf (xsst m) (g m) with Some (x, _) => x | None => xsst m end end.
  Definition xsf (n : nat) : option xlabel := match xstep cap cf (xsst n) (g n) with Some _ => Some (g n) | None => None end.
  Definition xsob (n : nat) : list (side * obs) := match xstep cap cf (xsst n) (g n) with Some (_, os) => os | None => [] end.
  Lemma xscheduled : endless_bytes cap cf ps ctr xsf xsst xsob.
  Proof. split; [reflexivity|]. intros n. unfold xsf, xsob. cbn [xsst]. destruct (xstep cap cf (xsst n) (g n)) as [[x os]|] eqn:E; [exact E|auto]. Qed.
  Lemma xsched_run d : forall ls x tr, xrun cap cf (xpair_new ps ctr) ls = Some (x, tr) -> (forall n, (n < length ls)%nat -> g n = nth n ls d) -> xsst (length ls) = x /\ so_far xsob (length ls) = tr.
  Proof.
    induction ls as [|l ls IH] using rev_ind; intros x tr H G; [injection H as <- <-; auto|]. rewrite xrun_app in H. destruct (xrun cap cf (xpair_new ps ctr) ls) as [[x1 tr1]|] eqn:E; [|discriminate H].
    destruct (IH _ _ eq_refl) as [A B].
    { intros n L. rewrite G by (rewrite app_length; lia). apply app_nth1. exact L. }
    cbn [xrun] in H. destruct (xstep cap cf x1 l) as [[x2 o2]|] eqn:E2; [|discriminate H]. rewrite app_nil_r in H. injection H as <- <-. rewrite app_length, Nat.add_1_r. cbn [so_far xsst]. unfold xsob at 2. rewrite A, B.
    rewrite G by (rewrite app_length; cbn; lia). rewrite app_nth2, Nat.sub_diag by lia. cbn [nth]. rewrite E2. auto.
  Qed.
  (** a step that changes nothing, taken for ever *)
  Lemma xsched_stays n l (P : xpair -> Prop) : (forall d, g (n + d)%nat = l) -> P (xsst n) -> (forall x, P x -> exists x', xstep cap cf x l = Some (x', []) /\ P x') ->
    forall d, P (xsst (n + d)) /\ so_far xsob (n + d) = so_far xsob n /\ xsf (n + d)%nat = Some l.
  Proof.
    intros L H0 HP d.
    assert (Q : forall d, P (xsst (n + d)) -> P (xsst (S (n + d))) /\ xsob (n + d)%nat = [] /\ xsf (n + d)%nat = Some l).
    { intros k IH. destruct (HP _ IH) as (x' & A & B). unfold xsob, xsf. cbn [xsst]. rewrite L, A. auto. }
    assert (V : P (xsst (n + d)) /\ so_far xsob (n + d) = so_far xsob n).
    { induction d as [|d [IH1 IH2]]; [rewrite Nat.add_0_r; auto|]. destruct (Q d IH1) as (A & B & _). rewrite <- plus_n_Sm. split; [exact A|]. cbn [so_far]. rewrite IH2, B. apply app_nil_r. }
    destruct V as [V1 V2]. split; [exact V1|]. split; [exact V2|]. apply (Q d V1).
  Qed.
End XScheduler.
(** what can be delivered later could be delivered before *)
Lemma deliverable_earlier cap cf ps ctr f st ob n m : endless_bytes cap cf ps ctr f st ob -> (n <= m)%nat -> all_deliverable cf (st m) (so_far ob m) -> all_deliverable cf (st n) (so_far ob n).
Proof.
  intros [_ E]. induction 1 as [|m L IH]; [auto|]. intros A. apply IH. specialize (E m). cbn [so_far] in A. destruct (f m) as [l|].
  - eapply (deliverable_before cap cf); eauto.
  - destruct E as [E1 E2]. rewrite E1, E2, app_nil_r in A. exact A.
Qed.
