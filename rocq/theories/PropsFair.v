(** C80: who waits for the connection gets it in the order of asking. *)
From Coq Require Import Strings.String.
From Verif Require Import Base Codec Ids Emit Spec SpecEmit EmitFacts PropsEmit Fair SpecFair FairFacts FairLive.

Lemma fair_pieces os w ls s rs : w_lock w = None -> fair_run (fair_start w os) ls = Some (s, rs) -> exists ps, fair_inv os w s rs ps (asking ls).
Proof. intros L H. exact (run_fair os w ls _ [] [] [] _ _ (fair_begin os w L) H). Qed.
Lemma inv_pieces os w s rs ps asked : fair_inv os w s rs ps asked -> pieces os w (q_sys s) rs ps.
Proof. intros [I _]. destruct (pi_pc _ _ _ _ _ (fi_pc _ _ _ _ _ _ I)) as [A B C D]. split; assumption. Qed.
Lemma inv_order os w s rs ps asked : fair_inv os w s rs ps asked -> sublist (map fst ps) asked.
Proof. intros [I _]. apply (sublist_trans _ (map fst ps ++ q_wait s)); [|exact (fi_order _ _ _ _ _ _ I)]. apply sublist_more. apply sublist_refl. Qed.

(** What is on the connection: one contiguous piece per emit, in the order in which the emits were first polled, whatever
    is dropped or fails and whichever polls are cut short. *)
Theorem C80_written_in_order_of_asking : forall os w ls s rs, w_lock w = None -> fair_run (fair_start w os) ls = Some (s, rs) ->
  exists ps, pieces os w (q_sys s) rs ps /\ sublist (map fst ps) (asking ls).
Proof. intros os w ls s rs L H. destruct (fair_pieces _ _ _ _ _ L H) as (ps & I). exists ps. split; [eapply inv_pieces; eauto|eapply inv_order; eauto]. Qed.
Print Assumptions C80_written_in_order_of_asking.

(** As long as an emit waits, only those that asked before it have sent anything, or succeeded. *)
Theorem C80_nobody_overtakes : forall os w ls s rs i, w_lock w = None -> fair_run (fair_start w os) ls = Some (s, rs) ->
  In i (asking ls) -> ~ finished i rs -> ~ dropped i ls ->
  (exists ps, pieces os w (q_sys s) rs ps /\ forall j, In j (map fst ps) -> j = i \/ before j i (asking ls))
  /\ (forall j id, In (j, Ready (Ok id)) rs -> before j i (asking ls)).
Proof.
  intros os w ls s rs i L H A NF ND. destruct (fair_pieces _ _ _ _ _ L H) as (ps & I). pose proof (still_there _ _ _ _ _ _ _ H I A NF ND) as T.
  pose proof (none_after _ _ _ _ _ _ _ I A T) as N. split; [exists ps; split; [eapply inv_pieces; eauto|exact N]|].
  intros j id Hj. destruct (pc_done _ _ _ _ _ (inv_pieces _ _ _ _ _ _ I) j id Hj) as (e & b & X & _). destruct (N j) as [-> |B]; [apply (in_map fst) in X; exact X| |exact B].
  destruct NF. exists (Ok id). exact Hj.
Qed.
Print Assumptions C80_nobody_overtakes.

(** The price: an emit that was polled and then neither polled nor dropped holds up everybody who comes after. *)
Lemma asking_app a b : exists c, asking (a ++ b) = asking a ++ c.
Proof.
  unfold asking. rewrite fold_left_app. generalize (fold_left ask a []). induction b as [|lb b IH]; intros m; cbn; [exists []; rewrite app_nil_r; reflexivity|].
  destruct (ask_grows m lb) as [c Ec]. rewrite Ec. destruct (IH (m ++ c)) as [d ->]. exists (c ++ d). rewrite app_assoc. reflexivity.
Qed.
Lemma before_left j i a c : NoDup (a ++ c) -> In i a -> before j i (a ++ c) -> In j a.
Proof.
  intros ND Hi (x & y & z & E). assert (Hl : forall k, (k < length a)%nat -> nth_error (a ++ c) k = nth_error a k) by (intros; apply nth_error_app1; assumption).
  apply In_nth_error in Hi. destruct Hi as [k Hk]. assert (Lk : (k < length a)%nat) by (apply nth_error_Some; congruence).
  assert (E1 : nth_error (a ++ c) k = Some i) by (rewrite Hl by assumption; exact Hk).
  assert (E2 : nth_error (a ++ c) (length x + S (length y)) = Some i).
  { rewrite E, nth_error_app2 by lia. replace (length x + S (length y) - length x)%nat with (S (length y)) by lia. cbn. rewrite nth_error_app2 by lia. rewrite Nat.sub_diag. reflexivity. }
  assert (E3 : nth_error (a ++ c) (length x) = Some j) by (rewrite E, nth_error_app2 by lia; rewrite Nat.sub_diag; reflexivity).
  assert (K : k = (length x + S (length y))%nat). { apply (proj1 (NoDup_nth_error (a ++ c)) ND); [|congruence]. rewrite app_length. lia. }
  rewrite Hl in E3 by lia. eapply nth_error_In. exact E3.
Qed.
Lemma run_results ls : forall s s' rs i r, fair_run s ls = Some (s', rs) -> In (i, r) rs -> exists t, In (QStall i t) ls \/ exists l, In (QPoll i t l) ls.
Proof.
  induction ls as [|lb ls IH]; intros s s' rs i r H Hi; cbn [fair_run] in H; [injection H as <- <-; destruct Hi|].
  destruct (fair_step s lb) as [[s1 x]|] eqn:E; [|discriminate]. destruct (fair_run s1 ls) as [[s2 os2]|] eqn:E2; [|discriminate]. injection H as <- <-.
  assert (D : In (i, r) os2 \/ x = Some (i, r)) by (destruct x; [destruct Hi as [-> |Hi]|]; auto). destruct D as [D| ->].
  - destruct (IH _ _ _ _ _ E2 D) as (t & [A|(l & A)]); exists t; [left|right; exists l]; right; exact A.
  - destruct lb as [j t l|j t|j]; cbn [fair_step] in E; destruct (nth_error (y_futs (q_sys s)) j) as [[em|]|]; try discriminate.
    + destruct (fair_poll _ _ _ _ _) as [[w' em'] r']. destruct (hand_over _ _) as [w2 q2]. injection E as _ -> _. exists t. right. exists l. left. reflexivity.
    + destruct (stall_poll _ _ _ _) as [[w' em'] r']. injection E as _ -> _. exists t. left. left. reflexivity.
    + destruct (hand_over _ _) as [w2 q2]. discriminate.
Qed.
Theorem C80_abandoned_emit_blocks : forall os w ls1 ls2 s1 rs1 s rs2 i, w_lock w = None ->
  fair_run (fair_start w os) ls1 = Some (s1, rs1) -> fair_run s1 ls2 = Some (s, rs2) ->
  In i (asking ls1) -> ~ finished i rs1 -> ~ dropped i ls1 ->
  (forall t l, ~ In (QPoll i t l) ls2 /\ ~ In (QStall i t) ls2) -> ~ dropped i ls2 ->
  forall j id, In (j, Ready (Ok id)) (rs1 ++ rs2) -> In j (asking ls1).
Proof.
  intros os w ls1 ls2 s1 rs1 s rs2 i L H1 H2 A NF ND NP ND2 j id Hj. destruct (fair_pieces _ _ _ _ _ L H1) as (ps1 & I1). destruct (run_fair _ _ _ _ _ _ _ _ _ I1 H2) as (ps2 & I2).
  assert (H : fair_run (fair_start w os) (ls1 ++ ls2) = Some (s, rs1 ++ rs2)).
  { clear - H1 H2. revert H1. generalize (fair_start w os). intros s0 H1. revert s0 s1 rs1 H1 H2. induction ls1 as [|lb ls IH]; intros s0 s1 rs1 H1 H2; cbn [fair_run app] in *; [injection H1 as <- <-; exact H2|].
    destruct (fair_step s0 lb) as [[s2 x]|]; [|discriminate]. destruct (fair_run s2 ls) as [[s3 os3]|] eqn:E; [|discriminate]. injection H1 as <- <-.
    rewrite (IH _ _ _ E H2). destruct x; reflexivity. }
  destruct (asking_app ls1 ls2) as [c Ec].
  destruct (C80_nobody_overtakes os w (ls1 ++ ls2) s (rs1 ++ rs2) i L H) as [_ B].
  - rewrite Ec. apply in_or_app. auto.
  - intros (r & Hr). apply in_app_or in Hr. destruct Hr as [Hr|Hr]; [apply NF; exists r; exact Hr|]. destruct (run_results _ _ _ _ _ _ H2 Hr) as (t & [Z|(l & Z)]); [exact (proj2 (NP t []) Z)|exact (proj1 (NP t l) Z)].
  - intros Z. apply in_app_or in Z. destruct Z; contradiction.
  - specialize (B j id Hj). rewrite Ec in B. apply (before_left j i (asking ls1) c); [|exact A|exact B]. rewrite <- Ec. destruct (fair_pieces _ _ _ _ _ L H) as (ps & [I _]). exact (fi_nodup _ _ _ _ _ _ I).
Qed.
Print Assumptions C80_abandoned_emit_blocks.

(** Nobody starves: if whoever has been given the connection is polled again while the connection takes something (or is
    dropped), every emit that has asked finishes or is dropped. *)
Theorem C80_everybody_gets_through : forall os w f st res, w_lock w = None -> st 0%nat = fair_start w os ->
  (forall n, proceeds (st n) (f n) (st (S n)) (res n)) ->
  (forall n h, writes (st n) h -> exists m, (n <= m)%nat /\ (attends h (f m) \/ f m = Some (QDrop h))) ->
  forall n i, pending f res n i -> exists m, (n <= m)%nat /\ ((exists r, res m = Some (i, Ready r)) \/ f m = Some (QDrop i)).
Proof.
  intros os w f st res L B P F n i Hp. pose proof (pending_in_line os w f st res L B P n i Hp) as Hl. exact (through os w f st res L B P F _ n i Hl (le_n _)).
Qed.
Print Assumptions C80_everybody_gets_through.

(** ** Cases *)
Definition order_c : order := mk_order (mk_context 0 None) None (str "c") (Ok [x03]) None Initiator.
Definition w80 : world := quiet_world.
(** the first sends 5 bytes; the third asks before the second; the second stalled before that; the first is dropped *)
Definition ls80 : list fair_label :=
  [QPoll 0 now [Accept 5; NotReady]; QStall 1 now; QPoll 2 now [Accept 100]; QPoll 1 now [Accept 100]; QDrop 0; QPoll 1 now [Accept 100; Accept 100]].
Definition ls80b : list fair_label := [QPoll 2 now [Accept 3; NotReady]; QPoll 1 now [Accept 100]; QPoll 2 now [Accept 100; Accept 1]; QPoll 1 now [Accept 100; Accept 1]].
Example C80_case : exists s rs, fair_run (fair_start w80 [order_a; order_b; order_c]) ls80 = Some (s, rs) /\ w_lock w80 = None
  /\ asking ls80 = [0; 2; 1]%nat /\ In 1%nat (asking ls80) /\ ~ finished 1 rs /\ ~ dropped 1 ls80 /\ writes s 2 /\ q_wait s = [1%nat]
  /\ exists s2 rs2, fair_run s ls80b = Some (s2, rs2) /\ rs2 = [(2%nat, Waiting); (1%nat, Waiting); (2%nat, Ready (Ok (nth_id now 7))); (1%nat, Ready (Ok (nth_id now 6)))].
Proof.
  eexists. eexists. split; [vm_compute; reflexivity|]. split; [reflexivity|]. split; [reflexivity|]. split; [cbn; auto|].
  split; [intros (r & H); cbn in H; repeat destruct H as [H|H]; try discriminate H; contradiction|]. split; [intros H; cbn in H; repeat destruct H as [H|H]; try discriminate H; contradiction|].
  split; [reflexivity|]. split; [reflexivity|]. eexists. eexists. split; vm_compute; reflexivity.
Qed.
(** an abandoned emit: the first wrote 5 bytes and is left alone; the second asked before, the third after *)
Example C80_abandoned_case : exists s1 rs1 s2 rs2, fair_run (fair_start w80 [order_a; order_b; order_c]) [QPoll 0 now [Accept 5; NotReady]] = Some (s1, rs1)
  /\ In 0%nat (asking [QPoll 0 now [Accept 5; NotReady]]) /\ ~ finished 0 rs1
  /\ fair_run s1 [QPoll 1 now [Accept 100; Accept 1]; QPoll 2 now [Accept 100; Accept 1]; QPoll 1 now [Accept 100; Accept 1]] = Some (s2, rs2)
  /\ rs2 = [(1%nat, Waiting); (2%nat, Waiting); (1%nat, Waiting)].
Proof.
  eexists. eexists. eexists. eexists. split; [vm_compute; reflexivity|]. split; [cbn; auto|]. split; [intros (r & H); cbn in H; repeat destruct H as [H|H]; try discriminate H; contradiction|].
  split; vm_compute; reflexivity.
Qed.
(** an endless run that meets the conditions of the last theorem *)
Definition all80 : list fair_label := ls80 ++ ls80b.
Definition st80 (n : nat) : fair_sys := match fair_run (fair_start w80 [order_a; order_b; order_c]) (firstn n all80) with Some (s, _) => s | None => fair_start w80 [] end.
Definition res80 (n : nat) : option (nat * polled N) := match nth_error all80 n with Some lb => match fair_step (st80 n) lb with Some (_, r) => r | None => None end | None => None end.
Example C80_endless_case : w_lock w80 = None /\ st80 0 = fair_start w80 [order_a; order_b; order_c]
  /\ (forall n, proceeds (st80 n) (nth_error all80 n) (st80 (S n)) (res80 n))
  /\ (forall n h, writes (st80 n) h -> exists m, (n <= m)%nat /\ (attends h (nth_error all80 m) \/ nth_error all80 m = Some (QDrop h)))
  /\ pending (nth_error all80) res80 4 1 /\ pending (nth_error all80) res80 6 2.
Proof.
  assert (Big : forall n, (10 <= n)%nat -> firstn n all80 = all80 /\ nth_error all80 n = None) by (intros n Hn; split; [apply firstn_all2; exact Hn|apply nth_error_None; exact Hn]).
  split; [reflexivity|]. split; [reflexivity|]. split; [|split].
  - intros n. destruct (Nat.le_gt_cases 10 n) as [Hn|Hn].
    + destruct (Big n Hn) as [A B]. destruct (Big (S n)) as [C _]; [lia|]. unfold res80. rewrite B. cbn [proceeds]. split; [|reflexivity]. unfold st80. rewrite A, C. reflexivity.
    + do 10 (destruct n as [|n]; [vm_compute; reflexivity|]). lia.
  - intros n h H. destruct (Nat.le_gt_cases 10 n) as [Hn|Hn].
    + exfalso. destruct (Big n Hn) as [A _]. unfold writes, st80 in H. rewrite A in H. vm_compute in H. discriminate H.
    + unfold writes in H. do 5 (destruct n as [|n]; [vm_compute in H; first [discriminate H|injection H as <-; exists 4%nat; split; [lia|]; right; reflexivity]|]).
      do 4 (destruct n as [|n]; [vm_compute in H; first [discriminate H|injection H as <-; exists 8%nat; split; [lia|]; left; eexists; eexists; eexists; reflexivity]|]).
      destruct n as [|n]; [vm_compute in H; first [discriminate H|injection H as <-; exists 9%nat; split; [lia|]; left; eexists; eexists; eexists; reflexivity]|]. lia.
  - split; (split; [|split]).
    + exists 3%nat, now, [Accept 100]. split; [lia|reflexivity].
    + intros m r Hm. do 4 (destruct m as [|m]; [vm_compute; discriminate|]). lia.
    + intros m Hm. do 4 (destruct m as [|m]; [discriminate|]). lia.
    + exists 2%nat, now, [Accept 100]. split; [lia|reflexivity].
    + intros m r Hm. do 6 (destruct m as [|m]; [vm_compute; discriminate|]). lia.
    + intros m Hm. do 6 (destruct m as [|m]; [discriminate|]). lia.
Qed.
