(** Fair endless runs of networks exist (C85). *)
From Verif Require Import Base BaseFacts Codec Spec Ids Payload Builder Emit Ipc IpcFacts SpecIpc Pair SpecPair PairFacts PairRest Net SpecNet NetFacts NetRest SpecNetLive PairLiveMore.

(** labels that do not break connections *)
Definition gentle (l : nlabel) : Prop := match l with NDeliver _ _ | NDo _ (LTask _ (AStep _ _)) | NDo _ (LPlace _) => True | _ => False end.
Definition whole (s : net) : Prop := forall i k, n_bad s i k = false.
Lemma whole_new w : whole (net_new w). Proof. intros i k. reflexivity. Qed.
Lemma cut_none os k : existsb is_cut os = false -> existsb (cut_on k) os = false.
Proof. induction os as [|o os IH]; [reflexivity|]. cbn. intros H. apply orb_false_iff in H. destruct H as [A B]. rewrite (IH B). destruct o; try reflexivity. discriminate A. Qed.
Lemma gentle_whole w s l s' os : whole s -> gentle l -> nstep w s l = Some (s', os) -> whole s'.
Proof.
  intros W G H i k. destruct l as [i0 l|i0 k0|i0 k0]; cbn [nstep] in H; [|destruct (n_in s i0 k0); [discriminate|]|destruct G].
  - destruct (own_label l) eqn:El; [|discriminate]. destruct (step (nd_cf (node_of w i0)) (n_ep s i0) l) as [[e' o']|] eqn:Es; [|discriminate]. destruct (drops_send l o' || existsb (on_bad (n_bad s i0)) o')%bool; [discriminate|].
    apply some_pair in H. destruct H as [<- _]. cbn [n_bad]. rewrite (W i k). cbn [orb].
    assert (C : existsb is_cut o' = false) by (destruct l as [j [t v| | |]|j e|j|j|j|h|]; try destruct G; [eapply step_uncut; exact Es|eapply place_uncut; exact Es]).
    rewrite (cut_none o' k C). apply andb_false_r.
  - destruct (step _ _ (LRecv k0 e)) as [[e' o']|]; [|discriminate]. apply some_pair in H. destruct H as [<- _]. exact (W i k).
Qed.
Lemma whole_on s i os : whole s -> existsb (on_bad (n_bad s i)) os = false.
Proof. intros W. induction os as [|o os IH]; [reflexivity|]. cbn. rewrite IH. destruct o; try reflexivity. cbn. rewrite W. reflexivity. Qed.

Section NScheduler.
  Context (w : network) (g : nat -> nlabel).
  (** try [g n] at time [n] *)
  Fixpoint nst (n : nat) : net := match n with O => net_new w | S m => match nstep w (nst m) (g m) with Some (p, _) => p | None => nst m end end.
  Definition nf (n : nat) : option nlabel := match nstep w (nst n) (g n) with Some _ => Some (g n) | None => None end.
  Definition nob (n : nat) : list (nat * obs) := match nstep w (nst n) (g n) with Some (_, os) => os | None => [] end.
  Lemma nscheduled : endless_net w nf nst nob.
  Proof. split; [reflexivity|]. intros n. unfold nf, nob. cbn [nst]. destruct (nstep w (nst n) (g n)) as [[p os]|] eqn:E; [exact E|auto]. Qed.
  Lemma ntried l n : (exists m, (n <= m)%nat /\ g m = l) -> exists m, (n <= m)%nat /\ (nf m = Some l \/ nstep w (nst m) l = None).
  Proof. intros (m & L & <-). exists m. split; [exact L|]. unfold nf. destruct (nstep w (nst m) (g m)); auto. Qed.
  Lemma nwhole : (forall n, gentle (g n)) -> forall n, whole (nst n).
  Proof. intros H n. induction n as [|n IH]; [apply whole_new|]. cbn [nst]. destruct (nstep w (nst n) (g n)) as [[p os]|] eqn:E; [eapply gentle_whole; eauto|exact IH]. Qed.
  Lemma ntried_fair : (forall n, gentle (g n)) -> (forall i j n, exists m t v, (n <= m)%nat /\ g m = NDo i (LTask j (AStep t v))) -> forall i, fair_at w nf nst i.
  Proof.
    intros G H i j n. destruct (H i j n) as (m & t & v & L & E). exists m. split; [exact L|]. unfold nf. rewrite E. destruct (nstep w (nst m) (NDo i (LTask j (AStep t v)))) eqn:Ep; [left; eauto|right].
    apply (stuck_any _ _ _ t v). cbn [nstep own_label] in Ep. destruct (step (nd_cf (node_of w i)) (n_ep (nst m) i) (LTask j (AStep t v))) as [[s' os]|] eqn:Es; [|reflexivity].
    rewrite (whole_on _ _ _ (nwhole G m)) in Ep. discriminate Ep.
  Qed.
  (** a step that changes nothing, taken for ever *)
  Lemma nsched_stays n l (P : net -> Prop) : (forall d, g (n + d)%nat = l) -> P (nst n) -> (forall p, P p -> exists p', nstep w p l = Some (p', []) /\ P p') ->
    forall d, P (nst (n + d)) /\ net_so_far nob (n + d) = net_so_far nob n /\ nf (n + d)%nat = Some l.
  Proof.
    intros L H0 HP d.
    assert (Q : forall d, P (nst (n + d)) -> P (nst (S (n + d))) /\ nob (n + d)%nat = [] /\ nf (n + d)%nat = Some l).
    { intros k IH. destruct (HP _ IH) as (p' & A & B). unfold nob, nf. cbn [nst]. rewrite L, A. auto. }
    assert (V : P (nst (n + d)) /\ net_so_far nob (n + d) = net_so_far nob n).
    { induction d as [|d [IH1 IH2]]; [rewrite Nat.add_0_r; auto|]. destruct (Q d IH1) as (A & B & _). rewrite <- plus_n_Sm. split; [exact A|]. cbn [net_so_far]. rewrite IH2, B. apply app_nil_r. }
    destruct V as [V1 V2]. split; [exact V1|]. split; [exact V2|]. apply (Q d V1).
  Qed.
End NScheduler.
(** everything in turn *)
Definition nturn_of (a : nat) : nlabel :=
  let (q, b) := Cantor.of_nat a in let (i, k) := Cantor.of_nat b in
  match q with 0%nat => NDeliver i k | 1%nat => NDo i (LPlace k) | _ => NDo i (LTask k (AStep (mk_instant 0 0) 0)) end.
Definition nin_turn (n : nat) : nlabel := nturn_of (fst (Cantor.of_nat n)).
Lemma nin_turn_again q i k n : exists m, (n <= m)%nat /\ nin_turn m = nturn_of (Cantor.to_nat (q, Cantor.to_nat (i, k))).
Proof.
  set (a := Cantor.to_nat (q, Cantor.to_nat (i, k))). exists (Cantor.to_nat (a, n)). split; [pose proof (Cantor.to_nat_non_decreasing a n); lia|].
  unfold nin_turn. rewrite Cantor.cancel_of_to. reflexivity.
Qed.
Lemma nturn_is q i k : nturn_of (Cantor.to_nat (q, Cantor.to_nat (i, k))) = match q with 0%nat => NDeliver i k | 1%nat => NDo i (LPlace k) | _ => NDo i (LTask k (AStep (mk_instant 0 0) 0)) end.
Proof. unfold nturn_of. rewrite !Cantor.cancel_of_to. reflexivity. Qed.
Lemma nin_turn_gentle n : gentle (nin_turn n).
Proof. unfold nin_turn, nturn_of. destruct (Cantor.of_nat (fst (Cantor.of_nat n))) as [q b]. destruct (Cantor.of_nat b) as [i k]. destruct q as [|[|q]]; exact Coq.Init.Logic.I. Qed.
Lemma net_fair_run w : endless_net w (nf w nin_turn) (nst w nin_turn) (nob w nin_turn) /\ nclocks (nf w nin_turn)
  /\ (forall i, fair_at w (nf w nin_turn) (nst w nin_turn) i) /\ forall i k, fair_on w (nf w nin_turn) (nst w nin_turn) i k.
Proof.
  split; [apply nscheduled|]. split; [|split].
  - intros n i j t v H. unfold nf in H. destruct (nstep w (nst w nin_turn n) (nin_turn n)); [|discriminate]. injection H as H. unfold nin_turn, nturn_of in H.
    destruct (Cantor.of_nat (fst (Cantor.of_nat n))) as [q b]. destruct (Cantor.of_nat b) as [i' k']. destruct q as [|[|q]]; try discriminate H. injection H as _ _ <- _. split; reflexivity.
  - apply ntried_fair; [exact nin_turn_gentle|]. intros i j n. destruct (nin_turn_again 2 i j n) as (m & L & E). exists m, (mk_instant 0 0), 0. split; [exact L|]. rewrite E, nturn_is. reflexivity.
  - intros i k l Hl n. apply ntried. destruct Hl as [-> | ->]; [destruct (nin_turn_again 0 i k n) as (m & L & E)|destruct (nin_turn_again 1 i k n) as (m & L & E)]; exists m; (split; [exact L|]); rewrite E, nturn_is; reflexivity.
Qed.
