(** Proofs about two joined endpoints: infrastructure, endpoints whose handlers only emit. *)
From Verif Require Import Base BaseFacts BuilderFacts Codec Spec Ids IdsFacts Payload Builder Emit EmitFacts Ipc SpecIpc IpcFacts IpcChanFacts IpcUsers IpcLoops IpcTasks IpcIds IpcReplies IpcStreams IpcClaims IpcMore IpcFlow IpcLimits IpcRemoved Pair SpecPair.
From Coq Require Import ZifyBool ZifyNat ZifyN.

(** ** Runs of a pair *)
Lemma prun_app cf ls1 : forall p ls2, prun cf p (ls1 ++ ls2) =
  match prun cf p ls1 with
  | Some (p1, o1) => match prun cf p1 ls2 with Some (p2, o2) => Some (p2, o1 ++ o2) | None => None end
  | None => None
  end.
Proof.
  induction ls1 as [|l ls1 IH]; intros p ls2; cbn [prun app].
  - destruct (prun cf p ls2) as [[p2 o2]|]; reflexivity.
  - destruct (pstep cf p l) as [[p1 o1]|]; [|reflexivity]. rewrite IH. destruct (prun cf p1 ls1) as [[p2 o2]|]; [|reflexivity].
    destruct (prun cf p2 ls2) as [[p3 o3]|]; [|reflexivity]. rewrite app_assoc. reflexivity.
Qed.
Lemma prun_ind cf p0 (P : list plabel -> pair -> list (side * obs) -> Prop) : P [] p0 [] ->
  (forall ls p tr l p' os, P ls p tr -> prun cf p0 ls = Some (p, tr) -> pstep cf p l = Some (p', os) -> P (ls ++ [l]) p' (tr ++ os)) ->
  forall ls p tr, prun cf p0 ls = Some (p, tr) -> P ls p tr.
Proof.
  intros H0 HS ls. induction ls as [|l ls IH] using rev_ind; intros p tr H.
  - cbn in H. inversion H; subst. exact H0.
  - pose proof H as HR. rewrite prun_app in H. destruct (prun cf p0 ls) as [[p1 o1]|] eqn:E1; [|discriminate].
    cbn [prun] in H. destruct (pstep cf p1 l) as [[p2 o2]|] eqn:E2; [|discriminate]. rewrite app_nil_r in H. inversion H; subst.
    eapply HS; eauto.
Qed.
Lemma psnoc_run cf p0 ls p tr l p' os : prun cf p0 ls = Some (p, tr) -> pstep cf p l = Some (p', os) -> prun cf p0 (ls ++ [l]) = Some (p', tr ++ os).
Proof. intros H1 H2. rewrite prun_app, H1. cbn [prun]. rewrite H2, app_nil_r. reflexivity. Qed.

Lemma side_eqb_refl sd : side_eqb sd sd = true. Proof. destruct sd; reflexivity. Qed.
Lemma side_eqb_eq a b : side_eqb a b = true <-> a = b. Proof. destruct a, b; cbn; intuition congruence. Qed.
Lemma other_other sd : other (other sd) = sd. Proof. destruct sd; reflexivity. Qed.
Lemma other_ne sd : other sd <> sd. Proof. destruct sd; discriminate. Qed.
Lemma upd_eq {X} f sd (x : X) : upd f sd x sd = x. Proof. unfold upd. rewrite side_eqb_refl. reflexivity. Qed.
Lemma upd_ne {X} f sd (x : X) y : y <> sd -> upd f sd x y = f y. Proof. unfold upd. destruct (side_eqb y sd) eqn:E; [apply side_eqb_eq in E; congruence|reflexivity]. Qed.
Lemma two_sides sd sd' : sd' = sd \/ sd' = other sd. Proof. destruct sd, sd'; auto. Qed.
Lemma at_side_app sd a b : at_side sd (a ++ b) = at_side sd a ++ at_side sd b. Proof. apply flat_map_app. Qed.
Lemma at_side_map sd sd' os : at_side sd (map (fun o => (sd', o)) os) = if side_eqb sd' sd then os else [].
Proof. induction os as [|o os IH]; [destruct (side_eqb sd' sd); reflexivity|]. cbn [map at_side flat_map]. unfold at_side in IH. rewrite IH. cbn [fst snd]. destruct (side_eqb sd' sd); reflexivity. Qed.
Lemma at_side_in sd o tr : In o (at_side sd tr) <-> In (sd, o) tr.
Proof.
  unfold at_side. rewrite in_flat_map. split.
  - intros ([sd' o'] & A & B). cbn [fst snd] in B. destruct (side_eqb sd' sd) eqn:E; [|destruct B]. apply side_eqb_eq in E. subst. destruct B as [->|[]]. exact A.
  - intros A. exists (sd, o). split; [exact A|]. cbn [fst snd]. rewrite side_eqb_refl. left. reflexivity.
Qed.

(** what a step of a pair is *)
Inductive pview (cf : side -> config) (p : pair) (p' : pair) (os : list (side * obs)) : plabel -> Prop :=
| pv_do sd l s' o : own_label l = true -> step (cf sd) (p_ep p sd) l = Some (s', o) -> existsb is_cut o = false ->
    p_ep p' sd = s' -> p_ep p' (other sd) = p_ep p (other sd) -> p_in p' sd = p_in p sd -> p_in p' (other sd) = p_in p (other sd) ++ flat_map wire_of o ->
    os = map (fun x => (sd, x)) o -> pview cf p p' os (PDo sd l)
| pv_deliver sd e w s' o : p_in p sd = e :: w -> step (cf sd) (p_ep p sd) (LRecv 0 e) = Some (s', o) ->
    p_ep p' sd = s' -> p_ep p' (other sd) = p_ep p (other sd) -> p_in p' sd = w -> p_in p' (other sd) = p_in p (other sd) ->
    os = map (fun x => (sd, x)) o -> pview cf p p' os (PDeliver sd).
Lemma pstep_view cf p l p' os : pstep cf p l = Some (p', os) -> pview cf p p' os l.
Proof.
  destruct l as [sd l|sd]; cbn [pstep]; intros H.
  - destruct (own_label l) eqn:E0; [|discriminate]. destruct (step (cf sd) (p_ep p sd) l) as [[s' o]|] eqn:E; [|discriminate].
    destruct (existsb is_cut o) eqn:E1; [discriminate|]. apply some_pair in H. destruct H as [<- <-]. pose proof (other_ne sd). pose proof (fun Q => other_ne sd (eq_sym Q)).
    eapply pv_do; eauto; cbn [p_ep p_in]; rewrite ?upd_eq, ?upd_ne by assumption; reflexivity.
  - destruct (p_in p sd) as [|e w] eqn:E0; [discriminate|]. destruct (step (cf sd) (p_ep p sd) (LRecv 0 e)) as [[s' o]|] eqn:E; [|discriminate].
    apply some_pair in H. destruct H as [<- <-]. pose proof (other_ne sd). pose proof (fun Q => other_ne sd (eq_sym Q)).
    eapply pv_deliver; eauto; cbn [p_ep p_in]; rewrite ?upd_eq, ?upd_ne by assumption; reflexivity.
Qed.
(** seen from one side *)
Inductive eview (cf : side -> config) (sd : side) (p p' : pair) (os : list (side * obs)) (l : plabel) : Prop :=
| ev_idle : p_ep p' sd = p_ep p sd -> at_side sd os = [] -> eview cf sd p p' os l
| ev_step l' : step (cf sd) (p_ep p sd) l' = Some (p_ep p' sd, at_side sd os) -> at_side (other sd) os = [] -> existsb is_cut (at_side sd os) = false ->
    p_ep p' (other sd) = p_ep p (other sd) ->
    ((l = PDo sd l' /\ own_label l' = true /\ p_in p' sd = p_in p sd /\ p_in p' (other sd) = p_in p (other sd) ++ flat_map wire_of (at_side sd os))
     \/ exists e, l = PDeliver sd /\ l' = LRecv 0 e /\ p_in p sd = e :: p_in p' sd /\ p_in p' (other sd) = p_in p (other sd)) -> eview cf sd p p' os l.
Lemma recv_uncut cf s n e s' o : step cf s (LRecv n e) = Some (s', o) -> existsb is_cut o = false /\ flat_map wire_of o = [].
Proof. intros H. step_cases H; split; reflexivity. Qed.
Lemma pstep_side cf sd p l p' os : pstep cf p l = Some (p', os) -> eview cf sd p p' os l.
Proof.
  intros H. apply pstep_view in H. destruct H as [sd' l s' o A B C D E F G I|sd' e w s' o A B D E F G I]; subst os s'.
  - destruct (two_sides sd sd') as [ -> | -> ].
    + apply ev_step with l; rewrite ?at_side_map, ?side_eqb_refl; auto. destruct sd; reflexivity.
    + apply ev_idle; [rewrite other_other in E; exact E|]. rewrite at_side_map. destruct sd; reflexivity.
  - destruct (two_sides sd sd') as [ -> | -> ].
    + apply ev_step with (LRecv 0 e); rewrite ?at_side_map, ?side_eqb_refl; auto.
      * destruct sd; reflexivity.
      * apply (recv_uncut _ _ _ _ _ _ B).
      * right. exists e. rewrite F. auto.
    + apply ev_idle; [rewrite other_other in E; exact E|]. rewrite at_side_map. destruct sd; reflexivity.
Qed.

(** ** Each side runs by itself *)
Lemma fail_cuts cf s i k s' os : step cf s (LTask i (AFail k)) = Some (s', os) -> existsb is_cut os = true.
Proof. intros H. step_cases H; reflexivity. Qed.
Definition no_close (ls : list label) : Prop := forall n, ~ In (LClosed n) ls.
Lemma project cf ps ctr w ls p tr : pruns cf ps ctr w ls p tr -> forall sd, exists ls',
  runs (cf sd) 1 (side_eqb sd SideA) (ps sd) (ctr sd) ls' (p_ep p sd) (at_side sd tr) /\ (good_clocks ls -> good_clock ls') /\ no_write_failure ls' /\ no_close ls'
  /\ existsb is_cut (at_side sd tr) = false.
Proof.
  intros HR sd. revert ls p tr HR. apply (prun_ind cf _ (fun ls p tr => exists ls', runs (cf sd) 1 (side_eqb sd SideA) (ps sd) (ctr sd) ls' (p_ep p sd) (at_side sd tr) /\ (good_clocks ls -> good_clock ls') /\ no_write_failure ls' /\ no_close ls' /\ existsb is_cut (at_side sd tr) = false)).
  - exists []. split; [reflexivity|]. split; [intros _ i t v []|]. split; [intros i k []|]. split; [intros n []|reflexivity].
  - intros ls p tr l p' os (ls' & A & B & C & D & F) _ H. apply (pstep_side cf sd) in H. rewrite at_side_app.
    assert (G : good_clocks (ls ++ [l]) -> good_clocks ls) by (intros G sd' i t v Q; apply (G sd' i t v); apply in_or_app; auto).
    destruct H as [E1 E2|l' E1 E2 E3 E4 E5].
    + exists ls'. rewrite E1, E2, app_nil_r. auto 10.
    + exists (ls' ++ [l']). split; [eapply snoc_run; eauto|]. split; [|split; [|split]].
      * intros Hg i t v Q. apply in_app_or in Q. destruct Q as [Q|[Q|[]]]; [exact (B (G Hg) i t v Q)|]. subst l'.
        destruct E5 as [(-> & _)|(e & _ & Q & _)]; [|discriminate]. apply (Hg sd i t v). apply in_or_app. right. left. reflexivity.
      * intros i k Q. apply in_app_or in Q. destruct Q as [Q|[Q|[]]]; [exact (C _ _ Q)|]. subst l'. pose proof (fail_cuts _ _ _ _ _ _ E1). congruence.
      * intros n Q. apply in_app_or in Q. destruct Q as [Q|[Q|[]]]; [exact (D _ Q)|]. subst l'. destruct E5 as [(_ & Q & _)|(e & _ & Q & _)]; discriminate.
      * rewrite existsb_app, F, E3. reflexivity.
Qed.

(** ** The wires *)
Definition got_one (o : obs) : list event := match o with OReceived _ e => [e] | _ => [] end.
Definition got (tr : list obs) : list event := flat_map got_one tr.
Definition wired (tr : list obs) : list event := flat_map wire_of tr.
Lemma got_app a b : got (a ++ b) = got a ++ got b. Proof. apply flat_map_app. Qed.
Lemma wired_app a b : wired (a ++ b) = wired a ++ wired b. Proof. apply flat_map_app. Qed.
Lemma recv_got cf s n e s' o : step cf s (LRecv n e) = Some (s', o) -> got o = [e].
Proof. intros H. step_cases H; reflexivity. Qed.
Lemma own_got cf s l s' o : step cf s l = Some (s', o) -> own_label l = true -> got o = [].
Proof. intros H E. step_cases H; try discriminate; reflexivity. Qed.
Lemma wires cf ps ctr w ls p tr : pruns cf ps ctr w ls p tr -> forall sd, got (at_side sd tr) ++ p_in p sd = w sd ++ wired (at_side (other sd) tr).
Proof.
  intros HR sd. revert ls p tr HR. apply (prun_ind cf _ (fun ls p tr => got (at_side sd tr) ++ p_in p sd = w sd ++ wired (at_side (other sd) tr))).
  - cbn. rewrite app_nil_r. reflexivity.
  - intros ls p tr l p' os IH _ H. apply pstep_view in H. rewrite !at_side_app, got_app, wired_app.
    destruct H as [sd' l s' o A B C D E F G I|sd' e v s' o A B D E F G I]; subst os s'; rewrite !at_side_map; destruct (two_sides sd sd') as [ -> | -> ].
    + rewrite side_eqb_refl. replace (side_eqb sd (other sd)) with false by (destruct sd; reflexivity). cbn [wired flat_map]. rewrite !app_nil_r, F, (own_got _ _ _ _ _ B A), app_nil_r. exact IH.
    + rewrite side_eqb_refl. replace (side_eqb (other sd) sd) with false by (destruct sd; reflexivity). cbn [got flat_map]. rewrite other_other in G. rewrite G, app_nil_r, app_assoc, IH, <- app_assoc. reflexivity.
    + rewrite side_eqb_refl. replace (side_eqb sd (other sd)) with false by (destruct sd; reflexivity). cbn [wired flat_map]. rewrite app_nil_r, F, (recv_got _ _ _ _ _ _ B), <- app_assoc. cbn [app]. rewrite <- A. exact IH.
    + rewrite side_eqb_refl. replace (side_eqb (other sd) sd) with false by (destruct sd; reflexivity). rewrite other_other in G. rewrite G, app_nil_r. cbn [got flat_map].
      destruct (recv_uncut _ _ _ _ _ _ B) as [_ W]. unfold wired at 2. rewrite W, !app_nil_r. exact IH.
Qed.
Lemma in_got e tr : In e (got tr) <-> exists n, In (OReceived n e) tr.
Proof.
  unfold got. rewrite in_flat_map. split.
  - intros (o & A & B). destruct o; cbn in B; try destruct B as [<-|[]]; try destruct B. eauto.
  - intros (n & A). exists (OReceived n e). split; [exact A|left; reflexivity].
Qed.
Lemma in_wired e tr : In e (wired tr) <-> exists i ctx a, In (OSent i ctx a) tr /\ e = drop_empty_ns a.
Proof.
  unfold wired. rewrite in_flat_map. split.
  - intros (o & A & B). destruct o; cbn in B; try destruct B as [<-|[]]; try destruct B. eauto.
  - intros (i & ctx & a & A & ->). exists (OSent i ctx a). split; [exact A|left; reflexivity].
Qed.
Lemma drop_ref e : ev_ref (drop_empty_ns e) = ev_ref e. Proof. destruct e as [[? ? ? [[|]|] ?] ?]; reflexivity. Qed.
Lemma drop_id e : ev_id (drop_empty_ns e) = ev_id e. Proof. destruct e as [[? ? ? [[|]|] ?] ?]; reflexivity. Qed.
Lemma drop_type e : ev_type (drop_empty_ns e) = ev_type e. Proof. destruct e as [[? ? ? [[|]|] ?] ?]; reflexivity. Qed.
Lemma drop_data e : ev_data (drop_empty_ns e) = ev_data e. Proof. destruct e as [[? ? ? [[|]|] ?] ?]; reflexivity. Qed.
Lemma drop_name e : ev_name (drop_empty_ns e) = ev_name e. Proof. destruct e as [[? ? ? [[|]|] ?] ?]; reflexivity. Qed.
Lemma drop_none e : ev_ns e = None -> drop_empty_ns e = e. Proof. destruct e as [[? ? ? [[|]|] ?] ?]; cbn; congruence. Qed.
