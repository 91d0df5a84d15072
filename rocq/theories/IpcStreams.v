(** Proofs about endpoints: reply streams. *)
From Verif Require Import Base BaseFacts BuilderFacts Codec Spec Ids IdsFacts Payload Builder Emit EmitFacts Ipc SpecIpc IpcFacts IpcChanFacts IpcUsers IpcLoops IpcIds IpcTasks IpcReplies.
From Coq Require Import ZifyBool ZifyNat ZifyN.

Lemma items_app h a b : items h (a ++ b) = items h a ++ items h b.
Proof. apply flat_map_app. Qed.
Lemma yields_app a b : yields (a ++ b) = yields a ++ yields b.
Proof. apply map_app. Qed.
Lemma no_end_snoc l e : no_end l -> ev_type e <> End -> no_end (l ++ [e]).
Proof. intros. apply Forall_app. split; auto. Qed.

(** who takes events for stream [h] *)
Lemma taken_stream cf s l s' os h x : users s -> step cf s l = Some (s', os) -> nth_error (e_streams s) h = Some x ->
  taken (st_chan x) os = [] \/
  exists i a k e, l = LTask i a /\ tst s i = Some (TNext h k) /\ taken (st_chan x) os = [e]
    /\ ((ev_type e = End /\ tst s' i = Some (TNextGot h (Some e) k) /\ items h os = [] /\ e_streams s' = e_streams s)
        \/ (ev_type e <> End /\ items h os = [Some (Ok e)])).
Proof.
  intros U H Hx.
  destruct (step_chan _ _ _ _ _ (st_chan x) H) as [E1 Q K G NL|j ctx e w E -> E' _|m e ch _ -> El E1 Eo L E'|e b ch E1 Eb Q K G NL Hu E'|ch E1 Q K G NL Hu E'|E1 E' Q K NL Hu]; auto.
  right. destruct Hu as [j a st' Hj Hcj|j a st' h' x' Hj Hp' Hx' Hc'|h' x' Hx' Hc' Hb Hd].
  - exfalso. exact (u_ts _ U _ _ _ _ _ Hj Hcj Hx eq_refl).
  - assert (h' = h) by (eapply (u_ss _ U); eauto). subst h'. assert (x' = x) by congruence. subst x'.
    exists j, a. destruct st' as [p|ctx e1 w|ctx e1 pu|d rid k|d rid e1 k|h1 k|h1 oe k|rid| |]; try discriminate Hp'; inversion Hp'; subst h1.
    + exists k, e. split; [reflexivity|]. split; [exact Hj|]. split; [exact K|].
      cbn [step] in H. unfold task_step in H. unfold tst in *. destruct (nth_error (e_tasks s) j) as [tk|] eqn:Et; [|discriminate]. cbn in Hj. inversion Hj as [Ej]. rewrite Ej in H.
      destruct a; try discriminate H.
      * rewrite Hx, E1, Eb in H. destruct (etype_eqb (ev_type e) End) eqn:Ee; apply some_pair in H; destruct H as [<- <-].
        -- left. apply etype_End in Ee. split; [exact Ee|]. split; [|split; [reflexivity|autorewrite with ep; reflexivity]]. autorewrite with ep. rewrite Nat.eqb_refl, Et. reflexivity.
        -- right. split; [rewrite <- etype_End; congruence|]. cbn. rewrite Nat.eqb_refl. reflexivity.
      * rewrite Hx in H. apply some_pair in H; destruct H as [<- <-]. discriminate K.
      * apply some_pair in H; destruct H as [<- <-]. discriminate K.
    + exfalso. cbn [step] in H. unfold task_step in H. unfold tst in *. destruct (nth_error (e_tasks s) j) as [tk|] eqn:Et; [|discriminate]. cbn in Hj. inversion Hj as [Ej]. rewrite Ej in H.
      destruct a; try discriminate H. rewrite Hx in H. apply some_pair in H; destruct H as [<- <-]. discriminate K.
  - exfalso. cbn [step] in H. rewrite Hx' in H. destruct (st_state x') eqn:Es; try congruence; apply some_pair in H; destruct H as [<- <-]; discriminate K.
Qed.

Definition opened (tr : list obs) (h : nat) (x : N) (c : nat) : Prop := exists i, In (OOpened i h x c) tr /\ asked tr i x c.
Lemma opened_app tr os h x c : opened tr h x c -> opened (tr ++ os) h x c.
Proof. intros (i & A & B). exists i. split; [apply in_or_app; auto|apply asked_app; exact B]. Qed.
Definition stream_trace (tr : list obs) (h : nat) (x : stream) : Prop :=
  opened tr h (st_id x) (st_chan x) /\
  match st_state x with
  | SOpen => items h tr = yields (taken (st_chan x) tr) /\ no_end (taken (st_chan x) tr)
  | SBusy => exists pre, items h tr = yields pre /\ no_end pre /\ (taken (st_chan x) tr = pre \/ exists e, taken (st_chan x) tr = pre ++ [e] /\ ev_type e = End)
  | SEnded => (exists pre e k, taken (st_chan x) tr = pre ++ [e] /\ no_end pre /\ ev_type e = End /\ items h tr = yields (taken (st_chan x) tr) ++ repeat None k)
              \/ (exists k, no_end (taken (st_chan x) tr) /\ items h tr = yields (taken (st_chan x) tr) ++ repeat None (S k))
  | SPoisoned => items h tr = yields (taken (st_chan x) tr) ++ [Some (Err Timeout)] /\ no_end (taken (st_chan x) tr)
  | SDropped => stream_history (taken (st_chan x) tr) (items h tr)
  end.
Definition poll_trace (s : ep) (tr : list obs) (st : tstate) : Prop :=
  match st with
  | TNext h _ | TNextGot h None _ => exists x, nth_error (e_streams s) h = Some x /\ items h tr = yields (taken (st_chan x) tr) /\ no_end (taken (st_chan x) tr)
  | TNextGot h (Some e) _ => exists x pre, nth_error (e_streams s) h = Some x /\ taken (st_chan x) tr = pre ++ [e] /\ items h tr = yields pre /\ no_end pre /\ ev_type e = End
  | _ => True
  end.
Lemma repeat_snoc {A} (x : A) k : repeat x k ++ [x] = repeat x (S k).
Proof. induction k; cbn; [reflexivity|]. f_equal. exact IHk. Qed.

Section Streams.
  Context (cf : config) (nc : nat) (armed : bool) (ps : list prog) (ctr : N).
  Lemma inv_stream ls s tr : runs cf nc armed ps ctr ls s tr ->
    (forall h x, nth_error (e_streams s) h = Some x -> stream_trace tr h x) /\ (forall i st, tst s i = Some st -> poll_trace s tr st).
  Proof.
    apply (run_ind cf _ (fun ls s tr => (forall h x, nth_error (e_streams s) h = Some x -> stream_trace tr h x) /\ (forall i st, tst s i = Some st -> poll_trace s tr st))).
    { split; [intros [|h] x E; discriminate|]. intros i st. unfold tst. cbn [ep_new e_tasks]. rewrite nth_error_map. destruct (nth_error ps i); cbn; [|discriminate]. intros E. inversion E. exact I. }
    clear ls s tr. intros ls s tr l s' os [IS IP] HR H. pose proof (inv_users _ _ _ _ _ _ _ _ HR) as U.
    assert (IC := inv_chan _ _ _ _ _ _ _ _ HR).
    split.
    - intros h x Hx. assert (V := step_stream _ _ _ _ _ h H).
      destruct V as [l E1 E2 E3|i a ctx e c k E1 E2 E3 E4 E5|i a y E1 E2 E3 E4|i a y k E1 E2 E3 E4 E5|i a y k ch1 e b E1 E2 E3 E4 E5 E6 E7
         |i y k E1 E2 E3 E4|i y k E1 E2 E3 E4|i a y oe k E1 E2 E3 E4|y E1 E2 E3 E4 E5].
      + rewrite E1 in Hx. destruct (IS _ _ Hx) as [O S]. split; [apply opened_app; exact O|]. rewrite items_app, taken_app, E2, app_nil_r.
        destruct (taken_stream _ _ _ _ _ _ _ U H Hx) as [T|(i & a & k & e & -> & Hi & T & [(Te & _ & _ & _)|(_ & Q)])]; [| |congruence].
        * rewrite T, app_nil_r. exact S.
        * destruct (u_poll _ U _ _ _ Hi eq_refl) as (x' & Hx' & Sx). assert (x' = x) by congruence. subst x'. rewrite Sx in *.
          destruct (IP _ _ Hi) as (x' & Hx'' & A & B). assert (x' = x) by congruence. subst x'. rewrite T. exists (taken (st_chan x) tr). repeat split; auto. right. exists e. auto.
      + rewrite E4 in Hx. inversion Hx; subst x. cbn [st_id st_chan st_state stream_trace] in *.
        destruct (inv_ask _ _ _ _ _ _ _ _ HR _ _ E2) as [A B].
        assert (N : items h tr = []).
        { clear - HR E1. subst h. revert HR. 
          assert (G : forall ls s tr, runs cf nc armed ps ctr ls s tr -> forall h, (length (e_streams s) <= h)%nat -> items h tr = []).
          { intros ls0 s0 tr0. apply (run_ind cf _ (fun ls s tr => forall h, (length (e_streams s) <= h)%nat -> items h tr = [])); [reflexivity|].
            clear. intros ls s tr l s' os IH HR H h L. rewrite items_app.
            destruct (step_stream _ _ _ _ _ h H) as [l E1 E2 E3|i a ctx e c k E1 E2 E3 E4 E5|i a y E1 E2 E3 E4|i a y k E1 E2 E3 E4 E5|i a y k ch1 e b E1 E2 E3 E4 E5 E6 E7
              |i y k E1 E2 E3 E4|i y k E1 E2 E3 E4|i a y oe k E1 E2 E3 E4|y E1 E2 E3 E4 E5];
              try (exfalso; match goal with E : nth_error (e_streams s') h = Some _ |- _ => pose proof (proj1 (nth_error_Some (e_streams s') h)) as Z; rewrite E in Z; specialize (Z ltac:(discriminate)); lia end).
            rewrite IH, E2; [reflexivity|]. apply nth_error_None. rewrite <- E1. apply nth_error_None. exact L. }
          intros HR. apply (G _ _ _ HR). lia. }
        unfold stream_trace. cbn [st_id st_chan st_state]. subst os. rewrite items_app, taken_app, N, B. cbn. split; [|split; [reflexivity|constructor]].
        exists i. split; [apply in_or_app; right; right; left; reflexivity|]. split; [apply in_or_app; auto|]. exists ctx, e. split; [apply in_or_app; right; left; reflexivity|reflexivity].
      + assert (x = y) by congruence. subst y. destruct (IS _ _ E1) as [O S]. split; [apply opened_app; exact O|]. rewrite E2 in *. subst os. rewrite items_app, taken_app. cbn. rewrite Nat.eqb_refl, app_nil_r.
        destruct S as [(pre & e & k & A & B & C & D)|(k & A & D)].
        * left. exists pre, e, (S k). repeat split; auto. rewrite D, <- app_assoc. f_equal. apply repeat_snoc.
        * right. exists (S k). split; auto. rewrite D, <- app_assoc. f_equal. apply repeat_snoc.
      + rewrite E3 in Hx. inversion Hx; subst x. destruct (IS _ _ E1) as [O S]. split; [apply opened_app; exact O|]. rewrite E2 in S. subst os. rewrite app_nil_r. cbn [st_state st_chan]. destruct S as [A B]. exists (taken (st_chan y) tr). auto.
      + rewrite E6 in Hx. inversion Hx; subst x. destruct (IS _ _ E1) as [O S]. split; [apply opened_app; exact O|]. cbn [st_state st_chan].
        destruct (IP _ _ E2) as (y' & Hy' & A & B). assert (y' = y) by congruence. subst y'. subst os. rewrite items_app, taken_app, A. cbn. rewrite !Nat.eqb_refl, yields_app. split; [reflexivity|apply no_end_snoc; auto].
      + rewrite E3 in Hx. inversion Hx; subst x. destruct (IS _ _ E1) as [O S]. split; [apply opened_app; exact O|]. cbn [st_state st_chan].
        destruct (IP _ _ E2) as (y' & Hy' & A & B). assert (y' = y) by congruence. subst y'. subst os. rewrite items_app, taken_app, A. cbn. rewrite !Nat.eqb_refl, !app_nil_r. split; [reflexivity|exact B].
      + rewrite E3 in Hx. inversion Hx; subst x. destruct (IS _ _ E1) as [O S]. split; [apply opened_app; exact O|]. cbn [st_state st_chan].
        destruct (IP _ _ E2) as (y' & Hy' & A & B). assert (y' = y) by congruence. subst y'. subst os. rewrite items_app, taken_app, A. cbn. rewrite !app_nil_r. auto.
      + rewrite E3 in Hx. inversion Hx; subst x. destruct (IS _ _ E1) as [O S]. split; [apply opened_app; exact O|]. cbn [st_state st_chan].
        assert (P := IP _ _ E2). destruct oe as [e|]; cbn in P.
        * destruct P as (y' & pre & Hy' & A & B & C & D). assert (y' = y) by congruence. subst y'. subst os. rewrite items_app, taken_app, B. cbn. rewrite !Nat.eqb_refl, !app_nil_r. left. exists pre, e, 0%nat. rewrite A, yields_app. cbn. rewrite app_nil_r. auto.
        * destruct P as (y' & Hy' & A & B). assert (y' = y) by congruence. subst y'. subst os. rewrite items_app, taken_app, A. cbn. rewrite !Nat.eqb_refl, !app_nil_r. right. exists 0%nat. auto.
      + rewrite E4 in Hx. inversion Hx; subst x. destruct (IS _ _ E1) as [O S]. split; [apply opened_app; exact O|]. cbn [st_state st_chan]. subst os. rewrite items_app, taken_app. cbn. rewrite !app_nil_r.
        destruct (st_state y); try congruence.
        * destruct S as [-> S]. apply sh_open. exact S.
        * destruct S as [(pre & e & k & A & B & C & ->)|(k & A & ->)]; [eapply sh_end; eauto|apply sh_none; exact A].
        * destruct S as [-> S]. apply sh_timeout. exact S.
    - intros i st Hi. destruct (tpoll st) as [h|] eqn:Ep; [|destruct st as [ | | | | | |? [?|] ?| | |]; try discriminate Ep; exact I].
      destruct (tst_after _ _ _ _ _ _ _ H Hi) as [[Hi' Hl]|[(a & st0 & -> & H0 & Ht)|(p & -> & _)]]; [| |exact I].
      + destruct (u_poll _ U _ _ _ Hi' Ep) as (x & Hx & Sx).
        assert (K : nth_error (e_streams s') h = Some x /\ items h os = [] /\ taken (st_chan x) os = []).
        { assert (Nt : taken (st_chan x) os = []).
          { destruct (taken_stream _ _ _ _ _ _ _ U H Hx) as [T|(j & a & k & e & -> & Hj & _)]; [exact T|]. destruct (Hl a). f_equal. exact (u_pp _ U _ _ _ _ _ Hj Hi' eq_refl Ep). }
          destruct (step_stream _ _ _ _ _ h H) as [l E1 E2 E3|j a ctx e c k E1 E2 E3 E4 E5|j a y E1 E2 E3 E4|j a y k E1 E2 E3 E4 E5|j a y k ch1 e b E1 E2 E3 E4 E5 E6 E7
              |j y k E1 E2 E3 E4|j y k E1 E2 E3 E4|j a y oe k E1 E2 E3 E4|y E1 E2 E3 E4 E5]; try congruence.
          - repeat split; auto. congruence.
          - exfalso. pose proof (proj1 (nth_error_Some (e_streams s) h)) as Z. rewrite Hx in Z. specialize (Z ltac:(discriminate)). lia.
          - exfalso. apply (Hl a). f_equal. exact (u_pp _ U _ _ _ _ _ E2 Hi' eq_refl Ep).
          - exfalso. apply (Hl ATimeout). f_equal. exact (u_pp _ U _ _ _ _ _ E2 Hi' eq_refl Ep).
          - exfalso. apply (Hl ADrop). f_equal. exact (u_pp _ U _ _ _ _ _ E2 Hi' eq_refl Ep).
          - exfalso. apply (Hl a). f_equal. exact (u_pp _ U _ _ _ _ _ E2 Hi' eq_refl Ep). }
        destruct K as (K1 & K2 & K3). specialize (IP _ _ Hi'). unfold poll_trace in *.
        destruct st as [ | | | | |h1 ?|h1 [e1|] ?| | |]; try exact I; inversion Ep; subst h1.
        * destruct IP as (y & Hy & A & B). assert (y = x) by congruence. subst y. exists x. rewrite items_app, taken_app, K2, K3, !app_nil_r. auto.
        * destruct IP as (y & pre & Hy & A & B). assert (y = x) by congruence. subst y. exists x, pre. rewrite items_app, taken_app, K2, K3, !app_nil_r. auto.
        * destruct IP as (y & Hy & A & B). assert (y = x) by congruence. subst y. exists x. rewrite items_app, taken_app, K2, K3, !app_nil_r. auto.
      + (* own step *)
        destruct (task_step_poll _ _ _ _ _ _ _ _ _ Ht H0 Hi Ep) as [[A B]|(A & x & B & D & E)].
        * (* TNext -> TNextGot *)
          destruct (u_poll _ U _ _ _ H0 A) as (x & Hx & Sx). assert (P := IP _ _ H0).
          assert (Q : exists k, st0 = TNext h k /\ ((os = [] /\ st = TNextGot h None k) \/ exists e, st = TNextGot h (Some e) k /\ os = [OTaken (st_chan x) e] /\ ev_type e = End)).
          { clear - Ht H0 Hi A Hx Ep. unfold task_step in Ht. unfold tst in *. destruct (nth_error (e_tasks s) i) as [tk|] eqn:Et; [|discriminate]. cbn in H0. inversion H0 as [Ej]. rewrite Ej in *. clear H0.
            destruct st0 as [p|ctx e1 w|ctx e1 pu|d rid k|d rid e1 k|h1 k|h1 oe k|rid| |]; try discriminate A; inversion A; subst h1; destruct a; try discriminate Ht.
            - rewrite Hx in Ht. destruct (nth_error (e_chans s) (st_chan x)) as [ch|]; [|discriminate]. exists k. split; [reflexivity|]. destruct (ch_buf ch) as [|e b].
              + destruct (has_sender s (st_chan x)); [discriminate|]. apply some_pair in Ht; destruct Ht as [<- <-]. autorewrite with ep in Hi. rewrite Nat.eqb_refl, Et in Hi. inversion Hi. auto.
              + destruct (etype_eqb (ev_type e) End) eqn:Ee; apply some_pair in Ht; destruct Ht as [<- <-]; autorewrite with ep in Hi; rewrite Nat.eqb_refl, Et in Hi; inversion Hi; subst st; [|discriminate Ep].
                right. exists e. apply etype_End in Ee. auto.
            - rewrite Hx in Ht. apply some_pair in Ht; destruct Ht as [<- <-]. autorewrite with ep in Hi. rewrite Nat.eqb_refl, Et in Hi. inversion Hi; subst st; discriminate Ep.
            - apply some_pair in Ht; destruct Ht as [<- <-]. autorewrite with ep in Hi. rewrite Nat.eqb_refl, Et in Hi. inversion Hi; subst st; discriminate Ep.
            - rewrite Hx in Ht. apply some_pair in Ht; destruct Ht as [<- <-]. autorewrite with ep in Hi. rewrite Nat.eqb_refl, Et in Hi. inversion Hi; subst st; discriminate Ep. }
          destruct Q as (k & -> & [(-> & ->)|(e & -> & -> & Te)]); cbn [poll_trace] in *; rewrite B; destruct P as (y & Hy & P1 & P2); assert (y = x) by congruence; subst y.
          -- exists x. rewrite app_nil_r. auto.
          -- exists x, (taken (st_chan x) tr). rewrite items_app, taken_app. cbn. rewrite Nat.eqb_refl, !app_nil_r. repeat split; auto.
        * (* PNext *)
          assert (Q : os = [] /\ exists k, st = TNext h k).
          { clear - Ht H0 Hi A Ep. unfold task_step in Ht. unfold tst in *. destruct (nth_error (e_tasks s) i) as [tk|] eqn:Et; [|discriminate]. cbn in H0. inversion H0 as [Ej]. rewrite Ej in *. clear H0.
            assert (L : (i <> length (e_tasks s))%nat) by (pose proof (proj1 (nth_error_Some (e_tasks s) i)); rewrite Et in *; intuition (try congruence; try lia)).
            destruct st0 as [p|ctx e w|ctx e pu|d rid k|d rid e k|h1 k|h1 oe k|rid| |]; destruct a; try discriminate Ht; try discriminate A; unfold run_prog, answer_event in Ht; cbn zeta in Ht;
              repeat (match type of Ht with context[match ?x with _ => _ end] => destruct x eqn:? end; try discriminate Ht);
              apply some_pair in Ht; destruct Ht as [<- <-]; autorewrite with ep in Hi; rewrite Nat.eqb_refl, ?(proj2 (Nat.eqb_neq _ _) L), ?Et in Hi; cbn [option_map tk_st tk_job] in Hi;
              apply (f_equal (fun o => match o with Some x => x | None => st end)) in Hi; cbn in Hi; subst st; try discriminate Ep. inversion Ep; subst. eauto. }
          destruct Q as [-> (k & ->)]. rewrite app_nil_r. cbn [poll_trace]. eexists. split; [exact E|]. cbn [st_chan]. destruct (IS _ _ B) as [_ S]. rewrite D in S. exact S.
  Qed.
End Streams.
