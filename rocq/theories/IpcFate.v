(** Proofs about endpoints: what becomes of a registered listener. *)
From Verif Require Import Base BaseFacts BuilderFacts Codec Spec Ids IdsFacts Payload Builder Emit EmitFacts Ipc SpecIpc IpcFacts IpcChanFacts IpcUsers IpcLoops IpcTasks IpcIds IpcReplies IpcStreams IpcClaims IpcMore IpcFlow IpcLimits IpcRemoved.
From Coq Require Import ZifyBool ZifyNat ZifyN.

Section Fate.
  Context (cf : config) (nc : nat) (armed : bool) (ps : list prog) (ctr : N).
  Local Notation runs' := (runs cf nc armed ps ctr).
  Definition fate (s : ep) (tr : list obs) (i : nat) (x : N) (c : nat) : Prop :=
    (exists st, tst s i = Some st /\ tchan st = Some c)
    \/ (exists h, In (OOpened i h x c) tr)
    \/ (gone_b c tr = true /\ ((exists r, In (OReply i x r) tr) \/ (exists ctx e, In (OCut i ctx e) tr /\ ev_id e = x) \/ (exists e cr, In e (taken c tr) /\ reply_result (cf_env cf) e = Crash cr))).
  Lemma inv_fate ls s tr : runs' ls s tr -> forall i x c, In (OListen i x c) tr -> fate s tr i x c.
  Proof.
    apply (run_ind cf _ (fun ls s tr => forall i x c, In (OListen i x c) tr -> fate s tr i x c)); [intros i x c []|].
    intros l0 s0 tr0 l s' os IH HR H i x c Q. apply in_app_or in Q. destruct Q as [Q|Q].
    - destruct (IH _ _ _ Q) as [(st & A & B)|[(h & A)|(A & B)]].
      + pose proof (inv_users _ _ _ _ _ _ _ _ HR) as U. destruct (u_task _ U _ _ _ A B) as (ch & C1 & C2 & C3).
        pose proof (inv_chan _ _ _ _ _ _ _ _ HR c) as CT. rewrite C1 in CT. destruct CT as (_ & _ & CT & _). pose proof (CT _ _ Q) as Ex. subst x.
        assert (D : (forall a, l <> LTask i a) \/ exists a, l = LTask i a) by (destruct l as [j a| | | | | |]; try (left; discriminate); destruct (Nat.eq_dec j i) as [->|]; [right; eauto|left; congruence]).
        destruct D as [D|(a & ->)].
        * left. exists st. split; [|exact B]. rewrite (tst_kept _ _ _ _ _ _ H D) by congruence. exact A.
        * pose proof (inv_ask _ _ _ _ _ _ _ _ HR _ _ A) as AT. unfold tst in A. destruct (nth_error (e_tasks s0) i) as [tk|] eqn:Hi; [|discriminate]. cbn in A. injection A as A.
          cbn [step] in H. unfold task_step in H. rewrite Hi, A in H. unfold fate.
          destruct st as [p|? ? ?|ctx e [k|d k|d k|ok]|d rid k|d rid e k|h k|h oe k|rid| |]; try discriminate B; cbn in B, C2; injection B as ->; injection C2 as C2; cbn in AT;
          destruct a; try discriminate H.
          -- apply some_pair in H. destruct H as [<- <-]. left. eexists. split; [apply tst_set_task; congruence|reflexivity].
          -- apply some_pair in H. destruct H as [<- <-]. right. right. rewrite gone_app. cbn [gone_b existsb]. rewrite Nat.eqb_refl, !orb_true_r. split; [reflexivity|]. left. eexists. apply in_or_app. right. rewrite <- C2. right. right. left. reflexivity.
          -- apply some_pair in H. destruct H as [<- <-]. right. right. rewrite gone_app. cbn [gone_b existsb]. rewrite Nat.eqb_refl, !orb_true_r. split; [reflexivity|]. left. eexists. apply in_or_app. right. rewrite <- C2. right. right. left. reflexivity.
          -- apply some_pair in H. destruct H as [<- <-]. right. left. eexists. apply in_or_app. right. rewrite <- C2. right. left. reflexivity.
          -- apply some_pair in H. destruct H as [<- <-]. right. right. rewrite gone_app. cbn [gone_b existsb]. rewrite Nat.eqb_refl, !orb_true_r. split; [reflexivity|]. right. left. exists ctx, e. split; [apply in_or_app; right; left; reflexivity|exact C2].
          -- apply some_pair in H. destruct H as [<- <-]. right. right. rewrite gone_app. cbn [gone_b existsb]. rewrite Nat.eqb_refl, !orb_true_r. split; [reflexivity|]. right. left. exists ctx, e. split; [apply in_or_app; right; left; reflexivity|exact C2].
          -- rewrite C1 in H. destruct (ch_buf ch) as [|e0 b0].
             ++ destruct (has_sender s0 c); [discriminate|]. apply some_pair in H. destruct H as [<- <-]. right. right. rewrite gone_app. cbn [gone_b existsb]. rewrite Nat.eqb_refl, !orb_true_r. split; [reflexivity|]. left. eexists. apply in_or_app. right. rewrite <- C2. right. left. reflexivity.
             ++ apply some_pair in H. destruct H as [<- <-]. left. eexists. split; [apply tst_set_task; rewrite tasks_set_chan; congruence|reflexivity].
          -- apply some_pair in H. destruct H as [<- <-]. right. right. rewrite gone_app. cbn [gone_b existsb]. rewrite Nat.eqb_refl, !orb_true_r. split; [reflexivity|]. left. eexists. apply in_or_app. right. rewrite <- C2. right. left. reflexivity.
          -- apply some_pair in H. destruct H as [<- <-]. right. right. rewrite gone_app. cbn [gone_b existsb]. rewrite Nat.eqb_refl, !orb_true_r. split; [reflexivity|]. left. eexists. apply in_or_app. right. rewrite <- C2. right. left. reflexivity.
          -- cbn zeta in H. destruct AT as [_ AT]. destruct (reply_result (cf_env cf) e) as [r|er|cr] eqn:Er; apply some_pair in H; destruct H as [<- <-]; right; right; rewrite gone_app; cbn [gone_b existsb]; rewrite Nat.eqb_refl, !orb_true_r; (split; [reflexivity|]).
             ++ left. eexists. apply in_or_app. right. rewrite <- C2. right. right. left. reflexivity.
             ++ left. eexists. apply in_or_app. right. rewrite <- C2. right. right. left. reflexivity.
             ++ right. right. exists e, cr. split; [|exact Er]. rewrite taken_app, AT. left. reflexivity.
      + right. left. exists h. apply in_or_app. auto.
      + right. right. split; [rewrite gone_app, A; reflexivity|]. destruct B as [(r & B)|[(ctx & e & B & B')|(e & cr & B & C)]].
        * left. exists r. apply in_or_app. auto.
        * right. left. exists ctx, e. split; [apply in_or_app; auto|exact B'].
        * right. right. exists e, cr. split; [rewrite taken_app; apply in_or_app; auto|exact C].
    - destruct (listen_step _ _ _ _ _ _ _ _ H Q) as (a & ctx & e & w & pu & _ & _ & _ & _ & _ & A & B). left. eexists. split; eassumption.
  Qed.
End Fate.
