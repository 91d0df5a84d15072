(** Reading programs do not depend on how the transport delivers the bytes. *)
From Verif Require Import Base BaseFacts Reader CodecFacts.
From Coq Require Import ZifyBool ZifyNat ZifyN.

(** more bytes do not change a finished result *)
Lemma run_bytes_mono {A} E (p : rd A) l o r x :
  run_bytes E p l = POut o r -> run_bytes E p (l ++ x) = POut o (r ++ x).
Proof.
  revert l. induction p as [o'|n p IH|k c IH|n c IH]; intros l; cbn [run_bytes].
  - intros H; injection H as -> ->; reflexivity.
  - destruct (vec_alloc E n); [apply IH | intros H; injection H as <- <-; reflexivity | intros H; injection H as <- <-; reflexivity].
  - destruct (N.of_nat k <=? blen l) eqn:H; [|discriminate]. intros Hr.
    rewrite blen_app. replace (N.of_nat k <=? blen l + blen x) with true by lia.
    rewrite firstn_app, skipn_app. replace (k - length l)%nat with O by (unfold blen in H; lia).
    rewrite firstn_O, app_nil_r, skipn_O. apply IH, Hr.
  - destruct (n <=? blen l) eqn:H; [|discriminate]. intros Hr.
    rewrite blen_app. replace (n <=? blen l + blen x) with true by lia.
    rewrite firstn_app, skipn_app. replace (N.to_nat n - length l)%nat with O by (unfold blen in H; lia).
    rewrite firstn_O, app_nil_r, skipn_O. apply IH, Hr.
Qed.

(** what is left is a suffix *)
Lemma run_bytes_suffix {A} E (p : rd A) l o r :
  run_bytes E p l = POut o r -> exists used, l = used ++ r.
Proof.
  revert l. induction p as [o'|n p IH|k c IH|n c IH]; intros l; cbn [run_bytes].
  - intros H; injection H as -> ->. exists []; reflexivity.
  - destruct (vec_alloc E n); [apply IH | |]; intros H; injection H as <- <-; exists []; reflexivity.
  - destruct (N.of_nat k <=? blen l); [|discriminate]. intros Hr. apply IH in Hr as [u Hu].
    exists (firstn k l ++ u). rewrite <- app_assoc, <- Hu. symmetry; apply firstn_skipn.
  - destruct (n <=? blen l); [|discriminate]. intros Hr. apply IH in Hr as [u Hu].
    exists (firstn (N.to_nat n) l ++ u). rewrite <- app_assoc, <- Hu. symmetry; apply firstn_skipn.
Qed.

(** * sockets *)
Lemma take_run_spec s rem bs s' : take_run rem s = (bs, s') ->
  blen bs <= rem /\ fst (content s) = bs ++ fst (content s') /\ snd (content s) = snd (content s')
  /\ length s = (length bs + length s')%nat.
Proof.
  revert rem bs s'. induction s as [|[b| | | |] s IH]; intros rem bs s'; cbn [take_run];
    try (intros H; injection H as <- <-; cbn; repeat split; lia).
  destruct (rem =? 0) eqn:E0; [intros H; injection H as <- <-; cbn; repeat split; lia|].
  destruct (take_run (rem - 1) s) as [bs1 s1] eqn:T. intros H; injection H as <- <-.
  apply IH in T as (H1 & H2 & H3 & H4). rewrite blen_cons. cbn [content].
  destruct (content s) as [l e]. cbn [fst snd length] in *. subst. cbn [app]. repeat split; lia || reflexivity || idtac.
Qed.

Inductive sock_case (s : script) (rem : N) : script * bytes * pstat -> Prop :=
| sc_ready bs s' : bs <> [] -> blen bs <= rem -> fst (content s) = bs ++ fst (content s') ->
    snd (content s) = snd (content s') -> (length s' < length s)%nat -> sock_case s rem (s', bs, PReady)
| sc_eof s' : content s = ([], EndEof) -> content s' = ([], EndEof) -> sock_case s rem (s', [], PReady)
| sc_fail s' k : content s = ([], EndFail k) -> sock_case s rem (s', [], PFail k)
| sc_idle : content s = ([], EndIdle) -> sock_case s rem ([], [], PIdle)
| sc_pend s' : content s = content s' -> (length s' < length s)%nat -> sock_case s rem (s', [], PPend).

Lemma sock_read_case s rem : 0 < rem -> sock_case s rem (sock_read s rem).
Proof.
  intros Hrem. induction s as [|[b| | |k|] s IH]; cbn [sock_read].
  - apply sc_idle. reflexivity.
  - destruct (take_run rem (TB b :: s)) as [bs s'] eqn:T. pose proof T as T'.
    cbn [take_run] in T'. replace (rem =? 0) with false in T' by lia.
    destruct (take_run (rem - 1) s) as [bs1 s1]. injection T' as Eb _.
    apply take_run_spec in T as (H1 & H2 & H3 & H4).
    apply sc_ready; [congruence|assumption|assumption|assumption|]. rewrite H4. subst bs. cbn [length]. lia.
  - inversion IH; subst.
    + apply sc_ready; cbn [content length]; auto.
    + apply sc_eof; cbn [content]; auto.
    + apply sc_fail; cbn [content]; auto.
    + apply sc_idle; cbn [content]; auto.
    + apply sc_pend; cbn [content length]; auto.
  - apply sc_pend; cbn [content length]; auto.
  - apply sc_fail. reflexivity.
  - apply sc_eof; reflexivity.
Qed.

(** one primitive *)
Lemma loop_sock keep n : forall fuel got s,
  (length s < fuel)%nat -> blen got <= n ->
  (n <= blen got + blen (fst (content s)) ->
     (exists s', loop sock_read keep fuel n got s = LGot (firstn (N.to_nat n) (got ++ fst (content s))) s'
        /\ fst (content s') = skipn (N.to_nat n) (got ++ fst (content s)) /\ snd (content s') = snd (content s)
        /\ (length s' <= length s)%nat)
     \/ (exists g s', loop sock_read keep fuel n got s = LPend g s' /\ g ++ fst (content s') = got ++ fst (content s)
        /\ snd (content s') = snd (content s) /\ (length s' < length s)%nat /\ blen g <= n))
  /\ (blen got + blen (fst (content s)) < n ->
     (exists g s', loop sock_read keep fuel n got s = LPend g s' /\ g ++ fst (content s') = got ++ fst (content s)
        /\ snd (content s') = snd (content s) /\ (length s' < length s)%nat /\ blen g <= n)
     \/ match snd (content s) with
        | EndIdle => loop sock_read keep fuel n got s = LIdle (got ++ fst (content s)) []
        | EndEof => exists s', loop sock_read keep fuel n got s = LOut (Err (IoError UnexpectedEof)) s'
        | EndFail k => exists s', loop sock_read keep fuel n got s = LOut (Err (IoError k)) s'
        end).
Proof.
  induction fuel as [|fuel IH]; intros got s Hf Hg; [lia|].
  cbn [loop]. destruct (n <=? blen got) eqn:En.
  { assert (n = blen got) as -> by lia. split; [|lia]. intros _. left. exists s.
    rewrite firstn_blen, skipn_blen. auto. }
  pose proof (sock_read_case s (n - blen got) ltac:(lia)) as C.
  destruct C as [bs s' Hbs Hlen Hc He Hl | s' Hc Hc' | s' k Hc | Hc | s' Hc Hl].
  - destruct bs as [|b0 bs0] eqn:Eb; [contradiction|]. rewrite <- Eb in *. clear Eb b0 bs0.
    specialize (IH (got ++ bs) s' ltac:(lia)). rewrite blen_app in IH. specialize (IH ltac:(lia)).
    rewrite Hc, He. rewrite <- app_assoc in IH. rewrite blen_app.
    destruct IH as [I1 I2]. split.
    + intros Hn. destruct I1 as [(s2 & A & B & C & D)|(g & s2 & A & B & C & D & F)]; [lia| |].
      * left. exists s2. repeat split; auto. lia.
      * right. exists g, s2. repeat split; auto. lia.
    + intros Hn. destruct I2 as [(g & s2 & A & B & C & D & F)|I2]; [lia| |].
      * left. exists g, s2. repeat split; auto. lia.
      * right. exact I2.
  - rewrite Hc. cbn [fst snd]. split; [rewrite blen_nil; lia|]. intros _. right. eauto.
  - rewrite Hc. cbn [fst snd]. split; [rewrite blen_nil; lia|]. intros _. right. eauto.
  - rewrite Hc. cbn [fst snd]. split; [rewrite blen_nil; lia|]. intros _. right.
    rewrite !app_nil_r. destruct keep; reflexivity.
  - rewrite Hc. split; intros Hn; [right|left]; exists got, s'; destruct keep; rewrite ?app_nil_r; repeat split; auto.
Qed.

(** bytes a partly finished program has already taken *)
Definition ready_got {A} (p : rd A) (got : bytes) : Prop :=
  match p with
  | RInt k _ => blen got <= N.of_nat k
  | RExact n _ => blen got <= n
  | _ => got = []
  end.

Definition pend_ok {A} E (p : rd A) (got : bytes) (s : script) (q : rd A) (g : bytes) (s' : script) : Prop :=
  run_bytes E q (g ++ fst (content s')) = run_bytes E p (got ++ fst (content s))
  /\ (forall x, run_bytes E q (g ++ fst (content s') ++ x) = run_bytes E p (got ++ fst (content s) ++ x))
  /\ snd (content s') = snd (content s) /\ ready_got q g.

Lemma poll_sock {A} E fuel (p : rd A) : forall got s,
  (length s < fuel)%nat -> ready_got p got ->
  (exists q g s', poll_fut sock_read E fuel p got s = FPend q g s' /\ (length s' < length s)%nat /\ pend_ok E p got s q g s')
  \/ match run_bytes E p (got ++ fst (content s)) with
     | POut o rest => exists s', poll_fut sock_read E fuel p got s = FOut o s'
                        /\ content s' = (rest, snd (content s))
     | PMore => match snd (content s) with
        | EndIdle => exists q g, poll_fut sock_read E fuel p got s = FIdle q g [] /\ pend_ok E p got s q g []
        | EndEof => exists s', poll_fut sock_read E fuel p got s = FOut (Err (IoError UnexpectedEof)) s'
        | EndFail k => exists s', poll_fut sock_read E fuel p got s = FOut (Err (IoError k)) s'
        end
     end.
Proof.
  induction p as [o|n p IH|k c IH|n c IH]; intros got s Hf Hg; cbn [ready_got] in Hg.
  - subst got. right. cbn. exists s. split; [reflexivity|]. destruct (content s); reflexivity.
  - subst got. cbn [poll_fut app]. cbn [run_bytes]. destruct (vec_alloc E n) eqn:Ea.
    + destruct (IH [] s Hf) as [(q & g & s' & H1 & H2 & H3)|H].
      { destruct p; reflexivity || (unfold ready_got; rewrite ?blen_nil; lia). }
      * left. exists q, g, s'. repeat split; auto.
        -- cbn [run_bytes app]. rewrite Ea. apply H3.
        -- intros x. cbn [run_bytes app]. rewrite Ea. apply H3.
        -- apply H3.
        -- apply H3.
      * right. cbn [app] in H. destruct (run_bytes E p (fst (content s))); [exact H|].
        destruct (snd (content s)); [|exact H|exact H]. destruct H as (q & g & H1 & H3). exists q, g. repeat split; auto.
        -- cbn [run_bytes app]. rewrite Ea. apply H3.
        -- intros x. cbn [run_bytes app]. rewrite Ea. apply H3.
        -- apply H3.
        -- apply H3.
    + right. exists s. split; [reflexivity|]. destruct (content s); reflexivity.
    + right. exists s. split; [reflexivity|]. destruct (content s); reflexivity.
  - cbn [poll_fut]. destruct (loop_sock false (N.of_nat k) fuel got s Hf Hg) as [L1 L2].
    cbn [run_bytes]. destruct (N.of_nat k <=? blen (got ++ fst (content s))) eqn:Ek; rewrite blen_app in Ek.
    + destruct L1 as [(s' & H1 & H2 & H3 & H4)|(g & s' & H1 & H2 & H3 & H4 & H5)]; [lia| |].
      * rewrite H1. rewrite Nat2N.id in *.
        set (m := unbe (firstn k (got ++ fst (content s)))) in *.
        destruct (IH m [] s') as [(q & g & s2 & A1 & A2 & A3)|H]; [lia|destruct (c m); reflexivity || (unfold ready_got; rewrite ?blen_nil; lia)| |].
        -- left. exists q, g, s2. split; [exact A1|]. split; [lia|]. destruct A3 as (B1 & B2 & B3 & B4).
           repeat split.
           ++ cbn [run_bytes]. rewrite blen_app. replace (N.of_nat k <=? blen got + blen (fst (content s))) with true by lia.
              fold m. rewrite B1. cbn [app]. rewrite H2. reflexivity.
           ++ intros x. cbn [run_bytes]. rewrite !blen_app.
              replace (N.of_nat k <=? blen got + (blen (fst (content s)) + blen x)) with true by lia.
              rewrite B2. cbn [app]. rewrite H2. rewrite (app_assoc got).
              rewrite (firstn_app k (got ++ fst (content s)) x), (skipn_app k (got ++ fst (content s)) x).
              replace (k - length (got ++ fst (content s)))%nat with O
                by (rewrite app_length; unfold blen in Ek; lia).
              rewrite firstn_O, app_nil_r, skipn_O. fold m. reflexivity.
           ++ rewrite B3. exact H3.
           ++ exact B4.
        -- right. cbn [app] in H. rewrite H2, H3 in H.
           destruct (run_bytes E (c m) (skipn k (got ++ fst (content s)))); [exact H|].
           destruct (snd (content s)) eqn:Es; [|exact H|exact H].
           destruct H as (q & g & A1 & (B1 & B2 & B3 & B4)). exists q, g. split; [exact A1|]. repeat split; auto.
           ++ cbn [run_bytes]. rewrite blen_app. replace (N.of_nat k <=? blen got + blen (fst (content s))) with true by lia.
              fold m. rewrite B1. cbn [app]. rewrite H2. reflexivity.
           ++ intros x. cbn [run_bytes]. rewrite !blen_app.
              replace (N.of_nat k <=? blen got + (blen (fst (content s)) + blen x)) with true by lia.
              rewrite B2. cbn [app]. rewrite H2. rewrite (app_assoc got).
              rewrite (firstn_app k (got ++ fst (content s)) x), (skipn_app k (got ++ fst (content s)) x).
              replace (k - length (got ++ fst (content s)))%nat with O
                by (rewrite app_length; unfold blen in Ek; lia).
              rewrite firstn_O, app_nil_r, skipn_O. fold m. reflexivity.
      * rewrite H1. left. exists (RInt k c), g, s'. split; [reflexivity|]. split; [exact H4|].
        repeat split; auto; [rewrite H2; reflexivity| intros x; rewrite !app_assoc, H2; reflexivity].
    + destruct L2 as [(g & s' & H1 & H2 & H3 & H4 & H5)|L2]; [lia| |].
      * rewrite H1. left. exists (RInt k c), g, s'. split; [reflexivity|]. split; [exact H4|].
        repeat split; auto; [rewrite H2; reflexivity| intros x; rewrite !app_assoc, H2; reflexivity].
      * right. destruct (snd (content s)) eqn:Es.
        -- rewrite L2. eexists _, _. split; [reflexivity|].
           repeat split; auto; cbn [content fst snd]; rewrite ?app_nil_r; auto.
           ++ intros x. rewrite <- !app_assoc. reflexivity.
           ++ unfold ready_got. rewrite blen_app. lia.
        -- destruct L2 as [s' ->]. eauto.
        -- destruct L2 as [s' ->]. eauto.
  - cbn [poll_fut]. destruct (loop_sock true n fuel got s Hf Hg) as [L1 L2].
    cbn [run_bytes]. destruct (n <=? blen (got ++ fst (content s))) eqn:Ek; rewrite blen_app in Ek.
    + destruct L1 as [(s' & H1 & H2 & H3 & H4)|(g & s' & H1 & H2 & H3 & H4 & H5)]; [lia| |].
      * rewrite H1.
        set (m := firstn (N.to_nat n) (got ++ fst (content s))) in *.
        destruct (IH m [] s') as [(q & g & s2 & A1 & A2 & A3)|H]; [lia|destruct (c m); reflexivity || (unfold ready_got; rewrite ?blen_nil; lia)| |].
        -- left. exists q, g, s2. split; [exact A1|]. split; [lia|]. destruct A3 as (B1 & B2 & B3 & B4).
           repeat split.
           ++ cbn [run_bytes]. rewrite blen_app. replace (n <=? blen got + blen (fst (content s))) with true by lia.
              fold m. rewrite B1. cbn [app]. rewrite H2. reflexivity.
           ++ intros x. cbn [run_bytes]. rewrite !blen_app.
              replace (n <=? blen got + (blen (fst (content s)) + blen x)) with true by lia.
              rewrite B2. cbn [app]. rewrite H2. rewrite (app_assoc got).
              rewrite (firstn_app (N.to_nat n) (got ++ fst (content s)) x), (skipn_app (N.to_nat n) (got ++ fst (content s)) x).
              replace (N.to_nat n - length (got ++ fst (content s)))%nat with O
                by (rewrite app_length; unfold blen in Ek; lia).
              rewrite firstn_O, app_nil_r, skipn_O. fold m. reflexivity.
           ++ rewrite B3. exact H3.
           ++ exact B4.
        -- right. cbn [app] in H. rewrite H2, H3 in H.
           destruct (run_bytes E (c m) (skipn (N.to_nat n) (got ++ fst (content s)))); [exact H|].
           destruct (snd (content s)) eqn:Es; [|exact H|exact H].
           destruct H as (q & g & A1 & (B1 & B2 & B3 & B4)). exists q, g. split; [exact A1|]. repeat split; auto.
           ++ cbn [run_bytes]. rewrite blen_app. replace (n <=? blen got + blen (fst (content s))) with true by lia.
              fold m. rewrite B1. cbn [app]. rewrite H2. reflexivity.
           ++ intros x. cbn [run_bytes]. rewrite !blen_app.
              replace (n <=? blen got + (blen (fst (content s)) + blen x)) with true by lia.
              rewrite B2. cbn [app]. rewrite H2. rewrite (app_assoc got).
              rewrite (firstn_app (N.to_nat n) (got ++ fst (content s)) x), (skipn_app (N.to_nat n) (got ++ fst (content s)) x).
              replace (N.to_nat n - length (got ++ fst (content s)))%nat with O
                by (rewrite app_length; unfold blen in Ek; lia).
              rewrite firstn_O, app_nil_r, skipn_O. fold m. reflexivity.
      * rewrite H1. left. exists (RExact n c), g, s'. split; [reflexivity|]. split; [exact H4|].
        repeat split; auto; [rewrite H2; reflexivity| intros x; rewrite !app_assoc, H2; reflexivity].
    + destruct L2 as [(g & s' & H1 & H2 & H3 & H4 & H5)|L2]; [lia| |].
      * rewrite H1. left. exists (RExact n c), g, s'. split; [reflexivity|]. split; [exact H4|].
        repeat split; auto; [rewrite H2; reflexivity| intros x; rewrite !app_assoc, H2; reflexivity].
      * right. destruct (snd (content s)) eqn:Es.
        -- rewrite L2. eexists _, _. split; [reflexivity|].
           repeat split; auto; cbn [content fst snd]; rewrite ?app_nil_r; auto.
           ++ intros x. rewrite <- !app_assoc. reflexivity.
           ++ unfold ready_got. rewrite blen_app. lia.
        -- destruct L2 as [s' ->]. eauto.
        -- destruct L2 as [s' ->]. eauto.
Qed.

Lemma exec_sock {A} E : forall fuel (p : rd A) got s,
  (length s < fuel)%nat -> ready_got p got ->
  match run_bytes E p (got ++ fst (content s)) with
  | POut o rest => exists s', exec sock_read E fuel p got s = XOut o s' /\ content s' = (rest, snd (content s))
  | PMore => match snd (content s) with
    | EndIdle => exists q g, exec sock_read E fuel p got s = XIdle q g [] /\ ready_got q g /\
         (forall x, run_bytes E q (g ++ x) = run_bytes E p (got ++ fst (content s) ++ x))
    | EndEof => exists s', exec sock_read E fuel p got s = XOut (Err (IoError UnexpectedEof)) s'
    | EndFail k => exists s', exec sock_read E fuel p got s = XOut (Err (IoError k)) s'
    end
  end.
Proof.
  induction fuel as [|fuel IH]; intros p got s Hf Hg; [lia|].
  cbn [exec]. destruct (poll_sock E (S fuel) p got s Hf Hg) as [(q & g & s' & H1 & H2 & (B1 & B2 & B3 & B4))|H].
  - rewrite H1. specialize (IH q g s' ltac:(lia) B4). rewrite B1, B3 in IH.
    destruct (run_bytes E p (got ++ fst (content s))); [exact IH|].
    destruct (snd (content s)); [|exact IH|exact IH].
    destruct IH as (q' & g' & C1 & C2 & C3). exists q', g'. repeat split; auto. intros x. rewrite C3. apply B2.
  - destruct (run_bytes E p (got ++ fst (content s))).
    + destruct H as (s' & -> & H). eauto.
    + destruct (snd (content s)).
      * destruct H as (q & g & -> & (B1 & B2 & B3 & B4)). exists q, g. repeat split; auto.
      * destruct H as (s' & ->). eauto.
      * destruct H as (s' & ->). eauto.
Qed.
