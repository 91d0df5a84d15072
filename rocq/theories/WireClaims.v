(** What arrives of emits on an actual connection. *)
From Verif Require Import Base BaseFacts Reader ReaderFacts Codec Spec Ids IdsFacts Emit SpecEmit DecodeFacts EventProofs CodecFacts EmitFacts
  Crypt SpecCrypt CryptWriteFacts CryptFacts Wire SpecWire WireFacts.
From Coq Require Import ZifyBool ZifyNat ZifyN.

(** ** plain *)
Lemma cut_more E e l cut more : rust_event e -> fits e -> enough_mem E e -> into_bytes e = Ok l -> l = cut ++ more -> more <> [] ->
  run_bytes E (from_async_read E) cut = PMore.
Proof.
  intros R F M Hl -> Hx. destruct (decode_encoded E e [] R M F) as (l' & A & B).
  rewrite Hl in A. injection A as <-. rewrite app_nil_r in B. unfold decode in *.
  destruct (run_bytes E (from_async_read E) cut) as [o r|] eqn:Rc; [|reflexivity].
  apply run_bytes_mono with (x := more) in Rc. rewrite Rc in B. destruct o; cbn in B; try discriminate.
  injection B as _ B. apply app_eq_nil in B as [_ B]. contradiction.
Qed.

Lemma hears_all E part en es ls : run_bytes E (from_async_read E) part = PMore ->
  Forall2 (fun e l => into_bytes e = Ok l /\ rust_event e /\ fits e /\ enough_mem E e) es ls ->
  forall s, content s = (concat ls ++ part, en) -> exists r, hears E s (map drop_empty_ns es) r /\ ends_with en r.
Proof.
  intros HP. induction 1 as [|e l es ls (H1 & H2 & H3 & H4) _ IH]; intros s Hs; cbn [map].
  - cbn in Hs. pose proof (exec_sock E (S (length s)) (from_async_read E) [] s ltac:(lia) (N.le_0_l _)) as X.
    rewrite Hs in X. cbn [fst snd app] in X. rewrite HP in X. destruct en as [| |k].
    + destruct X as (q & g & X & _). eexists. split; [apply hears_stop; [exact X|discriminate]|]. eexists _, _, _. reflexivity.
    + destruct X as (s' & X). eexists. split; [apply hears_stop; [exact X|discriminate]|]. eexists. reflexivity.
    + destruct X as (s' & X). eexists. split; [apply hears_stop; [exact X|discriminate]|]. eexists. reflexivity.
  - cbn [concat] in Hs. rewrite <- app_assoc in Hs.
    destruct (decode_encoded E e [] H2 H4 H3) as (l' & A & B). assert (l' = l) as -> by congruence. rewrite app_nil_r in B.
    destruct (chunking_complete E s (S (length s)) l _ en _ ltac:(lia) Hs B) as (s' & X & C).
    destruct (IH s' C) as (r & R1 & R2). exists r. split; [|exact R2]. eapply hears_event; eassumption.
Qed.

Lemma plain_arrives E os w items out0 lbs s rs x sc en : w_lock w = None -> forallb healthy items = true -> Forall (acceptable E) os ->
  uncut plain_write plain_flush (g_start w (mk_wsock items out0) os) lbs ->
  g_run plain_write plain_flush (g_start w (mk_wsock items out0) os) lbs = Some (s, rs) ->
  ws_out (g_sock s) = out0 ++ x -> content sc = (x, en) ->
  exists ord r, from_calls os rs ord /\ hears E sc (map drop_empty_ns (map snd ord)) r /\ ends_with en r.
Proof.
  intros Hw Hh Ha Hu Hr Ho Hs. rewrite Forall_forall in Ha.
  destruct (g_result plain_write plain_flush os (fun _ => True) (R_plain out0) (plain_new out0) (plain_again out0) (plain_flushed out0)
    (fun _ _ _ _ _ _ _ => Logic.I) w (mk_wsock items out0) lbs s rs Hw ltac:(split; [exact Hh|exists []; split; [cbn; rewrite app_nil_r|]; reflexivity]) Hu Hr) as (ord & ph & I).
  assert (Acc : forall i o e l, nth_error os i = Some o -> mine o e l -> into_bytes e = Ok l /\ rust_event e /\ fits e /\ enough_mem E e).
  { intros i o e l Hi (M1 & M2 & M3). destruct (Ha o (nth_error_In _ _ Hi) e M1 M2) as (A & B & C). auto. }
  destruct (gi_R _ _ _ _ _ _ I) as (ls & F & _ & part & Hp & Hph). rewrite Ho in Hp. apply app_inv_head in Hp. subst x.
  assert (HP : run_bytes E (from_async_read E) part = PMore).
  { destruct ph as [|l rest|l|l].
    - subst part. reflexivity.
    - destruct (underway _ _ _ _ _ _ I ltac:(discriminate)) as (i & o & e & l' & Hi & Hm & _ & _ & [(rest' & Hne & Q)|Q]); [|discriminate].
      injection Q as <- <-. destruct (Acc _ _ _ _ Hi Hm) as (A & B & C & D). eapply cut_more; eauto.
    - destruct (underway _ _ _ _ _ _ I ltac:(discriminate)) as (i & o & e & l' & Hi & Hm & _ & _ & [(rest' & Hne & Q)|Q]); discriminate.
    - contradiction. }
  assert (F' : Forall2 (fun e l => into_bytes e = Ok l /\ rust_event e /\ fits e /\ enough_mem E e) (map snd ord) ls).
  { pose proof (gi_made _ _ _ _ _ _ I) as Hm. clear -F Hm Acc. induction F as [|[i e] l ord ls H F IH]; cbn [map]; [constructor|]. constructor.
    - destruct (Hm i e (or_introl eq_refl)) as (o & l' & Hi & Hmi). destruct (Acc _ _ _ _ Hi Hmi) as (A & B). cbn [snd] in *. auto.
    - apply IH. intros j e' Hin. apply Hm. right. exact Hin. }
  destruct (hears_all E part en _ _ HP F' sc Hs) as (r & R1 & R2). exists ord, r. split; [eapply inv_calls; eauto|auto].
Qed.

(** ** encrypted *)
Lemma cut_at_least cs1 cs2 y m part : boxes cs1 ++ y = boxes (firstn m (cs1 ++ cs2)) ++ part ->
  (part = [] \/ exists c more, nth_error (cs1 ++ cs2) m = Some c /\ boxed c = part ++ more /\ more <> []) -> (length cs1 <= m)%nat.
Proof.
  intros P1 P2. destruct (le_lt_dec (length cs1) m) as [Q|Q]; [exact Q|exfalso].
  rewrite firstn_app in P1. replace (m - length cs1)%nat with O in P1 by lia. cbn [firstn] in P1. rewrite app_nil_r in P1.
  assert (length (firstn m cs1) = m) as L2 by (rewrite firstn_length; lia).
  rewrite <- (firstn_skipn m cs1) in P1 at 1. rewrite boxes_app, <- app_assoc in P1. apply app_inv_head in P1.
  destruct (skipn m cs1) as [|c0 t] eqn:Sk; [apply (f_equal (@length bytes)) in Sk; rewrite skipn_length in Sk; cbn in Sk; lia|].
  change (boxes (c0 :: t)) with (boxed c0 ++ boxes t) in P1.
  assert (nth_error (cs1 ++ cs2) m = Some c0) as N0.
  { rewrite nth_error_app1 by lia. rewrite <- (firstn_skipn m cs1), Sk, nth_error_app2 by lia. rewrite L2, Nat.sub_diag. reflexivity. }
  destruct P2 as [->|(c & more & N1 & N2 & N3)].
  - apply (f_equal (@length byte)) in P1. rewrite !app_length in P1. unfold boxed in P1. rewrite app_length, be_length in P1. cbn in P1. lia.
  - rewrite N0 in N1. injection N1 as <-. rewrite N2 in P1. apply (f_equal (@length byte)) in P1. rewrite !app_length in P1.
    destruct more; [contradiction|]. cbn in P1. lia.
Qed.

(** what arrives when [ls1] is on the wire completely and perhaps some of [ls2] *)
Lemma arrives_between enc dec E key es1 ls1 es2 ls2 x y z s en : good_cipher enc dec ->
  Forall2 (sendable E) es1 ls1 -> Forall2 (sendable E) es2 ls2 ->
  x = boxes (ciphertexts enc key 0 ls1) ++ y -> x ++ z = boxes (ciphertexts enc key 0 (ls1 ++ ls2)) -> content s = (x, en) ->
  exists m r, receives dec E (eread_new s key) (map drop_empty_ns (es1 ++ firstn m es2)) r /\ ends_with en r.
Proof.
  intros G F1 F2 Hx Hxz Hs. pose proof (sendable_carries enc dec E key _ _ G (Forall2_app F1 F2) 0) as C.
  destruct (delivery_prefix dec E key _ _ x z s en C Hxz Hs) as (m & r & R & En & part & P1 & P2).
  rewrite ciphertexts_app in P1, P2. rewrite Hx in P1. pose proof (cut_at_least _ _ _ _ _ P1 P2) as L. rewrite ciphertexts_length in L.
  pose proof (F2_length _ _ _ F1) as L1. exists (m - length es1)%nat, r. split; [|exact En].
  rewrite firstn_map, firstn_app in R. rewrite firstn_all2 in R by lia. exact R.
Qed.

Section Enc.
  Context (enc : bytes -> bytes -> bytes -> bytes) (dec : bytes -> bytes -> bytes -> option bytes) (E : env) (os : list order).
  Hypothesis G : good_cipher enc dec.
  Hypothesis Ha : Forall (acceptable_encrypted E) os.
  Notation cw := (crypt_write enc). Notation cf := (crypt_flush enc).

  Lemma enc_good o e l : In o os -> event_of o e -> ev_id e < U64 -> into_bytes e = Ok l -> small_msg l.
  Proof.
    intros Hi H1 H2 H3. pose proof (proj1 (Forall_forall _ _) Ha o Hi e H1 H2) as (l' & Q).
    assert (l' = l) as -> by (destruct Q as (_ & _ & _ & Q & _); congruence).
    pose proof (sendable_small E [e] [l] ltac:(constructor; [exact Q|constructor])) as S1. inversion S1; subst; assumption.
  Qed.
  Lemma enc_sendable i o e l : nth_error os i = Some o -> mine o e l -> sendable E e l.
  Proof.
    intros Hi (M1 & M2 & M3). pose proof (proj1 (Forall_forall _ _) Ha o (nth_error_In _ _ Hi) e M1 M2) as (l' & Q).
    assert (l' = l) as -> by (destruct Q as (_ & _ & _ & Q & _); congruence). exact Q.
  Qed.
  Definition einv out0 key := ginv os (R_enc enc out0 key).
  Lemma enc_run w items out0 key lbs s rs : w_lock w = None -> forallb healthy items = true ->
    uncut cw cf (g_start w (ewrite_new (mk_wsock items out0) key) os) lbs ->
    g_run cw cf (g_start w (ewrite_new (mk_wsock items out0) key) os) lbs = Some (s, rs) -> exists ord ph, einv out0 key s rs ord ph.
  Proof.
    intros Hw Hh Hu Hr. eapply (g_result cw cf os small_msg (R_enc enc out0 key)); eauto.
    - apply enc_new.
    - apply enc_again.
    - apply enc_flush.
    - intros o e l. apply enc_good.
    - split; [exact Hh|]. split; [exists []; cbn; rewrite !app_nil_r; reflexivity|]. exists [], []. split; [apply new_inv|]. split; [reflexivity|]. split; [reflexivity|apply new_idle].
  Qed.
  Lemma inv_sendable out0 key s rs ord ph ls : einv out0 key s rs ord ph -> Forall2 (fun x l => into_bytes (snd x) = Ok l) ord ls ->
    Forall2 (sendable E) (map snd ord) ls.
  Proof.
    intros I F. pose proof (gi_made _ _ _ _ _ _ I) as Hm. clear I. induction F as [|[i e] l ord ls H F IH]; cbn [map]; [constructor|]. constructor.
    - destruct (Hm i e (or_introl eq_refl)) as (o & l' & Hi & Hmi). cbn [snd] in *. assert (l' = l) as -> by (destruct Hmi as (_ & _ & Hmi); congruence).
      eapply enc_sendable; eauto.
    - apply IH. intros j e' Hin. apply Hm. right. exact Hin.
  Qed.

  Lemma encrypted_arrives w items out0 key lbs s rs x sc en : w_lock w = None -> forallb healthy items = true ->
    uncut cw cf (g_start w (ewrite_new (mk_wsock items out0) key) os) lbs ->
    g_run cw cf (g_start w (ewrite_new (mk_wsock items out0) key) os) lbs = Some (s, rs) ->
    ws_out (ew_sock (g_sock s)) = out0 ++ x -> content sc = (x, en) ->
    exists ord r, from_calls os rs ord /\ receives dec E (eread_new sc key) (map drop_empty_ns (map snd ord)) r /\ ends_with en r.
  Proof.
    intros Hw Hh Hu Hr Ho Hs. destruct (enc_run _ _ _ _ _ _ _ Hw Hh Hu Hr) as (ord & ph & I).
    destruct (gi_R _ _ _ _ _ _ I) as (ls & F & _ & (y & Hy) & ps & X & WI & Hph). rewrite Ho, <- app_assoc in Hy. apply app_inv_head in Hy.
    pose proof (wi_out _ _ _ _ _ _ WI) as Hz. rewrite Ho, <- app_assoc in Hz. apply app_inv_head in Hz.
    pose proof (inv_sendable _ _ _ _ _ _ _ I F) as FS. pose proof (inv_calls _ _ _ _ _ _ I) as FC.
    assert (Q : ps = ls \/ exists i o e l, ps = ls ++ [l] /\ nth_error os i = Some o /\ mine o e l /\ ~ In i (map fst ord)).
    { destruct ph as [|l rest|l|l].
      - left. apply Hph.
      - right. destruct (underway _ _ _ _ _ _ I ltac:(discriminate)) as (i & o & e & l' & Hi & Hm & Hn & _ & [(rest' & Hne & Q)|Q]); [|discriminate].
        injection Q as <- <-. exists i, o, e, l. destruct Hph as (_ & _ & Hph & _). auto.
      - destruct (underway _ _ _ _ _ _ I ltac:(discriminate)) as (i & o & e & l' & Hi & Hm & _ & _ & [(rest' & Hne & Q)|Q]); discriminate.
      - right. destruct (underway _ _ _ _ _ _ I ltac:(discriminate)) as (i & o & e & l' & Hi & Hm & Hn & _ & [(rest' & Hne & Q)|Q]); [discriminate|].
        injection Q as <-. exists i, o, e, l. destruct Hph as (Hph & _). auto. }
    destruct Q as [->|(i & o & e & l & -> & Hi & Hm & Hn)].
    - destruct (arrives_between enc dec E key _ _ [] [] x y (in_flight (g_sock s)) sc en G FS (Forall2_nil _) Hy ltac:(rewrite (app_nil_r ls); exact Hz) Hs) as (m & r & R1 & R2).
      exists ord, r. split; [exact FC|]. split; [|exact R2]. rewrite firstn_nil, app_nil_r in R1. exact R1.
    - destruct (arrives_between enc dec E key _ _ [e] [l] x y _ sc en G FS ltac:(constructor; [eapply enc_sendable; eauto|constructor]) Hy Hz Hs) as (m & r & R1 & R2).
      destruct m as [|m]; cbn [firstn] in R1.
      + rewrite app_nil_r in R1. exists ord, r. auto.
      + rewrite firstn_nil in R1. exists (ord ++ [(i, e)]), r. split; [|split; [rewrite map_app; exact R1|exact R2]]. destruct FC. split.
        * rewrite map_app. cbn. rewrite <- (rev_involutive (map fst ord ++ [i])). apply NoDup_rev.
          rewrite rev_app_distr. cbn. constructor; [|apply NoDup_rev; assumption]. rewrite <- in_rev. exact Hn.
        * intros j e' Hin. apply in_app_or in Hin. destruct Hin as [Y|[Y|[]]]; [auto|]. injection Y as <- <-. exists o. split; [exact Hi|apply Hm].
        * intros j d Hin. destruct (fc_done j d Hin) as (e' & A & B). exists e'. split; [apply in_or_app; left; exact A|exact B].
  Qed.

  (** a later call [j], polled alone after the cancelled one *)
  Section Cancel.
    Context (out0 key : bytes) (ps : list bytes) (j : nat) (o : order).
    Definition base (st : ewrite) : Prop := winv enc out0 key ps (concat ps ++ ew_buf st) st.
    Definition mid (st : ewrite) : Prop := ew_buf st = [] /\ (writing st \/ flushing st).
    Inductive jst (s : @gsys ewrite) : Prop :=
    | j_waits : w_lock (g_world s) = None -> base (g_sock s) -> mid (g_sock s) ->
        (nth_error (g_futs s) j = Some (Some (g_future o)) \/ exists id l, l <> [] /\ nth_error (g_futs s) j = Some (Some (grunning (GLock id l)))) -> jst s
    | j_writes id l : base (g_sock s) -> ew_buf (g_sock s) = [] -> writing (g_sock s) -> l <> [] -> nth_error (g_futs s) j = Some (Some (grunning (GWrite id l))) -> jst s
    | j_flushes id : base (g_sock s) -> flushing (g_sock s) -> nth_error (g_futs s) j = Some (Some (grunning (GFlush id))) -> jst s.
    Definition jdone (s : @gsys ewrite) : Prop := nth_error (g_futs s) j = Some (Some gspent) \/ nth_error (g_futs s) j = Some (Some (grunning GDone)).
    Definition all_out (st : ewrite) : Prop := ws_out (ew_sock st) = out0 ++ boxes (ciphertexts enc key 0 ps).
    Definition kinv (s : @gsys ewrite) (res : list (nat * polled N)) : Prop :=
      (jst s /\ forall id, ~ In (j, Ready (Ok id)) res) \/ (jdone s /\ ((exists id, In (j, Ready (Ok id)) res) -> all_out (g_sock s))).

    Lemma idle_out X st : winv enc out0 key ps X st -> idle st -> all_out st.
    Proof. intros W (A & B & _). pose proof (wi_out _ _ _ _ _ _ W) as H. unfold in_flight in H. rewrite A, B, app_nil_r in H. exact H. Qed.
    Lemma to_base X st : winv enc out0 key ps X st -> base st.
    Proof. intros []. split; auto. Qed.

    Lemma jst_done s : jst s -> ~ jdone s.
    Proof.
      intros J D. assert (X : exists f, nth_error (g_futs s) j = Some (Some f) /\ f <> gspent /\ f <> grunning GDone).
      { destruct J as [_ _ _ [H|(id & l & _ & H)]|id l _ _ _ _ H|id _ _ H]; eexists; (split; [exact H|]); split; discriminate. }
      destruct X as (f & A & B & C). destruct D as [D|D]; rewrite A in D; injection D as D; contradiction.
    Qed.
    (** the result of polling the write or the flush of [j] *)
    Definition kpoll (s : @gsys ewrite) (q : world * ewrite * gfut * polled N) : Prop :=
      let '(w', st', f, r) := q in
      (jst (mk_g w' st' (put j (Some (grunning f)) (g_futs s))) /\ forall id, r <> Ready (Ok id))
      \/ (f = GDone /\ ((exists id, r = Ready (Ok id)) -> all_out st')).
    Lemma k_flush s em w1 st id : nth_error (g_futs s) j = Some em -> base st -> (idle st /\ ew_buf st = [] \/ flushing st) -> kpoll s (g_flush cf w1 st id).
    Proof.
      intros Hj B HF. unfold g_flush, crypt_flush. destruct (ew_poll_flush enc st) as [st' r] eqn:Ef.
      assert (Q : match r with WReady => all_out st' | WPending | WStuck => base st' /\ flushing st' | WErr _ => True | _ => False end).
      { destruct HF as [[HF Hb]|HF].
        - pose proof (poll_flush_new _ _ _ _ _ _ B HF _ _ Ef) as (Q1 & Q2 & Q3). rewrite Hb in Q3. cbn [after_flush fst] in Q3.
          destruct r; try exact Q3; try exact Logic.I; [eapply idle_out; apply Q3| |]; (split; [eapply to_base; apply Q3|apply Q3]).
        - pose proof (poll_flush_again _ _ _ _ _ _ B HF _ _ Ef) as (Q1 & Q2 & Q3). cbn [fst] in Q3.
          destruct r; try exact Q3; try exact Logic.I; [eapply idle_out; apply Q3| |]; (split; [eapply to_base; apply Q3|apply Q3]). }
      destruct r; try contradiction; cbn [kpoll].
      - right. split; [reflexivity|]. intros _. exact Q.
      - right. split; [reflexivity|]. intros [d D]. discriminate.
      - left. split; [|discriminate]. eapply j_flushes; [apply Q|apply Q|]. apply (put_eq _ _ _ _ Hj).
      - left. split; [|discriminate]. eapply j_flushes; [apply Q|apply Q|]. apply (put_eq _ _ _ _ Hj).
    Qed.
    Lemma k_write s em w1 st id l : nth_error (g_futs s) j = Some em -> base st -> mid st -> l <> [] -> kpoll s (g_write cw cf w1 st id l).
    Proof.
      intros Hj B [Hb HM] Hl. unfold g_write. destruct l as [|b0 bt] eqn:El; [contradiction|]. rewrite <- El in *.
      unfold crypt_write. destruct (ew_poll_write enc st l) as [st' r] eqn:Ew. destruct HM as [HM|HM].
      - pose proof (poll_write_again _ _ _ _ _ _ _ B HM _ _ Ew) as (Q1 & Q2 & Q3). cbn [fst snd] in *. rewrite Hb in Q2.
        destruct r; try contradiction; cbn [kpoll].
        + eapply k_flush; [exact Hj|eapply to_base; apply Q3|]. left. split; [apply Q3|exact Q2].
        + right. split; [reflexivity|]. intros [d D]. discriminate.
        + left. split; [|discriminate]. eapply j_writes; [eapply to_base; apply Q3|exact Q2|apply Q3|exact Hl|]. apply (put_eq _ _ _ _ Hj).
        + left. split; [|discriminate]. eapply j_writes; [eapply to_base; apply Q3|exact Q2|apply Q3|exact Hl|]. apply (put_eq _ _ _ _ Hj).
      - destruct HM as (H1 & H2 & H3). unfold ew_poll_write in Ew. rewrite H1, H3, Hb in Ew. cbn [app] in Ew.
        destruct (WRITE_BUF_SIZE <=? blen l); injection Ew as <- <-.
        + cbn [kpoll]. right. split; [reflexivity|]. intros [d D]. discriminate.
        + eapply k_flush; [exact Hj| |right; repeat split; assumption].
          destruct B. split; auto. cbn [ew_sock]. unfold in_flight in *. cbn. rewrite H1 in wi_out. exact wi_out.
    Qed.

    Lemma k_held s w' st' f r res : kpoll s (w', st', f, r) -> (exists em, nth_error (g_futs s) j = Some em) ->
      (forall id, ~ In (j, Ready (Ok id)) res) -> kinv (mk_g w' st' (put j (Some (grunning f)) (g_futs s))) (res ++ [(j, r)]).
    Proof.
      intros [[K N]|[-> K]] [em Hj] Hn.
      - left. split; [exact K|]. intros id Hin. apply in_app_or in Hin as [H|[H|[]]]; [destruct (Hn id H)|]. injection H as H. destruct (N id H).
      - right. split; [right; apply (put_eq _ _ _ _ Hj)|]. intros [id Hin]. apply K. exists id.
        apply in_app_or in Hin as [H|[H|[]]]; [destruct (Hn id H)|]. injection H as H. exact H.
    Qed.
    Lemma k_step s res t s' x : kinv s res -> g_step cw cf s (GPoll j t) = Some (s', Some x) -> kinv s' (res ++ [x]).
    Proof.
      intros K. cbn [g_step]. destruct (nth_error (g_futs s) j) as [[em|]|] eqn:Ef; try discriminate.
      destruct (g_poll cw cf j t (g_world s) (g_sock s) em) as [[[w' st'] em'] r] eqn:Ep. intros H; injection H as <- <-.
      assert (P1 : forall e, nth_error (put j (Some e) (g_futs s)) j = Some (Some e)) by (intros e; apply (put_eq _ _ _ _ Ef)).
      destruct K as [[K N]|[K A]].
      - assert (Fail : forall f rr, (forall id, rr <> Ready (Ok id)) -> (f = gspent \/ f = grunning GDone) -> forall w2 st2,
          kinv (mk_g w2 st2 (put j (Some f) (g_futs s))) (res ++ [(j, rr)])).
        { intros f rr Hrr Hf w2 st2. right. split; [destruct Hf as [-> | ->]; [left|right]; apply P1|]. intros [id Hin].
          apply in_app_or in Hin as [H|[H|[]]]; [destruct (N id H)|]. injection H as H. destruct (Hrr id H). }
        inversion K as [L B M Hf|id l B Hb M Hl Hf|id B M Hf].
        + assert (Lk : forall id l, l <> [] -> kpoll s (g_lock cw cf j (g_world s) (g_sock s) id l)).
          { intros id l Hl. unfold g_lock. rewrite L. eapply k_write; eauto. }
          assert (Lb : forall id l, l <> [] -> kpoll s (g_lock cw cf j (bump (g_world s)) (g_sock s) id l)).
          { intros id l Hl. unfold g_lock. cbn [bump w_lock]. rewrite L. eapply k_write; eauto. }
          destruct Hf as [Hf|(id & l & Hl & Hf)]; rewrite Ef in Hf; injection Hf as ->.
          * rewrite g_poll_fresh in Ep. destruct (o_payload o) as [data|er|c] eqn:Hp.
            -- cbn zeta in Ep. destruct (into_bytes (made o (nth_id t (w_ctr (g_world s))) data)) as [b|er|c] eqn:Eb; try discriminate Eb.
               specialize (Lb (ev_id (made o (nth_id t (w_ctr (g_world s))) data)) b (encoding_not_empty _ _ Eb)).
               destruct (g_lock _ _ _ _ _ _ _) as [[[w2 s3] f] r'] eqn:El. injection Ep as <- <- <- <-. eapply k_held; eauto.
            -- injection Ep as <- <- <- <-. apply Fail; [discriminate|left; reflexivity].
            -- injection Ep as <- <- <- <-. apply Fail; [discriminate|left; reflexivity].
          * cbn [g_poll ge_fut grunning g_fut] in Ep. specialize (Lk id l Hl). destruct (g_lock _ _ _ _ _ _ _) as [[[w2 s3] f] r'] eqn:El.
            injection Ep as <- <- <- <-. eapply k_held; eauto.
        + rewrite Ef in Hf; injection Hf as ->. cbn [g_poll ge_fut grunning g_fut] in Ep.
          pose proof (k_write s _ (g_world s) (g_sock s) id l Ef B (conj Hb (or_introl M)) Hl) as Q.
          destruct (g_write _ _ _ _ _ _) as [[[w2 s3] f] r'] eqn:El. injection Ep as <- <- <- <-. eapply k_held; eauto.
        + rewrite Ef in Hf; injection Hf as ->. cbn [g_poll ge_fut grunning g_fut] in Ep.
          pose proof (k_flush s _ (g_world s) (g_sock s) id Ef B (or_intror M)) as Q.
          destruct (g_flush _ _ _ _) as [[[w2 s3] f] r'] eqn:El. injection Ep as <- <- <- <-. eapply k_held; eauto.
      - assert (Q : (em = gspent \/ em = grunning GDone)) by (destruct K as [K|K]; rewrite Ef in K; injection K as ->; auto).
        right. assert (Z : st' = g_sock s /\ (em' = gspent \/ em' = grunning GDone) /\ forall id, r <> Ready (Ok id)).
        { destruct Q as [-> | ->]; injection Ep as <- <- <- <-; (split; [reflexivity|]); (split; [auto|discriminate]). }
        destruct Z as (-> & Z & Hr). split; [destruct Z as [-> | ->]; [left|right]; apply P1|]. cbn [g_sock]. intros [id Hin]. apply A. exists id.
        apply in_app_or in Hin as [H|[H|[]]]; [exact H|]. injection H as H. destruct (Hr id H).
    Qed.
    Lemma k_run ts : forall s res s' rs, kinv s res -> g_run cw cf s (map (GPoll j) ts) = Some (s', rs) -> kinv s' (res ++ rs).
    Proof.
      induction ts as [|t ts IH]; intros s res s' rs K; cbn [map g_run].
      - intros H; injection H as <- <-. rewrite app_nil_r. exact K.
      - destruct (g_step cw cf s (GPoll j t)) as [[s1 x]|] eqn:Es; [|discriminate].
        assert (exists y, x = Some y) as [y ->].
        { revert Es. cbn [g_step]. destruct (nth_error (g_futs s) j) as [[em|]|]; try discriminate. destruct (g_poll _ _ _ _ _ _ _) as [[[? ?] ?] ?].
          intros H; injection H as _ <-. eauto. }
        destruct (g_run cw cf s1 (map (GPoll j) ts)) as [[s2 rs2]|] eqn:Er; [|discriminate]. intros H; injection H as <- <-.
        change (y :: rs2) with ([y] ++ rs2). rewrite app_assoc. eapply IH; [eapply k_step; eauto|exact Er].
    Qed.
    Lemma done_run ts : forall s s' rs, jdone s -> g_run cw cf s (map (GPoll j) ts) = Some (s', rs) -> forall id, ~ In (j, Ready (Ok id)) rs.
    Proof.
      induction ts as [|t ts IH]; intros s s' rs D; cbn [map g_run]; [intros H; injection H as <- <-; intros ? []|].
      cbn [g_step]. destruct D as [D|D]; rewrite D; cbn [g_poll ge_fut ge_meta gspent grunning g_fut ge_stream].
      - destruct (g_run cw cf _ (map (GPoll j) ts)) as [[s2 rs2]|] eqn:Er; [|discriminate]. intros H; injection H as <- <-. intros id [H|H]; [discriminate|].
        eapply IH; [|exact Er|exact H]. left. apply (put_eq _ _ _ _ D).
      - destruct (g_run cw cf _ (map (GPoll j) ts)) as [[s2 rs2]|] eqn:Er; [|discriminate]. intros H; injection H as <- <-. intros id [H|H]; [discriminate|].
        eapply IH; [|exact Er|exact H]. right. apply (put_eq _ _ _ _ D).
    Qed.
  End Cancel.

  Lemma cancelled_emit w items out0 key lbs s1 rs1 i j ts s2 rs2 id x sc en : w_lock w = None -> forallb healthy items = true ->
    uncut cw cf (g_start w (ewrite_new (mk_wsock items out0) key) os) lbs ->
    g_run cw cf (g_start w (ewrite_new (mk_wsock items out0) key) os) lbs = Some (s1, rs1) ->
    w_lock (g_world s1) = Some i -> j <> i ->
    g_run cw cf s1 (GDrop i :: map (GPoll j) ts) = Some (s2, rs2) -> In (j, Ready (Ok id)) rs2 ->
    ws_out (ew_sock (g_sock s2)) = out0 ++ x -> content sc = (x, en) ->
    exists ord r, receives dec E (eread_new sc key) (map drop_empty_ns (map snd ord)) r /\ ends_with en r
      /\ NoDup (map fst ord) /\ (forall k e, In (k, e) ord -> exists o, nth_error os k = Some o /\ event_of o e)
      /\ In i (map fst ord) /\ ~ In j (map fst ord).
  Proof.
    intros Hw Hh Hu Hr Hl Hij Hr2 Hok Ho Hs. destruct (enc_run _ _ _ _ _ _ _ Hw Hh Hu Hr) as (ord & ph & I).
    assert (Hph : ph <> PIdle).
    { intros ->. pose proof (gi_lock _ _ _ _ _ _ I i Hl) as Li. destruct (nth_error os i) as [oi|] eqn:Hoi; [|apply nth_error_None in Hoi; lia].
      destruct (gi_fut _ _ _ _ _ _ I i oi Hoi) as (f & Hf & Hk). inversion Hk; subst; try contradiction; discriminate. }
    destruct (underway _ _ _ _ _ _ I Hph) as (i' & o & e & l & Hi & Hm & Hn & Hl' & Hcase).
    assert (i' = i) as -> by congruence. clear Hl'.
    destruct (gi_R _ _ _ _ _ _ I) as (ls & F & _ & _ & ps & X & WI & HR).
    assert (Q : ps = ls ++ [l] /\ mid (g_sock s1)).
    { unfold mid. destruct Hcase as [(rest & _ & ->)| ->]; [destruct HR as (_ & _ & A & B & C)|destruct HR as (A & B & C)]; auto. }
    destruct Q as [-> HM]. cbn [g_run] in Hr2. destruct (g_step cw cf s1 (GDrop i)) as [[s3 y]|] eqn:Es; [|discriminate].
    destruct (g_run cw cf s3 (map (GPoll j) ts)) as [[s4 rs4]|] eqn:Er; [|discriminate]. injection Hr2 as <- Hrs.
    cbn [g_step] in Es. destruct (nth_error (g_futs s1) i) as [[em|]|] eqn:Ef; try discriminate. injection Es as <- <-. cbn iota in Hrs. subst rs4.
    unfold drop_emit in Er. rewrite Hl, Nat.eqb_refl in Er.
    (* the state of j *)
    destruct ts as [|t ts]; [cbn in Er; injection Er as _ <-; destruct Hok|].
    destruct (nth_error (g_futs s1) j) as [[ej|]|] eqn:Ej;
      try (cbn [map g_run g_step g_futs] in Er; rewrite put_ne, Ej in Er by congruence; discriminate).
    destruct (fut_of _ _ _ _ _ _ _ _ I Ej) as (oj & Hoj & Hk).
    assert (Ej' : nth_error (put i None (g_futs s1)) j = Some (Some ej)) by (rewrite put_ne by congruence; exact Ej).
    set (s3 := mk_g (unlock (g_world s1)) (g_sock s1) (put i None (g_futs s1))) in *.
    assert (K : kinv out0 key (ls ++ [l]) j oj s3 [] /\ (jst out0 key (ls ++ [l]) j oj s3 -> ~ In j (map fst ord))).
    { inversion Hk; subst ej; try congruence.
      - split; [|auto]. left. split; [|intros ? []]. apply j_waits; cbn; auto. eapply to_base; exact WI.
      - split; [|intros J; destruct (jst_done _ _ _ _ _ _ J); left; exact Ej'].
        right. split; [left; exact Ej'|]. intros [? []].
      - split; [|auto]. left. split; [|intros ? []]. apply j_waits; cbn; auto; [eapply to_base; exact WI|]. right. eexists _, _. split; [|exact Ej'].
        eapply encoding_not_empty. apply H0.
      - split; [|intros J; destruct (jst_done _ _ _ _ _ _ J); right; exact Ej'].
        right. split; [right; exact Ej'|]. intros [? []]. }
    destruct K as [K Kn]. pose proof (k_run out0 key (ls ++ [l]) j oj (t :: ts) _ _ _ _ K Er) as K2. cbn [app] in K2.
    assert (J0 : jst out0 key (ls ++ [l]) j oj s3).
    { destruct K as [[K _]|[K _]]; [exact K|]. exfalso.
      eapply done_run; eassumption. }
    assert (AO : all_out out0 key (ls ++ [l]) (g_sock s4)).
    { destruct K2 as [[_ N]|[_ A]]; [destruct (N id Hok)|]. apply A. exists id. exact Hok. }
    unfold all_out in AO. rewrite Ho in AO. apply app_inv_head in AO.
    assert (FS : Forall2 (sendable E) (map snd ord ++ [e]) (ls ++ [l])).
    { apply Forall2_app; [exact (inv_sendable _ _ _ _ _ _ _ I F)|]. constructor; [exact (enc_sendable _ _ _ _ Hi Hm)|constructor]. }
    destruct (arrives_between enc dec E key _ _ [] [] x [] [] sc en G FS (Forall2_nil _) ltac:(rewrite app_nil_r; exact AO) ltac:(rewrite !app_nil_r; exact AO) Hs) as (m & r & R1 & R2).
    rewrite firstn_nil, app_nil_r in R1. destruct (inv_calls _ _ _ _ _ _ I) as [C1 C2 C3].
    exists (ord ++ [(i, e)]), r. rewrite !map_app. split; [rewrite <- map_app; exact R1|]. split; [exact R2|]. split; [|split; [|split]].
    - cbn. rewrite <- (rev_involutive (map fst ord ++ [i])). apply NoDup_rev.
      rewrite rev_app_distr. cbn. constructor; [|apply NoDup_rev; assumption]. rewrite <- in_rev. exact Hn.
    - intros k e' Hin. apply in_app_or in Hin. destruct Hin as [Y|[Y|[]]]; [auto|]. injection Y as <- <-. exists o. split; [exact Hi|apply Hm].
    - apply in_or_app. right. left. reflexivity.
    - intros Hin. apply in_app_or in Hin as [Y|[Y|[]]]; [exact (Kn J0 Y)|]. apply Hij. symmetry. exact Y.
  Qed.
End Enc.
