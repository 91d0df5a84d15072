(** Proofs about endpoints joined by an encrypted connection: they behave as endpoints joined by event streams. *)
From Verif Require Import Base BaseFacts Reader ReaderFacts Codec Spec Ids IdsFacts Payload Builder Emit DecodeFacts EventProofs CodecFacts Crypt SpecCrypt CryptWriteFacts CryptReadFacts CryptFacts CryptExchangeFacts Wire
  Ipc SpecIpc IpcFacts IpcChanFacts IpcUsers IpcLoops IpcTasks IpcIds IpcReplies IpcFlow Pair SpecPair PairFacts PairRest BytePair SpecBytes BytePairFacts Link SpecLink.
From Coq Require Import ZifyBool ZifyNat ZifyN.

(** ** One poll of an emit future *)
Section Writer.
  Context (enc : bytes -> bytes -> bytes -> bytes).
  Definition w_idle (key : bytes) (n : N) (out : bytes) (w : ewrite) : Prop := exists items, w = mk_ewrite (mk_wsock items out) key n [] None None false true.
  Definition w_busy (key : bytes) (n : N) (out l rest : bytes) (f : gfut) (w : ewrite) : Prop :=
    exists items id, (f = GWrite id l /\ w = mk_ewrite (mk_wsock items out) key n [] (Some rest) None false false)
      \/ (f = GFlush id /\ w = mk_ewrite (mk_wsock items out) key n [] None (Some rest) false false).
  Lemma write_some m l out : l <> [] -> m <> 0 -> write_all l [WAcc m] out =
    match skipn (N.to_nat m) l with [] => ([], mk_wsock [] (out ++ firstn (N.to_nat m) l), WReady) | l' => (l', mk_wsock [] (out ++ firstn (N.to_nat m) l), WStuck) end.
  Proof. intros L M. destruct l as [|b l]; [contradiction|]. cbn [write_all]. replace (m =? 0) with false by lia. destruct (skipn (N.to_nat m) (b :: l)); reflexivity. Qed.
  Lemma write_none l out : l <> [] -> write_all l [WAcc 0] out = (l, mk_wsock [] out, WErr WriteZero).
  Proof. intros L. destruct l; [contradiction|reflexivity]. Qed.
  (** the outcome of a poll during which the transport takes up to [m] bytes, [rest] still to be written *)
  Definition polled_to (m : N) (key : bytes) (n : N) (out l rest : bytes) (w' : ewrite) (f' : gfut) (r : polled N) : Prop :=
    if m =? 0 then exists e, r = Ready (Err e) else
    match skipn (N.to_nat m) rest with
    | [] => (exists id, r = Ready (Ok id)) /\ w_idle key n (out ++ rest) w'
    | rest' => r = Waiting /\ w_busy key n (out ++ firstn (N.to_nat m) rest) l rest' f' w'
    end.
  Lemma firstn_all_of {A} (k : nat) (l : list A) : skipn k l = [] -> firstn k l = l.
  Proof. intros H. rewrite <- (firstn_skipn k l) at 2. rewrite H, app_nil_r. reflexivity. Qed.
  Lemma flush_polled m i key n out l rest id : rest <> [] -> forall w0 w' f' r wd,
    g_fut (crypt_write enc) (crypt_flush enc) i w0 (mk_ewrite (mk_wsock [WAcc m] out) key n [] None (Some rest) false false) (GFlush id) = (wd, w', f', r) -> polled_to m key n out l rest w' f' r.
  Proof.
    intros N w0 w' f' r wd. unfold g_fut, g_flush, crypt_flush, ew_poll_flush, poll_fut_flush, polled_to. cbn [ew_fut_flush ew_sock ws_script ws_out]. destruct (N.eqb_spec m 0) as [->|M].
    - rewrite (write_none _ _ N). intros H. injection H as _ _ _ <-. eexists. reflexivity.
    - rewrite (write_some _ _ _ N M). destruct (skipn (N.to_nat m) rest) as [|b t] eqn:Es; intros H; injection H as _ <- <- <-.
      + split; [eexists; reflexivity|]. exists []. rewrite (firstn_all_of _ _ Es). reflexivity.
      + split; [reflexivity|]. exists [], id. right. split; reflexivity.
  Qed.
  Lemma write_polled m i key n out l rest id : l <> [] -> rest <> [] -> forall w0 w' f' r wd,
    g_fut (crypt_write enc) (crypt_flush enc) i w0 (mk_ewrite (mk_wsock [WAcc m] out) key n [] (Some rest) None false false) (GWrite id l) = (wd, w', f', r) -> polled_to m key n out l rest w' f' r.
  Proof.
    intros L N w0 w' f' r wd. unfold g_fut, g_write, crypt_write, ew_poll_write, poll_fut_write, polled_to. cbn [ew_fut_write ew_sock ws_script ws_out]. destruct l as [|b0 l0]; [contradiction|]. destruct (N.eqb_spec m 0) as [->|M].
    - rewrite (write_none _ _ N). intros H. injection H as _ _ _ <-. eexists. reflexivity.
    - rewrite (write_some _ _ _ N M). destruct (skipn (N.to_nat m) rest) as [|b t] eqn:Es.
      + unfold g_flush, crypt_flush, ew_poll_flush. cbn. intros H; injection H as _ <- _ <-. split; [eexists; reflexivity|]. exists []. rewrite (firstn_all_of _ _ Es). reflexivity.
      + intros H; injection H as _ <- <- <-. split; [reflexivity|]. exists [], id. left. split; reflexivity.
  Qed.
  Lemma sealed_ne key n p : sealed enc key n p <> [].
  Proof. unfold sealed, package. intros H. apply app_eq_nil in H. destruct H as [H _]. apply (f_equal (@length byte)) in H. rewrite be_length in H. discriminate H. Qed.
  Lemma new_polled m i key n out l id w : small_msg l -> w_idle key n out w -> forall w' f' r wd,
    g_fut (crypt_write enc) (crypt_flush enc) i free_world (offered [WAcc m] w) (GLock id l) = (wd, w', f', r) -> polled_to m key (next n) out l (sealed enc key n l) w' f' r.
  Proof.
    intros [L S] (items & ->) w' f' r wd H. unfold offered in H. cbn [ew_sock ws_out ew_key ew_en ew_buf ew_fut_write ew_fut_flush ew_fut_shutdown ew_inner] in H. cbn [g_fut] in H. unfold g_lock in H. cbn [w_lock free_world] in H.
    assert (Hn : N.to_nat (N.min MAX_PLAIN (blen l)) = length l) by (unfold blen in *; lia).
    assert (Hl : 0 <? blen l = true) by (destruct l; [contradiction|rewrite blen_cons; lia]).
    destruct (WRITE_BUF_SIZE <=? blen l) eqn:Eb.
    - assert (Q : g_write (crypt_write enc) (crypt_flush enc) (lock i free_world) (mk_ewrite (mk_wsock [WAcc m] out) key n [] None None false true) id l
        = g_write (crypt_write enc) (crypt_flush enc) (lock i free_world) (mk_ewrite (mk_wsock [WAcc m] out) key (next n) [] (Some (sealed enc key n l)) None false false) id l).
      { unfold g_write, crypt_write, ew_poll_write. destruct l as [|b0 l0] eqn:El; [contradiction|]. rewrite <- El in *. cbn [ew_fut_write ew_buf app ew_inner ew_key ew_en ew_sock ew_fut_flush ew_fut_shutdown]. rewrite Eb, Hn, firstn_all, skipn_all. reflexivity. }
      rewrite Q in H. eapply (write_polled m i key (next n) out l _ id L (sealed_ne _ _ _) (lock i free_world)). exact H.
    - assert (Q : g_write (crypt_write enc) (crypt_flush enc) (lock i free_world) (mk_ewrite (mk_wsock [WAcc m] out) key n [] None None false true) id l
        = g_flush (crypt_flush enc) (lock i free_world) (mk_ewrite (mk_wsock [WAcc m] out) key (next n) [] None (Some (sealed enc key n l)) false false) id).
      { unfold g_write, crypt_write, ew_poll_write. destruct l as [|b0 l0] eqn:El; [contradiction|]. rewrite <- El in *. cbn [ew_fut_write ew_buf app ew_inner ew_key ew_en ew_sock ew_fut_flush ew_fut_shutdown]. rewrite Eb.
        unfold g_flush, crypt_flush, ew_poll_flush. cbn [ew_fut_write ew_buf app ew_inner ew_key ew_en ew_sock ew_fut_flush ew_fut_shutdown]. rewrite Hn, firstn_all, skipn_all, Hl. reflexivity. }
      rewrite Q in H. eapply (flush_polled m i key (next n) out l _ id (sealed_ne _ _ _) (lock i free_world)). exact H.
  Qed.
  Lemma busy_polled m i key n out l rest f w : l <> [] -> rest <> [] -> w_busy key n out l rest f w -> forall w' f' r wd,
    g_fut (crypt_write enc) (crypt_flush enc) i free_world (offered [WAcc m] w) f = (wd, w', f', r) -> polled_to m key n out l rest w' f' r.
  Proof. intros L N (items & id & [(-> & ->)|(-> & ->)]) w' f' r wd H; [eapply write_polled|eapply flush_polled]; eauto. Qed.
End Writer.

(** ** One poll of the receive loop *)
Section Reader.
  Context (enc : bytes -> bytes -> bytes -> bytes) (dec : bytes -> bytes -> bytes -> option bytes) (GC : good_cipher enc dec).
  Lemma content_more b : forall s, snd (content s) = EndIdle -> content (s ++ map TB b) = (fst (content s) ++ b, EndIdle).
  Proof.
    induction s as [|x s IH].
    - intros _. cbn [app content fst]. induction b as [|c b IHb]; [reflexivity|]. cbn [map content]. rewrite IHb. reflexivity.
    - destruct x as [c| | |k|]; cbn [content app]; try discriminate; auto. destruct (content s) as [l en]. cbn [fst snd] in *. intros H. rewrite (IH H). reflexivity.
  Qed.
  (** the read half has taken [c] of a package and is otherwise empty *)
  Record r_at (E : env) (key : bytes) (m : N) (c : bytes) (r : eread) : Prop := {
    ra_rem : er_rem r = []; ra_key : er_key r = key; ra_de : er_de r = m mod U64; ra_at : er_at E r c EndIdle; ra_sock : content (er_sock r) = ([], EndIdle) }.
  Lemma arrived_at E key m c r b : r_at E key m c r -> er_at E (arrived b r) (c ++ b) EndIdle /\ er_rem (arrived b r) = [] /\ er_key (arrived b r) = key /\ er_de (arrived b r) = m mod U64.
  Proof.
    intros [A B C [D1 D2] F]. split; [|auto]. unfold arrived. split; cbn [er_sock er_fut er_rem]; rewrite (content_more b _ D1); [reflexivity|]. cbn [fst]. destruct (er_fut r) as [|q g|].
    - rewrite D2. reflexivity.
    - destruct D2 as (D2 & D3 & D4). split; [exact D2|]. split; [exact D3|]. intros x. rewrite F in D4. rewrite F. cbn [fst app] in *. rewrite <- !app_assoc. exact (D4 (b ++ x)).
    - destruct D2.
  Qed.
  Lemma idle_more E (p : rd event) keep n c0 : starts p keep n c0 -> 0 < n -> forall fuel st l, er_rem st = [] -> er_at E st l EndIdle -> (length (er_sock st) < fuel)%nat ->
    run_bytes E read_package l = PMore -> exists st', exec (er_poll_read dec E) E fuel p [] st = XIdle p [] st' /\ er_at E st' l EndIdle /\ er_key st' = er_key st /\ er_de st' = er_de st /\ er_rem st' = [] /\ er_sock st' = [].
  Proof.
    intros Hs Hn. induction fuel as [|fuel IH]; intros st l Hr Ha Hf Hl; [lia|]. cbn [exec].
    rewrite (starts_poll dec E (Datatypes.S fuel) p keep n c0 [] st Hs). cbn [Reader.loop]. rewrite blen_nil. replace (n <=? 0) with false by lia.
    rewrite N.sub_0_r. destruct (er_poll_spec dec E st l EndIdle n Hn Ha) as [[H _]|[_ F]]; [rewrite Hr, blen_nil in H; lia|].
    rewrite Hr, blen_nil, N.sub_0_r in F.
    inversion F as [st1 A1 K1 D1 R1 F1 L1 HE | st1 c' rest' pl' Q1 Q2 A1 K1 D1 F1 R1 HE|st1 c' rest' Q1 Q2 _ _ HE|st1 c' rest' Q1 _ _ HE
                   | st1 Q1 Q2 Q3 Q4 Q5 Q6 Q7 HE|st1 Q1 Q2 _ _ HE|st1 k Q1 Q2 _ _ HE]; try congruence; clear HE; try discriminate.
    - cbv iota; rewrite if_keep. destruct (IH st1 l R1 A1 ltac:(lia) Hl) as (st' & X & Y1 & Y2 & Y3 & Y4). exists st'. split; [exact X|]. rewrite <- K1, <- D1. auto.
    - cbv iota; rewrite if_keep. exists st1. auto 8.
  Qed.
  (** less than a package *)
  Lemma reads_part E key m c b r e l more : sendable E e l -> r_at E key m c r -> sealed enc key (m mod U64) l = (c ++ b) ++ more -> more <> [] ->
    exists r', exec (er_poll_read dec E) E (S (length (er_sock (arrived b r)))) (from_async_read E) [] (arrived b r) = XIdle (from_async_read E) [] r' /\ untaken r' = 0%nat /\ r_at E key m (c ++ b) (given_back r').
  Proof.
    intros (S1 & S2 & S3 & S4 & S5 & S6) R H N. destruct (arrived_at _ _ _ _ _ b R) as (A1 & A2 & A3 & A4). destruct (GC key (nonce_from_number (m mod U64)) l) as [G1 G2]. destruct (far_starts E) as [cc Hs].
    rewrite sealed_boxed in H.
    assert (PM : run_bytes E read_package (c ++ b) = PMore) by (eapply boxed_cut; [exact H|exact N|rewrite G2; unfold U32; lia|rewrite G2; lia]).
    destruct (idle_more E _ false 8 cc Hs ltac:(lia) (S (length (er_sock (arrived b r)))) (arrived b r) (c ++ b) A2 A1 ltac:(lia) PM) as (r' & X & B1 & B2 & B3 & B4 & B5).
    exists r'. split; [exact X|]. split; [unfold untaken; rewrite B5; reflexivity|]. assert (Q : given_back r' = r') by (destruct r'; cbn in *; unfold given_back; cbn; congruence). rewrite Q. split; try assumption; try congruence. rewrite B5. reflexivity.
  Qed.
  (** a package and what follows *)
  Lemma reads_whole E key m c b r e l x : sendable E e l -> r_at E key m c r -> c ++ b = sealed enc key (m mod U64) l ++ x ->
    exists r', exec (er_poll_read dec E) E (S (length (er_sock (arrived b r)))) (from_async_read E) [] (arrived b r) = XOut (Ok (drop_empty_ns e)) r' /\ untaken r' = length x /\ r_at E key (m + 1) [] (given_back r').
  Proof.
    intros (S1 & S2 & S3 & S4 & S5 & S6) R H. destruct (arrived_at _ _ _ _ _ b R) as (A1 & A2 & A3 & A4). destruct (GC key (nonce_from_number (m mod U64)) l) as [G1 G2]. destruct (far_starts E) as [cc Hs].
    rewrite sealed_boxed in H. assert (RP : run_bytes E read_package (c ++ b) = POut (Ok (enc key (nonce_from_number (m mod U64)) l)) x) by (rewrite H; apply read_package_run; [rewrite G2; unfold U32; lia|rewrite G2; lia]).
    destruct (decode_encoded E e [] S1 S3 S2) as (l' & D1 & D2). rewrite S4 in D1. injection D1 as <-. rewrite app_nil_r in D2. apply decode_run in D2.
    rewrite <- A3, <- A4 in G1, RP. destruct (exec_package dec E _ false 8 cc Hs ltac:(lia) (S (length (er_sock (arrived b r)))) (arrived b r) (c ++ b) EndIdle _ x l _ [] A2 A1 ltac:(lia) RP G1 D2)
      as (r' & X & B1 & B2 & B3 & B4 & B5).
    exists r'. split; [exact X|]. destruct B1 as [B6 B7]. rewrite B2 in B7. split; [unfold untaken; rewrite B7; reflexivity|].
    split; cbn [given_back er_rem er_key er_de er_sock content]; auto; try congruence.
    - rewrite B4, A4. apply next_mod.
    - split; cbn [er_sock er_fut given_back]; [reflexivity|]. rewrite B2. reflexivity.
  Qed.
End Reader.
