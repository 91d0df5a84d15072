(** Proofs of the properties of the event codec (C01-C11). *)
From Coq Require Import Strings.String.
From Verif Require Import Base BaseFacts Utf8 Utf8Facts Reader ReaderFacts Codec Spec CodecFacts DecodeFacts.
From Coq Require Import ZifyBool ZifyNat ZifyN.
Arguments N.pow : simpl never.
Arguments be : simpl never.
Arguments unbe : simpl never.

(** ** C01 *)
Lemma into_bytes_total e : exists l, into_bytes e = Ok l.
Proof. unfold into_bytes. eauto. Qed.

Lemma round_trip_iff E e rest : rust_event e -> enough_mem E e ->
  ((exists l, into_bytes e = Ok l /\ decode E (l ++ rest) = Ok (e, rest)) <-> fits e /\ normal e).
Proof.
  intros Hr Hm. split.
  - intros (l & Hl & H). apply decode_inv in H as (t & v1 & v2 & hb & extra & _ & Hb & Hle & _ & _ & _ & _ & Hn).
    split; [|exact Hn]. unfold fits. subst hb. rewrite header_rest_size in Hle. lia.
  - intros [Hf Hn]. destruct (decode_encoded E e rest Hr Hm Hf) as (l & H1 & H2).
    rewrite drop_normal in H2 by exact Hn. eauto.
Qed.

Lemma empty_ns_lost E e rest : rust_event e -> enough_mem E e -> fits e ->
  exists l, into_bytes e = Ok l /\ decode E (l ++ rest) = Ok (drop_empty_ns e, rest).
Proof. apply decode_encoded. Qed.

(** ** C02 *)
Lemma read_events_list E es : forall l fuel,
  Forall rust_event es -> Forall (enough_mem E) es -> Forall fits es -> Forall normal es ->
  encodings es l -> (length es < fuel)%nat ->
  read_events E fuel l = (es, Err (IoError UnexpectedEof)).
Proof.
  induction es as [|e es IH]; intros l fuel H1 H2 H3 H4 He Hf; inversion He; subst; clear He.
  - destruct fuel; [lia|]. cbn [read_events]. rewrite decode_short by (cbn; lia). reflexivity.
  - destruct fuel; [cbn in Hf; lia|]. inversion H1; inversion H2; inversion H3; inversion H4; subst.
    destruct (decode_encoded E e ls) as (l' & A & B); try assumption.
    rewrite H5 in A. injection A as <-. cbn [read_events]. rewrite B.
    rewrite (IH ls fuel); auto; [|cbn [length] in Hf; lia]. rewrite drop_normal by assumption. reflexivity.
Qed.

Lemma encoding_prefix_free e1 e2 l1 l2 x : rust_event e1 -> rust_event e2 -> fits e1 -> fits e2 ->
  into_bytes e1 = Ok l1 -> into_bytes e2 = Ok l2 -> l2 = l1 ++ x -> x = [] /\ drop_empty_ns e1 = drop_empty_ns e2.
Proof.
  intros R1 R2 F1 F2 H1 H2 ->.
  set (E := mk_env true (65535 + blen (ev_data e1) + blen (ev_data e2))).
  destruct (decode_encoded E e1 x) as (l & A & B); auto; [unfold enough_mem, E; cbn [mem]; lia|].
  destruct (decode_encoded E e2 []) as (l' & A' & B'); auto; [unfold enough_mem, E; cbn [mem]; lia|].
  rewrite H1 in A. injection A as <-. rewrite H2 in A'. injection A' as <-.
  rewrite app_nil_r in B'. rewrite B in B'. injection B' as -> ->. auto.
Qed.

(** ** C03 *)
Lemma truncated_eof E e l cut more : rust_event e -> enough_mem E e -> fits e ->
  into_bytes e = Ok l -> l = cut ++ more -> more <> [] ->
  decode E cut = Err (IoError UnexpectedEof).
Proof.
  intros R M F Hl -> Hx. destruct (decode_encoded E e [] R M F) as (l' & A & B).
  rewrite Hl in A. injection A as <-. rewrite app_nil_r in B. unfold decode in *.
  destruct (run_bytes E (from_async_read E) cut) as [o r|] eqn:Rc; [|reflexivity].
  apply run_bytes_mono with (x := more) in Rc. rewrite Rc in B. destruct o; cbn in B; try discriminate.
  injection B as _ B. apply app_eq_nil in B as [_ B]. contradiction.
Qed.

(** ** C04 *)
Lemma chunking_same E s1 s2 f1 f2 : (length s1 < f1)%nat -> (length s2 < f2)%nat -> content s1 = content s2 ->
  same_end (exec sock_read E f1 (from_async_read E) [] s1) (exec sock_read E f2 (from_async_read E) [] s2).
Proof.
  intros H1 H2 Hc.
  pose proof (exec_sock E f1 (from_async_read E) [] s1 H1 (N.le_0_l _)) as X1.
  pose proof (exec_sock E f2 (from_async_read E) [] s2 H2 (N.le_0_l _)) as X2.
  rewrite <- Hc in X2. destruct (run_bytes E (from_async_read E) ([] ++ fst (content s1))) as [o r|].
  - destruct X1 as (a & -> & A), X2 as (b & -> & B). cbn. split; [reflexivity|]. rewrite A, B. destruct o; auto.
  - destruct (snd (content s1)).
    + destruct X1 as (? & ? & -> & _), X2 as (? & ? & -> & _). exact I.
    + destruct X1 as (a & ->), X2 as (b & ->). cbn. auto.
    + destruct X1 as (a & ->), X2 as (b & ->). cbn. auto.
Qed.

Lemma chunking_complete E s fuel l rest en e : (length s < fuel)%nat -> content s = (l ++ rest, en) ->
  decode E l = Ok (e, []) ->
  exists s', exec sock_read E fuel (from_async_read E) [] s = XOut (Ok e) s' /\ content s' = (rest, en).
Proof.
  intros H Hc Hd. pose proof (exec_sock E fuel (from_async_read E) [] s H (N.le_0_l _)) as X.
  rewrite Hc in X. cbn [fst snd app] in X. unfold decode in Hd.
  destruct (run_bytes E (from_async_read E) l) as [o r|] eqn:Hr; [|discriminate].
  destruct o; cbn in Hd; try discriminate. injection Hd as -> ->.
  rewrite (run_bytes_mono _ _ _ _ _ rest Hr) in X. exact X.
Qed.

Lemma chunking_waits E s fuel cut more e : (length s < fuel)%nat -> content s = (cut, EndIdle) ->
  decode E (cut ++ more) = Ok (e, []) -> more <> [] ->
  exists p got, exec sock_read E fuel (from_async_read E) [] s = XIdle p got [] /\
    forall s2 fuel2 rest en, (length s2 < fuel2)%nat -> content s2 = (more ++ rest, en) ->
      exists s', exec sock_read E fuel2 p got s2 = XOut (Ok e) s' /\ content s' = (rest, en).
Proof.
  intros H Hc Hd Hm. pose proof (exec_sock E fuel (from_async_read E) [] s H (N.le_0_l _)) as X.
  rewrite Hc in X. cbn [fst snd app] in X. unfold decode in Hd.
  destruct (run_bytes E (from_async_read E) (cut ++ more)) as [o r|] eqn:Hr; [|discriminate].
  destruct o; cbn in Hd; try discriminate. injection Hd as -> ->.
  destruct (run_bytes E (from_async_read E) cut) as [o r|] eqn:Hr'.
  - apply run_bytes_mono with (x := more) in Hr'. rewrite Hr in Hr'. injection Hr' as <- Hr'.
    symmetry in Hr'. apply app_eq_nil in Hr' as [_ Hr']. contradiction.
  - destruct X as (p & g & X1 & X2 & X3). exists p, g. split; [exact X1|]. intros s2 fuel2 rest en H2 Hc2.
    pose proof (exec_sock E fuel2 p g s2 H2 X2) as Y. rewrite Hc2 in Y. cbn [fst snd] in Y.
    rewrite X3, app_assoc, (run_bytes_mono _ _ _ _ _ rest Hr) in Y. exact Y.
Qed.

(** ** C05 *)
Lemma dec_u8_decimal b : dec_u8 b = decimal (b2n b).
Proof. destruct b; reflexivity. Qed.

Lemma unsupported_text a b c : unsupported_version_vec [a; b; c] = UnsupportedVersion (version_text a b c).
Proof.
  unfold unsupported_version_vec, version_text. f_equal. cbn [fold_left app]. rewrite !dec_u8_decimal.
  rewrite !app_assoc. change (str ".") with [x2e]. rewrite removelast_last. rewrite <- !app_assoc. reflexivity.
Qed.

Lemma version_refused E t hl v0 v1 v2 body : 65535 <= mem E ->
  t < U64 -> hl < U16 -> hl <= t -> 3 <= hl -> hl <= 3 + blen body -> v0 <> x00 ->
  decode E (frame t hl (v0 :: v1 :: v2 :: body)) = Err (UnsupportedVersion (version_text v0 v1 v2)).
Proof.
  intros Hm Ht Hh Hle H3 Hb Hv. rewrite decode_frame by assumption. unfold decode_frame_spec.
  rewrite sub_ok by lia. cbn [bind]. rewrite alloc_ok by ulia. cbn [bind].
  rewrite !blen_cons. replace (hl <=? 1 + (1 + (1 + blen body))) with true by lia.
  destruct (N.to_nat hl) as [|[|[|n]]] eqn:En; try lia. cbn [firstn].
  unfold header_from_read. rewrite read_version_bad by exact Hv. rewrite unsupported_text. reflexivity.
Qed.

Lemma version_no_event E t hl v0 v1 v2 body ev rest : t < U64 -> hl < U16 -> v0 <> x00 ->
  decode E (frame t hl (v0 :: v1 :: v2 :: body)) <> Ok (ev, rest).
Proof.
  intros Ht Hh Hv H. apply decode_inv in H as (t' & w1 & w2 & hb & extra & Hf & Hb & Hle & _ & _ & Ht' & _).
  assert (t' < U64 \/ U64 <= t') as [Hlt|Hge] by lia; [|].
  - apply frame_inj in Hf as (_ & _ & Hf); [|assumption|assumption|assumption|ulia].
    subst hb. injection Hf as -> _. contradiction.
  - unfold frame in Hf. apply (f_equal (fun l => skipn 2 (skipn 8 l))) in Hf.
    rewrite !skipn_len in Hf by apply be_length.
    subst hb. injection Hf as -> _. contradiction.
Qed.

Lemma header_version_irrelevant v1 v2 w1 w2 l :
  omap fst (header_from_read (x00 :: v1 :: v2 :: l)) = omap fst (header_from_read (x00 :: w1 :: w2 :: l)).
Proof. unfold header_from_read. rewrite !read_version_ok. reflexivity. Qed.

Lemma version_minor_irrelevant E t hl v1 v2 w1 w2 body : t < U64 -> hl < U16 ->
  decode E (frame t hl (x00 :: v1 :: v2 :: body)) = decode E (frame t hl (x00 :: w1 :: w2 :: body)).
Proof.
  intros Ht Hh. rewrite !decode_frame by assumption. unfold decode_frame_spec.
  destruct (sub_u64 E t hl) as [dl| |]; cbn [bind]; [|reflexivity|reflexivity].
  destruct (vec_alloc E hl) as [[]| |]; cbn [bind]; [|reflexivity|reflexivity].
  rewrite !blen_cons. destruct (hl <=? 1 + (1 + (1 + blen body))) eqn:Eb; [|reflexivity].
  destruct (N.to_nat hl) as [|[|[|n]]] eqn:En.
  1-3: reflexivity.
  cbn [firstn skipn].
  pose proof (header_version_irrelevant v1 v2 w1 w2 (firstn n body)) as HH.
  destruct (header_from_read (x00 :: v1 :: v2 :: firstn n body)) as [[h x]|e|c],
           (header_from_read (x00 :: w1 :: w2 :: firstn n body)) as [[h' x']|e'|c']; cbn in HH; try discriminate; try congruence.
  injection HH as <-. reflexivity.
Qed.

(** ** C06 *)
Lemma extra_header_ignored E e hb extra rest : rust_event e -> enough_mem E e -> normal e ->
  wire_header [x00; x09; x00] (ev_header e) hb -> blen hb + blen extra <= 65535 ->
  decode E (frame (blen hb + blen extra + blen (ev_data e)) (blen hb + blen extra) (hb ++ extra ++ ev_data e ++ rest)) = Ok (e, rest).
Proof.
  intros [Hr Hd] [Hm1 Hm2] Hn Hw Hl. rewrite (decode_good E x09 x00 (ev_header e)) by assumption.
  rewrite norm_drop, drop_normal by exact Hn. reflexivity.
Qed.

(** ** C07 *)
Lemma accepted_well_formed E l e rest : decode E l = Ok (e, rest) ->
  rust_event e /\ normal e /\ fits e
  /\ exists v1 v2 hb extra,
       l = frame (blen hb + blen extra + blen (ev_data e)) (blen hb + blen extra) (hb ++ extra ++ ev_data e ++ rest)
       /\ wire_header [x00; v1; v2] (ev_header e) hb /\ blen hb + blen extra <= 65535.
Proof.
  intros H. apply decode_inv in H as (t & v1 & v2 & hb & extra & -> & -> & Hle & Hi & Hm & -> & Hr & Hn).
  assert (F : fits e) by (unfold fits; rewrite header_rest_size in Hle; lia).
  repeat split; auto. 1-4: destruct Hr as (?&?&?&?); auto.
  exists v1, v2, ([x00; v1; v2] ++ header_rest (ev_header e)), extra. repeat split; auto.
  apply header_rest_wire; auto.
Qed.

Lemma reencode_stable E l e rest rest' : decode E l = Ok (e, rest) -> 65535 <= mem E ->
  exists l', into_bytes e = Ok l' /\ decode E (l' ++ rest') = Ok (e, rest').
Proof.
  intros H Hm. pose proof H as H'. apply accepted_well_formed in H as (R & Nm & F & _).
  apply decode_inv in H' as (t & v1 & v2 & hb & extra & _ & _ & _ & _ & Hd & _).
  apply (round_trip_iff E e rest' R); [split; assumption|auto].
Qed.

(** decoding when lengths are sane is decoding of the header *)
Lemma decode_header_err E t hl hb body err : 65535 <= mem E ->
  t < U64 -> hl < U16 -> hl <= t -> hl <= blen body -> firstn (N.to_nat hl) body = hb ->
  header_from_read hb = Err err -> decode E (frame t hl body) = Err err.
Proof.
  intros Hm Ht Hh Hle Hb Hf He. rewrite decode_frame by assumption. unfold decode_frame_spec.
  rewrite sub_ok by lia. cbn [bind]. rewrite alloc_ok by ulia. cbn [bind].
  replace (hl <=? blen body) with true by lia. rewrite Hf, He. reflexivity.
Qed.

Lemma sread_int1 b l : sread_int 1 (b :: l) = Ok (b2n b, l).
Proof.
  change (b :: l) with ([b] ++ l). replace [b] with (be 1 (b2n b)) by (change 1%nat with (length [b]); rewrite <- (be_unbe [b]) at 2; reflexivity).
  rewrite sread_int_app, N.mod_small; [reflexivity|]. apply (b2n_lt b).
Qed.
Lemma sread_int_any k f l : length f = k -> sread_int k (f ++ l) = Ok (unbe f, l).
Proof.
  intros <-. unfold sread_int. rewrite sread_exact_app' by reflexivity. reflexivity.
Qed.

Lemma bad_type_header v1 v2 fid ty l : length fid = 8%nat -> 3 < b2n ty ->
  header_from_read ([x00; v1; v2] ++ fid ++ [ty] ++ l) = Err CorruptedEvent.
Proof.
  intros Hl Ht. unfold header_from_read. cbn [app]. rewrite read_version_ok. cbn [bind].
  rewrite (sread_int_any 8) by exact Hl. cbn [bind]. rewrite sread_int1. cbn [bind].
  unfold etype_of. replace (b2n ty =? 0) with false by lia. replace (b2n ty =? 1) with false by lia.
  replace (b2n ty =? 2) with false by lia. replace (b2n ty =? 3) with false by lia. reflexivity.
Qed.
Lemma bad_marker_header v1 v2 fid ty mk l : length fid = 8%nat -> b2n ty <= 3 -> mk <> x00 -> mk <> xff ->
  header_from_read ([x00; v1; v2] ++ fid ++ [ty] ++ [mk] ++ l) = Err CorruptedEvent.
Proof.
  intros Hl Ht H0 H1. unfold header_from_read. cbn [app]. rewrite read_version_ok. cbn [bind].
  rewrite (sread_int_any 8) by exact Hl. cbn [bind]. rewrite sread_int1. cbn [bind].
  assert (exists t, etype_of (b2n ty) = Some t) as [t ->].
  { unfold etype_of. destruct (b2n ty =? 0) eqn:?; [eauto|]. destruct (b2n ty =? 1) eqn:?; [eauto|].
    destruct (b2n ty =? 2) eqn:?; [eauto|]. destruct (b2n ty =? 3) eqn:?; [eauto|lia]. }
  unfold read_ref_id. rewrite sread_int1. cbn [bind].
  destruct (b2n mk =? 0) eqn:E0.
  { exfalso. apply H0. apply b2n_inj. change (b2n x00) with 0. lia. }
  destruct (b2n mk =? 255) eqn:E1; [|reflexivity].
  exfalso. apply H1. apply b2n_inj. change (b2n xff) with 255. lia.
Qed.

Definition fref_ok (fref : bytes) : Prop := fref = [x00] \/ exists r, fref = xff :: r /\ length r = 8%nat.
Lemma read_ref_ok fref l : fref_ok fref -> exists r, read_ref_id (fref ++ l) = Ok (r, l).
Proof.
  intros [->|(r & -> & Hr)]; unfold read_ref_id; cbn [app]; rewrite sread_int1; cbn [bind].
  - change (b2n x00 =? 0) with true. cbn. eauto.
  - change (b2n xff =? 0) with false. change (b2n xff =? 255) with true. cbn [bind].
    rewrite (sread_int_any 8) by exact Hr. cbn. eauto.
Qed.
Lemma prefix_ok v1 v2 fid ty fref l : length fid = 8%nat -> b2n ty <= 3 -> fref_ok fref ->
  exists id t r, header_from_read ([x00; v1; v2] ++ fid ++ [ty] ++ fref ++ l) =
    bind (sread_int 2 l) (fun nr => let (nslen, l5) := nr in
    bind (read_namespace nslen l5) (fun sr => let (ns, l6) := sr in
    bind (read_name l6) (fun mr => let (name, l7) := mr in
    Ok (mk_header id t r ns name, l7)))).
Proof.
  intros Hl Ht Hr. unfold header_from_read. cbn [app]. rewrite read_version_ok. cbn [bind].
  rewrite (sread_int_any 8) by exact Hl. cbn [bind]. rewrite sread_int1. cbn [bind].
  assert (exists t, etype_of (b2n ty) = Some t) as [t ->].
  { unfold etype_of. destruct (b2n ty =? 0) eqn:?; [eauto|]. destruct (b2n ty =? 1) eqn:?; [eauto|].
    destruct (b2n ty =? 2) eqn:?; [eauto|]. destruct (b2n ty =? 3) eqn:?; [eauto|lia]. }
  destruct (read_ref_ok fref l Hr) as [r ->]. cbn [bind]. eauto.
Qed.
Lemma not_text_invalid s : ~ is_text s -> utf8_valid s = false.
Proof. intros H. destruct (utf8_valid s) eqn:Eu; [|reflexivity]. exfalso. apply H, utf8_valid_iff, Eu. Qed.
Lemma bad_ns_header v1 v2 fid ty fref ns l : length fid = 8%nat -> b2n ty <= 3 -> fref_ok fref ->
  blen ns < U16 -> ~ is_text ns ->
  header_from_read ([x00; v1; v2] ++ fid ++ [ty] ++ fref ++ be 2 (blen ns) ++ ns ++ l) = Err CorruptedEvent.
Proof.
  intros Hl Ht Hr Hb Hn. destruct (prefix_ok v1 v2 fid ty fref (be 2 (blen ns) ++ ns ++ l) Hl Ht Hr) as (id & t & r & ->).
  rewrite sread_int_app. cbn [bind]. rewrite N.mod_small by exact Hb. unfold read_namespace.
  destruct (0 <? blen ns) eqn:E0.
  - unfold read_string. rewrite sread_exact_app. cbn [bind fst]. rewrite (not_text_invalid ns Hn). reflexivity.
  - exfalso. apply Hn. destruct ns; [|rewrite blen_cons in E0; lia]. exists []. split; [constructor|reflexivity].
Qed.
Lemma bad_name_header v1 v2 fid ty fref ns nm l : length fid = 8%nat -> b2n ty <= 3 -> fref_ok fref ->
  blen ns < U16 -> is_text ns -> blen nm < U16 -> ~ is_text nm ->
  header_from_read ([x00; v1; v2] ++ fid ++ [ty] ++ fref ++ be 2 (blen ns) ++ ns ++ be 2 (blen nm) ++ nm ++ l) = Err CorruptedEvent.
Proof.
  intros Hl Ht Hr Hb Hns Hbn Hn.
  destruct (prefix_ok v1 v2 fid ty fref (be 2 (blen ns) ++ ns ++ be 2 (blen nm) ++ nm ++ l) Hl Ht Hr) as (id & t & r & ->).
  rewrite sread_int_app. cbn [bind]. rewrite N.mod_small by exact Hb.
  assert (exists o, read_namespace (blen ns) (ns ++ be 2 (blen nm) ++ nm ++ l) = Ok (o, be 2 (blen nm) ++ nm ++ l)) as [o ->].
  { unfold read_namespace. destruct (0 <? blen ns) eqn:E0.
    - rewrite read_string_ok by (apply utf8_valid_iff, Hns). cbn. eauto.
    - destruct ns; [cbn; eauto|rewrite blen_cons in E0; lia]. }
  cbn [bind]. unfold read_name. rewrite sread_int_app. cbn [bind fst snd]. rewrite N.mod_small by exact Hbn.
  unfold read_string. rewrite sread_exact_app. cbn [bind fst]. rewrite (not_text_invalid nm Hn). reflexivity.
Qed.

Lemma corrupt_gen E t body hb : 65535 <= mem E -> t < U64 -> blen hb < U16 -> blen hb <= t ->
  header_from_read hb = Err CorruptedEvent -> decode E (frame t (blen hb) (hb ++ body)) = Err CorruptedEvent.
Proof.
  intros. apply decode_header_err with (hb := hb); auto; [rewrite blen_app; lia|apply firstn_blen].
Qed.
Lemma corrupt_type E t body v1 v2 fid ty l :
  let hb := [x00; v1; v2] ++ fid ++ [ty] ++ l in
  65535 <= mem E -> t < U64 -> blen hb < U16 -> blen hb <= t -> length fid = 8%nat ->
  3 < b2n ty -> decode E (frame t (blen hb) (hb ++ body)) = Err CorruptedEvent.
Proof. intros hb **. apply corrupt_gen; auto. apply bad_type_header; auto. Qed.
Lemma corrupt_marker E t body v1 v2 fid ty mk l :
  let hb := [x00; v1; v2] ++ fid ++ [ty] ++ [mk] ++ l in
  65535 <= mem E -> t < U64 -> blen hb < U16 -> blen hb <= t -> length fid = 8%nat ->
  b2n ty <= 3 -> mk <> x00 -> mk <> xff -> decode E (frame t (blen hb) (hb ++ body)) = Err CorruptedEvent.
Proof. intros hb **. apply corrupt_gen; auto. apply bad_marker_header; auto. Qed.
Lemma corrupt_ns E t body v1 v2 fid ty fref ns l :
  let hb := [x00; v1; v2] ++ fid ++ [ty] ++ fref ++ be 2 (blen ns) ++ ns ++ l in
  65535 <= mem E -> t < U64 -> blen hb < U16 -> blen hb <= t -> length fid = 8%nat ->
  b2n ty <= 3 -> fref_ok fref ->
  ~ is_text ns -> decode E (frame t (blen hb) (hb ++ body)) = Err CorruptedEvent.
Proof.
  intros hb **. apply corrupt_gen; auto. apply bad_ns_header; auto.
  subst hb. rewrite !blen_app in *. lia.
Qed.
Lemma corrupt_name E t body v1 v2 fid ty fref ns nm l :
  let hb := [x00; v1; v2] ++ fid ++ [ty] ++ fref ++ be 2 (blen ns) ++ ns ++ be 2 (blen nm) ++ nm ++ l in
  65535 <= mem E -> t < U64 -> blen hb < U16 -> blen hb <= t -> length fid = 8%nat ->
  b2n ty <= 3 -> fref_ok fref ->
  is_text ns -> ~ is_text nm -> decode E (frame t (blen hb) (hb ++ body)) = Err CorruptedEvent.
Proof.
  intros hb **. apply corrupt_gen; auto. apply bad_name_header; auto;
  subst hb; rewrite !blen_app in *; lia.
Qed.

(** ** C08 *)
Lemma good_header_iff hl body : hl < U16 -> hl <= blen body ->
  (good_header hl body <-> exists h x, header_from_read (firstn (N.to_nat hl) body) = Ok (h, x)).
Proof.
  intros Hh Hb. split.
  - intros (v1 & v2 & h & hb & extra & rest & -> & <- & Hw & Hr).
    apply wire_header_rest in Hw. subst hb. exists (norm_header h), extra.
    rewrite <- blen_app, app_assoc, firstn_blen, <- app_assoc. apply header_from_read_ok; [exact Hr|].
    rewrite header_rest_size in Hh. ulia.
  - intros (h & x & H). apply header_from_read_inv in H as ((v1 & v2 & H) & Hr & _ & Hz).
    exists v1, v2, h, ([x00; v1; v2] ++ header_rest h), x, (skipn (N.to_nat hl) body).
    split; [|split; [|split]].
    + rewrite app_assoc, <- app_assoc with (l := [x00; v1; v2]), <- H. symmetry; apply firstn_skipn.
    + rewrite <- blen_app, <- app_assoc, <- H. apply blen_firstn. exact Hb.
    + apply header_rest_wire; [exact Hr|]. rewrite blen_firstn in Hz by exact Hb. ulia.
    + exact Hr.
Qed.

Lemma crash_frame E t hl body c : 65535 <= mem E -> t < U64 -> hl < U16 ->
  (decode E (frame t hl body) = Crash c <-> crash_cause E t hl body c).
Proof.
  intros Hm Ht Hh. rewrite decode_frame by assumption. unfold decode_frame_spec.
  assert (GB : good_header hl body -> hl <= blen body).
  { intros (v1 & v2 & h & hb & extra & rest & -> & <- & _). rewrite !blen_app. lia. }
  pose proof (good_header_iff hl body Hh) as GH.
  unfold sub_u64. destruct (hl <=? t) eqn:Et; cbn [bind].
  - rewrite alloc_ok by ulia. cbn [bind]. destruct (hl <=? blen body) eqn:Eb.
    + specialize (GH ltac:(lia)).
      destruct (header_from_read (firstn (N.to_nat hl) body)) as [[h x]|e|c'] eqn:Eh; cbn [bind].
      * assert (G : good_header hl body) by (apply GH; eauto).
        unfold vec_alloc. destruct (ISIZE_MAX <? t - hl) eqn:E1; cbn [bind].
        { split; [intros H; injection H as <-; cbn; split; [exact G|right; lia]|].
          destruct c; cbn; try tauto; intros; try reflexivity; exfalso; lia. }
        destruct (mem E <? t - hl) eqn:E2; cbn [bind].
        { split; [intros H; injection H as <-; cbn; repeat split; auto; lia|].
          destruct c; cbn; try tauto; intros; try reflexivity; exfalso; lia. }
        split; [destruct (t - hl <=? blen body - hl); discriminate|].
        destruct c; cbn; try tauto; intros; exfalso; lia.
      * split; [discriminate|]. destruct c; cbn; try tauto; intros H; exfalso; try lia;
          destruct H as [G _]; apply GH in G as (? & ? & ?); discriminate.
      * exfalso. apply (header_from_read_not_crash _ _ Eh).
    + split; [discriminate|]. destruct c; cbn; try tauto; intros H; exfalso; try lia;
          destruct H as [G _]; apply GB in G; lia.
  - destruct (overflow_checks E) eqn:Eo; cbn [bind].
    + split; [intros H; injection H as <-; cbn; split; [exact Eo|lia]|].
      destruct c; cbn; rewrite ?Eo; try tauto; intros; try reflexivity; exfalso; [|lia].
      destruct H as [_ [[? _]|[? _]]]; [discriminate|lia].
    + rewrite alloc_ok by ulia. cbn [bind]. destruct (hl <=? blen body) eqn:Eb.
      * specialize (GH ltac:(lia)).
        destruct (header_from_read (firstn (N.to_nat hl) body)) as [[h x]|e|c'] eqn:Eh; cbn [bind].
        -- assert (G : good_header hl body) by (apply GH; eauto).
           unfold vec_alloc. replace (ISIZE_MAX <? t + U64 - hl) with true by ulia. cbn [bind].
           split; [intros H; injection H as <-; cbn; split; [exact G|left; split; [exact Eo|lia]]|].
           destruct c; cbn; rewrite ?Eo; try tauto; intros; try reflexivity; exfalso; [destruct H; discriminate|lia].
        -- split; [discriminate|]. destruct c; cbn; rewrite ?Eo; try tauto; intros H; exfalso;
             [destruct H; discriminate| |]; destruct H as [G _]; apply GH in G as (? & ? & ?); discriminate.
        -- exfalso. apply (header_from_read_not_crash _ _ Eh).
      * split; [discriminate|]. destruct c; cbn; rewrite ?Eo; try tauto; intros H; exfalso;
             [destruct H; discriminate| |]; destruct H as [G _]; apply GB in G; lia.
Qed.

Lemma crash_iff E l c : 65535 <= mem E ->
  (decode E l = Crash c <-> exists t hl body, l = frame t hl body /\ t < U64 /\ hl < U16 /\ crash_cause E t hl body c).
Proof.
  intros Hm. split.
  - intros H. destruct (blen l <? 10) eqn:E10; [rewrite decode_short in H by lia; discriminate|].
    destruct (split_frame l) as (t & hl & body & -> & Ht & Hh); [lia|].
    exists t, hl, body. repeat split; auto. apply (crash_frame E t hl body c); auto.
  - intros (t & hl & body & -> & Ht & Hh & H). apply crash_frame; auto.
Qed.

(** ** C09 *)
Lemma reader_allocs E l :
  run_allocs E (from_async_read E) l = []
  \/ exists t hl body, l = frame t hl body /\ t < U64 /\ hl <= 65535 /\
     (run_allocs E (from_async_read E) l = []
      \/ run_allocs E (from_async_read E) l = [hl]
      \/ run_allocs E (from_async_read E) l = [hl; if hl <=? t then t - hl else t + U64 - hl]).
Proof.
  destruct (blen l <? 10) eqn:E10.
  - left. unfold from_async_read. cbn [run_allocs]. destruct (N.of_nat 8 <=? blen l) eqn:E8; [|reflexivity].
    cbn [run_allocs]. replace (blen (skipn 8 l)) with (blen l - 8) by (unfold blen; rewrite skipn_length; lia).
    replace (N.of_nat 2 <=? blen l - 8) with false by lia. reflexivity.
  - right. destruct (split_frame l) as (t & hl & body & -> & Ht & Hh); [lia|]. exists t, hl, body.
    split; [reflexivity|]. split; [exact Ht|]. split; [ulia|].
    unfold from_async_read, frame. cbn [run_allocs]. rewrite !blen_app, !blen_be.
    replace (N.of_nat 8 <=? N.of_nat 8 + (N.of_nat 2 + blen body)) with true by lia.
    rewrite firstn_len, skipn_len by apply be_length. rewrite unbe_be_small by exact Ht.
    cbn [run_allocs]. rewrite blen_app, blen_be. replace (N.of_nat 2 <=? N.of_nat 2 + blen body) with true by lia.
    rewrite firstn_len, skipn_len by apply be_length. rewrite unbe_be_small by exact Hh.
    assert (G : forall dl, dl = (if hl <=? t then t - hl else t + U64 - hl) ->
      let r := run_allocs E (RAlloc hl (RExact hl (fun header_bytes =>
         match header_from_read header_bytes with
         | Ok (h, _) => RAlloc dl (RExact dl (fun buf => RDone (Ok (mk_event h buf))))
         | Err e => RDone (Err e) | Crash c => RDone (Crash c) end))) body in
      r = [] \/ r = [hl] \/ r = [hl; if hl <=? t then t - hl else t + U64 - hl]).
    { intros dl Hdl r. subst r. cbn [run_allocs]. destruct (vec_alloc E hl); [|auto|auto].
      destruct (hl <=? blen body); [|auto].
      destruct (header_from_read (firstn (N.to_nat hl) body)) as [[h x]| |]; cbn [run_allocs]; [|auto|auto].
      rewrite <- Hdl. right; right. destruct (vec_alloc E dl); [|reflexivity|reflexivity].
      destruct (dl <=? blen (skipn (N.to_nat hl) body)); reflexivity. }
    unfold sub_u64. destruct (hl <=? t) eqn:Et; [apply G; reflexivity|].
    destruct (overflow_checks E); [left; reflexivity|apply G; reflexivity].
Qed.

Lemma header_allocs_bound l : (length (header_allocs l) <= 3)%nat /\ Forall (fun n => n <= 65535) (header_allocs l).
Proof.
  unfold header_allocs.
  set (o := bind (read_version l) _).
  assert (H : forall ns, o = Ok ns -> (length ns <= 2)%nat /\ Forall (fun n => n <= 65535) ns).
  { subst o. intros ns H.
    apply bind_Ok in H as ([v l1] & _ & H). apply bind_Ok in H as ([i l2] & _ & H).
    apply bind_Ok in H as ([tn l3] & _ & H). destruct (etype_of tn); [|discriminate].
    apply bind_Ok in H as ([rr l4] & _ & H). apply bind_Ok in H as ([n l5] & H1 & H). injection H as <-.
    apply sread_int_inv in H1 as [_ H1]. change (256 ^ N.of_nat 2) with 65536 in H1.
    assert (Q : (length (match bind (read_namespace n l5) (fun sr => sread_int 2 (snd sr)) with Ok (namelen, _) => [namelen] | _ => [] end) <= 1)%nat
      /\ Forall (fun n => n <= 65535) (match bind (read_namespace n l5) (fun sr => sread_int 2 (snd sr)) with Ok (namelen, _) => [namelen] | _ => [] end)).
    { destruct (bind (read_namespace n l5) (fun sr => sread_int 2 (snd sr))) as [[m x]| |] eqn:Eb; cbn; [|auto|auto].
      split; [lia|]. apply bind_Ok in Eb as (a & _ & Eb). apply sread_int_inv in Eb as [_ Eb].
      change (256 ^ N.of_nat 2) with 65536 in Eb. constructor; [lia|constructor]. }
    destruct Q as [Q1 Q2]. rewrite app_length. split; [destruct (0 <? n); cbn; lia|].
    apply Forall_app. split; [|exact Q2]. destruct (0 <? n); constructor; [lia|constructor]. }
  destruct o as [ns| |]; cbn [length].
  - destruct (H ns eq_refl). split; [lia|]. constructor; [lia|assumption].
  - split; [lia|]. constructor; [lia|constructor].
  - split; [lia|]. constructor; [lia|constructor].
Qed.

Definition small_header : bytes := [x00; x09; x00] ++ be 8 7 ++ [x00; x00] ++ be 2 0 ++ be 2 0.
Lemma alloc_unbounded E n : 65535 <= mem E -> n <= ISIZE_MAX ->
  exists l, blen l = 27 /\ In n (run_allocs E (from_async_read E) l).
Proof.
  intros Hm Hn. exists (frame (17 + n) 17 small_header). split; [reflexivity|].
  unfold from_async_read, frame. cbn [run_allocs].
  rewrite !blen_app, !blen_be. replace (N.of_nat 8 <=? N.of_nat 8 + (N.of_nat 2 + blen small_header)) with true by lia.
  rewrite firstn_len, skipn_len by apply be_length. rewrite unbe_be_small by (change (256 ^ N.of_nat 8) with U64; ulia).
  cbn [run_allocs]. rewrite blen_app, blen_be. replace (N.of_nat 2 <=? N.of_nat 2 + blen small_header) with true by lia.
  rewrite firstn_len, skipn_len by apply be_length. rewrite unbe_be_small by reflexivity.
  rewrite sub_ok by lia. cbn [run_allocs]. rewrite alloc_ok by ulia.
  change (17 <=? blen small_header) with true. cbn [run_allocs].
  change (firstn (N.to_nat 17) small_header) with small_header.
  destruct (header_from_read small_header) as [[h x]| |] eqn:Eh; [|vm_compute in Eh; discriminate|vm_compute in Eh; discriminate].
  replace (17 + n - 17) with n by lia. cbn [run_allocs]. right. left. reflexivity.
Qed.

(** ** C10 *)
Lemma into_bytes_wire e : rust_event e -> fits e -> forall l, into_bytes e = Ok l <-> wire_event e l.
Proof.
  intros [Hr Hd] Hf l. rewrite (into_bytes_frame e Hf). unfold fits in Hf. split.
  - intros H. injection H as <-.
    exists (be 8 (header_size (ev_header e) + blen (ev_data e))), (be 2 (header_size (ev_header e))), (header_into_bytes (ev_header e)).
    rewrite blen_header. split; [unfold frame; reflexivity|]. split; [apply be_is_uint|split; [apply be_is_uint|]].
    + change (256 ^ N.of_nat 8) with U64. ulia.
    + change (256 ^ N.of_nat 2) with U16. ulia.
    + rewrite header_into_bytes_eq. apply header_rest_wire; assumption.
  - intros (ft & fh & hb & -> & H1 & H2 & H3). apply wire_header_rest in H3.
    change ([x00; x09; x00] ++ header_rest (ev_header e)) with (header_into_bytes (ev_header e)) in H3. subst hb.
    rewrite blen_header in *. apply is_uint_be in H1 as [-> _], H2 as [-> _]. reflexivity.
Qed.

Lemma documented_differs h l : wire_header [x00; x09; x00] h l -> ~ documented_header h l.
Proof.
  intros Hw (fid & fr & fnl & fns & fnm & Hl & H1 & H2 & H3 & H4 & H5).
  apply wire_header_rest in Hw. assert (L : blen l = header_size h) by (rewrite Hw, <- blen_header; reflexivity).
  apply (f_equal blen) in Hl. rewrite L in Hl. rewrite !blen_app in Hl. unfold header_size in Hl.
  destruct H1 as [H1 _], H3 as [H3 _], H5 as [H5 _].
  assert (blen fid = 8) by (unfold blen; lia). assert (blen fnl = 2) by (unfold blen; lia). assert (blen fnm = 2) by (unfold blen; lia).
  assert (blen fr = match h_ref h with Some _ => 9 | None => 1 end).
  { destruct (h_ref h); [|destruct H2 as (b & -> & _); reflexivity]. destruct H2 as (x & -> & [H2 _]). rewrite blen_cons. unfold blen. lia. }
  subst fns. change (blen [x00; x09; x00]) with 3 in Hl.
  destruct (h_ns h), (h_ref h); rewrite ?blen_nil in *; lia.
Qed.

(** ** C11 *)
Lemma end_is_response id ns name data ref :
  ev_type (event_end id ns name data ref) = Response /\ ev_type (event_end id ns name data ref) <> End.
Proof. split; [reflexivity|discriminate]. Qed.
