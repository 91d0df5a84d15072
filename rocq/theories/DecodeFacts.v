From Verif Require Import Base BaseFacts Utf8 Utf8Facts Reader Codec Spec CodecFacts.
From Coq Require Import ZifyBool ZifyNat ZifyN.
Arguments N.pow : simpl never.
Arguments be : simpl never.
Arguments unbe : simpl never.

Lemma U16_v : U16 = 65536. Proof. reflexivity. Qed.
Lemma U64_v : U64 = 18446744073709551616. Proof. reflexivity. Qed.
Lemma IMAX_v : ISIZE_MAX = 9223372036854775807. Proof. reflexivity. Qed.
Ltac ulia := rewrite ?U16_v, ?U64_v, ?IMAX_v in *; lia.

(** * the whole decoder on a frame *)
Definition decode_frame_spec E t hl body : outcome (event * bytes) :=
  bind (sub_u64 E t hl) (fun dl =>
  bind (vec_alloc E hl) (fun _ =>
  if hl <=? blen body then
    bind (header_from_read (firstn (N.to_nat hl) body)) (fun hr =>
    bind (vec_alloc E dl) (fun _ =>
    if dl <=? blen body - hl then
      let b := skipn (N.to_nat hl) body in
      Ok (mk_event (fst hr) (firstn (N.to_nat dl) b), skipn (N.to_nat dl) b)
    else Err (IoError UnexpectedEof)))
  else Err (IoError UnexpectedEof))).

Lemma decode_frame E t hl body : t < U64 -> hl < U16 ->
  decode E (frame t hl body) = decode_frame_spec E t hl body.
Proof.
  intros Ht Hh. unfold decode, frame, from_async_read, decode_frame_spec. cbn [run_bytes].
  rewrite !blen_app, !blen_be. replace (N.of_nat 8 <=? N.of_nat 8 + (N.of_nat 2 + blen body)) with true by lia.
  rewrite firstn_len, skipn_len by apply be_length. rewrite unbe_be_small by exact Ht.
  cbn [run_bytes]. rewrite blen_app, blen_be. replace (N.of_nat 2 <=? N.of_nat 2 + blen body) with true by lia.
  rewrite firstn_len, skipn_len by apply be_length. rewrite unbe_be_small by exact Hh.
  destruct (sub_u64 E t hl) as [dl| |]; cbn [bind run_bytes omap]; [|reflexivity|reflexivity].
  destruct (vec_alloc E hl) as [[]| |]; cbn [bind run_bytes omap]; [|reflexivity|reflexivity].
  destruct (hl <=? blen body) eqn:El; [|reflexivity].
  destruct (header_from_read (firstn (N.to_nat hl) body)) as [[h x]| |]; cbn [bind run_bytes omap]; [|reflexivity|reflexivity].
  destruct (vec_alloc E dl) as [[]| |]; cbn [bind run_bytes omap]; [|reflexivity|reflexivity].
  rewrite blen_skipn. destruct (dl <=? blen body - hl); reflexivity.
Qed.

Lemma decode_short E l : blen l < 10 -> decode E l = Err (IoError UnexpectedEof).
Proof.
  intros H. unfold decode, from_async_read. cbn [run_bytes].
  destruct (N.of_nat 8 <=? blen l) eqn:E8; [|reflexivity]. cbn [run_bytes].
  replace (blen (skipn 8 l)) with (blen l - 8) by (unfold blen; rewrite skipn_length; lia).
  replace (N.of_nat 2 <=? blen l - 8) with false by lia. reflexivity.
Qed.

Lemma be_unbe_len k l : length l = k -> be k (unbe l) = l.
Proof. intros <-. apply be_unbe. Qed.
Lemma split_frame l : 10 <= blen l -> exists t hl body, l = frame t hl body /\ t < U64 /\ hl < U16.
Proof.
  intros H. unfold blen in H.
  exists (unbe (firstn 8 l)), (unbe (firstn 2 (skipn 8 l))), (skipn 2 (skipn 8 l)).
  assert (L1 : length (firstn 8 l) = 8%nat) by (rewrite firstn_length; lia).
  assert (L2 : length (firstn 2 (skipn 8 l)) = 2%nat) by (rewrite firstn_length, skipn_length; lia).
  split; [|split].
  - unfold frame. rewrite (be_unbe_len 8) by exact L1. rewrite (be_unbe_len 2) by exact L2.
    rewrite firstn_skipn. rewrite firstn_skipn. reflexivity.
  - pose proof (unbe_lt (firstn 8 l)) as U. rewrite L1 in U. exact U.
  - pose proof (unbe_lt (firstn 2 (skipn 8 l))) as U. rewrite L2 in U. exact U.
Qed.

Lemma frame_inj t hl b t' hl' b' : t < U64 -> hl < U16 -> t' < U64 -> hl' < U16 ->
  frame t hl b = frame t' hl' b' -> t = t' /\ hl = hl' /\ b = b'.
Proof.
  unfold frame. intros H1 H2 H3 H4 H.
  apply (f_equal (fun l => (firstn 8 l, skipn 8 l))) in H.
  rewrite !firstn_len, !skipn_len in H by apply be_length. apply pair_equal_spec in H as [Ha Hb].
  apply (f_equal (fun l => (firstn 2 l, skipn 2 l))) in Hb.
  rewrite !firstn_len, !skipn_len in Hb by apply be_length. apply pair_equal_spec in Hb as [Hb Hc].
  apply (f_equal unbe) in Ha, Hb. rewrite !unbe_be_small in Ha, Hb by assumption. auto.
Qed.

(** * layout relations *)
Lemma is_uint_be k n l : is_uint k n l -> l = be k n /\ n < 256 ^ N.of_nat k.
Proof. intros [<- <-]. split; [symmetry; apply be_unbe | apply unbe_lt]. Qed.
Lemma be_is_uint k n : n < 256 ^ N.of_nat k -> is_uint k n (be k n).
Proof. intros H. split; [apply be_length | apply unbe_be_small, H]. Qed.

Lemma wire_header_rest v h l : wire_header v h l -> l = v ++ header_rest h.
Proof.
  intros (fid & ft & fr & fnl & fns & fnm & -> & H1 & H2 & H3 & H4 & H5 & H6).
  apply is_uint_be in H1 as [-> _], H2 as [-> _], H4 as [-> _], H6 as [-> _].
  unfold header_rest, etype_num. subst fns. do 3 f_equal.
  assert (fr = match h_ref h with Some r => be 1 255 ++ be 8 r | None => be 1 0 end) as ->.
  { destruct (h_ref h); [|exact H3]. destruct H3 as (x & -> & H3). apply is_uint_be in H3 as [-> _]. reflexivity. }
  f_equal. destruct (h_ns h); rewrite <- ?app_assoc; reflexivity.
Qed.
Lemma header_rest_wire v h : rust_header h -> header_size h <= 65535 -> wire_header v h (v ++ header_rest h).
Proof.
  intros (H1 & H2 & H3 & H4) Hs. unfold wire_header, header_rest, header_size in *.
  exists (be 8 (h_id h)), (be 1 (etype_num (h_type h))),
    (match h_ref h with Some r => be 1 255 ++ be 8 r | None => be 1 0 end),
    (be 2 (blen (match h_ns h with Some s => s | None => [] end))),
    (match h_ns h with Some s => s | None => [] end), (be 2 (blen (h_name h))).
  split; [|split; [|split; [|split; [|split; [|split]]]]].
  - destruct (h_ns h); rewrite <- ?app_assoc; reflexivity.
  - apply be_is_uint, H1.
  - apply be_is_uint. apply etype_num_lt.
  - destruct (h_ref h); [|reflexivity]. eexists; split; [reflexivity|]. apply be_is_uint. apply H2. reflexivity.
  - apply be_is_uint. change (256 ^ N.of_nat 2) with 65536. destruct (h_ns h), (h_ref h); cbn [blen length N.of_nat] in *; lia.
  - reflexivity.
  - apply be_is_uint. change (256 ^ N.of_nat 2) with 65536. destruct (h_ns h), (h_ref h); lia.
Qed.

Lemma into_bytes_frame e : fits e ->
  into_bytes e = Ok (frame (header_size (ev_header e) + blen (ev_data e)) (header_size (ev_header e))
                       (header_into_bytes (ev_header e) ++ ev_data e)).
Proof.
  unfold fits, into_bytes. intros H. rewrite blen_header. rewrite N.mod_small by ulia. reflexivity.
Qed.

Lemma alloc_ok E n : n <= mem E -> n <= ISIZE_MAX -> vec_alloc E n = Ok tt.
Proof. intros. unfold vec_alloc. replace (ISIZE_MAX <? n) with false by lia. replace (mem E <? n) with false by lia. reflexivity. Qed.
Lemma alloc_crash E n : mem E < n \/ ISIZE_MAX < n -> exists c, vec_alloc E n = Crash c.
Proof. intros. unfold vec_alloc. destruct (ISIZE_MAX <? n) eqn:?; [eauto|]. destruct (mem E <? n) eqn:?; [eauto|lia]. Qed.
Lemma alloc_inv E n : vec_alloc E n = Ok tt -> n <= mem E /\ n <= ISIZE_MAX.
Proof. unfold vec_alloc. destruct (ISIZE_MAX <? n) eqn:?; [discriminate|]. destruct (mem E <? n) eqn:?; [discriminate|]. lia. Qed.
Lemma alloc_not_err E n e : vec_alloc E n <> Err e.
Proof. unfold vec_alloc. destruct (ISIZE_MAX <? n); [discriminate|]. destruct (mem E <? n); discriminate. Qed.
Lemma sub_ok E a b : b <= a -> sub_u64 E a b = Ok (a - b).
Proof. intros. unfold sub_u64. replace (b <=? a) with true by lia. reflexivity. Qed.

(** * decoding a frame with a well formed header, extra header bytes and any version 0.x.y *)
Lemma decode_good E v1 v2 h hb extra data rest :
  65535 <= mem E -> blen data <= mem E -> blen data <= ISIZE_MAX ->
  rust_header h -> wire_header [x00; v1; v2] h hb -> blen hb + blen extra <= 65535 ->
  decode E (frame (blen hb + blen extra + blen data) (blen hb + blen extra) (hb ++ extra ++ data ++ rest))
  = Ok (mk_event (norm_header h) data, rest).
Proof.
  intros Hm1 Hm2 Hi Hr Hw Hl. apply wire_header_rest in Hw.
  assert (HS : blen hb = header_size h).
  { subst hb. rewrite blen_app. pose proof (blen_header_rest h). unfold blen at 1. cbn [length]. lia. }
  rewrite decode_frame by ulia. unfold decode_frame_spec.
  rewrite sub_ok by lia. cbn [bind]. rewrite alloc_ok by ulia. cbn [bind].
  rewrite !blen_app. replace (blen hb + blen extra <=? blen hb + (blen extra + (blen data + blen rest))) with true by lia.
  assert (Es : hb ++ extra ++ data ++ rest = (hb ++ extra) ++ data ++ rest) by (rewrite <- app_assoc; reflexivity).
  rewrite Es. rewrite <- (blen_app hb extra). rewrite firstn_blen, skipn_blen.
  replace (header_from_read (hb ++ extra)) with (@Ok (header * bytes) (norm_header h, extra))
    by (subst hb; rewrite <- app_assoc; symmetry; apply header_from_read_ok; [assumption | lia]).
  cbn [bind fst]. replace (blen (hb ++ extra) + blen data - blen (hb ++ extra)) with (blen data) by lia.
  rewrite alloc_ok by lia. cbn [bind]. rewrite !blen_app.
  replace (blen data <=? blen hb + (blen extra + (blen data + blen rest)) - (blen hb + blen extra)) with true by lia.
  rewrite firstn_blen, skipn_blen. reflexivity.
Qed.

Lemma norm_drop e : mk_event (norm_header (ev_header e)) (ev_data e) = drop_empty_ns e.
Proof.
  destruct e as [[id t r ns nm] d]. unfold drop_empty_ns, norm_header, ev_ns. cbn.
  destruct ns as [[|]|]; reflexivity.
Qed.
Lemma drop_normal e : normal e -> drop_empty_ns e = e.
Proof. unfold normal, drop_empty_ns. destruct (ev_ns e) as [[|]|]; intros Hn; [exfalso; apply Hn; reflexivity|reflexivity|reflexivity]. Qed.

Lemma decode_encoded E e rest : rust_event e -> enough_mem E e -> fits e ->
  exists l, into_bytes e = Ok l /\ decode E (l ++ rest) = Ok (drop_empty_ns e, rest).
Proof.
  intros [Hr Hd] [Hm1 Hm2] Hf. rewrite (into_bytes_frame e Hf). eexists. split; [reflexivity|].
  pose proof (header_rest_wire [x00; x09; x00] _ Hr Hf) as Hw.
  pose proof (decode_good E x09 x00 (ev_header e) _ [] (ev_data e) rest Hm1 Hm2 Hd Hr Hw) as G.
  assert (HS : blen ([x00; x09; x00] ++ header_rest (ev_header e)) = header_size (ev_header e)).
  { rewrite <- blen_header. reflexivity. }
  rewrite HS in G. unfold fits in Hf. rewrite blen_nil, N.add_0_r in G. specialize (G Hf).
  rewrite norm_drop in G. rewrite <- G. unfold frame. rewrite <- !app_assoc. rewrite header_into_bytes_eq. unfold FORMAT_VERSION.
  rewrite <- !app_assoc. reflexivity.
Qed.

(** * soundness *)
Lemma decode_inv E l e rest : decode E l = Ok (e, rest) ->
  exists t v1 v2 hb extra,
    l = frame t (blen hb + blen extra) (hb ++ extra ++ ev_data e ++ rest)
    /\ hb = [x00; v1; v2] ++ header_rest (ev_header e)
    /\ blen hb + blen extra <= 65535
    /\ blen (ev_data e) <= ISIZE_MAX /\ blen (ev_data e) <= mem E
    /\ t = blen hb + blen extra + blen (ev_data e)
    /\ rust_header (ev_header e) /\ normal e.
Proof.
  intros H. destruct (blen l <? 10) eqn:E10; [rewrite decode_short in H by lia; discriminate|].
  destruct (split_frame l) as (t & hl & body & -> & Ht & Hh); [lia|].
  rewrite decode_frame in H by assumption. unfold decode_frame_spec in H.
  apply bind_Ok in H as (dl & Hs & H). apply bind_Ok in H as ([] & Ha & H).
  destruct (hl <=? blen body) eqn:El; [|discriminate].
  apply bind_Ok in H as ([h x] & Hp & H). apply bind_Ok in H as ([] & Hb & H).
  destruct (dl <=? blen body - hl) eqn:Ed; [|discriminate]. cbn [fst] in H. injection H as <- <-.
  apply header_from_read_inv in Hp as ((v1 & v2 & Hp) & Hr & Hn & Hz).
  apply alloc_inv in Hb. pose proof (alloc_inv _ _ Ha).
  assert (LD : blen (firstn (N.to_nat dl) (skipn (N.to_nat hl) body)) = dl) by (apply blen_firstn; rewrite blen_skipn; lia).
  assert (Hdl : t = hl + dl).
  { unfold sub_u64 in Hs. destruct (hl <=? t) eqn:E1; [injection Hs as <-; lia|].
    destruct (overflow_checks E); [discriminate|]. injection Hs as <-. ulia. }
  exists t, v1, v2, ([x00; v1; v2] ++ header_rest h), x. cbn [ev_header ev_data].
  assert (LH : blen ([x00; v1; v2] ++ header_rest h) + blen x = hl).
  { rewrite <- blen_app, <- app_assoc, <- Hp. apply blen_firstn. lia. }
  repeat match goal with |- _ /\ _ => split end; try assumption; try reflexivity; try (rewrite LD; lia); try ulia.
  rewrite LH. f_equal. rewrite firstn_skipn.
  rewrite app_assoc, <- app_assoc with (l := [x00; v1; v2]), <- Hp. symmetry. apply firstn_skipn.
  all: try (destruct Hr as (?&?&?&?); assumption).
Qed.

Lemma header_rest_size v1 v2 h : blen ([x00; v1; v2] ++ header_rest h) = header_size h.
Proof. rewrite blen_app. pose proof (blen_header_rest h). unfold blen at 1. cbn [length]. lia. Qed.
