From Verif Require Import Base BaseFacts Utf8 Utf8Facts Reader Codec Spec.
From Coq Require Import ZifyBool ZifyNat ZifyN.

Arguments N.pow : simpl never.
Arguments be : simpl never.
Arguments unbe : simpl never.

(** * slices *)
Lemma firstn_blen (a b : bytes) : firstn (N.to_nat (blen a)) (a ++ b) = a.
Proof. unfold blen. rewrite Nat2N.id, firstn_app, Nat.sub_diag, firstn_O, app_nil_r. apply firstn_all. Qed.
Lemma skipn_blen (a b : bytes) : skipn (N.to_nat (blen a)) (a ++ b) = b.
Proof. unfold blen. rewrite Nat2N.id, skipn_app, Nat.sub_diag, skipn_O, skipn_all. reflexivity. Qed.
Lemma firstn_len {A} (a b : list A) k : length a = k -> firstn k (a ++ b) = a.
Proof. intros <-. rewrite firstn_app, Nat.sub_diag, firstn_O, app_nil_r. apply firstn_all. Qed.
Lemma skipn_len {A} (a b : list A) k : length a = k -> skipn k (a ++ b) = b.
Proof. intros <-. rewrite skipn_app, Nat.sub_diag, skipn_O, skipn_all. reflexivity. Qed.
Lemma blen_firstn n (l : bytes) : n <= blen l -> blen (firstn (N.to_nat n) l) = n.
Proof. unfold blen. intros H. rewrite firstn_length. lia. Qed.
Lemma blen_skipn n (l : bytes) : blen (skipn (N.to_nat n) l) = blen l - n.
Proof. unfold blen. rewrite skipn_length. lia. Qed.

Lemma sread_exact_app a b : sread_exact (blen a) (a ++ b) = Ok (a, b).
Proof.
  unfold sread_exact. rewrite blen_app. replace (blen a <=? blen a + blen b) with true by lia.
  rewrite firstn_blen, skipn_blen. reflexivity.
Qed.
Lemma sread_exact_app' n a b : n = blen a -> sread_exact n (a ++ b) = Ok (a, b).
Proof. intros ->. apply sread_exact_app. Qed.
Lemma sread_exact_inv n l a r : sread_exact n l = Ok (a, r) -> l = a ++ r /\ blen a = n.
Proof.
  unfold sread_exact. destruct (n <=? blen l) eqn:E; [|discriminate]. intros H. injection H as <- <-.
  split; [symmetry; apply firstn_skipn | apply blen_firstn; lia].
Qed.
Lemma sread_exact_not_crash n l c : sread_exact n l <> Crash c.
Proof. unfold sread_exact. destruct (n <=? blen l); discriminate. Qed.
Lemma sread_int_app k n l : sread_int k (be k n ++ l) = Ok (n mod 256 ^ N.of_nat k, l).
Proof. unfold sread_int. rewrite sread_exact_app' by (symmetry; apply blen_be). cbn. rewrite unbe_be. reflexivity. Qed.
Lemma sread_int_inv k l n r : sread_int k l = Ok (n, r) -> l = be k n ++ r /\ n < 256 ^ N.of_nat k.
Proof.
  unfold sread_int. destruct (sread_exact (N.of_nat k) l) as [[a r']| |] eqn:E; cbn; try discriminate.
  intros H. injection H as <- <-. apply sread_exact_inv in E as [-> E].
  assert (length a = k) as <- by (unfold blen in E; lia).
  split; [rewrite be_unbe; reflexivity | apply unbe_lt].
Qed.
Lemma sread_int_not_crash k l c : sread_int k l <> Crash c.
Proof. unfold sread_int. destruct (sread_exact (N.of_nat k) l) eqn:E; cbn; try discriminate. intros _. apply sread_exact_not_crash in E. exact E. Qed.

(** * header *)
Lemma etype_of_num t : etype_of (etype_num t) = Some t.
Proof. destruct t; reflexivity. Qed.
Lemma etype_of_inv n t : etype_of n = Some t -> n = etype_num t.
Proof.
  unfold etype_of. destruct (n =? 0) eqn:E0; [intros H; injection H as <-; cbn; lia|].
  destruct (n =? 1) eqn:E1; [intros H; injection H as <-; cbn; lia|].
  destruct (n =? 2) eqn:E2; [intros H; injection H as <-; cbn; lia|].
  destruct (n =? 3) eqn:E3; [intros H; injection H as <-; cbn; lia|discriminate].
Qed.
Lemma etype_num_lt t : etype_num t < 256. Proof. destruct t; cbn; lia. Qed.

(** version independent part of the encoded header *)
Definition header_rest (h : header) : bytes :=
  be 8 (h_id h) ++ be 1 (etype_num (h_type h))
  ++ (match h_ref h with Some r => be 1 255 ++ be 8 r | None => be 1 0 end)
  ++ (match h_ns h with Some ns => be 2 (blen ns) ++ ns | None => be 2 0 end)
  ++ be 2 (blen (h_name h)) ++ h_name h.

Lemma header_into_bytes_eq h : header_into_bytes h = FORMAT_VERSION ++ header_rest h.
Proof. reflexivity. Qed.

Lemma blen_header_rest h : blen (header_rest h) + 3 = header_size h.
Proof.
  unfold header_rest, header_size. rewrite !blen_app, !blen_be.
  destruct (h_ref h), (h_ns h); rewrite ?blen_app, ?blen_be; lia.
Qed.
Lemma blen_header h : blen (header_into_bytes h) = header_size h.
Proof. rewrite header_into_bytes_eq, blen_app. pose proof (blen_header_rest h). unfold FORMAT_VERSION. cbn [blen length]. unfold blen in *. cbn [length]. lia. Qed.

Definition norm_header (h : header) : header :=
  mk_header (h_id h) (h_type h) (h_ref h) (match h_ns h with Some [] => None | n => n end) (h_name h).

Lemma read_version_ok v1 v2 l : read_version (x00 :: v1 :: v2 :: l) = Ok ([x00; v1; v2], l).
Proof.
  unfold read_version. change (x00 :: v1 :: v2 :: l) with ([x00; v1; v2] ++ l).
  rewrite sread_exact_app' by reflexivity. cbn. reflexivity.
Qed.
Lemma read_version_bad v0 v1 v2 l : v0 <> x00 -> read_version (v0 :: v1 :: v2 :: l) = Err (unsupported_version_vec [v0; v1; v2]).
Proof.
  intros H. unfold read_version. change (v0 :: v1 :: v2 :: l) with ([v0; v1; v2] ++ l).
  rewrite sread_exact_app' by reflexivity. cbn [bind]. unfold FORMAT_VERSION.
  destruct (byte_eqb v0 x00) eqn:E; [apply byte_eqb_spec in E; contradiction | reflexivity].
Qed.

Lemma read_version_inv l v r : read_version l = Ok (v, r) -> exists v1 v2, v = [x00; v1; v2] /\ l = x00 :: v1 :: v2 :: r.
Proof.
  unfold read_version. destruct (sread_exact 3 l) as [[a r']| |] eqn:E; cbn [bind]; try discriminate.
  apply sread_exact_inv in E as [-> E].
  destruct a as [|v0 [|v1 [|v2 [|]]]]; unfold blen in E; cbn [length] in E; try lia.
  unfold FORMAT_VERSION. destruct (byte_eqb v0 x00) eqn:E0; [|discriminate].
  apply byte_eqb_spec in E0. subst. intros H. injection H as <- <-. eauto.
Qed.

Lemma read_string_ok s l : utf8_valid s = true -> read_string (blen s) (s ++ l) = Ok (s, l).
Proof. intros H. unfold read_string. rewrite sread_exact_app. cbn. rewrite H. reflexivity. Qed.

(** Reading a header that was written, followed by anything. *)
Lemma header_from_read_ok v1 v2 h extra :
  rust_header h -> header_size h <= 65535 ->
  header_from_read ([x00; v1; v2] ++ header_rest h ++ extra) = Ok (norm_header h, extra).
Proof.
  intros (Hid & Href & Hns & Hname) Hsz. unfold header_size in Hsz.
  unfold header_from_read. cbn [app]. rewrite read_version_ok. cbn [bind].
  unfold header_rest. rewrite <- !app_assoc.
  rewrite sread_int_app. cbn [bind]. rewrite N.mod_small by exact Hid.
  rewrite sread_int_app. cbn [bind].
  rewrite N.mod_small by (pose proof (etype_num_lt (h_type h)); cbn; lia).
  rewrite etype_of_num. unfold read_ref_id.
  assert (U16_eq : 256 ^ N.of_nat 2 = U16) by reflexivity.
  assert (U64_eq : 256 ^ N.of_nat 8 = U64) by reflexivity.
  assert (U16_v : U16 = 65536) by reflexivity.
  assert (Hname' : blen (h_name h) < U16) by (destruct (h_ns h), (h_ref h); lia).
  assert (HN : forall X, read_name (be 2 (blen (h_name h)) ++ h_name h ++ X) = Ok (h_name h, X)).
  { intros X. unfold read_name. rewrite sread_int_app. cbn [bind fst snd]. rewrite N.mod_small by exact Hname'.
    apply read_string_ok. apply utf8_valid_iff, Hname. }
  assert (HNS : forall X,
    bind (sread_int 2 ((match h_ns h with Some ns => be 2 (blen ns) ++ ns | None => be 2 0 end)
         ++ be 2 (blen (h_name h)) ++ h_name h ++ X)) (fun nr => let (nslen, l5) := nr in
    bind (read_namespace nslen l5) (fun sr => let (ns, l6) := sr in
    bind (read_name l6) (fun mr => let (name, l7) := mr in
    Ok (mk_header (h_id h) (h_type h) (h_ref h) ns name, l7)))) = Ok (norm_header h, X)).
  { intros X. destruct (h_ns h) as [ns|] eqn:Ens.
    - rewrite <- app_assoc, sread_int_app. cbn [bind]. rewrite N.mod_small by (destruct (h_ref h); lia).
      unfold read_namespace. destruct (0 <? blen ns) eqn:E0.
      + rewrite read_string_ok by (apply utf8_valid_iff, Hns; reflexivity). cbn [bind fst snd].
        rewrite HN. cbn [bind]. unfold norm_header. rewrite Ens. destruct ns; [discriminate E0 | reflexivity].
      + destruct ns; [|unfold blen in E0; cbn [length] in E0; lia]. cbn [app bind]. rewrite HN. cbn [bind].
        unfold norm_header. rewrite Ens. reflexivity.
    - rewrite sread_int_app. cbn [bind]. change (0 mod 256 ^ N.of_nat 2) with 0. unfold read_namespace. cbn [N.ltb N.compare bind].
      rewrite HN. cbn [bind]. unfold norm_header. rewrite Ens. reflexivity. }
  destruct (h_ref h) as [r|] eqn:Er.
  - rewrite <- app_assoc, sread_int_app. cbn [bind]. change (255 mod 256 ^ N.of_nat 1) with 255. cbn [N.eqb Pos.eqb].
    rewrite sread_int_app. cbn [bind fst snd]. rewrite N.mod_small by (apply Href; reflexivity). apply HNS.
  - rewrite sread_int_app. cbn [bind]. change (0 mod 256 ^ N.of_nat 1) with 0. cbn [N.eqb]. apply HNS.
Qed.

(** What an accepted header looked like. *)
Lemma header_from_read_inv l h r :
  header_from_read l = Ok (h, r) ->
  (exists v1 v2, l = [x00; v1; v2] ++ header_rest h ++ r)
  /\ rust_header h /\ h_ns h <> Some [] /\ header_size h <= blen l.
Proof.
  unfold header_from_read. intros H.
  apply bind_Ok in H as ([v l1] & H1 & H). apply read_version_inv in H1 as (v1 & v2 & -> & ->).
  apply bind_Ok in H as ([id l2] & H2 & H). apply sread_int_inv in H2 as [-> Hid].
  apply bind_Ok in H as ([tn l3] & H3 & H). apply sread_int_inv in H3 as [-> Htn].
  destruct (etype_of tn) as [t|] eqn:Et; [|discriminate]. apply etype_of_inv in Et. subst tn.
  apply bind_Ok in H as ([ref l4] & H4 & H).
  apply bind_Ok in H as ([nslen l5] & H5 & H). apply sread_int_inv in H5 as [El4 Hnslen].
  apply bind_Ok in H as ([ns l6] & H6 & H).
  apply bind_Ok in H as ([name l7] & H7 & H). injection H as <- <-.
  assert (R : (l3 = (match ref with Some r => be 1 255 ++ be 8 r | None => be 1 0 end) ++ l4)
              /\ (forall r, ref = Some r -> r < U64)).
  { unfold read_ref_id in H4. apply bind_Ok in H4 as ([ex l3'] & H4a & H4b).
    apply sread_int_inv in H4a as [-> Hex]. destruct (ex =? 0) eqn:E0.
    - injection H4b as <- <-. assert (ex = 0) as -> by lia. split; [reflexivity | discriminate].
    - destruct (ex =? 255) eqn:E1; [|discriminate]. assert (ex = 255) as -> by lia.
      apply bind_Ok in H4b as ([i l3''] & H4c & H4d). apply sread_int_inv in H4c as [-> Hi].
      cbn in H4d. injection H4d as <- <-. split; [rewrite <- app_assoc; reflexivity|]. intros r Hr. injection Hr as <-. exact Hi. }
  destruct R as [-> HR]. subst l4.
  assert (SN : l5 = (match ns with Some s => s | None => [] end) ++ l6 /\ (nslen = match ns with Some s => blen s | None => 0 end)
               /\ (forall s, ns = Some s -> is_text s) /\ ns <> Some []).
  { unfold read_namespace in H6. destruct (0 <? nslen) eqn:E0.
    - apply bind_Ok in H6 as ([s r6] & H6a & H6b). injection H6b as <- <-. cbn.
      unfold read_string in H6a. apply bind_Ok in H6a as ([s' r6'] & H6c & H6d). cbn in H6d.
      destruct (utf8_valid s') eqn:Eu; [|discriminate]. injection H6d as -> ->.
      apply sread_exact_inv in H6c as [-> H6c]. repeat split; auto.
      + intros s0 Hs. injection Hs as <-. apply utf8_valid_iff, Eu.
      + intros Hs. injection Hs as ->. cbn in H6c. lia.
    - injection H6 as <- <-. repeat split; try discriminate. lia. }
  destruct SN as (-> & -> & HNS & HNE).
  assert (NM : l6 = be 2 (blen name) ++ name ++ l7 /\ is_text name).
  { unfold read_name in H7. apply bind_Ok in H7 as ([nl r7] & H7a & H7b). apply sread_int_inv in H7a as [-> Hnl].
    cbn in H7b. unfold read_string in H7b. apply bind_Ok in H7b as ([s' r7'] & H7c & H7d). cbn in H7d.
    destruct (utf8_valid s') eqn:Eu; [|discriminate]. injection H7d as -> ->.
    apply sread_exact_inv in H7c as [-> H7c]. subst nl. split; [reflexivity | apply utf8_valid_iff, Eu]. }
  destruct NM as [-> HT].
  assert (EQ : exists v1' v2', x00 :: v1 :: v2 :: be 8 id ++ be 1 (etype_num t) ++
      (match ref with Some r => be 1 255 ++ be 8 r | None => be 1 0 end) ++
      be 2 (match ns with Some s => blen s | None => 0 end) ++
      match ns with Some s => s | None => [] end ++ be 2 (blen name) ++ name ++ l7 =
      [x00; v1'; v2'] ++ header_rest (mk_header id t ref ns name) ++ l7).
  { exists v1, v2. unfold header_rest. cbn [h_id h_type h_ref h_ns h_name app]. rewrite <- !app_assoc.
    do 6 f_equal. destruct ns as [s|]; cbn [app]; rewrite <- ?app_assoc; reflexivity. }
  split; [exact EQ|]. split; [|split; [exact HNE|]].
  - unfold rust_header. cbn. repeat split; auto.
  - destruct EQ as (w1 & w2 & ->). rewrite !blen_app. pose proof (blen_header_rest (mk_header id t ref ns name)).
    unfold blen at 1. cbn [length]. lia.
Qed.

(** parsing a header never crashes *)
Definition nc {A} (o : outcome A) : Prop := forall c, o <> Crash c.
Lemma nc_bind {A B} (o : outcome A) (f : A -> outcome B) :
  nc o -> (forall a, o = Ok a -> nc (f a)) -> nc (bind o f).
Proof. intros H1 H2 c. destruct o; cbn; [apply H2; reflexivity | discriminate | exfalso; apply (H1 c0); reflexivity]. Qed.
Lemma nc_ok {A} (a : A) : nc (Ok a). Proof. intros c; discriminate. Qed.
Lemma nc_err {A} e : nc (@Err A e). Proof. intros c; discriminate. Qed.
Lemma nc_exact n l : nc (sread_exact n l). Proof. intros c; apply sread_exact_not_crash. Qed.
Lemma nc_int n l : nc (sread_int n l). Proof. intros c; apply sread_int_not_crash. Qed.
Lemma nc_string n l : nc (read_string n l).
Proof.
  unfold read_string. apply nc_bind; [apply nc_exact|]. intros a _.
  destruct (utf8_valid (fst a)); [apply nc_ok|apply nc_err].
Qed.
Lemma header_from_read_not_crash l : nc (header_from_read l).
Proof.
  unfold header_from_read. apply nc_bind.
  { unfold read_version. apply nc_bind; [apply nc_exact|]. intros [v r] Hv.
    apply sread_exact_inv in Hv as [_ Hv]. destruct v; [cbn in Hv; lia|].
    cbn. destruct (byte_eqb b x00); [apply nc_ok|apply nc_err]. }
  intros [v l1] _. apply nc_bind; [apply nc_int|].
  intros [id l2] _. apply nc_bind; [apply nc_int|].
  intros [tn l3] _. destruct (etype_of tn); [|apply nc_err].
  apply nc_bind.
  { unfold read_ref_id. apply nc_bind; [apply nc_int|]. intros [x r] _.
    destruct (x =? 0); [apply nc_ok|]. destruct (x =? 255); [|apply nc_err].
    apply nc_bind; [apply nc_int|intros; apply nc_ok]. }
  intros [ref l4] _. apply nc_bind; [apply nc_int|]. intros [n l5] _.
  apply nc_bind.
  { unfold read_namespace. destruct (0 <? n); [|apply nc_ok]. apply nc_bind; [apply nc_string|intros; apply nc_ok]. }
  intros [ns l6] _. apply nc_bind.
  { unfold read_name. apply nc_bind; [apply nc_int|]. intros; apply nc_string. }
  intros [nm l7] _. apply nc_ok.
Qed.
