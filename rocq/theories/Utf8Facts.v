From Verif Require Import Base BaseFacts Utf8 Codec Spec.
From Coq Require Import ZifyBool ZifyNat ZifyN.
Ltac Zify.zify_post_hook ::= Z.div_mod_to_equations.

Ltac b2n_bounds :=
  repeat match goal with
  | b : byte |- _ => lazymatch goal with H : b2n b < 256 |- _ => fail | _ => pose proof (b2n_lt b) end
  end.

Ltac mod256 := repeat match goal with |- context [?x mod 256] => rewrite (N.mod_small x 256) by lia end.

Lemma utf8_encode_valid c s : scalar_value c -> utf8_valid (utf8_encode c ++ s) = utf8_valid s.
Proof.
  unfold scalar_value, utf8_encode. intros Hc.
  destruct (c <? 0x80) eqn:E1; [|destruct (c <? 0x800) eqn:E2; [|destruct (c <? 0x10000) eqn:E3]];
    cbn [app utf8_valid]; unfold cont, in_range; rewrite !b2n_n2b.
  - rewrite N.mod_small by lia. rewrite E1. reflexivity.
  - mod256.
    repeat match goal with |- context [if ?x then _ else _] => let H := fresh in destruct x eqn:H; try lia end.
    replace (128 <=? 0x80 + c mod 64) with true by lia.
    replace (0x80 + c mod 64 <=? 191) with true by lia. reflexivity.
  - mod256.
    repeat match goal with |- context [if ?x then _ else _] => let H := fresh in destruct x eqn:H; try lia end.
    + replace (160 <=? 0x80 + c / 64 mod 64) with true by lia.
      replace (0x80 + c / 64 mod 64 <=? 191) with true by lia.
      replace (128 <=? 0x80 + c mod 64) with true by lia.
      replace (0x80 + c mod 64 <=? 191) with true by lia. reflexivity.
    + replace (128 <=? 0x80 + c / 64 mod 64) with true by lia.
      replace (0x80 + c / 64 mod 64 <=? 159) with true by lia.
      replace (128 <=? 0x80 + c mod 64) with true by lia.
      replace (0x80 + c mod 64 <=? 191) with true by lia. reflexivity.
    + replace (128 <=? 0x80 + c / 64 mod 64) with true by lia.
      replace (0x80 + c / 64 mod 64 <=? 191) with true by lia.
      replace (128 <=? 0x80 + c mod 64) with true by lia.
      replace (0x80 + c mod 64 <=? 191) with true by lia. reflexivity.
  - mod256.
    repeat match goal with |- context [if ?x then _ else _] => let H := fresh in destruct x eqn:H; try lia end.
    + replace (144 <=? 0x80 + c / 4096 mod 64) with true by lia.
      replace (0x80 + c / 4096 mod 64 <=? 191) with true by lia.
      replace (128 <=? 0x80 + c / 64 mod 64) with true by lia.
      replace (0x80 + c / 64 mod 64 <=? 191) with true by lia.
      replace (128 <=? 0x80 + c mod 64) with true by lia.
      replace (0x80 + c mod 64 <=? 191) with true by lia. reflexivity.
    + replace (128 <=? 0x80 + c / 4096 mod 64) with true by lia.
      replace (0x80 + c / 4096 mod 64 <=? 191) with true by lia.
      replace (128 <=? 0x80 + c / 64 mod 64) with true by lia.
      replace (0x80 + c / 64 mod 64 <=? 191) with true by lia.
      replace (128 <=? 0x80 + c mod 64) with true by lia.
      replace (0x80 + c mod 64 <=? 191) with true by lia. reflexivity.
    + replace (128 <=? 0x80 + c / 4096 mod 64) with true by lia.
      replace (0x80 + c / 4096 mod 64 <=? 143) with true by lia.
      replace (128 <=? 0x80 + c / 64 mod 64) with true by lia.
      replace (0x80 + c / 64 mod 64 <=? 191) with true by lia.
      replace (128 <=? 0x80 + c mod 64) with true by lia.
      replace (0x80 + c mod 64 <=? 191) with true by lia. reflexivity.
Qed.

Lemma is_text_cons c s : scalar_value c -> is_text s -> is_text (utf8_encode c ++ s).
Proof. intros Hc (cs & Hcs & ->). exists (c :: cs). split; [constructor; assumption | reflexivity]. Qed.

Ltac split_andb := repeat match goal with H : _ && _ = true |- _ => apply andb_prop in H; destruct H end.

Lemma utf8_valid_text s : utf8_valid s = true -> is_text s.
Proof.
  remember (length s) as n eqn:Hn. revert s Hn.
  induction n as [n IH] using (well_founded_induction Wf_nat.lt_wf). intros s Hn H.
  destruct s as [|b0 t0]; [exists []; split; constructor|].
  pose proof (b2n_lt b0) as B0.
  cbn [utf8_valid] in H.
  destruct (b2n b0 <? 128) eqn:E0.
  { change (b0 :: t0) with ([b0] ++ t0).
    replace [b0] with (utf8_encode (b2n b0)).
    - apply is_text_cons; [left; lia|]. apply (IH (length t0)); [cbn in Hn; lia | reflexivity | exact H].
    - unfold utf8_encode. replace (b2n b0 <? 0x80) with true by lia. rewrite n2b_b2n. reflexivity. }
  destruct t0 as [|b1 t1]; [discriminate|]. pose proof (b2n_lt b1) as B1.
  unfold cont, in_range in H.
  destruct ((194 <=? b2n b0) && (b2n b0 <=? 223)) eqn:E1.
  { split_andb. set (c := (b2n b0 - 192) * 64 + (b2n b1 - 128)).
    change (b0 :: b1 :: t1) with ([b0; b1] ++ t1). replace [b0; b1] with (utf8_encode c).
    - apply is_text_cons; [left; subst c; lia|]. apply (IH (length t1)); [cbn in Hn; lia | reflexivity | assumption].
    - unfold utf8_encode. replace (c <? 0x80) with false by (subst c; lia). replace (c <? 0x800) with true by (subst c; lia).
      f_equal; [|f_equal]; symmetry; apply n2b_eq; subst c; lia. }
  destruct t1 as [|b2 t2]; [discriminate|]. pose proof (b2n_lt b2) as B2.
  assert (Three : (b2n b0 = 224 /\ 160 <= b2n b1 <= 191 \/ b2n b0 = 237 /\ 128 <= b2n b1 <= 159
                   \/ (225 <= b2n b0 <= 239 /\ b2n b0 <> 237) /\ 128 <= b2n b1 <= 191)
                  -> 128 <= b2n b2 <= 191 -> utf8_valid t2 = true -> is_text (b0 :: b1 :: b2 :: t2)).
  { intros HA HB HC. set (c := (b2n b0 - 224) * 4096 + (b2n b1 - 128) * 64 + (b2n b2 - 128)).
    change (b0 :: b1 :: b2 :: t2) with ([b0; b1; b2] ++ t2). replace [b0; b1; b2] with (utf8_encode c).
    - apply is_text_cons.
      + assert (c < 0xD800 \/ 0xE000 <= c /\ c < 0x10000) by (subst c; lia). unfold scalar_value; lia.
      + apply (IH (length t2)); [cbn in Hn; lia | reflexivity | assumption].
    - unfold utf8_encode. replace (c <? 0x80) with false by (subst c; lia). replace (c <? 0x800) with false by (subst c; lia).
      replace (c <? 0x10000) with true by (subst c; lia).
      f_equal; [|f_equal; [|f_equal]]; symmetry; apply n2b_eq; subst c; lia. }
  destruct (b2n b0 =? 224) eqn:E2; [split_andb; apply Three; try assumption; lia|].
  destruct (b2n b0 =? 237) eqn:E3; [split_andb; apply Three; try assumption; lia|].
  destruct ((225 <=? b2n b0) && (b2n b0 <=? 239)) eqn:E4; [split_andb; apply Three; try assumption; lia|].
  destruct t2 as [|b3 t3]; [discriminate|]. pose proof (b2n_lt b3) as B3. clear Three.
  assert (Four : (b2n b0 = 240 /\ 144 <= b2n b1 <= 191 \/ 241 <= b2n b0 <= 243 /\ 128 <= b2n b1 <= 191
                   \/ b2n b0 = 244 /\ 128 <= b2n b1 <= 143)
                  -> 128 <= b2n b2 <= 191 -> 128 <= b2n b3 <= 191 -> utf8_valid t3 = true -> is_text (b0 :: b1 :: b2 :: b3 :: t3)).
  { intros HA HB HB' HC. set (c := (b2n b0 - 240) * 262144 + (b2n b1 - 128) * 4096 + (b2n b2 - 128) * 64 + (b2n b3 - 128)).
    change (b0 :: b1 :: b2 :: b3 :: t3) with ([b0; b1; b2; b3] ++ t3). replace [b0; b1; b2; b3] with (utf8_encode c).
    - apply is_text_cons.
      + assert (0x10000 <= c /\ c < 0x110000) by (subst c; lia). unfold scalar_value; lia.
      + apply (IH (length t3)); [cbn in Hn; lia | reflexivity | assumption].
    - unfold utf8_encode. replace (c <? 0x80) with false by (subst c; lia). replace (c <? 0x800) with false by (subst c; lia).
      replace (c <? 0x10000) with false by (subst c; lia).
      f_equal; [|f_equal; [|f_equal; [|f_equal]]]; symmetry; apply n2b_eq; subst c; lia. }
  destruct (b2n b0 =? 240) eqn:E5; [split_andb; apply Four; try assumption; lia|].
  destruct ((241 <=? b2n b0) && (b2n b0 <=? 243)) eqn:E6; [split_andb; apply Four; try assumption; lia|].
  destruct (b2n b0 =? 244) eqn:E7; [split_andb; apply Four; try assumption; lia|].
  discriminate.
Qed.

(** [String::from_utf8] accepts exactly the Unicode texts. *)
Lemma utf8_valid_iff s : utf8_valid s = true <-> is_text s.
Proof.
  split; [apply utf8_valid_text|].
  intros (cs & Hcs & ->). induction cs as [|c cs IH]; [reflexivity|].
  inversion Hcs; subst. cbn [flat_map]. rewrite utf8_encode_valid by assumption. auto.
Qed.

Lemma is_text_str_nil : is_text []. Proof. exists []. split; constructor. Qed.
