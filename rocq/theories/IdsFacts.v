(** Proofs about event ids (C12, C13). *)
From Verif Require Import Base BaseFacts Ids.
From Coq Require Import ZifyBool ZifyNat ZifyN.
Arguments N.pow : simpl never.
Arguments N.shiftl : simpl never.

Lemma U32_pos : 0 < 2 ^ 32. Proof. reflexivity. Qed.

Lemma lor_add_pow a b k : b < 2 ^ k -> N.lor (a * 2 ^ k) b = a * 2 ^ k + b.
Proof.
  intros H. symmetry. rewrite <- N.lxor_lor, N.add_nocarry_lxor; try reflexivity;
    (apply N.bits_inj; intros i; rewrite N.land_spec, N.bits_0;
     destruct (N.lt_ge_cases i k) as [Hi|Hi];
     [rewrite N.mul_pow2_bits_low by exact Hi; reflexivity|];
     destruct (N.testbit b i) eqn:Hb; [|apply andb_false_r]; exfalso;
     destruct (N.eq_dec b 0) as [->|Hb0]; [rewrite N.bits_0 in Hb; discriminate|];
     apply N.log2_lt_pow2 in H; [|lia]; rewrite N.bits_above_log2 in Hb by lia; discriminate).
Qed.

Lemma id_value t n : rust_instant t -> n < U32 ->
  nth_id t n = (secs t mod 65535) * 2 ^ 48 + millis t * 2 ^ 32 + n.
Proof.
  intros [Hs Hm] Hn. unfold nth_id, generate_event_id, U32, U64 in *.
  rewrite !N.shiftl_mul_pow2.
  assert (Hr : secs t mod 65535 < 65535) by (apply N.mod_lt; lia).
  rewrite (N.mod_small n) by (cbn; lia).
  rewrite (N.mod_small (secs t mod 65535 * 2 ^ 48)) by (change (2^48) with 281474976710656; change (2^64) with 18446744073709551616; lia).
  rewrite (N.mod_small (millis t * 2 ^ 32)) by (change (2^32) with 4294967296; change (2^64) with 18446744073709551616; lia).
  rewrite lor_add_pow by (change (2^32) with 4294967296; change (2^48) with 281474976710656; lia).
  replace (secs t mod 65535 * 2 ^ 48 + millis t * 2 ^ 32) with ((secs t mod 65535 * 65536 + millis t) * 2 ^ 32)
    by (change (2^48) with (65536 * 2^32); lia).
  rewrite lor_add_pow by exact Hn. reflexivity.
Qed.

Lemma ids_eq_iff t i u j : rust_instant t -> rust_instant u -> i < U32 -> j < U32 ->
  (nth_id t i = nth_id u j <-> i = j /\ millis t = millis u /\ secs t mod 65535 = secs u mod 65535).
Proof.
  intros Ht Hu Hi Hj. rewrite !id_value by assumption. destruct Ht as [_ Ht], Hu as [_ Hu].
  assert (secs t mod 65535 < 65535) by (apply N.mod_lt; lia).
  assert (secs u mod 65535 < 65535) by (apply N.mod_lt; lia).
  change U32 with 4294967296 in *. change (2 ^ 32) with 4294967296. change (2 ^ 48) with 281474976710656. split.
  - intros E. assert (i = j) by lia. lia.
  - intros (-> & -> & ->). reflexivity.
Qed.

Lemma ids_unique clk i j : (forall n, rust_instant (clk n)) -> i < U32 -> j < U32 -> i <> j ->
  nth_id (clk i) i <> nth_id (clk j) j.
Proof. intros Hc Hi Hj Hne E. apply ids_eq_iff in E; auto. tauto. Qed.

Lemma id_u64 t n : rust_instant t -> nth_id t n < U64.
Proof.
  intros [_ Hm]. unfold nth_id, generate_event_id.
  assert (L : forall a b, a < 2 ^ 64 -> b < 2 ^ 64 -> N.lor a b < 2 ^ 64).
  { intros a b Ha Hb. destruct (N.eq_dec (N.lor a b) 0) as [->|Hn]; [lia|]. apply N.log2_lt_pow2; [lia|].
    rewrite N.log2_lor. assert (Q : forall x, x < 2 ^ 64 -> N.log2 x < 64).
    { intros x Hx. destruct (N.eq_dec x 0) as [->|]; [reflexivity|]. apply N.log2_lt_pow2; lia. }
    apply N.max_lub_lt; apply Q; assumption. }
  apply L; [apply L|]; apply N.mod_lt; discriminate.
Qed.

Lemma ids_collide : exists t u i, rust_instant t /\ rust_instant u /\ secs t <> secs u /\ nth_id t i = nth_id u i.
Proof. exists (mk_instant 1000 5), (mk_instant 66535 5), 3. repeat split; discriminate. Qed.
