(** Arithmetic readings of shifts and masks on [Z]. *)
From Verif Require Import Base.

Lemma lor_add a b : Z.land a b = 0 -> Z.lor a b = a + b.
Proof. intros H. symmetry. rewrite <- (Z.lxor_lor a b H). apply Z.add_nocarry_lxor; exact H. Qed.

Lemma land_low_high a b k : 0 <= k -> 0 <= a < 2^k -> Z.land a (Z.shiftl b k) = 0.
Proof.
  intros Hk Ha. apply Z.bits_inj'. intros n Hn. rewrite Z.land_spec, Z.bits_0.
  destruct (Z.ltb_spec n k).
  - rewrite Z.shiftl_spec_low by lia. apply andb_false_r.
  - assert (Z.testbit a n = false) as ->; [|reflexivity].
    destruct (Z.eq_dec a 0) as [->|]. { apply Z.bits_0. }
    apply Z.bits_above_log2; [lia|]. apply Z.lt_le_trans with k; [|lia].
    apply Z.log2_lt_pow2; lia.
Qed.

Lemma lor_low_high a b k : 0 <= k -> 0 <= a < 2^k -> Z.lor a (Z.shiftl b k) = a + b * 2^k.
Proof.
  intros. rewrite lor_add by (apply land_low_high; lia).
  rewrite Z.shiftl_mul_pow2 by lia. reflexivity.
Qed.

Lemma lor_high_low a b k : 0 <= k -> 0 <= a < 2^k -> Z.lor (Z.shiftl b k) a = b * 2^k + a.
Proof. intros. rewrite Z.lor_comm, lor_low_high by lia. lia. Qed.

(** [b * 2^k | a] with the multiple written arithmetically. *)
Lemma lor_mul_low a b k : 0 <= k -> 0 <= a < 2^k -> Z.lor (b * 2^k) a = b * 2^k + a.
Proof. intros. rewrite <- Z.shiftl_mul_pow2 by lia. rewrite lor_high_low by lia.
  rewrite Z.shiftl_mul_pow2 by lia. reflexivity. Qed.

Lemma land_ones_mod x k : 0 <= k -> Z.land x (2^k - 1) = x mod 2^k.
Proof. intros. rewrite <- Z.land_ones by lia. f_equal. rewrite Z.ones_equiv. lia. Qed.

Lemma shiftr_div x k : 0 <= k -> Z.shiftr x k = x / 2^k.
Proof. apply Z.shiftr_div_pow2. Qed.

Lemma shiftl_mul x k : 0 <= k -> Z.shiftl x k = x * 2^k.
Proof. apply Z.shiftl_mul_pow2. Qed.

Lemma mod_split_pow2 x k m : 0 <= k <= m ->
  x mod 2^m = (x / 2^k) mod 2^(m-k) * 2^k + x mod 2^k.
Proof.
  intros H.
  assert (0 < 2^k) by (apply Z.pow_pos_nonneg; lia).
  assert (0 < 2^(m-k)) by (apply Z.pow_pos_nonneg; lia).
  replace (2^m) with (2^k * 2^(m-k)) by (rewrite <- Z.pow_add_r by lia; f_equal; lia).
  rewrite Z.rem_mul_r by lia. lia.
Qed.

(** Masking out the low [k] bits. *)
Lemma land_lnot_low x k : 0 <= k -> Z.land x (Z.lnot (2^k - 1)) = x - x mod 2^k.
Proof.
  intros. rewrite <- Z.ldiff_land.
  replace (2^k - 1) with (Z.ones k) by (rewrite Z.ones_equiv; lia).
  rewrite Z.ldiff_ones_r by lia. rewrite shiftr_div, shiftl_mul by lia.
  pose proof (Z.div_mod x (2^k)). assert (0 < 2^k) by (apply Z.pow_pos_nonneg; lia). lia.
Qed.

(** Masking a bit field: [x & (2^m - 2^k)]. *)
Lemma land_field x k m : 0 <= k <= m -> Z.land x (2^m - 2^k) = x mod 2^m - x mod 2^k.
Proof.
  intros H.
  replace (2^m - 2^k) with (Z.land (2^m - 1) (Z.lnot (2^k - 1))).
  - rewrite Z.land_assoc, land_ones_mod, land_lnot_low by lia.
    f_equal. rewrite (mod_split_pow2 x k m) by lia.
    assert (0 < 2^k) by (apply Z.pow_pos_nonneg; lia).
    rewrite Z.add_comm, Z.mod_add by lia. apply Z.mod_mod; lia.
  - rewrite land_lnot_low by lia.
    assert (0 < 2^k) by (apply Z.pow_pos_nonneg; lia).
    replace ((2^m - 1) mod 2^k) with (2^k - 1); [lia|].
    assert (0 < 2^(m-k)) by (apply Z.pow_pos_nonneg; lia).
    apply Z.mod_unique with (q := 2^(m-k) - 1); [lia|].
    replace (2^m) with (2^k * 2^(m-k)) by (rewrite <- Z.pow_add_r by lia; f_equal; lia). lia.
Qed.

Lemma lor_bit x k : 0 <= k -> Z.lor x (2^k) = x + 2^k * (1 - (x / 2^k) mod 2).
Proof.
  intros Hk.
  assert (P : 0 < 2^k) by (apply Z.pow_pos_nonneg; lia).
  assert (T : Z.testbit x k = negb ((x / 2^k) mod 2 =? 0)).
  { rewrite Z.testbit_odd, shiftr_div by lia. rewrite Zmod_odd. destruct (Z.odd _); reflexivity. }
  destruct (Z.testbit x k) eqn:E.
  - replace ((x / 2^k) mod 2) with 1 by lia. rewrite Z.sub_diag, Z.mul_0_r, Z.add_0_r.
    apply Z.bits_inj'. intros n Hn. rewrite Z.lor_spec, Z.pow2_bits_eqb by lia.
    destruct (Z.eqb_spec k n); [subst; rewrite E; reflexivity | apply orb_false_r].
  - replace ((x / 2^k) mod 2) with 0 by lia.
    rewrite lor_add; [lia|]. apply Z.bits_inj'. intros n Hn.
    rewrite Z.land_spec, Z.pow2_bits_eqb, Z.bits_0 by lia.
    destruct (Z.eqb_spec k n); [subst; rewrite E; reflexivity | apply andb_false_r].
Qed.

Lemma land_lnot_bit x k : 0 <= k -> Z.land x (Z.lnot (2^k)) = x - 2^k * ((x / 2^k) mod 2).
Proof.
  intros Hk.
  assert (H : x = Z.lor (Z.land x (Z.lnot (2^k))) (Z.land x (2^k))).
  { rewrite <- Z.land_lor_distr_r, Z.lor_comm, Z.lor_lnot_diag, Z.land_m1_r. reflexivity. }
  rewrite lor_add in H.
  2:{ rewrite Z.land_assoc, (Z.land_comm _ x), Z.land_assoc, Z.land_diag, <- Z.land_assoc.
      rewrite (Z.land_comm (Z.lnot _)), Z.land_lnot_diag. apply Z.land_0_r. }
  assert (E : Z.land x (2^k) = 2^k * ((x / 2^k) mod 2)).
  { replace (2^k) with (2^(k+1) - 2^k) at 1 by (rewrite Z.pow_add_r by lia; lia).
    rewrite land_field, (mod_split_pow2 x k (k+1)) by lia.
    replace (k + 1 - k) with 1 by lia. change (2^1) with 2. lia. }
  lia.
Qed.
