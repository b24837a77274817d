(** Proofs about the 128-bit integer helpers: shifts, products, division. *)
From Verif Require Import Base Bits Int128_Model.

Lemma sgn_congr n a b : a mod 2^n = b mod 2^n -> sgn n a = sgn n b.
Proof. intros H. unfold sgn. rewrite H. reflexivity. Qed.

Lemma lsh_ok w x k : 0 <= k < w -> lsh w x k = Ok ((x * 2^k) mod 2^w).
Proof.
  intros. unfold lsh. replace ((0 <=? k) && (k <? w)) with true by lia.
  rewrite shiftl_mul by lia. reflexivity.
Qed.

Lemma rsh_ok w x k : 0 <= k < w -> rsh w x k = Ok (x / 2^k).
Proof.
  intros. unfold rsh. replace ((0 <=? k) && (k <? w)) with true by lia.
  rewrite shiftr_div by lia. reflexivity.
Qed.

Lemma land64_lo k : 0 <= k < 64 -> Z.land k 64 = 0.
Proof.
  intros. rewrite Z.land_comm. rewrite <- (land_low_high k 1 6) by lia.
  rewrite Z.land_comm. reflexivity.
Qed.
Lemma land64_hi k : 64 <= k < 128 -> Z.land k 64 = 64.
Proof.
  intros. replace (Z.land k 64) with (Z.land k (2^7 - 2^6)) by reflexivity. rewrite land_field by lia.
  change (2^7) with 128. change (2^6) with 64. rewrite Z.mod_small by lia.
  replace (k mod 64) with (k - 64); [lia|]. rewrite <- (Z.mod_small (k - 64) 64) by lia.
  replace (k - 64) with (k + (-1) * 64) by lia. apply Z.mod_add. lia.
Qed.
Lemma land63 k : Z.land k 63 = k mod 64.
Proof. change 63 with (2^6 - 1). rewrite land_ones_mod by lia. reflexivity. Qed.

(** The pieces of a shift by 0 < k < 64. *)
Lemma split_pow k : 0 < k < 64 -> 0 < 2^k /\ 0 < 2^(64-k) /\ 2^64 = 2^(64-k) * 2^k.
Proof.
  intros. split; [|split]; [apply Z.pow_pos_nonneg; lia|apply Z.pow_pos_nonneg; lia|].
  rewrite <- Z.pow_add_r by lia. f_equal. lia.
Qed.

Lemma mul_mod_split x P Q : 0 < P -> 0 < Q -> (x * P) mod (Q * P) = (x mod Q) * P.
Proof. intros. rewrite Z.mul_mod_distr_r by lia. reflexivity. Qed.

Lemma ashlti3_ok x n : - 2^127 <= x < 2^127 -> 0 <= n < 128 ->
  ashlti3 x n = Ok (s128 (x * 2^n)).
Proof.
  intros Hx Hn. unfold ashlti3. rewrite shiftr_div by lia.
  destruct (Z.ltb_spec n 64) as [L|L].
  - rewrite land64_lo by lia. change (negb (0 =? 0)) with false. cbv iota.
    destruct (Z.eqb_spec n 0) as [->|N]; cbn [negb].
    { rewrite Z.mul_1_r. unfold s128. rewrite sgn_id by lia. reflexivity. }
    destruct (split_pow n) as (P1 & P2 & E); [lia|].
    rewrite !lsh_ok, rsh_ok by lia. cbn [bind]. f_equal.
    unfold s128. apply sgn_congr. rewrite shiftl_mul by lia.
    unfold u64 in *. set (hi := x / 2^64). set (lo := x mod 2^64).
    assert (Hlo : 0 <= lo < 2^64) by (apply Z.mod_pos_bound; lia).
    assert (Ex : x = hi * 2^64 + lo) by (subst hi lo; rewrite Z.mul_comm; apply Z.div_mod; lia).
    clearbody hi lo. subst x.
    set (P := 2^n) in *. set (Q := 2^(64-n)) in *.
    assert (Hl : 0 <= lo / Q < P).
    { split; [apply Z.div_pos; lia|]. apply Z.div_lt_upper_bound; [lia|]. lia. }
    assert (E1 : (hi * P) mod 2^64 = (hi mod Q) * P) by (rewrite E at 1; apply mul_mod_split; lia).
    assert (E2 : (lo * P) mod 2^64 = (lo mod Q) * P) by (rewrite E at 1; apply mul_mod_split; lia).
    rewrite E1. replace (Z.lor (hi mod Q * P) (lo / Q)) with (hi mod Q * P + lo / Q)
      by (symmetry; apply (lor_mul_low (lo / Q) (hi mod Q) n); [lia|exact Hl]).
    rewrite (lor_mul_low ((lo * P) mod 2^64) _ 64) by (try lia; apply Z.mod_pos_bound; lia).
    rewrite E2.
    replace ((hi * 2^64 + lo) * P) with
      ((hi mod Q * P + lo / Q) * 2^64 + lo mod Q * P + (hi / Q) * 2^128).
    { symmetry. apply Z.mod_add. lia. }
    pose proof (Z.div_mod hi Q ltac:(lia)) as D1. pose proof (Z.div_mod lo Q ltac:(lia)) as D2.
    set (hq := hi / Q) in *. set (hm := hi mod Q) in *. set (lq := lo / Q) in *. set (lm := lo mod Q) in *.
    change (2^128) with (2^64 * 2^64).
    clearbody hq hm lq lm. subst hi lo. rewrite E. ring.
  - rewrite land64_hi by lia. change (negb (64 =? 0)) with true. cbv iota.
    rewrite land63. assert (M : n mod 64 = n - 64) by lia. rewrite M.
    rewrite lsh_ok by lia. cbn [bind]. f_equal. unfold s128. apply sgn_congr.
    rewrite shiftl_mul by lia. unfold u64.
    rewrite Z.mul_mod_idemp_l by lia.
    rewrite <- (Z.mul_mod_distr_r _ (2^64) (2^64)) by lia.
    change (2^64 * 2^64) with (2^128). rewrite Z.mod_mod by lia.
    rewrite <- Z.mul_assoc, <- Z.pow_add_r by lia. do 3 f_equal. lia.
Qed.

Lemma shr_parts hi lo n : 0 <= lo < 2^64 -> 0 < n < 64 ->
  Z.lor (Z.shiftl (hi / 2^n) 64) (Z.lor ((hi * 2^(64-n)) mod 2^64) (lo / 2^n)) = (hi * 2^64 + lo) / 2^n.
Proof.
  intros Hlo Hn. destruct (split_pow n) as (P1 & P2 & E); [lia|].
  set (P := 2^n) in *. set (Q := 2^(64-n)) in *.
  assert (E1 : (hi * Q) mod 2^64 = (hi mod P) * Q).
  { rewrite E at 1. rewrite Z.mul_comm with (n := Q). apply mul_mod_split; lia. }
  assert (Hl : 0 <= lo / P < Q).
  { split; [apply Z.div_pos; lia|]. apply Z.div_lt_upper_bound; [lia|]. lia. }
  rewrite E1. replace (Z.lor (hi mod P * Q) (lo / P)) with (hi mod P * Q + lo / P)
    by (symmetry; apply (lor_mul_low (lo / P) (hi mod P) (64 - n)); [lia|exact Hl]).
  assert (HR : 0 <= hi mod P * Q + lo / P < 2^64).
  { pose proof (Z.mod_pos_bound hi P ltac:(lia)). rewrite E. nia. }
  rewrite lor_high_low by lia.
  symmetry. pose proof (Z.div_mod hi P ltac:(lia)) as D1. pose proof (Z.div_mod lo P ltac:(lia)) as D2.
  pose proof (Z.mod_pos_bound lo P ltac:(lia)) as M.
  symmetry. apply Z.div_unique with (r := lo mod P); [left; lia|].
  set (hq := hi / P) in *. set (hm := hi mod P) in *. set (lq := lo / P) in *. set (lm := lo mod P) in *.
  clearbody hq hm lq lm. rewrite D1, D2, E. ring.
Qed.

Lemma shr_div x n : x / 2^64 / 2^n = x / 2^(64+n) \/ n < 0.
Proof.
  destruct (Z.ltb_spec n 0); [right; assumption|left].
  rewrite Z.div_div by (try apply Z.pow_pos_nonneg; lia). rewrite <- Z.pow_add_r by lia. reflexivity.
Qed.

Lemma ashrti3_ok x n : - 2^127 <= x < 2^127 -> 0 <= n < 128 -> ashrti3 x n = Ok (x / 2^n).
Proof.
  intros Hx Hn. unfold ashrti3. rewrite shiftr_div by lia.
  destruct (Z.ltb_spec n 64) as [L|L].
  - rewrite land64_lo by lia. change (negb (0 =? 0)) with false. cbv iota.
    destruct (Z.eqb_spec n 0) as [->|N]; cbn [negb].
    { rewrite Z.div_1_r. reflexivity. }
    rewrite lsh_ok, !rsh_ok by lia. cbn [bind]. unfold u64.
    pose proof (Z.mod_pos_bound x (2^64) ltac:(lia)).
    rewrite shr_parts by lia.
    replace (x / 2^64 * 2^64 + x mod 2^64) with x by (rewrite Z.mul_comm; apply Z.div_mod; lia).
    f_equal. unfold s128. apply sgn_id; [lia|].
    assert (0 < 2^n) by (apply Z.pow_pos_nonneg; lia).
    change (128 - 1) with 127. split.
    + apply Z.div_le_lower_bound; [lia|]. nia.
    + apply Z.div_lt_upper_bound; [lia|]. nia.
  - rewrite land64_hi by lia. change (negb (64 =? 0)) with true. cbv iota.
    rewrite land63. assert (M : n mod 64 = n - 64) by lia. rewrite M.
    rewrite rsh_ok by lia. f_equal.
    destruct (shr_div x (n - 64)) as [E|E]; [|lia]. rewrite E. do 2 f_equal. lia.
Qed.

Lemma lshrti3_ok x n : 0 <= x < 2^128 -> 0 <= n < 128 -> lshrti3 x n = Ok (x / 2^n).
Proof.
  intros Hx Hn. unfold lshrti3. rewrite shiftr_div by lia.
  destruct (Z.ltb_spec n 64) as [L|L].
  - rewrite land64_lo by lia. change (negb (0 =? 0)) with false. cbv iota.
    destruct (Z.eqb_spec n 0) as [->|N]; cbn [negb].
    { rewrite Z.div_1_r. reflexivity. }
    rewrite lsh_ok, !rsh_ok by lia. cbn [bind]. unfold u64.
    pose proof (Z.mod_pos_bound x (2^64) ltac:(lia)).
    rewrite shr_parts by lia.
    replace (x / 2^64 * 2^64 + x mod 2^64) with x by (rewrite Z.mul_comm; apply Z.div_mod; lia).
    f_equal. unfold u128. apply Z.mod_small.
    assert (0 < 2^n) by (apply Z.pow_pos_nonneg; lia). split.
    + apply Z.div_pos; lia.
    + apply Z.div_lt_upper_bound; [lia|]. nia.
  - rewrite land64_hi by lia. change (negb (64 =? 0)) with true. cbv iota.
    rewrite land63. assert (M : n mod 64 = n - 64) by lia. rewrite M.
    rewrite rsh_ok by lia. f_equal.
    destruct (shr_div x (n - 64)) as [E|E]; [|lia]. rewrite E. do 2 f_equal. lia.
Qed.

(** ** Products *)

Lemma div_mod_eq x m : 0 < m -> x = x / m * m + x mod m.
Proof. intros. rewrite Z.mul_comm. apply Z.div_mod. lia. Qed.

Lemma umulditi3_ok a b : is_u64 a -> is_u64 b -> umulditi3 a b = a * b.
Proof.
  unfold is_u64. intros Ha Hb. unfold umulditi3, u32, u64, u128.
  rewrite !shiftr_div, !shiftl_mul by lia.
  pose proof (div_mod_eq a (2^32) ltac:(lia)) as Ea. pose proof (div_mod_eq b (2^32) ltac:(lia)) as Eb.
  assert (A1 : 0 <= a / 2^32 < 2^32) by lia. assert (B1 : 0 <= b / 2^32 < 2^32) by lia.
  assert (A0 : 0 <= a mod 2^32 < 2^32) by lia. assert (B0 : 0 <= b mod 2^32 < 2^32) by lia.
  set (a1 := a / 2^32) in *. set (b1 := b / 2^32) in *. set (a0 := a mod 2^32) in *. set (b0 := b mod 2^32) in *.
  clearbody a1 b1 a0 b0. subst a b.
  assert (0 <= a1 * b1 <= (2^32-1)*(2^32-1)) by nia.
  assert (0 <= a1 * b0 <= (2^32-1)*(2^32-1)) by nia.
  assert (0 <= a0 * b1 <= (2^32-1)*(2^32-1)) by nia.
  assert (0 <= a0 * b0 <= (2^32-1)*(2^32-1)) by nia.
  rewrite !(Z.mod_small (_ * _) (2^128)) by lia.
  rewrite (Z.mod_small (a0 * b0) (2^64)) by lia.
  rewrite lor_mul_low by lia.
  rewrite !(Z.mod_small _ (2^128)) by lia. ring.
Qed.

Lemma umulti4_ok a b : is_u128 a -> is_u128 b ->
  let '(lo, hi) := umulti4 a b in hi * 2^128 + lo = a * b /\ is_u128 lo /\ is_u128 hi.
Proof.
  unfold is_u128. intros Ha Hb. unfold umulti4, u64. cbv zeta. rewrite !shiftr_div by lia.
  pose proof (div_mod_eq a (2^64) ltac:(lia)) as Ea. pose proof (div_mod_eq b (2^64) ltac:(lia)) as Eb.
  assert (A1 : 0 <= a / 2^64 < 2^64) by lia. assert (B1 : 0 <= b / 2^64 < 2^64) by lia.
  assert (A0 : 0 <= a mod 2^64 < 2^64) by lia. assert (B0 : 0 <= b mod 2^64 < 2^64) by lia.
  set (a1 := a / 2^64) in *. set (b1 := b / 2^64) in *. set (a0 := a mod 2^64) in *. set (b0 := b mod 2^64) in *.
  clearbody a1 b1 a0 b0. subst a b.
  rewrite !umulditi3_ok by assumption.
  assert (H11 : 0 <= a1 * b1 <= (2^64-1)*(2^64-1)) by nia.
  assert (H10 : 0 <= a1 * b0 <= (2^64-1)*(2^64-1)) by nia.
  assert (H01 : 0 <= a0 * b1 <= (2^64-1)*(2^64-1)) by nia.
  assert (H00 : 0 <= a0 * b0 <= (2^64-1)*(2^64-1)) by nia.
  assert (Ep : (a1 * 2^64 + a0) * (b1 * 2^64 + b0) =
     a1 * b1 * 2^128 + (a1 * b0 + a0 * b1) * 2^64 + a0 * b0).
  { change (2^128) with (2^64 * 2^64). ring. }
  set (p11 := a1 * b1) in *. set (p10 := a1 * b0) in *. set (p01 := a0 * b1) in *. set (p00 := a0 * b0) in *.
  rewrite Ep. clearbody p11 p10 p01 p00. clear Ep Ha Hb.
  rewrite !shiftl_mul by lia. unfold u128, u64.
  assert (M : 0 <= p00 / 2^64 + p10 mod 2^64 + p01 mod 2^64 < 3 * 2^64) by lia.
  rewrite (Z.mod_small (p00 / 2^64 + p10 mod 2^64)) by lia.
  rewrite (Z.mod_small (p00 / 2^64 + p10 mod 2^64 + p01 mod 2^64)) by lia.
  set (mid := p00 / 2^64 + p10 mod 2^64 + p01 mod 2^64) in *.
  replace ((mid * 2^64) mod 2^128) with ((mid mod 2^64) * 2^64)
    by (change (2^128) with (2^64 * 2^64); symmetry; apply mul_mod_split; lia).
  rewrite lor_mul_low by lia.
  assert (H : 0 <= mid / 2^64 + p10 / 2^64 + p01 / 2^64 + p11 < 2^128) by lia.
  rewrite (Z.mod_small (mid / 2^64 + p10 / 2^64)) by lia.
  rewrite (Z.mod_small (mid / 2^64 + p10 / 2^64 + p01 / 2^64)) by lia.
  rewrite (Z.mod_small (mid / 2^64 + p10 / 2^64 + p01 / 2^64 + p11)) by lia.
  split; [|lia]. subst mid. lia.
Qed.

Lemma multi3_ok a b : is_u128 a -> is_u128 b -> multi3 a b = (a * b) mod 2^128.
Proof.
  unfold is_u128. intros Ha Hb. unfold multi3. rewrite !shiftr_div by lia. unfold u64.
  pose proof (div_mod_eq a (2^64) ltac:(lia)) as Ea. pose proof (div_mod_eq b (2^64) ltac:(lia)) as Eb.
  assert (A1 : 0 <= a / 2^64 < 2^64) by lia. assert (B1 : 0 <= b / 2^64 < 2^64) by lia.
  assert (A0 : 0 <= a mod 2^64 < 2^64) by lia. assert (B0 : 0 <= b mod 2^64 < 2^64) by lia.
  set (a1 := a / 2^64) in *. set (b1 := b / 2^64) in *. set (a0 := a mod 2^64) in *. set (b0 := b mod 2^64) in *.
  clearbody a1 b1 a0 b0. subst a b.
  rewrite !umulditi3_ok by assumption. unfold u128.
  rewrite <- Z.add_mod by lia. rewrite shiftl_mul by lia.
  change (2^128) with (2^64 * 2^64) at 2.
  rewrite (Z.mul_mod_distr_r _ (2^64) (2^64)) by lia. rewrite Z.mod_mod by lia.
  rewrite <- (Z.mul_mod_distr_r _ (2^64) (2^64)) by lia. change (2^64 * 2^64) with (2^128).
  rewrite Z.add_mod_idemp_l by lia.
  replace ((a1 * 2^64 + a0) * (b1 * 2^64 + b0)) with
    ((a1 * b0 + a0 * b1) * 2^64 + a0 * b0 + (a1 * b1) * 2^128).
  2:{ change (2^128) with (2^64 * 2^64). ring. }
  rewrite Z.mod_add by lia. reflexivity.
Qed.
