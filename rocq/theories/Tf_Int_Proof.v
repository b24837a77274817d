(** Conversions between integers and binary128. *)
From Coq Require Import Reals Lra.
From Flocq Require Import Core.
From Verif Require Import Base Bits FP FP_Proof Rne HW HW_Proof Int128_Model Int128_Proof Int128_Div_Proof
  Int128_Float_Model Int128_Float_Proof Tf_Model Tf_Proof Tf_Widen_Proof Tf_Narrow_Proof.
Open Scope Z_scope.
Local Ltac Zify.zify_post_hook ::= idtac.

(** ** From integers *)
(** [b] is the pattern of exactly the integer [a] (zero is +0). *)
Definition is_int (mw ew a b : Z) : Prop :=
  fbits mw ew b /\ ffinite mw ew b = true /\ fneg mw ew b = (a <? 0) /\ fval mw ew b = IZR a.

(** the pattern of a positive integer with leading bit [l] *)
Definition int_pat (mw ew a l : Z) : Z := (2^(ew-1) - 1 + l) * 2^mw + (a * 2^(mw - l) - 2^mw).

Lemma int_pat_ok mw ew a l : 0 < mw -> 1 < ew -> 0 < a -> 0 <= l <= mw -> l < 2^(ew-1) ->
  2^mw <= a * 2^(mw - l) < 2^(mw+1) ->
  0 <= int_pat mw ew a l < finf mw ew /\ fmag mw ew (int_pat mw ew a l) = IZR a.
Proof.
  intros Hm He Ha Hl Hl' HB. assert (HP : 0 < 2^mw) by (apply pow2_pos; lia).
  assert (EP : 2^(mw + 1) = 2 * 2^mw) by (rewrite (Z.pow_add_r 2 mw 1) by lia; lia).
  destruct (pow_ew ew He) as [W1 W2]. unfold int_pat.
  split.
  - unfold finf. assert ((2^(ew-1) - 1 + l + 1) * 2^mw <= (2^ew - 1) * 2^mw) by (apply Z.mul_le_mono_nonneg_r; lia).
    assert (0 <= (2^(ew-1) - 1 + l) * 2^mw) by (apply Z.mul_nonneg_nonneg; lia). lia.
  - rewrite (fmag_normal mw ew _ (2^(ew-1) - 1 + l) (a * 2^(mw-l) - 2^mw)) by lia.
    replace (2^mw + (a * 2^(mw-l) - 2^mw)) with (a * 2^(mw-l)) by lia.
    unfold F2R. cbn [Fnum Fexp]. rewrite mult_IZR, <- bpow2 by lia. rewrite Rmult_assoc, <- bpow_plus.
    replace (mw - l + (emin mw ew + (2^(ew-1) - 1 + l) - 1)) with 0 by (unfold emin; lia). cbn [bpow]. ring.
Qed.

Lemma int_sign mw ew a l : 0 < mw -> 1 < ew -> a <> 0 -> 0 <= l <= mw -> l < 2^(ew-1) ->
  2^mw <= Z.abs a * 2^(mw - l) < 2^(mw+1) ->
  is_int mw ew a (with_sign mw ew (a <? 0) (int_pat mw ew (Z.abs a) l)).
Proof.
  intros Hm He Ha Hl Hl' HB. destruct (int_pat_ok mw ew (Z.abs a) l Hm He ltac:(lia) Hl Hl' HB) as [B V].
  pose proof (finf_pos mw ew Hm He) as FI.
  destruct (with_sign_spec mw ew Hm He (a <? 0) (int_pat mw ew (Z.abs a) l) ltac:(lia)) as (W1 & W2 & W3).
  split; [exact W3|]. unfold ffinite. rewrite W1. split; [lia|]. split; [exact W2|].
  rewrite with_sign_fval by (assumption || lia). rewrite V.
  destruct (Z.ltb_spec a 0).
  - rewrite <- opp_IZR. f_equal. lia.
  - f_equal. lia.
Qed.

Lemma clz_bit a s w : 0 <= s <= w -> 2^w <= a * 2^s < 2^(w+1) -> forall mw, w - s <= mw -> 2^mw <= a * 2^(mw - (w - s)) < 2^(mw+1).
Proof.
  intros Hs H mw Hm. destruct (Z.le_gt_cases w mw) as [L|L].
  - replace (mw - (w - s)) with (s + (mw - w)) by lia. rewrite Z.pow_add_r by lia.
    assert (E : 2^mw = 2^w * 2^(mw - w)) by (rewrite <- Z.pow_add_r by lia; f_equal; lia).
    assert (E' : 2^(mw+1) = 2^(w+1) * 2^(mw - w)) by (rewrite <- Z.pow_add_r by lia; f_equal; lia).
    rewrite E, E', Z.mul_assoc. assert (0 < 2^(mw-w)) by (apply pow2_pos; lia). split.
    + apply Z.mul_le_mono_nonneg_r; lia.
    + apply Z.mul_lt_mono_pos_r; lia.
  - assert (P : 0 < 2^(w - mw)) by (apply pow2_pos; lia).
    assert (E : 2^w = 2^mw * 2^(w - mw)) by (rewrite <- Z.pow_add_r by lia; f_equal; lia).
    assert (E' : 2^(w+1) = 2^(mw+1) * 2^(w - mw)) by (rewrite <- Z.pow_add_r by lia; f_equal; lia).
    assert (E2 : 2^s = 2^(mw - (w - s)) * 2^(w - mw)) by (rewrite <- Z.pow_add_r by lia; f_equal; lia).
    rewrite E, E', E2, Z.mul_assoc in H. split.
    + apply Z.mul_le_mono_pos_r with (2^(w-mw)); lia.
    + apply Z.mul_lt_mono_pos_r with (2^(w-mw)); lia.
Qed.

Lemma is_int_0 : is_int 112 15 0 0.
Proof.
  destruct (fabsb_pos 112 15 0 ltac:(cbn; lia)) as [A1 A2].
  split; [unfold fbits; cbn; lia|]. split; [reflexivity|]. split; [exact A2|].
  unfold fval. rewrite A1, A2. apply fmag_0. lia.
Qed.

Lemma di_sig m s : 0 < m < 2^64 -> 0 <= s <= 63 -> 2^63 <= m * 2^s < 2^64 ->
  Z.lor (Z.shiftl (Z.land ((m * 2^s) mod 2^64) (2^63 - 1)) 49) (Z.shiftl (0x3FFF + 63 - s) 112) = int_pat 112 15 m (63 - s).
Proof.
  intros Hm Hs HB. rewrite land_ones_mod, !shiftl_mul by lia. rewrite (Z.mod_small (m * 2^s)) by lia.
  replace ((m * 2^s) mod 2^63) with (m * 2^s - 2^63) by (apply Z.mod_unique with 1; lia).
  rewrite Z.lor_comm, lor_mul_low by lia. unfold int_pat. change (2^(15-1) - 1) with 0x3FFF.
  replace (112 - (63 - s)) with (s + 49) by lia. rewrite Z.pow_add_r, Z.mul_assoc by lia. lia.
Qed.

Lemma floatunditf_ok a : 0 <= a < 2^64 -> exists b, floatunditf a = Ok b /\ is_int 112 15 a b.
Proof.
  intros Ha. unfold floatunditf. destruct (Z.eqb_spec a 0) as [->|N]; [exists 0; split; [reflexivity|apply is_int_0]|].
  destruct (clzll_ok a ltac:(lia)) as (s & -> & Hs & HB). cbn [bind]. rewrite lsh_ok by lia. cbn [bind].
  eexists. split; [reflexivity|]. rewrite di_sig by lia.
  pose proof (int_sign 112 15 a (63 - s) eq_refl eq_refl ltac:(lia) ltac:(lia) ltac:(lia)) as I.
  rewrite (Z.abs_eq a) in I by lia. specialize (I (clz_bit a s 63 ltac:(lia) HB 112 ltac:(lia))).
  replace (a <? 0) with false in I by lia. exact I.
Qed.

Lemma floatditf_ok a : - 2^63 < a < 2^63 -> exists b, floatditf a = Ok b /\ is_int 112 15 a b.
Proof.
  intros Ha. unfold floatditf. destruct (Z.eqb_spec a 0) as [->|N]; [exists 0; split; [reflexivity|apply is_int_0]|].
  replace (if a <? 0 then chk_i64 (- a) else Ok a) with (Ok (Z.abs a)).
  2:{ destruct (Z.ltb_spec a 0); [rewrite chk_i64_ok by lia|]; f_equal; lia. }
  cbn [bind].
  destruct (clzll_ok (Z.abs a) ltac:(lia)) as (s & -> & Hs & HB). cbn [bind]. rewrite lsh_ok by lia. cbn [bind].
  eexists. split; [reflexivity|]. rewrite di_sig by lia.
  pose proof (clz_bit (Z.abs a) s 63 ltac:(lia) HB 112 ltac:(lia)) as CB.
  pose proof (int_sign 112 15 a (63 - s) eq_refl eq_refl ltac:(lia) ltac:(lia) ltac:(lia) CB) as I.
  replace (Z.shiftl (Z.land (u64 a) 0x8000000000000000) 64) with (if a <? 0 then 2^127 else 0).
  - rewrite lor_sign; [exact I|].
    pose proof (int_pat_ok 112 15 (Z.abs a) (63 - s) eq_refl eq_refl ltac:(lia) ltac:(lia) ltac:(lia) CB) as [J _].
    change (finf 112 15) with (0x7FFF * 2^112) in J. lia.
  - unfold u64. change 0x8000000000000000 with (2^64 - 2^63). rewrite land_field by lia. rewrite Z.mod_mod by lia.
    rewrite <- Znumtheory.Zmod_div_mod by (try lia; exists 2; reflexivity). rewrite shiftl_mul by lia.
    destruct (Z.ltb_spec a 0).
    + rewrite (mod_neg_small a (2^64)), (mod_neg_small a (2^63)) by lia. lia.
    + rewrite !Z.mod_small by lia. lia.
Qed.

(** 32-bit integers go through double *)
Lemma ofZ64_pat a : a <> 0 -> Z.abs a < 2^32 -> exists l, 0 <= l <= 31 /\ 2^52 <= Z.abs a * 2^(52 - l) < 2^53 /\
  ofZ64 a = with_sign 52 11 (a <? 0) (int_pat 52 11 (Z.abs a) l) /\ int_pat 52 11 (Z.abs a) l mod 2^4 = 0 /\
  0 <= int_pat 52 11 (Z.abs a) l < finf 52 11.
Proof.
  intros N Ha. exists (Z.log2 (Z.abs a)).
  pose proof (Z.log2_spec (Z.abs a) ltac:(lia)) as LS. pose proof (Z.log2_nonneg (Z.abs a)).
  assert (Z.log2 (Z.abs a) < 32) by (apply Z.log2_lt_pow2; lia).
  set (l := Z.log2 (Z.abs a)) in *. split; [lia|].
  assert (CB : 2^52 <= Z.abs a * 2^(52 - l) < 2^53).
  { pose proof (clz_bit (Z.abs a) 0 l) as C. specialize (C ltac:(lia)). rewrite Z.pow_0_r, Z.mul_1_r in C.
    specialize (C ltac:(lia) 52 ltac:(lia)). rewrite Z.sub_0_r in C. exact C. }
  split; [exact CB|].
  pose proof (int_sign 52 11 a l eq_refl eq_refl ltac:(lia) ltac:(lia) ltac:(lia) CB) as (I1 & I2 & I3 & I4).
  destruct (int_pat_ok 52 11 (Z.abs a) l eq_refl eq_refl ltac:(lia) ltac:(lia) ltac:(lia) CB) as [B V].
  change (finf 52 11) with (0x7FF * 2^52) in B.
  split; [|split; [|exact B]].
  - pose proof (hofZ_ok 52 11 eq_refl eq_refl eq_refl a) as R. fold ofZ64 in R.
    destruct (rounds_exact 52 11 eq_refl eq_refl eq_refl _ _ _ _ R I1 I2 I4) as (R1 & R2 & R3 & R4).
    destruct (split_bits 52 11 (ofZ64 a) eq_refl eq_refl R1) as [ER BR]. rewrite ER, R4. f_equal.
    apply (fmag_inj 52 11 eq_refl); try lia. rewrite V.
    unfold fval in R3. rewrite R4 in R3. destruct (Z.ltb_spec a 0).
    + replace (fmag 52 11 (fabsb 52 11 (ofZ64 a))) with (- IZR a)%R by lra. rewrite <- opp_IZR. f_equal. lia.
    + rewrite R3. f_equal. lia.
  - unfold int_pat.
    replace (2^(52 - l)) with (2^(52 - l - 4) * 2^4) by (rewrite <- Z.pow_add_r by lia; f_equal; lia).
    change (2^52) with (2^48 * 2^4).
    replace ((2^(11-1) - 1 + l) * (2^48 * 2^4) + (Z.abs a * (2^(52 - l - 4) * 2^4) - 2^48 * 2^4))
      with (((2^(11-1) - 1 + l) * 2^48 + (Z.abs a * 2^(52 - l - 4) - 2^48)) * 2^4) by ring.
    apply Z.mod_mul. lia.
Qed.

Lemma int_pat_widen a l : 0 <= l <= 31 ->
  int_pat 52 11 a l * 2^60 + 0x3C00 * 2^112 = int_pat 112 15 a l.
Proof.
  intros Hl. unfold int_pat. replace (2^(112 - l)) with (2^(52 - l) * 2^60) by (rewrite <- Z.pow_add_r by lia; f_equal; lia).
  change (2^(11-1) - 1) with 0x3FF. change (2^(15-1) - 1) with 0x3FFF. lia.
Qed.

Lemma si_high K : 0 <= K < finf 52 11 -> K mod 2^4 = 0 ->
  u64 (Z.shiftr K 4 + 0x3C00000000000000) * 2^64 = K * 2^60 + 0x3C00 * 2^112.
Proof.
  intros B M. change (finf 52 11) with (0x7FF * 2^52) in B. rewrite shiftr_div by lia.
  pose proof (Z.div_mod K (2^4) ltac:(lia)) as D. unfold u64. rewrite Z.mod_small by lia. lia.
Qed.

Lemma floatsitf_ok a : - 2^31 <= a < 2^31 -> is_int 112 15 a (floatsitf a).
Proof.
  intros Ha. unfold floatsitf. destruct (Z.eqb_spec a 0) as [->|N]; [apply is_int_0|].
  destruct (ofZ64_pat a N ltac:(lia)) as (l & Hl & CB & E & M & B).
  assert (CB' : 2^112 <= Z.abs a * 2^(112 - l) < 2^113).
  { replace (2^(112 - l)) with (2^(52 - l) * 2^60) by (rewrite <- Z.pow_add_r by lia; f_equal; lia). lia. }
  rewrite E. destruct (with_sign_spec 52 11 eq_refl eq_refl (a <? 0) (int_pat 52 11 (Z.abs a) l)) as (W1 & _).
  { change (finf 52 11) with (0x7FF * 2^52) in B. change (52 + 11) with 63. lia. }
  rewrite W1, Z.shiftl_lor, !(shiftl_mul _ 64) by lia. rewrite si_high, int_pat_widen by assumption.
  replace (Z.land (u64 a) 0x8000000000000000 * 2^64) with (if a <? 0 then 2^127 else 0).
  - rewrite Z.lor_comm, lor_sign.
    + apply int_sign; lia.
    + destruct (int_pat_ok 112 15 (Z.abs a) l eq_refl eq_refl ltac:(lia) ltac:(lia) ltac:(lia) CB') as [J _].
      change (finf 112 15) with (0x7FFF * 2^112) in J. lia.
  - unfold u64. change 0x8000000000000000 with (2^64 - 2^63). rewrite land_field by lia. rewrite Z.mod_mod by lia.
    rewrite <- Znumtheory.Zmod_div_mod by (try lia; exists 2; reflexivity).
    destruct (Z.ltb_spec a 0).
    + rewrite (mod_neg_small a (2^64)), (mod_neg_small a (2^63)) by lia. lia.
    + rewrite !Z.mod_small by lia. lia.
Qed.

Lemma floatunsitf_ok a : 0 <= a < 2^32 -> is_int 112 15 a (floatunsitf a).
Proof.
  intros Ha. unfold floatunsitf. destruct (Z.eqb_spec a 0) as [->|N]; [apply is_int_0|].
  destruct (ofZ64_pat a N ltac:(lia)) as (l & Hl & CB & E & M & B).
  assert (CB' : 2^112 <= Z.abs a * 2^(112 - l) < 2^113).
  { replace (2^(112 - l)) with (2^(52 - l) * 2^60) by (rewrite <- Z.pow_add_r by lia; f_equal; lia). lia. }
  replace (a <? 0) with false in E by lia. unfold with_sign in E. rewrite Z.add_0_l in E. rewrite E.
  rewrite (shiftl_mul _ 64) by lia. rewrite si_high, int_pat_widen by assumption.
  pose proof (int_sign 112 15 a l eq_refl eq_refl ltac:(lia) ltac:(lia) ltac:(lia) CB') as I.
  replace (a <? 0) with false in I by lia. exact I.
Qed.

Lemma floatuntitf_ok a : 0 <= a < 2^128 -> exists b, floatuntitf a = Ok b /\ rounds_to 112 15 (IZR a) false b.
Proof.
  intros Ha. unfold floatuntitf. destruct (Z.eqb_spec a 0) as [->|N].
  - exists 0. split; [reflexivity|]. destruct is_int_0 as (A & B & C & D).
    split; [exact A|]. split; [exact C|]. rewrite RN_0. rewrite Rabs_R0. split; [auto|].
    intros K. pose proof (bpow_gt_0 radix2 (2^(15-1))). lra.
  - apply (floatti_bits_ok 112 15 14 128 (0x3FFF + 127)) with (neg := false); try lia; reflexivity.
Qed.

Lemma floattitf_ok a : - 2^127 < a < 2^127 -> exists b, floattitf a = Ok b /\ rounds_to 112 15 (IZR a) (a <? 0) b.
Proof.
  intros Ha. unfold floattitf. destruct (Z.eqb_spec a 0) as [->|N].
  - exists 0. split; [reflexivity|]. destruct is_int_0 as (A & B & C & D).
    split; [exact A|]. split; [exact C|]. rewrite RN_0. rewrite Rabs_R0. split; [auto|].
    intros K. pose proof (bpow_gt_0 radix2 (2^(15-1))). lra.
  - assert (S : Z.land (u128 a) SIGN128 = if a <? 0 then 2^127 else 0).
    { unfold u128, SIGN128. rewrite shiftl_mul, Z.mul_1_l by lia.
      replace (2^127) with (2^128 - 2^127) at 1 by reflexivity. rewrite land_field by lia. rewrite Z.mod_mod by lia.
      rewrite <- Znumtheory.Zmod_div_mod by (try lia; exists 2; reflexivity).
      destruct (Z.ltb_spec a 0).
      - rewrite (mod_neg_small a (2^128)), (mod_neg_small a (2^127)) by lia. lia.
      - rewrite !Z.mod_small by lia. lia. }
    rewrite S. destruct (Z.ltb_spec a 0).
    + rewrite chk_i128_ok by lia. cbn [bind].
      replace (IZR a) with (Ropp (IZR (- a))) by (rewrite opp_IZR; ring).
      apply (floatti_bits_ok 112 15 14 128 (0x3FFF + 127)) with (neg := true); try lia; reflexivity.
    + cbn [bind]. apply (floatti_bits_ok 112 15 14 128 (0x3FFF + 127)) with (neg := false); try lia; reflexivity.
Qed.

(** ** To integers *)
Lemma Zfloor_F2R_neg q s : 0 <= s -> Zfloor (F2R (Float radix2 q (- s))) = q / 2^s.
Proof.
  intros Hs. pose proof (pow2_pos s Hs). unfold F2R. cbn [Fnum Fexp]. rewrite bpow_opp, bpow2 by lia.
  apply Zfloor_div. lia.
Qed.

Lemma fix_floor k e m : k = e * 2^112 + m -> 0 <= m < 2^112 -> 0 <= e ->
  Zfloor (fmag 112 15 k) = if e <? 0x3FFF then 0 else
    if 112 + 0x3FFF - e <? 0 then (2^112 + m) * 2^(e - 0x3FFF - 112) else (2^112 + m) / 2^(112 + 0x3FFF - e).
Proof.
  intros E Hm He. destruct (Z.ltb_spec e 0x3FFF) as [L|G].
  - apply Zfloor_imp. change (IZR (0 + 1)) with 1%R. split; [apply fmag_nonneg; lia|].
    apply Rlt_le_trans with (fmag 112 15 (0x3FFF * 2^112)); [apply fmag_lt; lia|]. rewrite fmag_pow by lia.
    replace (112 + emin 112 15 + 0x3FFF - 1) with 0 by (unfold emin; lia). cbn [bpow]. lra.
  - rewrite (fmag_normal 112 15 k e m) by lia.
    replace (emin 112 15 + e - 1) with (e - 0x3FFF - 112) by (unfold emin; lia).
    destruct (Z.ltb_spec (112 + 0x3FFF - e) 0) as [L|L].
    + unfold F2R. cbn [Fnum Fexp]. rewrite bpow2, <- mult_IZR by lia. apply Zfloor_IZR.
    + replace (e - 0x3FFF - 112) with (- (112 + 0x3FFF - e)) by lia. apply Zfloor_F2R_neg. lia.
Qed.

Lemma trunc_mag x : fb x -> Ztrunc (fval 112 15 x) = (if fn x then -1 else 1) * Zfloor (fmag 112 15 (fa x)) /\ 0 <= Zfloor (fmag 112 15 (fa x)).
Proof.
  intros Hx. destruct (tf_split x Hx) as [_ B]. pose proof (fmag_nonneg 112 15 eq_refl (fa x) ltac:(lia)) as NN.
  split; [|apply Zfloor_lub; exact NN].
  unfold fval. destruct (fn x).
  - rewrite Ztrunc_opp, Ztrunc_floor by assumption. lia.
  - rewrite Ztrunc_floor by assumption. lia.
Qed.

Lemma fexp_split k : 0 <= k < 2^127 -> exists e m, k = e * 2^112 + m /\ 0 <= m < 2^112 /\ 0 <= e < 2^15 /\ k / 2^112 = e /\ k mod 2^112 = m.
Proof.
  intros H. exists (k / 2^112), (k mod 2^112). pose proof (Z.div_mod k (2^112) ltac:(lia)).
  pose proof (Z.mod_pos_bound k (2^112) ltac:(lia)). repeat split; try lia.
Qed.

Lemma high_exp k e m c : k = e * 2^112 + m -> 0 <= m < 2^112 -> (k / 2^64 <? c * 2^48) = (e <? c).
Proof.
  intros E Hm. destruct (Z.ltb_spec e c) as [L|L].
  - apply Z.ltb_lt. apply Z.div_lt_upper_bound; lia.
  - apply Z.ltb_ge. apply Z.div_le_lower_bound; lia.
Qed.

Lemma fixunstfti_mag k : 0 <= k < 2^127 -> Zfloor (fmag 112 15 k) < 2^128 -> fixunstfti_ k = Ok (Zfloor (fmag 112 15 k)).
Proof.
  intros Hk HF. destruct (fexp_split k Hk) as (e & m & Ek & Hm & He & D & M).
  rewrite (fix_floor k e m Ek Hm ltac:(lia)) in *. unfold fixunstfti_.
  rewrite (shiftl_mul 1 112), Z.mul_1_l, !shiftr_div by lia. change 0x3FFF000000000000 with (0x3FFF * 2^48).
  rewrite (high_exp k e m 0x3FFF Ek Hm). destruct (Z.ltb_spec e 0x3FFF) as [L|L]; [reflexivity|].
  rewrite land_ones_mod by lia. rewrite D, M.
  replace (Z.lor m (2^112)) with (2^112 + m).
  2:{ rewrite Z.lor_comm. change (2^112) with (1 * 2^112) at 2. rewrite lor_mul_low by lia. lia. }
  destruct (Z.ltb_spec (112 + 0x3FFF - e) 0) as [S|S].
  - assert (e - 0x3FFF - 112 < 16).
    { destruct (Z.lt_ge_cases (e - 0x3FFF - 112) 16) as [|C]; [assumption|]. exfalso.
      assert (2^16 <= 2^(e - 0x3FFF - 112)) by (apply Z.pow_le_mono_r; lia).
      assert (2^112 * 2^16 <= (2^112 + m) * 2^(e - 0x3FFF - 112)) by (apply Z.mul_le_mono_nonneg; lia). lia. }
    replace (- (112 + 0x3FFF - e)) with (e - 0x3FFF - 112) by lia.
    rewrite lsh_ok by lia. f_equal. apply Z.mod_small. split; [|exact HF].
    apply Z.mul_nonneg_nonneg; [lia|]. apply Z.lt_le_incl, pow2_pos. lia.
  - rewrite rsh_ok by lia. reflexivity.
Qed.

Lemma fixunstfti_ok x : fb x -> ffinite 112 15 x = true -> 0 <= Ztrunc (fval 112 15 x) < 2^128 ->
  fixunstfti x = Ok (Ztrunc (fval 112 15 x)).
Proof.
  intros Hx F HT. destruct (trunc_mag x Hx) as [TM NN]. destruct (tf_split x Hx) as [Ex B]. rewrite TM in *.
  unfold fixunstfti. rewrite (s128_ok x Hx).
  destruct (fn x).
  - replace (Zfloor (fmag 112 15 (fa x))) with 0 by lia. unfold fixunstfti_. rewrite !shiftr_div by lia.
    assert ((- 2^127 + fa x) / 2^64 < 0) by (apply Z.div_lt_upper_bound; lia).
    replace ((- 2^127 + fa x) / 2^64 <? 0x3FFF000000000000) with true by lia. reflexivity.
  - rewrite Z.add_0_l, Z.mul_1_l in *. apply fixunstfti_mag; lia.
Qed.

Lemma fixtfti_ok x : fb x -> ffinite 112 15 x = true -> - 2^127 < Ztrunc (fval 112 15 x) < 2^127 ->
  fixtfti x = Ok (Ztrunc (fval 112 15 x)).
Proof.
  intros Hx F HT. destruct (trunc_mag x Hx) as [TM NN]. destruct (tf_split x Hx) as [Ex B]. rewrite TM in *.
  unfold fixtfti. rewrite nosign_ok. rewrite fixunstfti_mag by (destruct (fn x); lia). cbn [bind].
  unfold s128. rewrite (sgn_id 128) by (destruct (fn x); lia).
  destruct (fn x); [rewrite chk_i128_ok by lia|]; f_equal; lia.
Qed.

Lemma fixunstfdi_mag k : 0 <= k < 2^127 -> Zfloor (fmag 112 15 k) < 2^64 ->
  fixunstfdi_ (k / 2^64) (k mod 2^64) = Ok (Zfloor (fmag 112 15 k)).
Proof.
  intros Hk HF. destruct (high_split k Hk) as (e & mh & low & He & Hm & Hl & Ek & -> & ->).
  rewrite (fix_floor k e (mh * 2^64 + low) ltac:(lia) ltac:(lia) ltac:(lia)) in *. unfold fixunstfdi_.
  rewrite !shiftr_div by lia. change 0x3FFF000000000000 with (0x3FFF * 2^48).
  replace (e * 2^48 + mh <? 0x3FFF * 2^48) with (e <? 0x3FFF) by lia.
  destruct (Z.ltb_spec e 0x3FFF) as [L|L]; [reflexivity|].
  assert (EH : (e * 2^48 + mh) / 2^48 = e) by (symmetry; apply Z.div_unique with mh; lia). rewrite EH.
  change 0x0000FFFFFFFFFFFF with (2^48 - 1). change 0x0001000000000000 with (2^48). rewrite land_ones_mod by lia.
  replace ((e * 2^48 + mh) mod 2^48) with mh by (apply Z.mod_unique with e; lia).
  replace (Z.lor mh (2^48)) with (2^48 + mh).
  2:{ rewrite Z.lor_comm. change (2^48) with (1 * 2^48) at 2. rewrite lor_mul_low by lia. lia. }
  set (sh := 112 + 0x3FFF - e) in *. set (q := 2^112 + (mh * 2^64 + low)) in *.
  assert (SH : 49 <= sh <= 112).
  { split; [|lia]. destruct (Z.ltb_spec sh 0) as [N0|N0].
    - exfalso. assert (1 <= 2^(e - 0x3FFF - 112)) by (pose proof (pow2_pos (e - 0x3FFF - 112) ltac:(lia)); lia).
      assert (q * 1 <= q * 2^(e - 0x3FFF - 112)) by (apply Z.mul_le_mono_nonneg_l; lia). lia.
    - destruct (Z.le_gt_cases 49 sh) as [|C]; [assumption|]. exfalso.
      assert (2^64 <= q / 2^sh); [|lia]. apply Z.div_le_lower_bound; [apply pow2_pos; lia|].
      assert (2^sh <= 2^48) by (apply Z.pow_le_mono_r; lia). lia. }
  replace (sh <? 0) with false in HF |- * by lia.
  destruct (Z.ltb_spec sh 64) as [S|S].
  - rewrite lsh_ok, rsh_ok by lia. cbn [bind].
    assert (P : 2^64 = 2^(64 - sh) * 2^sh) by (rewrite <- Z.pow_add_r by lia; f_equal; lia).
    assert (P0 : 0 < 2^sh) by (apply pow2_pos; lia). assert (P1 : 0 < 2^(64-sh)) by (apply pow2_pos; lia).
    assert (EQ : q / 2^sh = (2^48 + mh) * 2^(64 - sh) + low / 2^sh).
    { replace q with (low + ((2^48 + mh) * 2^(64 - sh)) * 2^sh) by (rewrite <- Z.mul_assoc, <- P; unfold q; lia).
      rewrite Z.div_add by lia. lia. }
    assert (BL : 0 <= low / 2^sh < 2^(64 - sh)).
    { split; [apply Z.div_pos; lia|]. apply Z.div_lt_upper_bound; lia. }
    assert (0 <= (2^48 + mh) * 2^(64 - sh)) by (apply Z.mul_nonneg_nonneg; lia).
    rewrite (Z.mod_small ((2^48 + mh) * _)) by lia. rewrite lor_mul_low by lia. f_equal. lia.
  - change 63 with (2^6 - 1). rewrite land_ones_mod by lia. replace (sh mod 2^6) with (sh - 64) by (apply Z.mod_unique with 1; lia).
    rewrite rsh_ok by lia. f_equal.
    replace (2^sh) with (2^64 * 2^(sh - 64)) by (rewrite <- Z.pow_add_r by lia; f_equal; lia).
    rewrite <- Z.div_div by (try lia; apply pow2_pos; lia). f_equal.
    apply Z.div_unique with low; lia.
Qed.

Lemma s_high x : fb x -> s64 (Z.shiftr (s128 x) 64) = (if fn x then - 2^63 else 0) + fa x / 2^64 /\ u64 (s128 x) = fa x mod 2^64.
Proof.
  intros Hx. destruct (tf_split x Hx) as [Ex B].
  assert (BB : 0 <= fa x / 2^64 < 2^63) by (split; [apply Z.div_pos; lia|apply Z.div_lt_upper_bound; lia]).
  rewrite (s128_ok x Hx). split.
  - rewrite shiftr_div by lia.
    replace ((if fn x then - 2^127 else 0) + fa x) with (fa x + (if fn x then - 2^63 else 0) * 2^64) by (destruct (fn x); lia).
    rewrite Z.div_add by lia. unfold s64. rewrite sgn_id by (destruct (fn x); lia). lia.
  - unfold u64. replace ((if fn x then - 2^127 else 0) + fa x) with (fa x + (if fn x then - 2^63 else 0) * 2^64) by (destruct (fn x); lia).
    apply Z.mod_add. lia.
Qed.

Lemma fixunstfdi_ok x : fb x -> ffinite 112 15 x = true -> 0 <= Ztrunc (fval 112 15 x) < 2^64 ->
  fixunstfdi x = Ok (Ztrunc (fval 112 15 x)).
Proof.
  intros Hx F HT. destruct (trunc_mag x Hx) as [TM NN]. destruct (tf_split x Hx) as [Ex B]. rewrite TM in *.
  unfold fixunstfdi. destruct (s_high x Hx) as [-> ->].
  destruct (fn x).
  - replace (Zfloor (fmag 112 15 (fa x))) with 0 by lia. unfold fixunstfdi_.
    assert (fa x / 2^64 < 2^63) by (apply Z.div_lt_upper_bound; lia).
    replace (- 2^63 + fa x / 2^64 <? 0x3FFF000000000000) with true by lia. reflexivity.
  - rewrite Z.add_0_l, Z.mul_1_l in *. apply fixunstfdi_mag; lia.
Qed.

Lemma fixtfdi_ok x : fb x -> ffinite 112 15 x = true -> - 2^63 <= Ztrunc (fval 112 15 x) < 2^63 ->
  fixtfdi x = Ok (Ztrunc (fval 112 15 x)).
Proof.
  intros Hx F HT. destruct (trunc_mag x Hx) as [TM NN]. destruct (tf_split x Hx) as [Ex B]. rewrite TM in *.
  assert (BB : 0 <= fa x / 2^64 < 2^63) by (split; [apply Z.div_pos; lia|apply Z.div_lt_upper_bound; lia]).
  unfold fixtfdi. destruct (s_high x Hx) as [-> ->]. rewrite land_ones_mod by lia.
  replace (((if fn x then - 2^63 else 0) + fa x / 2^64) mod 2^63) with (fa x / 2^64)
    by (apply Z.mod_unique with (if fn x then -1 else 0); destruct (fn x); lia).
  rewrite fixunstfdi_mag by (destruct (fn x); lia). cbn [bind]. f_equal.
  rewrite shiftr_div by lia.
  replace (((if fn x then - 2^63 else 0) + fa x / 2^64) / 2^63) with (if fn x then -1 else 0)
    by (apply Z.div_unique with (fa x / 2^64); destruct (fn x); lia).
  set (n := Zfloor (fmag 112 15 (fa x))) in *. destruct (fn x).
  - change (u64 (-1)) with (2^64 - 1). unfold u64.
    destruct (Z.eq_dec n 0) as [->|N].
    + reflexivity.
    + rewrite (Z.mod_small (n + -1)) by lia.
      assert (EX : Z.lxor (n + -1) (2^64 - 1) = 2^64 - n).
      { replace (2^64 - 1) with (Z.ones 64) by reflexivity.
        replace (Z.lxor (n + -1) (Z.ones 64)) with (Z.ldiff (Z.ones 64) (n + -1)).
        - pose proof (Z.sub_nocarry_ldiff (Z.ones 64) (n + -1)) as SN. rewrite <- SN.
          + rewrite Z.ones_equiv. change (2^64) with 18446744073709551616 in *. lia.
          + apply Z.bits_inj'. intros b Hb. rewrite Z.ldiff_spec, Z.bits_0.
            destruct (Z.ltb_spec b 64).
            * rewrite Z.ones_spec_low by lia. apply andb_false_r.
            * rewrite (Z.bits_above_log2 (n + -1)); [reflexivity|lia|].
              destruct (Z.eq_dec (n + -1) 0) as [->|]; [cbn; lia|]. apply Z.log2_lt_pow2; [lia|].
              apply Z.lt_le_trans with (2^64); [lia|]. apply Z.pow_le_mono_r; lia.
        - apply Z.bits_inj'. intros b Hb. rewrite Z.ldiff_spec, Z.lxor_spec.
          destruct (Z.ltb_spec b 64).
          * rewrite Z.ones_spec_low by lia. destruct (Z.testbit (n + -1) b); reflexivity.
          * rewrite Z.ones_spec_high by lia. rewrite (Z.bits_above_log2 (n + -1)); [reflexivity|lia|].
            destruct (Z.eq_dec (n + -1) 0) as [->|]; [cbn; lia|]. apply Z.log2_lt_pow2; [lia|].
            apply Z.lt_le_trans with (2^64); [lia|]. apply Z.pow_le_mono_r; lia. }
      rewrite EX. unfold s64, sgn. rewrite Z.mod_small by lia.
      destruct (Z.ltb_spec (2^64 - n) (2^(64-1))); lia.
  - rewrite Z.add_0_r. change (u64 0) with 0. rewrite Z.lxor_0_r. unfold u64, s64.
    rewrite Z.mod_small by lia. rewrite sgn_id by lia. lia.
Qed.

(** 32-bit results go through double: the top 49 bits of the significand *)
Lemma dbl_high e mh : 0x3FFF <= e -> e <= 0x3FFF + 31 -> 0 <= mh < 2^48 ->
  let D := (e * 2^48 + mh - 0x3C00 * 2^48) * 2^4 in
  0 <= D < finf 52 11 /\ Zfloor (fmag 52 11 D) = (2^48 + mh) / 2^(48 + 0x3FFF - e).
Proof.
  intros He He' Hm D. assert (BD : 0 <= D < finf 52 11) by (change (finf 52 11) with (0x7FF * 2^52); unfold D; lia).
  split; [exact BD|].
  rewrite (fmag_normal 52 11 D (e - 0x3C00) (mh * 2^4)) by (unfold D; lia).
  replace (F2R (Float radix2 (2^52 + mh * 2^4) (emin 52 11 + (e - 0x3C00) - 1)))
    with (F2R (Float radix2 (2^48 + mh) (- (48 + 0x3FFF - e)))).
  - apply Zfloor_F2R_neg. lia.
  - unfold F2R. cbn [Fnum Fexp]. replace (2^52 + mh * 2^4) with ((2^48 + mh) * 2^4) by lia.
    rewrite mult_IZR, <- bpow2 by lia. rewrite Rmult_assoc, <- bpow_plus. do 2 f_equal. unfold emin. lia.
Qed.

Lemma floor_high e mh low : 0x3FFF <= e -> e <= 0x3FFF + 48 -> 0 <= mh < 2^48 -> 0 <= low < 2^64 ->
  (2^112 + (mh * 2^64 + low)) / 2^(112 + 0x3FFF - e) = (2^48 + mh) / 2^(48 + 0x3FFF - e).
Proof.
  intros He He' Hm Hl. replace (2^(112 + 0x3FFF - e)) with (2^64 * 2^(48 + 0x3FFF - e)) by (rewrite <- Z.pow_add_r by lia; f_equal; lia).
  rewrite <- Z.div_div by (try lia; apply pow2_pos; lia). f_equal. symmetry. apply Z.div_unique with low; lia.
Qed.

Lemma small_exp k e m w : k = e * 2^112 + m -> 0 <= m < 2^112 -> 0 <= e -> 0 <= w <= 112 ->
  Zfloor (fmag 112 15 k) < 2^w -> 0x3FFF <= e -> e < 0x3FFF + w.
Proof.
  intros Ek Hm He Hw HF L. rewrite (fix_floor k e m Ek Hm He) in HF. replace (e <? 0x3FFF) with false in HF by lia.
  destruct (Z.lt_ge_cases e (0x3FFF + w)) as [|C]; [assumption|]. exfalso.
  destruct (Z.ltb_spec (112 + 0x3FFF - e) 0) as [S|S].
  - assert (1 <= 2^(e - 0x3FFF - 112)) by (pose proof (pow2_pos (e - 0x3FFF - 112) ltac:(lia)); lia).
    assert (2^w <= 2^112) by (apply Z.pow_le_mono_r; lia).
    assert ((2^112 + m) * 1 <= (2^112 + m) * 2^(e - 0x3FFF - 112)) by (apply Z.mul_le_mono_nonneg_l; lia). lia.
  - assert (2^w <= (2^112 + m) / 2^(112 + 0x3FFF - e)); [|lia].
    apply Z.div_le_lower_bound; [apply pow2_pos; lia|]. rewrite <- Z.pow_add_r by lia.
    assert (2^(112 + 0x3FFF - e + w) <= 2^112) by (apply Z.pow_le_mono_r; lia). lia.
Qed.

Lemma fixtfsi_ok x : fb x -> ffinite 112 15 x = true -> - 2^31 <= Ztrunc (fval 112 15 x) < 2^31 ->
  fixtfsi x = Ok (Ztrunc (fval 112 15 x)).
Proof.
  intros Hx F HT. destruct (trunc_mag x Hx) as [TM NN]. destruct (tf_split x Hx) as [Ex B]. rewrite TM in *.
  destruct (tf_high x Hx) as [H1 H2]. unfold fixtfsi. rewrite H1. destruct (land_sign64 (fn x) _ H2) as [-> ->].
  destruct (high_split (fa x) B) as (e & mh & low & He & Hm & Hl & Ek & EH & EL). rewrite EH.
  assert (FL : Zfloor (fmag 112 15 (fa x)) < 2^32) by (destruct (fn x); lia).
  pose proof (small_exp (fa x) e (mh * 2^64 + low) 32 ltac:(lia) ltac:(lia) ltac:(lia) ltac:(lia) FL) as SE.
  rewrite (fix_floor (fa x) e (mh * 2^64 + low)) in * by lia.
  change 0x3FFF000000000000 with (0x3FFF * 2^48). change 0x3C00000000000000 with (0x3C00 * 2^48).
  replace (e * 2^48 + mh <? 0x3FFF * 2^48) with (e <? 0x3FFF) by lia.
  destruct (Z.ltb_spec e 0x3FFF) as [L|L]; [f_equal; lia|]. specialize (SE L).
  replace (112 + 0x3FFF - e <? 0) with false in * by lia. rewrite floor_high in * by lia.
  destruct (dbl_high e mh L ltac:(lia) Hm) as [DB DF]. cbv zeta in *.
  set (D := (e * 2^48 + mh - 0x3C00 * 2^48) * 2^4) in *.
  assert (BD : 0 <= D < 2^63) by (change (finf 52 11) with (0x7FF * 2^52) in DB; lia).
  replace (u64 (Z.shiftl (u64 ((if fn x then 2^63 else 0) + (e * 2^48 + mh) - 0x3C00 * 2^48)) 4)) with D.
  2:{ rewrite shiftl_mul by lia. unfold u64. rewrite (Z.mod_small (_ - _)) by (destruct (fn x); lia).
      apply Z.mod_unique with (if fn x then 2^3 else 0); destruct (fn x); unfold D; lia. }
  rewrite Z.lor_comm, lor_sign64 by exact BD.
  destruct (with_sign_spec 52 11 eq_refl eq_refl (fn x) D ltac:(change (52+11) with 63; lia)) as (W1 & W2 & W3).
  unfold trunc64. rewrite htrunc_ok; [|assumption|unfold ffinite; rewrite W1; lia].
  rewrite with_sign_fval by lia. pose proof (fmag_nonneg 52 11 eq_refl D ltac:(lia)) as ND.
  set (n := (2^48 + mh) / 2^(48 + 0x3FFF - e)) in *.
  replace (Ztrunc (if fn x then (- fmag 52 11 D)%R else fmag 52 11 D)) with ((if fn x then -1 else 1) * n).
  - unfold to_signed. replace ((- 2^(32-1) <=? (if fn x then -1 else 1) * n) && ((if fn x then -1 else 1) * n <? 2^(32-1))) with true by (destruct (fn x); lia).
    reflexivity.
  - destruct (fn x); [rewrite Ztrunc_opp|]; rewrite Ztrunc_floor, DF by assumption; lia.
Qed.

Lemma fixunstfsi_ok x : fb x -> ffinite 112 15 x = true -> 0 <= Ztrunc (fval 112 15 x) < 2^32 ->
  fixunstfsi x = Ok (Ztrunc (fval 112 15 x)).
Proof.
  intros Hx F HT. destruct (trunc_mag x Hx) as [TM NN]. destruct (tf_split x Hx) as [Ex B]. rewrite TM in *.
  unfold fixunstfsi. destruct (s_high x Hx) as [-> _].
  destruct (fn x).
  { replace (Zfloor (fmag 112 15 (fa x))) with 0 by lia.
    assert (fa x / 2^64 < 2^63) by (apply Z.div_lt_upper_bound; lia).
    replace (- 2^63 + fa x / 2^64 <? 0x3FFF000000000000) with true by lia. reflexivity. }
  rewrite Z.add_0_l, Z.mul_1_l in *.
  destruct (high_split (fa x) B) as (e & mh & low & He & Hm & Hl & Ek & EH & EL). rewrite EH.
  pose proof (small_exp (fa x) e (mh * 2^64 + low) 32 ltac:(lia) ltac:(lia) ltac:(lia) ltac:(lia) (proj2 HT)) as SE.
  rewrite (fix_floor (fa x) e (mh * 2^64 + low)) in * by lia.
  change 0x3FFF000000000000 with (0x3FFF * 2^48). change 0x3C00000000000000 with (0x3C00 * 2^48).
  replace (e * 2^48 + mh <? 0x3FFF * 2^48) with (e <? 0x3FFF) by lia.
  destruct (Z.ltb_spec e 0x3FFF) as [L|L]; [reflexivity|]. specialize (SE L).
  replace (112 + 0x3FFF - e <? 0) with false in * by lia. rewrite floor_high in * by lia.
  destruct (dbl_high e mh L ltac:(lia) Hm) as [DB DF]. cbv zeta in *.
  rewrite shiftl_mul by lia.
  set (D := (e * 2^48 + mh - 0x3C00 * 2^48) * 2^4) in *.
  assert (BD : 0 <= D < 2^63) by (change (finf 52 11) with (0x7FF * 2^52) in DB; lia).
  unfold u64. rewrite (Z.mod_small D) by lia.
  pose proof (with_sign_spec 52 11 eq_refl eq_refl false D ltac:(change (52+11) with 63; lia)) as (W1 & W2 & W3).
  pose proof (with_sign_fval 52 11 eq_refl eq_refl false D ltac:(change (52+11) with 63; lia)) as WV.
  unfold with_sign in *. rewrite Z.add_0_l in *.
  unfold trunc64. rewrite htrunc_ok; [|assumption|unfold ffinite; rewrite W1; lia].
  rewrite WV. rewrite Ztrunc_floor, DF by (apply fmag_nonneg; lia).
  unfold to_unsigned. set (n := (2^48 + mh) / 2^(48 + 0x3FFF - e)) in *.
  replace ((0 <=? n) && (n <? 2^32)) with true by lia. reflexivity.
Qed.
