(** floor, ceil, trunc, rint, round and the conversions to integers. *)
From Coq Require Import Reals Lra.
From Flocq Require Import Core BinarySingleNaN.
From Verif Require Import Base Bits FP FP_Proof HW HW_Proof FPInt Int128_Model Math_Model.
Open Scope Z_scope.
Local Ltac Zify.zify_post_hook ::= idtac.

Lemma rsh_ones n k w : 0 <= k <= n -> k < w -> rsh w (2^n - 1) k = Ok (2^(n - k) - 1).
Proof.
  intros Hk Hw. unfold rsh. replace ((0 <=? k) && (k <? w)) with true by lia. f_equal.
  rewrite shiftr_div by lia. symmetry. apply Z.div_unique with (2^k - 1).
  - pose proof (pow2_pos k). lia.
  - replace (2^n) with (2^k * 2^(n-k)) by (rewrite <- Z.pow_add_r by lia; f_equal; lia). ring.
Qed.
Lemma rsh_mones n k w : 0 <= k <= n -> k < w -> rsh w (- 2^n) k = Ok (- 2^(n - k)).
Proof.
  intros Hk Hw. unfold rsh. replace ((0 <=? k) && (k <? w)) with true by lia. f_equal.
  rewrite shiftr_div by lia. replace (2^n) with (2^(n-k) * 2^k) by (rewrite <- Z.pow_add_r by lia; f_equal; lia).
  rewrite <- Z.mul_opp_l. apply Z.div_mul. pose proof (pow2_pos k). lia.
Qed.


Section Format.
Set Default Proof Using "All".
Variables mw ew : Z.
Hypothesis Hmw : 0 < mw.
Hypothesis Hew0 : 0 < ew.
Hypothesis Hpe : mw + 1 < 2^(ew - 1).
Hypothesis Hew : 1 < ew.

Notation emin := (emin mw ew).
Notation fval := (fval mw ew).
Notation fabsb := (fabsb mw ew).
Notation fneg := (fneg mw ew).
Notation fbits := (fbits mw ew).
Notation ffinite := (ffinite mw ew).
Notation with_sign := (with_sign mw ew).
Notation imag := (imag mw).
Notation ival := (ival mw ew).
Notation unit := (unit mw ew).
Notation W := (mw + ew + 1).
Notation bias := (2^(ew - 1) - 1).
Notation hofZ := (hofZ mw ew Hmw Hpe).

Lemma hofZ_exact n : Z.abs n < 2^(mw + 1) ->
  fbits (hofZ n) /\ ffinite (hofZ n) = true /\ fval (hofZ n) = IZR n /\ fneg (hofZ n) = (n <? 0).
Proof.
  intros Hn. apply (rounds_exact' mw ew).
  - apply hofZ_ok. exact Hew0.
  - apply generic_format_FLT. exists (Float radix2 n 0).
    + unfold F2R. cbn. ring.
    + exact Hn.
    + cbn. pose proof (emin_neg mw ew Hmw Hew). lia.
  - rewrite <- abs_IZR. apply Rlt_le_trans with (IZR (2^(mw+1))).
    + apply IZR_lt. exact Hn.
    + rewrite <- bpow2 by lia. apply bpow_le. lia.
Qed.

(** Magnitudes below 1, between 1 and 2^mw, and beyond. *)
Lemma c_one_eq : c_one mw ew = bias * 2^mw.
Proof. unfold c_one. apply shiftl_mul. lia. Qed.
Lemma c_big_eq : c_big mw ew = (bias + mw) * 2^mw.
Proof. unfold c_big. apply shiftl_mul. lia. Qed.
Lemma bias_pos : 1 <= bias.
Proof. lia. Qed.
Lemma unit_eq : unit = 2^(bias + mw - 1).
Proof. unfold FPInt.unit. rewrite (emin_bias mw ew Hmw Hew). reflexivity. Qed.

Lemma imag_c_one : imag (c_one mw ew) = unit.
Proof.
  rewrite c_one_eq, unit_eq. replace (bias * 2^mw) with ((bias - 1) * 2^mw + 2^mw) by ring.
  pose proof (pmw mw Hmw). pose proof (pmw1 mw Hmw). pose proof bias_pos.
  rewrite imag_pack by lia. rewrite <- Z.pow_add_r by lia. f_equal. lia.
Qed.

Lemma small_mag k : 0 <= k -> k < c_one mw ew -> 0 <= imag k < unit.
Proof.
  intros H0 H1. pose proof (imag_nonneg mw ew Hmw Hew k H0). split; [assumption|].
  rewrite <- imag_c_one. apply (imag_lt mw ew Hmw Hew k (c_one mw ew)); lia.
Qed.

Lemma big_mag k : 0 <= k -> c_big mw ew <= k -> exists n, imag k = n * unit.
Proof.
  intros H0 H1. rewrite c_big_eq in H1. rewrite unit_eq.
  pose proof (pmw mw Hmw). pose proof (pmw1 mw Hmw). pose proof bias_pos.
  destruct (imag_unpack mw Hmw k H0) as (j & q & Hj & Hq & HL & E & ->).
  assert (bias + mw - 1 <= j) by nia.
  exists (q * 2^(j - (bias + mw - 1))). rewrite <- Z.mul_assoc, <- Z.pow_add_r by lia. do 2 f_equal. lia.
Qed.

Lemma mid_mag k : c_one mw ew <= k -> k < c_big mw ew -> exists j q s,
  0 <= j /\ 2^mw <= q < 2^(mw + 1) /\ 0 < s <= mw /\ k = j * 2^mw + q /\ imag k = q * 2^j /\
  unit = 2^s * 2^j /\ k / 2^mw - bias = mw - s /\ j * 2^mw + 2^(mw + 1) <= c_big mw ew.
Proof.
  intros H1 H2. rewrite c_one_eq in H1. rewrite c_big_eq in H2.
  pose proof (pmw mw Hmw) as P. pose proof (pmw1 mw Hmw) as P1. pose proof bias_pos as B.
  assert (H0 : 0 <= k) by nia.
  destruct (imag_unpack mw Hmw k H0) as (j & q & Hj & Hq & HL & E & E2).
  assert (q >= 2^mw).
  { destruct HL as [-> |L]; [|lia]. nia. }
  assert (bias - 1 <= j < bias - 1 + mw) by nia.
  exists j, q, (mw + bias - 1 - j). repeat split; try lia.
  - rewrite unit_eq, <- Z.pow_add_r by lia. f_equal. lia.
  - assert (k / 2^mw = j + 1) as -> by (symmetry; apply Z.div_unique with (q - 2^mw); lia). lia.
  - rewrite c_big_eq, P1. replace (j * 2^mw + 2 * 2^mw) with ((j + 2) * 2^mw) by ring.
    apply Z.mul_le_mono_nonneg_r; lia.
Qed.

(** Rounding a magnitude down and up to a multiple of 2^s at the bit level. *)
Lemma mod_pow2_drop j q s : 0 <= s <= mw -> (j * 2^mw + q) mod 2^s = q mod 2^s.
Proof.
  intros Hs. replace (2^mw) with (2^(mw - s) * 2^s) by (rewrite <- Z.pow_add_r by lia; f_equal; lia).
  rewrite Z.mul_assoc, Z.add_comm. apply Z.mod_add. pose proof (pow2_pos s). lia.
Qed.

Lemma down_mag j q s : 0 <= j -> 2^mw <= q < 2^(mw + 1) -> 0 < s <= mw ->
  let k := j * 2^mw + q in
  imag (k - k mod 2^s) = q * 2^j / (2^s * 2^j) * (2^s * 2^j) /\ k / 2^mw = (k - k mod 2^s) / 2^mw /\ 0 <= k - k mod 2^s <= k.
Proof.
  intros Hj Hq Hs. cbv zeta. rewrite mod_pow2_drop by lia.
  pose proof (pow2_pos s ltac:(lia)) as Ps. pose proof (pow2_pos j Hj) as Pj. pose proof (pmw mw Hmw) as P.
  assert (E : 2^mw = 2^(mw - s) * 2^s) by (rewrite <- Z.pow_add_r by lia; f_equal; lia).
  assert (D : q - q mod 2^s = q / 2^s * 2^s) by (pose proof (Z.div_mod q (2^s)); lia).
  assert (L : 2^mw <= q / 2^s * 2^s).
  { rewrite E. apply Z.mul_le_mono_nonneg_r; [lia|]. apply Z.div_le_lower_bound; lia. }
  pose proof (Z.mod_pos_bound q (2^s) Ps) as M.
  replace (j * 2^mw + q - q mod 2^s) with (j * 2^mw + q / 2^s * 2^s) by lia.
  repeat split.
  - rewrite imag_pack by lia. rewrite Z.div_mul_cancel_r by lia. ring.
  - rewrite !(Z.add_comm (j * 2^mw)), !Z.div_add by lia. f_equal.
    pose proof (pmw1 mw Hmw).
    transitivity 1; [symmetry|]; [apply Z.div_unique with (q - 2^mw)|apply Z.div_unique with (q / 2^s * 2^s - 2^mw)]; lia.
  - nia.
  - lia.
Qed.

Lemma up_mag j q s : 0 <= j -> 2^mw <= q < 2^(mw + 1) -> 0 < s <= mw ->
  let k := j * 2^mw + q in
  let k' := k + (2^s - 1) in
  imag (k' - k' mod 2^s) = - (- (q * 2^j) / (2^s * 2^j)) * (2^s * 2^j) /\ k <= k' - k' mod 2^s <= j * 2^mw + 2^(mw + 1).
Proof.
  intros Hj Hq Hs. cbv zeta. rewrite <- Z.add_assoc, mod_pow2_drop by lia.
  pose proof (pow2_pos s ltac:(lia)) as Ps. pose proof (pow2_pos j Hj) as Pj. pose proof (pmw mw Hmw) as P.
  pose proof (pmw1 mw Hmw) as P1.
  assert (E : 2^(mw + 1) = 2^(mw + 1 - s) * 2^s) by (rewrite <- Z.pow_add_r by lia; f_equal; lia).
  set (c := (q + (2^s - 1)) / 2^s).
  assert (D : q + (2^s - 1) - (q + (2^s - 1)) mod 2^s = c * 2^s) by (pose proof (Z.div_mod (q + (2^s - 1)) (2^s)); unfold c; lia).
  pose proof (Z.mod_pos_bound (q + (2^s - 1)) (2^s) Ps) as M.
  assert (U : c * 2^s <= 2^(mw + 1)).
  { rewrite E. apply Z.mul_le_mono_nonneg_r; [lia|]. unfold c.
    assert (q + (2^s - 1) < (2^(mw + 1 - s) + 1) * 2^s) by lia.
    assert ((q + (2^s - 1)) / 2^s < 2^(mw + 1 - s) + 1) by (apply Z.div_lt_upper_bound; lia). lia. }
  replace (j * 2^mw + (q + (2^s - 1)) - (q + (2^s - 1)) mod 2^s) with (j * 2^mw + c * 2^s) by lia.
  split; [|lia]. rewrite imag_pack by lia. rewrite <- Z.mul_opp_l, Z.div_mul_cancel_r by lia.
  assert (- (- q / 2^s) = c) as ->.
  { assert (- q / 2^s = - c); [|lia]. symmetry. apply Z.div_unique with (c * 2^s - q); lia. }
  ring.
Qed.

(** Assembling results. *)
Lemma result_val (s : bool) k n : 0 <= k < finf mw ew -> imag k = n * unit ->
  let r := with_sign s k in
  fbits r /\ ffinite r = true /\ fneg r = s /\ fval r = IZR (if s then - n else n).
Proof.
  intros Hk E. cbv zeta. pose proof (finf_pos mw ew Hmw Hew) as FP.
  destruct (with_sign_spec mw ew Hmw Hew s k ltac:(lia)) as (A & B & C).
  split; [exact C|]. split. { unfold FP.ffinite. lia. } split; [exact B|].
  apply fval_IZR; [assumption|exact Hew|]. rewrite ival_with_sign by (try exact Hew; try assumption; lia).
  rewrite E. destruct s; ring.
Qed.

Lemma big_finf : c_big mw ew + 2^mw <= finf mw ew.
Proof.
  rewrite c_big_eq. unfold finf. destruct (pow_ew ew Hew) as [E _]. pose proof (pmw mw Hmw). rewrite E.
  assert (bias + mw + 1 <= 2 * 2^(ew-1) - 1) by lia. nia.
Qed.

Lemma land_neg_mask x s (b : bool) : 0 <= s <= mw ->
  Z.land (x - (if b then 2^(mw + ew) else 0)) (Z.lnot (2^s - 1)) = x - x mod 2^s - (if b then 2^(mw + ew) else 0).
Proof.
  intros Hs. rewrite land_lnot_low by lia.
  assert ((x - (if b then 2^(mw + ew) else 0)) mod 2^s = x mod 2^s) as ->; [|lia].
  destruct b; [|rewrite Z.sub_0_r; reflexivity].
  replace (2^(mw + ew)) with (2^(mw + ew - s) * 2^s) by (rewrite <- Z.pow_add_r by lia; f_equal; lia).
  rewrite <- Z.add_opp_r, <- Z.mul_opp_l. apply Z.mod_add. pose proof (pow2_pos s). lia.
Qed.

Definition rounds_int (f : R -> Z) (x : Z) (r : Z) : Prop :=
  fbits r /\ (ffinite x = false -> r = x) /\
  (ffinite x = true -> ffinite r = true /\ fneg r = fneg x /\ fval r = IZR (f (fval x))).

Lemma ffinite_lt x : ffinite x = (fabsb x <? finf mw ew).
Proof. reflexivity. Qed.

(** The value of an already integral x. *)
Lemma integral_case (f : R -> Z) x : fbits x -> (forall n, f (IZR n) = n) ->
  (exists n, imag (fabsb x) = n * unit) -> rounds_int f x x.
Proof.
  intros Hx Hf (n & E). split; [exact Hx|]. split; [reflexivity|]. intros F. split; [exact F|]. split; [reflexivity|].
  assert (V : fval x = IZR (if fneg x then - n else n)).
  { apply fval_IZR; [assumption|exact Hew|]. unfold FPInt.ival. rewrite E. destruct (fneg x); ring. }
  rewrite V, Hf. reflexivity.
Qed.

Lemma floor_ok x : fbits x -> exists r, floor_ mw ew Hmw Hpe x = Ok r /\ rounds_int Zfloor x r.
Proof.
  intros Hx. unfold floor_. cbv zeta. rewrite sgn_magnitude by (assumption || exact Hew).
  pose proof (fabsb_range mw ew Hmw Hew x) as R. pose proof (unit_pos mw ew Hmw Hew) as U.
  pose proof big_finf as BF. pose proof (pmw mw Hmw) as P. pose proof (pmw1 mw Hmw) as P1. pose proof (finf_pos mw ew Hmw Hew) as FI.
  pose proof (pow_ew ew Hew) as PE. destruct (pW mw ew Hmw Hew) as (W1 & W2 & W3).
  destruct (Z.eqb_spec (fabsb x) 0) as [E0|N0].
  { exists x. split; [reflexivity|]. apply integral_case; [assumption|apply Zfloor_IZR|].
    exists 0. rewrite E0. apply imag_0, Hmw. }
  destruct (Z.leb_spec (c_big mw ew) (fabsb x)) as [B|B]; cbn [orb].
  { exists x. split; [reflexivity|]. apply integral_case; [assumption|apply Zfloor_IZR|].
    apply big_mag; lia. }
  assert (F : ffinite x = true) by (rewrite ffinite_lt; lia).
  assert (V : Zfloor (fval x) = ival x / unit) by (apply Zfloor_fval; [assumption|exact Hew]).
  assert (NZ : imag (fabsb x) <> 0).
  { intros K. apply N0. apply (imag_inj mw ew Hmw Hew); try lia. rewrite K. symmetry. apply imag_0, Hmw. }
  destruct (Z.ltb_spec (fabsb x) (c_one mw ew)) as [S|S].
  - eexists. split; [reflexivity|].
    assert (E : Z.shiftr (sgn W x) (W - 1) = if fneg x then -1 else 0).
    { rewrite shiftr_div by lia. rewrite W2, sgn_pattern by (assumption || exact Hew).
      destruct (fneg x); symmetry; [apply Z.div_unique with (fabsb x)|apply Z.div_unique with (fabsb x)]; lia. }
    rewrite E. destruct (hofZ_exact (if fneg x then -1 else 0) ltac:(destruct (fneg x); cbn; lia)) as (A & B' & C & D).
    split; [exact A|]. split; [congruence|]. intros _. split; [exact B'|]. split.
    + rewrite D. destruct (fneg x); reflexivity.
    + rewrite C, V. f_equal. pose proof (small_mag (fabsb x) ltac:(lia) S) as SM. unfold FPInt.ival.
      destruct (fneg x).
      * apply Z.div_unique with (unit - imag (fabsb x)); lia.
      * symmetry. apply Z.div_small. lia.
  - destruct (mid_mag (fabsb x) S B) as (j & q & s & Hj & Hq & Hs & Ek & Ei & Eu & Ex & Eb).
    rewrite shiftr_div by lia. rewrite Ex. rewrite rsh_ones by lia. replace (mw - (mw - s)) with s by lia. cbn [bind].
    rewrite sgn_neg by (assumption || exact Hew). rewrite sgn_pattern by (assumption || exact Hew).
    pose proof (pow2_pos s ltac:(lia)) as Ps. assert (Ps2 : 2^s <= 2^mw) by (apply Z.pow_le_mono_r; lia).
    destruct (fneg x) eqn:NG; cbn [b2z].
    + rewrite Z.mul_1_l. unfold chk. rewrite W2. replace (fabsb x - 2^(mw+ew) + (2^s - 1)) with (fabsb x + (2^s - 1) - 2^(mw+ew)) by ring.
      destruct (up_mag j q s Hj Hq Hs) as [Q1 Q2]. rewrite <- Ek in Q1, Q2.
      replace ((- 2^(mw+ew) <=? fabsb x + (2^s - 1) - 2^(mw+ew)) && (fabsb x + (2^s - 1) - 2^(mw+ew) <=? 2^(mw+ew) - 1)) with true by lia.
      cbn [bind]. rewrite (land_neg_mask _ s true) by lia. rewrite (signed_pattern mw ew Hmw Hew true) by lia.
      eexists. split; [reflexivity|].
      destruct (result_val true (fabsb x + (2^s - 1) - (fabsb x + (2^s - 1)) mod 2^s) _ ltac:(lia) (eq_trans Q1 (f_equal _ (eq_sym Eu)))) as (A & B' & C & D).
      split; [exact A|]. split; [congruence|]. intros _. split; [exact B'|]. split; [congruence|].
      rewrite D, V. f_equal. unfold FPInt.ival. rewrite NG, Ei, Eu. lia.
    + rewrite Z.mul_0_l, Z.add_0_r. unfold chk. rewrite W2, Z.sub_0_r.
      replace ((- 2^(mw+ew) <=? fabsb x) && (fabsb x <=? 2^(mw+ew) - 1)) with true by lia. cbn [bind].
      pose proof (land_neg_mask (fabsb x) s false ltac:(lia)) as L. cbv beta iota in L. rewrite Z.sub_0_r in L. rewrite L.
      destruct (down_mag j q s Hj Hq Hs) as (Q1 & _ & Q2). rewrite <- Ek in Q1, Q2.
      rewrite (signed_pattern mw ew Hmw Hew false) by lia. eexists. split; [reflexivity|].
      destruct (result_val false (fabsb x - fabsb x mod 2^s) _ ltac:(lia) (eq_trans Q1 (f_equal _ (eq_sym Eu)))) as (A & B' & C & D).
      split; [exact A|]. split; [congruence|]. intros _. split; [exact B'|]. split; [congruence|].
      rewrite D, V. f_equal. unfold FPInt.ival. rewrite NG, Ei, Eu. reflexivity.
Qed.

Lemma negate_spec x : fbits x -> fbits (negate mw ew x) /\ ffinite (negate mw ew x) = ffinite x /\
  fneg (negate mw ew x) = negb (fneg x) /\ fval (negate mw ew x) = (- fval x)%R.
Proof.
  intros Hx. unfold negate. destruct (with_sign_spec mw ew Hmw Hew (negb (fneg x)) (fabsb x) (fabsb_range mw ew Hmw Hew x)) as (A & B & C).
  split; [exact C|]. split; [unfold FP.ffinite; rewrite A; reflexivity|]. split; [exact B|].
  rewrite with_sign_fval by (try exact Hew; try assumption; apply (fabsb_range mw ew Hmw Hew)).
  unfold FP.fval. destruct (fneg x); cbn [negb]; [rewrite Ropp_involutive|]; reflexivity.
Qed.

Lemma ceil_ok x : fbits x -> exists r, ceil_ mw ew Hmw Hpe x = Ok r /\ rounds_int Zceil x r.
Proof.
  intros Hx. unfold ceil_. cbv zeta. rewrite sgn_magnitude by (assumption || exact Hew).
  pose proof (fabsb_range mw ew Hmw Hew x) as R. pose proof (unit_pos mw ew Hmw Hew) as U.
  pose proof big_finf as BF. pose proof (pmw mw Hmw) as P. pose proof (pmw1 mw Hmw) as P1. pose proof (finf_pos mw ew Hmw Hew) as FI.
  pose proof (pow_ew ew Hew) as PE. destruct (pW mw ew Hmw Hew) as (W1 & W2 & W3).
  destruct (Z.eqb_spec (fabsb x) 0) as [E0|N0].
  { exists x. split; [reflexivity|]. apply integral_case; [assumption|apply Zceil_IZR|].
    exists 0. rewrite E0. apply imag_0, Hmw. }
  destruct (Z.leb_spec (c_big mw ew) (fabsb x)) as [B|B]; cbn [orb].
  { exists x. split; [reflexivity|]. apply integral_case; [assumption|apply Zceil_IZR|].
    apply big_mag; lia. }
  assert (F : ffinite x = true) by (rewrite ffinite_lt; lia).
  assert (V : Zceil (fval x) = - (- ival x / unit)) by (apply Zceil_fval; [assumption|exact Hew]).
  assert (NZ : imag (fabsb x) <> 0).
  { intros K. apply N0. apply (imag_inj mw ew Hmw Hew); try lia. rewrite K. symmetry. apply imag_0, Hmw. }
  destruct (Z.ltb_spec (fabsb x) (c_one mw ew)) as [S|S].
  - eexists. split; [reflexivity|].
    assert (E : Z.lnot (Z.shiftr (sgn W x) (W - 1)) = if fneg x then 0 else -1).
    { assert (Z.shiftr (sgn W x) (W - 1) = if fneg x then -1 else 0) as ->; [|destruct (fneg x); reflexivity].
      rewrite shiftr_div by lia. rewrite W2, sgn_pattern by (assumption || exact Hew).
      destruct (fneg x); symmetry; [apply Z.div_unique with (fabsb x)|apply Z.div_unique with (fabsb x)]; lia. }
    rewrite E. destruct (hofZ_exact (if fneg x then 0 else -1) ltac:(destruct (fneg x); cbn; lia)) as (A0 & B0 & C0 & D0).
    destruct (negate_spec _ A0) as (A & B' & D & C).
    split; [exact A|]. split; [congruence|]. intros _. split; [congruence|]. split.
    + rewrite D, D0. destruct (fneg x); reflexivity.
    + rewrite C, C0, V, <- opp_IZR. f_equal. pose proof (small_mag (fabsb x) ltac:(lia) S) as SM. unfold FPInt.ival.
      destruct (fneg x).
      * rewrite Z.opp_involutive, Z.div_small by lia. reflexivity.
      * f_equal. apply Z.div_unique with (unit - imag (fabsb x)); lia.
  - destruct (mid_mag (fabsb x) S B) as (j & q & s & Hj & Hq & Hs & Ek & Ei & Eu & Ex & Eb).
    rewrite shiftr_div by lia. rewrite Ex. rewrite rsh_ones by lia. replace (mw - (mw - s)) with s by lia. cbn [bind].
    rewrite Z.leb_antisym. rewrite sgn_neg by (assumption || exact Hew). rewrite sgn_pattern by (assumption || exact Hew).
    pose proof (pow2_pos s ltac:(lia)) as Ps. assert (Ps2 : 2^s <= 2^mw) by (apply Z.pow_le_mono_r; lia).
    destruct (fneg x) eqn:NG; cbn [b2z negb].
    + rewrite Z.mul_0_l, Z.add_0_r. unfold chk. rewrite W2.
      replace ((- 2^(mw+ew) <=? fabsb x - 2^(mw+ew)) && (fabsb x - 2^(mw+ew) <=? 2^(mw+ew) - 1)) with true by lia. cbn [bind].
      rewrite (land_neg_mask (fabsb x) s true ltac:(lia)).
      destruct (down_mag j q s Hj Hq Hs) as (Q1 & _ & Q2). rewrite <- Ek in Q1, Q2.
      rewrite (signed_pattern mw ew Hmw Hew true) by lia. eexists. split; [reflexivity|].
      destruct (result_val true (fabsb x - fabsb x mod 2^s) _ ltac:(lia) (eq_trans Q1 (f_equal _ (eq_sym Eu)))) as (A & B' & C & D).
      split; [exact A|]. split; [congruence|]. intros _. split; [exact B'|]. split; [congruence|].
      rewrite D, V. f_equal. unfold FPInt.ival. rewrite NG, Ei, Eu, Z.opp_involutive. reflexivity.
    + rewrite Z.mul_1_l. unfold chk. rewrite W2, Z.sub_0_r.
      destruct (up_mag j q s Hj Hq Hs) as [Q1 Q2]. rewrite <- Ek in Q1, Q2.
      replace ((- 2^(mw+ew) <=? fabsb x + (2^s - 1)) && (fabsb x + (2^s - 1) <=? 2^(mw+ew) - 1)) with true by lia.
      cbn [bind]. pose proof (land_neg_mask (fabsb x + (2^s - 1)) s false ltac:(lia)) as L. cbv beta iota in L. rewrite Z.sub_0_r in L. rewrite L.
      rewrite (signed_pattern mw ew Hmw Hew false) by lia.
      eexists. split; [reflexivity|].
      destruct (result_val false (fabsb x + (2^s - 1) - (fabsb x + (2^s - 1)) mod 2^s) _ ltac:(lia) (eq_trans Q1 (f_equal _ (eq_sym Eu)))) as (A & B' & C & D).
      split; [exact A|]. split; [congruence|]. intros _. split; [exact B'|]. split; [congruence|].
      rewrite D, V. f_equal. unfold FPInt.ival. rewrite NG, Ei, Eu. reflexivity.
Qed.

End Format.
