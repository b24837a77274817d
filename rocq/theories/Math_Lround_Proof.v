(** rint, round, modf and the conversions to integers. *)
From Coq Require Import Reals Lra.
From Flocq Require Import Core BinarySingleNaN.
From Verif Require Import Base Bits FP FP_Proof HW HW_Proof FPInt FPOps Int128_Model Math_Model Math_Round_Proof Math_Int_Proof Math_Spec Rne.
Open Scope Z_scope.
Local Ltac Zify.zify_post_hook ::= idtac.

Section Format.
Set Default Proof Using "All".
Variables mw ew : Z.
Hypothesis Hmw : 0 < mw.
Hypothesis Hew0 : 0 < ew.
Hypothesis Hpe : mw + 1 < 2^(ew - 1).
Hypothesis Hew : 1 < ew.

Notation emin := (emin mw ew).
Notation fval := (fval mw ew).
Notation fabsb := (fabsb mw ew).
Notation fneg := (fneg mw ew).
Notation fbits := (fbits mw ew).
Notation ffinite := (ffinite mw ew).
Notation with_sign := (with_sign mw ew).
Notation imag := (imag mw).
Notation ival := (ival mw ew).
Notation unit := (unit mw ew).
Notation finf := (finf mw ew).
Notation limit := (limit mw ew).
Notation repr := (repr mw).
Notation W := (mw + ew + 1).
Notation bias := (2^(ew - 1) - 1).
Notation hofZ := (hofZ mw ew Hmw Hpe).
Notation hadd := (hadd mw ew Hmw Hew0 Hpe).
Notation hsub := (hsub mw ew Hmw Hew0 Hpe).
Notation rounds_int := (rounds_int mw ew).
Notation fabs := (fabs mw ew).
Notation copysign := (copysign mw ew).

Lemma fabs_spec x : fbits x -> fbits (fabs x) /\ fabsb (fabs x) = fabsb x /\ fneg (fabs x) = false /\
  ffinite (fabs x) = ffinite x /\ ival (fabs x) = imag (fabsb x).
Proof.
  intros Hx. pose proof (fabsb_range mw ew Hmw Hew x) as R.
  destruct (with_sign_spec mw ew Hmw Hew false (fabsb x) R) as (A & B & C).
  pose proof (ival_with_sign mw ew Hmw Hew false (fabsb x) R) as D.
  unfold FP.with_sign in *. rewrite Z.add_0_l in *. unfold Math_Model.fabs, FP.ffinite. rewrite A. auto.
Qed.

Lemma ival_abs x : ival x = if fneg x then - imag (fabsb x) else imag (fabsb x).
Proof. reflexivity. Qed.

Lemma copysign_spec y x : fbits (copysign y x) /\ fabsb (copysign y x) = fabsb y /\ fneg (copysign y x) = fneg x /\
  ffinite (copysign y x) = ffinite y /\ ival (copysign y x) = if fneg x then - imag (fabsb y) else imag (fabsb y).
Proof.
  pose proof (fabsb_range mw ew Hmw Hew y) as R. unfold Math_Model.copysign.
  destruct (with_sign_spec mw ew Hmw Hew (fneg x) (fabsb y) R) as (A & B & C).
  pose proof (ival_with_sign mw ew Hmw Hew (fneg x) (fabsb y) R) as D.
  unfold FP.ffinite. rewrite A. auto.
Qed.

Lemma copysign_abs x : fbits x -> copysign (fabs x) x = x.
Proof.
  intros Hx. destruct (fabs_spec x Hx) as (_ & A & _). unfold Math_Model.copysign. rewrite A.
  symmetry. apply pattern_split; assumption.
Qed.

Lemma imag_ival_pos y : fneg y = false -> imag (fabsb y) = ival y.
Proof. intros H. unfold FPInt.ival. rewrite H. reflexivity. Qed.

(** Constants. *)
Lemma c_big_spec : fbits (c_big mw ew) /\ ffinite (c_big mw ew) = true /\ fneg (c_big mw ew) = false /\
  ival (c_big mw ew) = 2^mw * unit.
Proof.
  unfold c_big. destruct (pow_ew ew Hew) as [E _].
  destruct (pow2_pattern mw ew Hmw Hew0 Hpe Hew (bias + mw) ltac:(lia)) as (A & B & C & D).
  split; [exact A|]. split; [exact B|]. split; [exact C|]. rewrite D, (unit_eq mw ew Hmw Hew0 Hpe Hew).
  rewrite <- Z.pow_add_r by lia. f_equal. lia.
Qed.
Lemma c_half_spec : fbits (c_half mw ew) /\ ffinite (c_half mw ew) = true /\ fneg (c_half mw ew) = false /\
  2 * ival (c_half mw ew) = unit.
Proof.
  unfold c_half. destruct (pow_ew ew Hew) as [E _].
  destruct (pow2_pattern mw ew Hmw Hew0 Hpe Hew (bias - 1) ltac:(lia)) as (A & B & C & D).
  split; [exact A|]. split; [exact B|]. split; [exact C|]. rewrite D, (unit_eq mw ew Hmw Hew0 Hpe Hew).
  rewrite <- Z.pow_succ_r by lia. f_equal. lia.
Qed.

Lemma limit_unit n : 0 <= n <= 2^(mw + 1) -> n * unit < limit.
Proof.
  intros Hn. destruct c_big_spec as (A & B & C & D). pose proof (finite_limit mw ew Hmw Hew0 Hpe Hew _ A) as F.
  rewrite B, D in F. pose proof (unit_pos mw ew Hmw Hew). pose proof (pmw1 mw Hmw).
  assert (2^(mw+1) * unit < limit); [|nia].
  pose proof (limit_bpow mw ew Hmw Hew0 Hpe Hew) as L.
  apply lt_IZR. apply Rmult_lt_reg_r with (bpow radix2 emin); [apply bpow_gt_0|]. rewrite L, mult_IZR, <- bpow2 by lia.
  unfold FPInt.unit. rewrite <- bpow2 by (pose proof (emin_neg mw ew Hmw Hew); lia).
  rewrite Rmult_assoc, <- bpow_plus, <- bpow_plus. apply bpow_lt. lia.
Qed.

(** [ZnearestE] on a pattern *)
Lemma nearest_fval x : ZnearestE (fval x) = if fneg x then - rne (imag (fabsb x)) unit else rne (imag (fabsb x)) unit.
Proof.
  pose proof (unit_pos mw ew Hmw Hew) as U. rewrite (fval_div mw ew Hmw Hew). unfold FPInt.ival.
  destruct (fneg x).
  - rewrite opp_IZR. unfold Rdiv. rewrite <- Ropp_mult_distr_l. rewrite ZnearestE_opp. f_equal. apply ZnearestE_div. exact U.
  - apply ZnearestE_div. exact U.
Qed.

Lemma rne_add n d k : 0 < d -> rne (n + 2 * k * d) d = rne n d + 2 * k.
Proof.
  intros Hd. unfold rne. rewrite Z.div_add, Z.mod_add by lia.
  replace (Z.even (n / d + 2 * k)) with (Z.even (n / d)) by (rewrite Z.even_add, Z.even_mul; cbn; destruct (Z.even (n/d)); reflexivity).
  destruct (_ <? _); [reflexivity|]. destruct (_ <? _); [lia|]. destruct (Z.even _); lia.
Qed.

Lemma rint_ok x : fbits x -> rounds_int ZnearestE x (rint_ mw ew Hmw Hew0 Hpe x).
Proof.
  intros Hx. unfold rint_. cbv zeta.
  destruct (fabs_spec x Hx) as (A1 & A2 & A3 & A4 & A5).
  destruct c_big_spec as (B1 & B2 & B3 & B4).
  pose proof (unit_pos mw ew Hmw Hew) as U. pose proof (pmw mw Hmw) as P. pose proof (pmw1 mw Hmw) as P1.
  pose proof (fabsb_range mw ew Hmw Hew x) as R.
  pose proof (imag_nonneg mw ew Hmw Hew (fabsb x) ltac:(lia)) as IN.
  assert (BB : fabsb (c_big mw ew) = c_big mw ew).
  { rewrite (pattern_split mw ew Hmw Hew _ B1) at 2. rewrite B3. unfold FP.with_sign. lia. }
  assert (IB : imag (c_big mw ew) = 2^mw * unit).
  { rewrite <- B4. unfold FPInt.ival. rewrite B3, BB. reflexivity. }
  assert (HL : hlt mw ew (fabs x) (c_big mw ew) = (fabsb x <? c_big mw ew)).
  { unfold hlt, ford, fisnan. rewrite A2, A3, B3, BB. pose proof (big_finf mw ew Hmw Hew0 Hpe Hew). lia. }
  rewrite HL. destruct (Z.ltb_spec (fabsb x) (c_big mw ew)) as [L|L].
  - assert (F : ffinite x = true) by (unfold FP.ffinite; pose proof (big_finf mw ew Hmw Hew0 Hpe Hew); lia).
    rewrite F in A4.
    assert (LI : imag (fabsb x) < 2^mw * unit).
    { rewrite <- IB. apply (imag_lt mw ew Hmw Hew (fabsb x) (c_big mw ew)); lia. }
    (* the sum is rounded to an integer *)
    pose proof (hadd_int mw ew Hmw Hew0 Hpe Hew (fabs x) (c_big mw ew) A1 B1 A4 B2) as S.
    rewrite A5, B4 in S. set (v := imag (fabsb x)) in *.
    assert (RV : RN mw ew (IZR (v + 2^mw * unit) * bpow radix2 emin) = IZR (rne v unit + 2^mw)).
    { pose proof (emin_neg mw ew Hmw Hew) as EN.
      pose proof (RN_dyadic mw ew Hmw (v + 2^mw * unit) emin 0 ltac:(nia) ltac:(lia) ltac:(lia)) as D.
      unfold F2R in D. cbn [Fnum Fexp] in D. rewrite D.
      - replace (0 - emin) with (- emin) by lia. fold (FPInt.unit mw ew).
        replace (v + 2^mw * unit) with (v + 2 * 2^(mw-1) * unit) by (rewrite <- Z.pow_succ_r by lia; do 3 f_equal; lia).
        rewrite rne_add by lia. rewrite <- Z.pow_succ_r by lia. cbn [bpow]. rewrite Rmult_1_r. do 2 f_equal. f_equal. lia.
      - replace (0 - emin) with (- emin) by lia. fold (FPInt.unit mw ew). rewrite Z.div_add by lia.
        assert (0 <= v / unit < 2^mw) by (split; [apply Z.div_pos|apply Z.div_lt_upper_bound]; lia). lia.
      - left. replace (0 - emin) with (- emin) by lia. fold (FPInt.unit mw ew). rewrite Z.div_add by lia.
        assert (0 <= v / unit) by (apply Z.div_pos; lia). lia. }
    assert (RR : 0 <= rne v unit <= 2^mw) by (apply rne_range; lia).
    destruct S as (S1 & S2 & S3 & _). rewrite RV in S3.
    pose proof (limit_unit (2^(mw+1)) ltac:(lia)) as LU.
    pose proof (limit_bpow mw ew Hmw Hew0 Hpe Hew) as LB.
    destruct S3 as [S4 S5].
    { rewrite Rabs_pos_eq by (apply IZR_le; lia). rewrite <- LB.
      apply Rle_lt_trans with (IZR (2^(mw+1) * unit) * bpow radix2 emin)%R.
      - replace (IZR (2^(mw+1) * unit) * bpow radix2 emin)%R with (IZR (2^(mw+1))).
        + apply IZR_le. lia.
        + unfold FPInt.unit. rewrite mult_IZR, <- (bpow2 (- emin)) by (pose proof (emin_neg mw ew Hmw Hew); lia).
          rewrite Rmult_assoc, <- bpow_plus. replace (- emin + emin) with 0 by lia. cbn [bpow]. ring.
      - apply Rmult_lt_compat_r; [apply bpow_gt_0|]. apply IZR_lt. exact LU. }
    apply (fval_IZR mw ew Hmw Hew) in S5.
    set (y := hadd (fabs x) (c_big mw ew)) in *. clearbody y.
    (* the difference is exact *)
    assert (DE : ival y - ival (c_big mw ew) = rne v unit * unit) by (rewrite S5, B4; ring).
    destruct (hsub_exact mw ew Hmw Hew0 Hpe Hew y (c_big mw ew) S1 B1 S4 B2) as (D1 & D2 & D3 & D4).
    { rewrite DE. unfold FPInt.unit at 2. apply repr_pow2; [exact Hmw| |pose proof (emin_neg mw ew Hmw Hew); lia]. apply repr_small; lia. }
    { rewrite DE. rewrite Z.abs_eq by nia. apply limit_unit. lia. }
    rewrite DE in D3, D4. set (z := hsub y (c_big mw ew)) in *. clearbody z.
    assert (NZ : fneg z = false).
    { rewrite D3. unfold zsign. destruct (Z.compare_spec (rne v unit * unit) 0) as [C|C|C]; [|nia|reflexivity].
      rewrite B3, S2. unfold zsign. destruct (Z.compare_spec (v + 2^mw * unit) 0); [nia|nia|reflexivity]. }
    destruct (copysign_spec z x) as (E1 & E2 & E3 & E4 & E5).
    split; [exact E1|]. split; [congruence|]. intros _. split; [congruence|]. split; [exact E3|].
    apply fval_IZR; [assumption..|]. rewrite E5, nearest_fval, (imag_ival_pos z NZ), D4. fold v. destruct (fneg x); ring.
  - destruct (ffinite x) eqn:F.
    + apply (integral_case mw ew Hmw Hew0 Hpe Hew); [assumption| |].
      * intros n. apply (Zrnd_IZR ZnearestE).
      * apply (big_mag mw ew Hmw Hew0 Hpe Hew); lia.
    + split; [exact Hx|]. split; [reflexivity|congruence].
Qed.

Lemma repr_mod v a : 0 <= a -> 0 <= v -> repr v -> repr (v mod 2^a).
Proof.
  intros Ha Hv (q & j & E & Hj & Hq). pose proof (pow2_pos j Hj) as Pj. assert (Hq0 : 0 <= q) by nia.
  destruct (Z.le_gt_cases a j) as [L|L].
  - exists 0, 0. split; [|split; [lia|cbn; pose proof (pow2_pos (mw+1)); lia]].
    rewrite E. replace (2^j) with (2^(j - a) * 2^a) by (rewrite <- Z.pow_add_r by lia; f_equal; lia).
    rewrite Z.mul_assoc, Z.mod_mul by (pose proof (pow2_pos a); lia). reflexivity.
  - pose proof (pow2_pos (a - j) ltac:(lia)) as Pa.
    exists (q mod 2^(a - j)), j. split; [|split; [exact Hj|]].
    + rewrite E. replace (2^a) with (2^(a - j) * 2^j) by (rewrite <- Z.pow_add_r by lia; f_equal; lia).
      rewrite Z.mul_mod_distr_r by lia. reflexivity.
    + pose proof (Z.mod_pos_bound q (2^(a-j)) Pa). pose proof (Z.mod_le q (2^(a-j)) Hq0 Pa). lia.
Qed.

(** [half_away] on a pattern *)
Lemma half_away_fval x : half_away (fval x) =
  let n := (2 * imag (fabsb x) + unit) / (2 * unit) in if fneg x then - n else n.
Proof.
  pose proof (unit_pos mw ew Hmw Hew) as U. pose proof (fabsb_range mw ew Hmw Hew x) as R.
  pose proof (imag_nonneg mw ew Hmw Hew (fabsb x) ltac:(lia)) as IN. cbv zeta.
  set (v := imag (fabsb x)) in *.
  assert (HP : forall y, (y = IZR v / IZR unit)%R -> Zfloor (y + / 2) = (2 * v + unit) / (2 * unit)).
  { intros y ->. rewrite <- Zfloor_div by lia. f_equal. rewrite plus_IZR, !mult_IZR.
    apply IZR_lt in U. field. lra. }
  assert (NP : (0 <= IZR v / IZR unit)%R).
  { apply IZR_lt in U. apply IZR_le in IN. apply Rmult_le_pos; [lra|]. left. apply Rinv_0_lt_compat. lra. }
  unfold half_away. rewrite (fval_div mw ew Hmw Hew). unfold FPInt.ival. fold v. destruct (fneg x).
  - rewrite opp_IZR. unfold Rdiv. rewrite <- Ropp_mult_distr_l. fold (IZR v / IZR unit)%R.
    destruct (Rle_dec 0 (- (IZR v / IZR unit))) as [K|K].
    + assert (E : (IZR v / IZR unit = 0)%R) by lra. rewrite E.
      assert (v = 0) as ->.
      { apply eq_IZR. apply IZR_lt in U. replace (IZR v) with (IZR v / IZR unit * IZR unit)%R by (field; lra). rewrite E. ring. }
      rewrite Ropp_0, Rplus_0_l. assert (Zfloor (/ 2) = 0) as ->.
      { apply Zfloor_imp. cbn. lra. }
      rewrite Z.div_small by lia. reflexivity.
    + unfold Zceil. rewrite <- (HP _ eq_refl). do 2 f_equal. ring.
  - destruct (Rle_dec 0 (IZR v / IZR unit)) as [K|K]; [|contradiction]. apply HP. reflexivity.
Qed.

Lemma round_ok x : fbits x -> ffinite x = true -> rounds_int half_away x (round_ mw ew Hmw Hew0 Hpe x).
Proof.
  intros Hx F. unfold round_. cbv zeta.
  destruct (fabs_spec x Hx) as (A1 & A2 & A3 & A4 & A5). rewrite F in A4.
  pose proof (unit_pos mw ew Hmw Hew) as U. pose proof (pmw mw Hmw) as P. pose proof (pmw1 mw Hmw) as P1.
  pose proof (fabsb_range mw ew Hmw Hew x) as R.
  pose proof (imag_nonneg mw ew Hmw Hew (fabsb x) ltac:(lia)) as IN.
  set (r := fabs x) in *. clearbody r.
  destruct (hround_ok mw ew Hmw Hew0 Hpe Hew mode_ZR r A1) as (T1 & _ & _ & T2). destruct (T2 A4) as (T3 & T4 & T5).
  fold (btrunc mw ew Hmw Hew0 Hpe r) in T1, T3, T4, T5. clear T2. set (i := btrunc mw ew Hmw Hew0 Hpe r) in *. clearbody i.
  cbn [round_mode] in T5. rewrite (Ztrunc_fval mw ew Hmw Hew), A5 in T5.
  set (v := imag (fabsb x)) in *.
  rewrite Z.quot_div_nonneg in T5 by lia. apply (fval_IZR mw ew Hmw Hew) in T5.
  set (n := v / unit) in *.
  assert (DM : v - n * unit = v mod unit) by (rewrite Z.mod_eq by lia; unfold n; lia).
  pose proof (Z.mod_pos_bound v unit U) as MB.
  assert (n0 : 0 <= n) by (apply Z.div_pos; lia).
  pose proof (finite_limit mw ew Hmw Hew0 Hpe Hew r A1) as FL. rewrite A4, A5 in FL.
  assert (VL : v < limit) by lia. clear FL.
  destruct (hsub_exact mw ew Hmw Hew0 Hpe Hew r i A1 T1 A4 T3) as (S1 & S2 & S3 & S4).
  { rewrite A5, T5, DM. unfold FPInt.unit. apply repr_mod; [pose proof (emin_neg mw ew Hmw Hew); lia|lia|].
    apply repr_imag; [exact Hmw|lia]. }
  { rewrite A5, T5, DM. nia. }
  rewrite A5, T5, DM in S4. set (d := hsub r i) in *. clearbody d.
  destruct c_half_spec as (H1 & H2 & H3 & H4).
  rewrite (hle_int mw ew Hmw Hew0 Hpe Hew _ _ H1 S1 H2 S2), S4.
  set (b := ival (c_half mw ew) <=? v mod unit).
  destruct (hofZ_exact mw ew Hmw Hew0 Hpe Hew (b2z b)) as (O1 & O2 & O3 & O4).
  { destruct b; cbn; lia. }
  apply (fval_IZR mw ew Hmw Hew) in O3.
  assert (SUM : ival i + ival (hofZ (b2z b)) = (n + b2z b) * unit) by (rewrite T5, O3; ring).
  assert (CASE : (n + b2z b <= 2^mw) \/ (b = false /\ n * unit = v)).
  { destruct (Z.lt_ge_cases (fabsb x) (c_big mw ew)) as [L|L].
    - left. assert (v < 2^mw * unit).
      { destruct c_big_spec as (B1 & B2 & B3 & B4).
        assert (BB : fabsb (c_big mw ew) = c_big mw ew).
        { rewrite (pattern_split mw ew Hmw Hew _ B1) at 2. rewrite B3. unfold FP.with_sign. lia. }
        rewrite <- B4. unfold FPInt.ival. rewrite B3, BB. apply (imag_lt mw ew Hmw Hew (fabsb x) (c_big mw ew)); lia. }
      assert (n < 2^mw) by (apply Z.div_lt_upper_bound; lia). destruct b; cbn [b2z]; lia.
    - right. destruct (big_mag mw ew Hmw Hew0 Hpe Hew (fabsb x) ltac:(lia) L) as (m & E). fold v in E.
      assert (v mod unit = 0) as M0 by (rewrite E; apply Z.mod_mul; lia). split; [|lia].
      unfold b. rewrite M0. lia. }
  destruct (hadd_exact mw ew Hmw Hew0 Hpe Hew i (hofZ (b2z b)) T1 O1 T3 O2) as (Q1 & Q2 & Q3 & Q4).
  { rewrite SUM. destruct CASE as [C|[C1 C2]].
    - unfold FPInt.unit. apply repr_pow2; [exact Hmw| |pose proof (emin_neg mw ew Hmw Hew); lia].
      apply repr_small; [exact Hmw|]. destruct b; cbn [b2z] in *; lia.
    - rewrite C1. cbn [b2z]. rewrite Z.add_0_r, C2. apply repr_imag; [exact Hmw|lia]. }
  { rewrite SUM. destruct CASE as [C|[C1 C2]].
    - rewrite Z.abs_eq by (destruct b; cbn [b2z] in *; nia). apply limit_unit. destruct b; cbn [b2z] in *; lia.
    - rewrite C1. cbn [b2z]. rewrite Z.add_0_r, C2. lia. }
  rewrite SUM in Q3, Q4. set (z := hadd i (hofZ (b2z b))) in *. clearbody z.
  assert (NZ : fneg z = false).
  { rewrite Q3. unfold zsign. rewrite T4, A3. destruct (Z.compare_spec ((n + b2z b) * unit) 0) as [C|C|C]; [reflexivity|destruct b; cbn [b2z] in C; nia|reflexivity]. }
  destruct (copysign_spec z x) as (E1 & E2 & E3 & E4 & E5).
  split; [exact E1|]. split; [congruence|]. intros _. split; [congruence|]. split; [exact E3|].
  apply fval_IZR; [assumption..|]. rewrite E5, half_away_fval, (imag_ival_pos z NZ), Q4. fold v. cbv zeta.
  assert ((2 * v + unit) / (2 * unit) = n + b2z b) as ->.
  { symmetry. assert (v = n * unit + v mod unit) by lia.
    apply Z.div_unique with (2 * (v mod unit) + unit - 2 * unit * b2z b); [|lia].
    unfold b. destruct (Z.leb_spec (ival (c_half mw ew)) (v mod unit)); cbn [b2z]; lia. }
  destruct (fneg x); ring.
Qed.

End Format.
