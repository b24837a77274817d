(** Floating values as integer multiples of the least subnormal: every finite
    value of a format is [ival b * 2^emin]. *)
From Coq Require Import Reals Lra.
From Flocq Require Import Core.
From Verif Require Import Base Bits FP FP_Proof.
Open Scope Z_scope.
Local Ltac Zify.zify_post_hook ::= idtac.

Section Format.
Set Default Proof Using "All".
Variables mw ew : Z.
Hypothesis Hmw : 0 < mw.
Hypothesis Hew : 1 < ew.

Notation emin := (emin mw ew).
Notation fmag := (fmag mw ew).
Notation fval := (fval mw ew).
Notation fabsb := (fabsb mw ew).
Notation fneg := (fneg mw ew).
Notation fbits := (fbits mw ew).
Notation ffinite := (ffinite mw ew).
Notation with_sign := (with_sign mw ew).
Notation W := (mw + ew + 1).
Notation bias := (2^(ew - 1) - 1).

Definition imag (k : Z) : Z := if k / 2^mw =? 0 then k else (2^mw + k mod 2^mw) * 2^(k / 2^mw - 1).
Definition ival (b : Z) : Z := if fneg b then - imag (fabsb b) else imag (fabsb b).

Lemma pmw : 0 < 2^mw.
Proof using Hmw. apply pow2_pos. lia. Qed.
Lemma pmw1 : 2^(mw + 1) = 2 * 2^mw.
Proof using Hmw. rewrite Z.pow_add_r by lia. lia. Qed.
Lemma pW : 2^W = 2 * 2^(mw + ew) /\ 2^(W-1) = 2^(mw + ew) /\ 0 < 2^(mw + ew).
Proof.
  replace (W - 1) with (mw + ew) by lia. rewrite (Z.pow_add_r 2 (mw + ew) 1) by lia.
  pose proof (pow2_pos (mw + ew)). lia.
Qed.

Lemma emin_bias : - emin = bias + mw - 1.
Proof. unfold FP.emin. lia. Qed.
Lemma emin_neg : 0 < - emin.
Proof.
  unfold FP.emin. assert (2 <= 2^(ew - 1)). { change 2 with (2^1) at 1. apply Z.pow_le_mono_r; lia. } lia.
Qed.

Lemma imag_pack j q : 0 <= j -> 0 <= q <= 2^(mw + 1) -> (j = 0 \/ 2^mw <= q) ->
  imag (j * 2^mw + q) = q * 2^j.
Proof using Hmw.
  intros Hj Hq HL. pose proof pmw as P. pose proof pmw1 as P1. unfold imag.
  destruct (Z.lt_ge_cases q (2^mw)) as [S|S].
  { assert (j = 0) as -> by lia. rewrite Z.mul_0_l, Z.add_0_l, Z.div_small by lia. cbn [Z.eqb]. lia. }
  destruct (Z.eq_dec q (2^(mw+1))) as [E|N].
  - rewrite E, P1. replace (j * 2^mw + 2 * 2^mw) with ((j + 2) * 2^mw) by ring.
    rewrite Z.div_mul, Z.mod_mul by lia. replace (j + 2 =? 0) with false by lia.
    replace (j + 2 - 1) with (j + 1) by lia. rewrite Z.pow_add_r by lia. change (2^1) with 2. ring.
  - assert (Ed : (j * 2^mw + q) / 2^mw = j + 1) by (symmetry; apply Z.div_unique with (q - 2^mw); lia).
    assert (Em : (j * 2^mw + q) mod 2^mw = q - 2^mw) by (symmetry; apply Z.mod_unique with (j + 1); lia).
    rewrite Ed, Em. replace (j + 1 =? 0) with false by lia. replace (j + 1 - 1) with j by lia. f_equal. lia.
Qed.

Lemma imag_unpack k : 0 <= k -> exists j q, 0 <= j /\ 0 <= q < 2^(mw + 1) /\ (j = 0 \/ 2^mw <= q) /\
  k = j * 2^mw + q /\ imag k = q * 2^j.
Proof using Hmw.
  intros Hk. pose proof pmw as P. pose proof pmw1 as P1.
  pose proof (Z.div_mod k (2^mw) ltac:(lia)) as E. pose proof (Z.mod_pos_bound k (2^mw) P) as M.
  pose proof (Z.div_pos k (2^mw) Hk P) as D. unfold imag.
  destruct (Z.eq_dec (k / 2^mw) 0) as [Z0|N0].
  - exists 0, k. rewrite Z0. cbn [Z.eqb]. repeat split; try lia.
  - exists (k / 2^mw - 1), (2^mw + k mod 2^mw). replace (k / 2^mw =? 0) with false by lia. repeat split; try lia.
Qed.

Lemma fmag_imag k : 0 <= k -> fmag k = (IZR (imag k) * bpow radix2 emin)%R.
Proof.
  intros Hk. unfold FP.fmag, imag. pose proof (Z.div_pos k (2^mw) Hk pmw) as D.
  destruct (Z.eqb_spec (k / 2^mw) 0) as [E|N]; unfold F2R; cbn [Fnum Fexp].
  - reflexivity.
  - rewrite mult_IZR, <- bpow2 by lia. rewrite Rmult_assoc, <- bpow_plus. do 2 f_equal. lia.
Qed.

Lemma imag_lt k l : 0 <= k -> 0 <= l -> (k < l <-> imag k < imag l).
Proof.
  intros Hk Hl. rewrite (fmag_lt_iff mw ew Hmw k l Hk Hl), !fmag_imag by assumption.
  pose proof (bpow_gt_0 radix2 emin). split; intros.
  - apply lt_IZR. nra.
  - apply IZR_lt in H0. nra.
Qed.
Lemma imag_le k l : 0 <= k -> 0 <= l -> (k <= l <-> imag k <= imag l).
Proof. intros Hk Hl. pose proof (imag_lt l k Hl Hk). lia. Qed.
Lemma imag_inj k l : 0 <= k -> 0 <= l -> imag k = imag l -> k = l.
Proof. intros Hk Hl E. pose proof (imag_lt l k Hl Hk). pose proof (imag_lt k l Hk Hl). lia. Qed.
Lemma imag_0 : imag 0 = 0.
Proof using Hmw. unfold imag. rewrite Z.div_0_l by (pose proof pmw; lia). reflexivity. Qed.
Lemma imag_nonneg k : 0 <= k -> 0 <= imag k.
Proof. intros H. pose proof (imag_le 0 k). rewrite imag_0 in H0. lia. Qed.

Lemma fabsb_range b : 0 <= fabsb b < 2^(mw + ew).
Proof. apply Z.mod_pos_bound, pow2_pos. lia. Qed.

Lemma fval_ival b : fval b = (IZR (ival b) * bpow radix2 emin)%R.
Proof.
  unfold FP.fval, ival. pose proof (fabsb_range b). rewrite fmag_imag by lia.
  destruct (fneg b); [rewrite opp_IZR; ring|reflexivity].
Qed.

Lemma fval_eq_ival a b : fval a = fval b <-> ival a = ival b.
Proof.
  rewrite !fval_ival. pose proof (bpow_gt_0 radix2 emin). split; intros E; [|rewrite E; reflexivity].
  apply eq_IZR. nra.
Qed.
Lemma fval_lt_ival a b : (fval a < fval b)%R <-> ival a < ival b.
Proof.
  rewrite !fval_ival. pose proof (bpow_gt_0 radix2 emin). split; intros E.
  - apply lt_IZR. nra.
  - apply IZR_lt in E. nra.
Qed.
Lemma fval_le_ival a b : (fval a <= fval b)%R <-> ival a <= ival b.
Proof.
  rewrite !fval_ival. pose proof (bpow_gt_0 radix2 emin). split; intros E.
  - apply le_IZR. nra.
  - apply IZR_le in E. nra.
Qed.

(** Splitting and reassembling a pattern. *)
Lemma pattern_split b : fbits b -> b = with_sign (fneg b) (fabsb b).
Proof.
  intros Hb. unfold FP.fbits in Hb. destruct pW as (E1 & _ & P). rewrite E1 in Hb.
  unfold FP.with_sign, FP.fneg, FP.fabsb.
  destruct (Z.leb_spec (2^(mw + ew)) b).
  - rewrite <- (Z.mod_unique b (2^(mw+ew)) 1 (b - 2^(mw+ew))) by lia. lia.
  - rewrite Z.mod_small by lia. lia.
Qed.

Lemma pattern_eq a b : fbits a -> fbits b -> fneg a = fneg b -> fval a = fval b -> a = b.
Proof.
  intros Ha Hb N E. rewrite fval_eq_ival in E. unfold ival in E. rewrite N in E.
  rewrite (pattern_split a Ha), (pattern_split b Hb), N. f_equal.
  pose proof (fabsb_range a). pose proof (fabsb_range b).
  apply imag_inj; try lia. destruct (fneg b); lia.
Qed.

Lemma ival_with_sign (s : bool) k : 0 <= k < 2^(mw + ew) -> ival (with_sign s k) = if s then - imag k else imag k.
Proof. intros Hk. destruct (with_sign_spec mw ew Hmw Hew s k Hk) as (A & B & _). unfold ival. rewrite A, B. reflexivity. Qed.

(** Values as rationals. *)
Definition unit : Z := 2^(- emin).
Lemma unit_pos : 0 < unit.
Proof. apply pow2_pos. pose proof emin_neg. lia. Qed.
Lemma fval_div b : fval b = (IZR (ival b) / IZR unit)%R.
Proof.
  rewrite fval_ival. unfold unit. rewrite <- bpow2 by (pose proof emin_neg; lia).
  rewrite bpow_opp. pose proof (bpow_gt_0 radix2 emin). field. lra.
Qed.
Lemma Zfloor_fval b : Zfloor (fval b) = ival b / unit.
Proof. rewrite fval_div. apply Zfloor_div. pose proof unit_pos. lia. Qed.
Lemma Zceil_fval b : Zceil (fval b) = - (- ival b / unit).
Proof.
  unfold Zceil. rewrite fval_div. f_equal. rewrite <- Zfloor_div by (pose proof unit_pos; lia).
  rewrite opp_IZR. unfold Rdiv. rewrite Ropp_mult_distr_l. reflexivity.
Qed.
Lemma Ztrunc_fval b : Ztrunc (fval b) = Z.quot (ival b) unit.
Proof. rewrite fval_div. apply Ztrunc_div. pose proof unit_pos. lia. Qed.

(** The value is the integer n. *)
Lemma fval_IZR b n : fval b = IZR n <-> ival b = n * unit.
Proof.
  rewrite fval_div. pose proof unit_pos as U. apply IZR_lt in U. split; intros E.
  - apply eq_IZR. rewrite mult_IZR, <- E. field. lra.
  - rewrite E, mult_IZR. field. lra.
Qed.

(** Signed reading of a pattern. *)
Lemma sgn_pattern b : fbits b -> sgn W b = fabsb b - (if fneg b then 2^(mw + ew) else 0).
Proof.
  intros Hb. pose proof (pattern_split b Hb) as E. pose proof (fabsb_range b) as R. destruct pW as (P1 & P2 & P).
  unfold sgn. cbv zeta. rewrite Z.mod_small by exact Hb. rewrite P2, P1. unfold FP.with_sign in E.
  destruct (fneg b); destruct (Z.ltb_spec b (2^(mw+ew))); lia.
Qed.
Lemma sgn_magnitude b : fbits b -> Z.land (sgn W b) (2^(W-1) - 1) = fabsb b.
Proof.
  intros Hb. rewrite land_ones_mod by lia. destruct pW as (P1 & P2 & P). rewrite P2, sgn_pattern by assumption.
  pose proof (fabsb_range b) as R. destruct (fneg b); symmetry;
    [apply Z.mod_unique with (-1)|apply Z.mod_unique with 0]; lia.
Qed.
Lemma sgn_neg b : fbits b -> (sgn W b <? 0) = fneg b.
Proof. intros Hb. rewrite sgn_pattern by assumption. pose proof (fabsb_range b). destruct (fneg b); lia. Qed.
Lemma signed_pattern (s : bool) k : 0 <= k < 2^(mw + ew) ->
  (k - (if s then 2^(mw + ew) else 0)) mod 2^W = with_sign s k.
Proof.
  intros Hk. destruct pW as (P1 & P2 & P). unfold FP.with_sign. destruct s.
  - rewrite P1. symmetry. apply Z.mod_unique with (-1); lia.
  - rewrite Z.sub_0_r. apply Z.mod_small. lia.
Qed.
Lemma with_sign_inj b (s : bool) k : fbits b -> fneg b = s -> fabsb b = k -> b = with_sign s k.
Proof. intros H <- <-. apply pattern_split. exact H. Qed.

End Format.
