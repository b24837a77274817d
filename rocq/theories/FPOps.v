(** Native operations in integer terms: the result of an operation whose exact
    value is [n * 2^emin] lies between any representable bounds of [n]. *)
From Coq Require Import Reals Lra.
From Flocq Require Import Core BinarySingleNaN.
From Verif Require Import Base Bits FP FP_Proof HW HW_Proof FPInt.
Open Scope Z_scope.
Local Ltac Zify.zify_post_hook ::= idtac.

Section Format.
Set Default Proof Using "All".
Variables mw ew : Z.
Hypothesis Hmw : 0 < mw.
Hypothesis Hew0 : 0 < ew.
Hypothesis Hpe : mw + 1 < 2^(ew - 1).
Hypothesis Hew : 1 < ew.

Notation emin := (emin mw ew).
Notation fval := (fval mw ew).
Notation fabsb := (fabsb mw ew).
Notation fneg := (fneg mw ew).
Notation fbits := (fbits mw ew).
Notation ffinite := (ffinite mw ew).
Notation with_sign := (with_sign mw ew).
Notation imag := (imag mw).
Notation ival := (ival mw ew).
Notation unit := (unit mw ew).
Notation finf := (finf mw ew).
Notation RN := (RN mw ew).

Definition repr (n : Z) : Prop := exists q j, n = q * 2^j /\ 0 <= j /\ Z.abs q <= 2^(mw + 1).

Lemma repr_opp n : repr n -> repr (- n).
Proof using Hmw. clear - Hmw. intros (q & j & E & Hj & Hq). exists (- q), j. rewrite E, Z.abs_opp. repeat split; try assumption. ring. Qed.
Lemma repr_small n : Z.abs n <= 2^(mw + 1) -> repr n.
Proof using Hmw. clear - Hmw. intros H. exists n, 0. repeat split; try lia. Qed.
Lemma repr_0 : repr 0.
Proof using Hmw. clear - Hmw. apply repr_small. pose proof (pow2_pos (mw + 1)). cbn. lia. Qed.
Lemma repr_pow2 n k : repr n -> 0 <= k -> repr (n * 2^k).
Proof using Hmw. clear - Hmw.
  intros (q & j & E & Hj & Hq) Hk. exists q, (j + k). rewrite Z.pow_add_r by lia. repeat split; try assumption; try lia.
Qed.

Lemma repr_format n : repr n -> generic_format radix2 (FLT_exp emin (mw + 1)) (IZR n * bpow radix2 emin).
Proof.
  intros (q & j & E & Hj & Hq).
  assert (X : forall p i, 0 <= i -> Z.abs p < 2^(mw + 1) ->
    generic_format radix2 (FLT_exp emin (mw + 1)) (IZR (p * 2^i) * bpow radix2 emin)).
  { intros p i Hi Hp. apply generic_format_FLT. exists (Float radix2 p (i + emin)).
    - unfold F2R. cbn [Fnum Fexp]. rewrite mult_IZR, <- bpow2, bpow_plus by lia. ring.
    - exact Hp.
    - cbn. lia. }
  destruct (Z.eq_dec (Z.abs q) (2^(mw + 1))) as [K|K].
  - assert (n = Z.sgn q * 2^(mw + 1 + j)) as ->.
    { rewrite Z.pow_add_r by lia. rewrite <- K, E. transitivity (Z.sgn q * Z.abs q * 2^j); [f_equal; lia|ring]. }
    apply X; [lia|]. assert (2 <= 2^(mw + 1)). { change 2 with (2^1) at 1. apply Z.pow_le_mono_r; lia. } lia.
  - rewrite E. apply X; lia.
Qed.

Lemma repr_imag k : 0 <= k -> repr (imag k).
Proof using Hmw. clear - Hmw.
  intros Hk. destruct (imag_unpack mw Hmw k Hk) as (j & q & Hj & Hq & _ & _ & E). exists q, j. repeat split; try assumption; lia.
Qed.
Lemma repr_ival b : repr (ival b).
Proof.
  unfold FPInt.ival. pose proof (fabsb_range mw ew Hmw Hew b).
  destruct (fneg b); [apply repr_opp|]; apply repr_imag; lia.
Qed.

Definition limit : Z := imag finf.
Lemma limit_bpow : (IZR limit * bpow radix2 emin = bpow radix2 (2^(ew - 1)))%R.
Proof.
  unfold limit. pose proof (finf_pos mw ew Hmw Hew). rewrite <- (fmag_imag mw ew Hmw Hew) by (assumption || lia).
  apply fmag_inf; [assumption|exact Hew].
Qed.
Lemma limit_pos : 0 < limit.
Proof.
  unfold limit. pose proof (finf_pos mw ew Hmw Hew). rewrite <- (imag_0 mw Hmw).
  apply (imag_lt mw ew Hmw Hew 0 finf); lia.
Qed.
Lemma finite_limit b : fbits b -> (ffinite b = true <-> Z.abs (ival b) < limit).
Proof.
  intros Hb. unfold FP.ffinite, limit. pose proof (finf_pos mw ew Hmw Hew). pose proof (fabsb_range mw ew Hmw Hew b).
  rewrite Z.ltb_lt, (imag_lt mw ew Hmw Hew) by lia. unfold FPInt.ival.
  pose proof (imag_nonneg mw ew Hmw Hew (fabsb b)). destruct (fneg b); lia.
Qed.
Lemma repr_limit : repr limit.
Proof. apply repr_imag. pose proof (finf_pos mw ew Hmw Hew). lia. Qed.

Lemma rounds_between n s r lo hi : rounds_to mw ew (IZR n * bpow radix2 emin) s r ->
  repr lo -> repr hi -> lo <= n <= hi -> - limit < lo -> hi < limit ->
  fbits r /\ ffinite r = true /\ fneg r = s /\ lo <= ival r <= hi.
Proof.
  intros (A & B & C & _) Rl Rh Hn Hl Hh.
  pose proof (bpow_gt_0 radix2 emin) as P.
  assert (Vp : Valid_exp (FLT_exp emin (mw + 1))) by (apply FLT_exp_valid; unfold Prec_gt_0; lia).
  assert (L1 : (IZR lo * bpow radix2 emin <= RN (IZR n * bpow radix2 emin))%R).
  { rewrite <- (round_generic radix2 (FLT_exp emin (mw + 1)) ZnearestE _ (repr_format lo Rl)).
    apply round_le; [exact Vp|typeclasses eauto|]. apply Rmult_le_compat_r; [lra|]. apply IZR_le. lia. }
  assert (L2 : (RN (IZR n * bpow radix2 emin) <= IZR hi * bpow radix2 emin)%R).
  { rewrite <- (round_generic radix2 (FLT_exp emin (mw + 1)) ZnearestE _ (repr_format hi Rh)).
    apply round_le; [exact Vp|typeclasses eauto|]. apply Rmult_le_compat_r; [lra|]. apply IZR_le. lia. }
  pose proof limit_bpow as LB.
  apply IZR_lt in Hl, Hh. rewrite opp_IZR in Hl.
  apply (Rmult_lt_compat_r _ _ _ P) in Hl, Hh.
  destruct (C ltac:(apply Rabs_lt; fold RN; lra)) as [F V]. fold RN in V.
  split; [exact A|]. split; [exact F|]. split; [exact B|].
  rewrite fval_ival in V by (assumption || exact Hew). rewrite <- V in L1, L2.
  split; apply le_IZR; apply Rmult_le_reg_r with (bpow radix2 emin); assumption.
Qed.

Lemma rounds_exact_int n s r : rounds_to mw ew (IZR n * bpow radix2 emin) s r ->
  repr n -> Z.abs n < limit -> fbits r /\ ffinite r = true /\ fneg r = s /\ ival r = n.
Proof.
  intros H R L. destruct (rounds_between n s r n n H R R ltac:(lia) ltac:(lia) ltac:(lia)) as (A & B & C & D).
  split; [exact A|]. split; [exact B|]. split; [exact C|]. lia.
Qed.

(** A value determines the pattern up to the sign of zero. *)
Lemma pattern_ival a b : fbits a -> fbits b -> fneg a = fneg b -> ival a = ival b -> a = b.
Proof.
  intros Ha Hb N E. apply (pattern_eq mw ew Hmw Hew); try assumption.
  apply fval_eq_ival; try assumption; exact Hew.
Qed.

Notation hadd := (hadd mw ew Hmw Hew0 Hpe).
Notation hsub := (hsub mw ew Hmw Hew0 Hpe).

Lemma fval_i b : fval b = (IZR (ival b) * bpow radix2 emin)%R.
Proof. apply fval_ival; [assumption|exact Hew]. Qed.

(** The sign of a sum: that of the exact value, or the common sign for zero. *)
Definition zsign (n : Z) (sa sb : bool) : bool := match n ?= 0 with Eq => andb sa sb | Lt => true | Gt => false end.

Lemma sum_sign_int n sa sb : sum_sign (IZR n * bpow radix2 emin) sa sb = zsign n sa sb.
Proof.
  unfold sum_sign, zsign. pose proof (bpow_gt_0 radix2 emin) as P.
  destruct (Z.compare_spec n 0) as [C|C|C].
  - rewrite C, Rmult_0_l, Rcompare_Eq by reflexivity. reflexivity.
  - rewrite Rcompare_Lt; [reflexivity|]. apply IZR_lt in C. nra.
  - rewrite Rcompare_Gt; [reflexivity|]. apply IZR_lt in C. nra.
Qed.

Lemma hadd_int a b : fbits a -> fbits b -> ffinite a = true -> ffinite b = true ->
  rounds_to mw ew (IZR (ival a + ival b) * bpow radix2 emin) (zsign (ival a + ival b) (fneg a) (fneg b)) (hadd a b).
Proof.
  intros Ha Hb Fa Fb. rewrite <- sum_sign_int. rewrite plus_IZR, Rmult_plus_distr_r, <- !fval_i.
  apply hadd_ok; assumption.
Qed.
Lemma hsub_int a b : fbits a -> fbits b -> ffinite a = true -> ffinite b = true ->
  rounds_to mw ew (IZR (ival a - ival b) * bpow radix2 emin) (zsign (ival a - ival b) (fneg a) (negb (fneg b))) (hsub a b).
Proof.
  intros Ha Hb Fa Fb. rewrite <- sum_sign_int. rewrite minus_IZR.
  replace ((IZR (ival a) - IZR (ival b)) * bpow radix2 emin)%R with (fval a - fval b)%R by (rewrite !fval_i; ring).
  apply hsub_ok; assumption.
Qed.
Lemma hadd_exact a b : fbits a -> fbits b -> ffinite a = true -> ffinite b = true ->
  repr (ival a + ival b) -> Z.abs (ival a + ival b) < limit ->
  fbits (hadd a b) /\ ffinite (hadd a b) = true /\ fneg (hadd a b) = zsign (ival a + ival b) (fneg a) (fneg b) /\
  ival (hadd a b) = ival a + ival b.
Proof. intros Ha Hb Fa Fb R L. apply rounds_exact_int; [apply hadd_int| |]; assumption. Qed.
Lemma hsub_exact a b : fbits a -> fbits b -> ffinite a = true -> ffinite b = true ->
  repr (ival a - ival b) -> Z.abs (ival a - ival b) < limit ->
  fbits (hsub a b) /\ ffinite (hsub a b) = true /\ fneg (hsub a b) = zsign (ival a - ival b) (fneg a) (negb (fneg b)) /\
  ival (hsub a b) = ival a - ival b.
Proof. intros Ha Hb Fa Fb R L. apply rounds_exact_int; [apply hsub_int| |]; assumption. Qed.

(** Comparisons. *)
Lemma hlt_int a b : fbits a -> fbits b -> ffinite a = true -> ffinite b = true ->
  hlt mw ew a b = (ival a <? ival b).
Proof.
  intros Ha Hb Fa Fb. pose proof (hlt_ok mw ew Hmw Hew0 a b Ha Hb Fa Fb) as H.
  rewrite fval_lt_ival in H by (assumption || exact Hew). destruct (hlt mw ew a b); lia.
Qed.
Lemma hle_int a b : fbits a -> fbits b -> ffinite a = true -> ffinite b = true ->
  hle mw ew a b = (ival a <=? ival b).
Proof.
  intros Ha Hb Fa Fb. pose proof (hle_ok mw ew Hmw Hew0 a b Ha Hb Fa Fb) as H.
  rewrite fval_le_ival in H by (assumption || exact Hew). destruct (hle mw ew a b); lia.
Qed.
Lemma heq_int a b : fbits a -> fbits b -> ffinite a = true -> ffinite b = true ->
  heq mw ew a b = (ival a =? ival b).
Proof.
  intros Ha Hb Fa Fb. pose proof (heq_ok mw ew Hmw Hew0 a b Ha Hb Fa Fb) as H.
  rewrite fval_eq_ival in H by (assumption || exact Hew). destruct (heq mw ew a b); lia.
Qed.

Lemma sign_ival b : (fneg b = true -> ival b <= 0) /\ (fneg b = false -> 0 <= ival b).
Proof.
  unfold FPInt.ival. pose proof (fabsb_range mw ew Hmw Hew b). pose proof (imag_nonneg mw ew Hmw Hew (fabsb b)).
  destruct (fneg b); split; intros; try discriminate; lia.
Qed.

(** Patterns of powers of two. *)
Lemma pow2_pattern e : 1 <= e < 2^ew - 1 -> let c := Z.shiftl e mw in
  fbits c /\ ffinite c = true /\ fneg c = false /\ ival c = 2^(mw + e - 1).
Proof.
  intros He. cbv zeta. rewrite shiftl_mul by lia. pose proof (pmw mw Hmw) as P. pose proof (pmw1 mw Hmw) as P1.
  pose proof (finf_pos mw ew Hmw Hew) as FI. unfold FP.finf in FI.
  assert (R : 0 <= e * 2^mw < (2^ew - 1) * 2^mw).
  { split; [lia|]. apply Z.mul_lt_mono_pos_r; lia. }
  destruct (with_sign_spec mw ew Hmw Hew false (e * 2^mw) ltac:(lia)) as (A & B & C).
  pose proof (ival_with_sign mw ew Hmw Hew false (e * 2^mw) ltac:(lia)) as V.
  unfold FP.with_sign in A, B, C, V. rewrite Z.add_0_l in *.
  split; [exact C|]. split; [unfold FP.ffinite, FP.finf; lia|]. split; [exact B|]. rewrite V.
  replace (e * 2^mw) with ((e - 1) * 2^mw + 2^mw) by ring. rewrite imag_pack by lia.
  rewrite <- Z.pow_add_r by lia. f_equal. lia.
Qed.

End Format.
