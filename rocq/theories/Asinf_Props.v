(** C121 and C122: asinf and acosf against asin and acos of Coq's real numbers. *)
From Coq Require Import Reals Lra Lia QArith Qreals.
From Flocq Require Import Core BinarySingleNaN.
From Verif Require Import Base FP FP_Proof HW HW_Proof Tf_Narrow_Proof Midpoint Fmaf_Proof Math_Model Math_Basic_Proof Math_Int_Proof Math_Lconv_Proof Hypotf_Model Hypotf_Real Hypotf_Proof Approx Subdiv Ferr Elem_Spec Elem_Proof Elem_Num Expf_Model Expf_Proof Logf_Model Logf_Kernel Logf_Proof Loginv_Proof Loginv3_Proof Hyperf_Model Hyperf_Proof Hyperf2_Proof Hyperf3_Proof Atan_Num Atanf_Model Atanf_Proof Asinf_Model Asin_Num Asinf_Proof.
Open Scope Z_scope.
Local Ltac Zify.zify_post_hook ::= idtac.

(** ** C121: asinf
    For every nonzero float x in [-1, 1] the result is the float nearest to a
    real number whose relative distance to asin x is below 2^-44. *)
Theorem C121_asinf_nearly_rounded x : fbits 23 8 x -> ffinite 23 8 x = true -> (0 < Rabs (fval 23 8 x) <= 1)%R -> nearly_rounded 44 (asin (fval 23 8 x)) (asinf x).
Proof. exact (asinf_ok x). Qed.
Print Assumptions C121_asinf_nearly_rounded.
(** No float lies strictly between the result and the exact value. *)
Theorem C121_asinf_faithful x : fbits 23 8 x -> ffinite 23 8 x = true -> (0 < Rabs (fval 23 8 x) <= 1)%R -> faithful (asin (fval 23 8 x)) (asinf x).
Proof. intros H F B. apply (nearly_faithful 44); [lia|exact (asinf_ok x H F B)]. Qed.
Print Assumptions C121_asinf_faithful.
(** The result is correctly rounded unless the exact value is within 2^-44 of
    the midpoint of two adjacent floats. *)
Theorem C121_asinf_correctly_rounded x : fbits 23 8 x -> ffinite 23 8 x = true -> (0 < Rabs (fval 23 8 x) <= 1)%R ->
  let v := asin (fval 23 8 x) in (forall n, 0 <= n -> (bpow radix2 (- (44)) * Rabs v < Rabs (Rabs v - midpoint n))%R) -> rounds_to 23 8 v (Rlt_bool v 0) (asinf x).
Proof. intros H F B v M. apply (nearly_correct 44); [lia|exact (asinf_ok x H F B)|exact M]. Qed.
Print Assumptions C121_asinf_correctly_rounded.
(** asin(+-0) = +-0; asin(+-1) is +-pi/2 rounded to nearest. *)
Theorem C121_asinf_special : asinf 0 = 0 /\ asinf 0x80000000 = 0x80000000 /\ asinf 0x3F800000 = 0x3FC90FDB /\ asinf 0xBF800000 = 0xBFC90FDB.
Proof. repeat split; vm_compute; reflexivity. Qed.
Print Assumptions C121_asinf_special.

(** not-a-number *)
Definition Q64 : Z := 0x7FF8000000000000.
Lemma q64_dec : dec 52 11 eq_refl eq_refl eq_refl Q64 = B754_nan.
Proof. apply dec_nan; [split; [discriminate|reflexivity]|reflexivity]. Qed.
Lemma nan_mul b : mul64 Q64 b = Q64.
Proof. unfold mul64, hmul. rewrite q64_dec. destruct (dec 52 11 eq_refl eq_refl eq_refl b); reflexivity. Qed.
Lemma nan_add b : add64 Q64 b = Q64.
Proof. unfold add64, hadd. rewrite q64_dec. destruct (dec 52 11 eq_refl eq_refl eq_refl b); reflexivity. Qed.
Lemma sqrt_neg u V : dbl u V -> (V < 0)%R -> sqrt64 u = Q64.
Proof.
  intros (A & B & C & _) N. destruct (dec_finite 52 11 eq_refl eq_refl eq_refl u A B) as (_ & E & S). rewrite C in E. unfold sqrt64.
  assert (S' : Bsign (dec 52 11 eq_refl eq_refl eq_refl u) = true). { rewrite S. rewrite (fneg_sign u V A C) by lra. apply Rlt_bool_true. exact N. }
  destruct (dec 52 11 eq_refl eq_refl eq_refl u) as [s|s| |s m e P]; cbn [B2R] in E; [lra|lra|lra|]. cbn [Bsign] in S'. subst s. reflexivity.
Qed.
Lemma twice_nan a A : dbl a A -> (1 < A)%R -> (A <= bpow radix2 128)%R -> (bpow radix2 (-24) <= A - 1)%R -> twice_ a = Q64.
Proof.
  intros DA H1 H2 H3. unfold twice_. cbv zeta. assert (B128 : (1 <= bpow radix2 128)%R) by (apply (bpow_le radix2 0 128); lia).
  assert (D1 : dbl (sub64 c_1 a) (RN53 (1 - A))).
  { apply (dbl_sub _ _ _ _ 130 dbl_one DA); [|lia]. assert (bpow radix2 128 <= bpow radix2 130)%R by (apply bpow_le; lia). apply Rabs_le. lra. }
  assert (L1 : (RN53 (1 - A) <= - bpow radix2 (-24))%R) by (apply Loginv3_Proof.RN53_ub; [apply generic_format_opp, Loginv3_Proof.F53_bpow; lia|lra]).
  assert (L2 : (- bpow radix2 128 <= RN53 (1 - A))%R) by (apply Loginv3_Proof.RN53_lb; [apply generic_format_opp, Loginv3_Proof.F53_bpow; lia|lra]).
  set (d := sub64 c_1 a) in *. clearbody d. set (W := RN53 (1 - A)) in *. clearbody W. pose proof (bpow_gt_0 radix2 (-24)) as P24.
  assert (D2 : dbl (mul64 c_half d) (RN53 (/ 2 * W))).
  { apply (dbl_mul _ _ _ _ 130 dbl_half D1); [|lia]. assert (bpow radix2 128 <= bpow radix2 130)%R by (apply bpow_le; lia). apply Rabs_le. lra. }
  assert (L3 : (RN53 (/ 2 * W) <= - bpow radix2 (-25))%R).
  { apply Loginv3_Proof.RN53_ub; [apply generic_format_opp, Loginv3_Proof.F53_bpow; lia|]. assert (bpow radix2 (-24) = 2 * bpow radix2 (-25))%R by (change 2%R with (bpow radix2 1); rewrite <- bpow_plus; reflexivity). lra. }
  pose proof (bpow_gt_0 radix2 (-25)). rewrite (sqrt_neg _ _ D2) by lra. unfold kernel_asin_. rewrite nan_add. vm_compute. reflexivity.
Qed.
Lemma big_arg x : fbits 23 8 x -> ffinite 23 8 x = true -> (1 < Rabs (fval 23 8 x))%R -> lt64 (fabsb 52 11 (f2d x)) c_half = false /\ twice_ (fabsb 52 11 (f2d x)) = Q64.
Proof.
  intros Hx Fx B. pose proof (dbl_f2d x Hx Fx) as DX. pose proof (dbl_abs _ _ DX) as DA. split.
  - destruct (lt64 (fabsb 52 11 (f2d x)) c_half) eqn:L; [|reflexivity]. apply (dbl_lt _ _ _ _ DA dbl_half) in L. lra.
  - destruct (abs_finite x Hx Fx) as [HA HV]. pose proof (fmag_nonneg 23 8 eq_refl (fabsb 23 8 x) ltac:(lia)) as M0. assert (AX : Rabs (fval 23 8 x) = fmag 23 8 (fabsb 23 8 x)). { rewrite HV. destruct (fneg 23 8 x); [rewrite Rabs_Ropp|]; apply Rabs_pos_eq; lra. }
    apply (twice_nan _ _ DA B); rewrite AX in *.
    + rewrite <- EINF. apply (fmag_le 23 8 eq_refl). lia.
    + assert (M1 : fmag 23 8 0x3F800000 = 1%R) by (rewrite fmag32_q by lia; rewrite <- Approx.Q2R_1; apply Qeq_eqR; vm_compute; reflexivity).
      assert (M2 : fmag 23 8 0x3F800001 = (1 + / 8388608)%R) by (rewrite fmag32_q by lia; replace (1 + / 8388608)%R with (Q2R (8388609 # 8388608)) by (unfold Q2R; cbn [Qnum Qden]; lra); apply Qeq_eqR; vm_compute; reflexivity).
      assert (L : 0x3F800001 <= fabsb 23 8 x). { apply Z.nlt_ge. intros K. pose proof (fmag_le 23 8 eq_refl (fabsb 23 8 x) 0x3F800000 ltac:(lia)). lra. }
      pose proof (fmag_le 23 8 eq_refl 0x3F800001 (fabsb 23 8 x) ltac:(lia)). change (bpow radix2 (-24)) with (/ 16777216)%R. lra.
Qed.
(** Outside [-1, 1], infinities included, and for a NaN the result is a NaN. *)
Definition outside (x : Z) : Prop := fisnan 23 8 x = true \/ fisinf 23 8 x = true \/ (ffinite 23 8 x = true /\ (1 < Rabs (fval 23 8 x))%R).
Lemma inf_cases x : fbits 23 8 x -> fisinf 23 8 x = true -> x = 0x7F800000 \/ x = 0xFF800000.
Proof.
  intros H F. unfold fisinf in F. apply Z.eqb_eq in F. change (finf 23 8) with 0x7F800000 in F. unfold fabsb in F. change (2^(23+8)) with 0x80000000 in F. unfold fbits in H. change (2^(23+8+1)) with 0x100000000 in H.
  pose proof (Z.div_mod x 0x80000000 ltac:(lia)) as E. assert (0 <= x / 0x80000000 < 2) by (split; [apply Z.div_pos; lia|apply Z.div_lt_upper_bound; lia]). lia.
Qed.
Theorem C121_asinf_domain x : fbits 23 8 x -> outside x -> fisnan 23 8 (asinf x) = true.
Proof.
  intros H [N|[N|[F N]]].
  - unfold asinf, f2d. rewrite (hcvt_nan 23 8 52 11 eq_refl eq_refl eq_refl eq_refl eq_refl x H N). unfold eq32, heq.
    replace (fisnan 23 8 (fabsb 23 8 x)) with true by (unfold fisnan, fabsb in *; rewrite Z.mod_mod by lia; symmetry; exact N). cbn [negb andb]. cbv zeta.
    replace (d2f (sub64 d_pi_2 (twice_ (fabsb 52 11 (qnan 52 11))))) with 0x7FC00000 by (vm_compute; reflexivity). replace (lt64 (fabsb 52 11 (qnan 52 11)) c_half) with false by (vm_compute; reflexivity). cbv iota. unfold copysign, with_sign. destruct (fneg 23 8 x); vm_compute; reflexivity.
  - destruct (inf_cases x H N) as [->| ->]; vm_compute; reflexivity.
  - destruct (big_arg x H F N) as [L T]. unfold asinf. cbv zeta. rewrite L, T. destruct (eq32 (fabsb 23 8 x) 0x3F083A1A) eqn:Q.
    { exfalso. destruct (abs_finite x H F) as [HA HV]. destruct (pos_float _ HA) as (P1 & P2 & P3 & P4). apply eq32_val in Q; [|exact P1|exact P2|split; [lia|reflexivity]|reflexivity]. rewrite P4 in Q.
      assert (AX : Rabs (fval 23 8 x) = fmag 23 8 (fabsb 23 8 x)). { pose proof (fmag_nonneg 23 8 eq_refl (fabsb 23 8 x) ltac:(lia)). rewrite HV. destruct (fneg 23 8 x); [rewrite Rabs_Ropp|]; apply Rabs_pos_eq; lra. }
      rewrite AX, Q in N. rewrite fval32_q in N by first [split; [lia|reflexivity]|reflexivity]. assert (K : (Q2R (qval (f2d 0x3F083A1A)) <= Q2R 1)%R) by (apply Approx.Q2R_le; vm_compute; reflexivity). rewrite Approx.Q2R_1 in K. lra. }
    replace (d2f (sub64 d_pi_2 Q64)) with 0x7FC00000 by (vm_compute; reflexivity). unfold copysign, with_sign. destruct (fneg 23 8 x); vm_compute; reflexivity.
Qed.
Print Assumptions C121_asinf_domain.
(** hypotheses met: x = 1/2, x = -3/4, x = 2 *)
Example C121_ex : asinf 0x3F000000 = 0x3F060A92 /\ asinf 0xBF400000 = 0xBF591A99 /\ asinf 1 = 1 /\ fbits 23 8 0xBF400000 /\ ffinite 23 8 0xBF400000 = true /\ fval 23 8 0xBF400000 = (-0.75)%R /\ outside 0x40000000.
Proof.
  assert (B : fbits 23 8 0xBF400000) by (split; [lia|reflexivity]). assert (B2 : fbits 23 8 0x40000000) by (split; [lia|reflexivity]). repeat (split; [vm_compute; reflexivity|]). split; [exact B|]. split; [reflexivity|]. split.
  - rewrite fval32_q by first [exact B|reflexivity]. replace (qval (f2d 0xBF400000)) with (-3 # 4)%Q by (vm_compute; reflexivity). unfold Q2R. cbn [Qnum Qden]. lra.
  - right. right. split; [reflexivity|]. rewrite fval32_q by first [exact B2|reflexivity]. replace (qval (f2d 0x40000000)) with 2%Q by (vm_compute; reflexivity). unfold Q2R. cbn [Qnum Qden]. rewrite Rabs_pos_eq; lra.
Qed.

(** ** C122: acosf
    For every float x with -1 <= x < 1 the result is the float nearest to a real
    number whose relative distance to acos x is below 2^-44. *)
Theorem C122_acosf_nearly_rounded x : fbits 23 8 x -> ffinite 23 8 x = true -> (-1 <= fval 23 8 x < 1)%R -> nearly_rounded 44 (acos (fval 23 8 x)) (acosf x).
Proof. exact (acosf_ok x). Qed.
Print Assumptions C122_acosf_nearly_rounded.
(** No float lies strictly between the result and the exact value. *)
Theorem C122_acosf_faithful x : fbits 23 8 x -> ffinite 23 8 x = true -> (-1 <= fval 23 8 x < 1)%R -> faithful (acos (fval 23 8 x)) (acosf x).
Proof. intros H F B. apply (nearly_faithful 44); [lia|exact (acosf_ok x H F B)]. Qed.
Print Assumptions C122_acosf_faithful.
(** The result is correctly rounded unless the exact value is within 2^-44 of
    the midpoint of two adjacent floats. *)
Theorem C122_acosf_correctly_rounded x : fbits 23 8 x -> ffinite 23 8 x = true -> (-1 <= fval 23 8 x < 1)%R ->
  let v := acos (fval 23 8 x) in (forall n, 0 <= n -> (bpow radix2 (- (44)) * Rabs v < Rabs (Rabs v - midpoint n))%R) -> rounds_to 23 8 v (Rlt_bool v 0) (acosf x).
Proof. intros H F B v M. apply (nearly_correct 44); [lia|exact (acosf_ok x H F B)|exact M]. Qed.
Print Assumptions C122_acosf_correctly_rounded.
(** acos 1 = +0, which is exact; acos(-1) and acos(+-0) are pi and pi/2 rounded
    to nearest. *)
Theorem C122_acosf_special : acosf 0x3F800000 = 0 /\ acosf 0xBF800000 = 0x40490FDB /\ acosf 0 = 0x3FC90FDB /\ acosf 0x80000000 = 0x3FC90FDB.
Proof. repeat split; vm_compute; reflexivity. Qed.
Print Assumptions C122_acosf_special.
Theorem C122_acosf_domain x : fbits 23 8 x -> outside x -> fisnan 23 8 (acosf x) = true.
Proof.
  intros H [N|[N|[F N]]].
  - unfold acosf, f2d. rewrite (hcvt_nan 23 8 52 11 eq_refl eq_refl eq_refl eq_refl eq_refl x H N). unfold lt32, hlt at 1.
    rewrite N, Bool.andb_false_r. cbn [andb]. vm_compute. reflexivity.
  - destruct (inf_cases x H N) as [->| ->]; vm_compute; reflexivity.
  - destruct (big_arg x H F N) as [L T]. unfold acosf. cbv zeta. rewrite L, T. destruct (lt32 0 x); vm_compute; reflexivity.
Qed.
Print Assumptions C122_acosf_domain.
(** hypotheses met: x = 1/2, x = -3/4 *)
Example C122_ex : acosf 0x3F000000 = 0x3F860A92 /\ acosf 0xBF400000 = 0x401ACE93 /\ fbits 23 8 0xBF400000 /\ ffinite 23 8 0xBF400000 = true /\ fval 23 8 0xBF400000 = (-0.75)%R /\ outside 0x7FC00000 /\ outside 0xFF800000.
Proof.
  assert (B : fbits 23 8 0xBF400000) by (split; [lia|reflexivity]). repeat (split; [vm_compute; reflexivity|]). split; [exact B|]. split; [reflexivity|]. split; [|split; [left; reflexivity|right; left; reflexivity]].
  rewrite fval32_q by first [exact B|reflexivity]. replace (qval (f2d 0xBF400000)) with (-3 # 4)%Q by (vm_compute; reflexivity). unfold Q2R. cbn [Qnum Qden]. lra.
Qed.
