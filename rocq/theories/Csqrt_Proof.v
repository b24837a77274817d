(** Double complex square root: accuracy where no square overflows or underflows. *)
From Coq Require Import Reals Lra Lia Psatz.
From Flocq Require Import Core BinarySingleNaN.
From Verif Require Import Base FP FP_Proof HW HW_Proof Midpoint Fmaf_Proof Math_Model Hypotf_Model Hypotf_Real Hypotf_Proof Ferr Logf_Kernel Logf_Proof Loginv_Proof Loginv3_Proof Hyperf2_Proof Hyperf3_Proof Asinf_Proof Complex_Proof Csqrt_Model.
Open Scope Z_scope.
Local Ltac Zify.zify_post_hook ::= idtac.

(** ** the real side *)
Section Real.
Open Scope R_scope.
Definition mag (A B : R) : R := sqrt (A * A + B * B).
Lemma mag_sq A B : mag A B * mag A B = A * A + B * B.
Proof. apply sqrt_sqrt. nra. Qed.
Lemma mag_ge A B : 0 <= A -> 0 <= B -> A <= mag A B /\ B <= mag A B.
Proof. intros PA PB. pose proof (mag_sq A B) as Q. pose proof (sqrt_pos (A * A + B * B)) as P. change (sqrt _) with (mag A B) in P. split; nra. Qed.
(** half the imaginary part over the larger part is the smaller part *)
Lemma small_part A B : 0 <= A -> 0 <= B -> 0 < A + B -> B / 2 / sqrt ((A + mag A B) / 2) = sqrt ((mag A B - A) / 2).
Proof.
  intros PA PB PP. destruct (mag_ge A B PA PB) as [L1 L2]. pose proof (mag_sq A B) as Q. set (M := mag A B) in *. clearbody M.
  assert (PM : 0 < M) by nra. set (S := sqrt ((A + M) / 2)). assert (PS : 0 < S) by (apply sqrt_lt_R0; lra).
  apply (Rmult_eq_reg_r S); [|lra]. unfold S at 3. rewrite <- sqrt_mult by lra. replace ((M - A) / 2 * ((A + M) / 2)) with (B / 2 * (B / 2)) by nra.
  rewrite sqrt_square by lra. field. lra.
Qed.
End Real.

(** ** the doubles *)
Lemma half_pos : dbl c_0_5 (/ 2). Proof. exact dbl_half. Qed.
Lemma bp a b : a <= b -> (bpow radix2 a <= bpow radix2 b)%R. Proof. apply bpow_le. Qed.
Lemma twice_bp a : (2 * bpow radix2 a = bpow radix2 (a + 1))%R.
Proof. rewrite bpow_plus. change (bpow radix2 1) with 2%R. ring. Qed.
Lemma rel_range k x y : (0 <= k <= 90)%R -> (0 < y)%R -> rel k x y -> (/ 2 * y <= x <= 2 * y)%R.
Proof. intros Hk P A. unfold rel in A. rewrite (Rabs_pos_eq y) in A by lra. destruct u53_dec. apply Rabs_le_inv in A. assert (k * u53 <= / 2)%R by nra. split; nra. Qed.
Lemma nice_sq X : nice (-480) X -> nice (-1022) (X * X).
Proof.
  intros [->|H]; [left; ring|right]. rewrite Rabs_mult. apply Rle_trans with (bpow radix2 (-480) * bpow radix2 (-480))%R.
  - rewrite <- bpow_plus. apply bp. lia.
  - apply Rmult_le_compat; try apply bpow_ge_0; exact H.
Qed.
Lemma sq_ub X e : (Rabs X <= bpow radix2 e)%R -> (X * X <= bpow radix2 (e + e))%R.
Proof. intros H. rewrite bpow_plus. rewrite <- (Rabs_pos_eq (X * X)) by nra. rewrite Rabs_mult. apply Rmult_le_compat; try apply Rabs_pos; exact H. Qed.
Lemma sq_lb X e : (bpow radix2 e <= Rabs X)%R -> (bpow radix2 (e + e) <= X * X)%R.
Proof. intros H. rewrite bpow_plus. rewrite <- (Rabs_pos_eq (X * X)) by nra. rewrite Rabs_mult. apply Rmult_le_compat; try apply bpow_ge_0; exact H. Qed.
Lemma sqrt_rng x a b : (bpow radix2 (a + a) <= x <= bpow radix2 (b + b) -> bpow radix2 a <= sqrt x <= bpow radix2 b)%R.
Proof.
  intros [L U]. split.
  - rewrite <- (sqrt_square (bpow radix2 a)) by apply bpow_ge_0. apply sqrt_le_1_alt. rewrite <- bpow_plus. exact L.
  - rewrite <- (sqrt_square (bpow radix2 b)) by apply bpow_ge_0. apply sqrt_le_1_alt. rewrite <- bpow_plus. exact U.
Qed.

(** the larger part *)
Definition big64 (x y : Z) : Z := sqrt64 (mul64 c_0_5 (add64 (fabsb 52 11 x) (sqrt64 (add64 (mul64 x x) (mul64 y y))))).
Lemma big_ok x y X Y : dbl x X -> dbl y Y -> nice (-480) X -> nice (-480) Y -> (Rabs X <= bpow radix2 298)%R -> (Rabs Y <= bpow radix2 298)%R -> (X <> 0 \/ Y <> 0)%R ->
  exists S, dbl (big64 x y) S /\ rel 3.1 S (sqrt ((Rabs X + mag (Rabs X) (Rabs Y)) / 2)) /\ (bpow radix2 (-250) <= S <= bpow radix2 160)%R.
Proof.
  intros DX DY NX NY BX BY NZ.
  assert (D1 : dbl (mul64 x x) (RN53 (X * X))) by (apply (dbl_mul _ _ _ _ 596 DX DX); [rewrite Rabs_pos_eq by nra; exact (sq_ub X 298 BX)|lia]).
  assert (D2 : dbl (mul64 y y) (RN53 (Y * Y))) by (apply (dbl_mul _ _ _ _ 596 DY DY); [rewrite Rabs_pos_eq by nra; exact (sq_ub Y 298 BY)|lia]).
  pose proof (rel_round 0 _ _ ltac:(lra) (nice_sq X NX) (rel_refl _)) as R1. pose proof (rel_round 0 _ _ ltac:(lra) (nice_sq Y NY) (rel_refl _)) as R2.
  set (p := RN53 (X * X)) in *. set (q := RN53 (Y * Y)) in *. clearbody p q.
  pose proof (rel_add _ _ _ _ _ (ltac:(nra) : (0 <= X * X)%R) (ltac:(nra) : (0 <= Y * Y)%R) R1 R2) as R3.
  set (N := (X * X + Y * Y)%R) in *.
  assert (NR : (bpow radix2 (-960) <= N <= bpow radix2 597)%R).
  { split.
    - unfold N. destruct NX as [X0|LX].
      + destruct NY as [Y0|LY]; [exfalso; tauto|]. pose proof (sq_lb Y (-480) LY). change (-480 + -480) with (-960) in *. nra.
      + pose proof (sq_lb X (-480) LX). change (-480 + -480) with (-960) in *. nra.
    - unfold N. pose proof (sq_ub X 298 BX). pose proof (sq_ub Y 298 BY). change (298 + 298) with 596 in *. pose proof (twice_bp 596). change (596 + 1) with 597 in *. lra. }
  pose proof (bpow_gt_0 radix2 (-960)) as P960.
  pose proof (rel_range _ _ _ (ltac:(lra) : (0 <= 0 + 1.001 <= 90)%R) (ltac:(lra) : (0 < N)%R) R3) as RG3.
  assert (MN : mag (Rabs X) (Rabs Y) = sqrt N). { unfold mag, N. f_equal. rewrite <- !Rabs_mult. rewrite !Rabs_pos_eq by nra. reflexivity. }
  rewrite MN.
  assert (B961 : (bpow radix2 (-961) <= p + q <= bpow radix2 598)%R).
  { pose proof (twice_bp (-961)). pose proof (twice_bp 597). change (-961 + 1) with (-960) in *. change (597 + 1) with 598 in *. lra. }
  pose proof (bpow_gt_0 radix2 (-961)) as P961.
  assert (D3 : dbl (add64 (mul64 x x) (mul64 y y)) (RN53 (p + q))) by (apply (dbl_add _ _ _ _ 598 D1 D2); [rewrite Rabs_pos_eq by lra; lra|lia]).
  assert (N3 : nice (-1022) (p + q)) by (right; rewrite Rabs_pos_eq by lra; apply Rle_trans with (2 := proj1 B961); apply bp; lia).
  apply (rel_round _ _ _ (ltac:(lra) : (0 <= 0 + 1.001 <= 90)%R) N3) in R3.
  assert (B962 : (bpow radix2 (-962) <= RN53 (p + q) <= bpow radix2 598)%R).
  { split; [apply RN53_lb; [apply F53_bpow; lia|]|apply RN53_ub; [apply F53_bpow; lia|lra]]. apply Rle_trans with (2 := proj1 B961). apply bp. lia. }
  set (n := RN53 (p + q)) in *. clearbody n. clear R1 R2 RG3 N3 B961 D1 D2.
  (* the modulus *)
  pose proof (bpow_gt_0 radix2 (-962)) as P962.
  assert (D4 : dbl (sqrt64 (add64 (mul64 x x) (mul64 y y))) (RN53 (sqrt n))) by (apply (dbl_sqrt _ _ D3); [lra|apply Rle_trans with (1 := proj2 B962); apply bp; lia]).
  assert (SR : (bpow radix2 (-481) <= sqrt n <= bpow radix2 299)%R) by (apply sqrt_rng; exact B962).
  pose proof (bpow_gt_0 radix2 (-481)) as P481.
  pose proof (rel_sqrt _ _ _ (ltac:(lra) : (0 <= 0 + 1.001 + 1.001 <= 90)%R) (ltac:(lra) : (0 < N)%R) R3) as R4.
  assert (N4 : nice (-1022) (sqrt n)) by (right; rewrite Rabs_pos_eq by lra; apply Rle_trans with (2 := proj1 SR); apply bp; lia).
  apply (rel_round _ _ _ (ltac:(lra) : (0 <= 0.501 * (0 + 1.001 + 1.001) <= 90)%R) N4) in R4.
  assert (SR' : (bpow radix2 (-481) <= RN53 (sqrt n) <= bpow radix2 299)%R) by (split; [apply RN53_lb; [apply F53_bpow; lia|lra]|apply RN53_ub; [apply F53_bpow; lia|lra]]).
  set (m := RN53 (sqrt n)) in *. clearbody m. clear N4 D3 SR R3 B962.
  assert (R4' : rel 2.01 m (sqrt N)) by (apply (rel_weak _ 2.01 _ _) in R4; [exact R4|lra]). clear R4.
  (* + |x| *)
  pose proof (dbl_abs _ _ DX) as DA. pose proof (Rabs_pos X) as PX. set (A := Rabs X) in *. pose proof (sqrt_lt_R0 N ltac:(lra)) as PN.
  assert (R5 : rel 2.01 (A + m) (A + sqrt N)) by (apply rel_add; [exact PX|lra|apply (rel_weak 0); [lra|apply rel_refl]|exact R4']).
  assert (AR : (bpow radix2 (-481) <= A + m <= bpow radix2 300)%R).
  { pose proof (twice_bp 299). change (299 + 1) with 300 in *. pose proof (bp 298 299 ltac:(lia)). lra. }
  assert (D5 : dbl (add64 (fabsb 52 11 x) (sqrt64 (add64 (mul64 x x) (mul64 y y)))) (RN53 (A + m))) by (apply (dbl_add _ _ _ _ 300 DA D4); [rewrite Rabs_pos_eq by lra; lra|lia]).
  assert (N5 : nice (-1022) (A + m)) by (right; rewrite Rabs_pos_eq by lra; apply Rle_trans with (2 := proj1 AR); apply bp; lia).
  apply (rel_round _ _ _ (ltac:(lra) : (0 <= 2.01 <= 90)%R) N5) in R5.
  assert (AR' : (bpow radix2 (-481) <= RN53 (A + m) <= bpow radix2 300)%R) by (split; [apply RN53_lb; [apply F53_bpow; lia|lra]|apply RN53_ub; [apply F53_bpow; lia|lra]]).
  set (a := RN53 (A + m)) in *. clearbody a. clear N5 D4 AR.
  (* halved *)
  pose proof (rel_mul 0 _ _ _ _ _ ltac:(lra) (ltac:(lra) : (0 <= 2.01 + 1.001 <= 90)%R) (rel_refl (/ 2)) R5) as R6.
  assert (HR : (bpow radix2 (-482) <= / 2 * a <= bpow radix2 300)%R).
  { pose proof (twice_bp (-482)). change (-482 + 1) with (-481) in *. lra. }
  pose proof (bpow_gt_0 radix2 (-482)) as P482.
  assert (D6 : dbl (mul64 c_0_5 (add64 (fabsb 52 11 x) (sqrt64 (add64 (mul64 x x) (mul64 y y))))) (RN53 (/ 2 * a))) by (apply (dbl_mul _ _ _ _ 300 half_pos D5); [rewrite Rabs_pos_eq by lra; lra|lia]).
  assert (N6 : nice (-1022) (/ 2 * a)) by (right; rewrite Rabs_pos_eq by lra; apply Rle_trans with (2 := proj1 HR); apply bp; lia).
  apply (rel_round _ _ _ (ltac:(lra) : (0 <= 0 + (2.01 + 1.001) + 0.001 <= 90)%R) N6) in R6.
  assert (HR' : (bpow radix2 (-482) <= RN53 (/ 2 * a) <= bpow radix2 300)%R) by (split; [apply RN53_lb; [apply F53_bpow; lia|lra]|apply RN53_ub; [apply F53_bpow; lia|lra]]).
  set (h := RN53 (/ 2 * a)) in *. clearbody h. clear N6 HR R5 D5 AR'.
  assert (R6' : rel 4.05 h ((A + sqrt N) / 2)) by (apply (rel_weak _ 4.05 _ _) in R6; [|lra]; replace ((A + sqrt N) / 2)%R with (/ 2 * (A + sqrt N))%R by lra; exact R6). clear R6.
  (* and the root *)
  fold (big64 x y) in *. assert (D7 : dbl (big64 x y) (RN53 (sqrt h))) by (apply (dbl_sqrt _ _ D6); [lra|apply Rle_trans with (1 := proj2 HR'); apply bp; lia]).
  assert (TR : (bpow radix2 (-241) <= sqrt h <= bpow radix2 150)%R) by (apply sqrt_rng; exact HR').
  pose proof (rel_sqrt _ _ _ (ltac:(lra) : (0 <= 4.05 <= 90)%R) (ltac:(lra) : (0 < (A + sqrt N) / 2)%R) R6') as R7.
  pose proof (bpow_gt_0 radix2 (-241)) as P241.
  assert (N7 : nice (-1022) (sqrt h)) by (right; rewrite Rabs_pos_eq by lra; apply Rle_trans with (2 := proj1 TR); apply bp; lia).
  apply (rel_round _ _ _ (ltac:(lra) : (0 <= 0.501 * 4.05 <= 90)%R) N7) in R7.
  exists (RN53 (sqrt h)). split; [exact D7|]. split; [apply (rel_weak _ 3.1 _ _) in R7; [exact R7|lra]|].
  split; [apply RN53_lb; [apply F53_bpow; lia|]|apply RN53_ub; [apply F53_bpow; lia|]].
  - apply Rle_trans with (2 := proj1 TR). apply bp. lia.
  - apply Rle_trans with (1 := proj2 TR). apply bp. lia.
Qed.

(** the smaller part *)
Lemma small_ok x y X Y : dbl x X -> dbl y Y -> nice (-480) X -> nice (-480) Y -> (Rabs X <= bpow radix2 298)%R -> (Rabs Y <= bpow radix2 298)%R -> (X <> 0 \/ Y <> 0)%R ->
  exists T, dbl (div64 (mul64 c_0_5 y) (big64 x y)) T /\ rel 5.2 (Rabs T) (sqrt ((mag (Rabs X) (Rabs Y) - Rabs X) / 2)) /\
    fneg 52 11 (div64 (mul64 c_0_5 y) (big64 x y)) = fneg 52 11 y.
Proof.
  intros DX DY NX NY BX BY NZ. destruct (big_ok x y X Y DX DY NX NY BX BY NZ) as (S & DS & RS & SB).
  pose proof (Rabs_pos X) as PX. pose proof (Rabs_pos Y) as PY.
  assert (PP : (0 < Rabs X + Rabs Y)%R). { destruct NZ as [Z|Z]; pose proof (Rabs_pos_lt _ Z); lra. }
  rewrite <- (small_part (Rabs X) (Rabs Y) PX PY PP). destruct (mag_ge (Rabs X) (Rabs Y) PX PY) as [L1 L2].
  set (V := sqrt ((Rabs X + mag (Rabs X) (Rabs Y)) / 2)) in *. assert (PV : (0 < V)%R) by (apply sqrt_lt_R0; lra). clearbody V.
  set (s := big64 x y) in *. clearbody s. pose proof (bpow_gt_0 radix2 (-250)) as P250.
  assert (HU : (Rabs (/ 2 * Y) <= bpow radix2 298)%R) by (rewrite Rabs_mult, (Rabs_pos_eq (/ 2)) by lra; lra).
  assert (D1 : dbl (mul64 c_0_5 y) (RN53 (/ 2 * Y))) by (apply (dbl_mul _ _ _ _ 298 half_pos DY HU); lia).
  assert (N1 : nice (-481) (/ 2 * Y)).
  { destruct NY as [->|H]; [left; ring|right]. rewrite Rabs_mult, (Rabs_pos_eq (/ 2)) by lra. pose proof (twice_bp (-481)). change (-481 + 1) with (-480) in *. lra. }
  assert (N1' : nice (-1022) (/ 2 * Y)) by (destruct N1 as [E|H]; [left; exact E|right; apply Rle_trans with (2 := H); apply bp; lia]).
  pose proof (rel_round 0 _ _ ltac:(lra) N1' (rel_refl _)) as R1.
  assert (N2 : nice (-482) (RN53 (/ 2 * Y))).
  { destruct N1 as [E|H]; [left; rewrite E; apply RN53_id, generic_format_0|right]. unfold rel in R1. destruct u53_dec. pose proof (twice_bp (-482)). change (-482 + 1) with (-481) in *.
    pose proof (Rabs_triang_inv (/ 2 * Y) (/ 2 * Y - RN53 (/ 2 * Y))) as T. replace (/ 2 * Y - (/ 2 * Y - RN53 (/ 2 * Y)))%R with (RN53 (/ 2 * Y)) in T by ring. rewrite (Rabs_minus_sym (/ 2 * Y) (RN53 _)) in T.
    assert ((0 + 1.001) * u53 * Rabs (/ 2 * Y) <= / 2 * Rabs (/ 2 * Y))%R by (apply Rmult_le_compat_r; [apply Rabs_pos|lra]). lra. }
  assert (HU2 : (Rabs (RN53 (/ 2 * Y)) <= bpow radix2 299)%R).
  { unfold rel in R1. destruct u53_dec. pose proof (twice_bp 298). change (298 + 1) with 299 in *. pose proof (Rabs_triang (RN53 (/ 2 * Y) - / 2 * Y) (/ 2 * Y)) as T. replace (RN53 (/ 2 * Y) - / 2 * Y + / 2 * Y)%R with (RN53 (/ 2 * Y)) in T by ring. assert ((0 + 1.001) * u53 * Rabs (/ 2 * Y) <= / 2 * Rabs (/ 2 * Y))%R by (apply Rmult_le_compat_r; [apply Rabs_pos|lra]). lra. }
  set (W := RN53 (/ 2 * Y)) in *. clearbody W.
  assert (IS : (bpow radix2 (-160) <= / S <= bpow radix2 250)%R).
  { split.
    - replace (bpow radix2 (-160)) with (/ bpow radix2 160)%R by (rewrite <- bpow_opp; reflexivity). apply Rinv_le_contravar; lra.
    - replace (bpow radix2 250) with (/ bpow radix2 (-250))%R by (rewrite <- bpow_opp; reflexivity). apply Rinv_le_contravar; lra. }
  assert (PI : (0 < / S)%R) by (apply Rinv_0_lt_compat; lra).
  assert (TU : (Rabs (W / S) <= bpow radix2 549)%R).
  { unfold Rdiv. rewrite Rabs_mult, (Rabs_pos_eq (/ S)) by lra. change 549 with (299 + 250). rewrite bpow_plus. apply Rmult_le_compat; try apply Rabs_pos; lra. }
  assert (NT : nice (-1022) (W / S)).
  { destruct N2 as [->|H]; [left; unfold Rdiv; ring|right]. unfold Rdiv. rewrite Rabs_mult, (Rabs_pos_eq (/ S)) by lra. apply Rle_trans with (bpow radix2 (-482) * bpow radix2 (-160))%R; [rewrite <- bpow_plus; apply bp; lia|]. apply Rmult_le_compat; try apply bpow_ge_0; lra. }
  assert (DT : dbl (div64 (mul64 c_0_5 y) s) (RN53 (W / S))) by (apply (dbl_div _ _ _ _ 549 D1 DS); [lra|exact TU|lia]).
  pose proof (rel_div _ _ _ _ _ _ (ltac:(lra) : (0 <= 0 + 1.001 <= 40)%R) (ltac:(lra) : (0 <= 3.1 <= 40)%R) (ltac:(lra) : V <> 0%R) R1 RS) as R2.
  apply (rel_round _ _ _ (ltac:(lra) : (0 <= 0 + 1.001 + 3.1 + 0.002 <= 90)%R) NT) in R2.
  exists (RN53 (W / S)). split; [exact DT|]. split.
  - apply (rel_weak _ 5.2) in R2; [|lra]. unfold rel in *. replace (Rabs Y / 2 / V)%R with (Rabs (/ 2 * Y / V)) by (assert (0 < / V)%R by (apply Rinv_0_lt_compat; lra); unfold Rdiv; rewrite !Rabs_mult, (Rabs_pos_eq (/ V)), (Rabs_pos_eq (/ 2)) by lra; ring).
    rewrite Rabs_Rabsolu. eapply Rle_trans; [apply Rabs_triang_inv2|exact R2].
  - destruct half_pos as (H1 & H2 & _). destruct DY as (Y1 & Y2 & _). destruct (hmul_ok 52 11 eq_refl eq_refl eq_refl c_0_5 y H1 Y1 H2 Y2) as (_ & M & _).
    destruct D1 as (W1 & W2 & W3 & _). destruct DS as (S1 & S2 & S3 & _). destruct (hdiv_ok (mul64 c_0_5 y) s W1 S1 W2 S2 ltac:(rewrite S3; lra)) as (_ & G & _).
    rewrite G, (fneg_sign s S S1 S3), Rlt_bool_false by lra. change (mul64 c_0_5 y) with (hmul 52 11 eq_refl eq_refl eq_refl c_0_5 y). rewrite M.
    change (fneg 52 11 c_0_5) with false. destruct (fneg 52 11 y); reflexivity.
Qed.
Lemma csqrt_parts x y : csqrt_ x y =
  if fneg 52 11 x then (fabsb 52 11 (div64 (mul64 c_0_5 y) (big64 x y)), copysign 52 11 (big64 x y) y)
  else (big64 x y, div64 (mul64 c_0_5 y) (big64 x y)).
Proof. exact eq_refl. Qed.
