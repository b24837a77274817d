(** The integer first guess of cbrtf is within 3.3% of the cube root, and each of
    the two Halley steps cubes that error. *)
From Coq Require Import Reals Lra Lia Psatz QArith Qreals Qabs List.
From Flocq Require Import Core BinarySingleNaN Relative Sterbenz.
From Coquelicot Require Import Coquelicot.
From Verif Require Import Base FP FP_Proof HW HW_Proof Tf_Narrow_Proof Midpoint Fmaf_Proof Math_Model Math_Basic_Proof Math_Int_Proof Math_Lconv_Proof Hypotf_Real Hypotf_Proof Approx Subdiv Ferr Elem_Spec Elem_Proof Elem_Num Expf_Model Expf_Proof Logf_Model Logf_Kernel Logf_Proof Loginv_Proof Loginv3_Proof Hyperf_Model Hyperf_Proof Hyperf2_Proof Hyperf3_Proof Cbrtf_Model.
Import ListNotations.
Open Scope Z_scope.
Local Ltac Zify.zify_post_hook ::= idtac.

Lemma cube_above w c : (0 <= w -> 0 <= c -> 3 * (c * c) * w - 2 * (c * (c * c)) <= w * (w * w))%R.
Proof. intros A B. assert (0 <= (w + 2 * c) * ((w - c) * (w - c)))%R by (apply Rmult_le_pos; [lra|apply Rle_0_sqr]). lra. Qed.
Lemma cube_below w p q : (0 <= p <= w -> w <= q -> w * (w * w) <= p * (p * p) + (w - p) * (q * q + q * p + p * p))%R.
Proof.
  intros A B. assert (w * w + w * p + p * p <= q * q + q * p + p * p)%R by nra.
  assert (0 <= (w - p) * ((q * q + q * p + p * p) - (w * w + w * p + p * p)))%R by (apply Rmult_le_pos; lra). lra.
Qed.
(** the error of the first guess, with w the guess and b the argument, scaled *)
Lemma guess_low w b e : (0 <= b <= 1 -> Rabs e <= / 10000000 -> w = 1 + 5319907 / 8388608 + b / 3 + e -> 0.9694 * (0.9694 * 0.9694) * (4 * (1 + b)) <= w * (w * w) <= 1.0326 * (1.0326 * 1.0326) * (4 * (1 + b)))%R.
Proof.
  intros B E W. apply Rabs_le_inv in E. split.
  - pose proof (cube_above w 1.951 ltac:(lra) ltac:(lra)). lra.
  - pose proof (cube_below w 1.6341 1.9676 ltac:(lra) ltac:(lra)). lra.
Qed.
Lemma guess_mid1 w b e : (0 <= b <= 1 -> Rabs e <= / 10000000 -> w = 1 + 5319907 / 8388608 + (1 + b) / 3 + e -> w <= 2 -> 0.9694 * (0.9694 * 0.9694) * (4 * (2 * (1 + b))) <= w * (w * w) <= 1.0326 * (1.0326 * 1.0326) * (4 * (2 * (1 + b))))%R.
Proof.
  intros B E W L. apply Rabs_le_inv in E. split.
  - pose proof (cube_above w 2 ltac:(lra) ltac:(lra)). lra.
  - pose proof (cube_below w 1.9675 2 ltac:(lra) ltac:(lra)). lra.
Qed.
Lemma guess_mid2 w b e : (0 <= b <= 1 -> Rabs e <= / 10000000 -> w = 5319907 / 8388608 + (1 + b) / 3 + e -> 1 <= w -> 0.9694 * (0.9694 * 0.9694) * (1 + b) <= w * (w * w) <= 1.0326 * (1.0326 * 1.0326) * (1 + b))%R.
Proof.
  intros B E W L. apply Rabs_le_inv in E. split.
  - pose proof (cube_above w 1 ltac:(lra) ltac:(lra)). lra.
  - pose proof (cube_below w 1 1.3009 ltac:(lra) ltac:(lra)). lra.
Qed.
Lemma guess_high w b e : (0 <= b <= 1 -> Rabs e <= / 10000000 -> w = 5319907 / 8388608 + (2 + b) / 3 + e -> 0.9694 * (0.9694 * 0.9694) * (2 * (1 + b)) <= w * (w * w) <= 1.0326 * (1.0326 * 1.0326) * (2 * (1 + b)))%R.
Proof.
  intros B E W. apply Rabs_le_inv in E. split.
  - pose proof (cube_above w 1.451 ltac:(lra) ltac:(lra)). lra.
  - pose proof (cube_below w 1.3008 1.6343 ltac:(lra) ltac:(lra)). lra.
Qed.
Lemma scale_cubes w z X Y h : X = (z * bpow radix2 (3 * h))%R -> Y = (w * bpow radix2 h)%R ->
  (0.9694 * (0.9694 * 0.9694) * z <= w * (w * w) <= 1.0326 * (1.0326 * 1.0326) * z)%R ->
  (0.9694 * (0.9694 * 0.9694) * X <= Y * (Y * Y) <= 1.0326 * (1.0326 * 1.0326) * X)%R.
Proof.
  intros -> -> H. replace (3 * h) with (h + h + h) by ring. rewrite !bpow_plus. pose proof (bpow_gt_0 radix2 h) as P. set (t := bpow radix2 h) in *. assert (T : (0 < t * t * t)%R) by (repeat apply Rmult_lt_0_compat; exact P).
  replace (w * t * (w * t * (w * t)))%R with (w * (w * w) * (t * t * t))%R by ring. rewrite <- !Rmult_assoc. rewrite <- !Rmult_assoc in H. split; apply Rle_trans with (1 := Rle_refl _).
  - apply Rle_trans with (0.9694 * 0.9694 * 0.9694 * z * (t * t * t))%R; [lra|]. replace (w * w * w * t * t * t)%R with (w * w * w * (t * t * t))%R by ring. apply Rmult_le_compat_r; lra.
  - apply Rle_trans with (1.0326 * 1.0326 * 1.0326 * z * (t * t * t))%R; [|lra]. replace (w * w * w * t * t * t)%R with (w * w * w * (t * t * t))%R by ring. apply Rmult_le_compat_r; lra.
Qed.
Lemma IZR_frac k : (IZR k = IZR k / 8388608 * 8388608)%R. Proof. field. Qed.
Lemma guess_ok x : 0 < x < 0x7F800000 -> exists n j, normalize_ 23 8 x = Ok n /\ chk_i32 (0x2A512CE3 + Z.quot n 3) = Ok j /\ 0 < j < 0x7F800000 /\
  let X := fmag 23 8 x in let Y := fmag 23 8 j in (0.9694 * (0.9694 * 0.9694) * X <= Y * (Y * Y) <= 1.0326 * (1.0326 * 1.0326) * X)%R.
Proof.
  intros Hx. destruct (normalize_ok 23 8 eq_refl eq_refl eq_refl eq_refl x Hx) as (E & f & N & Hf & HE & V). rewrite N.
  change (2^23) with 8388608 in *. change (2^8) with 256 in *. exists (E * 8388608 + f). pose proof (Z.quot_rem' (E * 8388608 + f) 3) as QR.
  assert (RB : -2 <= Z.rem (E * 8388608 + f) 3 <= 2) by (pose proof (Z.rem_bound_abs (E * 8388608 + f) 3 ltac:(lia)); lia).
  set (Q := Z.quot (E * 8388608 + f) 3) in *. set (rm := Z.rem (E * 8388608 + f) 3) in *. clearbody Q rm.
  pose proof (Z.div_mod E 3 ltac:(lia)) as DM. pose proof (Z.mod_pos_bound E 3 ltac:(lia)) as RR. set (q := E / 3) in *. set (r := E mod 3) in *. clearbody q r.
  exists (0x2A512CE3 + Q). split; [reflexivity|]. rewrite chk_i32_ok by (unfold INT_MIN, INT_MAX; lia). split; [reflexivity|]. split; [lia|]. cbv zeta.
  set (s := Q - q * 8388608). assert (S3 : 3 * s = r * 8388608 + f - rm) by (unfold s; lia).
  assert (VX : fmag 23 8 x = ((1 + IZR f / 8388608) * bpow radix2 (3 * q + r - 127))%R).
  { rewrite V, plus_IZR. change (emin 23 8) with (-149). replace (3 * q + r - 127) with (23 + (E - 1 + -149)) by lia. rewrite (bpow_plus _ 23). change (bpow radix2 23) with 8388608%R. field. }
  assert (BB : (0 <= IZR f / 8388608 <= 1)%R).
  { assert (0 <= IZR f)%R by (apply IZR_le; lia). assert (IZR f <= 8388608)%R by (apply IZR_le; lia). split; [apply Rmult_le_pos; lra|]. apply Rmult_le_reg_r with 8388608%R; [lra|]. rewrite <- IZR_frac. lra. }
  assert (EB : (Rabs (- (IZR rm / 3) / 8388608) <= / 10000000)%R).
  { assert (-2 <= IZR rm)%R by (apply IZR_le; lia). assert (IZR rm <= 2)%R by (apply IZR_le; lia). apply Rabs_le. lra. }
  assert (SR : (IZR s / 8388608 = (IZR r + IZR f / 8388608) / 3 + - (IZR rm / 3) / 8388608)%R).
  { apply (f_equal IZR) in S3. rewrite minus_IZR, plus_IZR, !mult_IZR in S3. replace (IZR s) with ((IZR r * 8388608 + IZR f - IZR rm) / 3)%R by lra. field. }
  set (b := (IZR f / 8388608)%R) in *. set (e := (- (IZR rm / 3) / 8388608)%R) in *. clearbody e. rewrite VX.
  destruct (Z.ltb_spec (5319907 + s) 8388608) as [L|L].
  - assert (LR : (IZR s / 8388608 <= 1 - 5319907 / 8388608)%R).
    { assert (IZR s <= IZR (8388608 - 5319907))%R by (apply IZR_le; lia). rewrite minus_IZR in H. apply Rmult_le_reg_r with 8388608%R; [lra|]. rewrite <- IZR_frac. lra. }
    assert (VY : fmag 23 8 (0x2A512CE3 + Q) = ((1 + 5319907 / 8388608 + IZR s / 8388608) * bpow radix2 (q - 43))%R).
    { rewrite (fmag_normal 23 8 _ (84 + q) (5319907 + s)) by (change (2^23) with 8388608; unfold s; lia). unfold F2R. cbn [Fnum Fexp]. change (2^23) with 8388608. change (emin 23 8) with (-149).
      replace (q - 43) with (23 + (-149 + (84 + q) - 1)) by lia. rewrite (bpow_plus _ 23), !plus_IZR. change (bpow radix2 23) with 8388608%R. field. }
    rewrite VY. assert (R3 : r = 0 \/ r = 1 \/ r = 2) by lia. destruct R3 as [K|[K|K]]; rewrite K in *.
    + apply (scale_cubes (1 + 5319907 / 8388608 + IZR s / 8388608) (4 * (1 + b)) _ _ (q - 43)); [|reflexivity|].
      * replace (3 * q + 0 - 127) with (2 + 3 * (q - 43)) by lia. rewrite (bpow_plus _ 2). change (bpow radix2 2) with 4%R. ring.
      * apply (guess_low _ b e BB EB). rewrite SR. lra.
    + apply (scale_cubes (1 + 5319907 / 8388608 + IZR s / 8388608) (4 * (2 * (1 + b))) _ _ (q - 43)); [|reflexivity|].
      * replace (3 * q + 1 - 127) with (3 + 3 * (q - 43)) by lia. rewrite (bpow_plus _ 3). change (bpow radix2 3) with 8%R. ring.
      * apply (guess_mid1 _ b e BB EB); [rewrite SR; lra|lra].
    + exfalso. lia.
  - assert (LR : (1 - 5319907 / 8388608 <= IZR s / 8388608)%R).
    { assert (IZR (8388608 - 5319907) <= IZR s)%R by (apply IZR_le; lia). rewrite minus_IZR in H. apply Rmult_le_reg_r with 8388608%R; [lra|]. rewrite <- IZR_frac. lra. }
    assert (VY : fmag 23 8 (0x2A512CE3 + Q) = ((5319907 / 8388608 + IZR s / 8388608) * bpow radix2 (q - 42))%R).
    { rewrite (fmag_normal 23 8 _ (85 + q) (5319907 + s - 8388608)) by (change (2^23) with 8388608; unfold s in *; lia). unfold F2R. cbn [Fnum Fexp]. change (2^23) with 8388608. change (emin 23 8) with (-149).
      replace (q - 42) with (23 + (-149 + (85 + q) - 1)) by lia. rewrite (bpow_plus _ 23), plus_IZR, minus_IZR, plus_IZR. change (bpow radix2 23) with 8388608%R. field. }
    rewrite VY. assert (R3 : r = 0 \/ r = 1 \/ r = 2) by lia. destruct R3 as [K|[K|K]]; rewrite K in *.
    + exfalso. lia.
    + apply (scale_cubes (5319907 / 8388608 + IZR s / 8388608) (1 + b) _ _ (q - 42)); [|reflexivity|].
      * replace (3 * q + 1 - 127) with (3 * (q - 42)) by lia. ring.
      * apply (guess_mid2 _ b e BB EB); [rewrite SR; lra|lra].
    + apply (scale_cubes (5319907 / 8388608 + IZR s / 8388608) (2 * (1 + b)) _ _ (q - 42)); [|reflexivity|].
      * replace (3 * q + 2 - 127) with (1 + 3 * (q - 42)) by lia. rewrite (bpow_plus _ 1). change (bpow radix2 1) with 2%R. ring.
      * apply (guess_high _ b e BB EB). rewrite SR. lra.
Qed.

(** Halley's step *)
Lemma halley w e : (0 <= e <= 0.0326 -> Rabs (w - 1) <= e -> Rabs (w * (0.5 + 1.5 / (2 * (w * (w * w)) + 1)) - 1) <= 0.7203 * (e * (e * e)))%R.
Proof.
  intros E H. apply Rabs_le_inv in H. pose proof (cube_above w 0.9674 ltac:(lra) ltac:(lra)) as C. set (t := (w * (w * w))%R) in *. assert (TD : (2.8 <= 2 * t + 1)%R) by lra.
  replace (w * (0.5 + 1.5 / (2 * t + 1)) - 1)%R with ((w - 1) * ((w - 1) * (w - 1)) * ((w + 1) / (2 * t + 1)))%R by (clear - TD; unfold t in *; replace 0.5%R with (/ 2)%R by lra; replace 1.5%R with (3 / 2)%R by lra; field; lra).
  rewrite Rabs_mult. assert (Q : (0 <= (w + 1) / (2 * t + 1) <= 0.7203)%R).
  { split; [apply Rmult_le_pos; [lra|left; apply Rinv_0_lt_compat; lra]|]. apply Rmult_le_reg_r with (2 * t + 1)%R; [lra|]. unfold Rdiv. rewrite Rmult_assoc, Rinv_l, Rmult_1_r by lra.
    destruct (Rle_or_lt w 1); [lra|]. pose proof (cube_above w 1 ltac:(lra) ltac:(lra)). fold t in H1. lra. }
  rewrite (Rabs_pos_eq ((w + 1) / _)) by lra. rewrite !Rabs_mult. assert (A : (Rabs (w - 1) <= e)%R) by (apply Rabs_le; lra). pose proof (Rabs_pos (w - 1)) as P. set (a := Rabs (w - 1)) in *. clearbody a.
  assert (a * a <= e * e)%R by nra. assert (a * (a * a) <= e * (e * e))%R by nra. assert (0 <= a * (a * a))%R by (repeat apply Rmult_le_pos; exact P). rewrite (Rmult_comm 0.7203). apply Rmult_le_compat; lra.
Qed.
Lemma dbl_32 : dbl c_3_2 1.5.
Proof. replace 1.5%R with (Q2R (3 # 2)) by (unfold Q2R; cbn [Qnum Qden]; lra). apply dbl_c; reflexivity. Qed.
Lemma dbl_half' : dbl c_half 0.5.
Proof. replace 0.5%R with (Q2R (1 # 2)) by (unfold Q2R; cbn [Qnum Qden]; lra). apply dbl_c; reflexivity. Qed.
Lemma nice_rng a x : -1022 <= a -> (bpow radix2 a <= x)%R -> nice (-1022) x.
Proof. intros A H. apply nice_ge. eapply Rle_trans; [apply bpow_le; exact A|exact H]. Qed.
Lemma prod_rng a b c d x y : (bpow radix2 a <= x <= bpow radix2 b -> bpow radix2 c <= y <= bpow radix2 d -> bpow radix2 (a + c) <= x * y <= bpow radix2 (b + d))%R.
Proof. intros H K. rewrite !bpow_plus. pose proof (bpow_gt_0 radix2 a). pose proof (bpow_gt_0 radix2 c). split; apply Rmult_le_compat; lra. Qed.
Lemma round_rng a b x : -1000 <= a -> (bpow radix2 a <= x <= bpow radix2 b)%R -> (bpow radix2 a <= RN53 x <= bpow radix2 b)%R.
Proof.
  intros A H. split; [apply RN53_lb; [apply F53_bpow; lia|lra]|]. destruct (Z.le_gt_cases (-1074) b) as [B|B]; [apply RN53_ub; [apply F53_bpow; lia|lra]|].
  exfalso. pose proof (bpow_lt radix2 b a ltac:(lia)). lra.
Qed.
Lemma relr_pos e x y z : (0 <= z)%R -> relr e x y -> relr e (z * x) (z * y).
Proof. intros Z H. unfold relr. rewrite <- Rmult_minus_distr_l, !Rabs_mult. pose proof (Rabs_pos z). unfold relr in H. replace (e * (Rabs z * Rabs y))%R with (Rabs z * (e * Rabs y))%R by ring. apply Rmult_le_compat_l; assumption. Qed.

Lemma step_ok xd X yd Y c e : dbl xd X -> dbl yd Y -> (0 < c)%R -> (c * (c * c) = X)%R -> (bpow radix2 (-149) <= X <= bpow radix2 128)%R -> (bpow radix2 (-52) <= Y <= bpow radix2 45)%R ->
  (0 <= e <= 0.0326)%R -> relr e Y c -> exists Y', dbl (cbrt_step xd yd) Y' /\ relr (0.7203 * (e * (e * e)) + 0.0000000000000011) Y' c.
Proof.
  intros DX DY CP C3 RX RY E RC. unfold cbrt_step.
  assert (PX : (0 < X)%R) by (pose proof (bpow_gt_0 radix2 (-149)); lra). assert (PY : (0 < Y)%R) by (pose proof (bpow_gt_0 radix2 (-52)); lra).
  (* y * y *)
  pose proof (prod_rng _ _ _ _ _ _ RY RY) as G1. cbn in G1. assert (D1 : dbl (mul64 yd yd) (RN53 (Y * Y))) by (apply (dbl_mul _ _ _ _ 90 DY DY); [rewrite Rabs_pos_eq by (pose proof (Rmult_lt_0_compat _ _ PY PY); lra); apply G1|lia]).
  pose proof (relr_round 0 _ _ ltac:(lra) (nice_rng (-104) _ ltac:(lia) (proj1 G1)) (relr_refl (Y * Y))) as R1. pose proof (round_rng (-104) 90 _ ltac:(lia) G1) as H1. set (A := RN53 (Y * Y)) in *. clearbody A.
  (* 2 * y *)
  assert (T2 : (bpow radix2 1 <= 2 <= bpow radix2 1)%R) by (change (bpow radix2 1) with 2%R; lra). pose proof (prod_rng _ _ _ _ _ _ T2 RY) as G2. cbn in G2.
  assert (D2 : dbl (mul64 c_2 yd) (RN53 (2 * Y))) by (apply (dbl_mul _ _ _ _ 46 dbl_two DY); [rewrite Rabs_pos_eq by lra; apply G2|lia]).
  pose proof (relr_round 0 _ _ ltac:(lra) (nice_rng (-51) _ ltac:(lia) (proj1 G2)) (relr_refl (2 * Y))) as R2. pose proof (round_rng (-51) 46 _ ltac:(lia) G2) as H2. set (B := RN53 (2 * Y)) in *. clearbody B.
  (* their product *)
  pose proof (prod_rng _ _ _ _ _ _ H2 H1) as G3. cbn in G3. assert (P3 : (0 < B * A)%R) by (pose proof (bpow_gt_0 radix2 (-155)); lra).
  assert (D3 : dbl (mul64 (mul64 c_2 yd) (mul64 yd yd)) (RN53 (B * A))) by (apply (dbl_mul _ _ _ _ 136 D2 D1); [rewrite Rabs_pos_eq by lra; apply G3|lia]).
  pose proof (relr_mul (0 + 0.0000000000000001112) (0 + 0.0000000000000001112) _ _ _ _ ltac:(lra) ltac:(lra) R2 R1) as M3.
  pose proof (relr_round 0.000000000000000223 _ _ ltac:(lra) (nice_rng (-155) _ ltac:(lia) (proj1 G3)) (relr_weak (0 + 0.0000000000000001112 + (0 + 0.0000000000000001112) + (0 + 0.0000000000000001112) * (0 + 0.0000000000000001112)) 0.000000000000000223 _ _ ltac:(lra) M3)) as R3. pose proof (round_rng (-155) 136 _ ltac:(lia) G3) as H3. set (P := RN53 (B * A)) in *. clearbody P.
  assert (PP : (0 < P)%R) by (pose proof (bpow_gt_0 radix2 (-155)); lra).
  (* + x *)
  assert (G4 : (bpow radix2 (-155) <= P + X <= bpow radix2 140)%R).
  { split; [lra|]. replace (bpow radix2 140) with (16 * bpow radix2 136)%R by (change 16%R with (bpow radix2 4); rewrite <- bpow_plus; reflexivity). pose proof (bpow_le radix2 128 136 ltac:(lia)). lra. }
  assert (D4 : dbl (add64 (mul64 (mul64 c_2 yd) (mul64 yd yd)) xd) (RN53 (P + X))) by (apply (dbl_add _ _ _ _ 140 D3 DX); [rewrite Rabs_pos_eq by lra; apply G4|lia]).
  assert (M4 : relr 0.000000000000000335 (P + X) (2 * Y * (Y * Y) + X)).
  { apply relr_add; [repeat apply Rmult_le_pos; lra|lra|eapply relr_weak; [|exact R3]; lra|apply (relr_weak 0); [lra|apply relr_refl]]. }
  pose proof (relr_round 0.000000000000000335 _ _ ltac:(lra) (nice_rng (-155) _ ltac:(lia) (proj1 G4)) M4) as R4. pose proof (round_rng (-155) 140 _ ltac:(lia) G4) as H4. set (D := RN53 (P + X)) in *. clearbody D.
  assert (PD : (0 < D)%R) by (pose proof (bpow_gt_0 radix2 (-155)); lra).
  (* 1.5 * x *)
  assert (G5 : (bpow radix2 (-149) <= 1.5 * X <= bpow radix2 129)%R).
  { split; [lra|]. replace (bpow radix2 129) with (2 * bpow radix2 128)%R by (change 2%R with (bpow radix2 1) at 1; rewrite <- bpow_plus; reflexivity). lra. }
  assert (D5 : dbl (mul64 c_3_2 xd) (RN53 (1.5 * X))) by (apply (dbl_mul _ _ _ _ 129 dbl_32 DX); [rewrite Rabs_pos_eq by lra; apply G5|lia]).
  pose proof (relr_round 0 _ _ ltac:(lra) (nice_rng (-149) _ ltac:(lia) (proj1 G5)) (relr_refl (1.5 * X))) as R5. pose proof (round_rng (-149) 129 _ ltac:(lia) G5) as H5. set (N := RN53 (1.5 * X)) in *. clearbody N.
  assert (PN : (0 < N)%R) by (pose proof (bpow_gt_0 radix2 (-149)); lra).
  (* the quotient *)
  set (T := (2 * Y * (Y * Y) + X)%R) in *. assert (PT : (X < T)%R) by (unfold T; assert (0 < 2 * Y * (Y * Y))%R by (repeat apply Rmult_lt_0_compat; lra); lra).
  assert (M6 : relr 0.000000000000000559 (N / D) (1.5 * X / T)).
  { eapply relr_weak; [|apply (relr_div (0 + 0.0000000000000001112) (0.000000000000000335 + 0.0000000000000001112))]; [lra|lra|lra|lra|exact R5|exact R4]. }
  assert (IT : (0 < / T)%R) by (apply Rinv_0_lt_compat; lra). assert (ID : (0 < / D)%R) by (apply Rinv_0_lt_compat; lra).
  assert (Q1 : (0 < 1.5 * X / T < 1.5)%R).
  { split; [apply Rmult_lt_0_compat; lra|]. apply Rmult_lt_reg_r with T; [lra|]. unfold Rdiv. rewrite Rmult_assoc, Rinv_l by lra. lra. }
  pose proof (relr_range 0.000000000000000559 _ _ ltac:(lra) (proj1 Q1) M6) as Q2.
  assert (G6 : (bpow radix2 (-149) * bpow radix2 (-140) <= N / D <= 2)%R).
  { split; [|lra]. unfold Rdiv. apply Rmult_le_compat; [apply bpow_ge_0|apply bpow_ge_0|lra|]. change (-140) with (- (140)). rewrite bpow_opp. apply Rinv_le_contravar; lra. }
  rewrite <- bpow_plus in G6. change (-149 + -140) with (-289) in G6. change 2%R with (bpow radix2 1) in G6.
  assert (P6 : (0 < N / D)%R) by (apply Rmult_lt_0_compat; lra).
  assert (D6 : dbl (div64 (mul64 c_3_2 xd) (add64 (mul64 (mul64 c_2 yd) (mul64 yd yd)) xd)) (RN53 (N / D))) by (apply (dbl_div _ _ _ _ 1 D5 D4); [lra|rewrite Rabs_pos_eq by lra; apply G6|lia]).
  pose proof (relr_round 0.000000000000000559 _ _ ltac:(lra) (nice_rng (-289) _ ltac:(lia) (proj1 G6)) M6) as R6. pose proof (round_rng (-289) 1 _ ltac:(lia) G6) as H6. set (K := RN53 (N / D)) in *. clearbody K.
  assert (PK : (0 < K <= 2)%R) by (pose proof (bpow_gt_0 radix2 (-289)); change (bpow radix2 1) with 2%R in H6; lra).
  (* 0.5 + *)
  assert (G7 : (bpow radix2 (-1) <= 0.5 + K <= bpow radix2 2)%R) by (change (bpow radix2 (-1)) with (/ 2)%R; change (bpow radix2 2) with 4%R; lra).
  assert (D7 : dbl (add64 c_half (div64 (mul64 c_3_2 xd) (add64 (mul64 (mul64 c_2 yd) (mul64 yd yd)) xd))) (RN53 (0.5 + K))) by (apply (dbl_add _ _ _ _ 2 dbl_half' D6); [rewrite Rabs_pos_eq by lra; apply G7|lia]).
  assert (M7 : relr 0.00000000000000068 (0.5 + K) (0.5 + 1.5 * X / T)).
  { apply relr_add; [lra|lra|apply (relr_weak 0); [lra|apply relr_refl]|eapply relr_weak; [|exact R6]; lra]. }
  pose proof (relr_round 0.00000000000000068 _ _ ltac:(lra) (nice_rng (-1) _ ltac:(lia) (proj1 G7)) M7) as R7. pose proof (round_rng (-1) 2 _ ltac:(lia) G7) as H7. set (F := RN53 (0.5 + K)) in *. clearbody F.
  (* y * *)
  pose proof (prod_rng _ _ _ _ _ _ RY H7) as G8. cbn in G8. assert (P8 : (0 < Y * F)%R) by (pose proof (bpow_gt_0 radix2 (-53)); lra).
  exists (RN53 (Y * F)). split; [apply (dbl_mul _ _ _ _ 47 DY D7); [rewrite Rabs_pos_eq by lra; apply G8|lia]|].
  pose proof (relr_pos _ _ _ Y ltac:(lra) R7) as M8.
  pose proof (relr_round (0.00000000000000068 + 0.0000000000000001112) _ _ ltac:(lra) (nice_rng (-53) _ ltac:(lia) (proj1 G8)) M8) as R8.
  assert (HH : relr (0.7203 * (e * (e * e))) (Y * (0.5 + 1.5 * X / T)) c).
  { unfold relr in RC. rewrite (Rabs_pos_eq c) in RC by lra. set (w := (Y / c)%R). assert (YW : Y = (w * c)%R) by (unfold w; field; lra). clearbody w.
    assert (W1 : (Rabs (w - 1) <= e)%R). { replace (Y - c)%R with ((w - 1) * c)%R in RC by (rewrite YW; ring). rewrite Rabs_mult, (Rabs_pos_eq c) in RC by lra. apply Rmult_le_reg_r with c; assumption. }
    pose proof (halley w e E W1) as HL. unfold relr. rewrite (Rabs_pos_eq c) by lra.
    assert (W0 : (0 < w)%R) by (apply Rabs_le_inv in W1; lra). assert (W3 : (0 < w * (w * w))%R) by (repeat apply Rmult_lt_0_compat; exact W0).
    replace (Y * (0.5 + 1.5 * X / T) - c)%R with ((w * (0.5 + 1.5 / (2 * (w * (w * w)) + 1)) - 1) * c)%R; [rewrite Rabs_mult, (Rabs_pos_eq c) by lra; apply Rmult_le_compat_r; lra|].
    unfold T. rewrite YW, <- C3. replace 0.5%R with (/ 2)%R by lra. replace 1.5%R with (3 / 2)%R by lra. field. split; [|lra]. assert (c * (c * c) <> 0)%R by (assert (0 < c * (c * c))%R by (repeat apply Rmult_lt_0_compat; lra); lra).
    replace (2 * (w * c) * (w * c * (w * c)) + c * (c * c))%R with ((2 * (w * (w * w)) + 1) * (c * (c * c)))%R by ring. apply Rmult_integral_contrapositive_currified; lra. }
  assert (E3 : (0 <= e * (e * e) <= 0.0000347)%R).
  { split; [repeat apply Rmult_le_pos; lra|]. apply Rle_trans with (0.0326 * (0.0326 * 0.0326))%R; [|lra]. assert (e * e <= 0.0326 * 0.0326)%R by (apply Rmult_le_compat; lra). assert (0 <= e * e)%R by (apply Rmult_le_pos; lra). apply Rmult_le_compat; lra. }
  eapply relr_weak; [|eapply relr_trans; [| |exact R8|exact HH]]; [|lra|lra]. nra.
Qed.

Lemma cube_mono a b : (0 <= a -> 0 <= b -> a * (a * a) <= b * (b * b) -> a <= b)%R.
Proof. intros A B H. destruct (Rle_or_lt a b) as [K|K]; [exact K|]. exfalso. assert (b * b < a * a)%R by nra. assert (b * (b * b) < a * (a * a))%R by nra. lra. Qed.
Lemma cbrt_range c X : (0 < c)%R -> (c * (c * c) = X)%R -> (bpow radix2 (-149) <= X <= bpow radix2 128)%R -> (bpow radix2 (-50) <= c <= bpow radix2 43)%R.
Proof.
  intros C E H. split; apply cube_mono; try apply bpow_ge_0; try lra; rewrite <- !bpow_plus, E.
  - eapply Rle_trans; [|apply H]. apply bpow_le. lia.
  - eapply Rle_trans; [apply H|]. apply bpow_le. lia.
Qed.
Lemma relr_rng e y c a b : (0 <= e <= 0.5)%R -> relr e y c -> (bpow radix2 a <= c <= bpow radix2 b)%R -> (bpow radix2 (a - 1) <= y <= bpow radix2 (b + 1))%R.
Proof.
  intros E R H. pose proof (bpow_gt_0 radix2 a) as P. unfold relr in R. rewrite (Rabs_pos_eq c) in R by lra. apply Rabs_le_inv in R. replace (bpow radix2 (a - 1)) with (bpow radix2 a / 2)%R by (unfold Zminus; rewrite bpow_plus; change (bpow radix2 (-(1))) with (/ 2)%R; lra).
  rewrite (bpow_plus _ b 1). change (bpow radix2 1) with 2%R. assert (e * c <= 0.5 * c)%R by (apply Rmult_le_compat_r; lra). lra.
Qed.
Theorem cbrt_pos x c : 0 < x < 0x7F800000 -> (c * (c * c) = fmag 23 8 x)%R -> (0 < c)%R /\ exists b, cbrt_kernel_ x = Ok b /\ nearly_rounded 46 c b.
Proof.
  intros Hx C3. pose proof (pos_value x Hx) as XL. set (X := fmag 23 8 x) in *.
  assert (XU : (X <= bpow radix2 128)%R) by (rewrite <- EINF; apply (fmag_le 23 8 eq_refl); lia).
  assert (CP : (0 < c)%R). { destruct (Rle_or_lt c 0) as [K|K]; [|exact K]. exfalso. pose proof (bpow_gt_0 radix2 (-149)). assert (c * (c * c) <= 0)%R by (assert (0 <= c * c)%R by apply Rle_0_sqr; nra). lra. }
  split; [exact CP|]. unfold cbrt_kernel_. rewrite sgn_id by (try reflexivity; change (2^(32-1)) with 2147483648; lia).
  destruct (Z.eqb_spec x 0); [lia|]. destruct (Z.leb_spec 0x7F800000 x); [lia|]. cbn [orb].
  destruct (guess_ok x Hx) as (k & j & N & J & HJ & G). rewrite N. cbn [bind]. rewrite J. cbn [bind]. cbv zeta in G. fold X in G. assert (U : u32 j = j) by (apply Z.mod_small; lia). rewrite U.
  eexists. split; [reflexivity|]. pose proof (dbl_float j ltac:(lia)) as DJ. pose proof (dbl_float x ltac:(lia)) as DX. fold X in DX. set (Y := fmag 23 8 j) in *.
  assert (Y0 : (0 <= Y)%R) by (apply (fmag_nonneg 23 8 eq_refl); lia).
  assert (L1 : (0.9694 * c <= Y)%R) by (apply cube_mono; [lra|exact Y0|]; rewrite <- C3 in G; lra).
  assert (L2 : (Y <= 1.0326 * c)%R) by (apply cube_mono; [exact Y0|lra|]; rewrite <- C3 in G; lra).
  assert (R0 : relr 0.0326 Y c) by (unfold relr; rewrite (Rabs_pos_eq c) by lra; apply Rabs_le; lra).
  pose proof (cbrt_range c X CP C3 (conj XL XU)) as CR.
  assert (WID : forall y, (bpow radix2 (-50 - 1) <= y <= bpow radix2 (43 + 1))%R -> (bpow radix2 (-52) <= y <= bpow radix2 45)%R).
  { intros y K. pose proof (bpow_le radix2 (-52) (-50 - 1) ltac:(lia)). pose proof (bpow_le radix2 (43 + 1) 45 ltac:(lia)). lra. }
  destruct (step_ok (f2d x) X (f2d j) Y c 0.0326 DX DJ CP C3 (conj XL XU) (WID _ (relr_rng 0.0326 Y c _ _ ltac:(lra) R0 CR)) ltac:(lra) R0) as (Y1 & D1 & R1).
  apply (relr_weak _ 0.00002496) in R1; [|lra].
  destruct (step_ok (f2d x) X _ Y1 c 0.00002496 DX D1 CP C3 (conj XL XU) (WID _ (relr_rng 0.00002496 Y1 c _ _ ltac:(lra) R1 CR)) ltac:(lra) R1) as (Y2 & D2 & R2).
  apply (to_float' _ _ _ _ D2); [lra|lia|]. eapply Rle_trans; [exact R2|]. apply Rmult_le_compat_r; [apply Rabs_pos|]. change (bpow radix2 (- (46))) with (/ 70368744177664)%R. lra.
Qed.
(** c is the real cube root of x *)
Theorem cbrtf_ok x c : fbits 23 8 x -> ffinite 23 8 x = true -> fval 23 8 x <> 0%R -> (c * (c * c) = fval 23 8 x)%R ->
  exists b, cbrtf x = Ok b /\ nearly_rounded 46 c b.
Proof.
  intros Hx Fx NZ C3. destruct (abs_finite x Hx Fx) as [HA HV]. unfold cbrtf.
  assert (A0 : 0 < fabsb 23 8 x). { destruct (Z.eq_dec (fabsb 23 8 x) 0) as [K|K]; [|lia]. exfalso. apply NZ. rewrite HV, K, (fmag_0 23 8 eq_refl). destruct (fneg 23 8 x); lra. }
  destruct (cbrt_pos (fabsb 23 8 x) (if fneg 23 8 x then - c else c) ltac:(lia)) as (VP & b & E & N); [rewrite HV in C3; destruct (fneg 23 8 x); lra|].
  rewrite E. cbn [bind]. eexists. split; [reflexivity|]. pose proof (nearly_copysign _ _ _ x VP N) as M. destruct (fneg 23 8 x); [rewrite Ropp_involutive in M|]; exact M.
Qed.
