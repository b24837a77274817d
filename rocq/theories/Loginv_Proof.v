(** Accuracy of log1pf, atanhf, asinhf and acoshf. *)
From Coq Require Import Reals Lra Lia Psatz QArith Qreals Qabs List.
From Flocq Require Import Core BinarySingleNaN Relative Sterbenz Mult_error.
From Coquelicot Require Import Coquelicot.
From Verif Require Import Base FP FP_Proof HW HW_Proof Tf_Narrow_Proof Midpoint Fmaf_Proof Math_Model Math_Basic_Proof Math_Round_Proof Math_Int_Proof Math_Lconv_Proof Hypotf_Model Hypotf_Real Hypotf_Proof Approx Subdiv Ferr Elem_Spec Elem_Proof Elem_Num Expf_Model Expf_Proof Logf_Model Logf_Kernel Logf_Proof.
Import ListNotations.
Open Scope Z_scope.
Local Ltac Zify.zify_post_hook ::= idtac.

(** ** relative errors in units of 2^-53 *)
Definition rel (k x y : R) : Prop := (Rabs (x - y) <= k * u53 * Rabs y)%R.
Lemma rel_refl x : rel 0 x x.
Proof. unfold rel. rewrite Rminus_diag_eq, Rabs_R0 by reflexivity. lra. Qed.
Lemma rel_weak j k x y : (j <= k)%R -> rel j x y -> rel k x y.
Proof. unfold rel. intros H R. destruct u53_dec. eapply Rle_trans; [exact R|]. apply Rmult_le_compat_r; [apply Rabs_pos|]. nra. Qed.
(** the factor *)
Lemma rel_ex k x y : (0 <= k <= 100)%R -> rel k x y -> exists d, (Rabs d <= k * u53)%R /\ x = (y * (1 + d))%R.
Proof.
  intros Hk H. unfold rel in H. destruct (Req_dec y 0) as [->|N].
  - rewrite Rabs_R0, Rmult_0_r, Rminus_0_r in H. exists 0%R. destruct u53_dec. split; [rewrite Rabs_R0; nra|]. apply Rabs_le_inv in H. lra.
  - exists ((x - y) / y)%R. split; [|field; exact N]. unfold Rdiv. rewrite Rabs_mult, Rabs_inv. pose proof (Rabs_pos_lt y N). apply (Rmult_le_reg_r (Rabs y)); [assumption|]. rewrite Rmult_assoc, Rinv_l, Rmult_1_r by lra. exact H.
Qed.
Lemma rel_of k d y : (Rabs d <= k * u53)%R -> rel k (y * (1 + d)) y.
Proof. intros H. unfold rel. replace (y * (1 + d) - y)%R with (d * y)%R by ring. rewrite Rabs_mult. apply Rmult_le_compat_r; [apply Rabs_pos|exact H]. Qed.
Lemma prod_bound j k a b : (0 <= j <= 100)%R -> (0 <= k <= 100)%R -> (Rabs a <= j * u53)%R -> (Rabs b <= k * u53)%R -> (Rabs ((1 + a) * (1 + b) - 1) <= (j + k + 0.001) * u53)%R.
Proof.
  intros Hj Hk A B. destruct u53_dec as [U0 U1]. replace ((1 + a) * (1 + b) - 1)%R with (a + (b + a * b))%R by ring. eapply Rle_trans; [apply Rabs_triang|]. pose proof (Rabs_triang b (a * b)) as T. rewrite Rabs_mult in T.
  assert (Rabs a * Rabs b <= 100 * u53 * (100 * u53))%R by (apply Rmult_le_compat; try apply Rabs_pos; nra). nra.
Qed.
Lemma rel_trans j k x y z : (0 <= j <= 100)%R -> (0 <= k <= 100)%R -> rel j x y -> rel k y z -> rel (j + k + 0.001) x z.
Proof.
  intros Hj Hk A B. destruct (rel_ex j x y Hj A) as (a & Ha & ->). destruct (rel_ex k y z Hk B) as (b & Hb & ->).
  replace (z * (1 + b) * (1 + a))%R with (z * (1 + ((1 + a) * (1 + b) - 1)))%R by ring. apply rel_of. apply prod_bound; assumption.
Qed.
Lemma rel_round k x y : (0 <= k <= 90)%R -> nice (-1022) x -> rel k x y -> rel (k + 1.001) (RN53 x) y.
Proof.
  intros Hk N R. destruct (R53_ex x N) as (d & Hd & E). apply (rel_weak (1 + k + 0.001)); [lra|]. apply (rel_trans 1 k _ x y); [lra|lra| |exact R]. rewrite E. apply rel_of. lra.
Qed.
Lemma rel_add k x1 x2 y1 y2 : (0 <= y1 -> 0 <= y2 -> rel k x1 y1 -> rel k x2 y2 -> rel k (x1 + x2) (y1 + y2))%R.
Proof.
  intros P1 P2 A B. unfold rel in *. rewrite (Rabs_pos_eq y1 P1) in A. rewrite (Rabs_pos_eq y2 P2) in B. rewrite (Rabs_pos_eq (y1 + y2)) by lra. replace (x1 + x2 - (y1 + y2))%R with ((x1 - y1) + (x2 - y2))%R by ring. eapply Rle_trans; [apply Rabs_triang|]. lra.
Qed.
Lemma rel_mul j k x1 x2 y1 y2 : (0 <= j <= 90)%R -> (0 <= k <= 90)%R -> rel j x1 y1 -> rel k x2 y2 -> rel (j + k + 0.001) (x1 * x2) (y1 * y2).
Proof.
  intros Hj Hk A B. destruct (rel_ex j x1 y1 ltac:(lra) A) as (a & Ha & ->). destruct (rel_ex k x2 y2 ltac:(lra) B) as (b & Hb & ->).
  replace (y1 * (1 + a) * (y2 * (1 + b)))%R with (y1 * y2 * (1 + ((1 + a) * (1 + b) - 1)))%R by ring. apply rel_of. apply prod_bound; lra.
Qed.
Lemma rel_inv k x y : (0 <= k <= 90)%R -> y <> 0%R -> rel k x y -> rel (k + 0.001) (/ x) (/ y).
Proof.
  intros Hk N R. destruct u53_dec as [U0 U1]. destruct (rel_ex k x y ltac:(lra) R) as (a & Ha & ->). assert (Ha' := Rabs_le_inv _ _ Ha).
  assert (P : (0.99999 <= 1 + a)%R) by nra. replace (/ (y * (1 + a)))%R with (/ y * (1 + (- a * / (1 + a))))%R by (field; split; [lra|exact N]). apply rel_of.
  rewrite Rabs_mult, Rabs_Ropp, (Rabs_pos_eq (/ (1 + a))) by (left; apply Rinv_0_lt_compat; lra).
  assert (I : (/ (1 + a) <= 1 + 100 * u53 * 1.01)%R).
  { apply (Rmult_le_reg_r (1 + a)); [lra|]. rewrite Rinv_l by lra. nra. }
  assert (I0 : (0 < / (1 + a))%R) by (apply Rinv_0_lt_compat; lra). pose proof (Rabs_pos a).
  assert (Rabs a * / (1 + a) <= k * u53 * (1 + 100 * u53 * 1.01))%R by (apply Rmult_le_compat; lra). nra.
Qed.
Lemma rel_div j k x1 x2 y1 y2 : (0 <= j <= 40)%R -> (0 <= k <= 40)%R -> y2 <> 0%R -> rel j x1 y1 -> rel k x2 y2 -> rel (j + k + 0.002) (x1 / x2) (y1 / y2).
Proof. intros Hj Hk N A B. apply (rel_weak (j + (k + 0.001) + 0.001)); [lra|]. apply rel_mul; [lra|lra|exact A|]. apply rel_inv; [lra|exact N|exact B]. Qed.
Lemma rel_sqrt k x y : (0 <= k <= 90)%R -> (0 < y)%R -> rel k x y -> rel (0.501 * k) (sqrt x) (sqrt y).
Proof.
  intros Hk P R. destruct u53_dec as [U0 U1]. destruct (rel_ex k x y ltac:(lra) R) as (a & Ha & ->). assert (Ha' := Rabs_le_inv _ _ Ha).
  assert (A1 : (-0.00001 <= a <= 0.00001)%R) by nra. rewrite sqrt_mult by lra. set (s := sqrt (1 + a)). replace s with (1 + (s - 1))%R by ring. apply rel_of.
  assert (S2 : (s * s = 1 + a)%R) by (apply sqrt_sqrt; lra). assert (S0 : (0 <= s)%R) by apply sqrt_pos. assert (SL : (0.9999 <= s)%R) by nra.
  replace (s - 1)%R with (a / (s + 1))%R by (apply (Rmult_eq_reg_r (s + 1)); [field_simplify; [|lra]; nra|lra]). unfold Rdiv. rewrite Rabs_mult, (Rabs_pos_eq (/ (s + 1))) by (left; apply Rinv_0_lt_compat; lra).
  assert (I : (/ (s + 1) <= 0.501)%R). { apply Rle_trans with (/ 1.9999)%R; [apply Rinv_le_contravar; lra|lra]. } assert (I0 : (0 < / (s + 1))%R) by (apply Rinv_0_lt_compat; lra). pose proof (Rabs_pos a).
  assert (Rabs a * / (s + 1) <= k * u53 * 0.501)%R by (apply Rmult_le_compat; lra). lra.
Qed.

(** ** the argument reduction of a double *)
Lemma split64_ok d D : dbl d D -> (bpow radix2 (-100) <= D)%R -> exists e m M, split64 d = Ok (e, m) /\ dbl m M /\ (0.7071 <= M <= 1.41422)%R /\
  D = (M * bpow radix2 e)%R /\ -1100 <= e <= 1100 /\ (e = 0 -> m = d).
Proof.
  intros (A & F & V & B) L. unfold fval in V. assert (N : 0 <= fabsb 52 11 d) by (apply Z.mod_pos_bound; reflexivity). pose proof (fmag_nonneg 52 11 eq_refl _ N) as NN.
  pose proof (bpow_gt_0 radix2 (-100)) as P. destruct (fneg 52 11 d) eqn:E; [lra|]. unfold fneg in E. change (2^(52+11)) with 0x8000000000000000 in E. unfold fbits in A. change (2^(52+11+1)) with 0x10000000000000000 in A.
  assert (AB : fabsb 52 11 d = d) by (apply Z.mod_small; change (2^(52+11)) with 0x8000000000000000; lia). rewrite AB in *. unfold ffinite in F. rewrite AB in F. change (finf 52 11) with 0x7FF0000000000000 in F.
  assert (ND : 0x10000000000000 <= d).
  { apply Z.nlt_ge. intros K. assert (X : (fmag 52 11 d < fmag 52 11 0x10000000000000)%R) by (apply (fmag_lt 52 11 eq_refl); lia).
    rewrite (fmag_normal 52 11 0x10000000000000 1 0) in X by (change (2^52) with 0x10000000000000; lia). unfold F2R in X. cbn [Fnum Fexp] in X. change (2^52 + 0) with (2^52) in X. change (IZR (2^52)) with (bpow radix2 52) in X. rewrite <- bpow_plus in X.
    assert (bpow radix2 (52 + (emin 52 11 + 1 - 1)) <= bpow radix2 (-100))%R by (apply bpow_le; vm_compute; discriminate). lra. }
  unfold split64. rewrite sgn_id by (try reflexivity; change (2^(64-1)) with 0x8000000000000000; lia). unfold chk_i64. replace ((- 2^63 <=? d - 4604544271217802189) && (d - 4604544271217802189 <=? 2^63 - 1)) with true by lia. cbn [bind].
  rewrite Z.shiftr_div_pow2 by lia. change (2^52) with 4503599627370496. set (w := d - 4604544271217802189).
  pose proof (Z.div_mod w 4503599627370496 ltac:(lia)) as DM. pose proof (Z.mod_pos_bound w 4503599627370496 ltac:(lia)) as DB. set (e := w / 4503599627370496) in *. set (r := w mod 4503599627370496) in *.
  assert (He : -1100 <= e <= 1100) by lia. rewrite sgn_id by (try reflexivity; change (2^(64-1)) with 0x8000000000000000; lia).
  replace ((- 2^63 <=? d - e * 4503599627370496) && (d - e * 4503599627370496 <=? 2^63 - 1)) with true by lia. cbn [bind].
  set (j := d - e * 4503599627370496). assert (Hj : 4604544271217802189 <= j < 4604544271217802189 + 4503599627370496) by lia.
  assert (U : u64 j = j) by (apply Z.mod_small; change (2^64) with 18446744073709551616; lia). rewrite U. exists e, j, (fmag 52 11 j).
  assert (RG : (0.7071 <= fmag 52 11 j <= 1.41422)%R).
  { split.
    + eapply Rle_trans; [|apply (fmag_le 52 11 eq_refl 4604544271217802189 j); lia]. rewrite <- (qmag_ok 4604544271217802189). eapply Rle_trans; [|apply (Q2R_le (7071 # 10000)); vm_compute; reflexivity]. unfold Q2R. cbn [Qnum Qden]. lra.
    + eapply Rle_trans; [apply (fmag_le 52 11 eq_refl j (4604544271217802189 + 4503599627370496)); lia|]. rewrite <- qmag_ok. eapply Rle_trans; [apply (Q2R_le _ (141422 # 100000)); vm_compute; reflexivity|]. unfold Q2R. cbn [Qnum Qden]. lra. }
  assert (AJ : fabsb 52 11 j = j) by (apply Z.mod_small; change (2^(52+11)) with 0x8000000000000000; lia). assert (NJ : fneg 52 11 j = false) by (unfold fneg; change (2^(52+11)) with 0x8000000000000000; lia).
  split; [reflexivity|]. split; [|split; [exact RG|split; [|split; [exact He|]]]].
  - split; [unfold fbits; change (2^(52+11+1)) with 0x10000000000000000; lia|]. split; [unfold ffinite; rewrite AJ; change (finf 52 11) with 0x7FF0000000000000; lia|].
    split; [unfold fval; rewrite AJ, NJ; reflexivity|]. rewrite Rabs_pos_eq by lra. apply Rle_trans with (bpow radix2 1); [change (bpow radix2 1) with 2%R; lra|apply bpow_le; lia].
  - rewrite <- V. pose proof (Z.div_mod d 4503599627370496 ltac:(lia)) as DD. pose proof (Z.mod_pos_bound d 4503599627370496 ltac:(lia)) as DF.
    rewrite (fmag_normal 52 11 d (d / 4503599627370496) (d mod 4503599627370496)) by (change (2^52) with 4503599627370496; lia).
    rewrite (fmag_normal 52 11 j (d / 4503599627370496 - e) (d mod 4503599627370496)) by (change (2^52) with 4503599627370496; lia).
    unfold F2R. cbn [Fnum Fexp]. rewrite Rmult_assoc, <- bpow_plus. do 2 f_equal. lia.
  - intros Z0. unfold j. rewrite Z0. lia.
Qed.

(** ** a result far from 0 *)
Lemma ln_1p d : (Rabs d <= 0.000001 -> Rabs (ln (1 + d)) <= 1.00001 * Rabs d)%R.
Proof.
  intros H. apply Rabs_le_inv in H. pose proof (exp_lower (ln (1 + d))) as A. rewrite exp_ln in A by lra. pose proof (exp_lower (- ln (1 + d))) as B. rewrite exp_Ropp, exp_ln in B by lra.
  assert (I : (- ln (1 + d) <= / (1 + d) - 1)%R) by lra. replace (/ (1 + d) - 1)%R with (- d * / (1 + d))%R in I by (field; lra).
  assert (I1 : (0.99999 <= / (1 + d) <= 1.00001)%R). { split; [apply Rle_trans with (/ 1.000001)%R; [lra|apply Rinv_le_contravar; lra]|apply Rle_trans with (/ 0.999999)%R; [apply Rinv_le_contravar; lra|lra]]. }
  set (w := (/ (1 + d))%R) in *. apply Rabs_le. unfold Rabs. destruct (Rcase_abs d); split; nra.
Qed.
Lemma ln_far l g d D W : (0.3 <= l <= 2)%R ->
  (forall m M e, dbl m M -> (0.7071 <= M <= 1.41422)%R -> -2000 <= e <= 2000 -> exists y, dbl (g m e) y /\ (Rabs (y - l * (ln M + IZR e * ln 2)) <= bpow radix2 (- (49)) * Rabs (l * (ln M + IZR e * ln 2)))%R) ->
  dbl d D -> (bpow radix2 (-90) <= W)%R -> rel 5 D W ->
  exists e m, split64 d = Ok (e, m) /\ (e = 0 -> m = d /\ (0.7071 <= D <= 1.41422)%R) /\
  (e <> 0 -> (0.345 <= Rabs (ln W))%R /\ exists y, dbl (g m e) y /\ (Rabs (y - l * ln W) <= bpow radix2 (-48) * Rabs (l * ln W))%R).
Proof.
  intros Hl G DD HW R. destruct u53_dec as [U0 U1]. pose proof (bpow_gt_0 radix2 (-90)) as P90. destruct (rel_ex 5 D W ltac:(lra) R) as (a & Ha & ED). assert (Ha' := Rabs_le_inv _ _ Ha).
  assert (LD : (bpow radix2 (-100) <= D)%R). { apply Rle_trans with (bpow radix2 (-90) * / 2)%R; [change (/ 2)%R with (bpow radix2 (-1)); rewrite <- bpow_plus; apply bpow_le; lia|]. rewrite ED. nra. }
  destruct (split64_ok d D DD LD) as (e & m & M & S & DM & HM & V & He & E0). exists e, m. split; [exact S|].
  split; [intros Z; split; [exact (E0 Z)|]; rewrite V, Z; change (bpow radix2 0) with 1%R; rewrite Rmult_1_r; exact HM|]. intros NZ.
  destruct (G m M e DM HM ltac:(lia)) as (y & DY & EY). pose proof ln2_dec as LN. destruct (log_term c_2 2 1 0 m M) as (_ & _ & _ & BL); [replace 2%R with (Q2R 2) by (unfold Q2R; cbn [Qnum Qden]; lra); apply dbl_c; vm_compute; reflexivity|lra|rewrite Rminus_diag_eq, Rabs_R0 by ring; lra|lra|exact DM|exact HM|].
  assert (LV : ln D = (ln M + IZR e * ln 2)%R) by (rewrite V; apply ln_scale; lra). rewrite <- LV in EY.
  assert (LL : (0.346 <= Rabs (ln D))%R).
  { rewrite LV. pose proof (Rabs_triang_inv (IZR e * ln 2) (- ln M)) as X. replace (IZR e * ln 2 - - ln M)%R with (ln M + IZR e * ln 2)%R in X by ring. rewrite Rabs_Ropp, Rabs_mult, (Rabs_pos_eq (ln 2)) in X by lra.
    assert (E1 : (1 <= Rabs (IZR e))%R) by (rewrite <- abs_IZR; apply IZR_le; lia). nra. }
  assert (LE : (Rabs (ln D - ln W) <= 0.00000000000000056)%R).
  { rewrite ED, ln_mult by lra. replace (ln W + ln (1 + a) - ln W)%R with (ln (1 + a)) by ring. eapply Rle_trans; [apply ln_1p; apply Rabs_le; lra|]. lra. }
  assert (WL : (Rabs (ln D) <= Rabs (ln W) + 0.00000000000000056)%R) by (pose proof (Rabs_triang (ln W) (ln D - ln W)) as T; replace (ln W + (ln D - ln W))%R with (ln D) in T by ring; lra).
  split; [lra|]. exists y. split; [exact DY|]. replace (y - l * ln W)%R with ((y - l * ln D) + l * (ln D - ln W))%R by ring. eapply Rle_trans; [apply Rabs_triang|].
  rewrite !Rabs_mult, (Rabs_pos_eq l) in * by lra. apply Rle_trans with (l * (bpow radix2 (- (49)) * Rabs (ln D) + Rabs (ln D - ln W)))%R; [rewrite Rmult_plus_distr_l; apply Rplus_le_compat; [lra|lra]|].
  replace (bpow radix2 (-48) * (l * Rabs (ln W)))%R with (l * (bpow radix2 (-48) * Rabs (ln W)))%R by ring. apply Rmult_le_compat_l; [lra|].
  change (bpow radix2 (- (49))) with (/ 562949953421312)%R. change (bpow radix2 (-48)) with (/ 281474976710656)%R. lra.
Qed.
(** ** a result near 0 *)
Lemma kernel_near s S S0 : dbl s S -> rel 5.2 S S0 -> (Rabs S0 <= 0.17159)%R -> nice (-199) S0 ->
  exists T, dbl (kernel_atanhf_ s) T /\ (Rabs (T - atanh S0) <= 0.00000000000000152 * Rabs (atanh S0))%R /\ nice (-203) T.
Proof.
  intros D R B N. destruct u53_dec as [U0 U1]. destruct (rel_ex 5.2 S S0 ltac:(lra) R) as (a & Ha & E). assert (Ha' := Rabs_le_inv _ _ Ha). assert (A0 := Rabs_pos S0).
  assert (NS : nice (-200) S) by (rewrite E; apply (nice_near (-199)); [exact N|lra]).
  assert (SS : (Rabs S <= 1.00000001 * Rabs S0)%R) by (rewrite E, Rabs_mult, (Rabs_pos_eq (1 + a)) by lra; nra).
  destruct (kernel_atanh s S D ltac:(lra) NS) as (T & DT & ET & NT). exists T. split; [exact DT|]. split; [|exact (nice_weak (-202) (-203) _ ltac:(lia) NT)].
  pose proof (atanh_near S0 ltac:(lra)) as AN. pose proof (atanh_lip S S0 ltac:(lra) ltac:(lra)) as AL.
  assert (LB : (0.989 * Rabs S0 <= Rabs (atanh S0))%R). { pose proof (Rabs_triang_inv S0 (S0 - atanh S0)) as X. replace (S0 - (S0 - atanh S0))%R with (atanh S0) in X by ring. rewrite (Rabs_minus_sym S0 (atanh S0)) in X. lra. }
  replace (T - atanh S0)%R with ((T - atanh S) + (atanh S - atanh S0))%R by ring. eapply Rle_trans; [apply Rabs_triang|].
  assert (Rabs (S - S0) <= 0.00000000000000058 * Rabs S0)%R by (eapply Rle_trans; [exact R|]; apply Rmult_le_compat_r; [exact A0|lra]). lra.
Qed.
Lemma kernel_twice s S S0 : dbl s S -> rel 5.2 S S0 -> (Rabs S0 <= 0.17159)%R -> nice (-199) S0 ->
  exists y, dbl (mul64 c_2 (kernel_atanhf_ s)) y /\ (Rabs (y - 2 * atanh S0) <= bpow radix2 (-49) * Rabs (2 * atanh S0))%R.
Proof.
  intros D R B N. destruct u53_dec as [U0 U1]. destruct (kernel_near s S S0 D R B N) as (T & DT & ET & NT). pose proof (atanh_near S0 ltac:(lra)) as AN.
  assert (DC : dbl c_2 2). { replace 2%R with (Q2R 2) by (unfold Q2R; cbn [Qnum Qden]; lra). apply dbl_c; vm_compute; reflexivity. }
  assert (F2 : RN53 (2 * T) = (2 * T)%R).
  { apply RN53_id. rewrite Rmult_comm. change 2%R with (bpow radix2 1). apply mult_bpow_pos_exact_FLT; [apply (dbl_fin _ _ DT)|lia]. }
  exists (2 * T)%R. set (a := atanh S0) in *. assert (AA := Rabs_pos a). assert (BA : (Rabs a <= 0.18)%R). { replace a with ((a - S0) + S0)%R by ring. eapply Rle_trans; [apply Rabs_triang|]. lra. } split.
  - rewrite <- F2. apply (dbl_mul _ _ _ _ 1 DC DT); [|lia]. rewrite Rabs_mult, (Rabs_pos_eq 2) by lra. change (bpow radix2 1) with 2%R.
    replace T with ((T - a) + a)%R by ring. assert (Rabs ((T - a) + a) <= Rabs (T - a) + Rabs a)%R by apply Rabs_triang. lra.
  - replace (2 * T - 2 * a)%R with (2 * (T - a))%R by ring. rewrite !Rabs_mult, (Rabs_pos_eq 2) by lra. change (bpow radix2 (-49)) with (/ 562949953421312)%R. lra.
Qed.

Lemma full_sum : forall m M e, dbl m M -> (0.7071 <= M <= 1.41422)%R -> -2000 <= e <= 2000 ->
  exists y, dbl (add64 (mul64 c_2 (kernel_atanhf_ (ratio1 m))) (mul64 (ofZ64 e) 0x3FE62E42FEFA39EF)) y /\ (Rabs (y - 1 * (ln M + IZR e * ln 2)) <= bpow radix2 (- (49)) * Rabs (1 * (ln M + IZR e * ln 2)))%R.
Proof. intros m M e D HM He. rewrite Rmult_1_l. exact (ln_sum m M e D HM He). Qed.
Lemma half_sum : forall m M e, dbl m M -> (0.7071 <= M <= 1.41422)%R -> -2000 <= e <= 2000 ->
  exists y, dbl (add64 (kernel_atanhf_ (ratio1 m)) (mul64 (div64 0x3FE62E42FEFA39EF c_2) (ofZ64 e))) y /\ (Rabs (y - / 2 * (ln M + IZR e * ln 2)) <= bpow radix2 (- (49)) * Rabs (/ 2 * (ln M + IZR e * ln 2)))%R.
Proof.
  intros m M e D HM He. pose proof ln2_dec as LN. destruct (log_core m M D HM) as (T & DT & ET & BT & NT).
  set (c := div64 0x3FE62E42FEFA39EF c_2). assert (DL : dbl c (Q2R (qval c))) by (apply dbl_c; vm_compute; reflexivity).
  assert (HC : (Rabs (Q2R (qval c) - / 2 * ln 2) <= 0.00000000000000004 * (/ 2 * ln 2))%R).
  { pose proof (ln2_affine (qval c) (-1 # 2) (12 # 10^18) ltac:(vm_compute; reflexivity) ltac:(vm_compute; reflexivity)) as X. replace (Q2R (-1 # 2)) with (- / 2)%R in X by (unfold Q2R; cbn [Qnum Qden]; lra).
    replace (Q2R (12 # 10^18)) with (12 / 1000000000000000000)%R in X by (unfold Q2R; cbn [Qnum Qden]; change (Zpos (10^18)) with 1000000000000000000; lra). replace (- / 2 * ln 2)%R with (- (/ 2 * ln 2))%R in X by ring. unfold Rminus. lra. }
  set (C := Q2R (qval c)) in *. clearbody C. clearbody c.
  destruct (exp_term c C (/ 2 * ln 2) 0.00000000000000004 e DL ltac:(lra) HC ltac:(lra) He) as (B & [_ DB] & HB).
  assert (B49 : (bpow radix2 (- (49)) = / 562949953421312)%R) by reflexivity.
  apply (logsum _ _ T B (/ 2) 0.0000000000000012613 0.00000000000000015134 49 (ln M) e DT DB).
  - lra.
  - replace (ln M) with (2 * (ln M / 2))%R by field. rewrite Rabs_mult, (Rabs_pos_eq 2) by lra. lra.
  - exact He.
  - replace (/ 2 * ln M)%R with (ln M / 2)%R by field. replace (/ 2 * Rabs (ln M))%R with (Rabs (ln M / 2)) by (unfold Rdiv; rewrite Rabs_mult, (Rabs_pos_eq (/ 2)) by lra; ring). eapply Rle_trans; [exact ET|]. apply Rmult_le_compat_r; [apply Rabs_pos|lra].
  - replace (/ 2 * (IZR e * ln 2))%R with (IZR e * (/ 2 * ln 2))%R by ring. replace (/ 2 * (Rabs (IZR e) * ln 2))%R with (Rabs (IZR e) * (/ 2 * ln 2))%R by ring. eapply Rle_trans; [exact HB|]. apply Rmult_le_compat_r; [apply Rmult_le_pos; [apply Rabs_pos|lra]|lra].
  - lra.
  - lra.
  - rewrite B49. lra.
  - rewrite B49. lra.
Qed.

(** ** floats *)
Lemma nice_float x : fbits 23 8 x -> ffinite 23 8 x = true -> nice (-149) (fval 23 8 x).
Proof.
  intros H F. destruct (Z.eq_dec (fabsb 23 8 x) 0) as [Z|Z]; [left|right].
  - unfold fval. rewrite Z, (fmag_0 23 8 eq_refl). destruct (fneg 23 8 x); ring.
  - assert (P : 0 <= fabsb 23 8 x) by (apply Z.mod_pos_bound; reflexivity). unfold fval. assert (L : (bpow radix2 (-149) <= fmag 23 8 (fabsb 23 8 x))%R).
    { apply Rle_trans with (fmag 23 8 1); [|apply (fmag_le 23 8 eq_refl); lia]. unfold fmag, F2R. cbn. lra. }
    pose proof (bpow_gt_0 radix2 (-149)). destruct (fneg 23 8 x); [rewrite Rabs_Ropp|]; rewrite Rabs_pos_eq by lra; exact L.
Qed.
Lemma ratio_small' W : (0.70709 <= W <= 1.41423)%R -> (Rabs ((W - 1) / (W + 1)) <= 0.17159)%R.
Proof.
  intros H. apply Rabs_le. assert (P : (0 < W + 1)%R) by lra. split; apply (Rmult_le_reg_r (W + 1)); try exact P; unfold Rdiv; rewrite Rmult_assoc, Rinv_l, Rmult_1_r by lra; nra.
Qed.
Lemma rel_range D W : rel 5 D W -> (0.7071 <= D <= 1.41422)%R -> (0 < W)%R -> (0.70709 <= W <= 1.41423)%R.
Proof.
  intros R H P. destruct u53_dec as [U0 U1]. unfold rel in R. rewrite (Rabs_pos_eq W) in R by lra. apply Rabs_le_inv in R.
  assert (5 * u53 * W <= 0.000000001 * W)%R by (apply Rmult_le_compat_r; lra). lra.
Qed.
Lemma dbl_one : dbl c_1 1.
Proof. replace 1%R with (Q2R 1) by apply Q2R_1. apply dbl_c; reflexivity. Qed.
Lemma dbl_two : dbl c_2 2.
Proof. replace 2%R with (Q2R 2) by (unfold Q2R; cbn [Qnum Qden]; lra). apply dbl_c; vm_compute; reflexivity. Qed.
Lemma nice_ge e x : (bpow radix2 e <= x)%R -> nice e x.
Proof. intros H. right. rewrite Rabs_pos_eq; [exact H|]. pose proof (bpow_gt_0 radix2 e). lra. Qed.
Lemma rel_abs k x y : (0 <= k <= 90)%R -> rel k x y -> (Rabs x <= 2 * Rabs y)%R.
Proof.
  intros Hk R. destruct u53_dec as [U0 U1]. destruct (rel_ex k x y ltac:(lra) R) as (a & Ha & ->). rewrite Rabs_mult, Rmult_comm. apply Rmult_le_compat_r; [apply Rabs_pos|].
  eapply Rle_trans; [apply Rabs_triang|]. rewrite Rabs_R1. nra.
Qed.
