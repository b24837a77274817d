From Coq Require Import Reals Lra Lia Psatz Bool.
From Flocq Require Import Core BinarySingleNaN Relative Mult_error.
From Verif Require Import Base FP FP_Proof HW HW_Proof Midpoint Fmaf_Proof Math_Model Math_Basic_Proof Math_Round_Proof Math_Spec Math_Props Hypotf_Model Hypotf_Real Hypotf_Proof Ferr Logf_Kernel Logf_Proof Loginv_Proof Loginv3_Proof Asinf_Proof Trigf_Proof Complex_Model Complex_Spec Complex_Proof Complex_Div_Proof Csqrt_Proof Cdiv_Model Cdiv_Proof.
Open Scope Z_scope.
Local Ltac Zify.zify_post_hook ::= idtac.

(** ** scaling the divisor *)
Lemma abs_val x : fbits 52 11 x -> fbits 52 11 (fabsb 52 11 x) /\ ffinite 52 11 (fabsb 52 11 x) = ffinite 52 11 x /\ fval 52 11 (fabsb 52 11 x) = Rabs (fval 52 11 x).
Proof.
  intros B. assert (R : 0 <= fabsb 52 11 x < 2^(52+11)) by (apply Z.mod_pos_bound; reflexivity).
  assert (I : fabsb 52 11 (fabsb 52 11 x) = fabsb 52 11 x) by (apply Z.mod_small; exact R).
  assert (N : fneg 52 11 (fabsb 52 11 x) = false) by (unfold fneg; apply Z.leb_gt; exact (proj2 R)).
  split; [split; [lia|change (2^(52+11+1)) with (2 * 2^(52+11)); lia]|]. split; [unfold ffinite; rewrite I; reflexivity|].
  pose proof (fmag_nonneg 52 11 eq_refl (fabsb 52 11 x) ltac:(lia)) as M.
  unfold fval. rewrite I, N. destruct (fneg 52 11 x); [rewrite Rabs_Ropp|]; symmetry; apply Rabs_pos_eq; exact M.
Qed.
Lemma max_val c d : fbits 52 11 c -> fbits 52 11 d -> ffinite 52 11 c = true -> ffinite 52 11 d = true ->
  let m := fmax 52 11 (fabsb 52 11 c) (fabsb 52 11 d) in
  fbits 52 11 m /\ ffinite 52 11 m = true /\ fval 52 11 m = Rmax (Rabs (fval 52 11 c)) (Rabs (fval 52 11 d)).
Proof.
  intros Bc Bd Fc Fd m. destruct (abs_val c Bc) as (C1 & C2 & C3). destruct (abs_val d Bd) as (D1 & D2 & D3). rewrite Fc in C2. rewrite Fd in D2.
  unfold m, fmax. rewrite (finite_not_nan 52 11 _ D2), orb_false_r. destruct (hle 52 11 (fabsb 52 11 d) (fabsb 52 11 c)) eqn:E.
  - apply (hle_ok 52 11 eq_refl eq_refl _ _ D1 C1 D2 C2) in E. rewrite C3, D3 in E. split; [exact C1|]. split; [exact C2|]. rewrite Rmax_left; assumption.
  - split; [exact D1|]. split; [exact D2|]. rewrite Rmax_right; [exact D3|]. apply Rnot_lt_le. intros L.
    assert (X : hle 52 11 (fabsb 52 11 d) (fabsb 52 11 c) = true) by (apply (hle_ok 52 11 eq_refl eq_refl _ _ D1 C1 D2 C2); rewrite C3, D3; lra). congruence.
Qed.
Lemma exp_range x e : fbits 52 11 x -> ffinite 52 11 x = true -> (bpow radix2 e <= Rabs (fval 52 11 x) < bpow radix2 (e + 1))%R -> -1074 <= e <= 1023.
Proof.
  intros B F [L U]. split.
  - apply Z.nlt_ge. intros K. assert (X : (Rabs (fval 52 11 x) < bpow radix2 (-1074))%R) by (apply Rlt_le_trans with (1 := U); apply bpow_le; lia).
    assert (NZ : fval 52 11 x <> 0%R) by (intros Z; rewrite Z, Rabs_R0 in L; pose proof (bpow_gt_0 radix2 e); lra).
    destruct (abs_val x B) as (_ & _ & AV). assert (R : 0 <= fabsb 52 11 x) by (apply Z.mod_pos_bound; reflexivity).
    assert (VM : Rabs (fval 52 11 x) = fmag 52 11 (fabsb 52 11 x)) by (unfold fval; pose proof (fmag_nonneg 52 11 eq_refl _ R); destruct (fneg 52 11 x); [rewrite Rabs_Ropp|]; apply Rabs_pos_eq; assumption).
    destruct (Z.eq_dec (fabsb 52 11 x) 0) as [Z0|Z0]; [rewrite Z0, (fmag_0 52 11 eq_refl) in VM; pose proof (bpow_gt_0 radix2 e); lra|].
    pose proof (fmag_le 52 11 eq_refl 1 (fabsb 52 11 x) ltac:(lia)) as G. rewrite <- VM in G.
    assert (F1 : fmag 52 11 1 = bpow radix2 (-1074)) by (unfold fmag, F2R; change (1 / 2^52) with 0; cbn -[bpow IZR]; lra). lra.
  - apply Z.nlt_ge. intros K. pose proof (fval_bound 52 11 eq_refl eq_refl eq_refl x B F) as G. change (2^(11-1)) with 1024 in G.
    assert (bpow radix2 1024 <= bpow radix2 e)%R by (apply bpow_le; lia). lra.
Qed.

Lemma scale_part x n : fbits 52 11 x -> ffinite 52 11 x = true -> -1074 <= n <= 1074 -> (Rabs (fval 52 11 x * bpow radix2 n) <= 2)%R ->
  exists r R, scalbn x n = Ok r /\ dbl r R /\ (Rabs (R - fval 52 11 x * bpow radix2 n) <= eta)%R.
Proof.
  intros B F Hn H. destruct (proj1 (C70_scalbn x n ltac:(unfold is_i32, INT_MIN, INT_MAX; lia) B) F) as (r & E & R). exists r, (RN53 (fval 52 11 x * bpow radix2 n)). split; [exact E|].
  split; [apply (dbl_rounds _ _ _ 1 R); [exact H|lia]|].
  assert (G : F53 (fval 52 11 x)).
  { exact (fval_format 52 11 eq_refl eq_refl x B). }
  set (X := fval 52 11 x) in *. clearbody X. pose proof eta_pos as E0.
  destruct (Z_le_gt_dec (-1074 + 53 - Raux.mag radix2 X) n) as [C|C].
  - rewrite RN53_id by (apply (mult_bpow_exact_FLT radix2 (-1074) 53); assumption). rewrite Rminus_diag_eq, Rabs_R0 by reflexivity. lra.
  - rewrite RN53_eq. eapply Rle_trans; [apply (@error_le_half_ulp radix2 _ (@FLT_exp_valid (-1074) 53 eq_refl))|]. rewrite (@ulp_FLT_small radix2 (-1074) 53 eq_refl).
    + unfold eta. change (/ 2)%R with (bpow radix2 (-1)). rewrite <- bpow_plus. apply Rle_refl.
    + destruct (Req_dec X 0) as [->|NZ]; [rewrite Rmult_0_l, Rabs_R0; apply bpow_gt_0|]. rewrite Rabs_mult, (Rabs_pos_eq (bpow _ _)) by apply bpow_ge_0.
      apply Rlt_le_trans with (bpow radix2 (Raux.mag radix2 X) * bpow radix2 n)%R; [apply Rmult_lt_compat_r; [apply bpow_gt_0|apply bpow_mag_gt]|]. rewrite <- bpow_plus. apply bpow_le. lia.
Qed.

(** the divisor scaled to [1, 2) *)
Lemma scale_ok c d : fbits 52 11 c -> fbits 52 11 d -> ffinite 52 11 c = true -> ffinite 52 11 d = true -> (fval 52 11 c <> 0 \/ fval 52 11 d <> 0)%R ->
  exists lw e c' d' C' D', logb 52 11 eq_refl eq_refl (fmax 52 11 (fabsb 52 11 c) (fabsb 52 11 d)) = Ok lw /\ ffinite 52 11 lw = true /\
    to_signed 32 (trunc64 (negate 52 11 lw)) = Ok (- e) /\ -1074 <= e <= 1023 /\
    scalbn c (- e) = Ok c' /\ scalbn d (- e) = Ok d' /\ dbl c' C' /\ dbl d' D' /\
    let C := (fval 52 11 c * bpow radix2 (- e))%R in let D := (fval 52 11 d * bpow radix2 (- e))%R in
    (Rabs (C' - C) <= eta /\ Rabs (D' - D) <= eta /\ Rabs C <= 2 /\ Rabs D <= 2 /\ (1 <= Rabs C \/ 1 <= Rabs D))%R.
Proof.
  intros Bc Bd Fc Fd NZ. destruct (max_val c d Bc Bd Fc Fd) as (M1 & M2 & M3). set (m := fmax 52 11 (fabsb 52 11 c) (fabsb 52 11 d)) in *. clearbody m.
  assert (MP : (0 < fval 52 11 m)%R). { rewrite M3. destruct NZ as [N|N]; pose proof (Rabs_pos_lt _ N); [pose proof (Rmax_l (Rabs (fval 52 11 c)) (Rabs (fval 52 11 d)))|pose proof (Rmax_r (Rabs (fval 52 11 c)) (Rabs (fval 52 11 d)))]; lra. }
  assert (MZ : fabsb 52 11 m <> 0) by (intros Z0; unfold fval in MP; rewrite Z0, (fmag_0 52 11 eq_refl) in MP; destruct (fneg 52 11 m); lra).
  destruct (proj2 (proj2 (proj2 (C71_logb m M1))) MZ M2) as (lw & e & L1 & L2 & L3 & L4 & L5). pose proof (exp_range m e M1 M2 L5) as He.
  rewrite (Rabs_pos_eq (fval 52 11 m)), M3 in L5 by lra.
  assert (BE : (bpow radix2 e * bpow radix2 (- e) = 1)%R) by (rewrite <- bpow_plus; replace (e + - e) with 0 by lia; reflexivity).
  assert (BE1 : (bpow radix2 (e + 1) * bpow radix2 (- e) = 2)%R) by (rewrite <- bpow_plus; replace (e + 1 + - e) with 1 by lia; reflexivity).
  pose proof (bpow_gt_0 radix2 (- e)) as PE.
  assert (UB : forall X, (Rabs X <= Rmax (Rabs (fval 52 11 c)) (Rabs (fval 52 11 d)) -> Rabs (X * bpow radix2 (- e)) <= 2)%R).
  { intros X HX. rewrite Rabs_mult, (Rabs_pos_eq (bpow radix2 (- e))) by lra. rewrite <- BE1. apply Rmult_le_compat_r; lra. }
  pose proof (UB _ (Rmax_l _ _)) as UC. pose proof (UB _ (Rmax_r _ _)) as UD.
  destruct (scale_part c (- e) Bc Fc ltac:(lia) UC) as (c' & C' & S1 & D1 & E1). destruct (scale_part d (- e) Bd Fd ltac:(lia) UD) as (d' & D' & S2 & D2 & E2).
  exists lw, e, c', d', C', D'. split; [exact L1|]. split; [exact L3|]. split.
  { destruct (negate_spec 52 11 eq_refl eq_refl eq_refl eq_refl lw L2) as (N1 & N2 & _ & N3). unfold trunc64. rewrite (htrunc_ok 52 11 eq_refl eq_refl eq_refl _ N1) by (rewrite N2; exact L3).
    rewrite N3, L4, <- opp_IZR, Ztrunc_IZR. unfold to_signed. change (2^(32-1)) with 2147483648. rewrite (proj2 (Z.leb_le _ _)), (proj2 (Z.ltb_lt _ _)) by lia. reflexivity. }
  split; [exact He|]. split; [exact S1|]. split; [exact S2|]. split; [exact D1|]. split; [exact D2|]. cbv zeta. split; [exact E1|]. split; [exact E2|]. split; [exact UC|]. split; [exact UD|].
  rewrite !Rabs_mult, (Rabs_pos_eq (bpow radix2 (- e))) by lra. destruct L5 as [L5 _]. unfold Rmax in L5. destruct (Rle_dec (Rabs (fval 52 11 c)) (Rabs (fval 52 11 d))); [right|left]; rewrite <- BE; apply Rmult_le_compat_r; lra.
Qed.

(** one part of the scaled quotient *)
Lemma part_ok N K n k P V T W e Q : dbl n N -> dbl k K -> (1 <= W)%R -> V = (W * W)%R -> (bpow radix2 (-900) <= T <= bpow radix2 590)%R -> (Rabs P <= T * W)%R -> (Rabs (N - P) <= 2.1 * (u53 * (T * W)))%R -> (Rabs (K - V) <= 2.1 * (u53 * V))%R ->
  (W <= 3)%R -> -1074 <= e <= 1023 -> Q = (T / W * bpow radix2 (- e))%R -> (bpow radix2 (-1000) <= Q <= bpow radix2 1000)%R ->
  exists r, scalbn (div64 n k) (- e) = Ok r /\ fbits 52 11 r /\ ffinite 52 11 r = true /\ (Rabs (fval 52 11 r - P / V * bpow radix2 (- e)) <= bpow radix2 (-50) * Q)%R.
Proof.
  intros DN DK HW EV HT HP HN HK HW3 He EQ HQ. destruct u53_dec as [U0 U1]. pose proof (bpow_gt_0 radix2 (-900)) as P900. assert (V1 : (1 <= V)%R) by (rewrite EV; nra).
  assert (TW : (0 <= T * W)%R) by (apply Rmult_le_pos; lra).
  destruct (quot_err N K P V (T * W) (2.1 * u53) ltac:(lra) V1 TW HP ltac:(lra) ltac:(lra)) as [QE KP].
  assert (TV : (T * W / V = T / W)%R) by (rewrite EV; field; lra). rewrite TV in QE. set (q := (T / W)%R) in *.
  assert (q_lo : (bpow radix2 (-902) <= q)%R).
  { unfold q. apply Rle_trans with (T / 4)%R; [|unfold Rdiv; apply Rmult_le_compat_l; [lra|apply Rinv_le_contravar; lra]]. replace (bpow radix2 (-902)) with (bpow radix2 (-900) / 4)%R; [lra|]. unfold Rdiv. change (/ 4)%R with (bpow radix2 (-2)). rewrite <- bpow_plus. reflexivity. }
  assert (q_hi : (q <= bpow radix2 590)%R) by (unfold q, Rdiv; apply Rle_trans with (T * 1)%R; [apply Rmult_le_compat_l; [lra|]; rewrite <- Rinv_1; apply Rinv_le_contravar; lra|lra]).
  pose proof (bpow_gt_0 radix2 (-902)) as P902.
  assert (PV : (Rabs (P / V) <= q)%R).
  { unfold Rdiv. rewrite Rabs_mult, (Rabs_pos_eq (/ V)) by (left; apply Rinv_0_lt_compat; lra). rewrite <- TV. unfold Rdiv. apply Rmult_le_compat_r; [left; apply Rinv_0_lt_compat; lra|exact HP]. }
  assert (UQ : (0 <= u53 * q)%R) by (apply Rmult_le_pos; lra). assert (UQ1 : (u53 * q <= 0.000001 * q)%R) by (apply Rmult_le_compat_r; lra).
  assert (NK : (Rabs (N / K) <= 1.001 * q)%R).
  { replace (N / K)%R with (P / V + (N / K - P / V))%R by ring. eapply Rle_trans; [apply Rabs_triang|]. lra. }
  assert (NK' : (Rabs (N / K) <= bpow radix2 591)%R) by (pose proof (twice_bp 590); change (590 + 1) with 591 in *; lra).
  pose proof (dbl_div n k N K 591 DN DK ltac:(lra) NK' ltac:(lia)) as DQ. set (G := RN53 (N / K)) in *. pose proof (RN_eta (N / K)) as RE. fold G in RE.
  assert (ET : (eta <= 0.000001 * (u53 * q))%R).
  { apply Rle_trans with (bpow radix2 (-20) * (u53 * bpow radix2 (-902)))%R; [unfold eta, u53; rewrite <- !bpow_plus; apply bpow_le; lia|].
    apply Rmult_le_compat; [apply bpow_ge_0|apply Rmult_le_pos; apply bpow_ge_0|change (bpow radix2 (-20)) with (/ 1048576)%R; lra|apply Rmult_le_compat_l; lra]. }
  assert (UNK : (u53 * Rabs (N / K) <= u53 * (1.001 * q))%R) by (apply Rmult_le_compat_l; lra).
  assert (GE : (Rabs (G - P / V) <= 5.22 * (u53 * q))%R).
  { replace (G - P / V)%R with ((G - N / K) + (N / K - P / V))%R by ring. eapply Rle_trans; [apply Rabs_triang|]. lra. }
  clearbody G. clear RE UNK NK NK' QE DN DK HN HK.
  pose proof (bpow_gt_0 radix2 (- e)) as PE. set (s := bpow radix2 (- e)) in *.
  destruct DQ as (B1 & B2 & B3 & _). destruct (proj1 (C70_scalbn (div64 n k) (- e) ltac:(unfold is_i32, INT_MIN, INT_MAX; lia) B1) B2) as (r & E & R). rewrite B3 in R. fold s in R.
  assert (Q0 : (0 < Q)%R) by (pose proof (bpow_gt_0 radix2 (-1000)); lra). assert (UQQ : (0 <= u53 * Q)%R) by (apply Rmult_le_pos; lra). assert (UQQ1 : (u53 * Q <= 0.000001 * Q)%R) by (apply Rmult_le_compat_r; lra).
  assert (GS : (Rabs (G * s - P / V * s) <= 5.22 * (u53 * Q))%R).
  { rewrite <- Rmult_minus_distr_r, Rabs_mult, (Rabs_pos_eq s) by lra. rewrite EQ. apply Rle_trans with (5.22 * (u53 * q) * s)%R; [apply Rmult_le_compat_r; lra|right; ring]. }
  assert (PS : (Rabs (P / V * s) <= Q)%R) by (rewrite Rabs_mult, (Rabs_pos_eq s), EQ by lra; apply Rmult_le_compat_r; lra).
  assert (GB : (Rabs (G * s) <= 1.001 * Q)%R).
  { replace (G * s)%R with (P / V * s + (G * s - P / V * s))%R by ring. eapply Rle_trans; [apply Rabs_triang|]. lra. }
  pose proof (RN_eta (G * s)) as RE.
  assert (ETQ : (eta <= 0.000001 * (u53 * Q))%R).
  { apply Rle_trans with (bpow radix2 (-20) * (u53 * bpow radix2 (-1000)))%R; [unfold eta, u53; rewrite <- !bpow_plus; apply bpow_le; lia|].
    apply Rmult_le_compat; [apply bpow_ge_0|apply Rmult_le_pos; apply bpow_ge_0|change (bpow radix2 (-20)) with (/ 1048576)%R; lra|apply Rmult_le_compat_l; lra]. }
  assert (UGS : (u53 * Rabs (G * s) <= u53 * (1.001 * Q))%R) by (apply Rmult_le_compat_l; lra).
  assert (RB : (Rabs (RN53 (G * s)) < bpow radix2 1024)%R).
  { replace (RN53 (G * s)) with (G * s + (RN53 (G * s) - G * s))%R by ring. eapply Rle_lt_trans; [apply Rabs_triang|]. pose proof (twice_bp 1000) as T1. change (1000 + 1) with 1001 in T1.
    assert (bpow radix2 1001 <= bpow radix2 1024)%R by (apply bpow_le; lia). lra. }
  destruct R as (R1 & _ & R3 & _). change (2^(11-1)) with 1024 in R3. destruct (R3 RB) as [R4 R5].
  exists r. split; [exact E|]. split; [exact R1|]. split; [exact R4|]. rewrite R5.
  replace (bpow radix2 (-50)) with (8 * u53)%R by (unfold u53; change 8%R with (bpow radix2 3); rewrite <- bpow_plus; reflexivity).
  replace (RN53 (G * s) - P / V * s)%R with ((RN53 (G * s) - G * s) + (G * s - P / V * s))%R by ring. eapply Rle_trans; [apply Rabs_triang|]. lra.
Qed.
