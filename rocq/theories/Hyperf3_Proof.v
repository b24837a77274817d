(** expm1f, coshf, sinhf and tanhf. *)
From Coq Require Import Reals Lra Lia Psatz QArith Qreals Qabs List.
From Flocq Require Import Core BinarySingleNaN Relative Sterbenz.
From Coquelicot Require Import Coquelicot.
From Verif Require Import Base FP FP_Proof HW HW_Proof Midpoint Fmaf_Proof Math_Model Math_Int_Proof Math_Lconv_Proof Hypotf_Real Hypotf_Proof Approx Subdiv Ferr Elem_Spec Elem_Proof Elem_Num Expf_Model Expf_Proof Logf_Model Logf_Kernel Logf_Proof Loginv_Proof Loginv3_Proof Hyperf_Model Hyperf_Proof Hyperf2_Proof.
Import ListNotations.
Open Scope Z_scope.
Local Ltac Zify.zify_post_hook ::= idtac.

(** ** expm1f *)
Lemma exp_above k d X : (IZR k * ln 2 + d <= X)%R -> (bpow radix2 k * (1 + d) <= exp X)%R.
Proof.
  intros H. replace X with (IZR k * ln 2 + (X - IZR k * ln 2))%R by ring. rewrite exp_plus, exp_bpow. apply Rmult_le_compat_l; [apply bpow_ge_0|]. pose proof (exp_lower (X - IZR k * ln 2)). lra.
Qed.
Theorem expm1f_ok x : fbits 23 8 x -> ffinite 23 8 x = true -> fval 23 8 x <> 0%R ->
  exists b, expm1f x = Ok b /\ nearly_rounded 45 (exp (fval 23 8 x) - 1) b.
Proof.
  intros Hx Fx NZ. set (X := fval 23 8 x) in *. unfold expm1f.
  assert (HC : fbits 23 8 0x42B17218) by (split; [lia|reflexivity]).
  assert (EC : fval 23 8 0x42B17218 = Q2R (qval (f2d 0x42B17218))) by (unfold fval; change (fneg 23 8 0x42B17218) with false; change (fabsb 23 8 0x42B17218) with 0x42B17218; apply fmag32_q; lia).
  assert (NE : (exp X - 1 <> 0)%R) by (intros K; apply NZ; rewrite <- (ln_exp X); replace (exp X) with 1%R by lra; apply ln_1).
  destruct (lt32 0x42B17218 x) eqn:L.
  { apply (hlt_ok 23 8 eq_refl eq_refl 0x42B17218 x HC Hx eq_refl Fx) in L. fold X in L. rewrite EC in L. exists 0x7F800000. split; [reflexivity|].
    assert (K : (128 * ln 2 + 0.0000001 <= X)%R).
    { pose proof ln2_bounds as [_ LH]. assert (KQ : (Q2R (128 * ln2_hi + (1 # 10^7)) <= Q2R (qval (f2d 0x42B17218)))%R) by (apply Q2R_le; vm_compute; reflexivity). rewrite Q2R_plus, Q2R_mult in KQ.
      replace (Q2R (1 # 10^7)) with 0.0000001%R in KQ by (unfold Q2R; cbn [Qnum Qden]; change (Zpos (10^7)) with 10000000; lra). replace (Q2R 128) with 128%R in KQ by (unfold Q2R; cbn [Qnum Qden]; lra). lra. }
    pose proof (exp_above 128 0.0000001 X K) as E. assert (B2 : (bpow radix2 128 = IZR (2^128))%R) by reflexivity. assert (B3 : (1000000000 <= bpow radix2 128)%R) by (rewrite B2; apply IZR_le; lia).
    apply (nearly_exact _ _ false); [exact NE|symmetry; apply Rlt_bool_false; lra|]. apply rounds_huge. pose proof (bpow_gt_0 radix2 103). lra. }
  assert (LX : (X <= 89)%R).
  { apply Rle_trans with (Q2R (qval (f2d 0x42B17218))); [|eapply Rle_trans; [apply (Q2R_le _ 89); vm_compute; reflexivity|unfold Q2R; cbn [Qnum Qden]; lra]].
    apply Rnot_lt_le. intros K. rewrite <- EC in K. unfold X in K. apply (hlt_ok 23 8 eq_refl eq_refl 0x42B17218 x HC Hx eq_refl Fx) in K. unfold lt32 in L. congruence. }
  destruct (expm1_ok x 89 Hx Fx LX ltac:(lra)) as (w & W & E & DW & RW). rewrite E. cbn [bind]. eexists. split; [reflexivity|]. fold X in RW.
  apply (to_float' _ W); [exact DW|exact NE|lia|]. eapply Rle_trans; [exact RW|]. apply Rmult_le_compat_r; [apply Rabs_pos|]. unfold eerr. rewrite Rabs_pos_eq by lra. change (bpow radix2 (- (45))) with (/ 35184372088832)%R. lra.
Qed.

(** ** the hyperbolic functions of the absolute value *)
Lemma abs_finite x : fbits 23 8 x -> ffinite 23 8 x = true -> 0 <= fabsb 23 8 x < 0x7F800000 /\ fval 23 8 x = (if fneg 23 8 x then - fmag 23 8 (fabsb 23 8 x) else fmag 23 8 (fabsb 23 8 x))%R.
Proof.
  intros Hx Fx. assert (B : 0 <= fabsb 23 8 x) by (apply Z.mod_pos_bound; reflexivity). unfold ffinite in Fx. change (finf 23 8) with 0x7F800000 in Fx. split; [lia|reflexivity].
Qed.
Lemma cosh_abs (s : bool) S : cosh (if s then - S else S) = ((exp S + exp (- S)) / 2)%R.
Proof. unfold cosh. destruct s; [rewrite Ropp_involutive; lra|reflexivity]. Qed.
Lemma sinh_abs (s : bool) S : sinh (if s then - S else S) = (if s then - sinh S else sinh S)%R.
Proof. unfold sinh. destruct s; [rewrite Ropp_involutive; lra|reflexivity]. Qed.
Lemma tanh_abs (s : bool) S : tanh (if s then - S else S) = (if s then - tanh S else tanh S)%R.
Proof. unfold tanh, sinh, cosh. destruct s; [rewrite Ropp_involutive|reflexivity]. pose proof (exp_pos S). pose proof (exp_pos (- S)). field. lra. Qed.
Lemma exp_big S : (100 <= S)%R -> (bpow radix2 143 <= exp S)%R.
Proof. intros H. pose proof ln2_dec. replace (bpow radix2 143) with (bpow radix2 143 * (1 + 0))%R by ring. apply exp_above. lra. Qed.
Lemma over_cosh S v : (100 <= S)%R -> (exp S / 2 - 1 <= v)%R -> (bpow radix2 128 - bpow radix2 103 < v /\ 0 < v)%R.
Proof.
  intros H L. pose proof (exp_big S H) as E. replace (bpow radix2 143) with (bpow radix2 128 * bpow radix2 15)%R in E by (rewrite <- bpow_plus; reflexivity). change (bpow radix2 15) with 32768%R in E.
  assert (1 <= bpow radix2 128)%R by (change 1%R with (bpow radix2 0); apply bpow_le; lia). pose proof (bpow_gt_0 radix2 103). lra.
Qed.
Lemma relr_div e f x1 x2 y1 y2 : (0 <= e <= 0.000001)%R -> (0 <= f <= 0.000001)%R -> y2 <> 0%R -> relr e x1 y1 -> relr f x2 y2 -> relr (e + f * 1.0001) (x1 / x2) (y1 / y2).
Proof.
  intros He Hf N A B. pose proof (relr_inv _ _ _ Hf N B) as I. unfold Rdiv. eapply relr_weak; [|apply (relr_mul e (f * 1.00001)); [lra|lra|exact A|exact I]]. nra.
Qed.

Theorem coshf_ok x : fbits 23 8 x -> ffinite 23 8 x = true ->
  exists b, coshf x = Ok b /\ nearly_rounded 45 (cosh (fval 23 8 x)) b.
Proof.
  intros Hx Fx. destruct (abs_finite x Hx Fx) as [HA HV]. rewrite HV, cosh_abs. set (a := fabsb 23 8 x) in *. unfold coshf. fold a. clearbody a. clear HV.
  pose proof (dbl_float a HA) as DA. set (S := fmag 23 8 a) in *. pose proof (exp_pos S) as P1. pose proof (exp_pos (- S)) as P2.
  destruct (Z_le_gt_dec a 0x42C80000) as [C|C].
  { pose proof (low_range a ltac:(lia)) as RS. fold S in RS. destruct (expf_small _ S DA RS) as (w & W & E & DW & RW & PW). rewrite E. cbn [bind]. eexists. split; [reflexivity|].
    pose proof (relr_range 0.000000000000016 W (exp S) ltac:(lra) P1 RW) as WR.
    assert (E1 : (1 <= exp S)%R) by (pose proof (exp_lower S); lra).
    assert (E2 : (exp S <= bpow radix2 160)%R).
    { rewrite <- exp_bpow. pose proof ln2_dec. destruct (Req_dec S (IZR 160 * ln 2)) as [->|Q]; [lra|]. left. apply exp_increasing. lra. }
    assert (D1 : dbl (mul64 c_half w) (RN53 (/ 2 * W))) by (apply (dbl_mul _ _ _ _ 200 dbl_half DW); [rewrite Rabs_pos_eq by lra; assert (bpow radix2 160 <= bpow radix2 200)%R by (apply bpow_le; lia); lra|lia]).
    assert (IB : (0 < / 2 / W <= 1)%R).
    { split; [apply Rmult_lt_0_compat; [lra|apply Rinv_0_lt_compat; lra]|]. assert (/ W <= / 0.9)%R by (apply Rinv_le_contravar; lra). assert (/ 0.9 <= 1.2)%R by lra. unfold Rdiv. lra. }
    assert (D2 : dbl (div64 c_half w) (RN53 (/ 2 / W))) by (apply (dbl_div _ _ _ _ 1 dbl_half DW); [lra|change (bpow radix2 1) with 2%R; rewrite Rabs_pos_eq by lra; lra|lia]).
    assert (R1 : relr 0.0000000000000162 (RN53 (/ 2 * W)) (/ 2 * exp S)).
    { eapply relr_weak; [|apply (relr_round 0.000000000000016)]; [lra|lra| |].
      - apply nice_ge. eapply Rle_trans; [apply (bpow_le radix2 (-1022) (-2)); lia|]. change (bpow radix2 (-2)) with (/ 4)%R. lra.
      - unfold relr in *. rewrite <- Rmult_minus_distr_l, !Rabs_mult, (Rabs_pos_eq (/ 2)) by lra. lra. }
    assert (R2 : relr 0.0000000000000162 (RN53 (/ 2 / W)) (/ 2 * exp (- S))).
    { rewrite exp_Ropp. change (/ 2 * / exp S)%R with (/ 2 / exp S)%R. eapply relr_weak; [|apply (relr_round (0 + 0.000000000000016 * 1.0001))]; [lra|lra| |].
      - apply nice_ge. apply Rle_trans with (bpow radix2 (-201)); [apply bpow_le; lia|]. replace (bpow radix2 (-201)) with (/ 2 * / bpow radix2 200)%R by (rewrite <- bpow_opp; change (/ 2)%R with (bpow radix2 (-1)); rewrite <- bpow_plus; reflexivity).
        unfold Rdiv. apply Rmult_le_compat_l; [lra|]. apply Rinv_le_contravar; [lra|]. assert (2 * bpow radix2 160 <= bpow radix2 200)%R by (change 2%R with (bpow radix2 1); rewrite <- bpow_plus; apply bpow_le; lia). lra.
      - apply relr_div; [lra|lra|lra|apply relr_refl|exact RW]. }
    assert (Q1 : (0 <= / 2 * exp S)%R) by lra. assert (Q2 : (0 <= / 2 * exp (- S))%R) by lra. pose proof (relr_add _ _ _ _ _ Q1 Q2 R1 R2) as R3. replace (/ 2 * exp S + / 2 * exp (- S))%R with ((exp S + exp (- S)) / 2)%R in R3 by field.
    set (v := ((exp S + exp (- S)) / 2)%R) in *. assert (VP : (/ 2 <= v)%R) by (unfold v; lra).
    pose proof (relr_range 0.0000000000000162 _ v ltac:(lra) ltac:(lra) R3) as SR.
    assert (D3 : dbl (add64 (mul64 c_half w) (div64 c_half w)) (RN53 (RN53 (/ 2 * W) + RN53 (/ 2 / W)))).
    { apply (dbl_add _ _ _ _ 200 D1 D2); [|lia]. rewrite Rabs_pos_eq by lra. assert (exp (- S) <= exp S)%R by (destruct (Req_dec S 0) as [->|Q]; [rewrite Ropp_0; lra|left; apply exp_increasing; lra]).
      assert (2 * bpow radix2 160 <= bpow radix2 200)%R by (change 2%R with (bpow radix2 1); rewrite <- bpow_plus; apply bpow_le; lia). unfold v in SR. lra. }
    apply (to_float' _ _ _ _ D3); [lra|lia|].
    assert (R4 : relr 0.0000000000000164 (RN53 (RN53 (/ 2 * W) + RN53 (/ 2 / W))) v).
    { eapply relr_weak; [|apply (relr_round 0.0000000000000162)]; [lra|lra| |exact R3]. apply nice_ge. eapply Rle_trans; [apply (bpow_le radix2 (-1022) (-2)); lia|]. change (bpow radix2 (-2)) with (/ 4)%R. lra. }
    eapply Rle_trans; [exact R4|]. apply Rmult_le_compat_r; [apply Rabs_pos|]. change (bpow radix2 (- (45))) with (/ 35184372088832)%R. lra. }
  exists 0x7F800000.
  assert (SB : (100 <= S)%R). { destruct (Z_le_gt_dec a 0x44317217) as [G|G]; [apply (mid_range a); lia|]. eapply Rle_trans; [|apply (fmag_le 23 8 eq_refl 0x44317217 a); lia]. apply mid_range. lia. }
  destruct (over_cosh S ((exp S + exp (- S)) / 2) SB ltac:(lra)) as [O1 O2]. split; [|apply (nearly_exact _ _ false); [lra|symmetry; apply Rlt_bool_false; lra|apply rounds_huge; exact O1]].
  assert (HW : exists w, expf_ (f2d a) = Ok w /\ huge 142 w).
  { destruct (Z_le_gt_dec a 0x44317217) as [G|G]; [apply (expf_huge _ S DA); apply mid_range; lia|]. exists DINF. split; [apply exp_inf; lia|unfold huge, DINF; lia]. }
  destruct HW as (w & E & H). rewrite E. cbn [bind]. f_equal. destruct (huge_inv 142 w ltac:(lia) H) as (q & DQ & QB). pose proof (huge_half 142 w ltac:(lia) H) as HH.
  apply (d2f_huge 141); [lia|]. apply (huge_add 141 _ _ q); [lia|exact HH|exact DQ|lra].
Qed.

(** ** sinhf *)
Lemma dbl_copysign y W s : dbl y W -> (0 <= W)%R -> dbl (copysign 52 11 y s) (if fneg 52 11 s then - W else W).
Proof.
  intros (A & B & C & D) P. unfold copysign. assert (R : 0 <= fabsb 52 11 y < 2^(52+11)) by (apply Z.mod_pos_bound; reflexivity).
  destruct (with_sign_spec 52 11 eq_refl eq_refl (fneg 52 11 s) _ R) as (W1 & W2 & W3). pose proof (with_sign_fval 52 11 eq_refl eq_refl (fneg 52 11 s) _ R) as W4.
  assert (EM : fmag 52 11 (fabsb 52 11 y) = W). { unfold fval in C. pose proof (fmag_nonneg 52 11 eq_refl (fabsb 52 11 y) ltac:(lia)). destruct (fneg 52 11 y); lra. }
  rewrite EM in W4. split; [exact W3|]. split; [unfold ffinite in *; rewrite W1; exact B|]. split; [exact W4|]. destruct (fneg 52 11 s); [rewrite Rabs_Ropp|]; exact D.
Qed.
Lemma pos_value a : 0 < a < 0x7F800000 -> (bpow radix2 (-149) <= fmag 23 8 a)%R.
Proof.
  intros H. replace (bpow radix2 (-149)) with (fmag 23 8 1); [apply (fmag_le 23 8 eq_refl); lia|]. rewrite fmag32_q by lia. rewrite <- q2_ok. apply Qeq_eqR. vm_compute. reflexivity.
Qed.
Lemma sinh_pos S w W : (0 < S <= 100)%R -> nice (-149) S -> dbl w W -> relr 0.0000000000000272 W (exp S - 1) -> forall s,
  exists r, dbl (mul64 (copysign 52 11 w s) (add64 c_half (div64 c_half (add64 w c_1)))) r /\ relr 0.0000000000000555 r (if fneg 52 11 s then - sinh S else sinh S).
Proof.
  intros HS NS DW RW s. pose proof (exp_lower S) as EL. set (Y := (exp S - 1)%R) in *. assert (YP : (S <= Y)%R) by (unfold Y; lra).
  assert (E2 : (exp S <= bpow radix2 160)%R).
  { rewrite <- exp_bpow. pose proof ln2_dec. destruct (Req_dec S (IZR 160 * ln 2)) as [->|Q]; [lra|]. left. apply exp_increasing. lra. }
  pose proof (relr_range 0.0000000000000272 W Y ltac:(lra) ltac:(lra) RW) as WR.
  assert (VS : sinh S = (Y * (/ 2 + / 2 / (Y + 1)))%R) by (unfold sinh, Y; rewrite exp_Ropp; pose proof (exp_pos S); field; repeat split; lra).
  pose proof (dbl_copysign w W s DW ltac:(lra)) as DC.
  assert (BB : (4 * bpow radix2 160 <= bpow radix2 200)%R) by (change 4%R with (bpow radix2 2); rewrite <- bpow_plus; apply bpow_le; lia).
  assert (B0 : (1 <= bpow radix2 160)%R) by (change 1%R with (bpow radix2 0); apply bpow_le; lia).
  assert (D1 : dbl (add64 w c_1) (RN53 (W + 1))) by (apply (dbl_add _ _ _ _ 200 DW dbl_one); [rewrite Rabs_pos_eq by lra; unfold Y in *; lra|lia]).
  assert (R1 : relr 0.0000000000000274 (RN53 (W + 1)) (Y + 1)).
  { eapply relr_weak; [|apply (relr_round 0.0000000000000272)]; [lra|lra| |].
    - apply nice_ge. eapply Rle_trans; [apply (bpow_le radix2 (-1022) (-2)); lia|]. change (bpow radix2 (-2)) with (/ 4)%R. lra.
    - apply relr_add; [lra|lra|exact RW|]. apply (relr_weak 0); [lra|apply relr_refl]. }
  set (a := RN53 (W + 1)) in *. clearbody a. set (da := add64 w c_1) in *. clearbody da. clear DW.
  pose proof (relr_range 0.0000000000000274 a (Y + 1) ltac:(lra) ltac:(lra) R1) as AR.
  assert (IB : (0 < / 2 / a <= 1)%R).
  { split; [apply Rmult_lt_0_compat; [lra|apply Rinv_0_lt_compat; lra]|]. assert (/ a <= / 0.9)%R by (apply Rinv_le_contravar; lra). assert (/ 0.9 <= 1.2)%R by lra. unfold Rdiv. lra. }
  assert (D2 : dbl (div64 c_half da) (RN53 (/ 2 / a))) by (apply (dbl_div _ _ _ _ 1 dbl_half D1); [lra|change (bpow radix2 1) with 2%R; rewrite Rabs_pos_eq by lra; lra|lia]).
  assert (R2 : relr 0.0000000000000276 (RN53 (/ 2 / a)) (/ 2 / (Y + 1))).
  { eapply relr_weak; [|apply (relr_round (0 + 0.0000000000000274 * 1.0001))]; [lra|lra| |].
    - apply nice_ge. apply Rle_trans with (bpow radix2 (-201)); [apply bpow_le; lia|]. replace (bpow radix2 (-201)) with (/ 2 * / bpow radix2 200)%R by (rewrite <- bpow_opp; change (/ 2)%R with (bpow radix2 (-1)); rewrite <- bpow_plus; reflexivity).
      unfold Rdiv. apply Rmult_le_compat_l; [lra|]. apply Rinv_le_contravar; [lra|]. unfold Y in *. lra.
    - apply relr_div; [lra|lra|lra|apply relr_refl|exact R1]. }
  set (b := RN53 (/ 2 / a)) in *. clearbody b. set (db := div64 c_half da) in *. clearbody db.
  assert (QB : (0 < / 2 / (Y + 1) <= / 2)%R).
  { split; [apply Rmult_lt_0_compat; [lra|apply Rinv_0_lt_compat; lra]|]. assert (/ (Y + 1) <= / 1)%R by (apply Rinv_le_contravar; lra). rewrite Rinv_1 in *. unfold Rdiv. lra. }
  pose proof (relr_range 0.0000000000000276 b _ ltac:(lra) (proj1 QB) R2) as BR.
  assert (D3 : dbl (add64 c_half db) (RN53 (/ 2 + b))) by (apply (dbl_add _ _ _ _ 1 dbl_half D2); [change (bpow radix2 1) with 2%R; rewrite Rabs_pos_eq by lra; lra|lia]).
  assert (R3 : relr 0.0000000000000277 (RN53 (/ 2 + b)) (/ 2 + / 2 / (Y + 1))).
  { unfold relr in R2. rewrite (Rabs_pos_eq (/ 2 / (Y + 1))) in R2 by lra.
    eapply relr_weak; [|apply (relr_round 0.0000000000000138)]; [lra|lra| |].
    - apply nice_ge. eapply Rle_trans; [apply (bpow_le radix2 (-1022) (-2)); lia|]. change (bpow radix2 (-2)) with (/ 4)%R. lra.
    - unfold relr. rewrite (Rabs_pos_eq (/ 2 + / 2 / (Y + 1))) by lra. replace (/ 2 + b - (/ 2 + / 2 / (Y + 1)))%R with (b - / 2 / (Y + 1))%R by ring. lra. }
  set (F := (/ 2 + / 2 / (Y + 1))%R) in *. set (f := RN53 (/ 2 + b)) in *. clearbody f. set (df := add64 c_half db) in *. clearbody df.
  assert (FB : (/ 2 <= F <= 1)%R) by (unfold F; lra). pose proof (relr_range 0.0000000000000277 f F ltac:(lra) ltac:(lra) R3) as FR. clearbody F.
  pose proof (relr_mul 0.0000000000000272 0.0000000000000277 W f Y F ltac:(lra) ltac:(lra) RW R3) as RM. rewrite <- VS in RM.
  assert (WN : (bpow radix2 (-150) <= W)%R).
  { destruct NS as [NS|NS]; [lra|]. rewrite Rabs_pos_eq in NS by lra. replace (bpow radix2 (-150)) with (bpow radix2 (-149) * / 2)%R by (change (/ 2)%R with (bpow radix2 (-1)); rewrite <- bpow_plus; reflexivity). lra. }
  assert (PB : (0 <= W * f <= bpow radix2 200)%R) by (split; [apply Rmult_le_pos; lra|]; apply Rle_trans with (W * 2)%R; [apply Rmult_le_compat_l; lra|unfold Y in *; lra]).
  exists (RN53 ((if fneg 52 11 s then - W else W) * f)). split; [apply (dbl_mul _ _ _ _ 200 DC D3); [|lia]|].
  { destruct (fneg 52 11 s); [rewrite Ropp_mult_distr_l_reverse, Rabs_Ropp|]; rewrite Rabs_pos_eq by lra; lra. }
  eapply relr_weak; [|apply (relr_round (0.0000000000000272 + 0.0000000000000277 + 0.0000000000000272 * 0.0000000000000277))]; [lra|lra| |].
  - right. replace (Rabs ((if fneg 52 11 s then - W else W) * f)) with (W * f)%R by (destruct (fneg 52 11 s); [rewrite Ropp_mult_distr_l_reverse, Rabs_Ropp|]; rewrite Rabs_pos_eq by lra; reflexivity).
    apply Rle_trans with (bpow radix2 (-152)); [apply bpow_le; lia|]. replace (bpow radix2 (-152)) with (bpow radix2 (-150) * / 4)%R by (change (/ 4)%R with (bpow radix2 (-2)); rewrite <- bpow_plus; reflexivity). pose proof (bpow_gt_0 radix2 (-150)). apply Rmult_le_compat; lra.
  - destruct (fneg 52 11 s); [|exact RM]. unfold relr in *. replace (- W * f - - sinh S)%R with (- (W * f - sinh S))%R by ring. rewrite !Rabs_Ropp. exact RM.
Qed.
Lemma f2d_sign x : fbits 23 8 x -> ffinite 23 8 x = true -> fneg 52 11 (f2d x) = fneg 23 8 x.
Proof. intros Hx Fx. apply (f2d_fin x Hx Fx). Qed.
Theorem sinhf_ok x : fbits 23 8 x -> ffinite 23 8 x = true -> fval 23 8 x <> 0%R ->
  exists b, sinhf x = Ok b /\ nearly_rounded 44 (sinh (fval 23 8 x)) b.
Proof.
  intros Hx Fx NZ. destruct (abs_finite x Hx Fx) as [HA HV]. pose proof (f2d_sign x Hx Fx) as FS. rewrite HV, sinh_abs. unfold sinhf.
  assert (A0 : 0 < fabsb 23 8 x). { destruct (Z.eq_dec (fabsb 23 8 x) 0) as [K|K]; [|lia]. exfalso. apply NZ. rewrite HV, K, (fmag_0 23 8 eq_refl). destruct (fneg 23 8 x); lra. }
  set (a := fabsb 23 8 x) in *. rewrite <- FS. set (fx := f2d x) in *. clearbody a fx. clear HV NZ FS Hx Fx x.
  destruct (pos_float a HA) as (A1 & A2 & A3 & A4). set (S := fmag 23 8 a) in *. pose proof (pos_value a ltac:(lia)) as NS. fold S in NS. pose proof (bpow_gt_0 radix2 (-149)) as BP.
  assert (SP : (0 < sinh S)%R) by (unfold sinh; assert (exp (- S) < exp S)%R by (apply exp_increasing; lra); lra).
  destruct (Z_le_gt_dec a 0x42C80000) as [C|C].
  { pose proof (low_range a ltac:(lia)) as RS. fold S in RS. destruct (expm1_ok a 100 A1 A2 ltac:(rewrite A4; lra) ltac:(lra)) as (w & W & E & DW & RW). rewrite E. cbn [bind]. rewrite A4 in RW.
    eexists. split; [reflexivity|].
    assert (RW' : relr 0.0000000000000272 W (exp S - 1)) by (eapply relr_weak; [|exact RW]; unfold eerr; rewrite Rabs_pos_eq by lra; lra).
    destruct (sinh_pos S w W ltac:(lra) ltac:(right; rewrite Rabs_pos_eq by lra; exact NS) DW RW' fx) as (r & DR & RR).
    apply (to_float' _ _ _ _ DR); [destruct (fneg 52 11 fx); lra|lia|]. eapply Rle_trans; [exact RR|]. apply Rmult_le_compat_r; [apply Rabs_pos|]. change (bpow radix2 (- (44))) with (/ 17592186044416)%R. lra. }
  exists (with_sign 23 8 (fneg 52 11 fx) 0x7F800000).
  assert (SB : (100 <= S)%R). { destruct (Z_le_gt_dec a 0x44317217) as [G|G]; [apply (mid_range a); lia|]. eapply Rle_trans; [|apply (fmag_le 23 8 eq_refl 0x44317217 a); lia]. apply mid_range. lia. }
  assert (ES : (exp S / 2 - 1 <= sinh S)%R). { unfold sinh. assert (exp (- S) <= 1)%R by (rewrite <- exp_0; left; apply exp_increasing; lra). lra. }
  destruct (over_cosh S (sinh S) SB ES) as [O1 O2]. pose proof (rounds_huge _ O1) as RH. split.
  2:{ destruct (fneg 52 11 fx).
      - apply (nearly_exact _ _ true); [lra|symmetry; apply Rlt_bool_true; lra|]. change (with_sign 23 8 true 0x7F800000) with (0x7F800000 + 0x80000000). apply rounds_neg; [lia|exact RH].
      - apply (nearly_exact _ _ false); [lra|symmetry; apply Rlt_bool_false; lra|exact RH]. }
  assert (HW : exists w, expm1f_ a = Ok w /\ huge 141 w).
  { destruct (Z_le_gt_dec a 0x44317217) as [G|G]; [apply (expm1_huge a A1 A2); rewrite A4; apply mid_range; lia|]. exists DINF. split; [apply exp_inf; lia|unfold huge, DINF; lia]. }
  destruct HW as (w & E & H). rewrite E. cbn [bind]. f_equal.
  pose proof (huge_add 141 w c_1 1 ltac:(lia) H dbl_one ltac:(lra)) as H1. destruct (huge_inv 141 _ ltac:(lia) H1) as (q & DQ & QB).
  assert (D3 : dbl (add64 c_half (div64 c_half (add64 w c_1))) (RN53 (/ 2 + q))) by (apply (dbl_add _ _ _ _ 1 dbl_half DQ); [change (bpow radix2 1) with 2%R; rewrite Rabs_pos_eq by lra; lra|lia]).
  assert (QR : (/ 2 <= RN53 (/ 2 + q) <= 1)%R).
  { split; [apply RN53_lb; [change (/ 2)%R with (bpow radix2 (-1)); apply F53_bpow; lia|lra]|apply RN53_ub; [change 1%R with (bpow radix2 0); apply F53_bpow; lia|lra]]. }
  unfold copysign. assert (AW : fabsb 52 11 w = w) by (apply Z.mod_small; change (2^(52+11)) with 0x8000000000000000; destruct H; lia). rewrite AW.
  exact (huge_mul 141 w (fneg 52 11 fx) _ _ ltac:(lia) ltac:(lia) H D3 QR).
Qed.

(** ** tanhf *)
Lemma tanh_exp S : tanh S = ((exp (2 * S) - 1) / (exp (2 * S) - 1 + 2))%R.
Proof.
  unfold tanh, sinh, cosh. replace (2 * S)%R with (S + S)%R by ring. rewrite exp_plus, exp_Ropp. pose proof (exp_pos S). field. repeat split; nra.
Qed.
Lemma dbl_2 : dbl 0x4000000000000000 2.
Proof. replace 2%R with (Q2R 2) by (unfold Q2R; cbn [Qnum Qden]; lra). apply dbl_c; reflexivity. Qed.
Lemma twice_ok a : 0 < a <= 0x41102CB3 -> let t := mul32 0x40000000 a in fbits 23 8 t /\ ffinite 23 8 t = true /\ fval 23 8 t = (2 * fmag 23 8 a)%R /\ (2 * fmag 23 8 a <= 18.1)%R.
Proof.
  intros Ha t. destruct (pos_float a ltac:(lia)) as (A1 & A2 & A3 & A4). assert (HC : fbits 23 8 0x40000000) by (split; [lia|reflexivity]).
  assert (E2 : fval 23 8 0x40000000 = 2%R). { unfold fval. change (fneg 23 8 0x40000000) with false. change (fabsb 23 8 0x40000000) with 0x40000000. rewrite fmag32_q by lia. transitivity (Q2R 2); [apply Qeq_eqR; vm_compute; reflexivity|unfold Q2R; cbn [Qnum Qden]; lra]. }
  pose proof (hmul_ok 23 8 eq_refl eq_refl eq_refl 0x40000000 a HC A1 eq_refl A2) as (B1 & _ & B3 & _). rewrite A4, E2 in B3. change (RN 23 8 (2 * fmag 23 8 a)) with (RN24 (2 * fmag 23 8 a)) in B3.
  assert (BA : (0 <= fmag 23 8 a <= 9.05)%R).
  { split; [apply (fmag_nonneg 23 8 eq_refl); lia|]. eapply Rle_trans; [apply (fmag_le 23 8 eq_refl a 0x41102CB3); lia|]. rewrite fmag32_q by lia. eapply Rle_trans; [apply (Q2R_le _ (905 # 100)); vm_compute; reflexivity|]. unfold Q2R. cbn [Qnum Qden]. lra. }
  assert (F : F24 (2 * fmag 23 8 a)).
  { destruct (F24_split (fmag 23 8 a) (fmag_F24 a ltac:(lia))) as (n & e & E & Hn & He). rewrite E. replace (2 * (IZR n * bpow radix2 e))%R with (IZR n * bpow radix2 (e + 1))%R by (rewrite bpow_plus; change (bpow radix2 1) with 2%R; ring).
    apply FLT_multiple; [reflexivity|lia|lia]. }
  rewrite (RN24_id _ F) in B3. destruct B3 as [B3 B4].
  { rewrite Rabs_pos_eq by lra. change (bpow radix2 (2^(8-1))) with (IZR (2^128)). apply Rle_lt_trans with 20%R; [lra|]. apply IZR_lt. reflexivity. }
  split; [exact B1|]. split; [exact B3|]. split; [exact B4|lra].
Qed.
Lemma lt32_pos a b : 0 <= a < 0x7F800000 -> 0 <= b < 0x7F800000 -> lt32 a b = (a <? b).
Proof.
  intros Ha Hb. destruct (pos_float a Ha) as (A1 & A2 & A3 & A4). destruct (pos_float b Hb) as (B1 & B2 & B3 & B4).
  pose proof (hlt_ok 23 8 eq_refl eq_refl a b A1 B1 A2 B2) as K. rewrite A4, B4 in K. unfold lt32. destruct (Z.ltb_spec a b) as [L|L].
  - apply K. apply (fmag_lt 23 8 eq_refl). lia.
  - destruct (hlt 23 8 a b); [|reflexivity]. exfalso. pose proof (proj1 K eq_refl). pose proof (fmag_le 23 8 eq_refl b a ltac:(lia)). lra.
Qed.
Lemma tanh_right a : 0 < a < 0x7F800000 -> (0 < tanh (fmag 23 8 a))%R /\ exists b, tanhf_right_ a = Ok b /\ nearly_rounded 45 (tanh (fmag 23 8 a)) b.
Proof.
  intros Ha. pose proof (pos_value a Ha) as NS. pose proof (bpow_gt_0 radix2 (-149)) as BP. rewrite tanh_exp. unfold tanhf_right_. rewrite lt32_pos by lia. set (S := fmag 23 8 a) in *.
  pose proof (exp_lower (2 * S)) as EL.
  assert (VP : (0 < (exp (2 * S) - 1) / (exp (2 * S) - 1 + 2))%R) by (apply Rmult_lt_0_compat; [lra|apply Rinv_0_lt_compat; lra]). split; [exact VP|].
  destruct (Z.ltb_spec 0x41102CB3 a) as [L|L].
  { exists 0x3F800000. split; [reflexivity|]. apply (nearly_exact _ _ false); [lra|symmetry; apply Rlt_bool_false; lra|].
    assert (K : (26 * ln 2 + 0 <= 2 * S)%R).
    { pose proof (fmag_le 23 8 eq_refl 0x41102CB4 a ltac:(lia)) as M. rewrite (fmag32_q 0x41102CB4) in M by lia. fold S in M. pose proof ln2_bounds as [_ LH].
      assert (KQ : (Q2R (26 * ln2_hi) <= Q2R (2 * qval (f2d 0x41102CB4)))%R) by (apply Q2R_le; vm_compute; reflexivity). rewrite !Q2R_mult in KQ.
      replace (Q2R 26) with 26%R in KQ by (unfold Q2R; cbn [Qnum Qden]; lra). replace (Q2R 2) with 2%R in KQ by (unfold Q2R; cbn [Qnum Qden]; lra). lra. }
    pose proof (exp_above 26 0 (2 * S) K) as E. change (bpow radix2 26) with 67108864%R in E. set (y := exp (2 * S)) in *. clearbody y.
    assert (V1 : (1 - / 33554432 < (y - 1) / (y - 1 + 2) <= 1)%R).
    { replace ((y - 1) / (y - 1 + 2))%R with (1 - 2 * / (y + 1))%R by (field; lra). assert (/ (y + 1) <= / 67108865)%R by (apply Rinv_le_contravar; lra). assert (0 < / (y + 1))%R by (apply Rinv_0_lt_compat; lra). lra. }
    assert (M1 : fmag 23 8 0x3F800000 = 1%R) by (rewrite fmag32_q by lia; rewrite <- Q2R_1; apply Qeq_eqR; vm_compute; reflexivity).
    assert (M0 : F24 1) by (rewrite <- M1; apply fmag_F24; lia).
    set (v := ((y - 1) / (y - 1 + 2))%R) in *. clearbody v.
    apply exact_result; [lia|]. rewrite M1. apply Rle_antisym; [apply Rle_trans with (RN24 1); [apply RN24_le; lra|rewrite (RN24_id 1 M0); lra]|]. apply RN24_ge_mid; [exact M0|].
    assert (PR : pred24 1 = fmag 23 8 0x3F7FFFFF) by (rewrite <- M1; change 0x3F800000 with (0x3F7FFFFF + 1); apply pred24_fmag; lia). rewrite PR, fmag32_q by lia.
    replace (Q2R (qval (f2d 0x3F7FFFFF))) with (1 - / 16777216)%R; [lra|]. transitivity (Q2R (16777215 # 16777216)); [unfold Q2R; cbn [Qnum Qden]; lra|apply Qeq_eqR; vm_compute; reflexivity]. }
  destruct (twice_ok a ltac:(lia)) as (T1 & T2 & T3 & T4). set (t := mul32 0x40000000 a) in *. clearbody t. fold S in T3, T4.
  destruct (expm1_ok t 38 T1 T2 ltac:(rewrite T3; lra) ltac:(lra)) as (w & W & E & DW & RW). rewrite E. cbn [bind]. rewrite T3 in RW. eexists. split; [reflexivity|].
  set (Y := (exp (2 * S) - 1)%R) in *. assert (YP : (2 * S <= Y)%R) by (unfold Y; lra).
  assert (RW' : relr 0.0000000000000123 W Y) by (eapply relr_weak; [|exact RW]; unfold eerr; rewrite Rabs_pos_eq by lra; lra).
  assert (YB : (Y <= bpow radix2 30)%R).
  { unfold Y. assert (exp (2 * S) <= bpow radix2 30)%R; [|lra]. rewrite <- exp_bpow. pose proof ln2_dec. left. apply exp_increasing. lra. } change (bpow radix2 30) with 1073741824%R in YB. clearbody Y.
  pose proof (relr_range 0.0000000000000123 W Y ltac:(lra) ltac:(lra) RW') as WR.
  assert (D1 : dbl (add64 w 0x4000000000000000) (RN53 (W + 2))) by (apply (dbl_add _ _ _ _ 40 DW dbl_2); [change (bpow radix2 40) with 1099511627776%R; rewrite Rabs_pos_eq by lra; lra|lia]).
  assert (R1 : relr 0.0000000000000125 (RN53 (W + 2)) (Y + 2)).
  { eapply relr_weak; [|apply (relr_round 0.0000000000000123)]; [lra|lra| |].
    - apply nice_ge. eapply Rle_trans; [apply (bpow_le radix2 (-1022) 0); lia|]. change (bpow radix2 0) with 1%R. lra.
    - apply relr_add; [lra|lra|exact RW'|]. apply (relr_weak 0); [lra|apply relr_refl]. }
  set (c := RN53 (W + 2)) in *. clearbody c. set (dc := add64 w 0x4000000000000000) in *. clearbody dc.
  pose proof (relr_range 0.0000000000000125 c (Y + 2) ltac:(lra) ltac:(lra) R1) as CR.
  assert (DB : (0 < W / c <= 2)%R).
  { split; [apply Rmult_lt_0_compat; [lra|apply Rinv_0_lt_compat; lra]|]. apply Rmult_le_reg_r with c; [lra|]. unfold Rdiv. rewrite Rmult_assoc, Rinv_l by lra. lra. }
  assert (D2 : dbl (div64 w dc) (RN53 (W / c))) by (apply (dbl_div _ _ _ _ 1 DW D1); [lra|change (bpow radix2 1) with 2%R; rewrite Rabs_pos_eq by lra; lra|lia]).
  apply (to_float' _ _ _ _ D2); [lra|lia|].
  assert (R2 : relr 0.0000000000000252 (RN53 (W / c)) (Y / (Y + 2))).
  { eapply relr_weak; [|apply (relr_round (0.0000000000000123 + 0.0000000000000125 * 1.0001))]; [lra|lra| |].
    - apply nice_ge. apply Rle_trans with (bpow radix2 (-190)); [apply bpow_le; lia|]. replace (bpow radix2 (-190)) with (bpow radix2 (-149) * bpow radix2 (-41))%R by (rewrite <- bpow_plus; reflexivity).
      assert (IC : (bpow radix2 (-41) <= / c)%R). { change (bpow radix2 (-41)) with (/ 2199023255552)%R. apply Rinv_le_contravar; lra. } unfold Rdiv. apply Rmult_le_compat; [lra|apply bpow_ge_0|lra|exact IC].
    - apply relr_div; [lra|lra|lra|exact RW'|exact R1]. }
  eapply Rle_trans; [exact R2|]. apply Rmult_le_compat_r; [apply Rabs_pos|]. change (bpow radix2 (- (45))) with (/ 35184372088832)%R. lra.
Qed.
Theorem tanhf_ok x : fbits 23 8 x -> ffinite 23 8 x = true -> fval 23 8 x <> 0%R ->
  exists b, tanhf x = Ok b /\ nearly_rounded 45 (tanh (fval 23 8 x)) b.
Proof.
  intros Hx Fx NZ. destruct (abs_finite x Hx Fx) as [HA HV]. rewrite HV, tanh_abs. unfold tanhf.
  assert (A0 : 0 < fabsb 23 8 x). { destruct (Z.eq_dec (fabsb 23 8 x) 0) as [K|K]; [|lia]. exfalso. apply NZ. rewrite HV, K, (fmag_0 23 8 eq_refl). destruct (fneg 23 8 x); lra. }
  destruct (tanh_right _ (conj A0 (proj2 HA))) as (VP & b & E & N). rewrite E. cbn [bind]. eexists. split; [reflexivity|]. apply nearly_copysign; assumption.
Qed.
