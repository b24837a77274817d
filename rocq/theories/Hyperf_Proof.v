(** Accuracy of the exponential used by the hyperbolic functions: the kernel,
    the argument reduction, e^x and e^x - 1 in double precision. *)
From Coq Require Import Reals Lra Lia Psatz QArith Qreals Qabs List.
From Flocq Require Import Core BinarySingleNaN Relative Sterbenz.
From Coquelicot Require Import Coquelicot.
From Verif Require Import Base FP FP_Proof HW HW_Proof Midpoint Fmaf_Proof Math_Model Math_Int_Proof Math_Lconv_Proof Hypotf_Real Hypotf_Proof Approx Subdiv Ferr Elem_Spec Elem_Proof Elem_Num Expf_Model Expf_Proof Logf_Model Logf_Kernel Logf_Proof Loginv_Proof Loginv3_Proof Hyperf_Model.
Import ListNotations.
Open Scope Z_scope.
Local Ltac Zify.zify_post_hook ::= idtac.

(** ** relative errors *)
Definition relr (e x y : R) : Prop := (Rabs (x - y) <= e * Rabs y)%R.
Lemma relr_refl y : relr 0 y y.
Proof. unfold relr. rewrite Rminus_diag_eq, Rabs_R0 by reflexivity. lra. Qed.
Lemma relr_weak e f x y : (e <= f)%R -> relr e x y -> relr f x y.
Proof. unfold relr. intros H A. pose proof (Rabs_pos y). nra. Qed.
Lemma relr_ex e x y : (0 <= e)%R -> relr e x y -> exists d, (Rabs d <= e)%R /\ x = (y * (1 + d))%R.
Proof.
  intros He H. destruct (Req_dec y 0) as [Z|Z].
  - exists 0%R. rewrite Rabs_R0. split; [lra|]. subst y. unfold relr in H. rewrite Rabs_R0, Rmult_0_r, Rminus_0_r in H. pose proof (Rabs_pos x) as P.
    assert (Rabs x = 0)%R as Q by lra. destruct (Req_dec x 0) as [W|W]; [lra|]. pose proof (Rabs_pos_lt x W). lra.
  - exists ((x - y) / y)%R. split; [|field; exact Z]. unfold relr in H. pose proof (Rabs_pos_lt y Z). unfold Rdiv. rewrite Rabs_mult, Rabs_inv.
    apply Rmult_le_reg_r with (Rabs y); [lra|]. rewrite Rmult_assoc, Rinv_l, Rmult_1_r by lra. exact H.
Qed.
Lemma relr_of e d y : (Rabs d <= e)%R -> relr e (y * (1 + d)) y.
Proof. intros H. unfold relr. replace (y * (1 + d) - y)%R with (d * y)%R by ring. rewrite Rabs_mult. pose proof (Rabs_pos y). nra. Qed.
Lemma relr_trans e f x y z : (0 <= e)%R -> (0 <= f)%R -> relr e x y -> relr f y z -> relr (e + f + e * f) x z.
Proof.
  intros He Hf A B. destruct (relr_ex _ _ _ He A) as (a & Ha & ->). destruct (relr_ex _ _ _ Hf B) as (b & Hb & ->).
  rewrite Rmult_assoc. replace ((1 + b) * (1 + a))%R with (1 + (a + b + a * b))%R by ring. apply relr_of.
  eapply Rle_trans; [apply Rabs_triang|]. apply Rplus_le_compat; [eapply Rle_trans; [apply Rabs_triang|]; lra|]. rewrite Rabs_mult. pose proof (Rabs_pos a). pose proof (Rabs_pos b). nra.
Qed.
Lemma relr_round e x y : (0 <= e <= 0.000001)%R -> nice (-1022) x -> relr e x y -> relr (e + 0.0000000000000001112) (RN53 x) y.
Proof.
  intros He N A. destruct (R53_ex x N) as (d & Hd & ->). destruct u53_dec as [U0 U1].
  apply (relr_weak (u53 + e + u53 * e)); [nra|]. apply (relr_trans u53 e _ x y); [lra|lra| |exact A]. apply relr_of. exact Hd.
Qed.
Lemma relr_add e x1 x2 y1 y2 : (0 <= y1 -> 0 <= y2 -> relr e x1 y1 -> relr e x2 y2 -> relr e (x1 + x2) (y1 + y2))%R.
Proof.
  unfold relr. intros P1 P2 A B. rewrite (Rabs_pos_eq y1) in A by lra. rewrite (Rabs_pos_eq y2) in B by lra. rewrite (Rabs_pos_eq (y1 + y2)) by lra.
  replace (x1 + x2 - (y1 + y2))%R with ((x1 - y1) + (x2 - y2))%R by ring. eapply Rle_trans; [apply Rabs_triang|]. lra.
Qed.
Lemma relr_mul e f x1 x2 y1 y2 : (0 <= e)%R -> (0 <= f)%R -> relr e x1 y1 -> relr f x2 y2 -> relr (e + f + e * f) (x1 * x2) (y1 * y2).
Proof.
  intros He Hf A B. destruct (relr_ex _ _ _ He A) as (a & Ha & ->). destruct (relr_ex _ _ _ Hf B) as (b & Hb & ->).
  replace (y1 * (1 + a) * (y2 * (1 + b)))%R with (y1 * y2 * (1 + (a + b + a * b)))%R by ring. apply relr_of.
  eapply Rle_trans; [apply Rabs_triang|]. apply Rplus_le_compat; [eapply Rle_trans; [apply Rabs_triang|]; lra|]. rewrite Rabs_mult. pose proof (Rabs_pos a). pose proof (Rabs_pos b). nra.
Qed.
Lemma relr_inv e x y : (0 <= e <= 0.000001)%R -> y <> 0%R -> relr e x y -> relr (e * 1.00001) (/ x) (/ y).
Proof.
  intros He Z A. destruct (relr_ex _ _ _ (proj1 He) A) as (a & Ha & ->). pose proof (Rabs_le_inv _ _ Ha) as Ha'.
  replace (/ (y * (1 + a)))%R with (/ y * (1 + - a / (1 + a)))%R by (field; split; [lra|exact Z]). apply relr_of.
  unfold Rdiv. rewrite Rabs_mult, Rabs_Ropp, Rabs_inv, (Rabs_pos_eq (1 + a)) by lra.
  assert (/ (1 + a) <= 1.00001)%R. { apply Rmult_le_reg_r with (1 + a)%R; [lra|]. rewrite Rinv_l by lra. nra. }
  assert (0 < / (1 + a))%R by (apply Rinv_0_lt_compat; lra). pose proof (Rabs_pos a). nra.
Qed.
Lemma relr_range e x y : (0 <= e <= 0.000001)%R -> (0 < y)%R -> relr e x y -> (0.999999 * y <= x <= 1.000001 * y)%R.
Proof. unfold relr. intros He P A. rewrite (Rabs_pos_eq y) in A by lra. apply Rabs_le_inv in A. split; nra. Qed.

Lemma Q347 : Q2R (347 # 1000) = 0.347%R.
Proof. unfold Q2R. cbn [Qnum Qden]. lra. Qed.

(** ** the kernel near zero *)
Definition kin : fe := hornr [0x3E5AE902082B73E6; 0x3E928A27F8516605; 0x3EC71DE71735C55F;
  0x3EFA019A6B0B0206; 0x3F2A01A017EE7F13; 0x3F56C16C17F2A70F; 0x3F811111111173CC; 0x3FA555555555211A;
  0x3FC5555555555540; 0x3FE0000000000005; 0x3FF0000000000000].
Definition pin : list Q := Eval vm_compute in poly_of kin.
Lemma kin_bits d : kernel_expf_ d = mul64 d (ebits (env1 d d) kin).
Proof. unfold kernel_expf_, kin, hstep. cbn [hornr fold_left hs ebits env1]. reflexivity. Qed.
Lemma kin_poly : epoly kin = Some pin.
Proof. vm_compute. reflexivity. Qed.
Lemma pin_exp V : (Rabs V <= 0.347)%R -> (Rabs (V * peval pin V - (exp V - 1)) <= 0.0000000000000001 * Rabs V)%R.
Proof.
  intros H. assert (C : subdiv pin (expl 15 2 1) 128 7 (-45) 44%nat (9 # 10^17) = true) by (vm_compute; reflexivity).
  pose proof (subdiv_ok _ _ _ _ _ _ _ V C) as A. change (IZR (-45 + 2 * Z.of_nat 45)) with 45%R in A. change (bpow radix2 (- (7))) with (/ 128)%R in A.
  pose proof (Rabs_le_inv _ _ H) as H'. specialize (A ltac:(lra) ltac:(lra)).
  replace (Q2R (9 # 10^17)) with (9 / 100000000000000000)%R in A by (unfold Q2R; cbn [Qnum Qden]; change (Zpos (10^17)) with 100000000000000000; lra).
  pose proof (exp_taylor 16 V 3) as B. rewrite <- expl_ok in B. change (expl 16 1 1) with ((1 # 1) :: expl 15 2 1)%Q in B. cbn [peval] in B.
  set (T := peval (expl 15 2 1) V) in *. set (P := peval pin V) in *. rewrite (pfact_ok 16) in B. change (Zpos (pfact 16)) with 20922789888000 in B.
  replace (Q2R (1 # 1)) with 1%R in B by (unfold Q2R; cbn [Qnum Qden]; lra).
  assert (B' : (Rabs (exp V - (1 + V * T)) <= 3 * Rabs V ^ 16 / 20922789888000)%R) by (apply B; intros t Ht; apply (exp_le3 t V Ht); lra). clear B.
  pose proof (Rabs_pos V) as PV.
  assert (W : (Rabs V ^ 15 <= (/ 2) ^ 15)%R) by (apply pow_incr; lra). assert (E15 : ((/ 2) ^ 15 = / 32768)%R) by (simpl; lra). rewrite E15 in W.
  change (Rabs V ^ 16)%R with (Rabs V * Rabs V ^ 15)%R in B'.
  replace (V * P - (exp V - 1))%R with (V * (P - T) + - (exp V - (1 + V * T)))%R by ring. eapply Rle_trans; [apply Rabs_triang|]. rewrite Rabs_Ropp, Rabs_mult.
  assert (Rabs V * Rabs (P - T) <= Rabs V * (9 / 100000000000000000))%R by (apply Rmult_le_compat_l; [exact PV|exact A]).
  assert (Rabs V * Rabs V ^ 15 <= Rabs V * / 32768)%R by (apply Rmult_le_compat_l; [exact PV|exact W]). lra.
Qed.
Lemma expm1_lower V : (Rabs V <= 0.347)%R -> (0.742 * Rabs V <= Rabs (exp V - 1))%R.
Proof.
  intros H. pose proof (Rabs_le_inv _ _ H) as H'. destruct (Rle_or_lt 0 V) as [P|P].
  - pose proof (exp_lower V). rewrite (Rabs_pos_eq V) by lra. rewrite Rabs_pos_eq by lra. lra.
  - pose proof (exp_upper V ltac:(lra)) as K. rewrite (Rabs_left V) by lra.
    assert (K2 : (/ (1 - V) <= 1 + 0.742 * V)%R). { apply Rmult_le_reg_r with (1 - V)%R; [lra|]. rewrite Rinv_l by lra. nra. }
    rewrite Rabs_left1 by nra. lra.
Qed.
Lemma kernel_expm1 d S : dbl d S -> (Rabs S <= 0.347)%R -> nice (-200) S -> exists T, dbl (kernel_expf_ d) T /\ relr 0.00000000000000065 T (exp S - 1).
Proof.
  intros D B N. destruct u53_dec as [U0 U1].
  assert (NX : nearq d S (347 # 1000) 0).
  { exists S. split; [exact D|]. split; [rewrite Rminus_diag_eq, Rabs_R0, Q2R_0 by reflexivity; apply Rle_refl|]. eapply Rle_trans; [exact B|]. right. symmetry. exact Q347. }
  assert (C : chk2 (347 # 1000) 0 (347 # 1000) 0 kin 2 (20 # 10^17) = true) by (vm_compute; reflexivity).
  pose proof (chk1_ok _ _ _ _ _ _ _ _ C kin_poly NX) as NP. rewrite kin_bits. destruct NP as (y & DP & EP & _). set (p := ebits (env1 d d) kin) in *. clearbody p.
  replace (Q2R (20 # 10^17)) with (20 / 100000000000000000)%R in EP by (unfold Q2R; cbn [Qnum Qden]; change (Zpos (10^17)) with 100000000000000000; lra).
  pose proof (pin_exp S B) as KP. pose proof (expm1_lower S B) as KL. set (P := peval pin S) in *.
  assert (AS := Rabs_pos S).
  assert (PB : (Rabs (exp S - 1) <= 0.54 * 1)%R).
  { pose proof (Rabs_le_inv _ _ B). pose proof (exp_lower S). pose proof (exp_upper S ltac:(lra)) as K. assert (K2 : (/ (1 - S) <= / 0.653)%R) by (apply Rinv_le_contravar; lra). assert (/ 0.653 <= 1.54)%R by lra. apply Rabs_le. lra. }
  assert (PS : (Rabs (exp S - 1) <= 1.54 * Rabs S)%R).
  { pose proof (Rabs_le_inv _ _ B). pose proof (exp_lower S). pose proof (exp_upper S ltac:(lra)) as K. destruct (Rle_or_lt 0 S) as [G|G].
    - rewrite (Rabs_pos_eq S) by lra. rewrite Rabs_pos_eq by lra. assert (K2 : (/ (1 - S) <= 1 + 1.54 * S)%R) by (apply Rmult_le_reg_r with (1 - S)%R; [lra|]; rewrite Rinv_l by lra; nra). lra.
    - rewrite (Rabs_left S) by lra. assert (exp S < 1)%R by (rewrite <- exp_0; apply exp_increasing; exact G). rewrite Rabs_left by lra. lra. }
  assert (SP : (Rabs (S * P) <= 1.55 * Rabs S)%R).
  { replace (S * P)%R with ((S * P - (exp S - 1)) + (exp S - 1))%R by ring. eapply Rle_trans; [apply Rabs_triang|]. lra. }
  assert (SY : (Rabs (S * y - S * P) <= 20 / 100000000000000000 * Rabs S)%R) by (rewrite <- Rmult_minus_distr_l, Rabs_mult; nra).
  assert (SB : (Rabs (S * y) <= 1.56 * Rabs S)%R).
  { replace (S * y)%R with ((S * y - S * P) + S * P)%R by ring. eapply Rle_trans; [apply Rabs_triang|]. lra. }
  assert (DT : dbl (mul64 d p) (RN53 (S * y))) by (apply (dbl_mul _ _ _ _ 1 D DP); [change (bpow radix2 1) with 2%R; lra|lia]).
  exists (RN53 (S * y)). split; [exact DT|].
  assert (NS : nice (-1022) (S * y)).
  { destruct N as [Z|Z]; [left; rewrite Z; ring|right]. eapply Rle_trans; [apply (bpow_le radix2 (-1022) (-201)); lia|].
    assert (K : (0.73 * Rabs S <= Rabs (S * y))%R).
    { assert (T2 : (exp S - 1 = S * y + (- (S * P - (exp S - 1)) + - (S * y - S * P)))%R) by ring. rewrite T2 in KL.
      pose proof (Rabs_triang (S * y) (- (S * P - (exp S - 1)) + - (S * y - S * P))) as T3.
      pose proof (Rabs_triang (- (S * P - (exp S - 1))) (- (S * y - S * P))) as T1. rewrite !Rabs_Ropp in T1. lra. }
    replace (bpow radix2 (-201)) with (/ 2 * bpow radix2 (-200))%R by (change (/ 2)%R with (bpow radix2 (-1)); rewrite <- bpow_plus; reflexivity). lra. }
  destruct (R53_ex _ NS) as (e & He & ->). unfold relr.
  replace (S * y * (1 + e) - (exp S - 1))%R with (S * y * e + ((S * y - S * P) + (S * P - (exp S - 1))))%R by ring.
  eapply Rle_trans; [apply Rabs_triang|]. eapply Rle_trans; [apply Rplus_le_compat_l; apply Rabs_triang|].
  rewrite (Rabs_mult (S * y) e). assert (Rabs (S * y) * Rabs e <= (1.56 * Rabs S) * 0.0000000000000001111)%R by (apply Rmult_le_compat; [apply Rabs_pos|apply Rabs_pos|exact SB|lra]). lra.
Qed.

(** ** 1 + kernel, in either order *)
Definition kexpf' : fe := EAdd (EMul (EV 0) kin) (EC c_1).
Lemma kexpf'_bits d : add64 (kernel_expf_ d) c_1 = ebits (env1 d d) kexpf'.
Proof. rewrite kin_bits. reflexivity. Qed.
Lemma kexpf'_poly : epoly kexpf' = Some pexpf.
Proof. vm_compute. reflexivity. Qed.
Lemma exp_one d S : dbl d S -> (Rabs S <= 0.347)%R ->
  (exists Z, dbl (add64 c_1 (kernel_expf_ d)) Z /\ (Rabs (Z - exp S) <= 0.00000000000000042)%R) /\
  (exists Z, dbl (add64 (kernel_expf_ d) c_1) Z /\ (Rabs (Z - exp S) <= 0.00000000000000042)%R).
Proof.
  intros D B.
  assert (NX : nearq d S (347 # 1000) (9 # 10^17)).
  { exists S. split; [exact D|]. split; [rewrite Rminus_diag_eq, Rabs_R0 by reflexivity; rewrite <- Q2R_0; apply Q2R_le; reflexivity|]. eapply Rle_trans; [exact B|]. right. symmetry. exact Q347. }
  assert (E : Q2R (42 # 10^17) = 0.00000000000000042%R) by (unfold Q2R; cbn [Qnum Qden]; change (Zpos (10^17)) with 100000000000000000; lra).
  split.
  - destruct (kexpf_ok d S NX) as (y & Dy & Ey & _). exists y. rewrite E in Ey. split; assumption.
  - assert (C : chk2 (347 # 1000) (9 # 10^17) (347 # 1000) (9 # 10^17) kexpf' 2 (394 # 10^18) = true) by (vm_compute; reflexivity).
    pose proof (chk1_ok _ _ _ _ _ _ _ _ C kexpf'_poly NX) as (y & Dy & Ey & _). rewrite <- kexpf'_bits in Dy. exists y. split; [exact Dy|].
    pose proof (pexpf_exp S ltac:(eapply Rle_trans; [exact B|]; right; symmetry; exact Q347)) as K.
    assert (K2 : (Q2R ((394 # 10^18) + (25 # 10^18)) <= Q2R (42 # 10^17))%R) by (apply Q2R_le; reflexivity). rewrite Q2R_plus, E in K2.
    replace (y - exp S)%R with ((y - peval pexpf S) + (peval pexpf S - exp S))%R by ring. eapply Rle_trans; [apply Rabs_triang|]. lra.
Qed.
Lemma exp_range V : (Rabs V <= 0.3468)%R -> (0.695 <= exp V <= 1.4379)%R.
Proof.
  intros H. apply Rabs_le_inv in H. assert (E : (exp V = exp (V / 4) * exp (V / 4) * (exp (V / 4) * exp (V / 4)))%R) by (rewrite <- !exp_plus; f_equal; field).
  pose proof (exp_lower (V / 4)) as L. pose proof (exp_upper (V / 4) ltac:(lra)) as U. pose proof (exp_pos (V / 4)).
  assert (U' : (/ (1 - V / 4) <= / 0.9133)%R) by (apply Rinv_le_contravar; lra). assert (/ 0.9133 <= 1.09494)%R by lra.
  set (t := exp (V / 4)) in *. assert (0.9133 <= t <= 1.09494)%R by lra. assert (0.8341 <= t * t <= 1.1989)%R by nra. rewrite E. nra.
Qed.
Lemma exp_small t : (Rabs t <= 0.000001)%R -> (Rabs (exp t - 1) <= 1.00001 * Rabs t)%R.
Proof.
  intros H. apply Rabs_le_inv in H. pose proof (exp_lower t) as L. pose proof (exp_upper t ltac:(lra)) as U.
  assert (K : (/ (1 - t) <= 1 + t + 0.00001 * Rabs t)%R).
  { apply Rmult_le_reg_r with (1 - t)%R; [lra|]. rewrite Rinv_l by lra. destruct (Rle_or_lt 0 t); [rewrite Rabs_pos_eq by lra|rewrite Rabs_left by lra]; nra. }
  pose proof (Rabs_pos t). apply Rabs_le. destruct (Rle_or_lt 0 t); [rewrite Rabs_pos_eq in * by lra|rewrite Rabs_left in * by lra]; lra.
Qed.

(** ** the reduced argument *)
Lemma reduced xd X n k : dbl xd X -> dbl n (IZR k) -> -1025 <= k <= 1025 -> (Rabs (X - IZR k * ln 2) <= 0.3468)%R ->
  exists S, dbl (sub64 xd (mul64 n ln2d)) S /\ (Rabs S <= 0.347)%R /\ (Rabs (S - (X - IZR k * ln 2)) <= 0.000000000000000102 * Rabs (IZR k) + 0.00000000000000004)%R.
Proof.
  intros DX DN Hk HV. destruct u53_dec as [U0 U1]. set (V := (X - IZR k * ln 2)%R) in *. pose proof ln2_dec as LN.
  assert (DL : dbl ln2d (Q2R (qval ln2d))) by (apply dbl_c; reflexivity). set (L := Q2R (qval ln2d)) in *.
  assert (EL : (Rabs (L - ln 2) <= 0.000000000000000024)%R).
  { pose proof (ln2_affine (qval ln2d) (-1) (24 # 10^18) eq_refl eq_refl) as A. fold L in A. replace (Q2R (-1)) with (-1)%R in A by (unfold Q2R; cbn [Qnum Qden]; lra).
    replace (Q2R (24 # 10^18)) with 0.000000000000000024%R in A by (unfold Q2R; cbn [Qnum Qden]; change (Zpos (10^18)) with 1000000000000000000; lra).
    replace (L - ln 2)%R with (L + -1 * ln 2)%R by ring. exact A. }
  pose proof (Rabs_le_inv _ _ EL) as EL'. clearbody L.
  assert (KB : (Rabs (IZR k) <= 1025)%R) by (rewrite <- abs_IZR; apply IZR_le; lia). assert (K0 := Rabs_pos (IZR k)).
  assert (PB : (Rabs (IZR k * L) <= 0.6932 * Rabs (IZR k))%R) by (rewrite Rabs_mult, (Rabs_pos_eq L) by lra; nra).
  assert (DP : dbl (mul64 n ln2d) (RN53 (IZR k * L))) by (apply (dbl_mul _ _ _ _ 10 DN DL); [change (bpow radix2 10) with 1024%R; lra|lia]).
  assert (NP : nice (-1022) (IZR k * L)).
  { destruct (Z.eq_dec k 0) as [->|Z]; [left; ring|right]. eapply Rle_trans; [apply (bpow_le radix2 (-1022) (-1)); lia|]. change (bpow radix2 (-1)) with (/ 2)%R.
    rewrite Rabs_mult, (Rabs_pos_eq L) by lra. assert (1 <= Rabs (IZR k))%R by (rewrite <- abs_IZR; apply IZR_le; lia). nra. }
  destruct (R53_ex _ NP) as (d & Hd & EP). rewrite EP in DP. set (p := mul64 n ln2d) in *. clearbody p.
  assert (E1 : (Rabs (X - IZR k * L * (1 + d) - V) <= 0.000000000000000102 * Rabs (IZR k))%R).
  { unfold V. replace (X - IZR k * L * (1 + d) - (X - IZR k * ln 2))%R with (- (IZR k * (L - ln 2) + IZR k * L * d))%R by ring. rewrite Rabs_Ropp.
    eapply Rle_trans; [apply Rabs_triang|]. rewrite (Rabs_mult (IZR k) (L - ln 2)), (Rabs_mult (IZR k * L) d).
    assert (Rabs (IZR k) * Rabs (L - ln 2) <= Rabs (IZR k) * 0.000000000000000024)%R by (apply Rmult_le_compat_l; [exact K0|exact EL]).
    assert (Rabs (IZR k * L) * Rabs d <= (0.6932 * Rabs (IZR k)) * 0.0000000000000001111)%R by (apply Rmult_le_compat; [apply Rabs_pos|apply Rabs_pos|exact PB|lra]). lra. }
  set (D := (X - IZR k * L * (1 + d))%R) in *.
  assert (DB : (Rabs D <= 0.34685)%R). { replace D with ((D - V) + V)%R by ring. eapply Rle_trans; [apply Rabs_triang|]. lra. }
  exists (RN53 D). split; [apply (dbl_sub _ _ _ _ 1 DX DP); [fold D; change (bpow radix2 1) with 2%R; lra|lia]|].
  pose proof (RN53_err D) as RE. assert (T : (bpow radix2 (-1075) <= 0.0000000000000000001)%R).
  { eapply Rle_trans; [apply (bpow_le radix2 (-1075) (-64)); lia|]. change (bpow radix2 (-64)) with (/ 18446744073709551616)%R. lra. }
  fold u53 in RE. assert (Q1 : (Rabs (RN53 D - D) <= 0.00000000000000004)%R) by nra. split.
  - replace (RN53 D) with ((RN53 D - D) + D)%R by ring. eapply Rle_trans; [apply Rabs_triang|]. lra.
  - replace (RN53 D - V)%R with ((RN53 D - D) + (D - V))%R by ring. eapply Rle_trans; [apply Rabs_triang|]. lra.
Qed.

(** relative error of e^V *)
Definition derr (k : Z) : R := (0.0000000000000001021 * Rabs (IZR k) + 0.00000000000000068)%R.
Lemma derr_pos k : (0 <= derr k)%R.
Proof. unfold derr. pose proof (Rabs_pos (IZR k)). lra. Qed.
Lemma exp_red S V Z k : -1025 <= k <= 1025 -> (Rabs V <= 0.3468)%R -> (Rabs (S - V) <= 0.000000000000000102 * Rabs (IZR k) + 0.00000000000000004)%R ->
  (Rabs (Z - exp S) <= 0.00000000000000042)%R -> relr (derr k) Z (exp V).
Proof.
  intros Hk HV HS HZ. pose proof (exp_range V HV) as R. unfold relr. rewrite (Rabs_pos_eq (exp V)) by lra.
  assert (KB : (Rabs (IZR k) <= 1025)%R) by (rewrite <- abs_IZR; apply IZR_le; lia). assert (K0 := Rabs_pos (IZR k)).
  pose proof (exp_small (S - V) ltac:(lra)) as E.
  assert (ES : (exp S = exp V * exp (S - V))%R) by (rewrite <- exp_plus; f_equal; ring).
  replace (Z - exp V)%R with ((Z - exp S) + exp V * (exp (S - V) - 1))%R by (rewrite ES; ring). eapply Rle_trans; [apply Rabs_triang|].
  rewrite (Rabs_mult (exp V)), (Rabs_pos_eq (exp V)) by lra. unfold derr. 
  assert (exp V * Rabs (exp (S - V) - 1) <= exp V * (1.00001 * (0.000000000000000102 * Rabs (IZR k) + 0.00000000000000004)))%R by (apply Rmult_le_compat_l; lra).
  assert (0.695 * 0.00000000000000061 <= exp V * 0.00000000000000061)%R by (apply Rmult_le_compat_r; lra). nra.
Qed.

Lemma exp_of_red X k : exp X = (exp (X - IZR k * ln 2) * bpow radix2 k)%R.
Proof. rewrite <- exp_bpow, <- exp_plus. f_equal. ring. Qed.
Lemma scaled_rel z Z X k : dbl z Z -> relr (derr k) Z (exp (X - IZR k * ln 2)) -> (Rabs (X - IZR k * ln 2) <= 0.3468)%R -> -500 <= k <= 500 ->
  exists w W, shift_ z k = Ok w /\ dbl w W /\ relr (derr k) W (exp X) /\ (0 < W)%R.
Proof.
  intros D E HV Hk. pose proof (exp_range _ HV) as R. pose proof (derr_pos k) as P.
  assert (PK : (derr k <= 0.000001)%R). { unfold derr. assert (Rabs (IZR k) <= 500)%R by (rewrite <- abs_IZR; apply IZR_le; lia). lra. }
  pose proof (relr_range _ _ _ (conj P PK) (exp_pos _) E) as ZR.
  destruct (shift_ok z Z k D ltac:(lra) ltac:(lia)) as (w & Sw & W1 & W2 & W3 & W4). exists w, (Z * bpow radix2 k)%R. split; [exact Sw|].
  pose proof (bpow_gt_0 radix2 k) as BP.
  split; [|split; [|nra]].
  - split; [exact W1|]. split; [exact W2|]. split; [exact W4|]. rewrite Rabs_mult, (Rabs_pos_eq (bpow radix2 k)), (Rabs_pos_eq Z) by lra.
    apply Rle_trans with (2 * bpow radix2 k)%R; [nra|]. change 2%R with (bpow radix2 1). rewrite <- bpow_plus. apply bpow_le. lia.
  - rewrite (exp_of_red X k). unfold relr in *. rewrite <- Rmult_minus_distr_r, !Rabs_mult, (Rabs_pos_eq (bpow radix2 k)) by lra. rewrite <- Rmult_assoc. apply Rmult_le_compat_r; [lra|exact E].
Qed.
