(** Accuracy of atanf: the derivative of the rational approximation against
    1/(1 + x^2), and the relative error of its evaluation. *)
From Coq Require Import Reals Lra Lia Psatz QArith Qreals Qabs List.
From Flocq Require Import Core BinarySingleNaN Relative Sterbenz.
From Coquelicot Require Import Coquelicot.
From Verif Require Import Base FP FP_Proof HW HW_Proof Tf_Narrow_Proof Midpoint Fmaf_Proof Math_Model Math_Basic_Proof Math_Int_Proof Math_Lconv_Proof Hypotf_Real Hypotf_Proof Approx Subdiv Ferr Elem_Spec Elem_Proof Elem_Num Expf_Model Expf_Proof Logf_Model Logf_Kernel Logf_Proof Loginv_Proof Loginv3_Proof Hyperf_Model Hyperf_Proof Hyperf2_Proof Hyperf3_Proof Atan_Num Atanf_Model.
Import ListNotations.
Open Scope Z_scope.
Local Ltac Zify.zify_post_hook ::= idtac.

Definition natan : list Z := [0x3FD51ECCDFCAC2D3; 0x3FEA76BB574FD358; 0x3FE81E0EECD7A39E; 0x3FD376C8C8D7F7B0; 0x3FAAEC7B648CDAE0; 0x3F6956189256FDDE; 0x3EFBF9FA4ECFDE22].
Definition datan : list Z := [0x3FD51ECCDFCAC2D2; 0x3FEDFBDD7C9C4920; 0x3FF0000000000000; 0x3FDFD22BEF0B32EC; 0x3FBD91FF875E6750; 0x3F8653EA94C28D88; 0x3F31E7FCBB6E641C].
Definition pn : list Q := Eval vm_compute in hornq natan.
Definition pd : list Q := Eval vm_compute in hornq datan.
(** the numerator of the error of the derivative *)
Definition pat : list Q := Eval vm_compute in
  map Qred (psub (pmul [1; 1] (padd (pmul pn pd) (pmul [0; 2] (psub (pmul (pder pn) pd) (pmul pn (pder pd)))))) (pmul pd pd))%Q.
Lemma pat_ok s : peval pat s = ((1 + s) * (peval pn s * peval pd s + 2 * s * (peval (pder pn) s * peval pd s - peval pn s * peval (pder pd) s)) - peval pd s * peval pd s)%R.
Proof.
  transitivity (peval (map Qred (psub (pmul [1; 1] (padd (pmul pn pd) (pmul [0; 2] (psub (pmul (pder pn) pd) (pmul pn (pder pd)))))) (pmul pd pd))%Q) s); [f_equal; vm_compute; reflexivity|].
  rewrite peval_red, psub_ok, pmul_ok, padd_ok, !pmul_ok, psub_ok, !pmul_ok. cbn [peval]. rewrite Q2R_0, Q2R_1. replace (Q2R 2) with 2%R by (unfold Q2R; cbn [Qnum Qden]; lra). ring.
Qed.
Lemma pd_ge q s : Qle_bool 0 q = true -> (Q2R q <= s)%R -> (Q2R (qpeval pd q) <= peval pd s)%R.
Proof. intros A B. apply Q2R_le in A. rewrite Q2R_0 in A. rewrite <- qpeval_ok. apply pnonneg_mono; [vm_compute; reflexivity|lra]. Qed.
Lemma pd_pos s : (0 <= s)%R -> (0.33 <= peval pd s)%R.
Proof.
  intros H. eapply Rle_trans; [|apply (pd_ge 0 s); [reflexivity|rewrite Q2R_0; exact H]]. eapply Rle_trans; [|apply (Q2R_le (33 # 100)); vm_compute; reflexivity]. unfold Q2R. cbn [Qnum Qden]. lra.
Qed.
Lemma pat_piece j lo cnt eps q s : subdiv pat [] 110 j lo cnt (Qred (eps * qpeval pd q * qpeval pd q * (1 + q))) = true -> Qle_bool 0 q = true -> Qle_bool 0 eps = true -> (Q2R q <= s <= 1)%R ->
  (IZR lo * bpow radix2 (- j) <= s <= IZR (lo + 2 * Z.of_nat (S cnt)) * bpow radix2 (- j))%R ->
  (Rabs (peval pat s) <= Q2R eps * (peval pd s * peval pd s * (1 + s)))%R.
Proof.
  intros C A E H I. pose proof (Q2R_le _ _ A) as A'. rewrite Q2R_0 in A'. pose proof (Q2R_le _ _ E) as E'. rewrite Q2R_0 in E'.
  pose proof (subdiv_ok _ _ _ _ _ _ _ s C ltac:(rewrite Rabs_pos_eq; lra) I) as B. cbn [peval] in B. rewrite Rminus_0_r in B. eapply Rle_trans; [exact B|]. rewrite Q2R_red, !Q2R_mult, Q2R_plus, Q2R_1.
  pose proof (pd_ge q s A (proj1 H)) as G. assert (G0 : (0 <= Q2R (qpeval pd q))%R). { rewrite <- qpeval_ok. pose proof (pd_pos (Q2R q) A'). lra. }
  set (d := Q2R (qpeval pd q)) in *. set (e := Q2R eps) in *. rewrite !Rmult_assoc. apply Rmult_le_compat_l; [exact E'|]. rewrite <- !Rmult_assoc.
  assert (0 <= d * d)%R by (apply Rmult_le_pos; lra). assert (d * d <= peval pd s * peval pd s)%R by (apply Rmult_le_compat; lra). apply Rmult_le_compat; lra.
Qed.
Definition eat : Q := 37 # 10^16.
Lemma pat_bound s : (0 <= s <= 1)%R -> (Rabs (peval pat s) <= Q2R eat * (peval pd s * peval pd s * (1 + s)))%R.
Proof.
  intros H. destruct (Rle_or_lt s 0.5) as [L|L].
  { apply (pat_piece 6 0 15 eat 0); [vm_compute; reflexivity|reflexivity|reflexivity|rewrite Q2R_0; lra|]. cbn. lra. }
  destruct (Rle_or_lt s 0.875) as [L1|L1].
  { apply (pat_piece 6 32 11 eat (1 # 2)); [vm_compute; reflexivity|reflexivity|reflexivity|unfold Q2R; cbn [Qnum Qden]; lra|]. cbn. lra. }
  apply (pat_piece 6 56 3 eat (7 # 8)); [vm_compute; reflexivity|reflexivity|reflexivity|unfold Q2R; cbn [Qnum Qden]; lra|]. cbn. lra.
Qed.
Definition fat (t : R) : R := (t * peval pn (t * t) / peval pd (t * t))%R.
Lemma fat_derive (t : R) : is_derive fat t ((peval pn (t * t) * peval pd (t * t) + 2 * (t * t) * (peval (pder pn) (t * t) * peval pd (t * t) - peval pn (t * t) * peval (pder pd) (t * t))) / (peval pd (t * t) * peval pd (t * t)))%R.
Proof.
  assert (ND : peval pd (t * t) <> 0%R) by (pose proof (pd_pos (t * t) (Rle_0_sqr t)); lra).
  assert (N1 : is_derive (fun t => t * peval pn (t * t))%R t (1 * peval pn (t * t) + t * ((2 * t) * peval (pder pn) (t * t)))%R).
  { apply (is_derive_mult (fun t : R => t) (fun t => peval pn (t * t)) t 1%R ((2 * t) * peval (pder pn) (t * t))%R); [apply (is_derive_id t)|apply pder_sq|intros; apply Rmult_comm]. }
  pose proof (is_derive_div _ _ t _ _ N1 (pder_sq pd t) ND) as K. unfold fat. evar_last; [exact K|]. cbv beta. clear - ND. revert ND.
  generalize (peval pd (t * t)) (peval pn (t * t)) (peval (pder pn) (t * t)) (peval (pder pd) (t * t)). intros D N N' D' ND. assert (T : exists u : R, u = t) by (exists t; reflexivity). destruct T as [u <-]. field. exact ND.
Qed.
Lemma atan_rat x : (Rabs x <= 1)%R -> (Rabs (fat x - atan x) <= 0.0000000000000037 * Rabs x)%R.
Proof.
  intros HX. assert (H : (Rabs ((fun t => fat t - atan t) x) <= Q2R eat * (Rabs x)^1 / INR 1)%R).
  { apply (small_derivative_abs (fun t => fat t - atan t)%R (fun t => (peval pn (t * t) * peval pd (t * t) + 2 * (t * t) * (peval (pder pn) (t * t) * peval pd (t * t) - peval pn (t * t) * peval (pder pd) (t * t))) / (peval pd (t * t) * peval pd (t * t)) - / (1 + t * t))%R (Q2R eat) 0).
    - unfold fat. rewrite atan_0. unfold Rdiv. ring.
    - intros t _. apply (is_derive_minus fat atan); [apply fat_derive|apply atan_derive].
    - intros t Ht. cbn [pow]. rewrite Rmult_1_r. assert (S1 : (0 <= t * t <= 1)%R).
      { split; [apply Rle_0_sqr|]. rewrite <- (Rabs_pos_eq (t * t)) by apply Rle_0_sqr. rewrite Rabs_mult. pose proof (Rabs_pos t). nra. }
      pose proof (pat_bound _ S1) as B. rewrite pat_ok in B. pose proof (pd_pos (t * t) ltac:(lra)) as D. set (s := (t * t)%R) in *. set (d := peval pd s) in *.
      set (m := (peval pn s * d + 2 * s * (peval (pder pn) s * d - peval pn s * peval (pder pd) s))%R) in *. clearbody s d m.
      assert (DD : (0 < d * d * (1 + s))%R) by (apply Rmult_lt_0_compat; [nra|lra]). replace (m / (d * d) - / (1 + s))%R with (((1 + s) * m - d * d) / (d * d * (1 + s)))%R by (field; split; nra).
      unfold Rdiv. rewrite Rabs_mult, (Rabs_pos_eq (/ _)) by (left; apply Rinv_0_lt_compat; exact DD). apply Rmult_le_reg_r with (d * d * (1 + s))%R; [exact DD|]. rewrite Rmult_assoc, Rinv_l, Rmult_1_r by lra. exact B. }
  cbv beta in H. eapply Rle_trans; [exact H|]. right. change (INR 1) with 1%R. replace (Q2R eat) with 0.0000000000000037%R by (unfold eat, Q2R; cbn [Qnum Qden]; change (Zpos (10^16)) with 10000000000000000; lra). field.
Qed.
Lemma atan_near x : (Rabs x <= 1)%R -> (2 / 3 * Rabs x <= Rabs (atan x))%R.
Proof.
  intros HX. assert (H : (Rabs ((fun t => atan t - t) x) <= 1 * (Rabs x)^3 / INR 3)%R).
  { apply (small_derivative_abs (fun t => atan t - t)%R (fun t => / (1 + t * t) - 1)%R 1 2).
    - rewrite atan_0. ring.
    - intros t _. apply (is_derive_minus atan (fun t => t)); [apply atan_derive|apply (is_derive_id t)].
    - intros t _. pose proof (Rle_0_sqr t) as K. unfold Rsqr in K. replace (/ (1 + t * t) - 1)%R with (- (t * t / (1 + t * t)))%R by (field; lra). rewrite Rabs_Ropp. unfold Rdiv. rewrite Rabs_mult, (Rabs_pos_eq (/ _)) by (left; apply Rinv_0_lt_compat; lra).
      rewrite (Rabs_pos_eq (t * t)) by lra. replace (Rabs t ^ 2)%R with (t * t)%R by (rewrite pow2_abs; ring). assert (/ (1 + t * t) <= 1)%R by (rewrite <- Rinv_1; apply Rinv_le_contravar; lra). rewrite (Rmult_comm 1). apply Rmult_le_compat_l; lra. }
  cbv beta in H. replace (INR 3) with 3%R in H by (cbn; lra). pose proof (Rabs_pos x) as P. assert (C : (Rabs x ^ 3 <= Rabs x)%R) by (cbn [pow]; nra).
  pose proof (Rabs_triang_inv x (x - atan x)) as T. replace (x - (x - atan x))%R with (atan x) in T by ring. rewrite <- Rabs_Ropp in H. replace (- (atan x - x))%R with (x - atan x)%R in H by ring. lra.
Qed.
Lemma atan_lip a b : (Rabs (atan a - atan b) <= Rabs (a - b))%R.
Proof.
  assert (H : (Rabs ((fun u => atan (b + u) - atan b) (a - b)) <= 1 * (Rabs (a - b))^1 / INR 1)%R).
  { apply (small_derivative_abs (fun u => atan (b + u) - atan b)%R (fun u => / (1 + (b + u) * (b + u)))%R 1 0).
    - rewrite Rplus_0_r. ring.
    - intros t _. replace (/ (1 + (b + t) * (b + t)))%R with (minus (1 * / (1 + (b + t) * (b + t)))%R 0%R) by (unfold minus, plus, opp; cbn; ring).
      apply (is_derive_minus (fun u => atan (b + u)) (fun _ => atan b)); [|apply (is_derive_const (atan b) t)].
      apply (is_derive_comp atan (fun u => b + u)%R t (/ (1 + (b + t) * (b + t)))%R 1%R); [apply atan_derive|]. replace 1%R with (0 + 1)%R by ring. apply (is_derive_plus (fun _ : R => b) (fun u => u) t 0%R 1%R); [apply (is_derive_const b t)|apply (is_derive_id t)].
    - intros t _. cbn [pow]. pose proof (Rle_0_sqr (b + t)) as K. unfold Rsqr in K. rewrite Rabs_pos_eq by (left; apply Rinv_0_lt_compat; lra). rewrite Rmult_1_r, <- Rinv_1. apply Rinv_le_contravar; lra. }
  cbv beta in H. replace (b + (a - b))%R with a in H by ring. change (INR 1) with 1%R in H. lra.
Qed.

Lemma kernel_bits d : kernel_atanf_ d = div64 (mul64 d (hornb natan (mul64 d d))) (hornb datan (mul64 d d)).
Proof. unfold kernel_atanf_, natan, datan. cbn [hornb]. reflexivity. Qed.
Lemma kernel_atan d X : dbl d X -> (Rabs X <= 1)%R -> nice (-200) X -> exists T, dbl (kernel_atanf_ d) T /\ relr 0.0000000000000106 T (atan X).
Proof.
  intros DX HX NX. rewrite kernel_bits.
  assert (S1 : (0 <= X * X <= 1)%R). { split; [apply Rle_0_sqr|]. rewrite <- (Rabs_pos_eq (X * X)) by apply Rle_0_sqr. rewrite Rabs_mult. pose proof (Rabs_pos X). nra. }
  assert (D1 : dbl (mul64 d d) (RN53 (X * X))) by (apply (dbl_mul _ _ _ _ 0 DX DX); [change (bpow radix2 0) with 1%R; rewrite Rabs_pos_eq by lra; lra|lia]).
  pose proof (nice_mul _ _ _ _ NX NX) as NS. change (-200 + -200) with (-400) in NS.
  pose proof (relr_round 0 _ _ ltac:(lra) (nice_weak (-400) (-1022) _ ltac:(lia) NS) (relr_refl (X * X))) as R1. apply (relr_weak _ 0.0000000000000001112) in R1; [|lra].
  destruct (hornb_rel _ _ _ natan D1 S1 NS R1 ltac:(cbn; lia) ltac:(discriminate) ltac:(vm_compute; reflexivity)) as (A & DA & RA & HA).
  destruct (hornb_rel _ _ _ datan D1 S1 NS R1 ltac:(cbn; lia) ltac:(discriminate) ltac:(vm_compute; reflexivity)) as (B & DB & RB & HB).
  change (hornq natan) with pn in *. change (hornq datan) with pd in *. change (INR (length natan)) with (INR 7) in *. change (INR (length datan)) with (INR 7) in *. replace (INR 7) with 7%R in * by (cbn; lra).
  pose proof (pd_pos (X * X) ltac:(lra)) as PD. pose proof (bpow_gt_0 radix2 (-20)) as B20.
  pose proof (atan_rat X HX) as AR. unfold fat in AR. set (N := peval pn (X * X)) in *. set (D := peval pd (X * X)) in *. clearbody N D.
  pose proof (relr_range (0.000000000000000334 * 7) A N ltac:(lra) ltac:(lra) RA) as AN. pose proof (relr_range (0.000000000000000334 * 7) B D ltac:(lra) ltac:(lra) RB) as BD.
  assert (XA : (Rabs (X * A) <= 8)%R) by (rewrite Rabs_mult, (Rabs_pos_eq A) by lra; pose proof (Rabs_pos X); nra).
  assert (NA : nice (-240) (X * A)).
  { apply (nice_weak (-200 + -21)); [lia|]. apply nice_mul; [exact NX|]. apply nice_ge. assert (bpow radix2 (-20) = 2 * bpow radix2 (-21))%R by (change 2%R with (bpow radix2 1); rewrite <- bpow_plus; reflexivity). pose proof (bpow_gt_0 radix2 (-21)). lra. }
  assert (D2 : dbl (mul64 d (hornb natan (mul64 d d))) (RN53 (X * A))) by (apply (dbl_mul _ _ _ _ 3 DX DA); [exact XA|lia]).
  assert (M2 : relr (0.000000000000000334 * 7) (X * A) (X * N)).
  { unfold relr in *. rewrite <- Rmult_minus_distr_l, !Rabs_mult. pose proof (Rabs_pos X). replace (0.000000000000000334 * 7 * (Rabs X * Rabs N))%R with (Rabs X * (0.000000000000000334 * 7 * Rabs N))%R by ring. apply Rmult_le_compat_l; assumption. }
  pose proof (relr_round _ _ _ (ltac:(lra) : (0 <= 0.000000000000000334 * 7 <= 0.000001)%R) (nice_weak (-240) (-1022) _ ltac:(lia) NA) M2) as R2.
  destruct (R53_ex (X * A) (nice_weak (-240) (-1022) _ ltac:(lia) NA)) as (d1 & Hd1 & Ed1). pose proof u53_dec as [U0 U1].
  assert (NB : nice (-241) (RN53 (X * A))) by (rewrite Ed1; apply (nice_u (-240) _ _ NA Hd1)).
  assert (XB : (Rabs (RN53 (X * A)) <= 16)%R). { rewrite Ed1, Rabs_mult. apply Rabs_le_inv in Hd1. assert (Rabs (1 + d1) <= 2)%R by (rewrite Rabs_pos_eq by lra; lra). pose proof (Rabs_pos (1 + d1)). pose proof (Rabs_pos (X * A)). nra. }
  set (P := RN53 (X * A)) in *. clearbody P.
  assert (IB : (/ 8 <= / B <= 4)%R).
  { split; [apply Rinv_le_contravar; lra|]. apply Rmult_le_reg_r with B; [lra|]. rewrite Rinv_l by lra. lra. }
  assert (NQ : nice (-244) (P / B)).
  { unfold Rdiv. apply (nice_weak (-241 + -3)); [lia|]. apply nice_mul; [exact NB|]. apply nice_ge. change (bpow radix2 (-3)) with (/ 8)%R. lra. }
  assert (D3 : dbl (div64 (mul64 d (hornb natan (mul64 d d))) (hornb datan (mul64 d d))) (RN53 (P / B))).
  { apply (dbl_div _ _ _ _ 6 D2 DB); [lra| |lia]. unfold Rdiv. rewrite Rabs_mult, (Rabs_pos_eq (/ B)) by lra. change (bpow radix2 6) with 64%R. pose proof (Rabs_pos P). nra. }
  exists (RN53 (P / B)). split; [exact D3|].
  assert (M3 : relr 0.0000000000000048 (P / B) (X * N / D)).
  { eapply relr_weak; [|apply (relr_div (0.000000000000000334 * 7 + 0.0000000000000001112) (0.000000000000000334 * 7))]; [lra|lra|lra|lra|exact R2|exact RB]. }
  pose proof (relr_round 0.0000000000000048 _ _ ltac:(lra) (nice_weak (-244) (-1022) _ ltac:(lia) NQ) M3) as R3.
  assert (M4 : relr 0.0000000000000056 (X * N / D) (atan X)) . { unfold relr. pose proof (atan_near X HX) as AN2. eapply Rle_trans; [exact AR|]. clear - AN2. pose proof (Rabs_pos X). lra. }
  eapply relr_weak; [|eapply relr_trans; [| |exact R3|exact M4]]; lra.
Qed.

Lemma dbl_pi2 : exists P, dbl d_pi_2 P /\ (Rabs (P - PI / 2) <= 0.000000000000000062)%R.
Proof.
  exists (Q2R (qval d_pi_2)). split; [apply dbl_c; [reflexivity|apply Qeq_bool_iff; reflexivity]|]. pose proof pi_ok as H.
  assert (K : (Rabs (Q2R (qval d_pi_2) - Q2R (pi_q * (1 # 2))) <= Q2R (613 # 10^19))%R) by (rewrite <- Q2R_minus, <- Q2R_abs; apply Q2R_le; vm_compute; reflexivity).
  rewrite Q2R_mult in K. replace (Q2R (1 # 2)) with (/ 2)%R in K by (unfold Q2R; cbn [Qnum Qden]; lra). replace (Q2R (613 # 10^19)) with 0.0000000000000000613%R in K by (unfold Q2R; cbn [Qnum Qden]; change (Zpos (10^19)) with 10000000000000000000; lra).
  apply Rabs_le_inv in K. apply Rabs_le_inv in H. apply Rabs_le. lra.
Qed.
Lemma pi_dec : (3.1415 <= PI <= 3.1416)%R.
Proof.
  pose proof pi_ok as H. apply Rabs_le_inv in H. assert (Q2R (31415 # 10000) + / 10000000000 <= Q2R pi_q)%R. { replace (/ 10000000000)%R with (Q2R (1 # 10^10)) by (unfold Q2R; cbn [Qnum Qden]; change (Zpos (10^10)) with 10000000000; lra). rewrite <- Q2R_plus. apply Q2R_le. vm_compute. reflexivity. }
  assert (Q2R pi_q <= Q2R (3141599 # 1000000))%R by (apply Q2R_le; vm_compute; reflexivity). replace (Q2R (31415 # 10000)) with 3.1415%R in * by (unfold Q2R; cbn [Qnum Qden]; lra). replace (Q2R (3141599 # 1000000)) with 3.141599%R in * by (unfold Q2R; cbn [Qnum Qden]; lra). lra.
Qed.
Lemma atan_inv_sign (s : bool) X : (0 < X)%R -> atan (if s then - X else X) = ((if s then - (PI / 2) else PI / 2) - atan (/ (if s then - X else X)))%R.
Proof. intros H. destruct s; [|rewrite atan_inv by exact H; ring]. rewrite <- (Ropp_inv_permute X) by lra. rewrite !atan_opp, atan_inv by exact H. ring. Qed.
Theorem atanf_ok x : fbits 23 8 x -> ffinite 23 8 x = true -> fval 23 8 x <> 0%R -> nearly_rounded 46 (atan (fval 23 8 x)) (atanf x).
Proof.
  intros Hx Fx NZ. destruct (abs_finite x Hx Fx) as [HA HV]. unfold atanf. set (a := fabsb 23 8 x) in *.
  assert (A0 : 0 < a). { destruct (Z.eq_dec a 0) as [K|K]; [|lia]. exfalso. apply NZ. rewrite HV, K, (fmag_0 23 8 eq_refl). destruct (fneg 23 8 x); lra. }
  pose proof (pos_value a ltac:(lia)) as PV. pose proof (dbl_f2d x Hx Fx) as DX. pose proof (nice_float x Hx Fx) as NX. rewrite lt32_pos by lia.
  assert (M1 : fmag 23 8 0x3F800000 = 1%R) by (rewrite fmag32_q by lia; rewrite <- Q2R_1; apply Qeq_eqR; vm_compute; reflexivity).
  assert (AX : Rabs (fval 23 8 x) = fmag 23 8 a). { rewrite HV. pose proof (bpow_gt_0 radix2 (-149)). destruct (fneg 23 8 x); [rewrite Rabs_Ropp|]; apply Rabs_pos_eq; lra. }
  destruct (Z.ltb_spec 0x3F800000 a) as [L|L].
  - (* |x| > 1 *)
    assert (A1 : (1 < fmag 23 8 a)%R) by (rewrite <- M1; apply (fmag_lt 23 8 eq_refl); lia).
    assert (AU : (fmag 23 8 a <= bpow radix2 128)%R) by (rewrite <- EINF; apply (fmag_le 23 8 eq_refl); lia).
    set (X := fval 23 8 x) in *. set (m := fmag 23 8 a) in *. assert (IM : (bpow radix2 (-128) <= / m <= 1)%R).
    { split; [change (-128) with (- (128)); rewrite bpow_opp; apply Rinv_le_contravar; lra|]. rewrite <- Rinv_1. apply Rinv_le_contravar; lra. }
    assert (X0 : X <> 0%R) by exact NZ. assert (AI : Rabs (/ X) = (/ m)%R) by (rewrite Rabs_inv, AX; reflexivity).
    assert (NI : nice (-128) (/ X)) by (right; rewrite AI; lra).
    assert (D1 : dbl (div64 c_1 (f2d x)) (RN53 (1 / X))) by (apply (dbl_div _ _ _ _ 0 dbl_one DX X0); [unfold Rdiv; rewrite Rmult_1_l, AI; change (bpow radix2 0) with 1%R; lra|lia]).
    replace (1 / X)%R with (/ X)%R in D1 by (unfold Rdiv; ring).
    pose proof (relr_round 0 _ _ ltac:(lra) (nice_weak (-128) (-1022) _ ltac:(lia) NI) (relr_refl (/ X))) as R1. destruct (R53_ex (/ X) (nice_weak (-128) (-1022) _ ltac:(lia) NI)) as (d1 & Hd1 & Ed1).
    assert (NY : nice (-129) (RN53 (/ X))) by (rewrite Ed1; apply (nice_u (-128) _ _ NI Hd1)).
    assert (Y1 : (Rabs (RN53 (/ X)) <= 1)%R).
    { apply Rabs_le. assert (F1 : F53 1) by (change 1%R with (bpow radix2 0); apply F53_bpow; lia). assert (BI : (-1 <= / X <= 1)%R) by (apply Rabs_le_inv; rewrite AI; lra).
      split; [apply RN53_lb; [apply generic_format_opp; exact F1|lra]|apply RN53_ub; [exact F1|lra]]. }
    set (Y := RN53 (/ X)) in *. clearbody Y. destruct (kernel_atan _ Y D1 Y1 (nice_weak (-129) (-200) _ ltac:(lia) NY)) as (K & DK & RK).
    destruct dbl_pi2 as (P & DP & HP). pose proof pi_dec as PI3. assert (P0 : (0 <= P)%R) by (apply Rabs_le_inv in HP; lra).
    pose proof (dbl_copysign d_pi_2 P (f2d x) DP P0) as DC. rewrite (f2d_sign x Hx Fx) in DC.
    set (V := atan X) in *. set (Pi := (if fneg 23 8 x then - (PI / 2) else PI / 2)%R).
    assert (EV : V = (Pi - atan (/ X))%R) by (unfold V, Pi; rewrite HV; apply atan_inv_sign; lra).
    set (C := (if fneg 23 8 x then - P else P)%R) in *. assert (HC : (Rabs (C - Pi) <= 0.000000000000000062)%R).
    { unfold C, Pi. destruct (fneg 23 8 x); [replace (- P - - (PI / 2))%R with (- (P - PI / 2))%R by ring; rewrite Rabs_Ropp|]; exact HP. }
    assert (VL : (0.785 <= Rabs V)%R).
    { unfold V. rewrite HV. assert (PI / 4 < atan m)%R by (rewrite <- atan_1; apply atan_increasing; exact A1). destruct (fneg 23 8 x); [rewrite atan_opp, Rabs_Ropp|]; fold m; rewrite Rabs_pos_eq; lra. }
    pose proof (atan_lip Y (/ X)) as LP. unfold relr in R1, RK. rewrite AI in R1.
    assert (YA : (Rabs (atan Y) <= 0.7855)%R).
    { apply Rabs_le_inv in Y1. apply Rabs_le. assert (PI / 4 <= 0.7855)%R by lra.
      assert (atan Y <= PI / 4)%R by (rewrite <- atan_1; destruct (Rle_lt_or_eq_dec Y 1 (proj2 Y1)) as [Q|Q]; [left; apply atan_increasing; exact Q|right; rewrite Q; reflexivity]).
      assert (- (PI / 4) <= atan Y)%R by (rewrite <- atan_1, <- atan_opp; destruct (Rle_lt_or_eq_dec (-1) Y ltac:(lra)) as [Q|Q]; [left; apply atan_increasing; lra|right; rewrite <- Q; f_equal; lra]). lra. }
    assert (BD : (Rabs (C - K - V) <= 0.0000000000000085)%R).
    { replace (C - K - V)%R with ((C - Pi) + (- (K - atan Y) + - (atan Y - atan (/ X))))%R by (rewrite EV; ring). eapply Rle_trans; [apply Rabs_triang|]. eapply Rle_trans; [apply Rplus_le_compat_l, Rabs_triang|]. rewrite !Rabs_Ropp. lra. }
    assert (RR : relr 0.0000000000000109 (C - K) V) by (unfold relr; lra).
    assert (VU : (Rabs V <= 2)%R) by (pose proof (atan_bound X); apply Rabs_le; fold V in H; lra).
    assert (CK : (0.7 <= Rabs (C - K) <= 3)%R).
    { pose proof (Rabs_triang (C - K - V) V) as T1. replace (C - K - V + V)%R with (C - K)%R in T1 by ring. pose proof (Rabs_triang_inv V (V - (C - K))) as T2. replace (V - (V - (C - K)))%R with (C - K)%R in T2 by ring. rewrite (Rabs_minus_sym V (C - K)) in T2. lra. }
    assert (D2 : dbl (sub64 (copysign 52 11 d_pi_2 (f2d x)) (kernel_atanf_ (div64 c_1 (f2d x)))) (RN53 (C - K))) by (apply (dbl_sub _ _ _ _ 2 DC DK); [change (bpow radix2 2) with 4%R; lra|lia]).
    assert (NCK : nice (-1022) (C - K)) by (right; eapply Rle_trans; [apply (bpow_le radix2 (-1022) (-1)); lia|]; change (bpow radix2 (-1)) with (/ 2)%R; lra).
    pose proof (relr_round 0.0000000000000109 _ _ ltac:(lra) NCK RR) as RF. assert (V0 : V <> 0%R) by (intros Q; rewrite Q, Rabs_R0 in VL; lra).
    apply (to_float' _ _ _ _ D2); [exact V0|lia|]. eapply Rle_trans; [exact RF|]. apply Rmult_le_compat_r; [apply Rabs_pos|]. change (bpow radix2 (- (46))) with (/ 70368744177664)%R. lra.
  - assert (A1 : (fmag 23 8 a <= 1)%R) by (rewrite <- M1; apply (fmag_le 23 8 eq_refl); lia).
    destruct (kernel_atan _ _ DX ltac:(rewrite AX; exact A1) (nice_weak (-149) (-200) _ ltac:(lia) NX)) as (T & DT & RT).
    assert (V0 : atan (fval 23 8 x) <> 0%R). { intros Q. pose proof (atan_near (fval 23 8 x) ltac:(rewrite AX; exact A1)) as N. rewrite Q, Rabs_R0, AX in N. pose proof (bpow_gt_0 radix2 (-149)). lra. }
    apply (to_float' _ _ _ _ DT); [exact V0|lia|]. eapply Rle_trans; [exact RT|]. apply Rmult_le_compat_r; [apply Rabs_pos|]. change (bpow radix2 (- (46))) with (/ 70368744177664)%R. lra.
Qed.
