(** Accuracy of asinf and acosf. *)
From Coq Require Import Reals Lra Lia Psatz QArith Qreals Qabs List.
From Flocq Require Import Core BinarySingleNaN Relative Sterbenz Mult_error.
From Coquelicot Require Import Coquelicot.
From Verif Require Import Base FP FP_Proof HW HW_Proof Tf_Narrow_Proof Midpoint Fmaf_Proof Math_Model Math_Basic_Proof Math_Int_Proof Math_Lconv_Proof Hypotf_Model Hypotf_Real Hypotf_Proof Approx Subdiv Ferr Elem_Spec Elem_Proof Elem_Num Expf_Model Expf_Proof Logf_Model Logf_Kernel Logf_Proof Loginv_Proof Loginv3_Proof Hyperf_Model Hyperf_Proof Hyperf2_Proof Hyperf3_Proof Atan_Num Atanf_Model Atanf_Proof Asinf_Model Asin_Num.
Import ListNotations.
Open Scope Z_scope.
Local Ltac Zify.zify_post_hook ::= idtac.
#[local] Instance prec53 : Prec_gt_0 53 := eq_refl.
Lemma has_odd t : has (- t) = (- has t)%R.
Proof. unfold has, fas. rewrite asin_opp. replace (- t * - t)%R with (t * t)%R by ring. ring. Qed.
Lemma has_abs t : (Rabs t <= / 2)%R -> (Rabs (has t) <= 0.0000000000000113 /\ Rabs (has t) <= 0.000000000000025 * Rabs t)%R.
Proof.
  intros H. destruct (Rle_or_lt 0 t) as [P|P]; [rewrite (Rabs_pos_eq t) in * by exact P; apply has_bound; lra|].
  rewrite (Rabs_left t) in * by exact P. assert (E : has t = (- has (- t))%R) by (rewrite has_odd; ring). rewrite E, Rabs_Ropp. apply has_bound. lra.
Qed.
Lemma fas_abs t : (Rabs t <= / 2)%R -> (Rabs t <= Rabs (fas t) <= 1.05 * Rabs t)%R.
Proof.
  intros H. assert (S : (0 <= t * t <= / 4)%R). { split; [apply Rle_0_sqr|]. rewrite <- (Rabs_pos_eq (t * t)) by apply Rle_0_sqr. rewrite Rabs_mult. pose proof (Rabs_pos t). nra. }
  pose proof (pasin_range _ S) as P. unfold fas. set (s := (t * t)%R) in *. set (p := peval pasin s) in *. clearbody s p. replace (t + t * s * p)%R with (t * (1 + s * p))%R by ring. rewrite Rabs_mult.
  assert (0 <= s * p <= 0.05)%R by (split; [apply Rmult_le_pos; lra|]; apply Rle_trans with (/ 4 * 0.2)%R; [apply Rmult_le_compat; lra|lra]). rewrite (Rabs_pos_eq (1 + s * p)) by lra. pose proof (Rabs_pos t). nra.
Qed.
Lemma asin_abs t : (Rabs t <= / 2)%R -> (0.999 * Rabs t <= Rabs (asin t) <= 1.051 * Rabs t)%R.
Proof.
  intros H. pose proof (fas_abs t H) as F. destruct (has_abs t H) as [_ B]. unfold has in B. pose proof (Rabs_triang_inv (fas t) (fas t - asin t)) as T1. replace (fas t - (fas t - asin t))%R with (asin t) in T1 by ring.
  pose proof (Rabs_triang (fas t) (- (fas t - asin t))) as T2. replace (fas t + - (fas t - asin t))%R with (asin t) in T2 by ring. rewrite Rabs_Ropp in T2. pose proof (Rabs_pos t). lra.
Qed.

Lemma kernel_asin tb ub T U t : dbl tb T -> dbl ub U -> (Rabs t <= / 2)%R -> nice (-200) t -> relr 0.0000000000000001112 T t -> relr 0.0000000000000001112 U (t * t) ->
  exists K, dbl (kernel_asin_ tb ub) K /\ (Rabs (K - asin t) <= 0.0000000000000115)%R /\ relr 0.000000000000026 K (asin t).
Proof.
  intros DT DU HT NT RT RU.
  assert (S1 : (0 <= t * t <= / 4)%R). { split; [apply Rle_0_sqr|]. rewrite <- (Rabs_pos_eq (t * t)) by apply Rle_0_sqr. rewrite Rabs_mult. pose proof (Rabs_pos t). nra. }
  pose proof (nice_mul _ _ _ _ NT NT) as NS. change (-200 + -200) with (-400) in NS. pose proof (pasin_range _ S1) as PR.
  assert (NU : nearq ub (t * t) (1 # 4) (28 # 10^18)).
  { exists U. split; [exact DU|]. unfold relr in RU. rewrite (Rabs_pos_eq (t * t)) in * by lra. unfold Q2R. cbn [Qnum Qden]. change (Zpos (10^18)) with 1000000000000000000. lra. }
  assert (C : chk2 (1 # 4) (28 # 10^18) (1 # 4) (28 # 10^18) kasin 1 (1 # 10^16) = true) by (vm_compute; reflexivity).
  pose proof (chk1_ok _ _ _ _ _ _ _ _ C kasin_poly NU) as (p & DP & EP & _). rewrite <- kasin_bits in DP.
  replace (Q2R (1 # 10^16)) with 0.0000000000000001%R in EP by (unfold Q2R; cbn [Qnum Qden]; change (Zpos (10^16)) with 10000000000000000; lra).
  pose proof (fas_abs t HT) as FA. destruct (has_abs t HT) as [HA HB]. pose proof (asin_abs t HT) as AA. unfold has in HA, HB. assert (EF : fas t = (t + t * (t * t) * peval pasin (t * t))%R) by reflexivity.
  set (F := fas t) in *. clearbody F. set (P := peval pasin (t * t)) in *. clearbody P.
  assert (RP : relr 0.000000000000000625 p P) by (unfold relr; rewrite (Rabs_pos_eq P) by lra; lra).
  unfold kernel_asin_. set (pp := poly_asin_ ub) in *. clearbody pp. pose proof (Rabs_pos t) as T0.
  pose proof (relr_mul _ _ _ _ _ _ (ltac:(lra) : (0 <= 0.0000000000000001112)%R) (ltac:(lra) : (0 <= 0.0000000000000001112)%R) RT RU) as M1.
  apply (relr_weak _ 0.000000000000000223) in M1; [|lra].
  assert (N1 : nice (-603) (T * U)).
  { destruct (relr_ex _ _ _ (ltac:(lra) : (0 <= 0.000000000000000223)%R) M1) as (d & Hd & ->). apply (nice_near (-602)); [|lra]. apply (nice_weak (-200 + -400)); [lia|]. apply nice_mul; assumption. }
  assert (B1 : (Rabs (t * (t * t)) <= / 4 * Rabs t)%R) by (rewrite Rabs_mult, (Rabs_pos_eq (t * t)) by lra; nra).
  assert (B2 : (Rabs (T * U) <= Rabs t)%R).
  { unfold relr in M1. pose proof (Rabs_triang (T * U - t * (t * t)) (t * (t * t))) as Q. replace (T * U - t * (t * t) + t * (t * t))%R with (T * U)%R in Q by ring. lra. }
  assert (D1 : dbl (mul64 tb ub) (RN53 (T * U))) by (apply (dbl_mul _ _ _ _ 0 DT DU); [change (bpow radix2 0) with 1%R; lra|lia]).
  pose proof (relr_round _ _ _ (ltac:(lra) : (0 <= 0.000000000000000223 <= 0.000001)%R) (nice_weak (-603) (-1022) _ ltac:(lia) N1) M1) as R1.
  assert (N2 : nice (-604) (RN53 (T * U))).
  { destruct (R53_ex (T * U) (nice_weak (-603) (-1022) _ ltac:(lia) N1)) as (d & Hd & ->). apply (nice_u (-603)); assumption. }
  set (TU := RN53 (T * U)) in *. clearbody TU.
  assert (N3 : nice (-610) (TU * p)). { apply (nice_weak (-604 + -4)); [lia|]. apply nice_mul; [exact N2|]. apply nice_ge. change (bpow radix2 (-4)) with (/ 16)%R. apply Rabs_le_inv in EP. lra. }
  pose proof (relr_mul (0.000000000000000223 + 0.0000000000000001112) 0.000000000000000625 _ _ _ _ ltac:(lra) ltac:(lra) R1 RP) as M2. apply (relr_weak _ 0.00000000000000096) in M2; [|lra].
  assert (B3 : (Rabs (t * (t * t) * P) <= 0.05 * Rabs t)%R) by (rewrite Rabs_mult, (Rabs_pos_eq P) by lra; pose proof (Rabs_pos (t * (t * t))); nra).
  assert (B4 : (Rabs (TU * p) <= 0.06 * Rabs t)%R).
  { unfold relr in M2. pose proof (Rabs_triang (TU * p - t * (t * t) * P) (t * (t * t) * P)) as Q. replace (TU * p - t * (t * t) * P + t * (t * t) * P)%R with (TU * p)%R in Q by ring. lra. }
  assert (D2 : dbl (mul64 (mul64 tb ub) pp) (RN53 (TU * p))) by (apply (dbl_mul _ _ _ _ 0 D1 DP); [change (bpow radix2 0) with 1%R; lra|lia]).
  pose proof (relr_round _ _ _ (ltac:(lra) : (0 <= 0.00000000000000096 <= 0.000001)%R) (nice_weak (-610) (-1022) _ ltac:(lia) N3) M2) as R2.
  set (W := RN53 (TU * p)) in *. clearbody W.
  assert (RS : relr 0.00000000000000017 (T + W) F).
  { unfold relr in *. rewrite EF. replace (T + W - (t + t * (t * t) * P))%R with ((T - t) + (W - t * (t * t) * P))%R by ring. eapply Rle_trans; [apply Rabs_triang|]. rewrite <- EF. lra. }
  assert (B5 : (Rabs (T + W) <= 1.1 * Rabs t)%R).
  { unfold relr in RS. pose proof (Rabs_triang (T + W - F) F) as Q. replace (T + W - F + F)%R with (T + W)%R in Q by ring. lra. }
  assert (D3 : dbl (add64 tb (mul64 (mul64 tb ub) pp)) (RN53 (T + W))) by (apply (dbl_add _ _ _ _ 0 DT D2); [change (bpow radix2 0) with 1%R; lra|lia]).
  assert (N4 : nice (-1022) (T + W)).
  { destruct (relr_ex _ _ _ (ltac:(lra) : (0 <= 0.00000000000000017)%R) RS) as (d & Hd & ->). apply (nice_weak (-200 - 1)); [lia|]. apply nice_near; [|lra]. destruct NT as [Z|Z]; [left; rewrite EF, Z; ring|right; lra]. }
  pose proof (relr_round _ _ _ (ltac:(lra) : (0 <= 0.00000000000000017 <= 0.000001)%R) N4 RS) as R3. unfold relr in R3.
  exists (RN53 (T + W)). split; [exact D3|]. set (K := RN53 (T + W)) in *. clearbody K.
  assert (Q : (Rabs (K - asin t) <= Rabs (K - F) + Rabs (F - asin t))%R) by (replace (K - asin t)%R with ((K - F) + (F - asin t))%R by ring; apply Rabs_triang).
  split; [lra|]. unfold relr. lra.
Qed.
Lemma dbl_abs d X : dbl d X -> dbl (fabsb 52 11 d) (Rabs X).
Proof.
  intros (A & B & C & D). assert (R : 0 <= fabsb 52 11 d < 2^(52+11)) by (apply Z.mod_pos_bound; reflexivity).
  assert (I : fabsb 52 11 (fabsb 52 11 d) = fabsb 52 11 d) by (apply Z.mod_small; exact R).
  assert (N : fneg 52 11 (fabsb 52 11 d) = false) by (unfold fneg; apply Z.leb_gt; exact (proj2 R)).
  split; [split; [lia|change (2^(52+11+1)) with (2 * 2^(52+11)); lia]|]. split; [unfold ffinite in *; rewrite I; exact B|].
  pose proof (fmag_nonneg 52 11 eq_refl (fabsb 52 11 d) ltac:(lia)) as M. split; [|rewrite Rabs_Rabsolu; exact D].
  rewrite <- C. unfold fval. rewrite I, N. destruct (fneg 52 11 d); [rewrite Rabs_Ropp|]; symmetry; apply Rabs_pos_eq; exact M.
Qed.
Lemma acos_half A : (0 <= A <= 1)%R -> (sqrt ((1 - A) / 2) <= / 2)%R -> acos A = (2 * asin (sqrt ((1 - A) / 2)))%R.
Proof.
  intros H L. set (s := sqrt ((1 - A) / 2)) in *. assert (S0 : (0 <= s)%R) by apply sqrt_pos. assert (SS : (s * s = (1 - A) / 2)%R) by (apply sqrt_sqrt; lra).
  assert (SA : sin (asin s) = s) by (apply sin_asin; lra). destruct (has_bound s ltac:(lra)) as [_ B]. pose proof (fas_abs s ltac:(rewrite Rabs_pos_eq; lra)) as F. unfold has in B.
  assert (FP : (0 <= fas s)%R). { unfold fas. pose proof (pasin_range (s * s) ltac:(nra)). assert (0 <= s * (s * s) * peval pasin (s * s))%R by (apply Rmult_le_pos; [apply Rmult_le_pos; nra|lra]). lra. }
  rewrite (Rabs_pos_eq s), (Rabs_pos_eq (fas s)) in F by lra. apply Rabs_le_inv in B. pose proof (asin_bound s) as AB.
  rewrite <- (acos_cos (2 * asin s)) by lra. f_equal. rewrite cos_2a_sin, SA. lra.
Qed.
(** 2 asin(sqrt((1 - A)/2)) for a float A in [1/2, 1) *)
Lemma twice_ok a A : dbl a A -> (/ 2 <= A <= 1 - bpow radix2 (-24))%R -> exists K, dbl (twice_ a) K /\ (Rabs (K - acos A) <= 0.0000000000000234)%R /\ relr 0.000000000000027 K (acos A) /\ (0 < acos A <= 1.0511)%R.
Proof.
  intros DA HA. assert (B24 : bpow radix2 (-24) = (/ 16777216)%R) by reflexivity. rewrite B24 in HA.
  assert (FD : F53 (1 - A)). { apply (sterbenz radix2 (FLT_exp (-1074) 53)); [apply (dbl_fin _ _ dbl_one)|apply (dbl_fin _ _ DA)|lra]. }
  assert (D1 : dbl (sub64 c_1 a) (1 - A)). { rewrite <- (RN53_id (1 - A)) by exact FD. apply (dbl_sub _ _ _ _ 0 dbl_one DA); [change (bpow radix2 0) with 1%R; rewrite Rabs_pos_eq; lra|lia]. }
  assert (FH : F53 (/ 2 * (1 - A))).
  { rewrite Rmult_comm. change (/ 2)%R with (bpow radix2 (-1)). apply mult_bpow_exact_FLT; [exact FD|]. assert (-23 <= mag radix2 (1 - A)) by (apply mag_ge_bpow; change (-23 - 1) with (-24); rewrite B24, Rabs_pos_eq; lra). lia. }
  assert (D2 : dbl (mul64 c_half (sub64 c_1 a)) ((1 - A) / 2)).
  { replace ((1 - A) / 2)%R with (/ 2 * (1 - A))%R by (unfold Rdiv; ring). rewrite <- (RN53_id (/ 2 * (1 - A))) by exact FH. apply (dbl_mul _ _ _ _ 0 dbl_half D1); [change (bpow radix2 0) with 1%R; rewrite Rabs_pos_eq; lra|lia]. }
  unfold twice_. set (u := mul64 c_half (sub64 c_1 a)) in *. clearbody u. set (s := sqrt ((1 - A) / 2)).
  assert (SS : (s * s = (1 - A) / 2)%R) by (apply sqrt_sqrt; lra). assert (S0 : (0 <= s)%R) by apply sqrt_pos. assert (SB : (/ 8192 <= s <= / 2)%R) by nra.
  assert (D3 : dbl (sqrt64 u) (RN53 s)). { apply dbl_sqrt; [exact D2|lra|]. apply Rle_trans with (bpow radix2 0); [change (bpow radix2 0) with 1%R; lra|apply bpow_le; lia]. }
  assert (NS : nice (-13) s) by (right; rewrite Rabs_pos_eq by lra; change (bpow radix2 (-13)) with (/ 8192)%R; lra).
  pose proof (relr_round 0 _ _ ltac:(lra) (nice_weak (-13) (-1022) _ ltac:(lia) NS) (relr_refl s)) as R1. apply (relr_weak _ 0.0000000000000001112) in R1; [|lra].
  assert (R2 : relr 0.0000000000000001112 ((1 - A) / 2) (s * s)) by (rewrite SS; apply (relr_weak 0); [lra|apply relr_refl]).
  destruct (kernel_asin _ _ _ _ s D3 D2 ltac:(rewrite Rabs_pos_eq; lra) (nice_weak (-13) (-200) _ ltac:(lia) NS) R1 R2) as (K & DK & EK & RK).
  assert (EA : acos A = (2 * asin s)%R) by (apply acos_half; [lra|exact (proj2 SB)]). rewrite EA.
  pose proof (asin_abs s ltac:(rewrite Rabs_pos_eq; lra)) as AA. rewrite (Rabs_pos_eq s) in AA by lra.
  assert (AP : (0 <= asin s)%R). { pose proof (acos_bound A) as Q. rewrite EA in Q. lra. } rewrite (Rabs_pos_eq (asin s)) in AA by exact AP.
  assert (KB : (0 <= K <= 0.53)%R). { unfold relr in RK. rewrite (Rabs_pos_eq (asin s)) in RK by lra. apply Rabs_le_inv in RK. lra. }
  assert (D4 : dbl (mul64 c_2 (kernel_asin_ (sqrt64 u) u)) (RN53 (2 * K))) by (apply (dbl_mul _ _ _ _ 1 dbl_two DK); [change (bpow radix2 1) with 2%R; rewrite Rabs_pos_eq; lra|lia]).
  assert (R3 : relr 0.000000000000026 (2 * K) (2 * asin s)).
  { unfold relr in *. rewrite <- Rmult_minus_distr_l, !Rabs_mult, (Rabs_pos_eq 2) by lra. lra. }
  assert (N2 : nice (-1022) (2 * K)).
  { apply nice_ge. apply Rle_trans with (bpow radix2 (-13)); [apply bpow_le; lia|]. change (bpow radix2 (-13)) with (/ 8192)%R. unfold relr in RK. rewrite (Rabs_pos_eq (asin s)) in RK by lra. apply Rabs_le_inv in RK. lra. }
  destruct (R53_ex _ N2) as (d & Hd & Ed). pose proof u53_dec as [U0 U1].
  pose proof (relr_round _ _ _ (ltac:(lra) : (0 <= 0.000000000000026 <= 0.000001)%R) N2 R3) as R4. exists (RN53 (2 * K)). split; [exact D4|]. split; [|split; [eapply relr_weak; [|exact R4]; lra|lra]].
  rewrite Ed. replace (2 * K * (1 + d) - 2 * asin s)%R with (2 * (K - asin s) + 2 * K * d)%R by ring. eapply Rle_trans; [apply Rabs_triang|]. rewrite !Rabs_mult, (Rabs_pos_eq 2), (Rabs_pos_eq K) by lra.
  pose proof (Rabs_pos d). assert (K * Rabs d <= 0.53 * 0.0000000000000001111)%R by (apply Rmult_le_compat; lra). lra.
Qed.

(** ** the arguments *)
Lemma arg_bounds x : fbits 23 8 x -> ffinite 23 8 x = true -> (Rabs (fval 23 8 x) <= 1)%R -> dbl (fabsb 52 11 (f2d x)) (Rabs (fval 23 8 x)) /\
  (lt64 (fabsb 52 11 (f2d x)) c_half = true -> (Rabs (fval 23 8 x) < / 2)%R) /\
  (lt64 (fabsb 52 11 (f2d x)) c_half = false -> (/ 2 <= Rabs (fval 23 8 x))%R) /\
  (Rabs (fval 23 8 x) <> 1%R -> (Rabs (fval 23 8 x) <= 1 - bpow radix2 (-24))%R).
Proof.
  intros Hx Fx B. pose proof (dbl_f2d x Hx Fx) as DX. pose proof (dbl_abs _ _ DX) as DA. split; [exact DA|]. split; [|split].
  - intros L. apply (dbl_lt _ _ _ _ DA dbl_half). exact L.
  - intros L. apply Rnot_lt_le. intros K. apply (dbl_lt _ _ _ _ DA dbl_half) in K. unfold lt64 in L. congruence.
  - intros N. destruct (abs_finite x Hx Fx) as [HA HV]. set (a := fabsb 23 8 x) in *. pose proof (fmag_nonneg 23 8 eq_refl a ltac:(lia)) as M0.
    assert (AX : Rabs (fval 23 8 x) = fmag 23 8 a). { rewrite HV. destruct (fneg 23 8 x); [rewrite Rabs_Ropp|]; apply Rabs_pos_eq; lra. } rewrite AX in *.
    assert (M1 : fmag 23 8 0x3F800000 = 1%R) by (rewrite fmag32_q by lia; rewrite <- Q2R_1; apply Qeq_eqR; vm_compute; reflexivity).
    assert (L : a < 0x3F800000). { apply Z.nle_gt. intros K. pose proof (fmag_le 23 8 eq_refl 0x3F800000 a ltac:(lia)). lra. }
    assert (E : fmag 23 8 0x3F7FFFFF = (1 - bpow radix2 (-24))%R).
    { rewrite fmag32_q by lia. change (bpow radix2 (-24)) with (/ 16777216)%R. replace (1 - / 16777216)%R with (Q2R (16777215 # 16777216)) by (unfold Q2R; cbn [Qnum Qden]; lra). apply Qeq_eqR. vm_compute. reflexivity. }
    rewrite <- E. apply (fmag_le 23 8 eq_refl); lia.
Qed.
(** a result near a midpoint *)
Lemma nearly_point k v n y w : 1 <= n < 0x7F7FFFFF -> chkp n y 0 = true -> (0 < v)%R -> (Rabs (Q2R y - v) <= w)%R -> (w <= bpow radix2 (- k) * v)%R -> nearly_rounded k v n.
Proof.
  intros Hn C V W L. exists (Q2R y). split; [rewrite (Rabs_pos_eq v) by lra; lra|]. rewrite Rlt_bool_false by lra. apply (chkp_ok n y 0); [exact Hn|exact C|]. rewrite Rminus_diag_eq, Rabs_R0, Q2R_0 by reflexivity. lra.
Qed.
Lemma close_float z Z v : dbl z Z -> (0.3 <= v <= 4)%R -> (Rabs (Z - v) <= 0.00000000000005660 * v)%R -> nearly_rounded 44 v (d2f z).
Proof.
  intros D V H. apply (to_float' _ _ _ _ D); [lra|lia|]. rewrite (Rabs_pos_eq v) by lra. change (bpow radix2 (- (44))) with (/ 17592186044416)%R. lra.
Qed.
Lemma value_qval c X : dbl c X -> X = Q2R (qval c).
Proof. intros (_ & _ & C & _). rewrite qval_ok. symmetry. exact C. Qed.
Lemma kernel_arg x : fbits 23 8 x -> ffinite 23 8 x = true -> (Rabs (fval 23 8 x) <= / 2)%R ->
  exists K, dbl (kernel_asin_ (f2d x) (mul64 (f2d x) (f2d x))) K /\ (Rabs (K - asin (fval 23 8 x)) <= 0.0000000000000115)%R /\ relr 0.000000000000026 K (asin (fval 23 8 x)).
Proof.
  intros Hx Fx B. pose proof (dbl_f2d x Hx Fx) as DX. pose proof (nice_weak (-149) (-200) _ ltac:(lia) (nice_float x Hx Fx)) as NX. set (X := fval 23 8 x) in *. clearbody X.
  pose proof (nice_mul _ _ _ _ NX NX) as NS. change (-200 + -200) with (-400) in NS.
  assert (D1 : dbl (mul64 (f2d x) (f2d x)) (RN53 (X * X))) by (apply (dbl_mul _ _ _ _ 0 DX DX); [change (bpow radix2 0) with 1%R; rewrite Rabs_mult; pose proof (Rabs_pos X); nra|lia]).
  pose proof (relr_round 0 _ _ ltac:(lra) (nice_weak (-400) (-1022) _ ltac:(lia) NS) (relr_refl (X * X))) as R1. apply (relr_weak _ 0.0000000000000001112) in R1; [|lra].
  apply (kernel_asin _ _ _ _ X DX D1 B NX); [apply (relr_weak 0); [lra|apply relr_refl]|exact R1].
Qed.
Lemma asin_sign x : fbits 23 8 x -> ffinite 23 8 x = true -> asin (fval 23 8 x) = (if fneg 23 8 x then - asin (Rabs (fval 23 8 x)) else asin (Rabs (fval 23 8 x)))%R.
Proof.
  intros Hx Fx. destruct (abs_finite x Hx Fx) as [HA HV]. pose proof (fmag_nonneg 23 8 eq_refl (fabsb 23 8 x) ltac:(lia)) as M0. rewrite HV. destruct (fneg 23 8 x); [rewrite Rabs_Ropp, asin_opp|]; rewrite (Rabs_pos_eq (fmag _ _ _)) by lra; reflexivity.
Qed.
Theorem asinf_ok x : fbits 23 8 x -> ffinite 23 8 x = true -> (0 < Rabs (fval 23 8 x) <= 1)%R -> nearly_rounded 44 (asin (fval 23 8 x)) (asinf x).
Proof.
  intros Hx Fx B. destruct (arg_bounds x Hx Fx (proj2 B)) as (DA & BL & BG & BN). unfold asinf. cbv zeta. destruct (lt64 (fabsb 52 11 (f2d x)) c_half) eqn:L.
  - specialize (BL eq_refl). destruct (kernel_arg x Hx Fx ltac:(lra)) as (K & DK & _ & RK). pose proof (asin_abs (fval 23 8 x) ltac:(lra)) as AA.
    assert (V0 : asin (fval 23 8 x) <> 0%R) by (intros Q; rewrite Q, Rabs_R0 in AA; lra).
    apply (to_float' _ _ _ _ DK); [exact V0|lia|]. eapply Rle_trans; [exact RK|]. apply Rmult_le_compat_r; [apply Rabs_pos|]. change (bpow radix2 (- (44))) with (/ 17592186044416)%R. lra.
  - specialize (BG eq_refl). rewrite (asin_sign x Hx Fx). destruct dbl_pi2 as (P & DP & HP). pose proof pi_dec as PD. destruct (abs_finite x Hx Fx) as [HA HV].
    pose proof (fmag_nonneg 23 8 eq_refl (fabsb 23 8 x) ltac:(lia)) as M0. assert (AX : Rabs (fval 23 8 x) = fmag 23 8 (fabsb 23 8 x)). { rewrite HV. destruct (fneg 23 8 x); [rewrite Rabs_Ropp|]; apply Rabs_pos_eq; lra. }
    destruct (Req_dec (Rabs (fval 23 8 x)) 1) as [E|E].
    { (* |x| = 1 *)
      assert (EA : fabsb 23 8 x = 0x3F800000). { apply (fmag_inj 23 8 eq_refl); [lia|lia|]. rewrite <- AX, E. rewrite fmag32_q by lia. rewrite <- Q2R_1. apply Qeq_eqR. vm_compute. reflexivity. }
      assert (E2 : fabsb 52 11 (f2d x) = 0x3FF0000000000000).
      { destruct DA as (A1 & A2 & A3 & _). assert (R : 0 <= fabsb 52 11 (f2d x) < 2^(52+11)) by (apply Z.mod_pos_bound; reflexivity). assert (I : fabsb 52 11 (fabsb 52 11 (f2d x)) = fabsb 52 11 (f2d x)) by (apply Z.mod_small; exact R).
        assert (N : fneg 52 11 (fabsb 52 11 (f2d x)) = false) by (unfold fneg; apply Z.leb_gt; exact (proj2 R)). unfold fval in A3 at 1. rewrite I, N, E in A3. apply (fmag_inj 52 11 eq_refl); [lia|lia|]. rewrite A3. rewrite <- qmag_ok. rewrite <- Q2R_1. apply Qeq_eqR. vm_compute. reflexivity. }
      rewrite EA, E2, E. apply nearly_copysign; [rewrite asin_1; lra|]. rewrite asin_1. change (eq32 0x3F800000 0x3F083A1A) with false. cbv iota.
      assert (ZT : sub64 d_pi_2 (twice_ 0x3FF0000000000000) = d_pi_2) by (vm_compute; reflexivity). rewrite ZT. apply (close_float _ P); [exact DP|lra|]. lra. }
    destruct (twice_ok _ _ DA (conj BG (BN E))) as (K & DK & EK & RK & KB). assert (EV : asin (Rabs (fval 23 8 x)) = (PI / 2 - acos (Rabs (fval 23 8 x)))%R) by (apply asin_acos; lra).
    destruct (eq32 (fabsb 23 8 x) 0x3F083A1A) eqn:Q.
    + apply eq32_pos in Q; [|split; [|lia]|lia]; [|destruct (Z.eq_dec (fabsb 23 8 x) 0) as [Z|Z]; [rewrite AX, Z, (fmag_0 23 8 eq_refl) in BG; lra|lia]].
      apply nearly_copysign; [rewrite EV; lra|].
      assert (E2 : fabsb 52 11 (f2d x) = f2d 0x3F083A1A).
      { destruct DA as (A1 & A2 & A3 & _). assert (R : 0 <= fabsb 52 11 (f2d x) < 2^(52+11)) by (apply Z.mod_pos_bound; reflexivity). assert (I : fabsb 52 11 (fabsb 52 11 (f2d x)) = fabsb 52 11 (f2d x)) by (apply Z.mod_small; exact R).
        assert (N : fneg 52 11 (fabsb 52 11 (f2d x)) = false) by (unfold fneg; apply Z.leb_gt; exact (proj2 R)). unfold fval in A3 at 1. rewrite I, N, AX, Q in A3. apply (fmag_inj 52 11 eq_refl); [lia|vm_compute; discriminate|]. rewrite A3. rewrite fmag32_q by lia. rewrite <- qmag_ok. apply Qeq_eqR. vm_compute. reflexivity. }
      rewrite E2 in DK. pose proof (value_qval _ _ DK) as VK. rewrite EV. set (ac := acos (Rabs (fval 23 8 x))) in *. clearbody ac.
      apply (nearly_point 44 _ _ (qmid 0x3F0FA5B2 - (1 # 2^51)) 0.00000000000002470); [lia|vm_compute; reflexivity|lra| |change (bpow radix2 (- (44))) with (/ 17592186044416)%R].
      * pose proof pi_ok as PO. assert (KQ : (Rabs (Q2R (qmid 0x3F0FA5B2 - (1 # 2^51) - (pi_q * (1 # 2) - qval (twice_ (f2d 0x3F083A1A))))) <= Q2R (12 # 10^16))%R) by (rewrite <- Q2R_abs; apply Q2R_le; vm_compute; reflexivity).
        rewrite Q2R_minus, (Q2R_minus (pi_q * _)), Q2R_mult, <- VK in KQ. replace (Q2R (1 # 2)) with (/ 2)%R in KQ by (unfold Q2R; cbn [Qnum Qden]; lra). replace (Q2R (12 # 10^16)) with 0.0000000000000012%R in KQ by (unfold Q2R; cbn [Qnum Qden]; change (Zpos (10^16)) with 10000000000000000; lra).
        set (y := Q2R (qmid 0x3F0FA5B2 - (1 # 2^51))) in *. apply Rabs_le_inv in KQ. apply Rabs_le_inv in PO. apply Rabs_le_inv in EK. apply Rabs_le. lra.
      * lra.
    + apply nearly_copysign; [rewrite EV; lra|]. rewrite EV. set (ac := acos (Rabs (fval 23 8 x))) in *. clearbody ac. apply Rabs_le_inv in HP. pose proof (Rabs_le_inv _ _ EK) as EK'.
      assert (D1 : dbl (sub64 d_pi_2 (twice_ (fabsb 52 11 (f2d x)))) (RN53 (P - K))) by (apply (dbl_sub _ _ _ _ 1 DP DK); [change (bpow radix2 1) with 2%R; rewrite Rabs_pos_eq; lra|lia]).
      assert (N1 : nice (-1022) (P - K)) by (apply nice_ge; apply Rle_trans with (bpow radix2 (-2)); [apply bpow_le; lia|change (bpow radix2 (-2)) with (/ 4)%R; lra]).
      assert (R1 : relr 0.0000000000000455 (P - K) (PI / 2 - ac)) by (unfold relr; rewrite (Rabs_pos_eq (PI / 2 - ac)) by lra; apply Rabs_le; lra).
      pose proof (relr_round _ _ _ (ltac:(lra) : (0 <= 0.0000000000000455 <= 0.000001)%R) N1 R1) as R2. unfold relr in R2. rewrite (Rabs_pos_eq (PI / 2 - ac)) in R2 by lra. apply (close_float _ _ _ D1); [lra|]. lra.
Qed.
Lemma dbl_pi : exists P, dbl d_pi P /\ (Rabs (P - PI) <= 0.000000000000000125)%R.
Proof.
  exists (Q2R (qval d_pi)). split; [apply dbl_c; [reflexivity|apply Qeq_bool_iff; reflexivity]|]. pose proof pi_ok as H.
  assert (K : (Rabs (Q2R (qval d_pi) - Q2R pi_q) <= Q2R (1226 # 10^19))%R) by (rewrite <- Q2R_minus, <- Q2R_abs; apply Q2R_le; vm_compute; reflexivity).
  replace (Q2R (1226 # 10^19)) with 0.0000000000000001226%R in K by (unfold Q2R; cbn [Qnum Qden]; change (Zpos (10^19)) with 10000000000000000000; lra).
  apply Rabs_le_inv in K. apply Rabs_le_inv in H. apply Rabs_le. lra.
Qed.
(** the two special arguments of acosf *)
Lemma acos_point c n w : 1 <= n < 0x7F7FFFFF -> 0 < c < 0x38000000 + 0x8000000 -> Qle_bool (qval (f2d c)) (49 # 100) = true -> chkp n (qmid (n - 1) + (1 # 2^50)) 0 = true ->
  Qle_bool (Qabs (qmid (n - 1) + (1 # 2^50) - (pi_q * (1 # 2) - qval (kernel_asin_ (f2d c) (mul64 (f2d c) (f2d c)))))) w = true -> Qle_bool w (2 # 10^14) = true -> nearly_rounded 44 (acos (fval 23 8 c)) n.
Proof.
  intros Hn Hc QC CP CW W. destruct (pos_float c ltac:(lia)) as (C1 & C2 & C3 & C4). apply Q2R_le in QC, W. rewrite <- fmag32_q in QC by lia. pose proof (fmag_nonneg 23 8 eq_refl c ltac:(lia)) as M0.
  replace (Q2R (49 # 100)) with 0.49%R in QC by (unfold Q2R; cbn [Qnum Qden]; lra). replace (Q2R (2 # 10^14)) with 0.00000000000002%R in W by (unfold Q2R; cbn [Qnum Qden]; change (Zpos (10^14)) with 100000000000000; lra).
  destruct (kernel_arg c C1 C2 ltac:(rewrite C4, Rabs_pos_eq; lra)) as (K & DK & EK & _). rewrite C4 in *. set (X := fmag 23 8 c) in *. rewrite acos_asin by lra. pose proof (value_qval _ _ DK) as VK.
  apply Q2R_le in CW. rewrite Q2R_abs, Q2R_minus, (Q2R_minus (pi_q * _)), Q2R_mult, <- VK in CW. replace (Q2R (1 # 2)) with (/ 2)%R in CW by (unfold Q2R; cbn [Qnum Qden]; lra).
  pose proof (asin_abs X ltac:(rewrite Rabs_pos_eq; lra)) as AA. rewrite (Rabs_pos_eq X) in AA by lra. assert (AI : (- (0.53) <= asin X <= 0.53)%R) by (apply Rabs_le_inv; lra). pose proof pi_dec as PD. pose proof pi_ok as PO.
  set (y := Q2R (qmid (n - 1) + (1 # 2^50))) in *. apply (nearly_point 44 _ _ (qmid (n - 1) + (1 # 2^50)) 0.0000000000000316); [exact Hn|exact CP|lra| |change (bpow radix2 (- (44))) with (/ 17592186044416)%R; lra].
  fold y. apply Rabs_le_inv in CW. apply Rabs_le_inv in PO. apply Rabs_le_inv in EK. apply Rabs_le. lra.
Qed.
Theorem acosf_ok x : fbits 23 8 x -> ffinite 23 8 x = true -> (-1 <= fval 23 8 x < 1)%R -> nearly_rounded 44 (acos (fval 23 8 x)) (acosf x).
Proof.
  intros Hx Fx B. assert (B1 : (Rabs (fval 23 8 x) <= 1)%R) by (apply Rabs_le; lra). destruct (arg_bounds x Hx Fx B1) as (DA & BL & BG & BN). pose proof pi_dec as PD. unfold acosf. cbv zeta.
  destruct (lt64 (fabsb 52 11 (f2d x)) c_half) eqn:L.
  - specialize (BL eq_refl). destruct (eq32 x 0x328885A3) eqn:Q1.
    { apply eq32_val in Q1; [|exact Hx|exact Fx|split; [lia|reflexivity]|reflexivity]. rewrite Q1. apply (acos_point _ _ (1 # 10^14)); [lia|lia|vm_compute; reflexivity|vm_compute; reflexivity|vm_compute; reflexivity|reflexivity]. }
    destruct (eq32 x 0x39826222) eqn:Q2.
    { apply eq32_val in Q2; [|exact Hx|exact Fx|split; [lia|reflexivity]|reflexivity]. rewrite Q2. apply (acos_point _ _ (1 # 10^14)); [lia|lia|vm_compute; reflexivity|vm_compute; reflexivity|vm_compute; reflexivity|reflexivity]. }
    destruct (kernel_arg x Hx Fx ltac:(lra)) as (K & DK & EK & _). destruct dbl_pi2 as (P & DP & HP). rewrite acos_asin by lra. pose proof (asin_abs (fval 23 8 x) ltac:(lra)) as AA.
    assert (AI : (- (0.53) <= asin (fval 23 8 x) <= 0.53)%R) by (apply Rabs_le_inv; lra). set (s := asin (fval 23 8 x)) in *. clearbody s. apply Rabs_le_inv in HP. apply Rabs_le_inv in EK.
    assert (D1 : dbl (sub64 d_pi_2 (kernel_asin_ (f2d x) (mul64 (f2d x) (f2d x)))) (RN53 (P - K))) by (apply (dbl_sub _ _ _ _ 2 DP DK); [change (bpow radix2 2) with 4%R; rewrite Rabs_pos_eq; lra|lia]).
    assert (N1 : nice (-1022) (P - K)) by (apply nice_ge; apply Rle_trans with (bpow radix2 (-2)); [apply bpow_le; lia|change (bpow radix2 (-2)) with (/ 4)%R; lra]).
    assert (R1 : relr 0.0000000000000455 (P - K) (PI / 2 - s)) by (unfold relr; rewrite (Rabs_pos_eq (PI / 2 - s)) by lra; apply Rabs_le; lra).
    pose proof (relr_round _ _ _ (ltac:(lra) : (0 <= 0.0000000000000455 <= 0.000001)%R) N1 R1) as R2. unfold relr in R2. rewrite (Rabs_pos_eq (PI / 2 - s)) in R2 by lra. apply (close_float _ _ _ D1); [lra|]. lra.
  - specialize (BG eq_refl). assert (D0 : hlt 23 8 0 x = true <-> (fval 23 8 0 < fval 23 8 x)%R) by (apply (hlt_ok 23 8 eq_refl eq_refl); [split; [lia|reflexivity]|exact Hx|reflexivity|exact Fx]).
    assert (V0 : fval 23 8 0 = 0%R) by (rewrite fval32_q by first [split; [lia|reflexivity]|reflexivity]; rewrite <- Q2R_0; apply Qeq_eqR; vm_compute; reflexivity). rewrite V0 in D0. unfold lt32. destruct (hlt 23 8 0 x) eqn:S.
    + assert (XP : (0 < fval 23 8 x)%R) by (apply D0; reflexivity). rewrite (Rabs_pos_eq (fval 23 8 x)) in * by lra. destruct (twice_ok _ _ DA (conj BG (BN ltac:(lra)))) as (K & DK & EK & RK & KB).
      apply (to_float' _ _ _ _ DK); [lra|lia|]. eapply Rle_trans; [exact RK|]. apply Rmult_le_compat_r; [apply Rabs_pos|]. change (bpow radix2 (- (44))) with (/ 17592186044416)%R. lra.
    + assert (XN : (fval 23 8 x < 0)%R). { assert (XN : (fval 23 8 x <= 0)%R) by (apply Rnot_lt_le; intros K; apply D0 in K; discriminate). destruct (Req_dec (fval 23 8 x) 0) as [Z|Z]; [rewrite Z, Rabs_R0 in BG; lra|lra]. }
      destruct dbl_pi as (P & DP & HP). assert (EV : acos (fval 23 8 x) = (PI - acos (Rabs (fval 23 8 x)))%R) by (rewrite (Rabs_left (fval 23 8 x)), acos_opp by exact XN; ring). rewrite EV.
      destruct (Req_dec (Rabs (fval 23 8 x)) 1) as [E|E].
      { assert (E2 : fabsb 52 11 (f2d x) = 0x3FF0000000000000).
        { destruct DA as (A1 & A2 & A3 & _). assert (R : 0 <= fabsb 52 11 (f2d x) < 2^(52+11)) by (apply Z.mod_pos_bound; reflexivity). assert (I : fabsb 52 11 (fabsb 52 11 (f2d x)) = fabsb 52 11 (f2d x)) by (apply Z.mod_small; exact R).
          assert (N : fneg 52 11 (fabsb 52 11 (f2d x)) = false) by (unfold fneg; apply Z.leb_gt; exact (proj2 R)). unfold fval in A3 at 1. rewrite I, N, E in A3. apply (fmag_inj 52 11 eq_refl); [lia|lia|]. rewrite A3. rewrite <- qmag_ok. rewrite <- Q2R_1. apply Qeq_eqR. vm_compute. reflexivity. }
        rewrite E2, E, acos_1, Rminus_0_r. assert (ZT : sub64 d_pi (twice_ 0x3FF0000000000000) = d_pi) by (vm_compute; reflexivity). rewrite ZT. apply (close_float _ P); [exact DP|lra|]. lra. }
      destruct (twice_ok _ _ DA (conj BG (BN E))) as (K & DK & EK & RK & KB). set (s := acos (Rabs (fval 23 8 x))) in *. clearbody s. apply Rabs_le_inv in HP. apply Rabs_le_inv in EK.
      assert (D1 : dbl (sub64 d_pi (twice_ (fabsb 52 11 (f2d x)))) (RN53 (P - K))) by (apply (dbl_sub _ _ _ _ 2 DP DK); [change (bpow radix2 2) with 4%R; rewrite Rabs_pos_eq; lra|lia]).
      assert (N1 : nice (-1022) (P - K)) by (apply nice_ge; apply Rle_trans with (bpow radix2 (-2)); [apply bpow_le; lia|change (bpow radix2 (-2)) with (/ 4)%R; lra]).
      assert (R1 : relr 0.0000000000000455 (P - K) (PI - s)) by (unfold relr; rewrite (Rabs_pos_eq (PI - s)) by lra; apply Rabs_le; lra).
      pose proof (relr_round _ _ _ (ltac:(lra) : (0 <= 0.0000000000000455 <= 0.000001)%R) N1 R1) as R2. unfold relr in R2. rewrite (Rabs_pos_eq (PI - s)) in R2 by lra. apply (close_float _ _ _ D1); [lra|]. lra.
Qed.
