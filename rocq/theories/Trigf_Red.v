(** The argument reduction of sinf, cosf and tanf: the double it stores is close
    to x - K pi/2, relative to that difference, and the returned int is K modulo
    4, for every finite float. *)
From Coq Require Import Reals Lra Lia Psatz QArith Qreals Qabs List.
From Flocq Require Import Core BinarySingleNaN Relative Sterbenz.
From Coquelicot Require Import Coquelicot.
From Verif Require Import Base FP FP_Proof HW HW_Proof Tf_Narrow_Proof Midpoint Fmaf_Proof Math_Model Math_Basic_Proof Math_Int_Proof Math_Lconv_Proof Hypotf_Model Hypotf_Real Hypotf_Proof Approx Subdiv Ferr Elem_Spec Elem_Proof Elem_Num Expf_Model Expf_Proof Logf_Model Logf_Kernel Logf_Proof Loginv_Proof Loginv3_Proof Hyperf_Model Hyperf_Proof Hyperf2_Proof Hyperf3_Proof Atan_Num Atanf_Model Atanf_Proof Asinf_Model Pi_Num Trig_Num Trigf_Model.
Import ListNotations.
Open Scope Z_scope.
Local Ltac Zify.zify_post_hook ::= idtac.

(** ** what is proved of the reduction; k is the number of good bits *)
Definition reduced (k : Z) (x : Z) : Prop :=
  exists n y K Y, rem_pio2f x = Ok (n, y) /\ dbl y Y /\ n mod 4 = K mod 4 /\
    (Rabs Y <= 0.7856)%R /\ nice (-150) Y /\
    let T := (fval 23 8 x - IZR K * (PI / 2))%R in
    (Rabs T <= 0.7856)%R /\ (K <> 0 -> T <> 0%R) /\ (Rabs (Y - T) <= 0.951 * bpow radix2 (- k) * Rabs T)%R /\ (Rabs (Y - T) <= 0.4 * bpow radix2 (- k - 10))%R.

(** ** the pattern *)
Lemma land_abs x : fbits 23 8 x -> Z.land (s32 x) 0x7FFFFFFF = fabsb 23 8 x.
Proof.
  intros [H1 H2]. change (2^(23+8+1)) with 0x100000000 in H2. change 0x7FFFFFFF with (Z.ones 31). rewrite Z.land_ones by lia. unfold s32, sgn, fabsb. cbv zeta. change (2^(23+8)) with (2^31).
  change (2^32) with 0x100000000. change (2^(32-1)) with 0x80000000. change (2^31) with 0x80000000. rewrite (Z.mod_small x) by lia. destruct (x <? 0x80000000) eqn:E; [reflexivity|].
  replace (x - 0x100000000) with (x + (-2) * 0x80000000) by ring. apply Z.mod_add. lia.
Qed.
Lemma neg_i x : fbits 23 8 x -> (s32 x <? 0) = fneg 23 8 x.
Proof.
  intros [H1 H2]. change (2^(23+8+1)) with 0x100000000 in H2. unfold s32, sgn, fneg. cbv zeta. change (2^(23+8)) with 0x80000000. change (2^32) with 0x100000000. change (2^(32-1)) with 0x80000000.
  rewrite (Z.mod_small x) by lia. destruct (x <? 0x80000000) eqn:E; lia.
Qed.
Lemma trunc_dbl d k : dbl d (IZR k) -> trunc64 d = Some k.
Proof. intros (A & B & C & _). unfold trunc64. rewrite (htrunc_ok 52 11 eq_refl eq_refl eq_refl _ A B), C, Ztrunc_IZR. reflexivity. Qed.
Lemma normal_value m : 2^23 <= m -> fmag 23 8 m = (IZR (2^23 + m mod 2^23) * bpow radix2 (m / 2^23 - 150))%R.
Proof.
  intros H. unfold fmag. assert (1 <= m / 2^23) by (apply Z.div_le_lower_bound; lia). replace (m / 2^23 =? 0) with false by lia. unfold F2R. cbn [Fnum Fexp]. f_equal. f_equal. change (emin 23 8) with (-149). lia.
Qed.
Lemma IZR_pow2 n : 0 <= n -> IZR (2^n) = bpow radix2 n.
Proof. intros H. apply (IZR_Zpower radix2). exact H. Qed.

(** ** constants *)
Definition c2pi : Z := 0x3FE45F306DC9C883.
Definition cp0 : Z := 0x3FF921FB50000000.
Definition cp1 : Z := 0x3E5110B4611A6263.
Definition c65 : Z := 0x3BF921FB54442D18.
Lemma dbl_cc c : (0 <=? c) && (c <? 2^64) && ffinite 52 11 c && (Z.abs (Qnum (qval c)) <=? Zpos (Qden (qval c)) * 2^500) = true -> dbl c (Q2R (qval c)).
Proof. intros H. apply dbl_c; [exact H|]. apply Qeq_bool_iff. reflexivity. Qed.
Lemma hpi_q : (Q2R (hpi # 2^288) <= PI / 2 <= Q2R ((hpi + 1) # 2^288))%R.
Proof.
  destruct hpi_real as [A B]. split; [eapply Rle_trans; [|exact A]|eapply Rle_trans; [exact B|]]; right; unfold Q2R; cbn [Qnum Qden]; reflexivity.
Qed.
Lemma pi_range : (1.570796326 <= PI / 2 <= 1.570796327)%R.
Proof.
  destruct hpi_q as [A B]. assert (L : (Q2R (1570796326 # 1000000000) <= Q2R (hpi # 2^288))%R) by (apply Approx.Q2R_le; vm_compute; reflexivity).
  assert (U : (Q2R ((hpi + 1) # 2^288) <= Q2R (1570796327 # 1000000000))%R) by (apply Approx.Q2R_le; vm_compute; reflexivity).
  replace (Q2R (1570796326 # 1000000000)) with 1.570796326%R in L by (unfold Q2R; cbn [Qnum Qden]; lra). replace (Q2R (1570796327 # 1000000000)) with 1.570796327%R in U by (unfold Q2R; cbn [Qnum Qden]; lra). lra.
Qed.
(** c2pi pi/2 = 1 to 17 digits *)
Lemma c2pi_ok : dbl c2pi (Q2R (qval c2pi)) /\ (0.6366197 <= Q2R (qval c2pi) <= 0.6366198)%R /\ (Rabs (Q2R (qval c2pi) * (PI / 2) - 1) <= / 10000000000000000)%R.
Proof.
  split; [apply dbl_cc; vm_compute; reflexivity|].
  assert (R : (0.6366197 <= Q2R (qval c2pi) <= 0.6366198)%R).
  { assert (L : (Q2R (6366197 # 10000000) <= Q2R (qval c2pi))%R) by (apply Approx.Q2R_le; vm_compute; reflexivity). assert (U : (Q2R (qval c2pi) <= Q2R (6366198 # 10000000))%R) by (apply Approx.Q2R_le; vm_compute; reflexivity).
    replace (Q2R (6366197 # 10000000)) with 0.6366197%R in L by (unfold Q2R; cbn [Qnum Qden]; lra). replace (Q2R (6366198 # 10000000)) with 0.6366198%R in U by (unfold Q2R; cbn [Qnum Qden]; lra). lra. }
  split; [exact R|]. destruct hpi_q as [A B].
  assert (L : (Q2R (1 - (1 # 10^16)) <= Q2R (qval c2pi * (hpi # 2^288)))%R) by (apply Approx.Q2R_le; vm_compute; reflexivity).
  assert (U : (Q2R (qval c2pi * ((hpi + 1) # 2^288)) <= Q2R (1 + (1 # 10^16)))%R) by (apply Approx.Q2R_le; vm_compute; reflexivity).
  rewrite Q2R_minus, Q2R_mult, Approx.Q2R_1 in L. rewrite Q2R_plus, Q2R_mult, Approx.Q2R_1 in U.
  replace (Q2R (1 # 10^16)) with (/ 10000000000000000)%R in * by (unfold Q2R; cbn [Qnum Qden]; change (Zpos (10^16)) with 10000000000000000; lra).
  set (c := Q2R (qval c2pi)) in *. clearbody c. set (a := Q2R (hpi # 2^288)) in *. set (b := Q2R ((hpi + 1) # 2^288)) in *. clearbody a b.
  assert (c * a <= c * (PI / 2) <= c * b)%R by (split; apply Rmult_le_compat_l; lra). apply Rabs_le. lra.
Qed.
Lemma cp_ok : dbl cp0 (IZR 0x1921fb5 * bpow radix2 (-24)) /\ exists C1, dbl cp1 C1 /\ (0.0000000158 <= C1 <= 0.0000000159)%R /\ (Rabs (PI / 2 - IZR 0x1921fb5 * bpow radix2 (-24) - C1) <= 0.00000000000000000000000064)%R.
Proof.
  assert (E0 : Q2R (0x1921fb5 # 2^24) = (IZR 0x1921fb5 * bpow radix2 (-24))%R) by (unfold Q2R; cbn [Qnum Qden]; reflexivity).
  split; [rewrite <- E0; apply dbl_c; vm_compute; reflexivity|]. exists (Q2R (qval cp1)). split; [apply dbl_cc; vm_compute; reflexivity|]. rewrite <- E0. split.
  - assert (L : (Q2R (158 # 10^10) <= Q2R (qval cp1))%R) by (apply Approx.Q2R_le; vm_compute; reflexivity). assert (U : (Q2R (qval cp1) <= Q2R (159 # 10^10))%R) by (apply Approx.Q2R_le; vm_compute; reflexivity).
    replace (Q2R (158 # 10^10)) with 0.0000000158%R in L by (unfold Q2R; cbn [Qnum Qden]; change (Zpos (10^10)) with 10000000000; lra). replace (Q2R (159 # 10^10)) with 0.0000000159%R in U by (unfold Q2R; cbn [Qnum Qden]; change (Zpos (10^10)) with 10000000000; lra). lra.
  - destruct hpi_q as [A B].
    assert (L : (Q2R (- (64 # 10^26)) <= Q2R ((hpi # 2^288) - (0x1921fb5 # 2^24) - qval cp1))%R) by (apply Approx.Q2R_le; vm_compute; reflexivity).
    assert (U : (Q2R (((hpi + 1) # 2^288) - (0x1921fb5 # 2^24) - qval cp1) <= Q2R (64 # 10^26))%R) by (apply Approx.Q2R_le; vm_compute; reflexivity).
    rewrite !Q2R_minus in L, U. rewrite Q2R_opp in L. replace (Q2R (64 # 10^26)) with 0.00000000000000000000000064%R in * by (unfold Q2R; cbn [Qnum Qden]; change (Zpos (10^26)) with 100000000000000000000000000; lra). apply Rabs_le. lra.
Qed.
Lemma c65_ok : exists C, dbl c65 C /\ relr 0.00000000000000012 C (PI / 2 * bpow radix2 (-64)).
Proof.
  exists (Q2R (qval c65)). split; [apply dbl_cc; vm_compute; reflexivity|]. destruct hpi_q as [A B]. pose proof pi_range as PR.
  assert (L : (Q2R ((1 - (11 # 10^17)) * ((hpi + 1) # 2^288)) <= Q2R (qval c65 * (2^64 # 1)))%R) by (apply Approx.Q2R_le; vm_compute; reflexivity).
  assert (U : (Q2R (qval c65 * (2^64 # 1)) <= Q2R ((1 + (11 # 10^17)) * (hpi # 2^288)))%R) by (apply Approx.Q2R_le; vm_compute; reflexivity).
  rewrite Q2R_mult, Q2R_minus, Q2R_mult, Approx.Q2R_1 in L. rewrite Q2R_mult, Q2R_mult, Q2R_plus, Approx.Q2R_1 in U.
  replace (Q2R (2^64 # 1)) with (bpow radix2 64) in * by (unfold Q2R; cbn [Qnum Qden]; rewrite Rinv_1, Rmult_1_r; reflexivity).
  replace (Q2R (11 # 10^17)) with 0.00000000000000011%R in * by (unfold Q2R; cbn [Qnum Qden]; change (Zpos (10^17)) with 100000000000000000; lra).
  assert (J : (bpow radix2 64 * bpow radix2 (-64) = 1)%R) by (rewrite <- bpow_plus; reflexivity). pose proof (bpow_gt_0 radix2 (-64)) as J0. pose proof (bpow_gt_0 radix2 64) as J1.
  set (C := Q2R (qval c65)) in *. set (h1 := Q2R ((hpi + 1) # 2^288)) in *. set (h0 := Q2R (hpi # 2^288)) in *. clearbody C h1 h0. unfold relr. rewrite Rabs_mult, (Rabs_pos_eq (PI / 2)), (Rabs_pos_eq (bpow radix2 (-64))) by lra.
  replace C with (C * bpow radix2 64 * bpow radix2 (-64))%R at 1 by (rewrite Rmult_assoc, J; ring). rewrite <- Rmult_minus_distr_r, Rabs_mult, (Rabs_pos_eq (bpow radix2 (-64))) by lra. rewrite <- Rmult_assoc. apply Rmult_le_compat_r; [lra|].
  apply Rabs_le. lra.
Qed.

(** ** arguments below 2^27 pi *)
Definition kof (e : Z) : Z := if e <=? -9 then 39 else if e <=? 1 then 30 else 26.
Lemma final_bound e (K T D : R) : -24 <= e <= 5 -> (Rabs K <= 0.6366198 * bpow radix2 (24 + e) + 0.51)%R -> (bpow radix2 (lbe e) <= Rabs T)%R -> (Rabs T <= 0.7856)%R ->
  (Rabs D <= 0.0000000000000000000000024067 * Rabs K + 0.0000000000000001111 * (Rabs T + 0.0000000000000000000000024067 * Rabs K))%R ->
  (Rabs D <= 0.951 * bpow radix2 (- kof e) * Rabs T)%R /\ (Rabs D <= 0.4 * bpow radix2 (- kof e - 10))%R.
Proof.
  intros E HK HT HT2 HD.
  assert (KB : (26 <= kof e <= 39)) by (unfold kof; destruct (e <=? -9); [lia|destruct (e <=? 1); lia]).
  assert (W : (0.0000000000018 <= bpow radix2 (- kof e))%R). { apply Rle_trans with (bpow radix2 (-39)); [|apply bpow_le; lia]. change (bpow radix2 (-39)) with (/ 549755813888)%R. lra. }
  assert (W10 : bpow radix2 (- kof e - 10) = (bpow radix2 (- kof e) * / 1024)%R) by (change (/ 1024)%R with (bpow radix2 (-10)); rewrite <- bpow_plus; reflexivity). rewrite W10.
  assert (AK := Rabs_pos K). assert (AT := Rabs_pos T).
  (* the contribution of K, relative to T *)
  assert (G : (0.0000000000000000000000024068 * Rabs K <= 0.95 * bpow radix2 (- kof e) * Rabs T)%R).
  { destruct (Z_le_gt_dec e (-14)) as [L|L].
    - assert (K1 : (Rabs K <= 653)%R). { eapply Rle_trans; [exact HK|]. apply Rle_trans with (0.6366198 * bpow radix2 10 + 0.51)%R; [apply Rplus_le_compat_r; apply Rmult_le_compat_l; [lra|]; apply bpow_le; lia|]. change (bpow radix2 10) with 1024%R. lra. }
      assert (K2 : kof e = 39) by (unfold kof; replace (e <=? -9) with true by lia; reflexivity). rewrite K2 in *. assert (K3 : lbe e = -28) by (unfold lbe; replace (e <=? -14) with true by lia; reflexivity). rewrite K3 in HT.
      change (bpow radix2 (-28)) with (/ 268435456)%R in HT. change (bpow radix2 (- (39))) with (/ 549755813888)%R. lra.
    - assert (S : kof e - lbe e = 55 - e). { unfold kof, lbe. replace (e <=? -14) with false by lia. destruct (e <=? -9) eqn:A1; [lia|]. destruct (e <=? 1) eqn:A2; [lia|]. replace (e <=? 5) with true by lia. lia. }
      assert (K1 : (Rabs K <= 0.63687 * bpow radix2 (24 + e))%R). { assert (bpow radix2 11 <= bpow radix2 (24 + e))%R by (apply bpow_le; lia). change (bpow radix2 11) with 2048%R in H. lra. }
      assert (K2 : (0.0000000000000000000000024068 * (0.63687 * bpow radix2 (24 + e)) <= 0.95 * (bpow radix2 (- kof e) * bpow radix2 (lbe e)))%R).
      { rewrite <- bpow_plus. replace (- kof e + lbe e) with ((24 + e) + -79) by lia. rewrite (bpow_plus radix2 (24 + e) (-79)). pose proof (bpow_gt_0 radix2 (24 + e)). change (bpow radix2 (-79)) with (/ 604462909807314587353088)%R. lra. }
      eapply Rle_trans; [apply Rmult_le_compat_l; [lra|exact K1]|]. eapply Rle_trans; [exact K2|]. rewrite Rmult_assoc. apply Rmult_le_compat_l; [lra|]. apply Rmult_le_compat_l; [lra|exact HT]. }
  assert (W30 : -9 < e -> (bpow radix2 (-30) <= bpow radix2 (- kof e))%R) by (intros L; apply bpow_le; unfold kof; replace (e <=? -9) with false by lia; destruct (e <=? 1); lia).
  set (w := bpow radix2 (- kof e)) in *. clearbody w. split.
  - assert (0.0000000000000001111 * Rabs T <= 0.0007 * w * Rabs T)%R by (apply Rmult_le_compat_r; lra). lra.
  - assert (K4 : (0.0000000000000000000000024068 * Rabs K <= 0.2 * (w * / 1024))%R).
    { destruct (Z_le_gt_dec e (-9)) as [L|L].
      - assert (Rabs K <= 20862)%R. { eapply Rle_trans; [exact HK|]. apply Rle_trans with (0.6366198 * bpow radix2 15 + 0.51)%R; [apply Rplus_le_compat_r; apply Rmult_le_compat_l; [lra|]; apply bpow_le; lia|]. change (bpow radix2 15) with 32768%R. lra. } lra.
      - assert (Rabs K <= 341800000)%R. { eapply Rle_trans; [exact HK|]. apply Rle_trans with (0.6366198 * bpow radix2 29 + 0.51)%R; [apply Rplus_le_compat_r; apply Rmult_le_compat_l; [lra|]; apply bpow_le; lia|]. change (bpow radix2 29) with 536870912%R. lra. }
        specialize (W30 ltac:(lia)). change (bpow radix2 (-30)) with (/ 1073741824)%R in W30. lra. }
    lra.
Qed.
Lemma abs_sign (s : bool) (v : R) : (0 <= v)%R -> Rabs (if s then - v else v) = v.
Proof. intros H. destruct s; [rewrite Rabs_Ropp|]; apply Rabs_pos_eq; exact H. Qed.
Lemma small_ok x : fbits 23 8 x -> fabsb 23 8 x < 0x4DC90FDB ->
  reduced (kof (fabsb 23 8 x / 2^23 - 150)) x.
Proof.
  intros Hx HM. assert (Fx : ffinite 23 8 x = true) by (unfold ffinite; change (finf 23 8) with 0x7F800000; lia).
  set (m := fabsb 23 8 x) in *. assert (M0 : 0 <= m) by (apply Z.mod_pos_bound; reflexivity).
  set (e := m / 2^23 - 150). unfold reduced.
  unfold rem_pio2f. cbv zeta. rewrite (land_abs x Hx). fold m. replace (m <? 0x4DC90FDB) with true by lia.
  pose proof (dbl_f2d x Hx Fx) as DX. pose proof (nice_float x Hx Fx) as NX. destruct (abs_finite x Hx Fx) as [_ HV]. fold m in HV. pose proof (fmag_nonneg 23 8 eq_refl m M0) as V0.
  assert (AX : Rabs (fval 23 8 x) = fmag 23 8 m) by (rewrite HV; apply abs_sign; exact V0).
  assert (BX : (Rabs (fval 23 8 x) <= 421657408)%R).
  { rewrite AX. apply Rle_trans with (fmag 23 8 0x4DC90FDA); [apply (fmag_le 23 8 eq_refl); lia|]. rewrite fmag32_q by lia. replace 421657408%R with (Q2R 421657408) by (unfold Q2R; cbn [Qnum Qden]; lra). apply Approx.Q2R_le. vm_compute. reflexivity. }
  set (X := fval 23 8 x) in *. set (xd := f2d x) in *. clearbody xd.
  fold c2pi cp0 cp1. destruct c2pi_ok as (DC & CR & CP). set (c := Q2R (qval c2pi)) in *. clearbody c. destruct u53_dec as [U0 U1]. pose proof pi_range as PR. assert (AX0 := Rabs_pos X).
  (* the quotient *)
  assert (B30 : (bpow radix2 30 = 1073741824)%R) by reflexivity.
  assert (BCX : (Rabs (c * X) <= 268435460)%R) by (rewrite Rabs_mult, (Rabs_pos_eq c) by lra; nra).
  assert (D1 : dbl (mul64 c2pi xd) (RN53 (c * X))) by (apply (dbl_mul _ _ _ _ 30 DC DX); [lra|lia]).
  assert (NC : nice (-150) (c * X)) by (replace (-150) with (-1 + -149) by reflexivity; apply nice_mul; [apply nice_ge; change (bpow radix2 (-1)) with (/ 2)%R; lra|exact NX]).
  destruct (R53_ex _ (nice_weak (-150) (-1022) _ ltac:(lia) NC)) as (a & Ha & EA). rewrite EA in D1. assert (Ha' := Rabs_le_inv _ _ Ha).
  assert (EC : (Rabs (c * X * (1 + a) - c * X) <= 0.00000003)%R).
  { replace (c * X * (1 + a) - c * X)%R with (c * X * a)%R by ring. rewrite Rabs_mult. apply Rle_trans with (268435460 * 0.0000000000000001111)%R; [apply Rmult_le_compat; [apply Rabs_pos|apply Rabs_pos|exact BCX|lra]|lra]. }
  destruct (rint64_ok _ _ D1) as (K & D2 & HK & _).
  { change (bpow radix2 40) with 1099511627776%R. apply Rabs_le_inv in EC, BCX. apply Rabs_le. lra. }
  assert (HK' : (Rabs (IZR K - c * X) <= 0.50000003)%R) by (apply Rabs_le_inv in HK, EC; apply Rabs_le; lra).
  assert (BK : (Rabs (IZR K) <= 268435461)%R) by (apply Rabs_le_inv in HK', BCX; apply Rabs_le; lra).
  set (q0 := rint64 (mul64 c2pi xd)) in *. clearbody q0.
  assert (D3 : dbl (add64 q0 (ofZ64 0)) (IZR K)).
  { pose proof (dbl_add q0 (ofZ64 0) (IZR K) 0 30 D2 (dbl_int 0 ltac:(lia)) ltac:(rewrite Rplus_0_r; lra) ltac:(lia)) as H. rewrite Rplus_0_r, RN53_id in H; [exact H|]. exact (dbl_fin _ _ D2). }
  set (q := add64 q0 (ofZ64 0)) in *. clearbody q.
  assert (ZK : -268435461 <= K <= 268435461) by (apply Rabs_le_inv in BK; split; apply le_IZR; lra).
  rewrite (trunc_dbl q K D3). unfold to_signed. change (2^(32-1)) with 0x80000000. replace (_ && _) with true by lia. cbn [bind].
  (* the remainder *)
  set (T := (X - IZR K * (PI / 2))%R).
  assert (HT : (Rabs T <= 0.78541)%R).
  { replace T with (- (PI / 2 * (IZR K - c * X)) + - (X * (c * (PI / 2) - 1)))%R by (unfold T; ring). eapply Rle_trans; [apply Rabs_triang|]. rewrite !Rabs_Ropp, !Rabs_mult, (Rabs_pos_eq (PI / 2)) by lra.
    assert (PI / 2 * Rabs (IZR K - c * X) <= 1.570796327 * 0.50000003)%R by (apply Rmult_le_compat; [lra|apply Rabs_pos|lra|lra]).
    assert (Rabs X * Rabs (c * (PI / 2) - 1) <= 421657408 * / 10000000000000000)%R by (apply Rmult_le_compat; [lra|apply Rabs_pos|lra|lra]). lra. }
  destruct cp_ok as (DP0 & C1 & DP1 & RC1 & EC1). set (C0 := (IZR 0x1921fb5 * bpow radix2 (-24))%R) in *.
  destruct (Z.eq_dec K 0) as [K0|K0].
  - (* no multiple of pi/2 is subtracted *)
    exists K, (sub64 (sub64 xd (mul64 q cp0)) (mul64 q cp1)), K, X. fold T. split; [reflexivity|].
    rewrite K0 in D3. assert (TX : T = X) by (unfold T; rewrite K0; ring).
    assert (Z0 : forall d C, dbl d C -> dbl (mul64 q d) 0).
    { intros d C D. pose proof (dbl_mul q d 0 C 0 D3 D ltac:(rewrite Rmult_0_l, Rabs_R0; apply bpow_ge_0) ltac:(lia)) as H. rewrite Rmult_0_l, RN53_id in H; [exact H|apply generic_format_0]. }
    assert (S1 : forall d e', dbl d X -> dbl e' 0 -> dbl (sub64 d e') X).
    { intros d e' D E. pose proof (dbl_sub d e' X 0 30 D E ltac:(rewrite Rminus_0_r; lra) ltac:(lia)) as H. rewrite Rminus_0_r, RN53_id in H; [exact H|exact (dbl_fin _ _ D)]. }
    split; [apply S1; [apply S1; [exact DX|exact (Z0 _ _ DP0)]|exact (Z0 _ _ DP1)]|]. split; [reflexivity|]. rewrite TX in *. split; [lra|]. split; [exact (nice_weak (-149) (-150) _ ltac:(lia) NX)|]. split; [lra|]. split; [congruence|].
    rewrite Rminus_diag_eq, Rabs_R0 by reflexivity. split; [|apply Rmult_le_pos; [lra|apply bpow_ge_0]]. apply Rmult_le_pos; [|apply Rabs_pos]. apply Rmult_le_pos; [lra|apply bpow_ge_0].
  - (* the exponent *)
    assert (K1 : (1 <= Rabs (IZR K))%R) by (rewrite <- abs_IZR; apply IZR_le; lia).
    assert (LX : (0.78 <= Rabs X)%R).
    { assert (H : (0.49999997 <= Rabs (c * X))%R). { replace (IZR K) with ((IZR K - c * X) + c * X)%R in K1 by ring. pose proof (Rabs_triang (IZR K - c * X) (c * X)). lra. } rewrite Rabs_mult, (Rabs_pos_eq c) in H by lra. nra. }
    assert (LM : 0x3F000000 <= m).
    { apply Z.nlt_ge. intros L. pose proof (fmag_lt 23 8 eq_refl m 0x3F000000 ltac:(lia)) as G. rewrite <- AX in G. rewrite fmag32_q in G by lia. replace (qval (f2d 0x3F000000)) with (1 # 2)%Q in G by (vm_compute; reflexivity). unfold Q2R in G. cbn [Qnum Qden] in G. lra. }
    assert (HE : -24 <= e <= 5).
    { unfold e. assert (126 <= m / 2^23) by (apply Z.div_le_lower_bound; lia). assert (m / 2^23 < 156) by (apply Z.div_lt_upper_bound; lia). lia. }
    pose proof (normal_value m ltac:(lia)) as NV. fold e in NV. set (M := 2^23 + m mod 2^23) in *. assert (HMM : 2^23 <= M < 2^24) by (unfold M; pose proof (Z.mod_pos_bound m (2^23) ltac:(lia)); lia). clearbody M.
    assert (XM : exists s : bool, X = (if s then - (IZR M * bpow radix2 e) else IZR M * bpow radix2 e)%R) by (exists (fneg 23 8 x); rewrite HV, NV; reflexivity). destruct XM as (s & XM).
    assert (LT : (bpow radix2 (lbe e) <= Rabs T)%R).
    { destruct s.
      - replace T with (- (IZR M * bpow radix2 e - IZR (- K) * (PI / 2)))%R by (unfold T; rewrite XM, opp_IZR; ring). rewrite Rabs_Ropp. apply away; lia.
      - unfold T. rewrite XM. apply away; lia. }
    assert (BX2 : (Rabs X <= bpow radix2 (24 + e))%R).
    { rewrite AX, NV, bpow_plus. apply Rmult_le_compat_r; [apply bpow_ge_0|]. change (bpow radix2 24) with (IZR (2^24)). apply IZR_le. lia. }
    assert (BK2 : (Rabs (IZR K) <= 0.6366198 * bpow radix2 (24 + e) + 0.51)%R).
    { replace (IZR K) with ((IZR K - c * X) + c * X)%R by ring. eapply Rle_trans; [apply Rabs_triang|]. rewrite (Rabs_mult c X), (Rabs_pos_eq c) by lra. assert (c * Rabs X <= 0.6366198 * bpow radix2 (24 + e))%R by (apply Rmult_le_compat; lra). lra. }
    assert (L30 : (bpow radix2 (-33) <= Rabs T)%R). { eapply Rle_trans; [|exact LT]. apply bpow_le. unfold lbe. destruct (e <=? -14) eqn:?; [lia|]. destruct (e <=? -9) eqn:?; [lia|]. destruct (e <=? 1) eqn:?; [lia|]. destruct (e <=? 5) eqn:?; lia. }
    change (bpow radix2 (-33)) with (/ 8589934592)%R in L30.
    (* q * pi_2[0] *)
    assert (D4 : dbl (mul64 q cp0) (IZR K * C0)).
    { assert (F : F53 (IZR K * C0)) by (unfold C0; rewrite <- Rmult_assoc, <- mult_IZR; apply F53_mult; lia).
      pose proof (dbl_mul q cp0 (IZR K) C0 30 D3 DP0) as H. rewrite RN53_id in H by exact F. apply H; [|lia]. rewrite Rabs_mult. unfold C0. change (bpow radix2 (-24)) with (/ 16777216)%R. rewrite (Rabs_pos_eq (26353589 * / 16777216)) by lra. lra. }
    (* x - q * pi_2[0] *)
    set (A := (X - IZR K * C0)%R).
    assert (EA2 : (A = T + IZR K * (PI / 2 - C0 - C1) + IZR K * C1)%R) by (unfold A, T; ring).
    assert (BA : (Rabs A <= 6)%R).
    { rewrite EA2. eapply Rle_trans; [apply Rabs_triang|]. eapply Rle_trans; [apply Rplus_le_compat_r; apply Rabs_triang|]. rewrite !Rabs_mult, (Rabs_pos_eq C1) by lra.
      assert (Rabs (IZR K) * Rabs (PI / 2 - C0 - C1) <= 268435461 * 0.00000000000000000000000064)%R by (apply Rmult_le_compat; [apply Rabs_pos|apply Rabs_pos|lra|lra]). assert (Rabs (IZR K) * C1 <= 268435461 * 0.0000000159)%R by (apply Rmult_le_compat; [apply Rabs_pos|lra|lra|lra]). lra. }
    assert (D5 : dbl (sub64 xd (mul64 q cp0)) A).
    { assert (F : F53 A).
      { assert (EZ : exists z, A = (IZR z * bpow radix2 (-24))%R).
        { exists ((if s then -1 else 1) * M * 2^(e + 24) - K * 0x1921fb5). unfold A, C0. rewrite minus_IZR, !mult_IZR, IZR_pow2 by lia.
          assert (P : (bpow radix2 (e + 24) * bpow radix2 (-24) = bpow radix2 e)%R) by (rewrite <- bpow_plus; f_equal; ring). rewrite XM, <- P. destruct s; ring. }
        destruct EZ as (z & EZ). rewrite EZ in BA |- *. apply F53_mult; [|lia]. rewrite Rabs_mult, (Rabs_pos_eq (bpow radix2 (-24))) in BA by apply bpow_ge_0. change (bpow radix2 (-24)) with (/ 16777216)%R in BA. rewrite <- abs_IZR in BA. apply le_IZR. apply Rle_trans with 100663296%R; [lra|apply IZR_le; lia]. }
      pose proof (dbl_sub xd (mul64 q cp0) X (IZR K * C0) 30 DX D4) as H. fold A in H. rewrite RN53_id in H by exact F. apply H; [lra|lia]. }
    (* q * pi_2[1] *)
    assert (BKC : (Rabs (IZR K * C1) <= 5)%R). { rewrite Rabs_mult, (Rabs_pos_eq C1) by lra. apply Rle_trans with (268435461 * 0.0000000159)%R; [apply Rmult_le_compat; [apply Rabs_pos|lra|lra|lra]|lra]. }
    assert (D6 : dbl (mul64 q cp1) (RN53 (IZR K * C1))) by (apply (dbl_mul _ _ _ _ 30 D3 DP1); [lra|lia]).
    assert (NB : nice (-1022) (IZR K * C1)).
    { right. rewrite Rabs_mult, (Rabs_pos_eq C1) by lra. apply Rle_trans with (bpow radix2 (-30)); [apply bpow_le; lia|]. change (bpow radix2 (-30)) with (/ 1073741824)%R. nra. }
    destruct (R53_ex _ NB) as (b & Hb & EB). rewrite EB in D6. assert (Hb' := Rabs_le_inv _ _ Hb).
    (* y *)
    set (Y0 := (A - IZR K * C1 * (1 + b))%R).
    assert (EY0 : (Y0 - T = IZR K * (PI / 2 - C0 - C1) + - (IZR K * (C1 * b)))%R) by (unfold Y0; rewrite EA2; ring).
    assert (BY0 : (Rabs (Y0 - T) <= 0.0000000000000000000000024066 * Rabs (IZR K))%R).
    { rewrite EY0. eapply Rle_trans; [apply Rabs_triang|]. rewrite Rabs_Ropp, !Rabs_mult, (Rabs_pos_eq C1) by lra. assert (C1 * Rabs b <= 0.0000000159 * 0.0000000000000001111)%R by (apply Rmult_le_compat; [lra|apply Rabs_pos|lra|lra]). nra. }
    assert (TY : (Rabs (Y0 - T) <= 0.0000000000000007)%R) by lra.
    assert (AY : (Rabs T - 0.0000000000000007 <= Rabs Y0 <= Rabs T + Rabs (Y0 - T))%R).
    { pose proof (Rabs_triang (Y0 - T) T) as H1. replace (Y0 - T + T)%R with Y0 in H1 by ring. pose proof (Rabs_triang (- (Y0 - T)) Y0) as H2. replace (- (Y0 - T) + Y0)%R with T in H2 by ring. rewrite Rabs_Ropp in H2. lra. }
    assert (NY : nice (-34) Y0) by (right; change (bpow radix2 (-34)) with (/ 17179869184)%R; lra).
    assert (D7 : dbl (sub64 (sub64 xd (mul64 q cp0)) (mul64 q cp1)) (RN53 Y0)) by (apply (dbl_sub _ _ _ _ 30 D5 D6); [fold Y0; lra|lia]).
    destruct (R53_ex _ (nice_weak (-34) (-1022) _ ltac:(lia) NY)) as (d & Hd & ED). rewrite ED in D7.
    assert (DD : (Rabs (Y0 * (1 + d) - T) <= 0.0000000000000000000000024067 * Rabs (IZR K) + 0.0000000000000001111 * (Rabs T + 0.0000000000000000000000024067 * Rabs (IZR K)))%R).
    { replace (Y0 * (1 + d) - T)%R with ((Y0 - T) + Y0 * d)%R by ring. eapply Rle_trans; [apply Rabs_triang|]. rewrite (Rabs_mult Y0 d).
      assert (Rabs Y0 * Rabs d <= (Rabs T + 0.0000000000000000000000024067 * Rabs (IZR K)) * 0.0000000000000001111)%R by (apply Rmult_le_compat; [apply Rabs_pos|apply Rabs_pos|lra|lra]). lra. }
    destruct (final_bound e (IZR K) T _ HE BK2 LT ltac:(lra) DD) as [F1 F2].
    exists K, (sub64 (sub64 xd (mul64 q cp0)) (mul64 q cp1)), K, (Y0 * (1 + d))%R. fold T. split; [reflexivity|]. split; [exact D7|]. split; [reflexivity|].
    split. { replace (Y0 * (1 + d))%R with ((Y0 * (1 + d) - T) + T)%R by ring. eapply Rle_trans; [apply Rabs_triang|]. lra. }
    split; [exact (nice_weak (-35) (-150) _ ltac:(lia) (nice_u (-34) _ _ NY Hd))|]. split; [lra|]. split; [|split; [exact F1|exact F2]].
    intros _ E. rewrite E, Rabs_R0 in L30. lra.
Qed.

(** ** arguments from 2^27 pi on: 96 bits of 2/pi *)
Definition seg_ok (off : Z) : bool :=
  match segment_ off with
  | Ok (h, l) => (0 <=? h) && (h <? 2^64) && (0 <=? l) && (l <? 2^32) && (h * 2^32 + l =? (B2pi / 2^(160 - off)) mod 2^96)
  | _ => false
  end.
Lemma seg_all : forallb seg_ok (map Z.of_nat (seq 3 100)) = true.
Proof. vm_compute. reflexivity. Qed.
Lemma segment_ok off : 3 <= off <= 102 -> exists h l, segment_ off = Ok (h, l) /\ 0 <= h < 2^64 /\ 0 <= l < 2^32 /\ h * 2^32 + l = (B2pi / 2^(160 - off)) mod 2^96.
Proof.
  intros H. pose proof seg_all as A. rewrite forallb_forall in A. specialize (A off). unfold seg_ok in A. destruct (segment_ off) as [[h l]| |].
  - exists h, l. assert (I : In off (map Z.of_nat (seq 3 100))) by (apply in_map_iff; exists (Z.to_nat off); split; [lia|apply in_seq; lia]). specialize (A I).
    apply andb_prop in A. destruct A as [A A5]. apply andb_prop in A. destruct A as [A A4]. apply andb_prop in A. destruct A as [A A3]. apply andb_prop in A. destruct A as [A1 A2].
    apply Z.leb_le in A1, A3. apply Z.ltb_lt in A2, A4. apply Z.eqb_eq in A5. auto.
  - exfalso. assert (I : In off (map Z.of_nat (seq 3 100))) by (apply in_map_iff; exists (Z.to_nat off); split; [lia|apply in_seq; lia]). specialize (A I). discriminate.
  - exfalso. assert (I : In off (map Z.of_nat (seq 3 100))) by (apply in_map_iff; exists (Z.to_nat off); split; [lia|apply in_seq; lia]). specialize (A I). discriminate.
Qed.
Lemma seg_real off : 3 <= off <= 102 -> let N := B2pi / 2^(160 - off) in (IZR N * (PI / 2) <= bpow radix2 (96 + off) < IZR (N + 1) * (PI / 2))%R.
Proof.
  intros H N. destruct two_over_pi as [A B]. pose proof pi_range as PR. set (D := 2^(160 - off)) in *. assert (D0 : 0 < D) by (apply Z.pow_pos_nonneg; lia).
  assert (L : N * D <= B2pi) by (unfold N; rewrite Z.mul_comm; apply Z.mul_div_le; lia). assert (U : B2pi + 1 <= (N + 1) * D) by (pose proof (Z.mul_succ_div_gt B2pi D D0); unfold N; lia).
  assert (ED : IZR D = bpow radix2 (160 - off)) by (apply IZR_pow2; lia). assert (EB : bpow radix2 256 = (bpow radix2 (96 + off) * IZR D)%R) by (rewrite ED, <- bpow_plus; f_equal; ring).
  clearbody N. apply IZR_le in L, U. rewrite mult_IZR in L, U. apply IZR_lt in D0. rewrite EB in A, B.
  split; [apply Rmult_le_reg_r with (IZR D); [exact D0|]|apply Rmult_lt_reg_r with (IZR D); [exact D0|]]; nra.
Qed.
Lemma product_eq M h l N : 0 <= M < 2^24 -> 0 <= h < 2^64 -> 0 <= l < 2^32 -> 0 <= N -> h * 2^32 + l = N mod 2^96 ->
  u64 (u64 (M * h) + u64 (M * l) / 2^32) = (M * N / 2^32) mod 2^64.
Proof.
  intros HM Hh Hl HN E. unfold u64. assert (B : 0 <= M * l < 2^64) by nia. rewrite (Z.mod_small (M * l)) by exact B. rewrite Zplus_mod_idemp_l.
  assert (EN : N = (h * 2^32 + l) + 2^96 * (N / 2^96)) by (rewrite E; pose proof (Z.div_mod N (2^96) ltac:(lia)); lia). set (w := N / 2^96) in *. clearbody w. rewrite EN.
  replace (M * (h * 2^32 + l + 2^96 * w)) with (M * l + (M * h + M * w * 2^64) * 2^32) by ring. rewrite Z.div_add by lia.
  replace (M * l / 2^32 + (M * h + M * w * 2^64)) with ((M * h + M * l / 2^32) + (M * w) * 2^64) by ring. rewrite Z.mod_add by lia. reflexivity.
Qed.
Lemma quarter p : 0 <= p < 2^64 -> let r := s64 (u64 (p * 2^2)) in let q := p / 2^62 + b2z (r <? 0) in 4 * p = r + 2^64 * q /\ -2^63 <= r < 2^63 /\ 0 <= q <= 4.
Proof.
  intros H r q. pose proof (Z.div_mod p (2^62) ltac:(lia)) as E. pose proof (Z.mod_pos_bound p (2^62) ltac:(lia)) as B. set (a := p / 2^62) in *. set (b := p mod 2^62) in *.
  assert (A : 0 <= a < 4) by (unfold a; split; [apply Z.div_pos; lia|apply Z.div_lt_upper_bound; lia]).
  assert (U : u64 (p * 2^2) = 4 * b). { unfold u64. rewrite E. replace ((2^62 * a + b) * 2^2) with (4 * b + a * 2^64) by ring. rewrite Z.mod_add by lia. apply Z.mod_small. lia. }
  unfold q, r. rewrite U. unfold s64, sgn. cbv zeta. rewrite (Z.mod_small (4 * b)) by lia. change (2^(64-1)) with (2^63). destruct (4 * b <? 2^63) eqn:L.
  - replace (4 * b <? 0) with false by lia. cbn [b2z]. lia.
  - replace (4 * b - 2^64 <? 0) with true by lia. cbn [b2z]. lia.
Qed.
Lemma dbl_ofZ n : Z.abs n <= 2^63 -> dbl (ofZ64 n) (RN53 (IZR n)).
Proof.
  intros H. apply (dbl_rounds _ (n <? 0) _ 63); [apply (hofZ_ok 52 11 eq_refl eq_refl)| |lia]. rewrite <- abs_IZR, <- IZR_pow2 by lia. apply IZR_le. exact H.
Qed.
Lemma large_ok x : fbits 23 8 x -> ffinite 23 8 x = true -> 0x4DC90FDB <= fabsb 23 8 x -> reduced 31 x.
Proof.
  intros Hx Fx HM. set (m := fabsb 23 8 x) in *. assert (HF : m < 0x7F800000) by (unfold ffinite in Fx; change (finf 23 8) with 0x7F800000 in Fx; fold m in Fx; lia).
  unfold reduced, rem_pio2f. cbv zeta. rewrite (land_abs x Hx), (neg_i x Hx). fold m. replace (m <? 0x4DC90FDB) with false by lia. replace (0x7F800000 <=? m) with false by lia.
  destruct (abs_finite x Hx Fx) as [_ HV]. fold m in HV. rewrite (normal_value m) in HV by lia.
  assert (HE : 155 <= m / 2^23 <= 254). { split; [apply Z.div_le_lower_bound; lia|]. assert (m / 2^23 < 255) by (apply Z.div_lt_upper_bound; lia). lia. }
  assert (SG : Z.lor (Z.land (s32 x) 0x7FFFFF) 0x800000 = 2^23 + m mod 2^23).
  { assert (EL : Z.land (s32 x) 0x7FFFFF = m mod 2^23). { unfold m. rewrite <- (land_abs x Hx). change 0x7FFFFF with (Z.ones 23). rewrite <- (Z.land_ones _ 23) by lia. rewrite <- Z.land_assoc. reflexivity. }
    rewrite EL, Z.lor_comm. pose proof (Z.mod_pos_bound m (2^23) ltac:(lia)) as MB. set (z := m mod 2^23) in *. clearbody z. clear - MB.
    rewrite <- Z.lxor_lor; [rewrite <- Z.add_nocarry_lxor; [reflexivity|]|]; apply Z.bits_inj'; intros n Hn; rewrite Z.land_spec, Z.bits_0; change 0x800000 with (2^23); rewrite Z.pow2_bits_eqb by lia; (destruct (23 =? n) eqn:E; [|reflexivity]); apply Z.eqb_eq in E; subst n; cbn [andb]; (destruct (Z.eq_dec z 0) as [->|NZ]; [apply Z.bits_0|apply Z.bits_above_log2; [lia|apply Z.log2_lt_pow2; lia]]). }
  rewrite SG. set (M := 2^23 + m mod 2^23) in *. assert (HMM : 2^23 <= M < 2^24) by (unfold M; pose proof (Z.mod_pos_bound m (2^23) ltac:(lia)); lia). clearbody M. clear SG.
  set (off := m / 2^23 - 152). assert (HO : 3 <= off <= 102) by (unfold off; lia). replace (m / 2^23 - 150) with (off + 2) in HV by (unfold off; lia). clearbody off.
  destruct (segment_ok off HO) as (h & l & SE & Hh & Hl & EW). rewrite SE. cbn [bind]. pose proof (seg_real off HO) as SR. cbv zeta in SR. set (N := B2pi / 2^(160 - off)) in *.
  assert (N0 : 0 <= N) by (unfold N; apply Z.div_pos; [discriminate|apply Z.pow_pos_nonneg; lia]). clearbody N.
  rewrite (product_eq M h l N ltac:(lia) Hh Hl N0 EW). set (Pf := M * N / 2^32) in *.
  assert (PF : Pf * 2^32 <= M * N < (Pf + 1) * 2^32). { unfold Pf. pose proof (Z.mul_div_le (M * N) (2^32) ltac:(lia)). pose proof (Z.mul_succ_div_gt (M * N) (2^32) ltac:(lia)). lia. }
  clearbody Pf. pose proof (Z.div_mod Pf (2^64) ltac:(lia)) as EP. pose proof (Z.mod_pos_bound Pf (2^64) ltac:(lia)) as BP. set (j := Pf / 2^64) in *. set (p := Pf mod 2^64) in *. clearbody j p.
  destruct (quarter p BP) as (EQ & BR & BQ). set (r := s64 (u64 (p * 2^2))) in *. set (q := p / 2^62 + b2z (r <? 0)) in *. clearbody r q.
  set (K := q + 4 * j). assert (EK : 4 * Pf = r + 2^64 * K) by (unfold K; lia).
  (* x as a real *)
  pose proof pi_range as PR. set (V := (IZR M * bpow radix2 (off + 2))%R) in *.
  assert (J : (bpow radix2 94 * bpow radix2 (-94) = 1)%R) by (rewrite <- bpow_plus; reflexivity). pose proof (bpow_gt_0 radix2 (-94)) as J0.
  assert (EV : V = (IZR M * bpow radix2 (96 + off) * bpow radix2 (-94))%R) by (unfold V; rewrite Rmult_assoc, <- bpow_plus; f_equal; f_equal; ring).
  assert (TB : (0 <= V - IZR K * (PI / 2) - IZR r * (PI / 2) * bpow radix2 (-64) <= 0.0000000000000000003421)%R).
  { assert (M1 : (IZR (Pf * 2^32) * (PI / 2) <= IZR M * bpow radix2 (96 + off))%R).
    { apply Rle_trans with (IZR (M * N) * (PI / 2))%R; [apply Rmult_le_compat_r; [lra|]; apply IZR_le; lia|]. rewrite mult_IZR, Rmult_assoc. apply Rmult_le_compat_l; [apply IZR_le; lia|lra]. }
    assert (M2 : (IZR M * bpow radix2 (96 + off) <= IZR ((Pf + 1) * 2^32 + 2^24) * (PI / 2))%R).
    { apply Rle_trans with (IZR (M * (N + 1)) * (PI / 2))%R; [rewrite mult_IZR, Rmult_assoc; apply Rmult_le_compat_l; [apply IZR_le; lia|lra]|]. apply Rmult_le_compat_r; [lra|]. apply IZR_le. lia. }
    assert (E1 : (IZR K * (PI / 2) + IZR r * (PI / 2) * bpow radix2 (-64) = IZR (Pf * 2^32) * (PI / 2) * bpow radix2 (-94))%R).
    { replace (Pf * 2^32) with ((r + 2^64 * K) * 2^30) by lia. rewrite mult_IZR, plus_IZR, mult_IZR. change (IZR (2^30)) with (bpow radix2 30). change (IZR (2^64)) with (bpow radix2 64).
      assert (E2 : (bpow radix2 30 * bpow radix2 (-94) = bpow radix2 (-64))%R) by (rewrite <- bpow_plus; reflexivity). assert (E3 : (bpow radix2 64 * bpow radix2 (-64) = 1)%R) by (rewrite <- bpow_plus; reflexivity).
      replace ((IZR r + bpow radix2 64 * IZR K) * bpow radix2 30 * (PI / 2) * bpow radix2 (-94))%R with ((IZR r + bpow radix2 64 * IZR K) * (PI / 2) * (bpow radix2 30 * bpow radix2 (-94)))%R by ring. rewrite E2.
      replace ((IZR r + bpow radix2 64 * IZR K) * (PI / 2) * bpow radix2 (-64))%R with (IZR r * (PI / 2) * bpow radix2 (-64) + IZR K * (PI / 2) * (bpow radix2 64 * bpow radix2 (-64)))%R by ring. rewrite E3. ring. }
    assert (E4 : ((Pf + 1) * 2^32 + 2^24 = Pf * 2^32 + 4311744512)) by lia. rewrite E4, plus_IZR in M2.
    apply (Rmult_le_compat_r (bpow radix2 (-94))) in M1, M2; [|lra|lra]. rewrite <- EV in M1, M2. rewrite Rmult_plus_distr_r, Rmult_plus_distr_r in M2.
    assert (E5 : (IZR 4311744512 * (PI / 2) * bpow radix2 (-94) <= 0.0000000000000000003421)%R). { change (bpow radix2 (-94)) with (/ 19807040628566084398385987584)%R. lra. }
    lra. }
  set (s := fneg 23 8 x) in *. set (X := fval 23 8 x) in *. clearbody X. 
  (* the constant and r *)
  destruct c65_ok as (C & DC & RC). fold c65. destruct u53_dec as [U0 U1].
  assert (P64 : (bpow radix2 (-64) = / 18446744073709551616)%R) by reflexivity.
  assert (CP : (0 < PI / 2 * bpow radix2 (-64))%R) by (rewrite P64; lra).
  pose proof (relr_range 0.00000000000000012 C _ ltac:(lra) CP RC) as CL. assert (C0 : (0 <= C)%R) by lra.
  pose proof (dbl_copysign c65 C (f2d x) DC C0) as DS. rewrite (f2d_sign x Hx Fx) in DS. fold s in DS.
  assert (AR : Z.abs r <= 2^63) by lia. pose proof (dbl_ofZ r AR) as DR.
  assert (NR : nice 0 (IZR r)). { destruct (Z.eq_dec r 0) as [->|Hr]; [left; reflexivity|right]. rewrite <- abs_IZR. apply IZR_le. lia. }
  destruct (R53_ex _ (nice_weak 0 (-1022) _ ltac:(lia) NR)) as (a & Ha & EA). rewrite EA in DR.
  assert (RR : relr 0.0000000000000001111 (IZR r * (1 + a)) (IZR r)) by (apply relr_of; lra).
  set (Y1 := ((if s then - C else C) * (IZR r * (1 + a)))%R).
  set (Z1 := (IZR r * (PI / 2) * bpow radix2 (-64))%R) in *.
  assert (RY1 : relr 0.00000000000000023112 (if s then - Y1 else Y1) Z1).
  { replace (if s then - Y1 else Y1)%R with (C * (IZR r * (1 + a)))%R by (unfold Y1; destruct s; ring). unfold Z1. replace (IZR r * (PI / 2) * bpow radix2 (-64))%R with (PI / 2 * bpow radix2 (-64) * IZR r)%R by ring.
    eapply relr_weak; [|apply (relr_mul 0.00000000000000012 0.0000000000000001111 _ _ _ _ ltac:(lra) ltac:(lra) RC RR)]. lra. }
  assert (BZ : (Rabs Z1 <= 0.7853981640)%R).
  { unfold Z1. rewrite !Rabs_mult, (Rabs_pos_eq (PI / 2)), (Rabs_pos_eq (bpow radix2 (-64))) by (rewrite ?P64; lra). assert (HR : (Rabs (IZR r) <= 9223372036854775808)%R) by (rewrite <- abs_IZR; apply IZR_le; lia). rewrite P64. pose proof (Rabs_pos (IZR r)).
    apply Rle_trans with (9223372036854775808 * 1.570796327 * / 18446744073709551616)%R; [|lra]. apply Rmult_le_compat_r; [lra|]. apply Rmult_le_compat; lra. }
  assert (AY1 : Rabs (if s then - Y1 else Y1) = Rabs Y1) by (destruct s; [apply Rabs_Ropp|reflexivity]).
  assert (BY1 : (Rabs Y1 <= 0.78541)%R). { rewrite <- AY1. unfold relr in RY1. replace (if s then - Y1 else Y1)%R with (((if s then - Y1 else Y1) - Z1) + Z1)%R by ring. eapply Rle_trans; [apply Rabs_triang|]. lra. }
  assert (DY : dbl (mul64 (copysign 52 11 c65 (f2d x)) (ofZ64 r)) (RN53 Y1)) by (apply (dbl_mul _ _ _ _ 0 DS DR); [fold Y1; change (bpow radix2 0) with 1%R; lra|lia]).
  assert (NY1 : nice (-65) Y1).
  { unfold Y1. replace (-65) with (-64 + -1) by reflexivity. apply nice_mul; [|exact (nice_near 0 _ a NR ltac:(lra))]. right. replace (Rabs (if s then - C else C)) with C by (symmetry; apply abs_sign; exact C0).
    eapply Rle_trans; [|apply CL]. rewrite P64. lra. }
  destruct (R53_ex _ (nice_weak (-65) (-1022) _ ltac:(lia) NY1)) as (d & Hd & ED). rewrite ED in DY.
  set (K' := if s then - K else K).
  assert (ET : (X - IZR K' * (PI / 2) = (if s then - (V - IZR K * (PI / 2)) else (V - IZR K * (PI / 2))))%R) by (unfold K'; rewrite HV; destruct s; [rewrite opp_IZR|]; ring).
  set (T0 := (V - IZR K * (PI / 2))%R) in *.
  assert (LT30 : (bpow radix2 (-30) <= Rabs T0)%R).
  { unfold T0, V. eapply Rle_trans; [|apply away; lia]. apply bpow_le. unfold lbe. replace (off + 2 <=? -14) with false by lia. replace (off + 2 <=? -9) with false by lia. replace (off + 2 <=? 1) with false by lia. destruct (off + 2 <=? 5) eqn:?; lia. }
  change (bpow radix2 (-30)) with (/ 1073741824)%R in LT30.
  exists (if s then - q else q), (mul64 (copysign 52 11 c65 (f2d x)) (ofZ64 r)), K', (Y1 * (1 + d))%R.
  split; [reflexivity|]. split; [exact DY|]. split. { unfold K', K. destruct s; [replace (- (q + 4 * j)) with (- q + (- j) * 4) by ring|replace (q + 4 * j) with (q + j * 4) by ring]; symmetry; apply Z.mod_add; lia. }
  assert (Hd' := Rabs_le_inv _ _ Hd). assert (BYd : (Rabs (Y1 * (1 + d)) <= 0.7856)%R) by (rewrite Rabs_mult, (Rabs_pos_eq (1 + d)) by lra; pose proof (Rabs_pos Y1); nra).
  split; [exact BYd|]. split; [exact (nice_weak (-66) (-150) _ ltac:(lia) (nice_u (-65) _ _ NY1 Hd))|].
  rewrite ET. assert (BT : (Rabs T0 <= 0.7855)%R) by (apply Rabs_le_inv in BZ; apply Rabs_le; lra).
  assert (DD : (Rabs (Y1 * (1 + d) - (if s then - T0 else T0)) <= 0.00000000000000034223 * Rabs Z1 + 0.0000000000000000003421)%R).
  { replace (Rabs (Y1 * (1 + d) - (if s then - T0 else T0))) with (Rabs ((if s then - Y1 else Y1) * (1 + d) - T0)) by (destruct s; [rewrite <- Rabs_Ropp|]; f_equal; ring).
    set (Y2 := (if s then - Y1 else Y1)%R) in *. clearbody Y2. unfold relr in RY1.
    replace (Y2 * (1 + d) - T0)%R with ((Y2 - Z1) * (1 + d) + Z1 * d + - (T0 - Z1))%R by ring. eapply Rle_trans; [apply Rabs_triang|]. rewrite Rabs_Ropp. rewrite (Rabs_pos_eq (T0 - Z1)) by lra.
    eapply Rle_trans; [apply Rplus_le_compat_r; apply Rabs_triang|]. rewrite (Rabs_mult (Y2 - Z1)), (Rabs_mult Z1), (Rabs_pos_eq (1 + d)) by lra. pose proof (Rabs_pos Z1). pose proof (Rabs_pos (Y2 - Z1)).
    assert (Rabs (Y2 - Z1) * (1 + d) <= 0.00000000000000023112 * Rabs Z1 * 1.0000001)%R by (apply Rmult_le_compat; lra). assert (Rabs Z1 * Rabs d <= Rabs Z1 * 0.0000000000000001111)%R by (apply Rmult_le_compat_l; lra). lra. }
  assert (ZT : (Rabs Z1 <= Rabs T0 + 0.0000000000000000003421)%R). { replace Z1 with (T0 + - (T0 - Z1))%R by ring. eapply Rle_trans; [apply Rabs_triang|]. rewrite Rabs_Ropp, (Rabs_pos_eq (T0 - Z1)) by lra. lra. }
  assert (AT : Rabs (if s then - T0 else T0) = Rabs T0) by (destruct s; [apply Rabs_Ropp|reflexivity]). rewrite AT. split; [lra|].
  split; [intros _ E; assert (Z0 : Rabs T0 = 0%R) by (rewrite <- AT, E; apply Rabs_R0); lra|].
  change (bpow radix2 (- (31))) with (/ 2147483648)%R. change (bpow radix2 (- (31) - 10)) with (/ 2199023255552)%R. split; lra.
Qed.

(** ** all finite floats *)
Theorem reduced_ok x : fbits 23 8 x -> ffinite 23 8 x = true ->
  reduced (if fabsb 23 8 x <? 0x47000000 then 39 else if fabsb 23 8 x <? 0x4C000000 then 30 else if fabsb 23 8 x <? 0x4DC90FDB then 26 else 31) x.
Proof.
  intros Hx Fx. set (m := fabsb 23 8 x). assert (M0 : 0 <= m) by (apply Z.mod_pos_bound; reflexivity).
  destruct (Z_lt_ge_dec m 0x4DC90FDB) as [L|L].
  - pose proof (small_ok x Hx L) as R. fold m in R.
    replace (if m <? 0x47000000 then 39 else if m <? 0x4C000000 then 30 else if m <? 0x4DC90FDB then 26 else 31) with (kof (m / 2^23 - 150)).
    + exact R.
    + unfold kof. replace (m <? 0x4DC90FDB) with true by lia. destruct (m <? 0x47000000) eqn:A.
      * assert (m / 2^23 < 142) by (apply Z.div_lt_upper_bound; lia). replace (m / 2^23 - 150 <=? -9) with true by lia. reflexivity.
      * assert (142 <= m / 2^23) by (apply Z.div_le_lower_bound; lia). replace (m / 2^23 - 150 <=? -9) with false by lia. destruct (m <? 0x4C000000) eqn:B.
        -- assert (m / 2^23 < 152) by (apply Z.div_lt_upper_bound; lia). replace (m / 2^23 - 150 <=? 1) with true by lia. reflexivity.
        -- assert (152 <= m / 2^23) by (apply Z.div_le_lower_bound; lia). replace (m / 2^23 - 150 <=? 1) with false by lia. reflexivity.
  - replace (m <? 0x47000000) with false by lia. replace (m <? 0x4C000000) with false by lia. replace (m <? 0x4DC90FDB) with false by lia. exact (large_ok x Hx Fx ltac:(fold m; lia)).
Qed.
