(** Accuracy of expf and exp2f. *)
From Coq Require Import Reals Lra Lia Psatz QArith Qreals Qabs List.
From Flocq Require Import Core BinarySingleNaN.
From Verif Require Import Base FP FP_Proof HW HW_Proof Midpoint Fmaf_Proof Math_Model Math_Int_Proof Math_Lconv_Proof Hypotf_Real Hypotf_Proof Approx Subdiv Ferr Elem_Spec Elem_Proof Elem_Num Expf_Model.
Import ListNotations.
Open Scope Z_scope.
Local Ltac Zify.zify_post_hook ::= idtac.

(** ** facts about ln 2 and exp *)
Lemma ln2_dec : (0.6931471 <= ln 2 <= 0.6931472)%R.
Proof.
  pose proof ln2_bounds as [A B].
  assert (K1 : (Q2R (6931471 # 10000000) <= Q2R ln2_lo)%R) by (apply Q2R_le; reflexivity).
  assert (K2 : (Q2R ln2_hi <= Q2R (6931472 # 10000000))%R) by (apply Q2R_le; reflexivity).
  assert (E1 : Q2R (6931471 # 10000000) = 0.6931471%R) by (unfold Q2R; cbn [Qnum Qden]; lra).
  assert (E2 : Q2R (6931472 # 10000000) = 0.6931472%R) by (unfold Q2R; cbn [Qnum Qden]; lra). lra.
Qed.
(** an affine function of ln 2 with rational data *)
Lemma ln2_affine a b e : Qle_bool (Qabs (a + b * ln2_lo)) e = true -> Qle_bool (Qabs (a + b * ln2_hi)) e = true -> (Rabs (Q2R a + Q2R b * ln 2) <= Q2R e)%R.
Proof.
  intros H1 H2. apply Q2R_le in H1. apply Q2R_le in H2. rewrite Q2R_abs, Q2R_plus, Q2R_mult in H1, H2. pose proof ln2_bounds as [A B].
  apply Rabs_le_inv in H1. apply Rabs_le_inv in H2. apply Rabs_le. destruct (Rle_or_lt 0 (Q2R b)); split; nra.
Qed.
Lemma exp_lower x : (1 + x <= exp x)%R.
Proof. destruct (Req_dec x 0) as [->|N]; [rewrite exp_0; lra|]. left. apply exp_ineq1. exact N. Qed.
Lemma exp_upper x : (x < 1 -> exp x <= / (1 - x))%R.
Proof.
  intros H. rewrite <- (Ropp_involutive x) at 1. rewrite exp_Ropp. apply Rinv_le_contravar; [lra|]. pose proof (exp_lower (- x)). lra.
Qed.
Lemma exp_close a b : (Rabs a <= 1 -> Rabs b <= 1 -> Rabs (exp a - exp b) <= 9 * Rabs (a - b))%R.
Proof.
  intros Ha Hb. destruct (Rle_or_lt 1 (Rabs (a - b))) as [G|G].
  - pose proof (exp_pos a). pose proof (exp_pos b). assert (exp a <= 3)%R by (apply (exp_le3 a a); [lra|exact Ha]). assert (exp b <= 3)%R by (apply (exp_le3 b b); [lra|exact Hb]).
    apply Rle_trans with 3%R; [apply Rabs_le; lra|lra].
  - pose proof (exp_taylor 1 (a - b) 3) as T. cbn [Texp fact INR Nat.mul Nat.add] in T. rewrite pow_O, pow_1 in T.
    assert (T' : (Rabs (exp (a - b) - 1) <= 3 * Rabs (a - b))%R).
    { replace (exp (a - b) - 1)%R with (exp (a - b) - (0 + 1 / 1))%R by field. eapply Rle_trans; [apply T|]; [|right; field]. intros t Ht. apply (exp_le3 t (a - b) Ht). lra. }
    assert (E : (exp a = exp b * exp (a - b))%R) by (rewrite <- exp_plus; f_equal; ring).
    rewrite E. replace (exp b * exp (a - b) - exp b)%R with (exp b * (exp (a - b) - 1))%R by ring. rewrite Rabs_mult, (Rabs_pos_eq (exp b)) by (left; apply exp_pos).
    assert (exp b <= 3)%R by (apply (exp_le3 b b); [lra|exact Hb]). pose proof (Rabs_pos (a - b)). pose proof (exp_pos b). nra.
Qed.

(** ** Horner evaluation as expressions *)
Definition hs (p : fe) (c : Z) : fe := EAdd (EMul p (EV 0)) (EC c).
Definition hornr (l : list Z) : fe := match l with [] => EC 0 | c :: l => fold_left hs l (EC c) end.
Definition poly_of (e : fe) : list Q := match epoly e with Some l => l | None => [] end.

(** ** expf *)
Definition kexpf : fe := EAdd (EC c_1) (EMul (EV 0) (hornr [0x3E5AE902082B73E6; 0x3E928A27F8516605; 0x3EC71DE71735C55F;
  0x3EFA019A6B0B0206; 0x3F2A01A017EE7F13; 0x3F56C16C17F2A70F; 0x3F811111111173CC; 0x3FA555555555211A;
  0x3FC5555555555540; 0x3FE0000000000005; 0x3FF0000000000000])).
Definition pexpf : list Q := Eval vm_compute in poly_of kexpf.
Lemma kexpf_bits d : add64 c_1 (kernel_expf_ d) = ebits (env1 d d) kexpf.
Proof. unfold kernel_expf_, kexpf, hstep. cbn [hornr fold_left hs ebits env1]. reflexivity. Qed.
Lemma kexpf_poly : epoly kexpf = Some pexpf.
Proof. vm_compute. reflexivity. Qed.
Lemma pexpf_exp V : (Rabs V <= Q2R (347 # 1000))%R -> (Rabs (peval pexpf V - exp V) <= Q2R (25 # 10^18))%R.
Proof.
  intros H. assert (E3 : Q2R (347 # 1000) = (347 / 1000)%R) by (unfold Q2R; cbn [Qnum Qden]; lra).
  assert (C : subdiv pexpf (expl 15 1 1) 128 7 (-45) 44%nat (24 # 10^18) = true) by (vm_compute; reflexivity).
  pose proof (subdiv_ok _ _ _ _ _ _ _ V C) as A. change (IZR (-45 + 2 * Z.of_nat 45)) with 45%R in A. change (bpow radix2 (- (7))) with (/ 128)%R in A.
  pose proof (Rabs_le_inv _ _ H) as H'. specialize (A ltac:(lra) ltac:(lra)).
  pose proof (exp_taylor_q 15 _ V H ltac:(discriminate)) as B.
  assert (K : (Q2R ((24 # 10^18) + exp_rem 15 (347 # 1000)) <= Q2R (25 # 10^18))%R) by (apply Q2R_le; vm_compute; reflexivity).
  rewrite Q2R_plus in K. replace (peval pexpf V - exp V)%R with ((peval pexpf V - peval (expl 15 1 1) V) + - (exp V - peval (expl 15 1 1) V))%R by ring.
  eapply Rle_trans; [apply Rabs_triang|]. rewrite Rabs_Ropp. lra.
Qed.
Lemma kexpf_ok d V : nearq d V (347 # 1000) (9 # 10^17) -> nearq (add64 c_1 (kernel_expf_ d)) (exp V) 2 (42 # 10^17).
Proof.
  intros N. pose proof N as (_ & _ & _ & HV).
  assert (C : chk2 (347 # 1000) (9 # 10^17) (347 # 1000) (9 # 10^17) kexpf 2 (394 # 10^18) = true) by (vm_compute; reflexivity).
  pose proof (chk1_ok _ _ _ _ _ _ _ _ C kexpf_poly N) as R. rewrite <- kexpf_bits in R.
  apply (nearq_refine _ _ _ _ _ _ _ (25 # 10^18) R); [apply pexpf_exp; exact HV| |reflexivity].
  rewrite Rabs_pos_eq by (left; apply exp_pos). unfold Q2R in HV |- *. cbn [Qnum Qden] in HV |- *. apply Rabs_le_inv in HV.
  eapply Rle_trans; [apply exp_upper; lra|]. apply Rle_trans with (/ (1 / 2))%R; [apply Rinv_le_contravar; lra|]. lra.
Qed.

(** scaling the kernel result by 2^k *)
Lemma scaled j eps d W k v : nearq d W 2 eps -> (0.65 <= W <= 1.6)%R -> -1000 <= k <= 1000 -> v = (W * bpow radix2 k)%R ->
  (Q2R eps <= 0.1)%R -> (Q2R eps * bpow radix2 j <= 0.65)%R -> exists r, shift_ d k = Ok r /\ nearly_rounded j v (d2f r).
Proof.
  intros (y & D & A & B) HW Hk -> K1 K2. pose proof (Rabs_le_inv _ _ A) as A'.
  destruct (shift_ok d y k D ltac:(lra) Hk) as (r & S & R1 & R2 & R3 & R4). exists r. split; [exact S|].
  pose proof (bpow_gt_0 radix2 k) as P.
  apply to_float; [exact R1|exact R2| |].
  - rewrite R3. symmetry. apply Rlt_bool_false. nra.
  - rewrite R4, <- Rmult_minus_distr_r, !Rabs_mult, (Rabs_pos_eq (bpow radix2 k)), (Rabs_pos_eq W) by lra.
    rewrite <- Rmult_assoc. apply Rmult_le_compat_r; [lra|]. eapply Rle_trans; [exact A|].
    assert (Q : (bpow radix2 (- j) * bpow radix2 j = 1)%R) by (rewrite <- bpow_plus, Z.add_opp_diag_l; reflexivity).
    pose proof (bpow_gt_0 radix2 (- j)) as J. apply (Rmult_le_compat_r (bpow radix2 (- j))) in K2; [|lra]. rewrite Rmult_assoc, (Rmult_comm (bpow radix2 j)), Q in K2. nra.
Qed.

Lemma rounds_zero v : (0 <= v < bpow radix2 (-150))%R -> rounds_to 23 8 v false 0.
Proof.
  intros [P L]. apply exact_result; [lia|]. rewrite (fmag_0 23 8 eq_refl). apply Rle_antisym.
  - apply RN24_le_mid; [apply generic_format_0|]. rewrite succ_0, ulp_FLT_0 by reflexivity. replace ((0 + bpow radix2 (-149)) / 2)%R with (bpow radix2 (-150)); [exact L|].
    change (bpow radix2 (-149)) with (bpow radix2 (-150 + 1)). rewrite bpow_plus. change (bpow radix2 1) with 2%R. field.
  - rewrite <- (RN24_id 0) by apply generic_format_0. apply RN24_le. exact P.
Qed.
Lemma rounds_huge v : (bpow radix2 128 - bpow radix2 103 < v)%R -> rounds_to 23 8 v false 0x7F800000.
Proof.
  intros L. assert (F : generic_format radix2 (FLT_exp (-149) 24) (bpow radix2 128)) by (apply generic_format_bpow; unfold FLT_exp; lia).
  assert (G : (bpow radix2 128 <= RN24 v)%R).
  { apply RN24_ge_mid; [exact F|]. pose proof (pred_gap_pos _ F (bpow_gt_0 radix2 128)) as PG. rewrite <- bpow_plus in PG.
    replace (bpow radix2 103) with (bpow radix2 (-24 + 128) / 2)%R in L; [lra|]. change (-24 + 128) with (103 + 1). rewrite bpow_plus. change (bpow radix2 1) with 2%R. field. }
  pose proof (bpow_gt_0 radix2 128). split; [split; [lia|reflexivity]|]. split; [reflexivity|]. change (2^(8-1)) with 128. rewrite Rabs_pos_eq by lra. split; [intros K; lra|reflexivity].
Qed.

Lemma exp_bpow k : exp (IZR k * ln 2) = bpow radix2 k.
Proof. rewrite bpow_exp. reflexivity. Qed.

Lemma dbl_c c q : (0 <=? c) && (c <? 2^64) && ffinite 52 11 c && (Z.abs (Qnum (qval c)) <=? Zpos (Qden (qval c)) * 2^500) = true -> Qeq_bool (qval c) q = true -> dbl c (Q2R q).
Proof.
  intros C E. apply Qeq_bool_iff, Qeq_eqR in E. rewrite <- E, qval_ok.
  apply andb_prop in C. destruct C as [C C4]. apply andb_prop in C. destruct C as [C C3]. apply andb_prop in C. destruct C as [C1 C2].
  destruct (near_const c ltac:(split; [lia|change (2^(52+11+1)) with (2^64); lia]) C3 C4) as (y & D & A & _). rewrite Rmult_0_l in A.
  assert (y = fval 52 11 c) as -> by (apply Rminus_diag_uniq; destruct (Req_dec (y - fval 52 11 c) 0) as [Z|Z]; [exact Z|]; pose proof (Rabs_pos_lt _ Z); lra). exact D.
Qed.

(** the value of a single-precision literal *)
Lemma fmag32_q n : 0 <= n < 0x7F800000 -> fmag 23 8 n = Q2R (qval (f2d n)).
Proof.
  intros H. assert (A : fabsb 23 8 n = n) by (apply Z.mod_small; lia). assert (B : fneg 23 8 n = false) by (unfold fneg; change (2^(23+8)) with 0x80000000; lia).
  rewrite qval_ok, fval_f2d.
  - unfold fval. rewrite A, B. reflexivity.
  - split; [lia|change (2^(23+8+1)) with 0x100000000; lia].
  - unfold ffinite. rewrite A. change (finf 23 8) with 0x7F800000. lia.
Qed.
Lemma under_min x : fbits 23 8 x -> (fval 23 8 x < Q2R (qval expf_min))%R -> (fval 23 8 x < IZR (-150) * ln 2)%R.
Proof.
  intros Hx L. assert (N : 0 <= fabsb 23 8 x) by (apply Z.mod_pos_bound; reflexivity). unfold fval in *. 
  pose proof (fmag_nonneg 23 8 eq_refl _ N) as NN.
  assert (M0 : (Q2R (qval expf_min) <= Q2R 0)%R) by (apply Q2R_le; reflexivity). rewrite Q2R_0 in M0.
  destruct (fneg 23 8 x); [|lra].
  assert (G : 0x42cff1b5 <= fabsb 23 8 x).
  { destruct (Z.le_gt_cases 0x42cff1b5 (fabsb 23 8 x)) as [G|G]; [exact G|exfalso].
    pose proof (fmag_le 23 8 eq_refl (fabsb 23 8 x) 0x42cff1b4 ltac:(lia)) as K. rewrite (fmag32_q 0x42cff1b4) in K by lia.
    assert (Q : (Q2R (qval expf_min) <= Q2R (- qval (f2d 0x42cff1b4)))%R) by (apply Q2R_le; vm_compute; reflexivity). rewrite Q2R_opp in Q. lra. }
  pose proof (fmag_le 23 8 eq_refl 0x42cff1b5 (fabsb 23 8 x) ltac:(lia)) as K. rewrite (fmag32_q 0x42cff1b5) in K by lia.
  pose proof (ln2_bounds) as [_ LH].
  assert (Q : (Q2R (150 * ln2_hi) <= Q2R (qval (f2d 0x42cff1b5) - (1#1000000000)))%R) by (apply Q2R_le; vm_compute; reflexivity).
  rewrite Q2R_mult, Q2R_minus in Q. replace (Q2R 150) with 150%R in Q by (unfold Q2R; cbn [Qnum Qden]; lra). replace (Q2R (1#1000000000)) with (1 / 1000000000)%R in Q by (unfold Q2R; cbn [Qnum Qden]; lra). lra.
Qed.

Theorem expf_ok x : fbits 23 8 x -> ffinite 23 8 x = true ->
  exists b, expf x = Ok b /\ nearly_rounded 50 (exp (fval 23 8 x)) b.
Proof.
  intros Hx Fx. set (X := fval 23 8 x). unfold expf. cbv zeta.
  pose proof (dbl_f2d x Hx Fx) as DX. fold X in DX. set (xd := f2d x) in *. clearbody xd.
  assert (DMIN : dbl expf_min (Q2R (qval expf_min))) by (apply dbl_c; reflexivity).
  assert (DMAX : dbl expf_max (Q2R (qval expf_max))) by (apply dbl_c; reflexivity).
  unfold lt64. destruct (hlt 52 11 xd expf_min) eqn:L1.
  { apply (dbl_lt _ _ _ _ DX DMIN) in L1. eexists. split; [reflexivity|]. exists (exp X). split.
    - rewrite Rminus_diag_eq, Rabs_R0 by reflexivity. apply Rmult_le_pos; [apply bpow_ge_0|apply Rabs_pos].
    - rewrite Rlt_bool_false by (left; apply exp_pos). apply rounds_zero. split; [left; apply exp_pos|].
      rewrite <- exp_bpow. apply exp_increasing. apply (under_min x Hx); exact L1. }
  destruct (hlt 52 11 expf_max xd) eqn:L2.
  { apply (dbl_lt _ _ _ _ DMAX DX) in L2. exists 0x7F800000. split; [f_equal; vm_compute; reflexivity|]. exists (exp X). split.
    - rewrite Rminus_diag_eq, Rabs_R0 by reflexivity. apply Rmult_le_pos; [apply bpow_ge_0|apply Rabs_pos].
    - rewrite Rlt_bool_false by (left; apply exp_pos). apply rounds_huge.
      assert (K : (- (1 / 1099511627776) <= X - 128 * ln 2)%R).
      { pose proof (ln2_affine (qval expf_max) (-128) (1 # 2^40) eq_refl eq_refl) as A. apply Rabs_le_inv in A.
        replace (Q2R (-128)) with (-128)%R in A by (unfold Q2R; cbn [Qnum Qden]; lra). replace (Q2R (1 # 2^40)) with (1 / 1099511627776)%R in A by (unfold Q2R; cbn [Qnum Qden]; change (Zpos (2^40)) with 1099511627776; lra). lra. }
      replace X with ((X - IZR 128 * ln 2) + IZR 128 * ln 2)%R by ring. rewrite exp_plus, exp_bpow.
      pose proof (exp_lower (X - IZR 128 * ln 2)) as EL. pose proof (bpow_gt_0 radix2 103).
      replace (bpow radix2 128) with (bpow radix2 103 * 33554432)%R by (change 33554432%R with (bpow radix2 25); rewrite <- bpow_plus; reflexivity).
      assert (J : (33554432 - 1 < exp (X - IZR 128 * ln 2) * 33554432)%R) by lra. nra. }
  assert (B1 : (Q2R (qval expf_min) <= X)%R) by (apply Rnot_lt_le; intros K; apply (dbl_lt _ _ _ _ DX DMIN) in K; congruence).
  assert (B2 : (X <= Q2R (qval expf_max))%R) by (apply Rnot_lt_le; intros K; apply (dbl_lt _ _ _ _ DMAX DX) in K; congruence).
  assert (BX : (-104 <= X <= 89)%R).
  { assert (K1 : (Q2R (-104) <= Q2R (qval expf_min))%R) by (apply Q2R_le; reflexivity). assert (K2 : (Q2R (qval expf_max) <= Q2R 89)%R) by (apply Q2R_le; reflexivity).
    replace (Q2R (-104)) with (-104)%R in K1 by (unfold Q2R; cbn [Qnum Qden]; lra). replace (Q2R 89) with 89%R in K2 by (unfold Q2R; cbn [Qnum Qden]; lra). lra. }
  clear L1 L2 DMIN DMAX B1 B2.
  assert (NX : nearq xd X 104 0).
  { exists X. split; [exact DX|]. split; [rewrite Rminus_diag_eq, Rabs_R0, Q2R_0 by reflexivity; apply Rle_refl|]. apply Rabs_le. unfold Q2R; cbn [Qnum Qden]; lra. }
  (* n *)
  assert (C1 : chk2 104 0 104 0 (EMul (EV 0) (EC 0x3FF71547652B82FE)) 151 (1 # 10^13) = true) by (vm_compute; reflexivity).
  pose proof (chk2_ok _ _ _ _ _ _ _ _ _ _ _ C1 NX NX) as NP. cbn [ebits ereal env1] in NP. rewrite <- qval_ok in NP.
  set (p := mul64 xd 0x3FF71547652B82FE) in *. clearbody p. set (c := qval 0x3FF71547652B82FE) in *.
  destruct NP as (yp & Dp & P1 & P2).
  assert (E13 : Q2R (1 # 10^13) = (/ 10000000000000)%R) by (unfold Q2R; cbn [Qnum Qden]; change (Zpos (10^13)) with 10000000000000; lra). rewrite E13 in P1.
  assert (E151 : Q2R 151 = 151%R) by (unfold Q2R; cbn [Qnum Qden]; lra). rewrite E151 in P2.
  destruct (rint64_ok p yp Dp) as (k & Dn & N1 & N2).
  { apply Rabs_le_inv in P1. apply Rabs_le_inv in P2. apply Rabs_le. assert (152 <= bpow radix2 40)%R by (change (bpow radix2 40) with (IZR (2^40)); apply IZR_le; lia). lra. }
  set (n := rint64 p) in *. clearbody n. rewrite N2. cbn [bind].
  pose proof ln2_dec as LN.
  assert (CL : (Rabs (1 - Q2R c * ln 2) <= / 10000000000000)%R).
  { pose proof (ln2_affine 1 (- c) (1 # 10^13) eq_refl eq_refl) as A. rewrite Q2R_1, Q2R_opp, E13 in A. replace (1 - Q2R c * ln 2)%R with (1 + - Q2R c * ln 2)%R by ring. exact A. }
  assert (KX : (Rabs (IZR k - X * Q2R c) <= 0.5000001)%R).
  { replace (IZR k - X * Q2R c)%R with ((IZR k - yp) + (yp - X * Q2R c))%R by ring. eapply Rle_trans; [apply Rabs_triang|]. lra. }
  set (V := (X - IZR k * ln 2)%R).
  assert (BV : (Rabs V <= 0.3468)%R).
  { unfold V. replace (X - IZR k * ln 2)%R with (X * (1 - Q2R c * ln 2) + - (ln 2 * (IZR k - X * Q2R c)))%R by ring. eapply Rle_trans; [apply Rabs_triang|].
    rewrite Rabs_Ropp, !Rabs_mult, (Rabs_pos_eq (ln 2)) by lra. pose proof (Rabs_pos (IZR k - X * Q2R c)).
    assert (Rabs X <= 104)%R by (apply Rabs_le; lra). pose proof (Rabs_pos X). pose proof (Rabs_pos (1 - Q2R c * ln 2)). nra. }
  assert (BK : (Rabs (IZR k) <= 151)%R).
  { apply Rabs_le_inv in N1. apply Rabs_le_inv in P1. apply Rabs_le_inv in BV. unfold V in BV. apply Rabs_le. split; nra. }
  assert (ZK : -151 <= k <= 151) by (apply Rabs_le_inv in BK; split; apply le_IZR; lra).
  assert (NN : nearq n (IZR k) 151 0).
  { exists (IZR k). split; [exact Dn|]. split; [rewrite Rminus_diag_eq, Rabs_R0, Q2R_0 by reflexivity; apply Rle_refl|]. rewrite E151. exact BK. }
  set (c1 := qval 0x3FE62E42FEFA4000) in *. set (c2 := qval 0xBD48432A1B0E2634) in *.
  assert (HL : (Rabs (Q2R (c1 + c2) + Q2R (-1) * ln 2) <= Q2R (1 # 10^20))%R) by (apply ln2_affine; reflexivity).
  assert (E19 : Q2R (1 # 10^20) = (/ 100000000000000000000)%R) by (unfold Q2R; cbn [Qnum Qden]; change (Zpos (10^20)) with 100000000000000000000; lra). rewrite E19 in HL.
  replace (Q2R (-1)) with (-1)%R in HL by (unfold Q2R; cbn [Qnum Qden]; lra). rewrite Q2R_plus in HL.
  assert (HC2 : (Rabs (Q2R c2) <= Q2R (1 # 10^12))%R) by (rewrite <- Q2R_abs; apply Q2R_le; vm_compute; reflexivity).
  assert (E12 : Q2R (1 # 10^12) = (/ 1000000000000)%R) by (unfold Q2R; cbn [Qnum Qden]; change (Zpos (10^12)) with 1000000000000; lra). rewrite E12 in HC2.
  assert (Na : nearq (mul64 n 0x3FE62E42FEFA4000) (IZR k * Q2R c1) 105 0).
  { assert (DC : dbl 0x3FE62E42FEFA4000 (Q2R c1)) by (apply dbl_c; reflexivity).
    assert (EC1 : Q2R c1 = (IZR 381061692393 * bpow radix2 (-39))%R).
    { transitivity (Q2R (381061692393 # 2^39)); [apply Qeq_eqR; vm_compute; reflexivity|]. unfold Q2R. cbn [Qnum Qden]. reflexivity. }
    assert (BC1 : (0 <= Q2R c1 <= Q2R (6931472 # 10000000))%R) by (split; [rewrite <- Q2R_0|]; apply Q2R_le; vm_compute; reflexivity).
    assert (E6 : Q2R (6931472 # 10000000) = 0.6931472%R) by (unfold Q2R; cbn [Qnum Qden]; lra).
    assert (FP : F53 (IZR k * Q2R c1)) by (rewrite EC1, <- Rmult_assoc, <- mult_IZR; apply F53_mult; lia).
    assert (BP : (Rabs (IZR k * Q2R c1) <= 105)%R) by (rewrite Rabs_mult, (Rabs_pos_eq (Q2R c1)) by lra; pose proof (Rabs_pos (IZR k)); nra).
    pose proof (dbl_mul n 0x3FE62E42FEFA4000 (IZR k) (Q2R c1) 7 Dn DC) as DM. rewrite RN53_id in DM by exact FP.
    exists (IZR k * Q2R c1)%R. split; [apply DM; [eapply Rle_trans; [exact BP|]; change (bpow radix2 7) with 128%R; lra|lia]|].
    split; [rewrite Rminus_diag_eq, Rabs_R0, Q2R_0 by reflexivity; apply Rle_refl|]. replace (Q2R 105) with 105%R by (unfold Q2R; cbn [Qnum Qden]; lra). exact BP. }
  assert (C3 : chk2 151 0 151 0 (EMul (EV 0) (EC 0xBD48432A1B0E2634)) 1 (1 # 10^20) = true) by (vm_compute; reflexivity).
  pose proof (chk2_ok _ _ _ _ _ _ _ _ _ _ _ C3 NN NN) as Nb. cbn [ebits ereal env1] in Nb. rewrite <- qval_ok in Nb. fold c2 in Nb.
  assert (KC2 : (Rabs (IZR k * Q2R c2) <= / 1000000000)%R).
  { rewrite Rabs_mult. pose proof (Rabs_pos (IZR k)). pose proof (Rabs_pos (Q2R c2)). nra. }
  assert (KL : (Rabs (IZR k * (Q2R c1 + Q2R c2 + -1 * ln 2)) <= / 100000000000000000)%R).
  { rewrite Rabs_mult. pose proof (Rabs_pos (IZR k)). pose proof (Rabs_pos (Q2R c1 + Q2R c2 + -1 * ln 2)). nra. }
  assert (E347 : Q2R (347 # 1000) = 0.347%R) by (unfold Q2R; cbn [Qnum Qden]; lra).
  assert (EV1 : (X - IZR k * Q2R c1 = V + - (IZR k * (Q2R c1 + Q2R c2 + -1 * ln 2)) + IZR k * Q2R c2)%R) by (unfold V; ring).
  apply Rabs_le_inv in KC2. apply Rabs_le_inv in KL. pose proof (Rabs_le_inv _ _ BV) as BV'.
  assert (Nc : nearq (sub64 xd (mul64 n 0x3FE62E42FEFA4000)) (X - IZR k * Q2R c1) (347 # 1000) (39 # 10^18)).
  { apply (subq_ok 104 0 105 0); [vm_compute; reflexivity|exact NX|exact Na|]. apply Rabs_le. lra. }
  assert (Nd : nearq (sub64 (sub64 xd (mul64 n 0x3FE62E42FEFA4000)) (mul64 n 0xBD48432A1B0E2634)) (X - IZR k * Q2R c1 - IZR k * Q2R c2) (347 # 1000) (79 # 10^18)).
  { apply (subq_ok (347 # 1000) (39 # 10^18) 1 (1 # 10^20)); [vm_compute; reflexivity|exact Nc|exact Nb|]. apply Rabs_le. lra. }
  assert (NV : nearq (sub64 (sub64 xd (mul64 n 0x3FE62E42FEFA4000)) (mul64 n 0xBD48432A1B0E2634)) V (347 # 1000) (9 # 10^17)).
  { apply (nearq_refine _ _ _ _ _ _ _ (1 # 10^17) Nd); [| |reflexivity].
    - assert (E16 : Q2R (1 # 10^17) = (/ 100000000000000000)%R) by (unfold Q2R; cbn [Qnum Qden]; change (Zpos (10^17)) with 100000000000000000; lra). rewrite E16.
      apply Rabs_le. lra.
    - lra. }
  pose proof (kexpf_ok _ _ NV) as NY.
  assert (BW : (0.65 <= exp V <= 1.6)%R).
  { pose proof (exp_lower V). pose proof (exp_upper V ltac:(lra)). assert (/ (1 - V) <= / (0.65))%R by (apply Rinv_le_contravar; lra). assert (/ 0.65 <= 1.6)%R by lra. lra. }
  assert (E71 : Q2R (42 # 10^17) = (42 / 100000000000000000)%R) by (unfold Q2R; cbn [Qnum Qden]; change (Zpos (10^17)) with 100000000000000000; lra).
  destruct (scaled 50 _ _ (exp V) k (exp X) NY BW) as (r & S & NR2); [lia| |lra|change (bpow radix2 50) with 1125899906842624%R; lra|].
  { unfold V. rewrite <- exp_bpow, <- exp_plus. f_equal. ring. }
  rewrite S. cbn [bind]. eexists. split; [reflexivity|exact NR2].
Qed.

(** ** exp2f *)
Definition kexp2f : fe := EAdd (EC c_1) (EMul (EV 0) (hornr [0x3E3E3FDE42662D5A; 0x3E7B673DAD8ADAB8; 0x3EB62C111D5715E8;
  0x3EEFFCB562818C22; 0x3F243091283E2AD1; 0x3F55D87FE9CAB51F; 0x3F83B2AB6FBCE3BC; 0x3FAC6B08D703D59E;
  0x3FCEBFBDFF82C472; 0x3FE62E42FEFA3A17])).
Definition pexp2f : list Q := Eval vm_compute in poly_of kexp2f.
Lemma kexp2f_bits d : add64 c_1 (kernel_exp2f_ d) = ebits (env1 d d) kexp2f.
Proof. unfold kernel_exp2f_, kexp2f, hstep. cbn [hornr fold_left hs ebits env1]. reflexivity. Qed.
Lemma kexp2f_poly : epoly kexp2f = Some pexp2f.
Proof. vm_compute. reflexivity. Qed.
(** the polynomial p * l(q x) *)
Fixpoint scalel (l : list Q) (p q : Q) : list Q := match l with [] => [] | c :: l => (c * p)%Q :: scalel l (p * q)%Q q end.
Lemma scalel_ok l x q : forall p, peval (scalel l p q) x = (Q2R p * peval l (Q2R q * x))%R.
Proof. induction l as [|c l IH]; intros p; cbn [scalel peval]; [ring|]. rewrite IH, !Q2R_mult. ring. Qed.
Lemma ln2_mid : (Rabs (ln 2 - Q2R ln2_lo) <= Q2R (1 # 2^78))%R.
Proof.
  pose proof ln2_bounds as [A B]. assert (K : (Q2R (ln2_hi - ln2_lo) <= Q2R (1 # 2^78))%R) by (apply Q2R_le; vm_compute; reflexivity).
  rewrite Q2R_minus in K. apply Rabs_le. pose proof (Q2R_le 0 (1 # 2^78) eq_refl) as Z. rewrite Q2R_0 in Z. lra.
Qed.
Lemma E78 : (Q2R (1 # 2^78) <= / 100000000000000000000000)%R.
Proof. pose proof (Q2R_le (1 # 2^78) (1 # 100000000000000000000000) eq_refl) as H. eapply Rle_trans; [exact H|]. unfold Q2R. cbn [Qnum Qden]. lra. Qed.
Lemma ln2_lo_dec : (0.6931471 <= Q2R ln2_lo <= 0.6931472)%R.
Proof. pose proof ln2_mid as H. pose proof E78. pose proof ln2_bounds as [A B]. pose proof ln2_dec. apply Rabs_le_inv in H.
  assert (K1 : (Q2R (6931471 # 10000000) <= Q2R ln2_lo)%R) by (apply Q2R_le; reflexivity).
  assert (E1 : Q2R (6931471 # 10000000) = 0.6931471%R) by (unfold Q2R; cbn [Qnum Qden]; lra). lra.
Qed.
(** replacing ln 2 by its rational approximation *)
Lemma exp_ln2_lo V : (Rabs V <= 1)%R -> (Rabs (exp (Q2R ln2_lo * V) - exp (V * ln 2)) <= Q2R (1 # 10^20))%R.
Proof.
  intros H. pose proof ln2_dec. pose proof ln2_lo_dec. pose proof (Rabs_pos V). pose proof ln2_mid as M. pose proof E78.
  eapply Rle_trans; [apply exp_close; rewrite Rabs_mult|].
  - rewrite (Rabs_pos_eq (Q2R ln2_lo)) by lra. nra.
  - rewrite (Rabs_pos_eq (ln 2)) by lra. nra.
  - replace (Q2R ln2_lo * V - V * ln 2)%R with (- (V * (ln 2 - Q2R ln2_lo)))%R by ring. rewrite Rabs_Ropp, Rabs_mult.
    assert (E20 : Q2R (1 # 10^20) = (/ 100000000000000000000)%R) by (unfold Q2R; cbn [Qnum Qden]; change (Zpos (10^20)) with 100000000000000000000; lra). rewrite E20.
    pose proof (Rabs_pos (ln 2 - Q2R ln2_lo)). nra.
Qed.
Lemma pexp2f_exp V : (Rabs V <= Q2R (1 # 2))%R -> (Rabs (peval pexp2f V - exp (V * ln 2)) <= Q2R (49 # 10^17))%R.
Proof.
  intros H. assert (C0 : subdiv pexp2f (scalel (expl 15 1 1) 1 ln2_lo) 128 7 (-64) 63%nat (48 # 10^17) = true) by (vm_compute; reflexivity).
  pose proof (subdiv_ok _ _ _ _ _ _ _ V C0) as A. rewrite scalel_ok, Q2R_1, Rmult_1_l in A. change (IZR (-64 + 2 * Z.of_nat 64)) with 64%R in A. change (bpow radix2 (- (7))) with (/ 128)%R in A.
  assert (E2 : Q2R (1 # 2) = (/ 2)%R) by (unfold Q2R; cbn [Qnum Qden]; lra). assert (E3 : Q2R (347 # 1000) = (347 / 1000)%R) by (unfold Q2R; cbn [Qnum Qden]; lra).
  assert (HL : (Rabs (Q2R ln2_lo * V) <= Q2R (347 # 1000))%R).
  { pose proof ln2_lo_dec. rewrite Rabs_mult, (Rabs_pos_eq (Q2R ln2_lo)) by lra. pose proof (Rabs_pos V). nra. }
  pose proof (Rabs_le_inv _ _ H) as H'. specialize (A ltac:(lra) ltac:(lra)).
  pose proof (exp_taylor_q 15 _ _ HL ltac:(discriminate)) as B. pose proof (exp_ln2_lo V ltac:(lra)) as C.
  assert (K : (Q2R ((48 # 10^17) + exp_rem 15 (347 # 1000) + (1 # 10^20)) <= Q2R (49 # 10^17))%R) by (apply Q2R_le; vm_compute; reflexivity).
  rewrite !Q2R_plus in K. set (t := (Q2R ln2_lo * V)%R) in *. set (u := peval pexp2f V) in *. set (w := peval (expl 15 1 1) t) in *.
  replace (u - exp (V * ln 2))%R with ((u - w) + (- (exp t - w) + (exp t - exp (V * ln 2))))%R by ring.
  eapply Rle_trans; [apply Rabs_triang|]. eapply Rle_trans; [apply Rplus_le_compat_l; apply Rabs_triang|]. rewrite Rabs_Ropp. lra.
Qed.
Lemma exp_half_range V : (Rabs V <= / 2)%R -> (0.65 <= exp (V * ln 2) <= 1.6)%R.
Proof.
  intros H. apply Rabs_le_inv in H. pose proof ln2_dec. pose proof (exp_lower (V * ln 2)). assert (Q : (-0.347 <= V * ln 2 <= 0.347)%R) by nra.
  pose proof (exp_upper (V * ln 2) ltac:(lra)). assert (/ (1 - V * ln 2) <= / (0.65))%R by (apply Rinv_le_contravar; lra). assert (/ 0.65 <= 1.6)%R by lra. lra.
Qed.
Lemma kexp2f_ok d V : nearq d V (1 # 2) 0 -> nearq (add64 c_1 (kernel_exp2f_ d)) (exp (V * ln 2)) 2 (76 # 10^17).
Proof.
  intros N. pose proof N as (_ & _ & _ & HV).
  assert (C : chk2 (1 # 2) 0 (1 # 2) 0 kexp2f 2 (266 # 10^18) = true) by (vm_compute; reflexivity).
  pose proof (chk1_ok _ _ _ _ _ _ _ _ C kexp2f_poly N) as R. rewrite <- kexp2f_bits in R.
  apply (nearq_refine _ _ _ _ _ _ _ (49 # 10^17) R); [apply pexp2f_exp; exact HV| |reflexivity].
  assert (E2 : Q2R (1 # 2) = (/ 2)%R) by (unfold Q2R; cbn [Qnum Qden]; lra). rewrite E2 in HV. pose proof (exp_half_range V HV).
  rewrite Rabs_pos_eq by lra. unfold Q2R. cbn [Qnum Qden]. lra.
Qed.

(** the distance from a float to the nearest integer is a float *)
Lemma frac_F24 x : F24 x -> F24 (x - IZR (ZnearestE x)).
Proof.
  intros H. destruct (F24_split x H) as (n & e & E & Hn & He). destruct (Z_le_gt_dec 0 e) as [P|P].
  { assert (I : x = IZR (n * 2^e)) by (rewrite E, mult_IZR; f_equal; symmetry; apply (IZR_Zpower radix2 e P)).
    rewrite I. rewrite (@Zrnd_IZR ZnearestE _), Rminus_diag_eq by reflexivity. apply generic_format_0. }
  destruct (Rlt_or_le (Rabs x) (/ 2)) as [S|S].
  { assert (Z : ZnearestE x = 0). { apply Znearest_imp. rewrite Rminus_0_r. exact S. } rewrite Z, Rminus_0_r. exact H. }
  set (k := ZnearestE x). assert (D : (Rabs (x - IZR k) <= Rabs x)%R) by (eapply Rle_trans; [apply (Znearest_half (fun z => negb (Z.even z)) x)|exact S]).
  assert (M : (x - IZR k = IZR (n - k * 2^(- e)) * bpow radix2 e)%R).
  { rewrite minus_IZR, mult_IZR, E. replace (IZR (2^(- e))) with (bpow radix2 (- e)) by (symmetry; apply (IZR_Zpower radix2 (- e)); lia). rewrite Rmult_minus_distr_r, Rmult_assoc, <- bpow_plus, Z.add_opp_diag_l. change (bpow radix2 0) with 1%R. ring. }
  rewrite M. apply FLT_multiple; [reflexivity|exact He|]. rewrite M, E, !Rabs_mult in D. apply Rmult_le_reg_r in D; [|rewrite Rabs_pos_eq by apply bpow_ge_0; apply bpow_gt_0].
  rewrite <- !abs_IZR in D. apply le_IZR in D. lia.
Qed.
Lemma frac_ok x k : fbits 23 8 x -> ffinite 23 8 x = true -> fbits 23 8 (rint32 x) -> ffinite 23 8 (rint32 x) = true -> fval 23 8 (rint32 x) = IZR k -> k = ZnearestE (fval 23 8 x) ->
  nearq (f2d (sub32 x (rint32 x))) (fval 23 8 x - IZR k) (1 # 2) 0.
Proof.
  intros Hx Fx Hn Fn En Ek. pose proof (hsub_ok 23 8 eq_refl eq_refl eq_refl x (rint32 x) Hx Hn Fx Fn) as (A1 & A2 & A3 & _). rewrite En in A3.
  assert (F : F24 (fval 23 8 x - IZR k)). { rewrite Ek. apply frac_F24. apply (fval_format 23 8 eq_refl eq_refl); assumption. }
  assert (S : (Rabs (fval 23 8 x - IZR k) <= / 2)%R) by (rewrite Ek; apply Znearest_half).
  assert (RI : RN 23 8 (fval 23 8 x - IZR k) = (fval 23 8 x - IZR k)%R) by exact (RN24_id _ F).
  destruct A3 as [B1 B2]; [rewrite RI; eapply Rle_lt_trans; [exact S|]; apply Rlt_trans with 1%R; [lra|]; change 1%R with (bpow radix2 0); apply bpow_lt; reflexivity|].
  rewrite RI in B2. exists (fval 23 8 x - IZR k)%R. split; [|split].
  - rewrite <- B2. apply dbl_f2d; assumption.
  - rewrite Rminus_diag_eq, Rabs_R0, Q2R_0 by reflexivity. apply Rle_refl.
  - replace (Q2R (1 # 2)) with (/ 2)%R by (unfold Q2R; cbn [Qnum Qden]; lra). exact S.
Qed.

(** evaluation of exp at rational points *)
Fixpoint qpeval (l : list Q) (q : Q) : Q := match l with [] => 0%Q | c :: l => (c + q * qpeval l q)%Q end.
Lemma qpeval_ok l q : peval l (Q2R q) = Q2R (qpeval l q).
Proof. induction l as [|c l IH]; cbn [peval qpeval]; [rewrite Q2R_0; reflexivity|]. rewrite Q2R_plus, Q2R_mult, IH. reflexivity. Qed.
Lemma exp2_point q : Qle_bool (Qabs q) 1 = true -> Qle_bool (rup (Qabs (ln2_lo * q))) 1 = true ->
  (Rabs (Q2R (qpeval (expl 20 1 1) (ln2_lo * q)) - exp (Q2R q * ln 2)) <= Q2R (exp_rem 20 (rup (Qabs (ln2_lo * q))) + (1 # 10^20)))%R.
Proof.
  intros H L1. apply Q2R_le in H. rewrite Q2R_abs, Q2R_1 in H. pose proof (exp_ln2_lo _ H) as C. rewrite <- Q2R_mult in C.
  assert (L : (Rabs (Q2R (ln2_lo * q)) <= Q2R (rup (Qabs (ln2_lo * q))))%R) by (rewrite <- Q2R_abs; apply rup_ok).
  pose proof (exp_taylor_q 20 _ _ L (proj1 (Qle_bool_iff _ _) L1)) as B. rewrite qpeval_ok in B. rewrite Q2R_plus.
  set (e := exp (Q2R (ln2_lo * q))) in *. set (w := Q2R (qpeval (expl 20 1 1) (ln2_lo * q))) in *. replace (w - exp (Q2R q * ln 2))%R with (- (e - w) + (e - exp (Q2R q * ln 2)))%R by ring.
  eapply Rle_trans; [apply Rabs_triang|]. rewrite Rabs_Ropp. lra.
Qed.

Lemma rounds_between n v : 1 <= n < 0x7F7FFFFF -> (midpoint (n - 1) < v < midpoint n)%R -> rounds_to 23 8 v false n.
Proof.
  intros Hn [A B]. apply exact_result; [lia|]. unfold midpoint in A, B. replace (n - 1 + 1) with n in A by ring. apply Rle_antisym.
  - apply RN24_le_mid; [apply fmag_F24; lia|]. rewrite succ24_fmag by lia. exact B.
  - apply RN24_ge_mid; [apply fmag_F24; lia|]. replace n with (n - 1 + 1) at 1 by ring. rewrite pred24_fmag by lia. exact A.
Qed.
Definition qmid (n : Z) : Q := ((qval (f2d n) + qval (f2d (n + 1))) / 2)%Q.
Lemma qmid_ok n : 0 <= n < 0x7F7FFFFF -> Q2R (qmid n) = midpoint n.
Proof.
  intros H. unfold qmid, midpoint. rewrite !fmag32_q by lia. rewrite Q2R_div by discriminate. rewrite Q2R_plus. f_equal. unfold Q2R. cbn [Qnum Qden]. lra.
Qed.
(** a check that the rational q is within e of v and on the right side of both midpoints *)
Definition chkp (n : Z) (q e : Q) : bool := negb (Qle_bool (q - e) (qmid (n - 1))) && negb (Qle_bool (qmid n) (q + e)).
Lemma chkp_ok n q e v : 1 <= n < 0x7F7FFFFF -> chkp n q e = true -> (Rabs (Q2R q - v) <= Q2R e)%R -> rounds_to 23 8 v false n.
Proof.
  intros Hn C A. unfold chkp in C. apply andb_prop in C. destruct C as [C1 C2]. apply rounds_between; [exact Hn|]. rewrite <- !qmid_ok by lia. apply Rabs_le_inv in A.
  assert (K1 : (Q2R (qmid (n - 1)) < Q2R (q - e))%R). { apply Qlt_Rlt, Qnot_le_lt. intros K. apply Qle_bool_iff in K. rewrite K in C1. discriminate. }
  assert (K2 : (Q2R (q + e) < Q2R (qmid n))%R). { apply Qlt_Rlt, Qnot_le_lt. intros K. apply Qle_bool_iff in K. rewrite K in C2. discriminate. }
  rewrite Q2R_minus in K1. rewrite Q2R_plus in K2. lra.
Qed.
Lemma rounds_nearly k v b : (0 <= v)%R -> rounds_to 23 8 v false b -> nearly_rounded k v b.
Proof.
  intros P H. exists v. split; [rewrite Rminus_diag_eq, Rabs_R0 by reflexivity; apply Rmult_le_pos; [apply bpow_ge_0|apply Rabs_pos]|]. rewrite Rlt_bool_false by exact P. exact H.
Qed.
Lemma eq32_val a b : fbits 23 8 a -> ffinite 23 8 a = true -> fbits 23 8 b -> ffinite 23 8 b = true -> eq32 a b = true -> fval 23 8 a = fval 23 8 b.
Proof. intros A1 A2 B1 B2 H. apply (heq_ok 23 8 eq_refl eq_refl) in H; assumption. Qed.
Lemma fval32_q a : fbits 23 8 a -> ffinite 23 8 a = true -> fval 23 8 a = Q2R (qval (f2d a)).
Proof. intros A B. rewrite qval_ok, fval_f2d by assumption. reflexivity. Qed.

Theorem exp2f_ok x : fbits 23 8 x -> ffinite 23 8 x = true ->
  exists b, exp2f x = Ok b /\ nearly_rounded 49 (Rpower 2 (fval 23 8 x)) b.
Proof.
  intros Hx Fx. unfold Rpower. set (X := fval 23 8 x). pose proof ln2_dec as LN. unfold exp2f.
  assert (C : forall c, 0 <= c < 0x100000000 -> ffinite 23 8 c = true -> (lt32 x c = true <-> (X < fval 23 8 c)%R) /\ (lt32 c x = true <-> (fval 23 8 c < X)%R)).
  { intros c Hc Fc. split; apply (hlt_ok 23 8 eq_refl eq_refl); assumption. }
  assert (V1 : fval 23 8 0xC3160000 = (-150)%R). { rewrite fval32_q by (reflexivity || (split; [lia|reflexivity])). transitivity (Q2R (-150)); [apply Qeq_eqR; vm_compute; reflexivity|unfold Q2R; cbn [Qnum Qden]; lra]. }
  assert (V2 : fval 23 8 0x43000000 = 128%R). { rewrite fval32_q by (reflexivity || (split; [lia|reflexivity])). transitivity (Q2R 128); [apply Qeq_eqR; vm_compute; reflexivity|unfold Q2R; cbn [Qnum Qden]; lra]. }
  destruct (C 0xC3160000 ltac:(lia) eq_refl) as [C1 _]. destruct (C 0x43000000 ltac:(lia) eq_refl) as [_ C2]. rewrite V1 in C1. rewrite V2 in C2. clear C.
  destruct (lt32 x 0xC3160000) eqn:L1.
  { eexists. split; [reflexivity|]. apply rounds_nearly; [left; apply exp_pos|]. apply rounds_zero. split; [left; apply exp_pos|]. rewrite <- exp_bpow. apply exp_increasing.
    pose proof (proj1 C1 eq_refl). nra. }
  destruct (lt32 0x43000000 x) eqn:L2.
  { exists 0x7F800000. split; [f_equal; vm_compute; reflexivity|]. apply rounds_nearly; [left; apply exp_pos|]. apply rounds_huge.
    assert (E : (bpow radix2 128 < exp (X * ln 2))%R) by (rewrite <- exp_bpow; apply exp_increasing; pose proof (proj1 C2 eq_refl); nra). pose proof (bpow_gt_0 radix2 103). lra. }
  assert (BX : (-150 <= X <= 128)%R). { split; apply Rnot_lt_le; intros K; [apply C1 in K|apply C2 in K]; discriminate. }
  destruct (eq32 x 0x3B429D37) eqn:Q1.
  { eexists. split; [reflexivity|]. apply rounds_nearly; [left; apply exp_pos|]. apply eq32_val in Q1; try assumption; try reflexivity; [|split; [lia|reflexivity]]. unfold X. rewrite Q1, fval32_q by (reflexivity || (split; [lia|reflexivity])).
    eapply chkp_ok; [lia| |apply exp2_point; vm_compute; reflexivity]. vm_compute. reflexivity. }
  destruct (eq32 x 0xBCF3A937) eqn:Q2.
  { eexists. split; [reflexivity|]. apply rounds_nearly; [left; apply exp_pos|]. apply eq32_val in Q2; try assumption; try reflexivity; [|split; [lia|reflexivity]]. unfold X. rewrite Q2, fval32_q by (reflexivity || (split; [lia|reflexivity])).
    eapply chkp_ok; [lia| |apply exp2_point; vm_compute; reflexivity]. vm_compute. reflexivity. }
  cbv zeta. destruct (rint32_ok x Hx Fx) as (k & N1 & N2 & N3 & N4 & N5 & N6).
  { apply Rabs_le. assert (152 <= bpow radix2 40)%R by (change (bpow radix2 40) with (IZR (2^40)); apply IZR_le; lia). fold X. lra. }
  fold X in N4. pose proof (frac_ok x k Hx Fx N1 N2 N3 N6) as NV. rewrite N5. cbn [bind]. pose proof (kexp2f_ok _ _ NV) as NY. fold X in NY.
  set (y := add64 c_1 (kernel_exp2f_ (f2d (sub32 x (rint32 x))))) in *. clearbody y. set (V := (X - IZR k)%R) in *.
  rewrite Rabs_minus_sym in N4. pose proof (exp_half_range V N4) as BW. apply Rabs_le_inv in N4.
  assert (ZK : -151 <= k <= 151) by (unfold V in N4; split; apply le_IZR; lra).
  assert (E187 : Q2R (76 # 10^17) = (76 / 100000000000000000)%R) by (unfold Q2R; cbn [Qnum Qden]; change (Zpos (10^17)) with 100000000000000000; lra).
  destruct (scaled 49 _ _ _ k (exp (X * ln 2)) NY BW) as (r & S & NR2); [lia| |lra|change (bpow radix2 49) with 562949953421312%R; lra|].
  { unfold V. rewrite <- exp_bpow, <- exp_plus. f_equal. ring. }
  rewrite S. cbn [bind]. eexists. split; [reflexivity|exact NR2].
Qed.

(** every power of two in range is a float *)
Lemma F24_pattern n : -149 <= n <= 127 -> exists f, fbits 23 8 f /\ ffinite 23 8 f = true /\ fval 23 8 f = bpow radix2 n.
Proof.
  intros Hn. set (f := if n <? -126 then 2^(n + 149) else (n + 127) * 2^23).
  assert (B : 0 <= f < 0x7F800000).
  { unfold f. destruct (Z.ltb_spec n (-126)).
    - pose proof (Z.pow_pos_nonneg 2 (n + 149) eq_refl ltac:(lia)). pose proof (Z.pow_le_mono_r 2 (n + 149) 22 eq_refl ltac:(lia)). change (2^22) with 4194304 in *. lia.
    - change (2^23) with 8388608. lia. }
  exists f. assert (A : fabsb 23 8 f = f) by (apply Z.mod_small; lia). assert (N : fneg 23 8 f = false) by (unfold fneg; change (2^(23+8)) with 0x80000000; lia).
  split; [split; [lia|change (2^(23+8+1)) with 0x100000000; lia]|]. split; [unfold ffinite; rewrite A; change (finf 23 8) with 0x7F800000; lia|].
  unfold fval. rewrite N, A. unfold fmag, f. change (emin 23 8) with (-149). destruct (Z.ltb_spec n (-126)) as [L|L].
  - rewrite Z.div_small; [|split; [apply Z.pow_nonneg; lia|apply Z.pow_lt_mono_r; lia]]. cbn [Z.eqb]. unfold F2R. cbn [Fnum Fexp].
    replace (IZR (2^(n + 149))) with (bpow radix2 (n + 149)) by (symmetry; apply (IZR_Zpower radix2); lia). rewrite <- bpow_plus. f_equal. lia.
  - rewrite Z.div_mul, Z.mod_mul by discriminate. replace (n + 127 =? 0) with false by lia. unfold F2R. cbn [Fnum Fexp]. rewrite Z.add_0_r.
    change (IZR (2^23)) with (bpow radix2 23). rewrite <- bpow_plus. f_equal. lia.
Qed.
