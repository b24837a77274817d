(** e^x and e^x - 1 in double precision, as used by the hyperbolic functions. *)
From Coq Require Import Reals Lra Lia Psatz QArith Qreals Qabs List.
From Flocq Require Import Core BinarySingleNaN Relative Sterbenz.
From Coquelicot Require Import Coquelicot.
From Verif Require Import Base FP FP_Proof HW HW_Proof Midpoint Fmaf_Proof Math_Model Math_Int_Proof Math_Lconv_Proof Hypotf_Real Hypotf_Proof Approx Subdiv Ferr Elem_Spec Elem_Proof Elem_Num Expf_Model Expf_Proof Logf_Model Logf_Kernel Logf_Proof Loginv_Proof Loginv3_Proof Hyperf_Model Hyperf_Proof.
Import ListNotations.
Open Scope Z_scope.
Local Ltac Zify.zify_post_hook ::= idtac.

#[local] Instance prec24 : Prec_gt_0 24 := eq_refl.
(** ** the multiple of ln 2 *)
Definition log2e : Z := 0x3FF71547652B82FE.
Lemma k_range X k : (Rabs X <= 710)%R -> (Rabs (X - IZR k * ln 2) <= 0.3468)%R -> -1025 <= k <= 1025.
Proof.
  intros HX HV. pose proof ln2_dec. apply Rabs_le_inv in HX. apply Rabs_le_inv in HV.
  assert (IZR (-1026) < IZR k < IZR 1026)%R as [A B] by (split; [apply Rnot_le_lt|apply Rnot_le_lt]; intros K; nra). apply lt_IZR in A. apply lt_IZR in B. lia.
Qed.
Lemma choose64 xd X : dbl xd X -> (Rabs X <= 710)%R ->
  exists k, dbl (rint64 (mul64 xd log2e)) (IZR k) /\ to_signed 64 (trunc64 (rint64 (mul64 xd log2e))) = Ok k /\ (Rabs (X - IZR k * ln 2) <= 0.3468)%R.
Proof.
  intros DX BX.
  assert (NX : nearq xd X 710 0).
  { exists X. split; [exact DX|]. split; [rewrite Rminus_diag_eq, Rabs_R0, Q2R_0 by reflexivity; apply Rle_refl|]. unfold Q2R; cbn [Qnum Qden]; lra. }
  assert (C1 : chk2 710 0 710 0 (EMul (EV 0) (EC log2e)) 1025 (1 # 10^12) = true) by (vm_compute; reflexivity).
  pose proof (chk2_ok _ _ _ _ _ _ _ _ _ _ _ C1 NX NX) as NP. cbn [ebits ereal env1] in NP. rewrite <- qval_ok in NP.
  set (p := mul64 xd log2e) in *. clearbody p. set (c := qval log2e) in *.
  destruct NP as (yp & Dp & P1 & P2).
  assert (E13 : Q2R (1 # 10^12) = (/ 1000000000000)%R) by (unfold Q2R; cbn [Qnum Qden]; change (Zpos (10^12)) with 1000000000000; lra). rewrite E13 in P1.
  assert (E151 : Q2R 1025 = 1025%R) by (unfold Q2R; cbn [Qnum Qden]; lra). rewrite E151 in P2.
  destruct (rint64_ok p yp Dp) as (k & Dn & N1 & N2).
  { apply Rabs_le_inv in P1. apply Rabs_le_inv in P2. apply Rabs_le. assert (1026 <= bpow radix2 40)%R by (change (bpow radix2 40) with (IZR (2^40)); apply IZR_le; lia). lra. }
  exists k. split; [exact Dn|]. split; [exact N2|].
  pose proof ln2_dec as LN.
  assert (CL : (Rabs (1 - Q2R c * ln 2) <= / 1000000000000)%R).
  { pose proof (ln2_affine 1 (- c) (1 # 10^12) eq_refl eq_refl) as A. rewrite Q2R_1, Q2R_opp, E13 in A. replace (1 - Q2R c * ln 2)%R with (1 + - Q2R c * ln 2)%R by ring. exact A. }
  assert (KX : (Rabs (IZR k - X * Q2R c) <= 0.5000001)%R).
  { replace (IZR k - X * Q2R c)%R with ((IZR k - yp) + (yp - X * Q2R c))%R by ring. eapply Rle_trans; [apply Rabs_triang|]. lra. }
  replace (X - IZR k * ln 2)%R with (X * (1 - Q2R c * ln 2) + - (ln 2 * (IZR k - X * Q2R c)))%R by ring. eapply Rle_trans; [apply Rabs_triang|].
  rewrite Rabs_Ropp, !Rabs_mult, (Rabs_pos_eq (ln 2)) by lra. pose proof (Rabs_pos (IZR k - X * Q2R c)).
  pose proof (Rabs_pos X). pose proof (Rabs_pos (1 - Q2R c * ln 2)). nra.
Qed.
Lemma choose32 x : fbits 23 8 x -> ffinite 23 8 x = true -> (Rabs (fval 23 8 x) <= 710)%R ->
  let n := add32 (rint32 (mul32 x 0x3FB8AA3B)) 0 in
  exists k, fbits 23 8 n /\ ffinite 23 8 n = true /\ fval 23 8 n = IZR k /\ dbl (f2d n) (IZR k) /\ to_signed 64 (trunc32 n) = Ok k /\ eq32 n 0 = (k =? 0) /\ (Rabs (fval 23 8 x - IZR k * ln 2) <= 0.3468)%R.
Proof.
  intros Hx Fx BX n. set (X := fval 23 8 x) in *.
  assert (HC : fbits 23 8 0x3FB8AA3B) by (split; [lia|reflexivity]).
  pose proof (hmul_ok 23 8 eq_refl eq_refl eq_refl x 0x3FB8AA3B Hx HC Fx eq_refl) as (A1 & _ & A3 & _). fold X in A3.
  set (c := fval 23 8 0x3FB8AA3B) in *.
  assert (EC : c = Q2R (qval (f2d 0x3FB8AA3B))). { unfold c, fval. change (fneg 23 8 0x3FB8AA3B) with false. change (fabsb 23 8 0x3FB8AA3B) with 0x3FB8AA3B. apply fmag32_q. lia. }
  assert (BC : (1.4426 <= c <= 1.4427)%R).
  { rewrite EC. assert (K1 : (Q2R (14426 # 10000) <= Q2R (qval (f2d 0x3FB8AA3B)))%R) by (apply Q2R_le; vm_compute; reflexivity). assert (K2 : (Q2R (qval (f2d 0x3FB8AA3B)) <= Q2R (14427 # 10000))%R) by (apply Q2R_le; vm_compute; reflexivity).
    unfold Q2R in K1 at 1. unfold Q2R in K2 at 2. cbn [Qnum Qden] in K1, K2. lra. }
  assert (CL : (Rabs (1 - c * ln 2) <= 0.00000003)%R).
  { rewrite EC. pose proof (ln2_affine 1 (- qval (f2d 0x3FB8AA3B)) (3 # 10^8) eq_refl eq_refl) as A. rewrite Q2R_1, Q2R_opp in A. replace (Q2R (3 # 10^8)) with 0.00000003%R in A by (unfold Q2R; cbn [Qnum Qden]; change (Zpos (10^8)) with 100000000; lra).
    replace (1 - Q2R (qval (f2d 0x3FB8AA3B)) * ln 2)%R with (1 + - Q2R (qval (f2d 0x3FB8AA3B)) * ln 2)%R by ring. exact A. }
  clearbody c. clear EC.
  assert (PB : (Rabs (X * c) <= 1025)%R) by (rewrite Rabs_mult, (Rabs_pos_eq c) by lra; pose proof (Rabs_pos X); nra).
  assert (RB : (Rabs (RN24 (X * c)) <= 1025)%R).
  { assert (FB : F24 1025). { replace 1025%R with (IZR 1025 * bpow radix2 0)%R by (change (bpow radix2 0) with 1%R; ring). apply FLT_multiple; [reflexivity|lia|lia]. }
    apply Rabs_le. apply Rabs_le_inv in PB. split; [rewrite <- (RN24_id (- (1025))) by (apply generic_format_opp; exact FB)|rewrite <- (RN24_id 1025) by exact FB]; apply RN24_le; lra. }
  assert (RE : (Rabs (RN24 (X * c) - X * c) <= 0.0001)%R).
  { pose proof (error_le_half_ulp radix2 (FLT_exp (-149) 24) (fun z => negb (Z.even z)) (X * c)) as H. rewrite <- RN24_eq in H. eapply Rle_trans; [exact H|].
    assert (K : (ulp radix2 (FLT_exp (-149) 24) (X * c) <= bpow radix2 (-13))%R).
    { destruct (Req_dec (X * c) 0) as [Z|Z]; [rewrite Z, ulp_FLT_0 by reflexivity; apply bpow_le; lia|]. rewrite ulp_neq_0 by exact Z. apply bpow_le. unfold cexp, FLT_exp.
      assert (mag radix2 (X * c) <= 11). { apply mag_le_bpow; [exact Z|]. change (bpow radix2 11) with 2048%R. lra. } lia. }
    change (bpow radix2 (-13)) with (/ 8192)%R in K. lra. }
  change (RN 23 8 (X * c)) with (RN24 (X * c)) in A3.
  destruct A3 as [A3 A4]. { eapply Rle_lt_trans; [exact RB|]. change (bpow radix2 (2^(8-1))) with (IZR (2^128)). apply IZR_lt. reflexivity. }
  set (m := mul32 x 0x3FB8AA3B) in *. change (hmul 23 8 eq_refl eq_refl eq_refl x 0x3FB8AA3B) with m in *.
  destruct (rint32_ok m A1 A3) as (k & K1 & K2 & K3 & K4 & _ & _).
  { rewrite A4. eapply Rle_trans; [exact RB|]. change (bpow radix2 40) with (IZR (2^40)). apply IZR_le. lia. }
  rewrite A4 in K4. exists k.
  assert (HV : (Rabs (X - IZR k * ln 2) <= 0.3468)%R).
  { assert (KX : (Rabs (IZR k - X * c) <= 0.5001)%R) by (replace (IZR k - X * c)%R with ((IZR k - RN24 (X * c)) + (RN24 (X * c) - X * c))%R by ring; eapply Rle_trans; [apply Rabs_triang|]; lra).
    pose proof ln2_dec.
    replace (X - IZR k * ln 2)%R with (X * (1 - c * ln 2) + - (ln 2 * (IZR k - X * c)))%R by ring. eapply Rle_trans; [apply Rabs_triang|].
    rewrite Rabs_Ropp, !Rabs_mult, (Rabs_pos_eq (ln 2)) by lra. pose proof (Rabs_pos (IZR k - X * c)). pose proof (Rabs_pos X). pose proof (Rabs_pos (1 - c * ln 2)). nra. }
  pose proof (k_range X k BX HV) as KR.
  assert (H0 : fbits 23 8 0) by (split; [lia|reflexivity]).
  assert (V0 : fval 23 8 0 = 0%R) by (unfold fval; change (fneg 23 8 0) with false; change (fabsb 23 8 0) with 0; apply (fmag_0 23 8 eq_refl)).
  pose proof (hadd_ok 23 8 eq_refl eq_refl eq_refl (rint32 m) 0 K1 H0 K2 eq_refl) as (B1 & _ & B3 & _). rewrite K3, V0, Rplus_0_r in B3.
  assert (FK : F24 (IZR k)). { replace (IZR k) with (IZR k * bpow radix2 0)%R by (change (bpow radix2 0) with 1%R; ring). apply FLT_multiple; [reflexivity|lia|lia]. }
  change (RN 23 8 (IZR k)) with (RN24 (IZR k)) in B3. rewrite (RN24_id _ FK) in B3.
  change (hadd 23 8 eq_refl eq_refl eq_refl (rint32 m) 0) with n in *.
  destruct B3 as [B3 B4]. { rewrite <- abs_IZR. change (bpow radix2 (2^(8-1))) with (IZR (2^128)). apply IZR_lt. lia. }
  split; [exact B1|]. split; [exact B3|]. split; [exact B4|].
  split; [rewrite <- B4; apply dbl_f2d; assumption|]. split.
  { unfold trunc32. rewrite (htrunc_ok 23 8 eq_refl eq_refl eq_refl _ B1 B3), B4, Ztrunc_IZR. unfold to_signed. change (2^(64-1)) with 0x8000000000000000. replace (_ && _) with true by lia. reflexivity. }
  split; [|exact HV].
  destruct (Z.eqb_spec k 0) as [E|E].
  - apply (heq_ok 23 8 eq_refl eq_refl); [exact B1|exact H0|exact B3|reflexivity|]. rewrite B4, V0, E. reflexivity.
  - destruct (eq32 n 0) eqn:Q; [|reflexivity]. exfalso. apply (heq_ok 23 8 eq_refl eq_refl) in Q; [|exact B1|exact H0|exact B3|reflexivity]. rewrite B4, V0 in Q. apply eq_IZR in Q. contradiction.
Qed.

(** ** very large doubles *)
Definition huge (e d : Z) : Prop := (e + 1023) * 2^52 <= d <= 0x7FF0000000000000.
Definition DINF : Z := 0x7FF0000000000000.
Lemma fmag_pow e : -1000 <= e <= 1000 -> fmag 52 11 ((e + 1023) * 2^52) = bpow radix2 e.
Proof.
  intros He. replace ((e + 1023) * 2^52) with (0x3FF0000000000000 + e * 2^52) by lia. rewrite fmag_shift by lia.
  replace (fmag 52 11 0x3FF0000000000000) with 1%R; [ring|]. rewrite <- qmag_ok. rewrite <- Q2R_1. symmetry. apply Qeq_eqR. reflexivity.
Qed.
Lemma huge_cases e d : -1000 <= e <= 1000 -> huge e d -> d = DINF \/ (fbits 52 11 d /\ ffinite 52 11 d = true /\ fneg 52 11 d = false /\ (bpow radix2 e <= fval 52 11 d)%R).
Proof.
  intros He [A B]. destruct (Z.eq_dec d DINF) as [->|N]; [left; reflexivity|right]. unfold DINF in N.
  assert (AB : fabsb 52 11 d = d) by (apply Z.mod_small; change (2^(52+11)) with 0x8000000000000000; lia).
  assert (NG : fneg 52 11 d = false) by (unfold fneg; change (2^(52+11)) with 0x8000000000000000; lia).
  split; [split; [lia|change (2^(52+11+1)) with 0x10000000000000000; lia]|]. split; [unfold ffinite; rewrite AB; change (finf 52 11) with 0x7FF0000000000000; lia|]. split; [exact NG|].
  unfold fval. rewrite AB, NG, <- (fmag_pow e He). apply (fmag_le 52 11 eq_refl). lia.
Qed.
Lemma huge_of e x d : -1000 <= e <= 1000 -> rounds_to 52 11 x false d -> (bpow radix2 e <= x)%R -> huge e d.
Proof.
  intros He (A & B & C & D) L. destruct (pos_pattern 52 11 d eq_refl eq_refl A B) as (E & R & V).
  assert (FL : (bpow radix2 e <= RN53 x)%R) by (apply RN53_lb; [apply F53_bpow; lia|exact L]). pose proof (bpow_gt_0 radix2 e) as BP.
  change (RN 52 11 x) with (RN53 x) in *. change (2^(11-1)) with 1024 in *. rewrite (Rabs_pos_eq (RN53 x)) in * by lra.
  destruct (Rlt_or_le (RN53 x) (bpow radix2 1024)) as [G|G].
  - destruct (C G) as [C1 C2]. unfold ffinite in C1. rewrite E in C1. change (finf 52 11) with 0x7FF0000000000000 in C1. split; [|lia].
    apply Z.nlt_ge. intros K. pose proof (fmag_lt 52 11 eq_refl d ((e + 1023) * 2^52) ltac:(lia)) as G2. rewrite (fmag_pow e He) in G2. lra.
  - specialize (D G). rewrite E in D. change (finf 52 11) with 0x7FF0000000000000 in D. unfold huge. lia.
Qed.
Lemma d2f_huge e d : 128 <= e <= 1000 -> huge e d -> d2f d = 0x7F800000.
Proof.
  intros He H. destruct (huge_cases e d ltac:(lia) H) as [->|(A & B & C & D)]; [vm_compute; reflexivity|].
  destruct (d2f_round d A B) as (E & F & _ & G). rewrite C in F.
  assert (L : (bpow radix2 128 <= RN24 (fval 52 11 d))%R).
  { rewrite <- (RN24_id (bpow radix2 128)) by (apply generic_format_bpow; unfold FLT_exp; lia). apply RN24_le. eapply Rle_trans; [|exact D]. apply bpow_le. lia. }
  change (RN 23 8 (fval 52 11 d)) with (RN24 (fval 52 11 d)) in G. change (2^(8-1)) with 128 in G. pose proof (bpow_gt_0 radix2 128). rewrite Rabs_pos_eq in G by lra. specialize (G L).
  destruct (pos_pattern 23 8 _ eq_refl eq_refl E F) as (K & _). rewrite K in G. exact G.
Qed.
Lemma shift_huge z Z k : dbl z Z -> (/ 2 <= Z <= 1.5)%R -> 100 <= k <= 1024 -> (k = 1024 -> (Z <= 1)%R) -> exists w, shift_ z k = Ok w /\ huge (k - 1) w.
Proof.
  intros (A & B & C & D) HY HK H1.
  assert (NG : fneg 52 11 z = false).
  { rewrite (fneg_sign z Z A C) by lra. apply Rlt_bool_false. lra. }
  destruct (pos_pattern 52 11 z eq_refl eq_refl A NG) as (E & R & V). rewrite V in C.
  assert (L1 : 0x3FE0000000000000 <= z).
  { apply Z.nlt_ge. intros K. pose proof (fmag_lt 52 11 eq_refl z 0x3FE0000000000000 ltac:(lia)) as G.
    replace (fmag 52 11 0x3FE0000000000000) with (/ 2)%R in G; [lra|]. transitivity (Q2R (1 # 2)); [unfold Q2R; cbn; lra|rewrite <- qmag_ok; apply Qeq_eqR; reflexivity]. }
  assert (L2 : z <= 0x3FF8000000000000).
  { apply Z.nlt_ge. intros K. pose proof (fmag_lt 52 11 eq_refl 0x3FF8000000000000 z ltac:(lia)) as G.
    replace (fmag 52 11 0x3FF8000000000000) with 1.5%R in G; [lra|]. transitivity (Q2R (3 # 2)); [unfold Q2R; cbn; lra|rewrite <- qmag_ok; apply Qeq_eqR; reflexivity]. }
  assert (L3 : k = 1024 -> z <= 0x3FF0000000000000).
  { intros K1. specialize (H1 K1). apply Z.nlt_ge. intros K. pose proof (fmag_lt 52 11 eq_refl 0x3FF0000000000000 z ltac:(lia)) as G.
    replace (fmag 52 11 0x3FF0000000000000) with 1%R in G; [lra|]. transitivity (Q2R 1); [unfold Q2R; cbn; lra|rewrite <- qmag_ok; apply Qeq_eqR; reflexivity]. }
  unfold shift_. rewrite (sgn_id 64 z), (sgn_id 64 (k * 2^52)) by lia. unfold chk_i64. replace (_ && _) with true by lia. cbn [bind].
  exists (z + k * 2^52). unfold u64. rewrite Z.mod_small by lia. split; [reflexivity|]. unfold huge. destruct (Z.eq_dec k 1024) as [K|K]; [specialize (L3 K); lia|lia].
Qed.
(** e^V scaled by a large power *)
Lemma scaled_huge z Z X k : dbl z Z -> relr (derr k) Z (exp (X - IZR k * ln 2)) -> (Rabs (X - IZR k * ln 2) <= 0.3468)%R -> (100 <= X <= 709.7827)%R ->
  exists w, shift_ z k = Ok w /\ huge 142 w.
Proof.
  intros D E HV HX. pose proof (exp_range _ HV) as R. pose proof (derr_pos k) as P. pose proof ln2_dec as LN. pose proof (Rabs_le_inv _ _ HV) as HV'.
  pose proof (k_range X k ltac:(apply Rabs_le; lra) HV) as KR.
  assert (K2 : 143 <= k). { assert (IZR 142 < IZR k)%R as A by (apply Rnot_le_lt; intros K; nra). apply lt_IZR in A. lia. }
  assert (K3 : k <= 1024). { assert (IZR k < IZR 1025)%R as A by (apply Rnot_le_lt; intros K; nra). apply lt_IZR in A. lia. }
  assert (PK : (derr k <= 0.000000000001)%R). { unfold derr. assert (Rabs (IZR k) <= 1025)%R by (rewrite <- abs_IZR; apply IZR_le; lia). lra. }
  assert (PK2 : (derr k <= 0.000001)%R) by lra. pose proof (relr_range _ _ _ (conj P PK2) (exp_pos _) E) as ZR.
  destruct (shift_huge z Z k D ltac:(lra) ltac:(lia)) as (w & A & B).
  - intros ->. pose proof ln2_affine (-7097827 # 10000) 1024 (1#10^4) eq_refl eq_refl as AF. set (V := (X - IZR 1024 * ln 2)%R) in *.
    assert (V <= -0.000012)%R.
    { unfold V. pose proof ln2_bounds as [LL _]. assert (KQ : (Q2R (709782712 # 1000000) <= Q2R (1024 * ln2_lo))%R) by (apply Q2R_le; vm_compute; reflexivity). rewrite Q2R_mult in KQ.
      unfold Q2R in KQ at 1 2. cbn [Qnum Qden] in KQ. change (IZR 1024) with 1024%R. lra. }
    unfold relr in E. rewrite (Rabs_pos_eq (exp V)) in E by lra. apply Rabs_le_inv in E. pose proof (exp_upper V ltac:(lra)) as U.
    assert (U2 : (/ (1 - V) <= / 1.000012)%R) by (apply Rinv_le_contravar; lra). assert (/ 1.000012 <= 0.99999)%R by lra. nra.
  - exists w. split; [exact A|]. unfold huge in *. lia.
Qed.

(** ** e^x *)
Lemma dmin_lo : Q2R (qval 0xC086232BDD7ABCD2) = (- (Q2R (qval 0x4086232BDD7ABCD2)))%R.
Proof. rewrite <- Q2R_opp. apply Qeq_eqR. vm_compute. reflexivity. Qed.
Lemma expf_guards xd X : dbl xd X -> (0 <= X <= 709.7827)%R -> lt64 xd 0xC086232BDD7ABCD2 = false /\ lt64 0x40862E42FEFA39EF xd = false.
Proof.
  intros DX HX. split.
  - destruct (lt64 xd 0xC086232BDD7ABCD2) eqn:L; [|reflexivity]. exfalso.
    assert (DM : dbl 0xC086232BDD7ABCD2 (Q2R (qval 0xC086232BDD7ABCD2))) by (apply dbl_c; reflexivity). apply (dbl_lt _ _ _ _ DX DM) in L.
    assert (K : (Q2R (qval 0xC086232BDD7ABCD2) <= Q2R 0)%R) by (apply Q2R_le; reflexivity). rewrite Q2R_0 in K. lra.
  - destruct (lt64 0x40862E42FEFA39EF xd) eqn:L; [|reflexivity]. exfalso.
    assert (DM : dbl 0x40862E42FEFA39EF (Q2R (qval 0x40862E42FEFA39EF))) by (apply dbl_c; reflexivity). apply (dbl_lt _ _ _ _ DM DX) in L.
    assert (K : (Q2R (7097827 # 10000) <= Q2R (qval 0x40862E42FEFA39EF))%R) by (apply Q2R_le; vm_compute; reflexivity).
    unfold Q2R in K at 1. cbn [Qnum Qden] in K. lra.
Qed.
Lemma expf_small xd X : dbl xd X -> (0 <= X <= 100)%R -> exists w W, expf_ xd = Ok w /\ dbl w W /\ relr 0.000000000000016 W (exp X) /\ (0 < W)%R.
Proof.
  intros DX HX. destruct (expf_guards xd X DX ltac:(lra)) as [G1 G2]. unfold expf_. rewrite G1, G2. cbv zeta.
  destruct (choose64 xd X DX ltac:(apply Rabs_le; lra)) as (k & Dn & Tn & HV). unfold log2e in *. set (n := rint64 (mul64 xd 0x3FF71547652B82FE)) in *. clearbody n.
  pose proof (k_range X k ltac:(apply Rabs_le; lra) HV) as KR. rewrite Tn. cbn [bind].
  destruct (reduced xd X n k DX Dn KR HV) as (S & DS & BS & ES). destruct (exp_one _ S DS BS) as [(Z & DZ & EZ) _].
  pose proof (exp_red S _ Z k KR HV ES EZ) as RZ.
  assert (KB : -1 <= k <= 145). { pose proof ln2_dec. apply Rabs_le_inv in HV. assert (IZR (-2) < IZR k < IZR 146)%R as [A B] by (split; apply Rnot_le_lt; intros K; nra). apply lt_IZR in A. apply lt_IZR in B. lia. }
  destruct (scaled_rel _ Z X k DZ RZ HV ltac:(lia)) as (w & W & Sw & DW & EW & PW). exists w, W. split; [exact Sw|]. split; [exact DW|]. split; [|exact PW].
  apply (relr_weak (derr k)); [|exact EW]. unfold derr. assert (Rabs (IZR k) <= 145)%R by (rewrite <- abs_IZR; apply IZR_le; lia). lra.
Qed.
Lemma expf_huge xd X : dbl xd X -> (100 <= X <= 709.7827)%R -> exists w, expf_ xd = Ok w /\ huge 142 w.
Proof.
  intros DX HX. destruct (expf_guards xd X DX ltac:(lra)) as [G1 G2]. unfold expf_. rewrite G1, G2. cbv zeta.
  destruct (choose64 xd X DX ltac:(apply Rabs_le; lra)) as (k & Dn & Tn & HV). unfold log2e in *. set (n := rint64 (mul64 xd 0x3FF71547652B82FE)) in *. clearbody n.
  pose proof (k_range X k ltac:(apply Rabs_le; lra) HV) as KR. rewrite Tn. cbn [bind].
  destruct (reduced xd X n k DX Dn KR HV) as (S & DS & BS & ES). destruct (exp_one _ S DS BS) as [(Z & DZ & EZ) _].
  pose proof (exp_red S _ Z k KR HV ES EZ) as RZ. exact (scaled_huge _ Z X k DZ RZ HV HX).
Qed.

(** ** e^x - 1 *)
Definition eerr (X : R) : R := (0.00000000000000024 * Rabs X + 0.0000000000000031)%R.
Lemma expm1_amplify X k W : (Rabs (X - IZR k * ln 2) <= 0.3468)%R -> k <> 0 -> -500 <= k <= 500 -> relr (derr k) W (exp X) -> (0 < W <= bpow radix2 500)%R ->
  relr (eerr X) (RN53 (W - 1)) (exp X - 1).
Proof.
  intros HV KN KR EW WP. pose proof (exp_range _ HV) as R. rewrite (exp_of_red X k) in *. set (V := (X - IZR k * ln 2)%R) in *.
  assert (HX : (ln 2 * Rabs (IZR k) - 0.3468 <= Rabs X)%R).
  { replace (ln 2 * Rabs (IZR k))%R with (Rabs (X + - V)). 2:{ replace (X + - V)%R with (IZR k * ln 2)%R by (unfold V; ring). pose proof ln2_dec. rewrite Rabs_mult, (Rabs_pos_eq (ln 2)) by lra. ring. }
    pose proof (Rabs_triang X (- V)) as T. rewrite Rabs_Ropp in T. lra. }
  set (e := (exp V * bpow radix2 k)%R) in *. pose proof ln2_dec as LN. set (K := Rabs (IZR k)) in *.
  assert (K1 : (1 <= K)%R) by (unfold K; rewrite <- abs_IZR; apply IZR_le; lia).
  assert (LK : (0.6931 * K <= ln 2 * K)%R) by (apply Rmult_le_compat_r; lra).
  assert (EB : (0.00000000000000016 * K + 0.000000000000003 <= eerr X)%R) by (unfold eerr; lra).
  assert (E0 : (0 < e)%R) by (unfold e; apply Rmult_lt_0_compat; [lra|apply bpow_gt_0]).
  set (m := Rabs (e - 1)). unfold relr in EW. rewrite (Rabs_pos_eq e) in EW by lra.
  assert (KB : (K <= 500)%R) by (unfold K; rewrite <- abs_IZR; apply IZR_le; lia).
  assert (DE : (0 <= derr k <= 0.000000000001)%R) by (split; [apply derr_pos|unfold derr; fold K; lra]).
  (* amplification *)
  assert (AM : exists rho, (e <= rho * m)%R /\ (0.2 <= m)%R /\ (0 <= rho)%R /\ (rho * derr k * 1.00001 + 0.00000000000000012 <= 0.00000000000000016 * K + 0.000000000000003)%R).
  { unfold derr. fold K. destruct (Z_le_gt_dec 2 k) as [C|C].
    - assert (4 <= bpow radix2 k)%R by (change 4%R with (bpow radix2 2); apply bpow_le; lia). assert (2.78 <= e)%R by (unfold e; nra).
      exists 1.5625%R. unfold m. rewrite Rabs_pos_eq by lra. split; [lra|]. split; [lra|]. split; [lra|]. lra.
    - destruct (Z.eq_dec k 1) as [->|C1].
      + assert (K = 1)%R by (unfold K; apply Rabs_pos_eq; lra). change (bpow radix2 1) with 2%R in e. assert (1.39 <= e)%R by (unfold e; lra).
        exists 3.565%R. unfold m. rewrite Rabs_pos_eq by lra. split; [lra|]. split; [lra|]. split; [lra|]. lra.
      + destruct (Z.eq_dec k (-1)) as [->|C2].
        * assert (K = 1)%R by (unfold K; rewrite Rabs_left; lra). change (bpow radix2 (-1)) with (/ 2)%R in e. assert (e <= 0.719)%R by (unfold e; lra).
          exists 2.56%R. unfold m. rewrite Rabs_left by lra. split; [lra|]. split; [lra|]. split; [lra|]. lra.
        * assert (bpow radix2 k <= / 4)%R by (change (/ 4)%R with (bpow radix2 (-2)); apply bpow_le; lia). pose proof (bpow_gt_0 radix2 k). assert (e <= 0.36)%R by (unfold e; nra).
          exists 0.57%R. unfold m. rewrite Rabs_left by lra. split; [lra|]. split; [lra|]. split; [lra|]. lra. }
  destruct AM as (rho & A1 & A2 & A3 & A4).
  assert (WE : (Rabs (W - 1 - (e - 1)) <= derr k * rho * m)%R).
  { replace (W - 1 - (e - 1))%R with (W - e)%R by ring. eapply Rle_trans; [exact EW|]. rewrite Rmult_assoc. apply Rmult_le_compat_l; [lra|exact A1]. }
  assert (RS : (0 <= rho * derr k <= 0.0000001)%R). { split; [apply Rmult_le_pos; lra|]. assert (rho <= 4)%R; [|nra]. apply Rnot_lt_le. intros F. unfold derr in A4, DE. fold K in A4, DE. nra. }
  apply (relr_weak (rho * derr k + 0.0000000000000001112)); [lra|].
  apply relr_round; [lra| |unfold relr; fold m; rewrite (Rmult_comm rho); exact WE].
  right. eapply Rle_trans; [apply (bpow_le radix2 (-1022) (-4)); lia|]. change (bpow radix2 (-4)) with (/ 16)%R.
  pose proof (Rabs_triang (W - 1) (- (W - 1 - (e - 1)))) as T. rewrite Rabs_Ropp in T. replace (W - 1 + - (W - 1 - (e - 1)))%R with (e - 1)%R in T by ring. fold m in T.
  assert (derr k * rho * m <= 0.0000001 * m)%R by (apply Rmult_le_compat_r; [lra|lra]). lra.
Qed.

Lemma expm1_guards xd X : dbl xd X -> (-37.4 <= X <= 709.7827)%R -> lt64 xd 0xC042B708872320E2 = false /\ lt64 0x40862E42FEFA39EF xd = false.
Proof.
  intros DX HX. split.
  - destruct (lt64 xd 0xC042B708872320E2) eqn:L; [|reflexivity]. exfalso.
    assert (DM : dbl 0xC042B708872320E2 (Q2R (qval 0xC042B708872320E2))) by (apply dbl_c; reflexivity). apply (dbl_lt _ _ _ _ DX DM) in L.
    assert (K : (Q2R (qval 0xC042B708872320E2) <= Q2R (-374 # 10))%R) by (apply Q2R_le; vm_compute; reflexivity).
    unfold Q2R in K at 2. cbn [Qnum Qden] in K. lra.
  - destruct (lt64 0x40862E42FEFA39EF xd) eqn:L; [|reflexivity]. exfalso.
    assert (DM : dbl 0x40862E42FEFA39EF (Q2R (qval 0x40862E42FEFA39EF))) by (apply dbl_c; reflexivity). apply (dbl_lt _ _ _ _ DM DX) in L.
    assert (K : (Q2R (7097827 # 10000) <= Q2R (qval 0x40862E42FEFA39EF))%R) by (apply Q2R_le; vm_compute; reflexivity).
    unfold Q2R in K at 1. cbn [Qnum Qden] in K. lra.
Qed.
Lemma dbl_minus1 : dbl 0xBFF0000000000000 (-1).
Proof. replace (-1)%R with (Q2R (-1)) by (unfold Q2R; cbn [Qnum Qden]; lra). apply dbl_c; reflexivity. Qed.
Lemma expm1_ok x B : fbits 23 8 x -> ffinite 23 8 x = true -> (fval 23 8 x <= B)%R -> (38 <= B <= 100)%R ->
  exists w W, expm1f_ x = Ok w /\ dbl w W /\ relr (eerr B) W (exp (fval 23 8 x) - 1).
Proof.
  intros Hx Fx HX HB. assert (EB : eerr B = (0.00000000000000024 * B + 0.0000000000000031)%R) by (unfold eerr; rewrite Rabs_pos_eq by lra; reflexivity). pose proof (dbl_f2d x Hx Fx) as DX. set (X := fval 23 8 x) in *. unfold expm1f_. cbv zeta.
  assert (DM : dbl 0xC042B708872320E2 (Q2R (qval 0xC042B708872320E2))) by (apply dbl_c; reflexivity).
  destruct (lt64 (f2d x) 0xC042B708872320E2) eqn:L1.
  { apply (dbl_lt _ _ _ _ DX DM) in L1. exists 0xBFF0000000000000, (-1)%R. split; [reflexivity|]. split; [exact dbl_minus1|]. unfold relr.
    assert (EX : (exp X <= 0.0000000000000002)%R).
    { apply Rle_trans with (bpow radix2 (-53)); [|change (bpow radix2 (-53)) with (/ 9007199254740992)%R; lra]. rewrite <- exp_bpow. left. apply exp_increasing.
      assert (K : (Q2R (qval 0xC042B708872320E2) <= Q2R (-374 # 10))%R) by (apply Q2R_le; vm_compute; reflexivity). unfold Q2R in K at 2. cbn [Qnum Qden] in K. pose proof ln2_dec. lra. }
    pose proof (exp_pos X). replace (-1 - (exp X - 1))%R with (- exp X)%R by ring. rewrite Rabs_Ropp, (Rabs_pos_eq (exp X)), (Rabs_left (exp X - 1)) by lra. rewrite EB. nra. }
  assert (B1 : (Q2R (qval 0xC042B708872320E2) <= X)%R) by (apply Rnot_lt_le; intros K; apply (dbl_lt _ _ _ _ DX DM) in K; unfold lt64 in L1; congruence).
  assert (B2 : (-38 <= X)%R). { eapply Rle_trans; [|exact B1]. assert (K : (Q2R (-38) <= Q2R (qval 0xC042B708872320E2))%R) by (apply Q2R_le; vm_compute; reflexivity). unfold Q2R in K at 1. cbn [Qnum Qden] in K. lra. }
  assert (L2 : lt64 0x40862E42FEFA39EF (f2d x) = false).
  { destruct (lt64 0x40862E42FEFA39EF (f2d x)) eqn:L; [|reflexivity]. exfalso.
    assert (DM2 : dbl 0x40862E42FEFA39EF (Q2R (qval 0x40862E42FEFA39EF))) by (apply dbl_c; reflexivity). apply (dbl_lt _ _ _ _ DM2 DX) in L.
    assert (K : (Q2R (7097827 # 10000) <= Q2R (qval 0x40862E42FEFA39EF))%R) by (apply Q2R_le; vm_compute; reflexivity).
    unfold Q2R in K at 1. cbn [Qnum Qden] in K. lra. }
  rewrite L2. clear L1 L2 B1 DM.
  destruct (choose32 x Hx Fx ltac:(fold X; apply Rabs_le; lra)) as (k & N1 & N2 & N3 & Dn & Tn & En & HV). fold X in HV.
  set (n := add32 (rint32 (mul32 x 0x3FB8AA3B)) 0) in *. clearbody n.
  pose proof (k_range X k ltac:(apply Rabs_le; lra) HV) as KR. rewrite En, Tn. cbn [bind].
  destruct (reduced _ X _ k DX Dn KR HV) as (S & DS & BS & ES).
  destruct (Z.eqb_spec k 0) as [K0|K0].
  { subst k. rewrite Rmult_0_l, Rminus_0_r in HV. clear S DS BS ES.
    assert (DP : dbl (mul64 (f2d n) ln2d) 0).
    { assert (DL : dbl ln2d (Q2R (qval ln2d))) by (apply dbl_c; reflexivity). pose proof (dbl_mul _ _ _ _ 1 Dn DL) as M. rewrite Rmult_0_l, Rabs_R0, RN53_id in M by apply generic_format_0. apply M; [apply bpow_ge_0|lia]. }
    pose proof (dbl_sub _ _ _ _ 1 DX DP) as DS. rewrite Rminus_0_r, RN53_id in DS by exact (dbl_fin _ _ DX).
    specialize (DS ltac:(change (bpow radix2 1) with 2%R; lra) ltac:(lia)).
    destruct (kernel_expm1 _ X DS ltac:(lra)) as (T & DT & ET). { apply (nice_weak (-149)); [lia|]. apply nice_float; assumption. }
    exists (kernel_expf_ (sub64 (f2d x) (mul64 (f2d n) ln2d))), T. split; [reflexivity|]. split; [exact DT|]. apply (relr_weak 0.00000000000000065); [|exact ET]. rewrite EB. lra. }
  destruct (exp_one _ S DS BS) as [_ (Z & DZ & EZ)]. pose proof (exp_red S _ Z k KR HV ES EZ) as RZ.
  assert (KB : -56 <= k <= 145). { pose proof ln2_dec. apply Rabs_le_inv in HV. assert (IZR (-57) < IZR k < IZR 146)%R as [A A'] by (split; apply Rnot_le_lt; intros K; nra). apply lt_IZR in A. apply lt_IZR in A'. lia. }
  destruct (scaled_rel _ Z X k DZ RZ HV ltac:(lia)) as (w & W & Sw & DW & EW & PW). rewrite Sw. cbn [bind].
  assert (WB : (W <= bpow radix2 200)%R).
  { assert (PK : (0 <= derr k <= 0.000001)%R). { split; [apply derr_pos|]. unfold derr. assert (Rabs (IZR k) <= 500)%R by (rewrite <- abs_IZR; apply IZR_le; lia). lra. }
    pose proof (relr_range _ _ _ PK (exp_pos _) EW) as WR. pose proof (exp_range _ HV) as R. rewrite (exp_of_red X k) in WR.
    assert (bpow radix2 k <= bpow radix2 145)%R by (apply bpow_le; lia). pose proof (bpow_gt_0 radix2 k).
    apply Rle_trans with (4 * bpow radix2 145)%R; [nra|]. change 4%R with (bpow radix2 2). rewrite <- bpow_plus. apply bpow_le. lia. }
  exists (sub64 w c_1), (RN53 (W - 1)). split; [reflexivity|]. split.
  - apply (dbl_sub _ _ _ _ 200 DW dbl_one); [|lia]. assert (1 <= bpow radix2 200)%R by (change 1%R with (bpow radix2 0); apply bpow_le; lia). apply Rabs_le. lra.
  - apply (relr_weak (eerr X)); [rewrite EB; unfold eerr; assert (Rabs X <= B)%R by (apply Rabs_le; lra); lra|]. apply (expm1_amplify X k W HV K0 ltac:(lia) EW). split; [exact PW|]. eapply Rle_trans; [exact WB|]. apply bpow_le. lia.
Qed.
Lemma sum_sign_pos x a b : (0 < x)%R -> sum_sign x a b = false.
Proof. intros H. unfold sum_sign. rewrite Rcompare_Gt by exact H. reflexivity. Qed.
Lemma huge_minus1 e w : 10 <= e <= 1000 -> huge e w -> huge (e - 1) (sub64 w c_1).
Proof.
  intros He H. destruct (huge_cases e w ltac:(lia) H) as [->|(A & B & C & D)].
  - replace (sub64 DINF c_1) with DINF by (vm_compute; reflexivity). unfold huge, DINF. lia.
  - destruct dbl_one as (O1 & O2 & O3 & _). pose proof (hsub_ok 52 11 eq_refl eq_refl eq_refl w c_1 A O1 B O2) as R. rewrite O3, C in R. change (fneg 52 11 c_1) with false in R.
    assert (P : (bpow radix2 (e - 1) <= fval 52 11 w - 1)%R).
    { replace (bpow radix2 e) with (bpow radix2 (e - 1) * 2)%R in D by (change 2%R with (bpow radix2 1); rewrite <- bpow_plus; f_equal; lia). assert (1 <= bpow radix2 (e - 1))%R by (change 1%R with (bpow radix2 0); apply bpow_le; lia). lra. }
    pose proof (bpow_gt_0 radix2 (e - 1)). rewrite sum_sign_pos in R by lra.
    apply (huge_of (e - 1) _ _ ltac:(lia) R P).
Qed.

(** ** the large range of e^x - 1 *)
Lemma expm1_huge x : fbits 23 8 x -> ffinite 23 8 x = true -> (100 <= fval 23 8 x <= 709.7827)%R -> exists w, expm1f_ x = Ok w /\ huge 141 w.
Proof.
  intros Hx Fx HX. pose proof (dbl_f2d x Hx Fx) as DX. set (X := fval 23 8 x) in *. unfold expm1f_. cbv zeta.
  destruct (expm1_guards _ X DX ltac:(lra)) as [G1 G2]. rewrite G1, G2.
  destruct (choose32 x Hx Fx ltac:(fold X; apply Rabs_le; lra)) as (k & N1 & N2 & N3 & Dn & Tn & En & HV). fold X in HV.
  set (n := add32 (rint32 (mul32 x 0x3FB8AA3B)) 0) in *. clearbody n.
  pose proof (k_range X k ltac:(apply Rabs_le; lra) HV) as KR. rewrite En, Tn. cbn [bind].
  destruct (reduced _ X _ k DX Dn KR HV) as (S & DS & BS & ES).
  destruct (Z.eqb_spec k 0) as [K0|K0]. { exfalso. subst k. apply Rabs_le_inv in HV. lra. }
  destruct (exp_one _ S DS BS) as [_ (Z & DZ & EZ)]. pose proof (exp_red S _ Z k KR HV ES EZ) as RZ.
  destruct (scaled_huge _ Z X k DZ RZ HV HX) as (w & Sw & HW). rewrite Sw. cbn [bind]. exists (sub64 w c_1). split; [reflexivity|]. apply (huge_minus1 142); [lia|exact HW].
Qed.
Lemma mul_inf s d y : dbl d y -> (0 < y)%R -> mul64 (with_sign 52 11 s DINF) d = with_sign 52 11 s DINF /\ mul64 d (with_sign 52 11 s DINF) = with_sign 52 11 s DINF.
Proof.
  intros (A & B & C & _) P. destruct (dec_finite 52 11 eq_refl eq_refl eq_refl d A B) as (D1 & D2 & D3). rewrite C in D2.
  assert (NG : fneg 52 11 d = false) by (rewrite (fneg_sign d y A C) by lra; apply Rlt_bool_false; lra). rewrite NG in D3.
  assert (HI : fbits 52 11 (with_sign 52 11 s DINF) /\ fisinf 52 11 (with_sign 52 11 s DINF) = true /\ fneg 52 11 (with_sign 52 11 s DINF) = s) by (destruct s; (split; [split; [vm_compute; discriminate|reflexivity]|split; reflexivity])).
  destruct HI as (I1 & I2 & I3). unfold mul64, hmul. rewrite (dec_inf 52 11 eq_refl eq_refl eq_refl _ I1 I2), I3.
  destruct (dec 52 11 eq_refl eq_refl eq_refl d) as [t|t| |t m e Hb]; cbn in D1, D2, D3; try discriminate; [lra|subst t].
  split; destruct s; reflexivity.
Qed.
Lemma big_guard x : 0x44317218 <= x < 0x7F800000 -> dbl (f2d x) (fmag 23 8 x) /\ (0 < fmag 23 8 x)%R /\ lt64 (f2d x) 0xC086232BDD7ABCD2 = false /\ lt64 (f2d x) 0xC042B708872320E2 = false /\ lt64 0x40862E42FEFA39EF (f2d x) = true.
Proof.
  intros Hx. pose proof (dbl_float x ltac:(lia)) as DX.
  assert (DM : dbl 0x40862E42FEFA39EF (Q2R (qval 0x40862E42FEFA39EF))) by (apply dbl_c; reflexivity).
  assert (D1 : dbl 0xC086232BDD7ABCD2 (Q2R (qval 0xC086232BDD7ABCD2))) by (apply dbl_c; reflexivity).
  assert (D2 : dbl 0xC042B708872320E2 (Q2R (qval 0xC042B708872320E2))) by (apply dbl_c; reflexivity).
  assert (K1 : (Q2R (qval 0xC086232BDD7ABCD2) <= Q2R 0)%R) by (apply Q2R_le; reflexivity). assert (K2 : (Q2R (qval 0xC042B708872320E2) <= Q2R 0)%R) by (apply Q2R_le; reflexivity). rewrite Q2R_0 in K1, K2.
  assert (K3 : (Q2R (qval 0x40862E42FEFA39EF + (1 # 10^6)) <= Q2R (qval (f2d 0x44317218)))%R) by (apply Q2R_le; vm_compute; reflexivity). rewrite Q2R_plus in K3.
  assert (K4 : (0 < Q2R (1 # 10^6))%R) by (unfold Q2R; cbn [Qnum Qden]; change (Zpos (10^6)) with 1000000; lra).
  assert (K5 : (Q2R 0 <= Q2R (qval 0x40862E42FEFA39EF))%R) by (apply Q2R_le; reflexivity). rewrite Q2R_0 in K5.
  pose proof (fmag_le 23 8 eq_refl 0x44317218 x ltac:(lia)) as L. rewrite (fmag32_q 0x44317218) in L by lia.
  split; [exact DX|]. split; [lra|]. split; [|split].
  - destruct (lt64 _ _) eqn:E; [|reflexivity]. exfalso. apply (dbl_lt _ _ _ _ DX D1) in E. lra.
  - destruct (lt64 _ _) eqn:E; [|reflexivity]. exfalso. apply (dbl_lt _ _ _ _ DX D2) in E. lra.
  - apply (dbl_lt _ _ _ _ DM DX). lra.
Qed.
Lemma exp_inf x : 0x44317218 <= x <= 0x7F800000 -> expf_ (f2d x) = Ok DINF /\ expm1f_ x = Ok DINF.
Proof.
  intros Hx. destruct (Z.eq_dec x 0x7F800000) as [->|N]; [split; vm_compute; reflexivity|].
  destruct (big_guard x ltac:(lia)) as (DX & P & G1 & G2 & G3). unfold expf_, expm1f_. cbv zeta. rewrite G1, G2, G3.
  destruct (mul_inf false _ _ DX P) as [_ M]. change (with_sign 52 11 false DINF) with HUGE_VAL in M. rewrite M. split; reflexivity.
Qed.
(** the range of patterns *)
Lemma mid_range x : 0x42C80000 <= x <= 0x44317217 -> (100 <= fmag 23 8 x <= 709.7827)%R.
Proof.
  intros Hx. split.
  - eapply Rle_trans; [|apply (fmag_le 23 8 eq_refl 0x42C80000 x); lia]. rewrite fmag32_q by lia. eapply Rle_trans; [|apply (Q2R_le 100); vm_compute; reflexivity]. unfold Q2R. cbn [Qnum Qden]. lra.
  - eapply Rle_trans; [apply (fmag_le 23 8 eq_refl x 0x44317217); lia|]. rewrite fmag32_q by lia. eapply Rle_trans; [apply (Q2R_le _ (7097827 # 10000)); vm_compute; reflexivity|]. unfold Q2R. cbn [Qnum Qden]. lra.
Qed.
Lemma low_range x : 0 <= x <= 0x42C80000 -> (0 <= fmag 23 8 x <= 100)%R.
Proof.
  intros Hx. split; [apply (fmag_nonneg 23 8 eq_refl); lia|].
  eapply Rle_trans; [apply (fmag_le 23 8 eq_refl x 0x42C80000); lia|]. rewrite fmag32_q by lia. eapply Rle_trans; [apply (Q2R_le _ 100); vm_compute; reflexivity|]. unfold Q2R. cbn [Qnum Qden]. lra.
Qed.

(** ** arithmetic on huge values *)
Lemma huge_abs e x s d : -1000 <= e <= 1000 -> rounds_to 52 11 x s d -> (bpow radix2 e <= Rabs x)%R -> huge e (fabsb 52 11 d).
Proof.
  intros He (A & B & C & D) L. assert (R : 0 <= fabsb 52 11 d) by (apply Z.mod_pos_bound; reflexivity). pose proof (bpow_gt_0 radix2 e) as BP.
  assert (FL : (bpow radix2 e <= Rabs (RN53 x))%R).
  { destruct (Rle_or_lt 0 x) as [G|G]; [rewrite (Rabs_pos_eq x) in L by exact G|rewrite (Rabs_left x) in L by exact G].
    - assert (K : (bpow radix2 e <= RN53 x)%R) by (apply RN53_lb; [apply F53_bpow; lia|exact L]). rewrite Rabs_pos_eq by lra. exact K.
    - assert (K : (RN53 x <= - bpow radix2 e)%R) by (apply RN53_ub; [apply generic_format_opp, F53_bpow; lia|lra]). rewrite Rabs_left by lra. lra. }
  change (RN 52 11 x) with (RN53 x) in *. change (2^(11-1)) with 1024 in *.
  destruct (Rlt_or_le (Rabs (RN53 x)) (bpow radix2 1024)) as [G|G].
  - destruct (C G) as [C1 C2]. unfold ffinite in C1. change (finf 52 11) with 0x7FF0000000000000 in C1. split; [|lia].
    apply Z.nlt_ge. intros K. pose proof (fmag_lt 52 11 eq_refl (fabsb 52 11 d) ((e + 1023) * 2^52) ltac:(lia)) as G2. rewrite (fmag_pow e He) in G2.
    rewrite <- C2 in FL. unfold fval in FL. pose proof (fmag_nonneg 52 11 eq_refl _ R). destruct (fneg 52 11 d); [rewrite Rabs_Ropp in FL|]; rewrite Rabs_pos_eq in FL by lra; lra.
  - specialize (D G). change (finf 52 11) with 0x7FF0000000000000 in D. unfold huge. lia.
Qed.
Lemma d2f_huge_abs e d : 128 <= e <= 1000 -> fbits 52 11 d -> huge e (fabsb 52 11 d) -> d2f d = with_sign 23 8 (fneg 52 11 d) 0x7F800000.
Proof.
  intros He HB H. destruct (Z.eq_dec (fabsb 52 11 d) DINF) as [I|I].
  { apply (hcvt_inf 52 11 23 8 eq_refl eq_refl eq_refl eq_refl eq_refl d HB). unfold fisinf. rewrite I. reflexivity. }
  assert (B : ffinite 52 11 d = true) by (unfold ffinite; change (finf 52 11) with 0x7FF0000000000000; destruct H; unfold DINF in I; lia).
  destruct (d2f_round d HB B) as (E & F & _ & G).
  assert (L : (bpow radix2 e <= Rabs (fval 52 11 d))%R).
  { assert (R : 0 <= fabsb 52 11 d) by (apply Z.mod_pos_bound; reflexivity). pose proof (fmag_nonneg 52 11 eq_refl _ R).
    unfold fval. destruct (fneg 52 11 d); [rewrite Rabs_Ropp|]; rewrite Rabs_pos_eq by lra; rewrite <- (fmag_pow e) by lia; apply (fmag_le 52 11 eq_refl); destruct H; lia. }
  assert (L1 : (bpow radix2 128 <= bpow radix2 e)%R) by (apply bpow_le; lia). pose proof (bpow_gt_0 radix2 128) as BP. assert (F128 : F24 (bpow radix2 128)) by (apply generic_format_bpow; unfold FLT_exp; lia).
  assert (LR : (bpow radix2 128 <= Rabs (RN24 (fval 52 11 d)))%R).
  { destruct (Rle_or_lt 0 (fval 52 11 d)) as [S|S]; [rewrite (Rabs_pos_eq (fval 52 11 d)) in L by exact S|rewrite (Rabs_left (fval 52 11 d)) in L by exact S].
    - assert (K : (RN24 (bpow radix2 128) <= RN24 (fval 52 11 d))%R) by (apply RN24_le; lra). rewrite (RN24_id _ F128) in K. rewrite Rabs_pos_eq by lra. exact K.
    - assert (K : (RN24 (fval 52 11 d) <= RN24 (- bpow radix2 128))%R) by (apply RN24_le; lra). rewrite (RN24_id (- bpow radix2 128)) in K by (apply generic_format_opp; exact F128). rewrite Rabs_left by lra. lra. }
  specialize (G LR). rewrite <- F. change (finf 23 8) with 0x7F800000 in G. set (r := d2f d) in *. clearbody r. unfold with_sign, fabsb, fneg, fbits in *. change (2^(23+8)) with 0x80000000 in *. change (2^(23+8+1)) with 0x100000000 in *.
  destruct (Z_lt_ge_dec r 0x80000000) as [C|C].
  - rewrite Z.mod_small in G by lia. replace (0x80000000 <=? r) with false by lia. lia.
  - replace (r mod 0x80000000) with (r - 0x80000000) in G by (apply Z.mod_unique with 1; lia). replace (0x80000000 <=? r) with true by lia. lia.
Qed.
Lemma dbl_half : dbl c_half (/ 2).
Proof. replace (/ 2)%R with (Q2R (1 # 2)) by (unfold Q2R; cbn [Qnum Qden]; lra). apply dbl_c; reflexivity. Qed.
Lemma huge_half e d : 10 <= e <= 1000 -> huge e d -> huge (e - 1) (mul64 c_half d).
Proof.
  intros He H. destruct (huge_cases e d ltac:(lia) H) as [->|(A & B & C & D)].
  - replace (mul64 c_half DINF) with DINF by (vm_compute; reflexivity). unfold huge, DINF. lia.
  - destruct dbl_half as (O1 & O2 & O3 & _). pose proof (hmul_ok 52 11 eq_refl eq_refl eq_refl c_half d O1 A O2 B) as R. rewrite O3, C in R. change (xorb (fneg 52 11 c_half) false) with false in R.
    apply (huge_of (e - 1) _ _ ltac:(lia) R). replace (bpow radix2 e) with (bpow radix2 (e - 1) * 2)%R in D by (change 2%R with (bpow radix2 1); rewrite <- bpow_plus; f_equal; lia). lra.
Qed.
Lemma huge_inv e d : 10 <= e <= 1000 -> huge e d -> exists q, dbl (div64 c_half d) q /\ (0 <= q <= / 2)%R.
Proof.
  intros He H. destruct (huge_cases e d ltac:(lia) H) as [->|(A & B & C & D)].
  - exists 0%R. replace (div64 c_half DINF) with 0 by (vm_compute; reflexivity). split; [exact dbl_0|lra].
  - assert (P : (1 <= fval 52 11 d)%R) by (eapply Rle_trans; [|exact D]; change 1%R with (bpow radix2 0); apply bpow_le; lia).
    destruct dbl_half as (O1 & O2 & O3 & _). pose proof (hdiv_ok c_half d O1 A O2 B ltac:(lra)) as R. rewrite O3 in R.
    assert (QB : (0 <= / 2 / fval 52 11 d <= / 2)%R).
    { split; [apply Rmult_le_pos; [lra|left; apply Rinv_0_lt_compat; lra]|]. unfold Rdiv. assert (/ fval 52 11 d <= / 1)%R by (apply Rinv_le_contravar; lra). rewrite Rinv_1 in *. lra. }
    exists (RN53 (/ 2 / fval 52 11 d)). split; [apply (dbl_rounds _ _ _ 1 R); [change (bpow radix2 1) with 2%R; rewrite Rabs_pos_eq by lra; lra|lia]|].
    split; [apply RN53_lb; [apply generic_format_0|lra]|apply RN53_ub; [change (/ 2)%R with (bpow radix2 (-1)); apply F53_bpow; lia|lra]].
Qed.
Lemma huge_add e d q y : 10 <= e <= 1000 -> huge e d -> dbl q y -> (0 <= y)%R -> huge e (add64 d q).
Proof.
  intros He H (Q1 & Q2 & Q3 & _) P. destruct (huge_cases e d ltac:(lia) H) as [->|(A & B & C & D)].
  - replace (add64 DINF q) with DINF; [unfold huge, DINF; lia|]. symmetry. unfold add64, hadd. destruct (dec_finite 52 11 eq_refl eq_refl eq_refl q Q1 Q2) as (D1 & _).
    rewrite (dec_inf 52 11 eq_refl eq_refl eq_refl DINF) by first [split; [vm_compute; discriminate|reflexivity]|reflexivity].
    destruct (dec 52 11 eq_refl eq_refl eq_refl q); cbn in D1; try discriminate; reflexivity.
  - pose proof (hadd_ok 52 11 eq_refl eq_refl eq_refl d q A Q1 B Q2) as R. rewrite Q3, C in R. pose proof (bpow_gt_0 radix2 e). rewrite sum_sign_pos in R by lra.
    apply (huge_of e _ _ ltac:(lia) R). lra.
Qed.
Lemma huge_mul e d s q y : 200 <= e + 100 <= 1000 -> 129 <= e -> huge e d -> dbl q y -> (/ 2 <= y <= 1)%R -> d2f (mul64 (with_sign 52 11 s d) q) = with_sign 23 8 s 0x7F800000.
Proof.
  intros He He2 H DQ P. destruct (huge_cases e d ltac:(lia) H) as [->|(A & B & C & D)].
  - destruct (mul_inf s q y DQ ltac:(lra)) as [-> _]. destruct s; vm_compute; reflexivity.
  - destruct DQ as (Q1 & Q2 & Q3 & _). assert (NQ : fneg 52 11 q = false) by (rewrite (fneg_sign q y Q1 Q3) by lra; apply Rlt_bool_false; lra).
    destruct (pos_pattern 52 11 d eq_refl eq_refl A C) as (E1 & E2 & E3).
    destruct (with_sign_spec 52 11 eq_refl eq_refl s d E2) as (W1 & W2 & W3). pose proof (with_sign_fval 52 11 eq_refl eq_refl s d E2) as W4.
    assert (W5 : ffinite 52 11 (with_sign 52 11 s d) = true) by (unfold ffinite in *; rewrite W1; rewrite E1 in B; exact B).
    pose proof (hmul_ok 52 11 eq_refl eq_refl eq_refl _ q W3 Q1 W5 Q2) as R. rewrite W2, NQ, Bool.xorb_false_r, Q3 in R. change (hmul 52 11 eq_refl eq_refl eq_refl) with mul64 in R.
    assert (L : (bpow radix2 (e - 1) <= Rabs (fval 52 11 (with_sign 52 11 s d) * y))%R).
    { rewrite Rabs_mult, (Rabs_pos_eq y), W4 by lra. rewrite E3 in D. pose proof (bpow_gt_0 radix2 e). replace (Rabs (if s then - fmag 52 11 d else fmag 52 11 d)) with (fmag 52 11 d) by (destruct s; [rewrite Rabs_Ropp|]; rewrite Rabs_pos_eq by lra; reflexivity).
      replace (bpow radix2 (e - 1)) with (bpow radix2 e * / 2)%R by (change (/ 2)%R with (bpow radix2 (-1)); rewrite <- bpow_plus; reflexivity). nra. }
    pose proof (huge_abs (e - 1) _ _ _ ltac:(lia) R L) as HH. destruct R as (R1 & R2 & _). rewrite <- R2 at 2. apply (d2f_huge_abs (e - 1)); [lia|exact R1|exact HH].
Qed.
