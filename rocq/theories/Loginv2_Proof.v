(** Accuracy of log1pf, atanhf, asinhf and acoshf: the four functions. *)
From Coq Require Import Reals Lra Lia Psatz QArith Qreals Qabs List.
From Flocq Require Import Core BinarySingleNaN Relative Sterbenz Mult_error.
From Coquelicot Require Import Coquelicot.
From Verif Require Import Base FP FP_Proof HW HW_Proof Tf_Narrow_Proof Midpoint Fmaf_Proof Math_Model Math_Basic_Proof Math_Round_Proof Math_Int_Proof Math_Lconv_Proof Hypotf_Model Hypotf_Real Hypotf_Proof Approx Subdiv Ferr Elem_Spec Elem_Proof Elem_Num Expf_Model Expf_Proof Logf_Model Logf_Kernel Logf_Proof Loginv_Proof.
Import ListNotations.
Open Scope Z_scope.
Local Ltac Zify.zify_post_hook ::= idtac.

(** ** log1pf *)
Definition lerr (e : Z) : Q := (inject_Z (Z.abs e) * (1 # 10^23) + (2 # 10^28))%Q.
Lemma lnq_lerr q e : lnq_fits q e = true -> (0 < Q2R q /\ Rabs (Q2R (lnq q e) - ln (Q2R q)) <= Q2R (lerr e))%R.
Proof.
  intros H. destruct (lnq_err q e H) as [A B]. split; [exact A|]. eapply Rle_trans; [exact B|]. right. unfold lerr. rewrite Q2R_plus, Q2R_mult. rewrite <- abs_IZR. unfold Q2R, inject_Z. cbn [Qnum Qden].
  change (Zpos (10^23)) with 100000000000000000000000. change (Zpos (10^28)) with 10000000000000000000000000000. field.
Qed.
Lemma log1p_point c n e (neg : bool) : 0 <= c < 0x100000000 -> ffinite 23 8 c = true -> 1 <= n < 0x7F7FFFFF -> lnq_fits (1 + qval (f2d c)) e = true ->
  chkp n (if neg then - lnq (1 + qval (f2d c)) e else lnq (1 + qval (f2d c)) e)%Q (lerr e) = true ->
  (if neg then Qle_bool (qval (f2d c)) (-1 # 10^20) else Qle_bool (1 # 10^20) (qval (f2d c))) = true -> nearly_rounded 48 (ln (1 + fval 23 8 c)) (if neg then n + 0x80000000 else n).
Proof.
  intros Hc Fc Hn C1 C2 C3. destruct (lnq_lerr _ _ C1) as [P1 P2]. rewrite Q2R_plus, Q2R_1 in P1, P2. rewrite fval32_q by first [exact Fc|split; [lia|exact (proj2 Hc)]].
  set (q := Q2R (qval (f2d c))) in *. assert (E20 : (0 < Q2R (1 # 10^20))%R) by (rewrite <- Q2R_0; apply Qlt_Rlt; reflexivity). assert (E21 : Q2R (-1 # 10^20) = (- Q2R (1 # 10^20))%R) by (rewrite <- Q2R_opp; reflexivity).
  destruct neg; apply Q2R_le in C3; fold q in C3.
  - assert (V0 : (ln (1 + q) < 0)%R) by (rewrite <- ln_1; apply ln_increasing; lra). apply (nearly_exact 48 _ true); [lra|rewrite Rlt_bool_true by exact V0; reflexivity|].
    rewrite <- (Ropp_involutive (ln (1 + q))). apply rounds_neg; [lia|]. apply (chkp_ok _ _ _ _ Hn C2). rewrite Q2R_opp. replace (- Q2R (lnq (1 + qval (f2d c)) e) - - ln (1 + q))%R with (- (Q2R (lnq (1 + qval (f2d c)) e) - ln (1 + q)))%R by ring. rewrite Rabs_Ropp. exact P2.
  - assert (V0 : (0 < ln (1 + q))%R) by (rewrite <- ln_1; apply ln_increasing; lra). apply (nearly_exact 48 _ false); [lra|rewrite Rlt_bool_false by lra; reflexivity|].
    exact (chkp_ok _ _ _ _ Hn C2 P2).
Qed.

Lemma above_minus_one x : fbits 23 8 x -> ffinite 23 8 x = true -> (-1 < fval 23 8 x)%R -> (0 <= x < 0x7F800000 \/ 0x80000000 <= x < 0xBF800000) /\ (bpow radix2 (-24) <= 1 + fval 23 8 x)%R.
Proof.
  intros Hx Fx L. unfold fbits in Hx. change (2^(23+8+1)) with 0x100000000 in Hx.
  assert (AB : fabsb 23 8 x = if x <? 0x80000000 then x else x - 0x80000000).
  { unfold fabsb. change (2^(23+8)) with 0x80000000. destruct (Z.ltb_spec x 0x80000000); [apply Z.mod_small; lia|]. symmetry. apply Z.mod_unique with 1; lia. }
  assert (NG : fneg 23 8 x = (0x80000000 <=? x)) by reflexivity. unfold ffinite in Fx. unfold fval in *. rewrite NG, AB in *. change (finf 23 8) with 0x7F800000 in Fx.
  assert (B1 : (bpow radix2 (-24) <= 1)%R) by (change (bpow radix2 (-24)) with (/ 16777216)%R; lra).
  destruct (Z.ltb_spec x 0x80000000) as [H|H].
  - replace (0x80000000 <=? x) with false in * by lia. split; [lia|]. pose proof (fmag_nonneg 23 8 eq_refl x ltac:(lia)). lra.
  - replace (0x80000000 <=? x) with true in * by lia. assert (K : x < 0xBF800000).
    { apply Z.nle_gt. intros K. assert (X : (fmag 23 8 0x3F800000 <= fmag 23 8 (x - 0x80000000))%R) by (apply (fmag_le 23 8 eq_refl); lia). rewrite (fmag32_q 0x3F800000) in X by lia. replace (qval (f2d 0x3F800000)) with 1%Q in X by (vm_compute; reflexivity). rewrite Q2R_1 in X. lra. }
    split; [lia|]. assert (X : (fmag 23 8 (x - 0x80000000) <= fmag 23 8 0x3F7FFFFF)%R) by (apply (fmag_le 23 8 eq_refl); lia). rewrite (fmag32_q 0x3F7FFFFF) in X by lia.
    replace (qval (f2d 0x3F7FFFFF)) with (16777215 # 16777216)%Q in X by (vm_compute; reflexivity). unfold Q2R in X. cbn [Qnum Qden] in X. change (bpow radix2 (-24)) with (/ 16777216)%R. lra.
Qed.
Lemma sgn32_of x : 0 <= x < 0x100000000 -> sgn 32 x = if x <? 0x80000000 then x else x - 0x100000000.
Proof. intros H. unfold sgn. change (2^32) with 0x100000000. change (2^(32-1)) with 0x80000000. rewrite Z.mod_small by lia. reflexivity. Qed.

Lemma log1pf_branch x : fbits 23 8 x -> ffinite 23 8 x = true -> (-1 < fval 23 8 x)%R -> fval 23 8 x <> 0%R ->
  exists d y, log1pf_ (f2d x) = Ok d /\ dbl d y /\ (Rabs (y - ln (1 + fval 23 8 x)) <= bpow radix2 (- (48)) * Rabs (ln (1 + fval 23 8 x)))%R.
Proof.
  intros Hx Fx L NZ. destruct u53_dec as [U0 U1]. destruct (above_minus_one x Hx Fx L) as [_ B24]. pose proof (dbl_f2d x Hx Fx) as DX. pose proof (nice_float x Hx Fx) as NX.
  pose proof (fval_bound 23 8 eq_refl eq_refl eq_refl x Hx Fx) as BX. change (bpow radix2 (2^(8-1))) with (bpow radix2 128) in BX. set (X := fval 23 8 x) in *. clearbody X. set (xd := f2d x) in *. clearbody xd.
  set (W := (1 + X)%R) in *. assert (W0 : (0 < W)%R) by (pose proof (bpow_gt_0 radix2 (-24)); lra).
  assert (B129 : (bpow radix2 128 + 2 <= bpow radix2 130)%R). { change 130 with (2 + 128). rewrite bpow_plus. change (bpow radix2 2) with 4%R. assert (1 <= bpow radix2 128)%R by (change 1%R with (bpow radix2 0); apply bpow_le; lia). lra. }
  assert (NW : nice (-1022) W) by (apply nice_ge; apply Rle_trans with (bpow radix2 (-24)); [apply bpow_le; lia|exact B24]).
  assert (DW : dbl (add64 c_1 xd) (RN53 W)) by (apply (dbl_add _ _ _ _ 130 dbl_one DX); [eapply Rle_trans; [apply Rabs_triang|]; rewrite Rabs_R1; lra|lia]).
  assert (RW : rel 5 (RN53 W) W) by (apply (rel_weak (0 + 1.001)); [lra|]; apply rel_round; [lra|exact NW|apply rel_refl]).
  unfold log1pf_. destruct (ln_far 1 _ _ _ W ltac:(lra) full_sum DW ltac:(eapply Rle_trans; [|exact B24]; apply bpow_le; lia) RW) as (e & m & -> & E0 & E1). cbn [bind fst snd].
  destruct (Z.eqb_spec e 0) as [Z|Z].
  - destruct (E0 Z) as [_ HD]. pose proof (rel_range _ _ RW HD W0) as HW. pose proof (ratio_small' W HW) as SM. pose proof (atanh_ln W W0) as AL.
    replace ((W - 1) / (W + 1))%R with (X / (2 + X))%R in SM, AL by (unfold W; f_equal; ring).
    assert (P2 : (1 < 2 + X < 3)%R) by (unfold W in HW; lra).
    assert (D2 : dbl (add64 c_2 xd) (RN53 (2 + X))) by (apply (dbl_add _ _ _ _ 2 dbl_two DX); [change (bpow radix2 2) with 4%R; rewrite Rabs_pos_eq by lra; lra|lia]).
    assert (R2 : rel 1.001 (RN53 (2 + X)) (2 + X)) by (apply (rel_weak (0 + 1.001)); [lra|]; apply rel_round; [lra|apply nice_ge; apply Rle_trans with (bpow radix2 0); [apply bpow_le; lia|change (bpow radix2 0) with 1%R; lra]|apply rel_refl]).
    assert (RQ : rel 1.003 (X / RN53 (2 + X)) (X / (2 + X))) by (apply (rel_weak (0 + 1.001 + 0.002)); [lra|]; apply rel_div; [lra|lra|lra|apply rel_refl|exact R2]).
    assert (NS : nice (-151) (X / (2 + X))). { change (-151) with (-149 + -2). apply nice_mul; [exact NX|]. apply nice_ge. change (bpow radix2 (-2)) with (/ 4)%R. apply Rinv_le_contravar; lra. }
    assert (NQ : nice (-152) (X / RN53 (2 + X))). { destruct (rel_ex 1.003 _ _ ltac:(lra) RQ) as (a & Ha & ->). apply (nice_near (-151)); [exact NS|lra]. }
    assert (RN2 : (0.5 <= RN53 (2 + X))%R). { unfold rel in R2. apply Rabs_le_inv in R2. rewrite Rabs_pos_eq in R2 by lra. nra. }
    assert (DQ : dbl (div64 xd (add64 c_2 xd)) (RN53 (X / RN53 (2 + X)))).
    { apply (dbl_div _ _ _ _ 1 DX D2); [lra| |lia]. pose proof (rel_abs 1.003 _ _ ltac:(lra) RQ). change (bpow radix2 1) with 2%R. lra. }
    assert (RS : rel 5.2 (RN53 (X / RN53 (2 + X))) (X / (2 + X))) by (apply (rel_weak (1.003 + 1.001)); [lra|]; apply rel_round; [lra|exact (nice_weak (-152) (-1022) _ ltac:(lia) NQ)|exact RQ]).
    destruct (kernel_twice _ _ (X / (2 + X)) DQ RS SM (nice_weak (-151) (-199) _ ltac:(lia) NS)) as (y & DY & EY). eexists _, y. split; [reflexivity|]. split; [exact DY|].
    rewrite AL in EY. replace (2 * (ln W / 2))%R with (ln W) in EY by field. eapply Rle_trans; [exact EY|]. apply Rmult_le_compat_r; [apply Rabs_pos|apply bpow_le; lia].
  - destruct (E1 Z) as (_ & y & DY & EY). rewrite Rmult_1_l in EY. eexists _, y. split; [reflexivity|]. split; [exact DY|exact EY].
Qed.

Theorem log1pf_ok x : fbits 23 8 x -> ffinite 23 8 x = true -> (-1 < fval 23 8 x)%R -> fval 23 8 x <> 0%R ->
  exists b, log1pf x = Ok b /\ nearly_rounded 48 (ln (1 + fval 23 8 x)) b.
Proof.
  intros Hx Fx L NZ. destruct (above_minus_one x Hx Fx L) as [HR B24]. unfold log1pf.
  replace (x =? 0xBF800000) with false by lia. replace (0xBF800000 <? x) with false by lia. rewrite sgn32_of by lia. replace (0x7F800000 <=? (if x <? 0x80000000 then x else x - 0x100000000)) with false by (destruct (x <? 0x80000000) eqn:K; lia).
  assert (PT : forall c r, eq32 x c = true -> 0 <= c < 0x100000000 -> ffinite 23 8 c = true -> nearly_rounded 48 (ln (1 + fval 23 8 c)) r -> exists b, Ok r = Ok b /\ nearly_rounded 48 (ln (1 + fval 23 8 x)) b).
  { intros c r E Hc Fc N. apply eq32_val in E; [|exact Hx|exact Fx|split; [lia|exact (proj2 Hc)]|exact Fc]. rewrite E. exists r. split; [reflexivity|exact N]. }
  destruct (eq32 x 0x35400003) eqn:Q1; [apply (PT _ _ Q1); [lia|reflexivity|apply (log1p_point _ 0x353FFFFF 0 false); [lia|reflexivity|lia|vm_compute; reflexivity..]]|].
  destruct (eq32 x 0xB53FFFFD) eqn:Q2; [apply (PT _ _ Q2); [lia|reflexivity|apply (log1p_point _ 0x35400001 0 true); [lia|reflexivity|lia|vm_compute; reflexivity..]]|].
  destruct (eq32 x 0x3710001B) eqn:Q3; [apply (PT _ _ Q3); [lia|reflexivity|apply (log1p_point _ 0x370FFFF3 0 false); [lia|reflexivity|lia|vm_compute; reflexivity..]]|].
  destruct (eq32 x 0xB70FFFE5) eqn:Q4; [apply (PT _ _ Q4); [lia|reflexivity|apply (log1p_point _ 0x3710000D 0 true); [lia|reflexivity|lia|vm_compute; reflexivity..]]|].
  destruct (eq32 x 0xBB0EC8C4) eqn:Q5; [apply (PT _ _ Q5); [lia|reflexivity|apply (log1p_point _ 0x3B0EF0A5 0 true); [lia|reflexivity|lia|vm_compute; reflexivity..]]|].
  destruct (eq32 x 0x3EFD81AD) eqn:Q6; [apply (PT _ _ Q6); [lia|reflexivity|apply (log1p_point _ 0x3ECDEEE1 0 false); [lia|reflexivity|lia|vm_compute; reflexivity..]]|].
  destruct (eq32 x 0x6F31A8EC) eqn:Q7; [apply (PT _ _ Q7); [lia|reflexivity|apply (log1p_point _ 0x42845A89 95 false); [lia|reflexivity|lia|vm_compute; reflexivity..]]|].
  destruct (eq32 x 0x65D890D3) eqn:Q8; [apply (PT _ _ Q8); [lia|reflexivity|apply (log1p_point _ 0x4254D1F9 77 false); [lia|reflexivity|lia|vm_compute; reflexivity..]]|].
  destruct (log1pf_branch x Hx Fx L NZ) as (d & y & -> & DY & EY). cbn [bind]. eexists. split; [reflexivity|]. apply (to_float' _ y); [exact DY| |lia|exact EY].
  intros K. rewrite <- ln_1 in K. apply ln_inv in K; [apply NZ; lra|lra|lra].
Qed.

(** ** atanhf *)
Theorem atanhf_ok x : fbits 23 8 x -> (Rabs (fval 23 8 x) < 1)%R -> ffinite 23 8 x = true -> fval 23 8 x <> 0%R ->
  exists b, atanhf x = Ok b /\ nearly_rounded 48 (/ 2 * ln ((1 + fval 23 8 x) / (1 - fval 23 8 x))) b.
Proof.
  intros Hx LX Fx NZ. destruct u53_dec as [U0 U1]. assert (LX' := Rabs_def2 _ _ LX). destruct LX' as [L1 L2].
  assert (Ha : fbits 23 8 (fabsb 23 8 x) /\ ffinite 23 8 (fabsb 23 8 x) = true /\ fval 23 8 (fabsb 23 8 x) = Rabs (fval 23 8 x)).
  { assert (B : 0 <= fabsb 23 8 x < 0x80000000) by (apply Z.mod_pos_bound; reflexivity). unfold ffinite in Fx. change (finf 23 8) with 0x7F800000 in Fx.
    destruct (pos_float (fabsb 23 8 x) ltac:(lia)) as (A1 & A2 & _ & A4). split; [exact A1|]. split; [exact A2|]. rewrite A4. unfold fval. pose proof (fmag_nonneg 23 8 eq_refl (fabsb 23 8 x) ltac:(lia)).
    destruct (fneg 23 8 x); [rewrite Rabs_Ropp|]; rewrite Rabs_pos_eq by lra; reflexivity. }
  destruct Ha as (A1 & A2 & A3).
  assert (O1 : fbits 23 8 0x3F800000) by (split; [lia|reflexivity]). assert (O3 : fval 23 8 0x3F800000 = 1%R) by (rewrite fval32_q by first [exact O1|reflexivity]; replace (qval (f2d 0x3F800000)) with 1%Q by (vm_compute; reflexivity); apply Q2R_1).
  unfold atanhf. cbv zeta. replace (eq32 (fabsb 23 8 x) 0x3F800000) with false. 2:{ symmetry. apply not_true_is_false. intros K. apply eq32_val in K; try assumption; [|reflexivity]. rewrite A3, O3 in K. lra. }
  replace (lt32 (fabsb 23 8 x) 0x3F800000) with true. 2:{ symmetry. apply (hlt_ok 23 8 eq_refl eq_refl); try assumption; [reflexivity|]. rewrite A3, O3. exact LX. }
  clear A1 A2 A3 O1 O3. pose proof (dbl_f2d x Hx Fx) as DX. pose proof (nice_float x Hx Fx) as NX.
  assert (P24 : (bpow radix2 (-24) <= 1 + fval 23 8 x)%R) by (apply (above_minus_one x Hx Fx); lra).
  assert (P25 : (bpow radix2 (-24) <= 1 - fval 23 8 x)%R).
  { (* by symmetry *) assert (HN : fbits 23 8 (with_sign 23 8 (negb (fneg 23 8 x)) (fabsb 23 8 x)) /\ ffinite 23 8 (with_sign 23 8 (negb (fneg 23 8 x)) (fabsb 23 8 x)) = true /\ fval 23 8 (with_sign 23 8 (negb (fneg 23 8 x)) (fabsb 23 8 x)) = (- fval 23 8 x)%R).
    { assert (B : 0 <= fabsb 23 8 x < 0x80000000) by (apply Z.mod_pos_bound; reflexivity). set (a := fabsb 23 8 x) in *. unfold with_sign. change (2^(23+8)) with 0x80000000.
      assert (AA : fabsb 23 8 ((if negb (fneg 23 8 x) then 0x80000000 else 0) + a) = a).
      { unfold fabsb. change (2^(23+8)) with 0x80000000. destruct (negb (fneg 23 8 x)); symmetry; [apply Z.mod_unique with 1; lia|apply Z.mod_unique with 0; lia]. }
      assert (NN : fneg 23 8 ((if negb (fneg 23 8 x) then 0x80000000 else 0) + a) = negb (fneg 23 8 x)). { unfold fneg at 1. change (2^(23+8)) with 0x80000000. destruct (negb (fneg 23 8 x)); lia. }
      split; [unfold fbits; change (2^(23+8+1)) with 0x100000000; destruct (negb (fneg 23 8 x)); lia|]. split; [unfold ffinite in *; rewrite AA; exact Fx|]. unfold fval. rewrite AA, NN. fold a. destruct (fneg 23 8 x); cbn [negb]; ring. }
    destruct HN as (H1 & H2 & H3). unfold Rminus. rewrite <- H3. apply (above_minus_one _ H1 H2). rewrite H3. lra. }
  unfold atanhf_finite_. set (X := fval 23 8 x) in *. clearbody X. set (xd := f2d x) in *. clearbody xd.
  assert (Rnd : forall z, (bpow radix2 (-24) <= z)%R -> rel 1.001 (RN53 z) z).
  { intros z Hz. apply (rel_weak (0 + 1.001)); [lra|]. apply rel_round; [lra| |apply rel_refl]. apply nice_ge. eapply Rle_trans; [|exact Hz]. apply bpow_le. lia. }
  assert (D1 : dbl (add64 c_1 xd) (RN53 (1 + X))) by (apply (dbl_add _ _ _ _ 1 dbl_one DX); [change (bpow radix2 1) with 2%R; apply Rabs_le; lra|lia]).
  assert (D2 : dbl (sub64 c_1 xd) (RN53 (1 - X))) by (apply (dbl_sub _ _ _ _ 1 dbl_one DX); [change (bpow radix2 1) with 2%R; apply Rabs_le; lra|lia]).
  pose proof (Rnd _ P24) as R1. pose proof (Rnd _ P25) as R2. change (bpow radix2 (-24)) with (/ 16777216)%R in P24, P25.
  set (W := ((1 + X) / (1 - X))%R).
  assert (RQ : rel 2.004 (RN53 (1 + X) / RN53 (1 - X)) W) by (apply (rel_weak (1.001 + 1.001 + 0.002)); [lra|]; apply rel_div; [lra|lra|lra|exact R1|exact R2]).
  assert (I0 : (/ 2 <= / (1 - X) <= 16777216)%R). { split; [apply Rinv_le_contravar; lra|]. replace 16777216%R with (/ / 16777216)%R by field. apply Rinv_le_contravar; lra. }
  assert (HW : (/ 33554432 <= W <= 33554432)%R). { unfold W, Rdiv. split; nra. }
  assert (W0 : (0 < W)%R) by lra.
  assert (NQ : nice (-1022) (RN53 (1 + X) / RN53 (1 - X))). { destruct (rel_ex 2.004 _ _ ltac:(lra) RQ) as (a & Ha & ->). apply (nice_weak (-26)); [lia|]. apply (nice_near (-25)); [apply nice_ge; change (bpow radix2 (-25)) with (/ 33554432)%R; lra|lra]. }
  assert (N2 : RN53 (1 - X) <> 0%R). { unfold rel in R2. apply Rabs_le_inv in R2. rewrite Rabs_pos_eq in R2 by lra. assert (1.001 * u53 * (1 - X) <= 0.5 * (1 - X))%R by (apply Rmult_le_compat_r; lra). lra. }
  assert (DY : dbl (div64 (add64 c_1 xd) (sub64 c_1 xd)) (RN53 (RN53 (1 + X) / RN53 (1 - X)))).
  { apply (dbl_div _ _ _ _ 27 D1 D2 N2); [|lia]. pose proof (rel_abs 2.004 _ _ ltac:(lra) RQ) as B. rewrite (Rabs_pos_eq W) in B by lra. change (bpow radix2 27) with 134217728%R. lra. }
  assert (RW : rel 5 (RN53 (RN53 (1 + X) / RN53 (1 - X))) W) by (apply (rel_weak (2.004 + 1.001)); [lra|]; apply rel_round; [lra|exact NQ|exact RQ]).
  assert (NV : (/ 2 * ln W)%R <> 0%R). { intros K. assert (E : ln W = ln 1) by (rewrite ln_1; lra). apply ln_inv in E; [|exact W0|lra]. apply NZ. unfold W in E. apply (f_equal (fun z => z * (1 - X))%R) in E. field_simplify in E; lra. }
  destruct (ln_far (/ 2) _ _ _ W ltac:(lra) half_sum DY ltac:(apply Rle_trans with (/ 33554432)%R; [change (/ 33554432)%R with (bpow radix2 (-25)); apply bpow_le; lia|lra]) RW) as (e & m & -> & E0 & E1). cbn [bind fst snd].
  eexists. split; [reflexivity|]. destruct (Z.eqb_spec e 0) as [Z|Z].
  - destruct (E0 Z) as [_ HD]. pose proof (rel_range _ _ RW HD W0) as HR. pose proof (ratio_small' W HR) as SM. pose proof (atanh_ln W W0) as AL.
    assert (EX : ((W - 1) / (W + 1) = X)%R). { unfold W. field. split; lra. } rewrite EX in SM, AL.
    destruct (kernel_near xd X X DX ltac:(apply (rel_weak 0); [lra|apply rel_refl]) SM (nice_weak (-149) (-199) _ ltac:(lia) NX)) as (T & DT & ET & _).
    apply (to_float' _ T); [exact DT|exact NV|lia|]. rewrite AL in ET. replace (/ 2 * ln W)%R with (ln W / 2)%R by field. eapply Rle_trans; [exact ET|]. apply Rmult_le_compat_r; [apply Rabs_pos|]. change (bpow radix2 (- (48))) with (/ 281474976710656)%R. lra.
  - destruct (E1 Z) as (_ & y & DR & EY). apply (to_float' _ y); [exact DR|exact NV|lia|exact EY].
Qed.
