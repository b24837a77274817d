(** Accuracy of asinhf and acoshf. *)
From Coq Require Import Reals Lra Lia Psatz QArith Qreals Qabs List.
From Flocq Require Import Core BinarySingleNaN Relative Sterbenz Mult_error.
From Coquelicot Require Import Coquelicot.
From Verif Require Import Base FP FP_Proof HW HW_Proof Tf_Narrow_Proof Midpoint Fmaf_Proof Math_Model Math_Basic_Proof Math_Round_Proof Math_Int_Proof Math_Lconv_Proof Hypotf_Model Hypotf_Real Hypotf_Proof Approx Subdiv Ferr Elem_Spec Elem_Proof Elem_Num Expf_Model Expf_Proof Logf_Model Logf_Kernel Logf_Proof Loginv_Proof Loginv2_Proof.
Import ListNotations.
Open Scope Z_scope.
Local Ltac Zify.zify_post_hook ::= idtac.

Lemma RN53_lb a x : F53 a -> (a <= x)%R -> (a <= RN53 x)%R.
Proof. intros F H. rewrite <- (RN53_id a F). apply RN53_le. exact H. Qed.
Lemma RN53_ub a x : F53 a -> (x <= a)%R -> (RN53 x <= a)%R.
Proof. intros F H. rewrite <- (RN53_id a F). apply RN53_le. exact H. Qed.
Lemma F53_bpow e : -1074 <= e -> F53 (bpow radix2 e).
Proof. intros H. replace (bpow radix2 e) with (IZR 1 * bpow radix2 e)%R by ring. apply F53_mult; lia. Qed.
Lemma dbl_sqrt a x : dbl a x -> (0 < x)%R -> (x <= bpow radix2 600)%R -> dbl (sqrt64 a) (RN53 (sqrt x)).
Proof.
  intros (A & B & C & _) P L. assert (N : fneg 52 11 a = false) by (rewrite (fneg_sign a x A C) by lra; apply Rlt_bool_false; lra).
  pose proof (sqrt64_ok a A B N) as R. rewrite C in R. apply (dbl_rounds _ _ _ 300 R); [|lia]. rewrite Rabs_pos_eq by apply sqrt_pos. rewrite <- (sqrt_square (bpow radix2 300)) by apply bpow_ge_0. apply sqrt_le_1_alt. rewrite <- bpow_plus. exact L.
Qed.
(** attaching a sign to a positive result *)
Lemma nearly_copysign k v b x : (0 < v)%R -> nearly_rounded k v b -> nearly_rounded k (if fneg 23 8 x then - v else v) (copysign 23 8 b x).
Proof.
  intros P (r & A & R). rewrite Rlt_bool_false in R by lra. assert (HB := R). destruct HB as (B1 & B2 & _). unfold fneg in B2. change (2^(23+8)) with 0x80000000 in B2. unfold fbits in B1. change (2^(23+8+1)) with 0x100000000 in B1.
  assert (AB : fabsb 23 8 b = b) by (apply Z.mod_small; change (2^(23+8)) with 0x80000000; lia). unfold copysign, with_sign. rewrite AB. destruct (fneg 23 8 x).
  - exists (- r)%R. replace (- r - - v)%R with (- (r - v))%R by ring. rewrite !Rabs_Ropp. split; [exact A|]. rewrite Rlt_bool_true by lra. rewrite Z.add_comm. change (2^(23+8)) with 0x80000000. apply rounds_neg; [lia|exact R].
  - exists r. split; [exact A|]. rewrite Rlt_bool_false by lra. exact R.
Qed.
(** a large argument: the value is close to ln q *)
Lemma big_point q w n e W : 1 <= n < 0x7F7FFFFF -> lnq_fits q e = true -> chkp n (lnq q e) (lerr e + w) = true -> Qle_bool 10 q = true -> Qle_bool w (1 # 100) = true ->
  (Rabs (W - Q2R q) <= Q2R w)%R -> nearly_rounded 48 (ln W) n.
Proof.
  intros Hn C1 C2 C3 C4 HW. destruct (lnq_lerr _ _ C1) as [P1 P2]. apply Q2R_le in C3, C4. replace (Q2R 10) with 10%R in C3 by (unfold Q2R; cbn [Qnum Qden]; lra). replace (Q2R (1 # 100)) with 0.01%R in C4 by (unfold Q2R; cbn [Qnum Qden]; lra).
  rename q into qq. set (q := Q2R qq) in *. set (y := Q2R w) in *. assert (HW' := Rabs_le_inv _ _ HW).
  assert (W1 : (1 < W)%R) by lra. assert (V0 : (0 < ln W)%R) by (rewrite <- ln_1; apply ln_increasing; lra).
  apply (nearly_exact 48 _ false); [lra|rewrite Rlt_bool_false by lra; reflexivity|]. apply (chkp_ok _ _ _ _ Hn C2). rewrite Q2R_plus. fold y.
  replace (Q2R (lnq qq e) - ln W)%R with ((Q2R (lnq qq e) - ln q) + (ln q - ln W))%R by ring.
  eapply Rle_trans; [apply Rabs_triang|]. apply Rplus_le_compat; [exact P2|].
  assert (EW : W = (q * (1 + (W - q) / q))%R) by (field; lra). set (d := ((W - q) / q)%R) in *.
  assert (HD : (Rabs d <= y * / 2)%R). { unfold d, Rdiv. rewrite Rabs_mult. assert (I : (0 < / q <= / 2)%R) by (split; [apply Rinv_0_lt_compat; lra|apply Rinv_le_contravar; lra]). rewrite (Rabs_pos_eq (/ q)) by lra. apply Rmult_le_compat; [apply Rabs_pos|lra|exact HW|lra]. }
  assert (HD' := Rabs_le_inv _ _ HD). clearbody d.
  rewrite EW, (ln_mult q (1 + d)) by lra. replace (ln q - (ln q + ln (1 + d)))%R with (- ln (1 + d))%R by ring. rewrite Rabs_Ropp.
  pose proof (exp_lower (ln (1 + d))) as A. rewrite exp_ln in A by lra. pose proof (exp_lower (- ln (1 + d))) as B. rewrite exp_Ropp, exp_ln in B by lra.
  assert (I1 : (- ln (1 + d) <= / (1 + d) - 1)%R) by lra. replace (/ (1 + d) - 1)%R with (- d * / (1 + d))%R in I1 by (field; lra).
  assert (I2 : (0 < / (1 + d) <= 2)%R). { split; [apply Rinv_0_lt_compat; lra|]. replace 2%R with (/ (/ 2))%R by field. apply Rinv_le_contravar; lra. }
  set (z := (/ (1 + d))%R) in *. apply Rabs_le. split; nra.
Qed.

(** ** asinhf *)
Lemma asinh_W S : (0 <= S)%R -> (S < sqrt (S * S + 1) /\ 1 <= sqrt (S * S + 1) <= 1 + S /\ sqrt (S * S + 1) * sqrt (S * S + 1) = S * S + 1)%R.
Proof.
  intros P. assert (E : (sqrt (S * S + 1) * sqrt (S * S + 1) = S * S + 1)%R) by (apply sqrt_sqrt; nra). pose proof (sqrt_pos (S * S + 1)). set (c := sqrt (S * S + 1)) in *. clearbody c. repeat split; nra.
Qed.
Lemma asinh_branch s : 0 < s < 0x7F800000 ->
  exists d y, asinhf_finite_ (f2d s) = Ok d /\ dbl d y /\ let v := ln (fmag 23 8 s + sqrt (fmag 23 8 s * fmag 23 8 s + 1)) in (Rabs (y - v) <= bpow radix2 (- (48)) * Rabs v)%R.
Proof.
  intros Hs. destruct u53_dec as [U0 U1]. destruct (pos_float s ltac:(lia)) as (Hx & Fx & _ & EV). pose proof (dbl_f2d s Hx Fx) as DS. pose proof (nice_float s Hx Fx) as NS.
  pose proof (fval_bound 23 8 eq_refl eq_refl eq_refl s Hx Fx) as BX. change (bpow radix2 (2^(8-1))) with (bpow radix2 128) in BX. rewrite EV in *.
  assert (S0 : (0 < fmag 23 8 s)%R) by (rewrite <- (fmag_0 23 8 eq_refl); apply (fmag_lt 23 8 eq_refl); lia).
  set (S := fmag 23 8 s) in *. clearbody S. set (sd := f2d s) in *. clearbody sd. clear EV Hx Fx. rewrite Rabs_pos_eq in BX by lra.
  destruct (asinh_W S ltac:(lra)) as (L1 & L2 & L3). set (C := sqrt (S * S + 1)) in *.
  assert (B256 : (S * S <= bpow radix2 256)%R) by (change 256 with (128 + 128); rewrite bpow_plus; apply Rmult_le_compat; lra).
  assert (B128 : (1 <= bpow radix2 128)%R) by (change 1%R with (bpow radix2 0); apply bpow_le; lia).
  assert (N2 : nice (-298) (S * S)) by (change (-298) with (-149 + -149); apply nice_mul; exact NS).
  assert (D1 : dbl (mul64 sd sd) (RN53 (S * S))) by (apply (dbl_mul _ _ _ _ 256 DS DS); [rewrite Rabs_pos_eq by nra; exact B256|lia]).
  assert (R1 : rel 1.001 (RN53 (S * S)) (S * S)) by (apply (rel_weak (0 + 1.001)); [lra|]; apply rel_round; [lra|exact (nice_weak (-298) (-1022) _ ltac:(lia) N2)|apply rel_refl]).
  assert (P1 : (0 <= RN53 (S * S))%R) by (apply (RN53_lb 0); [exact (dbl_fin _ _ dbl_0)|nra]).
  assert (R2 : rel 1.001 (RN53 (S * S) + 1) (S * S + 1)) by (apply rel_add; [nra|lra|exact R1|apply (rel_weak 0); [lra|apply rel_refl]]).
  assert (Q2 : (RN53 (S * S) + 1 <= bpow radix2 300)%R).
  { pose proof (rel_abs 1.001 _ _ ltac:(lra) R2) as T. rewrite (Rabs_pos_eq (S * S + 1)), Rabs_pos_eq in T by nra. change 300 with (44 + 256). rewrite bpow_plus. change (bpow radix2 44) with 17592186044416%R. assert (1 <= bpow radix2 256)%R by (change 1%R with (bpow radix2 0); apply bpow_le; lia). lra. }
  assert (D2 : dbl (add64 (mul64 sd sd) c_1) (RN53 (RN53 (S * S) + 1))) by (apply (dbl_add _ _ _ _ 300 D1 dbl_one); [rewrite Rabs_pos_eq by lra; exact Q2|lia]).
  assert (B0 : (bpow radix2 (-1022) <= 1)%R) by (change 1%R with (bpow radix2 0); apply bpow_le; lia).
  assert (R3 : rel 2.002 (RN53 (RN53 (S * S) + 1)) (S * S + 1)) by (apply (rel_weak (1.001 + 1.001)); [lra|]; apply rel_round; [lra|apply nice_ge; lra|exact R2]).
  assert (P3 : (1 <= RN53 (RN53 (S * S) + 1) <= bpow radix2 300)%R).
  { split; [apply (RN53_lb 1); [exact (dbl_fin _ _ dbl_one)|lra]|]. apply (RN53_ub (bpow radix2 300)); [apply F53_bpow; lia|exact Q2]. }
  unfold asinhf_finite_. cbv zeta. set (t := RN53 (RN53 (S * S) + 1)) in *. set (td := add64 (mul64 sd sd) c_1) in *. clearbody t td.
  assert (D4 : dbl (sqrt64 td) (RN53 (sqrt t))) by (apply dbl_sqrt; [exact D2|lra|eapply Rle_trans; [exact (proj2 P3)|apply bpow_le; lia]]).
  assert (ST : (1 <= sqrt t)%R) by (rewrite <- sqrt_1; apply sqrt_le_1_alt; lra).
  assert (R4 : rel 2.0041 (RN53 (sqrt t)) C) by (apply (rel_weak (0.501 * 2.002 + 1.001)); [lra|]; apply rel_round; [lra|apply nice_ge; lra|apply rel_sqrt; [lra|nra|exact R3]]).
  assert (P4 : (1 <= RN53 (sqrt t))%R) by (apply (RN53_lb 1); [exact (dbl_fin _ _ dbl_one)|lra]).
  assert (Q4 : (RN53 (sqrt t) <= 2 * C)%R) by (pose proof (rel_abs 2.0041 _ _ ltac:(lra) R4) as T; rewrite !Rabs_pos_eq in T by lra; exact T).
  set (c := RN53 (sqrt t)) in *. set (cd := sqrt64 td) in *. clearbody c cd.
  assert (B130 : (2 * C + S <= bpow radix2 200)%R). { change 200 with (72 + 128). rewrite bpow_plus. change (bpow radix2 72) with 4722366482869645213696%R. nra. }
  assert (D5 : dbl (add64 cd sd) (RN53 (c + S))) by (apply (dbl_add _ _ _ _ 200 D4 DS); [rewrite Rabs_pos_eq by lra; lra|lia]).
  assert (R5' : rel 2.0041 (c + S) (C + S)) by (apply rel_add; [lra|lra|exact R4|apply (rel_weak 0); [lra|apply rel_refl]]).
  assert (R5 : rel 5 (RN53 (c + S)) (C + S)) by (apply (rel_weak (2.0041 + 1.001)); [lra|]; apply rel_round; [lra|apply nice_ge; lra|exact R5']).
  assert (B90 : (bpow radix2 (-90) <= C + S)%R) by (apply Rle_trans with (bpow radix2 0); [apply bpow_le; lia|change (bpow radix2 0) with 1%R; lra]).
  rewrite (Rplus_comm S C). destruct (ln_far 1 _ _ _ (C + S) ltac:(lra) full_sum D5 B90 R5) as (e & m & -> & E0 & E1). cbn [bind fst snd].
  destruct (Z.eqb_spec e 0) as [Z|Z].
  - destruct (E0 Z) as [_ HD]. pose proof (rel_range _ _ R5 HD ltac:(lra)) as HW. pose proof (ratio_small' _ HW) as SM. pose proof (atanh_ln (C + S) ltac:(lra)) as AL.
    assert (EQ : ((C + S - 1) / (C + S + 1) = S / (C + 1))%R). { apply (Rmult_eq_reg_r ((C + S + 1) * (C + 1))); [|nra]. field_simplify; [|lra|lra]. nra. }
    rewrite EQ in SM, AL.
    assert (R6' : rel 2.0041 (c + 1) (C + 1)) by (apply rel_add; [lra|lra|exact R4|apply (rel_weak 0); [lra|apply rel_refl]]).
    assert (R6 : rel 3.0052 (RN53 (c + 1)) (C + 1)) by (apply (rel_weak (2.0041 + 1.001)); [lra|]; apply rel_round; [lra|apply nice_ge; lra|exact R6']).
    assert (D6 : dbl (add64 cd c_1) (RN53 (c + 1))) by (apply (dbl_add _ _ _ _ 10 D4 dbl_one); [change (bpow radix2 10) with 1024%R; rewrite Rabs_pos_eq by lra; lra|lia]).
    assert (P6 : (1 <= RN53 (c + 1))%R) by (apply (RN53_lb 1); [exact (dbl_fin _ _ dbl_one)|lra]).
    assert (RQ : rel 3.0073 (S / RN53 (c + 1)) (S / (C + 1))) by (apply (rel_weak (0 + 3.0052 + 0.002)); [lra|]; apply rel_div; [lra|lra|lra|apply rel_refl|exact R6]).
    assert (NSS : nice (-151) (S / (C + 1))). { change (-151) with (-149 + -2). apply nice_mul; [exact NS|]. apply nice_ge. change (bpow radix2 (-2)) with (/ 4)%R. apply Rinv_le_contravar; lra. }
    assert (NQ : nice (-152) (S / RN53 (c + 1))). { destruct (rel_ex 3.0073 _ _ ltac:(lra) RQ) as (a & Ha & ->). apply (nice_near (-151)); [exact NSS|lra]. }
    assert (DQ : dbl (div64 sd (add64 cd c_1)) (RN53 (S / RN53 (c + 1)))).
    { apply (dbl_div _ _ _ _ 1 DS D6); [lra| |lia]. pose proof (rel_abs 3.0073 _ _ ltac:(lra) RQ). change (bpow radix2 1) with 2%R. lra. }
    assert (RS : rel 5.2 (RN53 (S / RN53 (c + 1))) (S / (C + 1))) by (apply (rel_weak (3.0073 + 1.001)); [lra|]; apply rel_round; [lra|exact (nice_weak (-152) (-1022) _ ltac:(lia) NQ)|exact RQ]).
    destruct (kernel_twice _ _ (S / (C + 1)) DQ RS SM (nice_weak (-151) (-199) _ ltac:(lia) NSS)) as (y & DY & EY). eexists _, y. split; [reflexivity|]. split; [exact DY|].
    rewrite AL in EY. replace (2 * (ln (C + S) / 2))%R with (ln (C + S)) in EY by field. eapply Rle_trans; [exact EY|]. apply Rmult_le_compat_r; [apply Rabs_pos|apply bpow_le; lia].
  - destruct (E1 Z) as (_ & y & DY & EY). rewrite Rmult_1_l in EY. eexists _, y. split; [reflexivity|]. split; [exact DY|exact EY].
Qed.
Lemma asinh_wide s : (1 <= s)%R -> (Rabs (s + sqrt (s * s + 1) - (2 * s + / s / 2)) <= / s * / s * / s)%R.
Proof.
  intros P. destruct (asinh_W s ltac:(lra)) as (L1 & L2 & L3). set (c := sqrt (s * s + 1)) in *. assert (I : (s * / s = 1)%R) by (apply Rinv_r; lra). assert (J : (0 < / s)%R) by (apply Rinv_0_lt_compat; lra). set (w := (/ s)%R) in *. clearbody c w.
  assert (K : ((s + w / 2 - c) * (s + w / 2 + c) = w * w / 4)%R) by nra. assert (Q : (0 <= s + w / 2 - c)%R) by nra.
  replace (s + c - (2 * s + w / 2))%R with (- (s + w / 2 - c))%R by ring. rewrite Rabs_Ropp, Rabs_pos_eq by exact Q. set (z := (s + w / 2 - c)%R) in *.
  assert (T : (z * s <= w * w)%R) by nra. assert (T2 : (z * s * w <= w * w * w)%R) by (apply Rmult_le_compat_r; lra). replace (z * s * w)%R with (z * (s * w))%R in T2 by ring. rewrite I in T2. lra.
Qed.
Lemma asinh_point c n e : 0 < c < 0x7F800000 -> 1 <= n < 0x7F7FFFFF -> let k := qval (f2d c) in let q := Qred (2 * k + / k * (1 # 2)) in let w := Qred (/ k * / k * / k) in
  lnq_fits q e = true -> chkp n (lnq q e) (lerr e + w) = true -> Qle_bool 10 q = true -> Qle_bool w (1 # 100) = true -> Qle_bool 1 k = true -> nearly_rounded 48 (ln (fmag 23 8 c + sqrt (fmag 23 8 c * fmag 23 8 c + 1))) n.
Proof.
  intros Hc Hn k q w C1 C2 C3 C4 C5. apply (big_point q w n e _ Hn C1 C2 C3 C4). rewrite fmag32_q by lia. fold k. apply Q2R_le in C5. rewrite Q2R_1 in C5.
  assert (NZ : ~ (k == 0)%Q). { intros K. apply Qeq_eqR in K. rewrite Q2R_0 in K. lra. }
  assert (EQ : Q2R q = (2 * Q2R k + / Q2R k / 2)%R). { unfold q. rewrite (Qeq_eqR _ _ (Qred_correct _)), Q2R_plus, !Q2R_mult, Q2R_inv by exact NZ. unfold Q2R at 1 4. cbn [Qnum Qden]. lra. }
  assert (EW : Q2R w = (/ Q2R k * / Q2R k * / Q2R k)%R). { unfold w. rewrite (Qeq_eqR _ _ (Qred_correct _)), !Q2R_mult, Q2R_inv by exact NZ. reflexivity. }
  rewrite EQ, EW. exact (asinh_wide _ C5).
Qed.
Lemma asinh_pos s : 0 < s < 0x7F800000 ->
  exists b, (if eq32 s 0x4BDD65A5 then Ok 0x418F034B else if eq32 s 0x655890D3 then Ok 0x4254D1F9 else if eq32 s 0x6EB1A8EC then Ok 0x42845A89 else do y <- asinhf_finite_ (f2d s); Ok (d2f y)) = Ok b /\
    (0 < ln (fmag 23 8 s + sqrt (fmag 23 8 s * fmag 23 8 s + 1)))%R /\ nearly_rounded 48 (ln (fmag 23 8 s + sqrt (fmag 23 8 s * fmag 23 8 s + 1))) b.
Proof.
  intros Hs. assert (S0 : (0 < fmag 23 8 s)%R) by (rewrite <- (fmag_0 23 8 eq_refl); apply (fmag_lt 23 8 eq_refl); lia).
  destruct (asinh_W (fmag 23 8 s) ltac:(lra)) as (L1 & L2 & _).
  assert (V0 : (0 < ln (fmag 23 8 s + sqrt (fmag 23 8 s * fmag 23 8 s + 1)))%R) by (rewrite <- ln_1; apply ln_increasing; lra).
  destruct (eq32 s 0x4BDD65A5) eqn:Q1; [eexists; split; [reflexivity|]; split; [exact V0|]; apply eq32_pos in Q1; [|exact Hs|lia]; rewrite Q1; apply (asinh_point _ _ 26); [lia|lia|vm_compute; reflexivity..]|].
  destruct (eq32 s 0x655890D3) eqn:Q2; [eexists; split; [reflexivity|]; split; [exact V0|]; apply eq32_pos in Q2; [|exact Hs|lia]; rewrite Q2; apply (asinh_point _ _ 77); [lia|lia|vm_compute; reflexivity..]|].
  destruct (eq32 s 0x6EB1A8EC) eqn:Q3; [eexists; split; [reflexivity|]; split; [exact V0|]; apply eq32_pos in Q3; [|exact Hs|lia]; rewrite Q3; apply (asinh_point _ _ 95); [lia|lia|vm_compute; reflexivity..]|].
  destruct (asinh_branch s Hs) as (d & y & -> & DY & EY). cbn [bind]. eexists. split; [reflexivity|]. split; [exact V0|]. apply (to_float' _ y); [exact DY|lra|lia|exact EY].
Qed.
Lemma sub32_self x : fbits 23 8 x -> eq32 (sub32 x x) 0 = ffinite 23 8 x.
Proof.
  intros Hx. destruct (ffinite 23 8 x) eqn:F.
  - pose proof (hsub_ok 23 8 eq_refl eq_refl eq_refl x x Hx Hx F F) as (A & _ & C & _). rewrite Rminus_diag_eq in C by reflexivity. change (RN 23 8 0) with (RN24 0) in C. rewrite RN24_id, Rabs_R0 in C by apply generic_format_0. destruct (C (bpow_gt_0 _ _)) as [C1 C2].
    apply (heq_ok 23 8 eq_refl eq_refl); [exact A|split; [lia|reflexivity]|exact C1|reflexivity|]. fold sub32 in C2. change (hsub 23 8 eq_refl eq_refl eq_refl) with sub32 in C2. rewrite C2. unfold fval. change (fneg 23 8 0) with false. change (fabsb 23 8 0) with 0. symmetry. apply (fmag_0 23 8 eq_refl).
  - assert (E : sub32 x x = 0x7FC00000); [|rewrite E; reflexivity]. change 0x7FC00000 with (qnan 23 8). unfold sub32, hsub.
    destruct (fisinf 23 8 x) eqn:I; [rewrite (dec_inf 23 8 eq_refl eq_refl eq_refl x Hx I); destruct (fneg 23 8 x); reflexivity|].
    assert (N : fisnan 23 8 x = true) by (unfold fisnan, fisinf, ffinite in *; lia). rewrite (dec_nan 23 8 eq_refl eq_refl eq_refl x Hx N). reflexivity.
Qed.
Theorem asinhf_ok x : fbits 23 8 x -> ffinite 23 8 x = true -> fval 23 8 x <> 0%R ->
  exists b, asinhf x = Ok b /\ nearly_rounded 48 (arcsinh (fval 23 8 x)) b.
Proof.
  intros Hx Fx NZ. unfold asinhf. rewrite (sub32_self x Hx), Fx. cbn [negb]. cbv zeta.
  assert (AS : 0 < fabsb 23 8 x < 0x7F800000). { assert (B : 0 <= fabsb 23 8 x) by (apply Z.mod_pos_bound; reflexivity). unfold ffinite in Fx. change (finf 23 8) with 0x7F800000 in Fx.
    destruct (Z.eq_dec (fabsb 23 8 x) 0) as [K|K]; [|lia]. exfalso. apply NZ. unfold fval. rewrite K, (fmag_0 23 8 eq_refl). destruct (fneg 23 8 x); lra. }
  destruct (asinh_pos _ AS) as (b & E & V0 & N). exists (copysign 23 8 b x). split.
  - destruct (eq32 (fabsb 23 8 x) 0x4BDD65A5); [injection E as <-; reflexivity|]. destruct (eq32 (fabsb 23 8 x) 0x655890D3); [injection E as <-; reflexivity|]. destruct (eq32 (fabsb 23 8 x) 0x6EB1A8EC); [injection E as <-; reflexivity|].
    destruct (asinhf_finite_ (f2d (fabsb 23 8 x))); cbn [bind] in *; try discriminate. injection E as <-. reflexivity.
  - pose proof (nearly_copysign 48 _ b x V0 N) as R. replace (arcsinh (fval 23 8 x)) with (if fneg 23 8 x then (- ln (fmag 23 8 (fabsb 23 8 x) + sqrt (fmag 23 8 (fabsb 23 8 x) * fmag 23 8 (fabsb 23 8 x) + 1)))%R else ln (fmag 23 8 (fabsb 23 8 x) + sqrt (fmag 23 8 (fabsb 23 8 x) * fmag 23 8 (fabsb 23 8 x) + 1))); [exact R|].
    unfold fval. set (S := fmag 23 8 (fabsb 23 8 x)). unfold arcsinh. destruct (fneg 23 8 x).
    + replace ((- S) ^ 2 + 1)%R with (S * S + 1)%R by ring. assert (SP : (0 <= S)%R) by (apply (fmag_nonneg 23 8 eq_refl); lia). destruct (asinh_W S SP) as (L1 & L2 & L3). set (c := sqrt (S * S + 1)) in *.
      rewrite <- ln_Rinv by lra. f_equal. apply (Rmult_eq_reg_r (S + c)); [|lra]. rewrite Rinv_l by lra. ring_simplify. replace (c ^ 2)%R with (c * c)%R by ring. rewrite L3. ring.
    + f_equal. f_equal. f_equal. ring.
Qed.

(** ** acoshf *)
Lemma acosh_W X : (1 <= X)%R -> (0 <= sqrt (X * X - 1) < X /\ sqrt (X * X - 1) * sqrt (X * X - 1) = X * X - 1 /\ 2 * X - / X <= X + sqrt (X * X - 1) <= 2 * X + / X)%R.
Proof.
  intros P. assert (E : (sqrt (X * X - 1) * sqrt (X * X - 1) = X * X - 1)%R) by (apply sqrt_sqrt; nra). pose proof (sqrt_pos (X * X - 1)). set (c := sqrt (X * X - 1)) in *. clearbody c.
  assert (I : (X * / X = 1)%R) by (apply Rinv_r; lra). assert (J : (0 < / X <= 1)%R) by (split; [apply Rinv_0_lt_compat; lra|replace 1%R with (/ 1)%R by lra; apply Rinv_le_contravar; lra]). set (w := (/ X)%R) in *. clearbody w. 
  assert (CX : (c < X)%R) by nra. split; [lra|]. split; [exact E|]. split; [|lra]. assert ((X - c) * (X + c) = 1)%R by nra. assert (X - c <= w)%R; [|lra]. apply (Rmult_le_reg_r X); [lra|]. nra.
Qed.
Lemma ln_ge t : (1 <= t -> 1 - / t <= ln t)%R.
Proof. intros H. pose proof (exp_lower (- ln t)) as B. rewrite exp_Ropp, exp_ln in B by lra. lra. Qed.
Lemma acosh_branch x : 0x3F800000 < x < 0x7F800000 ->
  exists d y, acoshf_finite_ (f2d x) = Ok d /\ dbl d y /\ let v := ln (fmag 23 8 x + sqrt (fmag 23 8 x * fmag 23 8 x - 1)) in (0 < v /\ Rabs (y - v) <= bpow radix2 (- (40)) * Rabs v /\ (1.1 <= fmag 23 8 x -> Rabs (y - v) <= bpow radix2 (- (48)) * Rabs v))%R.
Proof.
  intros Hs. destruct u53_dec as [U0 U1]. destruct (pos_float x ltac:(lia)) as (Hx & Fx & _ & EV). pose proof (dbl_f2d x Hx Fx) as DS.
  pose proof (fval_bound 23 8 eq_refl eq_refl eq_refl x Hx Fx) as BX. change (bpow radix2 (2^(8-1))) with (bpow radix2 128) in BX. rewrite EV in *.
  assert (S0 : (8388609 / 8388608 <= fmag 23 8 x)%R).
  { apply Rle_trans with (fmag 23 8 0x3F800001); [|apply (fmag_le 23 8 eq_refl); lia]. rewrite fmag32_q by lia. replace (qval (f2d 0x3F800001)) with (8388609 # 8388608)%Q by (vm_compute; reflexivity). unfold Q2R. cbn [Qnum Qden]. lra. }
  assert (X2 : RN53 (fmag 23 8 x * fmag 23 8 x) = (fmag 23 8 x * fmag 23 8 x)%R).
  { apply RN53_id. rewrite <- EV. pose proof (fval_format 23 8 eq_refl eq_refl x Hx) as FF. apply F53_mul; exact FF. }
  set (S := fmag 23 8 x) in *. clearbody S. set (sd := f2d x) in *. clearbody sd. clear EV Hx Fx. rewrite Rabs_pos_eq in BX by lra.
  destruct (acosh_W S ltac:(lra)) as (L1 & L2 & L3). set (C := sqrt (S * S - 1)) in *.
  assert (B256 : (S * S <= bpow radix2 256)%R) by (change 256 with (128 + 128); rewrite bpow_plus; apply Rmult_le_compat; lra).
  assert (D1 : dbl (mul64 sd sd) (S * S)) by (rewrite <- X2; apply (dbl_mul _ _ _ _ 256 DS DS); [rewrite Rabs_pos_eq by nra; exact B256|lia]).
  assert (P2 : (/ 4194304 <= S * S - 1)%R) by nra.
  assert (D2 : dbl (sub64 (mul64 sd sd) c_1) (RN53 (S * S - 1))) by (apply (dbl_sub _ _ _ _ 256 D1 dbl_one); [rewrite Rabs_pos_eq by lra; lra|lia]).
  assert (B0 : (bpow radix2 (-1022) <= / 8388608)%R) by (change (/ 8388608)%R with (bpow radix2 (-23)); apply bpow_le; lia).
  assert (R3 : rel 1.001 (RN53 (S * S - 1)) (S * S - 1)) by (apply (rel_weak (0 + 1.001)); [lra|]; apply rel_round; [lra|apply nice_ge; lra|apply rel_refl]).
  assert (P3 : (/ 8388608 <= RN53 (S * S - 1) <= bpow radix2 300)%R).
  { split; [|apply (RN53_ub (bpow radix2 300)); [apply F53_bpow; lia|apply Rle_trans with (bpow radix2 256); [lra|apply bpow_le; lia]]].
    change (/ 8388608)%R with (bpow radix2 (-23)) in *. apply (RN53_lb (bpow radix2 (-23))); [apply F53_bpow; lia|]. change (bpow radix2 (-23)) with (/ 8388608)%R. lra. }
  unfold acoshf_finite_. cbv zeta. set (t := RN53 (S * S - 1)) in *. set (td := sub64 (mul64 sd sd) c_1) in *. clearbody t td.
  assert (D4 : dbl (sqrt64 td) (RN53 (sqrt t))) by (apply dbl_sqrt; [exact D2|lra|eapply Rle_trans; [exact (proj2 P3)|apply bpow_le; lia]]).
  assert (ST : (/ 8388608 <= sqrt t)%R) by (replace (/ 8388608)%R with (sqrt (/ 8388608 * / 8388608)) by (apply sqrt_square; lra); apply sqrt_le_1_alt; lra).
  assert (R4 : rel 1.51 (RN53 (sqrt t)) C) by (apply (rel_weak (0.501 * 1.001 + 1.001)); [lra|]; apply rel_round; [lra|apply nice_ge; lra|apply rel_sqrt; [lra|lra|exact R3]]).
  assert (P4 : (0 <= RN53 (sqrt t))%R) by (apply (RN53_lb 0); [exact (dbl_fin _ _ dbl_0)|lra]).
  assert (Q4 : (RN53 (sqrt t) <= 2 * C)%R) by (pose proof (rel_abs 1.51 _ _ ltac:(lra) R4) as T; rewrite !Rabs_pos_eq in T by lra; exact T).
  set (c := RN53 (sqrt t)) in *. set (cd := sqrt64 td) in *. clearbody c cd.
  assert (B130 : (2 * C + S <= bpow radix2 200)%R). { change 200 with (72 + 128). rewrite bpow_plus. change (bpow radix2 72) with 4722366482869645213696%R. nra. }
  assert (D5 : dbl (add64 sd cd) (RN53 (S + c))) by (apply (dbl_add _ _ _ _ 200 DS D4); [rewrite Rabs_pos_eq by lra; lra|lia]).
  assert (R5' : rel 1.51 (S + c) (S + C)) by (apply rel_add; [lra|lra|apply (rel_weak 0); [lra|apply rel_refl]|exact R4]).
  assert (R5 : rel 2.52 (RN53 (S + c)) (S + C)) by (apply (rel_weak (1.51 + 1.001)); [lra|]; apply rel_round; [lra|apply nice_ge; lra|exact R5']).
  assert (B90 : (bpow radix2 (-90) <= S + C)%R) by (apply Rle_trans with (bpow radix2 0); [apply bpow_le; lia|change (bpow radix2 0) with 1%R; lra]).
  assert (C0 : (/ 2048 <= C)%R) by (replace (/ 2048)%R with (sqrt (/ 2048 * / 2048)) by (apply sqrt_square; lra); apply sqrt_le_1_alt; lra).
  assert (V0 : (0.000488 <= ln (S + C))%R). { eapply Rle_trans; [|apply ln_ge; lra]. assert (/ (S + C) <= / (2049/2048))%R by (apply Rinv_le_contravar; lra). lra. }
  destruct (ln_far 1 _ _ _ (S + C) ltac:(lra) full_sum D5 B90 ltac:(apply (rel_weak 2.52); [lra|exact R5])) as (e & m & -> & E0 & E1). cbn [bind fst snd].
  destruct (Z.eq_dec e 0) as [Z|Z].
  - destruct (E0 Z) as [-> HD]. subst e. destruct (full_sum _ _ 0 D5 HD ltac:(lia)) as (y & DY & EY). rewrite Rmult_0_l, Rplus_0_r, Rmult_1_l in EY. eexists _, y. split; [reflexivity|]. split; [exact DY|]. cbv zeta. split; [lra|].
    destruct (rel_ex 2.52 _ _ ltac:(lra) R5) as (a & Ha & ED). assert (Ha' := Rabs_le_inv _ _ Ha). set (D := RN53 (S + c)) in *. clearbody D.
    assert (LE : (Rabs (ln D - ln (S + C)) <= 0.00000000000000029)%R).
    { rewrite ED, ln_mult by lra. replace (ln (S + C) + ln (1 + a) - ln (S + C))%R with (ln (1 + a)) by ring. eapply Rle_trans; [apply ln_1p; apply Rabs_le; lra|]. lra. }
    rewrite (Rabs_pos_eq (ln (S + C))) by lra.
    assert (T : (Rabs (y - ln (S + C)) <= bpow radix2 (- (49)) * (ln (S + C) + 0.00000000000000029) + 0.00000000000000029)%R).
    { replace (y - ln (S + C))%R with ((y - ln D) + (ln D - ln (S + C)))%R by ring. eapply Rle_trans; [apply Rabs_triang|]. apply Rplus_le_compat; [|exact LE]. eapply Rle_trans; [exact EY|]. apply Rmult_le_compat_l; [apply bpow_ge_0|].
      replace (ln D) with (ln (S + C) + (ln D - ln (S + C)))%R at 1 by ring. eapply Rle_trans; [apply Rabs_triang|]. rewrite (Rabs_pos_eq (ln (S + C))) by lra. lra. }
    change (bpow radix2 (- (49))) with (/ 562949953421312)%R in T. change (bpow radix2 (- (48))) with (/ 281474976710656)%R. change (bpow radix2 (- (40))) with (/ 1099511627776)%R. split; [lra|].
    intros K. assert (V1 : (0.25 <= ln (S + C))%R). { assert (C1 : (0.4 <= C)%R) by (rewrite <- (sqrt_square 0.4) by lra; apply sqrt_le_1_alt; nra). eapply Rle_trans; [|apply ln_ge; lra]. assert (/ (S + C) <= / 1.5)%R by (apply Rinv_le_contravar; lra). lra. }
    lra.
  - destruct (E1 Z) as (_ & y & DY & EY). rewrite Rmult_1_l in EY. eexists _, y. split; [reflexivity|]. split; [exact DY|]. cbv zeta. split; [lra|]. split; [|intros _; exact EY].
    eapply Rle_trans; [exact EY|]. apply Rmult_le_compat_r; [apply Rabs_pos|apply bpow_le; lia].
Qed.
Theorem acoshf_ok x : fbits 23 8 x -> ffinite 23 8 x = true -> (1 < fval 23 8 x)%R ->
  exists b, acoshf x = Ok b /\ nearly_rounded 40 (ln (fval 23 8 x + sqrt (fval 23 8 x * fval 23 8 x - 1))) b /\
    ((1.1 <= fval 23 8 x)%R -> nearly_rounded 48 (ln (fval 23 8 x + sqrt (fval 23 8 x * fval 23 8 x - 1))) b).
Proof.
  intros Hx Fx L. destruct (pos_pattern' x Hx Fx ltac:(lra)) as [PX ->]. rewrite (proj2 (pos_pattern' x Hx Fx ltac:(lra))) in L.
  assert (L3 : 0x3F800000 < x). { apply Z.nle_gt. intros K. assert (X : (fmag 23 8 x <= fmag 23 8 0x3F800000)%R) by (apply (fmag_le 23 8 eq_refl); lia). rewrite (fmag32_q 0x3F800000) in X by lia. replace (qval (f2d 0x3F800000)) with 1%Q in X by (vm_compute; reflexivity). rewrite Q2R_1 in X. lra. }
  unfold acoshf. cbv zeta. rewrite sgn32_of by lia. replace (x <? 0x80000000) with true by lia. replace (x <? 0x3F800000) with false by lia. replace (0x7F800000 <=? x) with false by lia.
  destruct (acosh_W (fmag 23 8 x) ltac:(lra)) as (_ & _ & WD).
  assert (PT : forall c n e, eq32 x c = true -> 0 < c < 0x7F800000 -> 1 <= n < 0x7F7FFFFF -> let k := qval (f2d c) in lnq_fits (2 * k) e = true ->
    chkp n (lnq (2 * k) e) (lerr e + Qred (/ k)) = true -> Qle_bool 10 (2 * k) = true -> Qle_bool (Qred (/ k)) (1 # 100) = true ->
    exists b, Ok n = Ok b /\ nearly_rounded 40 (ln (fmag 23 8 x + sqrt (fmag 23 8 x * fmag 23 8 x - 1))) b /\ ((1.1 <= fmag 23 8 x)%R -> nearly_rounded 48 (ln (fmag 23 8 x + sqrt (fmag 23 8 x * fmag 23 8 x - 1))) b)).
  { intros c n e E Hc Hn k C1 C2 C3 C4. apply eq32_pos in E; [|lia|exact Hc]. subst c. assert (KE : fmag 23 8 x = Q2R k) by (apply fmag32_q; lia).
    assert (N : nearly_rounded 48 (ln (fmag 23 8 x + sqrt (fmag 23 8 x * fmag 23 8 x - 1))) n).
    { apply (big_point _ _ n e _ Hn C1 C2 C3 C4). rewrite (Qeq_eqR _ _ (Qred_correct _)), Q2R_mult, Q2R_inv. 2:{ intros K. apply Qeq_eqR in K. rewrite Q2R_0 in K. lra. }
      rewrite <- KE. replace (Q2R 2) with 2%R by (unfold Q2R; cbn [Qnum Qden]; lra). apply Rabs_le. lra. }
    exists n. split; [reflexivity|]. split; [|intros _; exact N].
    destruct N as (r & A & B). exists r. split; [|exact B]. eapply Rle_trans; [exact A|]. apply Rmult_le_compat_r; [apply Rabs_pos|apply bpow_le; lia]. }
  destruct (eq32 x 0x655890D3) eqn:Q2; [apply (PT _ _ 77 Q2); [lia|lia|vm_compute; reflexivity..]|].
  destruct (eq32 x 0x6EB1A8EC) eqn:Q3; [apply (PT _ _ 95 Q3); [lia|lia|vm_compute; reflexivity..]|].
  destruct (acosh_branch x ltac:(lia)) as (d & y & -> & DY & V0 & EY & EZ). cbn [bind]. eexists. split; [reflexivity|]. split; [apply (to_float' _ y); [exact DY|lra|lia|exact EY]|intros K; apply (to_float' _ y); [exact DY|lra|lia|exact (EZ K)]].
Qed.
