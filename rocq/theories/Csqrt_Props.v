(** C131: the double complex square root. *)
From Coq Require Import Reals Lra Lia Psatz Bool QArith Qreals.
From Flocq Require Import Core BinarySingleNaN.
From Verif Require Import Base FP FP_Proof HW HW_Proof Midpoint Fmaf_Proof Tf_Narrow_Proof Math_Model Math_Basic_Proof Hypotf_Model Hypotf_Real Hypotf_Proof Ferr Expf_Proof Logf_Kernel Logf_Proof Loginv_Proof Loginv3_Proof Hyperf3_Proof Asinf_Proof Complex_Spec Complex_Proof Csqrt_Model Csqrt_Spec Csqrt_Proof.
Open Scope Z_scope.
Local Ltac Zify.zify_post_hook ::= idtac.
Notation fval64 := (fval 52 11).

(** a part whose size is 0 or within 2^-480 .. 2^298 *)
Definition moderate (x : Z) : Prop :=
  ffinite 52 11 x = true /\ (fval64 x = 0 \/ bpow radix2 (-480) <= Rabs (fval64 x) <= bpow radix2 298)%R.
Lemma moderate_dbl x : fbits 52 11 x -> moderate x -> dbl x (fval64 x) /\ nice (-480) (fval64 x) /\ (Rabs (fval64 x) <= bpow radix2 298)%R.
Proof.
  intros B [F M]. assert (U : (Rabs (fval64 x) <= bpow radix2 298)%R) by (destruct M as [->|M]; [rewrite Rabs_R0; apply bpow_ge_0|lra]).
  split; [|split; [|exact U]]. { split; [exact B|]. split; [exact F|]. split; [reflexivity|]. apply Rle_trans with (1 := U). apply bpow_le. lia. }
  destruct M as [M|M]; [left; exact M|right; lra].
Qed.
Lemma mag_abs X Y : mag (Rabs X) (Rabs Y) = modulus X Y.
Proof. unfold mag, modulus. f_equal. rewrite <- !Rabs_mult. rewrite !Rabs_pos_eq by nra. reflexivity. Qed.
Lemma rel_final k x y : (k <= 8)%R -> (0 <= y)%R -> rel k x y -> (Rabs (x - y) <= bpow radix2 (-50) * y)%R.
Proof.
  intros Hk P A. unfold rel in A. rewrite (Rabs_pos_eq y P) in A. eapply Rle_trans; [exact A|]. apply Rmult_le_compat_r; [exact P|].
  replace (bpow radix2 (-50)) with (8 * u53)%R by (unfold u53; change 8%R with (bpow radix2 3); rewrite <- bpow_plus; reflexivity). destruct u53_dec. nra.
Qed.
Lemma abs_pat t : fneg 52 11 (fabsb 52 11 t) = false.
Proof. unfold fneg. apply Z.leb_gt. apply Z.mod_pos_bound. reflexivity. Qed.
Lemma val_sign z : fbits 52 11 z -> fneg 52 11 z = true -> (fval64 z <= 0)%R.
Proof. intros B N. unfold fval. rewrite N. assert (0 <= fabsb 52 11 z) by (apply Z.mod_pos_bound; reflexivity). pose proof (fmag_nonneg 52 11 eq_refl _ H). lra. Qed.
Lemma val_sign' z : fbits 52 11 z -> fneg 52 11 z = false -> (0 <= fval64 z)%R.
Proof. intros B N. unfold fval. rewrite N. assert (0 <= fabsb 52 11 z) by (apply Z.mod_pos_bound; reflexivity). exact (fmag_nonneg 52 11 eq_refl _ H). Qed.
Lemma inf_nf x : fisinf 52 11 x = true -> ffinite 52 11 x = false.
Proof. unfold fisinf, ffinite. lia. Qed.
Lemma eq_inf x s : fbits 52 11 x -> ffinite 52 11 x = true -> heq 52 11 x (with_sign 52 11 s d_inf) = false.
Proof.
  intros B F. unfold heq. destruct (ford 52 11 x =? ford 52 11 (with_sign 52 11 s d_inf)) eqn:E; [|apply andb_false_r]. exfalso.
  unfold ffinite in F. change (finf 52 11) with d_inf in F. assert (0 <= fabsb 52 11 x) by (apply Z.mod_pos_bound; reflexivity). unfold ford in E.
  destruct s; cbn [with_sign] in E; [change (fneg 52 11 (with_sign 52 11 true d_inf)) with true in E; change (fabsb 52 11 (with_sign 52 11 true d_inf)) with d_inf in E|change (fneg 52 11 (with_sign 52 11 false d_inf)) with false in E; change (fabsb 52 11 (with_sign 52 11 false d_inf)) with d_inf in E]; unfold d_inf in *; destruct (fneg 52 11 x); lia.
Qed.
Lemma eq_zero x : fbits 52 11 x -> heq 52 11 x 0 = true <-> ffinite 52 11 x = true /\ fval64 x = 0%R.
Proof.
  intros Hx. assert (H0 : fbits 52 11 0) by (split; [lia|reflexivity]). assert (V0 : fval64 0 = 0%R) by apply dbl_0.
  destruct (class3 52 11 eq_refl x) as [K|[K|K]]; destruct K as (K1 & K2 & K3).
  - rewrite (heq_ok 52 11 eq_refl eq_refl x 0 Hx H0 K1 eq_refl), V0. tauto.
  - rewrite K1. split; [|intros [? _]; discriminate]. unfold heq, ford. change (fneg 52 11 0) with false. change (fabsb 52 11 0) with 0. intros E. exfalso.
    unfold fisinf in K2. change (finf 52 11) with d_inf in K2. unfold d_inf in K2. destruct (fneg 52 11 x); lia.
  - rewrite K1. split; [|intros [? _]; discriminate]. unfold heq. rewrite K3. discriminate.
Qed.
Lemma csqrt_finite x y : fbits 52 11 x -> fbits 52 11 y -> ffinite 52 11 x = true -> ffinite 52 11 y = true -> (fval64 x <> 0 \/ fval64 y <> 0)%R -> csqrt x y = csqrt_ x y.
Proof.
  intros Bx By Fx Fy NZ. unfold csqrt. destruct (heq 52 11 x 0 && heq 52 11 y 0) eqn:E.
  - apply andb_true_iff in E. destruct E as [E1 E2]. apply (eq_zero x Bx) in E1. apply (eq_zero y By) in E2. exfalso. tauto.
  - destruct (fisinf 52 11 y) eqn:I; [apply inf_nf in I; congruence|]. change d_inf with (with_sign 52 11 false d_inf) at 1. rewrite !eq_inf by assumption. reflexivity.
Qed.

Lemma root_real e : root_re (bpow radix2 (e + e)) 0 = bpow radix2 e.
Proof.
  unfold root_re, modulus. pose proof (bpow_gt_0 radix2 (e + e)) as P. replace (bpow radix2 (e + e) * bpow radix2 (e + e) + 0 * 0)%R with (bpow radix2 (e + e) * bpow radix2 (e + e))%R by ring.
  rewrite sqrt_square by lra. replace ((bpow radix2 (e + e) + bpow radix2 (e + e)) / 2)%R with (bpow radix2 e * bpow radix2 e)%R by (rewrite bpow_plus; lra). apply sqrt_square, bpow_ge_0.
Qed.

(** If no square of a part overflows or loses precision, both parts of the result
    have a relative error of at most 2^-50, the real part is not negative and
    the imaginary part has the sign of the argument's. *)
Theorem C131_csqrt_accurate : forall x y, fbits 52 11 x -> fbits 52 11 y -> moderate x -> moderate y ->
  (fval64 x <> 0 \/ fval64 y <> 0)%R ->
  let X := fval64 x in let Y := fval64 y in let '(u, v) := csqrt x y in
  ffinite 52 11 u = true /\ ffinite 52 11 v = true /\ fneg 52 11 u = false /\ fneg 52 11 v = fneg 52 11 y /\
  (Rabs (fval64 u - root_re X Y) <= bpow radix2 (-50) * root_re X Y)%R /\
  (Rabs (Rabs (fval64 v) - root_im X Y) <= bpow radix2 (-50) * root_im X Y)%R.
Proof.
  intros x y Bx By Mx My NZ X Y. rewrite (csqrt_finite x y Bx By (proj1 Mx) (proj1 My) NZ).
  destruct (moderate_dbl x Bx Mx) as (DX & NX & UX). destruct (moderate_dbl y By My) as (DY & NY & UY). fold X in DX, NX, UX, NZ. fold Y in DY, NY, UY, NZ.
  destruct (big_ok x y X Y DX DY NX NY UX UY NZ) as (S & DS & RS & SB). destruct (small_ok x y X Y DX DY NX NY UX UY NZ) as (T & DT & RT & NT).
  rewrite mag_abs in RS, RT. pose proof (bpow_gt_0 radix2 (-250)) as P250.
  rewrite csqrt_parts. set (s := big64 x y) in *. set (t := div64 (mul64 c_0_5 y) s) in *. clearbody s t.
  apply (rel_final 3.1 _ _ ltac:(lra) (sqrt_pos _)) in RS. apply (rel_final 5.2 _ _ ltac:(lra) (sqrt_pos _)) in RT.
  destruct (fneg 52 11 x) eqn:NXs.
  - pose proof (val_sign x Bx NXs) as VX. fold X in VX. rewrite (Rabs_left1 X VX) in RS, RT.
    destruct (dbl_abs _ _ DT) as (A1 & A2 & A3 & _). destruct (dbl_copysign _ _ y DS ltac:(lra)) as (C1 & C2 & C3 & _).
    split; [exact A2|]. split; [exact C2|]. split; [apply abs_pat|]. split; [|split].
    + unfold copysign. apply (with_sign_spec 52 11 eq_refl eq_refl). apply Z.mod_pos_bound. reflexivity.
    + rewrite A3. unfold root_re. replace (modulus X Y + X)%R with (modulus X Y - - X)%R by ring. exact RT.
    + rewrite C3. replace (Rabs (if fneg 52 11 y then - S else S)) with S by (destruct (fneg 52 11 y); [rewrite Rabs_Ropp|]; symmetry; apply Rabs_pos_eq; lra).
      unfold root_im. replace (modulus X Y - X)%R with (- X + modulus X Y)%R by ring. exact RS.
  - pose proof (val_sign' x Bx NXs) as VX. fold X in VX. rewrite (Rabs_pos_eq X VX) in RS, RT.
    destruct DT as (A1 & A2 & A3 & _). destruct DS as (C1 & C2 & C3 & _).
    split; [exact C2|]. split; [exact A2|]. split; [rewrite (fneg_sign s S C1 C3) by lra; apply Rlt_bool_false; lra|]. split; [exact NT|]. split.
    + rewrite C3. unfold root_re. rewrite Rplus_comm. exact RS.
    + rewrite A3. exact RT.
Qed.
Print Assumptions C131_csqrt_accurate.

(** csqrt(-3 - 4i) = 1 - 2i *)
Example C131_accurate_example :
  csqrt 0xC008000000000000 0xC010000000000000 = (0x3FF0000000000000, 0xC000000000000000) /\
  moderate 0xC008000000000000 /\ moderate 0xC010000000000000.
Proof.
  assert (V3 : fval64 0xC008000000000000 = (-3)%R).
  { assert (D : dbl 0xC008000000000000 (Q2R (-3 # 1))) by (apply dbl_c; reflexivity). destruct D as (_ & _ & -> & _). unfold Q2R. cbn [Qnum Qden]. lra. }
  assert (V4 : fval64 0xC010000000000000 = (-4)%R).
  { assert (D : dbl 0xC010000000000000 (Q2R (-4 # 1))) by (apply dbl_c; reflexivity). destruct D as (_ & _ & -> & _). unfold Q2R. cbn [Qnum Qden]. lra. }
  split; [vm_compute; reflexivity|]. split; (split; [reflexivity|right]).
  - rewrite V3, Rabs_left by lra. split; [apply Rle_trans with (bpow radix2 0); [apply bpow_le; lia|cbn; lra]|apply Rle_trans with (bpow radix2 2); [cbn; lra|apply bpow_le; lia]].
  - rewrite V4, Rabs_left by lra. split; [apply Rle_trans with (bpow radix2 0); [apply bpow_le; lia|cbn; lra]|apply Rle_trans with (bpow radix2 2); [cbn; lra|apply bpow_le; lia]].
Qed.

(** The argument 2^600 overflows, although its root is 2^300. *)
Theorem C131_csqrt_overflow_refuted : exists x y, fbits 52 11 x /\ fbits 52 11 y /\ ffinite 52 11 x = true /\ ffinite 52 11 y = true /\
  root_re (fval64 x) (fval64 y) = bpow radix2 300 /\ fst (csqrt x y) = d_inf.
Proof.
  exists 0x6570000000000000, 0. split; [split; [lia|reflexivity]|]. split; [split; [lia|reflexivity]|]. split; [reflexivity|]. split; [reflexivity|]. split.
  - replace (fval64 0x6570000000000000) with (bpow radix2 600).
    + replace (fval64 0) with 0%R by (symmetry; apply dbl_0). exact (root_real 300).
    + change (fval64 0x6570000000000000) with (fmag 52 11 0x6570000000000000). rewrite (fmag_normal 52 11 0x6570000000000000 0x657 0) by (change (2^52) with 0x10000000000000; lia).
      unfold F2R. cbn [Fnum Fexp]. change (IZR (2^52 + 0)) with (bpow radix2 52). rewrite <- bpow_plus. reflexivity.
  - vm_compute. reflexivity.
Qed.
Print Assumptions C131_csqrt_overflow_refuted.

(** The argument 2^-600, with the root 2^-300, gives less than three quarters of it. *)
Theorem C131_csqrt_underflow_refuted : exists x y, fbits 52 11 x /\ fbits 52 11 y /\ ffinite 52 11 x = true /\ ffinite 52 11 y = true /\
  root_re (fval64 x) (fval64 y) = bpow radix2 (-300) /\ (0 <= fval64 (fst (csqrt x y)) <= 0.75 * bpow radix2 (-300))%R.
Proof.
  exists 0x1A70000000000000, 0. split; [split; [lia|reflexivity]|]. split; [split; [lia|reflexivity]|]. split; [reflexivity|]. split; [reflexivity|]. split.
  - replace (fval64 0x1A70000000000000) with (bpow radix2 (-600)).
    + replace (fval64 0) with 0%R by (symmetry; apply dbl_0). exact (root_real (-300)).
    + change (fval64 0x1A70000000000000) with (fmag 52 11 0x1A70000000000000). rewrite (fmag_normal 52 11 0x1A70000000000000 0x1A7 0) by (change (2^52) with 0x10000000000000; lia).
      unfold F2R. cbn [Fnum Fexp]. change (IZR (2^52 + 0)) with (bpow radix2 52). rewrite <- bpow_plus. reflexivity.
  - replace (fst (csqrt 0x1A70000000000000 0)) with 0x2D26A09E667F3BCD by (vm_compute; reflexivity).
    change (fval64 0x2D26A09E667F3BCD) with (fmag 52 11 0x2D26A09E667F3BCD). split; [apply (fmag_nonneg 52 11 eq_refl); lia|].
    apply Rle_trans with (fmag 52 11 0x2D28000000000000); [apply (fmag_le 52 11 eq_refl); lia|]. rewrite (fmag_normal 52 11 0x2D28000000000000 0x2D2 0x8000000000000) by (change (2^52) with 0x10000000000000; lia).
    unfold F2R. cbn [Fnum Fexp]. change (emin 52 11 + 0x2D2 - 1) with (-53 + -300). rewrite bpow_plus. pose proof (bpow_gt_0 radix2 (-300)). change (2^52 + 0x8000000000000) with 6755399441055744. change (bpow radix2 (-53)) with (/ 9007199254740992)%R. lra.
Qed.
Print Assumptions C131_csqrt_underflow_refuted.

(** ** infinities, zeros and NaNs *)
Notation D64 := (dec 52 11 eq_refl eq_refl eq_refl).
Definition Qn : Z := qnan 52 11.
Lemma qn_nan : fisnan 52 11 Qn = true. Proof. reflexivity. Qed.
Lemma mul_l a b : fbits 52 11 a -> fisnan 52 11 a = true -> mul64 a b = Qn.
Proof. intros B N. unfold mul64, hmul. rewrite (dec_nan 52 11 eq_refl eq_refl eq_refl a B N). destruct (D64 b); reflexivity. Qed.
Lemma mul_r a b : fbits 52 11 b -> fisnan 52 11 b = true -> mul64 a b = Qn.
Proof. intros B N. unfold mul64, hmul. rewrite (dec_nan 52 11 eq_refl eq_refl eq_refl b B N). destruct (D64 a); reflexivity. Qed.
Lemma add_l a b : fbits 52 11 a -> fisnan 52 11 a = true -> add64 a b = Qn.
Proof. intros B N. unfold add64, hadd. rewrite (dec_nan 52 11 eq_refl eq_refl eq_refl a B N). destruct (D64 b); reflexivity. Qed.
Lemma add_r a b : fbits 52 11 b -> fisnan 52 11 b = true -> add64 a b = Qn.
Proof. intros B N. unfold add64, hadd. rewrite (dec_nan 52 11 eq_refl eq_refl eq_refl b B N). destruct (D64 a); reflexivity. Qed.
Lemma sub_l a b : fbits 52 11 a -> fisnan 52 11 a = true -> sub64 a b = Qn.
Proof. intros B N. unfold sub64, hsub. rewrite (dec_nan 52 11 eq_refl eq_refl eq_refl a B N). destruct (D64 b); reflexivity. Qed.
Lemma div_r a b : fbits 52 11 b -> fisnan 52 11 b = true -> div64 a b = Qn.
Proof. intros B N. unfold div64, hdiv. rewrite (dec_nan 52 11 eq_refl eq_refl eq_refl b B N). destruct (D64 a); reflexivity. Qed.
Lemma qn_bits : fbits 52 11 Qn. Proof. split; [discriminate|reflexivity]. Qed.
Lemma sqrt_qn : sqrt64 Qn = Qn. Proof. vm_compute. reflexivity. Qed.
Lemma big_nan x y : fbits 52 11 x -> fbits 52 11 y -> fisnan 52 11 x = true \/ fisnan 52 11 y = true -> big64 x y = Qn.
Proof.
  intros Bx By N. assert (E : add64 (mul64 x x) (mul64 y y) = Qn).
  { destruct N as [N|N]; [rewrite (mul_l x x Bx N); apply add_l; [exact qn_bits|reflexivity]|rewrite (mul_l y y By N); apply add_r; [exact qn_bits|reflexivity]]. }
  unfold big64. rewrite E, sqrt_qn, (add_r _ Qn qn_bits qn_nan), (mul_r _ Qn qn_bits qn_nan). exact sqrt_qn.
Qed.
Lemma pat_eq b : fbits 52 11 b -> b = with_sign 52 11 (fneg 52 11 b) (fabsb 52 11 b).
Proof.
  intros [L U]. unfold with_sign, fneg, fabsb. change (2^(52+11+1)) with (2 * 2^(52+11)) in U. set (P := 2^(52+11)) in *. assert (0 < P) by reflexivity. clearbody P.
  destruct (P <=? b) eqn:E.
  - rewrite <- (Z.mod_unique b P 1 (b - P)); lia.
  - rewrite Z.mod_small; lia.
Qed.
Lemma zero_pat r s : rounds_to 52 11 0 s r -> r = with_sign 52 11 s 0.
Proof.
  intros R. destruct (rounds_exact 52 11 eq_refl eq_refl eq_refl 0%R s r 0 R (proj1 dbl_0) eq_refl (proj1 (proj2 (proj2 dbl_0)))) as (A & B & C & D).
  rewrite (pat_eq r A), D. f_equal. assert (N : 0 <= fabsb 52 11 r) by (apply Z.mod_pos_bound; reflexivity).
  destruct (Z.eq_dec (fabsb 52 11 r) 0) as [E|E]; [exact E|]. exfalso. unfold fval in C. pose proof (fmag_lt 52 11 eq_refl 0 (fabsb 52 11 r) ltac:(lia)) as L. rewrite (fmag_0 52 11 eq_refl) in L. destruct (fneg 52 11 r); lra.
Qed.

(** C11 Annex G.6.4.2: infinite, zero and NaN arguments. *)
Theorem C131_csqrt_special : forall x y, fbits 52 11 x -> fbits 52 11 y ->
  (czero 52 11 (x, y) -> csqrt x y = (0, y)) /\
  (fisinf 52 11 y = true -> csqrt x y = (finf 52 11, y)) /\
  (x = finf 52 11 -> ffinite 52 11 y = true -> csqrt x y = (finf 52 11, with_sign 52 11 (fneg 52 11 y) 0)) /\
  (x = finf 52 11 -> fisnan 52 11 y = true -> fst (csqrt x y) = finf 52 11 /\ fisnan 52 11 (snd (csqrt x y)) = true) /\
  (x = with_sign 52 11 true (finf 52 11) -> ffinite 52 11 y = true -> csqrt x y = (0, with_sign 52 11 (fneg 52 11 y) (finf 52 11))) /\
  (x = with_sign 52 11 true (finf 52 11) -> fisnan 52 11 y = true -> fisnan 52 11 (fst (csqrt x y)) = true /\ fisinf 52 11 (snd (csqrt x y)) = true) /\
  (fisnan 52 11 x = true \/ fisnan 52 11 y = true -> fisinf 52 11 x = false -> fisinf 52 11 y = false -> cnan 52 11 (csqrt x y)).
Proof.
  intros x y Bx By.
  assert (ZF : forall b, ffinite 52 11 b = false -> heq 52 11 x 0 && heq 52 11 b 0 = false \/ ~ fbits 52 11 b).
  { intros b F. destruct (heq 52 11 b 0) eqn:E; [|left; apply andb_false_r]. destruct (Z_le_gt_dec 0 b); [destruct (Z_lt_ge_dec b (2^(52+11+1)))|]; [|right; unfold fbits; lia|right; unfold fbits; lia].
    exfalso. apply eq_zero in E; [destruct E; congruence|split; assumption]. }
  assert (FI : forall b, ffinite 52 11 b = true -> fisinf 52 11 b = false) by (intros b; unfold ffinite, fisinf; lia).
  assert (NI : forall b, fisnan 52 11 b = true -> fisinf 52 11 b = false /\ ffinite 52 11 b = false) by (intros b; unfold fisnan, ffinite, fisinf; lia).
  split; [|split; [|split; [|split; [|split; [|split]]]]].
  - intros ((F1 & F2) & Z1 & Z2). cbn [fst snd] in *. unfold csqrt. rewrite (proj2 (eq_zero x Bx)), (proj2 (eq_zero y By)) by (split; assumption). reflexivity.
  - intros I. unfold csqrt. destruct (ZF y (inf_nf y I)) as [->|C]; [|contradiction]. rewrite I. reflexivity.
  - intros -> F. unfold csqrt. change (heq 52 11 (finf 52 11) 0) with false. cbn [andb]. rewrite (FI y F). change (heq 52 11 (finf 52 11) d_inf) with true. cbv iota. f_equal.
    apply zero_pat. pose proof (hmul_ok 52 11 eq_refl eq_refl eq_refl 0 y (proj1 dbl_0) By eq_refl F) as R. rewrite (proj1 (proj2 (proj2 dbl_0))), Rmult_0_l in R. change (fneg 52 11 0) with false in R. destruct (fneg 52 11 y); exact R.
  - intros -> N. unfold csqrt. change (heq 52 11 (finf 52 11) 0) with false. cbn [andb]. rewrite (proj1 (NI y N)). change (heq 52 11 (finf 52 11) d_inf) with true. cbv iota. cbn [fst snd]. split; [reflexivity|]. rewrite (mul_r 0 y By N). reflexivity.
  - intros -> F. unfold csqrt. change (heq 52 11 (with_sign 52 11 true (finf 52 11)) 0) with false. cbn [andb]. rewrite (FI y F). change (heq 52 11 (with_sign 52 11 true (finf 52 11)) d_inf) with false. change (heq 52 11 (with_sign 52 11 true (finf 52 11)) (with_sign 52 11 true d_inf)) with true. cbv iota. f_equal.
    change 0 with (with_sign 52 11 false 0). apply zero_pat. pose proof (hsub_ok 52 11 eq_refl eq_refl eq_refl y y By By F F) as R. rewrite Rminus_diag_eq in R by reflexivity. unfold sum_sign in R. rewrite Rcompare_Eq in R by reflexivity. destruct (fneg 52 11 y); exact R.
  - intros -> N. unfold csqrt. change (heq 52 11 (with_sign 52 11 true (finf 52 11)) 0) with false. cbn [andb]. rewrite (proj1 (NI y N)). change (heq 52 11 (with_sign 52 11 true (finf 52 11)) d_inf) with false. change (heq 52 11 (with_sign 52 11 true (finf 52 11)) (with_sign 52 11 true d_inf)) with true. cbv iota. cbn [fst snd].
    rewrite (sub_l y y By N). split; [reflexivity|]. unfold copysign. change (fabsb 52 11 (with_sign 52 11 true (finf 52 11))) with (finf 52 11). exact (proj1 (proj2 (winf 52 11 eq_refl eq_refl eq_refl (fneg 52 11 y)))).
  - intros N Ix Iy. assert (EQ : csqrt x y = csqrt_ x y).
    { unfold csqrt. replace (heq 52 11 x 0 && heq 52 11 y 0) with false.
      2:{ symmetry. destruct N as [N|N]; unfold heq; rewrite N; cbn [negb andb]; [reflexivity|apply andb_false_r]. }
      rewrite Iy. assert (HX : forall s, heq 52 11 x (with_sign 52 11 s d_inf) = false).
      { intros s. destruct (class3 52 11 eq_refl x) as [K|[K|K]]; destruct K as (K1 & K2 & K3); [apply eq_inf; assumption|congruence|unfold heq; rewrite K3; reflexivity]. }
      change d_inf with (with_sign 52 11 false d_inf) at 1. rewrite !HX. reflexivity. }
    rewrite EQ, csqrt_parts, (big_nan x y Bx By N), (div_r _ Qn qn_bits qn_nan). destruct (fneg 52 11 x); [|split; reflexivity].
    split; [reflexivity|]. cbn [snd]. unfold copysign, with_sign. destruct (fneg 52 11 y); reflexivity.
Qed.
Print Assumptions C131_csqrt_special.

(** csqrt(-infinity - 1i) = 0 - infinity i, csqrt(NaN + 1i) = NaN + NaN i *)
Example C131_special_example :
  csqrt 0xFFF0000000000000 0xBFF0000000000000 = (0, 0xFFF0000000000000) /\ cnan 52 11 (csqrt 0x7FF8000000000000 0x3FF0000000000000) /\
  csqrt 0x8000000000000000 0 = (0, 0).
Proof. split; [vm_compute; reflexivity|]. split; [split; vm_compute; reflexivity|vm_compute; reflexivity]. Qed.
