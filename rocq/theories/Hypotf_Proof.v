(** Correctness of hypotf. *)
From Coq Require Import Reals Lra Lia Psatz.
From Flocq Require Import Core BinarySingleNaN.
From Verif Require Import Base FP FP_Proof HW HW_Proof Midpoint Fmaf_Proof Math_Model Math_Basic_Proof Math_Lconv_Proof FPInt Hypotf_Model Hypotf_Real.
Open Scope Z_scope.
Local Ltac Zify.zify_post_hook ::= idtac.
Local Existing Instance V53.
Local Existing Instance V24.

Lemma sqrt64_ok a : fbits 52 11 a -> ffinite 52 11 a = true -> fneg 52 11 a = false ->
  rounds_to 52 11 (sqrt (fval 52 11 a)) false (sqrt64 a).
Proof.
  intros Ha Fa Na. destruct (dec_finite 52 11 eq_refl eq_refl eq_refl a Ha Fa) as (A1 & A2 & A3).
  unfold sqrt64. apply (enc_rounds 52 11 eq_refl eq_refl eq_refl).
  pose proof (Bsqrt_correct (52 + 1) (2^(11 - 1)) (hw_prec 52 eq_refl) (hw_emax 52 11 eq_refl) mode_NE (dec 52 11 eq_refl eq_refl eq_refl a)) as (H1 & H2 & H3).
  rewrite (round_flocq 52 11), A2 in H1. rewrite A3, Na in H3.
  assert (FN : is_finite (Bsqrt (prec_gt_0_ := hw_prec 52 eq_refl) (prec_lt_emax_ := hw_emax 52 11 eq_refl) mode_NE (dec 52 11 eq_refl eq_refl eq_refl a)) = true).
  { rewrite H2. rewrite Na in A3. destruct (dec 52 11 eq_refl eq_refl eq_refl a); cbn in *; try congruence. rewrite A3. reflexivity. }
  rewrite Rlt_bool_true.
  - split; [exact H1|]. split; [exact FN|]. apply H3. destruct (Bsqrt _ _); cbn in *; congruence.
  - rewrite <- H1. apply abs_B2R_lt_emax.
Qed.

(** ** adjacent floats *)
Lemma cexp24 q t x : -149 <= t -> 0 <= q < 2^24 -> (t = -149 \/ 2^23 <= q) ->
  (0 < x)%R -> (IZR q * bpow radix2 t <= x < IZR (q + 1) * bpow radix2 t)%R -> cexp radix2 (FLT_exp (-149) 24) x = t.
Proof.
  intros Ht Hq HL Px [L U].
  assert (UB : (x < bpow radix2 (24 + t))%R).
  { apply Rlt_le_trans with (1 := U). rewrite bpow_plus. apply Rmult_le_compat_r; [apply bpow_ge_0|]. change (bpow radix2 24) with (IZR (2^24)). apply IZR_le. lia. }
  assert (M1 : mag radix2 x <= 24 + t) by (apply mag_le_bpow; [lra|rewrite Rabs_pos_eq; lra]).
  unfold cexp, FLT_exp. destruct HL as [->|HL]; [lia|].
  assert (bpow radix2 (23 + t) <= x)%R.
  { apply Rle_trans with (2 := L). rewrite bpow_plus. apply Rmult_le_compat_r; [apply bpow_ge_0|]. change (bpow radix2 23) with (IZR (2^23)). apply IZR_le. lia. }
  assert (M2 : 23 + t + 1 <= mag radix2 x) by (apply mag_ge_bpow; replace (23 + t + 1 - 1) with (23 + t) by lia; rewrite Rabs_pos_eq; lra).
  lia.
Qed.

Lemma fmag_step k : 0 <= k -> exists t q, -149 <= t /\ 0 <= q < 2^24 /\ (t = -149 \/ 2^23 <= q) /\ Z.even k = Z.even q /\
  fmag 23 8 k = (IZR q * bpow radix2 t)%R /\ fmag 23 8 (k + 1) = (IZR (q + 1) * bpow radix2 t)%R.
Proof.
  intros Hk. destruct (fmag_unpack 23 8 eq_refl k Hk) as (t & q & Ht & Hq & HL & E & E1). exists t, q.
  change (emin 23 8) with (-149) in *. change (2^(23+1)) with (2^24) in Hq. split; [exact Ht|]. split; [exact Hq|]. split; [exact HL|]. split.
  - rewrite E. change (2^23) with (2 * 2^22). rewrite Z.even_add, Z.even_mul. change (Z.even (2 * 2^22)) with true. rewrite Bool.orb_true_r. destruct (Z.even q); reflexivity.
  - split; [exact E1|]. rewrite E. replace ((t - -149) * 2^23 + q + 1) with ((t - -149) * 2^23 + (q + 1)) by lia.
    assert (HL1 : t = -149 \/ 2^23 <= q + 1) by lia. assert (HQ : 0 <= q + 1 <= 2^24) by lia. exact (fmag_pack 23 8 eq_refl t (q + 1) Ht HQ HL1).
Qed.

Lemma succ24_fmag k : 0 <= k -> succ24 (fmag 23 8 k) = fmag 23 8 (k + 1).
Proof.
  intros Hk. destruct (fmag_step k Hk) as (t & q & Ht & Hq & HL & _ & -> & ->). pose proof (bpow_gt_0 radix2 t) as P.
  rewrite succ_eq_pos by (apply Rmult_le_pos; [apply IZR_le; lia|lra]). rewrite plus_IZR, Rmult_plus_distr_r, Rmult_1_l. f_equal.
  destruct (Z.eq_dec q 0) as [->|N].
  - rewrite Rmult_0_l, ulp_FLT_0 by reflexivity. f_equal. lia.
  - assert (0 < IZR q * bpow radix2 t)%R by (apply Rmult_lt_0_compat; [apply IZR_lt; lia|exact P]).
    rewrite ulp_neq_0 by lra. f_equal. apply (cexp24 q); try assumption. split; [lra|]. apply Rmult_lt_compat_r; [exact P|]. apply IZR_lt. lia.
Qed.

Lemma fmag_F24 k : 0 <= k -> F24 (fmag 23 8 k).
Proof. intros Hk. destruct (fmag_step k Hk) as (t & q & Ht & Hq & _ & _ & -> & _). apply FLT_multiple; lia. Qed.

Lemma pred24_fmag k : 0 <= k -> pred24 (fmag 23 8 (k + 1)) = fmag 23 8 k.
Proof. intros Hk. rewrite <- succ24_fmag by exact Hk. apply pred_succ; [typeclasses eauto|]. apply fmag_F24. exact Hk. Qed.

(** a tie goes to the even pattern *)
Lemma tie_even k : 0 <= k -> RN24 ((fmag 23 8 k + fmag 23 8 (k + 1)) / 2) = fmag 23 8 (if Z.even k then k else k + 1).
Proof.
  intros Hk. destruct (fmag_step k Hk) as (t & q & Ht & Hq & HL & EV & E1 & E2). pose proof (bpow_gt_0 radix2 t) as P.
  set (m := ((fmag 23 8 k + fmag 23 8 (k + 1)) / 2)%R).
  assert (Em : m = ((IZR q + / 2) * bpow radix2 t)%R) by (unfold m; rewrite E1, E2, plus_IZR; field).
  assert (Q0 : (0 <= IZR q)%R) by (apply IZR_le; lia).
  assert (CE : cexp radix2 (FLT_exp (-149) 24) m = t).
  { apply (cexp24 q); try assumption; rewrite Em; [nra|]. rewrite plus_IZR. nra. }
  rewrite RN24_eq. unfold round. unfold scaled_mantissa. rewrite CE. rewrite Em at 1.
  rewrite Rmult_assoc, <- bpow_plus. replace (t + - t) with 0 by lia. change (bpow radix2 0) with 1%R. rewrite Rmult_1_r.
  assert (ZF : Zfloor (IZR q + / 2) = q) by (apply Zfloor_imp; rewrite plus_IZR; lra).
  assert (ZC : Zceil (IZR q + / 2) = q + 1) by (apply Zceil_imp; rewrite minus_IZR, plus_IZR; lra).
  unfold Znearest. rewrite ZF, ZC. rewrite Rcompare_Eq by lra. rewrite EV. destruct (Z.even q); cbn [negb]; symmetry; assumption.
Qed.

Lemma nextafter_up k : 0 <= k < 0x7F800000 -> nextafter 23 8 k 0x7F800000 = Ok (k + 1).
Proof.
  intros Hk.
  assert (A : fabsb 23 8 k = k) by (apply Z.mod_small; lia). assert (B : fneg 23 8 k = false) by (unfold fneg; lia).
  unfold nextafter, heq, ford, fisnan. rewrite A, B.
  change (fabsb 23 8 0x7F800000) with 0x7F800000. change (fneg 23 8 0x7F800000) with false. change (fabsb 23 8 0) with 0. change (fneg 23 8 0) with false. change (finf 23 8) with 0x7F800000.
  replace (0x7F800000 <? k) with false by lia. replace (0x7F800000 <? 0x7F800000) with false by reflexivity. replace (0x7F800000 <? 0) with false by reflexivity. cbn [negb andb orb].
  replace (k =? 0x7F800000) with false by lia. cbn [orb].
  destruct (Z.eqb_spec k 0) as [->|N]; [reflexivity|].
  change (23 + 8 + 1) with 32. rewrite (sgn_id 32 k) by lia. change (sgn 32 0x7F800000) with 0x7F800000.
  assert (X : (Z.lxor k 0x7F800000 <? 0) = false) by (apply Z.ltb_ge, Z.lxor_nonneg; lia). rewrite X.
  replace (0x7F800000 <? k) with false by lia. cbn [orb]. unfold chk. change (2^(32-1)) with 0x80000000.
  replace (_ && _) with true by lia. cbn [bind]. rewrite Z.mod_small by lia. reflexivity.
Qed.

Lemma nextafter_dn k : 0 < k < 0x7F800000 -> nextafter 23 8 k 0xFF800000 = Ok (k - 1).
Proof.
  intros Hk.
  assert (A : fabsb 23 8 k = k) by (apply Z.mod_small; lia). assert (B : fneg 23 8 k = false) by (unfold fneg; lia).
  unfold nextafter, heq, ford, fisnan. rewrite A, B.
  change (fabsb 23 8 0xFF800000) with 0x7F800000. change (fneg 23 8 0xFF800000) with true. change (fabsb 23 8 0) with 0. change (fneg 23 8 0) with false. change (finf 23 8) with 0x7F800000.
  replace (0x7F800000 <? k) with false by lia. replace (0x7F800000 <? 0x7F800000) with false by reflexivity. replace (0x7F800000 <? 0) with false by reflexivity. cbn [negb andb orb].
  replace (k =? - (0x7F800000)) with false by lia. cbn [orb].
  destruct (Z.eqb_spec k 0) as [->|N]; [lia|].
  change (23 + 8 + 1) with 32. rewrite (sgn_id 32 k) by lia. change (sgn 32 0xFF800000) with (-0x800000).
  replace (-0x800000 <? k) with true by lia. cbn [orb]. unfold chk. change (2^(32-1)) with 0x80000000.
  replace (_ && _) with true by lia. cbn [bind]. rewrite Z.mod_small by lia. reflexivity.
Qed.

(** ** small tools on patterns *)
Lemma same_result a b s r : RN24 a = RN24 b -> rounds_to 23 8 a s r -> rounds_to 23 8 b s r.
Proof. unfold rounds_to. intros ->. auto. Qed.

Lemma exact_result x k : 0 <= k < 0x7F800000 -> RN24 x = fmag 23 8 k -> rounds_to 23 8 x false k.
Proof.
  intros Hk E. assert (A : fabsb 23 8 k = k) by (apply Z.mod_small; lia). assert (B : fneg 23 8 k = false) by (unfold fneg; lia).
  assert (V : fval 23 8 k = fmag 23 8 k) by (unfold fval; rewrite A, B; reflexivity).
  assert (H : fbits 23 8 k) by (split; [lia|change (2^(23+8+1)) with 0x100000000; lia]).
  assert (F : ffinite 23 8 k = true) by (unfold ffinite; rewrite A; change (finf 23 8) with 0x7F800000; lia).
  split; [exact H|]. split; [exact B|]. rewrite E, <- V. split; [auto|]. intros C. pose proof (fval_bound 23 8 eq_refl eq_refl eq_refl k H F). change (2^(8-1)) with 128 in *. lra.
Qed.

Lemma pos_pattern mw ew b : 0 < mw -> 1 < ew -> fbits mw ew b -> fneg mw ew b = false -> fabsb mw ew b = b /\ 0 <= b < 2^(mw + ew) /\ fval mw ew b = fmag mw ew b.
Proof.
  intros Hm He [H1 H2] N. unfold fneg in N. apply Z.leb_gt in N. assert (A : fabsb mw ew b = b) by (apply Z.mod_small; lia).
  split; [exact A|]. split; [lia|]. unfold fval. rewrite A. unfold fneg. replace (2^(mw+ew) <=? b) with false by lia. reflexivity.
Qed.

Definition dbl (d : Z) (x : R) : Prop := fbits 52 11 d /\ ffinite 52 11 d = true /\ fval 52 11 d = x /\ (Rabs x <= bpow radix2 600)%R.

Lemma dbl_fin d x : dbl d x -> F53 x.
Proof. intros (A & B & <- & _). exact (fval_format 52 11 eq_refl eq_refl d A). Qed.

Lemma dbl_rounds x s d e : rounds_to 52 11 x s d -> (Rabs x <= bpow radix2 e)%R -> -1074 <= e <= 600 -> dbl d (RN53 x).
Proof.
  intros R B He. destruct (rounds_small x s d e R B ltac:(lia)) as (A1 & A2 & A3 & _ & A5). split; [exact A1|]. split; [exact A2|]. split; [exact A3|].
  rewrite <- A3. apply (Rabs_weak _ _ _ A5). lia.
Qed.

Lemma dbl_sub a b x y e : dbl a x -> dbl b y -> (Rabs (x - y) <= bpow radix2 e)%R -> -1074 <= e <= 600 -> dbl (sub64 a b) (RN53 (x - y)).
Proof.
  intros (A1 & A2 & A3 & _) (B1 & B2 & B3 & _) H He. pose proof (hsub_ok 52 11 eq_refl eq_refl eq_refl a b A1 B1 A2 B2) as R. rewrite A3, B3 in R.
  exact (dbl_rounds _ _ _ e R H He).
Qed.
Lemma dbl_add a b x y e : dbl a x -> dbl b y -> (Rabs (x + y) <= bpow radix2 e)%R -> -1074 <= e <= 600 -> dbl (add64 a b) (RN53 (x + y)).
Proof.
  intros (A1 & A2 & A3 & _) (B1 & B2 & B3 & _) H He. pose proof (hadd_ok 52 11 eq_refl eq_refl eq_refl a b A1 B1 A2 B2) as R. rewrite A3, B3 in R.
  exact (dbl_rounds _ _ _ e R H He).
Qed.
Lemma dbl_mul a b x y e : dbl a x -> dbl b y -> (Rabs (x * y) <= bpow radix2 e)%R -> -1074 <= e <= 600 -> dbl (mul64 a b) (RN53 (x * y)).
Proof.
  intros (A1 & A2 & A3 & _) (B1 & B2 & B3 & _) H He. pose proof (hmul_ok 52 11 eq_refl eq_refl eq_refl a b A1 B1 A2 B2) as R. rewrite A3, B3 in R.
  exact (dbl_rounds _ _ _ e R H He).
Qed.
Lemma dbl_f2d a : fbits 23 8 a -> ffinite 23 8 a = true -> dbl (f2d a) (fval 23 8 a).
Proof.
  intros Ha Fa. destruct (f2d_fin a Ha Fa) as (A & B & _). split; [exact A|]. split; [exact B|]. split; [exact (fval_f2d a Ha Fa)|].
  apply (Rabs_weak _ _ _ (float_bound a Ha Fa)). lia.
Qed.
Lemma dbl_lt a b x y : dbl a x -> dbl b y -> (hlt 52 11 a b = true <-> (x < y)%R).
Proof. intros (A1 & A2 & <- & _) (B1 & B2 & <- & _). apply (hlt_ok 52 11 eq_refl eq_refl); assumption. Qed.
Lemma dbl_eq a b x y : dbl a x -> dbl b y -> (heq 52 11 a b = true <-> x = y).
Proof. intros (A1 & A2 & <- & _) (B1 & B2 & <- & _). apply (heq_ok 52 11 eq_refl eq_refl); assumption. Qed.
Lemma dbl_le a b x y : dbl a x -> dbl b y -> (hle 52 11 a b = true <-> (x <= y)%R).
Proof. intros (A1 & A2 & <- & _) (B1 & B2 & <- & _). apply (hle_ok 52 11 eq_refl eq_refl); assumption. Qed.
Lemma dbl_0 : dbl 0 0.
Proof. split; [split; [lia|reflexivity]|]. split; [reflexivity|]. split; [exact fval_0|]. rewrite Rabs_R0. apply bpow_ge_0. Qed.
Lemma dbl_const k q e : 0 <= k < 0x7FF0000000000000 -> -1074 <= e < 500 -> 2^52 <= q < 2^53 -> k = (e + 1074) * 2^52 + q -> dbl k (IZR q * bpow radix2 e).
Proof.
  intros Hk He Hq E. assert (A : fabsb 52 11 k = k) by (apply Z.mod_small; lia). assert (B : fneg 52 11 k = false) by (unfold fneg; lia).
  split; [split; [lia|change (2^(52+11+1)) with 0x10000000000000000; lia]|]. split; [unfold ffinite; rewrite A; change (finf 52 11) with 0x7FF0000000000000; lia|]. split.
  - unfold fval. rewrite A, B, E. replace (e + 1074) with (e - -1074) by lia. exact (fmag_pack 52 11 eq_refl e q ltac:(change (emin 52 11) with (-1074); lia) ltac:(change (2^(52+1)) with (2^53); lia) (or_intror (proj1 Hq))).
  - rewrite Rabs_mult, !Rabs_pos_eq; [|apply bpow_ge_0|apply IZR_le; lia]. apply Rle_trans with (bpow radix2 (53 + e)); [|apply bpow_le; lia].
    rewrite bpow_plus. apply Rmult_le_compat_r; [apply bpow_ge_0|]. change (bpow radix2 53) with (IZR (2^53)). apply IZR_le. lia.
Qed.

(** the quick test passes no midpoint *)
Lemma quick_test r : fbits 52 11 r -> fneg 52 11 r = false -> half24 (fval 52 11 r) -> (2 <? Z.land (u64 (r + 1)) 0xFFFFFFF) = false.
Proof.
  intros Hr Nr H. destruct (pos_pattern 52 11 r eq_refl eq_refl Hr Nr) as (A & B & V).
  assert (P : (0 <= fval 52 11 r)%R) by (rewrite V; apply fmag_nonneg; [reflexivity|lia]).
  assert (N0 : fval 52 11 r <> 0%R).
  { intros E. destruct H as (f & Ff & E'). rewrite E in E'. pose proof (succ24_gt f Ff) as G. destruct (Rle_or_lt 0 f) as [C|C]; [lra|].
    assert (succ24 f <= 0)%R by (apply succ_le_lt; [typeclasses eauto|exact Ff|apply generic_format_0|exact C]). lra. }
  destruct (halfway_pos (-149) 24 (-1074) 53 eq_refl ltac:(lia) ltac:(lia) _ H ltac:(lra)) as (n & e & E & Hn & He & _).
  assert (L : (bpow radix2 (-298) <= Rabs (fval 52 11 r))%R).
  { rewrite Rabs_pos_eq by exact P. rewrite E. apply Rle_trans with (1 * bpow radix2 (e - 1))%R; [rewrite Rmult_1_l; apply bpow_le; lia|]. apply Rmult_le_compat_r; [apply bpow_ge_0|]. apply IZR_le. lia. }
  destruct (normal_double r Hr L) as [M1 M2]. rewrite A in M1, M2. rewrite V, M1 in H.
  apply half_low in H; [|pose proof (Z.mod_pos_bound r (2^52) ltac:(lia)); lia].
  assert (R28 : r mod 2^28 = 0).
  { rewrite Z.add_mod in H by lia. change (2^52 mod 2^28) with 0 in H. rewrite Z.add_0_l, Z.mod_mod in H by lia.
    change (2^52) with (2^28 * 2^24) in H. rewrite Z.rem_mul_r in H by lia. rewrite Z.add_mod, Z.mod_mod, Z.mul_comm, Z.mod_mul, Z.add_0_r, Z.mod_mod in H by lia. exact H. }
  unfold u64. change (2^(52+11)) with (2^63) in B. rewrite Z.mod_small by lia. change 0xFFFFFFF with (Z.ones 28). rewrite Z.land_ones by lia.
  rewrite Z.add_mod, R28 by lia. reflexivity.
Qed.

(** m = 0.5 * (rd + nb) is the midpoint of two adjacent floats *)
Lemma midpoint_ok k a b : 0 <= k < 0x7F7FFFFF ->
  (dbl a (fmag 23 8 k) /\ dbl b (fmag 23 8 (k + 1))) \/ (dbl a (fmag 23 8 (k + 1)) /\ dbl b (fmag 23 8 k)) ->
  let m := ((fmag 23 8 k + fmag 23 8 (k + 1)) / 2)%R in
  dbl (mul64 0x3FE0000000000000 (add64 a b)) m /\ half24 m /\ (0 < m)%R /\ (Rabs m <= bpow radix2 128)%R.
Proof.
  intros Hk H m.
  pose proof (fmag_nonneg 23 8 eq_refl k (proj1 Hk)) as P0. pose proof (fmag_lt 23 8 eq_refl k (k + 1) ltac:(lia)) as P1.
  assert (P2 : (fmag 23 8 (k + 1) <= bpow radix2 128)%R).
  { change (bpow radix2 128) with (bpow radix2 (2^(8-1))). rewrite <- (fmag_inf 23 8 eq_refl eq_refl). apply fmag_le; [reflexivity|]. change (finf 23 8) with 0x7F800000. lia. }
  assert (HM : half24 m). { unfold m. rewrite <- succ24_fmag by lia. apply half_up. apply fmag_F24. lia. }
  assert (F2m : F53 (2 * m)).
  { destruct (fmag_step k (proj1 Hk)) as (t & q & Ht & Hq & _ & _ & E1 & E2). replace (2 * m)%R with (IZR (2 * q + 1) * bpow radix2 t)%R; [apply F53_mult; lia|].
    unfold m. rewrite E1, E2, !plus_IZR, mult_IZR. field. }
  assert (DS : dbl (add64 a b) (2 * m)).
  { rewrite <- (RN53_id _ F2m). assert (UB : (Rabs (2 * m) <= bpow radix2 129)%R).
    { unfold m. rewrite Rabs_pos_eq by lra. change 129 with (1 + 128). rewrite bpow_plus. change (bpow radix2 1) with 2%R. lra. }
    destruct H as [[A B]|[A B]].
    - replace (2 * m)%R with (fmag 23 8 k + fmag 23 8 (k + 1))%R in * by (unfold m; field). apply (dbl_add _ _ _ _ 129 A B UB). lia.
    - replace (2 * m)%R with (fmag 23 8 (k + 1) + fmag 23 8 k)%R in * by (unfold m; field). apply (dbl_add _ _ _ _ 129 A B UB). lia. }
  assert (DH : dbl 0x3FE0000000000000 (/ 2)).
  { replace (/ 2)%R with (IZR (2^52) * bpow radix2 (-53))%R by (change (IZR (2^52)) with (bpow radix2 52); rewrite <- bpow_plus; reflexivity). apply dbl_const; lia. }
  assert (UM : (Rabs m <= bpow radix2 128)%R) by (unfold m; rewrite Rabs_pos_eq; lra).
  split; [|split; [exact HM|split; [unfold m; lra|exact UM]]].
  assert (EM : m = (/ 2 * (2 * m))%R) by field.
  rewrite <- (RN53_id m) by exact (halfway_fine (-149) 24 (-1074) 53 eq_refl ltac:(lia) ltac:(lia) m HM). rewrite EM at 1.
  apply (dbl_mul _ _ _ _ 128 DH DS); [rewrite <- EM; exact UM|lia].
Qed.

(** ** the overflow threshold *)
Lemma EFM : fmag 23 8 0x7F7FFFFF = (IZR (2^24 - 1) * bpow radix2 104)%R.
Proof.
  pose proof (fmag_pack 23 8 eq_refl 104 (2^24 - 1) ltac:(vm_compute; discriminate) ltac:(vm_compute; split; discriminate) ltac:(right; vm_compute; discriminate)) as H.
  replace ((104 - emin 23 8) * 2^23 + (2^24 - 1)) with 0x7F7FFFFF in H by reflexivity. rewrite H. reflexivity.
Qed.
Lemma EINF : fmag 23 8 (0x7F7FFFFF + 1) = bpow radix2 128.
Proof. exact (fmag_inf 23 8 eq_refl eq_refl). Qed.
Lemma ETOP : ((fmag 23 8 0x7F7FFFFF + fmag 23 8 (0x7F7FFFFF + 1)) / 2 = top)%R.
Proof.
  rewrite EFM, EINF. unfold top. replace 128 with (25 + 103) by reflexivity. replace 104 with (1 + 103) by reflexivity. rewrite !bpow_plus.
  change (bpow radix2 25) with 33554432%R. change (bpow radix2 1) with 2%R. change (2^24 - 1) with 16777215. change (2^25 - 1) with 33554431. lra.
Qed.
Lemma FM : F24 (fmag 23 8 0x7F7FFFFF).
Proof. apply fmag_F24. discriminate. Qed.
Lemma FMLT : (fmag 23 8 0x7F7FFFFF < fmag 23 8 (0x7F7FFFFF + 1))%R.
Proof. apply fmag_lt; [reflexivity|]. split; [discriminate|reflexivity]. Qed.
Lemma HT : half24 top.
Proof. rewrite <- ETOP. rewrite <- succ24_fmag by discriminate. apply half_up. exact FM. Qed.
Lemma TP : (0 < top)%R.
Proof. unfold top; apply Rmult_lt_0_compat; [apply IZR_lt; reflexivity|apply bpow_gt_0]. Qed.
Lemma BIG x : (top < x)%R -> (bpow radix2 128 <= RN24 x)%R.
Proof.
  intros Hx. rewrite <- EINF. apply RN24_ge_mid; [apply fmag_F24; discriminate|]. rewrite pred24_fmag by discriminate. rewrite ETOP. exact Hx.
Qed.
Lemma TIE : RN24 top = bpow radix2 128.
Proof. rewrite <- ETOP, tie_even by discriminate. replace (Z.even 0x7F7FFFFF) with false by reflexivity. exact EINF. Qed.

Lemma overflow_ok B b rf : F24 B -> F24 b -> (0 <= b <= B)%R -> (B < bpow radix2 128)%R ->
  let S := (B * B + b * b)%R in
  (fmag 23 8 0x7F7FFFFF < root S)%R -> rounds_to 23 8 (root S) false rf -> rounds_to 23 8 (sqrt S) false rf.
Proof.
  intros FB Fb L UB S C RF. assert (S0 : (0 <= S)%R) by (unfold S; nra). pose proof ETOP as ET. pose proof TP as TP.
  assert (EQV : forall x, (bpow radix2 128 <= RN24 (root S))%R -> (bpow radix2 128 <= RN24 x)%R -> rounds_to 23 8 x false rf).
  { intros x K1 K2. destruct RF as (A1 & A2 & _ & A4). split; [exact A1|]. split; [exact A2|]. change (2^(8-1)) with 128 in *. split; [intros C'; rewrite Rabs_pos_eq in C'; [lra|pose proof (bpow_ge_0 radix2 128); lra]|].
    intros _. apply A4. rewrite Rabs_pos_eq; [exact K1|pose proof (bpow_ge_0 radix2 128); lra]. }
  destruct (Rtotal_order (root S) top) as [K|[E|K]].
  - apply (same_result (root S)); [|exact RF].
    assert (NH : ~ half24 (root S)).
    { intros (f & Ff & E). assert (L1 : (f < top)%R) by (pose proof (succ24_gt f Ff); lra). pose proof FMLT as LT.
      assert (f <= fmag 23 8 0x7F7FFFFF)%R.
      { apply Rnot_lt_le. intros G. assert (succ24 (fmag 23 8 0x7F7FFFFF) <= f)%R by (apply succ_le_lt; [typeclasses eauto|exact FM|exact Ff|exact G]).
        rewrite succ24_fmag in H by discriminate. lra. }
      destruct (Req_dec f (fmag 23 8 0x7F7FFFFF)) as [Q|Q].
      - rewrite Q, succ24_fmag, ET in E by discriminate. lra.
      - assert (succ24 f <= fmag 23 8 0x7F7FFFFF)%R by (apply succ_le_lt; [typeclasses eauto|exact Ff|exact FM|lra]). lra. }
    symmetry. apply root_round; [exact S0|exact NH].
  - apply EQV; [rewrite E, TIE; apply Rle_refl|]. pose proof (top_root B b FB Fb L UB E) as K. fold S in K.
    rewrite <- TIE. apply RN24_le. rewrite <- (sqrt_square top) by lra. apply sqrt_le_1_alt. exact K.
  - apply EQV; apply BIG; [exact K|]. apply root_gt; [apply HT|assumption|exact K].
Qed.

(** ** the exact comparison *)
Definition tail (r2 e rf : Z) : res Z :=
  let rd := f2d rf in
  let resid := add64 (sub64 r2 (mul64 rd rd)) e in
  if heq 52 11 resid 0 then Ok rf else
  if heq 23 8 rf 0x7F7FFFFF && hlt 52 11 0 resid then
    let m := 0x47EFFFFFF0000000 in
    Ok (if hle 52 11 0 (add64 (sub64 r2 (mul64 m m)) e) then 0x7F800000 else rf)
  else
  do nb <- nextafter 23 8 rf (if hlt 52 11 0 resid then 0x7F800000 else 0xFF800000);
  let m := mul64 0x3FE0000000000000 (add64 rd (f2d nb)) in
  let resid_m := add64 (sub64 r2 (mul64 m m)) e in
  if heq 52 11 resid_m 0 then Ok (if negb (Z.land rf 1 =? 0) then nb else rf)
  else Ok (if Bool.eqb (hlt 52 11 0 resid_m) (hlt 52 11 0 resid) then nb else rf).

Lemma residual_ok S r2 e m x : (0 <= S <= bpow radix2 257)%R -> dbl r2 (RN53 S) -> dbl e (S - RN53 S) -> F53 (S - RN53 S) ->
  (0 <= RN53 S <= bpow radix2 257)%R ->
  dbl m x -> (Rabs x <= bpow radix2 128)%R -> F53 (x * x) ->
  exists D, dbl (add64 (sub64 r2 (mul64 m m)) e) D /\ ((D = 0 <-> S = x * x) /\ (0 < D <-> x * x < S) /\ (D < 0 <-> S < x * x))%R.
Proof.
  intros S0 DR2 DE FE R0 Dm Hx Fxx. set (R2 := RN53 S) in *.
  assert (P256 : (bpow radix2 128 * bpow radix2 128 = bpow radix2 256)%R) by (rewrite <- bpow_plus; reflexivity).
  assert (P257 : (bpow radix2 257 = 2 * bpow radix2 256)%R) by (replace 257 with (1 + 256) by reflexivity; rewrite bpow_plus; reflexivity).
  assert (BE : (Rabs (S - R2) <= bpow radix2 258)%R).
  { replace 258 with (1 + 257) by reflexivity. rewrite bpow_plus. change (bpow radix2 1) with 2%R. apply Rabs_le. lra. }
  assert (X2 : (0 <= x * x <= bpow radix2 256)%R).
  { rewrite <- P256. apply Rabs_le_inv in Hx. nra. }
  pose proof (dbl_mul _ _ _ _ 256 Dm Dm ltac:(rewrite Rabs_pos_eq; lra) ltac:(lia)) as K1. rewrite (RN53_id _ Fxx) in K1.
  assert (BD : (Rabs (R2 - x * x) <= bpow radix2 257)%R) by (apply Rabs_le; lra).
  pose proof (dbl_sub _ _ _ _ 257 DR2 K1 BD ltac:(lia)) as K2.
  assert (BD2 : (Rabs (RN53 (R2 - x * x)) <= bpow radix2 257)%R).
  { rewrite RN53_eq. apply abs_round_le_generic; [typeclasses eauto|typeclasses eauto|apply generic_format_bpow; unfold FLT_exp; lia|exact BD]. }
  pose proof (dbl_add _ _ _ _ 259 K2 DE ltac:(apply (Rabs_sum _ _ 258); [apply (Rabs_weak _ _ _ BD2); lia|exact BE]) ltac:(lia)) as K3.
  eexists. split; [exact K3|]. exact (residual_sign S (x * x) Fxx FE _ eq_refl).
Qed.

Lemma PAR k : 0 <= k -> negb (Z.land k 1 =? 0) = negb (Z.even k).
Proof. intros Hk. change 1 with (Z.ones 1). rewrite Z.land_ones by lia. change (2^1) with 2. rewrite Zmod_even. destruct (Z.even k); reflexivity. Qed.

Lemma pos_float k : 0 <= k < 0x7F800000 -> fbits 23 8 k /\ ffinite 23 8 k = true /\ fneg 23 8 k = false /\ fval 23 8 k = fmag 23 8 k.
Proof.
  intros Hk. assert (A : fabsb 23 8 k = k) by (apply Z.mod_small; lia). assert (N : fneg 23 8 k = false) by (unfold fneg; lia).
  split; [split; [lia|change (2^(23+8+1)) with 0x100000000; lia]|]. split; [unfold ffinite; rewrite A; change (finf 23 8) with 0x7F800000; lia|]. split; [exact N|]. unfold fval. rewrite A, N. reflexivity.
Qed.
Lemma dbl_float k : 0 <= k < 0x7F800000 -> dbl (f2d k) (fmag 23 8 k).
Proof. intros Hk. destruct (pos_float k Hk) as (A & B & C & <-). apply dbl_f2d; assumption. Qed.
Lemma dbl_top : dbl 0x47EFFFFFF0000000 top.
Proof.
  unfold top. replace (IZR (2^25 - 1) * bpow radix2 103)%R with (IZR ((2^25 - 1) * 2^28) * bpow radix2 75)%R by (rewrite mult_IZR, Rmult_assoc; change (IZR (2^28)) with (bpow radix2 28); rewrite <- bpow_plus; reflexivity).
  apply dbl_const; lia.
Qed.
Lemma top_bound : (Rabs top <= bpow radix2 128)%R.
Proof. pose proof TP. pose proof FMLT as L. rewrite Rabs_pos_eq by lra. rewrite <- ETOP. rewrite EINF in *. lra. Qed.

Lemma tail_ok S r2 e rf : (0 <= S <= bpow radix2 257)%R -> dbl r2 (RN53 S) -> dbl e (S - RN53 S) -> F53 (S - RN53 S) ->
  (0 <= RN53 S <= bpow radix2 257)%R -> 0 <= rf < 0x7F800000 -> fmag 23 8 rf = RN24 (root S) -> (root S <= fmag 23 8 0x7F7FFFFF)%R ->
  exists r, tail r2 e rf = Ok r /\ rounds_to 23 8 (sqrt S) false r.
Proof.
  intros S0 DR2 DE FE R0 Krf Vrf RM. set (f := RN24 (root S)) in *. assert (Ff : F24 f) by apply RN24_F.
  assert (f0 : (0 <= f)%R) by (apply RN24_nonneg, root_nonneg).
  assert (RES := fun m x => residual_ok S r2 e m x S0 DR2 DE FE R0).
  unfold tail. cbv zeta.
  pose proof (dbl_float rf Krf) as DRD. pose proof (pos_float rf Krf) as (Hrf & Frf & Nrf & Wrf).
  assert (FU : (Rabs f <= bpow radix2 128)%R).
  { rewrite Rabs_pos_eq by exact f0. rewrite <- Vrf, <- EINF. apply fmag_le; [reflexivity|]. lia. }
  set (rd := f2d rf) in *. clearbody rd. rewrite Vrf in DRD.
  destruct (RES _ _ DRD FU (F53_mul f f Ff Ff)) as (D & DD & SD0 & SD1 & SD2).
  set (resid := add64 (sub64 r2 (mul64 rd rd)) e) in *. clearbody resid.
  assert (SQ : forall x, (0 <= x)%R -> (S = x * x)%R -> sqrt S = x) by (intros x Hx ->; apply sqrt_square; exact Hx).
  destruct (heq 52 11 resid 0) eqn:E0.
  { apply (dbl_eq _ _ _ _ DD dbl_0) in E0. eexists. split; [reflexivity|]. apply exact_result; [exact Krf|]. rewrite (SQ f f0 (proj1 SD0 E0)). rewrite Vrf. apply RN24_id. exact Ff. }
  assert (DN : D <> 0%R) by (intros K; apply (dbl_eq _ _ _ _ DD dbl_0) in K; congruence). clear E0.
  destruct (Rlt_or_le 0 D) as [DP|DP].
  - (* the root is above f *)
    rewrite (proj2 (dbl_lt _ _ _ _ dbl_0 DD) DP). apply SD1 in DP.
    assert (GT : (f < sqrt S)%R).
    { apply Rnot_le_lt. intros K. pose proof (sqrt_sqrt S (proj1 S0)) as Q. pose proof (sqrt_pos S). nra. }
    destruct (decide_up S (proj1 S0) GT) as [U1 U2]. fold f in U1, U2.
    rewrite Bool.andb_true_r. destruct (heq 23 8 rf 0x7F7FFFFF) eqn:EM.
    + assert (EF : f = fmag 23 8 0x7F7FFFFF).
      { assert (K : 0 <= 0x7F7FFFFF < 0x7F800000) by lia. destruct (pos_float _ K) as (M1 & M2 & _ & M4).
        apply (heq_ok 23 8 eq_refl eq_refl rf _ Hrf M1 Frf M2) in EM. rewrite Wrf, M4 in EM. congruence. }
      assert (LT : (S < top * top)%R).
      { apply Rnot_le_lt. intros K. pose proof (root_ge top S HT TP K) as Q. rewrite <- ETOP in Q. pose proof FMLT. lra. }
      destruct (RES _ _ dbl_top top_bound (half_square top HT TP)) as (D' & DD' & _ & _ & SD').
      set (dt := add64 _ e) in *. clearbody dt.
      assert (HN : hle 52 11 0 dt = false).
      { apply Bool.not_true_is_false. intros K. apply (dbl_le _ _ _ _ dbl_0 DD') in K. apply SD' in LT. lra. }
      rewrite HN. eexists. split; [reflexivity|]. apply exact_result; [exact Krf|]. rewrite Vrf. apply U1. rewrite EF, succ24_fmag, ETOP by lia. exact LT.
    + assert (Krf' : rf < 0x7F7FFFFF).
      { destruct (Z_lt_le_dec rf 0x7F7FFFFF); [assumption|]. assert (rf = 0x7F7FFFFF) as -> by lia. discriminate EM. }
      clear EM. rewrite nextafter_up by exact Krf. cbn [bind]. rewrite <- Vrf in U1, U2, DRD. rewrite succ24_fmag in U1, U2 by lia.
      assert (DNB : dbl (f2d (rf + 1)) (fmag 23 8 (rf + 1))) by (apply dbl_float; lia).
      destruct (midpoint_ok rf _ _ (conj (proj1 Krf) Krf') (or_introl (conj DRD DNB))) as (DM' & HM & PM & UM).
      set (m := ((fmag 23 8 rf + fmag 23 8 (rf + 1)) / 2)%R) in *.
      destruct (RES _ _ DM' UM (half_square m HM PM)) as (D' & DD' & SE0 & SE1 & SE2).
      set (rm := add64 (sub64 _ _) e) in *. clearbody rm.
      destruct (heq 52 11 rm 0) eqn:E0.
      * apply (dbl_eq _ _ _ _ DD' dbl_0) in E0. apply SE0 in E0. rewrite PAR by apply Krf.
        eexists. split; [reflexivity|]. apply exact_result; [destruct (negb _); lia|]. rewrite (SQ m ltac:(lra) E0). unfold m. rewrite tie_even by lia. destruct (Z.even rf); reflexivity.
      * assert (DN' : D' <> 0%R) by (intros K; apply (dbl_eq _ _ _ _ DD' dbl_0) in K; congruence).
        destruct (hlt 52 11 0 rm) eqn:E1; cbn [Bool.eqb].
        -- apply (dbl_lt _ _ _ _ dbl_0 DD') in E1. eexists. split; [reflexivity|]. apply exact_result; [lia|]. apply U2. apply SE1. exact E1.
        -- assert (~ (0 < D')%R) by (intros K; apply (dbl_lt _ _ _ _ dbl_0 DD') in K; congruence). eexists. split; [reflexivity|]. apply exact_result; [exact Krf|]. apply U1. apply SE2. lra.
  - (* the root is below f *)
    assert (E1 : hlt 52 11 0 resid = false). { apply Bool.not_true_is_false. intros K. apply (dbl_lt _ _ _ _ dbl_0 DD) in K. lra. }
    rewrite E1, Bool.andb_false_r. assert (DP' : (D < 0)%R) by lra. apply SD2 in DP'.
    assert (fp : (0 < f)%R) by nra.
    assert (k0 : 0 < rf). { destruct (Z.eq_dec rf 0) as [E|]; [|lia]. rewrite E, (fmag_0 23 8) in Vrf by reflexivity. lra. }
    assert (LT : (sqrt S < f)%R) by (apply sqrt_lt_of; [apply S0|exact fp|exact DP']).
    destruct (decide_dn S (proj1 S0) fp LT) as [U1 U2]. fold f in U1, U2.
    rewrite nextafter_dn by lia. cbn [bind].
    assert (PF : pred24 f = fmag 23 8 (rf - 1)) by (rewrite <- Vrf; replace rf with (rf - 1 + 1) at 1 by lia; apply pred24_fmag; lia).
    rewrite PF in U1, U2. rewrite <- Vrf in U1, U2, DRD.
    assert (DNB : dbl (f2d (rf - 1)) (fmag 23 8 (rf - 1))) by (apply dbl_float; lia).
    assert (DRD' : dbl rd (fmag 23 8 (rf - 1 + 1))) by (replace (rf - 1 + 1) with rf by lia; exact DRD).
    destruct (midpoint_ok (rf - 1) _ _ ltac:(lia) (or_intror (conj DRD' DNB))) as (DM' & HM & PM & UM). clear DRD'.
    replace (rf - 1 + 1) with rf in DM', HM, PM, UM by lia.
    set (m := ((fmag 23 8 (rf - 1) + fmag 23 8 rf) / 2)%R) in *.
    destruct (RES _ _ DM' UM (half_square m HM PM)) as (D' & DD' & SE0 & SE1 & SE2).
    set (rm := add64 (sub64 _ _) e) in *. clearbody rm.
    destruct (heq 52 11 rm 0) eqn:E0.
    + apply (dbl_eq _ _ _ _ DD' dbl_0) in E0. apply SE0 in E0. rewrite PAR by apply Krf.
      eexists. split; [reflexivity|]. apply exact_result; [destruct (negb _); lia|]. rewrite (SQ m ltac:(lra) E0). unfold m. replace rf with (rf - 1 + 1) at 2 by lia. rewrite tie_even by lia.
      replace (Z.even rf) with (negb (Z.even (rf - 1))). 2:{ rewrite Z.even_sub. change (Z.even 1) with false. destruct (Z.even rf); reflexivity. }
      rewrite Bool.negb_involutive. replace (rf - 1 + 1) with rf by lia. destruct (Z.even (rf - 1)); reflexivity.
    + assert (DN' : D' <> 0%R) by (intros K; apply (dbl_eq _ _ _ _ DD' dbl_0) in K; congruence).
      destruct (hlt 52 11 0 rm) eqn:E2; cbn [Bool.eqb].
      * apply (dbl_lt _ _ _ _ dbl_0 DD') in E2. eexists. split; [reflexivity|]. apply exact_result; [exact Krf|]. apply U2. apply SE1. exact E2.
      * assert (~ (0 < D')%R) by (intros K; apply (dbl_lt _ _ _ _ dbl_0 DD') in K; congruence). eexists. split; [reflexivity|]. apply exact_result; [lia|]. apply U1. apply SE2. lra.
Qed.

(** ** after the sum of squares is formed *)
Definition middle (bb ss : Z) : res Z :=
  let r2 := add64 bb ss in
  let r := sqrt64 r2 in
  let rf := d2f r in
  if 0x47EFFFFFE0000000 <? r then Ok rf else
  if 2 <? Z.land (u64 (r + 1)) 0xFFFFFFF then Ok rf else
  let bp := sub64 r2 bb in
  let e := add64 (sub64 bb (sub64 r2 bp)) (sub64 ss bp) in
  tail r2 e rf.

Lemma two_sum bb ss r2 x y : dbl bb x -> dbl ss y -> (0 <= y <= x)%R -> (x <= bpow radix2 256)%R -> dbl r2 (RN53 (x + y)) ->
  dbl (add64 (sub64 bb (sub64 r2 (sub64 r2 bb))) (sub64 ss (sub64 r2 bb))) (x + y - RN53 (x + y)).
Proof.
  intros Dx Dy L U DR2. pose proof (dbl_fin _ _ Dx) as Fx. pose proof (dbl_fin _ _ Dy) as Fy.
  destruct (sum_part x y Fx Fy L) as [FP LP]. pose proof (sum_error x y Fx Fy) as FE. set (R2 := RN53 (x + y)) in *.
  assert (P257 : (bpow radix2 257 = 2 * bpow radix2 256)%R) by (replace 257 with (1 + 256) by reflexivity; rewrite bpow_plus; reflexivity).
  assert (P258 : (bpow radix2 258 = 4 * bpow radix2 256)%R) by (replace 258 with (2 + 256) by reflexivity; rewrite bpow_plus; reflexivity).
  pose proof (dbl_sub _ _ _ _ 257 DR2 Dx ltac:(rewrite Rabs_pos_eq; lra) ltac:(lia)) as DBP. rewrite (RN53_id _ FP) in DBP.
  set (bp := sub64 r2 bb) in *. clearbody bp.
  pose proof (dbl_sub _ _ _ _ 257 DR2 DBP ltac:(rewrite Rabs_pos_eq; lra) ltac:(lia)) as D1.
  replace (R2 - (R2 - x))%R with x in D1 by ring. rewrite (RN53_id _ Fx) in D1. set (t1 := sub64 r2 bp) in *. clearbody t1.
  pose proof (dbl_sub _ _ _ _ 257 Dx D1 ltac:(rewrite Rminus_diag_eq, Rabs_R0 by reflexivity; apply bpow_ge_0) ltac:(lia)) as D2.
  rewrite (Rminus_diag_eq x x eq_refl), (RN53_id 0 (generic_format_0 _ _)) in D2. set (t2 := sub64 bb t1) in *. clearbody t2.
  assert (BE : (Rabs (x + y - R2) <= bpow radix2 258)%R) by (apply Rabs_le; lra).
  pose proof (dbl_sub _ _ _ _ 258 Dy DBP ltac:(replace (y - (R2 - x))%R with (x + y - R2)%R by ring; exact BE) ltac:(lia)) as D3.
  replace (y - (R2 - x))%R with (x + y - R2)%R in D3 by ring. rewrite (RN53_id _ FE) in D3. set (t3 := sub64 ss bp) in *. clearbody t3.
  pose proof (dbl_add _ _ _ _ 258 D2 D3 ltac:(rewrite Rplus_0_l; exact BE) ltac:(lia)) as DE. rewrite Rplus_0_l, (RN53_id _ FE) in DE. exact DE.
Qed.

Lemma middle_ok bb ss B b : F24 B -> F24 b -> (0 <= b <= B)%R -> (B < bpow radix2 128)%R ->
  dbl bb (B * B) -> dbl ss (b * b) -> fneg 52 11 bb = false -> fneg 52 11 ss = false ->
  exists r, middle bb ss = Ok r /\ rounds_to 23 8 (sqrt (B * B + b * b)) false r.
Proof.
  intros FB Fb L UB DBB Dbb NBB Nbb.
  assert (P256 : (bpow radix2 128 * bpow radix2 128 = bpow radix2 256)%R) by (rewrite <- bpow_plus; reflexivity).
  assert (SBB : (0 <= B * B <= bpow radix2 256)%R) by (rewrite <- P256; nra).
  assert (Sbb : (0 <= b * b <= B * B)%R) by nra.
  set (S := (B * B + b * b)%R) in *. assert (S0 : (0 <= S <= bpow radix2 257)%R) by (unfold S; replace 257 with (1 + 256) by reflexivity; rewrite bpow_plus; change (bpow radix2 1) with 2%R; lra).
  pose proof (dbl_add _ _ _ _ 257 DBB Dbb ltac:(rewrite Rabs_pos_eq; apply S0) ltac:(lia)) as DR2. fold S in DR2.
  assert (NR2 : fneg 52 11 (add64 bb ss) = false).
  { destruct DBB as (A1 & A2 & A3 & _). destruct Dbb as (C1 & C2 & C3 & _). destruct (hadd_ok 52 11 eq_refl eq_refl eq_refl bb ss A1 C1 A2 C2) as (_ & K & _).
    rewrite A3, C3, NBB, Nbb in K. unfold add64. rewrite K. fold S. unfold sum_sign. destruct (Rcompare_spec S 0); [lra|reflexivity|reflexivity]. }
  unfold middle. cbv zeta. pose proof (two_sum bb ss (add64 bb ss) _ _ DBB Dbb Sbb (proj2 SBB) DR2) as DE. fold S in DE.
  set (r2 := add64 bb ss) in *. clearbody r2. set (e := add64 (sub64 bb _) _) in *. clearbody e.
  pose proof (sum_error (B * B) (b * b) (dbl_fin _ _ DBB) (dbl_fin _ _ Dbb)) as FE. fold S in FE.
  assert (R0 : (0 <= RN53 S <= bpow radix2 257)%R).
  { split; [rewrite <- (RN53_id 0) by apply generic_format_0; apply RN53_le; apply S0|]. rewrite RN53_eq. apply round_le_generic; [typeclasses eauto|typeclasses eauto|apply generic_format_bpow; unfold FLT_exp; lia|apply S0]. }
  assert (RR : rounds_to 52 11 (sqrt (RN53 S)) false (sqrt64 r2)).
  { destruct DR2 as (A1 & A2 & A3 & _). rewrite <- A3. apply sqrt64_ok; assumption. }
  set (r := sqrt64 r2) in *. clearbody r.
  assert (RB : (Rabs (sqrt (RN53 S)) <= bpow radix2 129)%R).
  { rewrite Rabs_pos_eq by apply sqrt_pos. rewrite <- (sqrt_square (bpow radix2 129)) by apply bpow_ge_0. apply sqrt_le_1_alt. rewrite <- bpow_plus. apply Rle_trans with (1 := proj2 R0). apply bpow_le. lia. }
  pose proof (dbl_rounds _ _ _ 129 RR RB ltac:(lia)) as DR. fold (root S) in DR.
  assert (NR : fneg 52 11 r = false) by apply RR. clear RR RB.
  assert (RF : rounds_to 23 8 (root S) false (d2f r)).
  { destruct DR as (A1 & A2 & A3 & _). pose proof (hcvt_ok 52 11 23 8 eq_refl eq_refl eq_refl eq_refl eq_refl eq_refl r A1 A2) as K. rewrite A3, NR in K. exact K. }
  set (rf := d2f r) in *. clearbody rf.
  destruct (pos_pattern 52 11 r eq_refl eq_refl (proj1 DR) NR) as (Ar & Rr & Vr).
  assert (DM : dbl 0x47EFFFFFE0000000 (fmag 23 8 0x7F7FFFFF)).
  { rewrite EFM. replace (IZR (2^24 - 1) * bpow radix2 104)%R with (IZR ((2^24 - 1) * 2^29) * bpow radix2 75)%R by (rewrite mult_IZR, Rmult_assoc; change (IZR (2^29)) with (bpow radix2 29); rewrite <- bpow_plus; reflexivity).
    apply dbl_const; lia. }
  assert (CMP : (0x47EFFFFFE0000000 <? r) = true <-> (fmag 23 8 0x7F7FFFFF < root S)%R).
  { destruct DM as (M1 & M2 & M3 & _). destruct DR as (A1 & A2 & A3 & _). rewrite <- M3, <- A3, Z.ltb_lt.
    rewrite <- (ford_lt 52 11 eq_refl eq_refl _ _ M1 A1). unfold ford. rewrite Ar, NR. replace (fabsb 52 11 0x47EFFFFFE0000000) with 0x47EFFFFFE0000000 by reflexivity. replace (fneg 52 11 0x47EFFFFFE0000000) with false by reflexivity. apply iff_refl. }
  destruct (0x47EFFFFFE0000000 <? r) eqn:EO.
  { eexists. split; [reflexivity|]. apply overflow_ok; try assumption. apply CMP. reflexivity. }
  destruct (2 <? Z.land (u64 (r + 1)) 0xFFFFFFF) eqn:EQ.
  { eexists. split; [reflexivity|]. apply (same_result (root S)); [|exact RF]. symmetry. apply root_round; [apply S0|]. intros H.
    rewrite (quick_test r) in EQ; [discriminate|apply DR|exact NR|]. destruct DR as (_ & _ & -> & _). exact H. }
  assert (RM : (root S <= fmag 23 8 0x7F7FFFFF)%R). { apply Rnot_lt_le. intros K. apply CMP in K. congruence. }
  assert (f1 : (RN24 (root S) <= fmag 23 8 0x7F7FFFFF)%R) by (rewrite <- (RN24_id _ FM); apply RN24_le; exact RM).
  pose proof (RN24_nonneg _ (root_nonneg S)) as f0. pose proof FMLT as LT. rewrite EINF in LT.
  destruct RF as (Hrf & Nrf & RF & _). destruct (RF ltac:(rewrite Rabs_pos_eq; [change (2^(8-1)) with 128; lra|exact f0])) as [Frf Vrf]. clear RF.
  destruct (pos_pattern 23 8 rf eq_refl eq_refl Hrf Nrf) as (Arf & Rrf & Vrf').
  apply tail_ok; try assumption; [|congruence].
  unfold ffinite in Frf. rewrite Arf in Frf. change (finf 23 8) with 0x7F800000 in Frf. lia.
Qed.

(** ** the part of hypotf after the operands are sorted *)
Definition sorted (big small : Z) : res Z :=
  let bd := f2d big in
  let sd := f2d small in
  let bb := mul64 bd bd in
  let ss := mul64 sd sd in
  if hlt 52 11 sd (mul64 bd 0x3F2FFFFFE0000000) then Ok big else middle bb ss.

Lemma sorted_ok big small : fbits 23 8 big -> fbits 23 8 small -> ffinite 23 8 big = true -> ffinite 23 8 small = true ->
  fneg 23 8 big = false -> fneg 23 8 small = false -> (fval 23 8 small <= fval 23 8 big)%R ->
  exists r, sorted big small = Ok r /\
    rounds_to 23 8 (sqrt (fval 23 8 big * fval 23 8 big + fval 23 8 small * fval 23 8 small)) false r.
Proof.
  intros Hbig Hsm Fbig Fsm Nbig Nsm LE. unfold sorted. cbv zeta.
  destruct (pos_pattern 23 8 big eq_refl eq_refl Hbig Nbig) as (Ab & Rb & Vb). destruct (pos_pattern 23 8 small eq_refl eq_refl Hsm Nsm) as (As & Rs & Vs).
  pose proof (dbl_f2d big Hbig Fbig) as DB. pose proof (dbl_f2d small Hsm Fsm) as Db.
  pose proof (fval_format 23 8 eq_refl eq_refl big Hbig : F24 (fval 23 8 big)) as FB.
  pose proof (fval_format 23 8 eq_refl eq_refl small Hsm : F24 (fval 23 8 small)) as Fb.
  pose proof (fval_bound 23 8 eq_refl eq_refl eq_refl big Hbig Fbig) as UB. change (2^(8-1)) with 128 in UB.
  assert (b0 : (0 <= fval 23 8 small)%R) by (rewrite Vs; apply fmag_nonneg; [reflexivity|lia]).
  set (B := fval 23 8 big) in *. set (b := fval 23 8 small) in *. clearbody b. rewrite Rabs_pos_eq in UB by lra.
  set (bd := f2d big) in *. set (sd := f2d small) in *. clearbody bd sd.
  assert (DC : dbl 0x3F2FFFFFE0000000 (IZR (2^24 - 1) * bpow radix2 (-36))).
  { replace (IZR (2^24 - 1) * bpow radix2 (-36))%R with (IZR ((2^24 - 1) * 2^29) * bpow radix2 (-65))%R by (rewrite mult_IZR, Rmult_assoc; change (IZR (2^29)) with (bpow radix2 29); rewrite <- bpow_plus; reflexivity).
    apply dbl_const; lia. }
  assert (HC : F24 (IZR (2^24 - 1) * bpow radix2 (-36))) by (apply FLT_multiple; lia).
  assert (UC : (0 < IZR (2^24 - 1) * bpow radix2 (-36) <= 1)%R).
  { split; [apply Rmult_lt_0_compat; [apply IZR_lt; reflexivity|apply bpow_gt_0]|]. apply Rle_trans with (bpow radix2 24 * bpow radix2 (-36))%R; [apply Rmult_le_compat_r; [apply bpow_ge_0|change (bpow radix2 24) with (IZR (2^24)); apply IZR_le; lia]|]. rewrite <- bpow_plus. change 1%R with (bpow radix2 0). apply bpow_le. lia. }
  assert (NEG : (b < B * (IZR (2^24 - 1) * bpow radix2 (-36)))%R -> RN24 (sqrt (B * B + b * b)) = B) by (apply negligible; assumption).
  set (c := (IZR (2^24 - 1) * bpow radix2 (-36))%R) in *. clearbody c.
  assert (BC : (Rabs (B * c) <= bpow radix2 128)%R) by (rewrite Rabs_pos_eq by nra; nra).
  pose proof (dbl_mul _ _ _ _ 128 DB DC BC ltac:(lia)) as DBC. rewrite (RN53_id (B * c)) in DBC by (apply F53_mul; assumption).
  set (cut := mul64 bd 0x3F2FFFFFE0000000) in *. clearbody cut.
  destruct (hlt 52 11 sd cut) eqn:EQ.
  { apply (dbl_lt _ _ _ _ Db DBC) in EQ. exists big. split; [reflexivity|]. unfold ffinite in Fbig. rewrite Ab in Fbig. change (finf 23 8) with 0x7F800000 in Fbig.
    apply exact_result; [lia|]. rewrite <- Vb. exact (NEG EQ). }
  assert (P256 : (bpow radix2 128 * bpow radix2 128 = bpow radix2 256)%R) by (rewrite <- bpow_plus; reflexivity).
  assert (SBB : (0 <= B * B <= bpow radix2 256)%R) by (rewrite <- P256; nra).
  assert (Sbb : (0 <= b * b <= B * B)%R) by nra.
  pose proof (dbl_mul _ _ _ _ 256 DB DB ltac:(rewrite Rabs_pos_eq; apply SBB) ltac:(lia)) as DBB. rewrite (RN53_id (B * B)) in DBB by (apply F53_mul; assumption).
  pose proof (dbl_mul _ _ _ _ 256 Db Db ltac:(rewrite Rabs_pos_eq; lra) ltac:(lia)) as Dbb. rewrite (RN53_id (b * b)) in Dbb by (apply F53_mul; assumption).
  assert (NS : forall d x, dbl d x -> fneg 52 11 (mul64 d d) = false).
  { intros d x (A1 & A2 & _). destruct (hmul_ok 52 11 eq_refl eq_refl eq_refl d d A1 A1 A2 A2) as (_ & K & _). rewrite Bool.xorb_nilpotent in K. exact K. }
  apply middle_ok; try assumption; [lra| |]; eapply NS; eassumption.
Qed.

Lemma abs_pattern x : fbits 23 8 x -> ffinite 23 8 x = true ->
  let a := fabsb 23 8 x in fbits 23 8 a /\ ffinite 23 8 a = true /\ fneg 23 8 a = false /\ (fval 23 8 a * fval 23 8 a = fval 23 8 x * fval 23 8 x)%R.
Proof.
  intros Hx Fx a. pose proof (fabsb_range 23 8 eq_refl eq_refl x) as R. fold a in R. change (2^(23+8)) with 0x80000000 in R.
  assert (A : fabsb 23 8 a = a) by (apply Z.mod_small; lia). assert (N : fneg 23 8 a = false) by (unfold fneg; lia).
  split; [split; [lia|change (2^(23+8+1)) with 0x100000000; lia]|]. split; [unfold ffinite in *; rewrite A; exact Fx|]. split; [exact N|].
  unfold fval. rewrite A, N. fold a. destruct (fneg 23 8 x); ring.
Qed.

Lemma hypotf_sorted x y : hypotf x y =
  let ax := fabsb 23 8 x in let ay := fabsb 23 8 y in
  if negb (ffinite 23 8 ax) || negb (ffinite 23 8 ay) then
    Ok (if fisinf 23 8 ax || fisinf 23 8 ay then 0x7F800000 else add32 ax ay)
  else sorted (fmax 23 8 ax ay) (fmin 23 8 ax ay).
Proof. unfold hypotf, sorted, middle, tail. reflexivity. Qed.

Theorem hypotf_ok x y : fbits 23 8 x -> fbits 23 8 y -> ffinite 23 8 x = true -> ffinite 23 8 y = true ->
  exists r, hypotf x y = Ok r /\ rounds_to 23 8 (sqrt (fval 23 8 x * fval 23 8 x + fval 23 8 y * fval 23 8 y)) false r.
Proof.
  intros Hx Hy Fx Fy. destruct (abs_pattern x Hx Fx) as (Ha & Fa & Na & Ea). destruct (abs_pattern y Hy Fy) as (Hb & Fb & Nb & Eb). rewrite <- Ea, <- Eb.
  rewrite hypotf_sorted. cbv zeta. set (a := fabsb 23 8 x) in *. set (b := fabsb 23 8 y) in *. clearbody a b. rewrite Fa, Fb. cbn [negb orb].
  assert (NN : forall z, ffinite 23 8 z = true -> fisnan 23 8 z = false) by (intros z Hz; unfold ffinite, fisnan in *; lia).
  unfold fmax, fmin. rewrite (NN b Fb), !Bool.orb_false_r.
  destruct (hle 23 8 b a) eqn:E1.
  - apply (hle_ok 23 8 eq_refl eq_refl b a Hb Ha Fb Fa) in E1. destruct (hle 23 8 a b) eqn:E2.
    + apply (hle_ok 23 8 eq_refl eq_refl a b Ha Hb Fa Fb) in E2. assert (EV : fval 23 8 a = fval 23 8 b) by lra. rewrite <- EV. apply sorted_ok; try assumption. lra.
    + apply sorted_ok; assumption.
  - assert (L : (fval 23 8 a <= fval 23 8 b)%R). { apply Rnot_lt_le. intros K. assert (hle 23 8 b a = true) by (apply (hle_ok 23 8 eq_refl eq_refl b a Hb Ha Fb Fa); lra). congruence. }
    rewrite (proj2 (hle_ok 23 8 eq_refl eq_refl a b Ha Hb Fa Fb) L). rewrite Rplus_comm. apply sorted_ok; assumption.
Qed.

Theorem hypotf_inf x y : fbits 23 8 x -> fbits 23 8 y -> fisinf 23 8 x = true \/ fisinf 23 8 y = true -> hypotf x y = Ok 0x7F800000.
Proof.
  intros Hx Hy H. rewrite hypotf_sorted. cbv zeta.
  pose proof (fabsb_range 23 8 eq_refl eq_refl x) as R. pose proof (fabsb_range 23 8 eq_refl eq_refl y) as R'.
  assert (A : forall z, fabsb 23 8 (fabsb 23 8 z) = fabsb 23 8 z) by (intros z; apply Z.mod_mod; lia).
  unfold ffinite, fisinf in *. rewrite !A.
  destruct H as [H|H]; apply Z.eqb_eq in H; rewrite H, Z.ltb_irrefl, Z.eqb_refl; cbn [negb orb]; [reflexivity|]. rewrite !Bool.orb_true_r. reflexivity.
Qed.

Lemma add_nan a b : fbits 23 8 a -> fbits 23 8 b -> fisnan 23 8 a = true \/ fisnan 23 8 b = true -> fisnan 23 8 (add32 a b) = true.
Proof.
  intros Ha Hb [N|N]; unfold add32, hadd; [rewrite (dec_nan 23 8 eq_refl eq_refl eq_refl a Ha N)|rewrite (dec_nan 23 8 eq_refl eq_refl eq_refl b Hb N)].
  - reflexivity.
  - destruct (dec 23 8 eq_refl eq_refl eq_refl a); reflexivity.
Qed.

Theorem hypotf_nan x y : fbits 23 8 x -> fbits 23 8 y -> fisnan 23 8 x = true \/ fisnan 23 8 y = true ->
  fisinf 23 8 x = false -> fisinf 23 8 y = false -> exists r, hypotf x y = Ok r /\ fisnan 23 8 r = true.
Proof.
  intros Hx Hy H Ix Iy. rewrite hypotf_sorted. cbv zeta.
  pose proof (fabsb_range 23 8 eq_refl eq_refl x) as R. pose proof (fabsb_range 23 8 eq_refl eq_refl y) as R'.
  assert (A : forall z, fabsb 23 8 (fabsb 23 8 z) = fabsb 23 8 z) by (intros z; apply Z.mod_mod; lia).
  set (a := fabsb 23 8 x) in *. set (b := fabsb 23 8 y) in *.
  assert (N : fisnan 23 8 a = true \/ fisnan 23 8 b = true) by (unfold fisnan, a, b in *; rewrite !A; exact H).
  assert (E : negb (ffinite 23 8 a) || negb (ffinite 23 8 b) = true).
  { unfold ffinite, fisnan in *. destruct N as [N|N]; [replace (fabsb 23 8 a <? finf 23 8) with false by lia; reflexivity|]. replace (fabsb 23 8 b <? finf 23 8) with false by lia. apply Bool.orb_true_r. }
  rewrite E. replace (fisinf 23 8 a) with false by (unfold fisinf, a in *; rewrite A; congruence). replace (fisinf 23 8 b) with false by (unfold fisinf, b in *; rewrite A; congruence).
  cbn [orb]. eexists. split; [reflexivity|]. change (2^(23+8)) with 0x80000000 in *. apply add_nan; [split; [lia|change (2^(23+8+1)) with 0x100000000; lia]|split; [lia|change (2^(23+8+1)) with 0x100000000; lia]|exact N].
Qed.
