(** remainder and remquo. *)
From Coq Require Import Reals Lra.
From Flocq Require Import Core BinarySingleNaN.
From Verif Require Import Base Bits FP FP_Proof HW HW_Proof FPInt FPOps Int128_Model Math_Model Math_Round_Proof Math_Int_Proof Math_Spec Math_Lround_Proof Math_Basic_Proof Math_Scalbn_Proof Math_Fmod_Proof.
Open Scope Z_scope.
Local Ltac Zify.zify_post_hook ::= idtac.

(** An integer within 1/2, even if at 1/2 exactly, is the nearest one. *)
Lemma nearest_unique x q : (Rabs (x - IZR q) <= / 2)%R -> ((Rabs (x - IZR q) = / 2)%R -> Z.even q = true) -> ZnearestE x = q.
Proof.
  intros H T. destruct (Rle_lt_or_eq_dec _ _ H) as [L|E].
  - apply Znearest_imp. exact L.
  - specialize (T E). unfold Rabs in E. destruct (Rcase_abs (x - IZR q)) as [N|N].
    + assert (X : (x = IZR (q - 1) + / 2)%R) by (rewrite minus_IZR; lra).
      assert (FL : Zfloor x = q - 1) by (apply Zfloor_imp; rewrite plus_IZR; lra).
      unfold Znearest. rewrite FL, Rcompare_Eq by lra. rewrite Z.even_sub, T. cbn [Z.even Bool.eqb negb].
      rewrite Zceil_floor_neq; rewrite FL; [lia|lra].
    + assert (FL : Zfloor x = q) by (apply Zfloor_imp; rewrite plus_IZR; lra).
      unfold Znearest. rewrite FL, Rcompare_Eq by lra. rewrite T. reflexivity.
Qed.

Lemma nearest_div a b q : b <> 0 -> 2 * Z.abs (a - q * b) <= Z.abs b -> (2 * Z.abs (a - q * b) = Z.abs b -> Z.even q = true) ->
  ZnearestE (IZR a / IZR b) = q.
Proof.
  intros B H T. assert (E : (Rabs (IZR a / IZR b - IZR q) = IZR (Z.abs (a - q * b)) / IZR (Z.abs b))%R).
  { rewrite !abs_IZR, minus_IZR, mult_IZR. apply IZR_neq in B. unfold Rdiv at 2. rewrite <- Rabs_inv, <- Rabs_mult. f_equal. field. exact B. }
  assert (P : (0 < IZR (Z.abs b))%R) by (apply IZR_lt; lia).
  apply nearest_unique; rewrite E.
  - apply IZR_le in H. rewrite mult_IZR in H. apply Rmult_le_reg_r with (IZR (Z.abs b)); [exact P|].
    unfold Rdiv. rewrite Rmult_assoc, Rinv_l by lra. lra.
  - intros X. apply T. apply eq_IZR. rewrite mult_IZR. apply (f_equal (fun z => z * IZR (Z.abs b))%R) in X.
    unfold Rdiv in X. rewrite Rmult_assoc, Rinv_l in X by lra. lra.
Qed.

Section Format.
Set Default Proof Using "All".
Variables mw ew : Z.
Hypothesis Hmw : 0 < mw.
Hypothesis Hew0 : 0 < ew.
Hypothesis Hpe : mw + 1 < 2^(ew - 1).
Hypothesis Hew : 1 < ew.

Notation emin := (emin mw ew).
Notation fval := (fval mw ew).
Notation fabsb := (fabsb mw ew).
Notation fneg := (fneg mw ew).
Notation fbits := (fbits mw ew).
Notation ffinite := (ffinite mw ew).
Notation fisnan := (fisnan mw ew).
Notation fisinf := (fisinf mw ew).
Notation with_sign := (with_sign mw ew).
Notation imag := (imag mw).
Notation ival := (ival mw ew).
Notation unit := (unit mw ew).
Notation finf := (finf mw ew).
Notation limit := (limit mw ew).
Notation repr := (repr mw).
Notation W := (mw + ew + 1).
Notation bias := (2^(ew - 1) - 1).
Notation copysign := (copysign mw ew).
Notation hsub := (hsub mw ew Hmw Hew0 Hpe).
Notation hmul := (hmul mw ew Hmw Hew0 Hpe).
Notation hofZ := (hofZ mw ew Hmw Hpe).

(** Comparisons of numbers, infinities included: the value of an infinity is [limit]. *)
Lemma ford_ival a b : fbits a -> fbits b -> (ford mw ew a < ford mw ew b <-> ival a < ival b).
Proof.
  intros Ha Hb. rewrite (ford_lt mw ew Hmw Hew0 a b Ha Hb). apply (fval_lt_ival mw ew Hmw Hew).
Qed.
Lemma hlt_num a b : fbits a -> fbits b -> fisnan a = false -> fisnan b = false -> hlt mw ew a b = (ival a <? ival b).
Proof. intros Ha Hb Na Nb. unfold hlt. rewrite Na, Nb. pose proof (ford_ival a b Ha Hb). cbn [negb andb]. lia. Qed.
Lemma hle_num a b : fbits a -> fbits b -> fisnan a = false -> fisnan b = false -> hle mw ew a b = (ival a <=? ival b).
Proof. intros Ha Hb Na Nb. unfold hle. rewrite Na, Nb. pose proof (ford_ival b a Hb Ha). cbn [negb andb]. lia. Qed.
Lemma finite_num a : ffinite a = true -> fisnan a = false.
Proof. unfold FP.ffinite, FP.fisnan. lia. Qed.

Lemma abs_ival x : Z.abs (ival x) = imag (fabsb x).
Proof.
  unfold FPInt.ival. pose proof (fabsb_range mw ew Hmw Hew x) as R. pose proof (imag_nonneg mw ew Hmw Hew (fabsb x) (proj1 R)) as I.
  clear R. destruct (fneg x); lia.
Qed.
Lemma abs_ival_sign x : Z.abs (ival x) = if fneg x then - ival x else ival x.
Proof. rewrite abs_ival. unfold FPInt.ival. destruct (fneg x); ring. Qed.
Lemma abs_ival_pos y : fabsb y <> 0 -> 0 < Z.abs (ival y).
Proof.
  intros N. rewrite abs_ival. pose proof (fabsb_range mw ew Hmw Hew y) as R.
  pose proof (proj1 (imag_lt mw ew Hmw Hew 0 (fabsb y) ltac:(lia) ltac:(lia)) ltac:(lia)) as I. rewrite (imag_0 mw Hmw) in I. exact I.
Qed.

(** Sterbenz: a difference no larger than either operand is exact. *)
Lemma repr_sub n d : repr n -> repr d -> Z.abs (n - d) <= Z.abs n -> Z.abs (n - d) <= Z.abs d -> repr (n - d).
Proof.
  intros (q & j & E & Hj & Hq) (q' & j' & E' & Hj' & Hq') L L'.
  destruct (Z.le_ge_cases j j') as [J|J].
  - exists (q - q' * 2^(j' - j)), j. split; [|split; [exact Hj|]].
    + rewrite E, E', Z.mul_sub_distr_r, <- Z.mul_assoc, <- Z.pow_add_r by lia. do 3 f_equal. lia.
    + assert (X : n - d = (q - q' * 2^(j' - j)) * 2^j).
      { rewrite E, E', Z.mul_sub_distr_r, <- Z.mul_assoc, <- Z.pow_add_r by lia. do 3 f_equal. lia. }
      rewrite X, E, !Z.abs_mul in L. pose proof (pow2_pos j Hj). rewrite (Z.abs_eq (2^j)) in L by lia. apply Z.mul_le_mono_pos_r in L; lia.
  - exists (q * 2^(j - j') - q'), j'. assert (X : n - d = (q * 2^(j - j') - q') * 2^j').
    { rewrite E, E', Z.mul_sub_distr_r, <- Z.mul_assoc, <- Z.pow_add_r by lia. do 3 f_equal. lia. }
    split; [exact X|split; [exact Hj'|]].
    rewrite X, E', !Z.abs_mul in L'. pose proof (pow2_pos j' Hj'). rewrite (Z.abs_eq (2^j')) in L' by lia. apply Z.mul_le_mono_pos_r in L'; lia.
Qed.

Lemma sub_step n d : fbits n -> fbits d -> ffinite n = true -> ffinite d = true -> fneg n = false -> fneg d = false ->
  ival d <= 2 * ival n -> ival n <= 2 * ival d ->
  fbits (hsub n d) /\ ffinite (hsub n d) = true /\ fneg (hsub n d) = (ival n <? ival d) /\ ival (hsub n d) = ival n - ival d.
Proof.
  intros Hn Hd Fn Fd Sn Sd L1 L2.
  pose proof (proj2 (sign_ival mw ew Hmw Hew0 Hpe Hew n) Sn). pose proof (proj2 (sign_ival mw ew Hmw Hew0 Hpe Hew d) Sd).
  pose proof (proj1 (finite_limit mw ew Hmw Hew0 Hpe Hew n Hn) Fn).
  destruct (hsub_exact mw ew Hmw Hew0 Hpe Hew n d Hn Hd Fn Fd) as (A & B & C & D); [apply repr_sub; try apply (repr_ival mw ew Hmw Hew0 Hpe Hew); lia|lia|].
  split; [exact A|]. split; [exact B|]. split; [|exact D]. rewrite C, Sn, Sd. unfold zsign.
  destruct (Z.compare_spec (ival n - ival d) 0); cbn [andb negb]; symmetry; lia.
Qed.

(** Products by a power of two: exact, or infinite. *)
Lemma mul_pow2 c k n : 0 <= k -> fbits c -> ffinite c = true -> fneg c = false -> fval c = IZR (2^k) -> fbits n -> ffinite n = true ->
  let p := hmul c n in
  fbits p /\ fneg p = fneg n /\ fisnan p = false /\
  (Z.abs (ival n) * 2^k < limit -> ffinite p = true /\ ival p = ival n * 2^k) /\
  (limit <= Z.abs (ival n) * 2^k -> fabsb p = finf /\ Z.abs (ival p) = limit).
Proof.
  intros Hk Hc Fc Sc Vc Hn Fn p. pose proof (hmul_ok mw ew Hmw Hew0 Hpe c n Hc Hn Fc Fn) as M. fold p in M.
  rewrite Sc, Vc, xorb_false_l in M. rewrite (fval_i mw ew Hmw Hew0 Hpe Hew n), <- Rmult_assoc, <- mult_IZR in M.
  rewrite (Z.mul_comm (2^k)) in M. pose proof (pow2_pos k Hk) as Pk.
  assert (AB : Z.abs (ival n * 2^k) = Z.abs (ival n) * 2^k) by (rewrite Z.abs_mul, (Z.abs_eq (2^k)); lia).
  assert (RP : repr (ival n * 2^k)) by (apply (repr_pow2 mw Hmw); [apply (repr_ival mw ew Hmw Hew0 Hpe Hew)|exact Hk]).
  pose proof M as (A & B & C & D). split; [exact A|]. split; [exact B|].
  assert (S1 : Z.abs (ival n) * 2^k < limit -> ffinite p = true /\ ival p = ival n * 2^k).
  { intros L. destruct (rounds_exact_int mw ew Hmw Hew0 Hpe Hew _ _ _ M RP ltac:(lia)) as (_ & X & _ & Y). split; assumption. }
  assert (S2 : limit <= Z.abs (ival n) * 2^k -> fabsb p = finf).
  { intros L. apply D. rewrite <- (limit_bpow mw ew Hmw Hew0 Hpe Hew). unfold RN.
    rewrite round_generic; [|typeclasses eauto|apply (repr_format mw ew Hmw Hew0 Hpe Hew); exact RP].
    rewrite Rabs_mult, (Rabs_pos_eq (bpow radix2 emin)) by apply bpow_ge_0. apply Rmult_le_compat_r; [apply bpow_ge_0|].
    rewrite <- abs_IZR. apply IZR_le. lia. }
  split; [|split; [exact S1|]].
  - destruct (Z.lt_ge_cases (Z.abs (ival n) * 2^k) limit) as [L|L]; [apply finite_num, (proj1 (S1 L))|].
    unfold FP.fisnan. rewrite (S2 L). lia.
  - intros L. split; [exact (S2 L)|]. unfold FPInt.ival. rewrite (S2 L). fold limit. pose proof (limit_pos mw ew Hmw Hew0 Hpe Hew) as LP.
    unfold FPOps.limit in *. destruct (fneg p); lia.
Qed.

Lemma c_two_spec : fbits (c_two mw ew) /\ ffinite (c_two mw ew) = true /\ fneg (c_two mw ew) = false /\ fval (c_two mw ew) = IZR (2^1).
Proof.
  destruct (pow_ew ew Hew) as [PE PE2]. assert (2 < 2^(ew-1)) by lia.
  destruct (pow2_pattern mw ew Hmw Hew0 Hpe Hew (bias + 1) ltac:(lia)) as (A & B & C & D). unfold c_two.
  split; [exact A|]. split; [exact B|]. split; [exact C|]. apply (fval_IZR mw ew Hmw Hew). rewrite D, (unit_eq mw ew Hmw Hew0 Hpe Hew).
  rewrite <- Z.pow_add_r by lia. f_equal. lia.
Qed.

(** The half of a number that is not small is exact. *)
Lemma half_step d : fbits d -> ffinite d = true -> fneg d = false -> 2 * 2^mw <= ival d -> exists h, ival d = 2 * h /\
  let p := hmul (c_half mw ew) d in fbits p /\ ffinite p = true /\ ival p = h.
Proof.
  intros Hd Fd Sd L. pose proof (pmw mw Hmw) as P. pose proof (pmw1 mw Hmw) as P1. pose proof (fabsb_range mw ew Hmw Hew d) as R.
  assert (E : ival d = imag (fabsb d)) by (unfold FPInt.ival; rewrite Sd; reflexivity).
  destruct (imag_unpack mw Hmw (fabsb d) ltac:(lia)) as (j & q & Hj & Hq & _ & _ & I). rewrite <- E in I.
  assert (J1 : 1 <= j) by (destruct (Z.eq_dec j 0) as [->|]; [rewrite Z.mul_1_r in I; lia|lia]).
  exists (q * 2^(j - 1)).
  assert (EH : ival d = 2 * (q * 2^(j - 1))).
  { rewrite I. replace j with ((j - 1) + 1) at 1 by lia. rewrite Z.pow_add_r by lia. change (2^1) with 2. ring. }
  split; [exact EH|]. cbv zeta.
  destruct (c_half_spec mw ew Hmw Hew0 Hpe Hew) as (A & B & C & D).
  pose proof (hmul_ok mw ew Hmw Hew0 Hpe _ d A Hd B Fd) as M. rewrite C, Sd in M. cbn [xorb] in M.
  replace (fval (c_half mw ew) * fval d)%R with (IZR (q * 2^(j-1)) * bpow radix2 emin)%R in M.
  2:{ rewrite (fval_div mw ew Hmw Hew (c_half mw ew)), <- D, (mult_IZR 2).
      assert (0 < ival (c_half mw ew)) as X by (pose proof (unit_pos mw ew Hmw Hew); lia). apply IZR_lt in X.
      rewrite (fval_i mw ew Hmw Hew0 Hpe Hew d), EH, (mult_IZR 2 (q * 2^(j-1))). field. lra. }
  assert (0 <= q * 2^(j-1)) by (pose proof (pow2_pos (j-1) ltac:(lia)); nia).
  pose proof (proj1 (finite_limit mw ew Hmw Hew0 Hpe Hew d Hd) Fd) as LL.
  destruct (rounds_exact_int mw ew Hmw Hew0 Hpe Hew _ _ _ M) as (X1 & X2 & _ & X4).
  { exists q, (j - 1). split; [reflexivity|]. lia. }
  { lia. }
  split; [exact X1|]. split; [exact X2|exact X4].
Qed.

Lemma nearest_ok n d : fbits n -> fbits d -> ffinite n = true -> ffinite d = true -> fneg n = false -> fneg d = false ->
  0 < ival d -> ival n < 2 * ival d -> exists m k, nearest_part mw ew Hmw Hew0 Hpe n d = (m, k) /\
  fbits m /\ ffinite m = true /\ fneg m = (ival m <? 0) /\ ival m = ival n - k * ival d /\ 0 <= k <= 2 /\
  2 * Z.abs (ival m) <= ival d /\ (2 * Z.abs (ival m) = ival d -> Z.even k = true).
Proof.
  intros Hn Hd Fn Fd Sn Sd Dp Nb. pose proof (proj2 (sign_ival mw ew Hmw Hew0 Hpe Hew n) Sn) as N0.
  pose proof (proj1 (finite_limit mw ew Hmw Hew0 Hpe Hew d Hd) Fd) as Ld. pose proof (pmw mw Hmw) as P. pose proof (pmw1 mw Hmw) as P1.
  destruct c_two_spec as (T1 & T2 & T3 & T4).
  (* the threshold *)
  assert (CM : fbits (c_min mw) /\ ffinite (c_min mw) = true /\ fneg (c_min mw) = false /\ ival (c_min mw) = 2^mw).
  { destruct (pow_ew ew Hew) as [PE PE2]. destruct (pow2_pattern mw ew Hmw Hew0 Hpe Hew 1 ltac:(lia)) as (A & B & C & D). unfold c_min.
    split; [exact A|]. split; [exact B|]. split; [exact C|]. rewrite D. f_equal. lia. }
  destruct CM as (M1 & M2 & M3 & M4).
  destruct (mul_pow2 (c_two mw ew) 1 (c_min mw) ltac:(lia) T1 T2 T3 T4 M1 M2) as (Q1 & Q2 & Q3 & Q4 & Q5).
  rewrite M4 in Q4, Q5. change (2^1) with 2 in *.
  (* unified control flow *)
  assert (KEY : forall (b1 : bool) (b2 : Z -> bool), b1 = (ival d <? 2 * ival n) ->
    (forall v, fbits v -> ffinite v = true -> Z.abs (ival v) <= ival d -> b2 v = (ival d <=? 2 * ival v)) ->
    exists m k, (if b1 then if b2 (hsub n d) then (hsub (hsub n d) d, 2) else (hsub n d, 1) else (n, 0)) = (m, k) /\
    fbits m /\ ffinite m = true /\ fneg m = (ival m <? 0) /\ ival m = ival n - k * ival d /\ 0 <= k <= 2 /\
    2 * Z.abs (ival m) <= ival d /\ (2 * Z.abs (ival m) = ival d -> Z.even k = true)).
  { intros b1 b2 -> E2. destruct (Z.ltb_spec (ival d) (2 * ival n)) as [L|L].
    - destruct (sub_step n d Hn Hd Fn Fd Sn Sd ltac:(lia) ltac:(lia)) as (A1 & A2 & A3 & A4).
      rewrite (E2 _ A1 A2) by lia. destruct (Z.leb_spec (ival d) (2 * ival (hsub n d))) as [L2|L2].
      + assert (SN : fneg (hsub n d) = false) by (rewrite A3; lia).
        destruct (sub_step (hsub n d) d A1 Hd A2 Fd SN Sd ltac:(lia) ltac:(lia)) as (B1 & B2 & B3 & B4).
        exists (hsub (hsub n d) d), 2. split; [reflexivity|]. split; [exact B1|]. split; [exact B2|]. split; [rewrite B3, B4; lia|].
        split; [lia|]. split; [lia|]. split; [lia|reflexivity].
      + exists (hsub n d), 1. split; [reflexivity|]. split; [exact A1|]. split; [exact A2|]. split; [rewrite A3, A4; lia|].
        split; [lia|]. split; [lia|]. split; lia.
    - exists n, 0. split; [reflexivity|]. split; [exact Hn|]. split; [exact Fn|]. split; [rewrite Sn; lia|].
      split; [lia|]. split; [lia|]. split; [lia|reflexivity]. }
  assert (TW : forall v, fbits v -> ffinite v = true ->
    hlt mw ew d (hmul (c_two mw ew) v) = (ival d <? 2 * ival v) /\ hle mw ew d (hmul (c_two mw ew) v) = (ival d <=? 2 * ival v)).
  { intros v Hv Fv. destruct (mul_pow2 (c_two mw ew) 1 v ltac:(lia) T1 T2 T3 T4 Hv Fv) as (V1 & V2 & V3 & V4 & V5). change (2^1) with 2 in *.
    rewrite hlt_num, hle_num by (try assumption; apply finite_num; assumption).
    pose proof (sign_ival mw ew Hmw Hew0 Hpe Hew v) as [SV1 SV2]. pose proof (sign_ival mw ew Hmw Hew0 Hpe Hew (hmul (c_two mw ew) v)) as [SP1 SP2].
    rewrite V2 in SP1, SP2. destruct (Z.lt_ge_cases (Z.abs (ival v) * 2) limit) as [L|L].
    - destruct (V4 L) as [_ ->]. lia.
    - destruct (V5 L) as [_ E]. destruct (fneg v); specialize (SV1 ltac:(reflexivity)) || specialize (SV2 ltac:(reflexivity));
        specialize (SP1 ltac:(reflexivity)) || specialize (SP2 ltac:(reflexivity)); lia. }
  unfold nearest_part. cbv zeta.
  rewrite (hlt_num d (hmul (c_two mw ew) (c_min mw)) Hd Q1 (finite_num d Fd) Q3).
  destruct (Z.ltb_spec (ival d) (ival (hmul (c_two mw ew) (c_min mw)))) as [S|S].
  - apply (KEY _ (fun v => hle mw ew d (hmul (c_two mw ew) v))).
    + apply (TW n Hn Fn).
    + intros v Hv Fv _. apply (TW v Hv Fv).
  - assert (BIG : 2 * 2^mw <= ival d).
    { destruct (Z.lt_ge_cases (Z.abs (2^mw) * 2) limit) as [L|L]; [destruct (Q4 L) as [_ E]; lia|destruct (Q5 L) as [_ E]].
      pose proof (proj2 (sign_ival mw ew Hmw Hew0 Hpe Hew (hmul (c_two mw ew) (c_min mw))) ltac:(rewrite Q2; exact M3)). lia. }
    destruct (half_step d Hd Fd Sd BIG) as (h & EH & H1 & H2 & H3). cbv zeta in H1, H2, H3.
    apply (KEY _ (fun v => hle mw ew (hmul (c_half mw ew) d) v)).
    + rewrite hlt_num by (try assumption; apply finite_num; assumption). rewrite H3. lia.
    + intros v Hv Fv _. rewrite hle_num by (try assumption; apply finite_num; assumption). rewrite H3. lia.
Qed.

(** ** fmod by a scaled denominator *)
Variable remshift : Z -> Z -> Z -> res Z.
Hypothesis remshift_spec : forall a b e, 0 <= a < 2^(mw+1) -> 0 < b <= 2^(mw+1) -> 0 <= e -> remshift a b e = Ok ((a * 2^e) mod b).
Notation fmod := (fmod_ mw ew remshift).

Lemma fmod_scaled c k x y : 0 <= k -> fbits c -> ffinite c = true -> fneg c = false -> fval c = IZR (2^k) ->
  fbits x -> fbits y -> ffinite x = true -> ffinite y = true -> fabsb y <> 0 ->
  exists n, fmod (fabs mw ew x) (hmul c y) = Ok n /\ fbits n /\ ffinite n = true /\ fneg n = false /\
    ival n = Z.abs (ival x) mod (2^k * Z.abs (ival y)).
Proof.
  intros Hk Hc Fc Sc Vc Hx Hy Fx Fy Ny.
  destruct (mul_pow2 c k y Hk Hc Fc Sc Vc Hy Fy) as (P1 & P2 & P3 & P4 & P5). set (p := hmul c y) in *.
  destruct (fabs_spec mw ew Hmw Hew0 Hpe Hew x Hx) as (A1 & A2 & A3 & A4 & A5).
  destruct (fmod_ok mw ew Hmw Hew0 Hpe Hew remshift remshift_spec (fabs mw ew x) p A1 P1) as (_ & FI & FF).
  pose proof (abs_ival x) as AX. pose proof (abs_ival_pos y Ny) as Y0.
  pose proof (pow2_pos k Hk) as Pk.
  destruct (Z.lt_ge_cases (Z.abs (ival y) * 2^k) limit) as [L|L].
  - destruct (P4 L) as [F V]. assert (NP : fabsb p <> 0).
    { intros E. assert (ival p = 0) as Z0 by (unfold FPInt.ival; rewrite E, (imag_0 mw Hmw); destruct (fneg p); reflexivity).
      clear - V Z0 Y0 Pk. rewrite V in Z0. apply Z.mul_eq_0 in Z0. lia. }
    destruct (FF (eq_trans A4 Fx) F NP) as (r & -> & R1 & R2 & R3 & R4). exists r. split; [reflexivity|]. split; [exact R1|]. split; [exact R2|].
    rewrite A3 in R3. split; [exact R3|]. unfold FPInt.ival at 1. rewrite R3, R4, A2, <- AX. f_equal.
    rewrite Z.mul_comm, <- (Z.abs_eq (2^k)), <- Z.abs_mul, <- V by lia. symmetry. apply abs_ival.
  - destruct (P5 L) as [F _]. exists (fabs mw ew x).
    rewrite FI; [|rewrite A4; exact Fx|unfold FP.fisinf; rewrite F; apply Z.eqb_refl].
    split; [reflexivity|]. split; [exact A1|]. split; [rewrite A4; exact Fx|]. split; [exact A3|].
    rewrite A5, <- AX. symmetry. apply Z.mod_small. pose proof (proj1 (finite_limit mw ew Hmw Hew0 Hpe Hew x Hx) Fx) as LX. clear - L LX. lia.
Qed.

(** flipping the sign *)
Lemma lxor_sign x m : fbits x -> fbits m -> let r := Z.lxor (Z.land x (2^(W-1))) m in
  fbits r /\ fabsb r = fabsb m /\ fneg r = xorb (fneg x) (fneg m).
Proof.
  intros Hx Hm r. destruct (pW mw ew Hmw Hew) as (W1 & W2 & W3).
  assert (LA : Z.land x (2^(W-1)) = if fneg x then 2^(W-1) else 0).
  { replace (2^(W-1)) with (Z.shiftl 1 (W-1)) at 1 by (rewrite shiftl_mul by lia; ring). apply Z.bits_inj'. intros i Hi.
    rewrite Z.land_spec, Z.shiftl_spec by lia. unfold FP.fneg. unfold FP.fbits in Hx.
    destruct (Z.eq_dec i (W-1)) as [->|Ni].
    - rewrite Z.sub_diag. cbn [Z.testbit]. change (Z.testbit 1 0) with true. rewrite andb_true_r.
      destruct (Z.leb_spec (2^(mw+ew)) x) as [B|B].
      + rewrite Z.pow2_bits_true by lia. replace (W-1) with (mw+ew) by lia. apply Z.testbit_true; [lia|].
        replace (x / 2^(mw+ew)) with 1; [reflexivity|]. apply Z.div_unique with (x - 2^(mw+ew)); lia.
      + rewrite Z.bits_0. replace (W-1) with (mw+ew) by lia. apply Z.testbit_false; [lia|]. rewrite Z.div_small by lia. reflexivity.
    - assert (Z.testbit 1 (i - (W-1)) = false) as ->.
      { destruct (Z.lt_ge_cases (i - (W-1)) 0); [apply Z.testbit_neg_r; lia|]. apply Z.bits_above_log2; [lia|]. change (Z.log2 1) with 0. lia. }
      rewrite andb_false_r. destruct (2^(mw+ew) <=? x); [|rewrite Z.bits_0; reflexivity]. symmetry. apply Z.pow2_bits_false. lia. }
  unfold r. rewrite LA. destruct (fneg x) eqn:SX; [|rewrite Z.lxor_0_l, xorb_false_l; split; [exact Hm|split; reflexivity]].
  pose proof (fabsb_range mw ew Hmw Hew m) as R.
  assert (E : Z.lxor (2^(W-1)) m = with_sign (negb (fneg m)) (fabsb m)).
  { rewrite (pattern_split mw ew Hmw Hew m Hm) at 1. unfold FP.with_sign. rewrite W2.
    assert (NA : forall v, 0 <= v < 2^(mw+ew) -> Z.lxor (2^(mw+ew)) v = 2^(mw+ew) + v).
    { intros v Hv. symmetry. apply Z.add_nocarry_lxor. rewrite <- (Z.mul_1_l (2^(mw+ew))), <- shiftl_mul by lia. rewrite Z.land_comm. apply land_low_high; lia. }
    destruct (fneg m); cbn [negb].
    - rewrite <- (NA (fabsb m)) by exact R. rewrite <- Z.lxor_assoc, Z.lxor_nilpotent, Z.lxor_0_l. reflexivity.
    - rewrite Z.add_0_l. apply NA. exact R. }
  rewrite E. destruct (with_sign_spec mw ew Hmw Hew (negb (fneg m)) (fabsb m) R) as (A & B & C).
  split; [exact C|]. split; [exact A|]. rewrite B. destruct (fneg m); reflexivity.
Qed.

(** what remainder and remquo compute: the quotient [q] of magnitudes and the rest *)
Lemma rest_ok x y m q : fbits x -> fbits y -> fbits m -> ffinite m = true -> fabsb y <> 0 -> fneg m = (ival m <? 0) ->
  ival m = Z.abs (ival x) - q * Z.abs (ival y) -> 2 * Z.abs (ival m) <= Z.abs (ival y) ->
  (2 * Z.abs (ival m) = Z.abs (ival y) -> Z.even q = true) ->
  let r := Z.lxor (Z.land x (2^(W-1))) m in
  let n := ZnearestE (fval x / fval y) in
  fbits r /\ ffinite r = true /\ (fval r = fval x - IZR n * fval y)%R /\ (fval r = 0%R -> fneg r = fneg x) /\
  n = (if xorb (fneg x) (fneg y) then - q else q).
Proof.
  intros Hx Hy Hm Fm Ny Sm Vm Bm Tm r n. destruct (lxor_sign x m Hx Hm) as (R1 & R2 & R3). fold r in R1, R2, R3.
  assert (IR : ival r = if fneg x then - ival m else ival m).
  { unfold FPInt.ival. rewrite R2, R3. destruct (fneg x), (fneg m); cbn [xorb]; lia. }
  pose proof (sign_ival mw ew Hmw Hew0 Hpe Hew x) as [SX1 SX2]. pose proof (sign_ival mw ew Hmw Hew0 Hpe Hew y) as [SY1 SY2].
  assert (Y0 : ival y <> 0) by (pose proof (abs_ival_pos y Ny) as YP; clear - YP; lia).
  assert (EX : ival r = ival x - (if xorb (fneg x) (fneg y) then - q else q) * ival y).
  { rewrite IR, Vm, (abs_ival_sign x), (abs_ival_sign y). destruct (fneg x), (fneg y); cbn [xorb]; ring. }
  assert (EN : n = (if xorb (fneg x) (fneg y) then - q else q)).
  { unfold n. rewrite !(fval_i mw ew Hmw Hew0 Hpe Hew).
    replace (IZR (ival x) * bpow radix2 emin / (IZR (ival y) * bpow radix2 emin))%R with (IZR (ival x) / IZR (ival y))%R.
    2:{ pose proof (bpow_gt_0 radix2 emin). apply IZR_neq in Y0. field. split; lra. }
    apply nearest_div; [exact Y0| |]; rewrite <- EX, IR.
    - destruct (fneg x); lia.
    - intros T. assert (Z.even q = true) as EQ by (apply Tm; destruct (fneg x); lia). destruct (xorb (fneg x) (fneg y)); [rewrite Z.even_opp|]; exact EQ. }
  split; [exact R1|]. split; [unfold FP.ffinite in *; rewrite R2; exact Fm|]. split; [|split; [|exact EN]].
  - rewrite EN, !(fval_i mw ew Hmw Hew0 Hpe Hew), EX, minus_IZR, mult_IZR. ring.
  - intros Z0. rewrite R3, Sm. rewrite (fval_i mw ew Hmw Hew0 Hpe Hew) in Z0. apply Rmult_integral in Z0.
    destruct Z0 as [Z0|Z0]; [|pose proof (bpow_gt_0 radix2 emin); lra]. apply eq_IZR in Z0. rewrite IR in Z0.
    replace (ival m <? 0) with false; [apply xorb_false_r|]. destruct (fneg x); lia.
Qed.

Lemma remainder_ok x y : fbits x -> fbits y -> ffinite x = true -> ffinite y = true -> fabsb y <> 0 ->
  exists r, remainder mw ew Hmw Hew0 Hpe fmod x y = Ok r /\ fbits r /\ ffinite r = true /\
  (fval r = fval x - IZR (ZnearestE (fval x / fval y)) * fval y)%R /\ (fval r = 0%R -> fneg r = fneg x).
Proof.
  intros Hx Hy Fx Fy Ny. unfold remainder. destruct c_two_spec as (T1 & T2 & T3 & T4).
  destruct (fmod_scaled _ 1 x y ltac:(lia) T1 T2 T3 T4 Hx Hy Fx Fy Ny) as (n & -> & N1 & N2 & N3 & N4). cbn [bind].
  destruct (fabs_spec mw ew Hmw Hew0 Hpe Hew y Hy) as (A1 & A2 & A3 & A4 & A5).
  assert (AY : ival (fabs mw ew y) = Z.abs (ival y)).
  { rewrite A5. symmetry. apply abs_ival. }
  pose proof (abs_ival_pos y Ny) as Y0.
  change (2^1) with 2 in N4. pose proof (Z.mod_pos_bound (Z.abs (ival x)) (2 * Z.abs (ival y)) ltac:(lia)) as MB.
  pose proof (Z.div_mod (Z.abs (ival x)) (2 * Z.abs (ival y)) ltac:(lia)) as DM.
  destruct (nearest_ok n (fabs mw ew y) N1 A1 N2 (eq_trans A4 Fy) N3 A3 ltac:(lia) ltac:(lia)) as (m & k & -> & M1 & M2 & M3 & M4 & M5 & M6 & M7).
  cbn [fst]. rewrite AY in *. set (u := Z.abs (ival x) / (2 * Z.abs (ival y))) in *.
  destruct (rest_ok x y m (2 * u + k) Hx Hy M1 M2 Ny M3) as (R1 & R2 & R3 & R4 & _).
  - rewrite M4, N4. lia.
  - exact M6.
  - intros T. rewrite Z.even_add, Z.even_mul, (M7 T). reflexivity.
  - eexists. split; [reflexivity|]. split; [exact R1|]. split; [exact R2|]. split; [exact R3|exact R4].
Qed.

(** one conditional subtraction of 2^k d *)
Lemma sub_if c k d v : 0 <= k -> fbits c -> ffinite c = true -> fneg c = false -> fval c = IZR (2^k) ->
  fbits d -> ffinite d = true -> fneg d = false -> fbits v -> ffinite v = true -> fneg v = false -> ival v < 2 * (2^k * ival d) ->
  exists (t : bool) v', hle mw ew (hmul c d) v = t /\ (if t then hsub v (hmul c d) else v) = v' /\
    fbits v' /\ ffinite v' = true /\ fneg v' = false /\ ival v' = ival v - b2z t * (2^k * ival d) /\ 0 <= ival v' < 2^k * ival d.
Proof.
  intros Hk Hc Fc Sc Vc Hd Fd Sd Hv Fv Sv Bv. destruct (mul_pow2 c k d Hk Hc Fc Sc Vc Hd Fd) as (Q1 & Q2 & Q3 & Q4 & Q5).
  rewrite Sd in Q2. pose proof (proj2 (sign_ival mw ew Hmw Hew0 Hpe Hew (hmul c d)) Q2) as QP.
  pose proof (proj2 (sign_ival mw ew Hmw Hew0 Hpe Hew d) Sd) as DP. pose proof (proj2 (sign_ival mw ew Hmw Hew0 Hpe Hew v) Sv) as VP.
  pose proof (proj1 (finite_limit mw ew Hmw Hew0 Hpe Hew v Hv) Fv) as LV. rewrite (Z.abs_eq (ival d) DP), (Z.mul_comm _ (2^k)) in Q4, Q5.
  rewrite (hle_num _ v Q1 Hv Q3 (finite_num v Fv)). set (e := 2^k * ival d) in *.
  destruct (Z.lt_ge_cases e limit) as [L|L].
  - destruct (Q4 L) as [QF QV]. clear Q4 Q5. rewrite QV. destruct (Z.leb_spec e (ival v)) as [LE|LE].
    + destruct (sub_step v (hmul c d) Hv Q1 Fv QF Sv Q2) as (B1 & B2 & B3 & B4); [rewrite QV; clearbody e; clear - LE QP QV; lia|rewrite QV; clearbody e; clear - Bv; lia|].
      do 2 eexists. split; [reflexivity|]. split; [reflexivity|]. split; [exact B1|]. split; [exact B2|].
      rewrite QV in B3, B4. split; [rewrite B3; clearbody e; clear - LE; lia|]. rewrite B4. clearbody e. unfold b2z. clear - LE Bv. lia.
    + do 2 eexists. split; [reflexivity|]. split; [reflexivity|]. split; [exact Hv|]. split; [exact Fv|]. split; [exact Sv|].
      clearbody e. unfold b2z. clear - LE VP. lia.
  - destruct (Q5 L) as [_ QV]. rewrite (Z.abs_eq _ QP) in QV. rewrite QV. clear Q4 Q5. rewrite (Z.abs_eq _ VP) in LV.
    replace (limit <=? ival v) with false by (clear - LV; lia).
    do 2 eexists. split; [reflexivity|]. split; [reflexivity|]. split; [exact Hv|]. split; [exact Fv|]. split; [exact Sv|].
    clearbody e. unfold b2z. clear - LV VP L. lia.
Qed.

Lemma remquo_end x y n2 q2 u : fbits x -> fbits y -> ffinite y = true -> fabsb y <> 0 -> fbits n2 -> ffinite n2 = true -> fneg n2 = false ->
  ival n2 = Z.abs (ival x) - (8 * u + q2) * Z.abs (ival y) -> ival n2 < 2 * Z.abs (ival y) -> 0 <= u -> 0 <= q2 <= 6 -> Z.even q2 = true ->
  exists r q, (let '(n, k) := nearest_part mw ew Hmw Hew0 Hpe n2 (fabs mw ew y) in
    Ok (Z.lxor (Z.land (sgn W x) (2^(W-1)) mod 2^W) n, if sgn W x <? 0 then - (q2 + k) else q2 + k)) = Ok (r, q) /\ fbits r /\ ffinite r = true /\
  (fval r = fval x - IZR (ZnearestE (fval x / fval y)) * fval y)%R /\ (fval r = 0%R -> fneg r = fneg x) /\
  Z.abs q <= 8 /\ (if fneg x then q <= 0 else 0 <= q) /\ Z.abs q mod 8 = Z.abs (ZnearestE (fval x / fval y)) mod 8.
Proof.
  intros Hx Hy Fy Ny D1 D2 D3 D4 D5 U0 Q2 Ev. pose proof (abs_ival_pos y Ny) as Y0.
  destruct (fabs_spec mw ew Hmw Hew0 Hpe Hew y Hy) as (A1 & A2 & A3 & A4 & A5).
  assert (AY : ival (fabs mw ew y) = Z.abs (ival y)) by (rewrite A5; symmetry; apply abs_ival).
  destruct (nearest_ok n2 (fabs mw ew y) D1 A1 D2 (eq_trans A4 Fy) D3 A3) as (m & k & -> & M1 & M2 & M3 & M4 & M5 & M6 & M7); [rewrite AY; exact Y0|rewrite AY; exact D5|].
  rewrite AY in M4, M6, M7.
  destruct (rest_ok x y m (8 * u + (q2 + k)) Hx Hy M1 M2 Ny M3) as (R1 & R2 & R3 & R4 & R5).
  - rewrite M4, D4. ring.
  - exact M6.
  - intros T. rewrite !Z.even_add, Z.even_mul, (M7 T), Ev. reflexivity.
  - assert (LS : Z.land (sgn W x) (2^(W-1)) mod 2^W = Z.land x (2^(W-1))).
    { destruct (pW mw ew Hmw Hew) as (W1 & W2 & W3). rewrite <- !Z.land_ones by lia. rewrite <- Z.land_assoc, (Z.land_comm (2^(W-1))), Z.land_assoc.
      rewrite Z.land_ones, sgn_mod by lia. rewrite Z.mod_small by exact Hx. reflexivity. }
    rewrite LS, (sgn_neg mw ew Hmw Hew x Hx). do 2 eexists. split; [reflexivity|]. split; [exact R1|]. split; [exact R2|]. split; [exact R3|]. split; [exact R4|].
    rewrite R5. clear - Q2 M5 U0.
    assert (AB : Z.abs (if xorb (fneg x) (fneg y) then - (8 * u + (q2 + k)) else 8 * u + (q2 + k)) = q2 + k + u * 8) by (destruct (xorb (fneg x) (fneg y)); lia).
    rewrite AB, Z.mod_add by lia.
    assert (AQ : Z.abs (if fneg x then - (q2 + k) else q2 + k) = q2 + k) by (destruct (fneg x); lia). rewrite AQ.
    split; [lia|]. split; [destruct (fneg x); lia|reflexivity].
Qed.

Lemma remquo_ok x y : 3 <= mw -> fbits x -> fbits y -> ffinite x = true -> ffinite y = true -> fabsb y <> 0 ->
  exists r q, remquo mw ew Hmw Hew0 Hpe fmod x y = Ok (r, q) /\ fbits r /\ ffinite r = true /\
  (fval r = fval x - IZR (ZnearestE (fval x / fval y)) * fval y)%R /\ (fval r = 0%R -> fneg r = fneg x) /\
  Z.abs q <= 8 /\ (if fneg x then q <= 0 else 0 <= q) /\ Z.abs q mod 8 = Z.abs (ZnearestE (fval x / fval y)) mod 8.
Proof.
  intros Hm3 Hx Hy Fx Fy Ny. unfold remquo. destruct c_two_spec as (T1 & T2 & T3 & T4).
  assert (P3 : 2^3 <= 2^mw) by (apply Z.pow_le_mono_r; lia). pose proof (pmw1 mw Hmw) as P1. change (2^3) with 8 in P3.
  destruct (hofZ_exact mw ew Hmw Hew0 Hpe Hew 8 ltac:(lia)) as (E1 & E2 & E3 & E4).
  destruct (hofZ_exact mw ew Hmw Hew0 Hpe Hew 4 ltac:(lia)) as (G1 & G2 & G3 & G4).
  destruct (fmod_scaled _ 3 x y ltac:(lia) E1 E2 E4 E3 Hx Hy Fx Fy Ny) as (n & -> & N1 & N2 & N3 & N4). cbn [bind].
  destruct (fabs_spec mw ew Hmw Hew0 Hpe Hew y Hy) as (A1 & A2 & A3 & A4 & A5).
  assert (AY : ival (fabs mw ew y) = Z.abs (ival y)) by (rewrite A5; symmetry; apply abs_ival).
  pose proof (abs_ival_pos y Ny) as Y0. change (2^3) with 8 in N4.
  assert (MB : 0 <= ival n < 8 * Z.abs (ival y)) by (rewrite N4; apply Z.mod_pos_bound; clear - Y0; lia).
  pose proof (Z.div_mod (Z.abs (ival x)) (8 * Z.abs (ival y)) ltac:(clear - Y0; lia)) as DM. rewrite <- N4 in DM.
  assert (U0 : 0 <= Z.abs (ival x) / (8 * Z.abs (ival y))) by (apply Z.div_pos; clear - Y0; lia).
  set (u := Z.abs (ival x) / (8 * Z.abs (ival y))) in *. clearbody u. clear N4 A4.
  destruct (sub_if _ 2 (fabs mw ew y) n ltac:(lia) G1 G2 G4 G3 A1 ltac:(unfold FP.ffinite; rewrite A2; exact Fy) A3 N1 N2 N3) as (t1 & n1 & -> & C1 & B1 & B2 & B3 & B4 & B5).
  { rewrite AY. change (2^2) with 4. clear - MB. lia. }
  rewrite AY in B4, B5. change (2^2) with 4 in B4, B5.
  destruct (sub_if _ 1 (fabs mw ew y) n1 ltac:(lia) T1 T2 T3 T4 A1 ltac:(unfold FP.ffinite; rewrite A2; exact Fy) A3 B1 B2 B3) as (t2 & n2 & C3 & C4 & D1 & D2 & D3 & D4 & D5).
  { rewrite AY. change (2^1) with 2. clear - B5. lia. }
  rewrite AY in D4, D5. change (2^1) with 2 in D4, D5.
  pose proof (remquo_end x y n2 (4 * b2z t1 + 2 * b2z t2) u Hx Hy Fy Ny D1 D2 D3) as END.
  assert (X : ival n2 = Z.abs (ival x) - (8 * u + (4 * b2z t1 + 2 * b2z t2)) * Z.abs (ival y)) by (rewrite D4, B4, DM; ring).
  specialize (END X ltac:(clear - D5; lia) U0 ltac:(destruct t1, t2; cbn; lia) ltac:(destruct t1, t2; reflexivity)).
  clear - END C1 C3 C4. destruct t1; cbn [b2z] in *; rewrite C1, C3; destruct t2; rewrite C4; exact END.
Qed.

(** ** Special operands *)
Lemma hmul_nan a b : fbits a -> fbits b -> fisnan a || fisnan b = true -> hmul a b = qnan mw ew.
Proof.
  intros Ha Hb N. unfold HW.hmul. apply orb_prop in N. destruct N as [N|N].
  - rewrite (dec_nan mw ew Hmw Hew0 Hpe a Ha N). reflexivity.
  - rewrite (dec_nan mw ew Hmw Hew0 Hpe b Hb N). destruct (dec mw ew Hmw Hew0 Hpe a); reflexivity.
Qed.
Lemma qnan_is : fbits (qnan mw ew) /\ fisnan (qnan mw ew) = true.
Proof. exact (qnan_nan ew mw ew Hew0 Hmw Hew0 Hpe). Qed.

Lemma nearest_nan d : fst (nearest_part mw ew Hmw Hew0 Hpe (qnan mw ew) d) = qnan mw ew.
Proof.
  destruct qnan_is as [Q1 Q2]. destruct c_two_spec as (T1 & _). unfold nearest_part.
  rewrite (hmul_nan (c_two mw ew) (qnan mw ew) T1 Q1) by (rewrite Q2; apply orb_true_r).
  assert (forall z, hlt mw ew z (qnan mw ew) = false) as E by (intros z; unfold hlt; rewrite Q2; cbn [negb]; rewrite andb_false_r; reflexivity).
  rewrite !E. destruct (hlt mw ew d _); reflexivity.
Qed.

(** the scaled denominator has the kind of the denominator *)
Lemma scaled_kind c k y : 0 <= k -> fbits c -> ffinite c = true -> fneg c = false -> fval c = IZR (2^k) -> fbits y ->
  fbits (hmul c y) /\ (fisnan y = true -> fisnan (hmul c y) = true) /\ (fisinf y = true -> fisinf (hmul c y) = true) /\ (fabsb y = 0 -> fabsb (hmul c y) = 0).
Proof.
  intros Hk Hc Fc Sc Vc Hy. destruct qnan_is as [Q1 Q2]. pose proof (finf_pos mw ew Hmw Hew) as FI.
  destruct (ffinite y) eqn:Fy.
  - destruct (mul_pow2 c k y Hk Hc Fc Sc Vc Hy Fy) as (A & B & C & D & E). split; [exact A|].
    unfold FP.ffinite, FP.fisnan, FP.fisinf in *. split; [lia|]. split; [lia|]. intros Z0.
    assert (ival y = 0) as V0 by (unfold FPInt.ival; rewrite Z0, (imag_0 mw Hmw); destruct (fneg y); reflexivity).
    rewrite V0 in D. destruct D as [_ D]; [cbn [Z.abs]; pose proof (limit_pos mw ew Hmw Hew0 Hpe Hew); lia|].
    pose proof (abs_ival (hmul c y)) as I. rewrite D in I. cbn [Z.mul Z.abs] in I.
    apply (imag_inj mw ew Hmw Hew); [apply (fabsb_range mw ew Hmw Hew)|lia|]. rewrite <- I. symmetry. apply (imag_0 mw Hmw).
  - destruct (fisnan y) eqn:Ny.
    + rewrite (hmul_nan c y Hc Hy) by (rewrite Ny; apply orb_true_r). unfold FP.fisinf, FP.fisnan in *.
      split; [exact Q1|]. split; [intros _; exact Q2|]. split; [lia|lia].
    + assert (I : fisinf y = true) by (unfold FP.ffinite, FP.fisnan, FP.fisinf in *; lia).
      assert (N0 : fabsb c <> 0).
      { intros E. assert (fval c = 0%R) as Z0.
        { rewrite (fval_i mw ew Hmw Hew0 Hpe Hew). unfold FPInt.ival. rewrite E, (imag_0 mw Hmw). destruct (fneg c); cbn [Z.opp]; ring. }
        rewrite Z0 in Vc. apply eq_IZR in Vc. pose proof (pow2_pos k Hk). lia. }
      destruct (hmul_spec mw ew Hmw Hew0 Hpe Hew c y Hc Hy) as (r & Er & _ & X). injection Er as <-. rewrite (X Fc N0 I).
      destruct (with_sign_spec mw ew Hmw Hew (xorb (fneg c) (fneg y)) finf) as (S1 & S2 & S3); [lia|].
      split; [exact S3|]. unfold FP.fisinf, FP.fisnan in *. rewrite S1. split; [lia|]. split; [lia|]. lia.
Qed.

Lemma fmod_scaled_special c k x y : 0 <= k -> fbits c -> ffinite c = true -> fneg c = false -> fval c = IZR (2^k) -> fbits x -> fbits y ->
  (ffinite x = false \/ fisnan y = true \/ fabsb y = 0 -> fmod (fabs mw ew x) (hmul c y) = Ok (qnan mw ew)) /\
  (ffinite x = true -> fisinf y = true -> fmod (fabs mw ew x) (hmul c y) = Ok (fabs mw ew x)).
Proof.
  intros Hk Hc Fc Sc Vc Hx Hy. destruct (scaled_kind c k y Hk Hc Fc Sc Vc Hy) as (A & B & C & D).
  destruct (fabs_spec mw ew Hmw Hew0 Hpe Hew x Hx) as (A1 & A2 & A3 & A4 & A5).
  destruct (fmod_ok mw ew Hmw Hew0 Hpe Hew remshift remshift_spec (fabs mw ew x) (hmul c y) A1 A) as (F1 & F2 & _).
  split.
  - intros H. apply F1. destruct H as [H|[H|H]]; [left; rewrite A4; exact H|right; left; exact (B H)|right; right; exact (D H)].
  - intros H1 H2. apply F2; [rewrite A4; exact H1|exact (C H2)].
Qed.

Lemma lxor_nan x : fbits x -> fisnan (Z.lxor (Z.land x (2^(W-1))) (qnan mw ew)) = true.
Proof.
  intros Hx. destruct qnan_is as [Q1 Q2]. destruct (lxor_sign x (qnan mw ew) Hx Q1) as (_ & A & _). unfold FP.fisnan in *. rewrite A. exact Q2.
Qed.
Lemma lxor_fabs x : fbits x -> Z.lxor (Z.land x (2^(W-1))) (fabs mw ew x) = x.
Proof.
  intros Hx. destruct (fabs_spec mw ew Hmw Hew0 Hpe Hew x Hx) as (A1 & A2 & A3 & A4 & A5).
  destruct (lxor_sign x (fabs mw ew x) Hx A1) as (B1 & B2 & B3). rewrite A3, xorb_false_r in B3. rewrite A2 in B2.
  rewrite (pattern_split mw ew Hmw Hew x Hx) at 3. rewrite (with_sign_inj mw ew Hmw Hew _ (fneg x) (fabsb x) B1 B3 B2) at 1. reflexivity.
Qed.

(** by an infinity nothing is subtracted *)
Lemma nearest_inf n y : fbits n -> fbits y -> ffinite n = true -> fisinf y = true -> nearest_part mw ew Hmw Hew0 Hpe n (fabs mw ew y) = (n, 0).
Proof.
  intros Hn Hy Fn I. destruct (fabs_spec mw ew Hmw Hew0 Hpe Hew y Hy) as (A1 & A2 & A3 & A4 & A5). pose proof (finf_pos mw ew Hmw Hew) as FI.
  assert (ID : fisinf (fabs mw ew y) = true) by (unfold FP.fisinf in *; rewrite A2; exact I).
  assert (LE : forall v, fbits v -> fabsb v <= finf -> ford mw ew v <= finf) by (intros v _ Hv; unfold ford; pose proof (fabsb_range mw ew Hmw Hew v); destruct (fneg v); lia).
  assert (OD : ford mw ew (fabs mw ew y) = finf) by (unfold ford; rewrite A3, A2; unfold FP.fisinf in I; lia).
  destruct c_two_spec as (T1 & T2 & T3 & T4). unfold nearest_part.
  assert (NL : forall v, hlt mw ew (fabs mw ew y) v = false).
  { intros v. unfold hlt. destruct (fisnan v) eqn:NV; [rewrite andb_false_r; reflexivity|]. rewrite OD.
    assert (ford mw ew v <= finf); [|destruct (negb (fisnan (fabs mw ew y))); cbn [andb negb]; lia].
    unfold ford. unfold FP.fisnan in NV. pose proof (fabsb_range mw ew Hmw Hew v). destruct (fneg v); lia. }
  rewrite !NL. destruct (c_half_spec mw ew Hmw Hew0 Hpe Hew) as (C1 & C2 & C3 & C4).
  assert (N0 : fabsb (c_half mw ew) <> 0).
  { intros E. unfold FPInt.ival in C4. rewrite E, (imag_0 mw Hmw) in C4. pose proof (unit_pos mw ew Hmw Hew). destruct (fneg (c_half mw ew)); lia. }
  destruct (hmul_spec mw ew Hmw Hew0 Hpe Hew _ _ C1 A1) as (r & Er & _ & X). injection Er as <-. rewrite (X C2 N0 ID), C3, A3. cbn [xorb].
  destruct (with_sign_spec mw ew Hmw Hew false finf) as (S1 & S2 & S3); [lia|].
  assert (hlt mw ew (with_sign false finf) n = false) as ->; [|reflexivity].
  unfold hlt. assert (ford mw ew (with_sign false finf) = finf) as -> by (unfold ford; rewrite S1, S2; reflexivity).
  assert (ford mw ew n <= finf) by (apply (LE n Hn); unfold FP.ffinite in Fn; lia).
  replace (finf <? ford mw ew n) with false by lia. apply andb_false_r.
Qed.

Lemma remainder_special x y : fbits x -> fbits y ->
  (ffinite x = false \/ fisnan y = true \/ fabsb y = 0 -> exists r, remainder mw ew Hmw Hew0 Hpe fmod x y = Ok r /\ fisnan r = true) /\
  (ffinite x = true -> fisinf y = true -> remainder mw ew Hmw Hew0 Hpe fmod x y = Ok x).
Proof.
  intros Hx Hy. destruct c_two_spec as (T1 & T2 & T3 & T4). unfold remainder.
  destruct (fmod_scaled_special (c_two mw ew) 1 x y ltac:(lia) T1 T2 T3 T4 Hx Hy) as [A B]. split.
  - intros H. rewrite (A H). cbn [bind]. rewrite nearest_nan. eexists. split; [reflexivity|]. apply lxor_nan. exact Hx.
  - intros H1 H2. rewrite (B H1 H2). cbn [bind]. destruct (fabs_spec mw ew Hmw Hew0 Hpe Hew x Hx) as (A1 & A2 & A3 & A4 & A5).
    rewrite nearest_inf by (try assumption; rewrite A4; assumption). cbn [fst]. f_equal. apply lxor_fabs. exact Hx.
Qed.

Lemma nearest_nan2 d : exists k, nearest_part mw ew Hmw Hew0 Hpe (qnan mw ew) d = (qnan mw ew, k).
Proof. pose proof (nearest_nan d) as E. destruct (nearest_part mw ew Hmw Hew0 Hpe (qnan mw ew) d) as [m k]. cbn [fst] in E. exists k. rewrite E. reflexivity. Qed.

Lemma remquo_special x y : 3 <= mw -> fbits x -> fbits y ->
  (ffinite x = false \/ fisnan y = true \/ fabsb y = 0 -> exists r q, remquo mw ew Hmw Hew0 Hpe fmod x y = Ok (r, q) /\ fisnan r = true) /\
  (ffinite x = true -> fisinf y = true -> remquo mw ew Hmw Hew0 Hpe fmod x y = Ok (x, 0)).
Proof.
  intros Hm3 Hx Hy. destruct c_two_spec as (T1 & T2 & T3 & T4). unfold remquo.
  assert (P3 : 2^3 <= 2^mw) by (apply Z.pow_le_mono_r; lia). pose proof (pmw1 mw Hmw) as P1. change (2^3) with 8 in P3.
  destruct (hofZ_exact mw ew Hmw Hew0 Hpe Hew 8 ltac:(lia)) as (E1 & E2 & E3 & E4).
  destruct (hofZ_exact mw ew Hmw Hew0 Hpe Hew 4 ltac:(lia)) as (G1 & G2 & G3 & G4).
  destruct (fmod_scaled_special (hofZ 8) 3 x y ltac:(lia) E1 E2 E4 E3 Hx Hy) as [A B].
  assert (LS : Z.land (sgn W x) (2^(W-1)) mod 2^W = Z.land x (2^(W-1))).
  { destruct (pW mw ew Hmw Hew) as (W1 & W2 & W3). rewrite <- !Z.land_ones by lia. rewrite <- Z.land_assoc, (Z.land_comm (2^(W-1))), Z.land_assoc.
    rewrite Z.land_ones, sgn_mod by lia. rewrite Z.mod_small by exact Hx. reflexivity. }
  destruct qnan_is as [Q1 Q2]. split.
  - intros H. rewrite (A H). cbn [bind].
    assert (NL : forall z, hle mw ew z (qnan mw ew) = false) by (intros z; unfold hle; rewrite Q2; cbn [negb]; rewrite andb_false_r; reflexivity).
    rewrite !NL. destruct (nearest_nan2 (fabs mw ew y)) as (k & ->). rewrite LS. do 2 eexists. split; [reflexivity|]. apply lxor_nan. exact Hx.
  - intros H1 H2. rewrite (B H1 H2). cbn [bind]. destruct (fabs_spec mw ew Hmw Hew0 Hpe Hew x Hx) as (A1 & A2 & A3 & A4 & A5).
    destruct (fabs_spec mw ew Hmw Hew0 Hpe Hew y Hy) as (B1 & B2 & B3 & B4 & B5). pose proof (finf_pos mw ew Hmw Hew) as FI.
    assert (IY : fisinf (fabs mw ew y) = true) by (unfold FP.fisinf in *; rewrite B2; exact H2).
    assert (NL : forall c k, 0 <= k -> fbits c -> ffinite c = true -> fneg c = false -> fval c = IZR (2^k) -> hle mw ew (hmul c (fabs mw ew y)) (fabs mw ew x) = false).
    { intros c k Hk Hc Fc Sc Vc. assert (N0 : fabsb c <> 0).
      { intros E. assert (fval c = 0%R) as Z0.
        { rewrite (fval_i mw ew Hmw Hew0 Hpe Hew). unfold FPInt.ival. rewrite E, (imag_0 mw Hmw). destruct (fneg c); cbn [Z.opp]; ring. }
        rewrite Z0 in Vc. apply eq_IZR in Vc. pose proof (pow2_pos k Hk). lia. }
      destruct (hmul_spec mw ew Hmw Hew0 Hpe Hew c _ Hc B1) as (r & Er & _ & X). injection Er as <-. rewrite (X Fc N0 IY), Sc, B3. cbn [xorb].
      destruct (with_sign_spec mw ew Hmw Hew false finf) as (S1 & S2 & S3); [lia|]. unfold hle, ford. rewrite S1, S2, A2, A3.
      unfold FP.ffinite in H1. replace (finf <=? fabsb x) with false by lia. apply andb_false_r. }
    rewrite (NL (hofZ 4) 2), (NL (c_two mw ew) 1) by (assumption || lia).
    rewrite nearest_inf by (try assumption; rewrite A4; assumption). rewrite LS, lxor_fabs by exact Hx.
    replace (0 + 0) with 0 by reflexivity. destruct (sgn W x <? 0); reflexivity.
Qed.
End Format.
