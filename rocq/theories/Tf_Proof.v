(** Facts about the binary128 model: sign and magnitude, comparison, normalisation,
    widening. *)
From Coq Require Import Reals Lra.
From Flocq Require Import Core.
From Verif Require Import Base Bits FP FP_Proof HW HW_Proof Int128_Model Int128_Proof Int128_Div_Proof
  Int128_Float_Model Int128_Float_Proof Tf_Model.
Open Scope Z_scope.
Local Ltac Zify.zify_post_hook ::= idtac.

Notation fb := (fbits 112 15).
Notation fa := (fabsb 112 15).
Notation fn := (fneg 112 15).

(** ** Sign and magnitude *)
Lemma tf_split x : fb x -> x = (if fn x then 2^127 else 0) + fa x /\ 0 <= fa x < 2^127.
Proof.
  unfold fbits, fneg, fabsb. change (112 + 15 + 1) with 128. change (112 + 15) with 127. intros H.
  destruct (Z.leb_spec (2^127) x) as [L|L].
  - replace (x mod 2^127) with (x - 2^127); [lia|]. apply Z.mod_unique with 1; lia.
  - rewrite Z.mod_small by lia. lia.
Qed.

Lemma nosign_ok x : nosign x = fa x.
Proof. unfold nosign, fabsb. change (112 + 15) with 127. apply land_ones_mod. lia. Qed.

Lemma signbit_ok x : fb x -> signbit128 x = if fn x then 2^127 else 0.
Proof.
  intros H. pose proof (tf_split x H) as [E B]. unfold signbit128, SIGN128. rewrite shiftl_mul, Z.mul_1_l by lia.
  replace (2^127) with (2^128 - 2^127) at 1 by reflexivity. rewrite land_field by lia.
  unfold fbits in H. change (112 + 15 + 1) with 128 in H. rewrite (Z.mod_small x (2^128)) by lia.
  unfold fabsb in *. change (112+15) with 127 in *. lia.
Qed.

Lemma signbit_xor x y : fb x -> fb y -> signbit128 (Z.lxor x y) = if xorb (fn x) (fn y) then 2^127 else 0.
Proof.
  intros Hx Hy. pose proof (signbit_ok x Hx) as A. pose proof (signbit_ok y Hy) as B.
  unfold signbit128 in *.
  replace (Z.land (Z.lxor x y) SIGN128) with (Z.lxor (Z.land x SIGN128) (Z.land y SIGN128)).
  - rewrite A, B. destruct (fn x), (fn y); reflexivity.
  - apply Z.bits_inj'. intros n Hn. rewrite !Z.lxor_spec, !Z.land_spec, Z.lxor_spec.
    destruct (Z.testbit x n), (Z.testbit y n), (Z.testbit SIGN128 n); reflexivity.
Qed.

Lemma lor_sign (neg : bool) m : 0 <= m < 2^127 -> Z.lor m (if neg then 2^127 else 0) = with_sign 112 15 neg m.
Proof.
  intros H. unfold with_sign. change (112 + 15) with 127. destruct neg; [|rewrite Z.lor_0_r; lia].
  rewrite Z.lor_comm. change (2^127) with (1 * 2^127). rewrite lor_mul_low by lia. reflexivity.
Qed.

Lemma s128_ok x : fb x -> s128 x = (if fn x then - 2^127 else 0) + fa x.
Proof.
  intros H. destruct (tf_split x H) as [E B]. unfold s128, sgn.
  unfold fbits in H. change (112 + 15 + 1) with 128 in H. rewrite (Z.mod_small x (2^128)) by lia.
  destruct (fn x); [replace (x <? 2^(128-1)) with false by lia|replace (x <? 2^(128-1)) with true by lia]; lia.
Qed.

Lemma INF128_ok : INF128 = finf 112 15. Proof. reflexivity. Qed.
Lemma isnanl_ok x : fb x -> isnanl x = fisnan 112 15 x.
Proof.
  intros H. destruct (tf_split x H) as [E B]. unfold isnanl, fisnan.
  rewrite !shiftl_mul by lia. unfold u128.
  replace ((x * 2^1) mod 2^128) with (2 * fa x).
  - change (finf 112 15) with (0x7FFF * 2^112). lia.
  - apply Z.mod_unique with (if fn x then 1 else 0); [|rewrite E at 1; destruct (fn x)]; lia.
Qed.

Lemma lor_mod a b k : 0 <= k -> (Z.lor a b) mod 2^k = Z.lor (a mod 2^k) (b mod 2^k).
Proof. intros. rewrite <- !Z.land_ones by lia. apply Z.land_lor_distr_l. Qed.

(** ** Order of extended values *)
Section Ext.
Variables mw ew : Z.
Hypothesis Hmw : 0 < mw.
Hypothesis Hew : 1 < ew.
Notation ford := (ford mw ew).

Lemma ford_bound a : fisnan mw ew a = false -> - finf mw ew <= ford a <= finf mw ew /\
  (ffinite mw ew a = true <-> - finf mw ew < ford a < finf mw ew) /\
  (ffinite mw ew a = false -> fabsb mw ew a = finf mw ew).
Proof.
  intros N. pose proof (finf_pos mw ew Hmw Hew).
  assert (0 <= fabsb mw ew a) by (apply Z.mod_pos_bound, pow2_pos; lia).
  unfold fisnan in N. unfold ffinite, HW.ford. destruct (fneg mw ew a); lia.
Qed.

Lemma xlt_ford a b : fbits mw ew a -> fbits mw ew b -> fisnan mw ew a = false -> fisnan mw ew b = false ->
  (xlt (xval mw ew a) (xval mw ew b) <-> ford a < ford b).
Proof.
  intros Ha Hb Na Nb. pose proof (ford_bound a Na) as (A1 & A2 & A3). pose proof (ford_bound b Nb) as (B1 & B2 & B3).
  pose proof (finf_pos mw ew Hmw Hew). pose proof (ford_lt mw ew Hmw ltac:(lia) a b Ha Hb) as FL.
  unfold xval. destruct (ffinite mw ew a) eqn:Fa, (ffinite mw ew b) eqn:Fb.
  - cbn. tauto.
  - specialize (B3 eq_refl). assert (- finf mw ew < ford a < finf mw ew) by (apply A2; reflexivity).
    unfold HW.ford at 2. rewrite B3. destruct (fneg mw ew b); cbn; lia.
  - specialize (A3 eq_refl). assert (- finf mw ew < ford b < finf mw ew) by (apply B2; reflexivity).
    unfold HW.ford at 1. rewrite A3. destruct (fneg mw ew a); cbn; lia.
  - specialize (A3 eq_refl). specialize (B3 eq_refl). unfold HW.ford. rewrite A3, B3.
    destruct (fneg mw ew a), (fneg mw ew b); cbn; lia.
Qed.

Lemma xeq_ford a b : fbits mw ew a -> fbits mw ew b -> fisnan mw ew a = false -> fisnan mw ew b = false ->
  (xval mw ew a = xval mw ew b <-> ford a = ford b).
Proof.
  intros Ha Hb Na Nb. pose proof (ford_bound a Na) as (A1 & A2 & A3). pose proof (ford_bound b Nb) as (B1 & B2 & B3).
  pose proof (finf_pos mw ew Hmw Hew). pose proof (ford_eq mw ew Hmw ltac:(lia) a b Ha Hb) as FL.
  unfold xval. destruct (ffinite mw ew a) eqn:Fa, (ffinite mw ew b) eqn:Fb.
  - split; intros E. { injection E. intros. tauto. } f_equal. tauto.
  - specialize (B3 eq_refl). assert (- finf mw ew < ford a < finf mw ew) by (apply A2; reflexivity).
    unfold HW.ford at 2. rewrite B3. destruct (fneg mw ew b); split; intros; try discriminate; lia.
  - specialize (A3 eq_refl). assert (- finf mw ew < ford b < finf mw ew) by (apply B2; reflexivity).
    unfold HW.ford at 1. rewrite A3. destruct (fneg mw ew a); split; intros; try discriminate; lia.
  - specialize (A3 eq_refl). specialize (B3 eq_refl). unfold HW.ford. rewrite A3, B3.
    destruct (fneg mw ew a), (fneg mw ew b); split; intros; try discriminate; try lia; reflexivity.
Qed.
End Ext.

(** ** Comparison *)
Lemma shl1_zero a b : fb a -> fb b -> (u128 (Z.shiftl (Z.lor a b) 1) =? 0) = ((fa a =? 0) && (fa b =? 0)).
Proof.
  intros Ha Hb. unfold u128. rewrite shiftl_mul by lia.
  change (2^128) with (2^127 * 2^1). rewrite Z.mul_mod_distr_r by lia. rewrite lor_mod by lia.
  assert (0 <= fa a) by (apply Z.mod_pos_bound; reflexivity). assert (0 <= fa b) by (apply Z.mod_pos_bound; reflexivity).
  unfold fabsb in *. change (112 + 15) with 127 in *.
  pose proof (Z.lor_eq_0_iff (a mod 2^127) (b mod 2^127)) as L.
  destruct (Z.eqb_spec (a mod 2^127) 0), (Z.eqb_spec (b mod 2^127) 0); cbn [andb]; apply Bool.eq_true_iff_eq; rewrite Z.eqb_eq;
    (split; intros K; [|try discriminate]); try lia.
Qed.

Lemma cmptf2_ok a b u : fb a -> fb b ->
  cmptf2_ a b u = if fisnan 112 15 a || fisnan 112 15 b then u else Z.sgn (ford 112 15 a - ford 112 15 b).
Proof.
  intros Ha Hb. unfold cmptf2_.
  destruct (tf_split a Ha) as [Ea Ba]. destruct (tf_split b Hb) as [Eb Bb].
  assert (SU : forall x, u128 (s128 x) = u128 x) by (intros; apply (sgn_mod 128); lia).
  assert (UA : u128 a = a) by (apply Z.mod_small; exact Ha).
  assert (UB : u128 b = b) by (apply Z.mod_small; exact Hb).
  assert (Z0 : (s128 (Z.shiftl (Z.lor (s128 a) (s128 b)) 1) =? 0) = ((fa a =? 0) && (fa b =? 0))).
  { rewrite <- shl1_zero by assumption.
    replace (u128 (Z.shiftl (Z.lor a b) 1)) with (u128 (Z.shiftl (Z.lor (s128 a) (s128 b)) 1)).
    - set (z := Z.shiftl _ _). unfold s128, u128, sgn. pose proof (Z.mod_pos_bound z (2^128) ltac:(lia)).
      destruct (z mod 2^128 <? 2^(128-1)) eqn:?; lia.
    - unfold u128. rewrite !shiftl_mul by lia. change (2^128) with (2^127 * 2^1). rewrite !Z.mul_mod_distr_r by lia.
      f_equal. rewrite !lor_mod by lia.
      replace (s128 a mod 2^127) with (a mod 2^127); [replace (s128 b mod 2^127) with (b mod 2^127); [reflexivity|]|].
      + rewrite (s128_ok b Hb), Eb at 1. destruct (fn b); [|reflexivity].
        rewrite <- (Z.mod_add (- 2^127 + _) 2) by lia. f_equal. lia.
      + rewrite (s128_ok a Ha), Ea at 1. destruct (fn a); [|reflexivity].
        rewrite <- (Z.mod_add (- 2^127 + _) 2) by lia. f_equal. lia. }
  rewrite Z0. unfold unordtf2. rewrite !SU, UA, UB, !isnanl_ok by assumption.
  unfold fisnan, ford. change (finf 112 15) with (0x7FFF * 2^112).
  destruct ((fa a =? 0) && (fa b =? 0)) eqn:Z1.
  - replace ((0x7FFF * 2^112 <? fa a) || (0x7FFF * 2^112 <? fa b)) with false by lia.
    destruct (fn a), (fn b); lia.
  - destruct ((0x7FFF * 2^112 <? fa a) || (0x7FFF * 2^112 <? fa b)) eqn:N; cbn [b2z Z.eqb negb]; [reflexivity|].
    rewrite Z.shiftr_land, !shiftr_div by lia.
    assert (DA : s128 a / 2^127 = if fn a then -1 else 0).
    { rewrite (s128_ok a Ha). symmetry. apply Z.div_unique with (fa a); destruct (fn a); lia. }
    assert (DB : s128 b / 2^127 = if fn b then -1 else 0).
    { rewrite (s128_ok b Hb). symmetry. apply Z.div_unique with (fa b); destruct (fn b); lia. }
    rewrite DA, DB, (s128_ok a Ha), (s128_ok b Hb).
    destruct (fn a), (fn b); cbn [Z.land Pos.pred_N N.land Pos.land N.lor Pos.pred_double]; unfold b2z.
    + change (Z.land (-1) (-1)) with (-1). rewrite Z.lxor_m1_r. unfold Z.lnot.
      destruct (Z.ltb_spec (- 2^127 + fa b) (- 2^127 + fa a)), (Z.ltb_spec (- 2^127 + fa a) (- 2^127 + fa b)); lia.
    + change (Z.land (-1) 0) with 0. rewrite Z.lxor_0_r.
      destruct (Z.ltb_spec (0 + fa b) (- 2^127 + fa a)), (Z.ltb_spec (- 2^127 + fa a) (0 + fa b)); lia.
    + change (Z.land 0 (-1)) with 0. rewrite Z.lxor_0_r.
      destruct (Z.ltb_spec (- 2^127 + fa b) (0 + fa a)), (Z.ltb_spec (0 + fa a) (- 2^127 + fa b)); lia.
    + change (Z.land 0 0) with 0. rewrite Z.lxor_0_r.
      destruct (Z.ltb_spec (0 + fa b) (0 + fa a)), (Z.ltb_spec (0 + fa a) (0 + fa b)); lia.
Qed.

Lemma eqtf2_ok a b : fb a -> fb b -> eqtf2 a b =
  b2z (fisnan 112 15 a || fisnan 112 15 b || negb (ford 112 15 a =? ford 112 15 b)).
Proof.
  intros Ha Hb. unfold eqtf2. rewrite shl1_zero, isnanl_ok by assumption. f_equal.
  destruct (tf_split a Ha) as [Ea Ba]. destruct (tf_split b Hb) as [Eb Bb].
  unfold fisnan, ford. change (finf 112 15) with (0x7FFF * 2^112).
  destruct (Z.eqb_spec a b) as [<-|N]; [destruct (fn a); lia|].
  destruct (fn a) eqn:?, (fn b) eqn:?; lia.
Qed.

(** ** Normalisation *)
(** [n] is [k] with the exponent of its leading bit, unbounded below. *)
Definition norm_spec (mw ew k n : Z) : Prop :=
  let e := n / 2^mw in
  let m := n mod 2^mw in
  1 - mw <= e /\ fmag mw ew k = F2R (Float radix2 (2^mw + m) (emin mw ew + e - 1)) /\
  (2^mw <= k -> n = k) /\ (k < 2^mw -> e <= 0).

Section Norm.
Variables mw ew : Z.
Hypothesis Hmw : 0 < mw.
Hypothesis Hew : 1 < ew.

Lemma norm_normal k : 2^mw <= k -> norm_spec mw ew k k.
Proof.
  intros H. assert (HP : 0 < 2^mw) by (apply pow2_pos; lia). unfold norm_spec.
  assert (1 <= k / 2^mw) by (apply Z.div_le_lower_bound; lia).
  split; [lia|]. split; [|lia]. unfold fmag. replace (k / 2^mw =? 0) with false by lia. reflexivity.
Qed.

Lemma norm_sub k s : 0 < k < 2^mw -> 0 <= s -> 2^mw <= k * 2^s < 2^(mw+1) ->
  norm_spec mw ew k (k * 2^s - s * 2^mw) /\ 1 <= s <= mw.
Proof.
  intros Hk Hs H. assert (HP : 0 < 2^mw) by (apply pow2_pos; lia).
  assert (EP : 2^(mw + 1) = 2 * 2^mw) by (rewrite (Z.pow_add_r 2 mw 1) by lia; lia).
  assert (HS : 1 <= s <= mw).
  { split. - destruct (Z.eq_dec s 0) as [->|]; [|lia]. cbn [Z.pow] in H. lia.
    - destruct (Z.le_gt_cases s mw) as [|G]; [assumption|]. exfalso.
      assert (2^(mw+1) <= 2^s) by (apply Z.pow_le_mono_r; lia). nia. }
  split; [|exact HS]. unfold norm_spec.
  assert (ED : (k * 2^s - s * 2^mw) / 2^mw = 1 - s).
  { symmetry. apply Z.div_unique with (k * 2^s - 2^mw); lia. }
  assert (EM : (k * 2^s - s * 2^mw) mod 2^mw = k * 2^s - 2^mw).
  { symmetry. apply Z.mod_unique with (1 - s); lia. }
  rewrite ED, EM. split; [lia|]. split; [|lia].
  unfold fmag. rewrite Z.div_small by lia. cbn [Z.eqb].
  unfold F2R. cbn [Fnum Fexp].
  replace (2^mw + (k * 2^s - 2^mw)) with (k * 2^s) by lia. rewrite mult_IZR, <- bpow2 by lia.
  rewrite Rmult_assoc, <- bpow_plus. do 2 f_equal. lia.
Qed.

Lemma norm_exists k : 0 < k -> exists n, norm_spec mw ew k n.
Proof.
  intros Hk. destruct (Z.lt_ge_cases k (2^mw)) as [L|G]; [|exists k; apply norm_normal; lia].
  pose proof (Z.log2_spec k Hk) as [A B].
  assert (Z.log2 k < mw) by (apply Z.log2_lt_pow2; lia). pose proof (Z.log2_nonneg k).
  exists (k * 2^(mw - Z.log2 k) - (mw - Z.log2 k) * 2^mw). apply norm_sub; try lia.
  assert (E : 2^mw = 2^(Z.log2 k) * 2^(mw - Z.log2 k)) by (rewrite <- Z.pow_add_r by lia; f_equal; lia).
  assert (E' : 2^(mw+1) = 2^(Z.succ (Z.log2 k)) * 2^(mw - Z.log2 k)) by (rewrite <- Z.pow_add_r by lia; f_equal; lia).
  rewrite E, E'. assert (0 < 2^(mw - Z.log2 k)) by (apply pow2_pos; lia). nia.
Qed.

Lemma norm_upper k n : norm_spec mw ew k n -> 0 < k < finf mw ew -> n < finf mw ew /\ n / 2^mw < 2^ew - 1.
Proof.
  intros (A & B & C & D) Hk. assert (HP : 0 < 2^mw) by (apply pow2_pos; lia).
  destruct (pow_ew ew Hew). unfold finf in *.
  destruct (Z.lt_ge_cases k (2^mw)) as [L|G].
  - specialize (D L). pose proof (Z.div_mod n (2^mw) ltac:(lia)). pose proof (Z.mod_pos_bound n (2^mw) HP). split; nia.
  - rewrite (C G) in *. split; [lia|]. apply Z.div_lt_upper_bound; lia.
Qed.

(** widening to a larger format *)
Lemma norm_widen mw' ew' k n : norm_spec mw ew k n -> mw <= mw' -> mw < 2^(ew'-1) - 2^(ew-1) -> 0 < k < finf mw ew ->
  let K := (2^(ew'-1) - 2^(ew-1)) * 2^mw' + n * 2^(mw' - mw) in
  2^mw' <= K < finf mw' ew' /\ fmag mw' ew' K = fmag mw ew k.
Proof.
  intros HN Hm He Hk K.
  assert (EB : 1 < ew').
  { destruct (Z.le_gt_cases ew' 1); [|assumption]. assert (2^(ew'-1) <= 1) by (change 1 with (2^0) at 2; destruct (Z.le_gt_cases 0 (ew' -1)); [apply Z.pow_le_mono_r; lia|rewrite (Z.pow_neg_r 2 (ew'-1)); lia]). destruct (pow_ew ew Hew). lia. }
  pose proof (norm_upper k n HN Hk) as [U1 U2]. destruct HN as (A & B & C & D).
  assert (HP : 0 < 2^mw) by (apply pow2_pos; lia). assert (HP' : 0 < 2^(mw' - mw)) by (apply pow2_pos; lia).
  assert (EW : 2^mw' = 2^mw * 2^(mw'-mw)) by (rewrite <- Z.pow_add_r by lia; f_equal; lia).
  pose proof (Z.div_mod n (2^mw) ltac:(lia)) as DM. pose proof (Z.mod_pos_bound n (2^mw) HP) as MB.
  destruct (pow_ew ew Hew) as [W1 W2]. destruct (pow_ew ew' EB) as [W3 W4].
  set (e := n / 2^mw) in *. set (m := n mod 2^mw) in *.
  set (bd := 2^(ew'-1) - 2^(ew-1)) in *.
  assert (EK : K = (bd + e) * 2^mw' + m * 2^(mw'-mw)).
  { unfold K. rewrite DM, EW. ring. }
  assert (M2 : 0 <= m * 2^(mw'-mw) < 2^mw').
  { split; [apply Z.mul_nonneg_nonneg; lia|]. rewrite EW. apply Z.mul_lt_mono_pos_r; lia. }
  assert (DK : K / 2^mw' = bd + e). { symmetry. apply Z.div_unique with (m * 2^(mw'-mw)); lia. }
  assert (MK : K mod 2^mw' = m * 2^(mw'-mw)). { symmetry. apply Z.mod_unique with (bd + e); lia. }
  split.
  - unfold finf. rewrite EK. split.
    + assert (1 * 2^mw' <= (bd + e) * 2^mw') by (apply Z.mul_le_mono_nonneg_r; lia). lia.
    + assert ((bd + e + 1) * 2^mw' <= (2^ew' - 1) * 2^mw') by (apply Z.mul_le_mono_nonneg_r; lia). lia.
  - rewrite B. unfold fmag. rewrite DK, MK. replace (bd + e =? 0) with false by lia.
    unfold F2R. cbn [Fnum Fexp]. rewrite EW. replace (2^mw * 2^(mw'-mw) + m * 2^(mw'-mw)) with ((2^mw + m) * 2^(mw'-mw)) by ring.
    rewrite mult_IZR, <- bpow2 by lia. rewrite Rmult_assoc, <- bpow_plus. do 2 f_equal.
    unfold emin, bd. lia.
Qed.
End Norm.

Lemma chk_i128_ok x : - 2^127 <= x <= 2^127 - 1 -> chk_i128 x = Ok x.
Proof. unfold chk_i128. intros. replace ((- 2^127 <=? x) && (x <=? 2^127 - 1)) with true by lia. reflexivity. Qed.

Lemma normalizel_ok k : 0 < k < 2^127 -> exists n, normalizel k = Ok n /\ norm_spec 112 15 k n /\ - 2^127 <= n < 2^127.
Proof.
  intros Hk. unfold normalizel. rewrite (shiftl_mul 1 112), Z.mul_1_l by lia. destruct (Z.ltb_spec k (2^112)) as [L|G].
  - unfold u128. rewrite (Z.mod_small k) by lia.
    destruct (clzti2_ok k ltac:(lia)) as (s & -> & Hs & HB). cbn [bind].
    assert (15 <= s).
    { destruct (Z.le_gt_cases 15 s); [assumption|]. exfalso. assert (2^s <= 2^14) by (apply Z.pow_le_mono_r; lia).
      assert (k * 2^s < 2^112 * 2^14) by nia. lia. }
    assert (E : 2^s = 2^15 * 2^(s-15)) by (rewrite <- Z.pow_add_r by lia; f_equal; lia).
    assert (B2 : 2^112 <= k * 2^(s-15) < 2^(112+1)) by lia.
    rewrite lsh_ok by lia. cbn [bind]. rewrite (Z.mod_small (k * _)) by lia.
    destruct (norm_sub 112 15 eq_refl k (s - 15) ltac:(lia) ltac:(lia) B2) as [N HS].
    rewrite shiftl_mul by lia. unfold s128. rewrite !(sgn_id 128) by lia.
    rewrite chk_i128_ok by lia. eexists. split; [reflexivity|]. split; [exact N|lia].
  - exists k. split; [reflexivity|]. split; [apply norm_normal; lia|lia].
Qed.

Lemma normalize64_ok k : 0 < k < 2^63 -> exists n, normalize64 k = Ok n /\ norm_spec 52 11 k n /\ - 2^63 <= n < 2^63.
Proof.
  intros Hk. unfold normalize64. change 0x10000000000000 with (2^52). destruct (Z.ltb_spec k (2^52)) as [L|G].
  - unfold u64. rewrite (Z.mod_small k) by lia.
    destruct (clzll_ok k ltac:(lia)) as (s & -> & Hs & HB). cbn [bind].
    assert (11 <= s).
    { destruct (Z.le_gt_cases 11 s); [assumption|]. exfalso. assert (2^s <= 2^10) by (apply Z.pow_le_mono_r; lia).
      assert (k * 2^s < 2^52 * 2^10) by nia. lia. }
    assert (E : 2^s = 2^11 * 2^(s-11)) by (rewrite <- Z.pow_add_r by lia; f_equal; lia).
    assert (B2 : 2^52 <= k * 2^(s-11) < 2^(52+1)) by lia.
    rewrite lsh_ok by lia. cbn [bind]. rewrite (Z.mod_small (k * _)) by lia.
    destruct (norm_sub 52 11 eq_refl k (s - 11) ltac:(lia) ltac:(lia) B2) as [N HS].
    rewrite shiftl_mul by lia. unfold s64. rewrite !(sgn_id 64) by lia.
    rewrite chk_i64_ok by lia. eexists. split; [reflexivity|]. split; [exact N|lia].
  - exists k. split; [reflexivity|]. split; [apply norm_normal; lia|lia].
Qed.
