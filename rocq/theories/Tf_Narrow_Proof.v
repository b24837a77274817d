(** Narrowing conversions of binary128. *)
From Coq Require Import Reals Lra.
From Flocq Require Import Core.
From Verif Require Import Base Bits FP FP_Proof Rne HW HW_Proof Int128_Model Int128_Proof Int128_Div_Proof
  Int128_Float_Model Int128_Float_Proof Tf_Model Tf_Proof Tf_Widen_Proof.
Open Scope Z_scope.
Local Ltac Zify.zify_post_hook ::= idtac.

Lemma bpow_le' a b : a <= b -> (bpow radix2 a <= bpow radix2 b)%R.
Proof. apply bpow_le. Qed.

(** exponent and significand of a normal magnitude *)
Lemma fmag_normal mw ew k e m : 0 < mw -> k = e * 2^mw + m -> 0 <= m < 2^mw -> 1 <= e ->
  fmag mw ew k = F2R (Float radix2 (2^mw + m) (emin mw ew + e - 1)).
Proof.
  intros Hm E B He. assert (HP : 0 < 2^mw) by (apply pow2_pos; lia).
  assert (D : k / 2^mw = e) by (symmetry; apply Z.div_unique with m; lia).
  assert (M : k mod 2^mw = m) by (symmetry; apply Z.mod_unique with e; lia).
  unfold fmag. rewrite D, M. replace (e =? 0) with false by lia. reflexivity.
Qed.

Lemma fmag_pow mw ew e : 0 < mw -> 1 <= e -> fmag mw ew (e * 2^mw) = bpow radix2 (mw + emin mw ew + e - 1).
Proof.
  intros Hm He. rewrite (fmag_normal mw ew _ e 0) by (try lia; pose proof (pow2_pos mw ltac:(lia)); lia).
  unfold F2R. cbn [Fnum Fexp]. rewrite Z.add_0_r, <- bpow2, <- bpow_plus by lia. f_equal. lia.
Qed.

Lemma F2R_pos_lt q t p : q < 2^p -> 0 <= p -> (F2R (Float radix2 q t) < bpow radix2 (p + t))%R.
Proof.
  intros H Hp. unfold F2R. cbn [Fnum Fexp]. rewrite bpow_plus, (bpow2 p) by lia.
  apply Rmult_lt_compat_r; [apply bpow_gt_0|]. apply IZR_lt. exact H.
Qed.

(** ** binary128 to float *)
Lemma high_split k : 0 <= k < 2^127 ->
  exists e mh low, 0 <= e < 2^15 /\ 0 <= mh < 2^48 /\ 0 <= low < 2^64 /\
    k = e * 2^112 + mh * 2^64 + low /\ k / 2^64 = e * 2^48 + mh /\ k mod 2^64 = low.
Proof.
  intros Hk. exists (k / 2^112), (k / 2^64 mod 2^48), (k mod 2^64).
  pose proof (Z.div_mod k (2^64) ltac:(lia)). pose proof (Z.mod_pos_bound k (2^64) ltac:(lia)).
  pose proof (Z.div_mod (k/2^64) (2^48) ltac:(lia)). pose proof (Z.mod_pos_bound (k/2^64) (2^48) ltac:(lia)).
  assert (E : k / 2^112 = k / 2^64 / 2^48) by (rewrite Z.div_div by lia; f_equal; lia).
  rewrite E. lia.
Qed.

Lemma trunctfsf_mag k : 0 <= k < finf 112 15 ->
  let i := Z.lor (k / 2^64) (b2z (negb (k mod 2^64 =? 0))) in
  let D := trunctfsf_magnitude i in
  0 <= i < 2^63 /\ 0 <= D < 2^63 /\
  ((D = finf 52 11 /\ 0x43FF * 2^112 <= k) \/ (D < finf 52 11 /\ RN 23 8 (fmag 52 11 D) = RN 23 8 (fmag 112 15 k))).
Proof.
  intros Hk. change (finf 112 15) with (0x7FFF * 2^112) in *.
  destruct (high_split k ltac:(lia)) as (e & mh & low & He & Hm & Hl & Ek & -> & ->). cbv zeta.
  rewrite lor_bool.
  replace ((e * 2^48 + mh) mod 2) with (mh mod 2).
  2:{ rewrite Z.add_comm. change (2^48) with (2^47 * 2). rewrite Z.mul_assoc. symmetry. apply Z.mod_add. lia. }
  assert (PM : mh = 2 * (mh / 2) + mh mod 2) by (apply Z.div_mod; lia). pose proof (Z.mod_pos_bound mh 2 ltac:(lia)) as BM.
  assert (EST : Z.lor (2^48 + mh) (b2z (negb (low =? 0))) = 2^48 + mh + (if negb (low =? 0) then 1 - mh mod 2 else 0)).
  { rewrite lor_bool. replace ((2^48 + mh) mod 2) with (mh mod 2); [reflexivity|].
    rewrite Z.add_comm. change (2^48) with (2^47 * 2). symmetry. apply Z.mod_add. lia. }
  set (st := if negb (low =? 0) then 1 - mh mod 2 else 0) in *.
  assert (HST : 0 <= st <= 1 /\ 0 <= mh + st < 2^48) by (subst st; destruct (low =? 0); cbn [negb]; lia).
  clearbody st. set (m' := mh + st) in *. rewrite <- Z.add_assoc. fold m'.
  split; [lia|]. unfold trunctfsf_magnitude. change 0x7FFF000000000000 with (0x7FFF * 2^48).
  change 0x43FF000000000000 with (0x43FF * 2^48). change 0x3C00000000000000 with (0x3C00 * 2^48).
  change 0x7FF0000000000000 with (finf 52 11).
  change (finf 52 11) with (0x7FF * 2^52).
  replace (0x7FFF * 2^48 <? e * 2^48 + m') with false by lia.
  destruct (Z.leb_spec (0x43FF * 2^48) (e * 2^48 + m')) as [L1|L1].
  { split; [lia|]. left. lia. }
  assert (TINY : e <= 0x3C00 -> RN 23 8 (fmag 112 15 k) = 0%R).
  { intros Le. apply RN_tiny; try lia. split; [apply fmag_nonneg; lia|].
    apply Rle_trans with (fmag 112 15 (0x3C01 * 2^112)); [apply fmag_le; lia|].
    rewrite fmag_pow by lia. apply bpow_le. unfold emin. lia. }
  assert (ZERO : RN 23 8 (fmag 52 11 0) = 0%R) by (rewrite fmag_0 by lia; apply RN_0).
  destruct (Z.ltb_spec (0x3C00 * 2^48) (e * 2^48 + m')) as [L2|L2].
  2:{ split; [lia|]. right. split; [lia|]. rewrite ZERO, TINY by lia. reflexivity. }
  rewrite shiftl_mul by lia. unfold u64. rewrite (Z.mod_small (e * 2^48 + m' - _)) by lia. rewrite Z.mod_small by lia.
  split; [lia|]. right. split; [lia|].
  destruct (Z.eq_dec e 0x3C00) as [E0|N0].
  { rewrite TINY by lia. apply RN_tiny; try lia. split; [apply fmag_nonneg; lia|].
    apply Rle_trans with (fmag 52 11 (1 * 2^52)); [apply fmag_le; lia|].
    rewrite fmag_pow by lia. apply bpow_le. unfold emin. lia. }
  rewrite (fmag_normal 112 15 k e (mh * 2^64 + low)) by lia.
  rewrite (fmag_normal 52 11 _ (e - 0x3C00) (m' * 16)) by lia.
  set (T := emin 112 15 + e - 1). assert (ET : emin 52 11 + (e - 0x3C00) - 1 = T + 60) by (unfold T, emin; lia). rewrite ET.
  replace (F2R (Float radix2 (2^52 + m' * 16) (T + 60))) with (F2R (Float radix2 (2^48 + m') (T + 64))).
  2:{ unfold F2R. cbn [Fnum Fexp]. replace (2^52 + m' * 16) with ((2^48 + m') * 2^4) by lia.
      rewrite mult_IZR, <- bpow2 by lia. rewrite Rmult_assoc, <- bpow_plus. do 2 f_equal. lia. }
  set (q := 2^112 + (mh * 2^64 + low)).
  set (t := Z.max (T + 89) (emin 23 8)).
  assert (Q : q / 2^64 = 2^48 + mh) by (symmetry; apply Z.div_unique with low; lia).
  assert (QM : q mod 2^64 = low) by (symmetry; apply Z.mod_unique with (2^48 + mh); lia).
  assert (Ht : T + 89 <= t /\ emin 23 8 <= t) by lia.
  assert (P1 : 2^(t - T) = 2^64 * 2^(t - T - 64)) by (rewrite <- Z.pow_add_r by lia; f_equal; lia).
  assert (P2 : 2^25 <= 2^(t - T - 64)) by (apply Z.pow_le_mono_r; lia).
  rewrite (RN_dyadic 23 8 eq_refl q T t).
  rewrite (RN_dyadic 23 8 eq_refl (2^48 + m') (T + 64) t).
  - f_equal. f_equal.
    replace (t - T) with (64 + (t - (T + 64))) by lia. rewrite (rne_sticky q 64) by lia. rewrite Q, QM, EST. f_equal. lia.
  - lia.
  - lia.
  - lia.
  - replace (t - (T + 64)) with (t - T - 64) by lia. apply Z.div_lt_upper_bound; lia.
  - destruct (Z.eq_dec t (T + 89)) as [E|N]; [left|right; lia]. rewrite E.
    replace (T + 89 - (T + 64)) with 25 by lia. apply Z.div_le_lower_bound; lia.
  - lia.
  - lia.
  - lia.
  - apply Z.div_lt_upper_bound; lia.
  - destruct (Z.eq_dec t (T + 89)) as [E|N]; [left|right; lia]. rewrite E.
    replace (T + 89 - T) with 89 by lia. apply Z.div_le_lower_bound; lia.
Qed.

Lemma tf_high x : fb x -> u64 (Z.shiftr x 64) = (if fn x then 2^63 else 0) + fa x / 2^64 /\ 0 <= fa x / 2^64 < 2^63.
Proof.
  intros Hx. destruct (tf_split x Hx) as [E B].
  assert (BB : 0 <= fa x / 2^64 < 2^63) by (split; [apply Z.div_pos; lia|apply Z.div_lt_upper_bound; lia]).
  split; [|exact BB]. unfold u64. rewrite shiftr_div by lia. rewrite E at 1.
  replace ((if fn x then 2^127 else 0) + fa x) with (fa x + (if fn x then 2^63 else 0) * 2^64) by (destruct (fn x); lia).
  rewrite Z.div_add by lia. rewrite Z.mod_small by (destruct (fn x); lia). lia.
Qed.

Lemma tf_low x : fb x -> x mod 2^64 = fa x mod 2^64.
Proof.
  intros Hx. destruct (tf_split x Hx) as [E B]. rewrite E at 1.
  replace ((if fn x then 2^127 else 0) + fa x) with (fa x + (if fn x then 2^63 else 0) * 2^64) by (destruct (fn x); lia).
  apply Z.mod_add. lia.
Qed.

Lemma land_sign64 (neg : bool) h : 0 <= h < 2^63 ->
  Z.land ((if neg then 2^63 else 0) + h) (2^63 - 1) = h /\
  Z.land ((if neg then 2^63 else 0) + h) 0x8000000000000000 = if neg then 2^63 else 0.
Proof.
  intros H. change 0x8000000000000000 with (2^64 - 2^63). rewrite land_ones_mod, land_field by lia.
  assert (M : ((if neg then 2^63 else 0) + h) mod 2^63 = h).
  { symmetry. apply Z.mod_unique with (if neg then 1 else 0); destruct neg; lia. }
  rewrite M. rewrite Z.mod_small by (destruct neg; lia). split; [reflexivity|]. destruct neg; lia.
Qed.

Lemma lor_sign64 (neg : bool) m : 0 <= m < 2^63 -> Z.lor m (if neg then 2^63 else 0) = with_sign 52 11 neg m.
Proof.
  intros H. unfold with_sign. change (52 + 11) with 63. destruct neg; [|rewrite Z.lor_0_r; lia].
  rewrite Z.lor_comm. change (2^63) with (1 * 2^63). rewrite lor_mul_low by lia. reflexivity.
Qed.

Lemma lor_bool_sign (neg : bool) h (b : bool) : 0 <= h < 2^63 ->
  Z.lor ((if neg then 2^63 else 0) + h) (b2z b) = (if neg then 2^63 else 0) + Z.lor h (b2z b).
Proof.
  intros H. rewrite !lor_bool. destruct neg; [|reflexivity].
  replace ((2^63 + h) mod 2) with (h mod 2); [lia|].
  rewrite Z.add_comm. change (2^63) with (2^62 * 2). symmetry. apply Z.mod_add. lia.
Qed.

Lemma trunctfsf2_shape x : fb x -> trunctfsf2 x =
  d2f (with_sign 52 11 (fn x) (trunctfsf_magnitude (Z.lor (fa x / 2^64) (b2z (negb (fa x mod 2^64 =? 0)))))).
Proof.
  intros Hx. destruct (tf_high x Hx) as [H1 H2]. destruct (tf_split x Hx) as [Ex Bx].
  unfold trunctfsf2. rewrite H1. rewrite (land_ones_mod x 64) by lia. rewrite (tf_low x Hx). unfold bool0.
  rewrite lor_bool_sign by assumption.
  assert (B : 0 <= Z.lor (fa x / 2^64) (b2z (negb (fa x mod 2^64 =? 0))) < 2^63).
  { rewrite lor_bool. pose proof (Z.mod_pos_bound (fa x / 2^64) 2 ltac:(lia)).
    pose proof (Z.div_mod (fa x / 2^64) 2 ltac:(lia)). destruct (negb _); lia. }
  destruct (land_sign64 (fn x) _ B) as [L1 L2]. rewrite L1, L2.
  rewrite lor_sign64; [reflexivity|].
  set (i := Z.lor _ _) in *. unfold trunctfsf_magnitude.
  destruct (Z.ltb_spec 0x7FFF000000000000 i); [lia|]. destruct (Z.leb_spec 0x43FF000000000000 i); [lia|].
  destruct (Z.ltb_spec 0x3C00000000000000 i); [|lia].
  unfold u64. rewrite shiftl_mul, (Z.mod_small (i - _)), Z.mod_small by lia. lia.
Qed.

Lemma trunctfsf2_ok x : fb x ->
  (ffinite 112 15 x = true -> rounds_to 23 8 (fval 112 15 x) (fn x) (trunctfsf2 x)) /\
  (fisinf 112 15 x = true -> trunctfsf2 x = with_sign 23 8 (fn x) (finf 23 8)) /\
  (fisnan 112 15 x = true -> fbits 23 8 (trunctfsf2 x) /\ fisnan 23 8 (trunctfsf2 x) = true).
Proof.
  intros Hx. rewrite (trunctfsf2_shape x Hx). destruct (tf_split x Hx) as [Ex Bx].
  set (k := fa x) in *. set (i := Z.lor _ _). set (D := trunctfsf_magnitude i).
  assert (WS : 0 <= D < 2^63 -> fabsb 52 11 (with_sign 52 11 (fn x) D) = D /\
    fneg 52 11 (with_sign 52 11 (fn x) D) = fn x /\ fbits 52 11 (with_sign 52 11 (fn x) D))
    by (intros; apply with_sign_spec; lia).
  split; [|split].
  - intros F. unfold ffinite in F. fold k in F.
    pose proof (trunctfsf_mag k ltac:(lia)) as TM. cbv zeta in TM. fold i in TM. fold D in TM.
    destruct TM as (Hi & HD & [[DI KI]|[DF RE]]).
    + destruct (WS HD) as (W1 & W2 & W3).  unfold d2f. rewrite hcvt_inf; [|assumption|].
      2:{ unfold fisinf. rewrite W1, DI. apply Z.eqb_refl. }
      rewrite W2. destruct (with_sign_spec 23 8 eq_refl eq_refl (fn x) (finf 23 8) ltac:(cbn; lia)) as (V1 & V2 & V3).
      split; [exact V3|]. split; [exact V2|]. split; [|intros _; exact V1].
      intros C. exfalso. revert C. apply Rle_not_lt.
      assert (BIG : (bpow radix2 128 <= RN 23 8 (fmag 112 15 k))%R).
      { assert (E : RN 23 8 (bpow radix2 128) = bpow radix2 128).
        { unfold RN. apply round_generic; [typeclasses eauto|]. apply generic_format_bpow. unfold FLT_exp, emin. cbn. lia. }
        rewrite <- E. apply round_le; [apply FLT_exp_valid; reflexivity|typeclasses eauto|].
        apply Rle_trans with (fmag 112 15 (0x43FF * 2^112)); [|apply fmag_le; lia].
        rewrite fmag_pow by lia. apply bpow_le. unfold emin. lia. }
      change (2^(8-1)) with 128. unfold fval. fold k. pose proof (bpow_gt_0 radix2 128).
      destruct (fn x); [rewrite RN_opp, Rabs_Ropp|]; rewrite Rabs_pos_eq; lra.
    + destruct (WS HD) as (W1 & W2 & W3).
      assert (WF : ffinite 52 11 (with_sign 52 11 (fn x) D) = true) by (unfold ffinite; rewrite W1; lia).
      pose proof (hcvt_ok 52 11 23 8 eq_refl eq_refl eq_refl eq_refl eq_refl eq_refl _ W3 WF) as R. fold d2f in R.
      rewrite W2 in R. apply (rounds_of_RN 23 8 _ _ _ _ R).
      rewrite with_sign_fval by lia. unfold fval. fold k. destruct (fn x); [rewrite !RN_opp; f_equal|]; exact RE.
  - unfold fisinf. fold k. intros I. apply Z.eqb_eq in I.
    assert (ED : D = finf 52 11). { unfold D, i. rewrite I. vm_compute. reflexivity. }
    destruct (WS ltac:(rewrite ED; vm_compute; split; [discriminate|reflexivity])) as (W1 & W2 & W3).
    unfold d2f. rewrite hcvt_inf; [rewrite W2; reflexivity|assumption|].
    unfold fisinf. rewrite W1, ED. apply Z.eqb_refl.
  - unfold fisnan at 1. fold k. intros N. change (finf 112 15) with (0x7FFF * 2^112) in N.
    assert (HI : 0x7FFF * 2^48 < i < 2^63).
    { unfold i. rewrite lor_bool.
      destruct (high_split k ltac:(lia)) as (e & mh & low & He & Hm & Hl & Ek & -> & ->).
      replace ((e * 2^48 + mh) mod 2) with (mh mod 2).
      2:{ rewrite Z.add_comm. change (2^48) with (2^47 * 2). rewrite Z.mul_assoc. symmetry. apply Z.mod_add. lia. }
      assert (PM : mh = 2 * (mh / 2) + mh mod 2) by (apply Z.div_mod; lia). pose proof (Z.mod_pos_bound mh 2 ltac:(lia)) as BM.
      destruct (Z.eqb_spec low 0); cbn [negb]; [lia|]. destruct (Z.eq_dec mh 0) as [->|]; [|lia]. change (0 mod 2) with 0. lia. }
    assert (ED : D = i). { unfold D, trunctfsf_magnitude. change 0x7FFF000000000000 with (0x7FFF * 2^48).
      replace (0x7FFF * 2^48 <? i) with true by lia. reflexivity. }
    destruct (WS ltac:(lia)) as (W1 & W2 & W3).
    unfold d2f. rewrite hcvt_nan; [split; [unfold fbits; vm_compute; split; [discriminate|reflexivity]|reflexivity]|assumption|].
    unfold fisnan. rewrite W1, ED. change (finf 52 11) with (0x7FF * 2^52). lia.
Qed.

(** ** binary128 to double *)
(** the inputs where trunctfdf2 does not round to nearest-even: exact ties above an
    even quotient in the normal range, and inexact 53-bit truncation one bit below it *)
Definition trunctfdf_bad (k : Z) : Prop :=
  (0x3C01 * 2^112 <= k /\ k mod 2^61 = 2^59) \/ (k / 2^112 = 0x3C00 /\ k mod 2^60 <> 0).

Lemma adj_half low : 0 <= low < 2^64 ->
  (0x8000000000000000 <? Z.lor (Z.land (Z.shiftr low 59) 1) (u64 (Z.shiftl low 4))) = (2^59 <=? low mod 2^60).
Proof.
  intros H. rewrite shiftr_div, shiftl_mul by lia. change 1 with (2^1 - 1). rewrite land_ones_mod by lia. change (2^1) with 2.
  unfold u64. change (2^64) with (2^60 * 2^4). rewrite Z.mul_mod_distr_r by lia.
  set (f := low mod 2^60). assert (Hf : 0 <= f < 2^60) by (apply Z.mod_pos_bound; lia).
  assert (EB : (low / 2^59) mod 2 = f / 2^59).
  { unfold f. change (2^60) with (2^59 * 2). rewrite Z.rem_mul_r by lia. rewrite Z.add_comm, Z.mul_comm, Z.div_add_l by lia.
    rewrite (Z.div_small (low mod 2^59)) by (apply Z.mod_pos_bound; lia). lia. }
  rewrite EB, Z.lor_comm. change 0x8000000000000000 with (2^63).
  destruct (Z.leb_spec (2^59) f) as [L|L].
  - replace (f / 2^59) with 1 by (apply Z.div_unique with (f - 2^59); lia).
    change 1 with (b2z true). rewrite lor_bool. cbv iota.
    replace ((f * 2^4) mod 2) with 0 by (replace (f * 2^4) with ((f * 8) * 2) by lia; symmetry; apply Z.mod_mul; lia). lia.
  - rewrite Z.div_small by lia. rewrite Z.lor_0_r. lia.
Qed.

Lemma trunctfdf_mag k : 0 <= k < finf 112 15 -> ~ trunctfdf_bad k ->
  let D := trunctfdf_magnitude (k / 2^64) (k mod 2^64) in
  rounds_to 52 11 (fmag 112 15 k) false D.
Proof.
  intros Hk NB. change (finf 112 15) with (0x7FFF * 2^112) in *. cbv zeta.
  assert (E112 : 2^112 = 2^48 * 2^64) by reflexivity.
  pose proof (high_split k ltac:(lia)) as (e & mh & low & He & Hm & Hl & Ek & -> & ->).
  assert (ED : k / 2^112 = e) by (symmetry; apply Z.div_unique with (mh * 2^64 + low); lia).
  unfold trunctfdf_magnitude. change 0x7FFF000000000000 with (0x7FFF * 2^48).
  change 0x43FF000000000000 with (0x43FF * 2^48). change 0x3C00000000000000 with (0x3C00 * 2^48).
  change 0x3C01000000000000 with (0x3C01 * 2^48). change 0x3BCC000000000000 with (0x3BCC * 2^48).
  change 0x7FF0000000000000 with (finf 52 11).
  replace ((0x7FFF * 2^48 <? e * 2^48 + mh) || ((e * 2^48 + mh =? 0x7FFF * 2^48) && negb (low =? 0))) with false by lia.
  set (T := emin 112 15 + e - 1). set (q := 2^112 + (mh * 2^64 + low)).
  destruct (Z.leb_spec (0x43FF * 2^48) (e * 2^48 + mh)) as [L1|L1].
  { (* overflow *)
    rewrite (fmag_normal 112 15 k e (mh * 2^64 + low)) by lia. fold T q.
    pose proof (rounds_pack 52 11 eq_refl eq_refl false q T (T + 60)) as RP.
    replace (T + 60 - T) with 60 in RP by lia.
    assert (Q1 : 2^52 <= q / 2^60) by (apply Z.div_le_lower_bound; lia).
    assert (Q2 : q / 2^60 < 2^53) by (apply Z.div_lt_upper_bound; lia).
    specialize (RP ltac:(lia) ltac:(lia) ltac:(unfold T, emin; lia) Q2 ltac:(lia)).
    pose proof (rne_bounds q (2^60) ltac:(lia)) as RB.
    assert (EX : Z.min ((T + 60 - emin 52 11) * 2^52 + rne q (2^60)) (finf 52 11) = finf 52 11).
    { change (finf 52 11) with (0x7FF * 2^52). unfold T, emin. lia. }
    rewrite EX in RP. exact RP. }
  destruct (Z.leb_spec (0x3C01 * 2^48) (e * 2^48 + mh)) as [L2|L2].
  { (* normal *)
    rewrite (fmag_normal 112 15 k e (mh * 2^64 + low)) by lia. fold T q.
    pose proof (rounds_pack 52 11 eq_refl eq_refl false q T (T + 60)) as RP.
    replace (T + 60 - T) with 60 in RP by lia.
    assert (Q1 : 2^52 <= q / 2^60) by (apply Z.div_le_lower_bound; lia).
    assert (Q2 : q / 2^60 < 2^53) by (apply Z.div_lt_upper_bound; lia).
    specialize (RP ltac:(lia) ltac:(lia) ltac:(unfold T, emin; lia) Q2 ltac:(lia)).
    rewrite adj_half by assumption.
    pose proof (Z.div_mod low (2^60) ltac:(lia)) as DL. pose proof (Z.mod_pos_bound low (2^60) ltac:(lia)) as ML.
    assert (BL : 0 <= low / 2^60 < 2^4) by (split; [apply Z.div_pos; lia|apply Z.div_lt_upper_bound; lia]).
    set (lq := low / 2^60) in *. set (f := low mod 2^60) in *.
    assert (QD : q / 2^60 = 2^52 + mh * 2^4 + lq) by (symmetry; apply Z.div_unique with f; lia).
    assert (QM : q mod 2^60 = f) by (symmetry; apply Z.mod_unique with (2^52 + mh * 2^4 + lq); lia).
    assert (NT : ~ (f = 2^59 /\ lq mod 2 = 0)).
    { intros [F0 L0]. apply NB. left. split; [lia|]. symmetry. pose proof (Z.div_mod lq 2 ltac:(lia)) as DQ.
      apply Z.mod_unique with (e * 2^51 + mh * 2^3 + lq / 2); lia. }
    assert (RQ : rne q (2^60) = 2^52 + mh * 2^4 + lq + b2z (2^59 <=? f)).
    { rewrite rne_unfold, QD, QM. f_equal. f_equal.
      replace ((2^52 + mh * 2^4 + lq) mod 2) with (lq mod 2).
      - pose proof (Z.mod_pos_bound lq 2 ltac:(lia)). lia.
      - replace (2^52 + mh * 2^4 + lq) with (lq + (2^51 + mh * 2^3) * 2) by lia. symmetry. apply Z.mod_add. lia. }
    rewrite shiftl_mul, shiftr_div by lia. fold lq. unfold u64.
    rewrite (Z.mod_small (e * 2^48 + mh - _)) by lia. rewrite (Z.mod_small (_ * 2^4)) by lia.
    rewrite lor_mul_low by lia.
    assert (BB : 0 <= b2z (2^59 <=? f) <= 1) by (destruct (2^59 <=? f); cbn; lia).
    rewrite Z.mod_small by lia.
    assert (EX : Z.min ((T + 60 - emin 52 11) * 2^52 + rne q (2^60)) (finf 52 11) =
      (e * 2^48 + mh - 0x3C00 * 2^48) * 2^4 + lq + b2z (2^59 <=? f)).
    { rewrite RQ. change (finf 52 11) with (0x7FF * 2^52). unfold T, emin. lia. }
    rewrite EX in RP. exact RP. }
  destruct (Z.leb_spec (0x3BCC * 2^48) (e * 2^48 + mh)) as [L3|L3].
  { (* subnormal, by hardware multiplication *)
    rewrite (fmag_normal 112 15 k e (mh * 2^64 + low)) by lia. fold T q.
    pose proof (Z.div_mod low (2^60) ltac:(lia)) as DL. pose proof (Z.mod_pos_bound low (2^60) ltac:(lia)) as ML.
    assert (BL : 0 <= low / 2^60 < 2^4) by (split; [apply Z.div_pos; lia|apply Z.div_lt_upper_bound; lia]).
    rewrite !shiftr_div by lia.
    assert (EH : (e * 2^48 + mh) / 2^48 = e) by (symmetry; apply Z.div_unique with mh; lia). rewrite EH.
    unfold u64. rewrite (Z.mod_small (e - 0x3802)) by lia. rewrite !shiftl_mul by lia.
    rewrite (Z.mod_small ((e - 0x3802) * 2^52)) by lia.
    assert (EM : bool0 ((low * 2^4) mod 2^64) = b2z (negb (low mod 2^60 =? 0))).
    { unfold bool0. change (2^64) with (2^60 * 2^4). rewrite Z.mul_mod_distr_r by lia. f_equal. f_equal. lia. }
    rewrite EM.
    assert (ES : Z.lor 0x8000000000000000 (((e * 2^48 + mh) * 2^15) mod 2^64) = 2^63 + mh * 2^15).
    { assert (E1 : ((e * 2^48 + mh) * 2^15) mod 2^64 = (e mod 2) * 2^63 + mh * 2^15).
      { symmetry. pose proof (Z.div_mod e 2 ltac:(lia)). pose proof (Z.mod_pos_bound e 2 ltac:(lia)).
        apply Z.mod_unique with (e / 2); lia. }
      rewrite E1. pose proof (Z.mod_pos_bound e 2 ltac:(lia)).
      rewrite <- (lor_mul_low (mh * 2^15) (e mod 2) 63) by lia. rewrite Z.lor_assoc.
      replace (Z.lor 0x8000000000000000 (e mod 2 * 2^63)) with (1 * 2^63).
      - rewrite lor_mul_low by lia. lia.
      - assert (C : e mod 2 = 0 \/ e mod 2 = 1) by lia. destruct C as [-> | ->]; reflexivity. }
    rewrite ES.
    replace ((2^63 + mh * 2^15) / 2^11) with ((2^48 + mh) * 2^4)
      by (symmetry; rewrite <- (Z.div_mul ((2^48 + mh) * 2^4) (2^11)) by lia; f_equal; lia).
    rewrite lor_mul_low by lia.
    set (lq := low / 2^60) in *. set (f := low mod 2^60) in *.
    assert (QD : q / 2^60 = (2^48 + mh) * 2^4 + lq) by (symmetry; apply Z.div_unique with f; lia).
    assert (QM : q mod 2^60 = f) by (symmetry; apply Z.mod_unique with ((2^48 + mh) * 2^4 + lq); lia).
    set (Q' := Z.lor ((2^48 + mh) * 2^4 + lq) (b2z (negb (f =? 0)))).
    assert (BQ : 2^52 <= Q' < 2^53).
    { unfold Q'. rewrite lor_bool. pose proof (Z.mod_pos_bound ((2^48 + mh) * 2^4 + lq) 2 ltac:(lia)).
      pose proof (Z.div_mod ((2^48 + mh) * 2^4 + lq) 2 ltac:(lia)). destruct (f =? 0); cbn [negb]; lia. }
    assert (SV : fbits 52 11 Q' /\ ffinite 52 11 Q' = true /\ fval 52 11 Q' = F2R (Float radix2 Q' (emin 52 11)) /\ fneg 52 11 Q' = false).
    { destruct (fabsb_pos 52 11 Q' ltac:(change (52 + 11) with 63; lia)) as [A1 A2].
      split; [unfold fbits; change (52 + 11 + 1) with 64; lia|]. unfold ffinite, fval. rewrite A1, A2.
      split; [change (finf 52 11) with (0x7FF * 2^52); lia|]. split; [|reflexivity].
      rewrite (fmag_normal 52 11 Q' 1 (Q' - 2^52)) by lia. f_equal. f_equal; lia. }
    destruct SV as (S1 & S2 & S3 & S4).
    destruct (pow_const 52 11 eq_refl eq_refl eq_refl (e - 0x3C01) ltac:(cbn; lia)) as (C1 & C2 & C3 & C4). cbv zeta in *.
    replace ((2^(11-1) - 1 + (e - 0x3C01)) * 2^52) with ((e - 0x3802) * 2^52) in C1, C2, C3, C4 by lia.
    pose proof (hmul_ok 52 11 eq_refl eq_refl eq_refl _ _ S1 C1 S2 C2) as HM. fold mul64 in HM.
    rewrite S3, S4, C3, C4 in HM. cbn [xorb] in HM.
    apply (rounds_of_RN 52 11 _ _ _ _ HM).
    assert (EV : (F2R (Float radix2 Q' (emin 52 11)) * bpow radix2 (e - 0x3C01) = F2R (Float radix2 Q' (T + 60)))%R).
    { unfold F2R. cbn [Fnum Fexp]. rewrite Rmult_assoc, <- bpow_plus. do 2 f_equal. unfold T, emin. lia. }
    rewrite EV. set (s := 0x3C01 - e).
    assert (Es : emin 52 11 - (T + 60) = s) by (unfold s, T, emin; lia).
    assert (Es' : emin 52 11 - T = 60 + s) by (unfold s, T, emin; lia).
    assert (Hs : 1 <= s <= 53) by (unfold s; lia).
    assert (P1 : 2^(60 + s) = 2^60 * 2^s) by (apply Z.pow_add_r; lia).
    assert (P2 : 2^1 <= 2^s) by (apply Z.pow_le_mono_r; lia).
    assert (RE : rne Q' (2^s) = rne q (2^(60 + s))).
    { destruct (Z.eq_dec s 1) as [S0|S0].
      - assert (F0 : f = 0).
        { destruct (Z.eq_dec f 0) as [|NF]; [assumption|]. exfalso. apply NB. right. split; [unfold s in S0; lia|].
          intros KM. apply NF. rewrite <- KM. apply Z.mod_unique with (e * 2^52 + mh * 2^4 + lq); lia. }
        unfold Q'. rewrite F0. cbn [Z.eqb negb b2z]. rewrite Z.lor_0_r, P1.
        rewrite (Z.mul_comm (2^60)). rewrite <- (rne_scale _ (2^s) (2^60)) by lia. f_equal. lia.
      - rewrite (rne_sticky q 60 s) by lia. rewrite QD, QM. reflexivity. }
    rewrite (RN_dyadic 52 11 eq_refl Q' (T + 60) (emin 52 11)), (RN_dyadic 52 11 eq_refl q T (emin 52 11)).
    - rewrite Es, Es', RE. reflexivity.
    - lia.
    - lia.
    - lia.
    - rewrite Es', P1. apply Z.div_lt_upper_bound; lia.
    - lia.
    - lia.
    - lia.
    - lia.
    - rewrite Es. apply Z.div_lt_upper_bound; lia.
    - lia. }
  (* zero *)
  assert (TINY : RN 52 11 (fmag 112 15 k) = 0%R).
  { apply RN_tiny; try lia. split; [apply fmag_nonneg; lia|].
    apply Rle_trans with (fmag 112 15 (0x3BCC * 2^112)); [apply fmag_le; lia|].
    rewrite fmag_pow by lia. apply bpow_le. unfold emin. lia. }
  destruct (fabsb_pos 52 11 0 ltac:(cbn; lia)) as [A1 A2].
  split; [unfold fbits; cbn; lia|]. split; [exact A2|]. rewrite TINY. split.
  - intros _. split; [reflexivity|]. unfold fval. rewrite A1, A2. apply fmag_0. lia.
  - rewrite Rabs_R0. intros C. pose proof (bpow_gt_0 radix2 (2^(11-1))). lra.
Qed.

Lemma rounds_with_sign mw ew x (neg : bool) D : 0 < mw -> 1 < ew -> rounds_to mw ew x false D ->
  rounds_to mw ew (if neg then Ropp x else x) neg (with_sign mw ew neg D) /\ 0 <= D < 2^(mw+ew).
Proof.
  intros Hm He (A & B & C & D'). unfold fneg in B. assert (HD : 0 <= D < 2^(mw+ew)) by (unfold fbits in A; lia).
  split; [|exact HD]. destruct (with_sign_spec mw ew Hm He neg D HD) as (W1 & W2 & W3).
  destruct (fabsb_pos mw ew D HD) as [P1 P2].
  split; [exact W3|]. split; [exact W2|].
  assert (ER : Rabs (RN mw ew (if neg then Ropp x else x)) = Rabs (RN mw ew x)) by (destruct neg; [rewrite RN_opp, Rabs_Ropp|]; reflexivity).
  rewrite ER. split.
  - intros K. destruct (C K) as [F V]. unfold ffinite in *. rewrite W1. rewrite P1 in F. split; [exact F|].
    rewrite with_sign_fval by assumption. unfold fval in V. rewrite P1, P2 in V.
    destruct neg; [rewrite RN_opp|]; rewrite V; reflexivity.
  - intros K. rewrite W1, <- P1. apply D'. exact K.
Qed.

Lemma trunctfdf2_shape x : fb x -> trunctfdf2 x =
  Z.lor (trunctfdf_magnitude (fa x / 2^64) (fa x mod 2^64)) (if fn x then 2^63 else 0).
Proof.
  intros Hx. destruct (tf_high x Hx) as [H1 H2]. unfold trunctfdf2. rewrite H1.
  destruct (land_sign64 (fn x) _ H2) as [L1 L2]. rewrite L1, L2. unfold u64. rewrite (tf_low x Hx). reflexivity.
Qed.

Lemma trunctfdf2_ok x : fb x ->
  (ffinite 112 15 x = true -> ~ trunctfdf_bad (fa x) -> rounds_to 52 11 (fval 112 15 x) (fn x) (trunctfdf2 x)) /\
  (fisinf 112 15 x = true -> trunctfdf2 x = with_sign 52 11 (fn x) (finf 52 11)) /\
  (fisnan 112 15 x = true -> fbits 52 11 (trunctfdf2 x) /\ fisnan 52 11 (trunctfdf2 x) = true).
Proof.
  intros Hx. rewrite (trunctfdf2_shape x Hx). destruct (tf_split x Hx) as [Ex Bx]. set (k := fa x) in *.
  split; [|split].
  - intros F NB. unfold ffinite in F. fold k in F.
    pose proof (trunctfdf_mag k ltac:(lia) NB) as R. cbv zeta in R.
    destruct (rounds_with_sign 52 11 _ (fn x) _ eq_refl eq_refl R) as [R' B].
    rewrite lor_sign64 by exact B. exact R'.
  - unfold fisinf. fold k. intros I. apply Z.eqb_eq in I. rewrite I.
    change (trunctfdf_magnitude (finf 112 15 / 2^64) (finf 112 15 mod 2^64)) with (finf 52 11).
    apply lor_sign64. vm_compute. split; [discriminate|reflexivity].
  - unfold fisnan at 1. fold k. intros N. change (finf 112 15) with (0x7FFF * 2^112) in N.
    destruct (high_split k ltac:(lia)) as (e & mh & low & He & Hm & Hl & Ek & -> & ->).
    unfold trunctfdf_magnitude. change 0x7FFF000000000000 with (0x7FFF * 2^48).
    replace ((0x7FFF * 2^48 <? e * 2^48 + mh) || ((e * 2^48 + mh =? 0x7FFF * 2^48) && negb (low =? 0))) with true by lia.
    rewrite lor_sign64 by lia.
    destruct (with_sign_spec 52 11 eq_refl eq_refl (fn x) (e * 2^48 + mh) ltac:(change (52 + 11) with 63; lia)) as (W1 & W2 & W3).
    split; [exact W3|]. unfold fisnan. rewrite W1. change (finf 52 11) with (0x7FF * 2^52). lia.
Qed.
