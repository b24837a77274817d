(** Facts about formats and rounding. *)
From Coq Require Import Reals Lra.
From Flocq Require Import Core BinarySingleNaN Binary Bits.
From Verif Require Import Base FP.
Open Scope Z_scope.

Local Ltac Zify.zify_post_hook ::= idtac.

Lemma bpow2 e : 0 <= e -> bpow radix2 e = IZR (2^e).
Proof. intros. rewrite <- IZR_Zpower by assumption. reflexivity. Qed.

Lemma pow2_pos e : 0 <= e -> 0 < 2^e.
Proof. intros. apply Z.pow_pos_nonneg; lia. Qed.

(** ** Rounding of quotients *)

Lemma ZnearestE_div n d : 0 < d -> ZnearestE (IZR n / IZR d) = rne n d.
Proof.
  intros Hd. assert (HdR : (0 < IZR d)%R) by (apply IZR_lt; lia).
  unfold Znearest, rne. rewrite Zfloor_div by lia.
  pose proof (Z.div_mod n d ltac:(lia)) as E. pose proof (Z.mod_pos_bound n d Hd) as M.
  set (q := n / d) in *. set (r := n mod d) in *.
  assert (EX : (IZR n / IZR d - IZR q = IZR r / IZR d)%R).
  { rewrite E at 1. rewrite plus_IZR, mult_IZR. field. lra. }
  rewrite EX.
  assert (EC : r <> 0 -> Zceil (IZR n / IZR d) = q + 1).
  { intros Hr. apply Zceil_imp. rewrite minus_IZR, plus_IZR.
    assert (0 < IZR r / IZR d)%R by (apply Rdiv_lt_0_compat; [apply IZR_lt; lia|assumption]).
    assert (IZR r / IZR d < 1)%R.
    { apply (Rmult_lt_reg_r (IZR d)); [assumption|]. unfold Rdiv. rewrite Rmult_assoc, Rinv_l by lra.
      rewrite Rmult_1_r, Rmult_1_l. apply IZR_lt. lia. }
    lra. }
  assert (EH : Rcompare (IZR r / IZR d) (/2) = Z.compare (2 * r) d).
  { rewrite <- (Rcompare_mult_r (2 * IZR d)) by lra.
    replace (IZR r / IZR d * (2 * IZR d))%R with (IZR (2 * r)) by (rewrite mult_IZR; field; lra).
    replace (/ 2 * (2 * IZR d))%R with (IZR d) by field.
    apply Rcompare_IZR. }
  rewrite EH. clear EH EX. destruct (Z.compare (2 * r) d) eqn:EQ.
  - apply Z.compare_eq in EQ.
    replace (2 * r <? d) with false by (symmetry; apply Z.ltb_ge; lia).
    replace (d <? 2 * r) with false by (symmetry; apply Z.ltb_ge; lia).
    destruct (Z.even q); cbn [negb]; [reflexivity|]. apply EC. lia.
  - rewrite Z.compare_lt_iff in EQ. replace (2 * r <? d) with true by lia. reflexivity.
  - rewrite Z.compare_gt_iff in EQ. replace (2 * r <? d) with false by lia. replace (d <? 2 * r) with true by lia.
    apply EC. lia.
Qed.

Lemma rne_bounds n d : 0 < d -> n / d <= rne n d <= n / d + 1.
Proof. intros. unfold rne. ifs; lia. Qed.

Lemma rne_exact n d : 0 < d -> rne (n * d) d = n.
Proof. intros. unfold rne. rewrite Z.div_mul, Z.mod_mul by lia. replace (2 * 0 <? d) with true by lia. reflexivity. Qed.

Lemma rne_1 n : rne n 1 = n.
Proof. unfold rne. rewrite Z.div_1_r, Z.mod_1_r. reflexivity. Qed.

Section Format.
Variables mw ew : Z.
Hypothesis Hmw : 0 < mw.
Hypothesis Hew : 1 < ew.

Notation emin := (emin mw ew).
Notation fmag := (fmag mw ew).
Notation RN := (RN mw ew).
Notation finf := (finf mw ew).

Instance prec_pos : Prec_gt_0 (mw + 1).
Proof. unfold Prec_gt_0. lia. Qed.

(** The value [M * 2^E] rounds to [rne M 2^(t-E) * 2^t] when [t] is its
    exponent in the format. *)
Lemma RN_dyadic M E t : 0 <= M -> E <= t -> emin <= t ->
  M / 2^(t - E) < 2^(mw + 1) -> (2^mw <= M / 2^(t - E) \/ t = emin) ->
  RN (F2R (Float radix2 M E)) = F2R (Float radix2 (rne M (2^(t - E))) t).
Proof.
  intros HM HE Ht HU HL.
  assert (Hd : 0 < 2^(t - E)) by (apply pow2_pos; lia).
  destruct (Z.eq_dec M 0) as [->|HM0].
  { unfold FP.RN. rewrite F2R_0, round_0 by typeclasses eauto.
    unfold rne. rewrite Z.div_0_l, Z.mod_0_l by lia. replace (2 * 0 <? 2^(t-E)) with true by lia.
    rewrite F2R_0. reflexivity. }
  assert (Ex : F2R (Float radix2 M E) = (IZR M / IZR (2^(t - E)) * bpow radix2 t)%R).
  { unfold F2R. cbn [Fnum Fexp]. unfold Rdiv. rewrite <- bpow2 by lia.
    rewrite <- bpow_opp, Rmult_assoc, <- bpow_plus. do 2 f_equal. lia. }
  assert (Hlo : 2^mw <= M / 2^(t-E) -> (bpow radix2 (mw + t) <= F2R (Float radix2 M E))%R).
  { intros HL'. rewrite Ex, bpow_plus, (bpow2 mw) by lia. apply Rmult_le_compat_r; [apply bpow_ge_0|].
    apply Rle_trans with (IZR (M / 2^(t-E))); [apply IZR_le; assumption|].
    rewrite <- Zfloor_div by lia. apply Zfloor_lb. }
  assert (Hhi : (F2R (Float radix2 M E) < bpow radix2 (mw + 1 + t))%R).
  { rewrite Ex, bpow_plus, (bpow2 (mw + 1)) by lia. apply Rmult_lt_compat_r; [apply bpow_gt_0|].
    rewrite <- (Zfloor_div M (2^(t-E))) in HU by lia.
    apply Rlt_le_trans with (IZR (Zfloor (IZR M / IZR (2^(t-E)))) + 1)%R; [apply Zfloor_ub|].
    rewrite <- plus_IZR. apply IZR_le. lia. }
  assert (Hpos : (0 < F2R (Float radix2 M E))%R) by (apply F2R_gt_0; cbn; lia).
  assert (Ec : cexp radix2 (FLT_exp emin (mw + 1)) (F2R (Float radix2 M E)) = t).
  { unfold cexp, FLT_exp.
    assert (HmU : mag radix2 (F2R (Float radix2 M E)) <= mw + 1 + t).
    { apply mag_le_bpow; [lra|]. rewrite Rabs_pos_eq by lra. assumption. }
    destruct HL as [HL| ->]; [|lia].
    assert (HmL : mw + t + 1 <= mag radix2 (F2R (Float radix2 M E))).
    { apply mag_ge_bpow. replace (mw + t + 1 - 1) with (mw + t) by lia.
      rewrite Rabs_pos_eq by lra. apply Hlo. assumption. }
    lia. }
  unfold FP.RN, round, scaled_mantissa. rewrite Ec. f_equal. f_equal.
  rewrite Ex. rewrite Rmult_assoc, <- bpow_plus. replace (t + - t) with 0 by lia.
  cbn [bpow]. rewrite Rmult_1_r. apply ZnearestE_div. assumption.
Qed.

Lemma RN_opp x : RN (- x) = Ropp (RN x).
Proof. unfold FP.RN. apply round_NE_opp. Qed.

Lemma RN_0 : RN 0 = 0%R.
Proof. unfold FP.RN. apply round_0. typeclasses eauto. Qed.

(** ** Packing *)

Lemma fmag_pack t q : emin <= t -> 0 <= q <= 2^(mw + 1) -> (t = emin \/ 2^mw <= q) ->
  fmag ((t - emin) * 2^mw + q) = F2R (Float radix2 q t).
Proof.
  intros Ht Hq HL. assert (HP : 0 < 2^mw) by (apply pow2_pos; lia).
  assert (EP : 2^(mw + 1) = 2 * 2^mw) by (rewrite Z.pow_add_r by lia; lia).
  unfold FP.fmag.
  destruct (Z.lt_ge_cases q (2^mw)) as [S|S].
  { assert (t = emin) by lia. subst t. rewrite Z.sub_diag, Z.mul_0_l, Z.add_0_l.
    rewrite Z.div_small by lia. reflexivity. }
  destruct (Z.eq_dec q (2^(mw+1))) as [Eq|Nq].
  - subst q. rewrite EP. replace ((t - emin) * 2^mw + 2 * 2^mw) with ((t - emin + 2) * 2^mw) by ring.
    rewrite Z.div_mul, Z.mod_mul by lia. replace (t - emin + 2 =? 0) with false by lia.
    rewrite Z.add_0_r. replace (emin + (t - emin + 2) - 1) with (t + 1) by lia.
    unfold F2R. cbn [Fnum Fexp]. rewrite mult_IZR, bpow_plus. change (bpow radix2 1) with 2%R. ring.
  - assert (Ed : ((t - emin) * 2^mw + q) / 2^mw = t - emin + 1).
    { symmetry. apply Z.div_unique with (q - 2^mw); lia. }
    assert (Em : ((t - emin) * 2^mw + q) mod 2^mw = q - 2^mw).
    { symmetry. apply Z.mod_unique with (t - emin + 1); lia. }
    rewrite Ed, Em. replace (t - emin + 1 =? 0) with false by lia.
    f_equal. f_equal; lia.
Qed.

Lemma fmag_0 : fmag 0 = 0%R.
Proof. unfold FP.fmag. rewrite Z.div_0_l by (pose proof (pow2_pos mw); lia). cbn. apply F2R_0. Qed.

(** Every magnitude is of the packed form. *)
Lemma fmag_unpack k : 0 <= k -> exists t q, emin <= t /\ 0 <= q < 2^(mw + 1) /\ (t = emin \/ 2^mw <= q) /\
  k = (t - emin) * 2^mw + q /\ fmag k = F2R (Float radix2 q t).
Proof.
  intros Hk. assert (HP : 0 < 2^mw) by (apply pow2_pos; lia).
  assert (EP : 2^(mw + 1) = 2 * 2^mw) by (rewrite Z.pow_add_r by lia; lia).
  pose proof (Z.div_mod k (2^mw) ltac:(lia)) as E. pose proof (Z.mod_pos_bound k (2^mw) HP) as M.
  pose proof (Z.div_pos k (2^mw) Hk HP) as D.
  destruct (Z.eq_dec (k / 2^mw) 0) as [Z0|N0].
  - exists emin, k. repeat split; try lia. unfold FP.fmag. rewrite Z0. reflexivity.
  - exists (emin + k / 2^mw - 1), (2^mw + k mod 2^mw). repeat split; try lia.
    unfold FP.fmag. replace (k / 2^mw =? 0) with false by lia. reflexivity.
Qed.

Lemma fmag_nonneg k : 0 <= k -> (0 <= fmag k)%R.
Proof.
  intros Hk. destruct (fmag_unpack k Hk) as (t & q & _ & Hq & _ & _ & ->).
  apply F2R_ge_0. cbn. lia.
Qed.

(** The order of magnitudes is the order of the patterns. *)
Lemma fmag_succ k : 0 <= k -> (fmag k < fmag (k + 1))%R.
Proof.
  intros Hk. destruct (fmag_unpack k Hk) as (t & q & Ht & Hq & HL & E & ->).
  replace (k + 1) with ((t - emin) * 2^mw + (q + 1)) by lia.
  rewrite fmag_pack by lia. apply F2R_lt. lia.
Qed.

Lemma fmag_lt k l : 0 <= k < l -> (fmag k < fmag l)%R.
Proof.
  intros [Hk Hl]. replace l with (k + 1 + Z.of_nat (Z.to_nat (l - k - 1))) by lia.
  induction (Z.to_nat (l - k - 1)) as [|n IH].
  - rewrite Z.add_0_r. apply fmag_succ. assumption.
  - apply Rlt_trans with (1 := IH). rewrite Nat2Z.inj_succ.
    replace (k + 1 + Z.succ (Z.of_nat n)) with (k + 1 + Z.of_nat n + 1) by lia.
    apply fmag_succ. lia.
Qed.

Lemma fmag_le k l : 0 <= k <= l -> (fmag k <= fmag l)%R.
Proof.
  intros [Hk Hl]. destruct (Z.eq_dec k l) as [->|N]; [apply Rle_refl|]. apply Rlt_le, fmag_lt. lia.
Qed.

Lemma fmag_lt_iff k l : 0 <= k -> 0 <= l -> (k < l <-> (fmag k < fmag l)%R).
Proof.
  intros Hk Hl. split; intros H; [apply fmag_lt; lia|].
  destruct (Z.lt_ge_cases k l) as [|G]; [assumption|]. pose proof (fmag_le l k ltac:(lia)). lra.
Qed.

Lemma fmag_inj k l : 0 <= k -> 0 <= l -> fmag k = fmag l -> k = l.
Proof.
  intros Hk Hl H. destruct (Z.lt_trichotomy k l) as [L|[L|L]]; [|assumption|].
  - pose proof (fmag_lt k l ltac:(lia)). lra.
  - pose proof (fmag_lt l k ltac:(lia)). lra.
Qed.

Lemma pow_ew : 2^ew = 2 * 2^(ew - 1) /\ 2 <= 2^(ew - 1).
Proof.
  split; [rewrite <- Z.pow_succ_r by lia; f_equal; lia|].
  change 2 with (2^1) at 1. apply Z.pow_le_mono_r; lia.
Qed.

Lemma fmag_inf : fmag finf = bpow radix2 (2^(ew - 1)).
Proof.
  assert (HP : 0 < 2^mw) by (apply pow2_pos; lia). destruct pow_ew as [E1 E2].
  unfold FP.fmag, FP.finf. rewrite Z.div_mul, Z.mod_mul by lia.
  replace (2^ew - 1 =? 0) with false by lia. rewrite Z.add_0_r.
  unfold F2R. cbn [Fnum Fexp]. rewrite <- bpow2 by lia. rewrite <- bpow_plus. f_equal. unfold FP.emin. lia.
Qed.

Lemma finf_pos : 0 < finf < 2^(mw + ew).
Proof.
  assert (HP : 0 < 2^mw) by (apply pow2_pos; lia). destruct pow_ew as [E1 E2].
  unfold FP.finf. rewrite Z.pow_add_r by lia. nia.
Qed.

Lemma fabsb_pos k : 0 <= k < 2^(mw + ew) -> fabsb mw ew k = k /\ fneg mw ew k = false.
Proof. intros. unfold fabsb, fneg. rewrite Z.mod_small by lia. split; [reflexivity|lia]. Qed.

Lemma fabsb_neg k : 0 <= k < 2^(mw + ew) ->
  fabsb mw ew (2^(mw + ew) + k) = k /\ fneg mw ew (2^(mw + ew) + k) = true.
Proof.
  intros. unfold fabsb, fneg. split; [|lia].
  replace (2^(mw+ew) + k) with (k + 1 * 2^(mw+ew)) by lia. rewrite Z.mod_add by lia.
  apply Z.mod_small. lia.
Qed.

Notation with_sign := (with_sign mw ew).

Lemma with_sign_spec neg k : 0 <= k < 2^(mw + ew) ->
  fabsb mw ew (with_sign neg k) = k /\ fneg mw ew (with_sign neg k) = neg /\ fbits mw ew (with_sign neg k).
Proof.
  intros Hk. unfold FP.with_sign, fbits. rewrite (Z.pow_add_r 2 (mw + ew) 1) by lia. change (2^1) with 2.
  destruct neg.
  - destruct (fabsb_neg k Hk). repeat split; try assumption; lia.
  - rewrite Z.add_0_l. destruct (fabsb_pos k Hk). repeat split; try assumption; lia.
Qed.

Lemma with_sign_fval (neg : bool) k : 0 <= k < 2^(mw + ew) ->
  fval mw ew (with_sign neg k) = if neg then Ropp (fmag k) else fmag k.
Proof.
  intros Hk. destruct (with_sign_spec neg k Hk) as (A & B & _). unfold fval. rewrite A, B. reflexivity.
Qed.

(** The packing lemma: the exact magnitude [M * 2^E], rounded at exponent [t],
    packs into the correctly rounded result. *)
Lemma rounds_pack (neg : bool) M E t : 0 <= M -> E <= t -> emin <= t ->
  M / 2^(t - E) < 2^(mw + 1) -> (2^mw <= M / 2^(t - E) \/ t = emin) ->
  rounds_to mw ew (if neg then Ropp (F2R (Float radix2 M E)) else F2R (Float radix2 M E)) neg
    (with_sign neg (Z.min ((t - emin) * 2^mw + rne M (2^(t - E))) finf)).
Proof.
  intros HM HE Ht HU HL.
  assert (Hd : 0 < 2^(t - E)) by (apply pow2_pos; lia).
  assert (HP : 0 < 2^mw) by (apply pow2_pos; lia).
  pose proof (rne_bounds M (2^(t-E)) Hd) as RB.
  pose proof (Z.div_pos M (2^(t-E)) HM Hd) as D0.
  set (q := rne M (2^(t-E))) in *.
  assert (HQ : 0 <= q <= 2^(mw+1)) by lia.
  assert (HQL : t = emin \/ 2^mw <= q) by lia.
  pose proof (fmag_pack t q Ht HQ HQL) as FPk.
  set (k := (t - emin) * 2^mw + q) in *.
  assert (Hk : 0 <= k) by (subst k; nia).
  pose proof finf_pos as FI.
  assert (Hm : 0 <= Z.min k finf < 2^(mw+ew)) by lia.
  destruct (with_sign_spec neg (Z.min k finf) Hm) as (A & B & C).
  assert (ER : RN (F2R (Float radix2 M E)) = fmag k).
  { rewrite FPk. apply RN_dyadic; assumption. }
  set (x := F2R (Float radix2 M E)) in *.
  assert (ERx : RN (if neg then Ropp x else x) = if neg then Ropp (fmag k) else fmag k).
  { destruct neg; [rewrite RN_opp|]; rewrite ER; reflexivity. }
  assert (EA : Rabs (RN (if neg then Ropp x else x)) = fmag k).
  { rewrite ERx. pose proof (fmag_nonneg k Hk). destruct neg; [rewrite Rabs_Ropp|]; apply Rabs_pos_eq; lra. }
  split; [exact C|]. split; [exact B|]. fold RN. rewrite EA. rewrite <- fmag_inf. split.
  - intros L. apply fmag_lt_iff in L; [|lia|lia].
    rewrite Z.min_l in * by lia. unfold ffinite. rewrite A. split; [lia|].
    rewrite with_sign_fval by lia. rewrite ERx. reflexivity.
  - intros G. rewrite A. destruct (Z.lt_ge_cases k finf) as [L|L]; [|lia].
    pose proof (fmag_lt k finf ltac:(lia)). lra.
Qed.

(** ** Agreement with Flocq *)
Hypothesis Hprec : mw + 1 < 2^(ew - 1).
Hypothesis Hmw' : 0 < mw.
Hypothesis Hew' : 0 < ew.

Lemma emin_flocq : SpecFloat.emin (mw + 1) (2^(ew - 1)) = emin.
Proof. unfold FP.emin, SpecFloat.emin. lia. Qed.

Lemma fabsb_split b : fbits mw ew b ->
  fabsb mw ew b mod 2^mw = b mod 2^mw /\ fabsb mw ew b / 2^mw = (b / 2^mw) mod 2^ew.
Proof.
  intros Hb. assert (HP : 0 < 2^mw) by (apply pow2_pos; lia). assert (HE : 0 < 2^ew) by (apply pow2_pos; lia).
  unfold fabsb. rewrite Z.pow_add_r by lia. rewrite (Z.rem_mul_r b (2^mw) (2^ew)) by lia.
  pose proof (Z.mod_pos_bound b (2^mw) HP) as M. split.
  - rewrite (Z.mul_comm (2^mw)), Z.mod_add by lia. apply Z.mod_mod. lia.
  - rewrite (Z.mul_comm (2^mw)), Z.div_add by lia. rewrite Z.div_small by lia. lia.
Qed.

Lemma fval_flocq b : fbits mw ew b ->
  let f := binary_float_of_bits mw ew Hmw' Hew' Hprec b in
  (ffinite mw ew b = true -> Binary.is_finite _ _ f = true /\ B2R _ _ f = fval mw ew b /\ Binary.Bsign _ _ f = fneg mw ew b) /\
  (fisinf mw ew b = true -> f = Binary.B754_infinity _ _ (fneg mw ew b)) /\
  (fisnan mw ew b = true -> Binary.is_nan _ _ f = true).
Proof.
  intros Hb f.
  assert (HP : 0 < 2^mw) by (apply pow2_pos; lia). assert (HE : 0 < 2^ew) by (apply pow2_pos; lia).
  destruct pow_ew as [W1 W2].
  destruct (fabsb_split b Hb) as [S1 S2].
  pose proof (Z.mod_pos_bound b (2^mw) HP) as M. pose proof (Z.mod_pos_bound (b / 2^mw) (2^ew) HE) as ME.
  assert (Ea : fabsb mw ew b = (b / 2^mw) mod 2^ew * 2^mw + b mod 2^mw).
  { rewrite <- S1, <- S2. rewrite Z.mul_comm. apply Z.div_mod. lia. }
  assert (Esgn : Zle_bool (2^mw * 2^ew) b = fneg mw ew b).
  { unfold fneg. rewrite Z.pow_add_r by lia. reflexivity. }
  subst f. unfold binary_float_of_bits.
  set (C := binary_float_of_bits_aux_correct mw ew Hmw' Hew' Hprec b). clearbody C.
  revert C. unfold binary_float_of_bits_aux, split_bits. rewrite Esgn.
  unfold ffinite, fisinf, fisnan, fval, FP.fmag. rewrite S1, S2, Ea. unfold FP.finf.
  set (e := (b / 2^mw) mod 2^ew) in *. set (m := b mod 2^mw) in *. set (s := fneg mw ew b).
  destruct (Zeq_bool e 0) eqn:E0; [apply Zeq_bool_eq in E0|apply Zeq_bool_neq in E0].
  - rewrite E0, Z.mul_0_l, Z.add_0_l. replace (0 =? 0) with true by reflexivity.
    destruct m as [|p|p] eqn:Em; intros C; [| |lia].
    + split; [|split; nia]. intros _. cbn. rewrite F2R_0. destruct s; repeat split; lra.
    + split; [|split; nia]. intros _. cbn -[F2R FP.emin].
      rewrite emin_flocq.
      destruct s; cbn [Binary.B2R]; repeat split; try reflexivity.
      rewrite <- F2R_Zopp. reflexivity.
  - replace (e =? 0) with false by lia.
    destruct (Zeq_bool e (2^ew - 1)) eqn:E1; [apply Zeq_bool_eq in E1|apply Zeq_bool_neq in E1].
    + rewrite E1.
      destruct m as [|p|p] eqn:Em; intros C; [| |lia].
      * split; [lia|]. split; [|lia]. intros _. reflexivity.
      * split; [lia|]. split; [lia|]. intros _. reflexivity.
    + intros C. split; [|split; nia]. intros _. revert C.
      destruct (m + 2^mw)%Z as [|p|p] eqn:Em; [lia| |lia]. intros C. cbn -[F2R FP.emin].
      replace (2^mw + m) with (Z.pos p) by lia.
      rewrite emin_flocq. replace (e + emin - 1) with (emin + e - 1) by lia.
      destruct s; repeat split; try reflexivity. rewrite <- F2R_Zopp. reflexivity.
Qed.

End Format.
