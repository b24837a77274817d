From Coq Require Import Reals Lra.
From Flocq Require Import Core.
From Verif Require Import Base Bits FP FP_Proof HW HW_Proof Int128_Model Int128_Proof Int128_Div_Proof Int128_Float_Model.
Open Scope Z_scope.
Local Ltac Zify.zify_post_hook ::= idtac.

(** The "round bit and (odd or sticky)" test is rounding to nearest even. *)
Lemma land_bit_0 N h : 0 <= h -> (Z.land N (2^h) =? 0) = ((N / 2^h) mod 2 =? 0).
Proof.
  intros Hh. assert (HP : 0 < 2^h) by (apply pow2_pos; lia).
  replace (2^h) with (2^(h+1) - 2^h) at 1 by (rewrite Z.pow_add_r by lia; lia).
  rewrite land_field by lia. rewrite (mod_split_pow2 N h (h + 1)) by lia.
  replace (h + 1 - h) with 1 by lia. change (2^1) with 2.
  pose proof (Z.mod_pos_bound (N / 2^h) 2 ltac:(lia)). nia.
Qed.

Lemma rne_adj N h : 0 <= N -> 0 <= h ->
  N / 2^(h+1) + b2z (negb (Z.land N (2^h) =? 0) && negb (Z.land N (3 * 2^h - 1) =? 0)) = rne N (2^(h+1)).
Proof.
  intros HN Hh. assert (HP : 0 < 2^h) by (apply pow2_pos; lia).
  assert (E1 : 2^(h+1) = 2 * 2^h) by (rewrite Z.pow_add_r by lia; lia).
  assert (E2 : 2^(h+2) = 4 * 2^h) by (rewrite Z.pow_add_r by lia; lia).
  assert (EL : (Z.land N (3 * 2^h - 1) =? 0) = ((N mod 2^h =? 0) && ((N / 2^(h+1)) mod 2 =? 0))).
  { replace (3 * 2^h - 1) with (Z.lor (2^(h+1)) (2^h - 1)).
    - rewrite Z.land_lor_distr_r. rewrite land_ones_mod by lia.
      pose proof (land_bit_0 N (h+1) ltac:(lia)) as A.
      pose proof (Z.mod_pos_bound N (2^h) HP).
      destruct (Z.eqb_spec (N mod 2^h) 0) as [E0|N0].
      + rewrite E0, Z.lor_0_r. cbn [andb]. exact A.
      + cbn [andb]. apply Z.eqb_neq. intros H0. apply Z.lor_eq_0_iff in H0. lia.
    - replace (2^(h+1)) with (2 * 2^h) by lia. rewrite lor_mul_low by lia. lia. }
  rewrite EL, land_bit_0 by lia. unfold rne.
  rewrite Zeven_mod. rewrite (mod_split_pow2 N h (h+1)) by lia.
  replace (h + 1 - h) with 1 by lia. change (2^1) with 2.
  pose proof (Z.mod_pos_bound N (2^h) HP). pose proof (Z.mod_pos_bound (N / 2^h) 2 ltac:(lia)).
  pose proof (Z.mod_pos_bound (N / 2^(h+1)) 2 ltac:(lia)).
  set (r := N mod 2^h) in *. set (b := (N / 2^h) mod 2) in *. set (q := N / 2^(h+1)) in *.
  set (o := q mod 2) in *.
  rewrite E1. unfold b2z.
  assert (b = 0 \/ b = 1) as [-> | ->] by lia.
  - cbn [Z.eqb negb andb]. replace (2 * (0 * 2^h + r) <? 2 * 2^h) with true by lia. lia.
  - replace (1 =? 0) with false by reflexivity. cbn [negb andb].
    replace (2 * (1 * 2^h + r) <? 2 * 2^h) with false by lia.
    destruct (Z.eqb_spec r 0) as [R0|R0].
    + rewrite R0. replace (2 * 2^h <? 2 * (1 * 2^h + 0)) with false by lia. cbn [andb].
      unfold Zeq_bool. destruct (Z.eqb_spec o 0) as [O0|O0].
      * rewrite O0. cbn. lia.
      * assert (o = 1) by lia. rewrite H2. cbn. lia.
    + replace (2 * 2^h <? 2 * (1 * 2^h + r)) with true by lia. cbn. lia.
Qed.

Lemma clzti2_ok a : 0 < a < 2^128 -> exists s, clzti2 a = Ok s /\ 0 <= s <= 127 /\ 2^127 <= a * 2^s < 2^128.
Proof.
  intros Ha. unfold clzti2. rewrite shiftr_div by lia. unfold u64.
  destruct (Z.eqb_spec (a / 2^64) 0) as [E|N]; cbn [negb].
  - assert (a < 2^64) by (pose proof (Z.div_mod a (2^64)); pose proof (Z.mod_pos_bound a (2^64)); lia).
    rewrite Z.mod_small by lia.
    destruct (clzll_ok a ltac:(lia)) as (s & Es & Hs & B). rewrite Es. cbn [bind].
    exists (64 + s).
    split. { f_equal. change 64 with (1 * 2^6) at 1. destruct (Z.eq_dec s 64); [lia|]. rewrite lor_mul_low; lia. }
    split; [lia|]. rewrite Z.pow_add_r by lia. change (2^127) with (2^64 * 2^63). change (2^128) with (2^64 * 2^64).
    nia.
  - assert (Hh : 0 < a / 2^64 < 2^64).
    { split; [pose proof (Z.div_pos a (2^64)); lia|]. apply Z.div_lt_upper_bound; lia. }
    destruct (clzll_ok (a / 2^64) Hh) as (s & Es & Hs & B). rewrite Es.
    exists s. split; [reflexivity|]. split; [lia|].
    pose proof (Z.div_mod a (2^64) ltac:(lia)). pose proof (Z.mod_pos_bound a (2^64) ltac:(lia)).
    assert (HP : 0 < 2^s) by (apply pow2_pos; lia).
    change (2^127) with (2^64 * 2^63). change (2^128) with (2^64 * 2^64). split; [nia|].
    assert (2^64 = 2^(64 - s) * 2^s) as E64 by (rewrite <- Z.pow_add_r by lia; f_equal; lia).
    assert ((a / 2^64 + 1) * 2^s <= 2^64).
    { assert (a / 2^64 < 2^(64 - s)).
      { apply (Z.mul_lt_mono_pos_r (2^s)); [assumption|]. rewrite <- E64. lia. }
      rewrite E64 at 2. apply Z.mul_le_mono_nonneg_r; lia. }
    nia.
Qed.

Section Gen.
Variables mw ew h w emx : Z.
Hypothesis Hmw : 0 < mw.
Hypothesis Hew : 1 < ew.
Hypothesis Hh : h = 126 - mw.
Hypothesis Hh0 : 0 <= h.
Hypothesis Hw : w = mw + ew + 1.
Hypothesis Hemx : emx = 2^(ew-1) - 1 + 127.
Hypothesis Hbig : 127 < 2^(ew-1).

Lemma floatti_bits_ok (neg : bool) a : 0 < a < 2^128 ->
  exists b, floatti_bits h w mw emx (if neg then 2^(mw + ew) else 0) a = Ok b /\
    rounds_to mw ew (if neg then Ropp (IZR a) else IZR a) neg b.
Proof.
  intros Ha. destruct (clzti2_ok a Ha) as (s & Es & Hs & HN).
  unfold floatti_bits. rewrite Es. cbn [bind]. rewrite lsh_ok by lia. cbn [bind].
  rewrite (Z.mod_small (a * 2^s)) by lia. set (N := a * 2^s) in *.
  eexists. split; [reflexivity|].
  rewrite shiftr_div, !shiftl_mul by lia. rewrite Z.mul_1_l. rewrite land_ones_mod by lia.
  assert (HP : 0 < 2^mw) by (apply pow2_pos; lia).
  assert (HH : 0 < 2^(h+1)) by (apply pow2_pos; lia).
  assert (EH : 2^127 = 2^mw * 2^(h+1)) by (rewrite <- Z.pow_add_r by lia; f_equal; lia).
  pose proof (pow_ew ew Hew) as [W1 W2].
  assert (EP : 2^(mw+1) = 2 * 2^mw) by (rewrite (Z.pow_add_r 2 mw 1) by lia; lia).
  assert (HQ : 2^mw <= N / 2^(h+1) < 2^(mw+1)).
  { split; [apply Z.div_le_lower_bound; lia|apply Z.div_lt_upper_bound; [lia|]].
    rewrite (Z.pow_add_r 2 mw 1) by lia. change (2^1) with 2. change (2^128) with (2 * 2^127) in HN.
    rewrite EH in HN. nia. }
  assert (EQm : (N / 2^(h+1)) mod 2^mw = N / 2^(h+1) - 2^mw).
  { symmetry. apply Z.mod_unique with 1; [|lia]. lia. }
  pose proof (rne_adj N h ltac:(lia) Hh0) as RA.
  set (adj := b2z _) in *.
  assert (EW : 2^w = 2 * (2^mw * 2^ew)).
  { rewrite Hw, !Z.pow_add_r by lia. lia. }
  pose proof (Z.pow_add_r 2 mw ew ltac:(lia) ltac:(lia)) as EME.
  assert (HE : 0 <= emx - s < 2^ew) by lia.
  assert (HK : 2^mw <= (emx - s) * 2^mw <= (2^ew - 2) * 2^mw).
  { split; [rewrite <- (Z.mul_1_l (2^mw)) at 1|]; apply Z.mul_le_mono_nonneg_r; lia. }
  assert (HEB : 2^ew <= 2^mw * 2^ew) by (rewrite <- (Z.mul_1_l (2^ew)) at 1; apply Z.mul_le_mono_nonneg_r; lia).
  assert (HEw : (emx - s) mod 2^w = emx - s) by (apply Z.mod_small; lia).
  rewrite HEw. rewrite (Z.mod_small ((emx - s) * 2^mw)) by lia.
  rewrite EQm.
  rewrite (Z.lor_comm (N / 2^(h+1) - 2^mw)).
  rewrite (lor_mul_low _ _ mw) by lia.
  assert (EL : Z.lor ((emx - s) * 2^mw + (N / 2^(h+1) - 2^mw)) (if neg then 2^(mw+ew) else 0)
     = (if neg then 2^(mw+ew) else 0) + ((emx - s) * 2^mw + (N / 2^(h+1) - 2^mw))).
  { destruct neg; [|rewrite Z.lor_0_r; lia]. rewrite Z.lor_comm.
    rewrite <- (Z.mul_1_l (2^(mw+ew))). rewrite (lor_mul_low _ _ (mw+ew)); [reflexivity|lia|].
    rewrite EME. lia. }
  rewrite EL. clear EL.
  pose proof (rounds_pack mw ew Hmw Hew neg N (-s) (h + 1 - s)) as RP.
  assert (Et : h + 1 - s - emin mw ew = emx - s - 1).
  { unfold emin. lia. }
  replace (h + 1 - s - - s) with (h + 1) in RP by lia.
  specialize (RP ltac:(lia) ltac:(lia) ltac:(lia)).
  specialize (RP ltac:(lia) ltac:(lia)).
  rewrite Et in RP.
  pose proof (rne_bounds N (2^(h+1)) HH) as RB.
  assert (Ek : (emx - s - 1) * 2^mw + rne N (2^(h+1)) <= finf mw ew).
  { unfold finf. lia. }
  rewrite Z.min_l in RP by assumption.
  unfold with_sign in RP.
  replace (F2R (Float radix2 N (- s))) with (IZR a) in RP.
  2:{ unfold F2R. cbn [Fnum Fexp]. subst N. rewrite mult_IZR, <- (bpow2 s) by lia.
      rewrite Rmult_assoc, <- bpow_plus. replace (s + - s) with 0 by lia. cbn. ring. }
  match goal with |- rounds_to _ _ _ _ ?v => match type of RP with rounds_to _ _ _ _ ?v' => replace v with v'; [exact RP|] end end.
  assert (0 <= rne N (2^(h+1))) by lia.
  rewrite Z.mod_small.
  - lia.
  - rewrite <- Z.add_assoc.
    replace ((emx - s) * 2 ^ mw + (N / 2 ^ (h + 1) - 2 ^ mw) + adj) with ((emx - s - 1) * 2^mw + rne N (2^(h+1))) by lia.
    pose proof (finf_pos mw ew Hmw Hew).
    unfold finf in *. destruct neg; lia.
Qed.
End Gen.

(** ** Floating to 128-bit *)
Section Fix.
Variables mw ew : Z.
Hypothesis Hmw : 0 < mw.
Hypothesis Hew0 : 0 < ew.
Hypothesis Hpe : mw + 1 < 2^(ew - 1).
Hypothesis Hbig : 128 <= 2^(ew - 1).

Let Hew : 1 < ew := hw_ew mw ew Hmw Hew0 Hpe.
Notation fbits := (fbits mw ew).
Notation ffinite := (ffinite mw ew).
Notation fval := (fval mw ew).
Notation gfmt := (generic_format radix2 (FLT_exp (emin mw ew) (mw + 1))).

Lemma gf q t : Z.abs q < 2^(mw+1) -> emin mw ew <= t -> gfmt (IZR q * bpow radix2 t).
Proof.
  intros Hq Ht. apply generic_format_FLT. exists (Float radix2 q t); [reflexivity| |assumption].
  exact Hq.
Qed.

Lemma emin_neg : emin mw ew <= - 64 - mw.
Proof. unfold emin. lia. Qed.

(** the constants *)
Lemma pow_const e : - 2^(ew-1) + 2 <= e < 2^(ew-1) ->
  let c := (2^(ew-1) - 1 + e) * 2^mw in
  fbits c /\ ffinite c = true /\ fval c = bpow radix2 e /\ fneg mw ew c = false.
Proof.
  intros He c. assert (HP : 0 < 2^mw) by (apply pow2_pos; lia).
  destruct (pow_ew ew Hew) as [W1 W2]. pose proof (finf_pos mw ew Hmw Hew) as FI.
  assert (Hc : 0 <= c < finf mw ew).
  { unfold finf. subst c. split; [apply Z.mul_nonneg_nonneg; lia|apply Z.mul_lt_mono_pos_r; lia]. }
  destruct (fabsb_pos mw ew c ltac:(lia)) as [A B].
  split; [unfold FP.fbits; rewrite (Z.pow_add_r 2 (mw+ew) 1) by lia; lia|].
  unfold FP.ffinite, FP.fval. rewrite A, B. split; [lia|]. split; [|reflexivity].
  replace c with ((e - mw - emin mw ew) * 2^mw + 2^mw) by (subst c; unfold emin; ring).
  rewrite fmag_pack; try assumption.
  - unfold F2R. cbn [Fnum Fexp]. rewrite <- bpow2 by lia. rewrite <- bpow_plus. f_equal. lia.
  - unfold emin. lia.
  - rewrite (Z.pow_add_r 2 mw 1) by lia. lia.
  - right. lia.
Qed.

Lemma Zfloor_sub x n : Zfloor (x - IZR n) = Zfloor x - n.
Proof.
  apply Zfloor_imp. rewrite !plus_IZR, !minus_IZR. pose proof (Zfloor_lb x). pose proof (Zfloor_ub x). lra.
Qed.

Lemma fix_parts_ok r : fbits r -> ffinite r = true -> fneg mw ew r = false -> (fval r < bpow radix2 128)%R ->
  fix_parts (hmul mw ew Hmw Hew0 Hpe) (hsub mw ew Hmw Hew0 Hpe) (hofZ mw ew Hmw Hpe) (htrunc mw ew Hmw Hew0 Hpe)
    ((2^(ew-1) - 1 + -64) * 2^mw) ((2^(ew-1) - 1 + 64) * 2^mw) r = Ok (Zfloor (fval r)).
Proof.
  intros Hr Fr Sr Hlt.
  assert (HP : 0 < 2^mw) by (apply pow2_pos; lia).
  assert (EP : 2^(mw + 1) = 2 * 2^mw) by (rewrite (Z.pow_add_r 2 mw 1) by lia; lia).
  pose proof emin_neg as EM.
  destruct (pow_const (-64) ltac:(lia)) as (C1 & C2 & C3 & C4).
  destruct (pow_const 64 ltac:(lia)) as (D1 & D2 & D3 & D4). cbv zeta in *.
  set (c := (2^(ew-1) - 1 + -64) * 2^mw) in *. set (d := (2^(ew-1) - 1 + 64) * 2^mw) in *.
  assert (R0 : 0 <= fabsb mw ew r) by (apply Z.mod_pos_bound, pow2_pos; lia).
  destruct (fmag_unpack mw ew Hmw _ R0) as (t & q & Ht & Hq & HL & Ek & Ev).
  assert (Ex : fval r = (IZR q * bpow radix2 t)%R) by (unfold FP.fval; rewrite Sr; exact Ev).
  assert (X0 : (0 <= fval r)%R).
  { rewrite Ex. apply Rmult_le_pos; [apply IZR_le; lia|apply bpow_ge_0]. }
  set (x := fval r) in *.
  (* the high part *)
  assert (HH : exists p, hmul mw ew Hmw Hew0 Hpe c r = p /\ fbits p /\ ffinite p = true /\
             Ztrunc (fval p) = Zfloor (x * bpow radix2 (-64))).
  { eexists. split; [reflexivity|].
    pose proof (hmul_ok mw ew Hmw Hew0 Hpe c r C1 Hr C2 Fr) as M. rewrite C3 in M. fold x in M.
    assert (B64 : (x * bpow radix2 (-64) < bpow radix2 64)%R).
    { replace (bpow radix2 64) with (bpow radix2 128 * bpow radix2 (-64))%R by (rewrite <- bpow_plus; reflexivity).
      apply Rmult_lt_compat_r; [apply bpow_gt_0|exact Hlt]. }
    destruct (Rlt_or_le x 1) as [L1|G1].
    - (* rounds to something below 1 *)
      assert (Hle : (0 <= RN mw ew (bpow radix2 (-64) * x) <= bpow radix2 (-64))%R).
      { split.
        - unfold RN. rewrite <- (round_0 radix2 (FLT_exp (emin mw ew) (mw+1)) ZnearestE).
          apply round_le; [apply FLT_exp_valid; unfold Prec_gt_0; lia|typeclasses eauto|].
          apply Rmult_le_pos; [apply bpow_ge_0|assumption].
        - rewrite <- C3 at 2. rewrite <- (RN_fval mw ew Hmw Hew0 c C1). rewrite C3. unfold RN.
          apply round_le; [apply FLT_exp_valid; unfold Prec_gt_0; lia|typeclasses eauto|].
          rewrite <- (Rmult_1_r (bpow radix2 (-64))) at 2. apply Rmult_le_compat_l; [apply bpow_ge_0|lra]. }
      assert (B1 : (bpow radix2 (-64) < 1)%R) by (change 1%R with (bpow radix2 0); apply bpow_lt; lia).
      destruct M as (M1 & M2 & M3 & _).
      destruct M3 as [M3 M4].
      { rewrite Rabs_pos_eq by lra. apply Rle_lt_trans with (1 := proj2 Hle). apply bpow_lt. lia. }
      split; [exact M1|]. split; [exact M3|]. rewrite M4.
      rewrite Ztrunc_floor by exact (proj1 Hle). rewrite (Zfloor_imp 0) by (change (IZR (0 + 1)) with 1%R; lra).
      symmetry. apply Zfloor_imp. change (IZR (0 + 1)) with 1%R.
      split; [apply Rmult_le_pos; [assumption|apply bpow_ge_0]|].
      apply Rle_lt_trans with (1 * bpow radix2 (-64))%R; [apply Rmult_le_compat_r; [apply bpow_ge_0|lra]|lra].
    - assert (Tt : - mw <= t).
      { destruct (Z.le_gt_cases (- mw) t) as [|G]; [assumption|exfalso].
        assert (x < 1)%R; [|lra]. rewrite Ex. replace 1%R with (bpow radix2 (mw + 1) * bpow radix2 (- (mw + 1)))%R
          by (rewrite <- bpow_plus; replace (mw + 1 + - (mw + 1)) with 0 by lia; reflexivity).
        apply Rlt_le_trans with (bpow radix2 (mw+1) * bpow radix2 t)%R.
        - apply Rmult_lt_compat_r; [apply bpow_gt_0|]. rewrite bpow2 by lia. apply IZR_lt. lia.
        - apply Rmult_le_compat_l; [apply bpow_ge_0|]. apply bpow_le. lia. }
      apply (rounds_exact' mw ew) in M.
      + destruct M as (M1 & M2 & M3 & _). split; [exact M1|]. split; [exact M2|]. rewrite M3.
        rewrite Rmult_comm. apply Ztrunc_floor. apply Rmult_le_pos; [assumption|apply bpow_ge_0].
      + rewrite Ex. rewrite Rmult_comm, Rmult_assoc, <- bpow_plus.
        apply gf; lia.
      + rewrite Rmult_comm. rewrite Rabs_pos_eq by (apply Rmult_le_pos; [assumption|apply bpow_ge_0]).
        apply Rlt_le_trans with (1 := B64). apply bpow_le. lia. }
  destruct HH as (p & Ep & P1 & P2 & P3).
  set (H := Zfloor (x * bpow radix2 (-64))) in *.
  assert (HB : 0 <= H < 2^64).
  { subst H. split.
    - apply Zfloor_lub. apply Rmult_le_pos; [assumption|apply bpow_ge_0].
    - apply lt_IZR. apply Rle_lt_trans with (1 := Zfloor_lb _). rewrite <- (bpow2 64) by lia.
      replace (bpow radix2 64) with (bpow radix2 128 * bpow radix2 (-64))%R by (rewrite <- bpow_plus; reflexivity).
      apply Rmult_lt_compat_r; [apply bpow_gt_0|exact Hlt]. }
  (* H = q * 2^(t-64) or floor *)
  assert (HQ : (64 <= t /\ H = q * 2^(t - 64)) \/ (t < 64 /\ H = q / 2^(64 - t))).
  { destruct (Z.le_gt_cases 64 t) as [G|L]; [left|right]; split; try assumption; subst H; rewrite Ex, Rmult_assoc, <- bpow_plus.
    - replace (t + -64) with (t - 64) by lia. rewrite bpow2 by lia. rewrite <- mult_IZR. apply Zfloor_IZR.
    - replace (t + -64) with (- (64 - t)) by lia. rewrite bpow_opp, bpow2 by lia. apply Zfloor_div.
      pose proof (pow2_pos (64 - t)). lia. }
  assert (HG : gfmt (IZR H) /\ gfmt (IZR H * bpow radix2 64) /\ gfmt (x - IZR H * bpow radix2 64)).
  { destruct HQ as [[G E]|[L E]].
    - assert (E1 : IZR H = (IZR q * bpow radix2 (t - 64))%R) by (rewrite E, mult_IZR, bpow2 by lia; reflexivity).
      assert (E2 : (IZR H * bpow radix2 64 = IZR q * bpow radix2 t)%R).
      { rewrite E1, Rmult_assoc, <- bpow_plus. do 2 f_equal. lia. }
      split; [rewrite E1; apply gf; lia|]. split; [rewrite E2; apply gf; lia|].
      rewrite E2, Ex. replace (IZR q * bpow radix2 t - IZR q * bpow radix2 t)%R with 0%R by ring. apply generic_format_0.
    - assert (PQ : 0 < 2^(64-t)) by (apply pow2_pos; lia).
      assert (Hle : 0 <= H <= q).
      { split; [lia|]. rewrite E. apply Z.div_le_upper_bound; [assumption|]. rewrite <- (Z.mul_1_l q) at 1.
        apply Z.mul_le_mono_nonneg_r; lia. }
      split; [rewrite <- (Rmult_1_r (IZR H)); change 1%R with (bpow radix2 0); apply gf; lia|].
      split; [apply gf; lia|].
      replace (x - IZR H * bpow radix2 64)%R with (IZR (q - H * 2^(64-t)) * bpow radix2 t)%R.
      + apply gf; [|lia]. rewrite E. pose proof (Z.div_mod q (2^(64-t)) ltac:(lia)). pose proof (Z.mod_pos_bound q (2^(64-t)) PQ).
        assert (q - q / 2^(64-t) * 2^(64-t) = q mod 2^(64-t)) by lia.
        assert (q mod 2^(64-t) <= q) by (apply Z.mod_le; lia). lia.
      + rewrite minus_IZR, mult_IZR, <- bpow2 by lia. rewrite Ex, Rmult_minus_distr_r, Rmult_assoc, <- bpow_plus.
        do 3 f_equal. lia. }
  destruct HG as (G1 & G2 & G3).
  assert (HR : (0 <= IZR H < bpow radix2 64)%R).
  { rewrite (bpow2 64) by lia. split; [apply IZR_le|apply IZR_lt]; lia. }
  assert (Hx : (0 <= x - IZR H * bpow radix2 64 < bpow radix2 64)%R).
  { pose proof (Zfloor_lb (x * bpow radix2 (-64))) as U1. pose proof (Zfloor_ub (x * bpow radix2 (-64))) as U2. fold H in U1, U2.
    assert (EB : (bpow radix2 (-64) * bpow radix2 64 = 1)%R) by (rewrite <- bpow_plus; reflexivity).
    assert (P : (0 < bpow radix2 64)%R) by apply bpow_gt_0.
    apply (Rmult_le_compat_r (bpow radix2 64)) in U1; [|lra]. apply (Rmult_lt_compat_r (bpow radix2 64)) in U2; [|lra].
    rewrite Rmult_assoc, EB in U1, U2. lra. }
  unfold fix_parts. rewrite Ep. rewrite htrunc_ok by assumption. rewrite P3. cbn [to_unsigned].
  replace ((0 <=? H) && (H <? 2^64)) with true by lia. cbn [bind].
  pose proof (hofZ_ok mw ew Hmw Hew0 Hpe H) as O. apply (rounds_exact' mw ew) in O; [|exact G1|].
  2:{ rewrite Rabs_pos_eq by lra. apply Rlt_le_trans with (1 := proj2 HR). apply bpow_le. lia. }
  destruct O as (O1 & O2 & O3 & O4).
  pose proof (hmul_ok mw ew Hmw Hew0 Hpe d _ D1 O1 D2 O2) as M. rewrite D3, O3 in M. rewrite Rmult_comm in M.
  apply (rounds_exact' mw ew) in M; [|exact G2|].
  2:{ rewrite Rabs_pos_eq by (apply Rmult_le_pos; [lra|apply bpow_ge_0]).
      apply Rle_lt_trans with x; [lra|]. apply Rlt_le_trans with (1 := Hlt). apply bpow_le. lia. }
  destruct M as (M1 & M2 & M3 & M4).
  pose proof (hsub_ok mw ew Hmw Hew0 Hpe r _ Hr M1 Fr M2) as S. rewrite M3 in S. fold x in S.
  apply (rounds_exact' mw ew) in S; [|exact G3|].
  2:{ rewrite Rabs_pos_eq by lra. apply Rlt_le_trans with (1 := proj2 Hx). apply bpow_le. lia. }
  destruct S as (S1 & S2 & S3 & _).
  rewrite htrunc_ok by assumption. rewrite S3. rewrite Ztrunc_floor by lra.
  assert (EL : Zfloor (x - IZR H * bpow radix2 64) = Zfloor x - H * 2^64).
  { rewrite (bpow2 64) by lia. rewrite <- mult_IZR. apply Zfloor_sub. }
  rewrite EL.
  assert (LB : 0 <= Zfloor x - H * 2^64 < 2^64).
  { rewrite <- EL. split; [apply Zfloor_lub; lra|]. apply lt_IZR. apply Rle_lt_trans with (1 := Zfloor_lb _).
    rewrite <- (bpow2 64) by lia. lra. }
  cbn [to_unsigned]. replace ((0 <=? Zfloor x - H * 2^64) && (Zfloor x - H * 2^64 <? 2^64)) with true by lia.
  cbn [bind]. f_equal. rewrite (lor_high_low _ _ 64) by lia. lia.
Qed.
End Fix.
