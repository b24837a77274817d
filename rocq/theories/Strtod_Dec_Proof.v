(** decimal_to_double_ on decimals that were read completely. *)
From Coq Require Import Reals Lra.
From Flocq Require Import Core.
From Verif Require Import Base Bits FP FP_Proof Rne Midpoint Strtod_Spec Strtod_Model Strtod_Arith_Proof Strtod_Round_Proof Strtod_Gap_Proof.
Open Scope R_scope.
Local Ltac Zify.zify_post_hook ::= idtac.

Lemma rounds_zero : rounds_to 52 11 0 false 0.
Proof.
  pose proof (rounds_pack 52 11 eq_refl eq_refl false 0 (-1074) (-1074) ltac:(lia) ltac:(lia) ltac:(cbn; lia)) as P.
  change (F2R _) with (0 * 1) in P || (rewrite F2R_0 in P). apply P; cbn; lia.
Qed.
Lemma rounds_tiny x : 0 <= x <= pow2 (-1075) -> rounds_to 52 11 x false 0.
Proof.
  intros H. apply rounds_of_RN with 0; [exact rounds_zero|]. rewrite RN_0. symmetry. apply RN_tiny; [lia|].
  change (emin 52 11 - 1)%Z with (-1075)%Z. exact H.
Qed.
Lemma RN_big x : IZR (2^54 - 1) * pow2 970 < x -> pow2 1024 <= RN 52 11 x.
Proof.
  intros H. unfold RN. change (emin 52 11) with (-1074)%Z. change (52 + 1)%Z with 53%Z.
  assert (VX : Valid_exp (FLT_exp (-1074) 53)) by (apply FLT_exp_valid; reflexivity).
  apply round_N_ge_midp; [exact VX|apply generic_format_bpow; vm_compute; discriminate|].
  rewrite pred_bpow. change (FLT_exp (-1074) 53 1024) with 971%Z.
  assert (E : (pow2 1024 - pow2 971 + pow2 1024) / 2 = IZR (2^54 - 1) * pow2 970).
  { rewrite minus_IZR, pow2_Z by lia. change 1024%Z with (54 + 970)%Z. change 971%Z with (1 + 970)%Z. rewrite !bpow_plus. change (pow2 1) with 2. field. }
  rewrite E || (rewrite Rplus_comm; rewrite E). exact H.
Qed.
Lemma RN_ge_1024 x : pow2 1024 <= x -> pow2 1024 <= Rabs (RN 52 11 x).
Proof.
  intros H. apply Rle_trans with (RN 52 11 x); [|apply Rle_abs]. apply RN_big. apply Rlt_le_trans with (2 := H).
  change 1024%Z with (54 + 970)%Z. rewrite bpow_plus. apply Rmult_lt_compat_r; [apply bpow_gt_0|]. rewrite <- pow2_Z by lia. apply IZR_lt. lia.
Qed.
Lemma rounds_inf x : pow2 1024 <= x -> rounds_to 52 11 x false (finf 52 11).
Proof.
  intros H. apply RN_ge_1024 in H. unfold rounds_to. change (2^(11 - 1))%Z with 1024%Z. split; [split; vm_compute; [discriminate|reflexivity]|]. split; [reflexivity|]. split; [intros; lra|intros _; reflexivity].
Qed.

Theorem round_big d : (0 < mant d < 2^128)%Z -> (-380 <= dec_exp d <= 309)%Z -> truncated d = false -> pow2 1024 <= dvalue d ->
  exists b, decimal_to_double d = Ok b /\ rounds_to 52 11 (dvalue d) false b.
Proof.
  intros Hm Hd HT HB. destruct (pow5_ok (Z.abs (dec_exp d))) as (pm & pe & EP & NP & NE & _); [lia|].
  destruct (scaled_ok d pm pe Hm ltac:(lia) EP NP) as (V & B & lost & ES & NV & BD & _ & _).
  apply (target_near d pm pe ltac:(lia)) in NE. rewrite HT in ES. cbn [orb] in ES.
  destruct (round_core d V B lost ltac:(lia) ltac:(lia) NV ES HT) as (b & E & R). exists b. split; [exact E|].
  assert (X : IZR (2 * V + b2z lost) * pow2 (B - 1) = (IZR V + IZR (b2z lost) / 2) * pow2 B).
  { unfold Zminus. rewrite bpow_plus, plus_IZR, mult_IZR. change (pow2 (-(1))) with (/2). field. }
  rewrite X in R. set (u := (IZR V + IZR (b2z lost) / 2) * pow2 B) in *.
  pose proof (bpow_gt_0 radix2 B) as PB. pose proof (dvalue_pos d ltac:(lia)) as PD.
  set (T := target d pm pe) in *. set (e := pow2 (-127)) in *.
  assert (He : 0 < e <= / IZR (2^60)). { split; [apply bpow_gt_0|]. unfold e. rewrite pow2_Z, pow2_inv by lia. apply bpow_le; lia. }
  assert (UB1 : pow2 B <= e * T).
  { unfold normal in NV. apply Rle_trans with (e * (IZR V * pow2 B)); [|apply Rmult_le_compat_l; lra].
    rewrite <- Rmult_assoc. rewrite <- (Rmult_1_l (pow2 B)) at 1. apply Rmult_le_compat_r; [lra|].
    apply Rle_trans with (e * IZR (2^127)); [|apply Rmult_le_compat_l; [lra|apply IZR_le; lia]]. rewrite pow2_Z by lia. unfold e. rewrite pow2_mul. cbn. lra. }
  assert (UT : Rabs (u - T) <= pow2 B).
  { apply Rabs_le. unfold u. rewrite plus_IZR in BD. assert (0 <= IZR (b2z lost) <= 1) by (destruct lost; cbn; lra). nra. }
  assert (UL : (1 - 8 * e) * dvalue d <= u). { apply Rabs_le_inv in UT, NE. nra. }
  assert (RU : pow2 1024 <= Rabs (RN 52 11 u)).
  { apply Rle_trans with (RN 52 11 u); [|apply Rle_abs]. apply RN_big. apply Rlt_le_trans with (2 := UL).
    apply Rlt_le_trans with ((1 - 8 * e) * pow2 1024).
    - change 1024%Z with (54 + 970)%Z. rewrite bpow_plus, <- Rmult_assoc. apply Rmult_lt_compat_r; [apply bpow_gt_0|]. rewrite <- pow2_Z by lia.
      rewrite minus_IZR. destruct He as [H0 H1]. change (/ IZR (2^60)) with (/ 1152921504606846976) in H1. change (IZR (2^54)) with 18014398509481984. lra.
    - apply Rmult_le_compat_l; [|exact HB]. destruct He as [H0 H1]. change (/ IZR (2^60)) with (/ 1152921504606846976) in H1. lra. }
  pose proof (RN_ge_1024 (dvalue d) HB) as RD.
  destruct R as (R1 & R2 & R3 & R4). change (2^(11 - 1))%Z with 1024%Z in *. unfold rounds_to. change (2^(11 - 1))%Z with 1024%Z.
  split; [exact R1|]. split; [exact R2|]. split; [intros; lra|intros _; apply R4; exact RU].
Qed.

(** Every decimal whose significant digits were all kept, unless it is too close to a midpoint. *)
Theorem decimal_rounds d : (0 <= mant d < 10^38)%Z -> truncated d = false ->
  (-54 <= dec_exp d <= 54)%Z \/ far (dvalue d) \/ pow2 1024 <= dvalue d ->
  exists b, decimal_to_double d = Ok b /\ rounds_to 52 11 (dvalue d) false b.
Proof.
  intros Hm HT H. destruct (Z.eq_dec (mant d) 0) as [Z0|Z0].
  { exists 0%Z. split; [unfold decimal_to_double; rewrite Z0; reflexivity|]. unfold dvalue. rewrite Z0, Rmult_0_l. exact rounds_zero. }
  assert (M1 : (0 < mant d < 2^128)%Z) by lia.
  destruct (Z.lt_ge_cases 309 (dec_exp d)) as [A|A].
  { exists (finf 52 11). split; [unfold decimal_to_double; replace (mant d =? 0)%Z with false by lia; replace (309 <? dec_exp d)%Z with true by lia; reflexivity|].
    apply rounds_inf. apply Rle_trans with (1 := ten_big). unfold dvalue. rewrite <- (Rmult_1_l (ten 309)).
    apply Rmult_le_compat; [lra|apply Rlt_le, ten_pos|apply IZR_le; lia|apply ten_le; lia]. }
  destruct (Z.lt_ge_cases (dec_exp d) (-380)) as [B|B].
  { exists 0%Z. split.
    { unfold decimal_to_double; replace (mant d =? 0)%Z with false by lia; replace (309 <? dec_exp d)%Z with false by lia. replace (dec_exp d <? -380)%Z with true by lia. reflexivity. }
    apply rounds_tiny. split; [apply Rlt_le, dvalue_pos; lia|]. apply Rle_trans with (ten (-324)).
    - unfold dvalue. apply Rle_trans with (ten 38 * ten (-381)); [|rewrite <- ten_plus; apply ten_le; lia].
      apply Rmult_le_compat; [apply IZR_le; lia|apply Rlt_le, ten_pos|rewrite ten_Z by lia; apply IZR_le; lia|apply ten_le; lia].
    - apply Rlt_le. apply Rlt_trans with (1 := ten_small). apply bpow_lt. lia. }
  destruct H as [H|[H|H]]; [apply round_exact|apply round_far|apply round_big]; assumption || lia.
Qed.

(** At most 18 significant digits: always. *)
Theorem decimal_18 d w i : (mant d = w * 10^i)%Z -> (0 <= i)%Z -> (0 <= w < 10^18)%Z -> (mant d < 10^38)%Z -> truncated d = false ->
  exists b, decimal_to_double d = Ok b /\ rounds_to 52 11 (dvalue d) false b.
Proof.
  intros EM Hi Hw Hm HT. assert (M0 : (0 <= mant d)%Z) by (rewrite EM; apply Z.mul_nonneg_nonneg; [lia|apply Z.pow_nonneg; lia]).
  apply decimal_rounds; [lia|exact HT|].
  destruct (Z.eq_dec w 0) as [W0|W0].
  { right. left. intros m Hm' Pm. unfold dvalue. rewrite EM, W0, Z.mul_0_l, Rmult_0_l. rewrite Rmult_0_r. apply Rabs_pos_lt. lra. }
  assert (N : exists j, (0 <= j <= 17 /\ 10^17 <= w * 10^j < 10^18)%Z).
  { assert (Hl : (0 < w)%Z) by lia. clear - Hl Hw.
    assert (K : forall n : nat, (n <= 17)%nat -> (10^(17 - Z.of_nat n) <= w)%Z -> exists j, (0 <= j <= 17 /\ 10^17 <= w * 10^j < 10^18)%Z).
    { induction n as [|n IH]; intros Hn L.
      - exists 0%Z. rewrite Z.pow_0_r. change (17 - Z.of_nat 0)%Z with 17%Z in L. lia.
      - destruct (Z.le_gt_cases (10^(17 - Z.of_nat n)) w) as [C|C]; [apply IH; [lia|exact C]|].
        exists (Z.of_nat (S n)). split; [lia|].
        assert (E1 : (10^17 = 10^(17 - Z.of_nat (S n)) * 10^(Z.of_nat (S n)))%Z) by (rewrite <- Z.pow_add_r by lia; f_equal; lia).
        assert (E2 : (10^18 = 10^(17 - Z.of_nat n) * 10^(Z.of_nat (S n)))%Z) by (rewrite <- Z.pow_add_r by lia; f_equal; lia).
        rewrite E1, E2. assert (P : (0 < 10^(Z.of_nat (S n)))%Z) by (apply Z.pow_pos_nonneg; lia).
        split; [apply Z.mul_le_mono_nonneg_r; lia|apply Z.mul_lt_mono_pos_r; lia]. }
    apply (K 17%nat); [lia|]. cbn. lia. }
  destruct N as (j & Hj & N).
  assert (E : dvalue d = IZR (w * 10^j) * ten (dec_exp d + i - j)).
  { unfold dvalue. rewrite EM, !mult_IZR, <- !ten_Z by lia. rewrite !Rmult_assoc. f_equal. rewrite <- !ten_plus. f_equal. lia. }
  destruct (Z.le_gt_cases (-54) (dec_exp d)) as [A|A]; [destruct (Z.le_gt_cases (dec_exp d) 54) as [B|B]; [left; lia|]|].
  - right. destruct (Rle_or_lt (pow2 1024) (dvalue d)) as [G|G]; [right; exact G|left]. rewrite E in *. apply far_18; [exact N| |exact G]. right. lia.
  - right. destruct (Rle_or_lt (pow2 1024) (dvalue d)) as [G|G]; [right; exact G|left]. rewrite E in *. apply far_18; [exact N| |exact G].
    left. assert (i - j <= 20)%Z; [|lia].
    destruct (Z.le_gt_cases (i - j) 20) as [|C]; [assumption|exfalso].
    assert (10^38 <= w * 10^i)%Z; [|lia].
    replace i with (j + (i - j))%Z by lia. rewrite Z.pow_add_r, Z.mul_assoc by lia. change (10^38)%Z with (10^17 * 10^21)%Z.
    apply Z.mul_le_mono_nonneg; try lia. apply Z.pow_le_mono_r; lia.
Qed.
