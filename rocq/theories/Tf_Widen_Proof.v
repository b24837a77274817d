(** Widening conversions and integer to binary128. *)
From Coq Require Import Reals Lra.
From Flocq Require Import Core.
From Verif Require Import Base Bits FP FP_Proof HW HW_Proof Int128_Model Int128_Proof Int128_Div_Proof
  Int128_Float_Model Int128_Float_Proof Tf_Model Tf_Proof.
Open Scope Z_scope.
Local Ltac Zify.zify_post_hook ::= idtac.

(** Two patterns of different formats that mean the same. *)
Definition same_value (mw ew x mw' ew' y : Z) : Prop :=
  fbits mw' ew' y /\ fneg mw' ew' y = fneg mw ew x /\
  fisnan mw' ew' y = fisnan mw ew x /\
  (fisnan mw ew x = false -> xval mw' ew' y = xval mw ew x).

Lemma split_bits mw ew x : 0 < mw -> 1 < ew -> fbits mw ew x ->
  x = with_sign mw ew (fneg mw ew x) (fabsb mw ew x) /\ 0 <= fabsb mw ew x < 2^(mw+ew).
Proof.
  intros Hm He H. assert (HP : 0 < 2^(mw+ew)) by (apply pow2_pos; lia).
  unfold fbits in H. rewrite (Z.pow_add_r 2 (mw+ew) 1) in H by lia. change (2^1) with 2 in H.
  unfold with_sign, fneg, fabsb.
  destruct (Z.leb_spec (2^(mw+ew)) x) as [L|L].
  - replace (x mod 2^(mw+ew)) with (x - 2^(mw+ew)); [lia|]. apply Z.mod_unique with 1; lia.
  - rewrite Z.mod_small by lia. lia.
Qed.

(** magnitudes suffice *)
Lemma rounds_unique mw ew x neg a b : 0 < mw -> 1 < ew ->
  rounds_to mw ew x neg a -> rounds_to mw ew x neg b -> a = b.
Proof.
  intros Hm He (A1 & A2 & A3 & A4) (B1 & B2 & B3 & B4).
  destruct (split_bits mw ew a Hm He A1) as [Ea Ba]. destruct (split_bits mw ew b Hm He B1) as [Eb Bb].
  enough (fabsb mw ew a = fabsb mw ew b) by (rewrite Ea, Eb, A2, B2; congruence).
  destruct (Rlt_or_le (Rabs (RN mw ew x)) (bpow radix2 (2^(ew-1)))) as [L|L].
  - destruct (A3 L) as [_ VA]. destruct (B3 L) as [_ VB].
    apply (fmag_inj mw ew Hm); try lia. unfold fval in VA, VB. rewrite A2 in VA. rewrite B2 in VB. destruct neg; lra.
  - rewrite (A4 L), (B4 L). reflexivity.
Qed.

Lemma same_mag mw ew x mw' ew' K : 0 < mw -> 1 < ew -> 0 < mw' -> 1 < ew' -> fbits mw ew x -> 0 <= K < 2^(mw'+ew') ->
  (fabsb mw ew x < finf mw ew -> K < finf mw' ew' /\ fmag mw' ew' K = fmag mw ew (fabsb mw ew x)) ->
  (fabsb mw ew x = finf mw ew -> K = finf mw' ew') ->
  (finf mw ew < fabsb mw ew x -> finf mw' ew' < K) ->
  same_value mw ew x mw' ew' (with_sign mw' ew' (fneg mw ew x) K).
Proof.
  intros Hm He Hm' He' Hx HK A B C. destruct (with_sign_spec mw' ew' Hm' He' (fneg mw ew x) K HK) as (W1 & W2 & W3).
  split; [exact W3|]. split; [exact W2|].
  unfold fisnan, xval, ffinite, fval. rewrite W1, W2.
  split; [lia|]. intros N.
  destruct (Z.lt_trichotomy (fabsb mw ew x) (finf mw ew)) as [L|[L|L]].
  - destruct (A L) as [A1 A2]. replace (K <? finf mw' ew') with true by lia. replace (fabsb mw ew x <? finf mw ew) with true by lia.
    rewrite A2. reflexivity.
  - rewrite (B L). rewrite L, !Z.ltb_irrefl. reflexivity.
  - lia.
Qed.

Lemma extenddftf2_ok x : fbits 52 11 x -> exists y, extenddftf2 x = Ok y /\ same_value 52 11 x 112 15 y.
Proof.
  intros Hx. destruct (split_bits 52 11 x eq_refl eq_refl Hx) as [E B]. change (52 + 11) with 63 in B.
  assert (M : exists K, extenddf_magnitude (fabsb 52 11 x) = Ok K /\ 0 <= K < 2^127 /\
    (fabsb 52 11 x < finf 52 11 -> K < finf 112 15 /\ fmag 112 15 K = fmag 52 11 (fabsb 52 11 x)) /\
    (fabsb 52 11 x = finf 52 11 -> K = finf 112 15) /\
    (finf 52 11 < fabsb 52 11 x -> finf 112 15 < K)).
  { set (k := fabsb 52 11 x) in *. unfold extenddf_magnitude. change 0x7FF0000000000000 with (finf 52 11).
    destruct (Z.leb_spec (finf 52 11) k) as [L|L].
    - eexists. split; [reflexivity|]. rewrite !shiftl_mul by lia.
      assert (EQ : Z.lor (0x78 * 2^120) (k * 2^60) = 0x7FFF * 2^112 + (k - 0x7FF * 2^52) * 2^60).
      { change (0x78 * 2^120) with (Z.shiftl 0x7800 112). change (finf 52 11) with (0x7FF * 2^52) in *.
        replace (k * 2^60) with (Z.lor (Z.shiftl 0x7FF 112) ((k - 0x7FF * 2^52) * 2^60)).
        - rewrite Z.lor_assoc, <- Z.shiftl_lor. change (Z.lor 0x7800 0x7FF) with (0x7FFF). rewrite lor_high_low by lia.
          reflexivity.
        - rewrite lor_high_low by lia. lia. }
      rewrite EQ. change (finf 52 11) with (0x7FF * 2^52) in *. change (finf 112 15) with (0x7FFF * 2^112). lia.
    - destruct (Z.eqb_spec k 0) as [Z0|N0].
      + exists 0. split; [reflexivity|]. rewrite Z0. split; [lia|]. split.
        * intros _. split; [reflexivity|]. rewrite !fmag_0 by lia. reflexivity.
        * change (finf 52 11) with (0x7FF * 2^52) in *. lia.
      + destruct (normalize64_ok k ltac:(lia)) as (n & -> & HN & HB). cbn [bind].
        destruct (norm_widen 52 11 eq_refl eq_refl 112 15 k n HN ltac:(lia) ltac:(reflexivity) ltac:(lia)) as [K1 K2].
        change (2^(15-1) - 2^(11-1)) with 0x3C00 in *. change (112 - 52) with 60 in *.
        rewrite !shiftl_mul by lia. unfold s128. rewrite sgn_id by lia.
        change (0x3C * 2^120) with (0x3C00 * 2^112).
        change (finf 112 15) with (0x7FFF * 2^112) in *.
        rewrite chk_i128_ok by lia.
        eexists. split; [reflexivity|]. split; [lia|]. split; [intros _; split; [lia|exact K2]|]. lia. }
  destruct M as (K & EK & HK & A1 & A2 & A3). unfold extenddftf2. rewrite EK. cbn [bind].
  eexists. split; [reflexivity|].
  unfold nosign, u128. rewrite (Z.mod_small K) by lia. rewrite land_ones_mod, Z.mod_small by lia.
  unfold SIGN128. rewrite shiftl_mul, Z.mul_1_l by lia. rewrite lor_sign by lia.
  apply same_mag; try assumption; try reflexivity.
Qed.

(** float to double is exact *)
Lemma f2d_ok x : fbits 23 8 x -> fisnan 23 8 x = false ->
  exists K, f2d x = with_sign 52 11 (fneg 23 8 x) K /\ 0 <= K < 2^63 /\ K mod 2^29 = 0 /\
  (fabsb 23 8 x < finf 23 8 -> K < finf 52 11 /\ (K = 0 \/ 2^52 <= K) /\ fmag 52 11 K = fmag 23 8 (fabsb 23 8 x)) /\
  (fabsb 23 8 x = finf 23 8 -> K = finf 52 11).
Proof.
  intros Hx HN. destruct (split_bits 23 8 x eq_refl eq_refl Hx) as [E B]. change (23 + 8) with 31 in B.
  unfold fisnan in HN. set (k := fabsb 23 8 x) in *.
  change (finf 23 8) with (0xFF * 2^23) in *. change (finf 52 11) with (0x7FF * 2^52).
  destruct (Z.eq_dec k (0xFF * 2^23)) as [I|I].
  - exists (0x7FF * 2^52). split; [|repeat split; lia || reflexivity].
    unfold f2d. apply hcvt_inf; try assumption. unfold fisinf. fold k. rewrite I. reflexivity.
  - assert (F : ffinite 23 8 x = true). { unfold ffinite. fold k. change (finf 23 8) with (0xFF * 2^23). lia. }
    assert (HK : exists K, 0 <= K < 0x7FF * 2^52 /\ (K = 0 \/ 2^52 <= K) /\ K mod 2^29 = 0 /\ fmag 52 11 K = fmag 23 8 k).
    { destruct (Z.eq_dec k 0) as [Z0|N0].
      - exists 0. rewrite Z0, !fmag_0 by lia. repeat split; lia.
      - destruct (norm_exists 23 8 eq_refl k ltac:(lia)) as (n & Hn).
        destruct (norm_widen 23 8 eq_refl eq_refl 52 11 k n Hn ltac:(lia) ltac:(reflexivity) ltac:(change (finf 23 8) with (0xFF * 2^23); lia)) as [K1 K2].
        change (finf 52 11) with (0x7FF * 2^52) in *.
        eexists. split; [|split; [right; apply K1|split; [|exact K2]]]; [lia|].
        change (2^52) with (2^23 * 2^29). rewrite Z.mul_assoc. change (52 - 23) with 29. rewrite <- Z.mul_add_distr_r.
        apply Z.mod_mul. lia. }
    destruct HK as (K & K1 & K3 & K4 & K2).
    exists K. split; [|repeat split; try assumption; lia].
    pose proof (hcvt_ok 23 8 52 11 eq_refl eq_refl eq_refl eq_refl eq_refl eq_refl x Hx F) as R. fold f2d in R.
    destruct (with_sign_spec 52 11 eq_refl eq_refl (fneg 23 8 x) K ltac:(change (52+11) with 63; lia)) as (W1 & W2 & W3).
    assert (WV : fval 52 11 (with_sign 52 11 (fneg 23 8 x) K) = fval 23 8 x).
    { rewrite with_sign_fval by (reflexivity || (change (52+11) with 63; lia)). rewrite K2. reflexivity. }
    assert (WF : ffinite 52 11 (with_sign 52 11 (fneg 23 8 x) K) = true).
    { unfold ffinite. rewrite W1. change (finf 52 11) with (0x7FF * 2^52). lia. }
    destruct (rounds_exact 52 11 eq_refl eq_refl eq_refl _ _ _ _ R W3 WF WV) as (R1 & R2 & R3 & R4).
    destruct (split_bits 52 11 (f2d x) eq_refl eq_refl R1) as [ER BR]. rewrite ER, R4. f_equal.
    apply (fmag_inj 52 11 eq_refl); try lia. rewrite K2.
    unfold fval in R3. rewrite R4 in R3. fold k in R3. destruct (fneg 23 8 x); lra.
Qed.

Lemma extendsftf2_ok x : fbits 23 8 x -> fisnan 23 8 x = false -> same_value 23 8 x 112 15 (extendsftf2 x).
Proof.
  intros Hx HN. destruct (f2d_ok x Hx HN) as (K & EK & HK & MK & A & B). unfold extendsftf2. rewrite EK.
  destruct (with_sign_spec 52 11 eq_refl eq_refl (fneg 23 8 x) K ltac:(change (52+11) with 63; lia)) as (W1 & W2 & W3).
  set (d := with_sign 52 11 (fneg 23 8 x) K) in *.
  rewrite land_ones_mod by lia. change (d mod 2^63) with (fabsb 52 11 d). rewrite W1.
  assert (S : Z.land d 0x8000000000000000 = if fneg 23 8 x then 2^63 else 0).
  { change 0x8000000000000000 with (2^64 - 2^63). rewrite land_field by lia. change (d mod 2^63) with (fabsb 52 11 d). rewrite W1.
    unfold fbits in W3. change (52 + 11 + 1) with 64 in W3. rewrite Z.mod_small by lia.
    unfold d, with_sign. change (52 + 11) with 63. destruct (fneg 23 8 x); lia. }
  rewrite S.
  unfold fisnan in HN.
  set (k := fabsb 23 8 x) in *. change (finf 23 8) with (0xFF * 2^23) in *. change (finf 52 11) with (0x7FF * 2^52) in *.
  assert (BK : 0 <= k) by (apply Z.mod_pos_bound; reflexivity).
  assert (M16 : K = 16 * (K / 16)).
  { pose proof (Z.div_mod K (2^29) ltac:(lia)) as D. rewrite MK in D.
    apply Z.div_exact; [lia|]. rewrite D. replace (2^29 * (K / 2^29) + 0) with ((2^25 * (K / 2^29)) * 16) by lia. apply Z.mod_mul. lia. }
  set (H := extendsf_magnitude K).
  assert (HH : 0 <= H * 2^64 < 2^127 /\ (k < 0xFF * 2^23 -> H * 2^64 < finf 112 15 /\ fmag 112 15 (H * 2^64) = fmag 23 8 k) /\
     (k = 0xFF * 2^23 -> H * 2^64 = finf 112 15)).
  { unfold H, extendsf_magnitude. change 0x7FF0000000000000 with (0x7FF * 2^52). change (finf 112 15) with (0x7FFF * 2^112).
    destruct (Z.eq_dec k (0xFF * 2^23)) as [I|I].
    - rewrite (B I). change (0x7FF * 2^52 <=? 0x7FF * 2^52) with true. cbn iota.
      change (Z.lor 0x7800000000000000 (Z.shiftr (0x7FF * 2^52) 4)) with (0x7FFF * 2^48). lia.
    - destruct (A ltac:(lia)) as (A1 & A2 & A3).
      replace (0x7FF * 2^52 <=? K) with false by lia.
      destruct (Z.eqb_spec K 0) as [Z0|N0].
      + split; [lia|]. split; [|lia]. intros _. split; [lia|]. rewrite <- A3, Z0, !fmag_0 by lia. reflexivity.
      + rewrite shiftr_div by lia. unfold u64. rewrite Z.mod_small by lia.
        pose proof (norm_normal 52 11 eq_refl K ltac:(lia)) as NN.
        destruct (norm_widen 52 11 eq_refl eq_refl 112 15 K K NN ltac:(lia) ltac:(reflexivity) ltac:(change (finf 52 11) with (0x7FF * 2^52); lia)) as [K1 K2].
        change (2^(15-1) - 2^(11-1)) with 0x3C00 in *. change (112 - 52) with 60 in *.
        change (finf 112 15) with (0x7FFF * 2^112) in *.
        replace ((0x3C00000000000000 + K / 2^4) * 2^64) with (0x3C00 * 2^112 + K * 2^60) by (change (2^4) with 16; lia).
        split; [lia|]. split; [|lia]. intros _. split; [lia|]. congruence. }
  destruct HH as (H1 & H2 & H3).
  replace (Z.shiftl (Z.lor H (if fneg 23 8 x then 2^63 else 0)) 64) with (with_sign 112 15 (fneg 23 8 x) (H * 2^64)).
  - apply same_mag; try assumption; try reflexivity. change (finf 23 8) with (0xFF * 2^23). lia.
  - rewrite Z.shiftl_lor, !shiftl_mul by lia. rewrite <- lor_sign by lia.
    f_equal. destruct (fneg 23 8 x); reflexivity.
Qed.

Lemma extendsftf2_nan x : fbits 23 8 x -> fisnan 23 8 x = true -> fbits 112 15 (extendsftf2 x) /\ fisnan 112 15 (extendsftf2 x) = true.
Proof.
  intros Hx HN. unfold extendsftf2, f2d. rewrite hcvt_nan by assumption.
  replace (qnan 52 11) with 0x7FF8000000000000 by reflexivity. split; [|reflexivity].
  unfold fbits. vm_compute. split; [discriminate|reflexivity].
Qed.
