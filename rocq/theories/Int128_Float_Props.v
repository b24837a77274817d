(** Property theorems C14-C15: conversions between 128-bit integers and
    float/double.  [rounds_to mw ew x s b] (FP.v) says that the pattern [b] is x
    rounded to nearest-even in Flocq's sense, with sign [s]; [fval] is the real
    value of a pattern. *)
From Coq Require Import Reals Lra.
From Flocq Require Import Core.
From Verif Require Import Base Bits FP FP_Proof HW HW_Proof Int128_Model Int128_Proof Int128_Div_Proof
  Int128_Float_Model Int128_Float_Proof.
Open Scope Z_scope.
Local Ltac Zify.zify_post_hook ::= idtac.

Lemma rounds_zero mw ew : 0 < mw -> 1 < ew -> rounds_to mw ew (IZR 0) false 0.
Proof.
  intros Hm He. pose proof (rounds_pack mw ew Hm He false 0 (emin mw ew) (emin mw ew)) as H.
  rewrite Z.sub_diag in H. cbn [Z.pow] in H. rewrite rne_1, Z.div_1_r in H.
  specialize (H ltac:(lia) ltac:(lia) ltac:(lia) (pow2_pos (mw+1) ltac:(lia)) ltac:(lia)).
  rewrite F2R_0 in H. unfold with_sign in H.
  pose proof (finf_pos mw ew Hm He).
  replace (0 + Z.min (0 * 2^mw + 0) (finf mw ew)) with 0 in H by lia. exact H.
Qed.

(** ** C14 *)
(** Full statement: both signed and unsigned, every 128-bit integer.  Missing
    (false, see below): the signed conversions of INT128_MIN. *)
Theorem C14_int_to_float_partial :
  (forall a, 0 <= a < 2^128 ->
     (exists b, floatuntidf a = Ok b /\ rounds_to 52 11 (IZR a) false b) /\
     (exists b, floatuntisf a = Ok b /\ rounds_to 23 8 (IZR a) false b)) /\
  (forall a, - 2^127 < a < 2^127 ->
     (exists b, floattidf a = Ok b /\ rounds_to 52 11 (IZR a) (a <? 0) b) /\
     (exists b, floattisf a = Ok b /\ rounds_to 23 8 (IZR a) (a <? 0) b)).
Proof.
  assert (D : forall neg a, 0 < a < 2^128 ->
    exists b, floatti_bits 74 64 52 (1023 + 127) (if neg : bool then 2^(52+11) else 0) a = Ok b /\
    rounds_to 52 11 (if neg then Ropp (IZR a) else IZR a) neg b)
    by (intros; apply (floatti_bits_ok 52 11); try lia; reflexivity).
  assert (F : forall neg a, 0 < a < 2^128 ->
    exists b, floatti_bits 103 32 23 (127 + 127) (if neg : bool then 2^(23+8) else 0) a = Ok b /\
    rounds_to 23 8 (if neg then Ropp (IZR a) else IZR a) neg b)
    by (intros; apply (floatti_bits_ok 23 8); try lia; reflexivity).
  split.
  - intros a Ha. unfold floatuntidf, floatuntisf.
    destruct (Z.eqb_spec a 0) as [->|N].
    + split; (exists 0; split; [reflexivity|apply rounds_zero; lia]).
    + split; [apply (D false)|apply (F false)]; lia.
  - intros a Ha. unfold floattidf, floattisf.
    destruct (Z.eqb_spec a 0) as [->|N].
    + split; (exists 0; split; [reflexivity|apply rounds_zero; lia]).
    + assert (S1 : Z.land (u128 (Z.shiftr a 64)) 0x8000000000000000 = if a <? 0 then 2^63 else 0).
      { unfold u128. rewrite shiftr_div by lia. change 0x8000000000000000 with (2^64 - 2^63). rewrite land_field by lia.
        rewrite <- !Znumtheory.Zmod_div_mod; try lia; try (exists (2^64); reflexivity); try (exists (2^65); reflexivity).
        destruct (Z.ltb_spec a 0) as [L|G].
        - assert (- 2^63 <= a / 2^64 < 0) by (split; [apply Z.div_le_lower_bound|apply Z.div_lt_upper_bound]; lia).
          rewrite (mod_neg_small _ (2^64)), (mod_neg_small _ (2^63)) by lia. lia.
        - assert (0 <= a / 2^64 < 2^63) by (split; [apply Z.div_le_lower_bound|apply Z.div_lt_upper_bound]; lia).
          rewrite !Z.mod_small by lia. lia. }
      assert (S2 : Z.land (u128 (Z.shiftr a 96)) 0x80000000 = if a <? 0 then 2^31 else 0).
      { unfold u128. rewrite shiftr_div by lia. change 0x80000000 with (2^32 - 2^31). rewrite land_field by lia.
        rewrite <- !Znumtheory.Zmod_div_mod; try lia; try (exists (2^96); reflexivity); try (exists (2^97); reflexivity).
        destruct (Z.ltb_spec a 0) as [L|G].
        - assert (- 2^31 <= a / 2^96 < 0) by (split; [apply Z.div_le_lower_bound|apply Z.div_lt_upper_bound]; lia).
          rewrite (mod_neg_small _ (2^32)), (mod_neg_small _ (2^31)) by lia. lia.
        - assert (0 <= a / 2^96 < 2^31) by (split; [apply Z.div_le_lower_bound|apply Z.div_lt_upper_bound]; lia).
          rewrite !Z.mod_small by lia. lia. }
      rewrite S1, S2.
      destruct (Z.ltb_spec a 0) as [L|G].
      * unfold chk_i128. replace ((- 2^127 <=? - a) && (- a <=? 2^127 - 1)) with true by lia. cbn [bind].
        replace (IZR a) with (Ropp (IZR (- a))) by (rewrite opp_IZR; ring).
        split; [apply (D true)|apply (F true)]; lia.
      * cbn [bind]. split; [apply (D false)|apply (F false)]; lia.
Qed.
Print Assumptions C14_int_to_float_partial.

(** ties to even, carry into infinity, negative *)
Example C14_ex : floatuntidf (2^53 + 1) = Ok 0x4340000000000000 /\ floatuntidf (2^53 + 3) = Ok 0x4340000000000002
  /\ floatuntisf (2^128 - 1) = Ok 0x7F800000 /\ floattisf (-3) = Ok 0xC0400000.
Proof. repeat split. Qed.

Theorem C14_int128_min_refuted : exists a, - 2^127 <= a < 2^127 /\ floattidf a = UB /\ floattisf a = UB.
Proof. exists (- 2^127). repeat split; lia. Qed.
Print Assumptions C14_int128_min_refuted.

(** ** C15 *)
Lemma absval mw ew x : 0 < mw -> 1 < ew -> fbits mw ew x ->
  fbits mw ew (fabsb mw ew x) /\ fneg mw ew (fabsb mw ew x) = false /\
  ffinite mw ew (fabsb mw ew x) = ffinite mw ew x /\
  fval mw ew (fabsb mw ew x) = Rabs (fval mw ew x).
Proof.
  intros Hm He Hx. assert (HP : 0 < 2^(mw+ew)) by (apply pow2_pos; lia).
  assert (H : 0 <= fabsb mw ew x < 2^(mw+ew)) by (apply Z.mod_pos_bound; lia).
  destruct (fabsb_pos mw ew _ H) as [A B].
  unfold ffinite, fval, fbits in *. rewrite A, B. split; [rewrite (Z.pow_add_r 2 (mw+ew) 1) by lia; lia|].
  split; [reflexivity|]. split; [reflexivity|].
  pose proof (fmag_nonneg mw ew Hm (fabsb mw ew x) ltac:(lia)).
  destruct (fneg mw ew x); [rewrite Rabs_Ropp|]; rewrite Rabs_pos_eq by assumption; reflexivity.
Qed.

Lemma fix64_ok r : fbits 52 11 r -> ffinite 52 11 r = true -> fneg 52 11 r = false -> (fval 52 11 r < bpow radix2 128)%R ->
  fix64 r = Ok (Zfloor (fval 52 11 r)).
Proof. intros. apply (fix_parts_ok 52 11 eq_refl eq_refl eq_refl); try assumption. cbn. lia. Qed.
Lemma fix32_ok r : fbits 23 8 r -> ffinite 23 8 r = true -> fneg 23 8 r = false -> (fval 23 8 r < bpow radix2 128)%R ->
  fix32 r = Ok (Zfloor (fval 23 8 r)).
Proof. intros. apply (fix_parts_ok 23 8 eq_refl eq_refl eq_refl); try assumption. cbn. lia. Qed.

Lemma signed_conv mw ew x (fix_ : Z -> res Z) : 0 < mw -> 1 < ew -> fbits mw ew x -> ffinite mw ew x = true ->
  (forall r, fbits mw ew r -> ffinite mw ew r = true -> fneg mw ew r = false -> (fval mw ew r < bpow radix2 128)%R ->
     fix_ r = Ok (Zfloor (fval mw ew r))) ->
  - 2^127 < Ztrunc (fval mw ew x) < 2^127 ->
  (do p <- fix_ (fabsb mw ew x); let abs := s128 p in if fneg mw ew x then chk_i128 (- abs) else Ok abs)
  = Ok (Ztrunc (fval mw ew x)).
Proof.
  intros Hm He Hx Fx HF HT. destruct (absval mw ew x Hm He Hx) as (A & B & C & D).
  assert (EZ : Zfloor (Rabs (fval mw ew x)) = Z.abs (Ztrunc (fval mw ew x))).
  { rewrite <- Ztrunc_abs. symmetry. apply Ztrunc_floor. apply Rabs_pos. }
  rewrite HF; [|assumption|congruence|assumption|].
  - cbn [bind]. rewrite D, EZ. unfold s128. rewrite (sgn_id 128) by lia.
    unfold fval in *. pose proof (fmag_nonneg mw ew Hm (fabsb mw ew x) (proj1 (Z.mod_pos_bound x _ (pow2_pos (mw+ew) ltac:(lia))))) as N.
    destruct (fneg mw ew x).
    + rewrite Ztrunc_opp in *. rewrite Ztrunc_floor in * by assumption.
      assert (0 <= Zfloor (fmag mw ew (fabsb mw ew x))) by (apply Zfloor_lub; assumption).
      unfold chk_i128. replace (- Z.abs (- Zfloor (fmag mw ew (fabsb mw ew x)))) with (- Zfloor (fmag mw ew (fabsb mw ew x))) by lia.
      replace ((- 2^127 <=? - Zfloor (fmag mw ew (fabsb mw ew x))) && (- Zfloor (fmag mw ew (fabsb mw ew x)) <=? 2^127 - 1)) with true by lia.
      reflexivity.
    + rewrite Ztrunc_floor in * by assumption.
      assert (0 <= Zfloor (fmag mw ew (fabsb mw ew x))) by (apply Zfloor_lub; assumption). f_equal. lia.
  - rewrite D. apply Rlt_le_trans with (1 := Zfloor_ub _). rewrite EZ, <- plus_IZR.
    rewrite (bpow2 128) by lia. apply IZR_le. lia.
Qed.

Lemma unsigned_conv mw ew x one (fix_ : Z -> res Z) : 0 < mw -> 1 < ew -> fbits mw ew x -> ffinite mw ew x = true ->
  fbits mw ew one -> ffinite mw ew one = true -> fval mw ew one = 1%R ->
  (forall r, fbits mw ew r -> ffinite mw ew r = true -> fneg mw ew r = false -> (fval mw ew r < bpow radix2 128)%R ->
     fix_ r = Ok (Zfloor (fval mw ew r))) ->
  0 <= Ztrunc (fval mw ew x) < 2^128 ->
  (if hlt mw ew x one then Ok 0 else fix_ x) = Ok (Ztrunc (fval mw ew x)).
Proof.
  intros Hm He Hx Fx H1 F1 V1 HF HT.
  pose proof (hlt_ok mw ew Hm ltac:(lia) x one Hx H1 Fx F1) as HL. rewrite V1 in HL.
  destruct (hlt mw ew x one).
  - assert (fval mw ew x < 1)%R by (apply HL; reflexivity). f_equal.
    destruct (Rlt_or_le (fval mw ew x) 0) as [L|G].
    + rewrite Ztrunc_ceil in * by lra. assert (Zceil (fval mw ew x) <= 0) by (apply Zceil_glb; lra). lia.
    + rewrite Ztrunc_floor in * by lra. symmetry. apply Zfloor_imp. change (IZR (0+1)) with 1%R. lra.
  - assert (1 <= fval mw ew x)%R.
    { apply Rnot_lt_le. intros K. apply HL in K. discriminate. }
    rewrite Ztrunc_floor in * by lra. apply HF; try assumption.
    + unfold fval in H. pose proof (fmag_nonneg mw ew Hm (fabsb mw ew x) (proj1 (Z.mod_pos_bound x _ (pow2_pos (mw+ew) ltac:(lia))))).
      destruct (fneg mw ew x); [lra|reflexivity].
    + apply Rlt_le_trans with (1 := Zfloor_ub _). rewrite <- plus_IZR. rewrite (bpow2 128) by lia. apply IZR_le. lia.
Qed.

(** [Ztrunc] is truncation toward zero of a real.  Full statement: also for
    fval x in (-2^127 - 1, -2^127], whose truncation is INT128_MIN.  Missing
    (false, see below): exactly that. *)
Theorem C15_float_to_int_partial :
  (forall x, fbits 52 11 x -> ffinite 52 11 x = true ->
    (- 2^127 < Ztrunc (fval 52 11 x) < 2^127 -> fixdfti x = Ok (Ztrunc (fval 52 11 x))) /\
    (0 <= Ztrunc (fval 52 11 x) < 2^128 -> fixunsdfti x = Ok (Ztrunc (fval 52 11 x)))) /\
  (forall x, fbits 23 8 x -> ffinite 23 8 x = true ->
    (- 2^127 < Ztrunc (fval 23 8 x) < 2^127 -> fixsfti x = Ok (Ztrunc (fval 23 8 x))) /\
    (0 <= Ztrunc (fval 23 8 x) < 2^128 -> fixunssfti x = Ok (Ztrunc (fval 23 8 x)))).
Proof.
  split; intros x Hx Fx; split; intros HT.
  - apply (signed_conv 52 11 x fix64); try assumption; try lia. apply fix64_ok.
  - destruct (pow_const 52 11 eq_refl eq_refl eq_refl 0 ltac:(cbn; lia)) as (A & B & C & _).
    apply (unsigned_conv 52 11 x (Z.shiftl 1023 52) fix64); try assumption; try lia. apply fix64_ok.
  - apply (signed_conv 23 8 x fix32); try assumption; try lia. apply fix32_ok.
  - destruct (pow_const 23 8 eq_refl eq_refl eq_refl 0 ltac:(cbn; lia)) as (A & B & C & _).
    apply (unsigned_conv 23 8 x (Z.shiftl 127 23) fix32); try assumption; try lia. apply fix32_ok.
Qed.
Print Assumptions C15_float_to_int_partial.

(** -3.0625 and 2^100 + 2^48 *)
Example C15_ex : fixdfti 0xC008800000000000 = Ok (-3) /\ fixunsdfti 0x4630000000000001 = Ok (2^100 + 2^48)
  /\ fixunssfti 0x7F7FFFFF = Ok (2^128 - 2^104).
Proof. repeat split; vm_compute; reflexivity. Qed.

Theorem C15_int128_min_refuted :
  exists x, fbits 52 11 x /\ ffinite 52 11 x = true /\ fval 52 11 x = IZR (- 2^127) /\ fixdfti x = UB.
Proof.
  exists 0xC7E0000000000000. split; [unfold fbits; cbn; lia|]. split; [reflexivity|]. split.
  - unfold fval. change (fneg 52 11 0xC7E0000000000000) with true. change (fabsb 52 11 0xC7E0000000000000) with (0x47E0000000000000).
    cbn iota. unfold fmag. change (0x47E0000000000000 / 2^52 =? 0) with false. cbn iota.
    change (2 ^ 52 + 5179139571476070400 mod 2 ^ 52) with (2^52).
    change (emin 52 11 + 5179139571476070400 / 2 ^ 52 - 1) with 75.
    unfold F2R. cbn [Fnum Fexp]. rewrite bpow2 by lia. rewrite <- mult_IZR, <- opp_IZR. reflexivity.
  - vm_compute. reflexivity.
Qed.
Print Assumptions C15_int128_min_refuted.
