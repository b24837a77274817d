(** decimal_to_double_: the scaled mantissa and its rounding. *)
From Coq Require Import Reals Lra.
From Flocq Require Import Core.
From Verif Require Import Base Bits FP FP_Proof Rne Midpoint Int128_Model Int128_Proof Strtod_Spec Strtod_Model Strtod_Arith_Proof.
Open Scope Z_scope.
Local Ltac Zify.zify_post_hook ::= idtac.

(** the value of the first (at most 38) digits *)
Definition dvalue (d : decimal) : R := (IZR (mant d) * ten (dec_exp d))%R.

(** the number the scaled mantissa approximates from below *)
Definition target (d : decimal) (pm pe : Z) : R :=
  (if 0 <=? dec_exp d then IZR (mant d) * pow2 (dec_exp d) * (IZR pm * pow2 pe)
   else IZR (mant d) * pow2 (dec_exp d) / (IZR pm * pow2 pe))%R.

Lemma scaled_ok d pm pe : 0 < mant d < 2^128 -> -380 <= dec_exp d <= 380 ->
  pow5_ (Z.abs (dec_exp d)) = Ok (pm, pe) -> normal pm ->
  exists V B lost, scaled d = Ok (V, B, truncated d || lost) /\ normal V /\
    (IZR V * pow2 B <= target d pm pe < IZR (V + 1) * pow2 B)%R /\
    (lost = false -> target d pm pe = (IZR V * pow2 B)%R) /\ (lost = true -> (IZR V * pow2 B < target d pm pe)%R).
Proof.
  intros Hm Hd EP NP. unfold scaled. destruct (clz_u128_ok (mant d) Hm) as (c & -> & Hc & Nc). cbn [bind].
  assert (L : lsh 128 (mant d) c = Ok (mant d * 2^c)).
  { unfold lsh. replace ((0 <=? c) && (c <? 128)) with true by lia. rewrite shiftl_mul by lia. rewrite Z.mod_small by lia. reflexivity. }
  rewrite L. cbn [bind]. set (m := mant d * 2^c) in *.
  assert (MR : IZR (mant d) = (IZR m * pow2 (- c))%R).
  { unfold m. rewrite mult_IZR, pow2_Z, Rmult_assoc, pow2_mul by lia. replace (c + - c) with 0 by lia. cbn [bpow]. lra. }
  unfold target. unfold normal in NP. set (de := dec_exp d) in *.
  (* from integers to reals *)
  assert (G : forall (N V r g B : Z), 0 <= g -> N = V * 2^g + r -> 0 <= r < 2^g ->
    (IZR V * pow2 B <= IZR N * pow2 (B - g) < IZR (V + 1) * pow2 B)%R /\
    (negb (r =? 0) = false -> (IZR N * pow2 (B - g) = IZR V * pow2 B)%R) /\ (negb (r =? 0) = true -> (IZR V * pow2 B < IZR N * pow2 (B - g))%R)).
  { intros N V r g B Hg EN Hr.
    assert (X : forall z, (IZR z * pow2 B = IZR (z * 2^g) * pow2 (B - g))%R).
    { intros z. rewrite mult_IZR, pow2_Z, Rmult_assoc, pow2_mul by lia. replace (g + (B - g)) with B by lia. reflexivity. }
    rewrite !X. pose proof (bpow_gt_0 radix2 (B - g)) as P. assert (H2 : 0 < 2^g) by (apply pow2_pos; lia).
    split; [split|split].
    - apply Rmult_le_compat_r; [lra|]. apply IZR_le. lia.
    - apply Rmult_lt_compat_r; [lra|]. apply IZR_lt. lia.
    - intros Z. f_equal. f_equal. destruct (Z.eqb_spec r 0); [lia|discriminate].
    - intros Z. apply Rmult_lt_compat_r; [lra|]. apply IZR_lt. destruct (Z.eqb_spec r 0); [discriminate|lia]. }
  destruct (Z.leb_spec 0 de) as [D|D].
  - rewrite Z.abs_eq in EP by lia. rewrite EP. cbn [bind].
    pose proof (norm_product m pm Nc NP) as P. destruct (umulti4 m pm) as [lo hi].
    destruct P as (P1 & P2 & P3 & P4 & P5 & P6 & P7). set (s := b2z (Z.shiftr hi 127 =? 0)) in *.
    rewrite P5.
    assert (TE : forall B, B = - c + de + (pe + 128 - s) ->
      (IZR (mant d) * pow2 de * (IZR pm * pow2 pe) = IZR (m * pm) * pow2 (B - (128 - s)))%R).
    { intros B ->. rewrite MR, mult_IZR. replace (- c + de + (pe + 128 - s) - (128 - s)) with (- c + (de + pe)) by lia. rewrite !bpow_plus. ring. }
    rewrite (TE _ eq_refl).
    set (B := - c + de + (pe + 128 - s)) in *.
    destruct (Z.eqb_spec s 0) as [S0|S0].
    + exists (Z.lor (hi * 2^s) 0), B, (negb (lo =? 0)). split; [reflexivity|]. rewrite Z.lor_0_r. split; [unfold normal; lia|].
      apply G; try lia; rewrite S0 in *; change (2^0) with 1; change (128 - 0) with 128; lia.
    + assert (s = 1) as S1 by lia. rewrite S1 in *. change (2^1) with 2 in *. 
      rewrite land_ones_mod, shiftr_div by lia.
      assert (HL : 0 <= lo / 2^127 < 2) by (split; [apply Z.div_pos; lia|apply Z.div_lt_upper_bound; lia]).
      assert (EL : Z.lor (hi * 2) (lo / 2^127) = hi * 2 + lo / 2^127) by (apply (lor_mul_low (lo / 2^127) hi 1); lia).
      rewrite EL. exists (hi * 2 + lo / 2^127), B, (negb (lo mod 2^127 =? 0)). split; [reflexivity|].
      pose proof (Z.div_mod lo (2^127) ltac:(lia)) as DM. pose proof (Z.mod_pos_bound lo (2^127) ltac:(lia)).
      split; [unfold normal; lia|]. apply G; change (128 - 1) with 127; lia.
  - rewrite Z.abs_neq in EP by lia. rewrite EP. cbn [bind].
    assert (R : forall (n q r k B : Z), n = m * 2^k -> 0 <= k -> q * pm + r = n -> 0 <= r < pm -> B = - c + de - (pe + k) ->
      (IZR q * pow2 B <= IZR (mant d) * pow2 de / (IZR pm * pow2 pe) < IZR (q + 1) * pow2 B)%R /\
      (negb (r =? 0) = false -> (IZR (mant d) * pow2 de / (IZR pm * pow2 pe) = IZR q * pow2 B)%R) /\
      (negb (r =? 0) = true -> (IZR q * pow2 B < IZR (mant d) * pow2 de / (IZR pm * pow2 pe))%R)).
    { intros n q r k B En Hk Eq Hr ->. pose proof (bpow_gt_0 radix2 (- c + de - (pe + k))) as PB.
      assert (PP : (0 < IZR pm)%R) by (apply IZR_lt; lia).
      assert (T : (IZR (mant d) * pow2 de / (IZR pm * pow2 pe) = IZR n / IZR pm * pow2 (- c + de - (pe + k)))%R).
      { rewrite MR, En, mult_IZR, pow2_Z by lia. replace (- c + de - (pe + k)) with (- k + (- c + (de + - pe))) by lia. rewrite !bpow_plus, (bpow_opp _ pe), (bpow_opp _ k).
        field. pose proof (bpow_gt_0 radix2 pe). pose proof (bpow_gt_0 radix2 k). repeat split; lra. }
      rewrite T. assert (NQ : (IZR n = IZR q * IZR pm + IZR r)%R) by (rewrite <- Eq, plus_IZR, mult_IZR; reflexivity).
      assert (DQ : (IZR n / IZR pm = IZR q + IZR r / IZR pm)%R) by (rewrite NQ; field; lra).
      assert (R0 : (0 <= IZR r)%R) by (apply IZR_le; lia). assert (R1 : (IZR r < IZR pm)%R) by (apply IZR_lt; lia).
      assert (F0 : (0 <= IZR r / IZR pm)%R) by (apply Rmult_le_pos; [lra|apply Rlt_le, Rinv_0_lt_compat; lra]).
      assert (F1 : (IZR r / IZR pm < 1)%R) by (apply (Rmult_lt_reg_r (IZR pm)); [lra|]; unfold Rdiv; rewrite Rmult_assoc, Rinv_l by lra; lra).
      rewrite plus_IZR. split; [split|split].
      - apply Rmult_le_compat_r; lra.
      - apply Rmult_lt_compat_r; lra.
      - intros Z. destruct (Z.eqb_spec r 0) as [->|]; [|discriminate]. rewrite DQ. change (IZR 0) with 0%R. unfold Rdiv. rewrite Rmult_0_l. ring.
      - intros Z. apply Rmult_lt_compat_r; [lra|]. rewrite DQ.
        assert (0 < IZR r / IZR pm)%R; [|lra]. apply Rmult_lt_0_compat; [|apply Rinv_0_lt_compat; lra]. apply IZR_lt. destruct (Z.eqb_spec r 0); [discriminate|lia]. }
    destruct (Z.ltb_spec m pm) as [C|C].
    + pose proof (udiv256by128_ok m 0 pm ltac:(lia) ltac:(lia) ltac:(lia)) as U. destruct (udiv256by128 m 0 pm) as [q r].
      destruct U as (U1 & U2 & U3). exists q, (- c + de - (pe + 128)), (negb (r =? 0)). split; [reflexivity|].
      split; [unfold normal; nia|]. apply (R (m * 2^128) q r 128); lia.
    + rewrite shiftr_div, shiftl_mul by lia. change (2^1) with 2.
      assert (E2 : m / 2 * 2^128 + u128 (m * 2^127) = m * 2^127).
      { pose proof (Z.div_mod m 2 ltac:(lia)). pose proof (Z.mod_pos_bound m 2 ltac:(lia)). unfold u128.
        rewrite <- (Z.mod_unique (m * 2^127) (2^128) (m / 2) (m mod 2 * 2^127)); lia. }
      assert (H2 : m / 2 < pm) by (apply Z.div_lt_upper_bound; lia). assert (H0 : 0 <= m / 2) by (apply Z.div_pos; lia).
      pose proof (udiv256by128_ok (m / 2) (u128 (m * 2^127)) pm ltac:(lia) ltac:(lia) ltac:(unfold u128; apply Z.mod_pos_bound; lia)) as U.
      destruct (udiv256by128 (m / 2) (u128 (m * 2^127)) pm) as [q r].
      destruct U as (U1 & U2 & U3). exists q, (- c + de - (pe + 127)), (negb (r =? 0)). split; [reflexivity|].
      rewrite E2 in U1. split; [unfold normal; nia|]. apply (R (m * 2^127) q r 127); lia.
Qed.

(** ** the last steps *)
Definition split_bits (m shift : Z) : res (Z * Z * bool) :=
  if 128 <=? shift then
    Ok (0, if shift =? 128 then Z.shiftr m 127 else 0,
        if shift =? 128 then negb (Z.land m (2^127 - 1) =? 0) else negb (m =? 0))
  else do a <- rsh 128 m shift; do b <- rsh 128 m (shift - 1); do c <- lsh 128 1 (shift - 1);
       Ok (u64 a, Z.land b 1, negb (Z.land m (u128 (c - 1)) =? 0)).
Definition pack (rm biased : Z) : res Z :=
  let '(rm, biased) :=
    if negb (Z.shiftr rm 53 =? 0) then (Z.shiftr rm 1, biased + 1)
    else if negb (Z.shiftr rm 52 =? 0) && (biased =? 0) then (rm, 1)
    else (rm, biased) in
  if 2047 <=? biased then Ok (finf 52 11)
  else Ok (Z.lor (u64 (Z.shiftl biased 52)) (Z.land rm (2^52 - 1))).
Definition decide (d : decimal) (rm rb : Z) (sticky : bool) (q : Z) : res bool :=
  if negb (rb =? 0) && truncated d then
    do cmp <- bigint_cmp_halfway d (u64 (2 * rm + 1)) q;
    Ok ((0 <? cmp) || ((cmp =? 0) && Z.odd rm))
  else Ok (negb (rb =? 0) && (sticky || Z.odd rm)).
Lemma decimal_to_double_eq d : mant d <> 0 -> -380 <= dec_exp d <= 309 ->
  decimal_to_double d =
  do (m, binexp, sticky_lo) <- scaled d;
  let biased := binexp + 127 + 1023 in
  let shift := if 1 <=? biased then 75 else 75 + 1 - biased in
  let biased := if biased <? 1 then 0 else biased in
  do (rm, rb, sticky) <- split_bits m shift;
  do up <- decide d rm rb (sticky || sticky_lo) (shift + binexp - 1);
  pack (if up : bool then u64 (rm + 1) else rm) biased.
Proof.
  intros H1 H2. unfold decimal_to_double. replace (mant d =? 0) with false by lia. replace (309 <? dec_exp d) with false by lia.
  replace (dec_exp d <? -380) with false by lia. reflexivity.
Qed.
Lemma split_bits_ok m s : 0 <= m < 2^128 -> 75 <= s -> exists sticky, split_bits m s = Ok (m / 2^s, (m / 2^(s - 1)) mod 2, sticky) /\
  ((m / 2^(s - 1)) mod 2 <> 0 -> sticky = negb (m mod 2^(s - 1) =? 0)).
Proof.
  intros Hm Hs. unfold split_bits. destruct (Z.leb_spec 128 s) as [G|G].
  - assert (Q : m / 2^s = 0). { apply Z.div_small. split; [lia|]. apply Z.lt_le_trans with (2^128); [lia|apply Z.pow_le_mono_r; lia]. }
    rewrite Q. destruct (Z.eqb_spec s 128) as [->|N].
    + rewrite shiftr_div, land_ones_mod by lia. change (128 - 1) with 127.
      assert (0 <= m / 2^127 < 2) by (split; [apply Z.div_pos; lia|apply Z.div_lt_upper_bound; lia]).
      rewrite (Z.mod_small (m / 2^127)) by lia. eexists; split; [reflexivity|auto].
    + assert (Q1 : m / 2^(s - 1) = 0). { apply Z.div_small. split; [lia|]. apply Z.lt_le_trans with (2^128); [lia|apply Z.pow_le_mono_r; lia]. }
      rewrite Q1. change (0 mod 2) with 0. eexists; split; [reflexivity|]. intros C. contradiction.
  - unfold rsh, lsh. replace ((0 <=? s) && (s <? 128)) with true by lia. replace ((0 <=? s - 1) && (s - 1 <? 128)) with true by lia.
    cbn [bind]. rewrite !shiftr_div, shiftl_mul by lia. rewrite Z.mul_1_l.
    assert (P : 1 <= 2^(s - 1)) by (pose proof (pow2_pos (s - 1)); lia).
    assert (P2 : 2^(s - 1) < 2^128) by (apply Z.pow_lt_mono_r; lia). rewrite (Z.mod_small (2^(s - 1))) by lia.
    unfold u128. rewrite (Z.mod_small (2^(s - 1) - 1)) by lia. rewrite land_ones_mod by lia.
    replace (Z.land (m / 2^(s - 1)) 1) with ((m / 2^(s - 1)) mod 2) by (symmetry; apply (land_ones_mod (m / 2^(s - 1)) 1); lia).
    unfold u64. assert (0 <= m / 2^s < 2^64).
    { split; [apply Z.div_pos; [lia|apply pow2_pos; lia]|]. apply Z.div_lt_upper_bound; [apply pow2_pos; lia|].
      apply Z.lt_le_trans with (2^(64 + 64)); [lia|]. rewrite Z.pow_add_r by lia. apply Z.mul_le_mono_nonneg_r; [lia|]. apply Z.pow_le_mono_r; lia. }
    rewrite Z.mod_small by lia. eexists; split; [reflexivity|auto].
Qed.
Lemma pack_ok rm t biased : 0 <= rm <= 2^53 -> -1074 <= t ->
  (biased = t + 1075 /\ 2^52 <= rm) \/ (biased = 0 /\ t = -1074 /\ rm <= 2^52) ->
  pack rm biased = Ok (Z.min ((t + 1074) * 2^52 + rm) (finf 52 11)).
Proof.
  intros Hr Ht Hl. unfold pack. rewrite !shiftr_div by lia.
  assert (F : finf 52 11 = 2047 * 2^52) by reflexivity. rewrite F.
  assert (E : forall b r, 0 <= b < 2047 -> 0 <= r < 2^52 -> Z.lor (u64 (Z.shiftl b 52)) r = b * 2^52 + r).
  { intros b r H1 H2. rewrite shiftl_mul by lia. unfold u64. rewrite Z.mod_small by lia. apply lor_mul_low; lia. }
  assert (RM : rm = 2^53 \/ rm < 2^53) by lia.
  destruct RM as [->|RM].
  - change (2^53 / 2^53) with 1. cbn [Z.eqb negb]. change (Z.land (2^53 / 2^1) (2^52 - 1)) with 0.
    destruct (Z.leb_spec 2047 (biased + 1)).
    + f_equal. symmetry. apply Z.min_r. lia.
    + rewrite E by lia. f_equal. rewrite Z.min_l; lia.
  - rewrite (Z.div_small rm (2^53)) by lia. cbn [Z.eqb negb].
    destruct (Z.lt_ge_cases rm (2^52)) as [S|S].
    + rewrite (Z.div_small rm (2^52)) by lia. cbn [Z.eqb negb andb]. rewrite land_ones_mod, (Z.mod_small rm) by lia.
      destruct (Z.leb_spec 2047 biased); [lia|]. rewrite E by lia. f_equal. rewrite Z.min_l; lia.
    + assert (Q : rm / 2^52 = 1) by (symmetry; apply Z.div_unique with (rm - 2^52); lia).
      assert (M : rm mod 2^52 = rm - 2^52) by (symmetry; apply Z.mod_unique with 1; lia). rewrite Q. cbn [Z.eqb negb andb].
      destruct (Z.eqb_spec biased 0) as [B0|B0].
      * change (2047 <=? 1) with false. cbv iota. rewrite land_ones_mod, M, E by lia. f_equal. rewrite Z.min_l; lia.
      * rewrite land_ones_mod, M by lia. destruct (Z.leb_spec 2047 biased).
        -- f_equal. symmetry. apply Z.min_r. lia.
        -- rewrite E by lia. f_equal. rewrite Z.min_l; lia.
Qed.

(** the unrounded bits of the result: the exponent [t] of its unit *)
Definition unit_exp (B : Z) : Z := Z.max (B + 75) (-1074).
Lemma round_frame d V B st up : mant d <> 0 -> -380 <= dec_exp d <= 309 -> normal V -> scaled d = Ok (V, B, st) ->
  let t := unit_exp B in
  let rm := V / 2^(t - B) in
  let rb := (V / 2^(t - B - 1)) mod 2 in
  (forall sticky, (rb <> 0 -> sticky = negb (V mod 2^(t - B - 1) =? 0)) -> decide d rm rb (sticky || st) (t - 1) = Ok up) ->
  decimal_to_double d = Ok (Z.min ((t + 1074) * 2^52 + (rm + b2z up)) (finf 52 11)) /\ 0 <= rm < 2^53 /\ (2^52 <= rm \/ t = -1074).
Proof.
  intros Hm Hd NV ES t rm rb HD. rewrite decimal_to_double_eq by assumption. rewrite ES. cbn [bind]. unfold normal in NV.
  set (biased := B + 127 + 1023).
  assert (SH : (if 1 <=? biased then 75 else 75 + 1 - biased) = t - B).
  { unfold t, unit_exp, biased. destruct (Z.leb_spec 1 (B + 127 + 1023)); lia. }
  rewrite SH. destruct (split_bits_ok V (t - B) ltac:(lia) ltac:(unfold t, unit_exp; lia)) as (sticky & -> & HS). cbn [bind].
  replace (t - B + B - 1) with (t - 1) by lia. fold rm rb. fold rb in HS. rewrite (HD sticky HS). cbn [bind].
  assert (HR : 0 <= rm < 2^53 /\ (1 <= biased -> t = B + 75 /\ 2^52 <= rm) /\ (biased < 1 -> t = -1074 /\ rm < 2^52)).
  { assert (P : 0 < 2^(t - B)) by (apply pow2_pos; unfold t, unit_exp; lia).
    assert (R0 : 0 <= rm) by (apply Z.div_pos; lia).
    destruct (Z.lt_ge_cases biased 1) as [C|C].
    - assert (T : t = -1074) by (unfold t, unit_exp, biased in *; lia).
      assert (rm < 2^52); [|lia]. apply Z.div_lt_upper_bound; [exact P|].
      apply Z.lt_le_trans with (2^76 * 2^52); [lia|]. apply Z.mul_le_mono_nonneg_r; [lia|]. apply Z.pow_le_mono_r; unfold biased in *; lia.
    - assert (T : t = B + 75) by (unfold t, unit_exp, biased in *; lia). unfold rm. rewrite T. replace (B + 75 - B) with 75 by lia.
      assert (V / 2^75 < 2^53) by (apply Z.div_lt_upper_bound; lia). assert (2^52 <= V / 2^75) by (apply Z.div_le_lower_bound; lia).
      rewrite T in *. replace (B + 75 - B) with 75 in * by lia. lia. }
  destruct HR as (R0 & R1 & R2).
  split; [|split; [lia|]; destruct (Z.lt_ge_cases biased 1); [right|left]; lia].
  replace (if up then u64 (rm + 1) else rm) with (rm + b2z up).
  2:{ destruct up; cbn [b2z]; [|lia]. unfold u64. rewrite Z.mod_small by lia. reflexivity. }
  assert (0 <= b2z up <= 1) by (destruct up; cbn; lia).
  assert (Ht : -1074 <= t) by (unfold t, unit_exp; lia). assert (EB : biased = B + 1150) by (unfold biased; lia).
  clearbody rm t biased. clear - R0 R1 R2 H Ht EB.
  apply pack_ok; [lia|exact Ht|].
  destruct (Z.ltb_spec biased 1); [right|left]; lia.
Qed.

Lemma rne_bits V s (st : bool) : 0 <= V -> 2 <= s ->
  rne (2 * V + b2z st) (2^(s + 1)) =
  V / 2^s + b2z (negb ((V / 2^(s - 1)) mod 2 =? 0) && (negb (V mod 2^(s - 1) =? 0) || st || Z.odd (V / 2^s))).
Proof.
  intros HV Hs. set (h := 2^(s - 1)). assert (Ph : 2 <= h) by (unfold h; change 2 with (2^1) at 1; apply Z.pow_le_mono_r; lia).
  assert (E1 : 2^s = 2 * h) by (unfold h; rewrite <- Z.pow_succ_r by lia; f_equal; lia).
  assert (E2 : 2^(s + 1) = 4 * h) by (rewrite Z.pow_add_r, E1 by lia; lia). rewrite E1, E2.
  set (a := V / (2 * h)). set (rb := (V / h) mod 2). set (lo := V mod h).
  assert (D1 : V = h * (V / h) + lo) by (apply Z.div_mod; lia). assert (D2 : V / h = 2 * a + rb).
  { unfold a. rewrite (Z.mul_comm 2 h), <- Z.div_div by lia. apply Z.div_mod. lia. }
  assert (HL : 0 <= lo < h) by (apply Z.mod_pos_bound; lia). assert (HB : 0 <= rb < 2) by (apply Z.mod_pos_bound; lia).
  assert (Hst : 0 <= b2z st <= 1) by (destruct st; cbn; lia).
  assert (DV : V = a * (2 * h) + (rb * h + lo)) by (rewrite D1 at 1; rewrite D2; ring).
  assert (Rb : 0 <= rb * h + lo < 2 * h). { assert (rb = 0 \/ rb = 1) as [->| ->] by lia; lia. }
  clearbody a rb lo h. clear D1 D2 E1 E2 Hs. rewrite rne_unfold.
  assert (Q : (2 * V + b2z st) / (4 * h) = a) by (symmetry; apply Z.div_unique with (2 * (rb * h + lo) + b2z st); lia).
  assert (M : (2 * V + b2z st) mod (4 * h) = 2 * (rb * h + lo) + b2z st) by (symmetry; apply Z.mod_unique with a; [left|]; lia).
  rewrite Q, M. clear Q M DV HV V. f_equal. f_equal. rewrite Zmod_odd. 
  destruct (Z.odd a), st; cbn [b2z orb] in *; rewrite ?orb_true_r, ?orb_false_r, ?andb_true_r;
  assert (rb = 0 \/ rb = 1) as [K|K] by lia; rewrite K in *; clear K; cbn [Z.eqb negb andb]; destruct (Z.eqb_spec lo 0); cbn [negb]; lia.
Qed.

Lemma round_core d V B st : mant d <> 0 -> -380 <= dec_exp d <= 309 -> normal V -> scaled d = Ok (V, B, st) -> truncated d = false ->
  exists b, decimal_to_double d = Ok b /\ rounds_to 52 11 (IZR (2 * V + b2z st) * pow2 (B - 1)) false b.
Proof.
  intros Hm Hd NV ES HT. set (t := unit_exp B). set (s := t - B). assert (Hs : 75 <= s) by (unfold s, t, unit_exp; lia).
  set (up := negb ((V / 2^(s - 1)) mod 2 =? 0) && (negb (V mod 2^(s - 1) =? 0) || st || Z.odd (V / 2^s))).
  destruct (round_frame d V B st up Hm Hd NV ES) as (E & R1 & R2).
  { intros sticky HK. fold t. fold s. unfold decide. rewrite HT, andb_false_r. fold s in HK. unfold up. f_equal.
    destruct (Z.eqb_spec ((V / 2^(s - 1)) mod 2) 0) as [Z0|Z0]; cbn [negb andb]; [reflexivity|]. rewrite HK by exact Z0. reflexivity. }
  fold t in E, R1, R2. fold s in E, R1, R2. unfold up in E. unfold normal in NV. rewrite <- rne_bits in E by lia.
  eexists; split; [exact E|].
  pose proof (rounds_pack 52 11 eq_refl eq_refl false (2 * V + b2z st) (B - 1) t) as P.
  change (emin 52 11) with (-1074) in P. replace (t - (B - 1)) with (s + 1) in P by (unfold s; lia).
  assert (Hst : 0 <= b2z st <= 1) by (destruct st; cbn; lia).
  assert (DQ : (2 * V + b2z st) / 2^(s + 1) = V / 2^s).
  { rewrite Z.pow_add_r, (Z.mul_comm (2^s)) by lia. change (2^1) with 2. rewrite <- Z.div_div by (try apply pow2_pos; lia). f_equal.
    symmetry. apply Z.div_unique with (b2z st); lia. }
  rewrite DQ in P. assert (T1 : B - 1 <= t) by (unfold s in Hs; clear - Hs; lia). assert (T2 : -1074 <= t) by (unfold t, unit_exp; clear; lia).
  specialize (P ltac:(clear - NV Hst; lia) T1 T2 ltac:(clear - R1; lia) ltac:(clear - R2; exact R2)).
  replace (t - -1074) with (t + 1074) in P by lia. unfold with_sign in P. exact P.
Qed.

(** ** no midpoint in between: the same result *)
Open Scope R_scope.
Notation midpoint := (halfway (-1074) 53).
Lemma mid_pos m : midpoint m -> 0 < m -> exists n e, m = IZR (2 * n + 1) * pow2 (e - 1) /\ (0 <= n < 2^53)%Z /\ (-1074 <= e)%Z.
Proof.
  intros H Hm. destruct (halfway_pos (-1074) 53 (-1075) 54 eq_refl ltac:(lia) ltac:(lia) m H Hm) as (n & e & E & H1 & H2 & _).
  exists n, e. auto.
Qed.
Lemma same_side x y : (forall m, midpoint m -> ~ (Rmin x y <= m <= Rmax x y)) -> RN 52 11 x = RN 52 11 y.
Proof.
  intros H. unfold RN. change (emin 52 11) with (-1074)%Z. change (52 + 1)%Z with 53%Z.
  set (fx := FLT_exp (-1074) 53). assert (VX : Valid_exp fx) by (apply FLT_exp_valid; reflexivity).
  set (f := round radix2 fx ZnearestE y). assert (Ff : generic_format radix2 fx f) by (apply generic_format_round; typeclasses eauto).
  pose proof (between (-1074) 53 (-1075) 54 eq_refl ltac:(lia) ltac:(lia) y) as [L U]. fold fx in L, U. fold f in L, U.
  assert (Hu : midpoint ((f + succ radix2 fx f) / 2)) by (exists f; auto).
  assert (Hl : midpoint ((pred radix2 fx f + f) / 2)).
  { exists (pred radix2 fx f). split; [apply generic_format_pred; [exact VX|exact Ff]|]. fold fx. rewrite succ_pred by (exact Ff || exact VX). reflexivity. }
  apply H in Hu. apply H in Hl. pose proof (Rmin_l x y). pose proof (Rmin_r x y). pose proof (Rmax_l x y). pose proof (Rmax_r x y).
  apply Rle_antisym.
  - apply round_N_le_midp; [exact VX|exact Ff|]. apply Rnot_le_lt. intros K. apply Hu. lra.
  - apply round_N_ge_midp; [exact VX|exact Ff|]. apply Rnot_le_lt. intros K. apply Hl. lra.
Qed.

(** a cell of the scaled mantissa holds no midpoint *)
Lemma cell_no_midpoint V B m : normal V -> midpoint m -> ~ (IZR V * pow2 B < m < IZR (V + 1) * pow2 B).
Proof.
  intros NV HM [L U]. unfold normal in NV.
  assert (P : 0 < m). { apply Rle_lt_trans with (2 := L). apply Rmult_le_pos; [apply IZR_le; lia|apply bpow_ge_0]. }
  destruct (mid_pos m HM P) as (n & e & E & Hn & He). rewrite E in L, U.
  destruct (Z.le_gt_cases B (e - 1)) as [C|C].
  - assert (X : IZR (2 * n + 1) * pow2 (e - 1) = IZR ((2 * n + 1) * 2^(e - 1 - B)) * pow2 B).
    { rewrite (mult_IZR (2 * n + 1)), pow2_Z, Rmult_assoc, pow2_mul by lia. do 2 f_equal. lia. }
    rewrite X in L, U. apply Rmult_lt_reg_r in L; [|apply bpow_gt_0]. apply Rmult_lt_reg_r in U; [|apply bpow_gt_0].
    apply lt_IZR in L, U. lia.
  - assert (X : IZR (2 * n + 1) * pow2 (e - 1) < IZR V * pow2 B); [|lra].
    apply Rlt_le_trans with (IZR (2^54) * pow2 B).
    + apply Rle_lt_trans with (IZR (2 * n + 1) * pow2 B).
      * apply Rmult_le_compat_l; [apply IZR_le; lia|apply bpow_le; lia].
      * apply Rmult_lt_compat_r; [apply bpow_gt_0|apply IZR_lt; lia].
    + apply Rmult_le_compat_r; [apply bpow_ge_0|apply IZR_le; lia].
Qed.

Lemma ten_pos k : 0 < ten k.
Proof.
  unfold ten. destruct (Z.leb_spec 0 k); [apply IZR_lt|apply Rinv_0_lt_compat, IZR_lt]; apply Z.pow_pos_nonneg; lia.
Qed.
Lemma ten_25 k : ten k = if (0 <=? k)%Z then pow2 k * IZR (5^k) else pow2 k / IZR (5^(-k)).
Proof.
  unfold ten. destruct (Z.leb_spec 0 k).
  - change 10%Z with (2 * 5)%Z. rewrite Z.pow_mul_l, mult_IZR, pow2_Z by lia. reflexivity.
  - change 10%Z with (2 * 5)%Z. rewrite Z.pow_mul_l, mult_IZR, pow2_Z by lia. rewrite Rinv_mult, pow2_inv, Z.opp_involutive. reflexivity.
Qed.
Lemma dvalue_pos d : (0 < mant d)%Z -> 0 < dvalue d.
Proof. intros H. apply Rmult_lt_0_compat; [apply IZR_lt; exact H|apply ten_pos]. Qed.

Lemma target_exact d pm pe : IZR pm * pow2 pe = IZR (5^(Z.abs (dec_exp d))) -> target d pm pe = dvalue d.
Proof.
  intros E. unfold target, dvalue. rewrite ten_25. destruct (Z.leb_spec 0 (dec_exp d)).
  - rewrite E, Z.abs_eq by lia. ring.
  - rewrite E, Z.abs_neq by lia. unfold Rdiv. ring.
Qed.
Lemma target_near d pm pe : (0 < mant d)%Z ->
  Rabs (IZR pm * pow2 pe - IZR (5^(Z.abs (dec_exp d)))) <= 3 * pow2 (-127) * IZR (5^(Z.abs (dec_exp d))) ->
  Rabs (target d pm pe - dvalue d) <= 4 * pow2 (-127) * dvalue d.
Proof.
  intros HM E. set (P := IZR pm * pow2 pe) in *. set (X := IZR (5^(Z.abs (dec_exp d)))) in *.
  assert (HX : 0 < X) by (apply IZR_lt, Z.pow_pos_nonneg; lia).
  set (e := pow2 (-127)) in *. assert (He : 0 < e <= 1 / 100). { split; [apply bpow_gt_0|]. unfold e. change (1/100) with (1 * / 100). apply Rle_trans with (pow2 (-7)); [apply bpow_le; lia|]. cbn. lra. }
  unfold target, dvalue. rewrite ten_25. fold P.
  assert (HA : 0 < IZR (mant d) * pow2 (dec_exp d)) by (apply Rmult_lt_0_compat; [apply IZR_lt; lia|apply bpow_gt_0]).
  destruct (Z.leb_spec 0 (dec_exp d)).
  - unfold X in *. rewrite Z.abs_eq in * by lia. fold X in HX, E |- *. fold X. set (A := IZR (mant d) * pow2 (dec_exp d)) in *.
    set (Y := IZR (5 ^ dec_exp d)) in *.
    replace (IZR (mant d) * (pow2 (dec_exp d) * Y)) with (A * Y) by (unfold A; ring).
    replace (A * P - A * Y) with (A * (P - Y)) by ring. rewrite Rabs_mult, (Rabs_pos_eq A) by lra.
    apply Rle_trans with (A * (3 * e * Y)); [apply Rmult_le_compat_l; [lra|exact E]|]. assert (0 < A * Y * e) by (apply Rmult_lt_0_compat; [apply Rmult_lt_0_compat|]; lra). lra.
  - unfold X in *. rewrite Z.abs_neq in * by lia. set (Y := IZR (5 ^ (- dec_exp d))) in *. set (A := IZR (mant d) * pow2 (dec_exp d)) in *.
    replace (IZR (mant d) * (pow2 (dec_exp d) / Y)) with (A / Y) by (unfold A, Rdiv; ring).
    apply Rabs_le_inv in E. assert (HP : Y / 2 < P) by nra.
    replace (A / P - A / Y) with (A * / (P * Y) * (Y - P)) by (field; split; lra).
    assert (HI : 0 < / (P * Y)) by (apply Rinv_0_lt_compat; nra).
    rewrite Rabs_mult, Rabs_pos_eq by nra.
    assert (K : Rabs (Y - P) <= 4 * e * P) by (apply Rabs_le; nra).
    apply Rle_trans with (A * / (P * Y) * (4 * e * P)); [apply Rmult_le_compat_l; [nra|exact K]|].
    right. field. split; lra.
Qed.

Lemma not_between x y (D : R) m : Rabs (x - y) <= D -> D < Rabs (y - m) -> ~ (Rmin x y <= m <= Rmax x y).
Proof.
  intros H1 H2 [L U]. apply Rabs_le_inv in H1. unfold Rmin, Rmax in *. destruct (Rle_dec x y); revert H2; unfold Rabs; destruct (Rcase_abs (y - m)); lra.
Qed.

(** far from every midpoint *)
Definition far (x : R) : Prop := forall m, midpoint m -> 0 < m -> pow2 (-124) * x < Rabs (x - m).

Theorem round_exact d : (0 < mant d < 2^128)%Z -> (-54 <= dec_exp d <= 54)%Z -> truncated d = false ->
  exists b, decimal_to_double d = Ok b /\ rounds_to 52 11 (dvalue d) false b.
Proof.
  intros Hm Hd HT. destruct (pow5_ok (Z.abs (dec_exp d))) as (pm & pe & EP & NP & _ & EX); [lia|].
  specialize (EX ltac:(lia)). destruct (scaled_ok d pm pe Hm ltac:(lia) EP NP) as (V & B & lost & ES & NV & BD & Z0 & Z1).
  rewrite (target_exact d pm pe EX) in *. rewrite HT in ES. cbn [orb] in ES.
  destruct (round_core d V B lost ltac:(lia) ltac:(lia) NV ES HT) as (b & E & R). exists b. split; [exact E|].
  apply rounds_of_RN with (1 := R).
  assert (X : IZR (2 * V + b2z lost) * pow2 (B - 1) = (IZR V + IZR (b2z lost) / 2) * pow2 B).
  { unfold Zminus. rewrite bpow_plus, plus_IZR, mult_IZR. change (pow2 (-(1))) with (/2). field. }
  rewrite X. pose proof (bpow_gt_0 radix2 B). destruct lost; cbn [b2z].
  - specialize (Z1 eq_refl). apply same_side. intros m Hm' [L U].
    apply (cell_no_midpoint V B m NV Hm'). rewrite plus_IZR in *. unfold Rmin, Rmax in *. destruct (Rle_dec _ _); nra.
  - specialize (Z0 eq_refl). rewrite Z0. f_equal. unfold Rdiv. ring.
Qed.

Theorem round_far d : (0 < mant d < 2^128)%Z -> (-380 <= dec_exp d <= 309)%Z -> truncated d = false -> far (dvalue d) ->
  exists b, decimal_to_double d = Ok b /\ rounds_to 52 11 (dvalue d) false b.
Proof.
  intros Hm Hd HT HF. destruct (pow5_ok (Z.abs (dec_exp d))) as (pm & pe & EP & NP & NE & _); [lia|].
  destruct (scaled_ok d pm pe Hm ltac:(lia) EP NP) as (V & B & lost & ES & NV & BD & _ & _).
  apply (target_near d pm pe ltac:(lia)) in NE. rewrite HT in ES. cbn [orb] in ES.
  destruct (round_core d V B lost ltac:(lia) ltac:(lia) NV ES HT) as (b & E & R). exists b. split; [exact E|].
  apply rounds_of_RN with (1 := R).
  assert (X : IZR (2 * V + b2z lost) * pow2 (B - 1) = (IZR V + IZR (b2z lost) / 2) * pow2 B).
  { unfold Zminus. rewrite bpow_plus, plus_IZR, mult_IZR. change (pow2 (-(1))) with (/2). field. }
  rewrite X. set (u := (IZR V + IZR (b2z lost) / 2) * pow2 B).
  pose proof (bpow_gt_0 radix2 B) as PB. pose proof (dvalue_pos d ltac:(lia)) as PD.
  set (T := target d pm pe) in *. set (e := pow2 (-127)) in *.
  assert (He : 0 < e <= 1 / 100). { split; [apply bpow_gt_0|]. unfold e. apply Rle_trans with (pow2 (-7)); [apply bpow_le; lia|]. cbn. lra. }
  assert (E24 : pow2 (-124) = 8 * e) by (unfold e; change (-124)%Z with (3 + -127)%Z; rewrite bpow_plus; cbn; lra).
  assert (UB1 : pow2 B <= e * T).
  { unfold normal in NV. apply Rle_trans with (e * (IZR V * pow2 B)); [|apply Rmult_le_compat_l; lra].
    rewrite <- Rmult_assoc. rewrite <- (Rmult_1_l (pow2 B)) at 1. apply Rmult_le_compat_r; [lra|].
    apply Rle_trans with (e * IZR (2^127)); [|apply Rmult_le_compat_l; [lra|apply IZR_le; lia]]. rewrite pow2_Z by lia. unfold e. rewrite pow2_mul. cbn. lra. }
  assert (UT : Rabs (u - T) <= pow2 B).
  { apply Rabs_le. unfold u. rewrite plus_IZR in BD. assert (0 <= IZR (b2z lost) <= 1) by (destruct lost; cbn; lra). nra. }
  assert (UD : Rabs (u - dvalue d) <= pow2 (-124) * dvalue d).
  { rewrite E24. apply Rabs_le_inv in UT, NE. apply Rabs_le. nra. }
  assert (UP : 0 < u). { apply Rabs_le_inv in UD. rewrite E24 in UD. nra. }
  apply same_side. intros m HM BT.
  assert (0 < m). { apply Rlt_le_trans with (2 := proj1 BT). apply Rmin_pos; assumption. }
  revert BT. apply (not_between u (dvalue d) (pow2 (-124) * dvalue d)); [exact UD|apply HF; assumption].
Qed.
