(** strtod: the value of a hexadecimal constant. *)
From Coq Require Import Reals Lra.
From Flocq Require Import Core.
From Verif Require Import Base Bits FP FP_Proof Rne Midpoint Ctype_Spec Stdlib_Spec Stdlib_Model Stdlib_Proof HW HW_Proof Math_Model Strtod_Spec Strtod_Model Strtod_Arith_Proof Strtod_Parse_Proof Strtod_Proof Strtod_Hex_Proof.
Open Scope Z_scope.
Local Ltac Zify.zify_post_hook ::= idtac.

Lemma nibble_test D u b H v : 16 <= H -> 0 <= v < H -> 0 <= b < 2 -> (H * (2 * D) <? 2 * (H * u + v) + b) = (D <? u) || (D =? u) && (0 <? 2 * v + b).
Proof.
  intros HH Hv Hb. destruct (Z.ltb_spec D u) as [L|L]; cbn [orb].
  - apply Z.ltb_lt. assert (H * (D + 1) <= H * u) by (apply Z.mul_le_mono_nonneg_l; lia). lia.
  - destruct (Z.eqb_spec D u) as [Q|Q]; cbn [andb].
    + rewrite <- Q. destruct (Z.ltb_spec 0 (2 * v + b)); [apply Z.ltb_lt|apply Z.ltb_ge]; lia.
    + apply Z.ltb_ge. assert (H * u <= H * (D - 1)) by (apply Z.mul_le_mono_nonneg_l; lia). lia.
Qed.
Lemma nibble_low l m b : 0 <= l -> 0 <= m -> 0 <= b -> (l = 0 <-> m = 0) -> (0 <? 2 * l + b) = (0 <? 2 * m + b).
Proof. intros Hl Hm Hb S. destruct (Z.eq_dec l 0) as [Q|Q]; [rewrite Q, (proj1 S Q); reflexivity|]. assert (m <> 0) by tauto. lia. Qed.
Lemma split_bound G a r : 0 < G -> 0 <= a < 16 -> 0 <= r < G -> 0 <= G * a + r < G * 16 /\ (G * a + r = 0 <-> a = 0 /\ r = 0).
Proof. intros HG Ha Hr. assert (G * a <= G * 15) by (apply Z.mul_le_mono_nonneg_l; lia). assert (0 <= G * a) by (apply Z.mul_nonneg_nonneg; lia). split; [lia|]. split; [|intros [-> ->]; lia].
  intros Q. assert (Q1 : G * a = 0) by lia. apply Z.mul_eq_0 in Q1. lia. Qed.
Lemma split_bound2 G u m D : 0 < G -> 0 <= u < 2 * D -> 0 <= m < G -> 0 <= G * u + m < G * (2 * D).
Proof. intros HG Hu Hm. assert (G * u <= G * (2 * D - 1)) by (apply Z.mul_le_mono_nonneg_l; lia). assert (0 <= G * u) by (apply Z.mul_nonneg_nonneg; lia). lia. Qed.
(** the low nibble only has to know whether anything non-zero was dropped *)
Lemma rne_nibble x y g k : 0 <= x -> 0 <= y -> 0 <= g -> 5 <= k -> x / 16 = y / 2^(g + 4) -> (x mod 16 = 0 <-> y mod 2^(g + 4) = 0) ->
  rne x (2^k) = rne y (2^(g + k)) /\ x / 2^k = y / 2^(g + k).
Proof.
  intros Hx Hy Hg Hk E S. set (G := 2^(g + 4)) in *. assert (PG : 0 < G) by (apply pow2_pos; lia).
  set (D := 2^(k - 5)). assert (PD : 0 < D) by (apply pow2_pos; lia).
  assert (EK : 2^k = 16 * (2 * D)). { unfold D. change 16 with (2^4). change 2 with (2^1) at 3. rewrite <- !Z.pow_add_r by lia. f_equal. lia. }
  assert (EG : 2^(g + k) = G * (2 * D)). { unfold G, D. change 2 with (2^1) at 3. rewrite <- !Z.pow_add_r by lia. f_equal. lia. }
  assert (Hh : True) by exact I. set (h := x / 16) in *. set (l := x mod 16) in *. set (m := y mod G) in *.
  assert (DX : x = 16 * h + l) by (apply Z.div_mod; lia). assert (DY : y = G * h + m) by (rewrite E; apply Z.div_mod; lia).
  pose proof (Z.mod_pos_bound x 16 ltac:(lia)) as BL. fold l in BL. pose proof (Z.mod_pos_bound y G PG) as BM. fold m in BM.
  set (q := h / (2 * D)). set (u := h mod (2 * D)). assert (DH : h = 2 * D * q + u) by (apply Z.div_mod; lia). pose proof (Z.mod_pos_bound h (2 * D) ltac:(lia)) as BU. fold u in BU.
  assert (QX : x / 2^k = q /\ x mod 2^k = 16 * u + l).
  { rewrite EK. split; [symmetry; apply Z.div_unique with (16 * u + l); [left; lia|rewrite DX, DH; ring]|symmetry; apply Z.mod_unique with q; [left; lia|rewrite DX, DH; ring]]. }
  assert (QY : y / 2^(g + k) = q /\ y mod 2^(g + k) = G * u + m).
  { rewrite EG. pose proof (split_bound2 G u m D PG BU BM). split; [symmetry; apply Z.div_unique with (G * u + m); [left; lia|rewrite DY, DH; ring]|symmetry; apply Z.mod_unique with q; [left; lia|rewrite DY, DH; ring]]. }
  destruct QX as [QX1 QX2], QY as [QY1 QY2]. split; [|congruence]. rewrite !rne_unfold. rewrite QX1, QX2, QY1, QY2, EK, EG. f_equal. f_equal.
  pose proof (Z.mod_pos_bound q 2 ltac:(lia)) as BQ. set (b := q mod 2) in *.
  assert (G16 : 16 <= G) by (unfold G; change 16 with (2^4); apply Z.pow_le_mono_r; lia).
  clearbody b u. rewrite (nibble_test D u b 16 l), (nibble_test D u b G m) by lia. f_equal. f_equal. apply (nibble_low l m b); [lia|lia|lia|exact S].
Qed.

Lemma pow16 k : 0 <= k -> 16^k = 2^(4 * k).
Proof. intros. rewrite Z.pow_mul_r by lia. reflexivity. Qed.

Section Round.
Variables mw ew cap : Z.
Hypothesis Hmw : 0 < mw.
Hypothesis Hew : 1 < ew.
Hypothesis Hcap : 0 < cap.
Hypothesis Hgap : mw + 1 + 5 <= 4 * cap - 3.
Hypothesis Hfin : 4 * cap < 2^(ew - 1).
Variable of_bitset : Z -> Z.
Variable ldexp : Z -> Z -> res Z.
Hypothesis Hof : forall n, rounds_to mw ew (IZR n) (n <? 0) (of_bitset n).
Hypothesis Hld : forall x n, is_i32 n -> fbits mw ew x -> ffinite mw ew x = true -> exists r, ldexp x n = Ok r /\ rounds_to mw ew (fval mw ew x * bpow radix2 n) (fneg mw ew x) r.
Notation ncap := (Z.to_nat cap).
Notation hmant := (hmant cap).

Lemma hmant_split ds : Forall hex_char ds -> cap < len ds ->
  hmant ds / 16 = hexnum ds / 2^(4 * (len ds - cap) + 4) /\ (hmant ds mod 16 = 0 <-> hexnum ds mod 2^(4 * (len ds - cap) + 4) = 0) /\
  0 <= hmant ds < 2^(4 * cap) /\ (hexnum ds mod 2^(4 * (len ds - cap)) = 0 -> hexnum ds = hmant ds * 2^(4 * (len ds - cap))).
Proof.
  intros Hd HL. unfold Strtod_Hex_Proof.hmant.
  assert (D1 : Forall hex_char (firstn ncap ds)) by (apply Forall_firstn; exact Hd).
  assert (D2 : Forall hex_char (skipn ncap ds)) by (rewrite <- (firstn_skipn ncap ds) in Hd; apply Forall_app in Hd; apply Hd).
  assert (L1 : len (firstn ncap ds) = cap) by (rewrite firstn_length; lia). assert (L2 : len (skipn ncap ds) = len ds - cap) by (rewrite skipn_length; lia).
  assert (E : hexnum ds = hexnum (firstn ncap ds) * 2^(4 * (len ds - cap)) + hexnum (skipn ncap ds)).
  { rewrite <- (firstn_skipn ncap ds) at 1. rewrite hexnum_app, L2, pow16 by lia. reflexivity. }
  pose proof (hexnum_bound _ D1) as B1. rewrite L1, pow16 in B1 by lia. pose proof (hexnum_bound _ D2) as B2. rewrite L2, pow16 in B2 by lia.
  set (x0 := hexnum (firstn ncap ds)) in *. set (r := hexnum (skipn ncap ds)) in *. set (G := 2^(4 * (len ds - cap))) in *.
  destruct (hor_spec _ D2 x0 ltac:(lia)) as (S1 & S2 & S3 & S4). fold r in S3, S4. set (x' := hor x0 (skipn ncap ds)) in *.
  assert (EG : 2^(4 * (len ds - cap) + 4) = G * 16) by (unfold G; rewrite Z.pow_add_r by lia; reflexivity).
  assert (DX : x0 = 16 * (x0 / 16) + x0 mod 16) by (apply Z.div_mod; lia). pose proof (Z.mod_pos_bound x0 16 ltac:(lia)) as BX.
  assert (PG : 0 < G) by (apply pow2_pos; lia). destruct (split_bound G (x0 mod 16) r PG BX B2) as [BB BZ].
  assert (Q : hexnum ds / (G * 16) = x0 / 16) by (symmetry; apply Z.div_unique with (G * (x0 mod 16) + r); [left; exact BB|rewrite E; rewrite DX at 1; ring]).
  assert (M : hexnum ds mod (G * 16) = G * (x0 mod 16) + r) by (symmetry; apply Z.mod_unique with (x0 / 16); [left; exact BB|rewrite E; rewrite DX at 1; ring]).
  split; [rewrite EG, Q; exact S1|]. split; [rewrite EG, M, S4, BZ; reflexivity|].
  clear S4 BZ. split.
  - split; [exact S2|]. assert (x' / 16 < 2^(4 * cap - 4)).
    { rewrite S1. apply Z.div_lt_upper_bound; [lia|]. change 16 with (2^4). rewrite <- Z.pow_add_r by lia. replace (4 + (4 * cap - 4)) with (4 * cap) by lia. lia. }
    assert (2^(4 * cap) = 16 * 2^(4 * cap - 4)). { change 16 with (2^4). rewrite <- Z.pow_add_r by lia. f_equal. lia. }
    pose proof (Z.div_mod x' 16 ltac:(lia)). pose proof (Z.mod_pos_bound x' 16 ltac:(lia)). lia.
  - intros Z0. assert (R0 : r = 0). { rewrite E in Z0. rewrite Z.add_comm, Z.mod_add, Z.mod_small in Z0 by lia. exact Z0. }
    rewrite (S3 R0), E, R0. lia.
Qed.
Lemma hmant_short ds : len ds <= cap -> hmant ds = hexnum ds.
Proof. intros H. unfold Strtod_Hex_Proof.hmant. rewrite firstn_all2, skipn_all2 by lia. reflexivity. Qed.

Open Scope R_scope.
Notation pow2 := (bpow radix2).
Notation FF := (FLT_exp (emin mw ew) (mw + 1)).
Lemma RN_id v : RN mw ew (RN mw ew v) = RN mw ew v.
Proof. unfold RN. assert (Valid_exp FF) by (apply FLT_exp_valid; unfold Prec_gt_0; lia). apply round_generic; [apply valid_rnd_N|]. apply generic_format_round; [assumption|apply valid_rnd_N]. Qed.
Lemma RN_mult n e : (Z.abs n <= 2^(mw + 1))%Z -> (emin mw ew <= e)%Z -> RN mw ew (IZR n * pow2 e) = IZR n * pow2 e.
Proof. intros Hn He. unfold RN. apply round_generic; [apply valid_rnd_N|]. apply FLT_multiple; lia. Qed.
Lemma emin_neg : (emin mw ew <= 0)%Z.
Proof. unfold emin. assert (0 < 2^(ew - 1))%Z by (apply Z.pow_pos_nonneg; lia). assert (2^1 <= 2^(ew-1))%Z by (apply Z.pow_le_mono_r; lia). change (2^1)%Z with 2%Z in *. lia. Qed.

(** enough bits, or few enough *)
Definition tame (y : Z) (v : R) : Prop := pow2 (emin mw ew + mw) <= v \/ exists u i, (y = u * 2^i /\ 0 <= i /\ 0 <= u < 2^(mw + 1))%Z.
Theorem hex_rounds ds n : Forall hex_char ds -> (ds = [] \/ exists c t, ds = c :: t /\ c <> 48%Z) -> is_i32 n ->
  let g := (4 * (len ds - Z.min cap (len ds)))%Z in tame (hexnum ds) (IZR (hexnum ds) * pow2 (n - g)) ->
  exists b, ldexp (of_bitset (hmant ds)) n = Ok b /\ rounds_to mw ew (IZR (hexnum ds) * pow2 (n - g)) false b.
Proof.
  intros Hd Dd Hn g HT. pose proof (hexnum_bound ds Hd) as HB.
  assert (X : (0 <= hmant ds < 2^(4 * cap))%Z).
  { destruct (Z.le_gt_cases (len ds) cap) as [S|S].
    - rewrite hmant_short by exact S. split; [lia|]. apply Z.lt_le_trans with (1 := proj2 HB). rewrite pow16 by lia. apply Z.pow_le_mono_r; lia.
    - apply hmant_split; assumption. }
  assert (R0 := Hof (hmant ds)). replace (hmant ds <? 0)%Z with false in R0 by lia.
  assert (FIN : Rabs (RN mw ew (IZR (hmant ds))) < pow2 (2^(ew - 1))).
  { apply Rle_lt_trans with (pow2 (4 * cap)); [|apply bpow_lt; exact Hfin]. unfold RN.
    apply abs_round_le_generic; [apply FLT_exp_valid; unfold Prec_gt_0; lia|apply valid_rnd_N|apply generic_format_bpow; unfold FLT_exp; pose proof emin_neg; lia|].
    rewrite Rabs_pos_eq by (apply IZR_le; lia). rewrite <- pow2_Z by lia. apply IZR_le. lia. }
  destruct R0 as (F1 & F2 & F3 & _). destruct (F3 FIN) as [FF1 V].
  destruct (Hld (of_bitset (hmant ds)) n Hn F1 FF1) as (b & E & R). exists b. split; [exact E|]. rewrite V, F2 in R.
  apply (rounds_of_RN mw ew _ _ _ _ R). clear R E b V FF1 F3 F2 F1.
  assert (EXACT : RN mw ew (IZR (hmant ds)) = IZR (hmant ds) -> (hexnum ds = hmant ds * 2^g)%Z -> RN mw ew (RN mw ew (IZR (hmant ds)) * pow2 n) = RN mw ew (IZR (hexnum ds) * pow2 (n - g))).
  { intros Q1 Q2. rewrite Q1, Q2, mult_IZR, pow2_Z by (unfold g; lia). f_equal. rewrite Rmult_assoc, <- bpow_plus. do 2 f_equal. lia. }
  assert (P1 : (0 < 2^(mw + 1))%Z) by (apply Z.pow_pos_nonneg; lia). assert (P0 : (0 < 2^mw)%Z) by (apply Z.pow_pos_nonneg; lia).
  assert (PP : (2^(mw + 1) = 2 * 2^mw)%Z) by (rewrite Z.pow_add_r by lia; change (2^1)%Z with 2%Z; lia). pose proof emin_neg as EN.
  (* few bits *)
  assert (FEW : (exists u i, (hexnum ds = u * 2^i /\ 0 <= i /\ 0 <= u < 2^(mw + 1))%Z) -> RN mw ew (RN mw ew (IZR (hmant ds)) * pow2 n) = RN mw ew (IZR (hexnum ds) * pow2 (n - g))).
  { intros (u & i & EU & Hi & Hu). destruct (Z.le_gt_cases (len ds) cap) as [S|S].
    - apply EXACT; rewrite hmant_short by exact S.
      + rewrite EU, mult_IZR, pow2_Z by lia. apply RN_mult; lia.
      + unfold g. replace (4 * (len ds - Z.min cap (len ds)))%Z with 0%Z by lia. rewrite Z.pow_0_r. lia.
    - destruct (hmant_split ds Hd S) as (_ & _ & _ & H4). assert (EG : g = (4 * (len ds - cap))%Z) by (unfold g; lia). rewrite <- EG in H4.
      assert (GI : (g <= i)%Z).
      { destruct Dd as [D0|(c & t & D0 & Nc)]; [rewrite D0 in S; cbn [length] in S; lia|].
        rewrite D0 in Hd. inversion Hd as [|? ? Hc Ht]; subst. pose proof (hexnum_pos c t Hc Ht Nc) as LB. rewrite pow16 in LB by lia.
        assert (LL : (len (c :: t) = len t + 1)%Z) by (cbn [length]; lia).
        destruct (Z.le_gt_cases g i) as [Q|Q]; [exact Q|exfalso].
        assert (U : (hexnum (c :: t) < 2^(mw + 1 + i))%Z). { rewrite EU, Z.pow_add_r by lia. apply Z.mul_lt_mono_pos_r; [apply Z.pow_pos_nonneg; lia|lia]. }
        assert (2^(mw + 1 + i) <= 2^(4 * len t))%Z by (apply Z.pow_le_mono_r; lia). lia. }
      assert (E4 : (hexnum ds = hmant ds * 2^g)%Z).
      { apply H4. rewrite EU. replace i with ((i - g) + g)%Z by lia. rewrite Z.pow_add_r, Z.mul_assoc by (unfold g in *; lia). apply Z.mod_mul. apply Z.pow_nonzero; unfold g in *; lia. }
      apply EXACT; [|exact E4].
      assert (EH : (hmant ds = u * 2^(i - g))%Z).
      { assert (PG : (0 < 2^g)%Z) by (apply Z.pow_pos_nonneg; unfold g in *; lia). apply (Z.mul_reg_r _ _ (2^g)); [lia|]. rewrite <- E4, EU, <- Z.mul_assoc, <- Z.pow_add_r by (unfold g in *; lia). do 2 f_equal. lia. }
      rewrite EH, mult_IZR, pow2_Z by lia. apply RN_mult; lia. }
  destruct (Z.lt_ge_cases (hmant ds) (2^(mw + 1))) as [SM|SM].
  { (* a small mantissa is short *)
    apply FEW. exists (hexnum ds), 0%Z. rewrite Z.pow_0_r, Z.mul_1_r. split; [reflexivity|]. split; [lia|]. split; [lia|].
    destruct (Z.le_gt_cases (len ds) cap) as [S|S]; [rewrite <- hmant_short by exact S; exact SM|exfalso].
    pose proof (proj1 (hmant_split ds Hd S)) as H1.
    destruct Dd as [D0|(c & t & D0 & Nc)]; [rewrite D0 in S; cbn [length] in S; lia|].
    rewrite D0 in Hd. inversion Hd as [|? ? Hc Ht]; subst. pose proof (hexnum_pos c t Hc Ht Nc) as LB. rewrite pow16 in LB by lia. set (dd := c :: t) in *.
    assert (LL : (len dd = len t + 1)%Z) by (unfold dd; cbn [length]; lia).
    assert (H5 : (2^(4 * cap - 8) <= hmant dd / 16)%Z).
    { rewrite H1. apply Z.div_le_lower_bound; [apply Z.pow_pos_nonneg; lia|]. rewrite <- Z.pow_add_r by lia. replace (4 * (len dd - cap) + 4 + (4 * cap - 8))%Z with (4 * len t)%Z by lia. exact LB. }
    assert (2^(mw + 1) <= 2^(4 * cap - 8) * 16)%Z. { change 16%Z with (2^4)%Z. rewrite <- Z.pow_add_r by lia. apply Z.pow_le_mono_r; lia. }
    pose proof (Z.mul_div_le (hmant dd) 16 ltac:(lia)). lia. }
  destruct HT as [HN|HF]; [|apply FEW; exact HF].
  set (k := (Z.log2 (hmant ds) - mw)%Z).
  assert (LG : (2^(Z.log2 (hmant ds)) <= hmant ds < 2^(Z.succ (Z.log2 (hmant ds))))%Z) by (apply Z.log2_spec; lia).
  assert (K1 : (1 <= k)%Z). { unfold k. assert (mw + 1 <= Z.log2 (hmant ds))%Z by (apply Z.log2_le_pow2; lia). lia. }
  assert (PK : (0 < 2^k)%Z) by (apply Z.pow_pos_nonneg; lia).
  assert (XK : (2^mw <= hmant ds / 2^k < 2^(mw + 1))%Z).
  { split; [apply Z.div_le_lower_bound; [lia|]|apply Z.div_lt_upper_bound; [lia|]]; rewrite <- Z.pow_add_r by lia.
    - replace (k + mw)%Z with (Z.log2 (hmant ds)) by (unfold k; lia). lia.
    - replace (k + (mw + 1))%Z with (Z.succ (Z.log2 (hmant ds))) by (unfold k; lia). lia. }
  assert (SAME : rne (hmant ds) (2^k) = rne (hexnum ds) (2^(g + k)) /\ (hmant ds / 2^k = hexnum ds / 2^(g + k))%Z /\ (0 <= g)%Z).
  { destruct (Z.le_gt_cases (len ds) cap) as [S|S].
    - rewrite hmant_short by exact S. replace g with 0%Z by (unfold g; lia). rewrite Z.add_0_l. repeat split; lia.
    - pose proof (proj1 (hmant_split ds Hd S)) as H1. assert (EG : g = (4 * (len ds - cap))%Z) by (unfold g; lia). rewrite <- EG in H1. assert (GP : (0 <= g)%Z) by lia.
      assert (K5 : (5 <= k)%Z).
      { destruct Dd as [D0|(c & t & D0 & Nc)]; [rewrite D0 in S; cbn [length] in S; lia|].
        assert (LB : (2^(4 * len t) <= hexnum ds)%Z). { rewrite D0 in Hd |- *. inversion Hd as [|? ? Hc Ht]; subst. pose proof (hexnum_pos c t Hc Ht Nc) as LB. rewrite pow16 in LB by lia. exact LB. }
        assert (LL : (len ds = len t + 1)%Z) by (rewrite D0; cbn [length]; lia).
        assert (H5 : (2^(4 * cap - 8) <= hmant ds / 16)%Z).
        { rewrite H1. apply Z.div_le_lower_bound; [apply Z.pow_pos_nonneg; lia|]. rewrite <- Z.pow_add_r by lia. replace (g + 4 + (4 * cap - 8))%Z with (4 * len t)%Z by lia. exact LB. }
        assert (2^(4 * cap - 4) = 2^(4 * cap - 8) * 16)%Z. { change 16%Z with (2^4)%Z. rewrite <- Z.pow_add_r by lia. f_equal. lia. }
        pose proof (Z.mul_div_le (hmant ds) 16 ltac:(lia)).
        assert (4 * cap - 4 <= Z.log2 (hmant ds))%Z by (apply Z.log2_le_pow2; lia). unfold k. lia. }
      pose proof (proj1 (proj2 (hmant_split ds Hd S))) as H2. rewrite <- EG in H2.
      destruct (rne_nibble (hmant ds) (hexnum ds) g k (proj1 X) (proj1 HB) GP K5 H1 H2) as [Q1 Q2]. split; [exact Q1|]. split; [exact Q2|exact GP]. }
  destruct SAME as (SR & SQ & G0).
  assert (NK : (emin mw ew <= n + k)%Z).
  { assert (H : IZR (hexnum ds) * pow2 (n - g) < pow2 (mw + 1 + k + n)).
    { replace (mw + 1 + k + n)%Z with ((g + k + (mw + 1)) + (n - g))%Z by lia. rewrite (bpow_plus radix2 _ (n - g)). apply Rmult_lt_compat_r; [apply bpow_gt_0|].
      rewrite <- pow2_Z by lia. apply IZR_lt. rewrite (Z.pow_add_r 2 (g + k) (mw + 1)) by lia.
      assert (PGK : (0 < 2^(g + k))%Z) by (apply Z.pow_pos_nonneg; lia).
      pose proof (Z.div_mod (hexnum ds) (2^(g + k)) ltac:(lia)) as DM. pose proof (Z.mod_pos_bound (hexnum ds) (2^(g + k)) PGK). rewrite <- SQ in DM. nia. }
    assert (H2 : pow2 (emin mw ew + mw) < pow2 (mw + 1 + k + n)) by lra. apply lt_bpow in H2. lia. }
  assert (RV : RN mw ew (IZR (hexnum ds) * pow2 (n - g)) = F2R (Float radix2 (rne (hexnum ds) (2^(n + k - (n - g)))) (n + k))).
  { change (IZR (hexnum ds) * pow2 (n - g)) with (F2R (Float radix2 (hexnum ds) (n - g))). apply RN_dyadic; try lia; replace (n + k - (n - g))%Z with (g + k)%Z by lia; rewrite <- SQ; [lia|left; lia]. }
  assert (RX : RN mw ew (IZR (hmant ds)) = F2R (Float radix2 (rne (hmant ds) (2^(k - 0))) k)).
  { replace (IZR (hmant ds)) with (F2R (Float radix2 (hmant ds) 0)) by (unfold F2R; cbn; lra). apply RN_dyadic; try lia; rewrite Z.sub_0_r; [lia|left; lia]. }
  assert (EQ : RN mw ew (IZR (hmant ds)) * pow2 n = RN mw ew (IZR (hexnum ds) * pow2 (n - g))).
  { rewrite RV, RX. replace (n + k - (n - g))%Z with (g + k)%Z by lia. rewrite Z.sub_0_r, SR. unfold F2R. cbn [Fnum Fexp]. rewrite Rmult_assoc, <- bpow_plus. do 2 f_equal. lia. }
  rewrite EQ. apply RN_id.
Qed.
End Round.
