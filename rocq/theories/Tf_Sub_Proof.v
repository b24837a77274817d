(** Subtraction of binary128 magnitudes. *)
From Coq Require Import Reals Lra.
From Flocq Require Import Core.
From Verif Require Import Base Bits FP FP_Proof Rne HW HW_Proof Int128_Model Int128_Proof Int128_Div_Proof
  Int128_Float_Model Int128_Float_Proof Tf_Model Tf_Proof Tf_Widen_Proof Tf_Narrow_Proof Tf_Int_Proof Tf_Mul_Proof Tf_Add_Proof.
Open Scope Z_scope.
Local Ltac Zify.zify_post_hook ::= idtac.

(** the jammed difference *)
Lemma jam_sub A X s : 0 <= s -> A mod 2 = 0 -> 
  A - Z.lor (X / 2^s) (b2z (negb (X mod 2^s =? 0))) = Z.lor ((A * 2^s - X) / 2^s) (b2z (negb ((A * 2^s - X) mod 2^s =? 0))).
Proof.
  intros Hs HA. assert (PS : 0 < 2^s) by (apply pow2_pos; lia).
  pose proof (Z.div_mod X (2^s) ltac:(lia)) as DX. pose proof (Z.mod_pos_bound X (2^s) PS) as MX.
  set (h := X / 2^s) in *. set (f := X mod 2^s) in *.
  destruct (Z.eqb_spec f 0) as [F0|F0].
  - assert (D' : (A * 2^s - X) / 2^s = A - h) by (symmetry; apply Z.div_unique with 0; lia).
    assert (M' : (A * 2^s - X) mod 2^s = 0) by (symmetry; apply Z.mod_unique with (A - h); lia).
    rewrite D', M'. cbn. rewrite !Z.lor_0_r. reflexivity.
  - assert (D' : (A * 2^s - X) / 2^s = A - h - 1) by (symmetry; apply Z.div_unique with (2^s - f); lia).
    assert (M' : (A * 2^s - X) mod 2^s = 2^s - f) by (symmetry; apply Z.mod_unique with (A - h - 1); lia).
    rewrite D', M'. rewrite !lor_bool. replace (2^s - f =? 0) with false by lia. cbn [negb].
    pose proof (Z.div_mod A 2 ltac:(lia)) as DA. rewrite HA in DA.
    pose proof (Z.div_mod h 2 ltac:(lia)) as Dh. pose proof (Z.mod_pos_bound h 2 ltac:(lia)) as Mh.
    assert (MM : (A - h - 1) mod 2 = 1 - h mod 2) by (symmetry; apply Z.mod_unique with (A / 2 - h / 2 - 1); lia).
    rewrite MM. lia.
Qed.

(** where subtraction rounds to the wrong neighbour *)
Definition sub114 a b : Prop := bexp a - bexp b = 114 /\ a mod 2^112 = 0 /\ 2^112 < sig b.

Lemma float_int i L : 0 < i -> 112 <= L <= 127 -> 2^L <= i < 2^(L + 1) ->
  floatuntitf i = Ok ((L - 112 - em) * 2^112 + rne i (2^(L - 112))).
Proof.
  intros Hi HL HB.
  assert (I128 : i < 2^128) by (assert (2^(L+1) <= 2^128) by (apply Z.pow_le_mono_r; lia); lia).
  destruct (floatuntitf_ok i ltac:(lia)) as (f & E & R). rewrite E. f_equal.
  apply (rounds_unique 112 15 (IZR i) false); try reflexivity; [exact R|].
  assert (V : IZR i = F2R (Float radix2 i 0)) by (unfold F2R; cbn [Fnum Fexp]; change (bpow radix2 0) with 1%R; ring).
  rewrite V. pose proof (pack i 0 (L - 112) ltac:(lia) ltac:(lia) ltac:(unfold emin; lia)) as P.
  rewrite Z.sub_0_r in P. replace (113 + (L - 112)) with (L + 1) in P by lia. replace (112 + (L - 112)) with L in P by lia.
  specialize (P ltac:(lia) ltac:(lia)).
  assert (PL : 0 < 2^(L - 112)) by (apply pow2_pos; lia).
  assert (RB : 2^112 <= rne i (2^(L - 112)) <= 2^113).
  { apply rne_range; [lia|]. rewrite <- !Z.pow_add_r by lia. replace (112 + (L - 112)) with L by lia. replace (113 + (L - 112)) with (L + 1) by lia. lia. }
  rewrite Z.min_l in P; [exact P|]. change (finf 112 15) with (0x7FFF * 2^112). unfold emin. lia.
Qed.

Lemma float_int_exact M k : 0 < M < 2^113 -> 0 <= k <= 15 -> exists L, 0 <= L <= 112 /\ 2^L <= M < 2^(L+1) /\
  floatuntitf (M * 2^k) = Ok ((L + k - 112 - em) * 2^112 + M * 2^(112 - L)).
Proof.
  intros HM Hk. pose proof (Z.log2_spec M ltac:(lia)) as LS. pose proof (Z.log2_nonneg M) as L0.
  assert (LU : Z.log2 M <= 112) by (assert (Z.log2 M < 113) by (apply Z.log2_lt_pow2; lia); lia).
  set (L := Z.log2 M) in *. exists L. unfold Z.succ in LS. split; [lia|]. split; [lia|].
  assert (PK : 0 < 2^k) by (apply pow2_pos; lia). assert (PK2 : 2^k <= 2^15) by (apply Z.pow_le_mono_r; lia).
  assert (B : 0 < M * 2^k < 2^128).
  { split; [apply Z.mul_pos_pos; lia|]. assert (M * 2^k <= (2^113 - 1) * 2^15) by (apply Z.mul_le_mono_nonneg; lia). lia. }
  destruct (floatuntitf_ok (M * 2^k) ltac:(lia)) as (f & E & R). rewrite E. f_equal.
  apply (rounds_unique 112 15 (IZR (M * 2^k)) false); try reflexivity; [exact R|].
  set (N := M * 2^(112 - L)).
  assert (V : IZR (M * 2^k) = F2R (Float radix2 N (L + k - 112))).
  { unfold F2R, N. cbn [Fnum Fexp]. rewrite !mult_IZR. rewrite <- !bpow2 by lia. rewrite Rmult_assoc, <- bpow_plus. f_equal. f_equal. lia. }
  assert (NB : 2^112 <= N < 2^113).
  { unfold N. pose proof (pow2_pos (112 - L) ltac:(lia)). replace (2^112) with (2^L * 2^(112 - L)) by (rewrite <- Z.pow_add_r by lia; f_equal; lia).
    replace (2^113) with (2^(L+1) * 2^(112 - L)) by (rewrite <- Z.pow_add_r by lia; f_equal; lia).
    split; [apply Z.mul_le_mono_nonneg_r|apply Z.mul_lt_mono_pos_r]; lia. }
  rewrite V. pose proof (pack N (L + k - 112) (L + k - 112) ltac:(lia) ltac:(lia) ltac:(unfold emin; lia)) as P.
  rewrite Z.sub_diag in P. change (2^(113 + 0)) with (2^113) in P. change (2^(112 + 0)) with (2^112) in P. change (2^0) with 1 in P. rewrite rne_1 in P.
  specialize (P ltac:(lia) ltac:(lia)). rewrite Z.min_l in P; [exact P|]. change (finf 112 15) with (0x7FFF * 2^112). unfold emin. lia.
Qed.

Lemma sub_mag a b : 0 <= b < a -> a < finf 112 15 -> (a < 2 * 2^112 \/ bexp a <> bexp b) -> ~ sub114 a b ->
  exists D, addtf_sub a b = Ok D /\ rounds_to 112 15 (fmag 112 15 a - fmag 112 15 b) false D.
Proof.
  intros Hb Ha HX NS. change (finf 112 15) with (0x7FFF * 2^112) in Ha.
  destruct (sig_spec a ltac:(lia)) as (A1 & A2 & A3 & A4 & A5 & A6).
  destruct (sig_spec b ltac:(lia)) as (B1 & B2 & B3 & B4 & B5 & B6).
  unfold addtf_sub. rewrite (shiftl_mul 2 112) by lia.
  destruct (Z.ltb_spec a (2 * 2^112)) as [L|L].
  { eexists. split; [reflexivity|].
    assert (EA : bexp a = 1) by (unfold bexp; assert (a / 2^112 < 2) by (apply Z.div_lt_upper_bound; lia); lia).
    assert (EB : bexp b = 1) by (unfold bexp; assert (b / 2^112 < 2) by (apply Z.div_lt_upper_bound; lia); lia).
    rewrite A6, B6, F2R_sub by lia. rewrite EA, EB in *. rewrite Z.sub_diag. change (2^0) with 1.
    pose proof (pack (sig a * 1 - sig b) (em + 1 - 1) em ltac:(lia) ltac:(lia) ltac:(lia)) as P.
    replace (em - (em + 1 - 1)) with 0 in P by lia. rewrite Z.sub_diag in P. change (2^(113 + 0)) with (2^113) in P. change (2^0) with 1 in P. rewrite rne_1 in P.
    specialize (P ltac:(lia) ltac:(lia)). unfold u128. rewrite Z.mod_small by lia.
    change (finf 112 15) with (0x7FFF * 2^112) in P.
    replace (Z.min (0 * 2^112 + (sig a * 1 - sig b)) (0x7FFF * 2^112)) with (a - b) in P by lia. exact P. }
  assert (EXA : a / 2^112 = bexp a) by (unfold bexp; assert (1 <= a / 2^112) by (apply Z.div_le_lower_bound; lia); lia).
  assert (LE : bexp b <= bexp a) by (unfold bexp; pose proof (Z.div_le_mono b a (2^112) ltac:(lia) ltac:(lia)); lia).
  assert (BX : 2 <= bexp a < 0x7FFF) by (rewrite <- EXA; split; [apply Z.div_le_lower_bound|apply Z.div_lt_upper_bound]; lia).
  rewrite (bexp_lor b) by lia.
  rewrite (shiftr_div a 112) by lia. rewrite EXA.
  set (s := bexp a - bexp b) in *. assert (Hs : 1 <= s < 0x7FFF) by lia.
  unfold u32. rewrite (Z.mod_small s) by lia.
  rewrite A6, B6, F2R_sub by lia. replace (em + bexp a - 1 - (em + bexp b - 1)) with s by lia.
  assert (PS : 0 < 2^s) by (apply pow2_pos; lia).
  assert (SA : 2^112 <= sig a) by lia.
  set (M := sig a * 2^s - sig b).
  assert (LO : 2^112 * 2^s <= sig a * 2^s) by (apply Z.mul_le_mono_nonneg_r; lia).
  assert (UP : (sig a + 1) * 2^s <= 2^113 * 2^s) by (apply Z.mul_le_mono_nonneg_r; lia).
  assert (PS2 : 2^s = 2 * 2^(s - 1)) by (rewrite <- Z.pow_succ_r by lia; f_equal; lia).
  assert (PS3 : 0 < 2^(s - 1)) by (apply pow2_pos; lia).
  destruct (Z.leb_spec 114 s) as [G|G].
  { exists a. split; [reflexivity|].
    assert (GP : 2^114 <= 2^s) by (apply Z.pow_le_mono_r; lia).
    destruct (Z.lt_ge_cases M (2^112 * 2^s)) as [ML|ML].
    - assert (EQ : sig a = 2^112).
      { destruct (Z.eq_dec (sig a) (2^112)) as [|NE]; [assumption|exfalso].
        assert ((2^112 + 1) * 2^s <= sig a * 2^s) by (apply Z.mul_le_mono_nonneg_r; lia). unfold M in ML. lia. }
      assert (R : rne M (2^(s - 1)) = 2 * sig a).
      { unfold M. replace (sig a * 2^s - sig b) with (- sig b + (2 * sig a) * 2^(s-1)) by (rewrite PS2; ring).
        destruct (Z.eq_dec (sig b) 0) as [B0|B0].
        { rewrite B0. replace (- 0 + 2 * sig a * 2^(s-1)) with ((2 * sig a) * 2^(s-1)) by ring. apply rne_exact. lia. }
        rewrite rne_unfold, Z.div_add, Z.mod_add by lia.
        assert (ED : - sig b / 2^(s-1) = -1) by (symmetry; apply Z.div_unique with (2^(s-1) - sig b); lia).
        assert (EM : (- sig b) mod 2^(s-1) = 2^(s-1) - sig b) by (symmetry; apply Z.mod_unique with (-1); lia).
        rewrite ED, EM. replace ((-1 + 2 * sig a) mod 2) with 1 by (apply Z.mod_unique with (sig a - 1); lia).
        assert (2 * sig b <= 2^(s-1)).
        { destruct (Z.eq_dec s 114) as [S4|S4].
          - assert (a mod 2^112 = 0) by (symmetry; apply Z.mod_unique with (bexp a); lia).
            assert (~ 2^112 < sig b) by (intros K; apply NS; unfold sub114; fold s; auto).
            rewrite S4. change (2^(114 - 1)) with (2 * 2^112). lia.
          - assert (2^115 <= 2^s) by (apply Z.pow_le_mono_r; lia). lia. }
        replace (2^(s-1) <? 2 * (2^(s-1) - sig b) + 1) with true by lia. cbn [b2z]. lia. }
      pose proof (pack M (em + bexp b - 1) (em + bexp a - 2)) as P.
      replace (em + bexp a - 2 - (em + bexp b - 1)) with (s - 1) in P by lia. rewrite !Z.pow_add_r in P by lia. rewrite R in P.
      replace (em + bexp a - 2 - em) with (bexp a - 2) in P by lia.
      change (finf 112 15) with (0x7FFF * 2^112) in P.
      replace ((bexp a - 2) * 2^112 + 2 * sig a) with a in P by lia. rewrite Z.min_l in P by lia.
      unfold M in *. apply P; lia.
    - assert (R : rne M (2^s) = sig a).
      { unfold M. replace (sig a * 2^s - sig b) with (- sig b + sig a * 2^s) by ring.
        destruct (Z.eq_dec (sig b) 0) as [B0|B0].
        { rewrite B0. replace (- 0 + sig a * 2^s) with (sig a * 2^s) by ring. apply rne_exact. lia. }
        rewrite rne_unfold, Z.div_add, Z.mod_add by lia.
        assert (ED : - sig b / 2^s = -1) by (symmetry; apply Z.div_unique with (2^s - sig b); lia).
        assert (EM : (- sig b) mod 2^s = 2^s - sig b) by (symmetry; apply Z.mod_unique with (-1); lia).
        rewrite ED, EM. pose proof (Z.mod_pos_bound (-1 + sig a) 2 ltac:(lia)).
        replace (2^s <? 2 * (2^s - sig b) + (-1 + sig a) mod 2) with true by lia. cbn [b2z]. lia. }
      pose proof (pack M (em + bexp b - 1) (em + bexp a - 1)) as P.
      replace (em + bexp a - 1 - (em + bexp b - 1)) with s in P by lia. rewrite !Z.pow_add_r in P by lia. rewrite R in P.
      replace (em + bexp a - 1 - em) with (bexp a - 1) in P by lia.
      change (finf 112 15) with (0x7FFF * 2^112) in P.
      rewrite <- A3 in P. rewrite Z.min_l in P by lia.
      unfold M in *. apply P; lia. }
  assert (E1 : Z.lor (u128 (Z.shiftl a 15)) (Z.shiftl 1 127) = sig a * 2^15).
  { rewrite <- (sig_land15 a) by lia. f_equal. rewrite shiftr_div by lia. rewrite EXA.
    unfold bool0. replace (bexp a =? 0) with false by lia. reflexivity. }
  rewrite E1, sig_land15 by lia. clear E1. rewrite rsh_ok, lsh_ok by lia. cbn [bind].
  assert (ER : (sig b * 2^15 * 2^(128 - s)) mod 2^128 = (sig b * 2^15) mod 2^s * 2^(128 - s)).
  { replace (2^128) with (2^s * 2^(128 - s)) by (rewrite <- Z.pow_add_r by lia; f_equal; lia).
    pose proof (pow2_pos (128 - s) ltac:(lia)). apply Z.mul_mod_distr_r; lia. }
  rewrite ER. clear ER.
  assert (BF : bool0 ((sig b * 2^15) mod 2^s * 2^(128 - s)) = b2z (negb ((sig b * 2^15) mod 2^s =? 0))).
  { unfold bool0. f_equal. f_equal. pose proof (pow2_pos (128 - s) ltac:(lia)). destruct (Z.eqb_spec ((sig b * 2^15) mod 2^s) 0) as [->|]; [reflexivity|].
    assert ((sig b * 2^15) mod 2^s * 2^(128 - s) <> 0) by (apply Z.neq_mul_0; lia). lia. }
  rewrite BF. clear BF.
  rewrite jam_sub by (try lia; replace (sig a * 2^15) with (sig a * 2^14 * 2) by ring; apply Z.mod_mul; lia).
  replace (sig a * 2^15 * 2^s - sig b * 2^15) with (M * 2^15) by (unfold M; ring).
  set (i := Z.lor (M * 2^15 / 2^s) (b2z (negb ((M * 2^15) mod 2^s =? 0)))).
  assert (MP : 0 < M < 2^113 * 2^s) by (unfold M; lia).
  assert (EXA15 : forall t', 0 <= t' -> s = 1 -> M * 2^15 / 2^s = M * 2^14 /\ (M * 2^15) mod 2^s = 0).
  { intros t' _ ->. change (2^1) with 2. replace (M * 2^15) with (M * 2^14 * 2) by ring. rewrite Z.div_mul, Z.mod_mul by lia. auto. }
  assert (IB : 0 < i < 2^128).
  { unfold i. rewrite lor_bool. assert (U : M * 2^15 / 2^s < 2^128) by (apply Z.div_lt_upper_bound; lia).
    assert (LL : 1 <= M * 2^15 / 2^s).
    { apply Z.div_le_lower_bound; [lia|]. destruct (Z.eq_dec s 1) as [->|NE1]; [lia|].
      assert (PS4 : 2^s = 4 * 2^(s-2)) by (change 4 with (2^2); rewrite <- Z.pow_add_r by lia; f_equal; lia).
      assert (1 <= 2^(s-2)) by (pose proof (pow2_pos (s-2) ltac:(lia)); lia). unfold M. lia. }
    pose proof (Z.div_mod (M * 2^15 / 2^s) 2 ltac:(lia)). pose proof (Z.mod_pos_bound (M * 2^15 / 2^s) 2 ltac:(lia)).
    destruct (negb _); lia. }
  replace (u128 i) with i by (symmetry; apply Z.mod_small; lia).
  destruct (Z.lt_ge_cases i (2^126)) as [C|C].
  - (* heavy cancellation: exact *)
    assert (S1 : s = 1).
    { destruct (Z.eq_dec s 1) as [|NE1]; [assumption|exfalso].
      assert (2^126 <= M * 2^15 / 2^s).
      { apply Z.div_le_lower_bound; [lia|].
        assert (PS4 : 2^s = 4 * 2^(s-2)) by (change 4 with (2^2); rewrite <- Z.pow_add_r by lia; f_equal; lia).
        assert (1 <= 2^(s-2)) by (pose proof (pow2_pos (s-2) ltac:(lia)); lia). unfold M. lia. }
      unfold i in C. rewrite lor_bool in C. pose proof (Z.mod_pos_bound (M * 2^15 / 2^s) 2 ltac:(lia)). destruct (negb _); lia. }
    destruct (EXA15 0 ltac:(lia) S1) as [Q1 Q2].
    assert (EI : i = M * 2^14) by (unfold i; rewrite Q1, Q2; cbn; apply Z.lor_0_r).
    assert (M112 : 0 < M < 2^112) by lia. rewrite EI.
    destruct (float_int_exact M 14 ltac:(lia) ltac:(lia)) as (l & Hl & HB & ->). cbn [bind].
    assert (NB : 2^112 <= M * 2^(112 - l) < 2^113).
    { pose proof (pow2_pos (112 - l) ltac:(lia)). replace (2^112) with (2^l * 2^(112 - l)) by (rewrite <- Z.pow_add_r by lia; f_equal; lia).
      replace (2^113) with (2^(l+1) * 2^(112 - l)) by (rewrite <- Z.pow_add_r by lia; f_equal; lia).
      split; [apply Z.mul_le_mono_nonneg_r|apply Z.mul_lt_mono_pos_r]; lia. }
    set (N := M * 2^(112 - l)) in *.
    unfold s128. rewrite (sgn_id 128) by (unfold emin; lia). rewrite shiftl_mul by lia. rewrite (sgn_id 128) by lia.
    assert (EC : (l + 14 - 112 - em) * 2^112 + N + (bexp a - 0x407E) * 2^112 = (bexp a + l - 114) * 2^112 + N) by (unfold emin; lia).
    rewrite EC. rewrite chk_i128_ok by lia. cbn [bind]. rewrite (shiftl_mul 1), Z.mul_1_l by lia.
    assert (EB1 : em + bexp b - 1 = em + bexp a - 2) by lia. rewrite EB1.
    destruct (Z.leb_spec (2^112) ((bexp a + l - 114) * 2^112 + N)) as [T|T].
    + eexists. split; [reflexivity|]. assert (HT : 0 <= bexp a + l - 114) by lia.
      unfold u128. rewrite Z.mod_small by lia.
      assert (V : F2R (Float radix2 M (em + bexp a - 2)) = F2R (Float radix2 N (em + (bexp a + l - 114)))).
      { unfold F2R, N. cbn [Fnum Fexp]. rewrite mult_IZR, <- bpow2 by lia. rewrite Rmult_assoc, <- bpow_plus. f_equal. f_equal. lia. }
      rewrite V.
      pose proof (pack N (em + (bexp a + l - 114)) (em + (bexp a + l - 114)) ltac:(lia) ltac:(lia) ltac:(lia)) as P.
      rewrite Z.sub_diag in P. change (2^(113 + 0)) with (2^113) in P. change (2^(112 + 0)) with (2^112) in P. change (2^0) with 1 in P. rewrite rne_1 in P.
      specialize (P ltac:(lia) ltac:(lia)). change (finf 112 15) with (0x7FFF * 2^112) in P.
      replace (em + (bexp a + l - 114) - em) with (bexp a + l - 114) in P by lia. rewrite Z.min_l in P by lia. exact P.
    + assert (HT : bexp a + l - 114 < 0) by lia.
      assert (P0 : 0 < 2^(bexp a - 2)) by (apply pow2_pos; lia).
      assert (SM : 0 < M * 2^(bexp a - 2) < 2^112).
      { split; [apply Z.mul_pos_pos; lia|]. apply Z.lt_le_trans with (2^(l+1) * 2^(bexp a - 2)); [apply Z.mul_lt_mono_pos_r; lia|].
        rewrite <- Z.pow_add_r by lia. apply Z.pow_le_mono_r; lia. }
      exists (M * 2^(bexp a - 2)). split.
      * destruct (Z.ltb_spec (bexp a) 16) as [T2|T2].
        -- rewrite rsh_ok by lia. f_equal.
           replace (M * 2^14) with (M * 2^(bexp a - 2) * 2^(16 - bexp a)) by (rewrite <- Z.mul_assoc, <- Z.pow_add_r by lia; f_equal; f_equal; lia).
           pose proof (pow2_pos (16 - bexp a) ltac:(lia)). apply Z.div_mul. lia.
        -- rewrite lsh_ok by lia. f_equal.
           replace (M * 2^14 * 2^(bexp a - 16)) with (M * 2^(bexp a - 2)) by (rewrite <- Z.mul_assoc, <- Z.pow_add_r by lia; f_equal; f_equal; lia).
           apply Z.mod_small. lia.
      * assert (V : F2R (Float radix2 M (em + bexp a - 2)) = F2R (Float radix2 (M * 2^(bexp a - 2)) em)).
        { unfold F2R. cbn [Fnum Fexp]. rewrite mult_IZR, <- bpow2 by lia. rewrite Rmult_assoc, <- bpow_plus. f_equal. f_equal. lia. }
        rewrite V. pose proof (pack (M * 2^(bexp a - 2)) em em ltac:(lia) ltac:(lia) ltac:(lia)) as P.
        rewrite Z.sub_diag in P. change (2^(113 + 0)) with (2^113) in P. change (2^0) with 1 in P. rewrite rne_1 in P.
        specialize (P ltac:(lia) ltac:(lia)). change (finf 112 15) with (0x7FFF * 2^112) in P. rewrite Z.min_l in P by lia. exact P.
  - (* at most one bit cancelled *)
    assert (HL : exists L, 126 <= L <= 127 /\ 2^L <= i < 2^(L+1)).
    { destruct (Z.lt_ge_cases i (2^127)); [exists 126|exists 127]; lia. }
    destruct HL as (l & Hl & HB). rewrite (float_int i l) by lia. cbn [bind].
    assert (PL : 0 < 2^(l - 112)) by (apply pow2_pos; lia).
    assert (R : rne i (2^(l - 112)) = rne M (2^(s + l - 127))).
    { unfold i. rewrite <- (rne_sticky (M * 2^15) s (l - 112)) by lia.
      replace (2^(s + (l - 112))) with (2^(s + l - 127) * 2^15) by (rewrite <- Z.pow_add_r by lia; f_equal; lia).
      apply rne_scale; [lia|]. apply pow2_pos; lia. }
    assert (RB : 2^112 <= rne i (2^(l - 112)) <= 2^113).
    { apply rne_range; [lia|]. rewrite <- !Z.pow_add_r by lia. replace (112 + (l - 112)) with l by lia. replace (113 + (l - 112)) with (l + 1) by lia. lia. }
    assert (MB : 2^(112 + (s + l - 127)) <= M < 2^(113 + (s + l - 127))).
    { assert (DM : M * 2^15 = 2^s * (M * 2^15 / 2^s) + (M * 2^15) mod 2^s) by (apply Z.div_mod; lia).
      pose proof (Z.mod_pos_bound (M * 2^15) (2^s) PS) as MM.
      assert (QB : 2^l <= M * 2^15 / 2^s < 2^(l+1)).
      { unfold i in HB. rewrite lor_bool in HB. set (q := M * 2^15 / 2^s) in *.
        pose proof (Z.div_mod q 2 ltac:(lia)). pose proof (Z.mod_pos_bound q 2 ltac:(lia)).
        assert (2^l = 2 * 2^(l-1)) by (rewrite <- Z.pow_succ_r by lia; f_equal; lia).
        destruct (negb _); lia. }
      assert (EL : 2^(112 + (s + l - 127)) * 2^15 = 2^l * 2^s) by (rewrite <- !Z.pow_add_r by lia; f_equal; lia).
      assert (EU : 2^(113 + (s + l - 127)) * 2^15 = 2^(l+1) * 2^s) by (rewrite <- !Z.pow_add_r by lia; f_equal; lia).
      set (q := M * 2^15 / 2^s) in *.
      assert (2^l * 2^s <= q * 2^s) by (apply Z.mul_le_mono_nonneg_r; lia).
      assert ((q + 1) * 2^s <= 2^(l+1) * 2^s) by (apply Z.mul_le_mono_nonneg_r; lia). lia. }
    unfold s128. rewrite (sgn_id 128) by (unfold emin; lia). rewrite shiftl_mul by lia. rewrite (sgn_id 128) by lia.
    set (q := rne i (2^(l-112))) in *.
    assert (EC : (l - 112 - em) * 2^112 + q + (bexp a - 0x407E) * 2^112 = (bexp a + l - 128) * 2^112 + q) by (unfold emin; lia).
    rewrite EC. rewrite chk_i128_ok by lia. cbn [bind]. rewrite (shiftl_mul 1), Z.mul_1_l by lia.
    replace (2^112 <=? (bexp a + l - 128) * 2^112 + q) with true by lia.
    eexists. split; [reflexivity|]. unfold u128. rewrite Z.mod_small by lia.
    pose proof (pack M (em + bexp b - 1) (em + (bexp a + l - 128))) as P.
    replace (em + (bexp a + l - 128) - (em + bexp b - 1)) with (s + l - 127) in P by lia.
    replace (em + (bexp a + l - 128) - em) with (bexp a + l - 128) in P by lia.
    rewrite <- R in P. specialize (P ltac:(lia) ltac:(lia) ltac:(lia) ltac:(lia) ltac:(lia)).
    rewrite Z.min_l in P; [exact P|]. change (finf 112 15) with (0x7FFF * 2^112). lia.
Qed.
