(** Addition and subtraction of binary128. *)
From Coq Require Import Reals Lra.
From Flocq Require Import Core.
From Verif Require Import Base Bits FP FP_Proof Rne HW HW_Proof Int128_Model Int128_Proof Int128_Div_Proof
  Int128_Float_Model Int128_Float_Proof Tf_Model Tf_Proof Tf_Widen_Proof Tf_Narrow_Proof Tf_Int_Proof Tf_Mul_Proof.
Open Scope Z_scope.
Local Ltac Zify.zify_post_hook ::= idtac.

Notation em := (emin 112 15).

(** biased exponent, subnormals sharing the one of the smallest normals *)
Definition bexp (k : Z) : Z := Z.max (k / 2^112) 1.
(** significand with the implied bit *)
Definition sig (k : Z) : Z := k - (bexp k - 1) * 2^112.

Lemma sig_spec k : 0 <= k -> 1 <= bexp k /\ 0 <= sig k < 2^113 /\ k = (bexp k - 1) * 2^112 + sig k /\
  (2^112 <= k <-> 2^112 <= sig k) /\ (k < 2^112 -> bexp k = 1 /\ sig k = k) /\
  fmag 112 15 k = F2R (Float radix2 (sig k) (em + bexp k - 1)).
Proof.
  intros Hk. unfold sig, bexp.
  pose proof (Z.div_mod k (2^112) ltac:(lia)) as D. pose proof (Z.mod_pos_bound k (2^112) ltac:(lia)) as M.
  pose proof (Z.div_pos k (2^112) Hk ltac:(lia)) as DP.
  assert (S : 0 <= k - (Z.max (k / 2^112) 1 - 1) * 2^112 < 2^113 /\ (2^112 <= k <-> 2^112 <= k - (Z.max (k / 2^112) 1 - 1) * 2^112)) by lia.
  split; [lia|]. split; [lia|]. split; [lia|]. split; [lia|]. split; [lia|].
  unfold fmag. destruct (Z.eqb_spec (k / 2^112) 0) as [Z0|N0].
  - rewrite Z0. change (Z.max 0 1) with 1. f_equal. f_equal; lia.
  - rewrite Z.max_l by lia. f_equal. f_equal; lia.
Qed.

Lemma sig_land k : 0 <= k < 2^127 ->
  Z.lor (Z.land k (Z.shiftl 1 112 - 1)) (Z.shiftl (bool0 (Z.shiftr k 112)) 112) = sig k.
Proof.
  intros Hk. rewrite !shiftl_mul, shiftr_div, Z.mul_1_l by lia. rewrite land_ones_mod by lia.
  pose proof (Z.div_mod k (2^112) ltac:(lia)) as D. pose proof (Z.mod_pos_bound k (2^112) ltac:(lia)) as M.
  pose proof (Z.div_pos k (2^112) ltac:(lia) ltac:(lia)) as DP.
  rewrite Z.lor_comm, lor_mul_low by lia. unfold sig, bexp, bool0.
  destruct (Z.eqb_spec (k / 2^112) 0); cbn [negb b2z]; lia.
Qed.

Lemma sig_land15 k : 0 <= k < 2^127 ->
  Z.lor (u128 (Z.shiftl k 15)) (Z.shiftl (bool0 (Z.shiftr k 112)) 127) = sig k * 2^15.
Proof.
  intros Hk. rewrite !shiftl_mul, shiftr_div by lia. unfold u128.
  pose proof (Z.div_mod k (2^112) ltac:(lia)) as D. pose proof (Z.mod_pos_bound k (2^112) ltac:(lia)) as M.
  pose proof (Z.div_pos k (2^112) ltac:(lia) ltac:(lia)) as DP.
  set (e := k / 2^112) in *. set (m := k mod 2^112) in *.
  pose proof (Z.div_mod e 2 ltac:(lia)) as De. pose proof (Z.mod_pos_bound e 2 ltac:(lia)) as Me.
  assert (E : (k * 2^15) mod 2^128 = (e mod 2) * 2^127 + m * 2^15) by (symmetry; apply Z.mod_unique with (e / 2); lia).
  rewrite E. rewrite <- (lor_mul_low (m * 2^15) (e mod 2) 127) by lia.
  rewrite Z.lor_comm, Z.lor_assoc. unfold bool0.
  assert (L : Z.lor (b2z (negb (e =? 0)) * 2^127) (e mod 2 * 2^127) = b2z (negb (e =? 0)) * 2^127).
  { assert (C : e mod 2 = 0 \/ e mod 2 = 1) by lia. destruct (Z.eqb_spec e 0) as [Z0|N0]; cbn [negb b2z].
    - rewrite Z0. reflexivity.
    - destruct C as [-> | ->]; reflexivity. }
  rewrite L, lor_mul_low by lia. unfold sig, bexp. fold e. destruct (Z.eqb_spec e 0); cbn [negb b2z]; lia.
Qed.

Lemma bexp_lor k : 0 <= k -> Z.lor (Z.shiftr k 112) (lnot0 (Z.shiftr k 112)) = bexp k.
Proof.
  intros Hk. rewrite shiftr_div by lia. unfold lnot0, bexp. pose proof (Z.div_pos k (2^112) Hk ltac:(lia)).
  destruct (Z.eqb_spec (k / 2^112) 0) as [->|N]; [reflexivity|]. cbn [b2z]. rewrite Z.lor_0_r. lia.
Qed.

(** the packing lemma specialised *)
Lemma pack M E t : 0 <= M -> E <= t -> em <= t -> M < 2^(113 + (t - E)) -> (2^(112 + (t - E)) <= M \/ t = em) ->
  rounds_to 112 15 (F2R (Float radix2 M E)) false (Z.min ((t - em) * 2^112 + rne M (2^(t - E))) (finf 112 15)).
Proof.
  intros HM HE Ht HU HL.
  pose proof (rounds_pack 112 15 eq_refl eq_refl false M E t HM HE Ht) as RP. cbv iota in RP. unfold with_sign in RP. rewrite Z.add_0_l in RP.
  assert (P : 0 < 2^(t - E)) by (apply pow2_pos; lia). rewrite !Z.pow_add_r in HU, HL by lia.
  apply RP.
  - apply Z.div_lt_upper_bound; [exact P|]. change (112 + 1) with 113. lia.
  - destruct HL as [HL|HL]; [left; apply Z.div_le_lower_bound; lia|right; exact HL].
Qed.

Lemma F2R_add m1 m2 e1 e2 : e2 <= e1 -> (F2R (Float radix2 m1 e1) + F2R (Float radix2 m2 e2))%R = F2R (Float radix2 (m1 * 2^(e1 - e2) + m2) e2).
Proof.
  intros H. unfold F2R. cbn [Fnum Fexp]. rewrite plus_IZR, mult_IZR, <- bpow2 by lia.
  replace (bpow radix2 e1) with (bpow radix2 (e1 - e2) * bpow radix2 e2)%R by (rewrite <- bpow_plus; f_equal; lia). ring.
Qed.
Lemma F2R_sub m1 m2 e1 e2 : e2 <= e1 -> (F2R (Float radix2 m1 e1) - F2R (Float radix2 m2 e2))%R = F2R (Float radix2 (m1 * 2^(e1 - e2) - m2) e2).
Proof.
  intros H. unfold Rminus. rewrite <- F2R_Zopp. rewrite F2R_add by assumption. f_equal.
Qed.

Lemma compose_sum_ok q e : 0 <= e -> 2^112 <= q <= 2^113 -> compose_sum q e = Z.min (e * 2^112 + q) (finf 112 15).
Proof.
  intros He Hq. unfold compose_sum. change INF128 with (finf 112 15). change (finf 112 15) with (0x7FFF * 2^112).
  rewrite shiftl_mul by lia. destruct (Z.ltb_spec e 0x7FFE) as [L|L].
  - unfold u128. rewrite Z.mod_small by lia. lia.
  - assert (0x7FFE * 2^112 <= e * 2^112) by (apply Z.mul_le_mono_nonneg_r; lia). lia.
Qed.

(** the round-up test on a fraction scaled to 128 bits *)
Lemma round_test i f s : 0 <= i -> 1 <= s <= 127 -> 0 <= f < 2^s ->
  let r := f * 2^(128 - s) in
  (0x8000000000000000 <? Z.lor (Z.lor (Z.shiftr r 64) (Z.land i 1)) (bool0 (Z.land r 0xFFFFFFFFFFFFFFFF))) = (2^s <? 2 * f + i mod 2).
Proof.
  intros Hi Hs Hf r.
  assert (P1 : 2^128 = 2^s * 2^(128 - s)) by (rewrite <- Z.pow_add_r by lia; f_equal; lia).
  assert (PC : 0 < 2^(128 - s)) by (apply pow2_pos; lia). assert (PS : 0 < 2^s) by (apply pow2_pos; lia).
  assert (BR : 0 <= r < 2^128) by (unfold r; rewrite P1; split; [apply Z.mul_nonneg_nonneg|apply Z.mul_lt_mono_pos_r]; lia).
  pose proof (Z.mod_pos_bound i 2 ltac:(lia)) as MQ.
  assert (TEST2 : (2^128 <? 2 * r + i mod 2) = (2^s <? 2 * f + i mod 2)).
  { unfold r. rewrite P1. set (c := 2^(128 - s)) in *. set (d := 2^s) in *. set (b := i mod 2) in *. clearbody c d b. clear - PC PS MQ Hf.
    destruct (Z.lt_trichotomy (2 * f) d) as [C|[C|C]].
    - assert (2 * (f * c) + c <= d * c) by (replace (2 * (f * c) + c) with ((2 * f + 1) * c) by ring; apply Z.mul_le_mono_nonneg_r; lia). lia.
    - assert (2 * (f * c) = d * c) by (rewrite <- C; ring). lia.
    - assert (d * c + c <= 2 * (f * c)) by (replace (d * c + c) with ((d + 1) * c) by ring; rewrite Z.mul_assoc; apply Z.mul_le_mono_nonneg_r; lia). lia. }
  rewrite <- TEST2. clearbody r. clear TEST2 P1 PC PS Hf Hs.
  change 0xFFFFFFFFFFFFFFFF with (2^64 - 1). rewrite land_1, land_ones_mod by lia. rewrite shiftr_div by lia.
  change 0x8000000000000000 with (2^63).
  pose proof (Z.div_mod r (2^64) ltac:(lia)) as DR. pose proof (Z.mod_pos_bound r (2^64) ltac:(lia)) as MR.
  replace (i mod 2) with (b2z (negb (i mod 2 =? 0))) at 1 by (destruct (Z.eqb_spec (i mod 2) 0); cbn; lia).
  unfold bool0. rewrite <- Z.lor_assoc. rewrite (lor_bool _ (negb (r mod 2^64 =? 0))).
  assert (E : b2z (negb (i mod 2 =? 0)) + (if negb (r mod 2^64 =? 0) then 1 - b2z (negb (i mod 2 =? 0)) mod 2 else 0)
     = b2z (negb (i mod 2 =? 0) || negb (r mod 2^64 =? 0))).
  { destruct (i mod 2 =? 0), (r mod 2^64 =? 0); reflexivity. }
  rewrite E, lor_bool.
  assert (M0 : r / 2^64 = 2^63 -> (r / 2^64) mod 2 = 0) by (intros ->; reflexivity).
  pose proof (Z.div_mod (r / 2^64) 2 ltac:(lia)) as D2. pose proof (Z.mod_pos_bound (r / 2^64) 2 ltac:(lia)) as M2.
  destruct (Z.eqb_spec (i mod 2) 0), (Z.eqb_spec (r mod 2^64) 0); cbn [negb orb]; lia.
Qed.

Lemma rne_add n d q : 0 < d -> rne (q * (2 * d) + n) d = 2 * q + rne n d.
Proof.
  intros Hd. rewrite !rne_unfold.
  replace (q * (2 * d) + n) with (n + (2 * q) * d) by ring. rewrite Z.div_add, Z.mod_add by lia.
  replace (n / d + 2 * q) with (n / d + q * 2) by ring. rewrite Z.mod_add by lia. ring.
Qed.

Lemma add_mag a b : 0 <= b <= a -> a < finf 112 15 -> (a < 2^112 \/ bexp a <> bexp b) ->
  exists D, addtf_add a b = Ok D /\ rounds_to 112 15 (fmag 112 15 a + fmag 112 15 b) false D.
Proof.
  intros Hb Ha HX. change (finf 112 15) with (0x7FFF * 2^112) in Ha.
  destruct (sig_spec a ltac:(lia)) as (A1 & A2 & A3 & A4 & A5 & A6).
  destruct (sig_spec b ltac:(lia)) as (B1 & B2 & B3 & B4 & B5 & B6).
  unfold addtf_add. cbv zeta. rewrite (shiftl_mul 1 112), Z.mul_1_l by lia.
  destruct (Z.ltb_spec a (2^112)) as [L|L].
  { eexists. split; [reflexivity|]. destruct (A5 L) as [EA SA]. destruct (B5 ltac:(lia)) as [EB SB].
    rewrite A6, B6, F2R_add by lia. rewrite EA, EB, SA, SB. rewrite Z.sub_diag. change (2^0) with 1.
    pose proof (pack (a * 1 + b) (em + 1 - 1) em ltac:(lia) ltac:(lia) ltac:(lia)) as P.
    replace (em - (em + 1 - 1)) with 0 in P by lia. rewrite Z.sub_diag in P. change (2^(113 + 0)) with (2^113) in P. change (2^0) with 1 in P. rewrite rne_1 in P.
    specialize (P ltac:(lia) ltac:(lia)). unfold u128. rewrite Z.mod_small by lia.
    change (finf 112 15) with (0x7FFF * 2^112) in P.
    replace (Z.min (0 * 2^112 + (a * 1 + b)) (0x7FFF * 2^112)) with (a + b) in P by lia. exact P. }
  assert (EXA : a / 2^112 = bexp a) by (unfold bexp; assert (1 <= a / 2^112) by (apply Z.div_le_lower_bound; lia); lia).
  assert (LE : bexp b <= bexp a) by (unfold bexp; pose proof (Z.div_le_mono b a (2^112) ltac:(lia) ltac:(lia)); lia).
  assert (BX : bexp a < 0x7FFF) by (rewrite <- EXA; apply Z.div_lt_upper_bound; lia).
  rewrite (bexp_lor b) by lia.
  rewrite (shiftr_div a 112) by lia. rewrite EXA.
  set (s := bexp a - bexp b). assert (Hs : 1 <= s < 0x7FFF) by lia.
  unfold u32. rewrite (Z.mod_small s) by lia.
  rewrite A6, B6, F2R_add by lia. replace (em + bexp a - 1 - (em + bexp b - 1)) with s by lia.
  assert (PS : 0 < 2^s) by (apply pow2_pos; lia).
  destruct (Z.leb_spec 114 s) as [G|G].
  { exists a. split; [reflexivity|].
    assert (GP : 2^114 <= 2^s) by (apply Z.pow_le_mono_r; lia).
    pose proof (pack (sig a * 2^s + sig b) (em + bexp b - 1) (em + bexp a - 1)) as P.
    replace (em + bexp a - 1 - (em + bexp b - 1)) with s in P by lia. rewrite !Z.pow_add_r in P by lia.
    assert (R : rne (sig a * 2^s + sig b) (2^s) = sig a).
    { rewrite rne_unfold. replace (sig a * 2^s + sig b) with (sig b + sig a * 2^s) by ring. rewrite Z.div_add, Z.mod_add by lia.
      rewrite Z.div_small, Z.mod_small by lia. rewrite Z.add_0_l. pose proof (Z.mod_pos_bound (sig a) 2 ltac:(lia)).
      replace (2^s <? 2 * sig b + sig a mod 2) with false by lia. cbn [b2z]. lia. }
    rewrite R in P. replace (em + bexp a - 1 - em) with (bexp a - 1) in P by lia.
    change (finf 112 15) with (0x7FFF * 2^112) in P. rewrite <- A3 in P. rewrite Z.min_l in P by lia.
    assert (2^112 * 2^s <= sig a * 2^s) by (apply Z.mul_le_mono_nonneg_r; lia).
    assert ((sig a + 1) * 2^s <= 2^113 * 2^s) by (apply Z.mul_le_mono_nonneg_r; lia).
    apply P; lia. }
  assert (E1 : Z.lor (Z.land a (2^112 - 1)) (2^112) = sig a).
  { rewrite <- (sig_land a) by lia. rewrite (shiftl_mul 1), Z.mul_1_l by lia. f_equal. rewrite shiftr_div by lia. rewrite EXA.
    unfold bool0. replace (bexp a =? 0) with false by lia. reflexivity. }
  assert (E2 : Z.lor (Z.land b (2^112 - 1)) (Z.shiftl (bool0 (Z.shiftr b 112)) 112) = sig b).
  { rewrite <- (sig_land b) by lia. rewrite (shiftl_mul 1), Z.mul_1_l by lia. reflexivity. }
  rewrite E1, E2. clear E1 E2. rewrite rsh_ok, lsh_ok by lia. cbn [bind].
  set (h := sig b / 2^s). set (f := sig b mod 2^s).
  assert (DB : sig b = 2^s * h + f) by (apply Z.div_mod; lia). assert (FB : 0 <= f < 2^s) by (apply Z.mod_pos_bound; lia).
  assert (HB : 0 <= h < 2^112).
  { unfold h. split; [apply Z.div_pos; lia|]. apply Z.div_lt_upper_bound; [lia|].
    assert (2^1 <= 2^s) by (apply Z.pow_le_mono_r; lia). lia. }
  assert (ER : (sig b * 2^(128 - s)) mod 2^128 = f * 2^(128 - s)).
  { replace (2^128) with (2^s * 2^(128 - s)) by (rewrite <- Z.pow_add_r by lia; f_equal; lia).
    pose proof (pow2_pos (128 - s) ltac:(lia)). apply Z.mul_mod_distr_r; lia. }
  rewrite ER. set (i := sig a + h).
  assert (HI : 2^112 <= i < 3 * 2^112) by (unfold i; lia).
  replace (u128 i) with i by (symmetry; apply Z.mod_small; lia).
  assert (EM : sig a * 2^s + sig b = i * 2^s + f) by (unfold i; rewrite DB; ring). rewrite EM.
  assert (B0 : 2^112 * 2^s <= i * 2^s) by (apply Z.mul_le_mono_nonneg_r; lia).
  assert (DI : (i * 2^s + f) / 2^s = i) by (replace (i * 2^s + f) with (f + i * 2^s) by ring; rewrite Z.div_add, Z.div_small by lia; lia).
  assert (MI : (i * 2^s + f) mod 2^s = f) by (replace (i * 2^s + f) with (f + i * 2^s) by ring; rewrite Z.mod_add, Z.mod_small by lia; lia).
  rewrite (shiftl_mul (2^112) 1) by lia.
  destruct (Z.ltb_spec i (2^112 * 2^1)) as [C|C].
  - eexists. split; [reflexivity|]. rewrite (round_test i f s) by lia.
    assert (R : rne (i * 2^s + f) (2^s) = i + b2z (2^s <? 2 * f + i mod 2)) by (rewrite rne_unfold, DI, MI; reflexivity).
    set (u := b2z (2^s <? 2 * f + i mod 2)) in *. assert (0 <= u <= 1) by (unfold u, b2z; destruct (_ <? _); lia).
    unfold u128. rewrite Z.mod_small by lia. rewrite compose_sum_ok by lia.
    pose proof (pack (i * 2^s + f) (em + bexp b - 1) (em + bexp a - 1)) as P.
    replace (em + bexp a - 1 - (em + bexp b - 1)) with s in P by lia. rewrite !Z.pow_add_r in P by lia. rewrite R in P.
    replace (em + bexp a - 1 - em) with (bexp a - 1) in P by lia.
    assert ((i + 1) * 2^s <= 2^113 * 2^s) by (apply Z.mul_le_mono_nonneg_r; lia).
    apply P; lia.
  - eexists. split; [reflexivity|].
    assert (PS1 : 2^(s + 1) = 2^s * 2) by (rewrite Z.pow_add_r by lia; lia).
    assert (R : rne (i * 2^s + f) (2^(s + 1)) = Z.shiftr i 1 + Z.land i (Z.lor (Z.land (Z.shiftr i 1) 1) (bool0 (f * 2^(128 - s))))).
    { rewrite shiftr_div by lia. change (2^1) with 2. rewrite land_1.
      pose proof (Z.div_mod i 2 ltac:(lia)) as Di. pose proof (Z.mod_pos_bound i 2 ltac:(lia)) as Mi.
      set (h2 := i / 2) in *. set (bi := i mod 2) in *.
      assert (BF : bool0 (f * 2^(128 - s)) = b2z (negb (f =? 0))).
      { unfold bool0. f_equal. f_equal. pose proof (pow2_pos (128 - s) ltac:(lia)). destruct (Z.eqb_spec f 0) as [->|]; [reflexivity|].
        assert (f * 2^(128 - s) <> 0) by (apply Z.neq_mul_0; lia). lia. }
      rewrite BF.
      assert (D' : (i * 2^s + f) / 2^(s+1) = h2) by (symmetry; apply Z.div_unique with (bi * 2^s + f); rewrite PS1; [|rewrite Di at 1; ring]; left;
        assert (bi * 2^s <= 1 * 2^s) by (apply Z.mul_le_mono_nonneg_r; lia); assert (0 <= bi * 2^s) by (apply Z.mul_nonneg_nonneg; lia); lia).
      assert (M' : (i * 2^s + f) mod 2^(s+1) = bi * 2^s + f) by (symmetry; apply Z.mod_unique with h2; rewrite PS1; [|rewrite Di at 1; ring]; left;
        assert (bi * 2^s <= 1 * 2^s) by (apply Z.mul_le_mono_nonneg_r; lia); assert (0 <= bi * 2^s) by (apply Z.mul_nonneg_nonneg; lia); lia).
      rewrite rne_unfold, D', M', PS1. f_equal.
      pose proof (Z.mod_pos_bound h2 2 ltac:(lia)) as Mh.
      assert (LL : Z.lor (h2 mod 2) (b2z (negb (f =? 0))) = b2z (negb (h2 mod 2 =? 0) || negb (f =? 0))).
      { assert (Ch : h2 mod 2 = 0 \/ h2 mod 2 = 1) by lia. destruct Ch as [-> | ->]; destruct (f =? 0); reflexivity. }
      rewrite LL.
      assert (LA : forall c : bool, Z.land i (b2z c) = if c then bi else 0) by (intros []; cbn [b2z]; [apply land_1|apply Z.land_0_r]).
      rewrite LA. assert (Cb : bi = 0 \/ bi = 1) by lia. destruct Cb as [-> | ->].
      - rewrite Z.mul_0_l. replace (2^s * 2 <? 2 * (0 + f) + h2 mod 2) with false by lia. cbn [b2z]. destruct (_ || _); reflexivity.
      - rewrite Z.mul_1_l. destruct (Z.eqb_spec (h2 mod 2) 0), (Z.eqb_spec f 0); cbn [negb orb];
          (replace (2^s * 2 <? 2 * (2^s + f) + h2 mod 2) with true by lia; reflexivity) ||
          (replace (2^s * 2 <? 2 * (2^s + f) + h2 mod 2) with false by lia; reflexivity). }
    rewrite <- R.
    assert (RB : 2^112 <= rne (i * 2^s + f) (2^(s+1)) <= 2^113).
    { assert (i * 2^s + f <= 2^113 * 2^(s+1)) by (rewrite PS1; assert ((i + 1) * 2^s <= 2^114 * 2^s) by (apply Z.mul_le_mono_nonneg_r; lia); lia).
      assert (2^112 * 2^(s+1) <= i * 2^s + f) by (rewrite PS1; assert (2^113 * 2^s <= i * 2^s) by (apply Z.mul_le_mono_nonneg_r; lia); lia).
      apply rne_range; [rewrite PS1|]; lia. }
    replace (u128 (rne (i * 2^s + f) (2^(s+1)))) with (rne (i * 2^s + f) (2^(s+1))) by (symmetry; apply Z.mod_small; lia).
    rewrite compose_sum_ok by lia.
    pose proof (pack (i * 2^s + f) (em + bexp b - 1) (em + bexp a)) as P.
    replace (em + bexp a - (em + bexp b - 1)) with (s + 1) in P by lia.
    replace (em + bexp a - em) with (bexp a) in P by lia.
    rewrite (Z.pow_add_r 2 113 (s+1)), (Z.pow_add_r 2 112 (s+1)) in P by lia.
    rewrite PS1 in *.
    assert ((i + 1) * 2^s <= 2^114 * 2^s) by (apply Z.mul_le_mono_nonneg_r; lia).
    assert (2^113 * 2^s <= i * 2^s) by (apply Z.mul_le_mono_nonneg_r; lia).
    apply P; lia.
Qed.

