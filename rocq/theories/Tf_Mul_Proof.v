(** Multiplication of binary128. *)
From Coq Require Import Reals Lra.
From Flocq Require Import Core.
From Verif Require Import Base Bits FP FP_Proof Rne HW HW_Proof Int128_Model Int128_Proof Int128_Div_Proof
  Int128_Float_Model Int128_Float_Proof Tf_Model Tf_Proof Tf_Widen_Proof Tf_Narrow_Proof.
Open Scope Z_scope.
Local Ltac Zify.zify_post_hook ::= idtac.

Lemma land_1 x : Z.land x 1 = x mod 2.
Proof. exact (land_ones_mod x 1 ltac:(lia)). Qed.

(** Packing a 128-bit significand with its top bit set. *)
Lemma compose_product_ok exp S : 2^127 <= S < 2^128 ->
  compose_product exp S = Ok (Z.min (if 0 <? exp then (exp - 1) * 2^112 + rne S (2^15) else rne S (2^(16 - exp))) (finf 112 15)).
Proof.
  intros HS. unfold compose_product. change INF128 with (finf 112 15). change (finf 112 15) with (0x7FFF * 2^112).
  assert (R15 : 2^112 <= rne S (2^15) <= 2^113) by (apply rne_range; lia).
  destruct (Z.leb_spec 0x7FFF exp) as [L|L].
  { replace (0 <? exp) with true by lia. f_equal.
    assert (0x7FFE * 2^112 <= (exp - 1) * 2^112) by (apply Z.mul_le_mono_nonneg_r; lia). lia. }
  destruct (Z.ltb_spec 0 exp) as [P|P].
  { f_equal. rewrite Z.min_l by lia. rewrite !shiftr_div, !shiftl_mul by lia.
    assert (ET : u128 (S * 2^1) = (S - 2^127) * 2) by (unfold u128; symmetry; apply Z.mod_unique with 1; lia).
    rewrite ET. change 0xFFFF with (2^16 - 1). rewrite land_1, land_ones_mod by lia.
    assert (DM : (S - 2^127) * 2 = 2^16 * ((S - 2^127) / 2^15) + 2 * ((S - 2^127) mod 2^15)).
    { pose proof (Z.div_mod (S - 2^127) (2^15) ltac:(lia)). lia. }
    pose proof (Z.mod_pos_bound (S - 2^127) (2^15) ltac:(lia)) as MB.
    assert (E1 : (S - 2^127) * 2 / 2^16 = (S - 2^127) / 2^15) by (symmetry; apply Z.div_unique with (2 * ((S - 2^127) mod 2^15)); lia).
    assert (E2 : ((S - 2^127) * 2) mod 2^16 = 2 * ((S - 2^127) mod 2^15)) by (symmetry; apply Z.mod_unique with ((S - 2^127) / 2^15); lia).
    rewrite E1, E2.
    assert (E3 : (S - 2^127) / 2^15 = S / 2^15 - 2^112).
    { replace (S - 2^127) with (S + (- 2^112) * 2^15) by lia. rewrite Z.div_add by lia. lia. }
    assert (E4 : (S - 2^127) mod 2^15 = S mod 2^15).
    { replace (S - 2^127) with (S + (- 2^112) * 2^15) by lia. apply Z.mod_add. lia. }
    rewrite E3, E4.
    assert (E5 : (S / 2^15 - 2^112) mod 2 = (S / 2^15) mod 2).
    { replace (S / 2^15 - 2^112) with (S / 2^15 + (- 2^111) * 2) by lia. apply Z.mod_add. lia. }
    rewrite E5. rewrite (rne_test S 15) in * by lia.
    change 0x8000 with (2^15). set (adj := b2z _) in *.
    assert (B1 : 2^112 <= S / 2^15 < 2^113) by (split; [apply Z.div_le_lower_bound|apply Z.div_lt_upper_bound]; lia).
    rewrite lor_mul_low by lia. unfold u128. rewrite Z.mod_small by lia. lia. }
  destruct (Z.leb_spec (-112) exp) as [Q|Q].
  { rewrite (shiftr_div S 16) by lia. rewrite rsh_ok, lsh_ok by lia. cbn [bind]. f_equal.
    set (s := 16 - exp).
    assert (PS : 2^s = 2^16 * 2^(- exp)) by (rewrite <- Z.pow_add_r by lia; f_equal; unfold s; lia).
    assert (P0 : 0 < 2^(- exp)) by (apply pow2_pos; lia).
    rewrite Z.div_div by lia. rewrite <- PS.
    assert (P1 : 2^128 = 2^s * 2^(112 + exp)) by (rewrite <- Z.pow_add_r by lia; f_equal; unfold s; lia).
    assert (P2 : 0 < 2^(112 + exp)) by (apply pow2_pos; lia).
    assert (P3 : 0 < 2^s) by (apply pow2_pos; lia).
    assert (ER : (S * 2^(112 + exp)) mod 2^128 = (S mod 2^s) * 2^(112 + exp)) by (rewrite P1; apply Z.mul_mod_distr_r; lia).
    rewrite ER. clear ER.
    assert (BQ : 0 <= S / 2^s < 2^112).
    { split; [apply Z.div_pos; lia|]. apply Z.div_lt_upper_bound; [lia|]. assert (2^16 * 1 <= 2^s) by (rewrite PS; apply Z.mul_le_mono_nonneg_l; lia). lia. }
    rewrite rne_unfold. pose proof (Z.mod_pos_bound S (2^s) P3) as MB.
    set (q := S / 2^s) in *. set (f := S mod 2^s) in *. set (r := f * 2^(112 + exp)).
    change 0xFFFFFFFFFFFFFFFF with (2^64 - 1). rewrite land_1, land_ones_mod by lia.
    change 0x8000000000000000 with (2^63). rewrite (shiftr_div r) by lia.
    assert (BR : 0 <= r < 2^128) by (unfold r; rewrite P1; split; [apply Z.mul_nonneg_nonneg|apply Z.mul_lt_mono_pos_r]; lia).
    pose proof (Z.div_mod r (2^64) ltac:(lia)) as DR. pose proof (Z.mod_pos_bound r (2^64) ltac:(lia)) as MR.
    pose proof (Z.mod_pos_bound q 2 ltac:(lia)) as MQ.
    assert (TEST : (2^63 <? Z.lor (r / 2^64) (b2z (negb (q mod 2 =? 0) || negb (r mod 2^64 =? 0)))) = (2^128 <? 2 * r + q mod 2)).
    { rewrite lor_bool.
      assert (M0 : r / 2^64 = 2^63 -> (r / 2^64) mod 2 = 0) by (intros ->; reflexivity).
      pose proof (Z.div_mod (r / 2^64) 2 ltac:(lia)) as D2. pose proof (Z.mod_pos_bound (r / 2^64) 2 ltac:(lia)) as M2.
      destruct (Z.eqb_spec (q mod 2) 0), (Z.eqb_spec (r mod 2^64) 0); cbn [negb orb]; lia. }
    rewrite TEST.
    assert (TEST2 : (2^128 <? 2 * r + q mod 2) = (2^s <? 2 * f + q mod 2)).
    { unfold r. rewrite P1. set (c := 2^(112 + exp)) in *. set (d := 2^s) in *. set (b := q mod 2) in *.
      destruct (Z.lt_trichotomy (2 * f) d) as [C|[C|C]].
      - assert (2 * (f * c) + c <= d * c) by (replace (2 * (f * c) + c) with ((2 * f + 1) * c) by ring; apply Z.mul_le_mono_nonneg_r; lia). lia.
      - assert (2 * (f * c) = d * c) by (rewrite <- C; ring). lia.
      - assert (d * c + c <= 2 * (f * c)) by (replace (d * c + c) with ((d + 1) * c) by ring; rewrite Z.mul_assoc; apply Z.mul_le_mono_nonneg_r; lia). lia. }
    rewrite TEST2. assert (0 <= b2z (2^s <? 2 * f + q mod 2) <= 1) by (unfold b2z; destruct (2^s <? 2 * f + q mod 2); lia).
    unfold u128. rewrite Z.mod_small by lia. lia. }
  f_equal.
  assert (2^129 <= 2^(16 - exp)) by (apply Z.pow_le_mono_r; lia).
  rewrite rne_0 by lia. lia.
Qed.

Lemma sig_bits n : - 2^127 <= n < 2^127 -> Z.lor (u128 (Z.shiftl n 15)) SIGN128 = (2^112 + n mod 2^112) * 2^15.
Proof.
  intros Hn. unfold u128, SIGN128. rewrite !shiftl_mul, Z.mul_1_l by lia.
  pose proof (Z.div_mod n (2^112) ltac:(lia)) as D. pose proof (Z.mod_pos_bound n (2^112) ltac:(lia)) as M.
  set (e := n / 2^112) in *. set (m := n mod 2^112) in *.
  assert (E : (n * 2^15) mod 2^128 = (e mod 2) * 2^127 + m * 2^15).
  { symmetry. pose proof (Z.div_mod e 2 ltac:(lia)). pose proof (Z.mod_pos_bound e 2 ltac:(lia)).
    apply Z.mod_unique with (e / 2); lia. }
  rewrite E. pose proof (Z.mod_pos_bound e 2 ltac:(lia)).
  rewrite <- (lor_mul_low (m * 2^15) (e mod 2) 127) by lia.
  rewrite Z.lor_comm, Z.lor_assoc. replace (Z.lor (2^127) (e mod 2 * 2^127)) with (1 * 2^127).
  - rewrite lor_mul_low by lia. lia.
  - assert (C : e mod 2 = 0 \/ e mod 2 = 1) by lia. destruct C as [-> | ->]; reflexivity.
Qed.

Lemma pack_product S M g E exp : 15 <= g ->
  2^(112 + g) <= M < 2^(113 + g) -> E = emin 112 15 + exp - 1 - g ->
  (forall s, 15 <= s -> rne S (2^s) = rne M (2^(g - 15 + s))) ->
  rounds_to 112 15 (F2R (Float radix2 M E)) false
    (Z.min (if 0 <? exp then (exp - 1) * 2^112 + rne S (2^15) else rne S (2^(16 - exp))) (finf 112 15)).
Proof.
  intros Hg HM HE RR.
  pose proof (rounds_pack 112 15 eq_refl eq_refl false M E) as RP. cbv iota in RP.
  set (em := emin 112 15) in *. clearbody em.
  set (t := Z.max em (em + exp - 1)). specialize (RP t).
  set (d := t - (em + exp - 1)). assert (Hd : 0 <= d) by (unfold d, t; lia).
  assert (HtE : t - E = g + d) by (unfold d; lia).
  assert (PG : 0 < 2^g) by (apply pow2_pos; lia). assert (PD : 1 <= 2^d) by (pose proof (pow2_pos d Hd); lia).
  rewrite !Z.pow_add_r in HM by lia. rewrite HtE in RP.
  assert (M0 : 0 <= M) by (clear - HM PG; lia).
  specialize (RP M0 ltac:(lia) ltac:(unfold t; lia)).
  assert (U : M / 2^(g + d) < 2^(112 + 1)).
  { apply Z.div_lt_upper_bound; [apply pow2_pos; lia|]. rewrite Z.pow_add_r by lia.
    assert (2^g * 1 <= 2^g * 2^d) by (apply Z.mul_le_mono_nonneg_l; lia). clear - H HM. lia. }
  specialize (RP U).
  assert (L : 2^112 <= M / 2^(g + d) \/ t = em).
  { destruct (Z.eq_dec d 0) as [D0|D0].
    - left. apply Z.div_le_lower_bound; [apply pow2_pos; lia|]. rewrite D0, Z.add_0_r. clear - HM. lia.
    - right. unfold d, t in *. lia. }
  specialize (RP L).
  replace (if 0 <? exp then (exp - 1) * 2^112 + rne S (2^15) else rne S (2^(16 - exp)))
    with ((t - em) * 2^112 + rne M (2^(g + d))).
  - unfold with_sign in RP. rewrite Z.add_0_l in RP. exact RP.
  - clear - RR Hg. destruct (Z.ltb_spec 0 exp) as [X|X].
    + rewrite RR by lia. replace (g - 15 + 15) with (g + d) by (unfold d, t; lia). f_equal. f_equal. unfold t. lia.
    + rewrite RR by lia. replace (g - 15 + (16 - exp)) with (g + d) by (unfold d, t; lia).
      replace (t - em) with 0 by (unfold t; lia). lia.
Qed.

Lemma multf_kernel_ok ka kb a b : 0 < ka < finf 112 15 -> 0 < kb < finf 112 15 ->
  norm_spec 112 15 ka a -> norm_spec 112 15 kb b -> - 2^127 <= a < 2^127 -> - 2^127 <= b < 2^127 ->
  exists D, multf_kernel a b = Ok D /\ rounds_to 112 15 (fmag 112 15 ka * fmag 112 15 kb) false D.
Proof.
  intros Ha Hb (A1 & A2 & _) (B1 & B2 & _) Ra Rb.
  unfold multf_kernel. rewrite !sig_bits by assumption.
  pose proof (Z.mod_pos_bound a (2^112) ltac:(lia)) as MA. pose proof (Z.mod_pos_bound b (2^112) ltac:(lia)) as MB.
  set (qa := 2^112 + a mod 2^112) in *. set (qb := 2^112 + b mod 2^112) in *.
  assert (HQA : 2^112 <= qa < 2^113) by (unfold qa; lia). assert (HQB : 2^112 <= qb < 2^113) by (unfold qb; lia).
  set (M := qa * qb).
  assert (HM : 2^224 <= M < 2^226).
  { unfold M. split; [change (2^224) with (2^112 * 2^112)|change (2^226) with (2^113 * 2^113)].
    - apply Z.mul_le_mono_nonneg; lia.
    - apply Z.mul_lt_mono_nonneg; lia. }
  pose proof (umulti4_ok (qa * 2^15) (qb * 2^15) ltac:(unfold is_u128; lia) ltac:(unfold is_u128; lia)) as UM.
  destruct (umulti4 (qa * 2^15) (qb * 2^15)) as [low high']. destruct UM as (UM & UL & UH). unfold is_u128 in UL, UH.
  set (P := M * 2^30).
  assert (EP : high' * 2^128 + low = P) by (rewrite UM; unfold P, M; ring).
  assert (ELo : low = P mod 2^128) by (apply Z.mod_unique with high'; lia).
  assert (EHi : high' = P / 2^128) by (apply Z.div_unique with low; lia).
  subst low high'. clear EP UM UL UH. rewrite !shiftr_div by lia.
  set (ea := a / 2^112) in *. set (eb := b / 2^112) in *.
  set (high := P / 2^128). assert (HH : 2^126 <= high < 2^128) by (split; [apply Z.div_le_lower_bound|apply Z.div_lt_upper_bound]; unfold P; lia).
  set (carry := bool0 (high / 2^127)).
  assert (HC : carry = b2z (2^127 <=? high)).
  { unfold carry, bool0. f_equal. destruct (Z.leb_spec (2^127) high) as [L|L].
    - assert (1 <= high / 2^127) by (apply Z.div_le_lower_bound; lia). lia.
    - rewrite Z.div_small by lia. reflexivity. }
  set (A := Z.lor high (bool0 (P mod 2^128))).
  assert (HA : high <= A <= high + 1 /\ (2^127 <= high <-> 2^127 <= A) /\ A < 2^128).
  { unfold A, bool0. rewrite lor_bool. pose proof (Z.div_mod high 2 ltac:(lia)). pose proof (Z.mod_pos_bound high 2 ltac:(lia)).
    destruct (negb _); lia. }
  set (S := u128 (Z.shiftl A (1 - carry))).
  assert (HS : 2^127 <= S < 2^128 /\ S = A * 2^(1 - carry)).
  { unfold S. rewrite HC. destruct (Z.leb_spec (2^127) high) as [L|L]; cbn [b2z].
    - rewrite Z.shiftl_0_r. unfold u128. rewrite Z.mod_small by lia. lia.
    - rewrite shiftl_mul by lia. unfold u128. rewrite Z.mod_small by lia. lia. }
  destruct HS as [HS ES]. rewrite (compose_product_ok _ S HS). set (exp := ea + eb - 0x3FFF + carry).
  eexists. split; [reflexivity|].
  assert (C01 : 0 <= carry <= 1) by (rewrite HC; destruct (2^127 <=? high); cbn; lia).
  (* the exact product *)
  assert (EV : (fmag 112 15 ka * fmag 112 15 kb = F2R (Float radix2 M (2 * emin 112 15 - 2 + ea + eb)))%R).
  { rewrite A2, B2. unfold F2R. cbn [Fnum Fexp]. unfold M. rewrite mult_IZR.
    replace (2 * emin 112 15 - 2 + ea + eb) with ((emin 112 15 + ea - 1) + (emin 112 15 + eb - 1)) by lia.
    rewrite bpow_plus. ring. }
  rewrite EV. set (E := 2 * emin 112 15 - 2 + ea + eb) in *.
  assert (RR : forall s, 15 <= s -> rne S (2^s) = rne M (2^((112 + carry) - 15 + s))).
  { intros s Hs. rewrite ES. rewrite <- (rne_scale M _ (2^30)) by (try lia; apply pow2_pos; lia). fold P.
    rewrite <- Z.pow_add_r by lia.
    assert (EA : A = Z.lor (P / 2^128) (b2z (negb (P mod 2^128 =? 0)))) by reflexivity.
    assert (CC : carry = 0 \/ carry = 1) by lia. clearbody A carry. clear - Hs EA CC HM. destruct CC as [-> | ->].
    - change (1 - 0) with 1. replace (2^s) with (2^(s-1) * 2^1) by (rewrite <- Z.pow_add_r by lia; f_equal; lia).
      rewrite rne_scale by (try lia; apply pow2_pos; lia). rewrite EA, <- (rne_sticky P 128) by (try lia; unfold P; lia).
      f_equal. f_equal. lia.
    - change (1 - 1) with 0. rewrite Z.pow_0_r, Z.mul_1_r. rewrite EA, <- (rne_sticky P 128) by (try lia; unfold P; lia).
      f_equal. f_equal. lia. }
  assert (HMB : 2^(112 + (112 + carry)) <= M < 2^(113 + (112 + carry))).
  { assert (DP : P = 2^128 * high + P mod 2^128) by (apply Z.div_mod; lia). pose proof (Z.mod_pos_bound P (2^128) ltac:(lia)) as MP.
    rewrite HC. destruct (Z.leb_spec (2^127) high) as [L|L]; cbn [b2z]; unfold P in *; clear - DP MP L HM.
    - change (113 + (112 + 1)) with 226. change (112 + (112 + 1)) with 225. lia.
    - change (113 + (112 + 0)) with 225. change (112 + (112 + 0)) with 224. lia. }
  apply (pack_product S M (112 + carry)); try assumption; [lia|unfold E, exp; clear; unfold emin; lia].
Qed.

(** IEEE product, as a relation on patterns. *)
Definition mul_spec (mw ew a b r : Z) : Prop :=
  let s := xorb (fneg mw ew a) (fneg mw ew b) in
  if fisnan mw ew a || fisnan mw ew b || (fisinf mw ew a && (fabsb mw ew b =? 0)) || ((fabsb mw ew a =? 0) && fisinf mw ew b)
  then fbits mw ew r /\ fisnan mw ew r = true
  else if fisinf mw ew a || fisinf mw ew b then r = with_sign mw ew s (finf mw ew)
  else rounds_to mw ew (fval mw ew a * fval mw ew b) s r.

Lemma lor_bit111 x (b : bool) : finf 112 15 <= x < 2^127 -> let r := Z.lor x (Z.shiftl (b2z b) 111) in
  x <= r < 2^127 /\ (b = false -> r = x) /\ (b = true -> finf 112 15 < r).
Proof.
  intros Hx. change (finf 112 15) with (0x7FFF * 2^112) in *. cbv zeta. rewrite shiftl_mul by lia.
  destruct b; cbn [b2z].
  - rewrite Z.mul_1_l, lor_bit by lia. pose proof (Z.mod_pos_bound (x / 2^111) 2 ltac:(lia)) as M2.
    pose proof (Z.div_mod x (2^111) ltac:(lia)) as D1. pose proof (Z.mod_pos_bound x (2^111) ltac:(lia)) as M1.
    pose proof (Z.div_mod (x / 2^111) 2 ltac:(lia)) as D2. lia.
  - rewrite Z.mul_0_l, Z.lor_0_r. lia.
Qed.

Lemma nan_sign s m : finf 112 15 < m < 2^127 -> fb (with_sign 112 15 s m) /\ fisnan 112 15 (with_sign 112 15 s m) = true.
Proof.
  intros H. pose proof (finf_pos 112 15 eq_refl eq_refl).
  destruct (with_sign_spec 112 15 eq_refl eq_refl s m ltac:(change (112+15) with 127; lia)) as (W1 & W2 & W3).
  split; [exact W3|]. unfold fisnan. rewrite W1. lia.
Qed.

Lemma multf3_ok a b : fb a -> fb b -> exists r, multf3 a b = Ok r /\ mul_spec 112 15 a b r.
Proof.
  intros Ha Hb. destruct (tf_split a Ha) as [Ea Ba]. destruct (tf_split b Hb) as [Eb Bb].
  unfold multf3. rewrite !nosign_ok, signbit_xor by assumption. unfold mul_spec. cbv zeta.
  set (s := xorb (fn a) (fn b)). unfold fisnan at 1 2, fisinf.
  set (ka := fa a) in *. set (kb := fa b) in *. unfold multf_magnitude. change INF128 with (finf 112 15).
  assert (FI : finf 112 15 = 0x7FFF * 2^112) by reflexivity.
  destruct (Z.leb_spec (finf 112 15) ka) as [LA|LA].
  { cbn [bind]. eexists. split; [reflexivity|].
    destruct (lor_bit111 ka (finf 112 15 <=? u128 (kb - 1)) ltac:(lia)) as (R1 & R2 & R3).
    set (r := Z.lor ka _) in *. rewrite lor_sign by lia.
    assert (EU : (finf 112 15 <=? u128 (kb - 1)) = ((finf 112 15 <? kb) || (kb =? 0))).
    { unfold u128. destruct (Z.eqb_spec kb 0) as [Z0|N0].
      - rewrite Z0. rewrite orb_true_r. reflexivity.
      - rewrite Z.mod_small by lia. lia. }
    rewrite EU in *.
    destruct ((finf 112 15 <? ka) || (finf 112 15 <? kb) || ((ka =? finf 112 15) && (kb =? 0)) || ((ka =? 0) && (kb =? finf 112 15))) eqn:C.
    - apply nan_sign. destruct (Z.lt_ge_cases (finf 112 15) ka); [lia|]. assert (finf 112 15 < r) by (apply R3; lia). lia.
    - replace ((ka =? finf 112 15) || (kb =? finf 112 15)) with true by lia. rewrite (R2 ltac:(lia)). f_equal. lia. }
  destruct (Z.leb_spec (finf 112 15) kb) as [LB|LB].
  { cbn [bind]. eexists. split; [reflexivity|].
    unfold lnot0. destruct (lor_bit111 kb (ka =? 0) ltac:(lia)) as (R1 & R2 & R3).
    set (r := Z.lor kb _) in *. rewrite lor_sign by lia.
    destruct ((finf 112 15 <? ka) || (finf 112 15 <? kb) || ((ka =? finf 112 15) && (kb =? 0)) || ((ka =? 0) && (kb =? finf 112 15))) eqn:C.
    - apply nan_sign. destruct (Z.lt_ge_cases (finf 112 15) kb); [lia|]. assert (finf 112 15 < r) by (apply R3; lia). lia.
    - replace ((ka =? finf 112 15) || (kb =? finf 112 15)) with true by lia. rewrite (R2 ltac:(lia)). f_equal. lia. }
  replace ((finf 112 15 <? ka) || (finf 112 15 <? kb) || ((ka =? finf 112 15) && (kb =? 0)) || ((ka =? 0) && (kb =? finf 112 15))) with false by lia.
  replace ((ka =? finf 112 15) || (kb =? finf 112 15)) with false by lia.
  assert (EV : (fval 112 15 a * fval 112 15 b = if s then - (fmag 112 15 ka * fmag 112 15 kb) else fmag 112 15 ka * fmag 112 15 kb)%R).
  { unfold fval. fold ka kb. unfold s. destruct (fn a), (fn b); cbn [xorb]; ring. }
  assert (R : exists D, (if negb (ka =? 0) && negb (kb =? 0) then do x <- normalizel ka; do y <- normalizel kb; multf_kernel x y else Ok 0) = Ok D /\
     rounds_to 112 15 (fmag 112 15 ka * fmag 112 15 kb) false D).
  { destruct (negb (ka =? 0) && negb (kb =? 0)) eqn:NZ.
    - destruct (normalizel_ok ka ltac:(lia)) as (x & -> & NX & RX). destruct (normalizel_ok kb ltac:(lia)) as (y & -> & NY & RY).
      cbn [bind]. apply multf_kernel_ok with ka kb || apply (multf_kernel_ok ka kb); try assumption; lia.
    - exists 0. split; [reflexivity|].
      replace (fmag 112 15 ka * fmag 112 15 kb)%R with 0%R.
      + pose proof (rounds_pack 112 15 eq_refl eq_refl false 0 (emin 112 15) (emin 112 15)) as H.
        rewrite Z.sub_diag in H. cbn [Z.pow] in H. rewrite rne_1, Z.div_1_r in H.
        specialize (H ltac:(lia) ltac:(lia) ltac:(lia) ltac:(lia) ltac:(lia)). rewrite F2R_0 in H. unfold with_sign in H.
        replace (0 + Z.min (0 * 2^112 + 0) (finf 112 15)) with 0 in H by lia. exact H.
      + destruct (Z.eq_dec ka 0) as [->|]; [rewrite fmag_0 by lia; ring|]. replace kb with 0 by lia. rewrite fmag_0 by lia. ring. }
  destruct R as (D & -> & RD). cbn [bind]. eexists. split; [reflexivity|].
  destruct (rounds_with_sign 112 15 _ s D eq_refl eq_refl RD) as [R' BD].
  rewrite lor_sign by exact BD. rewrite EV. exact R'.
Qed.
