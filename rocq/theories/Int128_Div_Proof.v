(** Proofs about 128-bit division. *)
From Verif Require Import Base Bits Int128_Model Int128_Proof.

(** Division by variables: keep lia linear, ask for division facts explicitly. *)
Local Ltac Zify.zify_post_hook ::= idtac.
Ltac dlia := Z.div_mod_to_equations; lia.

(** ** Division *)

Lemma div_ge_iff A b q : 0 < b -> (q * b <= A <-> q <= A / b).
Proof.
  intros Hb. split; intros H.
  - apply Z.div_le_lower_bound; [lia|]. lia.
  - pose proof (div_mod_eq A b Hb). pose proof (Z.mod_pos_bound A b Hb). nia.
Qed.

Lemma qhat_loop_ok fuel : forall q rr a0 a1 b1 b0,
  2^31 <= b1 < 2^32 -> 0 <= b0 < 2^32 -> 0 <= a0 < 2^32 -> 0 <= a1 < b1 * 2^32 + b0 ->
  let qt := (a1 * 2^32 + a0) / (b1 * 2^32 + b0) in
  qt <= q <= 2^32 + 1 -> rr = a1 - q * b1 -> 0 <= rr < 2^32 -> (fuel > 0)%nat ->
  2^32 <= rr + (Z.of_nat fuel - 1) * 2^31 ->
  qhat_loop fuel q rr a0 b1 b0 = Ok qt.
Proof.
  induction fuel as [|fuel IH]; intros q rr a0 a1 b1 b0 Hb1 Hb0 Ha0 Ha1 qt Hq Hrr Hr Hf HF; [lia|].
  cbn [qhat_loop].
  set (A := a1 * 2^32 + a0) in *. set (b := b1 * 2^32 + b0) in *.
  assert (Hb : 0 < b) by lia.
  assert (Hqt : 0 <= qt <= 2^32 - 1).
  { subst qt. split; [apply Z.div_pos; lia|]. enough (A / b < 2^32) by lia.
    apply Z.div_lt_upper_bound; lia. }
  assert (Edef : A - q * b = rr * 2^32 + a0 - q * b0) by (subst A b rr; ring).
  assert (Eg : (0xFFFFFFFF <? q) || (Z.lor (u64 (Z.shiftl rr 32)) a0 <? u64 (q * b0)) = (qt <? q)).
  { destruct (Z.ltb_spec 0xFFFFFFFF q) as [L|L]; cbn [orb]; [lia|].
    rewrite shiftl_mul by lia. unfold u64. rewrite (Z.mod_small (rr * 2^32)) by lia.
    rewrite lor_mul_low by lia.
    assert (0 <= q * b0 < 2^64) by nia. rewrite (Z.mod_small (q * b0)) by lia.
    pose proof (div_ge_iff A b q Hb) as D. fold qt in D. lia. }
  rewrite Eg. destruct (Z.ltb_spec qt q) as [L|L]; [|f_equal; lia].
  cbv zeta. unfold u64. rewrite (Z.mod_small (q - 1)) by lia. rewrite (Z.mod_small (rr + b1)) by lia.
  destruct (Z.ltb_spec 0xFFFFFFFF (rr + b1)) as [G|G].
  - f_equal. enough (q - 1 <= qt) by lia. apply (div_ge_iff A b (q - 1) Hb).
    assert (Edef' : A - (q - 1) * b = (rr + b1) * 2^32 + a0 - (q - 1) * b0) by (subst A b rr; ring).
    assert ((q - 1) * b0 <= 2^32 * (2^32 - 1)) by nia. lia.
  - apply (IH (q - 1) (rr + b1) a0 a1 b1 b0); try assumption; fold A; fold b; fold qt; try lia.
Qed.

Lemma uldivmoddisi5_ok a1 a0 b : 2^63 <= b < 2^64 -> 0 <= a1 < b -> 0 <= a0 < 2^32 ->
  uldivmoddisi5 a1 a0 b = Ok ((a1 * 2^32 + a0) / b, (a1 * 2^32 + a0) mod b).
Proof.
  intros Hb Ha1 Ha0. unfold uldivmoddisi5. rewrite shiftr_div by lia.
  change 0xFFFFFFFF with (2^32 - 1). rewrite land_ones_mod by lia.
  pose proof (div_mod_eq b (2^32) ltac:(lia)) as Eb.
  assert (Hb1 : 2^31 <= b / 2^32 < 2^32) by lia. assert (Hb0 : 0 <= b mod 2^32 < 2^32) by lia.
  set (b1 := b / 2^32) in *. set (b0 := b mod 2^32) in *. clearbody b1 b0.
  unfold udiv. replace (b1 =? 0) with false by lia. cbn [bind].
  pose proof (div_mod_eq a1 b1 ltac:(lia)) as Ea. pose proof (Z.mod_pos_bound a1 b1 ltac:(lia)) as Em.
  assert (Hq : a1 / b1 <= 2^32 + 1).
  { enough (a1 / b1 < 2^32 + 2) by lia. apply Z.div_lt_upper_bound; lia. }
  assert (Hq0 : 0 <= a1 / b1) by (apply Z.div_pos; lia).
  set (qh := a1 / b1) in *.
  assert (Er : u64 (a1 - u64 (qh * b1)) = a1 mod b1).
  { unfold u64. rewrite (Z.mod_small (qh * b1)) by lia. rewrite Z.mod_small by lia. lia. }
  rewrite Er. rewrite (qhat_loop_ok 4 qh (a1 mod b1) a0 a1 b1 b0); try lia.
  2:{ rewrite <- Eb. split; [|lia]. subst qh.
      apply (Z.div_le_lower_bound a1 b1 ((a1 * 2^32 + a0) / b)); [lia|].
      pose proof (Z.mul_div_le (a1 * 2^32 + a0) b ltac:(lia)) as M.
      pose proof (Z.div_pos (a1 * 2^32 + a0) b ltac:(lia) ltac:(lia)).
      set (q := (a1 * 2^32 + a0) / b) in *. rewrite Eb in M.
      assert (b1 * q * 2^32 <= a1 * 2^32 + a0) by nia. nia. }
  rewrite <- Eb. cbn [bind]. do 2 f_equal.
  set (A := a1 * 2^32 + a0). unfold u64. rewrite shiftl_mul by lia.
  replace ((a1 * 2^32) mod 2^64) with ((a1 mod 2^32) * 2^32)
    by (change (2^64) with (2^32 * 2^32); symmetry; apply mul_mod_split; lia).
  rewrite lor_mul_low by lia.
  rewrite Zminus_mod_idemp_r.
  replace (a1 mod 2^32 * 2^32 + a0 - A / b * b) with (A - A / b * b + (- (a1 / 2^32)) * 2^64).
  2:{ subst A. change (2^64) with (2^32 * 2^32). pose proof (div_mod_eq a1 (2^32) ltac:(lia)). nia. }
  rewrite Z.mod_add by lia.
  pose proof (div_mod_eq A b ltac:(lia)). pose proof (Z.mod_pos_bound A b ltac:(lia)).
  rewrite Z.mod_small by lia. lia.
Qed.

Lemma clzll_ok b : 0 < b < 2^64 -> exists s, clzll b = Ok s /\ 0 <= s <= 63 /\ 2^63 <= b * 2^s < 2^64.
Proof.
  intros H. unfold clzll. replace (b =? 0) with false by lia. exists (63 - Z.log2 b).
  pose proof (Z.log2_spec b ltac:(lia)) as [L1 L2].
  assert (Z.log2 b < 64) by (apply Z.log2_lt_pow2; lia). pose proof (Z.log2_nonneg b).
  split; [reflexivity|]. split; [lia|].
  assert (E1 : 2^63 = 2^(Z.log2 b) * 2^(63 - Z.log2 b)) by (rewrite <- Z.pow_add_r by lia; f_equal; lia).
  assert (E2 : 2^64 = 2^(Z.succ (Z.log2 b)) * 2^(63 - Z.log2 b)) by (rewrite <- Z.pow_add_r by lia; f_equal; lia).
  assert (0 < 2^(63 - Z.log2 b)) by (apply Z.pow_pos_nonneg; lia).
  rewrite E1, E2. nia.
Qed.

Lemma div_mod_unique_pos a b q r : 0 <= r < b -> a = q * b + r -> a / b = q /\ a mod b = r.
Proof.
  intros H E. split; symmetry.
  - apply Z.div_unique with r; [left; lia|lia].
  - apply Z.mod_unique with q; [left; lia|lia].
Qed.

Lemma uldivmoddi5_ok a1 a0 b : 0 < b < 2^64 -> 0 <= a1 < b -> 0 <= a0 < 2^64 ->
  uldivmoddi5 a1 a0 b = Ok ((a1 * 2^64 + a0) / b, (a1 * 2^64 + a0) mod b).
Proof.
  intros Hb Ha1 Ha0. unfold uldivmoddi5.
  destruct (clzll_ok b Hb) as (s & -> & Hs & Hn). cbn [bind].
  rewrite shiftl_mul by lia. unfold u128. rewrite (Z.mod_small (a1 * 2^64)) by lia.
  rewrite lor_mul_low by lia. set (A := a1 * 2^64 + a0).
  rewrite land63, (Z.mod_small s) by lia. rewrite !lsh_ok by lia. cbn [bind].
  assert (HP : 0 < 2^s) by (apply Z.pow_pos_nonneg; lia). set (P := 2^s) in *.
  rewrite (Z.mod_small (b * P)) by lia. set (bn := b * P) in *.
  assert (HA : 0 <= A < b * 2^64) by (subst A; nia).
  assert (HAn : 0 <= A * P < bn * 2^64) by (subst bn; nia).
  rewrite (Z.mod_small (A * P)) by lia. set (an := A * P) in *.
  rewrite !shiftr_div by lia. unfold u32.
  rewrite uldivmoddisi5_ok; try lia.
  cbn [bind].
  replace (an / 2^64 * 2^32 + (an / 2^32) mod 2^32) with (an / 2^32).
  2:{ replace (an / 2^64) with (an / 2^32 / 2^32) by (rewrite Z.div_div by lia; reflexivity).
      apply div_mod_eq. lia. }
  set (am := an / 2^32).
  assert (Ham : 0 <= am < bn * 2^32) by (subst am; lia).
  assert (Ean : an = am * 2^32 + an mod 2^32) by (apply div_mod_eq; lia).
  set (lo := an mod 2^32) in *. assert (Hlo : 0 <= lo < 2^32) by (subst lo; lia).
  pose proof (div_mod_eq am bn ltac:(lia)) as E1. pose proof (Z.mod_pos_bound am bn ltac:(lia)) as M1.
  set (q1 := am / bn) in *. set (r1 := am mod bn) in *.
  assert (Hq1 : 0 <= q1 < 2^32).
  { split; [apply Z.div_pos; lia|]. apply Z.div_lt_upper_bound; lia. }
  rewrite uldivmoddisi5_ok by lia. cbn [bind].
  set (B := r1 * 2^32 + lo).
  pose proof (div_mod_eq B bn ltac:(lia)) as E2. pose proof (Z.mod_pos_bound B bn ltac:(lia)) as M2.
  assert (Hq0 : 0 <= B / bn < 2^32).
  { split; [apply Z.div_pos; lia|]. apply Z.div_lt_upper_bound; lia. }
  set (q0 := B / bn) in *. set (r := B mod bn) in *.
  rewrite rsh_ok by lia. cbn [bind]. fold P.
  rewrite shiftl_mul by lia. unfold u64. rewrite (Z.mod_small (q1 * 2^32)) by lia.
  rewrite lor_mul_low by lia.
  assert (Et : an = (q1 * 2^32 + q0) * bn + r).
  { rewrite Ean. rewrite E1. subst B. lia. }
  assert (EAb : A = A / b * b + A mod b) by (apply div_mod_eq; lia).
  pose proof (Z.mod_pos_bound A b ltac:(lia)) as MA.
  destruct (div_mod_unique_pos an bn (q1 * 2^32 + q0) r) as [U1 U2]; [lia|assumption|].
  destruct (div_mod_unique_pos an bn (A / b) ((A mod b) * P)) as [V1 V2].
  { subst bn. split; [apply Z.mul_nonneg_nonneg; lia|apply Z.mul_lt_mono_pos_r; lia]. }
  { subst an bn. rewrite EAb at 1. ring. }
  do 2 f_equal; [congruence|].
  replace r with (A mod b * P) by congruence. apply Z.div_mul. lia.
Qed.

Lemma shift_sub_cmp a b : 0 <= a < 2^128 -> 0 < b < 2^128 -> a < 2 * b -> (b < 2^127 \/ 2^127 <= a) ->
  Z.shiftr (s128 (u128 (u128 (b - a) - 1))) 127 = if b <=? a then -1 else 0.
Proof.
  intros Ha Hb H2 HC. unfold u128. rewrite Zminus_mod_idemp_l.
  replace (s128 ((b - a - 1) mod 2^128)) with (b - a - 1).
  2:{ unfold s128. rewrite <- (sgn_id 128 (b - a - 1)) at 1 by lia. apply sgn_congr.
      rewrite Z.mod_mod by lia. reflexivity. }
  rewrite shiftr_div by lia. destruct (Z.leb_spec b a); lia.
Qed.

Lemma shift_sub_ok n : forall a D q, 0 < D -> D * 2^(Z.of_nat n) <= 2^129 -> (n > 0)%nat ->
  0 <= a < D * 2^(Z.of_nat n) -> a < 2^128 -> D * 2^(Z.of_nat n - 1) < 2^128 ->
  (D * 2^(Z.of_nat n - 1) < 2^127 \/ 2^127 <= a) ->
  0 <= q -> (q + 1) * 2^(Z.of_nat n) <= 2^64 ->
  shift_sub n a (D * 2^(Z.of_nat n - 1)) q = (q * 2^(Z.of_nat n) + a / D, a mod D).
Proof.
  induction n as [|n IH]; intros a D q HD Hb9 Hn Ha Ha8 Hb HC Hq Hq64; [lia|].
  cbn [shift_sub]. cbv zeta.
  assert (EP : 2^(Z.of_nat (S n)) = 2 * 2^(Z.of_nat n)).
  { rewrite <- Z.pow_succ_r by lia. f_equal. lia. }
  replace (Z.of_nat (S n) - 1) with (Z.of_nat n) in * by lia.
  assert (HP : 0 < 2^(Z.of_nat n)) by (apply Z.pow_pos_nonneg; lia).
  rewrite EP in *. set (P := 2^(Z.of_nat n)) in *. set (b := D * P) in *.
  assert (Hbpos : 0 < b) by (subst b; nia).
  rewrite shift_sub_cmp; [|lia|lia|subst b; lia|assumption].
  set (bit := if b <=? a then 1 else 0).
  assert (Ebit : Z.land (if b <=? a then -1 else 0) 1 = bit) by (subst bit; destruct (b <=? a); reflexivity).
  rewrite Ebit.
  assert (Eq : u64 (Z.lor (Z.shiftl q 1) bit) = 2 * q + bit).
  { rewrite lor_high_low by (subst bit; destruct (b <=? a); lia).
    unfold u64. rewrite Z.mod_small; [lia|]. subst bit. destruct (b <=? a); nia. }
  rewrite Eq.
  assert (Ea : u128 (a - Z.land b (u128 (if b <=? a then -1 else 0))) = a - bit * b).
  { subst bit. unfold u128. destruct (Z.leb_spec b a).
    - change (-1 mod 2^128) with (2^128 - 1). rewrite land_ones_mod by lia.
      rewrite (Z.mod_small b) by lia. rewrite Z.mod_small; lia.
    - rewrite Zmod_0_l. rewrite Z.land_0_r. rewrite Z.mod_small; lia. }
  rewrite Ea. rewrite shiftr_div by lia. change (2^1) with 2.
  assert (Hnew : 0 <= a - bit * b < b) by (subst bit; destruct (Z.leb_spec b a); subst b; lia).
  destruct n as [|n].
  - cbn [shift_sub]. change (2^(Z.of_nat 0)) with 1 in P. subst P. subst b. rewrite Z.mul_1_r in *.
    destruct (div_mod_unique_pos a D bit (a - bit * D)) as [-> ->]; [lia|lia|]. f_equal. lia.
  - assert (EPn : P = 2 * 2^(Z.of_nat n)).
    { subst P. rewrite <- Z.pow_succ_r by lia. f_equal. lia. }
    assert (HPn : 0 < 2^(Z.of_nat n)) by (apply Z.pow_pos_nonneg; lia).
    replace (b / 2) with (D * 2^(Z.of_nat (S n) - 1)).
    2:{ replace (Z.of_nat (S n) - 1) with (Z.of_nat n) by lia. subst b. rewrite EPn.
        replace (D * (2 * 2^Z.of_nat n)) with (D * 2^Z.of_nat n * 2) by ring.
        rewrite Z.div_mul by lia. reflexivity. }
    rewrite IH; try assumption; try lia.
    + f_equal.
      * replace a with (a - bit * b + (bit * P) * D) at 2 by (subst b; ring).
        rewrite Z.div_add by lia. fold P. ring.
      * replace a with (a - bit * b + (bit * P) * D) at 2 by (subst b; ring).
        rewrite Z.mod_add by lia. reflexivity.
    + replace (Z.of_nat (S n) - 1) with (Z.of_nat n) by lia. subst b. nia.
    + left. replace (Z.of_nat (S n) - 1) with (Z.of_nat n) by lia. subst b. nia.
    + subst bit. destruct (b <=? a); lia.
    + fold P. subst bit. destruct (b <=? a); lia.
Qed.

Lemma log2_clz x : 0 < x < 2^64 -> clzll x = Ok (63 - Z.log2 x) /\ 0 <= Z.log2 x <= 63.
Proof.
  intros. unfold clzll. replace (x =? 0) with false by lia. split; [reflexivity|].
  pose proof (Z.log2_nonneg x). assert (Z.log2 x < 64) by (apply Z.log2_lt_pow2; lia). lia.
Qed.

Lemma udivmodti4_ok a b : is_u128 a -> 0 < b < 2^128 -> udivmodti4 a b = Ok (a / b, a mod b).
Proof.
  unfold is_u128. intros Ha Hb. unfold udivmodti4.
  destruct (Z.ltb_spec a b) as [L|L].
  { rewrite Z.div_small, Z.mod_small by lia. reflexivity. }
  rewrite !shiftr_div by lia. unfold u64.
  destruct (Z.eqb_spec (b / 2^64) 0) as [B1|B1].
  - assert (Hb' : 0 < b < 2^64) by lia. rewrite (Z.mod_small b) by lia.
    unfold urem, udiv. replace (b =? 0) with false by lia. cbn [bind].
    set (a1 := a / 2^64). assert (H1 : 0 <= a1 < 2^64) by (subst a1; lia).
    assert (H0 : 0 <= a mod 2^64 < 2^64) by lia. set (a0 := a mod 2^64) in *.
    assert (Ea : a = a1 * 2^64 + a0) by (apply div_mod_eq; lia). clearbody a0 a1.
    pose proof (Z.mod_pos_bound a1 b ltac:(lia)) as M. pose proof (div_mod_eq a1 b ltac:(lia)) as D.
    rewrite uldivmoddi5_ok by lia. cbn [bind].
    set (R := a1 mod b) in *. set (Q := a1 / b) in *.
    pose proof (Z.mod_pos_bound (R * 2^64 + a0) b ltac:(lia)) as M2.
    pose proof (div_mod_eq (R * 2^64 + a0) b ltac:(lia)) as D2.
    assert (Hq0 : 0 <= (R * 2^64 + a0) / b < 2^64).
    { split; [apply Z.div_pos; lia|]. apply Z.div_lt_upper_bound; lia. }
    set (q0 := (R * 2^64 + a0) / b) in *.
    assert (HQ : 0 <= Q < 2^64).
    { split; [apply Z.div_pos; lia|]. apply Z.div_lt_upper_bound; [lia|]. nia. }
    rewrite shiftl_mul by lia. unfold u128. rewrite Z.mod_small by lia. rewrite lor_mul_low by lia.
    destruct (div_mod_unique_pos a b (Q * 2^64 + q0) ((R * 2^64 + a0) mod b)) as [-> ->]; [lia| |reflexivity].
    rewrite Ea, D. lia.
  - assert (HB1 : 0 < b / 2^64 < 2^64) by lia.
    assert (HA1 : b / 2^64 <= a / 2^64 < 2^64) by (split; [apply Z.div_le_mono|]; lia).
    destruct (log2_clz (b / 2^64) HB1) as [-> LB].
    destruct (log2_clz (a / 2^64)) as [-> LA]; [lia|]. cbn [bind].
    set (lb := Z.log2 (b / 2^64)) in *. set (la := Z.log2 (a / 2^64)) in *.
    assert (LL : lb <= la) by (apply Z.log2_le_mono; lia).
    replace (63 - lb - (63 - la)) with (la - lb) by lia.
    rewrite land63, Z.mod_small by lia.
    rewrite lsh_ok by lia. cbn [bind].
    pose proof (Z.log2_spec (a / 2^64) ltac:(lia)) as [LA1 LA2]. fold la in LA1, LA2.
    pose proof (Z.log2_spec (b / 2^64) ltac:(lia)) as [LB1 LB2]. fold lb in LB1, LB2.
    rewrite Z.pow_succ_r in LA2, LB2 by lia.
    assert (EP : 2^la = 2^lb * 2^(la - lb)) by (rewrite <- Z.pow_add_r by lia; f_equal; lia).
    assert (Pb : 0 < 2^lb) by (apply Z.pow_pos_nonneg; lia).
    assert (Ps : 0 < 2^(la-lb)) by (apply Z.pow_pos_nonneg; lia).
    assert (Hla : 2^la <= 2^63) by (apply Z.pow_le_mono_r; lia).
    assert (Hls : 2^(la-lb) <= 2^63) by (apply Z.pow_le_mono_r; lia).
    assert (B2 : b < 2 * 2^lb * 2^64) by lia.
    assert (B3 : 2^lb * 2^64 <= b) by lia.
    assert (A2 : a < 2 * 2^la * 2^64) by lia.
    assert (A3 : 2^la * 2^64 <= a) by lia.
    assert (Hbs : b * 2^(la-lb) < 2 * 2^la * 2^64) by nia.
    assert (Hbs2 : 2^la * 2^64 <= b * 2^(la-lb)) by nia.
    rewrite (Z.mod_small (b * 2^(la-lb))) by lia.
    set (n := Z.to_nat (la - lb + 1)).
    assert (En : Z.of_nat n = la - lb + 1) by (subst n; lia).
    replace (la - lb) with (Z.of_nat n - 1) at 1 by lia.
    assert (EPn : 2^(Z.of_nat n) = 2 * 2^(la-lb)).
    { rewrite En. rewrite Z.pow_add_r by lia. change (2^1) with 2. lia. }
    assert (EPm : 2^(Z.of_nat n - 1) = 2^(la-lb)) by (f_equal; lia).
    rewrite EPm. rewrite <- EPm.
    rewrite shift_sub_ok; rewrite ?EPn, ?EPm; try lia.
    + rewrite Z.mul_0_l, Z.add_0_l. reflexivity.
    + destruct (Z.eq_dec la 63) as [E63|E63].
      * right. rewrite E63 in A3. lia.
      * left. assert (2^la <= 2^62) by (apply Z.pow_le_mono_r; lia). lia.
Qed.

(** ** Signed division *)

Lemma sign_shift x : - 2^127 <= x < 2^127 -> Z.shiftr x 127 = if x <? 0 then -1 else 0.
Proof. intros. rewrite shiftr_div by lia. destruct (Z.ltb_spec x 0); dlia. Qed.

Lemma lxor_m1 x : Z.lxor x (-1) = - x - 1.
Proof. rewrite Z.lxor_m1_r. unfold Z.lnot. lia. Qed.

Lemma lxor_ones128 x : 0 <= x < 2^128 -> Z.lxor x (2^128 - 1) = 2^128 - 1 - x.
Proof.
  intros. change (2^128 - 1) with (Z.ones 128) at 1.
  rewrite Z.lxor_comm.
  assert (E : Z.lxor (Z.ones 128) x = Z.ldiff (Z.ones 128) x).
  { apply Z.bits_inj'. intros n Hn. rewrite Z.lxor_spec, Z.ldiff_spec.
    destruct (Z.ltb_spec n 128).
    - rewrite Z.ones_spec_low by lia. destruct (Z.testbit x n); reflexivity.
    - rewrite Z.ones_spec_high by lia. rewrite Z.bits_above_log2; [reflexivity|lia|].
      destruct (Z.eq_dec x 0) as [->|]; [cbn; lia|]. apply Z.log2_lt_pow2; [lia|].
      apply Z.lt_le_trans with (2^128); [lia|]. apply Z.pow_le_mono_r; lia. }
  rewrite E. rewrite <- Z.sub_nocarry_ldiff.
  - rewrite Z.ones_equiv. lia.
  - apply Z.bits_inj'. intros n Hn. rewrite Z.ldiff_spec, Z.bits_0.
    destruct (Z.ltb_spec n 128).
    + rewrite Z.ones_spec_low by lia. apply andb_false_r.
    + rewrite Z.bits_above_log2; [reflexivity|lia|].
      destruct (Z.eq_dec x 0) as [->|]; [cbn; lia|]. apply Z.log2_lt_pow2; [lia|].
      apply Z.lt_le_trans with (2^128); [lia|]. apply Z.pow_le_mono_r; lia.
Qed.

(** |x| as the code computes it. *)
Lemma abs_xor x : - 2^127 < x < 2^127 ->
  chk_i128 (x + Z.shiftr x 127) = Ok (x + Z.shiftr x 127) /\
  u128 (Z.lxor (x + Z.shiftr x 127) (Z.shiftr x 127)) = Z.abs x.
Proof.
  intros H. rewrite sign_shift by lia. unfold chk_i128, u128. destruct (Z.ltb_spec x 0).
  - split; [replace ((-2^127 <=? x + -1) && (x + -1 <=? 2^127 - 1)) with true by lia; reflexivity|].
    rewrite lxor_m1. rewrite Z.mod_small by lia. lia.
  - split; [replace ((-2^127 <=? x + 0) && (x + 0 <=? 2^127 - 1)) with true by lia; reflexivity|].
    rewrite Z.lxor_0_r. rewrite Z.mod_small by lia. lia.
Qed.

Lemma quot_abs a b : b <> 0 -> Z.quot a b = (if Bool.eqb (a <? 0) (b <? 0) then 1 else -1) * (Z.abs a / Z.abs b).
Proof.
  intros Hb. rewrite Z.quot_div by assumption.
  destruct (Z.eq_dec a 0) as [->|Ha].
  { cbn [Z.sgn Z.abs]. rewrite Z.div_0_l by lia. lia. }
  destruct (Z.ltb_spec a 0), (Z.ltb_spec b 0); cbn [Bool.eqb];
    rewrite ?(Z.sgn_neg a), ?(Z.sgn_neg b), ?(Z.sgn_pos a), ?(Z.sgn_pos b) by lia; lia.
Qed.

Lemma rem_abs a b : b <> 0 -> Z.rem a b = (if a <? 0 then -1 else 1) * (Z.abs a mod Z.abs b).
Proof.
  intros Hb. rewrite Z.rem_mod by assumption.
  destruct (Z.eq_dec a 0) as [->|Ha].
  { cbn [Z.sgn Z.abs]. rewrite Z.mod_0_l by lia. lia. }
  destruct (Z.ltb_spec a 0); rewrite ?(Z.sgn_neg a), ?(Z.sgn_pos a) by lia; lia.
Qed.

Lemma lxor_neg_sign q s : 0 <= q < 2^127 -> (s = 0 \/ s = -1) ->
  s128 (Z.lxor (u128 (q + s)) (u128 s)) = if s =? 0 then q else - q.
Proof.
  intros Hq [-> | ->]; unfold u128.
  - cbn [Z.eqb]. rewrite Z.add_0_r, Z.mod_0_l, Z.lxor_0_r by lia. rewrite Z.mod_small by lia.
    unfold s128. apply sgn_id; lia.
  - cbn [Z.eqb]. change (-1 mod 2^128) with (2^128 - 1).
    pose proof (Z.mod_pos_bound (q + -1) (2^128) ltac:(lia)).
    rewrite lxor_ones128 by lia.
    rewrite <- (sgn_id 128 (- q)) by lia. unfold s128. apply sgn_congr.
    rewrite Zminus_mod_idemp_r.
    replace (2^128 - 1 - (q + -1)) with (- q + 1 * 2^128) by lia. apply Z.mod_add. lia.
Qed.

Lemma divti3_ok a b : - 2^127 < a < 2^127 -> - 2^127 < b < 2^127 -> b <> 0 -> divti3 a b = Ok (Z.quot a b).
Proof.
  intros Ha Hb H0. unfold divti3.
  destruct (abs_xor a Ha) as [-> Ea]. destruct (abs_xor b Hb) as [-> Eb]. cbn [bind]. rewrite Ea, Eb.
  rewrite udivmodti4_ok by (unfold is_u128; lia). cbn [bind]. f_equal.
  rewrite !sign_shift by lia.
  assert (Hq : 0 <= Z.abs a / Z.abs b < 2^127).
  { split; [apply Z.div_pos; lia|]. apply Z.div_lt_upper_bound; [lia|]. nia. }
  rewrite lxor_neg_sign; [|assumption|destruct (a <? 0), (b <? 0); cbn; lia].
  rewrite quot_abs by assumption. destruct (a <? 0), (b <? 0); cbn -[Z.div Z.abs Z.mul]; lia.
Qed.

Lemma modti3_ok a b : - 2^127 <= a < 2^127 -> - 2^127 < b < 2^127 -> b <> 0 -> modti3 a b = Ok (Z.rem a b).
Proof.
  intros Ha Hb H0. unfold modti3.
  assert (Ey : (if b <? 0 then chk_i128 (- b) else Ok b) = Ok (Z.abs b)).
  { destruct (Z.ltb_spec b 0).
    - unfold chk_i128. replace ((- 2^127 <=? - b) && (- b <=? 2^127 - 1)) with true by lia. f_equal. lia.
    - f_equal. lia. }
  rewrite Ey. cbn [bind]. rewrite sign_shift by lia.
  assert (Ex : Z.lxor (u128 (u128 a + u128 (if a <? 0 then -1 else 0))) (u128 (if a <? 0 then -1 else 0)) = Z.abs a).
  { unfold u128. destruct (Z.ltb_spec a 0).
    - change (-1 mod 2^128) with (2^128 - 1). rewrite (mod_neg_small a) by lia.
      replace (a + 2^128 + (2^128 - 1)) with (a + 2^128 - 1 + 1 * 2^128) by lia.
      rewrite Z.mod_add by lia. rewrite Z.mod_small by lia. rewrite lxor_ones128 by lia. lia.
    - rewrite Z.mod_0_l by lia. rewrite Z.lxor_0_r, Z.add_0_r, Z.mod_mod by lia.
      rewrite Z.mod_small by lia. lia. }
  rewrite Ex. unfold u128 at 1. rewrite (Z.mod_small (Z.abs b)) by lia.
  rewrite udivmodti4_ok by (unfold is_u128; lia). cbn [bind]. f_equal.
  pose proof (Z.mod_pos_bound (Z.abs a) (Z.abs b) ltac:(lia)).
  replace (Z.abs a mod Z.abs b + u128 (if a <? 0 then -1 else 0)) with
    (Z.abs a mod Z.abs b + (if a <? 0 then -1 else 0) + (if a <? 0 then 1 else 0) * 2^128).
  2:{ destruct (a <? 0); unfold u128; [change (-1 mod 2^128) with (2^128 - 1)|rewrite Z.mod_0_l by lia]; lia. }
  unfold u128 at 1. rewrite Z.mod_add by lia. fold (u128 (Z.abs a mod Z.abs b + (if a <? 0 then -1 else 0))).
  rewrite lxor_neg_sign; [|lia|destruct (a <? 0); lia].
  rewrite rem_abs by assumption. destruct (a <? 0); cbn -[Z.modulo Z.abs Z.mul]; lia.
Qed.
