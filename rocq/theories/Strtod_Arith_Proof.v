(** The 128-bit arithmetic of decimal_to_double_: division, powers of five, the scaled mantissa. *)
From Coq Require Import Reals Lra.
From Flocq Require Import Core.
From Verif Require Import Base Bits FP FP_Proof Rne Int128_Model Int128_Proof Stdlib_Model Strtod_Model.
Open Scope Z_scope.
Local Ltac Zify.zify_post_hook ::= idtac.

(** ** 256/128 division *)
Lemma udiv_loop_ok d n_lo N : 0 < d < 2^128 -> 0 <= n_lo < 2^128 -> forall n q rem,
  (n <= 128)%nat -> 0 <= rem < d -> 0 <= q -> q * d + rem = N * 2^(128 - Z.of_nat n) + n_lo / 2^(Z.of_nat n) ->
  N < d -> 0 <= N ->
  let '(q', rem') := udiv_loop n q rem n_lo d in q' * d + rem' = N * 2^128 + n_lo /\ 0 <= rem' < d /\ 0 <= q' < 2^128.
Proof.
  intros Hd Hlo. induction n as [|n IH]; intros q rem Hn Hr Hq E HN HN0.
  - cbn [udiv_loop]. rewrite Z.div_1_r in E. change (128 - Z.of_nat 0) with 128 in E. repeat split; try lia. nia.
  - cbn [udiv_loop]. rewrite Nat2Z.inj_succ in E.
    set (i := Z.of_nat n) in *. assert (Hi : 0 <= i < 128) by lia.
    assert (Pi : 0 < 2^i) by (apply pow2_pos; lia).
    assert (E2 : 2^(128 - i) = 2 * 2^(128 - Z.succ i)) by (replace (128 - i) with (Z.succ (128 - Z.succ i)) by lia; rewrite Z.pow_succ_r by lia; reflexivity).
    rewrite shiftr_div, (shiftr_div n_lo) by lia. replace (Z.land (n_lo / 2^i) 1) with ((n_lo / 2^i) mod 2) by (symmetry; apply (land_ones_mod (n_lo / 2^i) 1); lia).
    assert (D : n_lo / 2^i = 2 * (n_lo / 2^(Z.succ i)) + (n_lo / 2^i) mod 2).
    { rewrite Z.pow_succ_r by lia. rewrite (Z.mul_comm 2 (2^i)), <- Z.div_div by lia. apply Z.div_mod. lia. }
    set (bit := (n_lo / 2^i) mod 2) in *. assert (Hb : 0 <= bit < 2) by (apply Z.mod_pos_bound; lia).
    rewrite !shiftl_mul by lia. change (2^1) with 2.
    assert (F : 2 * q * d + (2 * rem + bit) = N * 2^(128 - i) + n_lo / 2^i) by (rewrite E2, D; lia).
    assert (Qb : 2 * q + 1 < 2^128).
    { assert (n_lo / 2^i < 2^(128 - i)). { apply Z.div_lt_upper_bound; [lia|]. rewrite <- Z.pow_add_r by lia. replace (i + (128 - i)) with 128 by lia. lia. }
      assert (2 * q * d < (N + 1) * 2^(128 - i)) by lia.
      assert ((N + 1) * 2^(128 - i) <= d * 2^(128 - i)) by (apply Z.mul_le_mono_nonneg_r; [apply Z.lt_le_incl, pow2_pos|]; lia).
      assert (2^(128 - i) <= 2^128) by (apply Z.pow_le_mono_r; lia).
      assert (2 * q * d < 2^128 * d).
      { apply Z.lt_le_trans with (d * 2^(128 - i)); [lia|]. rewrite (Z.mul_comm (2^128)). apply Z.mul_le_mono_nonneg_l; lia. }
      assert (2 * q < 2^128) by (apply Z.mul_lt_mono_pos_r with d; lia).
      change (2^128) with (2 * 2^127) in *. lia. }
    assert (QE : u128 (q * 2) = 2 * q) by (unfold u128; rewrite Z.mod_small; lia). rewrite QE.
    assert (RE : Z.lor (u128 (rem * 2)) bit = u128 (rem * 2) + bit).
    { unfold u128. change (2^128) with (2^127 * 2). rewrite Z.mul_mod_distr_r by lia. 
      apply (lor_mul_low bit (rem mod 2^127) 1); lia. }
    rewrite RE. unfold u128.
    destruct (Z.lt_ge_cases rem (2^127)) as [L|G].
    + rewrite (Z.div_small rem (2^127)) by lia. rewrite (Z.mod_small (rem * 2)) by lia. cbn [negb Z.eqb orb].
      destruct (Z.leb_spec d (rem * 2 + bit)).
      * assert (LQ : Z.lor (2 * q) 1 = 2 * q + 1).
        { rewrite (Z.mul_comm 2 q). apply (lor_mul_low 1 q 1); lia. }
        rewrite LQ. rewrite Z.mod_small by lia. apply IH; try lia. 
      * apply IH; try lia.
    + assert (rem / 2^127 = 1) as -> by (symmetry; apply Z.div_unique with (rem - 2^127); lia).
      cbn [negb Z.eqb orb].
      assert (LQ : Z.lor (2 * q) 1 = 2 * q + 1).
      { rewrite (Z.mul_comm 2 q). apply (lor_mul_low 1 q 1); lia. }
      rewrite LQ.
      assert (ME : (rem * 2) mod 2^128 = rem * 2 - 2^128) by (symmetry; apply Z.mod_unique with 1; lia). rewrite ME.
      assert (MD : (rem * 2 - 2^128 + bit - d) mod 2^128 = rem * 2 + bit - d) by (symmetry; apply Z.mod_unique with (-1); lia).
      rewrite MD. apply IH; try lia.
Qed.
Lemma udiv256by128_ok n_hi n_lo d : 0 <= n_hi < d -> d < 2^128 -> 0 <= n_lo < 2^128 ->
  let '(q, r) := udiv256by128 n_hi n_lo d in q * d + r = n_hi * 2^128 + n_lo /\ 0 <= r < d /\ 0 <= q < 2^128.
Proof.
  intros H Hd Hl. unfold udiv256by128. apply (udiv_loop_ok d n_lo n_hi); try lia.
Qed.

(** ** leading zeros *)
Lemma clz_u128_ok x : 0 < x < 2^128 -> exists c, clz_u128 x = Ok c /\ 0 <= c < 128 /\ 2^127 <= x * 2^c < 2^128.
Proof.
  intros H. unfold clz_u128, clzll, u64. rewrite shiftr_div by lia.
  assert (X : x / 2^64 < 2^64) by (apply Z.div_lt_upper_bound; lia).
  assert (X0 : 0 <= x / 2^64) by (apply Z.div_pos; lia).
  rewrite (Z.mod_small (x / 2^64)) by lia.
  assert (G : forall y, 0 < y < 2^64 -> 0 <= Z.log2 y < 64 /\ 2^63 <= y * 2^(63 - Z.log2 y) < 2^64).
  { intros y Hy. pose proof (Z.log2_spec y ltac:(lia)) as S. pose proof (Z.log2_nonneg y).
    assert (Z.log2 y < 64) by (apply Z.log2_lt_pow2; lia). split; [lia|].
    assert (P : 2^(Z.log2 y) * 2^(63 - Z.log2 y) = 2^63) by (rewrite <- Z.pow_add_r by lia; f_equal; lia).
    assert (P2 : 2^(Z.succ (Z.log2 y)) * 2^(63 - Z.log2 y) = 2^64) by (rewrite <- Z.pow_add_r by lia; f_equal; lia).
    assert (0 < 2^(63 - Z.log2 y)) by (apply pow2_pos; lia). split; [rewrite <- P|rewrite <- P2]; nia. }
  destruct (Z.eqb_spec (x / 2^64) 0) as [E|N]; cbn [negb].
  - assert (x < 2^64). { apply Z.div_small_iff in E; lia. } rewrite Z.mod_small by lia.
    replace (x =? 0) with false by lia. cbn [bind]. destruct (G x) as [L P]; [lia|].
    exists (64 + (63 - Z.log2 x)). split; [reflexivity|]. split; [lia|]. rewrite Z.pow_add_r by lia. lia.
  - destruct (Z.eqb_spec (x / 2^64) 0); [lia|]. destruct (G (x / 2^64)) as [L P]; [lia|].
    exists (63 - Z.log2 (x / 2^64)). split; [reflexivity|]. split; [lia|].
    set (c := 63 - Z.log2 (x / 2^64)) in *. pose proof (Z.div_mod x (2^64) ltac:(lia)) as D. pose proof (Z.mod_pos_bound x (2^64) ltac:(lia)).
    assert (0 < 2^c) by (apply pow2_pos; lia). set (h := x / 2^64) in *. set (l := x mod 2^64) in *.
    assert ((h + 1) * 2^c <= 2^64).
    { assert (Q : 2^64 = 2^(64 - c) * 2^c) by (rewrite <- Z.pow_add_r by lia; f_equal; lia). destruct P as [_ P]. rewrite Q in P |- *.
      apply Z.mul_lt_mono_pos_r in P; [|assumption]. apply Z.mul_le_mono_nonneg_r; lia. }
    assert (l * 2^c <= 2^64 * 2^c) by (apply Z.mul_le_mono_nonneg_r; lia).
    assert (0 <= l * 2^c) by (apply Z.mul_nonneg_nonneg; lia).
    assert (l * 2^c < 2^64 * 2^c) by (apply Z.mul_lt_mono_pos_r; lia).
    replace (x * 2^c) with (2^64 * (h * 2^c) + l * 2^c) by (rewrite D; ring). lia.
Qed.

(** ** powers of five *)
(** the product of a normalized mantissa with a seed *)
Lemma norm_product a b : 2^127 <= a < 2^128 -> 2^127 <= b < 2^128 ->
  let '(lo, hi) := umulti4 a b in
  let s := b2z (Z.shiftr hi 127 =? 0) in
  0 <= s <= 1 /\ hi * 2^128 + lo = a * b /\ 0 <= lo < 2^128 /\ 2^126 <= hi < 2^128 /\
  u128 (Z.shiftl hi s) = hi * 2^s /\ 2^127 <= hi * 2^s < 2^128 /\ (s = 1 -> hi < 2^127).
Proof.
  intros Ha Hb. pose proof (umulti4_ok a b) as M. unfold is_u128 in M. specialize (M ltac:(lia) ltac:(lia)).
  destruct (umulti4 a b) as [lo hi]. destruct M as (E & Hl & Hh). intros s.
  assert (H126 : 2^126 <= hi).
  { assert (2^127 * 2^127 <= a * b) by nia. assert (2^127 * 2^127 = 2^126 * 2^128) by reflexivity. nia. }
  unfold s. clear s. rewrite shiftr_div by lia. rewrite shiftl_mul by (unfold b2z; destruct (_ =? _); lia).
  destruct (Z.eqb_spec (hi / 2^127) 0) as [Q|Q]; cbn [b2z].
  - assert (hi < 2^127) by (apply Z.div_small_iff in Q; lia). change (2^1) with 2. unfold u128. rewrite Z.mod_small by lia. repeat split; lia.
  - assert (2^127 <= hi). { destruct (Z.lt_ge_cases hi (2^127)); [|lia]. rewrite Z.div_small in Q by lia. lia. }
    change (2^0) with 1. unfold u128. rewrite Z.mod_small by lia. repeat split; lia.
Qed.

(** the loop with mathematical products *)
Fixpoint pow5_z (table : list (Z * Z)) (k m e : Z) : option (Z * Z) :=
  if k =? 0 then Some (m, e)
  else match table with
       | [] => None
       | (a, b) :: table =>
         if Z.odd k then
           let hi := Z.shiftr (m * a) 128 in
           let s := if hi <? 2^127 then 1 else 0 in
           pow5_z table (Z.shiftr k 1) (Z.shiftl hi s) (e + b + 128 - s)
         else pow5_z table (Z.shiftr k 1) m e
       end.
Definition normal (m : Z) : Prop := 2^127 <= m < 2^128.
Lemma pow5_loop_z table : Forall (fun p => normal (fst p)) table -> forall k m e r, normal m ->
  pow5_z table k m e = Some r -> pow5_loop table k m e = Ok r.
Proof.
  assert (K : forall (x r : Z * Z), Some x = Some r -> Ok x = Ok r) by (intros x r E; inversion E; reflexivity).
  induction table as [|[a b] table IH]; intros F k m e r Hm; cbn [pow5_z pow5_loop]; destruct (k =? 0); try apply K; [discriminate|]; intros H.
  inversion F as [|? ? Ha F']; subst. cbn [fst] in Ha. destruct (Z.odd k); [|apply IH; assumption].
  pose proof (norm_product m a Hm Ha) as P. destruct (umulti4 m a) as [lo hi]. cbn [snd].
  destruct P as (P1 & P2 & P3 & P4 & P5 & P6 & P7). set (s := b2z (Z.shiftr hi 127 =? 0)) in *.
  assert (E : Z.shiftr (m * a) 128 = hi). { rewrite shiftr_div by lia. rewrite <- P2. rewrite Z.add_comm, Z.div_add, Z.div_small by lia. lia. }
  rewrite E in H. rewrite P5.
  assert (S : (if hi <? 2^127 then 1 else 0) = s).
  { destruct (Z.ltb_spec hi (2^127)).
    - subst s. rewrite shiftr_div by lia. rewrite Z.div_small by lia. reflexivity.
    - destruct (Z.eq_dec s 1); lia. }
  rewrite S in H. rewrite shiftl_mul in H by lia. apply IH; [assumption|unfold normal; lia|exact H].
Qed.
Lemma seeds_normal : Forall (fun p => normal (fst p)) seeds.
Proof. repeat constructor; cbn [fst]; intros H; vm_compute in H; discriminate. Qed.

Definition near (m e p : Z) : bool :=
  if e <? 0 then Z.shiftl (Z.abs (m - Z.shiftl p (-e))) 127 <=? 3 * Z.shiftl p (-e) else Z.shiftl (Z.abs (Z.shiftl m e - p)) 127 <=? 3 * p.
Definition same (m e p : Z) : bool := (e <=? 0) && (m =? Z.shiftl p (-e)).
Definition entry (k p : Z) : bool :=
  match pow5_z seeds k (2^127) (-127) with
  | Some (m, e) => (2^127 <=? m) && (m <? 2^128) && near m e p && ((54 <? k) || same m e p)
  | None => false
  end.
Lemma entry_ok k p : entry k p = true ->
  exists m e, pow5_z seeds k (2^127) (-127) = Some (m, e) /\ normal m /\ near m e p = true /\ (k <= 54 -> same m e p = true).
Proof.
  unfold entry. destruct (pow5_z seeds k (2^127) (-127)) as [[m e]|]; [|discriminate]. intros H1. exists m, e. split; [reflexivity|].
  apply andb_prop in H1 as [H1 H3]. apply andb_prop in H1 as [H1 H4]. apply andb_prop in H1 as [H1 H5]. unfold normal.
  split; [lia|]. split; [exact H4|]. intros J. destruct (54 <? k) eqn:Q; [lia|exact H3].
Qed.
Fixpoint pow5_check (n : nat) (k p : Z) : bool :=
  match n with
  | O => true
  | S n => entry k p && pow5_check n (k + 1) (5 * p)
  end.
Lemma pow5_checked : pow5_check 381 0 1 = true.
Proof. vm_compute. reflexivity. Qed.
Lemma pow5_check_in n : forall k p, pow5_check n k p = true -> p = 5^k -> 0 <= k -> forall j, k <= j < k + Z.of_nat n -> entry j (5^j) = true.
Proof.
  induction n as [|n IH]; intros k p H Ep Hk j Hj; [lia|]. cbn [pow5_check] in H. apply andb_prop in H as [H1 H2].
  destruct (Z.eq_dec j k) as [->|N]; [rewrite <- Ep; exact H1|].
  apply (IH (k + 1) (5 * p)); try lia; [exact H2|]. rewrite Ep, Z.pow_add_r by lia. lia.
Qed.

Open Scope R_scope.
Notation pow2 := (bpow radix2).
Lemma pow2_mul a b : pow2 a * pow2 b = pow2 (a + b).
Proof. symmetry. apply bpow_plus. Qed.
Lemma pow2_inv a : / pow2 a = pow2 (- a).
Proof. symmetry. apply bpow_opp. Qed.
Lemma pow2_Z a : (0 <= a)%Z -> IZR (2^a) = pow2 a.
Proof. intros H. change 2%Z with (radix_val radix2). apply IZR_Zpower. exact H. Qed.
(** every power of five that is asked for *)
Lemma pow5_ok k : (0 <= k <= 380)%Z -> exists m e, pow5_ k = Ok (m, e) /\ normal m /\
  Rabs (IZR m * pow2 e - IZR (5^k)) <= 3 * pow2 (-127) * IZR (5^k) /\
  ((k <= 54)%Z -> IZR m * pow2 e = IZR (5^k)).
Proof.
  intros Hk. destruct (entry_ok k (5^k) (pow5_check_in 381 0 1 pow5_checked eq_refl ltac:(lia) k ltac:(lia))) as (m & e & E & Hm & N & X).
  exists m, e. split; [apply pow5_loop_z; [apply seeds_normal|unfold normal; lia|exact E]|]. split; [exact Hm|].
  assert (P : (0 < 5^k)%Z) by (apply Z.pow_pos_nonneg; lia). set (p := (5^k)%Z) in *.
  assert (I127 : IZR (2^127) = pow2 127) by (apply pow2_Z; lia).
  assert (C127 : pow2 127 * pow2 (-127) = 1) by (rewrite pow2_mul; reflexivity).
  split.
  - unfold near in N. destruct (Z.ltb_spec e 0).
    + rewrite !shiftl_mul in N by lia. apply Z.leb_le, IZR_le in N. rewrite !mult_IZR, abs_IZR, minus_IZR, mult_IZR, I127, pow2_Z in N by lia.
      replace (IZR m * pow2 e - IZR p) with ((IZR m - IZR p * pow2 (-e)) * pow2 e).
      2:{ rewrite Rmult_minus_distr_r, Rmult_assoc, pow2_mul. replace (- e + e)%Z with 0%Z by lia. cbn [bpow]. lra. }
      rewrite Rabs_mult, (Rabs_pos_eq (pow2 e)) by apply bpow_ge_0.
      set (D := Rabs _) in *.
      assert (Q : pow2 (- e) * pow2 e = 1) by (rewrite pow2_mul; replace (- e + e)%Z with 0%Z by lia; reflexivity).
      pose proof (bpow_gt_0 radix2 (-127)) as G1. pose proof (bpow_gt_0 radix2 e) as G2.
      apply (Rmult_le_compat_r (pow2 (-127) * pow2 e)) in N; [|nra].
      replace (D * pow2 127 * (pow2 (-127) * pow2 e)) with (D * pow2 e * (pow2 127 * pow2 (-127))) in N by ring.
      replace (3 * (IZR p * pow2 (- e)) * (pow2 (-127) * pow2 e)) with (3 * pow2 (-127) * IZR p * (pow2 (- e) * pow2 e)) in N by ring.
      rewrite C127, Q in N. lra.
    + rewrite !shiftl_mul in N by lia. apply Z.leb_le, IZR_le in N. rewrite !mult_IZR, abs_IZR, minus_IZR, mult_IZR, I127, pow2_Z in N by lia.
      set (D := Rabs _) in *. pose proof (bpow_gt_0 radix2 (-127)) as G1.
      apply (Rmult_le_compat_r (pow2 (-127))) in N; [|lra].
      replace (D * pow2 127 * pow2 (-127)) with (D * (pow2 127 * pow2 (-127))) in N by ring. rewrite C127 in N. lra.
  - intros J. apply X in J. unfold same in J. apply andb_prop in J as [J1 J2]. apply Z.leb_le in J1. apply Z.eqb_eq in J2. rewrite shiftl_mul in J2 by lia.
    rewrite J2, mult_IZR, pow2_Z, Rmult_assoc, pow2_mul by lia. replace (- e + e)%Z with 0%Z by lia. cbn [bpow]. lra.
Qed.
