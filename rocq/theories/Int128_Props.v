(** Property theorems C10-C13: 128-bit integer arithmetic.  The specification is
    integer arithmetic of the standard library: [*], [/] and [mod] (floor),
    [Z.quot] and [Z.rem] (truncation), [^]. *)
From Verif Require Import Base Int128_Model Int128_Proof Int128_Div_Proof.

(** the signed 128-bit number congruent to a modulo 2^128 *)
Definition wraps_to (a r : Z) : Prop := - 2^127 <= r < 2^127 /\ exists k, a = r + k * 2^128.

Lemma s128_wraps a : wraps_to a (s128 a).
Proof.
  split; [apply (sgn_range 128); lia|].
  exists ((a - s128 a) / 2^128).
  pose proof (sgn_mod 128 a ltac:(lia)) as H. fold (s128 a) in H.
  assert (D : (a - s128 a) mod 2^128 = 0).
  { rewrite Zminus_mod, H, Z.sub_diag. reflexivity. }
  pose proof (Z.div_mod (a - s128 a) (2^128) ltac:(lia)). lia.
Qed.

(** ** C10 *)
(** Left shift wraps modulo 2^128; the right shifts are floor division by 2^n;
    none reaches an out-of-range machine shift (the result is never [UB]). *)
Theorem C10_shifts n : 0 <= n < 128 ->
  (forall x, - 2^127 <= x < 2^127 -> exists r, ashlti3 x n = Ok r /\ wraps_to (x * 2^n) r) /\
  (forall x, - 2^127 <= x < 2^127 -> ashrti3 x n = Ok (x / 2^n)) /\
  (forall x, 0 <= x < 2^128 -> lshrti3 x n = Ok (x / 2^n)).
Proof.
  intros Hn. split; [|split].
  - intros x Hx. exists (s128 (x * 2^n)). split; [apply ashlti3_ok; assumption|apply s128_wraps].
  - intros x Hx. apply ashrti3_ok; assumption.
  - intros x Hx. apply lshrti3_ok; assumption.
Qed.
Print Assumptions C10_shifts.

Example C10_ex : ashrti3 (- 2^127) 64 = Ok (- 2^63) /\ lshrti3 (2^127 + 5) 1 = Ok (2^126 + 2)
  /\ ashlti3 (-3) 126 = Ok (2^126).
Proof. repeat split. Qed.

(** ** C11 *)
Theorem C11_products :
  (forall a b, is_u64 a -> is_u64 b -> umulditi3 a b = a * b) /\
  (forall a b, is_u128 a -> is_u128 b -> exists low high,
     umulti4 a b = (low, high) /\ is_u128 low /\ is_u128 high /\ a * b = high * 2^128 + low) /\
  (forall a b, is_u128 a -> is_u128 b -> multi3 a b = (a * b) mod 2^128).
Proof.
  split; [|split].
  - apply umulditi3_ok.
  - intros a b Ha Hb. pose proof (umulti4_ok a b Ha Hb) as H.
    destruct (umulti4 a b) as [lo hi]. destruct H as (E & Hl & Hh).
    exists lo, hi. repeat split; try apply Hl; try apply Hh; lia.
  - apply multi3_ok.
Qed.
Print Assumptions C11_products.

(** Signed operands, passed as their two's complement patterns: the signed
    reading of the result is the product wrapped to 128 bits. *)
Theorem C11_signed_product a b : - 2^127 <= a < 2^127 -> - 2^127 <= b < 2^127 ->
  wraps_to (a * b) (s128 (multi3 (a mod 2^128) (b mod 2^128))).
Proof.
  intros Ha Hb. rewrite multi3_ok by (split; apply Z.mod_pos_bound; lia).
  rewrite <- Zmult_mod.
  replace (s128 ((a * b) mod 2^128)) with (s128 (a * b)); [apply s128_wraps|].
  apply (sgn_congr 128). symmetry. apply Z.mod_mod. lia.
Qed.
Print Assumptions C11_signed_product.

Example C11_ex : umulti4 (2^128 - 1) (2^128 - 1) = (1, 2^128 - 2) /\
  s128 (multi3 ((-7) mod 2^128) (6 mod 2^128)) = -42.
Proof. split; reflexivity. Qed.

(** ** C12 *)
Theorem C12_udivmod a b : 0 <= a < 2^128 -> 0 < b < 2^128 ->
  exists q r, udivmodti4 a b = Ok (q, r) /\ a = q * b + r /\ 0 <= r < b /\
    udivti3 a b = Ok q /\ umodti3 a b = Ok r.
Proof.
  intros Ha Hb. exists (a / b), (a mod b).
  unfold udivti3, umodti3. rewrite (udivmodti4_ok a b Ha Hb).
  split; [reflexivity|]. split; [rewrite Z.mul_comm; apply Z.div_mod; lia|].
  split; [apply Z.mod_pos_bound; lia|]. split; reflexivity.
Qed.
Print Assumptions C12_udivmod.

(** a case where the quotient estimate must be corrected, and one in the
    shift-and-subtract branch *)
Example C12_ex : udivmodti4 (2^127 + 2^95 - 1) (2^63 + 2^32 - 1) = Ok (18446744069414584323, 9223372019674906626)
  /\ udivmodti4 (2^128 - 1) (2^64 + 1) = Ok (2^64 - 1, 0).
Proof. split; reflexivity. Qed.

(** ** C13 *)
(** Full statement: for all a, b in [-2^127, 2^127) with b <> 0 and not
    (a = -2^127 and b = -1), divti3 a b = Ok (Z.quot a b) and modti3 a b =
    Ok (Z.rem a b).  Missing (because false, see below): INT128_MIN as an operand
    of the division, or as the divisor of the remainder. *)
Theorem C13_divmod_partial a b : - 2^127 <= a < 2^127 -> - 2^127 < b < 2^127 -> b <> 0 ->
  (- 2^127 < a -> divti3 a b = Ok (Z.quot a b)) /\
  modti3 a b = Ok (Z.rem a b).
Proof.
  intros Ha Hb Hb0. split.
  - intros Ha'. apply divti3_ok; lia.
  - apply modti3_ok; assumption.
Qed.
Print Assumptions C13_divmod_partial.

Example C13_ex : divti3 (-7) 2 = Ok (-3) /\ modti3 (-7) 2 = Ok (-1) /\ modti3 (- 2^127) 10 = Ok (-8).
Proof. repeat split. Qed.

(** INT128_MIN / b: `a + signa` overflows for every such division, and so does
    -b for INT128_MIN as a remainder's divisor. *)
Theorem C13_int128_min_refuted :
  (exists a b, - 2^127 <= a < 2^127 /\ - 2^127 <= b < 2^127 /\ b <> 0 /\ ~ (a = - 2^127 /\ b = -1) /\
     divti3 a b = UB) /\
  (exists a b, - 2^127 <= a < 2^127 /\ - 2^127 <= b < 2^127 /\ b <> 0 /\ ~ (a = - 2^127 /\ b = -1) /\
     modti3 a b = UB).
Proof.
  split.
  - exists (- 2^127), 2. repeat split; try lia.
  - exists 5, (- 2^127). repeat split; try lia.
Qed.
Print Assumptions C13_int128_min_refuted.
