(** C130: integer powers of doubles and floats. *)
From Coq Require Import Reals Lra Lia.
From Flocq Require Import Core.
From Verif Require Import Base FP FP_Proof HW HW_Proof Math_Model Powi_Model Powi_Proof.
Open Scope Z_scope.
Local Ltac Zify.zify_post_hook ::= idtac.

(** For every finite double x and int n other than INT_MIN with x^n away from
    overflow and underflow, the result is finite and its relative error is at
    most 3/2 n 2^-53, or 3 |n| 2^-53 if n is negative. *)
Theorem C130_powidf2_accurate : forall x n, fbits 52 11 x -> ffinite 52 11 x = true ->
  INT_MIN < n <= INT_MAX -> (n < 0 -> fval 52 11 x <> 0%R) ->
  (bpow radix2 (-1021) <= Rabs (powerRZ (fval 52 11 x) n) <= bpow radix2 1022)%R ->
  exists r, powidf2 x n = Ok r /\ fbits 52 11 r /\ ffinite 52 11 r = true /\
   (Rabs (fval 52 11 r - powerRZ (fval 52 11 x) n) <=
     (if (n <? 0)%Z then 3 else 1.5) * IZR (Z.abs n) * bpow radix2 (-53) * Rabs (powerRZ (fval 52 11 x) n))%R.
Proof.
  intros x n Hx Fx Hn NZ V. unfold INT_MIN, INT_MAX in Hn.
  apply (powi_ok 52 11 eq_refl eq_refl eq_refl x n Hx Fx ltac:(lia) NZ); [|exact V].
  unfold u. change (- (52 + 1)) with (-53). assert (H : (IZR (Z.abs n) <= IZR (2^31))%R) by (apply IZR_le; lia).
  change (bpow radix2 (-53)) with (/ 9007199254740992)%R. change (IZR (2^31)) with 2147483648%R in H. lra.
Qed.
Print Assumptions C130_powidf2_accurate.

(** The same for floats, for |n| <= 2^21. *)
Theorem C130_powisf2_accurate : forall x n, fbits 23 8 x -> ffinite 23 8 x = true ->
  - 2^21 <= n <= 2^21 -> (n < 0 -> fval 23 8 x <> 0%R) ->
  (bpow radix2 (-125) <= Rabs (powerRZ (fval 23 8 x) n) <= bpow radix2 126)%R ->
  exists r, powisf2 x n = Ok r /\ fbits 23 8 r /\ ffinite 23 8 r = true /\
   (Rabs (fval 23 8 r - powerRZ (fval 23 8 x) n) <=
     (if (n <? 0)%Z then 3 else 1.5) * IZR (Z.abs n) * bpow radix2 (-24) * Rabs (powerRZ (fval 23 8 x) n))%R.
Proof.
  intros x n Hx Fx Hn NZ V.
  apply (powi_ok 23 8 eq_refl eq_refl eq_refl x n Hx Fx ltac:(lia) NZ); [|exact V].
  unfold u. change (- (23 + 1)) with (-24). assert (H : (IZR (Z.abs n) <= IZR (2^21))%R) by (apply IZR_le; lia).
  change (bpow radix2 (-24)) with (/ 16777216)%R. change (IZR (2^21)) with 2097152%R in H. lra.
Qed.
Print Assumptions C130_powisf2_accurate.

(** 3^5 = 243, and 2^-3 *)
Example C130_example : powidf2 0x4008000000000000 5 = Ok 0x406E600000000000 /\ powisf2 0x40000000 (-3) = Ok 0x3E000000.
Proof. split; vm_compute; reflexivity. Qed.
(** the value 2 meets the hypotheses with n = -3 *)
Example C130_hypotheses : fval 23 8 0x40000000 = 2%R /\ (bpow radix2 (-125) <= Rabs (powerRZ 2 (-3)) <= bpow radix2 126)%R.
Proof.
  split.
  - change (F2R (Float radix2 0x800000 (-22)) = 2%R). unfold F2R. cbn [Fnum Fexp]. change (bpow radix2 (-22)) with (/ 4194304)%R. lra.
  - change (powerRZ 2 (-3)) with (/ (2 * (2 * (2 * 1))))%R. replace (/ (2 * (2 * (2 * 1))))%R with (bpow radix2 (-3)) by (change (bpow radix2 (-3)) with (/ 8)%R; field).
    rewrite Rabs_pos_eq by apply bpow_ge_0. split; apply bpow_le; discriminate.
Qed.

(** The zeroth power is 1 whatever the number, NaN included; every call but the
    one with INT_MIN returns. *)
Theorem C130_powi_total : forall x,
  powidf2 x 0 = Ok 0x3FF0000000000000 /\ powisf2 x 0 = Ok 0x3F800000 /\
  (forall n, INT_MIN < n <= INT_MAX -> (exists r, powidf2 x n = Ok r) /\ (exists r, powisf2 x n = Ok r)).
Proof.
  intros x. split; [reflexivity|]. split; [reflexivity|]. intros n Hn. unfold INT_MIN, INT_MAX in Hn. unfold powidf2, powisf2, powi_, powu_.
  destruct (Z.ltb_spec n 0) as [L|L].
  - rewrite chk_i32_ok by (unfold INT_MIN, INT_MAX; lia). cbn [bind]. unfold u32. rewrite Z.mod_small by lia.
    split; apply loop_total; change (2^Z.of_nat 32) with 0x100000000; lia.
  - unfold u32. rewrite Z.mod_small by lia. split; apply loop_total; change (2^Z.of_nat 32) with 0x100000000; lia.
Qed.
Print Assumptions C130_powi_total.

(** With INT_MIN the negation overflows, though 1 to any power is 1. *)
Theorem C130_int_min_refuted : exists x y, fval 52 11 x = 1%R /\ fval 23 8 y = 1%R /\ powidf2 x INT_MIN = UB /\ powisf2 y INT_MIN = UB.
Proof.
  exists 0x3FF0000000000000, 0x3F800000. split; [|split; [|split; reflexivity]].
  - exact (proj2 (proj2 (one_good 52 11 eq_refl eq_refl eq_refl))).
  - exact (proj2 (proj2 (one_good 23 8 eq_refl eq_refl eq_refl))).
Qed.
Print Assumptions C130_int_min_refuted.
