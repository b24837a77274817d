(** C74: fmaf. *)
From Coq Require Import Reals Lra.
From Flocq Require Import Core Calc.Operations.
From Verif Require Import Base FP FP_Proof FPInt Midpoint Math_Model Mathl_Spec Mathl_Props Fmaf_Proof.
Open Scope Z_scope.
Local Ltac Zify.zify_post_hook ::= idtac.

(** Full statement: [fma_result 23 8 a b c (fmaf a b c)] for all finite a, b, c.  Proved unless the sum rounded to double
    is a midpoint of two adjacent floats without being exact and |c| > |a*b|; there it is false. *)
Theorem C74_fmaf_partial a b c : fbits 23 8 a -> fbits 23 8 b -> fbits 23 8 c ->
  ffinite 23 8 a = true -> ffinite 23 8 b = true -> ffinite 23 8 c = true ->
  let p := (fval 23 8 a * fval 23 8 b)%R in
  let x := (p + fval 23 8 c)%R in
  (halfway (-149) 24 (RN 52 11 x) -> RN 52 11 x <> x -> (Rabs (fval 23 8 c) <= Rabs p)%R) ->
  fma_result 23 8 a b c (fmaf a b c).
Proof. exact (fmaf_correct a b c). Qed.
Print Assumptions C74_fmaf_partial.

(** 2^-24 (1 + 2^-46) + 1 is just above the midpoint of 1 and 1 + 2^-23; fmaf gives 1 *)
Theorem C74_normal_refuted : exists a b c, fbits 23 8 a /\ fbits 23 8 b /\ fbits 23 8 c /\
  ffinite 23 8 a = true /\ ffinite 23 8 b = true /\ ffinite 23 8 c = true /\ ~ fma_result 23 8 a b c (fmaf a b c).
Proof.
  exists (115 * 2^23 + 4097), (114 * 2^23 + 8380418), 0x3F800000.
  do 3 (split; [split; vm_compute; congruence|]). do 3 (split; [reflexivity|]). intros H.
  pose (X := Fplus (Fmult (dyadic 23 8 (115 * 2^23 + 4097)) (dyadic 23 8 (114 * 2^23 + 8380418))) (dyadic 23 8 0x3F800000)).
  apply (fma_only 23 8 _ _ _ false ltac:(let v := eval vm_compute in (Fnum X) in exact v) ltac:(let v := eval vm_compute in (Fexp X) in exact v) (-23)) in H; try (vm_compute; congruence); try (vm_compute; left; congruence).
  vm_compute in H. discriminate H.
Qed.
Print Assumptions C74_normal_refuted.
(** 2^-150 (1 + 2^-46) + 2^-129 is just above a midpoint of subnormal numbers *)
Theorem C74_subnormal_refuted : exists a b c, fbits 23 8 a /\ fbits 23 8 b /\ fbits 23 8 c /\
  ffinite 23 8 a = true /\ ffinite 23 8 b = true /\ ffinite 23 8 c = true /\
  (Rabs (fval 23 8 a * fval 23 8 b + fval 23 8 c) < bpow radix2 (-126))%R /\ ~ fma_result 23 8 a b c (fmaf a b c).
Proof.
  exists (52 * 2^23 + 4097), (51 * 2^23 + 8380418), 0x00100000.
  do 3 (split; [split; vm_compute; congruence|]). do 3 (split; [reflexivity|]).
  pose (X := Fplus (Fmult (dyadic 23 8 (52 * 2^23 + 4097)) (dyadic 23 8 (51 * 2^23 + 8380418))) (dyadic 23 8 0x00100000)).
  split.
  { rewrite fma_dyadic. apply F2R_lt_bpow. vm_compute. reflexivity. }
  intros H.
  apply (fma_only 23 8 _ _ _ false ltac:(let v := eval vm_compute in (Fnum X) in exact v) ltac:(let v := eval vm_compute in (Fexp X) in exact v) (-149)) in H; try (vm_compute; congruence); try (vm_compute; right; congruence).
  vm_compute in H. discriminate H.
Qed.
Print Assumptions C74_subnormal_refuted.

(** hypotheses: 1.5 * 1.5 + 2^-32, a dominant product *)
Example C74_fmaf_used : fma_result 23 8 0x3FC00000 0x3FC00000 0x2F800000 (fmaf 0x3FC00000 0x3FC00000 0x2F800000).
Proof.
  apply C74_fmaf_partial; try reflexivity; try (split; vm_compute; congruence).
  intros _ _. rewrite !fval_dyadic, <- F2R_mult.
  apply Rle_trans with (bpow radix2 0).
  - left. apply F2R_lt_bpow. vm_compute. reflexivity.
  - apply Rle_trans with (F2R (Fmult (dyadic 23 8 0x3FC00000) (dyadic 23 8 0x3FC00000))); [|apply Rle_abs].
    replace (bpow radix2 0) with (F2R (Float radix2 (2^46) (-46))).
    + let v := eval vm_compute in (Fmult (dyadic 23 8 0x3FC00000) (dyadic 23 8 0x3FC00000)) in change (Fmult (dyadic 23 8 0x3FC00000) (dyadic 23 8 0x3FC00000)) with v. apply F2R_le. discriminate.
    + unfold F2R. cbn [Fnum Fexp]. change (2^46) with (radix2^46). rewrite IZR_Zpower by lia. rewrite <- bpow_plus. reflexivity.
Qed.
