(** Property theorems C70 (ldexpl), C72 (nexttoward), C73 (fma), C76 and C77. *)
From Coq Require Import Reals Lra.
From Flocq Require Import Core BinarySingleNaN Calc.Operations.
From Verif Require Import Base Bits FP FP_Proof HW HW_Proof FPInt Int128_Model Tf_Model Tf_Proof Tf_Widen_Proof Tf_Narrow_Proof Int128_Float_Proof Math_Model Math_Spec
  Math_Scalbn_Proof Math_Misc_Proof Math_Props Mathl_Model Mathl_Spec Mathl_Proof.
Open Scope Z_scope.
Local Ltac Zify.zify_post_hook ::= idtac.

(** ** C70 *)
Theorem C70_ldexpl : forall x n, is_i32 n -> fbits 112 15 x ->
  (ffinite 112 15 x = true -> exists r, ldexpl x n = Ok r /\ rounds_to 112 15 (fval 112 15 x * bpow radix2 n) (fneg 112 15 x) r) /\
  (ffinite 112 15 x = false -> ldexpl x n = Ok x).
Proof. intros x n Hn Hx. split; [apply ldexpl_ok; assumption|intros F; apply (L4 scalbn_special); exact F]. Qed.
Print Assumptions C70_ldexpl.
(* ldexpl(1.5L, -16495) = 2^-16494 (rounded up from 0.75 units); ldexpl(-1L, INT_MAX) = -inf *)
Example C70l_ex : fbits 112 15 (0x3FFF * 2^112) /\ ffinite 112 15 (0x3FFF * 2^112) = true /\
  ldexpl (0x3FFF * 2^112 + 2^111) (-16495) = Ok 1 /\ ldexpl (0xBFFF * 2^112) INT_MAX = Ok (0xFFFF * 2^112) /\
  ldexpl (0x3FFF * 2^112 + 5) 10 = Ok (0x4009 * 2^112 + 5).
Proof. repeat split; vm_compute; congruence. Qed.

(** ** C72 *)
Theorem C72_nexttoward : forall x y, fbits 52 11 x -> fbits 112 15 y ->
  (fisnan 52 11 x = false -> fisnan 112 15 y = false -> exists r, nexttoward x y = Ok r /\ neighbour_toward 52 11 x y r) /\
  (fisnan 52 11 x = true \/ fisnan 112 15 y = true -> exists r, nexttoward x y = Ok r /\ some_nan 52 11 r).
Proof. exact nexttoward64_ok. Qed.
Print Assumptions C72_nexttoward.
Theorem C72_nexttowardf : forall x y, fbits 23 8 x -> fbits 112 15 y ->
  (fisnan 23 8 x = false -> fisnan 112 15 y = false -> exists r, nexttowardf x y = Ok r /\ neighbour_toward 23 8 x y r) /\
  (fisnan 23 8 x = true \/ fisnan 112 15 y = true -> exists r, nexttowardf x y = Ok r /\ some_nan 23 8 r).
Proof. exact nexttoward32_ok. Qed.
Print Assumptions C72_nexttowardf.
(* from 1 towards 1 + 2^-112, which as a double is 1: the result is 1 + 2^-52; from 0 towards -2^-16494 *)
Example C72l_ex : fisnan 52 11 0x3FF0000000000000 = false /\ fisnan 112 15 (0x3FFF * 2^112 + 1) = false /\
  nexttoward 0x3FF0000000000000 (0x3FFF * 2^112 + 1) = Ok 0x3FF0000000000001 /\
  nexttoward 0 (2^127 + 1) = Ok 0x8000000000000001 /\ nexttowardf 0x3F800000 (0x3FFF * 2^112 - 1) = Ok 0x3F7FFFFF.
Proof. repeat split; vm_compute; congruence. Qed.

(** ** C76 *)
Theorem C76_truncl : forall x, fbits 112 15 x -> exists r, truncl x = Ok r /\ rounded 112 15 Ztrunc x r.
Proof. exact truncl_ok. Qed.
Print Assumptions C76_truncl.
Theorem C76_nexttowardl : nextafter_spec 112 15 nexttowardl.
Proof.
  intros x y Hx Hy. rewrite nexttowardl_same by assumption.
  split; [intros; apply (L4 neighbour_ok); assumption|apply (L4 nextafter_nan)].
Qed.
Print Assumptions C76_nexttowardl.
(* truncl(-2^100 - 0.75) = -2^100; truncl(-0.5) = -0; nexttowardl(1, -1) = 1 - 2^-113; nexttowardl(inf, 0) = LDBL_MAX *)
Example C76_ex : fbits 112 15 ((0xC000 + 99) * 2^112 + 3 * 2^10) /\
  truncl ((0xC000 + 99) * 2^112 + 3 * 2^10) = Ok ((0xC000 + 99) * 2^112) /\
  truncl (0xBFFE * 2^112) = Ok (2^127) /\ truncl (0x7FFF * 2^112 + 7) = Ok (0x7FFF * 2^112 + 7) /\
  nexttowardl (0x3FFF * 2^112) (0xBFFF * 2^112) = Ok (0x3FFF * 2^112 - 1) /\ nexttowardl (0x7FFF * 2^112) 0 = Ok (0x7FFF * 2^112 - 1).
Proof. repeat split; vm_compute; congruence. Qed.

(** ** C77 *)
(** Full statement: [rounded 112 15 ZnearestE x r] for every x.  Missing (false, see below): arguments
    that are not values of type double, which are first rounded to double. *)
Theorem C77_nearbyintl_partial : forall x d, fbits 112 15 x -> fisnan 112 15 x = false ->
  fbits 52 11 d -> fisnan 52 11 d = false -> xval 52 11 d = xval 112 15 x ->
  exists r, nearbyintl x = Ok r /\ rounded 112 15 ZnearestE x r.
Proof. exact nearbyintl_ok. Qed.
Print Assumptions C77_nearbyintl_partial.
(* 2.5 is a double; it rounds to 2 *)
Example C77_ex : fbits 112 15 (0x4000 * 2^112 + 2^110) /\ fisnan 112 15 (0x4000 * 2^112 + 2^110) = false /\
  xval 52 11 0x4004000000000000 = xval 112 15 (0x4000 * 2^112 + 2^110) /\
  nearbyintl (0x4000 * 2^112 + 2^110) = Ok (0x4000 * 2^112).
Proof.
  split; [split; vm_compute; congruence|]. split; [reflexivity|]. split; [|vm_compute; reflexivity].
  destruct (extenddftf2_ok 0x4004000000000000 ltac:(split; vm_compute; congruence)) as (y & E & _ & _ & _ & V).
  assert (E' : extenddftf2 0x4004000000000000 = Ok (0x4000 * 2^112 + 2^110)) by (vm_compute; reflexivity).
  rewrite E' in E. apply Ok_eq in E. rewrite E. symmetry. apply V. reflexivity.
Qed.

(** the value of the pattern of an integer below 2^113 *)
Lemma fval_int n e : 0 < n < 2^113 -> 2^112 <= n * 2^e -> 0 <= e -> n * 2^e < 2^113 ->
  fval 112 15 ((0x3FFF + 112 - e - 1) * 2^112 + n * 2^e) = IZR n.
Proof.
  intros Hn L He H. assert (Pe : 0 < 2^e) by (apply pow2_pos; lia).
  assert (E112 : e <= 112). { destruct (Z.le_gt_cases e 112); [assumption|]. assert (2^113 <= 2^e) by (apply Z.pow_le_mono_r; lia). nia. }
  set (k := _ + n * 2^e). assert (Hk : 0 <= k < 2^127) by (unfold k; lia).
  unfold fval, fneg, fabsb. change (112 + 15) with 127. replace (2^127 <=? k) with false by lia. rewrite Z.mod_small by exact Hk.
  rewrite (fmag_normal 112 15 k (0x3FFF + 112 - e) (n * 2^e - 2^112)) by (unfold k; lia).
  unfold F2R. cbn [Fnum Fexp]. replace (2^112 + (n * 2^e - 2^112)) with (n * 2^e) by lia.
  replace (emin 112 15 + (0x3FFF + 112 - e) - 1) with (- e) by (unfold emin; lia).
  rewrite mult_IZR, <- bpow2, Rmult_assoc, <- bpow_plus, Z.add_opp_diag_r by lia. cbn. lra.
Qed.

Theorem C77_large_refuted : exists x r, fbits 112 15 x /\ nearbyintl x = Ok r /\ ~ rounded 112 15 ZnearestE x r.
Proof.
  (* the integer 2^53 + 1 becomes 2^53 + 2 *)
  exists ((0x3FFF + 112 - 59 - 1) * 2^112 + (2^53 + 1) * 2^59), ((0x3FFF + 112 - 59 - 1) * 2^112 + (2^53 + 2) * 2^59).
  split; [split; vm_compute; congruence|]. split; [vm_compute; reflexivity|]. intros (_ & _ & H).
  specialize (H eq_refl). destruct H as (_ & _ & H). rewrite !fval_int in H by (vm_compute; congruence || (split; vm_compute; congruence)).
  rewrite Zrnd_IZR in H by typeclasses eauto. apply eq_IZR in H. discriminate H.
Qed.
Print Assumptions C77_large_refuted.

(** ** C73 *)
(** a finite pattern as an integer times a power of two *)
Definition dyadic (mw ew b : Z) : float radix2 :=
  let k := fabsb mw ew b in
  let m := if k / 2^mw =? 0 then k else 2^mw + k mod 2^mw in
  Float radix2 (if fneg mw ew b then - m else m) (if k / 2^mw =? 0 then emin mw ew else emin mw ew + k / 2^mw - 1).
Lemma fval_dyadic mw ew b : fval mw ew b = F2R (dyadic mw ew b).
Proof.
  unfold fval, fmag, dyadic. destruct (_ =? 0), (fneg mw ew b); try reflexivity; rewrite <- F2R_Zopp; reflexivity.
Qed.
Lemma fma_dyadic mw ew a b c :
  (fval mw ew a * fval mw ew b + fval mw ew c)%R = F2R (Fplus (Fmult (dyadic mw ew a) (dyadic mw ew b)) (dyadic mw ew c)).
Proof. rewrite F2R_plus, F2R_mult, !fval_dyadic. reflexivity. Qed.

(** the correct result is the pattern [r0]: any other is not one *)
Lemma fma_only mw ew a b c (neg : bool) M E t r : 0 < mw -> 1 < ew ->
  Fplus (Fmult (dyadic mw ew a) (dyadic mw ew b)) (dyadic mw ew c) = Float radix2 (if neg then - M else M) E ->
  0 < M -> E <= t -> emin mw ew <= t -> M / 2^(t - E) < 2^(mw + 1) -> (2^mw <= M / 2^(t - E) \/ t = emin mw ew) ->
  fma_result mw ew a b c r -> r = with_sign mw ew neg (Z.min ((t - emin mw ew) * 2^mw + rne M (2^(t - E))) (finf mw ew)).
Proof.
  intros Hmw Hew EX HM H1 H2 H3 H4 R. unfold fma_result in R. rewrite fma_dyadic, EX in R.
  assert (V : F2R (Float radix2 (if neg then - M else M) E) = if neg then Ropp (F2R (Float radix2 M E)) else F2R (Float radix2 M E)).
  { destruct neg; [rewrite F2R_Zopp|]; reflexivity. }
  assert (P : (0 < F2R (Float radix2 M E))%R) by (apply F2R_gt_0; exact HM).
  rewrite V in R. assert (S : fma_sign (if neg then Ropp (F2R (Float radix2 M E)) else F2R (Float radix2 M E))
    (xorb (fneg mw ew a) (fneg mw ew b)) (fneg mw ew c) = neg).
  { unfold fma_sign. destruct neg; [rewrite Rcompare_Lt by lra|rewrite Rcompare_Gt by lra]; reflexivity. }
  rewrite S in R. apply (rounds_unique mw ew _ neg _ _ Hmw Hew R).
  apply rounds_pack; try assumption. lia.
Qed.

Lemma fma_zero mw ew a b c E r : 0 < mw -> 1 < ew -> Fplus (Fmult (dyadic mw ew a) (dyadic mw ew b)) (dyadic mw ew c) = Float radix2 0 E ->
  fma_result mw ew a b c r -> fval mw ew r = 0%R.
Proof.
  intros Hmw Hew EX R. unfold fma_result in R. rewrite fma_dyadic, EX, F2R_0 in R. destruct R as (_ & _ & H & _).
  unfold RN in H. rewrite round_0 in H by typeclasses eauto. apply H. rewrite Rabs_R0. apply bpow_gt_0.
Qed.

(** Full statement: [fma_result 52 11 a b c r] for all finite a, b, c.  False in three ways. *)
Theorem C73_cancellation_refuted : exists a b c r, fbits 52 11 a /\ fbits 52 11 b /\ fbits 52 11 c /\
  ffinite 52 11 a = true /\ ffinite 52 11 b = true /\ ffinite 52 11 c = true /\ fma a b c = Ok r /\ ~ fma_result 52 11 a b c r.
Proof.
  (* 2 * 2 - 4 gives -0.25 *)
  exists 0x4000000000000000, 0x4000000000000000, 0xC010000000000000, 0xBFD0000000000000.
  do 3 (split; [split; vm_compute; congruence|]). do 3 (split; [reflexivity|]). split; [vm_compute; reflexivity|]. intros H.
  apply (fma_zero 52 11 _ _ _ (-102)) in H; [|lia|lia|vm_compute; reflexivity]. rewrite fval_dyadic in H. apply eq_0_F2R in H. vm_compute in H. discriminate H.
Qed.
Print Assumptions C73_cancellation_refuted.
Theorem C73_large_refuted : exists a b c r, fbits 52 11 a /\ fbits 52 11 b /\ fbits 52 11 c /\
  ffinite 52 11 a = true /\ ffinite 52 11 b = true /\ ffinite 52 11 c = true /\ fma a b c = Ok r /\ ~ fma_result 52 11 a b c r.
Proof.
  (* 1.5 * 1.5 - 2^55 gives -2^55 instead of -2^55 + 4 *)
  exists 0x3FF8000000000000, 0x3FF8000000000000, 0xC360000000000000, 0xC360000000000000.
  do 3 (split; [split; vm_compute; congruence|]). do 3 (split; [reflexivity|]). split; [vm_compute; reflexivity|]. intros H.
  apply (fma_only 52 11 _ _ _ true (2^159 - 9 * 2^102) (-104) 2) in H; try (vm_compute; congruence); try (vm_compute; left; congruence).
  vm_compute in H. discriminate H.
Qed.
Print Assumptions C73_large_refuted.
Theorem C73_subnormal_refuted : exists a b c r, fbits 52 11 a /\ fbits 52 11 b /\ fbits 52 11 c /\
  ffinite 52 11 a = true /\ ffinite 52 11 b = true /\ ffinite 52 11 c = true /\ fma a b c = Ok r /\ ~ fma_result 52 11 a b c r.
Proof.
  exists 0x3200000000000000, 0x0d809f4cfc9ee2a6, 0x00074222196f8448, 0x000752c1666c232a.
  do 3 (split; [split; vm_compute; congruence|]). do 3 (split; [reflexivity|]). split; [vm_compute; reflexivity|]. intros H.
  pose (X := Fplus (Fmult (dyadic 52 11 0x3200000000000000) (dyadic 52 11 0x0d809f4cfc9ee2a6)) (dyadic 52 11 0x00074222196f8448)).
  apply (fma_only 52 11 _ _ _ false ltac:(let v := eval vm_compute in (Fnum X) in exact v) ltac:(let v := eval vm_compute in (Fexp X) in exact v) (-1074)) in H; try (vm_compute; congruence); try (vm_compute; right; congruence).
  vm_compute in H. discriminate H.
Qed.
Print Assumptions C73_subnormal_refuted.
