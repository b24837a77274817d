(** Property theorems C16-C21: binary128 [long double] comparisons,
    conversions and multiplication.  Patterns are integers below 2^128;
    [fbits 112 15 x] says x is such a pattern; [xval] is its value in the
    extended reals, [fval] its real value when finite, [rounds_to] correct
    rounding to nearest-even in Flocq's sense (FP.v). *)
From Coq Require Import Reals Lra.
From Flocq Require Import Core.
From Verif Require Import Base Bits FP FP_Proof Rne HW HW_Proof Int128_Model Int128_Proof
  Int128_Float_Model Int128_Float_Proof Tf_Model Tf_Proof Tf_Widen_Proof Tf_Narrow_Proof Tf_Int_Proof Tf_Mul_Proof.
Open Scope Z_scope.
Local Ltac Zify.zify_post_hook ::= idtac.

(** ** C16 *)
(** The C operators test the returned int against 0: [a < b] is [__lttf2 < 0],
    [a >= b] is [__getf2 >= 0], [a == b] is [__eqtf2 == 0]. *)
Definition nan128 x := fisnan 112 15 x = true.
Definition lt128 a b := ~ nan128 a /\ ~ nan128 b /\ xlt (xval 112 15 a) (xval 112 15 b).
Definition eq128 a b := ~ nan128 a /\ ~ nan128 b /\ xval 112 15 a = xval 112 15 b.

Theorem C16_comparisons : forall a b, fbits 112 15 a -> fbits 112 15 b ->
  (unordtf2 a b <> 0 <-> nan128 a \/ nan128 b) /\
  (eqtf2 a b = 0 <-> eq128 a b) /\
  (cmptf2 a b < 0 <-> lt128 a b) /\
  (cmptf2 a b <= 0 <-> lt128 a b \/ eq128 a b) /\
  (getf2 a b > 0 <-> lt128 b a) /\
  (getf2 a b >= 0 <-> lt128 b a \/ eq128 a b).
Proof.
  intros a b Ha Hb. unfold unordtf2, cmptf2, getf2. rewrite !isnanl_ok, eqtf2_ok, !cmptf2_ok by assumption.
  unfold eq128, lt128, nan128.
  destruct (fisnan 112 15 a) eqn:Na; [cbn; intuition (discriminate || lia)|].
  destruct (fisnan 112 15 b) eqn:Nb; [cbn; intuition (discriminate || lia)|].
  pose proof (xlt_ford 112 15 eq_refl eq_refl a b Ha Hb Na Nb) as L1.
  pose proof (xlt_ford 112 15 eq_refl eq_refl b a Hb Ha Nb Na) as L2.
  pose proof (xeq_ford 112 15 eq_refl eq_refl a b Ha Hb Na Nb) as E1.
  cbn [orb]. rewrite E1, L1, L2.
  assert (T : true <> false) by discriminate. assert (F : ~ false = true) by discriminate.
  split; [cbn; intuition (discriminate || lia)|].
  split. { destruct (Z.eqb_spec (ford 112 15 a) (ford 112 15 b)); cbn; intuition (discriminate || lia). }
  repeat split; intros; try tauto; intuition (try discriminate; try lia).
Qed.
Print Assumptions C16_comparisons.

(** -0 == +0; 1 < 2; a NaN is unordered with itself *)
Example C16_ex : eqtf2 (2^127) 0 = 0 /\ cmptf2 (0x3FFF * 2^112) (0x4000 * 2^112) < 0 /\
  eqtf2 (0x7FFF * 2^112 + 1) (0x7FFF * 2^112 + 1) <> 0 /\ getf2 (0x7FFF * 2^112 + 1) 0 < 0.
Proof. repeat split; vm_compute; congruence. Qed.

(** ** C17 *)
Theorem C17_widening_exact :
  (forall x, fbits 52 11 x -> exists y, extenddftf2 x = Ok y /\
     fbits 112 15 y /\ (fisnan 52 11 x = true -> fisnan 112 15 y = true) /\
     (fisnan 52 11 x = false -> fisnan 112 15 y = false /\ fneg 112 15 y = fneg 52 11 x /\ xval 112 15 y = xval 52 11 x)) /\
  (forall x, fbits 23 8 x ->
     fbits 112 15 (extendsftf2 x) /\ (fisnan 23 8 x = true -> fisnan 112 15 (extendsftf2 x) = true) /\
     (fisnan 23 8 x = false -> fisnan 112 15 (extendsftf2 x) = false /\ fneg 112 15 (extendsftf2 x) = fneg 23 8 x /\
        xval 112 15 (extendsftf2 x) = xval 23 8 x)).
Proof.
  split; intros x Hx.
  - destruct (extenddftf2_ok x Hx) as (y & E & S1 & S2 & S3 & S4). exists y. split; [exact E|]. split; [exact S1|].
    rewrite S3. split; [auto|]. intros N. rewrite S2. auto.
  - destruct (fisnan 23 8 x) eqn:N.
    + destruct (extendsftf2_nan x Hx N) as [A B]. split; [exact A|]. split; [auto|discriminate].
    + destruct (extendsftf2_ok x Hx N) as (S1 & S2 & S3 & S4). split; [exact S1|]. split; [discriminate|].
      intros _. rewrite S3, N, S2. auto.
Qed.
Print Assumptions C17_widening_exact.

(** the smallest subnormal double 2^-1074 and the float 1.5 *)
Example C17_ex : extenddftf2 1 = Ok ((0x3FFF - 1074) * 2^112) /\ extendsftf2 0x3FC00000 = 0x3FFF * 2^112 + 2^111.
Proof. split; vm_compute; reflexivity. Qed.

(** ** C18 *)
(** Full statement: no exclusion for the double conversion.  Missing (false, see
    below): finite values in [trunctfdf_bad], i.e. exact ties whose kept part
    is even (normal results) and inexact values in the binade just below the
    normal range of double. *)
Theorem C18_narrowing_partial :
  (forall x, fbits 112 15 x ->
    (ffinite 112 15 x = true -> rounds_to 23 8 (fval 112 15 x) (fneg 112 15 x) (trunctfsf2 x)) /\
    (fisinf 112 15 x = true -> trunctfsf2 x = with_sign 23 8 (fneg 112 15 x) (finf 23 8)) /\
    (fisnan 112 15 x = true -> fbits 23 8 (trunctfsf2 x) /\ fisnan 23 8 (trunctfsf2 x) = true)) /\
  (forall x, fbits 112 15 x ->
    (ffinite 112 15 x = true -> ~ trunctfdf_bad (fabsb 112 15 x) ->
      rounds_to 52 11 (fval 112 15 x) (fneg 112 15 x) (trunctfdf2 x)) /\
    (fisinf 112 15 x = true -> trunctfdf2 x = with_sign 52 11 (fneg 112 15 x) (finf 52 11)) /\
    (fisnan 112 15 x = true -> fbits 52 11 (trunctfdf2 x) /\ fisnan 52 11 (trunctfdf2 x) = true)).
Proof. split; intros x Hx; [apply trunctfsf2_ok|apply trunctfdf2_ok]; assumption. Qed.
Print Assumptions C18_narrowing_partial.

(** 1 + 2^-52 + 2^-53 (an odd tie) is inside the domain and rounds up *)
Example C18_ex : ~ trunctfdf_bad (0x3FFF * 2^112 + 3 * 2^59) /\
  trunctfdf2 (0x3FFF * 2^112 + 3 * 2^59) = 0x3FF0000000000002 /\ trunctfsf2 (0x4001 * 2^112) = 0x40800000.
Proof.
  split; [|split; vm_compute; reflexivity]. unfold trunctfdf_bad. intros [[_ H]|[H _]]; vm_compute in H; discriminate H.
Qed.

Theorem C18_tie_refuted : exists x, fbits 112 15 x /\ ffinite 112 15 x = true /\
  ~ rounds_to 52 11 (fval 112 15 x) (fneg 112 15 x) (trunctfdf2 x).
Proof.
  (* 1 + 2^-53 becomes 1 + 2^-52 instead of 1 *)
  exists (0x3FFF * 2^112 + 2^59). split; [unfold fbits; lia|]. split; [reflexivity|]. intros H.
  change (fneg 112 15 (0x3FFF * 2^112 + 2^59)) with false in H.
  assert (V : fval 112 15 (0x3FFF * 2^112 + 2^59) = F2R (Float radix2 (2^112 + 2^59) (-112))).
  { unfold fval. change (fneg 112 15 _) with false. cbv iota. change (fabsb 112 15 _) with (0x3FFF * 2^112 + 2^59).
    rewrite (fmag_normal 112 15 _ 0x3FFF (2^59)) by (reflexivity || lia). reflexivity. }
  rewrite V in H.
  pose proof (rounds_pack 52 11 eq_refl eq_refl false (2^112 + 2^59) (-112) (-52) ltac:(lia) ltac:(lia) ltac:(vm_compute; discriminate)
    ltac:(vm_compute; reflexivity) ltac:(left; vm_compute; discriminate)) as K. cbv iota in K.
  pose proof (rounds_unique 52 11 _ _ _ _ eq_refl eq_refl H K) as E. vm_compute in E. discriminate E.
Qed.
Print Assumptions C18_tie_refuted.

(** ** C19 *)
(** [is_int 112 15 a b]: b is a finite pattern with value exactly a (and the
    sign of a).  Full statement: every signed integer.  Missing (false, see
    below): the most negative 64- and 128-bit integers. *)
Theorem C19_int_to_long_double_partial :
  (forall a, - 2^31 <= a < 2^31 -> is_int 112 15 a (floatsitf a)) /\
  (forall a, 0 <= a < 2^32 -> is_int 112 15 a (floatunsitf a)) /\
  (forall a, - 2^63 < a < 2^63 -> exists b, floatditf a = Ok b /\ is_int 112 15 a b) /\
  (forall a, 0 <= a < 2^64 -> exists b, floatunditf a = Ok b /\ is_int 112 15 a b) /\
  (forall a, - 2^127 < a < 2^127 -> exists b, floattitf a = Ok b /\ rounds_to 112 15 (IZR a) (a <? 0) b) /\
  (forall a, 0 <= a < 2^128 -> exists b, floatuntitf a = Ok b /\ rounds_to 112 15 (IZR a) false b).
Proof.
  split; [exact floatsitf_ok|]. split; [exact floatunsitf_ok|]. split; [exact floatditf_ok|].
  split; [exact floatunditf_ok|]. split; [exact floattitf_ok|exact floatuntitf_ok].
Qed.
Print Assumptions C19_int_to_long_double_partial.

(** -3 and 2^127 + 1 (not representable, rounds to 2^127) *)
Example C19_ex : floatditf (-3) = Ok (0xC000 * 2^112 + 2^111) /\ floatuntitf (2^127 + 1) = Ok ((0x3FFF + 127) * 2^112).
Proof. split; vm_compute; reflexivity. Qed.

Theorem C19_min_refuted : (exists a, - 2^63 <= a < 2^63 /\ floatditf a = UB) /\
  (exists a, - 2^127 <= a < 2^127 /\ floattitf a = UB).
Proof. split; [exists (- 2^63)|exists (- 2^127)]; (split; [lia|vm_compute; reflexivity]). Qed.
Print Assumptions C19_min_refuted.

(** ** C20 *)
(** Full statement: -2^127 included for the signed 128-bit conversion.  Missing
    (false, see below): exactly that value. *)
Theorem C20_long_double_to_int_partial : forall x, fbits 112 15 x -> ffinite 112 15 x = true ->
  let n := Ztrunc (fval 112 15 x) in
  (- 2^31 <= n < 2^31 -> fixtfsi x = Ok n) /\ (0 <= n < 2^32 -> fixunstfsi x = Ok n) /\
  (- 2^63 <= n < 2^63 -> fixtfdi x = Ok n) /\ (0 <= n < 2^64 -> fixunstfdi x = Ok n) /\
  (- 2^127 < n < 2^127 -> fixtfti x = Ok n) /\ (0 <= n < 2^128 -> fixunstfti x = Ok n).
Proof.
  intros x Hx F n. unfold n.
  split; [intros; apply fixtfsi_ok; assumption|]. split; [intros; apply fixunstfsi_ok; assumption|].
  split; [intros; apply fixtfdi_ok; assumption|]. split; [intros; apply fixunstfdi_ok; assumption|].
  split; [intros; apply fixtfti_ok; assumption|intros; apply fixunstfti_ok; assumption].
Qed.
Print Assumptions C20_long_double_to_int_partial.

(** -2.5 truncates to -2; 2^63 + 1 needs the unsigned conversion *)
Example C20_ex : fixtfsi (0xC000 * 2^112 + 2^110) = Ok (-2) /\ fixunstfdi ((0x3FFF + 63) * 2^112 + 2^49) = Ok (2^63 + 1).
Proof. split; vm_compute; reflexivity. Qed.

Theorem C20_min_refuted : exists x, fbits 112 15 x /\ ffinite 112 15 x = true /\ fval 112 15 x = IZR (- 2^127) /\ fixtfti x = UB.
Proof.
  exists ((0x8000 + 0x3FFF + 127) * 2^112). split; [unfold fbits; lia|]. split; [reflexivity|]. split; [|vm_compute; reflexivity].
  unfold fval. change (fneg 112 15 _) with true. cbv iota. change (fabsb 112 15 _) with ((0x3FFF + 127) * 2^112 + 0).
  rewrite (fmag_normal 112 15 _ (0x3FFF + 127) 0) by (reflexivity || lia). change (emin 112 15 + (0x3FFF + 127) - 1) with 15.
  unfold F2R. cbn [Fnum Fexp]. rewrite bpow2 by lia. rewrite <- mult_IZR, <- opp_IZR. reflexivity.
Qed.
Print Assumptions C20_min_refuted.

(** ** C21 *)
(** [mul_spec] (Tf_Mul_Proof.v) is the IEEE table: NaN operands and 0 * inf give
    a NaN, inf * nonzero is inf with the product sign, and finite operands give
    [rounds_to] of the real product with the product sign. *)
Theorem C21_multiplication : forall a b, fbits 112 15 a -> fbits 112 15 b ->
  let s := xorb (fneg 112 15 a) (fneg 112 15 b) in
  exists r, multf3 a b = Ok r /\ fbits 112 15 r /\
  (nan128 a \/ nan128 b -> nan128 r) /\
  (fisinf 112 15 a = true -> fabsb 112 15 b = 0 -> nan128 r) /\
  (fabsb 112 15 a = 0 -> fisinf 112 15 b = true -> nan128 r) /\
  (fisinf 112 15 a = true -> ~ nan128 b -> fabsb 112 15 b <> 0 -> r = with_sign 112 15 s (finf 112 15)) /\
  (~ nan128 a -> fabsb 112 15 a <> 0 -> fisinf 112 15 b = true -> r = with_sign 112 15 s (finf 112 15)) /\
  (ffinite 112 15 a = true -> ffinite 112 15 b = true -> rounds_to 112 15 (fval 112 15 a * fval 112 15 b) s r).
Proof.
  intros a b Ha Hb s. destruct (multf3_ok a b Ha Hb) as (r & E & M). exists r. split; [exact E|].
  unfold mul_spec in M. cbv zeta in M. fold s in M. unfold nan128, fisnan, fisinf, ffinite in *.
  pose proof (finf_pos 112 15 eq_refl eq_refl) as FP.
  set (ka := fabsb 112 15 a) in *. set (kb := fabsb 112 15 b) in *. set (I := finf 112 15) in *.
  destruct ((I <? ka) || (I <? kb) || ((ka =? I) && (kb =? 0)) || ((ka =? 0) && (kb =? I))) eqn:C1.
  - destruct M as [M1 M2]. split; [exact M1|]. repeat (split; [intros; try exact M2; exfalso; lia|]). intros; exfalso; lia.
  - destruct ((ka =? I) || (kb =? I)) eqn:C2.
    + split. { rewrite M. destruct (with_sign_spec 112 15 eq_refl eq_refl s I ltac:(lia)) as (_ & _ & W). exact W. }
      repeat (split; [intros; try exact M; exfalso; lia|]). intros; exfalso; lia.
    + split; [exact (proj1 M)|]. repeat (split; [intros; exfalso; lia|]). intros; exact M.
Qed.
Print Assumptions C21_multiplication.

(** 1.5 * -1.5 = -2.25; the smallest subnormal times 0.5 underflows to 0; inf * 0 is NaN *)
Example C21_ex : multf3 (0x3FFF * 2^112 + 2^111) (0xBFFF * 2^112 + 2^111) = Ok (0xC000 * 2^112 + 2^109) /\
  multf3 1 (0x3FFE * 2^112) = Ok 0 /\ multf3 (0x7FFF * 2^112) 0 = Ok (0x7FFF * 2^112 + 2^111).
Proof. repeat split; vm_compute; reflexivity. Qed.
