(** C133: the accuracy of double complex quotients.  C134: quotients of infinities and zeros. *)
From Coq Require Import Reals Lra Lia.
From Flocq Require Import Core.
From Verif Require Import Base FP FP_Proof HW HW_Proof Complex_Spec Complex_Proof Cdiv_Model Cdiv_Proof Cdiv_Scale_Proof Cdiv_Acc_Proof Cdiv_Inf_Proof.
Open Scope Z_scope.
Local Ltac Zify.zify_post_hook ::= idtac.

(** the modulus of the number a + bi *)
Definition modulus (a b : Z) : R := let A := fval 52 11 a in let B := fval 52 11 b in sqrt (A * A + B * B).
(** the parts of (a + bi) / (c + di) *)
Definition quot_re (a b c d : Z) : R :=
  let A := fval 52 11 a in let B := fval 52 11 b in let C := fval 52 11 c in let D := fval 52 11 d in ((A * C + B * D) / (C * C + D * D))%R.
Definition quot_im (a b c d : Z) : R :=
  let A := fval 52 11 a in let B := fval 52 11 b in let C := fval 52 11 c in let D := fval 52 11 d in ((B * C - A * D) / (C * C + D * D))%R.

(** Each part is within 2^-50 of the modulus of the exact quotient, when
    neither the dividend nor the quotient is near the ends of the range.  The
    divisor may be any finite number but zero. *)
Theorem C133_quotient_accurate : forall a b c d, cbits 52 11 (a, b) -> cbits 52 11 (c, d) -> cfin 52 11 (a, b) -> cfin 52 11 (c, d) -> ~ czero 52 11 (c, d) ->
  (bpow radix2 (-900) <= modulus a b <= bpow radix2 590)%R -> (bpow radix2 (-1000) <= modulus a b / modulus c d <= bpow radix2 1000)%R ->
  exists u v, divdc3 a b c d = Ok (u, v) /\ cbits 52 11 (u, v) /\ cfin 52 11 (u, v) /\
    (Rabs (fval 52 11 u - quot_re a b c d) <= bpow radix2 (-50) * (modulus a b / modulus c d))%R /\
    (Rabs (fval 52 11 v - quot_im a b c d) <= bpow radix2 (-50) * (modulus a b / modulus c d))%R.
Proof.
  intros a b c d [Ba Bb] [Bc Bd] [Fa Fb] [Fc Fd] NZ HZ HQ. cbn [fst snd] in *.
  assert (N : (fval 52 11 c <> 0 \/ fval 52 11 d <> 0)%R).
  { destruct (Req_dec (fval 52 11 c) 0) as [E|E]; [|left; exact E]. right. intros E'. apply NZ. split; [split; assumption|split; assumption]. }
  destruct (div_ok a b c d Ba Bb Bc Bd Fa Fb Fc Fd N HZ HQ) as (u & v & E & U1 & U2 & U3 & U4 & U5 & U6).
  exists u, v. split; [exact E|]. split; [split; assumption|]. split; [split; assumption|]. split; assumption.
Qed.
Print Assumptions C133_quotient_accurate.

(** (3 + 4i) / (1 + 2i) = 2.2 - 0.4i *)
Lemma v1 : fval 52 11 0x3FF0000000000000 = 1%R. Proof. unfold fval, fmag, F2R. cbn -[IZR bpow]. change (bpow radix2 (-52)) with (/ 4503599627370496)%R. lra. Qed.
Lemma v2 : fval 52 11 0x4000000000000000 = 2%R. Proof. unfold fval, fmag, F2R. cbn -[IZR bpow]. change (bpow radix2 (-51)) with (/ 2251799813685248)%R. lra. Qed.
Lemma v3 : fval 52 11 0x4008000000000000 = 3%R. Proof. unfold fval, fmag, F2R. cbn -[IZR bpow]. change (bpow radix2 (-51)) with (/ 2251799813685248)%R. lra. Qed.
Lemma v4 : fval 52 11 0x4010000000000000 = 4%R. Proof. unfold fval, fmag, F2R. cbn -[IZR bpow]. change (bpow radix2 (-50)) with (/ 1125899906842624)%R. lra. Qed.
Example C133_example : cbits 52 11 (0x4008000000000000, 0x4010000000000000) /\ cbits 52 11 (0x3FF0000000000000, 0x4000000000000000) /\
  cfin 52 11 (0x4008000000000000, 0x4010000000000000) /\ cfin 52 11 (0x3FF0000000000000, 0x4000000000000000) /\ ~ czero 52 11 (0x3FF0000000000000, 0x4000000000000000) /\
  (bpow radix2 (-900) <= modulus 0x4008000000000000 0x4010000000000000 <= bpow radix2 590)%R /\
  (bpow radix2 (-1000) <= modulus 0x4008000000000000 0x4010000000000000 / modulus 0x3FF0000000000000 0x4000000000000000 <= bpow radix2 1000)%R /\
  divdc3 0x4008000000000000 0x4010000000000000 0x3FF0000000000000 0x4000000000000000 = Ok (0x400199999999999A, 0xBFD999999999999A).
Proof.
  assert (M1 : modulus 0x4008000000000000 0x4010000000000000 = 5%R) by (unfold modulus; rewrite v3, v4; replace (3 * 3 + 4 * 4)%R with (5 * 5)%R by ring; apply sqrt_square; lra).
  assert (M2 : (2 <= modulus 0x3FF0000000000000 0x4000000000000000 <= 3)%R).
  { unfold modulus. rewrite v1, v2. replace (1 * 1 + 2 * 2)%R with 5%R by ring. split.
    - rewrite <- (sqrt_square 2) at 1 by lra. apply sqrt_le_1_alt. lra.
    - rewrite <- (sqrt_square 3) by lra. apply sqrt_le_1_alt. lra. }
  pose proof (bpow_le radix2 (-900) 0 ltac:(lia)) as B1. pose proof (bpow_le radix2 3 590 ltac:(lia)) as B2. pose proof (bpow_le radix2 (-1000) 0 ltac:(lia)) as B3. pose proof (bpow_le radix2 3 1000 ltac:(lia)) as B4.
  change (bpow radix2 0) with 1%R in *. change (bpow radix2 3) with 8%R in *.
  split; [split; vm_compute; intuition discriminate|]. split; [split; vm_compute; intuition discriminate|]. split; [split; reflexivity|]. split; [split; reflexivity|].
  split; [intros (_ & Z & _); cbn [fst] in Z; rewrite v1 in Z; lra|]. rewrite M1. split; [lra|].
  set (m := modulus 0x3FF0000000000000 0x4000000000000000) in *. clearbody m.
  assert (I : (/ 3 <= / m <= / 2)%R) by (split; apply Rinv_le_contravar; lra). split; [unfold Rdiv; lra|vm_compute; reflexivity].
Qed.

(** Near the top of the range a finite quotient becomes a NaN and an infinity:
    1.5 2^1023 (1 + i) / (1.5 (1 - i)) = 2^1023 i, both parts doubles. *)
Theorem C133_overflow_refuted : exists a b c d r s, cbits 52 11 (a, b) /\ cbits 52 11 (c, d) /\ cfin 52 11 (a, b) /\ cfin 52 11 (c, d) /\ ~ czero 52 11 (c, d) /\
  cfin 52 11 (r, s) /\ quot_re a b c d = fval 52 11 r /\ quot_im a b c d = fval 52 11 s /\
  exists u v, divdc3 a b c d = Ok (u, v) /\ fisnan 52 11 u = true /\ fisinf 52 11 v = true.
Proof.
  exists 0x7FE8000000000000, 0x7FE8000000000000, 0x3FF8000000000000, 0xBFF8000000000000, 0, 0x7FE0000000000000.
  assert (A : fval 52 11 0x7FE8000000000000 = (6755399441055744 * bpow radix2 971)%R) by (unfold fval, fmag, F2R; cbn -[IZR bpow]; reflexivity).
  assert (S : fval 52 11 0x7FE0000000000000 = (4503599627370496 * bpow radix2 971)%R) by (unfold fval, fmag, F2R; cbn -[IZR bpow]; reflexivity).
  assert (C : fval 52 11 0x3FF8000000000000 = (3 / 2)%R) by (unfold fval, fmag, F2R; cbn -[IZR bpow]; change (bpow radix2 (-52)) with (/ 4503599627370496)%R; lra).
  assert (D : fval 52 11 0xBFF8000000000000 = (- (3 / 2))%R) by (unfold fval, fmag, F2R; cbn -[IZR bpow]; change (bpow radix2 (-52)) with (/ 4503599627370496)%R; lra).
  assert (Z0 : fval 52 11 0 = 0%R) by (change (fval 52 11 0) with (fmag 52 11 0); apply fmag_0; reflexivity).
  split; [split; vm_compute; intuition discriminate|]. split; [split; vm_compute; intuition discriminate|]. split; [split; reflexivity|]. split; [split; reflexivity|].
  split; [intros (_ & Z & _); cbn [fst] in Z; rewrite C in Z; lra|]. split; [split; reflexivity|].
  unfold quot_re, quot_im. rewrite A, S, C, D, Z0. set (P := bpow radix2 971). clearbody P. split; [field|]. split; [field|].
  exists 0x7FF8000000000000, 0x7FF0000000000000. split; [vm_compute; reflexivity|]. split; reflexivity.
Qed.
Print Assumptions C133_overflow_refuted.

(** With subnormal dividends the error reaches half of the quotient:
    2^-1074 / (3 2^-1074) comes out as 1/2. *)
Theorem C133_underflow_refuted : exists a b c d, cbits 52 11 (a, b) /\ cbits 52 11 (c, d) /\ cfin 52 11 (a, b) /\ cfin 52 11 (c, d) /\ ~ czero 52 11 (c, d) /\
  exists u v, divdc3 a b c d = Ok (u, v) /\ (modulus a b / modulus c d = / 3)%R /\ quot_re a b c d = (/ 3)%R /\ fval 52 11 u = (/ 2)%R.
Proof.
  exists 1, 0, 3, 0.
  assert (A : fval 52 11 1 = bpow radix2 (-1074)) by (unfold fval, fmag, F2R; cbn -[IZR bpow]; lra).
  assert (C : fval 52 11 3 = (3 * bpow radix2 (-1074))%R) by (unfold fval, fmag, F2R; cbn -[IZR bpow]; reflexivity).
  assert (Z0 : fval 52 11 0 = 0%R) by (change (fval 52 11 0) with (fmag 52 11 0); apply fmag_0; reflexivity).
  assert (H : fval 52 11 0x3FE0000000000000 = (/ 2)%R) by (unfold fval, fmag, F2R; cbn -[IZR bpow]; change (bpow radix2 (-53)) with (/ 9007199254740992)%R; lra).
  pose proof (bpow_gt_0 radix2 (-1074)) as P.
  split; [split; vm_compute; intuition discriminate|]. split; [split; vm_compute; intuition discriminate|]. split; [split; reflexivity|]. split; [split; reflexivity|].
  split; [intros (_ & Z & _); cbn [fst] in Z; rewrite C in Z; lra|].
  exists 0x3FE0000000000000, 0. split; [vm_compute; reflexivity|]. unfold modulus, quot_re. rewrite A, C, Z0. set (t := bpow radix2 (-1074)) in *. clearbody t.
  split; [|split; [field; lra|exact H]]. rewrite Rmult_0_r, !Rplus_0_r, !sqrt_square by lra. field. lra.
Qed.
Print Assumptions C133_underflow_refuted.

(** ** C134 infinities and zeros (C11 G.5.1) *)
(** An infinity over a finite number, or a nonzero finite number over a zero,
    is an infinity. *)
Theorem C134_quotient_infinite : forall a b c d, cbits 52 11 (a, b) -> cbits 52 11 (c, d) ->
  (cinf 52 11 (a, b) /\ cfin 52 11 (c, d)) \/ (cfin 52 11 (a, b) /\ ~ czero 52 11 (a, b) /\ czero 52 11 (c, d)) ->
  exists r, divdc3 a b c d = Ok r /\ cbits 52 11 r /\ cinf 52 11 r.
Proof.
  intros a b c d B1 B2 [[I F]|[F [N Z]]].
  - destruct (Req_dec (fval 52 11 c) 0) as [E|E]; [destruct (Req_dec (fval 52 11 d) 0) as [E'|E']|].
    + apply divdc3_zero; [exact B1|exact B2|split; [exact F|split; assumption]|left; exact I].
    + apply divdc3_inf_nz; try assumption. right; exact E'.
    + apply divdc3_inf_nz; try assumption. left; exact E.
  - apply divdc3_zero; try assumption. right. split; assumption.
Qed.
Print Assumptions C134_quotient_infinite.
(** (infinity + NaN i) / (3 + 4i), and (1 - 2i) / (0 - 0i) *)
Example C134_infinite_example : cinf 52 11 (0x7FF0000000000000, 0x7FF8000000000000) /\ cfin 52 11 (0x4008000000000000, 0x4010000000000000) /\
  divdc3 0x7FF0000000000000 0x7FF8000000000000 0x4008000000000000 0x4010000000000000 = Ok (0x7FF0000000000000, 0xFFF0000000000000) /\
  divdc3 0x3FF0000000000000 0xC000000000000000 0 0x8000000000000000 = Ok (0x7FF0000000000000, 0xFFF0000000000000).
Proof. split; [left; reflexivity|]. split; [split; reflexivity|]. split; vm_compute; reflexivity. Qed.

(** A finite number over an infinity is a zero, unless both parts of the
    divisor are infinite and |a| + |b| overflows. *)
Theorem C134_quotient_zero_partial : forall a b c d, cbits 52 11 (a, b) -> cbits 52 11 (c, d) ->
  cfin 52 11 (a, b) -> cinf 52 11 (c, d) ->
  (fisinf 52 11 c = false \/ fisinf 52 11 d = false \/ (RN 52 11 (Rabs (fval 52 11 a) + Rabs (fval 52 11 b)) < bpow radix2 1024)%R) ->
  exists r, divdc3 a b c d = Ok r /\ cbits 52 11 r /\ czero 52 11 r.
Proof. exact divdc3_over_inf. Qed.
Print Assumptions C134_quotient_zero_partial.
(** (1 + 2i) / (-infinity + NaN i) *)
Example C134_zero_example : cfin 52 11 (0x3FF0000000000000, 0x4000000000000000) /\ cinf 52 11 (0xFFF0000000000000, 0x7FF8000000000000) /\ fisinf 52 11 0x7FF8000000000000 = false /\
  divdc3 0x3FF0000000000000 0x4000000000000000 0xFFF0000000000000 0x7FF8000000000000 = Ok (0x8000000000000000, 0x8000000000000000).
Proof. split; [split; reflexivity|]. split; [left; reflexivity|]. split; [reflexivity|vm_compute; reflexivity]. Qed.

(** DBL_MAX (1 + i) / (infinity + i infinity) has a NaN part. *)
Theorem C134_quotient_zero_refuted : exists a b c d, cbits 52 11 (a, b) /\ cbits 52 11 (c, d) /\
  cfin 52 11 (a, b) /\ cinf 52 11 (c, d) /\ exists u v, divdc3 a b c d = Ok (u, v) /\ fisnan 52 11 u = true.
Proof.
  exists 0x7FEFFFFFFFFFFFFF, 0x7FEFFFFFFFFFFFFF, 0x7FF0000000000000, 0x7FF0000000000000.
  split; [split; vm_compute; intuition discriminate|]. split; [split; vm_compute; intuition discriminate|].
  split; [split; reflexivity|]. split; [left; reflexivity|]. exists 0x7FF8000000000000, 0. split; [vm_compute; reflexivity|reflexivity].
Qed.
Print Assumptions C134_quotient_zero_refuted.
