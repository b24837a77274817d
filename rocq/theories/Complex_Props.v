(** C127: complex products in both formats.  C128 and C129: float complex quotients. *)
From Coq Require Import Reals Lra Lia.
From Flocq Require Import Core.
From Verif Require Import Base FP FP_Proof HW HW_Proof Elem_Spec Complex_Model Complex_Spec Complex_Proof Complex_Div_Proof.
Open Scope Z_scope.
Local Ltac Zify.zify_post_hook ::= idtac.

(** the two formats with their product *)
Definition is_product (mw ew : Z) (f : Z -> Z -> Z -> Z -> Z * Z) : Prop :=
  (mw = 23 /\ ew = 8 /\ f = mulsc3) \/ (mw = 52 /\ ew = 11 /\ f = muldc3).

(** An infinite number times an infinite or a finite nonzero number is infinite. *)
Theorem C127_product_infinite : forall mw ew f z w, is_product mw ew f -> cbits mw ew z -> cbits mw ew w ->
  (cinf mw ew z /\ (cinf mw ew w \/ (cfin mw ew w /\ ~ czero mw ew w))) \/
  (cinf mw ew w /\ cfin mw ew z /\ ~ czero mw ew z) ->
  cinf mw ew (f (fst z) (snd z) (fst w) (snd w)).
Proof.
  intros mw ew f [a b] [c d] [(-> & -> & ->)|(-> & -> & ->)] B1 B2 H.
  - exact (cmul_inf 23 8 eq_refl eq_refl eq_refl a b c d B1 B2 H).
  - exact (cmul_inf 52 11 eq_refl eq_refl eq_refl a b c d B1 B2 H).
Qed.
Print Assumptions C127_product_infinite.

(** (infinity + i NaN)(-2 + 0i) *)
Example C127_infinite_example :
  is_product 23 8 mulsc3 /\ cbits 23 8 (0x7F800000, 0x7FC00000) /\ cbits 23 8 (0xC0000000, 0) /\
  cinf 23 8 (0x7F800000, 0x7FC00000) /\ cfin 23 8 (0xC0000000, 0) /\ ~ czero 23 8 (0xC0000000, 0) /\
  cinf 23 8 (mulsc3 0x7F800000 0x7FC00000 0xC0000000 0) /\ fst (mulsc3 0x7F800000 0x7FC00000 0xC0000000 0) = 0xFF800000.
Proof.
  split; [left; auto|]. split; [split; vm_compute; intuition discriminate|]. split; [split; vm_compute; intuition discriminate|].
  split; [left; reflexivity|]. split; [split; reflexivity|]. split.
  - intros (_ & E & _). cbn [fst] in E.
    assert (B : fbits 23 8 0xC0000000) by (vm_compute; intuition discriminate). assert (B0 : fbits 23 8 0) by (vm_compute; intuition discriminate).
    assert (V0 : fval 23 8 0 = 0%R) by (change (fval 23 8 0) with (fmag 23 8 0); apply fmag_0; reflexivity).
    rewrite <- V0 in E. apply (ford_eq 23 8 eq_refl eq_refl _ _ B B0) in E. discriminate.
  - split; [left; reflexivity|reflexivity].
Qed.

(** Finite operands: never NaN + NaN i, and without overflow in the four
    products of parts each part of the result is the rounded sum or difference
    of the rounded products. *)
Theorem C127_product_finite : forall mw ew f z w, is_product mw ew f -> cbits mw ew z -> cbits mw ew w ->
  cfin mw ew z -> cfin mw ew w ->
  let '(a, b) := z in let '(c, d) := w in
  ~ cnan mw ew (f a b c d) /\
  (~ overflows mw ew a c -> ~ overflows mw ew b d -> ~ overflows mw ew a d -> ~ overflows mw ew b c ->
   exists s t,
    rounds_to mw ew (RN mw ew (fval mw ew a * fval mw ew c) - RN mw ew (fval mw ew b * fval mw ew d)) s (fst (f a b c d)) /\
    rounds_to mw ew (RN mw ew (fval mw ew a * fval mw ew d) + RN mw ew (fval mw ew b * fval mw ew c)) t (snd (f a b c d))).
Proof.
  assert (G : forall mw ew Hmw Hew Hpe a b c d, cbits mw ew (a, b) -> cbits mw ew (c, d) -> cfin mw ew (a, b) -> cfin mw ew (c, d) ->
    ~ cnan mw ew (cmul mw ew Hmw Hew Hpe a b c d)).
  { intros mw ew Hmw Hew Hpe a b c d [B1 B2] [B3 B4] [F1 F2] [F3 F4]. cbn [fst snd] in *.
    pose proof (raw_finite mw ew Hmw Hew Hpe a b c d (conj B1 F1) (conj B2 F2) (conj B3 F3) (conj B4 F4)) as R.
    rewrite (cmul_raw mw ew Hmw Hew Hpe a b c d R). unfold cnan. cbn [fst snd]. apply Bool.andb_false_iff in R. intros [N1 N2]. destruct R; congruence. }
  intros mw ew f [a b] [c d] [(-> & -> & ->)|(-> & -> & ->)] B1 B2 F1 F2.
  - split; [apply G; assumption|]. destruct B1, B2, F1, F2. cbn [fst snd] in *.
    apply (cmul_finite 23 8 eq_refl eq_refl eq_refl a b c d); split; assumption.
  - split; [apply G; assumption|]. destruct B1, B2, F1, F2. cbn [fst snd] in *.
    apply (cmul_finite 52 11 eq_refl eq_refl eq_refl a b c d); split; assumption.
Qed.
Print Assumptions C127_product_finite.

(** (1 + 2i)(3 + 4i) = -5 + 10i *)
Example C127_finite_example :
  cfin 52 11 (0x3FF0000000000000, 0x4000000000000000) /\ cfin 52 11 (0x4008000000000000, 0x4010000000000000) /\
  muldc3 0x3FF0000000000000 0x4000000000000000 0x4008000000000000 0x4010000000000000 = (0xC014000000000000, 0x4024000000000000).
Proof. repeat split; vm_compute; reflexivity. Qed.

(** The result is NaN + NaN i for operands without NaNs only if one is infinite
    and the other is zero. *)
Theorem C127_product_nan : forall mw ew f z w, is_product mw ew f -> cbits mw ew z -> cbits mw ew w ->
  cnum mw ew z -> cnum mw ew w -> cnan mw ew (f (fst z) (snd z) (fst w) (snd w)) ->
  (cinf mw ew z /\ czero mw ew w) \/ (czero mw ew z /\ cinf mw ew w).
Proof.
  intros mw ew f z w P B1 B2 N1 N2 N.
  assert (X : forall u, cnum mw ew u -> cfin mw ew u \/ cinf mw ew u).
  { intros [x y] [Nx Ny]. unfold cfin, cinf, fisnan, ffinite, fisinf in *. cbn [fst snd] in *. lia. }
  assert (Y : forall u, czero mw ew u \/ ~ czero mw ew u).
  { intros [x y]. unfold czero, cfin. cbn [fst snd]. destruct (ffinite mw ew x), (ffinite mw ew y); try (right; intuition discriminate).
    destruct (Req_dec (fval mw ew x) 0); [destruct (Req_dec (fval mw ew y) 0)|]; [left|right|right]; tauto. }
  assert (NI : ~ cinf mw ew (f (fst z) (snd z) (fst w) (snd w))).
  { destruct N as [M1 M2]. intros [I|I]; unfold fisinf, fisnan in *; lia. }
  pose proof (C127_product_infinite mw ew f z w P B1 B2) as H.
  destruct (X z N1) as [Z|Z], (X w N2) as [W|W].
  - exfalso. pose proof (C127_product_finite mw ew f z w P B1 B2 Z W) as Q. destruct z, w. destruct Q as [Q _]. apply Q. exact N.
  - destruct (Y z); [tauto|]. exfalso. apply NI, H. tauto.
  - destruct (Y w); [tauto|]. exfalso. apply NI, H. tauto.
  - exfalso. apply NI, H. tauto.
Qed.
Print Assumptions C127_product_nan.

(** infinity times 0 *)
Example C127_nan_example : cnum 23 8 (0x7F800000, 0) /\ cnum 23 8 (0, 0) /\ cnan 23 8 (mulsc3 0x7F800000 0 0 0).
Proof. repeat split; vm_compute; reflexivity. Qed.

(** A product of parts that overflows is not lost to the NaNs of other parts. *)
Theorem C127_product_overflow : forall mw ew f a b c d, is_product mw ew f -> cbits mw ew (a, b) -> cbits mw ew (c, d) ->
  ~ cinf mw ew (a, b) -> ~ cinf mw ew (c, d) ->
  overflows mw ew a c \/ overflows mw ew b d \/ overflows mw ew a d \/ overflows mw ew b c ->
  ~ cnan mw ew (f a b c d).
Proof.
  intros mw ew f a b c d [(-> & -> & ->)|(-> & -> & ->)] B1 B2 I1 I2 H.
  - apply (cmul_overflow 23 8 eq_refl eq_refl eq_refl); try assumption. destruct B1, B2. cbn [fst snd] in *.
    destruct H as [H|[H|[H|H]]]; apply (overflows_inf 23 8 eq_refl eq_refl eq_refl) in H; auto.
  - apply (cmul_overflow 52 11 eq_refl eq_refl eq_refl); try assumption. destruct B1, B2. cbn [fst snd] in *.
    destruct H as [H|[H|[H|H]]]; apply (overflows_inf 52 11 eq_refl eq_refl eq_refl) in H; auto.
Qed.
Print Assumptions C127_product_overflow.

(** (2^127 + NaN i)(2^127 + NaN i) *)
Example C127_overflow_example : overflows 23 8 0x7F000000 0x7F000000 /\
  mulsc3 0x7F000000 0x7FC00000 0x7F000000 0x7FC00000 = (0x7F800000, 0x7FC00000).
Proof.
  split; [|vm_compute; reflexivity]. split; [reflexivity|]. split; [reflexivity|].
  assert (V : fval 23 8 0x7F000000 = bpow radix2 127).
  { change (F2R (Float radix2 0x800000 104) = bpow radix2 127). unfold F2R. cbn [Fnum Fexp]. change 0x800000 with (Zpower radix2 23). rewrite IZR_Zpower by lia. rewrite <- bpow_plus. reflexivity. }
  rewrite V, <- bpow_plus. unfold RN. rewrite round_generic; [|apply valid_rnd_N|].
  - rewrite Rabs_pos_eq by apply bpow_ge_0. apply bpow_le. discriminate.
  - apply generic_format_bpow. unfold FLT_exp, emin. cbn. lia.
Qed.

(** Each part of a float quotient is the float nearest to a real number within
    relative distance 2^-51 of the exact part, and zero where the exact part is. *)
Definition part_rounded (v : R) (b : Z) : Prop :=
  (v <> 0%R -> nearly_rounded 51 v b) /\ (v = 0%R -> ffinite 23 8 b = true /\ fval 23 8 b = 0%R).

Theorem C128_quotient_accurate : forall a b c d, cbits 23 8 (a, b) -> cbits 23 8 (c, d) ->
  cfin 23 8 (a, b) -> cfin 23 8 (c, d) -> ~ czero 23 8 (c, d) ->
  let '(A, B, C, D) := (fval 23 8 a, fval 23 8 b, fval 23 8 c, fval 23 8 d) in
  part_rounded ((A * C + B * D) / (C * C + D * D)) (fst (divsc3 a b c d)) /\
  part_rounded ((B * C - A * D) / (C * C + D * D)) (snd (divsc3 a b c d)).
Proof.
  intros a b c d [Ha Hb] [Hc Hd] [Fa Fb] [Fc Fd] NZ. cbn [fst snd] in *.
  assert (Z : (fval 23 8 c <> 0 \/ fval 23 8 d <> 0)%R).
  { unfold czero, cfin in NZ. cbn [fst snd] in NZ. destruct (Req_dec (fval 23 8 c) 0); [destruct (Req_dec (fval 23 8 d) 0)|]; tauto. }
  destruct (kernel_ok a b c d (conj Ha Fa) (conj Hb Fb) (conj Hc Fc) (conj Hd Fd) Z) as (q & r & Q1 & R1 & Q2 & R2).
  destruct (d2f_part _ _ _ Q1 Q2) as (X1 & X2 & X3). destruct (d2f_part _ _ _ R1 R2) as (Y1 & Y2 & Y3).
  unfold divsc3. cbv zeta. cbn [fst snd]. rewrite X3. cbn [andb fst snd]. split; split; assumption.
Qed.
Print Assumptions C128_quotient_accurate.

(** (1 + 2i) / (3 + 4i) = 0.44 + 0.08i *)
Example C128_example : cfin 23 8 (0x3F800000, 0x40000000) /\ cfin 23 8 (0x40400000, 0x40800000) /\
  divsc3 0x3F800000 0x40000000 0x40400000 0x40800000 = (0x3EE147AE, 0x3DA3D70A).
Proof. repeat split; vm_compute; reflexivity. Qed.

(** An infinite number over a finite one, zero included, is infinite; so is a
    nonzero number over zero. *)
Theorem C129_quotient_infinite : forall a b c d, cbits 23 8 (a, b) -> cbits 23 8 (c, d) ->
  (cinf 23 8 (a, b) /\ cfin 23 8 (c, d)) \/ (cfin 23 8 (a, b) /\ ~ czero 23 8 (a, b) /\ czero 23 8 (c, d)) ->
  cinf 23 8 (divsc3 a b c d).
Proof.
  intros a b c d B1 B2 [[I F]|[F [N Z]]].
  - apply divsc3_inf; assumption.
  - apply divsc3_zero; try assumption. right. split; assumption.
Qed.
Print Assumptions C129_quotient_infinite.

(** (infinity + i infinity) / (3 + 4i) *)
Example C129_infinite_example : cinf 23 8 (0x7F800000, 0x7F800000) /\ cfin 23 8 (0x40400000, 0x40800000) /\
  divsc3 0x7F800000 0x7F800000 0x40400000 0x40800000 = (0x7F800000, 0x7FC00000) /\
  divsc3 0x7FC00000 0x7F800000 0x40400000 0x40800000 = (0x7F800000, 0x7F800000).
Proof. split; [left; reflexivity|]. split; [split; reflexivity|]. split; vm_compute; reflexivity. Qed.

(** A finite number over an infinite one is a zero, unless both parts of the
    divisor are infinite and |a| + |b| overflows. *)
Theorem C129_quotient_zero_partial : forall a b c d, cbits 23 8 (a, b) -> cbits 23 8 (c, d) ->
  cfin 23 8 (a, b) -> cinf 23 8 (c, d) ->
  (fisinf 23 8 c = false \/ fisinf 23 8 d = false \/ (RN 23 8 (Rabs (fval 23 8 a) + Rabs (fval 23 8 b)) < bpow radix2 128)%R) ->
  czero 23 8 (divsc3 a b c d).
Proof. exact divsc3_over_inf. Qed.
Print Assumptions C129_quotient_zero_partial.

(** (1 + 2i) / (-infinity + NaN i) *)
Example C129_zero_example : cfin 23 8 (0x3F800000, 0x40000000) /\ cinf 23 8 (0xFF800000, 0x7FC00000) /\ fisinf 23 8 0x7FC00000 = false /\
  divsc3 0x3F800000 0x40000000 0xFF800000 0x7FC00000 = (0x80000000, 0x80000000).
Proof. split; [split; reflexivity|]. split; [left; reflexivity|]. split; [reflexivity|vm_compute; reflexivity]. Qed.

(** FLT_MAX (1 + i) / (infinity + i infinity) has a NaN part. *)
Theorem C129_quotient_zero_refuted : exists a b c d, cbits 23 8 (a, b) /\ cbits 23 8 (c, d) /\
  cfin 23 8 (a, b) /\ cinf 23 8 (c, d) /\ fisnan 23 8 (fst (divsc3 a b c d)) = true.
Proof.
  exists 0x7F7FFFFF, 0x7F7FFFFF, 0x7F800000, 0x7F800000.
  split; [split; vm_compute; intuition discriminate|]. split; [split; vm_compute; intuition discriminate|].
  split; [split; reflexivity|]. split; [left; reflexivity|]. vm_compute. reflexivity.
Qed.
Print Assumptions C129_quotient_zero_refuted.
