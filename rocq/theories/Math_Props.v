(** fmod, remainder, remquo, frexp, scalbn, ilogb, logb, nextafter, fmin, fmax, fdim, modf:
    C68-C72, C75, C94.  The float versions are the same statements at 23, 8. *)
From Coq Require Import Reals Lra.
From Flocq Require Import Core BinarySingleNaN.
From Verif Require Import Base Bits FP HW FPInt FPOps Math_Model Math_Spec Math_Basic_Proof Math_Scalbn_Proof Math_Fmod_Proof Math_Rem_Proof Math_Misc_Proof Math_Lconv_Proof Math_Round_Props.
Open Scope Z_scope.

(** ** C68 fmod *)
(** NaN for an infinite numerator, a zero denominator or a NaN; the numerator for an infinite
    denominator; otherwise exactly x - trunc(x/y) y, with the sign of x *)
Definition fmod_spec (mw ew : Z) (f : Z -> Z -> res Z) : Prop := forall x y, fbits mw ew x -> fbits mw ew y ->
  (ffinite mw ew x = false \/ fisnan mw ew y = true \/ fabsb mw ew y = 0 -> exists r, f x y = Ok r /\ fisnan mw ew r = true) /\
  (ffinite mw ew x = true -> fisinf mw ew y = true -> f x y = Ok x) /\
  (ffinite mw ew x = true -> ffinite mw ew y = true -> fabsb mw ew y <> 0 ->
    exists r, f x y = Ok r /\ fbits mw ew r /\ ffinite mw ew r = true /\ fneg mw ew r = fneg mw ew x /\
      (fval mw ew r = fval mw ew x - IZR (Ztrunc (fval mw ew x / fval mw ew y)) * fval mw ew y)%R).

Theorem C68_fmod : fmod_spec 52 11 fmod64.
Proof.
  intros x y Hx Hy. destruct (D4 fmod_ok remshift_ remshift_ok x y Hx Hy) as (A & B & C). split; [|split].
  - intros H. exists (qnan 52 11). split; [exact (A H)|reflexivity].
  - exact B.
  - intros Fx Fy Ny. destruct (C Fx Fy Ny) as (r & E & R1 & R2 & R3 & R4). exists r. split; [exact E|]. split; [exact R1|]. split; [exact R2|]. split; [exact R3|].
    apply (D4 fmod_real remshift_ remshift_ok); try assumption. pose proof (D4 abs_ival_pos y Ny). lia.
Qed.
Print Assumptions C68_fmod.
Theorem C68_fmodf : fmod_spec 23 8 fmod32.
Proof.
  intros x y Hx Hy. destruct (F4 fmod_ok remshiftf_ remshiftf_ok x y Hx Hy) as (A & B & C). split; [|split].
  - intros H. exists (qnan 23 8). split; [exact (A H)|reflexivity].
  - exact B.
  - intros Fx Fy Ny. destruct (C Fx Fy Ny) as (r & E & R1 & R2 & R3 & R4). exists r. split; [exact E|]. split; [exact R1|]. split; [exact R2|]. split; [exact R3|].
    apply (F4 fmod_real remshiftf_ remshiftf_ok); try assumption. pose proof (F4 abs_ival_pos y Ny). lia.
Qed.
Print Assumptions C68_fmodf.
(* fmod(5.5, -2) = 1.5; fmod(-1, 5e-324) = -0; fmod(1e300, 7) = 1 *)
Example C68_ex : fbits 52 11 0x4016000000000000 /\ ffinite 52 11 0x4016000000000000 = true /\ fabsb 52 11 0xC000000000000000 <> 0 /\
  fmod64 0x4016000000000000 0xC000000000000000 = Ok 0x3FF8000000000000 /\
  fmod64 0xBFF0000000000000 1 = Ok 0x8000000000000000 /\
  fmod64 0x7E37E43C8800759C 0x401C000000000000 = Ok 0x3FF0000000000000 /\
  fmod32 0x7F7FFFFF 0x00000003 = Ok 0.
Proof. repeat split; vm_compute; congruence. Qed.

(** ** C69 remainder, remquo *)
Definition remainder_spec (mw ew : Z) (f : Z -> Z -> res Z) : Prop := forall x y, fbits mw ew x -> fbits mw ew y ->
  (ffinite mw ew x = false \/ fisnan mw ew y = true \/ fabsb mw ew y = 0 -> exists r, f x y = Ok r /\ fisnan mw ew r = true) /\
  (ffinite mw ew x = true -> fisinf mw ew y = true -> f x y = Ok x) /\
  (ffinite mw ew x = true -> ffinite mw ew y = true -> fabsb mw ew y <> 0 ->
    exists r, f x y = Ok r /\ fbits mw ew r /\ ffinite mw ew r = true /\
      (fval mw ew r = fval mw ew x - IZR (ZnearestE (fval mw ew x / fval mw ew y)) * fval mw ew y)%R /\
      (fval mw ew r = 0%R -> fneg mw ew r = fneg mw ew x)).
Theorem C69_remainder : remainder_spec 52 11 remainder64.
Proof.
  intros x y Hx Hy. destruct (D4 remainder_special remshift_ remshift_ok x y Hx Hy) as (A & B). split; [exact A|]. split; [exact B|].
  intros Fx Fy Ny. exact (D4 remainder_ok remshift_ remshift_ok x y Hx Hy Fx Fy Ny).
Qed.
Print Assumptions C69_remainder.
Theorem C69_remainderf : remainder_spec 23 8 remainder32.
Proof.
  intros x y Hx Hy. destruct (F4 remainder_special remshiftf_ remshiftf_ok x y Hx Hy) as (A & B). split; [exact A|]. split; [exact B|].
  intros Fx Fy Ny. exact (F4 remainder_ok remshiftf_ remshiftf_ok x y Hx Hy Fx Fy Ny).
Qed.
Print Assumptions C69_remainderf.

(** remquo: the same remainder, and a quotient whose magnitude agrees with that of the nearest
    integer n to x/y modulo 8; its sign is that of x, which is the required one for positive y only *)
Definition remquo_spec (mw ew : Z) (f : Z -> Z -> res (Z * Z)) : Prop := forall x y, fbits mw ew x -> fbits mw ew y ->
  (ffinite mw ew x = false \/ fisnan mw ew y = true \/ fabsb mw ew y = 0 -> exists r q, f x y = Ok (r, q) /\ fisnan mw ew r = true) /\
  (ffinite mw ew x = true -> fisinf mw ew y = true -> f x y = Ok (x, 0)) /\
  (ffinite mw ew x = true -> ffinite mw ew y = true -> fabsb mw ew y <> 0 ->
    exists r q, f x y = Ok (r, q) /\ fbits mw ew r /\ ffinite mw ew r = true /\
      (fval mw ew r = fval mw ew x - IZR (ZnearestE (fval mw ew x / fval mw ew y)) * fval mw ew y)%R /\
      (fval mw ew r = 0%R -> fneg mw ew r = fneg mw ew x) /\
      Z.abs q mod 8 = Z.abs (ZnearestE (fval mw ew x / fval mw ew y)) mod 8 /\ Z.abs q <= 8 /\
      (fneg mw ew y = false -> if xorb (fneg mw ew x) (fneg mw ew y) then q <= 0 else 0 <= q)).
Theorem C69_remquo_partial : remquo_spec 52 11 remquo64.
Proof.
  intros x y Hx Hy. destruct (D4 remquo_special remshift_ remshift_ok x y ltac:(lia) Hx Hy) as (A & B). split; [exact A|]. split; [exact B|].
  intros Fx Fy Ny. destruct (D4 remquo_ok remshift_ remshift_ok x y ltac:(lia) Hx Hy Fx Fy Ny) as (r & q & E & R1 & R2 & R3 & R4 & R5 & R6 & R7).
  exists r, q. split; [exact E|]. split; [exact R1|]. split; [exact R2|]. split; [exact R3|]. split; [exact R4|]. split; [exact R7|]. split; [exact R5|].
  intros ->. rewrite xorb_false_r. exact R6.
Qed.
Print Assumptions C69_remquo_partial.
Theorem C69_remquof_partial : remquo_spec 23 8 remquo32.
Proof.
  intros x y Hx Hy. destruct (F4 remquo_special remshiftf_ remshiftf_ok x y ltac:(lia) Hx Hy) as (A & B). split; [exact A|]. split; [exact B|].
  intros Fx Fy Ny. destruct (F4 remquo_ok remshiftf_ remshiftf_ok x y ltac:(lia) Hx Hy Fx Fy Ny) as (r & q & E & R1 & R2 & R3 & R4 & R5 & R6 & R7).
  exists r, q. split; [exact E|]. split; [exact R1|]. split; [exact R2|]. split; [exact R3|]. split; [exact R4|]. split; [exact R7|]. split; [exact R5|].
  intros ->. rewrite xorb_false_r. exact R6.
Qed.
Print Assumptions C69_remquof_partial.
(** remquo(5, -3): the quotient is -2, +2 is stored *)
Theorem C69_remquo_sign_refuted : exists x y r q, fbits 52 11 x /\ fbits 52 11 y /\ ffinite 52 11 x = true /\ ffinite 52 11 y = true /\
  remquo64 x y = Ok (r, q) /\ ZnearestE (fval 52 11 x / fval 52 11 y) = -2 /\ q = 2.
Proof.
  exists 0x4014000000000000, 0xC008000000000000, 0xBFF0000000000000, 2.
  split; [vm_compute; split; congruence|]. split; [vm_compute; split; congruence|]. split; [reflexivity|]. split; [reflexivity|].
  split; [vm_compute; reflexivity|]. split; [|reflexivity].
  rewrite !(fval_div 52 11 eq_refl eq_refl).
  replace (IZR (ival 52 11 0x4014000000000000) / IZR (unit 52 11) / (IZR (ival 52 11 0xC008000000000000) / IZR (unit 52 11)))%R
    with (IZR 5 / IZR (-3))%R.
  - apply nearest_div; lia.
  - assert (ival 52 11 0x4014000000000000 = 5 * unit 52 11) as -> by (vm_compute; reflexivity).
    assert (ival 52 11 0xC008000000000000 = (-3) * unit 52 11) as -> by (vm_compute; reflexivity).
    rewrite !mult_IZR. pose proof (unit_pos 52 11 eq_refl eq_refl) as U. apply IZR_lt in U. field. lra.
Qed.
Print Assumptions C69_remquo_sign_refuted.
(* remainder(5, 3) = -1, remainder(3, 2) = -1 (tie to even), remainder(DBL_MAX, 2^1023) = -2^971 *)
Example C69_ex : fbits 52 11 0x4014000000000000 /\ fabsb 52 11 0x4008000000000000 <> 0 /\
  remainder64 0x4014000000000000 0x4008000000000000 = Ok 0xBFF0000000000000 /\
  remainder64 0x4008000000000000 0x4000000000000000 = Ok 0xBFF0000000000000 /\
  remquo64 0xC014000000000000 0x4008000000000000 = Ok (0x3FF0000000000000, -2) /\
  remainder64 0x7FEFFFFFFFFFFFFF 0x7FE0000000000000 = Ok 0xFCA0000000000000.
Proof. repeat split; vm_compute; congruence. Qed.

(** ** C70 frexp, scalbn *)
Definition frexp_spec (mw ew : Z) (f : Z -> res (Z * Z)) : Prop := forall x, fbits mw ew x ->
  (ffinite mw ew x = true -> fabsb mw ew x <> 0 -> exists m e, f x = Ok (m, e) /\ fbits mw ew m /\ ffinite mw ew m = true /\
     (/ 2 <= Rabs (fval mw ew m) < 1)%R /\ (fval mw ew x = fval mw ew m * bpow radix2 e)%R) /\
  (ffinite mw ew x = false \/ fabsb mw ew x = 0 -> f x = Ok (x, 0)).
Theorem C70_frexp : frexp_spec 52 11 (frexp 52 11).
Proof.
  intros x Hx. split; [|exact (D4 frexp_special x)]. intros F N.
  destruct (D4 frexp_ok x Hx F N) as (m & e & E & A & B & _ & C & D & _). exists m, e. split; [exact E|]. split; [exact A|]. split; [exact B|]. split; [exact C|exact D].
Qed.
Print Assumptions C70_frexp.
Theorem C70_frexpf : frexp_spec 23 8 (frexp 23 8).
Proof.
  intros x Hx. split; [|exact (F4 frexp_special x)]. intros F N.
  destruct (F4 frexp_ok x Hx F N) as (m & e & E & A & B & _ & C & D & _). exists m, e. split; [exact E|]. split; [exact A|]. split; [exact B|]. split; [exact C|exact D].
Qed.
Print Assumptions C70_frexpf.
Theorem C70_scalbn : forall x n, is_i32 n -> fbits 52 11 x ->
  (ffinite 52 11 x = true -> exists r, scalbn x n = Ok r /\ rounds_to 52 11 (fval 52 11 x * bpow radix2 n) (fneg 52 11 x) r) /\
  (ffinite 52 11 x = false -> scalbn x n = Ok x).
Proof.
  intros x n Hn Hx. split; [|intros F; apply (D4 scalbn_special); exact F]. intros F. unfold scalbn, mul64.
  apply (D4 scalbn_ok); try assumption; try lia. exact (D4 hmul_spec).
Qed.
Print Assumptions C70_scalbn.
Theorem C70_scalbnf : forall x n, is_i32 n -> fbits 23 8 x -> ffinite 23 8 x = true ->
  exists r, scalbnf x n = Ok r /\ rounds_to 23 8 (fval 23 8 x * bpow radix2 n) (fneg 23 8 x) r.
Proof. exact scalbnf_ok. Qed.
Print Assumptions C70_scalbnf.
Theorem C70_roundtrip : forall x, fbits 52 11 x -> ffinite 52 11 x = true -> fabsb 52 11 x <> 0 ->
  (do p <- frexp 52 11 x; scalbn (fst p) (snd p)) = Ok x.
Proof.
  intros x Hx F N. apply (D4 roundtrip); try assumption; try lia.
  intros m e He Hm Fm. exact (proj1 (C70_scalbn m e He Hm) Fm).
Qed.
Print Assumptions C70_roundtrip.
Theorem C70_roundtripf : forall x, fbits 23 8 x -> ffinite 23 8 x = true -> fabsb 23 8 x <> 0 ->
  (do p <- frexp 23 8 x; scalbnf (fst p) (snd p)) = Ok x.
Proof. intros x Hx F N. apply (F4 roundtrip); try assumption; try lia. exact scalbnf_ok. Qed.
Print Assumptions C70_roundtripf.
(* frexp(5e-324) = 0.5 * 2^-1073; scalbn(1.5, -1075) = 5e-324 (rounded up from 0.75 units); scalbn(1, INT_MAX) = inf *)
Example C70_ex : fbits 52 11 1 /\ ffinite 52 11 1 = true /\ frexp 52 11 1 = Ok (0x3FE0000000000000, -1073) /\
  scalbn 0x3FF8000000000000 (-1075) = Ok 1 /\ scalbn 0x3FF0000000000000 INT_MAX = Ok 0x7FF0000000000000 /\
  scalbnf 0x3FC00000 (-150) = Ok 1.
Proof. repeat split; vm_compute; congruence. Qed.

(** ** C71 ilogb, logb *)
(** [log_is x e]: 2^e <= |x| < 2^(e+1) *)
Definition ilogb_spec (mw ew : Z) (f : Z -> res Z) : Prop := forall x, fbits mw ew x ->
  (fabsb mw ew x = 0 -> f x = Ok INT_MIN) /\ (ffinite mw ew x = false -> f x = Ok INT_MAX) /\
  (fabsb mw ew x <> 0 -> ffinite mw ew x = true -> exists e, f x = Ok e /\ (bpow radix2 e <= Rabs (fval mw ew x) < bpow radix2 (e + 1))%R).
Theorem C71_ilogb : ilogb_spec 52 11 (ilogb 52 11).
Proof. exact (D4 ilogb_ok). Qed.
Print Assumptions C71_ilogb.
Theorem C71_ilogbf : ilogb_spec 23 8 (ilogb 23 8).
Proof. exact (F4 ilogb_ok). Qed.
Print Assumptions C71_ilogbf.
Definition logb_spec (mw ew : Z) (f : Z -> res Z) : Prop := forall x, fbits mw ew x ->
  (fabsb mw ew x = 0 -> f x = Ok (with_sign mw ew true (finf mw ew))) /\
  (fisinf mw ew x = true -> f x = Ok (finf mw ew)) /\
  (fisnan mw ew x = true -> exists r, f x = Ok r /\ fisnan mw ew r = true) /\
  (fabsb mw ew x <> 0 -> ffinite mw ew x = true -> exists r e, f x = Ok r /\ fbits mw ew r /\ ffinite mw ew r = true /\ fval mw ew r = IZR e /\
     (bpow radix2 e <= Rabs (fval mw ew x) < bpow radix2 (e + 1))%R).
Theorem C71_logb : logb_spec 52 11 (logb 52 11 eq_refl eq_refl).
Proof. intros x Hx. exact (D4 logb_ok x ltac:(lia) Hx). Qed.
Print Assumptions C71_logb.
Theorem C71_logbf : logb_spec 23 8 (logb 23 8 eq_refl eq_refl).
Proof. intros x Hx. exact (F4 logb_ok x ltac:(lia) Hx). Qed.
Print Assumptions C71_logbf.
Example C71_ex : fbits 52 11 3 /\ fabsb 52 11 3 <> 0 /\ ffinite 52 11 3 = true /\ ilogb 52 11 3 = Ok (-1073) /\
  logb 52 11 eq_refl eq_refl 0xC020000000000001 = Ok 0x4008000000000000.
Proof. repeat split; vm_compute; congruence. Qed.

(** ** C72 nextafter *)
Definition nextafter_spec (mw ew : Z) (f : Z -> Z -> res Z) : Prop := forall x y, fbits mw ew x -> fbits mw ew y ->
  (fisnan mw ew x = false -> fisnan mw ew y = false -> exists r, f x y = Ok r /\ neighbour mw ew x y r) /\
  (fisnan mw ew x = true \/ fisnan mw ew y = true -> exists r, f x y = Ok r /\ (r = x \/ r = y) /\ fisnan mw ew r = true).
Theorem C72_nextafter : nextafter_spec 52 11 (nextafter 52 11).
Proof. intros x y Hx Hy. split; [intros; apply (D4 neighbour_ok); assumption|apply (D4 nextafter_nan)]. Qed.
Print Assumptions C72_nextafter.
Theorem C72_nextafterf : nextafter_spec 23 8 (nextafter 23 8).
Proof. intros x y Hx Hy. split; [intros; apply (F4 neighbour_ok); assumption|apply (F4 nextafter_nan)]. Qed.
Print Assumptions C72_nextafterf.
(* after 0 towards -1 comes -5e-324; after 1 towards inf 1+2^-52; from inf down to DBL_MAX *)
Example C72_ex : fbits 52 11 0 /\ fisnan 52 11 0 = false /\ nextafter 52 11 0 0xBFF0000000000000 = Ok 0x8000000000000001 /\
  nextafter 52 11 0x3FF0000000000000 0x7FF0000000000000 = Ok 0x3FF0000000000001 /\
  nextafter 52 11 0x7FF0000000000000 0 = Ok 0x7FEFFFFFFFFFFFFF /\
  nextafter 52 11 0 0x8000000000000000 = Ok 0x8000000000000000.
Proof. repeat split; vm_compute; congruence. Qed.

(** ** C75 fmin, fmax, fdim *)
Theorem C75_fmin : forall x y, fbits 52 11 x -> fbits 52 11 y -> is_least xlt 52 11 x y (fmin 52 11 x y).
Proof. exact (D4 fmin_ok). Qed.
Print Assumptions C75_fmin.
Theorem C75_fminf : forall x y, fbits 23 8 x -> fbits 23 8 y -> is_least xlt 23 8 x y (fmin 23 8 x y).
Proof. exact (F4 fmin_ok). Qed.
Print Assumptions C75_fminf.
Theorem C75_fmax : forall x y, fbits 52 11 x -> fbits 52 11 y -> is_least (fun a b => xlt b a) 52 11 x y (fmax 52 11 x y).
Proof. exact (D4 fmax_ok). Qed.
Print Assumptions C75_fmax.
Theorem C75_fmaxf : forall x y, fbits 23 8 x -> fbits 23 8 y -> is_least (fun a b => xlt b a) 23 8 x y (fmax 23 8 x y).
Proof. exact (F4 fmax_ok). Qed.
Print Assumptions C75_fmaxf.
Theorem C75_fdim : forall x y, fbits 52 11 x -> fbits 52 11 y -> pos_difference 52 11 x y (fdim 52 11 eq_refl eq_refl eq_refl x y).
Proof. exact (D4 fdim_ok). Qed.
Print Assumptions C75_fdim.
Theorem C75_fdimf : forall x y, fbits 23 8 x -> fbits 23 8 y -> pos_difference 23 8 x y (fdim 23 8 eq_refl eq_refl eq_refl x y).
Proof. exact (F4 fdim_ok). Qed.
Print Assumptions C75_fdimf.
Example C75_ex : fbits 52 11 0x7FF8000000000000 /\ fmin 52 11 0x7FF8000000000000 0x4000000000000000 = 0x4000000000000000 /\
  fmax 52 11 0x4000000000000000 0xC000000000000000 = 0x4000000000000000 /\
  fdim 52 11 eq_refl eq_refl eq_refl 0x4008000000000000 0x3FF0000000000000 = 0x4000000000000000 /\
  fdim 52 11 eq_refl eq_refl eq_refl 0x7FF0000000000000 0x7FF0000000000000 = 0.
Proof. repeat split; vm_compute; congruence. Qed.

(** ** C94 modf *)
Definition modf_spec (mw ew : Z) (f : Z -> Z * Z) : Prop := forall x, fbits mw ew x -> let '(p, i) := f x in
  fbits mw ew p /\ fbits mw ew i /\
  (fisnan mw ew x = true -> fisnan mw ew p = true /\ fisnan mw ew i = true) /\
  (fisinf mw ew x = true -> i = x /\ fabsb mw ew p = 0 /\ fneg mw ew p = fneg mw ew x) /\
  (ffinite mw ew x = true -> ffinite mw ew p = true /\ ffinite mw ew i = true /\ fneg mw ew p = fneg mw ew x /\ fneg mw ew i = fneg mw ew x /\
     fval mw ew i = IZR (Ztrunc (fval mw ew x)) /\ fval mw ew p = (fval mw ew x - IZR (Ztrunc (fval mw ew x)))%R).
Theorem C94_modf : modf_spec 52 11 (modf 52 11 eq_refl eq_refl eq_refl).
Proof. exact (D4 modf_ok). Qed.
Print Assumptions C94_modf.
Theorem C94_modff : modf_spec 23 8 (modf 23 8 eq_refl eq_refl eq_refl).
Proof. exact (F4 modf_ok). Qed.
Print Assumptions C94_modff.
Example C94_ex : fbits 52 11 0xC004000000000000 /\ ffinite 52 11 0xC004000000000000 = true /\
  modf 52 11 eq_refl eq_refl eq_refl 0xC004000000000000 = (0xBFE0000000000000, 0xC000000000000000) /\
  modf 52 11 eq_refl eq_refl eq_refl 0xFFF0000000000000 = (0x8000000000000000, 0xFFF0000000000000).
Proof. repeat split; vm_compute; congruence. Qed.
