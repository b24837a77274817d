(** Floating-point operations the compiler does natively, on bit patterns: IEEE
    754 in round-to-nearest-even, by way of Flocq's operations.  The payload and
    sign of a NaN result are unspecified by WebAssembly; the model picks the
    canonical quiet NaN and no theorem depends on it. *)
From Coq Require Import Reals.
From Flocq Require Import Core Binary Bits BinarySingleNaN.
From Verif Require Import Base FP.
Open Scope Z_scope.

Section Ops.
Variables mw ew : Z.
Hypothesis Hmw : 0 < mw.
Hypothesis Hew : 0 < ew.
Hypothesis Hpe : mw + 1 < 2^(ew - 1).

Notation prec := (mw + 1).
Notation emax := (2^(ew - 1)).
Notation bfloat := (BinarySingleNaN.binary_float prec emax).

Instance hw_prec : Prec_gt_0 prec.
Proof. unfold Prec_gt_0. rewrite Z.add_1_r. apply Z.lt_trans with (1 := Hmw). apply Z.lt_succ_diag_r. Qed.
Instance hw_emax : Prec_lt_emax prec emax := Hpe.

(** decode and encode *)
Definition dec (b : Z) : bfloat := B2BSN _ _ (binary_float_of_bits mw ew Hmw Hew Hpe b).
Definition qnan : Z := finf mw ew + 2^(mw - 1).
Definition enc (f : bfloat) : Z :=
  match f with
  | B754_zero s => with_sign mw ew s 0
  | B754_infinity s => with_sign mw ew s (finf mw ew)
  | B754_nan => qnan
  | B754_finite s m e _ => with_sign mw ew s ((e - emin mw ew) * 2^mw + Z.pos m)
  end.

Definition hadd (a b : Z) : Z := enc (Bplus mode_NE (dec a) (dec b)).
Definition hsub (a b : Z) : Z := enc (Bminus mode_NE (dec a) (dec b)).
Definition hmul (a b : Z) : Z := enc (Bmult mode_NE (dec a) (dec b)).
Definition hdiv (a b : Z) : Z := enc (Bdiv mode_NE (dec a) (dec b)).
(** integer to floating *)
Definition hofZ (n : Z) : Z := enc (binary_normalize prec emax _ _ mode_NE n 0 false).
(** truncation to an integer; None for NaN and infinities *)
Definition htrunc (a : Z) : option Z := if ffinite mw ew a then Some (Btrunc (dec a)) else None.
End Ops.

(** conversion between formats *)
Section Cvt.
Variables mw ew mw' ew' : Z.
Hypothesis Hmw : 0 < mw.
Hypothesis Hew : 0 < ew.
Hypothesis Hpe : mw + 1 < 2^(ew - 1).
Hypothesis Hmw' : 0 < mw'.
Hypothesis Hpe' : mw' + 1 < 2^(ew' - 1).
Definition hcvt (a : Z) : Z :=
  match dec mw ew Hmw Hew Hpe a with
  | B754_zero s => with_sign mw' ew' s 0
  | B754_infinity s => with_sign mw' ew' s (finf mw' ew')
  | B754_nan => qnan mw' ew'
  | B754_finite s m e _ =>
    enc mw' ew' (binary_normalize (mw' + 1) (2^(ew' - 1)) (hw_prec mw' Hmw') (hw_emax mw' ew' Hpe') mode_NE
      (SpecFloat.cond_Zopp s (Z.pos m)) e s)
  end.
End Cvt.

(** Comparisons: by sign and magnitude, false on NaN. *)
Definition ford (mw ew b : Z) : Z := if fneg mw ew b then - fabsb mw ew b else fabsb mw ew b.
Definition hlt (mw ew a b : Z) : bool :=
  negb (fisnan mw ew a) && negb (fisnan mw ew b) && (ford mw ew a <? ford mw ew b).
Definition hle (mw ew a b : Z) : bool :=
  negb (fisnan mw ew a) && negb (fisnan mw ew b) && (ford mw ew a <=? ford mw ew b).
Definition heq (mw ew a b : Z) : bool :=
  negb (fisnan mw ew a) && negb (fisnan mw ew b) && (ford mw ew a =? ford mw ew b).

(** C's conversion of a double/float to an unsigned integer of [w] bits: truncation,
    undefined unless the truncated value is representable (C11 6.3.1.4). *)
Definition to_unsigned (w : Z) (t : option Z) : res Z :=
  match t with Some n => if (0 <=? n) && (n <? 2^w) then Ok n else UB | None => UB end.
Definition to_signed (w : Z) (t : option Z) : res Z :=
  match t with Some n => if (- 2^(w-1) <=? n) && (n <? 2^(w-1)) then Ok n else UB | None => UB end.

(** The two native formats. *)
Definition add64 := hadd 52 11 eq_refl eq_refl eq_refl.
Definition sub64 := hsub 52 11 eq_refl eq_refl eq_refl.
Definition mul64 := hmul 52 11 eq_refl eq_refl eq_refl.
Definition div64 := hdiv 52 11 eq_refl eq_refl eq_refl.
Definition ofZ64 := hofZ 52 11 eq_refl eq_refl.
Definition trunc64 := htrunc 52 11 eq_refl eq_refl eq_refl.
Definition add32 := hadd 23 8 eq_refl eq_refl eq_refl.
Definition sub32 := hsub 23 8 eq_refl eq_refl eq_refl.
Definition mul32 := hmul 23 8 eq_refl eq_refl eq_refl.
Definition div32 := hdiv 23 8 eq_refl eq_refl eq_refl.
Definition ofZ32 := hofZ 23 8 eq_refl eq_refl.
Definition trunc32 := htrunc 23 8 eq_refl eq_refl eq_refl.
Definition f2d := hcvt 23 8 52 11 eq_refl eq_refl eq_refl eq_refl eq_refl.
Definition d2f := hcvt 52 11 23 8 eq_refl eq_refl eq_refl eq_refl eq_refl.
