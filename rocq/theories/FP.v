(** IEEE 754 interchange formats, as bit patterns with their real value, and
    round-to-nearest-even, for any mantissa width [mw] and exponent width [ew].
    The value function is shown to be Flocq's ([fval_flocq]); rounding is
    Flocq's [round] in FLT format with [ZnearestE]. *)
From Coq Require Import Reals Lra.
From Flocq Require Import Core BinarySingleNaN Binary Bits.
From Verif Require Import Base.
Open Scope Z_scope.

Section Format.
Variables mw ew : Z.

(** exponent of the least subnormal *)
Definition emin : Z := 2 - 2^(ew - 1) - mw.
(** the bits without the sign *)
Definition fabsb (b : Z) : Z := b mod 2^(mw + ew).
Definition fneg (b : Z) : bool := 2^(mw + ew) <=? b.
(** pattern of infinity *)
Definition finf : Z := (2^ew - 1) * 2^mw.
Definition ffinite (b : Z) : bool := fabsb b <? finf.
Definition fisinf (b : Z) : bool := fabsb b =? finf.
Definition fisnan (b : Z) : bool := finf <? fabsb b.

(** value of a magnitude pattern (exponent and fraction fields) *)
Definition fmag (k : Z) : R :=
  if k / 2^mw =? 0 then F2R (Float radix2 k emin)
  else F2R (Float radix2 (2^mw + k mod 2^mw) (emin + k / 2^mw - 1)).
(** value of a finite pattern *)
Definition fval (b : Z) : R := if fneg b then Ropp (fmag (fabsb b)) else fmag (fabsb b).
(** a pattern of the format *)
Definition fbits (b : Z) : Prop := 0 <= b < 2^(mw + ew + 1).

Definition RN (x : R) : R := round radix2 (FLT_exp emin (mw + 1)) ZnearestE x.

(** [b] is the correctly rounded (nearest, ties to even) result for the exact
    value [x], with sign [neg] (which matters when x = 0 or the result is 0). *)
Definition rounds_to (x : R) (neg : bool) (b : Z) : Prop :=
  fbits b /\ fneg b = neg /\
  (Rabs (RN x) < bpow radix2 (2^(ew - 1)) -> ffinite b = true /\ fval b = RN x)%R /\
  (bpow radix2 (2^(ew - 1)) <= Rabs (RN x) -> fabsb b = finf)%R.

(** the pattern of magnitude [k] with sign [neg] *)
Definition with_sign (neg : bool) (k : Z) : Z := (if neg then 2^(mw + ew) else 0) + k.

End Format.

(** Extended reals, the meaning of a pattern that is not a NaN. *)
Inductive ext := NegInf | Fin (r : R) | PosInf.
Definition xval (mw ew b : Z) : ext :=
  if ffinite mw ew b then Fin (fval mw ew b) else if fneg mw ew b then NegInf else PosInf.
Definition xlt (x y : ext) : Prop :=
  match x, y with
  | Fin a, Fin b => (a < b)%R
  | NegInf, Fin _ | NegInf, PosInf | Fin _, PosInf => True
  | _, _ => False
  end.

(** Integer division rounded to nearest, ties to even. *)
Definition rne (n d : Z) : Z :=
  let q := n / d in
  let r := n mod d in
  if 2 * r <? d then q
  else if d <? 2 * r then q + 1
  else if Z.even q then q else q + 1.

(** binary32, binary64, binary128 *)
Notation mw32 := 23 (only parsing).
Notation ew32 := 8 (only parsing).
Notation mw64 := 52 (only parsing).
Notation ew64 := 11 (only parsing).
Notation mw128 := 112 (only parsing).
Notation ew128 := 15 (only parsing).
