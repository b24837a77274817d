(** Division of double complex numbers: src/soft/complex/division.h as instantiated by
    divdc3.c (__divdc3, the compiler's call for the operator /).  The conventions are those of
    Complex_Model; copysignf of a double operand keeps the sign of the operand. *)
From Coq Require Import ZArith.
From Verif Require Import Base FP HW Math_Model Complex_Model.
Open Scope Z_scope.

Definition isfin64 (x : Z) : bool := ffinite 52 11 x.

(* src/soft/complex/division.h:4-37 *)
Definition divdc3 (a b c d : Z) : res (Z * Z) :=
  let inf := finf 52 11 in
  do logbw <- logb 52 11 eq_refl eq_refl (fmax 52 11 (fabsb 52 11 c) (fabsb 52 11 d));
  do p <- (if isfin64 logbw then
             do scale <- to_signed 32 (trunc64 (negate 52 11 logbw));
             do c <- scalbn c scale; do d <- scalbn d scale; Ok (c, d, scale)
           else Ok (c, d, 0));
  let '(c, d, scale) := p in
  let denominator := add64 (mul64 c c) (mul64 d d) in
  do x <- scalbn (div64 (add64 (mul64 a c) (mul64 b d)) denominator) scale;
  do y <- scalbn (div64 (sub64 (mul64 b c) (mul64 a d)) denominator) scale;
  if fisnan 52 11 x && fisnan 52 11 y then
    if heq 52 11 denominator 0 && (heq 52 11 a a || heq 52 11 b b) then
      Ok (mul64 (copysign 52 11 inf c) a, mul64 (copysign 52 11 inf c) b)
    else if (fisinf 52 11 a || fisinf 52 11 b) && isfin64 c && isfin64 d then
      let a := box 52 11 a in
      let b := box 52 11 b in
      Ok (mul64 inf (add64 (mul64 a c) (mul64 b d)), mul64 inf (sub64 (mul64 b c) (mul64 a d)))
    else if heq 52 11 logbw inf && isfin64 a && isfin64 b then
      let c := box 52 11 c in
      let d := box 52 11 d in
      Ok (mul64 0 (add64 (mul64 a c) (mul64 b d)), mul64 0 (sub64 (mul64 b c) (mul64 a d)))
    else Ok (x, y)
  else Ok (x, y).
