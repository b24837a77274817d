(** Complex multiplication and division, as clang emits calls for the operators
    [*] and [/] on _Complex operands:
    src/soft/complex/{multiplication,complex}.h, mulsc3.c, muldc3.c, divsc3.c.
    A value is a bit pattern of the format with mantissa width [mw] and exponent
    width [ew]; a complex number is the pair (real part, imaginary part).
    [complex_] (complex.h) only builds the pair.  A real factor or divisor of a
    complex number acts on each part, as clang compiles a mixed real and complex
    operand.  division.h (__divdc3) is not modelled. *)
From Coq Require Import ZArith List.
From Verif Require Import Base FP HW Math_Model.
Open Scope Z_scope.

Section Mul.
Variables mw ew : Z.
Hypothesis Hmw : 0 < mw.
Hypothesis Hew : 0 < ew.
Hypothesis Hpe : mw + 1 < 2^(ew - 1).
Notation add := (hadd mw ew Hmw Hew Hpe).
Notation sub := (hsub mw ew Hmw Hew Hpe).
Notation mul := (hmul mw ew Hmw Hew Hpe).
Notation isinf := (fisinf mw ew).
Notation isnan := (fisnan mw ew).

(** copysign(!!isinf(x), x) (multiplication.h:18-19, 26-27; divsc3.c:18-19, 24-25).
    In multiplication.h <tgmath.h> picks the double copysign for the int operand;
    the arguments and the result are exact in either format, so the one of the
    format is used. *)
Definition box (x : Z) : Z := copysign mw ew (if isinf x then c_one mw ew else 0) x.
(** if (x != x) x = copysign(0, x) (multiplication.h:20-21, 28-29, 34-37) *)
Definition denan (x : Z) : Z := if isnan x then copysign mw ew 0 x else x.

(* src/soft/complex/multiplication.h:4-46 *)
Definition cmul (a b c d : Z) : Z * Z :=
  let ac := mul a c in
  let ad := mul a d in
  let bc := mul b c in
  let bd := mul b d in
  let x := sub ac bd in
  let y := add ad bc in
  if isnan x && isnan y then
    let '(a, b, c, d, recalc) :=
      if isinf a || isinf b then (box a, box b, denan c, denan d, true)
      else (a, b, c, d, false) in
    let '(a, b, c, d, recalc) :=
      if isinf c || isinf d then (denan a, denan b, box c, box d, true)
      else (a, b, c, d, recalc) in
    let '(a, b, c, d, recalc) :=
      if negb recalc && (isinf ac || isinf bd || isinf ad || isinf bc)
      then (denan a, denan b, denan c, denan d, true)
      else (a, b, c, d, recalc) in
    if recalc then (mul (finf mw ew) (sub (mul a c) (mul b d)), mul (finf mw ew) (add (mul a d) (mul b c)))
    else (x, y)
  else (x, y).
End Mul.

(* src/soft/complex/mulsc3.c, muldc3.c: the two instances *)
Definition mulsc3 := cmul 23 8 eq_refl eq_refl eq_refl.
Definition muldc3 := cmul 52 11 eq_refl eq_refl eq_refl.

(* src/soft/complex/divsc3.c:4-7; the operands are already converted to double *)
Definition divsc3_kernel (a b c d : Z) : Z * Z :=
  let den := add64 (mul64 c c) (mul64 d d) in
  (div64 (add64 (mul64 a c) (mul64 b d)) den, div64 (sub64 (mul64 b c) (mul64 a d)) den).

(** __builtin_isfinite *)
Definition isfin32 (x : Z) : bool := ffinite 23 8 x.

(* src/soft/complex/divsc3.c:9-31 *)
Definition divsc3 (a b c d : Z) : Z * Z :=
  let k := divsc3_kernel (f2d a) (f2d b) (f2d c) (f2d d) in
  let z := (d2f (fst k), d2f (snd k)) in
  let inf := finf 23 8 in
  if fisnan 23 8 (fst z) && fisnan 23 8 (snd z) then
    if heq 23 8 c 0 && heq 23 8 d 0 && (heq 23 8 a a || heq 23 8 b b) then
      (mul32 (copysign 23 8 inf c) a, mul32 (copysign 23 8 inf c) b)
    else if (fisinf 23 8 a || fisinf 23 8 b) && isfin32 c && isfin32 d then
      let a := box 23 8 a in
      let b := box 23 8 b in
      (mul32 inf (add32 (mul32 a c) (mul32 b d)), mul32 inf (sub32 (mul32 b c) (mul32 a d)))
    else if isfin32 a && isfin32 b && (fisinf 23 8 c || fisinf 23 8 d) then
      let c := box 23 8 c in
      let d := box 23 8 d in
      (mul32 0 (add32 (mul32 a c) (mul32 b d)), mul32 0 (sub32 (mul32 b c) (mul32 a d)))
    else z
  else z.
