(** Model of the binary32 functions expm1f, coshf, sinhf and tanhf.  Floats and
    doubles are bit patterns; every arithmetic operation is the correctly
    rounded IEEE operation of HW.v, in the order and precision of the source
    (float operands are converted to double where the other operand is a
    double).  Decimal constants are written as the patterns the compiler rounds
    them to.  A value converted to int64_t must be representable (C11 6.3.1.4),
    otherwise the outcome is UB. *)
From Verif Require Import Base FP HW Math_Model Expf_Model.
Open Scope Z_scope.

Definition ln2d : Z := 0x3FE62E42FEFA39EF.

(* src/math/float/expf.h:8-26 *)
Definition expf_ (x : Z) : res Z :=
  if lt64 x 0xC086232BDD7ABCD2 then Ok 0
  else if lt64 0x40862E42FEFA39EF x then Ok (mul64 x HUGE_VAL)
  else
    let n := rint64 (mul64 x 0x3FF71547652B82FE) in
    let y := add64 c_1 (kernel_expf_ (sub64 x (mul64 n ln2d))) in
    do k <- to_signed 64 (trunc64 n);
    shift_ y k.

(* src/math/float/expm1f.h:8-33; + 0 is kept: it turns -0 into 0 *)
Definition expm1f_ (x : Z) : res Z :=
  let xd := f2d x in
  if lt64 xd 0xC042B708872320E2 then Ok 0xBFF0000000000000
  else if lt64 0x40862E42FEFA39EF xd then Ok (mul64 xd HUGE_VAL)
  else
    let n := add32 (rint32 (mul32 x 0x3FB8AA3B)) 0 in
    let y := kernel_expf_ (sub64 xd (mul64 (f2d n) ln2d)) in
    if eq32 n 0 then Ok y
    else
      do k <- to_signed 64 (trunc32 n);
      do z <- shift_ (add64 y c_1) k;
      Ok (sub64 z c_1).

(* src/math/float/expm1f.c:3-12 *)
Definition expm1f (x : Z) : res Z :=
  if lt32 0x42B17218 x then Ok 0x7F800000
  else do y <- expm1f_ x; Ok (d2f y).

(* src/math/float/coshf.c:4-9 *)
Definition coshf (x : Z) : res Z :=
  do y <- expf_ (f2d (fabsb 23 8 x));
  Ok (d2f (add64 (mul64 c_half y) (div64 c_half y))).

(* src/math/float/sinhf.c:4-10 *)
Definition sinhf (x : Z) : res Z :=
  do y <- expm1f_ (fabsb 23 8 x);
  Ok (d2f (mul64 (copysign 52 11 y (f2d x)) (add64 c_half (div64 c_half (add64 y c_1))))).

(* src/math/float/tanhf.c:4-12 *)
Definition tanhf_right_ (x : Z) : res Z :=
  if lt32 0x41102CB3 x then Ok 0x3F800000
  else
    do y <- expm1f_ (mul32 0x40000000 x);
    Ok (d2f (div64 y (add64 y 0x4000000000000000))).
(* src/math/float/tanhf.c:14-17 *)
Definition tanhf (x : Z) : res Z := do r <- tanhf_right_ (fabsb 23 8 x); Ok (copysign 23 8 r x).
