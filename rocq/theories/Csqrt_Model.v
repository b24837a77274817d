(** Complex square root in double precision: src/math/double/csqrt.c and
    src/math/double/finite/csqrt.h.  A complex number is the pair of the bit
    patterns of its parts. *)
From Coq Require Import ZArith.
From Verif Require Import Base FP HW Math_Model Hypotf_Model.
Open Scope Z_scope.

(** 0.5 *)
Definition c_0_5 : Z := 0x3FE0000000000000.
Definition d_inf : Z := 0x7FF0000000000000.

(* src/math/double/finite/csqrt.h:5-14 *)
Definition csqrt_ (x y : Z) : Z * Z :=
  let s := sqrt64 (mul64 c_0_5 (add64 (fabsb 52 11 x) (sqrt64 (add64 (mul64 x x) (mul64 y y))))) in
  let t := div64 (mul64 c_0_5 y) s in
  if fneg 52 11 x then (fabsb 52 11 t, copysign 52 11 s y) else (s, t).

(* src/math/double/csqrt.c:5-23; z == 0 compares both parts *)
Definition csqrt (x y : Z) : Z * Z :=
  if heq 52 11 x 0 && heq 52 11 y 0 then (0, y)
  else if fisinf 52 11 y then (d_inf, y)
  else if heq 52 11 x d_inf then (x, mul64 0 y)
  else if heq 52 11 x (with_sign 52 11 true d_inf) then (sub64 y y, copysign 52 11 x y)
  else csqrt_ x y.
