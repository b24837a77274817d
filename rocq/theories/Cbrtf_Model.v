(** Model of the binary32 cube root cbrtf.  Floats and doubles are bit patterns;
    every arithmetic operation is the correctly rounded IEEE operation of HW.v,
    in the order and precision of the source. *)
From Verif Require Import Base FP HW Math_Model Hypotf_Model Expf_Model Logf_Model.
Open Scope Z_scope.

Definition c_3_2 : Z := 0x3FF8000000000000.

(** one statement y *= 0.5 + 1.5 * x / (2 * y * (y * y) + x):
    src/math/float/cbrtf.c:17 and 18 *)
Definition cbrt_step (xd y : Z) : Z :=
  mul64 y (add64 c_half (div64 (mul64 c_3_2 xd) (add64 (mul64 (mul64 c_2 y) (mul64 y y)) xd))).

(* src/math/float/cbrtf.c:6-21; x has its sign bit clear *)
Definition cbrt_kernel_ (x : Z) : res Z :=
  let i := sgn 32 x in
  if (i =? 0) || (0x7F800000 <=? i) then Ok x
  else
    do n <- normalize_ 23 8 i;
    do j <- chk_i32 (0x2A512CE3 + Z.quot n 3);
    let xd := f2d x in
    Ok (d2f (cbrt_step xd (cbrt_step xd (f2d (u32 j))))).

(* src/math/float/cbrtf.c:23-26 *)
Definition cbrtf (x : Z) : res Z := do r <- cbrt_kernel_ (fabsb 23 8 x); Ok (copysign 23 8 r x).
