(** Model of the binary32 arctangent atanf.  Floats and doubles are bit patterns;
    every arithmetic operation is the correctly rounded IEEE operation of HW.v,
    in the order and precision of the source.  Decimal constants are written as
    the patterns the compiler rounds them to. *)
From Verif Require Import Base FP HW Math_Model Hypotf_Model Expf_Model.
Open Scope Z_scope.

Definition d_pi_2 : Z := 0x3FF921FB54442D18.

(* src/math/float/kernel/atanf.h:2-29 *)
Definition kernel_atanf_ (x : Z) : Z :=
  let xx := mul64 x x in
  let num := hstep (hstep (hstep (hstep (hstep (hstep 0x3EFBF9FA4ECFDE22 xx 0x3F6956189256FDDE) xx 0x3FAAEC7B648CDAE0)
    xx 0x3FD376C8C8D7F7B0) xx 0x3FE81E0EECD7A39E) xx 0x3FEA76BB574FD358) xx 0x3FD51ECCDFCAC2D3 in
  let den := hstep (hstep (hstep (hstep (hstep (hstep 0x3F31E7FCBB6E641C xx 0x3F8653EA94C28D88) xx 0x3FBD91FF875E6750)
    xx 0x3FDFD22BEF0B32EC) xx 0x3FF0000000000000) xx 0x3FEDFBDD7C9C4920) xx 0x3FD51ECCDFCAC2D2 in
  div64 (mul64 x num) den.

(* src/math/float/atanf.c:4-9; x is promoted to double where a double operand
   or parameter requires it *)
Definition atanf (x : Z) : Z :=
  let xd := f2d x in
  d2f (if lt32 0x3F800000 (fabsb 23 8 x) then sub64 (copysign 52 11 d_pi_2 xd) (kernel_atanf_ (div64 c_1 xd)) else kernel_atanf_ xd).
