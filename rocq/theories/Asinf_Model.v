(** Model of the binary32 arcsine and arccosine.  Floats and doubles are bit
    patterns; every arithmetic operation is the correctly rounded IEEE operation
    of HW.v, in the order and precision of the source.  Constants are written as
    the patterns the compiler rounds them to. *)
From Verif Require Import Base FP HW Math_Model Hypotf_Model Expf_Model Logf_Model Atanf_Model.
Open Scope Z_scope.

Definition d_pi : Z := 0x400921FB54442D18.

(* src/math/float/kernel/asin.h:18-47, Estrin evaluation *)
Definition poly_asin_ (u : Z) : Z :=
  let u2 := mul64 u u in let u4 := mul64 u2 u2 in let u8 := mul64 u4 u4 in
  let p01 := add64 0x3FC55555555555C2 (mul64 u 0x3FB33333333004C3) in
  let p23 := add64 0x3FA6DB6DBAC8181C (mul64 u 0x3F9F1C6FE544A91A) in
  let p45 := add64 0x3F96E8F53473F0A8 (mul64 u 0x3F91C0BA7D4115EE) in
  let p67 := add64 0x3F8CF7FC18E38CA0 (mul64 u 0x3F8507172F1B62BE) in
  let p89 := add64 0x3F8FC979DA826000 (mul64 u 0xBF7C87CDF2909242) in
  let p03 := add64 p01 (mul64 u2 p23) in
  let p47 := add64 p45 (mul64 u2 p67) in
  let p8a := add64 p89 (mul64 u2 0x3F9CA87A18BC0B31) in
  add64 (add64 p03 (mul64 u4 p47)) (mul64 u8 p8a).
Definition kernel_asin_ (t u : Z) : Z := add64 t (mul64 (mul64 t u) (poly_asin_ u)).

(* src/math/float/asinf.c:20-21, acosf.c:26-27; 2 asin(sqrt((1 - a)/2)) *)
Definition twice_ (a : Z) : Z := let u := mul64 c_half (sub64 c_1 a) in mul64 c_2 (kernel_asin_ (sqrt64 u) u).
(* src/math/float/asinf.c:4-24 *)
Definition asinf (x : Z) : Z :=
  let xd := f2d x in
  let a := fabsb 52 11 xd in
  if lt64 a c_half then d2f (kernel_asin_ xd (mul64 xd xd))
  else if eq32 (fabsb 23 8 x) 0x3F083A1A then copysign 23 8 0x3F0FA5B2 x
  else copysign 23 8 (d2f (sub64 d_pi_2 (twice_ a))) x.

(* src/math/float/acosf.c:4-30 *)
Definition acosf (x : Z) : Z :=
  let xd := f2d x in
  let a := fabsb 52 11 xd in
  if lt64 a c_half then
    if eq32 x 0x328885A3 then 0x3FC90FDB
    else if eq32 x 0x39826222 then 0x3FC907B5
    else d2f (sub64 d_pi_2 (kernel_asin_ xd (mul64 xd xd)))
  else d2f (if lt32 0 x then twice_ a else sub64 d_pi (twice_ a)).
