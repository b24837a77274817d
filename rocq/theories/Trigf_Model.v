(** Model of the binary32 trigonometric functions sinf, cosf and tanf with the
    argument reduction __rem_pio2f.  Floats and doubles are bit patterns; every
    arithmetic operation is the correctly rounded IEEE operation of HW.v, in the
    order and precision of the source.  Decimal and hexadecimal constants are
    written as the patterns the compiler rounds them to.  An index outside the
    table or a double that does not fit the int it is converted to is UB. *)
From Coq Require Import List.
From Verif Require Import Base FP HW Math_Model Hypotf_Model Expf_Model Int128_Model.
Import ListNotations.
Open Scope Z_scope.

(* src/math/float/kernel/sinf.h:1-15 *)
Definition poly_sinf_ (xx : Z) : Z :=
  hstep (hstep (hstep (hstep (hstep 0x3DE5D8E365902310 xx 0xBE5AE5E546D6A6EB) xx 0x3EC71DE355EF443E)
    xx 0xBF2A01A019BF2048) xx 0x3F8111111110F75C) xx 0xBFC5555555555548.
Definition kernel_sinf_ (x : Z) : Z :=
  let xx := mul64 x x in
  add64 x (mul64 (mul64 x xx) (poly_sinf_ xx)).

(* src/math/float/kernel/sincosf.h:3-18 *)
Definition kernel_cosf_ (x : Z) : Z :=
  let x := mul64 x x in
  hstep (hstep (hstep (hstep (hstep (hstep 0x3E21B951C4AA36EC x 0xBE927DF6880F96CC) x 0x3EFA019F879581CA)
    x 0xBF56C16C1647B026) x 0x3FA555555554F800) x 0xBFDFFFFFFFFFFFA0) x 0x3FF0000000000000.

(* src/math/float/rem_pio2f.c:8 *)
Definition bits_2_pi : list Z := [0xA2F9836E4E441529; 0xFC2757D1F534DDC0; 0xDB6295993C439041; 0xFE5163ABDEBBC561].
Definition bits_at (k : Z) : res Z :=
  if k <? 0 then UB else match nth_error bits_2_pi (Z.to_nat k) with Some b => Ok b | None => UB end.

(* src/math/float/rem_pio2f.c:6-15; the result is the pair (high, low) *)
Definition segment_ (offset : Z) : res (Z * Z) :=
  let index := offset / 2^6 in
  let shift := offset mod 64 in
  do low <- (if 32 <? shift
             then do b2 <- bits_at (index + 2); do b1 <- bits_at (index + 1); do t <- rsh 64 b2 (96 - shift); do v <- lsh 64 b1 (shift - 32); Ok (u32 (Z.lor t v))
             else do b1 <- bits_at (index + 1); do t <- rsh 64 b1 (32 - shift); Ok (u32 t));
  do high <- (if negb (shift =? 0)
              then do b1 <- bits_at (index + 1); do b0 <- bits_at index; do t <- rsh 64 b1 (64 - shift); do v <- lsh 64 b0 shift; Ok (Z.lor t v)
              else bits_at index);
  Ok (high, low).

(* src/math/float/rem_pio2f.c:27-61; the result is the pair (returned int, pattern of *y) *)
Definition rem_pio2f (x : Z) : res (Z * Z) :=
  let i := s32 x in
  let magnitude := Z.land i 0x7FFFFFFF in
  if magnitude <? 0x4DC90FDB then
    let q := add64 (rint64 (mul64 0x3FE45F306DC9C883 (f2d x))) (ofZ64 0) in
    let y := sub64 (sub64 (f2d x) (mul64 q 0x3FF921FB50000000)) (mul64 q 0x3E5110B4611A6263) in
    do n <- to_signed 32 (trunc64 q);
    Ok (n, y)
  else if 0x7F800000 <=? magnitude then Ok (0, f2d (sub32 x x))
  else
    do (high, low) <- segment_ (magnitude / 2^23 - 152);
    let significand := Z.lor (Z.land i 0x007FFFFF) 0x00800000 in
    let product := u64 (u64 (significand * high) + u64 (significand * low) / 2^32) in
    let r := s64 (u64 (product * 2^2)) in
    let q := product / 2^62 + b2z (r <? 0) in
    Ok (if i <? 0 then - q else q, mul64 (copysign 52 11 0x3BF921FB54442D18 (f2d x)) (ofZ64 r)).

Definition neg64 := negate 52 11.

(* src/math/float/sinf.c:3-22 *)
Definition sinf (x : Z) : res Z :=
  if eq32 x 0 then Ok x
  else if eq32 x 0x46199998 then Ok 0xBEB1FA5D
  else if eq32 x 0xC6199998 then Ok 0x3EB1FA5D
  else
    do (n, y) <- rem_pio2f x;
    let q := u32 n in
    let y := if negb (Z.land q 1 =? 0) then kernel_cosf_ y else kernel_sinf_ y in
    Ok (d2f (if negb (Z.land q 2 =? 0) then neg64 y else y)).

(* src/math/float/cosf.c:3-21 *)
Definition cosf (x : Z) : res Z :=
  if eq32 x 0x7908CD73 || eq32 x 0xF908CD73 then Ok 0x3F798BB5
  else if eq32 x 0x6115CB11 || eq32 x 0xE115CB11 then Ok 0x3F78142F
  else if eq32 x 0x5F18B878 || eq32 x 0xDF18B878 then Ok 0x3F7F14BB
  else
    do (n, y) <- rem_pio2f x;
    let q := u32 n in
    let y := if negb (Z.land q 1 =? 0) then kernel_sinf_ y else kernel_cosf_ y in
    Ok (d2f (if negb (Z.land (u32 (q + 1)) 2 =? 0) then neg64 y else y)).

(* src/math/float/tanf.c:20-41 *)
Definition num_tanf_ (u : Z) : Z := hstep (hstep (hstep 0xBEDF624090DAF722 u 0x3F66FC2FECB35A93) u 0xBFC06B8EC6FE0678) u 0x3FF0000000000000.
Definition den_tanf_ (u : Z) : Z := hstep (hstep (hstep 0xBF2B51C81DF38E70 u 0x3F97E796A424CDF8) u 0xBFDD8B1CB8D4586E) u 0x3FF0000000000000.
Definition tanf (x : Z) : res Z :=
  do (n, y) <- rem_pio2f x;
  let q := u32 n in
  let u := mul64 y y in
  let p := num_tanf_ u in
  let d := den_tanf_ u in
  let yp := mul64 y p in
  Ok (d2f (if negb (Z.land q 1 =? 0) then div64 (neg64 d) yp else div64 yp d)).
