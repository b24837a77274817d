(** Model of the conversions between 128-bit integers and float/double.
    Floating values are bit patterns; [reinterpret] is the identity on them.
    Floating operations and conversions done by the hardware are Flocq's IEEE 754
    operations in round-to-nearest-even mode. *)
From Verif Require Import Base FP HW Int128_Model.

(* src/soft/integer/clzti2.h:1-4 *)
Definition clzti2 (x : Z) : res Z :=
  if negb (Z.shiftr x 64 =? 0) then clzll (Z.shiftr x 64)
  else do n <- clzll (u64 x); Ok (Z.lor 64 n).

(** The common body: [h] the rounding bit, [w] the width of the result,
    [mw] its fraction width, [emax] the biased exponent of 2^127.
    src/soft/integer/floatuntidf.h:10-19 (h = 74, w = 64, mw = 52)
    src/soft/integer/floatuntisf.h:10-19 (h = 103, w = 32, mw = 23) *)
Definition floatti_bits (h w mw emax sign a : Z) : res Z :=
  let bit := Z.shiftl 1 h in
  let mask := 3 * bit - 1 in
  do space <- clzti2 a;
  do normalized <- lsh 128 a space;
  let adjustment := b2z (negb (Z.land normalized bit =? 0) && negb (Z.land normalized mask =? 0)) in
  let significand := Z.land (Z.shiftr normalized (h + 1)) (2^mw - 1) in
  let exp := (emax - space) mod 2^w in
  Ok ((Z.lor (Z.lor significand (Z.shiftl exp mw mod 2^w)) sign + adjustment) mod 2^w).

(* src/soft/integer/floatuntidf.h:5-20 *)
Definition floatuntidf (a : Z) : res Z :=
  if a =? 0 then Ok 0 else floatti_bits 74 64 52 (1023 + 127) 0 a.

(* src/soft/integer/floatuntisf.h:5-20 *)
Definition floatuntisf (a : Z) : res Z :=
  if a =? 0 then Ok 0 else floatti_bits 103 32 23 (127 + 127) 0 a.

(* src/soft/integer/floattidf.h:6-25 (-a is signed) *)
Definition floattidf (a : Z) : res Z :=
  if a =? 0 then Ok 0 else
  do magnitude <- (if a <? 0 then chk_i128 (- a) else Ok a);
  floatti_bits 74 64 52 (1023 + 127) (Z.land (u128 (Z.shiftr a 64)) 0x8000000000000000) magnitude.

(* src/soft/integer/floattisf.h:5-24 *)
Definition floattisf (a : Z) : res Z :=
  if a =? 0 then Ok 0 else
  do magnitude <- (if a <? 0 then chk_i128 (- a) else Ok a);
  floatti_bits 103 32 23 (127 + 127) (Z.land (u128 (Z.shiftr a 96)) 0x80000000) magnitude.

(** `high = 0x1p-64 * r; low = r - 0x1p64 * high; high << 64 | low` with the native
    operations of the format; [c], [c'] are 0x1p-64 and 0x1p64.
    src/soft/integer/fixdfti.h:7-9, fixsfti.h:7-9, fixunsdfti.h:8-11, fixunssfti.h:8-11 *)
Definition fix_parts (mul sub : Z -> Z -> Z) (ofZ : Z -> Z) (trunc : Z -> option Z) (c c' r : Z) : res Z :=
  do high <- to_unsigned 64 (trunc (mul c r));
  do low <- to_unsigned 64 (trunc (sub r (mul c' (ofZ high))));
  Ok (Z.lor (Z.shiftl high 64) low).

Definition fix64 := fix_parts mul64 sub64 ofZ64 trunc64 (Z.shiftl (1023 - 64) 52) (Z.shiftl (1023 + 64) 52).
Definition fix32 := fix_parts mul32 sub32 ofZ32 trunc32 (Z.shiftl (127 - 64) 23) (Z.shiftl (127 + 64) 23).

(* src/soft/integer/fixdfti.h:4-12; fabs clears the sign bit; -abs is signed *)
Definition fixdfti (x : Z) : res Z :=
  do p <- fix64 (fabsb 52 11 x);
  let abs := s128 p in
  if fneg 52 11 x then chk_i128 (- abs) else Ok abs.

(* src/soft/integer/fixsfti.h:4-12 *)
Definition fixsfti (x : Z) : res Z :=
  do p <- fix32 (fabsb 23 8 x);
  let abs := s128 p in
  if fneg 23 8 x then chk_i128 (- abs) else Ok abs.

(* src/soft/integer/fixunsdfti.h:3-12 *)
Definition fixunsdfti (x : Z) : res Z :=
  if hlt 52 11 x (Z.shiftl 1023 52) then Ok 0 else fix64 x.

(* src/soft/integer/fixunssfti.h:3-12 *)
Definition fixunssfti (x : Z) : res Z :=
  if hlt 23 8 x (Z.shiftl 127 23) then Ok 0 else fix32 x.
