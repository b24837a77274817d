(** Model of the software binary128 (long double) operations in src/soft/float.
    A value of a floating type is its bit pattern; [reinterpret] is the identity up
    to reading the pattern as signed ([s128]) or unsigned.  Native operations on
    double are those of HW.v.  Left shifts of negative __int128 values wrap. *)
From Verif Require Import Base FP HW Int128_Model Int128_Float_Model.

Definition SIGN128 : Z := Z.shiftl 1 127.
Definition INF128 : Z := Z.shiftl 0x7FFF 112.
(** a & ~sign, a & sign *)
Definition nosign (a : Z) : Z := Z.land a (2^127 - 1).
Definition signbit128 (a : Z) : Z := Z.land a SIGN128.
(** !x, !!x *)
Definition lnot0 (x : Z) : Z := b2z (x =? 0).
Definition bool0 (x : Z) : Z := b2z (negb (x =? 0)).

(** ** Comparison *)
(* src/soft/float/isnanl.h:3-6 *)
Definition isnanl (a : Z) : bool := Z.shiftl 0x7FFF 113 <? u128 (Z.shiftl a 1).
(* src/soft/float/unordtf2.h:3-6, unordtf2.c:3-9 *)
Definition unordtf2 (a b : Z) : Z := b2z (isnanl a || isnanl b).
(* src/soft/float/cmptf2.c:4-17 *)
Definition cmptf2_ (x y unordered : Z) : Z :=
  let a := s128 x in
  let b := s128 y in
  let sign := Z.shiftr (Z.land a b) 127 in
  if s128 (Z.shiftl (Z.lor a b) 1) =? 0 then 0
  else if negb (unordtf2 (u128 a) (u128 b) =? 0) then unordered
  else Z.lxor (b2z (b <? a) - b2z (a <? b) + sign) sign.
(* src/soft/float/cmptf2.c:19-25: __cmptf2 = __letf2 = __lttf2 *)
Definition cmptf2 (x y : Z) : Z := cmptf2_ x y 1.
(* src/soft/float/cmptf2.c:27-32: __getf2 = __gttf2 *)
Definition getf2 (x y : Z) : Z := cmptf2_ x y (-1).
(* src/soft/float/eqtf2.c:3-11: __eqtf2 = __netf2 *)
Definition eqtf2 (a b : Z) : Z :=
  b2z ((negb (a =? b) || isnanl a) && negb (u128 (Z.shiftl (Z.lor a b) 1) =? 0)).

(** ** Normalisation *)
(* src/math/double/normalize.h:21-28 *)
Definition normalize64 (i : Z) : res Z :=
  if i <? 0x0010000000000000 then
    do c <- clzll (u64 i);
    let shift := c - 11 in
    do j <- lsh 64 i shift;
    chk_i64 (s64 j - s64 (Z.shiftl shift 52))
  else Ok i.
(* src/math/long-double/normalizel.h:10-17 *)
Definition normalizel (i : Z) : res Z :=
  if i <? Z.shiftl 1 112 then
    do c <- clzti2 (u128 i);
    let shift := c - 15 in
    do j <- lsh 128 i shift;
    chk_i128 (s128 j - s128 (Z.shiftl shift 112))
  else Ok i.

(** ** Widening *)
(* src/soft/float/extenddftf2.c:6-12 *)
Definition extenddf_magnitude (i : Z) : res Z :=
  if 0x7FF0000000000000 <=? i then Ok (Z.lor (Z.shiftl 0x78 120) (Z.shiftl i 60))
  else if i =? 0 then Ok 0
  else do n <- normalize64 i; chk_i128 (Z.shiftl 0x3C 120 + s128 (Z.shiftl n 60)).
(* src/soft/float/extenddftf2.c:14-19.  The call copysignl(m, x) converts the
   double x to long double, which is this very function; the model takes the
   conversion in that argument to preserve the sign, as when the compiler folds
   copysign(m, extend(x)) to copysign(m, x). *)
Definition extenddftf2 (x : Z) : res Z :=
  do m <- extenddf_magnitude (fabsb 52 11 x);
  Ok (Z.lor (nosign (u128 m)) (if fneg 52 11 x then SIGN128 else 0)).
(* src/soft/float/extendsftf2.c:5-11 *)
Definition extendsf_magnitude (i : Z) : Z :=
  if 0x7FF0000000000000 <=? i then Z.lor 0x7800000000000000 (Z.shiftr i 4)
  else if i =? 0 then 0 else u64 (0x3C00000000000000 + Z.shiftr i 4).
(* src/soft/float/extendsftf2.c:13-19 *)
Definition extendsftf2 (x : Z) : Z :=
  let i := f2d x in
  let high := Z.lor (extendsf_magnitude (Z.land i (2^63 - 1))) (Z.land i 0x8000000000000000) in
  Z.shiftl high 64.

(** ** Narrowing *)
(* src/soft/float/trunctfdf2.c:4-21 *)
Definition trunctfdf_magnitude (high low : Z) : Z :=
  if (0x7FFF000000000000 <? high) || ((high =? 0x7FFF000000000000) && negb (low =? 0)) then high
  else if 0x43FF000000000000 <=? high then 0x7FF0000000000000
  else if 0x3C01000000000000 <=? high then
    u64 (Z.lor (u64 (Z.shiftl (u64 (high - 0x3C00000000000000)) 4)) (Z.shiftr low 60)
         + b2z (0x8000000000000000 <? Z.lor (Z.land (Z.shiftr low 59) 1) (u64 (Z.shiftl low 4))))
  else if 0x3BCC000000000000 <=? high then
    let significand := Z.lor (Z.lor (Z.shiftr (Z.lor 0x8000000000000000 (u64 (Z.shiftl high 15))) 11)
                                    (Z.shiftr low 60)) (bool0 (u64 (Z.shiftl low 4))) in
    let coeff := u64 (Z.shiftl (u64 (Z.shiftr high 48 - 0x3802)) 52) in
    mul64 significand coeff
  else 0.
(* src/soft/float/trunctfdf2.c:23-29 *)
Definition trunctfdf2 (i : Z) : Z :=
  let high := u64 (Z.shiftr i 64) in
  Z.lor (trunctfdf_magnitude (Z.land high (2^63 - 1)) (u64 i)) (Z.land high 0x8000000000000000).
(* src/soft/float/trunctfsf2.c:5-17 *)
Definition trunctfsf_magnitude (i : Z) : Z :=
  if 0x7FFF000000000000 <? i then i
  else if 0x43FF000000000000 <=? i then 0x7FF0000000000000
  else if 0x3C00000000000000 <? i then u64 (Z.shiftl (u64 (i - 0x3C00000000000000)) 4)
  else 0.
(* src/soft/float/trunctfsf2.c:19-25; the return converts double to float *)
Definition trunctfsf2 (bits : Z) : Z :=
  let i := Z.lor (u64 (Z.shiftr bits 64)) (bool0 (Z.land bits (2^64 - 1))) in
  d2f (Z.lor (trunctfsf_magnitude (Z.land i (2^63 - 1))) (Z.land i 0x8000000000000000)).

(** ** To integers *)
(* src/soft/float/fixunstfdi.h:3-15 *)
Definition fixunstfdi_ (high low : Z) : res Z :=
  if high <? 0x3FFF000000000000 then Ok 0
  else
    let shift := 112 + 0x3FFF - Z.shiftr high 48 in
    let significand := Z.lor (Z.land high 0x0000FFFFFFFFFFFF) 0x0001000000000000 in
    if shift <? 64 then
      do h <- lsh 64 significand (64 - shift);
      do l <- rsh 64 low shift;
      Ok (Z.lor h l)
    else rsh 64 significand (Z.land shift 63).
(* src/soft/float/fixunstfdi.c:5-10 *)
Definition fixunstfdi (x : Z) : res Z :=
  let bits := s128 x in fixunstfdi_ (s64 (Z.shiftr bits 64)) (u64 bits).
(* src/soft/float/fixtfdi.c:5-12 *)
Definition fixtfdi (x : Z) : res Z :=
  let bits := s128 x in
  let high := s64 (Z.shiftr bits 64) in
  let sign := Z.shiftr high 63 in
  do m <- fixunstfdi_ (Z.land high (2^63 - 1)) (u64 bits);
  Ok (s64 (Z.lxor (u64 (m + sign)) (u64 sign))).
(* src/soft/float/fixtfsi.c:4-15 *)
Definition fixtfsi (x : Z) : res Z :=
  let high := u64 (Z.shiftr x 64) in
  if Z.land high (2^63 - 1) <? 0x3FFF000000000000 then Ok 0
  else
    let sign := Z.land high 0x8000000000000000 in
    let magnitude := u64 (Z.shiftl (u64 (high - 0x3C00000000000000)) 4) in
    to_signed 32 (trunc64 (Z.lor sign magnitude)).
(* src/soft/float/fixunstfsi.c:4-12 *)
Definition fixunstfsi (x : Z) : res Z :=
  let high := s64 (Z.shiftr (s128 x) 64) in
  if high <? 0x3FFF000000000000 then Ok 0
  else to_unsigned 32 (trunc64 (u64 (Z.shiftl (high - 0x3C00000000000000) 4))).
(* src/soft/float/fixunstfti.h:1-12 *)
Definition fixunstfti_ (bits : Z) : res Z :=
  let implied := Z.shiftl 1 112 in
  if Z.shiftr bits 64 <? 0x3FFF000000000000 then Ok 0
  else
    let shift := 112 + 0x3FFF - Z.shiftr bits 112 in
    let significand := Z.lor (Z.land bits (implied - 1)) implied in
    if shift <? 0 then lsh 128 significand (- shift) else rsh 128 significand shift.
(* src/soft/float/fixunstfti.c:4-7 *)
Definition fixunstfti (x : Z) : res Z := fixunstfti_ (s128 x).
(* src/soft/float/fixtfti.c:5-10; fabsl clears the sign *)
Definition fixtfti (x : Z) : res Z :=
  do m <- fixunstfti_ (nosign x);
  let magnitude := s128 m in
  if fneg 112 15 x then chk_i128 (- magnitude) else Ok magnitude.

(** ** From integers *)
(* src/soft/float/floatunditf.c:4-14 *)
Definition floatunditf (a : Z) : res Z :=
  if a =? 0 then Ok 0 else
  do space <- clzll a;
  do n <- lsh 64 a space;
  let significand := Z.shiftl (Z.land n (2^63 - 1)) 49 in
  let exp := 0x3FFF + 63 - space in
  Ok (Z.lor significand (Z.shiftl exp 112)).
(* src/soft/float/floatditf.c:5-18; llabs negates (src/stdlib/abs.h) *)
Definition floatditf (a : Z) : res Z :=
  if a =? 0 then Ok 0 else
  let sign := Z.land (u64 a) 0x8000000000000000 in
  do magnitude <- (if a <? 0 then chk_i64 (- a) else Ok a);
  do space <- clzll magnitude;
  do n <- lsh 64 magnitude space;
  let significand := Z.shiftl (Z.land n (2^63 - 1)) 49 in
  let exp := 0x3FFF + 63 - space in
  Ok (Z.lor (Z.lor significand (Z.shiftl exp 112)) (Z.shiftl sign 64)).
(* src/soft/float/floatsitf.c:5-14 *)
Definition floatsitf (a : Z) : Z :=
  if a =? 0 then 0 else
  let sign := Z.land (u64 a) 0x8000000000000000 in
  let magnitude := u64 (Z.shiftr (fabsb 52 11 (ofZ64 a)) 4 + 0x3C00000000000000) in
  Z.shiftl (Z.lor sign magnitude) 64.
(* src/soft/float/floatunsitf.c:4-12 *)
Definition floatunsitf (a : Z) : Z :=
  if a =? 0 then 0 else
  Z.shiftl (u64 (Z.shiftr (ofZ64 a) 4 + 0x3C00000000000000)) 64.
(* src/soft/float/floatuntitf.c:4-18: the scheme of floatuntidf with rounding bit 14
   (0x4000, mask 0xBFFF = 3 * 0x4000 - 1) and 112 fraction bits *)
Definition floatuntitf (a : Z) : res Z :=
  if a =? 0 then Ok 0 else floatti_bits 14 128 112 (0x3FFF + 127) 0 a.
(* src/soft/float/floattitf.c:4-21 *)
Definition floattitf (a : Z) : res Z :=
  if a =? 0 then Ok 0 else
  do magnitude <- (if a <? 0 then chk_i128 (- a) else Ok a);
  floatti_bits 14 128 112 (0x3FFF + 127) (Z.land (u128 a) SIGN128) magnitude.

(** ** Multiplication *)
(* src/soft/float/compose/product.h:1-18 *)
Definition compose_product (exp significand : Z) : res Z :=
  if 0x7FFF <=? exp then Ok INF128
  else if 0 <? exp then
    let tail := u128 (Z.shiftl significand 1) in
    Ok (u128 (Z.lor (Z.shiftl exp 112) (Z.shiftr tail 16)
        + b2z (0x8000 <? Z.lor (Z.land tail 0xFFFF) (Z.land (Z.shiftr tail 16) 1))))
  else if -112 <=? exp then
    do q <- rsh 128 (Z.shiftr significand 16) (- exp);
    do r <- lsh 128 significand (112 + exp);
    Ok (u128 (q + b2z (0x8000000000000000 <?
       Z.lor (Z.shiftr r 64) (b2z (negb (Z.land q 1 =? 0) || negb (Z.land r 0xFFFFFFFFFFFFFFFF =? 0))))))
  else Ok 0.
(* src/soft/float/multf3.c:6-17 *)
Definition multf_kernel (a b : Z) : res Z :=
  let x := Z.lor (u128 (Z.shiftl a 15)) SIGN128 in
  let y := Z.lor (u128 (Z.shiftl b 15)) SIGN128 in
  let '(low, high) := umulti4 x y in
  let carry := bool0 (Z.shiftr high 127) in
  compose_product (Z.shiftr a 112 + Z.shiftr b 112 - 0x3FFF + carry)
    (u128 (Z.shiftl (Z.lor high (bool0 low)) (1 - carry))).
(* src/soft/float/multf3.c:19-33 *)
Definition multf_magnitude (a b : Z) : res Z :=
  if INF128 <=? a then Ok (Z.lor a (Z.shiftl (b2z (INF128 <=? u128 (b - 1))) 111))
  else if INF128 <=? b then Ok (Z.lor b (Z.shiftl (lnot0 a) 111))
  else if negb (a =? 0) && negb (b =? 0) then
    do x <- normalizel a; do y <- normalizel b; multf_kernel x y
  else Ok 0.
(* src/soft/float/multf3.c:35-42 *)
Definition multf3 (a b : Z) : res Z :=
  do m <- multf_magnitude (nosign a) (nosign b);
  Ok (Z.lor m (signbit128 (Z.lxor a b))).

(** ** Addition *)
(* src/soft/float/addtf3.c:3-9 *)
Definition compose_sum (significand shift : Z) : Z :=
  if shift <? 0x7FFE then u128 (significand + Z.shiftl shift 112) else INF128.
(* src/soft/float/addtf3.c:11-32 *)
Definition addtf_add (a b : Z) : res Z :=
  let implied := Z.shiftl 1 112 in
  if a <? implied then Ok (u128 (a + b))
  else
    let shift := u32 (Z.shiftr a 112 - Z.lor (Z.shiftr b 112) (lnot0 (Z.shiftr b 112))) in
    if 114 <=? shift then Ok a
    else
      let aa := Z.lor (Z.land a (implied - 1)) implied in
      let bb := Z.lor (Z.land b (implied - 1)) (Z.shiftl (bool0 (Z.shiftr b 112)) 112) in
      do s <- rsh 128 bb shift;
      let i := u128 (aa + s) in
      do frac <- lsh 128 bb (128 - shift);
      if i <? Z.shiftl implied 1 then
        Ok (compose_sum (u128 (i + b2z (0x8000000000000000 <?
              Z.lor (Z.lor (Z.shiftr frac 64) (Z.land i 1)) (bool0 (Z.land frac 0xFFFFFFFFFFFFFFFF)))))
            (Z.shiftr a 112 - 1))
      else
        Ok (compose_sum (u128 (Z.shiftr i 1 + Z.land i (Z.lor (Z.land (Z.shiftr i 1) 1) (bool0 frac))))
            (Z.shiftr a 112)).
(* src/soft/float/addtf3.c:34-53; (long double)i is __floatuntitf *)
Definition addtf_sub (a b : Z) : res Z :=
  if a <? Z.shiftl 2 112 then Ok (u128 (a - b))
  else
    let shift := u32 (Z.shiftr a 112 - Z.lor (Z.shiftr b 112) (lnot0 (Z.shiftr b 112))) in
    if 114 <=? shift then Ok a
    else
      let aa := Z.lor (u128 (Z.shiftl a 15)) (Z.shiftl 1 127) in
      let bb := Z.lor (u128 (Z.shiftl b 15)) (Z.shiftl (bool0 (Z.shiftr b 112)) 127) in
      do s <- rsh 128 bb shift;
      do t <- lsh 128 bb (128 - shift);
      let i := u128 (aa - Z.lor s (bool0 t)) in
      do f <- floatuntitf i;
      do bits <- chk_i128 (s128 f + s128 (Z.shiftl (Z.shiftr a 112 - 0x407E) 112));
      if Z.shiftl 1 112 <=? bits then Ok (u128 bits)
      else if Z.shiftr a 112 <? 16 then rsh 128 i (16 - Z.shiftr a 112)
      else lsh 128 i (Z.shiftr a 112 - 16).
(* src/soft/float/addtf3.c:55-77 *)
Definition addtf_sorted (a b : Z) : res Z :=
  let aa := nosign a in
  let bb := nosign b in
  if INF128 <? aa then Ok (Z.lor a (Z.shiftl 1 111))
  else if negb (Z.shiftr (Z.lxor a b) 127 =? 0) then
    if aa =? INF128 then Ok (Z.lor a (Z.shiftl (b2z (bb =? INF128)) 111))
    else if aa =? bb then Ok 0
    else do m <- addtf_sub aa bb; Ok (Z.lor (signbit128 a) m)
  else do m <- addtf_add aa bb; Ok (Z.lor (signbit128 a) m).
(* src/soft/float/addtf3.c:79-86 *)
Definition addtf3 (a b : Z) : res Z :=
  if nosign a <? nosign b then addtf_sorted b a else addtf_sorted a b.
(* src/soft/float/addtf3.c:88-91; unary minus flips the sign bit *)
Definition subtf3 (a b : Z) : res Z := addtf3 a (Z.lxor b SIGN128).

(** ** Division *)
(* src/soft/float/divtf3.c:7-10 *)
Definition fixmul (a b : Z) : Z :=
  u128 (umulditi3 a (Z.shiftr b 64) + Z.shiftr (umulditi3 a (u64 b)) 64).
(* src/soft/float/divtf3.c:12-24; 0x1p120 and the conversions are double *)
Definition fixdiv (a b : Z) : res Z :=
  do i0 <- to_unsigned 64 (trunc64 (div64 (Z.shiftl (1023 + 120) 52) (ofZ64 (Z.shiftr b 64))));
  let initial := u64 (Z.shiftl i0 7) in
  let estimate := u64 (Z.shiftr (umulditi3 initial
        (u64 (- Z.shiftr (umulditi3 initial (Z.shiftr b 64)) 64))) 63 - 1) in
  let '(_, high) := umulti4 a (u128 (fixmul estimate (u128 (- fixmul estimate b)) - 2)) in
  let q := Z.shiftr high 2 in
  let '(low, high) := umulti4 (u128 (q + 1)) b in
  Ok (Z.lor (u128 (Z.shiftl (u128 (q + b2z (Z.shiftr a 4 <=? high))) 3)) (bool0 low)).
(* src/soft/float/divtf3.c:26-33 *)
Definition divtf_kernel (a b : Z) : res Z :=
  do quotient <- fixdiv (Z.lor (u128 (Z.shiftl a 15)) SIGN128) (Z.lor (u128 (Z.shiftl b 15)) SIGN128);
  let carry := bool0 (Z.shiftr quotient 127) in
  compose_product (Z.shiftr a 112 - Z.shiftr b 112 + 0x3FFE + carry)
    (u128 (Z.shiftl quotient (1 - carry))).
(* src/soft/float/divtf3.c:35-52 *)
Definition divtf_magnitude (a b : Z) : res Z :=
  if INF128 <=? a then Ok (Z.lor a (Z.shiftl (b2z (INF128 <=? b)) 111))
  else if b =? 0 then Ok (Z.lor INF128 (Z.shiftl (lnot0 a) 111))
  else if INF128 <? b then Ok (Z.lor b (Z.shiftl 1 111))
  else if (a =? 0) || (b =? INF128) then Ok 0
  else do x <- normalizel a; do y <- normalizel b; divtf_kernel x y.
(* src/soft/float/divtf3.c:54-61 *)
Definition divtf3 (a b : Z) : res Z :=
  do m <- divtf_magnitude (nosign a) (nosign b);
  Ok (Z.lor m (signbit128 (Z.lxor a b))).
