(** Model of the floating-point manipulation functions of src/math.
    Floating values are bit patterns ([reinterpret], src/math/reinterpret.h, is the
    identity on them); the native operations are those of HW.v.  The float and the
    double version of a function are the same text up to constants and are given
    once, for a format with [mw] fraction bits and [ew] exponent bits: double is
    (52, 11), float is (23, 8).  The constants of the source are checked against
    the generic ones in [constants64] and [constants32]. *)
From Coq Require Import Reals.
From Flocq Require Import Core BinarySingleNaN.
From Verif Require Import Base FP HW Int128_Model.
Open Scope Z_scope.

(** signed arithmetic of [w] bits *)
Definition chk (w x : Z) : res Z := if (- 2^(w-1) <=? x) && (x <=? 2^(w-1) - 1) then Ok x else UB.
(** __builtin_clz / __builtin_clzll on a word of [w] bits *)
Definition clz (w x : Z) : res Z := if x =? 0 then UB else Ok (w - 1 - Z.log2 x).
(** __builtin_ctzll: the number of low zero bits *)
Fixpoint ctz_pos (p : positive) : Z := match p with xO q => 1 + ctz_pos q | _ => 0 end.
Definition ctz (x : Z) : res Z := match x with Zpos p => Ok (ctz_pos p) | _ => UB end.

Section Generic.
Variables mw ew : Z.
Hypothesis Hmw : 0 < mw.
Hypothesis Hew : 0 < ew.
Hypothesis Hpe : mw + 1 < 2^(ew - 1).

Notation W := (mw + ew + 1).
Notation bias := (2^(ew - 1) - 1).
Notation hofZ := (hofZ mw ew Hmw Hpe).
Notation hadd := (hadd mw ew Hmw Hew Hpe).
Notation hsub := (hsub mw ew Hmw Hew Hpe).
Notation hmul := (hmul mw ew Hmw Hew Hpe).
Notation htrunc := (htrunc mw ew Hmw Hew Hpe).

(** patterns of 1, of 2^mw, of the least normal, of 1/2, of 2 *)
Definition c_one : Z := Z.shiftl bias mw.
Definition c_big : Z := Z.shiftl (bias + mw) mw.
Definition c_min : Z := Z.shiftl 1 mw.
Definition c_half : Z := Z.shiftl (bias - 1) mw.
Definition c_two : Z := Z.shiftl (bias + 1) mw.

(** fabs, copysign, unary minus: instructions *)
Definition fabs (x : Z) : Z := fabsb mw ew x.
Definition copysign (x y : Z) : Z := with_sign mw ew (fneg mw ew y) (fabsb mw ew x).
Definition negate (x : Z) : Z := with_sign mw ew (negb (fneg mw ew x)) (fabsb mw ew x).

(** __builtin_floor, __builtin_ceil, __builtin_trunc, __builtin_rint: instructions *)
Definition hround (m : mode) (x : Z) : Z :=
  enc mw ew (Bnearbyint (prec_lt_emax_ := hw_emax mw ew Hpe) m (dec mw ew Hmw Hew Hpe x)).
Definition bfloor := hround mode_DN.
Definition bceil := hround mode_UP.
Definition btrunc := hround mode_ZR.
Definition brint := hround mode_NE.

(* src/math/double/floor.h:4-18, src/math/float/floorf.h:4-18 *)
Definition floor_ (x : Z) : res Z :=
  let bits := sgn W x in
  let magnitude := Z.land bits (2^(W-1) - 1) in
  if (magnitude =? 0) || (c_big <=? magnitude) then Ok x
  else if magnitude <? c_one then Ok (hofZ (Z.shiftr bits (W-1)))
  else
    do mask <- rsh W (2^mw - 1) (Z.shiftr magnitude mw - bias);
    do sum <- chk W (bits + b2z (bits <? 0) * mask);
    Ok (Z.land sum (Z.lnot mask) mod 2^W).

(* src/math/double/ceil.h:4-18, src/math/float/ceilf.h:4-18 *)
Definition ceil_ (x : Z) : res Z :=
  let bits := sgn W x in
  let magnitude := Z.land bits (2^(W-1) - 1) in
  if (magnitude =? 0) || (c_big <=? magnitude) then Ok x
  else if magnitude <? c_one then Ok (negate (hofZ (Z.lnot (Z.shiftr bits (W-1)))))
  else
    do mask <- rsh W (2^mw - 1) (Z.shiftr magnitude mw - bias);
    do sum <- chk W (bits + b2z (0 <=? bits) * mask);
    Ok (Z.land sum (Z.lnot mask) mod 2^W).

(* src/math/double/trunc.h:4-17, src/math/float/truncf.h:4-17 *)
Definition trunc_ (x : Z) : res Z :=
  let mask := - 2^mw in
  let bits := sgn W x in
  let magnitude := Z.land bits (2^(W-1) - 1) in
  if magnitude <? c_one then Ok (Z.land bits (2^(W-1)) mod 2^W)
  else if magnitude <? c_big then
    do m <- rsh W mask (Z.shiftr magnitude mw - bias);
    Ok (Z.land m bits mod 2^W)
  else Ok x.

(* src/math/double/rint.h:3-14, src/math/float/rintf.h:3-14 *)
Definition rint_ (x : Z) : Z :=
  let r := fabs x in
  if hlt mw ew r c_big then
    let y := hadd r c_big in
    copysign (hsub y c_big) x
  else x.

(* src/math/double/round.h:3-9; trunc is the instruction; (r - i >= 0.5) is 0 or 1 *)
Definition round_ (x : Z) : Z :=
  let r := fabs x in
  let i := btrunc r in
  copysign (hadd i (hofZ (b2z (hle mw ew c_half (hsub r i))))) x.

(** `y >= MAX ? MAX : y > MIN ? (T)y : MIN` for a signed T of [w] bits; the
    integer operands are converted to the floating type.
    src/math/double/lround.c:9, llround.c:8, lrint.c:8, llrint.c:8;
    src/math/float/lrintf.c:8, llrintf.c:8, lroundf.c:8, llroundf.c:8 *)
Definition clamp (w y : Z) : res Z :=
  if hle mw ew (hofZ (2^(w-1) - 1)) y then Ok (2^(w-1) - 1)
  else if hlt mw ew (hofZ (- 2^(w-1))) y then to_signed w (htrunc y)
  else Ok (- 2^(w-1)).

(* src/math/double/lrint.c:4-9, llrint.c:4-9, src/math/float/lrintf.c:4-9, llrintf.c:4-9 *)
Definition lrint (w x : Z) : res Z := clamp w (brint x).

(* src/math/double/modf.c:3-8, src/math/float/modff.c:3-8: value and *i *)
Definition modf (x : Z) : Z * Z :=
  let i := btrunc x in
  (copysign (if fisinf mw ew x then 0 else hsub x i) x, i).

(* src/math/double/normalize.h:22-29, src/math/float/normalizef.h:10-17 *)
Definition normalize_ (i : Z) : res Z :=
  if i <? c_min then
    do c <- clz W i;
    let shift := c - ew in
    do l <- lsh W i shift;
    do m <- lsh W shift mw;
    chk W (sgn W l - sgn W m)
  else Ok i.

(* src/math/double/frexp.c:6-19, src/math/float/frexpf.c:6-19: value and *exp *)
Definition frexp (x : Z) : res (Z * Z) :=
  let i := fabs x in
  if (i =? 0) || (finf mw ew <=? i) then Ok (x, 0)
  else
    do i <- normalize_ i;
    let exp := Z.shiftr i mw - (bias - 1) in
    Ok (copysign (Z.lor (Z.land i (2^mw - 1)) c_half) x, exp).

(* src/math/double/ilogb.c:6-23, src/math/float/ilogbf.c:6-23;
   FP_ILOGB0 is INT_MIN and FP_ILOGBNAN is INT_MAX (include/math.h:25-26) *)
Definition ilogb (x : Z) : res Z :=
  let word := fabs x in
  if word =? 0 then Ok INT_MIN
  else if word <? c_min then do c <- clz W word; Ok (- (bias - 1 - ew + c))
  else if word <? finf mw ew then Ok (Z.shiftr word mw - bias)
  else Ok INT_MAX.

(* src/math/double/logb.c:5-20, src/math/float/logbf.c:5-20 *)
Definition logb (x : Z) : res Z :=
  let word := fabs x in
  if word =? 0 then Ok (with_sign mw ew true (finf mw ew))
  else if word <? c_min then do c <- clz W word; Ok (hofZ (- (bias - 1 - ew + c)))
  else if word <? finf mw ew then Ok (hofZ (Z.shiftr word mw - bias))
  else Ok word.

(* src/math/double/nextafter.c:6-21, src/math/float/nextafterf.c:6-21;
   src/math/long-double/nexttowardl.c:9-24 is the same text at (112, 15) *)
Definition nextafter (from to : Z) : res Z :=
  if heq mw ew from to || fisnan mw ew to then Ok to
  else if fisnan mw ew from then Ok from
  else if heq mw ew from 0 then Ok (copysign 1 to)
  else
    let a := sgn W from in
    let b := sgn W to in
    do r <- chk W (if (b <? a) || (Z.lxor a b <? 0) then a - 1 else a + 1);
    Ok (r mod 2^W).

(* src/math/double/fmin.c:1-4, src/math/float/fminf.c:1-4 *)
Definition fmin (x y : Z) : Z := if hle mw ew x y || fisnan mw ew y then x else y.
(* src/math/double/fmax.c:1-4, src/math/float/fmaxf.c:1-4 *)
Definition fmax (x y : Z) : Z := if hle mw ew y x || fisnan mw ew y then x else y.
(* src/math/double/fdim.c:1-4, src/math/float/fdimf.c:1-4 *)
Definition fdim (x y : Z) : Z := if hle mw ew x y then 0 else hsub x y.

(* src/math/double/scalbn.h:7-27; src/math/long-double/ldexpl.c:12-36 is the same text at (112, 15),
   where the product is __multf3.  2^-(mw+1) is the pattern of exponent field bias - (mw + 1). *)
Definition scalbn_ (mul : Z -> Z -> res Z) (x exp : Z) : res Z :=
  let i := fabs x in
  if (i =? 0) || (finf mw ew <=? i) then Ok x
  else
    do i <- normalize_ i;
    do biased <- chk_i64 (exp + Z.shiftr i mw);
    if (2^ew - 1 <=? biased) || (biased <? - (mw + 1)) then mul x (if exp <? 0 then 0 else finf mw ew)
    else
      let i := Z.land i (2^mw - 1) in
      if 0 <? biased then
        do b <- lsh W biased mw; Ok (copysign (Z.lor i b) x)
      else
        do b <- lsh W (biased + (mw + 1)) mw;
        mul (copysign (Z.shiftl (bias - (mw + 1)) mw) x) (Z.lor i b).

(** ** fmod *)

(* src/math/double/fmod.h:5-10, src/math/float/fmodf.h:5-8 *)
Definition significand_ (i : Z) : Z := Z.lor (Z.land i (c_min - 1)) c_min.

(* src/math/double/fmod.h:31-44, src/math/float/fmodf.h:20-31 *)
Definition load_ (remainder template : Z) : res Z :=
  if remainder =? 0 then Ok remainder
  else
    do c <- clz W remainder;
    let shift := c - ew in
    let exp := Z.shiftr template mw - shift in
    do l <- lsh W remainder shift;
    let significand := sgn W l in
    do e <- lsh W exp mw;
    let normalized := Z.lor (sgn W e) (Z.land significand (c_min - 1)) in
    if normalized <? c_min then rsh W significand (1 - exp) else Ok normalized.

(* src/math/double/fmod.h:46-55, src/math/float/fmodf.h:33-39; remshift_ differs *)
Definition finite_ (remshift_ : Z -> Z -> Z -> res Z) (a b : Z) : res Z :=
  let threshold := Z.shiftl 2 mw in
  if b <=? threshold then
    if a <=? threshold then urem a b
    else remshift_ (significand_ a) b (Z.shiftr a mw - 1)
  else
    do r <- remshift_ (significand_ a) (significand_ b) (Z.shiftr a mw - Z.shiftr b mw);
    load_ r b.

(* src/math/double/fmod.h:57-70, src/math/float/fmodf.h:41-53 *)
Definition fmod_ (remshift_ : Z -> Z -> Z -> res Z) (numerator denominator : Z) : res Z :=
  let a := fabs numerator in
  let b := fabs denominator in
  if (finf mw ew <=? a) || (finf mw ew <? b) || (b =? 0) then Ok (qnan mw ew)
  else if a <? b then Ok numerator
  else do r <- finite_ remshift_ a b; Ok (copysign (r mod 2^W) numerator).

(** ** remainder and remquo *)

(** `numerator > 0.5 * denominator` and its subtractions:
    src/math/double/remainder.c:13-24, remquo.h:26-43 (which also counts), and the
    float versions: src/math/float/remainderf.c:13-24, remquof.h:26-43.
    Result: numerator and the number of subtractions. *)
Definition nearest_part (numerator denominator : Z) : Z * Z :=
  if hlt mw ew denominator (hmul c_two c_min) then
    if hlt mw ew denominator (hmul c_two numerator) then
      let n := hsub numerator denominator in
      if hle mw ew denominator (hmul c_two n) then (hsub n denominator, 2) else (n, 1)
    else (numerator, 0)
  else if hlt mw ew (hmul c_half denominator) numerator then
    let n := hsub numerator denominator in
    if hle mw ew (hmul c_half denominator) n then (hsub n denominator, 2) else (n, 1)
  else (numerator, 0).

(* src/math/double/remainder.c:6-29, src/math/float/remainderf.c:6-29 *)
Definition remainder (fmod : Z -> Z -> res Z) (numerator denominator : Z) : res Z :=
  let bits := Z.land numerator (2^(W-1)) in
  do n <- fmod (fabs numerator) (hmul c_two denominator);
  let d := fabs denominator in
  Ok (Z.lxor bits (fst (nearest_part n d))).

(* src/math/double/remquo.h:6-50, src/math/float/remquof.h:6-50: value and *quotient *)
Definition remquo (fmod : Z -> Z -> res Z) (numerator denominator : Z) : res (Z * Z) :=
  let from := sgn W numerator in
  do n <- fmod (fabs numerator) (hmul (hofZ 8) denominator);
  let d := fabs denominator in
  let d4 := hmul (hofZ 4) d in
  let '(n, q) := if hle mw ew d4 n then (hsub n d4, 4) else (n, 0) in
  let d2 := hmul c_two d in
  let '(n, q) := if hle mw ew d2 n then (hsub n d2, Z.lor q 2) else (n, q) in
  let '(n, k) := nearest_part n d in
  let q := q + k in
  Ok (Z.lxor (Z.land from (2^(W-1)) mod 2^W) n, if from <? 0 then - q else q).

End Generic.

(** The constants written out in the source. *)
Example constants64 :
  c_one 52 11 = 0x3FF0000000000000 /\ c_big 52 11 = 0x4330000000000000 /\ c_min 52 = 0x0010000000000000 /\
  c_half 52 11 = 0x3FE0000000000000 /\ finf 52 11 = 0x7FF0000000000000 /\ Z.shiftl 2 52 = 0x0020000000000000 /\
  2^52 - 1 = 0x000FFFFFFFFFFFFF /\ 2^(11-1) - 1 - 1 - 11 = 1011 /\ 2^(11-1) - 1 = 1023.
Proof. repeat split. Qed.
Example constants32 :
  c_one 23 8 = 0x3F800000 /\ c_big 23 8 = 0x4B000000 /\ c_min 23 = 0x00800000 /\
  c_half 23 8 = 0x3F000000 /\ finf 23 8 = 0x7F800000 /\ Z.shiftl 2 23 = 0x01000000 /\
  2^23 - 1 = 0x007FFFFF /\ 2^(8-1) - 1 - 1 - 8 = 118 /\ 2^(8-1) - 1 = 127.
Proof. repeat split. Qed.

(** ** remshift_ *)

(* src/math/float/fmodf.h:10-18: the loop runs [n] times *)
Fixpoint remshiftf_loop (n : nat) (remainder b : Z) : res Z :=
  match n with
  | O => Ok remainder
  | S n => do l <- lsh 64 remainder 32; do r <- urem l b; remshiftf_loop n r b
  end.
Definition remshiftf_ (a b exp : Z) : res Z :=
  do l <- lsh 64 a (Z.land exp 31);
  do remainder <- urem l b;
  do r <- remshiftf_loop (Z.to_nat (Z.shiftr exp 5)) remainder b;
  Ok (u32 r).

(* src/math/double/fmod.h:17-29 *)
Fixpoint remshift_loop (fuel : nat) (remainder exp denominator space : Z) : res (Z * Z) :=
  match fuel with
  | O => Fuel
  | S fuel =>
    if space <=? exp then
      do l <- lsh 64 remainder space;
      do r <- urem l denominator;
      remshift_loop fuel r (exp - space) denominator space
    else Ok (remainder, exp)
  end.
Definition remshift_ (a b exp : Z) : res Z :=
  do z <- ctz b;
  let shift := if z <? exp then z else exp in
  do denominator <- rsh 64 b shift;
  do remainder <- urem a denominator;
  do space <- clz 64 denominator;
  do p <- remshift_loop (Z.to_nat exp + 1) remainder (exp - shift) denominator space;
  let '(remainder, exp) := p in
  do l <- lsh 64 remainder exp;
  do r <- urem l denominator;
  lsh 64 r shift.

(** ** The functions of <math.h> *)
Notation D f := (f 52 11 eq_refl eq_refl eq_refl) (only parsing).
Notation F f := (f 23 8 eq_refl eq_refl eq_refl) (only parsing).

(* src/math/double/fmod.c, src/math/float/fmodf.c *)
Definition fmod64 := fmod_ 52 11 remshift_.
Definition fmod32 := fmod_ 23 8 remshiftf_.
(* src/math/double/remainder.c, remquo.c; src/math/float/remainderf.c, remquof.c *)
Definition remainder64 := D remainder fmod64.
Definition remainder32 := F remainder fmod32.
Definition remquo64 := D remquo fmod64.
Definition remquo32 := F remquo fmod32.

(* src/math/double/scalbn.h:7-27 (scalbn and its aliases ldexp, scalbln): the products are
   those of the machine *)
Definition scalbn (x exp : Z) : res Z := scalbn_ 52 11 (fun a b => Ok (mul64 a b)) x exp.

(* src/math/float/scalbnf.h:5-14 *)
Definition coeff_ (exp : Z) : res Z :=
  if 1024 <=? exp then Ok 0x7FEFFFFFFFFFFFFF
  else if exp <? -1022 then Ok 0x0008000000000000
  else lsh 64 (1023 + exp) 52.
(* src/math/float/scalbnf.h:16-19: the product of a float and a double is a double *)
Definition scalbnf (x exp : Z) : res Z :=
  do c <- coeff_ exp; Ok (d2f (mul64 (f2d x) c)).

(* src/math/double/lround.c:5-10 (LONG_MAX < 0x1p52 on wasm32); 0.5 has the sign of x *)
Definition lround (x : Z) : res Z :=
  D clamp 32 (add64 x (copysign 52 11 (c_half 52 11) x)).
(* src/math/double/llround.c:4-9 *)
Definition llround (x : Z) : res Z := D clamp 64 (D round_ x).
(* src/math/float/lroundf.c:4-9, llroundf.c:4-9: computed in double *)
Definition lroundf (w x : Z) : res Z :=
  D clamp w (add64 (f2d x) (copysign 52 11 (c_half 52 11) (f2d x))).
(* src/math/float/roundf.h:3-6 *)
Definition roundf (x : Z) : Z :=
  d2f (D btrunc (add64 (f2d x) (copysign 52 11 (c_half 52 11) (f2d x)))).

(** ** fmaf *)
(* src/math/float/fmaf.h:5-24; fegetround() is FE_TONEAREST (include/fenv.h), FP_FAST_FMAF is
   undefined; `s - s` is true when nonzero or NaN *)
Definition ftrue (x : Z) : bool := negb (heq 52 11 x 0).
Definition fmaf (a b c : Z) : Z :=
  let ab := mul64 (f2d a) (f2d b) in
  let s := add64 ab (f2d c) in
  if negb (Z.land s 0x1FFFFFFF =? 0x10000000) || ftrue (sub64 s s) || heq 52 11 (sub64 s ab) (f2d c) then d2f s
  else
    let adjustment := 1 - u64 (Z.shiftl (Z.shiftr (Z.lxor s (add64 (sub64 ab s) (f2d c))) 63) 1) in
    d2f (u64 (s + adjustment)).
