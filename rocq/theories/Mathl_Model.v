(** Model of the long double functions of src/math, of nexttoward and of fma.
    Long double is binary128 (112, 15); its operators are the calls of Tf_Model.v. *)
From Coq Require Import Reals.
From Flocq Require Import Core BinarySingleNaN.
From Verif Require Import Base FP HW Int128_Model Int128_Float_Model Tf_Model Math_Model.
Open Scope Z_scope.

(* src/math/long-double/truncl.c:3-10 *)
Definition maskshift_ (exp : Z) : Z :=
  if exp <? 0x3FFF then 127
  else
    let shift := 112 + 0x3FFF - exp in
    if shift <? 0 then 0 else shift.
(* src/math/long-double/truncl.c:12-19 *)
Definition truncl (x : Z) : res Z :=
  do mask <- lsh 128 (2^128 - 1) (maskshift_ (Z.shiftr (u128 (Z.shiftl x 1)) 113));
  Ok (Z.land x mask).

(* src/math/long-double/nearbyintl.c:19-22; rint is the instruction *)
Definition nearbyintl (x : Z) : res Z := extenddftf2 (brint 52 11 eq_refl eq_refl eq_refl (trunctfdf2 x)).

(* src/math/long-double/ldexpl.c:12-36: the text of scalbn_ with the product of long doubles.
   The file calls normalizel_ (normalizel.h:10-17, [normalizel] of Tf_Model.v), which is
   normalize_ at (112, 15) on every positive argument (Lemma normalizel_same). *)
Definition ldexpl (x exp : Z) : res Z := scalbn_ 112 15 multf3 x exp.

(* src/math/long-double/nexttowardl.c:9-24: the text of nextafter with the operators of long double;
   `from == 0` is written with the pattern 0 *)
Definition nexttowardl (from to : Z) : res Z :=
  if (eqtf2 from to =? 0) || negb (eqtf2 to to =? 0) then Ok to
  else if negb (eqtf2 from from =? 0) then Ok from
  else if eqtf2 from 0 =? 0 then Ok (copysign 112 15 1 to)
  else
    let a := s128 from in
    let b := s128 to in
    do r <- chk 128 (if (b <? a) || (Z.lxor a b <? 0) then a - 1 else a + 1);
    Ok (u128 r).

(* src/math/double/nexttoward.c:11-34 (widen = __extenddftf2, narrow = __trunctfdf2),
   src/math/float/nexttowardf.c:7-28 (__extendsftf2, __trunctfsf2) *)
Definition nexttoward_ (mw ew : Z) (widen : Z -> res Z) (narrow : Z -> Z) (from to : Z) : res Z :=
  if negb (eqtf2 to to =? 0) then Ok (narrow to)
  else if fisnan mw ew from then Ok from
  else
    do lfrom <- widen from;
    if eqtf2 lfrom to =? 0 then Ok (narrow to)
    else if heq mw ew from 0 then Ok (copysign mw ew 1 (narrow to))
    else
      let a := sgn (mw + ew + 1) from in
      let toward_zero := (hlt mw ew 0 from && (cmptf2 to lfrom <? 0)) || (hlt mw ew from 0 && (0 <? getf2 to lfrom)) in
      do r <- chk (mw + ew + 1) (if toward_zero then a - 1 else a + 1);
      Ok (r mod 2^(mw + ew + 1)).
Definition nexttoward := nexttoward_ 52 11 extenddftf2 trunctfdf2.
Definition nexttowardf := nexttoward_ 23 8 (fun x => Ok (extendsftf2 x)) trunctfsf2.

(** ** fma *)
(* src/math/double/split.h:4-10 *)
Definition split_ (x : Z) : Z :=
  let s := mul64 0x41A0000002000000 x in
  let c := sub64 x s in
  add64 s c.
(* src/math/double/fma.c:12-19: value and *exp *)
Definition frexp_ (x : Z) : res (Z * Z) :=
  do i <- normalize_ 52 11 (fabs 52 11 x);
  Ok (copysign 52 11 (Z.lor (Z.land i 0x000FFFFFFFFFFFFF) 0x3FE0000000000000) x, Z.shiftr i 52 - 1022).
(* src/math/double/fma.c:21-34: value and *r; the products and sums are not contracted *)
Definition mul_ (a b : Z) : Z * Z :=
  let a0 := split_ a in
  let a1 := sub64 a a0 in
  let b0 := split_ b in
  let b1 := sub64 b b0 in
  let u := mul64 a0 b0 in
  let v := add64 (mul64 a0 b1) (mul64 a1 b0) in
  let y := add64 u v in
  (y, add64 (add64 (sub64 u y) v) (mul64 a1 b1)).
(* src/math/double/fma.c:36-43: value and *r *)
Definition add_ (a b : Z) : Z * Z :=
  let y := add64 a b in
  let s := sub64 y a in
  (y, add64 (add64 (sub64 s y) a) (sub64 b s)).
(* src/math/double/fma.c:45-56 *)
Definition add_rounded_to_odd_ (a b : Z) : Z :=
  let '(s, e) := add_ a b in
  if ftrue e && (Z.land s 1 =? 0) then u64 (s + 1 - Z.shiftr (Z.lxor s e) 62) else s.
(* src/math/double/fma.c:58-69 *)
Definition add_subnormal_ (a b scale : Z) : res Z :=
  let '(s, e) := add_ a b in
  let s := if ftrue e && negb (u64 (1 - scale - Z.shiftr (u64 (Z.shiftl s 1)) 53) =? Z.lxor 1 (Z.land s 1))
           then u64 (s + 1 - u64 (Z.shiftl (Z.shiftr (Z.lxor s e) 63) 1)) else s in
  scalbn s scale.
(* src/math/double/shift.h:7-12 *)
Definition shift_ (x n : Z) : res Z :=
  do i <- chk_i64 (s64 x + s64 (Z.shiftl n 52));
  Ok (u64 i).
(* src/math/double/fma.c:71-131; FP_FAST_FMA is undefined and rounding is FE_TONEAREST,
   the only mode of include/fenv.h, so the other branches are absent *)
Definition fma (a b c : Z) : res Z :=
  if ftrue (sub64 a a) || ftrue (sub64 b b) then Ok (add64 (mul64 a b) c)
  else if ftrue (sub64 c c) then Ok c
  else if negb (ftrue a) || negb (ftrue b) then Ok (add64 (mul64 a b) c)
  else if negb (ftrue c) then Ok (mul64 a b)
  else
    do fa <- frexp_ a;
    do fb <- frexp_ b;
    do fc <- frexp_ c;
    let '(asig, aexp) := fa in
    let '(bsig, bexp) := fb in
    let '(csig, cexp) := fc in
    do exp <- chk_i32 (aexp + bexp);
    do scale <- chk_i32 (cexp - exp);
    if 53 <? scale then Ok c
    else
      let '(ab, r) := mul_ asig bsig in
      do shifted <- (if -106 <=? scale then shift_ csig scale else Ok (copysign 52 11 1 csig));
      let '(s, e) := add_ ab shifted in
      if negb (ftrue s) then
        do t <- scalbn r exp;
        Ok (add64 (add64 ab csig) t)
      else
        let adjusted := add_rounded_to_odd_ r e in
        do l <- ilogb 52 11 s;
        if -1023 <? exp + l then scalbn (add64 s adjusted) exp
        else add_subnormal_ s adjusted exp.
