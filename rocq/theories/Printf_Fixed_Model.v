(** Model of the %f conversion of src/stdio/vfprintf.c (lines 349-774): base-10^9 bignums, the three
    ranges of magnitudes, and [convert_f_], which closes the model of vfprintf.
    Floating-point operations in this part of the code: [x - i], [0x1p60 * (x - i)] and the
    truncating casts are exact on the values that occur (i is the integral part of x, x has 53
    significant bits); the others are modelled by integer roundings, as noted where they occur. *)
From Verif Require Import Base FP Str_Model Printf_Model.
Open Scope Z_scope.

Definition BASE : Z := 1000000000.

(** ** Arrays of uint_least32_t: unwritten elements are indeterminate *)
Definition arr := list (option Z).
Definition new_arr (n : Z) : arr := repeat None (Z.to_nat n).
Definition get (a : arr) (i : Z) : res Z :=
  if i <? 0 then UB else match nth (Z.to_nat i) a None with Some x => Ok x | None => UB end.
Definition set_ (a : arr) (i x : Z) : res arr :=
  if (0 <=? i) && (i <? Z.of_nat (length a)) then Ok (firstn (Z.to_nat i) a ++ Some x :: skipn (Z.to_nat i + 1) a) else UB.
(** the first [n] elements *)
Fixpoint get_n (n : nat) (a : arr) : res (list Z) :=
  match n with
  | O => Ok []
  | S k => match a with Some x :: a => do l <- get_n k a; Ok (x :: l) | _ => UB end
  end.
(** overwrite the first elements with [l] *)
Definition put_n (a : arr) (l : list Z) : res arr :=
  if (length l <=? length a)%nat then Ok (map Some l ++ skipn (length l) a) else UB.

(* src/stdio/vfprintf.c:349-366; [bits] are those of a nonnegative double; the result is (odd part or
   subnormal significand, exponent); __builtin_ctzll of a nonzero value *)
Fixpoint ctz (fuel : nat) (x : Z) : Z := match fuel with O => 0 | S f => if Z.odd x then 0 else 1 + ctz f (x / 2) end.
Definition kernel_ifrexp_ (magnitude : Z) : Z * Z :=
  let significand := Z.lor (magnitude mod 2^52) (2^52) in
  let shift := ctz 64 significand in
  (Z.shiftr significand shift, Z.shiftr magnitude 52 + shift - 1075).
Definition ifrexp_ (magnitude : Z) : Z * Z :=
  if magnitude <? 2^52 then (magnitude, -1074 * b2z (negb (magnitude =? 0))) else kernel_ifrexp_ magnitude.

(* src/stdio/vfprintf.c:368-385: the limbs up to the returned length *)
Definition limbs_set_u64_ (i : Z) : list Z :=
  let q := i / BASE in let d0 := i mod BASE in let d1 := q mod BASE in let d2 := q / BASE in
  if negb (d2 =? 0) then [d0; d1; d2] else if negb (d1 =? 0) then [d0; d1] else if negb (d0 =? 0) then [d0] else [].
Definition limbs_set_u18d_ (i : Z) : list Z :=
  let d0 := i mod BASE in let d1 := u32 (i / BASE) in
  if negb (d1 =? 0) then [d0; d1] else if negb (d0 =? 0) then [d0] else [].

(* src/stdio/vfprintf.c:387-404: inner loop for one x[i], [ps] is product + i *)
Fixpoint mul_row (x : Z) (ys ps : list Z) : list Z :=
  match ys, ps with
  | y :: ys, p0 :: p1 :: ps =>
    let z := u64 (x * y + p0) in z mod BASE :: mul_row x ys (u32 (p1 + z / BASE) :: ps)
  | _, _ => ps
  end.
Fixpoint mul_rows (xs ys ps : list Z) : list Z :=
  match xs with
  | [] => ps
  | x :: xs => match mul_row x ys ps with p :: ps => p :: mul_rows xs ys ps | [] => [] end
  end.
(** the product array afterwards and the returned length *)
Definition limbs_mul_ (product : arr) (x y : list Z) : res (arr * Z) :=
  let n := (length x + length y)%nat in
  do _ <- put_n product (repeat 0 n);
  let p := mul_rows x y (repeat 0 n) in
  do a <- put_n product p;
  do top <- get a (Z.of_nat n - 1);
  Ok (a, Z.of_nat n - b2z (top =? 0)).

(* src/stdio/vfprintf.c:406-409, 449-452; size_t arithmetic *)
Definition bits_to_limbs_ (bits : Z) : Z := u32 (u32 (bits * 30103) + 899999) / 900000.
Definition fives_to_limbs_ (bits : Z) : Z := u32 (u32 (bits * 699) + 8999) / 9000.

(** The common loop of limbs_ldexp_ (lines 421-436) and limbs_scal5n_ (lines 463-478) *)
Fixpoint power_loop (fuel : nat) (power : Z) (y : arr) (yn : Z) (product : arr) (xn : Z) : res (arr * Z) :=
  match fuel with
  | O => Fuel
  | S f =>
    if power =? 0 then Ok (product, xn) else
    do x <- get_n (Z.to_nat yn) y;
    do (y, yn) <- limbs_mul_ y x x;
    do (product, xn) <- (if Z.odd power then
        do x <- get_n (Z.to_nat xn) product; do yl <- get_n (Z.to_nat yn) y; limbs_mul_ product x yl
      else Ok (product, xn));
    power_loop f (Z.shiftr power 1) y yn product xn
  end.
(* src/stdio/vfprintf.c:411-438 *)
Definition limbs_ldexp_ (product : arr) (v : list Z) (shift : Z) : res (arr * Z) :=
  do (product, xn) <- limbs_mul_ product v (limbs_set_u64_ (u64 (Z.shiftl 1 (shift mod 64))));
  do y <- set_ (new_arr (bits_to_limbs_ (shift - shift mod 64) + 2)) 0 294967296;
  do y <- set_ y 1 4;
  power_loop 32 (Z.shiftr shift 6) y 2 product xn.
(* src/stdio/vfprintf.c:440-447 *)
Definition exp5_u64_ (power : Z) : Z :=
  u64 (u64 (u64 (u64 ((if Z.testbit power 0 then Z.shiftr (10^1) 1 else 1) * (if Z.testbit power 1 then Z.shiftr (10^2) 2 else 1))
    * (if Z.testbit power 2 then Z.shiftr (10^4) 4 else 1)) * (if Z.testbit power 3 then Z.shiftr (10^8) 8 else 1))
    * (if Z.testbit power 4 then Z.shiftr (10^16) 16 else 1)).
(* src/stdio/vfprintf.c:454-480; a zero-length array is a size-0 array, so its first element cannot be written *)
Definition limbs_scal5n_ (product : arr) (v : list Z) (power : Z) : res (arr * Z) :=
  do (product, xn) <- limbs_mul_ product v (limbs_set_u64_ (exp5_u64_ (power mod 28)));
  do y <- set_ (new_arr (fives_to_limbs_ power)) 0 103515625;
  do y <- set_ y 1 6;
  power_loop 32 (power / 28) y 2 product xn.

(* src/stdio/vfprintf.c:482-499: twice the result (0, 0.5 or 1); the loop stops at the first nonzero limb *)
Fixpoint any_nonzero (n : nat) (a : arr) : res bool :=
  match n with
  | O => Ok false
  | S k => do x <- get a (Z.of_nat k); if x =? 0 then any_nonzero k a else Ok true
  end.
Definition limbs_getfrac2_ (x : arr) (index : Z) : res Z :=
  if 0 <? index then
    do highest <- get x (index - 1);
    if highest <? 500000000 then Ok 0
    else if highest =? 500000000 then do nz <- any_nonzero (Z.to_nat (index - 1)) x; Ok (if nz : bool then 2 else 1)
    else Ok 2
  else Ok 0.
(* src/stdio/vfprintf.c:501-507 *)
Definition exp10_limb_ (power : Z) : Z :=
  (if Z.testbit power 0 then 10^1 else 1) * (if Z.testbit power 1 then 10^2 else 1)
  * (if Z.testbit power 2 then 10^4 else 1) * (if Z.testbit power 3 then 10^8 else 1).
(* src/stdio/vfprintf.c:509-514, for x = x2 / 2 <= 10^9 and place <= 8: x / factor is a quotient n / (2 factor) with
   n <= 2 * 10^9, which differs from every half-integer it is not equal to by at least
   1 / (2 factor), more than the rounding error 2^-53 * 10^9 / factor of the division; hence rint of
   the rounded quotient is the exact quotient rounded to nearest even. *)
Definition limb_placed_rint_ (x2 place : Z) : Z :=
  let factor := exp10_limb_ place in rne x2 (2 * factor) * factor.
(* src/stdio/vfprintf.c:525-528 *)
Fixpoint carry_loop (fuel : nat) (x : arr) (index xn : Z) : res (arr * Z) :=
  match fuel with
  | O => Fuel
  | S f =>
    if index <? xn then
      do v <- get x index;
      if BASE <=? v then
        do x <- set_ x index (v - BASE);
        do w <- get x (index + 1);
        do x <- set_ x (index + 1) (u32 (w + 1));
        carry_loop f x (index + 1) xn
      else Ok (x, index)
    else Ok (x, index)
  end.
(* src/stdio/vfprintf.c:516-533; place <= 9 * xn compares as size_t *)
Definition limbs_placed_rint_ (x : arr) (xn place : Z) : res (arr * Z) :=
  if place <=? 0 then Ok (x, xn)
  else if place <=? u32 (9 * xn) then
    let index := place / 9 in let shift := place mod 9 in
    do v <- get x index;
    do fr <- limbs_getfrac2_ x index;
    do x <- set_ x index (limb_placed_rint_ (2 * v + fr) shift);
    do (x, index) <- carry_loop (length x) x index xn;
    Ok (x, xn + b2z (index =? xn))
  else Ok (x, 0).

(** A double is a nonnegative [m] times 2^[e] *)
Definition dsig (bits : Z) : Z := if bits <? 2^52 then bits else bits mod 2^52 + 2^52.
Definition dexp (bits : Z) : Z := Z.max 1 (Z.shiftr bits 52) - 1075.
(** rounding of a nonnegative integer to 53 significant bits *)
Definition rnd53 (n : Z) : Z := if n <? 2^53 then n else let s := Z.log2 n - 52 in rne n (2^s) * 2^s.
(* src/stdio/vfprintf.c:545-549 *)
Fixpoint frac_digits (n : nat) (frac : Z) : list Z * Z :=
  match n with
  | O => ([], frac)
  | S k => let f := u64 (frac * 10) in let (l, r) := frac_digits k (f mod 2^60) in (48 + Z.shiftr f 60 :: l, r)
  end.
(** src/stdio/vfprintf.c:553-563: propagate carries from the last digit; the result and whether the first digit overflowed.
    [buffer] is a char array, its elements stay between '0' and '9' + 2 *)
Fixpoint carry_digits (l : list Z) : list Z * bool :=
  match l with
  | [] => ([], false)
  | c :: l => let (l, carry) := carry_digits l in let c := c + b2z carry in
              if 57 <? c then (c - 10 :: l, true) else (c :: l, false)
  end.
(* src/stdio/vfprintf.c:535-566, for 2^-8 <= x < 2^64: x = X / 2^60 exactly.  [frac * 0xap-60] converts the 64-bit
   integer to double and multiplies by 10 * 2^-60, both rounding to 53 bits. *)
Definition limbs_modf_ (X prec : Z) : Z * list Z :=
  if prec =? 0 then (rne X (2^60), []) else
  let i := X / 2^60 in
  let (l, frac) := frac_digits (Z.to_nat (prec - 1)) (X mod 2^60) in
  let last := 48 + rne (rnd53 (10 * rnd53 frac)) (2^60) in
  let (l, carry) := carry_digits (l ++ [last]) in
  (if carry : bool then u64 (i + 1) else i, l).

(* src/stdio/vfprintf.c:568-575 *)
Fixpoint dump_limb_ (n : nat) (x : Z) (acc : list Z) : list Z :=
  match n with O => acc | S k => dump_limb_ k (x / 10) (x mod 10 + 48 :: acc) end.
(* src/stdio/vfprintf.c:577-585 *)
Fixpoint limbs_write_ (n : nat) (x : arr) : res pieces :=
  match n with
  | O => Ok []
  | S k => do v <- get x (Z.of_nat k); do r <- limbs_write_ k x; Ok (dump_limb_ 9 v [] :: r)
  end.
(** for (k = limbs - 2; k > index; --k): [n] iterations starting at k *)
Fixpoint dump_down (n : nat) (k : Z) (x : arr) : res pieces :=
  match n with
  | O => Ok []
  | S j => do v <- get x k; do r <- dump_down j (k - 1) x; Ok (dump_limb_ 9 v [] :: r)
  end.

(* src/stdio/vfprintf.c:587-646 *)
Definition common_fixed_small_ (spec : Spec) (sign : Z) (base : list Z) (exp : Z) : res (pieces * Z) :=
  let minus := has (flags spec) 45 in let zero := has (flags spec) 48 in
  let pointed := negb (precision spec =? 0) || has (flags spec) 35 in
  do length <- chk_i32 (b2z (negb (sign =? 0)) + 1 + b2z pointed + precision spec);
  do padding <- padding_ (width spec) length;
  do place <- chk_i32 (- exp - precision spec);
  do (big, xn) <- limbs_scal5n_ (new_arr (fives_to_limbs_ (- exp) + 2)) base (- exp);
  do (big, limbs) <- limbs_placed_rint_ big xn place;
  let front := (if minus || zero then [] else pad_ 32 padding) ++ put_sign sign
    ++ (if zero && negb minus then pad_ 48 (padding + 1) else put_ 48) ++ (if pointed then put_ 46 else []) in
  do digits <- (if limbs =? 0 then Ok (pad_ 48 (precision spec)) else
    let index := b2z (0 <=? place) * (u32 place / 9) in
    let cut := b2z (0 <=? place) * (u32 place mod 9) in
    do ds <- (if index + 1 <? limbs then
        do top <- get big (limbs - 1);
        do begin <- decimal_ F 9 top [];
        do middle <- dump_down (Z.to_nat (limbs - 2 - index)) (limbs - 2) big;
        do low <- get big index;
        Ok (pad_ 48 (- exp - 9 * (limbs - 1) - Z.of_nat (List.length begin)) ++ [begin] ++ middle ++ [firstn (Z.to_nat (9 - cut)) (dump_limb_ 9 low [])])
      else
        do v <- get big index;
        do begin <- decimal_ F 9 (v / exp10_limb_ cut) [];
        Ok (pad_ 48 (- exp - 9 * index - (Z.of_nat (List.length begin) + cut)) ++ [begin]));
    Ok (ds ++ (if place <? 0 then pad_ 48 (- place) else [])));
  do r <- chk_i32 (length + padding);
  Ok (front ++ digits ++ (if minus then pad_ 32 padding else []), r).
(* src/stdio/vfprintf.c:648-656 *)
Definition fixed_small_ (spec : Spec) (sign bits : Z) : res (pieces * Z) :=
  let (odd, shift) := ifrexp_ bits in common_fixed_small_ spec sign (limbs_set_u18d_ odd) shift.

(** the three layouts of fixed_moderate_ and fixed_bigint_ *)
Definition layout_f (spec : Spec) (sign padding : Z) (body : pieces) : pieces :=
  if has (flags spec) 45 then put_sign sign ++ body ++ pad_ 32 padding
  else if has (flags spec) 48 then put_sign sign ++ pad_ 48 padding ++ body
  else pad_ 32 padding ++ put_sign sign ++ body.
(* src/stdio/vfprintf.c:658-699; [room] is DECIMAL_DIGITS(uint64_t).  The array frac[0] of precision 0 is not accessed
   and not counted as an error. *)
Definition fixed_moderate_ (room : Z) (spec : Spec) (sign bits : Z) : res (pieces * Z) :=
  let pointed := negb (precision spec =? 0) || has (flags spec) 35 in
  let X := dsig bits * 2^(dexp bits + 60) in
  let (truncated, frac) := limbs_modf_ X (precision spec) in
  do begin <- decimal_ F room truncated [];
  do begin <- (if truncated =? 0 then push room begin 48 else Ok begin);
  do length <- chk_i32 (b2z (negb (sign =? 0)) + Z.of_nat (List.length begin) + b2z pointed + precision spec);
  do padding <- padding_ (width spec) length;
  do r <- chk_i32 (length + padding);
  Ok (layout_f spec sign padding ([begin] ++ (if pointed then put_ 46 else []) ++ [frac]), r).
(* src/stdio/vfprintf.c:701-744 *)
Definition fixed_bigint_ (spec : Spec) (sign bits : Z) : res (pieces * Z) :=
  let pointed := negb (precision spec =? 0) || has (flags spec) 35 in
  let (odd, shift) := kernel_ifrexp_ bits in
  do (big, limbs) <- limbs_ldexp_ (new_arr (bits_to_limbs_ (Z.shiftr bits 52 - 1022) + 1)) (limbs_set_u18d_ odd) shift;
  do top <- get big (limbs - 1);
  do begin <- decimal_ F 9 top [];
  do rest <- limbs_write_ (Z.to_nat (limbs - 1)) big;
  do length <- chk_i32 (b2z (negb (sign =? 0)) + Z.of_nat (List.length begin) + 9 * (limbs - 1) + b2z pointed + precision spec);
  do padding <- padding_ (width spec) length;
  do r <- chk_i32 (length + padding);
  Ok (layout_f spec sign padding ([begin] ++ rest ++ (if pointed then put_ 46 else []) ++ pad_ 48 (precision spec)), r).
(* src/stdio/vfprintf.c:746-764; the argument is the 64-bit pattern *)
Definition fixed_ (spec : Spec) (lower arg : Z) : res (pieces * Z) :=
  let inf := 0x7FF0000000000000 in
  let sign := signchar_ (Z.testbit arg 63) (flags spec) in
  let bits := arg mod 2^63 in
  if bits <? 0x3F70000000000000 then fixed_small_ spec sign bits
  else if bits <? 0x43F0000000000000 then fixed_moderate_ (DECIMAL_DIGITS 8 false) spec sign bits
  else if bits <? inf then fixed_bigint_ spec sign bits
  else nonfinite_ spec lower sign (if bits =? inf then [73; 78; 70] else [78; 65; 78]).
(* src/stdio/vfprintf.c:766-774; LDBL_MANT_DIG is 113 *)
Definition convert_f_ (spec : Spec) (lower : Z) (l : list varg) : res (pieces * Z * list varg) :=
  if modifier spec =? LEN 76 1 then Ok ([], -2, l)
  else do (x, l) <- va64 l; do r <- fixed_ spec lower x; Ok (r, l).
Definition printf_ := vfprintf convert_f_.
