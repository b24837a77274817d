(** Model of strtod and strtof (src/stdlib/strtod.c, strtof.c, parse/float.h, scientific.h,
    scientificf.h, pow5.h, bigint.h, nan.h).  Strings as in Stdlib_Model: the list of the bytes
    without the terminator; a pointer is a suffix together with its offset [k].  Values are IEEE
    bit patterns.  Results of [int] arithmetic that depends on the length of the string are
    checked for overflow; the other int computations are on small constants. *)
From Verif Require Import Base Ctype_Model Int128_Model Stdlib_Model FP HW Math_Model.
Open Scope Z_scope.

(* src/stdlib/parse/decimal.h:6-12; [dig] is the text the pointer [digits] points to *)
Record decimal := mk_decimal { mant : Z; dec_exp : Z; truncated : bool; dig : list Z; total : Z }.

(** ** the big integers of bigint.h: the list of the first [len] limbs; the array holds 256 *)
Definition limit (l : list Z) : res (list Z) := if (length l <=? 256)%nat then Ok l else UB.
(* src/stdlib/parse/bigint.h:18-22 *)
Definition bigint_set_u64 (x : Z) : list Z := if x =? 0 then [] else [x].
(* src/stdlib/parse/bigint.h:24-29 *)
Definition bigint_set_u128 (x : Z) : list Z :=
  let v0 := u64 x in
  let v1 := u64 (Z.shiftr x 64) in
  if negb (v1 =? 0) then [v0; v1] else if negb (v0 =? 0) then [v0] else [].
(* src/stdlib/parse/bigint.h:37-44 *)
Fixpoint mul_limbs (b : list Z) (m carry : Z) : list Z :=
  match b with
  | [] => if carry =? 0 then [] else [u64 carry]
  | v :: b => let p := u128 (v * m + carry) in u64 p :: mul_limbs b m (Z.shiftr p 64)
  end.
(* src/stdlib/parse/bigint.h:31-45 *)
Definition bigint_mul_u64 (b : list Z) (m : Z) : res (list Z) := if m =? 0 then Ok [] else limit (mul_limbs b m 0).
(* src/stdlib/parse/bigint.h:49-57 *)
Fixpoint add_limbs (b : list Z) (carry : Z) : list Z :=
  if carry =? 0 then b
  else match b with
       | [] => [carry]
       | v :: b => let s := u64 (v + carry) in s :: add_limbs b (b2z (s <? v))
       end.
(* src/stdlib/parse/bigint.h:47-58 *)
Definition bigint_add_u64 (b : list Z) (a : Z) : res (list Z) := limit (add_limbs b a).
(* src/stdlib/parse/bigint.h:63-66 *)
Fixpoint mul_pow5_loop (fuel : nat) (b : list Z) (k : Z) : res (list Z * Z) :=
  match fuel with
  | O => Fuel
  | S f => if 27 <=? k then do b' <- bigint_mul_u64 b 7450580596923828125; mul_pow5_loop f b' (k - 27) else Ok (b, k)
  end.
(* src/stdlib/parse/bigint.h:68-69 *)
Fixpoint small_pow5 (k : nat) : Z := match k with O => 1 | S k => u64 (small_pow5 k * 5) end.
(* src/stdlib/parse/bigint.h:61-72 *)
Definition bigint_mul_pow5 (b : list Z) (k : Z) : res (list Z) :=
  do (b', k') <- mul_pow5_loop (S (Z.to_nat k)) b k;
  if 0 <? k' then bigint_mul_u64 b' (small_pow5 (Z.to_nat k')) else Ok b'.
(* src/stdlib/parse/bigint.h:90-97 *)
Fixpoint shl_bits (b : list Z) (bits carry : Z) : list Z :=
  match b with
  | [] => if carry =? 0 then [] else [carry]
  | v :: b => Z.lor (u64 (Z.shiftl v bits)) carry :: shl_bits b bits (Z.shiftr v (64 - bits))
  end.
(* src/stdlib/parse/bigint.h:74-99 *)
Definition bigint_shl (b : list Z) (n : Z) : res (list Z) :=
  match b with
  | [] => Ok []
  | _ => let limbs := Z.shiftr n 6 in
         let bits := Z.land n 63 in
         do b1 <- (if Z.of_nat (length b) + limbs <=? 256 then Ok (repeat 0 (Z.to_nat limbs) ++ b) else UB);
         if bits =? 0 then Ok b1 else limit (shl_bits b1 bits 0)
  end.
(* src/stdlib/parse/bigint.h:105-109, from the most significant limb down *)
Fixpoint cmp_limbs (a b : list Z) : Z :=
  match a, b with
  | x :: a, y :: b => if x =? y then cmp_limbs a b else if x <? y then -1 else 1
  | _, _ => 0
  end.
(* src/stdlib/parse/bigint.h:101-111 *)
Definition bigint_cmp (a b : list Z) : Z :=
  if negb (length a =? length b)%nat then (if (length a <? length b)%nat then -1 else 1)
  else cmp_limbs (rev a) (rev b).
(* src/stdlib/parse/bigint.h:139-151 *)
Fixpoint digits_loop (s : list Z) (rem : Z) (b : list Z) : res (list Z) :=
  if 0 <? rem then
    match s with
    | [] => UB (* past the terminator *)
    | c :: t => let c := s8 c in
                if c =? 46 then digits_loop t rem b
                else do b1 <- bigint_mul_u64 b 10;
                     do b2 <- (if 48 <? c then bigint_add_u64 b1 (u64 (c - 48)) else Ok b1);
                     digits_loop t (rem - 1) b2
    end
  else Ok b.
(* src/stdlib/parse/bigint.h:126-166 *)
Definition bigint_cmp_halfway (d : decimal) (M q : Z) : res Z :=
  let n := total d in
  do p <- chk_i32 (dec_exp d - (if 38 <? n then n - 38 else 0));
  do lhs <- digits_loop (dig d) n (bigint_set_u64 0);
  let rhs := bigint_set_u128 M in
  do (lhs, rhs) <- (if 0 <=? p then do l <- bigint_mul_pow5 lhs p; Ok (l, rhs)
                    else do r <- bigint_mul_pow5 rhs (- p); Ok (lhs, r));
  do delta <- chk_i32 (q - p);
  do (lhs, rhs) <- (if 0 <=? delta then do r <- bigint_shl rhs delta; Ok (lhs, r)
                    else do l <- bigint_shl lhs (- delta); Ok (l, rhs));
  Ok (bigint_cmp lhs rhs).

(** ** powers of five *)
(* src/stdlib/parse/pow5.h:16-26; mantissa and exponent of 5^(2^i) *)
Definition seeds : list (Z * Z) :=
  [ (0xa0000000000000000000000000000000, -125);
    (0xc8000000000000000000000000000000, -123);
    (0x9c400000000000000000000000000000, -118);
    (0xbebc2000000000000000000000000000, -109);
    (0x8e1bc9bf040000000000000000000000,  -90);
    (0x9dc5ada82b70b59df020000000000000,  -53);
    (0xc2781f49ffcfa6d53cbf6b71c76b25fb,   21);
    (0x93ba47c980e98cdfc66f336c36b10137,  170);
    (0xaa7eebfb9df9de8dddbb901b98feeab8,  467) ].
(* src/stdlib/parse/pow5.h:38-46; an index past the table is UB *)
Fixpoint pow5_loop (table : list (Z * Z)) (k mant binexp : Z) : res (Z * Z) :=
  if k =? 0 then Ok (mant, binexp)
  else match table with
       | [] => UB
       | (m, e) :: table =>
         if Z.odd k then
           let hi := snd (umulti4 mant m) in
           let shift := b2z (Z.shiftr hi 127 =? 0) in
           pow5_loop table (Z.shiftr k 1) (u128 (Z.shiftl hi shift)) (binexp + e + 128 - shift)
         else pow5_loop table (Z.shiftr k 1) mant binexp
       end.
(* src/stdlib/parse/pow5.h:33-49 *)
Definition pow5_ (k : Z) : res (Z * Z) := pow5_loop seeds k (2^127) (-127).

(** ** decimal to double *)
(* src/stdlib/parse/scientific.h:9-13 *)
Definition clz_u128 (x : Z) : res Z :=
  let hi := u64 (Z.shiftr x 64) in
  if negb (hi =? 0) then clzll hi else do c <- clzll (u64 x); Ok (64 + c).
(* src/stdlib/parse/scientific.h:26-34; [n] is i + 1 *)
Fixpoint udiv_loop (n : nat) (q rem n_lo d : Z) : Z * Z :=
  match n with
  | O => (q, rem)
  | S i => let carry := Z.shiftr rem 127 in
           let rem := Z.lor (u128 (Z.shiftl rem 1)) (Z.land (Z.shiftr n_lo (Z.of_nat i)) 1) in
           let q := u128 (Z.shiftl q 1) in
           if negb (carry =? 0) || (d <=? rem) then udiv_loop i (Z.lor q 1) (u128 (rem - d)) n_lo d
           else udiv_loop i q rem n_lo d
  end.
(* src/stdlib/parse/scientific.h:19-38; quotient and remainder *)
Definition udiv256by128 (n_hi n_lo d : Z) : Z * Z := udiv_loop 128 0 n_hi n_lo d.
(* src/stdlib/parse/scientific.h:63-86: normalized mantissa, its exponent and whether bits were lost *)
Definition scaled (d : decimal) : res (Z * Z * bool) :=
  do leading <- clz_u128 (mant d);
  do m <- lsh 128 (mant d) leading;
  let binexp := - leading + dec_exp d in
  if 0 <=? dec_exp d then
    do (pm, pe) <- pow5_ (dec_exp d);
    let '(lo, hi) := umulti4 m pm in
    let shift := b2z (Z.shiftr hi 127 =? 0) in
    let m' := Z.lor (u128 (Z.shiftl hi shift)) (if shift =? 0 then 0 else Z.shiftr lo 127) in
    let lost := if shift =? 0 then negb (lo =? 0) else negb (Z.land lo (2^127 - 1) =? 0) in
    Ok (m', binexp + (pe + 128 - shift), truncated d || lost)
  else
    do (pm, pe) <- pow5_ (- dec_exp d);
    let k := if m <? pm then 128 else 127 in
    let '(q, rem) := if m <? pm then udiv256by128 m 0 pm else udiv256by128 (Z.shiftr m 1) (u128 (Z.shiftl m 127)) pm in
    Ok (q, binexp - (pe + k), truncated d || negb (rem =? 0)).
(* src/stdlib/parse/scientific.h:49-134 *)
Definition decimal_to_double (d : decimal) : res Z :=
  if mant d =? 0 then Ok 0
  else if 309 <? dec_exp d then Ok (finf 52 11)
  else if dec_exp d <? -380 then Ok 0
  else
    do (m, binexp, sticky_lo) <- scaled d;
    let biased := binexp + 127 + 1023 in
    let shift := if 1 <=? biased then 75 else 75 + 1 - biased in
    let biased := if biased <? 1 then 0 else biased in
    do (result_mant, round_bit, sticky) <-
      (if 128 <=? shift then
         Ok (0, if shift =? 128 then Z.shiftr m 127 else 0,
             if shift =? 128 then negb (Z.land m (2^127 - 1) =? 0) else negb (m =? 0))
       else do a <- rsh 128 m shift; do b <- rsh 128 m (shift - 1); do c <- lsh 128 1 (shift - 1);
            Ok (u64 a, Z.land b 1, negb (Z.land m (u128 (c - 1)) =? 0)));
    let sticky := sticky || sticky_lo in
    do round_up <-
      (if negb (round_bit =? 0) && truncated d then
         do cmp <- bigint_cmp_halfway d (u64 (2 * result_mant + 1)) (shift + binexp - 1);
         Ok ((0 <? cmp) || ((cmp =? 0) && Z.odd result_mant))
       else Ok (negb (round_bit =? 0) && (sticky || Z.odd result_mant)));
    let result_mant := if round_up : bool then u64 (result_mant + 1) else result_mant in
    let '(result_mant, biased) :=
      if negb (Z.shiftr result_mant 53 =? 0) then (Z.shiftr result_mant 1, biased + 1)
      else if negb (Z.shiftr result_mant 52 =? 0) && (biased =? 0) then (result_mant, 1)
      else (result_mant, biased) in
    if 2047 <=? biased then Ok (finf 52 11)
    else Ok (Z.lor (u64 (Z.shiftl biased 52)) (Z.land result_mant (2^52 - 1))).
(* src/stdlib/parse/scientificf.h:18-30 *)
Definition decimal_to_float (d : decimal) : res Z :=
  do bits <- decimal_to_double d;
  Ok (d2f (if (Z.land bits (2^29 - 1) =? 2^28) && truncated d then Z.lor bits (2^29) else bits)).

(** ** the parser *)
(* the test [*s - '0'] < 10 of an unsigned *)
Definition decdigit (c : Z) : Z := u32 (s8 c - 48).
(* src/stdlib/parse/float.h:24-25 and 89-90: zeros; suffix, offset and *end *)
Fixpoint zeros (s : list Z) (k e : Z) : list Z * Z * Z :=
  match s with
  | [] => (s, k, e)
  | c :: t => if s8 c =? 48 then zeros t (k + 1) (k + 1) else (s, k, e)
  end.
(* src/stdlib/parse/float.h:29 *)
Fixpoint skip_digits (s : list Z) (k : Z) : Z :=
  match s with
  | [] => k
  | c :: t => if decdigit c <? 10 then skip_digits t (k + 1) else k
  end.
(* src/stdlib/parse/float.h:27-35; magnitude (32000 when it saturates) and *end *)
Fixpoint exp_digits (s : list Z) (k e magnitude : Z) : Z * Z :=
  match s with
  | [] => (magnitude, e)
  | c :: t => let digit := decdigit c in
              if digit <? 10 then
                if 3200 <=? magnitude then (32000, skip_digits t (k + 1))
                else exp_digits t (k + 1) (k + 1) (10 * magnitude + digit)
              else (magnitude, e)
  end.
(* src/stdlib/parse/float.h:8-38; the exponent and *end *)
Definition parseexp (c : Z) (s : list Z) (k e : Z) : Z * Z :=
  match s with
  | [] => (0, e)
  | x :: t =>
    if negb (Z.lor (s8 x) 32 =? c) then (0, e)
    else let sign := if cur t =? 45 then -1 else 1 in
         let '(u, k) := match t with
                        | y :: u => if (s8 y =? 45) || (s8 y =? 43) then (u, k + 2) else (t, k + 1)
                        | [] => (t, k + 1)
                        end in
         let '(u, k, e) := zeros u k e in
         let '(magnitude, e) := exp_digits u k e 0 in
         (sign * magnitude, e)
  end.
(* src/stdlib/parse/float.h:92-94, after the point: position counts down *)
Fixpoint point_zeros (s : list Z) (k e position : Z) : res (list Z * Z * Z * Z) :=
  match s with
  | [] => Ok (s, k, e, position)
  | c :: t => if s8 c =? 48 then do p <- chk_i32 (position - 1); point_zeros t (k + 1) (k + 1) p
              else Ok (s, k, e, position)
  end.
(** state of the digit loops *)
Record scan := mk_scan { sx : Z; strunc : bool; sconsumed : Z; sposition : Z; spointed : bool }.
(* src/stdlib/parse/float.h:98-113 *)
Fixpoint dec_loop (s : list Z) (k e : Z) (st : scan) : res (list Z * Z * Z * scan) :=
  match s with
  | [] => Ok (s, k, e, st)
  | c :: t =>
    let digit := decdigit c in
    if digit <? 10 then
      do consumed <- chk_i32 (sconsumed st + 1);
      let '(x, tr) := if sconsumed st <? 38 then (u128 (10 * sx st + digit), strunc st)
                      else if negb (digit =? 0) then (Z.lor (sx st) 1, true) else (sx st, strunc st) in
      dec_loop t (k + 1) (k + 1) (mk_scan x tr consumed (sposition st) (spointed st))
    else if (s8 c =? 46) && negb (spointed st) then
      dec_loop t (k + 1) (k + 1) (mk_scan (sx st) (strunc st) (sconsumed st) (sconsumed st) true)
    else Ok (s, k, e, st)
  end.
(* src/stdlib/parse/float.h:79-123; the decimal and *end *)
Definition parsedec (s : list Z) (k e : Z) : res (decimal * Z) :=
  let '(s, k, e) := zeros s k e in
  do (s, k, e, position, pointed) <-
    match s with
    | c :: t => if s8 c =? 46 then do (s, k, e, p) <- point_zeros t (k + 1) e 0; Ok (s, k, e, p, true)
                else Ok (s, k, e, 0, false)
    | [] => Ok (s, k, e, 0, false)
    end;
  do (s', k, e, st) <- dec_loop s k e (mk_scan 0 false 0 position pointed);
  let position := if spointed st then sposition st else sconsumed st in
  let '(ex, e) := parseexp 101 s' k e in
  do p <- chk_i32 (position - Z.min 38 (sconsumed st));
  do de <- chk_i32 (p + ex);
  Ok (mk_decimal (sx st) de (strunc st) s (sconsumed st), e).
(* src/stdlib/parse/float.h:59-69; [w] is the width of Bitset, [capacity] its hexadecimal digits *)
Fixpoint hex_loop (w capacity : Z) (s : list Z) (k e : Z) (st : scan) : res (list Z * Z * Z * scan) :=
  match s with
  | [] => Ok (s, k, e, st)
  | c :: t =>
    let digit := digit_ (u32 (s8 c)) in
    if digit <? 16 then
      do consumed <- chk_i32 (sconsumed st + 1);
      let x := Z.lor (Z.shiftl (sx st) (4 * b2z (sconsumed st <? capacity)) mod 2^w) digit in
      hex_loop w capacity t (k + 1) (k + 1) (mk_scan x false consumed (sposition st) (spointed st))
    else if (s8 c =? 46) && negb (spointed st) then
      hex_loop w capacity t (k + 1) (k + 1) (mk_scan (sx st) false (sconsumed st) (sconsumed st) true)
    else Ok (s, k, e, st)
  end.
(* src/stdlib/parse/float.h:43-77; [s] is the text after 0x, at offset [k]; the mantissa, the exponent of 2 and *end *)
Definition parsehex (w capacity : Z) (s : list Z) (k : Z) : res (Z * Z * Z) :=
  let '(s, k, e) := zeros s k (k - 1) in
  do (s, k, e, position, pointed) <-
    match s with
    | c :: t => if s8 c =? 46 then do (s, k, e, p) <- point_zeros t (k + 1) e 0; Ok (s, k, e, p, true)
                else Ok (s, k, e, 0, false)
    | [] => Ok (s, k, e, 0, false)
    end;
  do (s', k, e, st) <- hex_loop w capacity s k e (mk_scan 0 false 0 position pointed);
  let position := if spointed st then sposition st else sconsumed st in
  let '(ex, e) := parseexp 112 s' k e in
  do p <- chk_i32 (4 * (position - Z.min capacity (sconsumed st)));
  do n <- chk_i32 (p + ex);
  Ok (sx st, n, e).

(* src/stdlib/parse/float.h:125-133 *)
Fixpoint match_ (s t : list Z) : Z :=
  match t with
  | [] => 0
  | b :: t => match s with
              | c :: s => if Z.lor (s8 c) 32 =? b then 1 + match_ s t else 0
              | [] => 0
              end
  end.
(* src/stdlib/parse/nan.h:18-19 *)
Fixpoint nan_digits (w base : Z) (s : list Z) (k mantissa : Z) : list Z * Z * Z :=
  match s with
  | [] => (s, k, mantissa)
  | c :: t => let digit := digit_ (u32 (s8 c)) in
              if digit <? base then nan_digits w base t (k + 1) ((mantissa * base + digit) mod 2^w) else (s, k, mantissa)
  end.

Section Scalar.
Variables mw ew : Z.
Notation W := (mw + ew + 1).
(** the canonical NaN *)
Definition c_nan : Z := finf mw ew + 2^(mw - 1).
(* src/stdlib/parse/nan.h:5-30 with tail ')'; the value and *end *)
Definition nan_ (s : list Z) (k : Z) : Z * Z :=
  let e := k - 1 in
  let '(base, s, k) := match s with
    | c :: t => if s8 c =? 48 then match t with
                                   | x :: u => if Z.lor (s8 x) 32 =? 120 then (16, u, k + 2) else (8, t, k + 1)
                                   | [] => (8, t, k + 1)
                                   end
                else (10, s, k)
    | [] => (10, s, k)
    end in
  let '(s, k, mantissa) := nan_digits W base s k 0 in
  if cur s =? 41 then (Z.lor c_nan (Z.land mantissa (2^(W-1) - 1)), k + 1) else (c_nan, e).

(** the conversions of the type *)
Variable of_decimal : decimal -> res Z.   (* decimal_to_scalar_ *)
Variable of_bitset : Z -> Z.              (* (Scalar)x *)
Variable ldexp : Z -> Z -> res Z.
Variable capacity : Z.

(** value, offset stored through [end], errno := ERANGE *)
Record fparsed := mk_fparsed { fpval : Z; fpend : Z; fperange : bool }.
(* src/stdlib/parse/float.h:135-158 *)
Definition magnitude_ (s : list Z) (k e : Z) : res fparsed :=
  let n := match_ s [105; 110; 102; 105; 110; 105; 116; 121] in
  if 3 <=? n then Ok (mk_fparsed (finf mw ew) (k + (if n =? 8 then 8 else 3)) false)
  else if match_ s [110; 97; 110] =? 3 then
    let t := skipn 3 s in
    if cur t =? 40 then let '(v, e) := nan_ (skipn 1 t) (k + 4) in Ok (mk_fparsed v e false)
    else Ok (mk_fparsed c_nan (k + 3) false)
  else
    do (v, e) <-
      match s with
      | c :: x :: t => if (s8 c =? 48) && (Z.lor (s8 x) 32 =? 120) then
                         do (m, n, e) <- parsehex W capacity t (k + 2); do v <- ldexp (of_bitset m) n; Ok (v, e)
                       else do (d, e) <- parsedec s k e; do v <- of_decimal d; Ok (v, e)
      | _ => do (d, e) <- parsedec s k e; do v <- of_decimal d; Ok (v, e)
      end;
    Ok (mk_fparsed v e (heq mw ew v (finf mw ew))).
(* src/stdlib/parse/float.h:160-184 *)
Definition parsefloat_ (s : list Z) : res fparsed :=
  do (s, k) <- skip_space s 0;
  let neg := cur s =? 45 in
  do (s, k) <- (if neg || (cur s =? 43) then do t <- next s; Ok (t, k + 1) else Ok (s, k));
  do r <- magnitude_ s k 0;
  Ok (mk_fparsed (with_sign mw ew neg (fabsb mw ew (fpval r))) (fpend r) (fperange r)).
End Scalar.

(* src/stdlib/strtod.c:4-17 *)
Definition strtod (s : list Z) : res fparsed := parsefloat_ 52 11 decimal_to_double ofZ64 scalbn 16 s.
(* src/stdlib/strtof.c:4-12 *)
Definition strtof (s : list Z) : res fparsed := parsefloat_ 23 8 decimal_to_float ofZ32 scalbnf 8 s.
