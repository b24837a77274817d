(** Model of src/stdio/vfprintf.c (integer, %c, %s, %p, %n and %a conversions, the format parser
    and the main loop), vsnprintf.c and vsprintf.c.
    The control flow of the formatter depends on the stream only through "did this write return
    its size": on the first failed write it returns -1.  A conversion is therefore modelled by the
    list of pieces it writes when every write succeeds, together with its return value, and [run]
    feeds the pieces to a stream; undefined behaviour anywhere in a call makes the whole call
    undefined.  Characters are bytes 0..255 (every test in the code is against an ASCII
    character, so the sign of char does not matter).  A format is the list of its characters
    before the NUL.  Variadic arguments are 32-bit, 64-bit or 128-bit patterns; va_arg with the
    wrong size is undefined.  %f is a parameter of [vfprintf], instantiated in Printf_Fixed_Model. *)
From Verif Require Import Base Str_Model Utf8_Model.
Open Scope Z_scope.

Definition pieces := list (list Z).

(* src/stdio/vfprintf.c:14; sizeof and the arithmetic are 32-bit unsigned, the negative test is 0 or 1 *)
Definition DECIMAL_DIGITS (size : Z) (is_signed : bool) : Z :=
  u32 (u32 (u32 (size * 8) - b2z is_signed * 30103) + 199999) / 100000.
(* src/stdio/vfprintf.c:15 *)
Definition FLAG (c : Z) : Z := 2^(c - 32).
Definition has (flags c : Z) : bool := negb (Z.land flags (FLAG c) =? 0).

(* src/stdio/vfprintf.c:18-43; [length--] wraps *)
Fixpoint strnlen_pre (fuel : nat) (m : mem) (p len : Z) : res (bool * Z * Z) :=
  match fuel with
  | O => Fuel
  | S f => if p mod 8 =? 0 then Ok (false, p, len)
           else if len =? 0 then Ok (false, p, u32 (len - 1))
           else do b <- load m p; if b =? 0 then Ok (true, p, u32 (len - 1)) else strnlen_pre f m (p + 1) (u32 (len - 1))
  end.
Fixpoint strnlen_vec (fuel : nat) (m : mem) (p len : Z) : res (bool * Z * Z) :=
  match fuel with
  | O => Fuel
  | S f => if len <? 8 then Ok (false, p, len)
           else do w <- load64 m p;
                do r <- (if haszero w then scan 8 m p (fun a b => if b =? 0 then Some a else None) else Ok None);
                match r with Some a => Ok (true, a, len) | None => strnlen_vec f m (p + 8) (u32 (len - 8)) end
  end.
Fixpoint strnlen_tail (fuel : nat) (m : mem) (p len : Z) : res Z :=
  match fuel with
  | O => Fuel
  | S f => if len =? 0 then Ok p else do b <- load m p; if b =? 0 then Ok p else strnlen_tail f m (p + 1) (u32 (len - 1))
  end.
Definition strnlen_ (fuel : nat) (m : mem) (s len : Z) : res Z :=
  do (found, p, len) <- strnlen_pre fuel m s len;
  if found : bool then Ok (u32 (p - s)) else
  do (found, p, len) <- strnlen_vec fuel m p len;
  if found : bool then Ok (u32 (p - s)) else
  do e <- strnlen_tail fuel m p len; Ok (u32 (e - s)).

(* src/stdio/vfprintf.c:45-52 *)
Definition flag_ (c : Z) : Z :=
  let flags := Z.lor (Z.lor (Z.lor (Z.lor (Z.lor (FLAG 45) (FLAG 43)) (FLAG 32)) (FLAG 35)) (FLAG 48)) (FLAG 39) in
  let s := u32 (c - 32) in
  if s <? 32 then Z.land flags (Z.shiftl 1 s) else 0.
(* src/stdio/vfprintf.c:54-66 *)
Definition signchar_ (sign : bool) (flags : Z) : Z :=
  if sign then 45 else if has flags 43 then 43 else if has flags 32 then 32 else 0.
(* src/stdio/vfprintf.c:68-76, putc.h:7-12 *)
Definition put_ (c : Z) : pieces := [[u8 c]].
(** sign && put_(stream, sign) *)
Definition put_sign (c : Z) : pieces := if c =? 0 then [] else put_ c.
(* src/stdio/vfprintf.c:78-88; length is unsigned *)
Definition pad_ (c len : Z) : pieces :=
  let n := u32 len in repeat (repeat (u8 c) 8) (Z.to_nat (n / 8)) ++ [repeat (u8 c) (Z.to_nat (n mod 8))].

(** *--s = c in a buffer of [room] bytes filled from its end *)
Definition push (room : Z) (s : list Z) (c : Z) : res (list Z) :=
  if Z.of_nat (length s) <? room then Ok (c :: s) else UB.
(* src/stdio/vfprintf.c:90-96 *)
Fixpoint octal_ (fuel : nat) (room x : Z) (s : list Z) : res (list Z) :=
  match fuel with
  | O => Fuel
  | S f => if x =? 0 then Ok s else do s <- push room s (Z.land x 7 + 48); octal_ f room (Z.shiftr x 3) s
  end.
(* src/stdio/vfprintf.c:98-107; unsigned long is 32 bits *)
Fixpoint decimal_lo (fuel : nat) (room y : Z) (s : list Z) : res (list Z) :=
  match fuel with
  | O => Fuel
  | S f => if y =? 0 then Ok s else do s <- push room s (y mod 10 + 48); decimal_lo f room (y / 10) s
  end.
Fixpoint decimal_ (fuel : nat) (room x : Z) (s : list Z) : res (list Z) :=
  match fuel with
  | O => Fuel
  | S f => if 2^32 - 1 <? x then do s <- push room s (x mod 10 + 48); decimal_ f room (x / 10) s
           else decimal_lo f room (u32 x) s
  end.
(** "0123456789ABCDEF"[k] | lower *)
Definition hexdigit (lower k : Z) : Z := Z.lor (nth (Z.to_nat k) [48;49;50;51;52;53;54;55;56;57;65;66;67;68;69;70] 0) lower.
(* src/stdio/vfprintf.c:109-115 *)
Fixpoint hexadecimal_ (fuel : nat) (room x : Z) (s : list Z) (lower : Z) : res (list Z) :=
  match fuel with
  | O => Fuel
  | S f => if x =? 0 then Ok s else do s <- push room s (hexdigit lower (Z.land x 15)); hexadecimal_ f room (Z.shiftr x 4) s lower
  end.
(** fuel for the digit loops: more than the 22 digits of 2^64 - 1 in base 8 *)
Definition F : nat := 64.

(** ** Variadic arguments *)
Inductive varg := A32 (x : Z) | A64 (x : Z) | A128 (x : Z).
Definition va32 (l : list varg) : res (Z * list varg) := match l with A32 x :: l => Ok (u32 x, l) | _ => UB end.
Definition va64 (l : list varg) : res (Z * list varg) := match l with A64 x :: l => Ok (u64 x, l) | _ => UB end.
Definition va128 (l : list varg) : res (Z * list varg) := match l with A128 x :: l => Ok (u128 x, l) | _ => UB end.
Definition va_int (l : list varg) : res (Z * list varg) := do (x, l) <- va32 l; Ok (s32 x, l).

(* src/stdio/vfprintf.c:117-138; the digit loop, then the whole function *)
Fixpoint field_loop (s : list Z) (value : Z) (overflow : bool) : Z * bool * list Z :=
  match s with
  | c :: s' => let digit := u32 (c - 48) in
               if digit <? 10 then
                 let next := u32 (u32 (value * 10) + digit) in
                 field_loop s' next (overflow || ((2^32 - 1) / 10 <? value) || (next <? digit))
               else (value, overflow, s)
  | [] => (value, overflow, [])
  end.
Definition field_ (s : list Z) (args : list varg) : res (Z * list Z * list varg) :=
  match s with
  | 42 :: s' => do (x, args) <- va_int args; Ok (x, s', args)
  | _ => let '(value, overflow, s') := field_loop s 0 false in
         Ok (if overflow || (INT_MAX <? value) then INT_MAX else value, s', args)
  end.
(** *s, and s[1] when *s is not the terminator *)
Definition chr (s : list Z) : Z := nth 0 s 0.
(* src/stdio/vfprintf.c:140-155; h = 104, l = 108, j = 106, z = 122, t = 116, L = 76 *)
Definition length_ (s : list Z) : Z :=
  let c := chr s in
  if (c =? 104) || (c =? 108) then Z.lor (c * 4) (1 + b2z (chr (skipn 1 s) =? c))
  else if (c =? 106) || (c =? 122) || (c =? 116) || (c =? 76) then Z.lor (c * 4) 1
  else 0.
(** length codes: 'h' << 2 | 1 and so on *)
Definition LEN (c k : Z) : Z := Z.lor (c * 4) k.
(* src/stdio/vfprintf.c:157-175 *)
Definition pop_signed_ (len : Z) (l : list varg) : res (Z * list varg) :=
  if len =? 0 then va_int l
  else if len =? LEN 104 1 then do (x, l) <- va_int l; Ok (sgn 16 x, l)
  else if len =? LEN 104 2 then do (x, l) <- va_int l; Ok (s8 x, l)
  else if len =? LEN 108 1 then va_int l
  else if (len =? LEN 108 2) || (len =? LEN 106 1) then do (x, l) <- va64 l; Ok (s64 x, l)
  else va_int l.
(* src/stdio/vfprintf.c:177-195 *)
Definition pop_unsigned_ (len : Z) (l : list varg) : res (Z * list varg) :=
  if len =? 0 then va32 l
  else if len =? LEN 104 1 then do (x, l) <- va32 l; Ok (u16 x, l)
  else if len =? LEN 104 2 then do (x, l) <- va32 l; Ok (u8 x, l)
  else if len =? LEN 108 1 then va32 l
  else if (len =? LEN 108 2) || (len =? LEN 106 1) then va64 l
  else va32 l.

(* src/stdio/vfprintf.c:197-203 *)
Record Spec := mk_spec { flags : Z; width : Z; precision : Z; modifier : Z }.

(** (spec.width > length) * (spec.width - length) *)
Definition padding_ (width length : Z) : res Z :=
  do d <- chk_i32 (width - length); Ok (b2z (length <? width) * d).
Definition default_precision (p : Z) : Z := if p <? 0 then 1 else p.

(** [pre] before the zeros; the three layouts shared by the four integer conversions *)
Definition layout (spec : Spec) (pre : pieces) (zeros padding : Z) (digits : list Z) : res pieces :=
  if has (flags spec) 45 then Ok (pre ++ pad_ 48 zeros ++ [digits] ++ pad_ 32 padding)
  else if has (flags spec) 48 && (precision spec <? 0) then
    do zp <- chk_i32 (zeros + padding); Ok (pre ++ pad_ 48 zp ++ [digits])
  else Ok (pad_ 32 padding ++ pre ++ pad_ 48 zeros ++ [digits]).

(* src/stdio/vfprintf.c:205-236; [room] is the size of the digit buffer *)
Definition convert_i_ (room : Z) (spec : Spec) (arg : Z) : res (pieces * Z) :=
  do a <- (if arg <? 0 then chk_i64 (- arg) else Ok arg);
  do begin <- decimal_ F room (u64 a) [];
  let sign := signchar_ (arg <? 0) (flags spec) in
  let prec := default_precision (precision spec) in
  let digits := Z.of_nat (length begin) in
  let zeros := if digits <? prec then prec - digits else 0 in
  do l1 <- chk_i32 (digits + zeros);
  do len <- chk_i32 (l1 + b2z (negb (sign =? 0)));
  do padding <- padding_ (width spec) len;
  do out <- layout spec (put_sign sign) zeros padding begin;
  do r <- chk_i32 (len + padding);
  Ok (out, r).

(* src/stdio/vfprintf.c:238-265 *)
Definition convert_u_ (room : Z) (spec : Spec) (arg : Z) : res (pieces * Z) :=
  do begin <- decimal_ F room arg [];
  let prec := default_precision (precision spec) in
  let digits := Z.of_nat (length begin) in
  let zeros := if digits <? prec then prec - digits else 0 in
  do len <- chk_i32 (digits + zeros);
  do padding <- padding_ (width spec) len;
  do out <- layout spec [] zeros padding begin;
  do r <- chk_i32 (len + padding);
  Ok (out, r).

(* src/stdio/vfprintf.c:267-294 *)
Definition convert_o_ (room : Z) (spec : Spec) (arg : Z) : res (pieces * Z) :=
  do begin <- octal_ F room arg [];
  let prec := default_precision (precision spec) in
  let digits := Z.of_nat (length begin) in
  let zeros := if digits <? prec then prec - digits else Z.land (Z.shiftr (flags spec) (35 - 32)) 1 in
  do len <- chk_i32 (digits + zeros);
  do padding <- padding_ (width spec) len;
  do out <- layout spec [] zeros padding begin;
  do r <- chk_i32 (len + padding);
  Ok (out, r).

(* src/stdio/vfprintf.c:296-328; write_(stream, cache, prefix) writes 0 or 2 bytes *)
Definition convert_x_ (room : Z) (spec : Spec) (format arg : Z) : res (pieces * Z) :=
  do begin <- hexadecimal_ F room arg [] (Z.land format 32);
  let prec := default_precision (precision spec) in
  let digits := Z.of_nat (length begin) in
  let zeros := if digits <? prec then prec - digits else 0 in
  let prefix := b2z (has (flags spec) 35 && negb (arg =? 0)) * 2 in
  do l1 <- chk_i32 (digits + zeros);
  do len <- chk_i32 (l1 + prefix);
  do padding <- padding_ (width spec) len;
  do out <- layout spec [firstn (Z.to_nat prefix) [48; format]] zeros padding begin;
  do r <- chk_i32 (len + padding);
  Ok (out, r).

(* the digit buffers: vfprintf.c:207, 240, 269, 299 *)
Definition room_i : Z := DECIMAL_DIGITS 8 true.
Definition room_u : Z := DECIMAL_DIGITS 8 false.
Definition room_o : Z := u32 (8 * 8 + 2) / 3.
Definition room_x : Z := Z.shiftr (u32 (8 * 8 + 3)) 2.

(* src/stdio/vfprintf.c:330-347 *)
Definition nonfinite_ (spec : Spec) (lower sign : Z) (s : list Z) : res (pieces * Z) :=
  let output := map (fun c => Z.lor c lower) s in
  let len := 3 + b2z (negb (sign =? 0)) in
  do padding <- padding_ (width spec) len;
  let out := if has (flags spec) 45 then put_sign sign ++ [output] ++ pad_ 32 padding
             else pad_ 32 padding ++ put_sign sign ++ [output] in
  do r <- chk_i32 (len + padding);
  Ok (out, r).

(** ** %a: hexfloat_ for double ([mw] = 52 mantissa bits, [bias] = 1023, [size] = 24, word of 64 bits)
    and hexfloatq_ for long double ([mw] = 112, [bias] = 16383, [size] = 40, word of 128 bits).
    The two functions are textually the same up to these constants; [ew] = word bits - [mw]
    (12 and 16), the exponent field has [ew] - 1 bits. *)
Record fmt := mk_fmt { mw : Z; ew : Z; bias : Z; room_a : Z }.
Definition binary64 := mk_fmt 52 12 1023 24.
Definition binary128 := mk_fmt 112 16 16383 40.
(** for (i = mantissa; i; i <<= 4) *middle++ = digit(i >> (bits - 4)): at most 28 digits *)
Fixpoint mantissa_digits (fuel : nat) (W lower i : Z) : res (list Z) :=
  match fuel with
  | O => Fuel
  | S f => if i =? 0 then Ok []
           else do l <- mantissa_digits f W lower ((i * 16) mod 2^W);
                Ok (hexdigit lower (Z.shiftr i (W - 4)) :: l)
  end.
(** for (; rounded > 0xF; rounded >>= 4) *--postfix = digit *)
Fixpoint rounded_digits (fuel : nat) (room lower rounded : Z) (s : list Z) : res (Z * list Z) :=
  match fuel with
  | O => Fuel
  | S f => if 15 <? rounded then do s <- push room s (hexdigit lower (Z.land rounded 15)); rounded_digits f room lower (Z.shiftr rounded 4) s
           else Ok (rounded, s)
  end.
(** the loop of vfprintf.c:870-873, 1003-1006: [n] low nibbles of the magnitude, highest first *)
Fixpoint low_nibbles (n : nat) (lower x : Z) (acc : list Z) : list Z :=
  match n with O => acc | S k => low_nibbles k lower (Z.shiftr x 4) (hexdigit lower (Z.land x 15) :: acc) end.

(* src/stdio/vfprintf.c:776-903 (hexfloat_) and 905-1039 (hexfloatq_).
   The buffer holds the prefix from the front and the exponent from the back; [push] checks the
   back part against the whole buffer, the front part is checked against the back part. *)
Definition hexfloat_ (T : fmt) (spec : Spec) (lower bits : Z) : res (pieces * Z) :=
  let W := mw T + ew T in
  let sign := signchar_ (Z.testbit bits (W - 1)) (flags spec) in
  let magnitude := bits mod 2^(W - 1) in
  let inf := Z.shiftl (2 * bias T + 1) (mw T) in
  if magnitude =? inf then nonfinite_ spec lower sign [73; 78; 70]
  else if inf <? magnitude then nonfinite_ spec lower sign [78; 65; 78]
  else
  let biased := Z.shiftr magnitude (mw T) in
  let exp := if biased =? 0 then (1 - bias T) * b2z (negb (magnitude =? 0)) else biased - bias T in
  do postfix <- decimal_ F (room_a T) (Z.abs exp) [];
  do postfix <- (if exp =? 0 then push (room_a T) postfix 48 else Ok postfix);
  do postfix <- push (room_a T) postfix (if exp <? 0 then 45 else 43);
  do postfix <- push (room_a T) postfix (Z.lor 80 lower);
  let head := [48; Z.lor 88 lower; 48 + b2z (negb (biased =? 0)); 46] in
  if precision spec <? 0 then
    let mantissa := Z.shiftl magnitude (ew T) mod 2^W in
    do ds <- mantissa_digits F W lower mantissa;
    let front := (if (mantissa =? 0) && negb (has (flags spec) 35) then firstn 3 head else head) ++ ds in
    if room_a T <? Z.of_nat (length front + length postfix) then UB else
    let len := b2z (negb (sign =? 0)) + Z.of_nat (length front) + Z.of_nat (length postfix) in
    do padding <- padding_ (width spec) len;
    do r <- chk_i32 (len + padding);
    Ok (if has (flags spec) 45 then put_sign sign ++ [front] ++ [postfix] ++ pad_ 32 padding
        else if has (flags spec) 48 then put_sign sign ++ [firstn 2 front] ++ pad_ 48 padding ++ [skipn 2 front] ++ [postfix]
        else pad_ 32 padding ++ put_sign sign ++ [front] ++ [postfix], r)
  else if precision spec <? mw T / 4 then
    let significand := Z.lor (magnitude mod 2^(mw T)) (Z.shiftl (b2z (negb (biased =? 0))) (mw T)) in
    let low := Z.shiftl significand (ew T + precision spec * 4) mod 2^W in
    let high := Z.shiftr significand (mw T - precision spec * 4) in
    let carry := b2z (2^(W - 1) <? Z.lor (Z.land high 1) low) in
    do (rounded, postfix) <- rounded_digits F (room_a T) lower ((high + carry) mod 2^W) postfix;
    do postfix <- (if negb (precision spec =? 0) || has (flags spec) 35 then push (room_a T) postfix 46 else Ok postfix);
    do postfix <- push (room_a T) postfix (hexdigit lower (Z.land rounded 15));
    (* buffer[0..1] must still hold the prefix *)
    if room_a T <? 2 + Z.of_nat (length postfix) then UB else
    let len := b2z (negb (sign =? 0)) + 2 + Z.of_nat (length postfix) in
    do padding <- padding_ (width spec) len;
    do r <- chk_i32 (len + padding);
    Ok (if has (flags spec) 45 then put_sign sign ++ [firstn 2 head] ++ [postfix] ++ pad_ 32 padding
        else if has (flags spec) 48 then put_sign sign ++ [firstn 2 head] ++ pad_ 48 padding ++ [postfix]
        else pad_ 32 padding ++ put_sign sign ++ [firstn 2 head] ++ [postfix], r)
  else
    let n := Z.to_nat (mw T / 4) in
    let front := head ++ low_nibbles n lower magnitude [] in
    if room_a T <? Z.of_nat (length front + length postfix) then UB else
    let zeros := precision spec - mw T / 4 in
    do l1 <- chk_i32 (b2z (negb (sign =? 0)) + Z.of_nat (length front) + zeros);
    do len <- chk_i32 (l1 + Z.of_nat (length postfix));
    do padding <- padding_ (width spec) len;
    do r <- chk_i32 (len + padding);
    Ok (if has (flags spec) 45 then put_sign sign ++ [front] ++ pad_ 48 zeros ++ [postfix] ++ pad_ 32 padding
        else if has (flags spec) 48 then
          put_sign sign ++ [firstn 2 front] ++ pad_ 48 padding ++ [skipn 2 front] ++ pad_ 48 zeros ++ [postfix]
        else pad_ 32 padding ++ put_sign sign ++ [front] ++ pad_ 48 zeros ++ [postfix], r).
(* src/stdio/vfprintf.c:1041-1054; LDBL_MANT_DIG is 113 *)
Definition convert_a_ (spec : Spec) (lower : Z) (l : list varg) : res (pieces * Z * list varg) :=
  if modifier spec =? LEN 76 1 then do (x, l) <- va128 l; do r <- hexfloat_ binary128 spec lower x; Ok (r, l)
  else do (x, l) <- va64 l; do r <- hexfloat_ binary64 spec lower x; Ok (r, l).

(* src/stdio/vfprintf.c:1056-1072; wint_t is 32 bits *)
Definition convert_c_ (spec : Spec) (l : list varg) : res (pieces * Z * list varg) :=
  do (x, l) <- va_int l;
  if Z.shiftr (modifier spec) 2 =? 108 then
    let w := wcrtomb x in
    if wret w =? SIZE_M1 then Ok ([], -3, l) else Ok ([wout w], wret w, l)
  else Ok (put_ x, 1, l).

(* src/stdio/vfprintf.c:1080-1096: the %ls loop; a wchar_t is four bytes *)
Fixpoint wide_loop (fuel : nat) (m : mem) (s prec count : Z) (out : pieces) : res (pieces * Z) :=
  match fuel with
  | O => Fuel
  | S f => do l <- load_n 4 m s;
           if le l =? 0 then Ok (out, s32 count)
           else let w := wcrtomb (s32 (le l)) in
                if wret w =? SIZE_M1 then Ok (out, -3)
                else if prec <? u32 (count + wret w) then Ok (out, s32 count)
                else wide_loop f m (s + 4) prec (u32 (count + wret w)) (out ++ [wout w])
  end.
(* src/stdio/vfprintf.c:1074-1105 *)
Definition convert_s_ (fuel : nat) (m : mem) (spec : Spec) (l : list varg) : res (pieces * Z * list varg) :=
  let prec := if precision spec <? 0 then 2^32 - 1 else precision spec in
  do (s, l) <- va32 l;
  if Z.shiftr (modifier spec) 2 =? 108 then do r <- wide_loop fuel m s prec 0 []; Ok (r, l)
  else do len <- strnlen_ fuel m s prec;
       do bytes <- load_n (Z.to_nat len) m s;
       Ok ([bytes], s32 len, l).
(* src/stdio/vfprintf.c:1107-1123; "NULL", "0x"; the buffer has 8 bytes *)
Definition convert_p_ (arg : Z) : res (pieces * Z) :=
  if arg =? 0 then Ok ([[78; 85; 76; 76]], 4)
  else do begin <- hexadecimal_ F (Z.shiftr (u32 (4 * 8 + 3)) 2) arg [] 0;
       Ok ([[48; 120]] ++ [begin], Z.of_nat (length begin) + 2).
(** the [n] little-endian bytes of x *)
Fixpoint le_bytes (n : nat) (x : Z) : list Z := match n with O => [] | S k => x mod 256 :: le_bytes k (x / 256) end.
(* src/stdio/vfprintf.c:1125-1151 *)
Definition store_n_ (m : mem) (spec : Spec) (count : Z) (l : list varg) : res (mem * list varg) :=
  do (p, l) <- va32 l;
  let len := modifier spec in
  let n := if len =? LEN 104 1 then 2%nat else if len =? LEN 104 2 then 1%nat
           else if (len =? LEN 108 2) || (len =? LEN 106 1) then 8%nat else 4%nat in
  do m <- store_n m p (le_bytes n count); Ok (m, l).

(* src/stdio/vfprintf.c:1194-1219 *)
Fixpoint parse_flags (s : list Z) (flags : Z) : Z * list Z :=
  match s with
  | c :: s' => if flag_ c =? 0 then (flags, s) else parse_flags s' (Z.lor flags (flag_ c))
  | [] => (flags, [])
  end.
Definition parse_precision (s : list Z) (args : list varg) : res (Z * list Z * list varg) :=
  match s with 46 :: s' => field_ s' args | _ => Ok (-1, s, args) end.
Definition parse_ (s : list Z) (args : list varg) : res (Spec * list Z * list varg) :=
  let '(flags, s) := parse_flags s 0 in
  do (width, s, args) <- field_ s args;
  do (flags, width) <- (if width <? 0 then do w <- chk_i32 (- width); Ok (Z.lor flags (FLAG 45), w) else Ok (flags, width));
  do (prec, s, args) <- parse_precision s args;
  let len := length_ s in
  Ok (mk_spec flags width prec len, skipn (Z.to_nat (Z.land len 3)) s, args).

Section Main.
(** convert_f_ (vfprintf.c:763-774) after floatspec_ *)
Context (convert_f_ : Spec -> Z -> list varg -> res (pieces * Z * list varg)).

(* src/stdio/vfprintf.c:1153-1159 *)
Definition floatspec_ (spec : Spec) : Spec :=
  mk_spec (flags spec) (width spec) (if precision spec <? 0 then 6 else precision spec) (modifier spec).

(* src/stdio/vfprintf.c:1161-1192; the character codes are the ASCII ones *)
Definition convert_ (fuel : nat) (m : mem) (spec : Spec) (count format : Z) (l : list varg)
  : res (mem * (pieces * Z) * list varg) :=
  let lower := Z.land format 32 in
  if (format =? 100) || (format =? 105) then
    do (x, l) <- pop_signed_ (modifier spec) l; do r <- convert_i_ room_i spec x; Ok (m, r, l)
  else if format =? 111 then do (x, l) <- pop_unsigned_ (modifier spec) l; do r <- convert_o_ room_o spec x; Ok (m, r, l)
  else if format =? 117 then do (x, l) <- pop_unsigned_ (modifier spec) l; do r <- convert_u_ room_u spec x; Ok (m, r, l)
  else if (format =? 120) || (format =? 88) then
    do (x, l) <- pop_unsigned_ (modifier spec) l; do r <- convert_x_ room_x spec format x; Ok (m, r, l)
  else if (format =? 102) || (format =? 70) then do (r, l) <- convert_f_ (floatspec_ spec) lower l; Ok (m, r, l)
  else if (format =? 97) || (format =? 65) then do (r, l) <- convert_a_ spec lower l; Ok (m, r, l)
  else if format =? 99 then do (r, l) <- convert_c_ spec l; Ok (m, r, l)
  else if format =? 115 then do (r, l) <- convert_s_ fuel m spec l; Ok (m, r, l)
  else if format =? 112 then do (p, l) <- va32 l; do r <- convert_p_ p; Ok (m, r, l)
  else if format =? 110 then do (m, l) <- store_n_ m spec count l; Ok (m, ([], 0), l)
  else Ok (m, ([], -2), l).

(* src/stdio/vfprintf.c:1221-1253: [s] is the rest of the format, [lit] the literal text from
   [format] to [s]; a call with the list of pieces written so far *)
Fixpoint vfprintf_loop (fuel sfuel : nat) (m : mem) (s lit : list Z) (count : Z) (args : list varg) (out : pieces)
  : res (mem * pieces * Z) :=
  match fuel with
  | O => Fuel
  | S f =>
    match s with
    | [] => Ok (m, out ++ [lit], s32 (u32 (Z.of_nat (length lit) + count)))
    | 37 :: 37 :: s' =>
      vfprintf_loop f sfuel m s' [] (u32 (count + Z.of_nat (length (lit ++ [37])))) args (out ++ [lit ++ [37]])
    | 37 :: s' =>
      let out := out ++ [lit] in
      let count := u32 (count + Z.of_nat (length lit)) in
      do (spec, s', args) <- parse_ s' args;
      do (m, (ps, written), args) <- convert_ sfuel m spec count (chr s') args;
      if written <? 0 then Ok (m, out ++ ps, written)
      else vfprintf_loop f sfuel m (skipn 1 s') [] (u32 (count + written)) args (out ++ ps)
    | c :: s' => vfprintf_loop f sfuel m s' (lit ++ [c]) count args out
    end
  end.
(** What vfprintf writes and returns when no write fails. *)
Definition vfprintf (sfuel : nat) (m : mem) (format : list Z) (args : list varg) : res (mem * pieces * Z) :=
  vfprintf_loop (S (length format)) sfuel m format [] 0 args [].
End Main.

(** ** Streams *)
(** [write st bytes] is the stream's write function; the boolean tells whether all pieces were written. *)
Fixpoint run {S} (write : S -> list Z -> res (S * Z)) (st : S) (ps : pieces) : res (S * bool) :=
  match ps with
  | [] => Ok (st, true)
  | p :: ps => do (st, n) <- write st p; if n =? Z.of_nat (length p) then run write st ps else Ok (st, false)
  end.
(** vfprintf on a stream: -1 at the first failed write *)
Definition on_stream {S} (write : S -> list Z -> res (S * Z)) (st : S) (ps : pieces) (status : Z) : res (S * Z) :=
  do (st, ok) <- run write st ps; Ok (st, if ok : bool then status else -1).

(* src/stdio/vsnprintf.c:6-27: memory, ptr, end, and which function [stream->write] is *)
Record sn := mk_sn { sn_mem : mem; sn_ptr : Z; sn_end : Z; sn_noop : bool }.
Definition sn_write (st : sn) (l : list Z) : res (sn * Z) :=
  let size := Z.of_nat (length l) in
  if sn_noop st then Ok (st, size) else
  let space := u32 (sn_end st - sn_ptr st) in
  if size <? space then
    do m <- store_n (sn_mem st) (sn_ptr st) l; Ok (mk_sn m (sn_ptr st + size) (sn_end st) false, size)
  else
    do m <- store_n (sn_mem st) (sn_ptr st) (firstn (Z.to_nat space) l); Ok (mk_sn m (sn_end st) (sn_end st) true, size).
(* src/stdio/vsnprintf.c:29-43, given what the formatter writes *)
Definition vsnprintf (m : mem) (buffer size : Z) (ps : pieces) (status : Z) : res (mem * Z) :=
  let st := mk_sn m buffer (if size =? 0 then 0 else buffer + (size - 1)) (size =? 0) in
  do (st, status) <- on_stream sn_write st ps status;
  do m <- (if size =? 0 then Ok (sn_mem st) else store (sn_mem st) (sn_ptr st) 0);
  Ok (m, status).
(* src/stdio/vsprintf.c:6-23 *)
Definition s_write (st : mem * Z) (l : list Z) : res (mem * Z * Z) :=
  do m <- store_n (fst st) (snd st) l; Ok ((m, snd st + Z.of_nat (length l)), Z.of_nat (length l)).
Definition vsprintf (m : mem) (s : Z) (ps : pieces) (status : Z) : res (mem * Z) :=
  do ((m, p), status) <- on_stream s_write (m, s) ps status;
  do m <- store m p 0; Ok (m, status).
