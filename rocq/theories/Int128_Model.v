(** Model of the 128-bit integer helpers in src/soft/integer.
    A value of an N-bit unsigned type is a Z in [0, 2^N); of a signed type a Z in
    [-2^(N-1), 2^(N-1)).  Native __int128 operators inside the helpers (they are
    expanded by the compiler) have their C meaning.  Shifting a negative or
    overflowing signed value left is taken to wrap, as GCC and Clang document;
    shift counts outside the width, division by zero, __builtin_clz of zero and
    signed overflow are UB. *)
From Verif Require Import Base.

Definition lsh (w x k : Z) : res Z :=
  if (0 <=? k) && (k <? w) then Ok (Z.shiftl x k mod 2^w) else UB.
Definition rsh (w x k : Z) : res Z :=
  if (0 <=? k) && (k <? w) then Ok (Z.shiftr x k) else UB.
Definition chk_i128 (x : Z) : res Z :=
  if (- 2^127 <=? x) && (x <=? 2^127 - 1) then Ok x else UB.
(** unsigned division and remainder *)
Definition udiv (a b : Z) : res Z := if b =? 0 then UB else Ok (a / b).
Definition urem (a b : Z) : res Z := if b =? 0 then UB else Ok (a mod b).
(** __builtin_clzll *)
Definition clzll (x : Z) : res Z := if x =? 0 then UB else Ok (63 - Z.log2 x).

(* src/soft/integer/ashlti3.c:3-14 *)
Definition ashlti3 (x shift : Z) : res Z :=
  let high := Z.shiftr x 64 in
  let low := u64 x in
  if negb (Z.land shift 64 =? 0) then
    do a <- lsh 64 low (Z.land shift 63);
    Ok (s128 (Z.shiftl a 64))
  else if negb (shift =? 0) then
    do h <- lsh 64 high shift;
    do l <- rsh 64 low (64 - shift);
    do l' <- lsh 64 low shift;
    Ok (s128 (Z.lor (Z.shiftl (Z.lor h l) 64) l'))
  else Ok x.

(* src/soft/integer/ashrti3.c:3-14 *)
Definition ashrti3 (x shift : Z) : res Z :=
  let high := Z.shiftr x 64 in
  let low := u64 x in
  if negb (Z.land shift 64 =? 0) then rsh 64 high (Z.land shift 63)
  else if negb (shift =? 0) then
    do h <- rsh 64 high shift;
    do m <- lsh 64 high (64 - shift);
    do l <- rsh 64 low shift;
    Ok (s128 (Z.lor (Z.shiftl h 64) (Z.lor m l)))
  else Ok x.

(* src/soft/integer/lshrti3.c:3-14 *)
Definition lshrti3 (x shift : Z) : res Z :=
  let high := Z.shiftr x 64 in
  let low := u64 x in
  if negb (Z.land shift 64 =? 0) then rsh 64 high (Z.land shift 63)
  else if negb (shift =? 0) then
    do h <- rsh 64 high shift;
    do m <- lsh 64 high (64 - shift);
    do l <- rsh 64 low shift;
    Ok (u128 (Z.lor (Z.shiftl h 64) (Z.lor m l)))
  else Ok x.

(* src/soft/integer/umulditi3.h:3-18, the portable path *)
Definition umulditi3 (a b : Z) : Z :=
  let a1 := Z.shiftr a 32 in
  let b1 := Z.shiftr b 32 in
  let a0 := u32 a in
  let b0 := u32 b in
  u128 (u128 (Z.lor (u128 (Z.shiftl (u128 (a1 * b1)) 64)) (u64 (a0 * b0))
              + u128 (Z.shiftl (u128 (a1 * b0)) 32))
        + u128 (Z.shiftl (u128 (a0 * b1)) 32)).

(* src/soft/integer/umulti4.h:3-19; returns (low, *high) *)
Definition umulti4 (a b : Z) : Z * Z :=
  let a1 := Z.shiftr a 64 in
  let b1 := Z.shiftr b 64 in
  let a0 := u64 a in
  let b0 := u64 b in
  let a1b1 := umulditi3 a1 b1 in
  let a1b0 := umulditi3 a1 b0 in
  let a0b1 := umulditi3 a0 b1 in
  let a0b0 := umulditi3 a0 b0 in
  let mid := u128 (u128 (Z.shiftr a0b0 64 + u64 a1b0) + u64 a0b1) in
  (Z.lor (u128 (Z.shiftl mid 64)) (u64 a0b0),
   u128 (u128 (u128 (Z.shiftr mid 64 + Z.shiftr a1b0 64) + Z.shiftr a0b1 64) + a1b1)).

(* src/soft/integer/multi3.c:4-12 *)
Definition multi3 (a b : Z) : Z :=
  let a1 := Z.shiftr a 64 in
  let b1 := Z.shiftr b 64 in
  let a0 := u64 a in
  let b0 := u64 b in
  u128 (u128 (Z.shiftl (u64 (u64 (a1 * b0) + u64 (a0 * b1))) 64) + umulditi3 a0 b0).

(* src/soft/integer/udivmodti4.h:14-20, the correction loop *)
Fixpoint qhat_loop (fuel : nat) (q rr a0 b1 b0 : Z) : res Z :=
  match fuel with
  | O => Fuel
  | S fuel =>
    if (0xFFFFFFFF <? q) || (Z.lor (u64 (Z.shiftl rr 32)) a0 <? u64 (q * b0)) then
      let q := u64 (q - 1) in
      let rr := u64 (rr + b1) in
      if 0xFFFFFFFF <? rr then Ok q else qhat_loop fuel q rr a0 b1 b0
    else Ok q
  end.

(* src/soft/integer/udivmodti4.h:8-24; returns (quotient, *r) *)
Definition uldivmoddisi5 (a1 a0 b : Z) : res (Z * Z) :=
  let b1 := Z.shiftr b 32 in
  let b0 := Z.land b 0xFFFFFFFF in
  do q <- udiv a1 b1;
  do q <- qhat_loop 4 q (u64 (a1 - u64 (q * b1))) a0 b1 b0;
  Ok (q, u64 (Z.lor (u64 (Z.shiftl a1 32)) a0 - u64 (q * b))).

(* src/soft/integer/udivmodti4.h:30-47, the portable path *)
Definition uldivmoddi5 (a1 a0 b : Z) : res (Z * Z) :=
  do s <- clzll b;
  do an <- lsh 128 (Z.lor (u128 (Z.shiftl a1 64)) a0) (Z.land s 63);
  do bn <- lsh 64 b s;
  do (q1, r) <- uldivmoddisi5 (Z.shiftr an 64) (u32 (Z.shiftr an 32)) bn;
  do (q0, r) <- uldivmoddisi5 r (u32 an) bn;
  do r <- rsh 64 r s;
  Ok (Z.lor (u64 (Z.shiftl q1 32)) q0, r).

(* src/soft/integer/udivmodti4.h:71-76; s is 0 or -1, i.e. the mask 0 or 2^128-1 *)
Fixpoint shift_sub (n : nat) (a b q : Z) : Z * Z :=
  match n with
  | O => (q, a)
  | S n =>
    let s := Z.shiftr (s128 (u128 (u128 (b - a) - 1))) 127 in
    let q := u64 (Z.lor (Z.shiftl q 1) (Z.land s 1)) in
    shift_sub n (u128 (a - Z.land b (u128 s))) (Z.shiftr b 1) q
  end.

(* src/soft/integer/udivmodti4.h:49-80; returns (quotient, *r) *)
Definition udivmodti4 (a b : Z) : res (Z * Z) :=
  let a1 := Z.shiftr a 64 in
  let a0 := u64 a in
  let b1 := Z.shiftr b 64 in
  let b0 := u64 b in
  if a <? b then Ok (0, a)
  else if b1 =? 0 then
    do h <- urem a1 b0;
    do (q0, r0) <- uldivmoddi5 h a0 b0;
    do q1 <- udiv a1 b0;
    Ok (Z.lor (u128 (Z.shiftl q1 64)) q0, r0)
  else
    do cb <- clzll b1;
    do ca <- clzll a1;
    let shift := cb - ca in
    do b <- lsh 128 b (Z.land shift 63);
    Ok (shift_sub (Z.to_nat (shift + 1)) a b 0).

(* src/soft/integer/udivti3.c:3-8, umodti3.c:3-10 *)
Definition udivti3 (a b : Z) : res Z := do (q, r) <- udivmodti4 a b; Ok q.
Definition umodti3 (a b : Z) : res Z := do (q, r) <- udivmodti4 a b; Ok r.

(* src/soft/integer/divti3.c:3-11; a + signa is signed and may overflow *)
Definition divti3 (a b : Z) : res Z :=
  let signa := Z.shiftr a 127 in
  let signb := Z.shiftr b 127 in
  let signq := Z.lxor signa signb in
  do x <- chk_i128 (a + signa);
  do y <- chk_i128 (b + signb);
  do (q, r) <- udivmodti4 (u128 (Z.lxor x signa)) (u128 (Z.lxor y signb));
  Ok (s128 (Z.lxor (u128 (q + signq)) (u128 signq))).

(* src/soft/integer/modti3.c:3-11; [sign] is unsigned, -b is signed *)
Definition modti3 (a b : Z) : res Z :=
  let sign := u128 (Z.shiftr a 127) in
  do y <- (if b <? 0 then chk_i128 (- b) else Ok b);
  do (q, r) <- udivmodti4 (Z.lxor (u128 (u128 a + sign)) sign) (u128 y);
  Ok (s128 (Z.lxor (u128 (r + sign)) sign)).
