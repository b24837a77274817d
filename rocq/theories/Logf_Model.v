(** Model of the binary32 logarithms logf, log2f, log10f and log1pf and of the
    inverse hyperbolic functions atanhf, asinhf and acoshf, with their kernel.
    Floats and doubles are bit patterns; every arithmetic operation is the
    correctly rounded IEEE operation of HW.v, in the order and precision of the
    source.  Decimal and hexadecimal constants are written as the patterns the
    compiler rounds them to.  NAN is the quiet NaN 0x7FC00000. *)
From Verif Require Import Base FP HW Math_Model Hypotf_Model Expf_Model.
Open Scope Z_scope.

Definition NANF : Z := 0x7FC00000.
Definition INFF : Z := 0x7F800000.
Definition NINFF : Z := 0xFF800000.
Definition c_2 : Z := 0x4000000000000000.

(* src/math/float/kernel/atanhf.h:10-24 *)
Definition poly_atanhf_ (xx : Z) : Z :=
  hstep (hstep (hstep (hstep (hstep 0x3FB5471A00A27E2D xx 0x3FB73824FFF997BB) xx 0x3FBC71FD073EF892)
    xx 0x3FC249246261F73E) xx 0x3FC9999999B8B079) xx 0x3FD55555555553B3.
Definition kernel_atanhf_ (x : Z) : Z :=
  let xx := mul64 x x in
  add64 x (mul64 (mul64 x xx) (poly_atanhf_ xx)).

(** the exponent and the reduced argument shared by the three finite_ below:
    src/math/float/logf.c:10-11, log2f.c:10-11, log10f.c:11-12 *)
Definition split32 (i : Z) : res (Z * Z) :=
  do d <- chk_i32 (i - 0x3F3504F4);
  let exponent := Z.shiftr d 23 in
  do j <- chk_i32 (i - sgn 32 (exponent * 2^23));
  Ok (exponent, f2d (u32 j)).
(** (x - 1) / (x + 1) *)
Definition ratio1 (x : Z) : Z := div64 (sub64 x c_1) (add64 x c_1).

(* src/math/float/logf.c:6-14 *)
Definition logf_finite_ (i : Z) : res Z :=
  do s <- split32 i;
  Ok (d2f (add64 (mul64 c_2 (kernel_atanhf_ (ratio1 (snd s)))) (mul64 (ofZ64 (fst s)) 0x3FE62E42FEFA39EF))).

(* src/math/float/logf.c:16-38 *)
Definition logf (x : Z) : res Z :=
  let i := sgn 32 x in
  if i <=? 0 then Ok (if sgn 32 (i * 2) =? 0 then NINFF else NANF)
  else if 0x7F800000 <=? i then Ok x
  else if eq32 x 0x4C5D65A5 then Ok 0x418F034B
  else if eq32 x 0x65D890D3 then Ok 0x4254D1F9
  else if eq32 x 0x6F31A8EC then Ok 0x42845A89
  else do n <- normalize_ 23 8 i; logf_finite_ n.

(* src/math/float/log2f.c:6-14; 2 * log2e is a constant *)
Definition log2f_finite_ (i : Z) : res Z :=
  do s <- split32 i;
  Ok (d2f (add64 (mul64 (mul64 c_2 0x3FF71547652B82FE) (kernel_atanhf_ (ratio1 (snd s)))) (ofZ64 (fst s)))).

(* src/math/float/log2f.c:16-27 *)
Definition log2f (x : Z) : res Z :=
  let i := sgn 32 x in
  if i <=? 0 then Ok (if sgn 32 (i * 2) =? 0 then NINFF else NANF)
  else if i <? 0x7F800000 then do n <- normalize_ 23 8 i; log2f_finite_ n
  else Ok x.

(* src/math/float/log10f.c:6-15 *)
Definition log10f_finite_ (i : Z) : res Z :=
  do s <- split32 i;
  Ok (d2f (add64 (mul64 (mul64 c_2 0x3FDBCB7B1526E50E) (kernel_atanhf_ (ratio1 (snd s)))) (mul64 (ofZ64 (fst s)) 0x3FD34413509F79FF))).

(* src/math/float/log10f.c:17-39 *)
Definition log10f (x : Z) : res Z :=
  let i := sgn 32 x in
  if i <=? 0 then Ok (if sgn 32 (i * 2) =? 0 then NINFF else NANF)
  else if 0x7F800000 <=? i then Ok x
  else if eq32 x 0x0EFEEE7A then Ok 0xC1E99D23
  else if eq32 x 0x120B93DC then Ok 0xC1DAD957
  else if eq32 x 0x13AE78D3 then Ok 0xC1D2D957
  else do n <- normalize_ 23 8 i; log10f_finite_ n.

(** the exponent and the reduced argument of a double:
    src/math/float/finite/log1pf.h:9-11, atanhf.c:10-12, asinhf.c:11-13, acoshf.c:11-13 *)
Definition split64 (x : Z) : res (Z * Z) :=
  let i := sgn 64 x in
  do d <- chk_i64 (i - 0x3FE6A09E667F3BCD);
  let exponent := Z.shiftr d 52 in
  do j <- chk_i64 (i - sgn 64 (exponent * 2^52));
  Ok (exponent, u64 j).

(* src/math/float/finite/log1pf.h:5-17 *)
Definition log1pf_ (x : Z) : res Z :=
  do s <- split64 (add64 c_1 x);
  Ok (if fst s =? 0 then mul64 c_2 (kernel_atanhf_ (div64 x (add64 c_2 x)))
      else add64 (mul64 c_2 (kernel_atanhf_ (ratio1 (snd s)))) (mul64 (ofZ64 (fst s)) 0x3FE62E42FEFA39EF)).

(* src/math/float/log1pf.c:6-46; i is compared with 0xBF800000 as unsigned *)
Definition log1pf (x : Z) : res Z :=
  if x =? 0xBF800000 then Ok NINFF
  else if 0xBF800000 <? x then Ok NANF
  else if 0x7F800000 <=? sgn 32 x then Ok x
  else if eq32 x 0x35400003 then Ok 0x353FFFFF
  else if eq32 x 0xB53FFFFD then Ok 0xB5400001
  else if eq32 x 0x3710001B then Ok 0x370FFFF3
  else if eq32 x 0xB70FFFE5 then Ok 0xB710000D
  else if eq32 x 0xBB0EC8C4 then Ok 0xBB0EF0A5
  else if eq32 x 0x3EFD81AD then Ok 0x3ECDEEE1
  else if eq32 x 0x6F31A8EC then Ok 0x42845A89
  else if eq32 x 0x65D890D3 then Ok 0x4254D1F9
  else do y <- log1pf_ (f2d x); Ok (d2f y).

(* src/math/float/atanhf.c:6-20; ln2 / 2 is a constant *)
Definition atanhf_finite_ (x : Z) : res Z :=
  do s <- split64 (div64 (add64 c_1 x) (sub64 c_1 x));
  Ok (if fst s =? 0 then kernel_atanhf_ x
      else add64 (kernel_atanhf_ (ratio1 (snd s))) (mul64 (div64 0x3FE62E42FEFA39EF c_2) (ofZ64 (fst s)))).

(* src/math/float/atanhf.c:22-31 *)
Definition atanhf (x : Z) : res Z :=
  let absx := fabsb 23 8 x in
  if eq32 absx 0x3F800000 then Ok (copysign 23 8 INFF x)
  else if lt32 absx 0x3F800000 then do y <- atanhf_finite_ (f2d x); Ok (d2f y)
  else Ok NANF.

(* src/math/float/asinhf.c:6-20 *)
Definition asinhf_finite_ (s : Z) : res Z :=
  let c := sqrt64 (add64 (mul64 s s) c_1) in
  do t <- split64 (add64 c s);
  Ok (if fst t =? 0 then mul64 c_2 (kernel_atanhf_ (div64 s (add64 c c_1)))
      else add64 (mul64 c_2 (kernel_atanhf_ (ratio1 (snd t)))) (mul64 (ofZ64 (fst t)) 0x3FE62E42FEFA39EF)).

(* src/math/float/asinhf.c:22-39; x - x is not 0 for infinities and NaNs only *)
Definition asinhf (x : Z) : res Z :=
  if negb (eq32 (sub32 x x) 0) then Ok x
  else
    let s := fabsb 23 8 x in
    if eq32 s 0x4BDD65A5 then Ok (copysign 23 8 0x418F034B x)
    else if eq32 s 0x655890D3 then Ok (copysign 23 8 0x4254D1F9 x)
    else if eq32 s 0x6EB1A8EC then Ok (copysign 23 8 0x42845A89 x)
    else do y <- asinhf_finite_ (f2d s); Ok (copysign 23 8 (d2f y) x).

(* src/math/float/acoshf.c:6-17 *)
Definition acoshf_finite_ (c : Z) : res Z :=
  let s := sqrt64 (sub64 (mul64 c c) c_1) in
  do t <- split64 (add64 c s);
  Ok (add64 (mul64 c_2 (kernel_atanhf_ (ratio1 (snd t)))) (mul64 (ofZ64 (fst t)) 0x3FE62E42FEFA39EF)).

(* src/math/float/acoshf.c:19-36 *)
Definition acoshf (x : Z) : res Z :=
  let i := sgn 32 x in
  if i <? 0x3F800000 then Ok NANF
  else if 0x7F800000 <=? i then Ok x
  else if eq32 x 0x655890D3 then Ok 0x4254D1F9
  else if eq32 x 0x6EB1A8EC then Ok 0x42845A89
  else do y <- acoshf_finite_ (f2d x); Ok (d2f y).
