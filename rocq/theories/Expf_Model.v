(** Model of the binary32 exponentials: exp2f, expf, expm1f, coshf, sinhf and
    tanhf with their kernels.  Floats and doubles are bit patterns; every
    arithmetic operation is the correctly rounded IEEE operation of HW.v, in
    the order and precision of the source.  Decimal and hexadecimal constants
    are written as the patterns the compiler rounds them to.  A value
    converted to int64_t must be representable (C11 6.3.1.4), otherwise the
    outcome is UB. *)
From Verif Require Import Base FP HW Math_Model.
Open Scope Z_scope.

Definition rint64 := brint 52 11 eq_refl eq_refl eq_refl.
Definition rint32 := brint 23 8 eq_refl eq_refl eq_refl.
Definition lt64 := hlt 52 11.
Definition lt32 := hlt 23 8.
Definition eq32 := heq 23 8.
Definition c_1 : Z := 0x3FF0000000000000.
Definition c_half : Z := 0x3FE0000000000000.
Definition FLT_MAX : Z := 0x7F7FFFFF.
Definition HUGE_VAL : Z := 0x7FF0000000000000.

(* src/math/double/shift.h:7-12; n << 52 wraps for negative n (DESIGN.md section 3) *)
Definition shift_ (x n : Z) : res Z := do i <- chk_i64 (sgn 64 x + sgn 64 (n * 2^52)); Ok (u64 i).

(** one Horner step: p * x + c *)
Definition hstep (p x c : Z) : Z := add64 (mul64 p x) c.

(* src/math/float/kernel/exp2f.h:5-21 *)
Definition kernel_exp2f_ (x : Z) : Z :=
  mul64 x (hstep (hstep (hstep (hstep (hstep (hstep (hstep (hstep (hstep 0x3E3E3FDE42662D5A
    x 0x3E7B673DAD8ADAB8) x 0x3EB62C111D5715E8) x 0x3EEFFCB562818C22) x 0x3F243091283E2AD1)
    x 0x3F55D87FE9CAB51F) x 0x3F83B2AB6FBCE3BC) x 0x3FAC6B08D703D59E) x 0x3FCEBFBDFF82C472) x 0x3FE62E42FEFA3A17).

(* src/math/float/exp2f.c:6-25; -150 and 128 are converted to float; 1 + kernel is a double *)
Definition exp2f (x : Z) : res Z :=
  if lt32 x 0xC3160000 then Ok 0
  else if lt32 0x43000000 x then Ok (mul32 0x43000000 FLT_MAX)
  else if eq32 x 0x3B429D37 then Ok 0x3F804385
  else if eq32 x 0xBCF3A937 then Ok 0x3F7AC6B1
  else
    let n := rint32 x in
    let y := add64 c_1 (kernel_exp2f_ (f2d (sub32 x n))) in
    do k <- to_signed 64 (trunc32 n);
    do r <- shift_ y k;
    Ok (d2f r).

(* src/math/float/kernel/expf.h:9-27 *)
Definition kernel_expf_ (x : Z) : Z :=
  mul64 x (hstep (hstep (hstep (hstep (hstep (hstep (hstep (hstep (hstep (hstep 0x3E5AE902082B73E6
    x 0x3E928A27F8516605) x 0x3EC71DE71735C55F) x 0x3EFA019A6B0B0206) x 0x3F2A01A017EE7F13)
    x 0x3F56C16C17F2A70F) x 0x3F811111111173CC) x 0x3FA555555555211A) x 0x3FC5555555555540) x 0x3FE0000000000005) x 0x3FF0000000000000).

(* src/math/float/expf.c:6-29 *)
Definition expf_min : Z := 0xC059FE3682CD3BE4.
Definition expf_max : Z := 0x40562E42FEFA39EF.
Definition expf (x : Z) : res Z :=
  let xd := f2d x in
  if lt64 xd expf_min then Ok 0
  else if lt64 expf_max xd then Ok (d2f (mul64 expf_max (f2d FLT_MAX)))
  else
    let n := rint64 (mul64 xd 0x3FF71547652B82FE) in
    let r := sub64 xd (mul64 n 0x3FE62E42FEFA4000) in
    let y := add64 c_1 (kernel_expf_ (sub64 r (mul64 n 0xBD48432A1B0E2634))) in
    do k <- to_signed 64 (trunc64 n);
    do z <- shift_ y k;
    Ok (d2f z).
