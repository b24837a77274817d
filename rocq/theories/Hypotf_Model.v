(** Model of hypotf. *)
From Coq Require Import Reals.
From Flocq Require Import Core Binary Bits BinarySingleNaN.
From Verif Require Import Base FP HW Math_Model.
Open Scope Z_scope.

(** __builtin_sqrt: the wasm instruction f64.sqrt *)
Definition sqrt64 (a : Z) : Z := enc 52 11 (Bsqrt (prec_gt_0_ := hw_prec 52 eq_refl) (prec_lt_emax_ := hw_emax 52 11 eq_refl) mode_NE (dec 52 11 eq_refl eq_refl eq_refl a)).

(* src/math/float/hypotf.c:5-66; fabsf clears the sign bit; 0x3F2FFFFFE0000000 is 0x1.fffffep-13, 0x47EFFFFFE0000000 is
   FLT_MAX, 0x47EFFFFFF0000000 is 0x1.ffffffp127 and 0x3FE0000000000000 is 0.5 *)
Definition hypotf (x y : Z) : res Z :=
  let ax := fabsb 23 8 x in
  let ay := fabsb 23 8 y in
  if negb (ffinite 23 8 ax) || negb (ffinite 23 8 ay) then
    Ok (if fisinf 23 8 ax || fisinf 23 8 ay then 0x7F800000 else add32 ax ay)
  else
  let big := fmax 23 8 ax ay in
  let small := fmin 23 8 ax ay in
  let bd := f2d big in
  let sd := f2d small in
  let bb := mul64 bd bd in
  let ss := mul64 sd sd in
  if hlt 52 11 sd (mul64 bd 0x3F2FFFFFE0000000) then Ok big else
  let r2 := add64 bb ss in
  let r := sqrt64 r2 in
  let rf := d2f r in
  if 0x47EFFFFFE0000000 <? r then Ok rf else
  if 2 <? Z.land (u64 (r + 1)) 0xFFFFFFF then Ok rf else
  let bp := sub64 r2 bb in
  let e := add64 (sub64 bb (sub64 r2 bp)) (sub64 ss bp) in
  let rd := f2d rf in
  let resid := add64 (sub64 r2 (mul64 rd rd)) e in
  if heq 52 11 resid 0 then Ok rf else
  if heq 23 8 rf 0x7F7FFFFF && hlt 52 11 0 resid then
    let m := 0x47EFFFFFF0000000 in
    Ok (if hle 52 11 0 (add64 (sub64 r2 (mul64 m m)) e) then 0x7F800000 else rf)
  else
  do nb <- nextafter 23 8 rf (if hlt 52 11 0 resid then 0x7F800000 else 0xFF800000);
  let m := mul64 0x3FE0000000000000 (add64 rd (f2d nb)) in
  let resid_m := add64 (sub64 r2 (mul64 m m)) e in
  if heq 52 11 resid_m 0 then Ok (if negb (Z.land rf 1 =? 0) then nb else rf)
  else Ok (if Bool.eqb (hlt 52 11 0 resid_m) (hlt 52 11 0 resid) then nb else rf).
