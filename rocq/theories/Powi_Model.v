(** Integer powers of a floating number, as the compiler emits calls for
    __builtin_powi: src/soft/powi/powi.h, powidf2.c, powisf2.c. *)
From Coq Require Import ZArith List.
From Verif Require Import Base FP HW Math_Model.
Open Scope Z_scope.

Section Powi.
Variables mw ew : Z.
Hypothesis Hmw : 0 < mw.
Hypothesis Hew : 0 < ew.
Hypothesis Hpe : mw + 1 < 2^(ew - 1).
Notation mul := (hmul mw ew Hmw Hew Hpe).
Notation div := (hdiv mw ew Hmw Hew Hpe).

(* src/soft/powi/powi.h:5-10; [i] is unsigned *)
Fixpoint powu_loop (fuel : nat) (x y i : Z) : res Z :=
  match fuel with
  | O => Fuel
  | S fuel =>
    if i =? 0 then Ok y
    else powu_loop fuel (mul x x) (if Z.odd i then mul y x else y) (Z.shiftr i 1)
  end.

(* src/soft/powi/powi.h:1-11 *)
Definition powu_ (x i : Z) : res Z := powu_loop 33 x (c_one mw ew) i.

(* src/soft/powi/powi.h:13-19; the negation is of a signed int, the argument of
   powu_ is converted to unsigned *)
Definition powi_ (x i : Z) : res Z :=
  if i <? 0 then do n <- chk_i32 (- i); powu_ (div (c_one mw ew) x) (u32 n)
  else powu_ x (u32 i).
End Powi.

(* src/soft/powi/powidf2.c:5-8, powisf2.c:5-8 *)
Definition powidf2 := powi_ 52 11 eq_refl eq_refl eq_refl.
Definition powisf2 := powi_ 23 8 eq_refl eq_refl eq_refl.
