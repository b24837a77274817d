(** What nexttoward is to compute, in terms of extended real values. *)
From Coq Require Import Reals.
From Flocq Require Import Core.
From Verif Require Import Base FP.
Open Scope Z_scope.

(** [r] is the neighbour of the number [x] of the format (mw, ew) in the direction of the long
    double [y] (neither a NaN): the number equal to [y], with its sign, when they are equal, otherwise the first number
    of the format beyond [x] on the side of [y] (which may lie beyond [y]). *)
Definition neighbour_toward (mw ew x y r : Z) : Prop :=
  let v := xval mw ew in
  let vy := xval 112 15 y in
  let num z := fbits mw ew z /\ fisnan mw ew z = false in
  num r /\
  (v x = vy -> v r = vy /\ fneg mw ew r = fneg 112 15 y) /\
  (xlt (v x) vy -> xlt (v x) (v r) /\ forall z, num z -> ~ (xlt (v x) (v z) /\ xlt (v z) (v r))) /\
  (xlt vy (v x) -> xlt (v r) (v x) /\ forall z, num z -> ~ (xlt (v r) (v z) /\ xlt (v z) (v x))).

(** [r] is one of the values [x], [y] converted to the format, and a NaN *)
Definition some_nan (mw ew r : Z) : Prop := fbits mw ew r /\ fisnan mw ew r = true.

(** the sign of a*b + c: that of the exact value; for an exact zero negative only when both terms are *)
Definition fma_sign (x : R) (product c : bool) : bool :=
  match Rcompare x 0 with Eq => andb product c | Lt => true | Gt => false end.

(** [r] is a*b + c rounded once, for finite a, b, c *)
Definition fma_result (mw ew a b c r : Z) : Prop :=
  let x := (fval mw ew a * fval mw ew b + fval mw ew c)%R in
  rounds_to mw ew x (fma_sign x (xorb (fneg mw ew a) (fneg mw ew b)) (fneg mw ew c)) r.
