(** What the functions of <math.h> are to compute, in terms of real values. *)
From Coq Require Import Reals.
From Flocq Require Import Core.
From Verif Require Import Base FP.
Open Scope Z_scope.

(** nearest integer, halfway cases away from zero *)
Definition half_away (x : R) : Z :=
  if Rle_dec 0 x then Zfloor (x + / 2) else Zceil (x - / 2).

(** [r] is the floating-point number for the integer [f x]: a NaN or an infinity is returned
    unchanged, a finite number gives the finite number of that value with the sign of [x]
    (so that -0.2 and -0 round to -0). *)
Definition rounded (mw ew : Z) (f : R -> Z) (x r : Z) : Prop :=
  fbits mw ew r /\
  (ffinite mw ew x = false -> r = x) /\
  (ffinite mw ew x = true -> ffinite mw ew r = true /\ fneg mw ew r = fneg mw ew x /\ fval mw ew r = IZR (f (fval mw ew x))).

(** the integer of [w] bits nearest to [n] *)
Definition saturate (w n : Z) : Z := Z.max (- 2^(w-1)) (Z.min (2^(w-1) - 1) n).

(** [r] is the neighbour of [x] in the direction of [y] (neither a NaN): [y] itself when they are
    equal, otherwise a number strictly beyond [x], not beyond [y], with none in between. *)
Definition neighbour (mw ew x y r : Z) : Prop :=
  let v := xval mw ew in
  let num z := fbits mw ew z /\ fisnan mw ew z = false in
  num r /\
  (v x = v y -> r = y) /\
  (xlt (v x) (v y) -> xlt (v x) (v r) /\ ~ xlt (v y) (v r) /\ forall z, num z -> ~ (xlt (v x) (v z) /\ xlt (v z) (v r))) /\
  (xlt (v y) (v x) -> xlt (v r) (v x) /\ ~ xlt (v r) (v y) /\ forall z, num z -> ~ (xlt (v r) (v z) /\ xlt (v z) (v x))).

(** [r] is the one of [x] and [y] that no other is below (above); a single NaN is ignored. *)
Definition is_least (lt : ext -> ext -> Prop) (mw ew x y r : Z) : Prop :=
  let v := xval mw ew in
  (fisnan mw ew x = false -> fisnan mw ew y = false -> (r = x \/ r = y) /\ ~ lt (v x) (v r) /\ ~ lt (v y) (v r)) /\
  (fisnan mw ew x = true -> fisnan mw ew y = false -> r = y) /\
  (fisnan mw ew x = false -> fisnan mw ew y = true -> r = x) /\
  (fisnan mw ew x = true -> fisnan mw ew y = true -> fisnan mw ew r = true).

(** [r] is max(x - y, 0), rounded *)
Definition pos_difference (mw ew x y r : Z) : Prop :=
  let v := xval mw ew in
  fbits mw ew r /\
  (fisnan mw ew x = true \/ fisnan mw ew y = true -> fisnan mw ew r = true) /\
  (fisnan mw ew x = false -> fisnan mw ew y = false ->
    (~ xlt (v y) (v x) -> r = 0) /\
    (xlt (v y) (v x) -> ffinite mw ew x = true -> ffinite mw ew y = true -> rounds_to mw ew (fval mw ew x - fval mw ew y) false r) /\
    (xlt (v y) (v x) -> ffinite mw ew x = false \/ ffinite mw ew y = false -> r = finf mw ew)).
