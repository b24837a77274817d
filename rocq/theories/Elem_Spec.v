(** What it means for a binary32 result to be a good approximation of a real
    number v. *)
From Coq Require Import Reals.
From Flocq Require Import Core.
From Verif Require Import Base FP.
Open Scope R_scope.

(** [b] is the float nearest to some real number whose relative distance to
    [v] is at most 2^-k.  The result is then correctly rounded unless [v] is
    that close to the midpoint of two adjacent floats. *)
Definition nearly_rounded (k : Z) (v : R) (b : Z) : Prop :=
  exists r, Rabs (r - v) <= bpow radix2 (- k) * Rabs v /\ rounds_to 23 8 r (Rlt_bool v 0) b.

(** No float lies between the result and the exact value, and if the value is
    a float the result is that float; an infinite result means that the value
    exceeds all floats. *)
Definition faithful (v : R) (b : Z) : Prop :=
  fbits 23 8 b /\ fisnan 23 8 b = false /\
  (ffinite 23 8 b = true -> forall f, fbits 23 8 f -> ffinite 23 8 f = true ->
     ~ (fval 23 8 b < fval 23 8 f <= v) /\ ~ (v <= fval 23 8 f < fval 23 8 b)) /\
  (ffinite 23 8 b = false -> forall f, fbits 23 8 f -> ffinite 23 8 f = true -> Rabs (fval 23 8 f) < Rabs v).

(** midpoint of two adjacent nonnegative floats *)
Definition midpoint (n : Z) : R := (fmag 23 8 n + fmag 23 8 (n + 1)) / 2.
