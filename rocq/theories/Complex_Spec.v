(** Annex G of C11: what an infinite, a zero and a finite complex number are. *)
From Coq Require Import Reals.
From Flocq Require Import Core.
From Verif Require Import Base FP.
Open Scope Z_scope.

Section Spec.
Variables mw ew : Z.
(** G.3: infinite if at least one part is (even if the other is a NaN);
    finite if both parts are; a zero if both parts are zeros *)
Definition cinf (z : Z * Z) : Prop := fisinf mw ew (fst z) = true \/ fisinf mw ew (snd z) = true.
Definition cfin (z : Z * Z) : Prop := ffinite mw ew (fst z) = true /\ ffinite mw ew (snd z) = true.
Definition czero (z : Z * Z) : Prop :=
  cfin z /\ fval mw ew (fst z) = 0%R /\ fval mw ew (snd z) = 0%R.
Definition cnan (z : Z * Z) : Prop := fisnan mw ew (fst z) = true /\ fisnan mw ew (snd z) = true.
(** no part is a NaN *)
Definition cnum (z : Z * Z) : Prop := fisnan mw ew (fst z) = false /\ fisnan mw ew (snd z) = false.
Definition cbits (z : Z * Z) : Prop := fbits mw ew (fst z) /\ fbits mw ew (snd z).
(** the rounded product of two finite numbers exceeds the format *)
Definition overflows (p q : Z) : Prop :=
  ffinite mw ew p = true /\ ffinite mw ew q = true /\
  (bpow radix2 (2^(ew-1)) <= Rabs (RN mw ew (fval mw ew p * fval mw ew q)))%R.
End Spec.
