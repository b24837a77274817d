(** Specification of sorting, independent of the model. *)
From Coq Require Export Permutation.
From Verif Require Import Base.
Open Scope Z_scope.

(** The comparator is a total preorder: antisymmetric signs and transitive <=. *)
Definition total_preorder {A} (cmp : A -> A -> Z) : Prop :=
  (forall x y, cmp x y < 0 <-> 0 < cmp y x) /\
  (forall x y z, cmp x y <= 0 -> cmp y z <= 0 -> cmp x z <= 0).
(** The first n elements as a list. *)
Definition elements {A} (a : Z -> A) (n : Z) : list A := map (fun k => a (Z.of_nat k)) (seq 0 (Z.to_nat n)).
Definition sorted_by {A} (cmp : A -> A -> Z) (a : Z -> A) (n : Z) : Prop :=
  forall i j, 0 <= i <= j -> j < n -> cmp (a i) (a j) <= 0.
