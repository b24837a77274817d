(** What the wide-string functions mean. *)
From Verif Require Import Base Str_Model Str_Spec Wcs_Model.
Open Scope Z_scope.

(** The wide characters of [l] are at [a]. *)
Definition wcontents (m : mem) (a : Z) (l : list Z) : Prop :=
  forall i, (i < length l)%nat -> wload m (a + 4 * Z.of_nat i) = Ok (nth i l 0).
(** A terminated wide string with characters [l]. *)
Definition wstr (m : mem) (a : Z) (l : list Z) : Prop :=
  wcontents m a (l ++ [0]) /\ Forall (fun c => c <> 0) l.
(** An array of [n] wide characters whose text, up to the terminator if there is one, is [l]. *)
Definition wtext (m : mem) (a n : Z) (l : list Z) : Prop :=
  Forall (fun c => c <> 0) l /\
  (Z.of_nat (length l) = n /\ wcontents m a l \/ Z.of_nat (length l) < n /\ wcontents m a (l ++ [0])).
(** [m'] is [m] with [l] written at [d] and nothing else changed. *)
Definition wwritten (m m' : mem) (d : Z) (l : list Z) : Prop :=
  wcontents m' d l /\ forall x, x < d \/ d + 4 * Z.of_nat (length l) <= x -> m' x = m x.
(** room for [n] wide characters at [a] *)
Definition wroom (m : mem) (a n : Z) : Prop := mapped m a (a + 4 * n).
(** The ranges of [n] wide characters at [a] and [k] at [b] do not overlap. *)
Definition wapart (a n b k : Z) : Prop := a + 4 * n <= b \/ b + 4 * k <= a.

(** index of the first / last element satisfying [P] *)
Fixpoint first_index (P : Z -> bool) (l : list Z) : option Z :=
  match l with [] => None | b :: l => if P b then Some 0 else option_map (Z.add 1) (first_index P l) end.
Fixpoint last_index (P : Z -> bool) (l : list Z) : option Z :=
  match l with
  | [] => None
  | b :: l => match last_index P l with Some i => Some (1 + i) | None => if P b then Some 0 else None end
  end.
(** -1, 0, 1 by lexicographic order, of arrays and of strings (which end in a terminator) *)
Definition order (s t : list Z) : Z := match lex s t with Eq => 0 | Lt => -1 | Gt => 1 end.
Definition strorder (s t : list Z) : Z := order (s ++ [0]) (t ++ [0]).
