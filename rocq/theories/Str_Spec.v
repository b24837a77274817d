(** What the string functions mean, stated on memory only. *)
From Verif Require Import Base Str_Model.
Open Scope Z_scope.

(** Bytes hold 0..255 and addresses are 32-bit. *)
Definition mem_ok (m : mem) : Prop := forall x b, m x = Some b -> 0 <= x < 2^32 /\ 0 <= b < 256.
(** Every address of [a, b) may be accessed. *)
Definition mapped (m : mem) (a b : Z) : Prop := forall x, a <= x < b -> m x <> None.
(** [a] points to a NUL-terminated string of [n] non-NUL bytes. *)
Definition is_str (m : mem) (a n : Z) : Prop :=
  0 <= n /\ (forall x, a <= x < a + n -> exists b, m x = Some b /\ b <> 0) /\ m (a + n) = Some 0.
(** The bytes from [a] to the end of the aligned 8-byte word containing [z]. *)
Definition words (m : mem) (a z : Z) : Prop := forall x, a <= x -> x / 8 <= z / 8 -> m x <> None.

(** [z] is the first / last address of [a, b) holding [c]; [c] is absent. *)
Definition first_of (m : mem) (a b c z : Z) : Prop :=
  a <= z < b /\ m z = Some c /\ forall x, a <= x < z -> m x <> Some c.
Definition last_of (m : mem) (a b c z : Z) : Prop :=
  a <= z < b /\ m z = Some c /\ forall x, z < x < b -> m x <> Some c.
Definition absent (m : mem) (a b c : Z) : Prop := forall x, a <= x < b -> m x <> Some c.

(** [m'] is [m] with the [n] bytes at [d] replaced by the bytes [m] had at [s]. *)
Definition copied (m m' : mem) (d s n : Z) : Prop :=
  forall x, m' x = if (d <=? x) && (x <? d + n) then m (s + (x - d)) else m x.
(** [m'] is [m] with the [n] bytes at [d] set to [c]. *)
Definition filled (m m' : mem) (d c n : Z) : Prop :=
  forall x, m' x = if (d <=? x) && (x <? d + n) then Some c else m x.
Definition disjoint (d s n : Z) : Prop := d + n <= s \/ s + n <= d.


(** The bytes of list [l] are at [a]. *)
Definition contents (m : mem) (a : Z) (l : list Z) : Prop :=
  forall i, (i < length l)%nat -> m (a + Z.of_nat i) = Some (nth i l 0).
(** Lexicographic order of byte lists; a proper prefix comes first. *)
Fixpoint lex (s t : list Z) : comparison :=
  match s, t with
  | [], [] => Eq
  | [], _ :: _ => Lt
  | _ :: _, [] => Gt
  | a :: s, b :: t => match a ?= b with Eq => lex s t | c => c end
  end.

(** A NUL-terminated string given by its list of characters. *)
Definition cstr (m : mem) (a : Z) (l : list Z) : Prop :=
  contents m a (l ++ [0]) /\ Forall (fun b => 0 < b) l.
(** Membership in the characters of a list, and the length of the longest prefix satisfying [P]. *)
Definition elem (set : list Z) (b : Z) : bool := existsb (Z.eqb b) set.
Fixpoint prefix_len (P : Z -> bool) (l : list Z) : Z :=
  match l with [] => 0 | b :: l => if P b then 1 + prefix_len P l else 0 end.

(** Tokens of a list: (offset, length) of the maximal runs of elements that are not delimiters. *)
Fixpoint tokens (delim : Z -> bool) (off : Z) (cur : Z) (l : list Z) : list (Z * Z) :=
  match l with
  | [] => if cur =? 0 then [] else [(off - cur, cur)]
  | b :: l => if delim b then (if cur =? 0 then [] else [(off - cur, cur)]) ++ tokens delim (off + 1) 0 l
              else tokens delim (off + 1) (cur + 1) l
  end.

(** The list [nd] occurs in [hs] at offset [j]. *)
Definition occurs (hs nd : list Z) (j : nat) : Prop :=
  exists pre post, hs = pre ++ nd ++ post /\ length pre = j.
(** [nd] consists of one repeated byte, or has a proper suffix that is greater than [nd]
    and one that is greater in the reversed byte order. *)
Definition two_sided (nd : list Z) : Prop :=
  (exists b, Forall (eq b) nd) \/
  ((exists pre suf, nd = pre ++ suf /\ lex nd suf = Lt) /\
   (exists pre suf, nd = pre ++ suf /\ lex (map Z.opp nd) (map Z.opp suf) = Lt)).
