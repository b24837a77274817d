(** Independent specification of the decimal and hexadecimal floating constants of C11 7.22.1.3. *)
From Coq Require Import Reals.
From Verif Require Import Base Stdlib_Spec.
Open Scope Z_scope.

Definition dec_char (c : Z) : Prop := 48 <= c <= 57.
(** the integer a string of decimal digits denotes *)
Definition num (ds : list Z) : Z := digits_value 10 0 ds.
(** e[sign]digits (p for hexadecimal, per [letter]), or nothing; its value *)
Definition exp_part (letter : Z -> Prop) (s : list Z) (x : Z) : Prop :=
  (s = [] /\ x = 0) \/
  exists c sg ds, s = c :: sg ++ ds /\ letter c /\ Forall dec_char ds /\ ds <> [] /\
    (sg = [45] /\ x = - num ds \/ (sg = [43] \/ sg = []) /\ x = num ds).
(** [ip][.fp][exponent]: the digits before and after the point, at least one in total *)
Definition constant (digit letter : Z -> Prop) (s ip fp : list Z) (x : Z) : Prop :=
  exists dot ex, s = ip ++ dot ++ fp ++ ex /\ (dot = [] /\ fp = [] \/ dot = [46]) /\ exp_part letter ex x /\
    Forall digit ip /\ Forall digit fp /\ ip ++ fp <> [].
Definition decimal_text := constant dec_char (fun c => c = 101 \/ c = 69).
(** 10^k *)
Definition ten (k : Z) : R := if 0 <=? k then IZR (10^k) else Rinv (IZR (10^(-k))).
(** the exact value of a decimal constant *)
Definition decimal_value (ip fp : list Z) (x : Z) : R := (IZR (num (ip ++ fp)) * ten (x - Z.of_nat (length fp)))%R.
(** [t] is the longest prefix of t ++ rest with property P *)
Definition longest (P : list Z -> Prop) (t rest : list Z) : Prop :=
  P t /\ forall t' rest', t ++ rest = t' ++ rest' -> P t' -> (length t' <= length t)%nat.
(** the text starts like a hexadecimal constant *)
Definition hex_prefix (s : list Z) : Prop := exists x t, s = 48 :: x :: t /\ (x = 120 \/ x = 88).

(** hexadecimal constants: 0x, then digits and a binary exponent *)
Definition hex_char (c : Z) : Prop := is_digit 16 c.
Definition hexnum (ds : list Z) : Z := digits_value 16 0 ds.
Definition hex_text (s ip fp : list Z) (x : Z) : Prop :=
  exists c t, s = 48 :: c :: t /\ (c = 120 \/ c = 88) /\ constant hex_char (fun c => c = 112 \/ c = 80) t ip fp x.
(** 2^k *)
Definition two (k : Z) : R := if 0 <=? k then IZR (2^k) else Rinv (IZR (2^(-k))).
Definition hex_value (ip fp : list Z) (x : Z) : R := (IZR (hexnum (ip ++ fp)) * two (x - 4 * Z.of_nat (length fp)))%R.

(** letters without regard to case *)
Definition lower (c : Z) : Z := if (65 <=? c) && (c <=? 90) then c + 32 else c.
Definition text_inf : list Z := [105; 110; 102].
Definition text_inity : list Z := [105; 110; 105; 116; 121].
Definition text_nan : list Z := [110; 97; 110].
(** [body] is the longest of INF and INFINITY at the start of body ++ rest *)
Definition inf_text (body rest : list Z) : Prop :=
  map lower body = text_inf ++ text_inity \/ map lower body = text_inf /\ map lower (firstn 5 rest) <> text_inity.
(** no number starts with this character *)
Definition no_number (c : Z) : Prop := ~ dec_char c /\ c <> 46 /\ ~ In (lower c) [101; 105; 110].
