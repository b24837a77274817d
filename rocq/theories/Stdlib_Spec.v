(** Independent specifications for src/stdlib. *)
From Verif Require Import Base Ctype_Spec.
Open Scope Z_scope.

(** Value of a digit character: '0'..'9', 'a'..'z', 'A'..'Z'. *)
Definition digit_value (c : Z) : option Z :=
  if (48 <=? c) && (c <=? 57) then Some (c - 48)
  else if (97 <=? c) && (c <=? 122) then Some (c - 87)
  else if (65 <=? c) && (c <=? 90) then Some (c - 55)
  else None.
Definition is_digit (b c : Z) : Prop := exists d, digit_value c = Some d /\ d < b.
Definition starts (P : Z -> Prop) (s : list Z) : Prop := match s with [] => False | c :: _ => P c end.
Fixpoint digits_value (b acc : Z) (ds : list Z) : Z :=
  match ds with
  | [] => acc
  | c :: ds => digits_value b (acc * b + match digit_value c with Some d => d | None => 0 end) ds
  end.

(** C11 7.22.1.4: [pre] is the optional 0x prefix in front of [tail], [b] the effective base. *)
Definition prefixed (base : Z) (t : list Z) : Prop :=
  (base = 0 \/ base = 16) /\ exists x h r, t = 48 :: x :: h :: r /\ (x = 120 \/ x = 88) /\ is_digit 16 h.
Definition prefix_ok (base : Z) (pre tail : list Z) (b : Z) : Prop :=
  (prefixed base (pre ++ tail) /\ length pre = 2%nat /\ b = 16) \/
  (~ prefixed base tail /\ pre = [] /\
   (base <> 0 /\ b = base \/ base = 0 /\ (starts (eq 48) tail /\ b = 8 \/ ~ starts (eq 48) tail /\ b = 10))).
Definition sign_ok (sg tail : list Z) (neg : bool) : Prop :=
  (sg = [45] /\ neg = true) \/ (sg = [43] /\ neg = false) \/
  (sg = [] /\ neg = false /\ ~ starts (fun c => c = 45 \/ c = 43) tail).
(** The string reads as (-1)^neg * mag and the subject sequence ends at offset [len]
    (0 when there is no subject sequence). *)
Definition reading (base : Z) (s : list Z) (neg : bool) (mag len : Z) : Prop :=
  exists ws sg pre ds rest b,
    s = ws ++ sg ++ pre ++ ds ++ rest /\
    Forall is_space_spec ws /\ ~ starts is_space_spec (sg ++ pre ++ ds ++ rest) /\
    sign_ok sg (pre ++ ds ++ rest) neg /\
    prefix_ok base pre (ds ++ rest) b /\
    Forall (is_digit b) ds /\ ~ starts (is_digit b) rest /\
    mag = digits_value b 0 ds /\
    len = (if ds then 0 else Z.of_nat (length (ws ++ sg ++ pre ++ ds))).

(** Entry [e] defines variable [n] with value [v]. *)
Definition defines (e n v : list Z) : Prop := e = n ++ 61 :: v.

(** Array [A] of [count] elements; [c i] is the (sign of the) comparison of the key with element i. *)
Definition sorted_for (c : Z -> Z) (count : Z) : Prop :=
  forall i j, 0 <= i <= j -> j < count -> (c i <= 0 -> c j <= 0) /\ (c i < 0 -> c j < 0).
