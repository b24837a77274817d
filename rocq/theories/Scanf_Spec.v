(** What a directive of scanf should match: C11 7.21.6.2. *)
From Verif Require Import Base Stdio_Model Stdio_Spec Stdlib_Spec Scanf_Model.
Open Scope Z_scope.

(** Input still to come for the directives: characters looked at and put back, then the stream *)
Definition stream_of (s : scanner) : list Z := upcoming (seen (sF s) (sh s)).
Definition left_of (s : scanner) : list Z := peek s ++ stream_of s.

Definition spaceb (c : Z) : bool := (c =? 32) || ((9 <=? c) && (c <? 14)).
Fixpoint takewhile (f : Z -> bool) (l : list Z) : list Z :=
  match l with c :: l => if f c then c :: takewhile f l else [] | [] => [] end.
Fixpoint dropwhile (f : Z -> bool) (l : list Z) : list Z :=
  match l with c :: m => if f c then dropwhile f m else l | [] => [] end.
Definition digitb (b c : Z) : bool := match digit_value c with Some d => d <? b | None => false end.

(** The longest prefix of [t] that is, or starts, an integer in the syntax of strtol: sign, 0x prefix, digits and
    the base they are in *)
Definition split_sign (t : list Z) : list Z * list Z :=
  match t with c :: r => if (c =? 43) || (c =? 45) then ([c], r) else ([], t) | [] => ([], []) end.
Definition hex_prefixed (base : Z) (r : list Z) : bool :=
  ((base =? 0) || (base =? 16)) && match r with z :: x :: _ => (z =? 48) && ((x =? 120) || (x =? 88)) | _ => false end.
Record item := mk_item { isign : list Z; iprefix : list Z; idigits : list Z; ibase : Z }.
Definition int_item (base : Z) (t : list Z) : item :=
  let '(sg, r) := split_sign t in
  if hex_prefixed base r then mk_item sg (firstn 2 r) (takewhile (digitb 16) (skipn 2 r)) 16
  else let b := if base =? 0 then match r with z :: _ => if z =? 48 then 8 else 10 | [] => 10 end else base in
       mk_item sg [] (takewhile (digitb b) r) b.
Definition item_text (i : item) : list Z := isign i ++ iprefix i ++ idigits i.
Definition magnitude (i : item) : Z := digits_value (ibase i) 0 (idigits i).
Definition item_value (i : item) : Z := match isign i with c :: _ => if c =? 45 then - magnitude i else magnitude i | [] => magnitude i end.
(** Sign and leading "0" or "0x" of the item *)
Definition head_length (base : Z) (t : list Z) : Z :=
  let '(sg, r) := split_sign t in
  Z.of_nat (length sg) + (if hex_prefixed base r then 2 else match r with z :: _ => if z =? 48 then 1 else 0 | [] => 0 end).
(** Bits of the object a length modifier selects *)
Definition object_bits (length : Z) : Z :=
  if length =? 104 * 4 + 2 then 8 else if length =? 104 * 4 + 1 then 16
  else if (length =? 108 * 4 + 2) || (length =? 106 * 4 + 1) then 64 else 32.

(** What is stored for a value: limited to the 64-bit type and then converted *)
Definition converted (sign : bool) (length : Z) (i : item) : stored :=
  let bits := object_bits length in
  Sint (bits / 8) (if sign then sgn bits (Z.max (- 2^63) (Z.min (item_value i) (2^63 - 1)))
                   else (if 2^64 <=? magnitude i then 2^64 - 1 else item_value i) mod 2^bits).

(** Fuel for the input *)
Definition enough (fuel : nat) (s : scanner) : Prop := (length (left_of s) < fuel)%nat.

(** A scan set: single characters and ranges *)
Inductive elem := One (c : Z) | Range (a b : Z).
Definition elem_text (e : elem) : list Z := match e with One c => [c] | Range a b => [a; 45; b] end.
Definition elem_has (x : Z) (e : elem) : Prop := match e with One c => x = c | Range a b => a <= x <= b \/ b <= x <= a end.
(** What can be written without ambiguity: '-' only inside a range, ']' only in front *)
Definition elem_ok (first : bool) (e : elem) : Prop :=
  match e with One c => c <> 45 /\ (first = true \/ c <> 93) | Range a b => a <> 45 /\ b <> 93 /\ (first = true \/ a <> 93) end.
Definition set_ok (negate : bool) (es : list elem) : Prop :=
  match es with
  | [] => False
  | e :: r => elem_ok true e /\ Forall (elem_ok false) r /\ (negate = true \/ hd 0 (elem_text e) <> 94)
  end.
Definition set_text (negate : bool) (es : list elem) : list Z := (if negate then [94] else []) ++ flat_map elem_text es ++ [93].

(** Base and signedness of the integer conversion specifiers *)
Definition int_conv (conv : Z) : option (Z * bool) :=
  if conv =? 100 then Some (10, true) else if conv =? 105 then Some (0, true) else if conv =? 111 then Some (8, false)
  else if conv =? 117 then Some (10, false) else if (conv =? 120) || (conv =? 88) then Some (16, false) else None.
(** A scanner in the middle of a format *)
Definition ready (fuel : nat) (s : scanner) : Prop :=
  sane (sF s) (sh s) /\ healthy (sh s) /\ Forall is_byte (peek s) /\ (seof s = true -> stream_of s = []) /\
  (length (peek s) <= 3)%nat /\ 0 <= count s < 2^32 /\ (length (left_of s) < fuel)%nat.
(** [k] characters were consumed from [s] to [s'] *)
Definition consumed (k : nat) (s s' : scanner) : Prop :=
  left_of s' = skipn k (left_of s) /\ (k <= length (left_of s))%nat /\ count s' = (count s + Z.of_nat k) mod 2^32 /\ (length (peek s') <= 3)%nat.

(** Decimal numbers separated by white space *)
Definition number : Type := (list Z * list Z * list Z)%type.
Definition number_text (n : number) : list Z := let '(ws, sg, ds) := n in ws ++ sg ++ ds.
Definition number_value (n : number) : Z := let '(_, sg, ds) := n in (match sg with c :: _ => if c =? 45 then -1 else 1 | [] => 1 end) * digits_value 10 0 ds.
Definition number_ok (n : number) : Prop := let '(ws, sg, ds) := n in
  Forall (fun c => spaceb c = true) ws /\ (sg = [] \/ sg = [43] \/ sg = [45]) /\ ds <> [] /\ Forall (fun c => 48 <= c <= 57) ds /\
  (length ds <= 126)%nat /\ - 2^31 <= number_value n < 2^31.
(** No digit follows [sg ++ ds] directly *)
Fixpoint separated (ns : list number) (tail : list Z) : Prop :=
  match ns with
  | [] => True
  | n :: r => match flat_map number_text r ++ tail with c :: _ => ~ 48 <= c <= 57 | [] => True end /\ separated r tail
  end.
(** What the conversions of [ns] store, argument by argument *)
Fixpoint stored_from (arg : Z) (ns : list number) : list (Z * stored) :=
  match ns with [] => [] | n :: r => (arg, Sint 4 (number_value n)) :: stored_from (arg + 1) r end.
