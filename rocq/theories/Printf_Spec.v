(** printf conversions as the C standard describes them (C11 7.21.6.1), on lists of characters. *)
From Coq Require Import String Ascii.
From Verif Require Import Base Str_Model Str_Spec Printf_Model Time_Spec.
Open Scope Z_scope.
Open Scope list_scope.

(** ** Numerals *)
Definition digit_chars (upper : bool) : list Z :=
  text (if upper then "0123456789ABCDEF" else "0123456789abcdef")%string.
(** The weight of a digit character. *)
Definition digit_value (c : Z) : Z := if c <=? 57 then c - 48 else if c <=? 70 then c - 55 else c - 87.
Definition numeral_value (b : Z) (l : list Z) : Z := fold_left (fun a c => a * b + digit_value c) l 0.
(** [l] is the base-[b] numeral of [x] without leading zeros; the numeral of 0 is empty.
    [numeral_unique] and [numeral_exists] show there is exactly one. *)
Definition is_numeral (b : Z) (upper : bool) (l : list Z) (x : Z) : Prop :=
  Forall (fun c => In c (firstn (Z.to_nat b) (digit_chars upper))) l /\ numeral_value b l = x /\ nth 0 l 0 <> 48.

(** ** A conversion specification: flags, minimum field width, precision *)
Record conv := mk_conv { minus : bool; plus : bool; space : bool; hash : bool; zero : bool;
                         fwidth : Z; prec : option Z }.
Definition chars (c : Z) (n : Z) : list Z := repeat c (Z.to_nat n).
(** The minimum number of digits: the precision, 1 when omitted. *)
Definition with_precision (v : conv) (d : list Z) : list Z :=
  chars 48 (match prec v with Some p => p | None => 1 end - Z.of_nat (List.length d)) ++ d.
(** Padding to the field width: left-justified; zeros after the sign or base prefix (flag 0 without
    flag - and, for the integer conversions, without precision); right-justified. *)
Definition field (v : conv) (zeros_ok : bool) (pre body : list Z) : list Z :=
  let n := fwidth v - Z.of_nat (List.length (pre ++ body)) in
  if minus v then pre ++ body ++ chars 32 n
  else if zero v && zeros_ok then pre ++ chars 48 n ++ body
  else chars 32 n ++ pre ++ body.
Definition no_precision (v : conv) : bool := match prec v with None => true | Some _ => false end.
Definition sign_text (v : conv) (negative : bool) : list Z :=
  if negative then [45] else if plus v then [43] else if space v then [32] else [].

(** %d and %i of [x], where [d] is the numeral of |x|. *)
Definition std_d (v : conv) (x : Z) (d : list Z) : list Z :=
  field v (no_precision v) (sign_text v (x <? 0)) (with_precision v d).
(** %u *)
Definition std_u (v : conv) (d : list Z) : list Z := field v (no_precision v) [] (with_precision v d).
(** %o: the flag # increases the precision to make the first digit a zero. *)
Definition std_o (v : conv) (d : list Z) : list Z :=
  let body := with_precision v d in
  field v (no_precision v) [] (if hash v && negb (nth 0 body 0 =? 48) then 48 :: body else body).
(** %x and %X: the flag # prefixes a nonzero result with 0x or 0X. *)
Definition std_x (v : conv) (upper : bool) (x : Z) (d : list Z) : list Z :=
  field v (no_precision v) (if hash v && negb (x =? 0) then [48; if upper then 88 else 120] else []) (with_precision v d).

(** ** Format strings *)
Inductive count := Omitted | Digits (l : list Z) | Star.
Record directive := mk_dir { dflags : list Z; dwidth : count; dprec : option count; dlen : list Z }.
Definition count_text (n : count) : list Z := match n with Omitted => [] | Digits l => l | Star => [42] end.
(** The text of a directive, between % and the conversion character. *)
Definition dir_text (d : directive) : list Z :=
  dflags d ++ count_text (dwidth d) ++ match dprec d with None => [] | Some n => 46 :: count_text n end ++ dlen d.
Definition is_flag (c : Z) : Prop := In c [45; 43; 32; 35; 48; 39].
Definition is_digit (c : Z) : Prop := 48 <= c <= 57.
Definition count_ok (n : count) : Prop := match n with Digits l => l <> [] /\ Forall is_digit l | _ => True end.
(** The length modifiers: none, h, hh, l, ll, j, z, t, L. *)
Definition modifiers : list (list Z) := [[]; [104]; [104;104]; [108]; [108;108]; [106]; [122]; [116]; [76]].
(** Conversion characters: d i o u x X f F a A c s p n. *)
Definition conversions : list Z := [100; 105; 111; 117; 120; 88; 102; 70; 97; 65; 99; 115; 112; 110].
Definition dir_ok (d : directive) : Prop :=
  Forall is_flag (dflags d) /\ count_ok (dwidth d) /\ (match dwidth d with Digits l => nth 0 l 0 <> 48 | _ => True end) /\
  (match dprec d with Some n => count_ok n | None => True end) /\ In (dlen d) modifiers.

(** ** What a directive means *)
(** A number in the format (values beyond INT_MAX saturate), or an int argument. *)
Definition count_value (n : count) (args : list varg) : option (Z * list varg) :=
  match n with
  | Omitted => Some (0, args)
  | Digits l => Some (Z.min INT_MAX (numeral_value 10 l), args)
  | Star => match args with A32 x :: args => Some (s32 x, args) | _ => None end
  end.
Definition elem (c : Z) (l : list Z) : bool := existsb (Z.eqb c) l.
(** A negative width argument is a '-' flag followed by a positive width; a negative precision
    argument is taken as if the precision were omitted. *)
Definition resolve (d : directive) (args : list varg) : option (conv * list varg) :=
  match count_value (dwidth d) args with
  | None => None
  | Some (w, args) =>
    match (match dprec d with None => Some (-1, args) | Some n => count_value n args end) with
    | None => None
    | Some (p, args) =>
      if w =? INT_MIN then None else
      let f c := elem c (dflags d) in
      Some (mk_conv (f 45 || (w <? 0)) (f 43) (f 32) (f 35) (f 48) (Z.abs w) (if p <? 0 then None else Some p), args)
    end
  end.
(** The integer argument selected by a length modifier: int, short, signed char, long, long long,
    intmax_t, size_t, ptrdiff_t on wasm32. *)
Definition signed_arg (modifier : list Z) (args : list varg) : option (Z * list varg) :=
  match args with
  | A32 x :: args =>
    if elem 104 modifier then Some (if (List.length modifier =? 2)%nat then s8 x else sgn 16 x, args)
    else if existsb (fun m => if list_eq_dec Z.eq_dec m modifier then true else false) [[]; [108]; [122]; [116]] then Some (s32 x, args) else None
  | A64 x :: args =>
    if existsb (fun m => if list_eq_dec Z.eq_dec m modifier then true else false) [[108;108]; [106]] then Some (s64 x, args) else None
  | _ => None
  end.
Definition unsigned_arg (modifier : list Z) (args : list varg) : option (Z * list varg) :=
  match args with
  | A32 x :: args =>
    if elem 104 modifier then Some (if (List.length modifier =? 2)%nat then u8 x else u16 x, args)
    else if existsb (fun m => if list_eq_dec Z.eq_dec m modifier then true else false) [[]; [108]; [122]; [116]] then Some (u32 x, args) else None
  | A64 x :: args =>
    if existsb (fun m => if list_eq_dec Z.eq_dec m modifier then true else false) [[108;108]; [106]] then Some (u64 x, args) else None
  | _ => None
  end.

(** A format is a sequence of items. *)
Inductive item := Text (l : list Z) | Percent | Conv (d : directive) (c : Z).
Definition item_text (i : item) : list Z :=
  match i with Text l => l | Percent => [37; 37] | Conv d c => 37 :: dir_text d ++ [c] end.
(** The string that %s prints: up to the precision or the NUL, all of whose bytes and the rest of
    the word where it ends (below the precision) may be read. *)
Definition string_arg (m : mem) (v : conv) (a : Z) (out : list Z) : Prop :=
  let p := match prec v with None => 2^32 - 1 | Some p => p end in
  let n := Z.of_nat (List.length out) in
  contents m a out /\ Forall (fun b => b <> 0) out /\
  (n = p /\ (- a) mod 8 <= p \/ n < p /\ m (a + n) = Some 0) /\
  (forall x, a <= x < a + p -> x / 8 <= (a + n) / 8 -> m x <> None).
(** [prints room sfuel m i args out args']: item i consumes arguments and prints [out].  [room] bounds
    the number of decimal digits, [sfuel] the length of strings. *)
Inductive prints (room_d room_u : Z) (sfuel : nat) (m : mem) : item -> list varg -> list Z -> list varg -> Prop :=
| P_text l args : ~ In 37 l -> prints room_d room_u sfuel m (Text l) args l args
| P_percent args : prints room_d room_u sfuel m Percent args [37] args
| P_d d c v args args1 args2 x n : In c [100; 105] -> dir_ok d -> resolve d args = Some (v, args1) ->
    signed_arg (dlen d) args1 = Some (x, args2) -> is_numeral 10 false n (Z.abs x) -> Z.of_nat (List.length n) <= room_d ->
    prec v <> Some INT_MAX -> prints room_d room_u sfuel m (Conv d c) args (std_d v x n) args2
| P_u d v args args1 args2 x n : dir_ok d -> resolve d args = Some (v, args1) ->
    unsigned_arg (dlen d) args1 = Some (x, args2) -> is_numeral 10 false n x -> Z.of_nat (List.length n) <= room_u ->
    prints room_d room_u sfuel m (Conv d 117) args (std_u v n) args2
| P_o d v args args1 args2 x n : dir_ok d -> resolve d args = Some (v, args1) ->
    unsigned_arg (dlen d) args1 = Some (x, args2) -> is_numeral 8 false n x ->
    prints room_d room_u sfuel m (Conv d 111) args (std_o v n) args2
| P_x d upper v args args1 args2 x n : dir_ok d -> resolve d args = Some (v, args1) ->
    unsigned_arg (dlen d) args1 = Some (x, args2) -> is_numeral 16 upper n x ->
    (forall p, prec v = Some p -> p <= INT_MAX - 2) ->
    prints room_d room_u sfuel m (Conv d (if upper then 88 else 120)) args (std_x v upper x n) args2
| P_c d v args x args2 : dir_ok d -> resolve d args = Some (v, A32 x :: args2) -> dlen d = [] -> fwidth v <= 1 ->
    prints room_d room_u sfuel m (Conv d 99) args [u8 x] args2
| P_s d v args a args2 out : dir_ok d -> resolve d args = Some (v, A32 a :: args2) -> dlen d = [] -> 0 <= a < 2^32 ->
    string_arg m v a out -> fwidth v <= Z.of_nat (List.length out) -> (List.length out + 8 < sfuel)%nat ->
    prints room_d room_u sfuel m (Conv d 115) args out args2.
Inductive prints_all (room_d room_u : Z) (sfuel : nat) (m : mem) : list item -> list varg -> list Z -> Prop :=
| PA_nil args : prints_all room_d room_u sfuel m [] args []
| PA_cons i is args args' out outs : prints room_d room_u sfuel m i args out args' -> prints_all room_d room_u sfuel m is args' outs ->
    prints_all room_d room_u sfuel m (i :: is) args (out ++ outs).
