(** Model of the integer parsing, arithmetic, environment and search functions
    of src/stdlib (and src/inttypes, which call or repeat them).
    A C string argument is the list of its bytes (0..255) without the
    terminator; a pointer into it is a suffix of the list, [*p] is the head as a
    signed char or 0 at the end, and advancing past the end is UB. *)
From Verif Require Import Base Ctype_Model.
Open Scope Z_scope.

Definition cur (s : list Z) : Z := match s with [] => 0 | c :: _ => s8 c end.
Definition next (s : list Z) : res (list Z) := match s with [] => UB | _ :: t => Ok t end.

(** ** strtol family *)
(* src/stdlib/parse/digit.h:1-12; c is unsigned *)
Definition digit_ (c : Z) : Z :=
  if u32 (c - 48) <? 10 then u32 (c - 48)
  else let c := Z.lor c 32 in
       if u32 (c - 97) <? 26 then u32 (u32 (c - 97) + 10) else u32 (-1).
(* src/stdlib/parse/integer.h:10-11, atoi.h:8-9; also counts the characters *)
Fixpoint skip_space (s : list Z) (k : Z) : res (list Z * Z) :=
  do b <- isspace (cur s);
  if b =? 0 then Ok (s, k)
  else match s with [] => UB | _ :: t => skip_space t (k + 1) end.
(** State of the digit loop: magnitude, overflow, end (offset of the pointer stored in *pointer). *)
(* src/stdlib/parse/integer.h:37-42; w is the width of Unsigned, k the offset of s *)
Fixpoint digit_loop (w : Z) (s : list Z) (base threshold magnitude : Z) (overflow : bool) (k end_ : Z) : Z * bool * Z :=
  match s with
  | [] => (magnitude, overflow, end_) (* digit_(0) = UINT_MAX, never below base *)
  | c :: t =>
    let digit := digit_ (u32 (s8 c)) in
    if digit <? base then
      let next := (magnitude * base + digit) mod 2^w in
      digit_loop w t base threshold next (overflow || (threshold <? magnitude) || (next <? digit)) (k + 1) (k + 1)
    else (magnitude, overflow, end_)
  end.
(** Result of strtol and friends: value, offset stored through [end], errno := ERANGE. *)
Record parsed := mk_parsed { pval : Z; pend : Z; perange : bool }.
(** multiplication in the type Integer (w bits, signed or not) *)
Definition mul_int (w : Z) (sg : bool) (a b : Z) : res Z :=
  if sg then (if (- 2^(w-1) <=? a * b) && (a * b <? 2^(w-1)) then Ok (a * b) else UB) else Ok ((a * b) mod 2^w).
(** conversion of an Unsigned to Integer *)
Definition to_int (w : Z) (sg : bool) (x : Z) : Z := if sg then sgn w x else x mod 2^w.
(* src/stdlib/parse/integer.h:5-54; base is the unsigned parameter *)
Definition parseint_ (w : Z) (sg : bool) (s : list Z) (base max : Z) : res parsed :=
  do (s1, k1) <- skip_space s 0;
  let minus := cur s1 =? 45 in
  let sign := if minus then -1 else 1 in
  let max := if minus then (max + b2z sg) mod 2^w else max in
  do (s2, k2) <- (if minus || (cur s1 =? 43) then do t <- next s1; Ok (t, k1 + 1) else Ok (s1, k1));
  do (base, end_, s3, k3) <-
    (if cur s2 =? 48 then
       do t <- next s2;
       if ((base =? 0) || (base =? 16)) && (Z.lor (cur t) 32 =? 120)
       then do t2 <- next t; Ok (16, k2 + 1, t2, k2 + 2)
       else Ok (if base =? 0 then 8 else base, 0, s2, k2)
     else Ok (if base =? 0 then 10 else base, 0, s2, k2));
  let threshold := (2^w - 1) / base in
  let '(magnitude, overflow, end_) := digit_loop w s3 base threshold 0 false k3 end_ in
  if overflow || (max <? magnitude) then
    Ok (mk_parsed (to_int w sg (if (to_int w sg sign <? 0) then (- max) mod 2^w else max)) end_ true)
  else do v <- mul_int w sg (to_int w sg sign) (to_int w sg magnitude); Ok (mk_parsed v end_ false).
(* src/stdlib/strtol.c:7-10 ... strtoull.c:6-9; long is 32 bits; int base is converted to unsigned *)
Definition strtol (s : list Z) (base : Z) : res parsed := parseint_ 32 true s (u32 base) (2^31 - 1).
Definition strtoul (s : list Z) (base : Z) : res parsed := parseint_ 32 false s (u32 base) (2^32 - 1).
Definition strtoll (s : list Z) (base : Z) : res parsed := parseint_ 64 true s (u32 base) (2^63 - 1).
Definition strtoull (s : list Z) (base : Z) : res parsed := parseint_ 64 false s (u32 base) (2^64 - 1).

(** ** atoi family *)
(** [10 * magnitude + digit] with digit unsigned int: for 32-bit Integer the sum is unsigned
    and converted back (wraps); for 64-bit Integer it is signed *)
Definition atoi_step (w magnitude digit : Z) : res Z :=
  do m <- mul_int w true 10 magnitude;
  if w =? 32 then Ok (s32 (m + digit))
  else if m + digit <? 2^(w-1) then Ok (m + digit) else UB.
(* src/stdlib/atoi.h:19-22 *)
Fixpoint atoi_loop (w : Z) (s : list Z) (magnitude : Z) : res Z :=
  match s with
  | [] => Ok magnitude
  | c :: t => let digit := u32 (s8 c - 48) in
              if digit <? 10 then do m <- atoi_step w magnitude digit; atoi_loop w t m else Ok magnitude
  end.
(* src/stdlib/atoi.h:3-25 *)
Definition atoi_ (w : Z) (s : list Z) : res Z :=
  do (s1, k1) <- skip_space s 0;
  let sign := if cur s1 =? 45 then -1 else 1 in
  do s2 <- (if (cur s1 =? 45) || (cur s1 =? 43) then next s1 else Ok s1);
  do m <- atoi_loop w s2 0;
  mul_int w true sign m.
(* src/stdlib/atoi.c, atol.c, atoll.c *)
Definition atoi := atoi_ 32.
Definition atol := atoi_ 32.
Definition atoll := atoi_ 64.

(** ** abs, div *)
Definition chk_w (w x : Z) : res Z := if (- 2^(w-1) <=? x) && (x <? 2^(w-1)) then Ok x else UB.
(* src/stdlib/abs.h:4-7; abs.c, labs.c: w = 32; llabs.c, inttypes/imaxabs.c: w = 64 *)
Definition abs_ (w a : Z) : res Z := if a <? 0 then chk_w w (- a) else Ok (if a =? 0 then 0 else a).
(* src/stdlib/div.h:8-16: C's / truncates; division by zero and an unrepresentable quotient are UB
   (also for %, C11 6.5.5p6) *)
Definition div_ (w n d : Z) : res (Z * Z) :=
  if d =? 0 then UB else do q <- chk_w w (Z.quot n d); Ok (q, Z.rem n d).

(** ** rand *)
(* src/stdlib/rand.c:5-8 *)
Definition srand (state seed : Z) : Z := seed.
(* src/stdlib/rand.c:10-13; uint_fast32_t is uintptr_t, 32 bits; returns (result, state) *)
Definition rand (state : Z) : Z * Z := let s := u32 (state * 48271) mod 2147483647 in (s32 s, s).
(** a client: n successive calls *)
Fixpoint rand_seq (n : nat) (state : Z) : list Z :=
  match n with O => [] | S n => let '(r, s) := rand state in r :: rand_seq n s end.

(** ** getenv *)
(* src/stdlib/environ.c:84-93; entry bytes and name bytes; [entry[i]] past its terminator is UB *)
Fixpoint env_matches (entry name : list Z) : res bool :=
  match name with
  | [] => Ok (cur entry =? 61)
  | c :: n => if c =? 61 then Ok (cur entry =? 61)
              else if negb (cur entry =? s8 c) then Ok false else do e <- next entry; env_matches e n
  end.
(* src/stdlib/environ.c:111-114; the suffix after the first '=', None for NULL *)
Fixpoint env_value (entry : list Z) : option (list Z) :=
  match entry with
  | [] => None
  | c :: t => if s8 c =? 61 then Some t else env_value t
  end.
(* src/stdlib/environ.c:105-117; a NULL entry is None.  Returns the index of the entry and the value. *)
Fixpoint env_find (i : Z) (env : list (option (list Z))) (name : list Z) : res (option (Z * list Z)) :=
  match env with
  | [] => Ok None
  | None :: r => env_find (i + 1) r name
  | Some e :: r => do m <- env_matches e name;
                   if m : bool then Ok (match env_value e with Some v => Some (i, v) | None => None end)
                   else env_find (i + 1) r name
  end.
(* src/stdlib/getenv.c:11-14, environ.c:99-118.  The environment table is the
   argument; None when environ_init failed (s_state = 2); name NULL is None. *)
Definition getenv (env : option (list (option (list Z)))) (name : option (list Z)) : res (option (Z * list Z)) :=
  match name, env with
  | Some n, Some e => env_find 0 e n
  | _, _ => Ok None
  end.

(** ** bsearch *)
(* src/stdlib/bsearch.c:3-19.  The array is indexed by element; [compare i] is the
   result of compare(key, base + i*size), UB outside the array; returns the index. *)
Fixpoint bsearch (fuel : nat) (compare : Z -> res Z) (begin count : Z) : res (option Z) :=
  match fuel with
  | O => Fuel
  | S f =>
    if count =? 0 then Ok None
    else
      let half := Z.shiftr count 1 in
      let pivot := begin + half in
      do c <- compare pivot;
      if c <? 0 then bsearch f compare begin half
      else if negb (c =? 0) then bsearch f compare pivot (count - half)
      else Ok (Some pivot)
  end.
