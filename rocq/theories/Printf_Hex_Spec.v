(** %a as the C standard describes it (C11 7.21.6.1p8): sign, 0x, one hexadecimal digit, the
    fraction, and a binary exponent; correctly rounded (to nearest, ties to even) when a precision is given. *)
From Verif Require Import Base FP Str_Spec Printf_Model Printf_Spec.
Open Scope Z_scope.

(** A finite number is [significand] / 2^mw * 2^[exponent]. *)
Definition significand (T : fmt) (bits : Z) : Z :=
  let magnitude := bits mod 2^(mw T + ew T - 1) in
  if magnitude / 2^mw T =? 0 then magnitude else magnitude mod 2^mw T + 2^mw T.
Definition exponent (T : fmt) (bits : Z) : Z :=
  let magnitude := bits mod 2^(mw T + ew T - 1) in
  if magnitude =? 0 then 0 else if magnitude / 2^mw T =? 0 then 1 - bias T else magnitude / 2^mw T - bias T.
Definition negative (T : fmt) (bits : Z) : bool := Z.testbit bits (mw T + ew T - 1).
Definition finite (T : fmt) (bits : Z) : Prop := bits mod 2^(mw T + ew T - 1) < (2 * bias T + 1) * 2^mw T.
Definition normal (T : fmt) (bits : Z) : Prop := 2^mw T <= bits mod 2^(mw T + ew T - 1).

(** h.ffffp+e: leading digit, fraction digits, decimal exponent digits. *)
Definition hex_body (up point : bool) (h : Z) (frac : list Z) (E : Z) (e : list Z) : list Z :=
  h :: (if point then [46] else []) ++ frac ++ (if up then 80 else 112) :: (if E <? 0 then 45 else 43) :: e.
(** [out] is what %a (or %A when [up]) prints for the finite number [bits]. *)
Definition prints_hexfloat (T : fmt) (v : conv) (up : bool) (bits : Z) (out : list Z) : Prop :=
  exists h frac e,
    let E := exponent T bits in
    let N := numeral_value 16 (h :: frac) in
    let k := Z.of_nat (length frac) in
    Forall (fun c => In c (digit_chars up)) (h :: frac) /\
    (if E =? 0 then e = [48] else is_numeral 10 false e (Z.abs E)) /\
    out = field v true (sign_text v (negative T bits) ++ [48; if up then 88 else 120])
                (hex_body up (negb (k =? 0) || hash v) h frac E e) /\
    match prec v with
    | None => N * 2^mw T = significand T bits * 16^k /\ last frac 0 <> 48 (* exact, no trailing zero *)
    | Some p => k = p /\ N = rne (significand T bits * 16^p) (2^mw T)
    end.
(** inf and nan: the sign and three letters, padded with spaces. *)
Definition prints_nonfinite (T : fmt) (v : conv) (up : bool) (bits : Z) (out : list Z) : Prop :=
  let inf := (2 * bias T + 1) * 2^mw T in
  let magnitude := bits mod 2^(mw T + ew T - 1) in
  out = field v false (sign_text v (negative T bits))
    (if magnitude =? inf then (if up then [73; 78; 70] else [105; 110; 102])
     else (if up then [78; 65; 78] else [110; 97; 110])).
