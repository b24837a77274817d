(** %f as the C standard describes it (C11 7.21.6.1p8): sign, integral digits, the point, and
    [prec] fraction digits; the value rounded to that many decimals. *)
From Verif Require Import Base FP Str_Spec Printf_Model Printf_Spec Printf_Hex_Spec.
Open Scope Z_scope.

(** The finite number [bits] times 10^p is [fnum] / [fden]. *)
Definition fnum (bits p : Z) : Z := significand binary64 bits * 10^p * 2^(Z.max 0 (exponent binary64 bits - 52)).
Definition fden (bits : Z) : Z := 2^(Z.max 0 (52 - exponent binary64 bits)).
(** [out] shows [N] / 10^p with p fraction digits in the field described by [v]. *)
Definition fixed_text (v : conv) (bits p N : Z) (out : list Z) : Prop :=
  exists i f, Forall (fun c => 48 <= c <= 57) (i ++ f) /\ (i = [48] \/ nth 0 i 48 <> 48) /\ Z.of_nat (length f) = p /\
    numeral_value 10 (i ++ f) = N /\
    out = field v true (sign_text v (negative binary64 bits)) (i ++ (if negb (p =? 0) || hash v then [46] else []) ++ f).
(** The correct rounding to nearest, ties to even. *)
Definition fixed_correct (bits p : Z) : Z := rne (fnum bits p) (fden bits).
(** The scaled value is not within 2^-49 of a tie that it does not hit. *)
Definition not_near_tie (bits p : Z) : Prop :=
  let r := 2 * (fnum bits p mod fden bits) in r = fden bits \/ fden bits < 2^48 * Z.abs (r - fden bits).
(** The scaled value is not within 1/20 of a tie that it does not hit. *)
Definition not_near_tie20 (bits p : Z) : Prop :=
  let r := 2 * (fnum bits p mod fden bits) in r = fden bits \/ fden bits < 10 * Z.abs (r - fden bits).
