(** C105: hypotf is correctly rounded. *)
From Coq Require Import Reals Lra.
From Flocq Require Import Core.
From Verif Require Import Base FP FP_Proof Hypotf_Model Hypotf_Proof.
Open Scope Z_scope.

(** [r] is the float nearest to the length of the hypotenuse (ties to even), +infinity when that exceeds the range *)
Definition nearest_hypotenuse (x y r : Z) : Prop :=
  rounds_to 23 8 (sqrt (fval 23 8 x * fval 23 8 x + fval 23 8 y * fval 23 8 y)) false r.

Theorem C105_hypotf x y : fbits 23 8 x -> fbits 23 8 y -> ffinite 23 8 x = true -> ffinite 23 8 y = true ->
  exists r, hypotf x y = Ok r /\ nearest_hypotenuse x y r.
Proof. exact (hypotf_ok x y). Qed.
Print Assumptions C105_hypotf.

(** an infinite argument wins over any other, a NaN included *)
Theorem C105_hypotf_infinite x y : fbits 23 8 x -> fbits 23 8 y -> fisinf 23 8 x = true \/ fisinf 23 8 y = true ->
  hypotf x y = Ok 0x7F800000.
Proof. exact (hypotf_inf x y). Qed.
Print Assumptions C105_hypotf_infinite.

Theorem C105_hypotf_nan x y : fbits 23 8 x -> fbits 23 8 y -> fisnan 23 8 x = true \/ fisnan 23 8 y = true ->
  fisinf 23 8 x = false -> fisinf 23 8 y = false -> exists r, hypotf x y = Ok r /\ fisnan 23 8 r = true.
Proof. exact (hypotf_nan x y). Qed.
Print Assumptions C105_hypotf_nan.

(** 3, -4 -> 5 *)
Example C105_ex : fbits 23 8 0x40400000 /\ ffinite 23 8 0xC0800000 = true /\ hypotf 0x40400000 0xC0800000 = Ok 0x40A00000.
Proof. split; [split; [discriminate|reflexivity]|]. split; vm_compute; reflexivity. Qed.
(** the double root of these two lies on a midpoint of floats, and rounding it goes the wrong way *)
Example C105_ex_twice : ffinite 23 8 0x4B017627 = true /\ hypotf 0x4B017627 0x45CB89B7 = Ok 0x4B017629 /\ hypotf 0x4B022BC3 0x45368C48 = Ok 0x4B022BC3.
Proof. split; [reflexivity|]. split; vm_compute; reflexivity. Qed.
(** an infinity with a NaN *)
Example C105_ex_inf : fisinf 23 8 0xFF800000 = true /\ fisnan 23 8 0x7FC00000 = true /\ hypotf 0x7FC00000 0xFF800000 = Ok 0x7F800000.
Proof. repeat split. Qed.
Example C105_ex_nan : fisnan 23 8 0x7FC00000 = true /\ fisinf 23 8 0x3F800000 = false.
Proof. repeat split. Qed.
