(** Rounding to integers: C66, C67, C93. *)
From Coq Require Import Reals Lra.
From Flocq Require Import Core BinarySingleNaN.
From Verif Require Import Base Bits FP HW FPInt FPOps Math_Model Math_Spec Math_Round_Proof Math_Int_Proof Math_Lround_Proof Math_Conv_Proof Math_Lconv_Proof.
Open Scope Z_scope.
Notation F4 f := (f 23 8 eq_refl eq_refl eq_refl eq_refl) (only parsing).

(** ** C66 floor, ceil, trunc *)
Theorem C66_floor : forall x, fbits 52 11 x ->
  exists r, floor_ 52 11 eq_refl eq_refl x = Ok r /\ rounded 52 11 Zfloor x r.
Proof. intros x Hx. exact (D4 floor_ok x Hx). Qed.
Print Assumptions C66_floor.
Theorem C66_floorf : forall x, fbits 23 8 x ->
  exists r, floor_ 23 8 eq_refl eq_refl x = Ok r /\ rounded 23 8 Zfloor x r.
Proof. intros x Hx. exact (F4 floor_ok x Hx). Qed.
Print Assumptions C66_floorf.
Theorem C66_ceil : forall x, fbits 52 11 x ->
  exists r, ceil_ 52 11 eq_refl eq_refl x = Ok r /\ rounded 52 11 Zceil x r.
Proof. intros x Hx. exact (D4 ceil_ok x Hx). Qed.
Print Assumptions C66_ceil.
Theorem C66_ceilf : forall x, fbits 23 8 x ->
  exists r, ceil_ 23 8 eq_refl eq_refl x = Ok r /\ rounded 23 8 Zceil x r.
Proof. intros x Hx. exact (F4 ceil_ok x Hx). Qed.
Print Assumptions C66_ceilf.
Theorem C66_trunc : forall x, fbits 52 11 x ->
  exists r, trunc_ 52 11 x = Ok r /\ rounded 52 11 Ztrunc x r.
Proof. intros x Hx. exact (D4 trunc_ok x Hx). Qed.
Print Assumptions C66_trunc.
Theorem C66_truncf : forall x, fbits 23 8 x ->
  exists r, trunc_ 23 8 x = Ok r /\ rounded 23 8 Ztrunc x r.
Proof. intros x Hx. exact (F4 trunc_ok x Hx). Qed.
Print Assumptions C66_truncf.
(* floor(-2.5) = -3, ceil(-0.5) = -0, trunc(-0.0) = -0.0 *)
Example C66_ex : fbits 52 11 0xC004000000000000 /\ ffinite 52 11 0xC004000000000000 = true /\
  floor_ 52 11 eq_refl eq_refl 0xC004000000000000 = Ok 0xC008000000000000 /\
  ceil_ 52 11 eq_refl eq_refl 0xBFE0000000000000 = Ok 0x8000000000000000 /\
  trunc_ 52 11 0x8000000000000000 = Ok 0x8000000000000000.
Proof. repeat split; vm_compute; congruence. Qed.

(** ** C67 round, lround, llround *)
Theorem C67_round : forall x, fbits 52 11 x -> ffinite 52 11 x = true ->
  rounded 52 11 half_away x (round_ 52 11 eq_refl eq_refl eq_refl x).
Proof. intros x Hx F. exact (D4 round_ok x Hx F). Qed.
Print Assumptions C67_round.
Theorem C67_roundf : forall x, fbits 23 8 x -> ffinite 23 8 x = true -> rounded 23 8 half_away x (roundf x).
Proof. intros x Hx F. exact (roundf_ok x Hx F). Qed.
Print Assumptions C67_roundf.
(** values beyond the type saturate *)
Theorem C67_llround : forall x, fbits 52 11 x -> ffinite 52 11 x = true ->
  llround x = Ok (saturate 64 (half_away (fval 52 11 x))).
Proof. exact llround_ok. Qed.
Print Assumptions C67_llround.
Theorem C67_lroundf : forall x, fbits 23 8 x -> ffinite 23 8 x = true ->
  lroundf 32 x = Ok (saturate 32 (half_away (fval 23 8 x))) /\ lroundf 64 x = Ok (saturate 64 (half_away (fval 23 8 x))).
Proof. intros x Hx F. split; apply lroundf_ok; try assumption; [exact bounds_d32|exact bounds_d64]. Qed.
Print Assumptions C67_lroundf.
(** lround: every argument but the two doubles next to +-1/2 *)
Theorem C67_lround_partial : forall x, fbits 52 11 x -> ffinite 52 11 x = true -> fabsb 52 11 x <> 0x3FDFFFFFFFFFFFFF ->
  lround x = Ok (saturate 32 (half_away (fval 52 11 x))).
Proof. exact lround_ok. Qed.
Print Assumptions C67_lround_partial.
Theorem C67_lround_refuted : exists x, fbits 52 11 x /\ ffinite 52 11 x = true /\ lround x = Ok 1 /\ half_away (fval 52 11 x) = 0.
Proof.
  exists 0x3FDFFFFFFFFFFFFF. split; [vm_compute; split; congruence|]. split; [reflexivity|]. split; [vm_compute; reflexivity|].
  rewrite (D4 half_away_half). vm_compute. reflexivity.
Qed.
Print Assumptions C67_lround_refuted.
(* 2.5 rounds to 3, -2.5 to -3, 8388609 (float, 2^23 + 1) to itself *)
Example C67_ex : fbits 52 11 0xC004000000000000 /\ ffinite 52 11 0xC004000000000000 = true /\ fabsb 52 11 0xC004000000000000 <> 0x3FDFFFFFFFFFFFFF /\
  lround 0xC004000000000000 = Ok (-3) /\ llround 0x4004000000000000 = Ok 3 /\ lroundf 32 0x4B000001 = Ok 8388609 /\
  roundf 0x4B000001 = 0x4B000001.
Proof. repeat split; vm_compute; congruence. Qed.

(** ** C93 rint, lrint, llrint *)
Theorem C93_rint : forall x, fbits 52 11 x -> rounded 52 11 ZnearestE x (rint_ 52 11 eq_refl eq_refl eq_refl x).
Proof. intros x Hx. exact (D4 rint_ok x Hx). Qed.
Print Assumptions C93_rint.
Theorem C93_rintf : forall x, fbits 23 8 x -> rounded 23 8 ZnearestE x (rint_ 23 8 eq_refl eq_refl eq_refl x).
Proof. intros x Hx. exact (F4 rint_ok x Hx). Qed.
Print Assumptions C93_rintf.
(** [w] = 32: lrint; [w] = 64: llrint *)
Theorem C93_lrint : forall w x, w = 32 \/ w = 64 -> fbits 52 11 x ->
  lrint 52 11 eq_refl eq_refl eq_refl w x =
    Ok (if ffinite 52 11 x then saturate w (ZnearestE (fval 52 11 x))
        else if fisnan 52 11 x || fneg 52 11 x then - 2^(w-1) else 2^(w-1) - 1).
Proof. intros w x [-> | ->] Hx; apply (D4 lrint_ok); try assumption; [exact bounds_d32|exact bounds_d64]. Qed.
Print Assumptions C93_lrint.
Theorem C93_lrintf : forall w x, w = 32 \/ w = 64 -> fbits 23 8 x ->
  lrint 23 8 eq_refl eq_refl eq_refl w x =
    Ok (if ffinite 23 8 x then saturate w (ZnearestE (fval 23 8 x))
        else if fisnan 23 8 x || fneg 23 8 x then - 2^(w-1) else 2^(w-1) - 1).
Proof. intros w x [-> | ->] Hx; apply (F4 lrint_ok); try assumption; [exact bounds_f32|exact bounds_f64]. Qed.
Print Assumptions C93_lrintf.
(** the portable rint gives what the rounding instruction gives *)
Theorem C93_rint_instruction : forall x, fbits 52 11 x -> fisnan 52 11 x = false ->
  rint_ 52 11 eq_refl eq_refl eq_refl x = brint 52 11 eq_refl eq_refl eq_refl x.
Proof.
  intros x Hx HN. destruct (D4 rint_ok x Hx) as (A1 & A2 & A3). destruct (D4 hround_ok mode_NE x Hx) as (B1 & _ & B2 & B3).
  destruct (ffinite 52 11 x) eqn:F.
  - destruct (A3 eq_refl) as (A4 & A5 & A6). destruct (B3 eq_refl) as (B4 & B5 & B6).
    apply (pattern_eq 52 11 eq_refl eq_refl); try assumption; unfold brint; [congruence|]. rewrite A6, B6. reflexivity.
  - rewrite (A2 eq_refl). symmetry. apply B2. unfold ffinite, fisnan, fisinf in *. lia.
Qed.
Print Assumptions C93_rint_instruction.
(* 2.5 and 1.5 round to 2; -0.5 rounds to -0; 1e300 saturates *)
Example C93_ex : fbits 52 11 0x4004000000000000 /\ rint_ 52 11 eq_refl eq_refl eq_refl 0x4004000000000000 = 0x4000000000000000 /\
  rint_ 52 11 eq_refl eq_refl eq_refl 0x3FF8000000000000 = 0x4000000000000000 /\
  rint_ 52 11 eq_refl eq_refl eq_refl 0xBFE0000000000000 = 0x8000000000000000 /\
  lrint 52 11 eq_refl eq_refl eq_refl 32 0x7E37E43C8800759C = Ok (2^31 - 1).
Proof. repeat split; vm_compute; congruence. Qed.
