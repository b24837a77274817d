(** C119: cbrtf against the real cube root. *)
From Coq Require Import Reals Lra Lia QArith Qreals.
From Flocq Require Import Core.
From Verif Require Import Base FP FP_Proof HW HW_Proof Math_Model Hypotf_Real Hypotf_Proof Ferr Elem_Spec Elem_Proof Expf_Model Expf_Proof Cbrtf_Model Cbrtf_Proof.
Open Scope Z_scope.
Local Ltac Zify.zify_post_hook ::= idtac.

(** For every nonzero finite float x, subnormal or normal, and the real c with
    c^3 = x the result is the float nearest to a real number whose relative
    distance to c is below 2^-46. *)
Theorem C119_cbrtf_nearly_rounded x c : fbits 23 8 x -> ffinite 23 8 x = true -> fval 23 8 x <> 0%R -> (c * (c * c) = fval 23 8 x)%R ->
  exists b, cbrtf x = Ok b /\ nearly_rounded 46 c b.
Proof. exact (cbrtf_ok x c). Qed.
Print Assumptions C119_cbrtf_nearly_rounded.
(** No float lies strictly between the result and the cube root. *)
Theorem C119_cbrtf_faithful x c : fbits 23 8 x -> ffinite 23 8 x = true -> fval 23 8 x <> 0%R -> (c * (c * c) = fval 23 8 x)%R ->
  exists b, cbrtf x = Ok b /\ faithful c b.
Proof. intros H F N C. destruct (cbrtf_ok x c H F N C) as (b & E & R). exists b. split; [exact E|]. apply (nearly_faithful 46); [lia|exact R]. Qed.
Print Assumptions C119_cbrtf_faithful.
(** The result is correctly rounded unless the cube root is within 2^-46 of the
    midpoint of two adjacent floats. *)
Theorem C119_cbrtf_correctly_rounded x c : fbits 23 8 x -> ffinite 23 8 x = true -> fval 23 8 x <> 0%R -> (c * (c * c) = fval 23 8 x)%R ->
  (forall n, 0 <= n -> (bpow radix2 (- (46)) * Rabs c < Rabs (Rabs c - midpoint n))%R) ->
  exists b, cbrtf x = Ok b /\ rounds_to 23 8 c (Rlt_bool c 0) b.
Proof. intros H F N C M. destruct (cbrtf_ok x c H F N C) as (b & E & R). exists b. split; [exact E|]. apply (nearly_correct 46); [lia|exact R|exact M]. Qed.
Print Assumptions C119_cbrtf_correctly_rounded.
(** If the cube root is itself a float, the result is that float. *)
Theorem C119_cbrtf_exact x c : fbits 23 8 x -> ffinite 23 8 x = true -> fbits 23 8 c -> ffinite 23 8 c = true -> fval 23 8 c <> 0%R ->
  (fval 23 8 x = fval 23 8 c * fval 23 8 c * fval 23 8 c)%R -> exists b, cbrtf x = Ok b /\ ffinite 23 8 b = true /\ fval 23 8 b = fval 23 8 c.
Proof.
  intros Hx Fx Hc Fc N E. assert (E' : (fval 23 8 c * (fval 23 8 c * fval 23 8 c) = fval 23 8 x)%R) by (rewrite E; ring).
  assert (NX : fval 23 8 x <> 0%R) by (rewrite E; repeat apply Rmult_integral_contrapositive_currified; exact N).
  destruct (C119_cbrtf_faithful x _ Hx Fx NX E') as (b & B & (F1 & F2 & F3 & F4)). exists b. split; [exact B|].
  destruct (ffinite 23 8 b) eqn:FB.
  - split; [reflexivity|]. destruct (F3 eq_refl c Hc Fc) as [K1 K2]. destruct (Rtotal_order (fval 23 8 b) (fval 23 8 c)) as [L|[L|L]]; [exfalso; apply K1; lra|exact L|exfalso; apply K2; lra].
  - exfalso. pose proof (F4 eq_refl c Hc Fc). lra.
Qed.
Print Assumptions C119_cbrtf_exact.
(** Zeros, infinities and NaNs are returned unchanged. *)
Theorem C119_cbrtf_special x : fbits 23 8 x -> fabsb 23 8 x = 0 \/ 0x7F800000 <= fabsb 23 8 x -> cbrtf x = Ok x.
Proof.
  intros H S. assert (R : 0 <= fabsb 23 8 x < 2^(23+8)) by (apply Z.mod_pos_bound; reflexivity). change (2^(23+8)) with 0x80000000 in R. unfold cbrtf, cbrt_kernel_.
  rewrite sgn_id by (try reflexivity; change (2^(32-1)) with 2147483648; lia).
  replace ((fabsb 23 8 x =? 0) || (0x7F800000 <=? fabsb 23 8 x))%bool with true by (symmetry; apply Bool.orb_true_iff; destruct S; [left; apply Z.eqb_eq|right; apply Z.leb_le]; assumption).
  cbn [bind]. f_equal. unfold copysign, with_sign, fneg, fabsb in *. change (2^(23+8)) with 0x80000000 in *. rewrite Z.mod_mod by lia.
  unfold fbits in H. change (2^(23+8+1)) with 0x100000000 in H. pose proof (Z.div_mod x 0x80000000 ltac:(lia)). destruct (Z.leb_spec 0x80000000 x); [|apply Z.mod_small; lia].
  assert (x / 0x80000000 = 1) by (symmetry; apply (Z.div_unique _ _ _ (x - 0x80000000)); lia). lia.
Qed.
Print Assumptions C119_cbrtf_special.
(** hypotheses met: x = -27 has the float cube root -3; the smallest subnormal has
    the cube root 2^(-149/3); zero, infinity and NaN *)
Example C119_ex : cbrtf 0xC1D80000 = Ok 0xC0400000 /\ cbrtf 1 = Ok 0x26A14518 /\ cbrtf 0x80000000 = Ok 0x80000000 /\ cbrtf 0xFF800000 = Ok 0xFF800000 /\ cbrtf 0x7FC00000 = Ok 0x7FC00000.
Proof. repeat split; vm_compute; reflexivity. Qed.
Example C119_ex2 : fbits 23 8 0xC1D80000 /\ ffinite 23 8 0xC1D80000 = true /\ fval 23 8 0xC1D80000 = (-27)%R /\ ((-3) * ((-3) * (-3)) = fval 23 8 0xC1D80000)%R.
Proof.
  assert (B : fbits 23 8 0xC1D80000) by (split; [lia|reflexivity]). split; [exact B|]. split; [reflexivity|].
  assert (V : fval 23 8 0xC1D80000 = (-27)%R). { rewrite fval32_q by first [exact B|reflexivity]. replace (qval (f2d 0xC1D80000)) with (-27)%Q by (vm_compute; reflexivity). unfold Q2R. cbn [Qnum Qden]. lra. }
  split; [exact V|rewrite V; lra].
Qed.
