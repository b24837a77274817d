(** C106 and C107: the single-precision exponentials expf and exp2f. *)
From Coq Require Import Reals Lra Lia.
From Flocq Require Import Core.
From Verif Require Import Base FP FP_Proof HW HW_Proof Hypotf_Real Elem_Spec Elem_Proof Expf_Model Expf_Proof.
Open Scope Z_scope.
Local Ltac Zify.zify_post_hook ::= idtac.

(** For every finite float x the function returns, and the result is the float
    nearest to a real number whose relative distance to e^x is below 2^-50. *)
Theorem C106_expf_nearly_rounded x : fbits 23 8 x -> ffinite 23 8 x = true ->
  exists b, expf x = Ok b /\ nearly_rounded 50 (exp (fval 23 8 x)) b.
Proof. exact (expf_ok x). Qed.
Print Assumptions C106_expf_nearly_rounded.

(** No float lies strictly between the result and e^x, and the result is
    infinite only if e^x exceeds every float. *)
Theorem C106_expf_faithful x : fbits 23 8 x -> ffinite 23 8 x = true ->
  exists b, expf x = Ok b /\ faithful (exp (fval 23 8 x)) b.
Proof.
  intros H F. destruct (expf_ok x H F) as (b & E & N). exists b. split; [exact E|]. apply (nearly_faithful 50); [lia|exact N].
Qed.
Print Assumptions C106_expf_faithful.

(** The result is correctly rounded unless e^x is within 2^-50 of the midpoint
    of two adjacent floats. *)
Theorem C106_expf_correctly_rounded x : fbits 23 8 x -> ffinite 23 8 x = true ->
  (forall n, 0 <= n -> (bpow radix2 (- (50)) * exp (fval 23 8 x) < Rabs (exp (fval 23 8 x) - midpoint n))%R) ->
  exists b, expf x = Ok b /\ rounds_to 23 8 (exp (fval 23 8 x)) false b.
Proof.
  intros H F M. destruct (expf_ok x H F) as (b & E & N). exists b. split; [exact E|]. pose proof (exp_pos (fval 23 8 x)) as P.
  rewrite <- (Rlt_bool_false (exp (fval 23 8 x)) 0) by lra. apply (nearly_correct 50); [lia|exact N|]. rewrite Rabs_pos_eq by lra. exact M.
Qed.
Print Assumptions C106_expf_correctly_rounded.

(** e^(-inf) = +0 and e^(+inf) = +inf. *)
Theorem C106_expf_infinities : expf 0xFF800000 = Ok 0 /\ expf 0x7F800000 = Ok 0x7F800000.
Proof. split; vm_compute; reflexivity. Qed.
Print Assumptions C106_expf_infinities.

(** A NaN argument should give a NaN; the code converts it to int64_t, which is
    undefined. *)
Theorem C106_expf_nan_refuted : exists x, fbits 23 8 x /\ fisnan 23 8 x = true /\ expf x = UB.
Proof. exists 0x7FC00000. split; [split; [lia|reflexivity]|]. split; vm_compute; reflexivity. Qed.
Print Assumptions C106_expf_nan_refuted.

(** hypotheses met: x = 1, with the result 0x1.5bf0a8p+1 *)
Example C106_ex : fbits 23 8 0x3F800000 /\ ffinite 23 8 0x3F800000 = true /\ expf 0x3F800000 = Ok 0x402DF854.
Proof. split; [split; [lia|reflexivity]|]. split; vm_compute; reflexivity. Qed.

Theorem C107_exp2f_nearly_rounded x : fbits 23 8 x -> ffinite 23 8 x = true ->
  exists b, exp2f x = Ok b /\ nearly_rounded 49 (Rpower 2 (fval 23 8 x)) b.
Proof. exact (exp2f_ok x). Qed.
Print Assumptions C107_exp2f_nearly_rounded.

Theorem C107_exp2f_faithful x : fbits 23 8 x -> ffinite 23 8 x = true ->
  exists b, exp2f x = Ok b /\ faithful (Rpower 2 (fval 23 8 x)) b.
Proof.
  intros H F. destruct (exp2f_ok x H F) as (b & E & N). exists b. split; [exact E|]. apply (nearly_faithful 49); [lia|exact N].
Qed.
Print Assumptions C107_exp2f_faithful.

Theorem C107_exp2f_correctly_rounded x : fbits 23 8 x -> ffinite 23 8 x = true ->
  (forall n, 0 <= n -> (bpow radix2 (- (49)) * Rpower 2 (fval 23 8 x) < Rabs (Rpower 2 (fval 23 8 x) - midpoint n))%R) ->
  exists b, exp2f x = Ok b /\ rounds_to 23 8 (Rpower 2 (fval 23 8 x)) false b.
Proof.
  intros H F M. destruct (exp2f_ok x H F) as (b & E & N). exists b. split; [exact E|].
  assert (P : (0 < Rpower 2 (fval 23 8 x))%R) by apply exp_pos.
  rewrite <- (Rlt_bool_false (Rpower 2 (fval 23 8 x)) 0) by lra. apply (nearly_correct 49); [lia|exact N|]. rewrite Rabs_pos_eq by lra. exact M.
Qed.
Print Assumptions C107_exp2f_correctly_rounded.

(** 2^n is exact for every integer n for which it is a float. *)
Theorem C107_exp2f_exact_powers x n : fbits 23 8 x -> ffinite 23 8 x = true -> fval 23 8 x = IZR n -> -149 <= n <= 127 ->
  exists b, exp2f x = Ok b /\ ffinite 23 8 b = true /\ fval 23 8 b = bpow radix2 n.
Proof.
  intros H F E Hn. destruct (C107_exp2f_faithful x H F) as (b & R & (B & NN & A & I)). exists b. split; [exact R|].
  assert (V : Rpower 2 (fval 23 8 x) = bpow radix2 n) by (unfold Rpower; rewrite E; apply exp_bpow). rewrite V in *.
  assert (G : F24 (bpow radix2 n)) by (apply generic_format_bpow; unfold FLT_exp; lia).
  destruct (F24_pattern n Hn) as (f & Hf & Ff & Ef).
  destruct (ffinite 23 8 b) eqn:FB.
  - split; [reflexivity|]. destruct (A eq_refl f Hf Ff) as [K1 K2]. rewrite Ef in *. apply Rle_antisym; apply Rnot_lt_le; intros K; [apply K2|apply K1]; lra.
  - exfalso. specialize (I eq_refl f Hf Ff). rewrite Ef in I. lra.
Qed.
Print Assumptions C107_exp2f_exact_powers.

Theorem C107_exp2f_infinities : exp2f 0xFF800000 = Ok 0 /\ exp2f 0x7F800000 = Ok 0x7F800000.
Proof. split; vm_compute; reflexivity. Qed.
Print Assumptions C107_exp2f_infinities.

Theorem C107_exp2f_nan_refuted : exists x, fbits 23 8 x /\ fisnan 23 8 x = true /\ exp2f x = UB.
Proof. exists 0x7FC00000. split; [split; [lia|reflexivity]|]. split; vm_compute; reflexivity. Qed.
Print Assumptions C107_exp2f_nan_refuted.

(** hypotheses met: x = 0.5, with the result 0x1.6a09e6p+0; x = -149 gives the
    smallest float *)
Example C107_ex : exp2f 0x3F000000 = Ok 0x3FB504F3 /\ exp2f 0xC3150000 = Ok 1 /\ ffinite 23 8 0xC3150000 = true /\ fbits 23 8 0xC3150000.
Proof. split; [vm_compute; reflexivity|]. split; [vm_compute; reflexivity|]. split; [reflexivity|split; [lia|reflexivity]]. Qed.
