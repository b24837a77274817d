(** C115 to C118: expm1f and the hyperbolic functions coshf, sinhf and tanhf,
    against exp, cosh, sinh and tanh of Coq's real numbers. *)
From Coq Require Import Reals Lra Lia QArith Qreals.
From Flocq Require Import Core.
From Verif Require Import Base FP FP_Proof HW HW_Proof Math_Model Hypotf_Real Hypotf_Proof Ferr Elem_Spec Elem_Proof Expf_Model Expf_Proof Hyperf_Model Hyperf_Proof Hyperf2_Proof Hyperf3_Proof.
Open Scope Z_scope.
Local Ltac Zify.zify_post_hook ::= idtac.

(** ** expm1f *)
(** For every finite float x other than 0 the result is the float nearest to a real
    number whose relative distance to e^x - 1 is below 2^-45. *)
Theorem C115_expm1f_nearly_rounded x : fbits 23 8 x -> ffinite 23 8 x = true -> fval 23 8 x <> 0%R ->
  exists b, expm1f x = Ok b /\ nearly_rounded 45 (exp (fval 23 8 x) - 1) b.
Proof. exact (expm1f_ok x). Qed.
Print Assumptions C115_expm1f_nearly_rounded.
(** No float lies strictly between the result and e^x - 1, and the result is
    infinite only if e^x - 1 exceeds every float. *)
Theorem C115_expm1f_faithful x : fbits 23 8 x -> ffinite 23 8 x = true -> fval 23 8 x <> 0%R ->
  exists b, expm1f x = Ok b /\ faithful (exp (fval 23 8 x) - 1) b.
Proof. intros H F N. destruct (expm1f_ok x H F N) as (b & E & R). exists b. split; [exact E|]. apply (nearly_faithful 45); [lia|exact R]. Qed.
Print Assumptions C115_expm1f_faithful.
(** The result is correctly rounded unless e^x - 1 is within 2^-45 of the
    midpoint of two adjacent floats. *)
Theorem C115_expm1f_correctly_rounded x : fbits 23 8 x -> ffinite 23 8 x = true -> fval 23 8 x <> 0%R ->
  let v := (exp (fval 23 8 x) - 1)%R in (forall n, 0 <= n -> (bpow radix2 (- (45)) * Rabs v < Rabs (Rabs v - midpoint n))%R) ->
  exists b, expm1f x = Ok b /\ rounds_to 23 8 v (Rlt_bool v 0) b.
Proof. intros H F N v M. destruct (expm1f_ok x H F N) as (b & E & R). exists b. split; [exact E|]. apply (nearly_correct 45); [lia|exact R|exact M]. Qed.
Print Assumptions C115_expm1f_correctly_rounded.
(** Zeros keep their sign; expm1(+inf) = +inf and expm1(-inf) = -1. *)
Theorem C115_expm1f_special : expm1f 0 = Ok 0 /\ expm1f 0x80000000 = Ok 0x80000000 /\ expm1f 0x7F800000 = Ok 0x7F800000 /\ expm1f 0xFF800000 = Ok 0xBF800000.
Proof. repeat split; vm_compute; reflexivity. Qed.
Print Assumptions C115_expm1f_special.
(** A NaN argument should give a NaN; the code converts it to int64_t, which is
    undefined. *)
Theorem C115_expm1f_nan_refuted : exists x, fbits 23 8 x /\ fisnan 23 8 x = true /\ expm1f x = UB.
Proof. exists 0x7FC00000. split; [split; [lia|reflexivity]|]. split; vm_compute; reflexivity. Qed.
Print Assumptions C115_expm1f_nan_refuted.
(** hypotheses met: x = 1, the smallest float and x = -1 *)
Example C115_ex : expm1f 0x3F800000 = Ok 0x3FDBF0A9 /\ expm1f 1 = Ok 1 /\ expm1f 0xBF800000 = Ok 0xBF21D2A7 /\ fbits 23 8 0xBF800000 /\ ffinite 23 8 0xBF800000 = true /\ fval 23 8 0xBF800000 = (-1)%R.
Proof.
  assert (B : fbits 23 8 0xBF800000) by (split; [lia|reflexivity]). repeat (split; [vm_compute; reflexivity|]). split; [exact B|]. split; [reflexivity|].
  rewrite fval32_q by first [exact B|reflexivity]. replace (qval (f2d 0xBF800000)) with (-1)%Q by (vm_compute; reflexivity). unfold Q2R. cbn [Qnum Qden]. lra.
Qed.

(** ** coshf *)
(** For every finite float x the result is the float nearest to a real
    number whose relative distance to cosh x is below 2^-45. *)
Theorem C116_coshf_nearly_rounded x : fbits 23 8 x -> ffinite 23 8 x = true ->
  exists b, coshf x = Ok b /\ nearly_rounded 45 (cosh (fval 23 8 x)) b.
Proof. exact (coshf_ok x). Qed.
Print Assumptions C116_coshf_nearly_rounded.
(** No float lies strictly between the result and cosh x, and the result is
    infinite only if cosh x exceeds every float. *)
Theorem C116_coshf_faithful x : fbits 23 8 x -> ffinite 23 8 x = true ->
  exists b, coshf x = Ok b /\ faithful (cosh (fval 23 8 x)) b.
Proof. intros H F. destruct (coshf_ok x H F) as (b & E & R). exists b. split; [exact E|]. apply (nearly_faithful 45); [lia|exact R]. Qed.
Print Assumptions C116_coshf_faithful.
(** The result is correctly rounded unless cosh x is within 2^-45 of the
    midpoint of two adjacent floats. *)
Theorem C116_coshf_correctly_rounded x : fbits 23 8 x -> ffinite 23 8 x = true ->
  let v := (cosh (fval 23 8 x))%R in (forall n, 0 <= n -> (bpow radix2 (- (45)) * Rabs v < Rabs (Rabs v - midpoint n))%R) ->
  exists b, coshf x = Ok b /\ rounds_to 23 8 v (Rlt_bool v 0) b.
Proof. intros H F v M. destruct (coshf_ok x H F) as (b & E & R). exists b. split; [exact E|]. apply (nearly_correct 45); [lia|exact R|exact M]. Qed.
Print Assumptions C116_coshf_correctly_rounded.
(** cosh(0) = 1 and cosh(+-inf) = +inf. *)
Theorem C116_coshf_special : coshf 0 = Ok 0x3F800000 /\ coshf 0x80000000 = Ok 0x3F800000 /\ coshf 0x7F800000 = Ok 0x7F800000 /\ coshf 0xFF800000 = Ok 0x7F800000.
Proof. repeat split; vm_compute; reflexivity. Qed.
Print Assumptions C116_coshf_special.
(** A NaN argument should give a NaN; the code converts it to int64_t, which is
    undefined. *)
Theorem C116_coshf_nan_refuted : exists x, fbits 23 8 x /\ fisnan 23 8 x = true /\ coshf x = UB.
Proof. exists 0x7FC00000. split; [split; [lia|reflexivity]|]. split; vm_compute; reflexivity. Qed.
Print Assumptions C116_coshf_nan_refuted.
(** hypotheses met: x = 1, x = -1 and x = -90 *)
Example C116_ex : coshf 0x3F800000 = Ok 1069908907 /\ coshf 0xBF800000 = Ok 1069908907 /\ coshf 0xC2B40000 = Ok 0x7F800000 /\ fbits 23 8 0xBF800000 /\ ffinite 23 8 0xBF800000 = true /\ fval 23 8 0xBF800000 = (-1)%R.
Proof.
  assert (B : fbits 23 8 0xBF800000) by (split; [lia|reflexivity]). repeat (split; [vm_compute; reflexivity|]). split; [exact B|]. split; [reflexivity|].
  rewrite fval32_q by first [exact B|reflexivity]. replace (qval (f2d 0xBF800000)) with (-1)%Q by (vm_compute; reflexivity). unfold Q2R. cbn [Qnum Qden]. lra.
Qed.

(** ** sinhf *)
(** For every finite float x other than 0 the result is the float nearest to a real
    number whose relative distance to sinh x is below 2^-44. *)
Theorem C117_sinhf_nearly_rounded x : fbits 23 8 x -> ffinite 23 8 x = true -> fval 23 8 x <> 0%R ->
  exists b, sinhf x = Ok b /\ nearly_rounded 44 (sinh (fval 23 8 x)) b.
Proof. exact (sinhf_ok x). Qed.
Print Assumptions C117_sinhf_nearly_rounded.
(** No float lies strictly between the result and sinh x, and the result is
    infinite only if sinh x exceeds every float. *)
Theorem C117_sinhf_faithful x : fbits 23 8 x -> ffinite 23 8 x = true -> fval 23 8 x <> 0%R ->
  exists b, sinhf x = Ok b /\ faithful (sinh (fval 23 8 x)) b.
Proof. intros H F N. destruct (sinhf_ok x H F N) as (b & E & R). exists b. split; [exact E|]. apply (nearly_faithful 44); [lia|exact R]. Qed.
Print Assumptions C117_sinhf_faithful.
(** The result is correctly rounded unless sinh x is within 2^-44 of the
    midpoint of two adjacent floats. *)
Theorem C117_sinhf_correctly_rounded x : fbits 23 8 x -> ffinite 23 8 x = true -> fval 23 8 x <> 0%R ->
  let v := (sinh (fval 23 8 x))%R in (forall n, 0 <= n -> (bpow radix2 (- (44)) * Rabs v < Rabs (Rabs v - midpoint n))%R) ->
  exists b, sinhf x = Ok b /\ rounds_to 23 8 v (Rlt_bool v 0) b.
Proof. intros H F N v M. destruct (sinhf_ok x H F N) as (b & E & R). exists b. split; [exact E|]. apply (nearly_correct 44); [lia|exact R|exact M]. Qed.
Print Assumptions C117_sinhf_correctly_rounded.
(** Zeros and infinities are returned unchanged. *)
Theorem C117_sinhf_special : sinhf 0 = Ok 0 /\ sinhf 0x80000000 = Ok 0x80000000 /\ sinhf 0x7F800000 = Ok 0x7F800000 /\ sinhf 0xFF800000 = Ok 0xFF800000.
Proof. repeat split; vm_compute; reflexivity. Qed.
Print Assumptions C117_sinhf_special.
(** A NaN argument should give a NaN; the code converts it to int64_t, which is
    undefined. *)
Theorem C117_sinhf_nan_refuted : exists x, fbits 23 8 x /\ fisnan 23 8 x = true /\ sinhf x = UB.
Proof. exists 0x7FC00000. split; [split; [lia|reflexivity]|]. split; vm_compute; reflexivity. Qed.
Print Assumptions C117_sinhf_nan_refuted.
(** hypotheses met: x = -1, the smallest float and x = -90 *)
Example C117_ex : sinhf 0xBF800000 = Ok 3214306558 /\ sinhf 1 = Ok 1 /\ sinhf 0xC2B40000 = Ok 0xFF800000 /\ fbits 23 8 0xBF800000 /\ ffinite 23 8 0xBF800000 = true /\ fval 23 8 0xBF800000 = (-1)%R.
Proof.
  assert (B : fbits 23 8 0xBF800000) by (split; [lia|reflexivity]). repeat (split; [vm_compute; reflexivity|]). split; [exact B|]. split; [reflexivity|].
  rewrite fval32_q by first [exact B|reflexivity]. replace (qval (f2d 0xBF800000)) with (-1)%Q by (vm_compute; reflexivity). unfold Q2R. cbn [Qnum Qden]. lra.
Qed.

(** ** tanhf *)
(** For every finite float x other than 0 the result is the float nearest to a real
    number whose relative distance to tanh x is below 2^-45. *)
Theorem C118_tanhf_nearly_rounded x : fbits 23 8 x -> ffinite 23 8 x = true -> fval 23 8 x <> 0%R ->
  exists b, tanhf x = Ok b /\ nearly_rounded 45 (tanh (fval 23 8 x)) b.
Proof. exact (tanhf_ok x). Qed.
Print Assumptions C118_tanhf_nearly_rounded.
(** No float lies strictly between the result and tanh x, and the result is
    infinite only if tanh x exceeds every float. *)
Theorem C118_tanhf_faithful x : fbits 23 8 x -> ffinite 23 8 x = true -> fval 23 8 x <> 0%R ->
  exists b, tanhf x = Ok b /\ faithful (tanh (fval 23 8 x)) b.
Proof. intros H F N. destruct (tanhf_ok x H F N) as (b & E & R). exists b. split; [exact E|]. apply (nearly_faithful 45); [lia|exact R]. Qed.
Print Assumptions C118_tanhf_faithful.
(** The result is correctly rounded unless tanh x is within 2^-45 of the
    midpoint of two adjacent floats. *)
Theorem C118_tanhf_correctly_rounded x : fbits 23 8 x -> ffinite 23 8 x = true -> fval 23 8 x <> 0%R ->
  let v := (tanh (fval 23 8 x))%R in (forall n, 0 <= n -> (bpow radix2 (- (45)) * Rabs v < Rabs (Rabs v - midpoint n))%R) ->
  exists b, tanhf x = Ok b /\ rounds_to 23 8 v (Rlt_bool v 0) b.
Proof. intros H F N v M. destruct (tanhf_ok x H F N) as (b & E & R). exists b. split; [exact E|]. apply (nearly_correct 45); [lia|exact R|exact M]. Qed.
Print Assumptions C118_tanhf_correctly_rounded.
(** Zeros keep their sign; tanh(+-inf) = +-1. *)
Theorem C118_tanhf_special : tanhf 0 = Ok 0 /\ tanhf 0x80000000 = Ok 0x80000000 /\ tanhf 0x7F800000 = Ok 0x3F800000 /\ tanhf 0xFF800000 = Ok 0xBF800000.
Proof. repeat split; vm_compute; reflexivity. Qed.
Print Assumptions C118_tanhf_special.
(** A NaN argument should give a NaN; the code converts it to int64_t, which is
    undefined. *)
Theorem C118_tanhf_nan_refuted : exists x, fbits 23 8 x /\ fisnan 23 8 x = true /\ tanhf x = UB.
Proof. exists 0x7FC00000. split; [split; [lia|reflexivity]|]. split; vm_compute; reflexivity. Qed.
Print Assumptions C118_tanhf_nan_refuted.
(** hypotheses met: x = -1, the smallest float and x = -90 *)
Example C118_ex : tanhf 0xBF800000 = Ok 3208837078 /\ tanhf 1 = Ok 1 /\ tanhf 0xC2B40000 = Ok 0xBF800000 /\ fbits 23 8 0xBF800000 /\ ffinite 23 8 0xBF800000 = true /\ fval 23 8 0xBF800000 = (-1)%R.
Proof.
  assert (B : fbits 23 8 0xBF800000) by (split; [lia|reflexivity]). repeat (split; [vm_compute; reflexivity|]). split; [exact B|]. split; [reflexivity|].
  rewrite fval32_q by first [exact B|reflexivity]. replace (qval (f2d 0xBF800000)) with (-1)%Q by (vm_compute; reflexivity). unfold Q2R. cbn [Qnum Qden]. lra.
Qed.
