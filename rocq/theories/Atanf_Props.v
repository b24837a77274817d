(** C120: atanf against atan of Coq's real numbers. *)
From Coq Require Import Reals Lra Lia QArith Qreals.
From Flocq Require Import Core.
From Verif Require Import Base FP FP_Proof HW HW_Proof Math_Model Hypotf_Model Hypotf_Real Hypotf_Proof Ferr Elem_Spec Elem_Proof Expf_Model Expf_Proof Atanf_Model Atanf_Proof.
Open Scope Z_scope.
Local Ltac Zify.zify_post_hook ::= idtac.

(** For every nonzero finite float x the result is the float nearest to a real
    number whose relative distance to atan x is below 2^-46. *)
Theorem C120_atanf_nearly_rounded x : fbits 23 8 x -> ffinite 23 8 x = true -> fval 23 8 x <> 0%R -> nearly_rounded 46 (atan (fval 23 8 x)) (atanf x).
Proof. exact (atanf_ok x). Qed.
Print Assumptions C120_atanf_nearly_rounded.
(** No float lies strictly between the result and atan x. *)
Theorem C120_atanf_faithful x : fbits 23 8 x -> ffinite 23 8 x = true -> fval 23 8 x <> 0%R -> faithful (atan (fval 23 8 x)) (atanf x).
Proof. intros H F N. apply (nearly_faithful 46); [lia|exact (atanf_ok x H F N)]. Qed.
Print Assumptions C120_atanf_faithful.
(** The result is correctly rounded unless atan x is within 2^-46 of the midpoint
    of two adjacent floats. *)
Theorem C120_atanf_correctly_rounded x : fbits 23 8 x -> ffinite 23 8 x = true -> fval 23 8 x <> 0%R ->
  let v := atan (fval 23 8 x) in (forall n, 0 <= n -> (bpow radix2 (- (46)) * Rabs v < Rabs (Rabs v - midpoint n))%R) -> rounds_to 23 8 v (Rlt_bool v 0) (atanf x).
Proof. intros H F N v M. apply (nearly_correct 46); [lia|exact (atanf_ok x H F N)|exact M]. Qed.
Print Assumptions C120_atanf_correctly_rounded.
(** atan(+-0) = +-0; atan(+-inf) is +-pi/2 rounded to nearest. *)
Theorem C120_atanf_special : atanf 0 = 0 /\ atanf 0x80000000 = 0x80000000 /\ atanf 0x7F800000 = 0x3FC90FDB /\ atanf 0xFF800000 = 0xBFC90FDB /\
  rounds_to 23 8 (PI / 2) false 0x3FC90FDB.
Proof.
  repeat (split; [vm_compute; reflexivity|]). apply exact_result; [lia|]. apply Rle_antisym.
  - eapply Rle_trans; [apply (RN24_le _ (fmag 23 8 0x3FC90FDB))|right; apply RN24_id, fmag_F24; lia].
    rewrite fmag32_q by lia. pose proof Atan_Num.pi_ok as P. apply Rabs_le_inv in P. assert (K : (Q2R (Atan_Num.pi_q * (1 # 2) + (1 # 1000000000000)) <= Q2R (qval (f2d 0x3FC90FDB)))%R) by (apply Approx.Q2R_le; vm_compute; reflexivity).
    rewrite Q2R_plus, Q2R_mult in K. replace (Q2R (1 # 2)) with (/ 2)%R in K by (unfold Q2R; cbn [Qnum Qden]; lra). replace (Q2R (1 # 1000000000000)) with (/ 1000000000000)%R in K by (unfold Q2R; cbn [Qnum Qden]; lra). lra.
  - change 0x3FC90FDB with (0x3FC90FDA + 1). apply RN24_ge_mid; [apply fmag_F24; lia|]. rewrite pred24_fmag by lia. rewrite !fmag32_q by lia.
    pose proof Atan_Num.pi_ok as P. apply Rabs_le_inv in P. assert (K : (Q2R ((qval (f2d 0x3FC90FDA) + qval (f2d (0x3FC90FDA + 1))) * (1 # 2) + (1 # 1000000000000)) <= Q2R (Atan_Num.pi_q * (1 # 2)))%R) by (apply Approx.Q2R_le; vm_compute; reflexivity).
    rewrite Q2R_plus, !Q2R_mult, Q2R_plus in K. replace (Q2R (1 # 2)) with (/ 2)%R in K by (unfold Q2R; cbn [Qnum Qden]; lra). replace (Q2R (1 # 1000000000000)) with (/ 1000000000000)%R in K by (unfold Q2R; cbn [Qnum Qden]; lra). lra.
Qed.
Print Assumptions C120_atanf_special.
(** A NaN argument gives a NaN. *)
Theorem C120_atanf_nan x : fbits 23 8 x -> fisnan 23 8 x = true -> fisnan 23 8 (atanf x) = true.
Proof.
  intros H N. unfold atanf, f2d. rewrite (hcvt_nan 23 8 52 11 eq_refl eq_refl eq_refl eq_refl eq_refl x H N). unfold lt32, hlt.
  replace (fisnan 23 8 (fabsb 23 8 x)) with true by (unfold fisnan, fabsb in *; rewrite Z.mod_mod by lia; symmetry; exact N). rewrite Bool.andb_false_r. cbn [andb]. vm_compute. reflexivity.
Qed.
Print Assumptions C120_atanf_nan.
(** hypotheses met: x = 1, x = -2 and the smallest float *)
Example C120_ex : atanf 0x3F800000 = 0x3F490FDB /\ atanf 0xC0000000 = 0xBF8DB70D /\ atanf 1 = 1 /\ fbits 23 8 0xC0000000 /\ ffinite 23 8 0xC0000000 = true /\ fval 23 8 0xC0000000 = (-2)%R /\
  fbits 23 8 0xFFC00001 /\ fisnan 23 8 0xFFC00001 = true.
Proof.
  assert (B : fbits 23 8 0xC0000000) by (split; [lia|reflexivity]). repeat (split; [vm_compute; reflexivity|]). split; [exact B|]. split; [reflexivity|]. split; [|split; [split; [lia|reflexivity]|reflexivity]].
  rewrite fval32_q by first [exact B|reflexivity]. replace (qval (f2d 0xC0000000)) with (-2)%Q by (vm_compute; reflexivity). unfold Q2R. cbn [Qnum Qden]. lra.
Qed.
