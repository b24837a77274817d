(** C123, C124 and C125: sinf, cosf and tanf against sin, cos and tan of Coq's
    real numbers, for all finite floats. *)
From Coq Require Import Reals Lra Lia QArith Qreals.
From Flocq Require Import Core BinarySingleNaN.
From Verif Require Import Base FP FP_Proof HW HW_Proof Tf_Narrow_Proof Midpoint Fmaf_Proof Math_Model Math_Basic_Proof Math_Int_Proof Math_Lconv_Proof Hypotf_Model Hypotf_Real Hypotf_Proof Approx Subdiv Ferr Elem_Spec Elem_Proof Elem_Num Expf_Model Expf_Proof Logf_Model Logf_Kernel Logf_Proof Loginv_Proof Loginv3_Proof Hyperf_Model Hyperf_Proof Hyperf2_Proof Hyperf3_Proof Atan_Num Atanf_Model Atanf_Proof Asinf_Model Asinf_Proof Asinf_Props Pi_Num Trigf_Model Trigf_Red Trigf_Proof.
Open Scope Z_scope.
Local Ltac Zify.zify_post_hook ::= idtac.

(** The result is the float nearest to a real number whose relative distance to
    v is below 2^-26, whatever the argument X; below 2^-39 for |X| < 2^15, below
    2^-30 for |X| < 2^25 and below 2^-31 for |X| >= 2^29. *)
Definition trig_rounded (X v : R) (b : Z) : Prop :=
  nearly_rounded 26 v b /\
  ((Rabs X < 32768)%R -> nearly_rounded 39 v b) /\
  ((Rabs X < 33554432)%R -> nearly_rounded 30 v b) /\
  ((536870912 <= Rabs X)%R -> nearly_rounded 31 v b).
Lemma nearly_less j k v b : (j <= k) -> nearly_rounded k v b -> nearly_rounded j v b.
Proof. intros H (r & A & R). exists r. split; [|exact R]. eapply Rle_trans; [exact A|]. apply Rmult_le_compat_r; [apply Rabs_pos|]. apply bpow_le. lia. Qed.
Lemma abs_mag x : fbits 23 8 x -> ffinite 23 8 x = true -> Rabs (fval 23 8 x) = fmag 23 8 (fabsb 23 8 x).
Proof.
  intros Hx Fx. destruct (abs_finite x Hx Fx) as [HA HV]. rewrite HV. apply abs_sign. apply (fmag_nonneg 23 8 eq_refl). lia.
Qed.
Lemma below x c (q : Z) : fbits 23 8 x -> ffinite 23 8 x = true -> 0 <= c < 0x7F800000 -> fmag 23 8 c = IZR q -> (Rabs (fval 23 8 x) < IZR q)%R -> fabsb 23 8 x < c.
Proof.
  intros Hx Fx Hc E H. apply Z.nle_gt. intros L. rewrite (abs_mag x Hx Fx), <- E in H. pose proof (fmag_le 23 8 eq_refl c (fabsb 23 8 x) ltac:(lia)). lra.
Qed.
Lemma above x c (q : Z) : fbits 23 8 x -> ffinite 23 8 x = true -> 0 <= c < 0x7F800000 -> fmag 23 8 c = IZR q -> (IZR q <= Rabs (fval 23 8 x))%R -> c <= fabsb 23 8 x.
Proof.
  intros Hx Fx Hc E H. apply Z.nlt_ge. intros L. rewrite (abs_mag x Hx Fx), <- E in H. destruct (abs_finite x Hx Fx) as [HA _].
  pose proof (fmag_le 23 8 eq_refl (fabsb 23 8 x) c ltac:(lia)) as M. assert (EQ : fmag 23 8 (fabsb 23 8 x) = fmag 23 8 c) by lra. apply (fmag_inj 23 8 eq_refl) in EQ; lia.
Qed.
Lemma mag_const c q : 0 <= c < 0x7F800000 -> Qeq_bool (qval (f2d c)) (inject_Z q) = true -> fmag 23 8 c = IZR q.
Proof.
  intros Hc E. rewrite <- pos_const by lia. assert (B : fbits 23 8 c) by (unfold fbits; change (2^(23+8+1)) with 0x100000000; lia). assert (F : ffinite 23 8 c = true) by (unfold ffinite; replace (fabsb 23 8 c) with c by (symmetry; apply Z.mod_small; change (2^(23+8)) with 0x80000000; lia); change (finf 23 8) with 0x7F800000; lia).
  rewrite fval32_q by assumption. apply Qeq_bool_iff, Qeq_eqR in E. rewrite E. unfold Q2R, inject_Z. cbn [Qnum Qden]. lra.
Qed.
Lemma trig_of x v b : fbits 23 8 x -> ffinite 23 8 x = true -> nearly_rounded (bits_of x) v b -> trig_rounded (fval 23 8 x) v b.
Proof.
  intros Hx Fx N. split; [apply (nearly_less _ (bits_of x)); [apply bits_range|exact N]|].
  assert (M15 : fmag 23 8 0x47000000 = 32768%R) by (apply mag_const; [lia|vm_compute; reflexivity]). assert (M25 : fmag 23 8 0x4C000000 = 33554432%R) by (apply mag_const; [lia|vm_compute; reflexivity]). assert (M29 : fmag 23 8 0x4E000000 = 536870912%R) by (apply mag_const; [lia|vm_compute; reflexivity]).
  split; [|split]; intros H; (eapply nearly_less; [|exact N]); unfold bits_of.
  - pose proof (below x 0x47000000 32768 Hx Fx ltac:(lia) M15 H) as L. replace (fabsb 23 8 x <? 0x47000000) with true by lia. lia.
  - pose proof (below x 0x4C000000 33554432 Hx Fx ltac:(lia) M25 H) as L. replace (fabsb 23 8 x <? 0x4C000000) with true by lia. destruct (fabsb 23 8 x <? 0x47000000); lia.
  - pose proof (above x 0x4E000000 536870912 Hx Fx ltac:(lia) M29 H) as L. replace (fabsb 23 8 x <? 0x47000000) with false by lia. replace (fabsb 23 8 x <? 0x4C000000) with false by lia. replace (fabsb 23 8 x <? 0x4DC90FDB) with false by lia. lia.
Qed.

(** infinities and NaNs *)
Lemma not_finite x : fbits 23 8 x -> ffinite 23 8 x = false -> rem_pio2f x = Ok (0, Q64) /\ (forall c, fbits 23 8 c -> ffinite 23 8 c = true -> eq32 x c = false).
Proof.
  intros Hx Fx. assert (C : fisnan 23 8 x = true \/ fisinf 23 8 x = true) by (unfold ffinite, fisnan, fisinf in *; change (finf 23 8) with 0x7F800000 in *; lia).
  assert (S : sub32 x x = 0x7FC00000 /\ (forall c, fbits 23 8 c -> ffinite 23 8 c = true -> eq32 x c = false)).
  { destruct C as [C|C].
    - pose proof (dec_nan 23 8 eq_refl eq_refl eq_refl x Hx C) as D. split; [unfold sub32, hsub; rewrite D; reflexivity|]. intros c _ _. unfold eq32, heq. rewrite C. reflexivity.
    - split; [destruct (inf_cases x Hx C) as [->| ->]; vm_compute; reflexivity|]. intros c Hc Fc. unfold eq32, heq, ford, fisinf, ffinite in *. change (finf 23 8) with 0x7F800000 in *. assert (0 <= fabsb 23 8 c) by (apply Z.mod_pos_bound; reflexivity).
      apply andb_false_intro2. destruct (fneg 23 8 x), (fneg 23 8 c); lia. }
  destruct S as [S1 S2]. split; [|exact S2]. unfold rem_pio2f. cbv zeta. rewrite (land_abs x Hx). unfold ffinite in Fx. change (finf 23 8) with 0x7F800000 in Fx. replace (fabsb 23 8 x <? 0x4DC90FDB) with false by lia. replace (0x7F800000 <=? fabsb 23 8 x) with true by lia. rewrite S1. vm_compute. reflexivity.
Qed.
Ltac tofb' := unfold fbits; change (2^(23+8+1)) with 0x100000000; lia.

(** ** sinf
    For every nonzero finite float x, however large, the result is the float nearest to
    a real number close to sin x; see [trig_rounded] for how close. *)
Theorem C123_sinf_nearly_rounded x : fbits 23 8 x -> ffinite 23 8 x = true -> fval 23 8 x <> 0%R ->
  exists b, sinf x = Ok b /\ trig_rounded (fval 23 8 x) (sin (fval 23 8 x)) b.
Proof. intros H F N. destruct (sinf_ok x H F N) as (b & E & R). exists b. split; [exact E|]. apply trig_of; assumption. Qed.
Print Assumptions C123_sinf_nearly_rounded.
(** No float lies strictly between the result and sin x. *)
Theorem C123_sinf_faithful x : fbits 23 8 x -> ffinite 23 8 x = true -> fval 23 8 x <> 0%R ->
  exists b, sinf x = Ok b /\ faithful (sin (fval 23 8 x)) b.
Proof. intros H F N. destruct (sinf_ok x H F N) as (b & E & R). exists b. split; [exact E|]. apply (nearly_faithful (bits_of x)); [apply bits_range|exact R]. Qed.
Print Assumptions C123_sinf_faithful.
(** For |x| < 2^15 the result is correctly rounded unless sin x is within
    2^-39 of the midpoint of two adjacent floats. *)
Theorem C123_sinf_correctly_rounded x : fbits 23 8 x -> ffinite 23 8 x = true -> fval 23 8 x <> 0%R -> (Rabs (fval 23 8 x) < 32768)%R ->
  let v := sin (fval 23 8 x) in (forall n, 0 <= n -> (bpow radix2 (- (39)) * Rabs v < Rabs (Rabs v - midpoint n))%R) ->
  exists b, sinf x = Ok b /\ rounds_to 23 8 v (Rlt_bool v 0) b.
Proof.
  intros H F N L v M. destruct (C123_sinf_nearly_rounded x H F N) as (b & E & _ & R & _). exists b. split; [exact E|]. apply (nearly_correct 39); [lia|exact (R L)|exact M].
Qed.
Print Assumptions C123_sinf_correctly_rounded.
(** sin(+-0) = +-0. *)
Theorem C123_sinf_special : sinf 0 = Ok 0 /\ sinf 0x80000000 = Ok 0x80000000.
Proof. split; vm_compute; reflexivity. Qed.
Print Assumptions C123_sinf_special.
(** Infinities and NaNs give a NaN. *)
Theorem C123_sinf_nan x : fbits 23 8 x -> ffinite 23 8 x = false -> exists b, sinf x = Ok b /\ fbits 23 8 b /\ fisnan 23 8 b = true.
Proof.
  intros Hx Fx. destruct (not_finite x Hx Fx) as [E N]. exists 0x7FC00000. split; [|split; [split; [lia|reflexivity]|reflexivity]]. unfold sinf. rewrite !N by first [tofb'|reflexivity]. rewrite E. vm_compute. reflexivity.
Qed.
Print Assumptions C123_sinf_nan.
(** hypotheses met: x = 1, x = -1, the largest float and 9830.3984375 *)
Example C123_ex : sinf 0x3F800000 = Ok 0x3F576AA4 /\ sinf 0xBF800000 = Ok 0xBF576AA4 /\ sinf 0x7F7FFFFF = Ok 0xbf0599b3 /\ sinf 0x46199998 = Ok 0xBEB1FA5D /\ fbits 23 8 0xBF800000 /\ ffinite 23 8 0xBF800000 = true /\ fval 23 8 0xBF800000 = (-1)%R.
Proof.
  assert (B : fbits 23 8 0xBF800000) by (split; [lia|reflexivity]). repeat (split; [vm_compute; reflexivity|]). split; [exact B|]. split; [reflexivity|].
  rewrite fval32_q by first [exact B|reflexivity]. replace (qval (f2d 0xBF800000)) with (-1)%Q by (vm_compute; reflexivity). unfold Q2R. cbn [Qnum Qden]. lra.
Qed.

(** ** cosf
    For every finite float x, however large, the result is the float nearest to
    a real number close to cos x; see [trig_rounded] for how close. *)
Theorem C124_cosf_nearly_rounded x : fbits 23 8 x -> ffinite 23 8 x = true ->
  exists b, cosf x = Ok b /\ trig_rounded (fval 23 8 x) (cos (fval 23 8 x)) b.
Proof. intros H F. destruct (cosf_ok x H F) as (b & E & R). exists b. split; [exact E|]. apply trig_of; assumption. Qed.
Print Assumptions C124_cosf_nearly_rounded.
(** No float lies strictly between the result and cos x. *)
Theorem C124_cosf_faithful x : fbits 23 8 x -> ffinite 23 8 x = true ->
  exists b, cosf x = Ok b /\ faithful (cos (fval 23 8 x)) b.
Proof. intros H F. destruct (cosf_ok x H F) as (b & E & R). exists b. split; [exact E|]. apply (nearly_faithful (bits_of x)); [apply bits_range|exact R]. Qed.
Print Assumptions C124_cosf_faithful.
(** For |x| < 2^15 the result is correctly rounded unless cos x is within
    2^-39 of the midpoint of two adjacent floats. *)
Theorem C124_cosf_correctly_rounded x : fbits 23 8 x -> ffinite 23 8 x = true -> (Rabs (fval 23 8 x) < 32768)%R ->
  let v := cos (fval 23 8 x) in (forall n, 0 <= n -> (bpow radix2 (- (39)) * Rabs v < Rabs (Rabs v - midpoint n))%R) ->
  exists b, cosf x = Ok b /\ rounds_to 23 8 v (Rlt_bool v 0) b.
Proof.
  intros H F L v M. destruct (C124_cosf_nearly_rounded x H F) as (b & E & _ & R & _). exists b. split; [exact E|]. apply (nearly_correct 39); [lia|exact (R L)|exact M].
Qed.
Print Assumptions C124_cosf_correctly_rounded.
(** cos(+-0) = 1, exactly. *)
Theorem C124_cosf_special : cosf 0 = Ok 0x3F800000 /\ cosf 0x80000000 = Ok 0x3F800000.
Proof. split; vm_compute; reflexivity. Qed.
Print Assumptions C124_cosf_special.
(** Infinities and NaNs give a NaN. *)
Theorem C124_cosf_nan x : fbits 23 8 x -> ffinite 23 8 x = false -> exists b, cosf x = Ok b /\ fbits 23 8 b /\ fisnan 23 8 b = true.
Proof.
  intros Hx Fx. destruct (not_finite x Hx Fx) as [E N]. exists 0x7FC00000. split; [|split; [split; [lia|reflexivity]|reflexivity]]. unfold cosf. rewrite !N by first [tofb'|reflexivity]. cbn [orb]. rewrite E. vm_compute. reflexivity.
Qed.
Print Assumptions C124_cosf_nan.
(** hypotheses met: x = 1, x = -1 and the largest float *)
Example C124_ex : cosf 0x3F800000 = Ok 0x3f0a5140 /\ cosf 0xBF800000 = Ok 0x3f0a5140 /\ cosf 0x7F7FFFFF = Ok 0x3f5a5f96 /\ fbits 23 8 0xBF800000 /\ ffinite 23 8 0xBF800000 = true /\ fval 23 8 0xBF800000 = (-1)%R.
Proof.
  assert (B : fbits 23 8 0xBF800000) by (split; [lia|reflexivity]). repeat (split; [vm_compute; reflexivity|]). split; [exact B|]. split; [reflexivity|].
  rewrite fval32_q by first [exact B|reflexivity]. replace (qval (f2d 0xBF800000)) with (-1)%Q by (vm_compute; reflexivity). unfold Q2R. cbn [Qnum Qden]. lra.
Qed.

(** ** tanf
    For every nonzero finite float x, however large, the result is the float nearest to
    a real number close to tan x; see [trig_rounded] for how close. *)
Theorem C125_tanf_nearly_rounded x : fbits 23 8 x -> ffinite 23 8 x = true -> fval 23 8 x <> 0%R ->
  exists b, tanf x = Ok b /\ trig_rounded (fval 23 8 x) (tan (fval 23 8 x)) b.
Proof. intros H F N. destruct (tanf_ok x H F N) as (b & E & R). exists b. split; [exact E|]. apply trig_of; assumption. Qed.
Print Assumptions C125_tanf_nearly_rounded.
(** No float lies strictly between the result and tan x. *)
Theorem C125_tanf_faithful x : fbits 23 8 x -> ffinite 23 8 x = true -> fval 23 8 x <> 0%R ->
  exists b, tanf x = Ok b /\ faithful (tan (fval 23 8 x)) b.
Proof. intros H F N. destruct (tanf_ok x H F N) as (b & E & R). exists b. split; [exact E|]. apply (nearly_faithful (bits_of x)); [apply bits_range|exact R]. Qed.
Print Assumptions C125_tanf_faithful.
(** For |x| < 2^15 the result is correctly rounded unless tan x is within
    2^-39 of the midpoint of two adjacent floats. *)
Theorem C125_tanf_correctly_rounded x : fbits 23 8 x -> ffinite 23 8 x = true -> fval 23 8 x <> 0%R -> (Rabs (fval 23 8 x) < 32768)%R ->
  let v := tan (fval 23 8 x) in (forall n, 0 <= n -> (bpow radix2 (- (39)) * Rabs v < Rabs (Rabs v - midpoint n))%R) ->
  exists b, tanf x = Ok b /\ rounds_to 23 8 v (Rlt_bool v 0) b.
Proof.
  intros H F N L v M. destruct (C125_tanf_nearly_rounded x H F N) as (b & E & _ & R & _). exists b. split; [exact E|]. apply (nearly_correct 39); [lia|exact (R L)|exact M].
Qed.
Print Assumptions C125_tanf_correctly_rounded.
(** tan(+-0) = +-0. *)
Theorem C125_tanf_special : tanf 0 = Ok 0 /\ tanf 0x80000000 = Ok 0x80000000.
Proof. split; vm_compute; reflexivity. Qed.
Print Assumptions C125_tanf_special.
(** Infinities and NaNs give a NaN. *)
Theorem C125_tanf_nan x : fbits 23 8 x -> ffinite 23 8 x = false -> exists b, tanf x = Ok b /\ fbits 23 8 b /\ fisnan 23 8 b = true.
Proof.
  intros Hx Fx. destruct (not_finite x Hx Fx) as [E N]. exists 0x7FC00000. split; [|split; [split; [lia|reflexivity]|reflexivity]]. unfold tanf.  rewrite E. vm_compute. reflexivity.
Qed.
Print Assumptions C125_tanf_nan.
(** hypotheses met: x = 1, x = -1 and the largest float *)
Example C125_ex : tanf 0x3F800000 = Ok 0x3fc75923 /\ tanf 0xBF800000 = Ok 0xbfc75923 /\ tanf 0x7F7FFFFF = Ok 0xbf1c9eca /\ fbits 23 8 0xBF800000 /\ ffinite 23 8 0xBF800000 = true /\ fval 23 8 0xBF800000 = (-1)%R.
Proof.
  assert (B : fbits 23 8 0xBF800000) by (split; [lia|reflexivity]). repeat (split; [vm_compute; reflexivity|]). split; [exact B|]. split; [reflexivity|].
  rewrite fval32_q by first [exact B|reflexivity]. replace (qval (f2d 0xBF800000)) with (-1)%Q by (vm_compute; reflexivity). unfold Q2R. cbn [Qnum Qden]. lra.
Qed.
