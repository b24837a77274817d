(** C111 to C114: log1pf and the inverse hyperbolic functions atanhf, asinhf
    and acoshf.  The inverse functions are specified by the functions they
    invert: tanh, sinh and cosh of Coq's real numbers. *)
From Coq Require Import Reals Lra Lia QArith Qreals.
From Flocq Require Import Core.
From Verif Require Import Base FP FP_Proof HW HW_Proof Math_Model Math_Round_Proof Hypotf_Real Hypotf_Proof Ferr Elem_Spec Elem_Proof Expf_Model Expf_Proof Logf_Model Logf_Proof Loginv_Proof Loginv2_Proof Loginv3_Proof.
Open Scope Z_scope.
Local Ltac Zify.zify_post_hook ::= idtac.

(** the patterns of a bit pattern by sign *)
Lemma abs32 x : 0 <= x < 0x100000000 -> fabsb 23 8 x = if x <? 0x80000000 then x else x - 0x80000000.
Proof. intros Hx. unfold fabsb. change (2^(23+8)) with 0x80000000. destruct (Z.ltb_spec x 0x80000000); [apply Z.mod_small; lia|]. symmetry. apply Z.mod_unique with 1; lia. Qed.
Lemma nan_ok : fbits 23 8 NANF /\ fisnan 23 8 NANF = true.
Proof. split; [split; [unfold NANF; lia|reflexivity]|reflexivity]. Qed.

(** ** log1pf *)
(** For every finite float x > -1 other than 0 the result is the float nearest
    to a real number whose relative distance to ln (1 + x) is below 2^-48. *)
Theorem C111_log1pf_nearly_rounded x : fbits 23 8 x -> ffinite 23 8 x = true -> (-1 < fval 23 8 x)%R -> fval 23 8 x <> 0%R ->
  exists b, log1pf x = Ok b /\ nearly_rounded 48 (ln (1 + fval 23 8 x)) b.
Proof. exact (log1pf_ok x). Qed.
Print Assumptions C111_log1pf_nearly_rounded.
(** No float lies strictly between the result and ln (1 + x). *)
Theorem C111_log1pf_faithful x : fbits 23 8 x -> ffinite 23 8 x = true -> (-1 < fval 23 8 x)%R -> fval 23 8 x <> 0%R ->
  exists b, log1pf x = Ok b /\ faithful (ln (1 + fval 23 8 x)) b.
Proof. intros H F P N. destruct (log1pf_ok x H F P N) as (b & E & R). exists b. split; [exact E|]. apply (nearly_faithful 48); [lia|exact R]. Qed.
Print Assumptions C111_log1pf_faithful.
(** The result is correctly rounded unless ln (1 + x) is within 2^-48 of the
    midpoint of two adjacent floats. *)
Theorem C111_log1pf_correctly_rounded x : fbits 23 8 x -> ffinite 23 8 x = true -> (-1 < fval 23 8 x)%R -> fval 23 8 x <> 0%R ->
  let v := ln (1 + fval 23 8 x) in (forall n, 0 <= n -> (bpow radix2 (- (48)) * Rabs v < Rabs (Rabs v - midpoint n))%R) ->
  exists b, log1pf x = Ok b /\ rounds_to 23 8 v (Rlt_bool v 0) b.
Proof. intros H F P N v M. destruct (log1pf_ok x H F P N) as (b & E & R). exists b. split; [exact E|]. apply (nearly_correct 48); [lia|exact R|exact M]. Qed.
Print Assumptions C111_log1pf_correctly_rounded.
(** The remaining arguments: zeros are returned unchanged, log1p(-1) = -inf,
    arguments below -1 (with -inf) and NaNs give a NaN, log1p(+inf) = +inf. *)
Theorem C111_log1pf_special x : fbits 23 8 x ->
  (fabsb 23 8 x = 0 -> log1pf x = Ok x) /\ (x = 0xBF800000 -> log1pf x = Ok 0xFF800000) /\ (x = 0x7F800000 -> log1pf x = Ok x) /\
  ((0xBF800000 < x \/ fisnan 23 8 x = true) -> exists b, log1pf x = Ok b /\ fbits 23 8 b /\ fisnan 23 8 b = true).
Proof.
  intros Hb. assert (Hx := Hb). unfold fbits in Hx. change (2^(23+8+1)) with 0x100000000 in Hx. pose proof (abs32 x Hx) as AB. split; [|split; [|split]].
  - rewrite AB. intros Z. destruct (Z.ltb_spec x 0x80000000); [assert (x = 0) by lia|assert (x = 0x80000000) by lia]; subst x; vm_compute; reflexivity.
  - intros ->. vm_compute. reflexivity.
  - intros ->. vm_compute. reflexivity.
  - intros K. destruct (Z_lt_le_dec 0xBF800000 x) as [L|L].
    + unfold log1pf. replace (x =? 0xBF800000) with false by lia. replace (0xBF800000 <? x) with true by lia. exists NANF. split; [reflexivity|exact nan_ok].
    + destruct K as [K|K]; [lia|]. exists x. split; [|split; [exact Hb|exact K]]. unfold fisnan in K. rewrite AB in K. change (finf 23 8) with 0x7F800000 in K. apply Z.ltb_lt in K.
      destruct (Z.ltb_spec x 0x80000000); [|lia]. unfold log1pf. rewrite sgn32_of by lia. replace (x =? 0xBF800000) with false by lia. replace (0xBF800000 <? x) with false by lia. replace (x <? 0x80000000) with true by lia. replace (0x7F800000 <=? x) with true by lia. reflexivity.
Qed.
Print Assumptions C111_log1pf_special.
(** hypotheses met: x = 1 gives ln 2; x = -0.5 *)
Example C111_ex : log1pf 0x3F800000 = Ok 0x3F317218 /\ log1pf 0xBF000000 = Ok 0xBF317218 /\ log1pf 1 = Ok 1 /\ fbits 23 8 0xBF000000 /\ ffinite 23 8 0xBF000000 = true /\ fval 23 8 0xBF000000 = (-0.5)%R.
Proof.
  split; [vm_compute; reflexivity|]. split; [vm_compute; reflexivity|]. split; [vm_compute; reflexivity|]. assert (B : fbits 23 8 0xBF000000) by (split; [lia|reflexivity]). split; [exact B|]. split; [reflexivity|].
  rewrite fval32_q by first [exact B|reflexivity]. replace (qval (f2d 0xBF000000)) with (-1 # 2)%Q by (vm_compute; reflexivity). unfold Q2R. cbn [Qnum Qden]. lra.
Qed.

(** ** atanhf *)
Lemma tanh_inv v x : tanh v = x -> (Rabs x < 1)%R /\ v = (/ 2 * ln ((1 + x) / (1 - x)))%R.
Proof.
  intros <-. unfold tanh, sinh, cosh. pose proof (exp_pos v) as A. pose proof (exp_pos (- v)) as B. set (a := exp v) in *. set (b := exp (- v)) in *.
  replace ((a - b) / 2 / ((a + b) / 2))%R with ((a - b) / (a + b))%R by (field; lra). split.
  - apply Rabs_def1; apply (Rmult_lt_reg_r (a + b)); try lra; unfold Rdiv; rewrite Rmult_assoc, Rinv_l by lra; lra.
  - replace ((1 + (a - b) / (a + b)) / (1 - (a - b) / (a + b)))%R with (a / b)%R by (field; split; lra). unfold Rdiv. rewrite ln_mult, ln_Rinv by (try apply Rinv_0_lt_compat; lra). unfold a, b. rewrite !ln_exp. lra.
Qed.
(** If x is a float other than 0 and tanh v = x, the result is the float nearest
    to a real number whose relative distance to v is below 2^-48. *)
Theorem C112_atanhf_nearly_rounded x v : fbits 23 8 x -> ffinite 23 8 x = true -> fval 23 8 x <> 0%R -> tanh v = fval 23 8 x ->
  exists b, atanhf x = Ok b /\ nearly_rounded 48 v b.
Proof. intros H F N T. destruct (tanh_inv _ _ T) as [L ->]. exact (atanhf_ok x H L F N). Qed.
Print Assumptions C112_atanhf_nearly_rounded.
(** Every float of magnitude below 1 is such an x. *)
Theorem C112_atanhf_domain x : (Rabs x < 1)%R -> exists v, tanh v = x.
Proof.
  intros L. apply Rabs_def2 in L. exists (/ 2 * ln ((1 + x) / (1 - x)))%R. set (w := ((1 + x) / (1 - x))%R). assert (W : (0 < w)%R) by (apply Rdiv_lt_0_compat; lra).
  set (v := (/ 2 * ln w)%R). unfold tanh, sinh, cosh. rewrite exp_Ropp. pose proof (exp_pos v) as A. assert (S : (exp v * exp v = w)%R) by (rewrite <- exp_plus; unfold v; replace (/ 2 * ln w + / 2 * ln w)%R with (ln w) by field; apply exp_ln; exact W).
  replace ((exp v - / exp v) / 2 / ((exp v + / exp v) / 2))%R with ((exp v * exp v - 1) / (exp v * exp v + 1))%R. 2:{ clear S. generalize dependent (exp v). intros a A. field. repeat split; intros K; nra. }
  rewrite S. unfold w. field. split; lra.
Qed.
Print Assumptions C112_atanhf_domain.
Theorem C112_atanhf_faithful x v : fbits 23 8 x -> ffinite 23 8 x = true -> fval 23 8 x <> 0%R -> tanh v = fval 23 8 x ->
  exists b, atanhf x = Ok b /\ faithful v b.
Proof. intros H F N T. destruct (C112_atanhf_nearly_rounded x v H F N T) as (b & E & R). exists b. split; [exact E|]. apply (nearly_faithful 48); [lia|exact R]. Qed.
Print Assumptions C112_atanhf_faithful.
Theorem C112_atanhf_correctly_rounded x v : fbits 23 8 x -> ffinite 23 8 x = true -> fval 23 8 x <> 0%R -> tanh v = fval 23 8 x ->
  (forall n, 0 <= n -> (bpow radix2 (- (48)) * Rabs v < Rabs (Rabs v - midpoint n))%R) -> exists b, atanhf x = Ok b /\ rounds_to 23 8 v (Rlt_bool v 0) b.
Proof. intros H F N T M. destruct (C112_atanhf_nearly_rounded x v H F N T) as (b & E & R). exists b. split; [exact E|]. apply (nearly_correct 48); [lia|exact R|exact M]. Qed.
Print Assumptions C112_atanhf_correctly_rounded.
(** Zeros are returned unchanged, atanh(±1) = ±inf, and every other argument
    outside (-1, 1) gives a NaN. *)
Theorem C112_atanhf_special x : fbits 23 8 x ->
  (fabsb 23 8 x = 0 -> atanhf x = Ok x) /\ (x = 0x3F800000 -> atanhf x = Ok 0x7F800000) /\ (x = 0xBF800000 -> atanhf x = Ok 0xFF800000) /\
  (0x3F800000 < fabsb 23 8 x -> exists b, atanhf x = Ok b /\ fbits 23 8 b /\ fisnan 23 8 b = true).
Proof.
  intros Hb. assert (Hx := Hb). unfold fbits in Hx. change (2^(23+8+1)) with 0x100000000 in Hx. pose proof (abs32 x Hx) as AB. split; [|split; [|split]].
  - rewrite AB. intros Z. destruct (Z.ltb_spec x 0x80000000); [assert (x = 0) by lia|assert (x = 0x80000000) by lia]; subst x; vm_compute; reflexivity.
  - intros ->. vm_compute. reflexivity.
  - intros ->. vm_compute. reflexivity.
  - intros K. exists NANF. split; [|exact nan_ok]. unfold atanhf. cbv zeta. set (a := fabsb 23 8 x) in *. assert (A : 0 <= a < 0x80000000) by (apply Z.mod_pos_bound; reflexivity).
    assert (AA : fabsb 23 8 a = a) by (apply Z.mod_small; change (2^(23+8)) with 0x80000000; lia). assert (NA : fneg 23 8 a = false) by (unfold fneg; change (2^(23+8)) with 0x80000000; lia). clearbody a. clear AB.
    unfold eq32, lt32, heq, hlt, fisnan, ford. rewrite AA, NA. change (fabsb 23 8 0x3F800000) with 0x3F800000. change (fneg 23 8 0x3F800000) with false. change (finf 23 8) with 0x7F800000.
    cbv iota. replace (a =? 0x3F800000) with false by lia. replace (a <? 0x3F800000) with false by lia. rewrite !Bool.andb_false_r. reflexivity.
Qed.
Print Assumptions C112_atanhf_special.
Example C112_ex : atanhf 0x3F000000 = Ok 0x3F0C9F54 /\ atanhf 0xBF000000 = Ok 0xBF0C9F54 /\ fbits 23 8 0xBF000000 /\ ffinite 23 8 0xBF000000 = true.
Proof. split; [vm_compute; reflexivity|]. split; [vm_compute; reflexivity|]. split; [split; [lia|reflexivity]|reflexivity]. Qed.

(** ** asinhf *)
(** If x is a finite float other than 0 and sinh v = x, the result is the float
    nearest to a real number whose relative distance to v is below 2^-48. *)
Theorem C113_asinhf_nearly_rounded x v : fbits 23 8 x -> ffinite 23 8 x = true -> fval 23 8 x <> 0%R -> sinh v = fval 23 8 x ->
  exists b, asinhf x = Ok b /\ nearly_rounded 48 v b.
Proof. intros H F N T. rewrite <- (arcsinh_sinh v), T. exact (asinhf_ok x H F N). Qed.
Print Assumptions C113_asinhf_nearly_rounded.
Theorem C113_asinhf_domain x : exists v, sinh v = x.
Proof. exists (arcsinh x). apply sinh_arcsinh. Qed.
Print Assumptions C113_asinhf_domain.
Theorem C113_asinhf_faithful x v : fbits 23 8 x -> ffinite 23 8 x = true -> fval 23 8 x <> 0%R -> sinh v = fval 23 8 x ->
  exists b, asinhf x = Ok b /\ faithful v b.
Proof. intros H F N T. destruct (C113_asinhf_nearly_rounded x v H F N T) as (b & E & R). exists b. split; [exact E|]. apply (nearly_faithful 48); [lia|exact R]. Qed.
Print Assumptions C113_asinhf_faithful.
Theorem C113_asinhf_correctly_rounded x v : fbits 23 8 x -> ffinite 23 8 x = true -> fval 23 8 x <> 0%R -> sinh v = fval 23 8 x ->
  (forall n, 0 <= n -> (bpow radix2 (- (48)) * Rabs v < Rabs (Rabs v - midpoint n))%R) -> exists b, asinhf x = Ok b /\ rounds_to 23 8 v (Rlt_bool v 0) b.
Proof. intros H F N T M. destruct (C113_asinhf_nearly_rounded x v H F N T) as (b & E & R). exists b. split; [exact E|]. apply (nearly_correct 48); [lia|exact R|exact M]. Qed.
Print Assumptions C113_asinhf_correctly_rounded.
(** Zeros, infinities and NaNs are returned unchanged. *)
Theorem C113_asinhf_special x : fbits 23 8 x -> (fabsb 23 8 x = 0 \/ ffinite 23 8 x = false) -> asinhf x = Ok x.
Proof.
  intros Hb [Z|F].
  - assert (Hx := Hb). unfold fbits in Hx. change (2^(23+8+1)) with 0x100000000 in Hx. rewrite abs32 in Z by exact Hx. destruct (Z.ltb_spec x 0x80000000); [assert (x = 0) by lia|assert (x = 0x80000000) by lia]; subst x; vm_compute; reflexivity.
  - unfold asinhf. rewrite (sub32_self x Hb), F. reflexivity.
Qed.
Print Assumptions C113_asinhf_special.
Example C113_ex : asinhf 0x3F800000 = Ok 0x3F61A1B3 /\ asinhf 0xBF800000 = Ok 0xBF61A1B3 /\ fbits 23 8 0xBF800000 /\ ffinite 23 8 0xBF800000 = true.
Proof. split; [vm_compute; reflexivity|]. split; [vm_compute; reflexivity|]. split; [split; [lia|reflexivity]|reflexivity]. Qed.

(** ** acoshf *)
Lemma cosh_inv v x : (0 <= v)%R -> cosh v = x -> v = ln (x + sqrt (x * x - 1)).
Proof.
  intros P <-. unfold cosh. pose proof (exp_pos v) as A. rewrite exp_Ropp. set (a := exp v) in *. assert (A1 : (1 <= a)%R) by (unfold a; rewrite <- exp_0; destruct P as [P|<-]; [left; apply exp_increasing; exact P|right; reflexivity]).
  assert (I : (a * / a = 1)%R) by (apply Rinv_r; lra). assert (I1 : (0 < / a <= 1)%R) by (split; [apply Rinv_0_lt_compat; lra|replace 1%R with (/ 1)%R by lra; apply Rinv_le_contravar; lra]).
  replace ((a + / a) / 2 * ((a + / a) / 2) - 1)%R with ((a - / a) / 2 * ((a - / a) / 2))%R by (field; lra). rewrite sqrt_square by lra. replace ((a + / a) / 2 + (a - / a) / 2)%R with a by lra. unfold a. symmetry. apply ln_exp. 
Qed.
(** If x > 1 is a finite float, v >= 0 and cosh v = x, the result is the float
    nearest to a real number whose relative distance to v is below 2^-40, and
    below 2^-48 for x >= 1.1. *)
Theorem C114_acoshf_nearly_rounded x v : fbits 23 8 x -> ffinite 23 8 x = true -> (1 < fval 23 8 x)%R -> (0 <= v)%R -> cosh v = fval 23 8 x ->
  exists b, acoshf x = Ok b /\ nearly_rounded 40 v b /\ ((1.1 <= fval 23 8 x)%R -> nearly_rounded 48 v b).
Proof. intros H F L P T. rewrite (cosh_inv v _ P T). exact (acoshf_ok x H F L). Qed.
Print Assumptions C114_acoshf_nearly_rounded.
Theorem C114_acoshf_domain x : (1 <= x)%R -> exists v, (0 <= v)%R /\ cosh v = x.
Proof.
  intros L. destruct (acosh_W x L) as (A & B & _). set (c := sqrt (x * x - 1)) in *. exists (ln (x + c)). split; [destruct (Req_dec (x + c) 1) as [->|]; [rewrite ln_1; lra|left; rewrite <- ln_1; apply ln_increasing; lra]|].
  unfold cosh. rewrite exp_Ropp, exp_ln by lra. apply (Rmult_eq_reg_r (2 * (x + c))); [|lra]. field_simplify; [|lra]. replace (c ^ 2)%R with (c * c)%R by ring. rewrite B. ring.
Qed.
Print Assumptions C114_acoshf_domain.
Theorem C114_acoshf_faithful x v : fbits 23 8 x -> ffinite 23 8 x = true -> (1 < fval 23 8 x)%R -> (0 <= v)%R -> cosh v = fval 23 8 x ->
  exists b, acoshf x = Ok b /\ faithful v b.
Proof. intros H F L P T. destruct (C114_acoshf_nearly_rounded x v H F L P T) as (b & E & R & _). exists b. split; [exact E|]. apply (nearly_faithful 40); [lia|exact R]. Qed.
Print Assumptions C114_acoshf_faithful.
Theorem C114_acoshf_correctly_rounded x v : fbits 23 8 x -> ffinite 23 8 x = true -> (1 < fval 23 8 x)%R -> (0 <= v)%R -> cosh v = fval 23 8 x ->
  (forall n, 0 <= n -> (bpow radix2 (- (40)) * Rabs v < Rabs (Rabs v - midpoint n))%R) -> exists b, acoshf x = Ok b /\ rounds_to 23 8 v (Rlt_bool v 0) b.
Proof. intros H F L P T M. destruct (C114_acoshf_nearly_rounded x v H F L P T) as (b & E & R & _). exists b. split; [exact E|]. apply (nearly_correct 40); [lia|exact R|exact M]. Qed.
Print Assumptions C114_acoshf_correctly_rounded.
(** acosh(1) = +0, acosh(+inf) = +inf, and numbers below 1 and NaNs give a NaN. *)
Theorem C114_acoshf_special x : fbits 23 8 x ->
  (x = 0x3F800000 -> acoshf x = Ok 0) /\ (x = 0x7F800000 -> acoshf x = Ok x) /\
  ((x < 0x3F800000 \/ 0x80000000 <= x \/ fisnan 23 8 x = true) -> exists b, acoshf x = Ok b /\ fbits 23 8 b /\ fisnan 23 8 b = true).
Proof.
  intros Hb. assert (Hx := Hb). unfold fbits in Hx. change (2^(23+8+1)) with 0x100000000 in Hx. pose proof (abs32 x Hx) as AB. split; [|split].
  - intros ->. vm_compute. reflexivity.
  - intros ->. vm_compute. reflexivity.
  - intros K. unfold acoshf. cbv zeta. rewrite sgn32_of by exact Hx. destruct (Z.ltb_spec x 0x80000000) as [L|L].
    + destruct (Z_lt_le_dec x 0x3F800000) as [M|M].
      * replace (x <? 0x3F800000) with true by lia. exists NANF. split; [reflexivity|exact nan_ok].
      * assert (NA : fisnan 23 8 x = true) by (destruct K as [K|[K|K]]; [lia|lia|exact K]). assert (K' := NA). unfold fisnan in K'. rewrite AB in K'. change (finf 23 8) with 0x7F800000 in K'. apply Z.ltb_lt in K'. replace (x <? 0x3F800000) with false by lia. replace (0x7F800000 <=? x) with true by lia. exists x. split; [reflexivity|]. split; [exact Hb|exact NA].
    + replace (x - 0x100000000 <? 0x3F800000) with true by lia. exists NANF. split; [reflexivity|exact nan_ok].
Qed.
Print Assumptions C114_acoshf_special.
Example C114_ex : acoshf 0x40000000 = Ok 0x3fa89214 /\ acoshf 0x3F800001 = Ok 0x3a000000 /\ fbits 23 8 0x40000000 /\ ffinite 23 8 0x40000000 = true.
Proof. split; [vm_compute; reflexivity|]. split; [vm_compute; reflexivity|]. split; [split; [lia|reflexivity]|reflexivity]. Qed.
