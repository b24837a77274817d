(** Double complex division: the error of the scaled quotient, and infinite results. *)
From Coq Require Import Reals Lra Lia Psatz Bool.
From Flocq Require Import Core BinarySingleNaN.
From Verif Require Import Base FP FP_Proof HW HW_Proof Midpoint Fmaf_Proof Math_Model Math_Basic_Proof Math_Spec Math_Props Hypotf_Model Hypotf_Real Hypotf_Proof Ferr Logf_Kernel Logf_Proof Loginv_Proof Loginv3_Proof Asinf_Proof Trigf_Proof Complex_Model Complex_Spec Complex_Proof Complex_Div_Proof Csqrt_Proof Cdiv_Model.
Open Scope Z_scope.
Local Ltac Zify.zify_post_hook ::= idtac.

(** ** the real side *)
Section Real.
Open Scope R_scope.
Lemma cauchy A B C D Z W : 0 <= Z -> 0 <= W -> Z * Z = A * A + B * B -> W * W = C * C + D * D -> Rabs A * Rabs C + Rabs B * Rabs D <= Z * W.
Proof.
  intros PZ PW EZ EW. pose proof (Rabs_pos A) as pa. pose proof (Rabs_pos B) as pb. pose proof (Rabs_pos C) as pc. pose proof (Rabs_pos D) as pd.
  assert (SQ : forall x, Rabs x * Rabs x = x * x) by (intros x; rewrite <- Rabs_mult; apply Rabs_pos_eq; nra).
  pose proof (SQ A) as SA. pose proof (SQ B) as SB. pose proof (SQ C) as SC. pose proof (SQ D) as SD.
  set (a := Rabs A) in *. set (b := Rabs B) in *. set (c := Rabs C) in *. set (d := Rabs D) in *. clearbody a b c d.
  assert (H : (a * c + b * d) * (a * c + b * d) <= (Z * W) * (Z * W)).
  { replace ((Z * W) * (Z * W)) with ((Z * Z) * (W * W)) by ring. rewrite EZ, EW, <- SA, <- SB, <- SC, <- SD.
    pose proof (Rle_0_sqr (a * d - b * c)) as Q. unfold Rsqr in Q. nra. }
  assert (0 <= Z * W) by (apply Rmult_le_pos; assumption). assert (0 <= a * c + b * d) by (assert (0 <= a * c) by (apply Rmult_le_pos; assumption); assert (0 <= b * d) by (apply Rmult_le_pos; assumption); lra).
  apply Rsqr_incr_0; unfold Rsqr; assumption.
Qed.

(** the quotient of two perturbed numbers *)
Lemma quot_err N K P V T e : 0 < e <= 0.000001 -> 1 <= V -> 0 <= T -> Rabs P <= T -> Rabs (N - P) <= e * T -> Rabs (K - V) <= e * V ->
  Rabs (N / K - P / V) <= 2.001 * e * (T / V) /\ 0.999 <= K.
Proof.
  intros He HV HT HP HN HK. assert (HK' := Rabs_le_inv _ _ HK). assert (KP : 0.999 * V <= K) by nra. split; [|nra].
  replace (N / K - P / V) with (((N - P) * V - P * (K - V)) / K / V) by (field; split; nra).
  assert (NUM : Rabs ((N - P) * V - P * (K - V)) <= 2 * e * T * V).
  { eapply Rle_trans; [apply Rabs_triang|]. rewrite Rabs_Ropp, !Rabs_mult, (Rabs_pos_eq V) by lra.
    assert (Rabs (N - P) * V <= e * T * V) by (apply Rmult_le_compat_r; lra).
    assert (Rabs P * Rabs (K - V) <= T * (e * V)) by (apply Rmult_le_compat; try apply Rabs_pos; assumption). lra. }
  assert (KI : / K <= / (0.9999 * V)) by (apply Rinv_le_contravar; nra).
  assert (PI : 0 < / K) by (apply Rinv_0_lt_compat; nra). assert (VI : 0 < / V) by (apply Rinv_0_lt_compat; lra).
  unfold Rdiv at 1 2. rewrite !Rabs_mult, (Rabs_pos_eq (/ K)), (Rabs_pos_eq (/ V)) by lra.
  assert (S : Rabs ((N - P) * V - P * (K - V)) * / K <= 2 * e * T * V * / (0.9999 * V)) by (apply Rmult_le_compat; [apply Rabs_pos|lra|exact NUM|exact KI]).
  replace (2 * e * T * V * / (0.9999 * V)) with (2 / 0.9999 * (e * T)) in S by (field; lra).
  assert (ET : 0 <= e * T) by (apply Rmult_le_pos; lra). unfold Rdiv.
  apply Rle_trans with (2.001 * (e * T) * / V); [apply Rmult_le_compat_r; [lra|]|right; ring]. eapply Rle_trans; [exact S|]. apply Rmult_le_compat_r; lra.
Qed.
End Real.

Definition eta : R := bpow radix2 (-1075).
Lemma RN_eta x : (Rabs (RN53 x - x) <= u53 * Rabs x + eta)%R. Proof. exact (RN53_err x). Qed.
Lemma eta_pos : (0 < eta)%R. Proof. apply bpow_gt_0. Qed.
Lemma eta_tiny Z : (bpow radix2 (-900) <= Z -> eta <= 0.000001 * (u53 * Z))%R.
Proof.
  intros H. apply Rle_trans with (0.000001 * (u53 * bpow radix2 (-900)))%R.
  - apply Rle_trans with (bpow radix2 (-20) * (u53 * bpow radix2 (-900)))%R; [unfold eta, u53; rewrite <- !bpow_plus; apply bpow_le; lia|].
    apply Rmult_le_compat_r; [apply Rmult_le_pos; apply bpow_ge_0|]. change (bpow radix2 (-20)) with (/ 1048576)%R. lra.
  - apply Rmult_le_compat_l; [lra|]. apply Rmult_le_compat_l; [apply bpow_ge_0|exact H].
Qed.

(** a rounded product of an operand and a nearly exact factor *)
Lemma prod_eta A C C' T : (Rabs (C' - C) <= eta -> Rabs A <= T -> eta <= 0.000001 * (u53 * T) -> 0 <= T ->
  Rabs (RN53 (A * C') - A * C) <= u53 * (Rabs A * Rabs C) + 0.00001 * (u53 * T))%R.
Proof.
  intros HC HA HT PT. destruct u53_dec as [U0 U1]. pose proof eta_pos as E0. pose proof (RN_eta (A * C')) as R. pose proof (Rabs_pos A) as PA.
  assert (EL : (eta <= 0.000001 * u53)%R) by (unfold eta, u53; apply Rle_trans with (bpow radix2 (-20) * bpow radix2 (-53))%R; [rewrite <- bpow_plus; apply bpow_le; lia|]; apply Rmult_le_compat_r; [apply bpow_ge_0|]; change (bpow radix2 (-20)) with (/ 1048576)%R; lra).
  assert (D : (Rabs (A * C' - A * C) <= 0.000001 * (u53 * T))%R).
  { replace (A * C' - A * C)%R with (A * (C' - C))%R by ring. rewrite Rabs_mult. apply Rle_trans with (T * eta)%R; [apply Rmult_le_compat; try apply Rabs_pos; assumption|]. assert (T * eta <= T * (0.000001 * u53))%R by (apply Rmult_le_compat_l; assumption). lra. }
  assert (B : (Rabs (A * C') <= Rabs A * Rabs C + 0.000001 * (u53 * T))%R).
  { rewrite <- (Rabs_mult A C). replace (A * C')%R with (A * C + (A * C' - A * C))%R by ring. eapply Rle_trans; [apply Rabs_triang|]. lra. }
  replace (RN53 (A * C') - A * C)%R with ((RN53 (A * C') - A * C') + (A * C' - A * C))%R by ring. eapply Rle_trans; [apply Rabs_triang|].
  assert (UT : (0 <= u53 * T)%R) by (apply Rmult_le_pos; lra).
  assert (M1 : (u53 * Rabs (A * C') <= u53 * (Rabs A * Rabs C + 0.000001 * (u53 * T)))%R) by (apply Rmult_le_compat_l; lra).
  assert (M2 : (u53 * (u53 * T) <= 0.000001 * (u53 * T))%R) by (apply Rmult_le_compat_r; lra). lra.
Qed.

(** a rounded sum *)
Lemma sum_eta p q P Q a b T : (Rabs P <= a -> Rabs Q <= b -> a + b <= T -> eta <= 0.000001 * (u53 * T) ->
  Rabs (p - P) <= u53 * a + 0.00001 * (u53 * T) -> Rabs (q - Q) <= u53 * b + 0.00001 * (u53 * T) ->
  Rabs (RN53 (p + q) - (P + Q)) <= 2.1 * (u53 * T) /\ Rabs (p + q) <= 1.001 * T)%R.
Proof.
  intros HP HQ HT HE Hp Hq. destruct u53_dec as [U0 U1]. pose proof (RN_eta (p + q)) as R. pose proof (Rabs_pos P). pose proof (Rabs_pos Q). assert (T0 : (0 <= T)%R) by lra.
  assert (UT : (0 <= u53 * T)%R) by (apply Rmult_le_pos; lra). assert (UT1 : (u53 * T <= 0.000001 * T)%R) by (apply Rmult_le_compat_r; lra).
  assert (UAB : (u53 * a + u53 * b <= u53 * T)%R) by (rewrite <- Rmult_plus_distr_l; apply Rmult_le_compat_l; lra).
  assert (D : (Rabs ((p + q) - (P + Q)) <= 1.0001 * (u53 * T))%R).
  { replace ((p + q) - (P + Q))%R with ((p - P) + (q - Q))%R by ring. eapply Rle_trans; [apply Rabs_triang|]. lra. }
  assert (B : (Rabs (p + q) <= 1.001 * T)%R).
  { replace (p + q)%R with ((P + Q) + ((p + q) - (P + Q)))%R by ring. eapply Rle_trans; [apply Rabs_triang|]. pose proof (Rabs_triang P Q). lra. }
  split; [|exact B]. replace (RN53 (p + q) - (P + Q))%R with ((RN53 (p + q) - (p + q)) + ((p + q) - (P + Q)))%R by ring. eapply Rle_trans; [apply Rabs_triang|].
  assert (M : (u53 * Rabs (p + q) <= u53 * (1.001 * T))%R) by (apply Rmult_le_compat_l; lra). lra.
Qed.
