(** Derivatives of polynomials given by coefficient lists, a bound for the
    arctangent by its Taylor polynomial, an enclosure of pi, and the relative
    error of Horner's rule with positive coefficients. *)
From Coq Require Import Reals Lra Lia Psatz QArith Qreals Qabs List.
From Flocq Require Import Core BinarySingleNaN Relative Sterbenz.
From Coquelicot Require Import Coquelicot.
From Verif Require Import Base FP FP_Proof HW HW_Proof Tf_Narrow_Proof Midpoint Fmaf_Proof Math_Model Math_Basic_Proof Math_Int_Proof Math_Lconv_Proof Hypotf_Real Hypotf_Proof Approx Subdiv Ferr Elem_Spec Elem_Proof Elem_Num Expf_Model Expf_Proof Logf_Model Logf_Kernel Logf_Proof Loginv_Proof Loginv3_Proof Hyperf_Model Hyperf_Proof Hyperf2_Proof Hyperf3_Proof.
Import ListNotations.
Open Scope Z_scope.
Local Ltac Zify.zify_post_hook ::= idtac.

(** ** derivative of a polynomial *)
Fixpoint pder (l : list Q) : list Q := match l with [] => [] | c :: l => padd l (0%Q :: pder l) end.
Lemma pder_ok l (x : R) : is_derive (peval l) x (peval (pder l) x).
Proof.
  induction l as [|c l IH]; cbn [pder peval].
  - apply is_derive_ext with (fun _ : R => 0%R); [reflexivity|]. apply (is_derive_const 0%R x).
  - rewrite padd_ok. cbn [peval]. rewrite Q2R_0.
    apply is_derive_ext with (fun t => plus (Q2R c) (t * peval l t)%R); [reflexivity|].
    replace (peval l x + (0 + x * peval (pder l) x))%R with (plus 0%R (1 * peval l x + x * peval (pder l) x)%R) by (unfold plus; cbn; ring).
    apply (is_derive_plus (fun _ : R => Q2R c) (fun t => t * peval l t)%R x 0%R (1 * peval l x + x * peval (pder l) x)%R); [apply (is_derive_const (Q2R c) x)|].
    apply (is_derive_mult (fun t : R => t) (peval l) x 1%R (peval (pder l) x)); [apply (is_derive_id x)|exact IH|intros; apply Rmult_comm].
Qed.
Lemma pder_sq l (t : R) : is_derive (fun t => peval l (t * t)) t ((2 * t) * peval (pder l) (t * t))%R.
Proof.
  apply (is_derive_comp (peval l) (fun t => t * t)%R t (peval (pder l) (t * t)) (2 * t)%R); [apply pder_ok|].
  replace (2 * t)%R with (1 * t + t * 1)%R by ring. apply (is_derive_mult (fun t : R => t) (fun t => t) t 1%R 1%R); [apply (is_derive_id t)|apply (is_derive_id t)|intros; apply Rmult_comm].
Qed.
(** monotone if no coefficient is negative *)
Definition pnonneg (l : list Q) : bool := forallb (fun c => Qle_bool 0 c) l.
Lemma pnonneg_mono l a b : pnonneg l = true -> (0 <= a <= b)%R -> (0 <= peval l a <= peval l b)%R.
Proof.
  intros P H. induction l as [|c l IH]; cbn [pnonneg forallb peval] in *; [lra|]. apply andb_prop in P. destruct P as [P1 P2]. specialize (IH P2).
  apply Q2R_le in P1. rewrite Q2R_0 in P1. assert (0 <= a * peval l a)%R by (apply Rmult_le_pos; lra). assert (a * peval l a <= b * peval l b)%R by (apply Rmult_le_compat; lra). lra.
Qed.
(** equal coefficients *)
Definition zeros (a : list Q) : bool := forallb (fun c => Qeq_bool c 0) a.
Lemma zeros_ok a x : zeros a = true -> peval a x = 0%R.
Proof.
  induction a as [|c a IH]; cbn [zeros forallb peval]; intros H; [reflexivity|]. apply andb_prop in H. destruct H as [H1 H2]. apply Qeq_bool_iff, Qeq_eqR in H1. rewrite H1, (IH H2), Q2R_0. ring.
Qed.
Fixpoint qeqs (a b : list Q) : bool := match a, b with [], _ => zeros b | _, [] => zeros a | x :: a, y :: b => Qeq_bool x y && qeqs a b end.
Lemma qeqs_ok a x : forall b, qeqs a b = true -> peval a x = peval b x.
Proof.
  induction a as [|c a IH]; intros [|d b] H; cbn [qeqs] in H; [reflexivity|rewrite (zeros_ok _ x H); reflexivity|rewrite (zeros_ok _ x H); reflexivity|].
  apply andb_prop in H. destruct H as [H1 H2]. apply Qeq_bool_iff, Qeq_eqR in H1. cbn [peval]. rewrite H1, (IH b H2). reflexivity.
Qed.

(** ** arctangent *)
Lemma atan_derive t : is_derive atan t (/ (1 + t * t)).
Proof. replace (t * t)%R with (t ^ 2)%R by ring. apply is_derive_Reals. apply derivable_pt_lim_atan. Qed.
Fixpoint atnl (n : nat) (k : Z) : list Q := match n with O => [] | S n => 0%Q :: (if (k mod 4 =? 1)%Z then 1 # Z.to_pos k else (-1) # Z.to_pos k)%Q :: atnl n (k + 2) end.
Fixpoint mono (n : nat) (c : Q) : list Q := match n with O => [c] | S n => 0%Q :: mono n c end.
Lemma mono_ok n c x : peval (mono n c) x = (Q2R c * x^n)%R.
Proof. induction n as [|n IH]; cbn [mono peval pow]; [ring|]. rewrite IH, Q2R_0. ring. Qed.
Definition tan21 : list Q := Eval vm_compute in atnl 21 1.
Lemma tan21_geom : qeqs (map Qred (pmul [1; 0; 1]%Q (pder tan21))) (padd [1%Q] (mono 42 1%Q)) = true.
Proof. vm_compute. reflexivity. Qed.
Lemma peval_red l x : peval (map Qred l) x = peval l x.
Proof. induction l as [|c l IH]; cbn [map peval]; [reflexivity|]. rewrite Q2R_red, IH. reflexivity. Qed.
Lemma atan_taylor x : (Rabs (peval tan21 x - atan x) <= (Rabs x)^43)%R.
Proof.
  assert (H : (Rabs ((fun t => peval tan21 t - atan t) x) <= 1 * (Rabs x)^43 / INR 43)%R).
  { apply (small_derivative_abs (fun t => peval tan21 t - atan t)%R (fun t => peval (pder tan21) t - / (1 + t * t))%R 1 42).
    - cbn [peval tan21]. rewrite atan_0, Q2R_0. ring.
    - intros t _. apply (is_derive_minus (peval tan21) atan); [apply pder_ok|apply atan_derive].
    - intros t _. pose proof (qeqs_ok _ t _ tan21_geom) as G. rewrite peval_red, pmul_ok, padd_ok, mono_ok in G. cbn [peval] in G. rewrite Q2R_0, Q2R_1 in G.
      assert (P : (1 <= 1 + t * t)%R) by (pose proof (Rle_0_sqr t) as K; unfold Rsqr in K; lra).
      replace (peval (pder tan21) t - / (1 + t * t))%R with (t^42 / (1 + t * t))%R.
      + unfold Rdiv. rewrite Rabs_mult, (Rabs_pos_eq (/ _)) by (left; apply Rinv_0_lt_compat; lra). rewrite RPow_abs. assert (/ (1 + t * t) <= 1)%R by (rewrite <- Rinv_1; apply Rinv_le_contravar; lra).
        assert (0 < / (1 + t * t))%R by (apply Rinv_0_lt_compat; lra). pose proof (Rabs_pos (t^42)). rewrite (Rmult_comm 1). apply Rmult_le_compat; lra.
      + replace (peval (pder tan21) t) with ((1 + t^42) / (1 + t * t))%R; [field; lra|]. apply Rmult_eq_reg_r with (1 + t * t)%R; [|lra]. unfold Rdiv. rewrite Rmult_assoc, Rinv_l by lra. lra. }
  cbv beta in H. eapply Rle_trans; [exact H|]. rewrite Rmult_1_l. pose proof (pow_le (Rabs x) 43 (Rabs_pos x)). unfold Rdiv. rewrite <- (Rmult_1_r ((Rabs x)^43)) at 2. apply Rmult_le_compat_l; [lra|].
  rewrite <- Rinv_1. apply Rinv_le_contravar; [lra|]. rewrite INR_IZR_INZ. apply IZR_le. lia.
Qed.
(** pi/4 = 2 atan(1/3) + atan(1/7) *)
Definition pi_q : Q := Eval vm_compute in Qred (8 * qpeval tan21 (1 # 3) + 4 * qpeval tan21 (1 # 7)).
Lemma pi_ok : (Rabs (PI - Q2R pi_q) <= / 10000000000000000000)%R.
Proof.
  assert (E : Q2R pi_q = (8 * peval tan21 (/ 3) + 4 * peval tan21 (/ 7))%R).
  { replace (/ 3)%R with (Q2R (1 # 3)) by (unfold Q2R; cbn [Qnum Qden]; lra). replace (/ 7)%R with (Q2R (1 # 7)) by (unfold Q2R; cbn [Qnum Qden]; lra). rewrite !qpeval_ok.
    replace 8%R with (Q2R 8) by (unfold Q2R; cbn [Qnum Qden]; lra). replace 4%R with (Q2R 4) by (unfold Q2R; cbn [Qnum Qden]; lra). rewrite <- !Q2R_mult, <- Q2R_plus. apply Qeq_eqR. vm_compute. reflexivity. }
  pose proof Machin_2_3_7 as M. pose proof (atan_taylor (/ 3)) as A. pose proof (atan_taylor (/ 7)) as B. rewrite E.
  rewrite (Rabs_pos_eq (/ 3)) in A by lra. rewrite (Rabs_pos_eq (/ 7)) in B by lra.
  assert (P3 : ((/ 3)^43 <= / 300000000000000000000)%R) by (rewrite <- Rinv_pow by lra; apply Rinv_le_contravar; [lra|]; rewrite pow_IZR; apply IZR_le; vm_compute; discriminate).
  assert (P7 : ((/ 7)^43 <= / 300000000000000000000)%R) by (rewrite <- Rinv_pow by lra; apply Rinv_le_contravar; [lra|]; rewrite pow_IZR; apply IZR_le; vm_compute; discriminate).
  apply Rabs_le_inv in A. apply Rabs_le_inv in B. apply Rabs_le. lra.
Qed.

(** ** Horner's rule with positive coefficients: l lists the patterns of the
    coefficients, constant term first *)
Fixpoint hornb (l : list Z) (xx : Z) : Z := match l with [] => 0 | [c] => c | c :: l => hstep (hornb l xx) xx c end.
Definition hornq (l : list Z) : list Q := map qval l.
Definition coef_ok (c : Z) : bool := (0 <=? c) && (c <? 2^63) && ffinite 52 11 c && Qle_bool (1 # 2^20) (qval c) && Qle_bool (qval c) 1.
Lemma coef_dbl c : coef_ok c = true -> dbl c (Q2R (qval c)) /\ (bpow radix2 (-20) <= Q2R (qval c) <= 1)%R.
Proof.
  unfold coef_ok. intros H. apply andb_prop in H. destruct H as [H H5]. apply andb_prop in H. destruct H as [H H4]. apply andb_prop in H. destruct H as [H H3]. apply andb_prop in H. destruct H as [H1 H2].
  apply Z.leb_le in H1. apply Z.ltb_lt in H2. apply Q2R_le in H4, H5. rewrite Q2R_1 in H5. replace (Q2R (1 # 2^20)) with (bpow radix2 (-20)) in H4 by (change (bpow radix2 (-20)) with (/ 1048576)%R; unfold Q2R; cbn; lra).
  pose proof (bpow_gt_0 radix2 (-20)). split; [|split; assumption]. split; [split; [exact H1|change (2^(52+11+1)) with (2^64); change (2^63) with 9223372036854775808 in H2; change (2^64) with 18446744073709551616; lia]|].
  split; [exact H3|]. split; [symmetry; apply qval_ok|]. rewrite Rabs_pos_eq by lra. eapply Rle_trans; [exact H5|]. apply (bpow_le radix2 0 600). lia.
Qed.
Lemma hornb_rel xx S S0 l : dbl xx S -> (0 <= S0 <= 1)%R -> nice (-400) S0 -> relr 0.0000000000000001112 S S0 -> (length l <= 20)%nat -> l <> [] -> forallb coef_ok l = true ->
  exists A, dbl (hornb l xx) A /\ relr (0.000000000000000334 * INR (length l)) A (peval (hornq l) S0) /\ (bpow radix2 (-20) <= peval (hornq l) S0 <= INR (length l))%R.
Proof.
  intros DS HS NS RS. induction l as [|c l IH]; intros LL NE C; [congruence|]. cbn [forallb] in C. apply andb_prop in C. destruct C as [C1 C2]. destruct (coef_dbl c C1) as [DC RC].
  pose proof (bpow_gt_0 radix2 (-20)) as B20. destruct l as [|c' l].
  - exists (Q2R (qval c)). cbn [hornb hornq map peval length INR]. split; [exact DC|]. replace (Q2R (qval c) + S0 * 0)%R with (Q2R (qval c)) by ring. split; [apply (relr_weak 0); [lra|apply relr_refl]|lra].
  - destruct (IH ltac:(cbn [length] in *; lia) ltac:(discriminate) C2) as (A & DA & RA & HA). change (hornb (c :: c' :: l) xx) with (hstep (hornb (c' :: l) xx) xx c).
    set (m := c' :: l) in *. clearbody m. cbn [hornq map peval length]. fold (hornq m). set (V := peval (hornq m) S0) in *. rewrite S_INR.
    assert (LN : (0 <= INR (length m) <= 20)%R) by (split; [apply pos_INR|]; rewrite INR_IZR_INZ; apply IZR_le; cbn [length] in LL; lia). set (n := INR (length m)) in *. clearbody n V.
    pose proof (relr_range (0.000000000000000334 * n) A V ltac:(lra) ltac:(lra) RA) as AR. set (C := Q2R (qval c)) in *. clearbody C.
    assert (SR : (0 <= S <= 1.000001 * S0)%R). { unfold relr in RS. rewrite (Rabs_pos_eq S0) in RS by lra. apply Rabs_le_inv in RS. lra. }
    assert (NP : nice (-1022) (A * S)).
    { destruct NS as [K|K]; [left; rewrite K in SR; replace S with 0%R by lra; ring|]. apply nice_ge. rewrite Rabs_pos_eq in K by lra. apply Rle_trans with (bpow radix2 (-21) * bpow radix2 (-401))%R; [rewrite <- bpow_plus; apply bpow_le; lia|].
      assert (H21 : bpow radix2 (-20) = (2 * bpow radix2 (-21))%R) by (change 2%R with (bpow radix2 1); rewrite <- bpow_plus; reflexivity).
      assert (H41 : bpow radix2 (-400) = (2 * bpow radix2 (-401))%R) by (change 2%R with (bpow radix2 1); rewrite <- bpow_plus; reflexivity).
      unfold relr in RS. rewrite (Rabs_pos_eq S0) in RS by lra. apply Rabs_le_inv in RS. pose proof (bpow_gt_0 radix2 (-21)). pose proof (bpow_gt_0 radix2 (-401)). apply Rmult_le_compat; lra. }
    assert (AS : (0 <= A * S <= 30)%R) by (split; [apply Rmult_le_pos; lra|]; apply Rle_trans with (25 * 1.1)%R; [apply Rmult_le_compat; lra|lra]).
    assert (D1 : dbl (mul64 (hornb m xx) xx) (RN53 (A * S))) by (apply (dbl_mul _ _ _ _ 10 DA DS); [change (bpow radix2 10) with 1024%R; rewrite Rabs_pos_eq by lra; lra|lia]).
    pose proof (relr_mul (0.000000000000000334 * n) 0.0000000000000001112 _ _ _ _ ltac:(lra) ltac:(lra) RA RS) as M1.
    assert (NN : (0.000000000000000334 * n * 0.0000000000000001112 <= 0.000000000000000000001)%R) by lra.
    pose proof (relr_round (0.000000000000000334 * n + 0.00000000000000011121) _ _ ltac:(lra) NP (relr_weak (0.000000000000000334 * n + 0.0000000000000001112 + 0.000000000000000334 * n * 0.0000000000000001112) (0.000000000000000334 * n + 0.00000000000000011121) _ _ ltac:(lra) M1)) as R1.
    assert (P1 : (0 <= RN53 (A * S) <= 32)%R).
    { split; [apply RN53_lb; [apply generic_format_0|lra]|]. apply RN53_ub; [change 32%R with (bpow radix2 5); apply F53_bpow; lia|lra]. }
    set (P := RN53 (A * S)) in *. clearbody P.
    assert (D2 : dbl (hstep (hornb m xx) xx c) (RN53 (P + C))) by (apply (dbl_add _ _ _ _ 10 D1 DC); [change (bpow radix2 10) with 1024%R; rewrite Rabs_pos_eq by lra; lra|lia]).
    exists (RN53 (P + C)). split; [exact D2|]. assert (VS : (0 <= S0 * V <= V)%R) by (split; [apply Rmult_le_pos; lra|]; rewrite <- (Rmult_1_l V) at 2; apply Rmult_le_compat_r; lra). split.
    + rewrite (Rplus_comm C (S0 * V)), (Rmult_comm S0 V). eapply relr_weak; [|apply (relr_round (0.000000000000000334 * n + 0.0000000000000002225))]; [lra|lra| |].
      * apply nice_ge. eapply Rle_trans; [apply (bpow_le radix2 (-1022) (-20)); lia|]. lra.
      * apply relr_add; [lra|lra|eapply relr_weak; [|exact R1]; lra|apply (relr_weak 0); [lra|apply relr_refl]].
    + lra.
Qed.
