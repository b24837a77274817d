From Coq Require Import Reals Lra Lia Psatz Bool.
From Flocq Require Import Core BinarySingleNaN Relative Mult_error.
From Verif Require Import Base FP FP_Proof HW HW_Proof Midpoint Fmaf_Proof Math_Model Math_Basic_Proof Math_Round_Proof Math_Spec Math_Props Hypotf_Model Hypotf_Real Hypotf_Proof Ferr Logf_Kernel Logf_Proof Loginv_Proof Loginv3_Proof Asinf_Proof Trigf_Proof Complex_Model Complex_Spec Complex_Proof Complex_Div_Proof Csqrt_Proof Cdiv_Model Cdiv_Proof Cdiv_Scale_Proof Cdiv_Acc_Proof.
Open Scope Z_scope.
Local Ltac Zify.zify_post_hook ::= idtac.


Lemma core_div a b c d : fin 52 11 a -> fin 52 11 b -> fin 52 11 c -> fin 52 11 d -> nz2 52 11 a b -> nz2 52 11 c d ->
  unitv 52 11 a /\ unitv 52 11 b ->
  nonz 52 11 (add64 (mul64 a c) (mul64 b d)) \/ nonz 52 11 (sub64 (mul64 b c) (mul64 a d)).
Proof.
  intros [Ha Fa] [Hb Fb] [Hc Fc] [Hd Fd] N1 N2 [U1 U2].
  pose proof (mul_unit 52 11 eq_refl eq_refl eq_refl) as MU.
  destruct (MU a c Ha Fa Hc Fc ltac:(tauto)) as (A1 & A2 & A3).
  destruct (MU b d Hb Fb Hd Fd ltac:(tauto)) as (B1 & B2 & B3).
  destruct (MU a d Ha Fa Hd Fd ltac:(tauto)) as (C1 & C2 & C3).
  destruct (MU b c Hb Fb Hc Fc ltac:(tauto)) as (D1 & D2 & D3).
  change (hmul 52 11 eq_refl eq_refl eq_refl) with mul64 in *.
  destruct (Req_dec (fval 52 11 (mul64 a c) + fval 52 11 (mul64 b d)) 0) as [E1|E1]; [|left; apply nz_add; assumption].
  destruct (Req_dec (fval 52 11 (mul64 b c) - fval 52 11 (mul64 a d)) 0) as [E2|E2]; [|right; apply nz_sub; assumption].
  exfalso. rewrite A3, B3 in E1. rewrite C3, D3 in E2. unfold nz2 in *.
  set (x := fval 52 11 a) in *. set (y := fval 52 11 b) in *. set (z := fval 52 11 c) in *. set (w := fval 52 11 d) in *. clearbody x y z w.
  assert (P : ((x * x + y * y) * (z * z + w * w) = 0)%R).
  { replace ((x * x + y * y) * (z * z + w * w))%R with ((x * z + y * w) * (x * z + y * w) + (y * z - x * w) * (y * z - x * w))%R by ring.
    rewrite E1, E2. ring. }
  apply Rmult_integral in P. destruct P as [P|P].
  - assert (x = 0%R) by nra. assert (y = 0%R) by nra. tauto.
  - assert (z = 0%R) by nra. assert (w = 0%R) by nra. tauto.
Qed.

Lemma heq_zero x : fbits 52 11 x -> heq 52 11 x 0 = true <-> ffinite 52 11 x = true /\ fval 52 11 x = 0%R.
Proof.
  intros Hx. assert (H0 : fbits 52 11 0) by (vm_compute; intuition discriminate).
  assert (V0 : fval 52 11 0 = 0%R) by (change (fval 52 11 0) with (fmag 52 11 0); apply fmag_0; reflexivity).
  destruct (class3 52 11 eq_refl x) as [K|[K|K]]; destruct K as (K1 & K2 & K3).
  - rewrite (heq_ok 52 11 eq_refl eq_refl x 0 Hx H0 K1 eq_refl), V0. tauto.
  - rewrite K1. split; [|intros [? _]; discriminate]. unfold heq, ford. change (fneg 52 11 0) with false. change (fabsb 52 11 0) with 0. intros E. exfalso.
    unfold fisinf, finf in K2. destruct (fneg 52 11 x); lia.
  - rewrite K1. split; [|intros [? _]; discriminate]. unfold heq. rewrite K3. discriminate.
Qed.
Lemma heq_self x : heq 52 11 x x = negb (fisnan 52 11 x).
Proof. unfold heq. rewrite Z.eqb_refl. destruct (fisnan 52 11 x); reflexivity. Qed.

Lemma inf_parts w r : fisinf 52 11 w = true -> fbits 52 11 w -> fbits 52 11 r -> fisnan 52 11 r = false -> (ffinite 52 11 r = true -> fval 52 11 r <> 0%R) -> fisinf 52 11 (mul64 w r) = true.
Proof. intros. apply inf_mul; try assumption. Qed.

Lemma sgn_inf x : fbits 52 11 (copysign 52 11 (finf 52 11) x) /\ fisinf 52 11 (copysign 52 11 (finf 52 11) x) = true.
Proof. unfold copysign. destruct (fneg 52 11 x); split; vm_compute; intuition discriminate. Qed.


Lemma box_zero x : fbits 52 11 x -> fisinf 52 11 x = false -> fval 52 11 (box 52 11 x) = 0%R.
Proof.
  intros Hx I. unfold box, copysign. rewrite I. change (fabsb 52 11 0) with 0.
  rewrite (with_sign_fval 52 11 eq_refl eq_refl) by lia. rewrite (fmag_0 52 11 eq_refl). destruct (fneg 52 11 x); lra.
Qed.

Local Instance P53 : Prec_gt_0 (52 + 1) := eq_refl.
Lemma RN_abs_le x y : (Rabs x <= y)%R -> (Rabs (RN 52 11 x) <= RN 52 11 y)%R.
Proof.
  intros H. unfold RN. rewrite <- round_NE_abs by typeclasses eauto. apply round_le; [typeclasses eauto|typeclasses eauto|exact H].
Qed.

(** a sum of two operands times 0, 1 or -1, when it does not overflow *)
Definition tame (A B C D : R) : Prop := (C = 0 \/ D = 0 \/ RN 52 11 (Rabs A + Rabs B) < bpow radix2 1024)%R.
Lemma unit_abs' C X : (C = 0 \/ C = 1 \/ C = -1 -> Rabs (X * C) <= Rabs X)%R.
Proof.
  intros H. rewrite Rabs_mult. pose proof (Rabs_pos X). destruct H as [->|[->| ->]].
  - rewrite Rabs_R0. lra.
  - rewrite Rabs_R1. lra.
  - replace (Rabs (-1)) with 1%R by (rewrite Rabs_left; lra). lra.
Qed.
Lemma tame_bound a b c d : fin 52 11 a -> fin 52 11 b -> unitv 52 11 c -> unitv 52 11 d -> tame (fval 52 11 a) (fval 52 11 b) (fval 52 11 c) (fval 52 11 d) ->
  (Rabs (RN 52 11 (fval 52 11 a * fval 52 11 c + fval 52 11 b * fval 52 11 d)) < bpow radix2 1024)%R /\
  (Rabs (RN 52 11 (fval 52 11 a * fval 52 11 c - fval 52 11 b * fval 52 11 d)) < bpow radix2 1024)%R.
Proof.
  intros [Ha Fa] [Hb Fb] (Hc & Fc & Uc) (Hd & Fd & Ud) T.
  pose proof (unit_exact 52 11 eq_refl eq_refl eq_refl (fval 52 11 c) a Uc Ha Fa) as [G1 G2].
  pose proof (unit_exact 52 11 eq_refl eq_refl eq_refl (fval 52 11 d) b Ud Hb Fb) as [G3 G4].
  change (2^(11-1)) with 1024 in *.
  assert (ID : forall x, generic_format radix2 (FLT_exp (emin 52 11) (52+1)) x -> RN 52 11 x = x) by (intros x Gx; apply round_generic; [typeclasses eauto|exact Gx]).
  set (A := fval 52 11 a) in *. set (B := fval 52 11 b) in *. set (C := fval 52 11 c) in *. set (D := fval 52 11 d) in *.
  destruct T as [E|[E|T]].
  - rewrite E, Rmult_0_r, Rplus_0_l. unfold Rminus. rewrite Rplus_0_l. rewrite (Rmult_comm B D).
    rewrite (ID _ G3). rewrite (ID _ (generic_format_opp _ _ _ G3)). rewrite Rabs_Ropp. split; exact G4.
  - rewrite E, Rmult_0_r, Rplus_0_r, Rminus_0_r. rewrite (Rmult_comm A C). rewrite (ID _ G1). split; exact G2.
  - pose proof (unit_abs C A Uc) as L1. pose proof (unit_abs D B Ud) as L2.
    split; (eapply Rle_lt_trans; [apply RN_abs_le|exact T]).
    + apply Rle_trans with (1 := Rabs_triang _ _). lra.
    + unfold Rminus. apply Rle_trans with (1 := Rabs_triang _ _). rewrite Rabs_Ropp. lra.
Qed.

Lemma zero_times r : fbits 52 11 r -> ffinite 52 11 r = true -> ffinite 52 11 (mul64 0 r) = true /\ fval 52 11 (mul64 0 r) = 0%R.
Proof.
  intros Hr Fr. assert (H0 : fbits 52 11 0) by (vm_compute; intuition discriminate).
  pose proof (hmul_ok 52 11 eq_refl eq_refl eq_refl 0 r H0 Hr eq_refl Fr) as H. change (hmul 52 11 eq_refl eq_refl eq_refl 0 r) with (mul64 0 r) in H.
  assert (V0 : fval 52 11 0 = 0%R) by (change (fval 52 11 0) with (fmag 52 11 0); apply fmag_0; reflexivity).
  rewrite V0, Rmult_0_l in H. destruct H as (_ & _ & H & _).
  assert (Z0 : RN 52 11 0 = 0%R) by (unfold RN; apply round_0; apply valid_rnd_N). rewrite Z0, Rabs_R0 in H. apply H. apply bpow_gt_0.
Qed.

Lemma zmul p q : fin 52 11 p -> fin 52 11 q -> fval 52 11 q = 0%R -> dbl (mul64 p q) 0.
Proof.
  intros [Hp Fp] [Hq Fq] V. pose proof (hmul_ok 52 11 eq_refl eq_refl eq_refl p q Hp Hq Fp Fq) as H. change (hmul 52 11 eq_refl eq_refl eq_refl p q) with (mul64 p q) in H.
  rewrite V, Rmult_0_r in H. destruct H as (H1 & _ & H & _).
  assert (Z0 : RN 52 11 0 = 0%R) by (unfold RN; apply round_0; apply valid_rnd_N). rewrite Z0, Rabs_R0 in H. destruct (H (bpow_gt_0 _ _)) as [H2 H3].
  split; [exact H1|]. split; [exact H2|]. split; [exact H3|]. rewrite Rabs_R0. apply bpow_ge_0.
Qed.

Lemma nan_nf x : fisnan 52 11 x = true -> ffinite 52 11 x = false.
Proof. unfold fisnan, ffinite. lia. Qed.
Lemma scalbn_nf x n : is_i32 n -> fbits 52 11 x -> ffinite 52 11 x = false -> scalbn x n = Ok x.
Proof. intros. apply C70_scalbn; assumption. Qed.

Lemma kernel_zero' a b c d : fbits 52 11 a -> fbits 52 11 b -> dbl c 0 -> dbl d 0 ->
  dbl (add64 (mul64 c c) (mul64 d d)) 0 /\
  fisnan 52 11 (div64 (add64 (mul64 a c) (mul64 b d)) (add64 (mul64 c c) (mul64 d d))) = true /\
  fisnan 52 11 (div64 (sub64 (mul64 b c) (mul64 a d)) (add64 (mul64 c c) (mul64 d d))) = true.
Proof.
  intros Ha Hb Dc Dd.
  assert (MB : forall p q, fbits 52 11 (mul64 p q)) by (intros p q; apply mul_bits; reflexivity).
  assert (AB : forall p q, fbits 52 11 (add64 p q)) by (intros p q; apply add_bits; reflexivity).
  assert (SB : forall p q, fbits 52 11 (sub64 p q)) by (intros p q; apply sub_bits; reflexivity).
  assert (DEN : dbl (add64 (mul64 c c) (mul64 d d)) 0) by (apply add_zero; eapply mul_zero; eassumption).
  split; [exact DEN|].
  assert (ZM : forall p q, fbits 52 11 p -> ffinite 52 11 p = true -> dbl q 0 -> dbl (mul64 p q) 0) by (intros p q Hp Fp (Q1 & Q2 & Q3 & _); apply zmul; [split; assumption|split; assumption|exact Q3]).
  destruct (ffinite 52 11 a) eqn:Fa.
  - destruct (ffinite 52 11 b) eqn:Fb.
    + split; apply div_00; try exact DEN; apply add_zero; apply ZM; assumption.
    + pose proof (nf_zero _ _ Hb Fb Dd) as N1. pose proof (nf_zero _ _ Hb Fb Dc) as N2.
      split; (apply div_nan; [auto|]); apply nan_plus; auto.
  - pose proof (nf_zero _ _ Ha Fa Dc) as N1. pose proof (nf_zero _ _ Ha Fa Dd) as N2.
    split; (apply div_nan; [auto|]); apply nan_plus; auto.
Qed.

Lemma divdc3_zero a b c d : cbits 52 11 (a, b) -> cbits 52 11 (c, d) -> czero 52 11 (c, d) ->
  cinf 52 11 (a, b) \/ (cfin 52 11 (a, b) /\ ~ czero 52 11 (a, b)) -> exists r, divdc3 a b c d = Ok r /\ cbits 52 11 r /\ cinf 52 11 r.
Proof.
  unfold cbits, czero, cinf, cfin. cbn [fst snd]. intros [Ha Hb] [Hc Hd] ((Fc & Fd) & Vc & Vd) H.
  assert (Dc : dbl c 0) by (split; [exact Hc|]; split; [exact Fc|]; split; [exact Vc|]; rewrite Rabs_R0; apply bpow_ge_0).
  assert (Dd : dbl d 0) by (split; [exact Hd|]; split; [exact Fd|]; split; [exact Vd|]; rewrite Rabs_R0; apply bpow_ge_0).
  destruct (kernel_zero' a b c d Ha Hb Dc Dd) as (DEN & K1 & K2).
  assert (LB : logb 52 11 eq_refl eq_refl (fmax 52 11 (fabsb 52 11 c) (fabsb 52 11 d)) = Ok (with_sign 52 11 true (finf 52 11))).
  { destruct (max_val c d Hc Hd Fc Fd) as (M1 & M2 & M3). destruct (C71_logb _ M1) as (L1 & _ & _ & L4). apply L1.
    destruct (Z.eq_dec (fabsb 52 11 (fmax 52 11 (fabsb 52 11 c) (fabsb 52 11 d))) 0) as [E|E]; [exact E|exfalso]. destruct (L4 E M2) as (r & e & _ & _ & _ & _ & X & _).
    rewrite M3, Vc, Vd, Rabs_R0, Rmax_left, Rabs_R0 in X by lra. pose proof (bpow_gt_0 radix2 e). lra. }
  assert (I0 : is_i32 0) by (unfold is_i32, INT_MIN, INT_MAX; lia).
  unfold divdc3. rewrite LB. cbn [bind]. unfold isfin64. change (ffinite 52 11 (with_sign 52 11 true (finf 52 11))) with false. cbn [bind].
  rewrite (scalbn_nf _ 0 I0 (div_bits _ _) (nan_nf _ K1)). cbn [bind]. rewrite (scalbn_nf _ 0 I0 (div_bits _ _) (nan_nf _ K2)). cbn [bind]. rewrite K1, K2. cbn [andb].
  destruct DEN as (DB & DF & DV & _). rewrite (proj2 (heq_zero _ DB) (conj DF DV)). cbn [andb]. rewrite !heq_self.
  destruct (sgn_inf c) as [S1 S2].
  assert (Q : (fisnan 52 11 a = false /\ (ffinite 52 11 a = true -> fval 52 11 a <> 0%R)) \/ (fisnan 52 11 b = false /\ (ffinite 52 11 b = true -> fval 52 11 b <> 0%R))).
  { destruct H as [[H|H]|[[Fa Fb] H]].
    - left. unfold fisinf, fisnan, ffinite in *. split; [lia|]. intros; lia.
    - right. unfold fisinf, fisnan, ffinite in *. split; [lia|]. intros; lia.
    - destruct (Req_dec (fval 52 11 a) 0) as [E|E].
      + right. split; [apply finite_not_nan; exact Fb|]. intros _ E'. tauto.
      + left. split; [apply finite_not_nan; exact Fa|]. intros _. exact E. }
  assert (MB : forall p q, fbits 52 11 (mul64 p q)) by (intros p q; apply mul_bits; reflexivity).
  eexists. split; [destruct Q as [[Q1 _]|[Q1 _]]; rewrite Q1; cbn [negb orb]; rewrite ?Bool.orb_true_r; reflexivity|]. cbn [fst snd].
  split; [split; apply MB|]. destruct Q as [[Q1 Q2]|[Q1 Q2]]; [left|right]; apply inf_parts; assumption.
Qed.

Lemma divdc3_inf_nz a b c d : cbits 52 11 (a, b) -> cbits 52 11 (c, d) -> cinf 52 11 (a, b) -> cfin 52 11 (c, d) -> nz2 52 11 c d -> exists r, divdc3 a b c d = Ok r /\ cbits 52 11 r /\ cinf 52 11 r.
Proof.
  unfold cbits, cinf, cfin. cbn [fst snd]. intros [Ha Hb] [Hc Hd] I [Fc Fd] NZ.
  destruct (scale_ok c d Hc Hd Fc Fd NZ) as (lw & e & c' & d' & C' & D' & L1 & L2 & L3 & He & S1 & S2 & DC & DD & X). cbv zeta in X. destruct X as (E1 & E2 & UC & UD & LO).
  set (C := (fval 52 11 c * bpow radix2 (- e))%R) in *. set (D := (fval 52 11 d * bpow radix2 (- e))%R) in *. clearbody C D.
  assert (ET : (eta <= 0.000001)%R).
  { destruct u53_dec as [U0 U1]. assert (eta <= 0.000001 * (u53 * 1))%R by (apply eta_tiny; apply (bpow_le radix2 (-900) 0); lia). lra. }
  assert (LO' : (0.9 <= Rabs C' \/ 0.9 <= Rabs D')%R).
  { destruct LO as [LO|LO]; [left; pose proof (Rabs_triang_inv C (C - C')) as T; replace (C - (C - C'))%R with C' in T by ring; rewrite (Rabs_minus_sym C C') in T|right; pose proof (Rabs_triang_inv D (D - D')) as T; replace (D - (D - D'))%R with D' in T by ring; rewrite (Rabs_minus_sym D D') in T]; lra. }
  assert (CB : (Rabs C' <= 2.1)%R) by (replace C' with (C + (C' - C))%R by ring; eapply Rle_trans; [apply Rabs_triang|]; lra).
  assert (DBd : (Rabs D' <= 2.1)%R) by (replace D' with (D + (D' - D))%R by ring; eapply Rle_trans; [apply Rabs_triang|]; lra).
  assert (SQB : forall x : R, (Rabs x <= 2.1 -> Rabs (x * x) <= 4.5 /\ 0 <= x * x)%R).
  { intros x Hx. split; [|apply Rle_0_sqr]. rewrite Rabs_mult. pose proof (Rmult_le_compat _ _ _ _ (Rabs_pos x) (Rabs_pos x) Hx Hx). lra. }
  assert (SQL : forall x : R, (0.9 <= Rabs x -> 0.8 <= x * x)%R).
  { intros x Hx. assert (Rabs x * Rabs x = x * x)%R by (rewrite <- Rabs_mult; apply Rabs_pos_eq; apply Rle_0_sqr). assert (0.9 * 0.9 <= Rabs x * Rabs x)%R by (apply Rmult_le_compat; lra). lra. }
  destruct (SQB _ CB) as [B1 P1]. destruct (SQB _ DBd) as [B2 P2].
  pose proof (dbl_mul c' c' C' C' 3 DC DC ltac:(change (bpow radix2 3) with 8%R; lra) ltac:(lia)) as M1. pose proof (dbl_mul d' d' D' D' 3 DD DD ltac:(change (bpow radix2 3) with 8%R; lra) ltac:(lia)) as M2.
  assert (UE : (0 < u53 <= 0.000001)%R) by (pose proof u53_dec; lra).
  assert (R1 : forall x : R, (Rabs x <= 16 -> 0 <= x -> x - 0.001 <= RN53 x <= x + 0.001)%R).
  { intros x Hx PX. pose proof (RN_eta x) as R. apply Rabs_le_inv in R. pose proof (Rmult_le_compat u53 0.000001 (Rabs x) 16 ltac:(lra) (Rabs_pos x) ltac:(lra) Hx). lra. }
  pose proof (R1 (C' * C')%R ltac:(lra) P1) as Q1. pose proof (R1 (D' * D')%R ltac:(lra) P2) as Q2.
  assert (SB1 : (Rabs (RN53 (C' * C') + RN53 (D' * D')) <= 16)%R) by (rewrite (Rabs_pos_eq (C' * C')) in B1 by lra; rewrite (Rabs_pos_eq (D' * D')) in B2 by lra; apply Rabs_le; lra).
  pose proof (dbl_add _ _ _ _ 4 M1 M2 SB1 ltac:(lia)) as DK.
  assert (KP : (0.5 <= RN53 (RN53 (C' * C') + RN53 (D' * D')))%R).
  { assert (S0 : (0.7 <= RN53 (C' * C') + RN53 (D' * D'))%R) by (destruct LO' as [L|L]; apply SQL in L; lra). pose proof (R1 _ SB1 ltac:(lra)). lra. }
  set (den := add64 (mul64 c' c') (mul64 d' d')) in *. set (K := RN53 (RN53 (C' * C') + RN53 (D' * D'))) in *. clearbody K.
  destruct DK as (KB & KF & KV & _). pose proof DC as (Hc' & Fc' & Vc' & _). pose proof DD as (Hd' & Fd' & Vd' & _).
  assert (NF : forall x, fisinf 52 11 x = true -> ffinite 52 11 x = false) by (intros x Ix; unfold fisinf, ffinite in *; lia).
  assert (AB : ffinite 52 11 a = false \/ ffinite 52 11 b = false) by (destruct I as [I|I]; apply NF in I; tauto).
  assert (ABt : forall p q, fbits 52 11 (add64 p q)) by (intros p q; apply add_bits; reflexivity).
  assert (SBt : forall p q, fbits 52 11 (sub64 p q)) by (intros p q; apply sub_bits; reflexivity).
  assert (MB : forall p q, fbits 52 11 (mul64 p q)) by (intros p q; apply mul_bits; reflexivity).
  pose proof (proj1 (num_nf a c' b d' Ha Hc' Hb Hd' ltac:(tauto))) as X.
  pose proof (proj2 (num_nf b c' a d' Hb Hc' Ha Hd' ltac:(tauto))) as Y.
  pose proof (div_nf _ _ (ABt _ _) KB X KF) as X'. pose proof (div_nf _ _ (SBt _ _) KB Y KF) as Y'.
  assert (IE : is_i32 (- e)) by (unfold is_i32, INT_MIN, INT_MAX; lia).
  assert (HZ : heq 52 11 den 0 = false) by (apply Bool.not_true_iff_false; intros ZZ; apply (heq_zero _ KB) in ZZ; destruct ZZ as [_ ZZ]; lra).
  assert (I' : fisinf 52 11 a || fisinf 52 11 b = true) by (apply Bool.orb_true_iff; exact I).
  assert (EQ : exists r, divdc3 a b c d = Ok r /\ r = (if fisnan 52 11 (div64 (add64 (mul64 a c') (mul64 b d')) den) && fisnan 52 11 (div64 (sub64 (mul64 b c') (mul64 a d')) den) then
      (mul64 (finf 52 11) (add64 (mul64 (box 52 11 a) c') (mul64 (box 52 11 b) d')), mul64 (finf 52 11) (sub64 (mul64 (box 52 11 b) c') (mul64 (box 52 11 a) d')))
    else (div64 (add64 (mul64 a c') (mul64 b d')) den, div64 (sub64 (mul64 b c') (mul64 a d')) den))).
  { eexists. split; [|reflexivity]. unfold divdc3, isfin64. rewrite L1. cbn [bind]. rewrite L2, L3. cbn [bind]. rewrite S1. cbn [bind]. rewrite S2. cbn [bind]. cbv zeta. fold den.
    rewrite (scalbn_nf _ _ IE (div_bits _ _) X'). cbn [bind]. rewrite (scalbn_nf _ _ IE (div_bits _ _) Y'). cbn [bind]. rewrite HZ, I', Fc', Fd'. cbn [andb].
    destruct (fisnan 52 11 _ && fisnan 52 11 _); reflexivity. }
  destruct EQ as (r & E & ->). eexists. split; [exact E|].
  destruct (fisnan 52 11 (div64 (add64 (mul64 a c') (mul64 b d')) den)) eqn:NX; cbn [andb].
  - destruct (fisnan 52 11 (div64 (sub64 (mul64 b c') (mul64 a d')) den)) eqn:NY; cbn [fst snd].
    + split; [split; apply MB|].
      destruct (box_pair 52 11 eq_refl eq_refl eq_refl a b Ha Hb I) as (U1 & U2 & U3).
      assert (NZ' : nz2 52 11 c' d') by (unfold nz2; rewrite Vc', Vd'; destruct LO' as [L|L]; [left|right]; intros Z0; rewrite Z0, Rabs_R0 in L; lra).
      destruct (core_div (box 52 11 a) (box 52 11 b) c' d' (unit_fin 52 11 _ U1) (unit_fin 52 11 _ U2) (conj Hc' Fc') (conj Hd' Fd') U3 NZ' (conj U1 U2)) as [Kk|Kk]; [left|right]; apply (inf_nonz 52 11 eq_refl eq_refl eq_refl); exact Kk.
    + split; [split; apply div_bits|]. right. apply (nf_notnan 52 11 eq_refl); assumption.
  - cbn [fst snd]. split; [split; apply div_bits|]. left. apply (nf_notnan 52 11 eq_refl); assumption.
Qed.

Lemma max_inf c d : fbits 52 11 c -> fbits 52 11 d -> fisinf 52 11 c = true \/ fisinf 52 11 d = true ->
  fbits 52 11 (fmax 52 11 (fabsb 52 11 c) (fabsb 52 11 d)) /\ fisinf 52 11 (fmax 52 11 (fabsb 52 11 c) (fabsb 52 11 d)) = true.
Proof.
  intros Hc Hd I. assert (F : forall x, fabsb 52 11 (fabsb 52 11 x) = fabsb 52 11 x /\ fneg 52 11 (fabsb 52 11 x) = false /\ fbits 52 11 (fabsb 52 11 x)).
  { intros x. assert (R : 0 <= fabsb 52 11 x < 2^(52+11)) by (apply Z.mod_pos_bound; reflexivity). split; [apply Z.mod_small; exact R|]. split; [unfold fneg; apply Z.leb_gt; exact (proj2 R)|].
    split; [lia|change (2^(52+11+1)) with (2 * 2^(52+11)); lia]. }
  destruct (F c) as (C1 & C2 & C3). destruct (F d) as (D1 & D2 & D3). unfold fisinf in I. set (p := fabsb 52 11 c) in *. set (q := fabsb 52 11 d) in *. clearbody p q.
  unfold fmax, hle, fisnan, fisinf, ford. rewrite C1, C2, D1, D2. set (v := finf 52 11) in *. clearbody v.
  destruct (v <? p) eqn:E1; destruct (v <? q) eqn:E2; destruct (q <=? p) eqn:E3; cbn [negb andb orb]; rewrite ?C1, ?D1; (split; [assumption|lia]).
Qed.

Lemma divdc3_over_inf a b c d : cbits 52 11 (a, b) -> cbits 52 11 (c, d) -> cfin 52 11 (a, b) -> cinf 52 11 (c, d) ->
  (fisinf 52 11 c = false \/ fisinf 52 11 d = false \/ (RN 52 11 (Rabs (fval 52 11 a) + Rabs (fval 52 11 b)) < bpow radix2 1024)%R) ->
  exists r, divdc3 a b c d = Ok r /\ cbits 52 11 r /\ czero 52 11 r.
Proof.
  unfold cbits, cinf, cfin, czero. cbn [fst snd]. intros [Ha Hb] [Hc Hd] [Fa Fb] I T.
  assert (NF : forall x, fisinf 52 11 x = true -> ffinite 52 11 x = false) by (intros x Ix; unfold fisinf, ffinite in *; lia).
  assert (CD : ffinite 52 11 c = false \/ ffinite 52 11 d = false) by (destruct I as [I|I]; apply NF in I; tauto).
  pose proof (proj1 (num_nf a c b d Ha Hc Hb Hd ltac:(tauto))) as X.
  pose proof (proj2 (num_nf b c a d Hb Hc Ha Hd ltac:(tauto))) as Y.
  pose proof (proj1 (num_nf c c d d Hc Hc Hd Hd ltac:(tauto))) as DEN.
  assert (ABt : forall p q, fbits 52 11 (add64 p q)) by (intros p q; apply add_bits; reflexivity).
  assert (SBt : forall p q, fbits 52 11 (sub64 p q)) by (intros p q; apply sub_bits; reflexivity).
  pose proof (div_nn _ _ (ABt _ _) (ABt _ _) X DEN) as X'. pose proof (div_nn _ _ (SBt _ _) (ABt _ _) Y DEN) as Y'.
  assert (ZZ : heq 52 11 (add64 (mul64 c c) (mul64 d d)) 0 = false).
  { apply Bool.not_true_iff_false. intros ZZ. apply (heq_zero _ (ABt _ _)) in ZZ. destruct ZZ. congruence. }
  destruct (fin_class 52 11 eq_refl a (conj Ha Fa)) as [Ia _]. destruct (fin_class 52 11 eq_refl b (conj Hb Fb)) as [Ib _].
  destruct (max_inf c d Hc Hd I) as [MB MI]. pose proof (proj1 (proj2 (C71_logb _ MB)) MI) as LB.
  assert (I0 : is_i32 0) by (unfold is_i32, INT_MIN, INT_MAX; lia).
  unfold divdc3. rewrite LB. cbn [bind]. unfold isfin64. change (ffinite 52 11 (finf 52 11)) with false. cbn [bind].
  rewrite (scalbn_nf _ 0 I0 (div_bits _ _) (nan_nf _ X')). cbn [bind]. rewrite (scalbn_nf _ 0 I0 (div_bits _ _) (nan_nf _ Y')). cbn [bind]. rewrite X', Y', ZZ, Ia, Ib, Fa, Fb. cbn [andb orb].
  change (heq 52 11 (finf 52 11) (finf 52 11)) with true. cbn [andb]. eexists. split; [reflexivity|]. cbn [fst snd].
  split; [split; apply mul_bits; reflexivity|].
  pose proof (box_unit 52 11 eq_refl eq_refl eq_refl c) as Uc. specialize (Uc Hc). pose proof (box_unit 52 11 eq_refl eq_refl eq_refl d) as Ud. specialize (Ud Hd).
  assert (TT : tame (fval 52 11 a) (fval 52 11 b) (fval 52 11 (box 52 11 c)) (fval 52 11 (box 52 11 d))).
  { destruct T as [T|[T|T]]; [left; apply box_zero; assumption|right; left; apply box_zero; assumption|right; right; exact T]. }
  assert (TT' : tame (fval 52 11 b) (fval 52 11 a) (fval 52 11 (box 52 11 c)) (fval 52 11 (box 52 11 d))).
  { unfold tame in *. rewrite (Rplus_comm (Rabs (fval 52 11 b))). exact TT. }
  destruct (tame_bound a b _ _ (conj Ha Fa) (conj Hb Fb) Uc Ud TT) as [TB1 _].
  destruct (tame_bound b a _ _ (conj Hb Fb) (conj Ha Fa) Uc Ud TT') as [_ TB2].
  set (c1 := box 52 11 c) in *. set (d1 := box 52 11 d) in *. clearbody c1 d1. pose proof Uc as (Hc1 & Fc1 & _). pose proof Ud as (Hd1 & Fd1 & _).
  pose proof (mul_unit 52 11 eq_refl eq_refl eq_refl) as MU.
  destruct (MU a c1 Ha Fa Hc1 Fc1 ltac:(tauto)) as (A1 & A2 & A3).
  destruct (MU b d1 Hb Fb Hd1 Fd1 ltac:(tauto)) as (B1 & B2 & B3).
  destruct (MU a d1 Ha Fa Hd1 Fd1 ltac:(tauto)) as (C1 & C2 & C3).
  destruct (MU b c1 Hb Fb Hc1 Fc1 ltac:(tauto)) as (D1 & D2 & D3).
  change (hmul 52 11 eq_refl eq_refl eq_refl) with mul64 in *.
  pose proof (hadd_ok 52 11 eq_refl eq_refl eq_refl _ _ A1 B1 A2 B2) as (E1 & _ & E2 & _).
  pose proof (hsub_ok 52 11 eq_refl eq_refl eq_refl _ _ D1 C1 D2 C2) as (E3 & _ & E4 & _).
  rewrite A3, B3 in E2. rewrite C3, D3 in E4. destruct (E2 TB1) as [E5 _]. destruct (E4 TB2) as [E6 _].
  destruct (zero_times _ E1 E5) as [Z1 Z2]. destruct (zero_times _ E3 E6) as [Z3 Z4]. exact (conj (conj Z1 Z3) (conj Z2 Z4)).
Qed.

