From Coq Require Import Reals Lra Lia Psatz Bool.
From Flocq Require Import Core BinarySingleNaN Relative Mult_error.
From Verif Require Import Base FP FP_Proof HW HW_Proof Midpoint Fmaf_Proof Math_Model Math_Basic_Proof Math_Round_Proof Math_Spec Math_Props Hypotf_Model Hypotf_Real Hypotf_Proof Ferr Logf_Kernel Logf_Proof Loginv_Proof Loginv3_Proof Asinf_Proof Trigf_Proof Complex_Model Complex_Spec Complex_Proof Complex_Div_Proof Csqrt_Proof Cdiv_Model Cdiv_Proof Cdiv_Scale_Proof.
Open Scope Z_scope.
Local Ltac Zify.zify_post_hook ::= idtac.


Lemma sq_part C C' T : (Rabs (C' - C) <= eta -> Rabs C <= 2 -> 1 <= T -> Rabs (RN53 (C' * C') - C * C) <= u53 * (Rabs C * Rabs C) + 0.00001 * (u53 * T) /\ Rabs (C' * C') <= 5)%R.
Proof.
  intros H HC HT. destruct u53_dec as [U0 U1]. pose proof eta_pos as E0.
  assert (ET : (eta <= 0.000001 * (u53 * T))%R) by (apply eta_tiny; pose proof (bpow_le radix2 (-900) 0 ltac:(lia)) as G; change (bpow radix2 0) with 1%R in G; lra).
  assert (ET1 : (eta <= 0.000001 * (u53 * 1))%R) by (apply eta_tiny; apply (bpow_le radix2 (-900) 0); lia).
  assert (X : (Rabs (C' * C' - C * C) <= 5 * eta)%R).
  { replace (C' * C' - C * C)%R with ((C' - C) * (2 * C + (C' - C)))%R by ring. rewrite Rabs_mult. apply Rle_trans with (eta * 5)%R; [|lra]. apply Rmult_le_compat; [apply Rabs_pos|apply Rabs_pos|exact H|].
    eapply Rle_trans; [apply Rabs_triang|]. rewrite Rabs_mult, (Rabs_pos_eq 2) by lra. lra. }
  assert (S : (Rabs (C' * C') <= Rabs C * Rabs C + 5 * eta)%R).
  { replace (C' * C')%R with (C * C + (C' * C' - C * C))%R by ring. eapply Rle_trans; [apply Rabs_triang|]. rewrite Rabs_mult. lra. }
  assert (S4 : (Rabs C * Rabs C <= 2 * 2)%R) by (apply Rmult_le_compat; try apply Rabs_pos; lra).
  split; [|lra]. pose proof (RN_eta (C' * C')) as R.
  assert (US : (u53 * Rabs (C' * C') <= u53 * (Rabs C * Rabs C + 5 * eta))%R) by (apply Rmult_le_compat_l; lra).
  assert (UE : (u53 * eta <= 0.000001 * eta)%R) by (apply Rmult_le_compat_r; lra).
  replace (RN53 (C' * C') - C * C)%R with ((RN53 (C' * C') - C' * C') + (C' * C' - C * C))%R by ring. eapply Rle_trans; [apply Rabs_triang|]. lra.
Qed.

Lemma num_part a b c d A B C D C' D' Z W : dbl a A -> dbl b B -> dbl c C' -> dbl d D' -> (Rabs (C' - C) <= eta -> Rabs (D' - D) <= eta -> 0 <= Z -> 1 <= W <= 3 -> Z * Z = A * A + B * B -> W * W = C * C + D * D -> bpow radix2 (-900) <= Z <= bpow radix2 590 ->
  exists N M, dbl (add64 (mul64 a c) (mul64 b d)) N /\ dbl (sub64 (mul64 b c) (mul64 a d)) M /\
    Rabs (A * C + B * D) <= Z * W /\ Rabs (B * C - A * D) <= Z * W /\ Rabs (N - (A * C + B * D)) <= 2.1 * (u53 * (Z * W)) /\ Rabs (M - (B * C - A * D)) <= 2.1 * (u53 * (Z * W)))%R.
Proof.
  intros DA DB DC DD HC HD PZ HW EZ EW HZ. destruct u53_dec as [U0 U1]. pose proof eta_pos as E0. pose proof (bpow_gt_0 radix2 (-900)) as P9.
  set (T := (Z * W)%R). assert (ZT : (Z <= T)%R) by (unfold T; rewrite <- (Rmult_1_r Z) at 1; apply Rmult_le_compat_l; lra). assert (T3 : (T <= 3 * Z)%R) by (unfold T; rewrite Rmult_comm; apply Rmult_le_compat_r; lra).
  assert (ET : (eta <= 0.000001 * (u53 * T))%R) by (apply eta_tiny; lra). assert (UT : (0 <= u53 * T)%R) by (apply Rmult_le_pos; lra). assert (UT1 : (u53 * T <= 0.000001 * T)%R) by (apply Rmult_le_compat_r; lra).
  assert (AZ : (Rabs A <= Z)%R) by (apply Rsqr_incr_0_var; [|exact PZ]; unfold Rsqr; rewrite <- Rabs_mult, Rabs_pos_eq; nra).
  assert (BZ : (Rabs B <= Z)%R) by (apply Rsqr_incr_0_var; [|exact PZ]; unfold Rsqr; rewrite <- Rabs_mult, Rabs_pos_eq; nra).
  assert (CW : (Rabs C <= 3)%R) by (apply Rle_trans with W; [apply Rsqr_incr_0_var; [unfold Rsqr; rewrite <- Rabs_mult, Rabs_pos_eq; nra|lra]|lra]).
  assert (DW : (Rabs D <= 3)%R) by (apply Rle_trans with W; [apply Rsqr_incr_0_var; [unfold Rsqr; rewrite <- Rabs_mult, Rabs_pos_eq; nra|lra]|lra]).
  pose proof (cauchy A B C D Z W PZ ltac:(lra) EZ EW) as K1. fold T in K1.
  pose proof (cauchy B A C D Z W PZ ltac:(lra) ltac:(lra) EW) as K2. fold T in K2.
  pose proof (prod_eta A C C' T HC ltac:(lra) ET ltac:(lra)) as P1. pose proof (prod_eta B D D' T HD ltac:(lra) ET ltac:(lra)) as P2.
  pose proof (prod_eta B C C' T HC ltac:(lra) ET ltac:(lra)) as P3. pose proof (prod_eta A D D' T HD ltac:(lra) ET ltac:(lra)) as P4.
  assert (ET1 : (eta <= 0.000001 * (u53 * 1))%R) by (apply eta_tiny; apply (bpow_le radix2 (-900) 0); lia).
  assert (BIG : (4 * Z <= bpow radix2 592)%R).
  { pose proof (twice_bp 590). pose proof (twice_bp 591). change (590 + 1) with 591 in *. change (591 + 1) with 592 in *. lra. }
  assert (MB : forall X Y Y' : R, (Rabs X <= Z -> Rabs Y <= 3 -> Rabs (Y' - Y) <= eta -> Rabs (X * Y') <= bpow radix2 592)%R).
  { intros X Y Y' HX HY HE. rewrite Rabs_mult. apply Rle_trans with (Z * 4)%R; [|lra]. apply Rmult_le_compat; try apply Rabs_pos; [exact HX|]. replace Y' with (Y + (Y' - Y))%R by ring. eapply Rle_trans; [apply Rabs_triang|]. lra. }
  pose proof (dbl_mul a c A C' 592 DA DC (MB _ _ _ AZ CW HC) ltac:(lia)) as M1. pose proof (dbl_mul b d B D' 592 DB DD (MB _ _ _ BZ DW HD) ltac:(lia)) as M2.
  pose proof (dbl_mul b c B C' 592 DB DC (MB _ _ _ BZ CW HC) ltac:(lia)) as M3. pose proof (dbl_mul a d A D' 592 DA DD (MB _ _ _ AZ DW HD) ltac:(lia)) as M4.
  set (p1 := RN53 (A * C')) in *. set (p2 := RN53 (B * D')) in *. set (p3 := RN53 (B * C')) in *. set (p4 := RN53 (A * D')) in *. clearbody p1 p2 p3 p4. clear MB.
  assert (AB : forall X Y : R, (Rabs (X * Y) <= Rabs X * Rabs Y)%R) by (intros; rewrite Rabs_mult; lra).
  destruct (sum_eta p1 p2 (A * C) (B * D) _ _ T (AB A C) (AB B D) K1 ET P1 P2) as [S1 S2].
  assert (P4' : (Rabs (- p4 - - (A * D)) <= u53 * (Rabs A * Rabs D) + 0.00001 * (u53 * T))%R) by (replace (- p4 - - (A * D))%R with (- (p4 - A * D))%R by ring; rewrite Rabs_Ropp; exact P4).
  assert (AD' : (Rabs (- (A * D)) <= Rabs A * Rabs D)%R) by (rewrite Rabs_Ropp; apply AB).
  destruct (sum_eta p3 (- p4) (B * C) (- (A * D)) _ _ T (AB B C) AD' K2 ET P3 P4') as [S3 S4].
  exists (RN53 (p1 + p2)), (RN53 (p3 - p4)).
  split; [apply (dbl_add _ _ _ _ 592 M1 M2); [lra|lia]|]. split; [apply (dbl_sub _ _ _ _ 592 M3 M4); [unfold Rminus; lra|lia]|].
  split; [eapply Rle_trans; [apply Rabs_triang|]; pose proof (AB A C); pose proof (AB B D); lra|].
  split; [unfold Rminus; eapply Rle_trans; [apply Rabs_triang|]; pose proof (AB B C); lra|]. split; [exact S1|]. unfold Rminus in *. exact S3.
Qed.

Lemma div_ok a b c d : let A := fval 52 11 a in let B := fval 52 11 b in let C := fval 52 11 c in let D := fval 52 11 d in
  let Z := sqrt (A * A + B * B) in let W := sqrt (C * C + D * D) in
  fbits 52 11 a -> fbits 52 11 b -> fbits 52 11 c -> fbits 52 11 d -> ffinite 52 11 a = true -> ffinite 52 11 b = true -> ffinite 52 11 c = true -> ffinite 52 11 d = true -> (C <> 0 \/ D <> 0)%R ->
  (bpow radix2 (-900) <= Z <= bpow radix2 590)%R -> (bpow radix2 (-1000) <= Z / W <= bpow radix2 1000)%R ->
  exists u v, divdc3 a b c d = Ok (u, v) /\ fbits 52 11 u /\ fbits 52 11 v /\ ffinite 52 11 u = true /\ ffinite 52 11 v = true /\
    (Rabs (fval 52 11 u - (A * C + B * D) / (C * C + D * D)) <= bpow radix2 (-50) * (Z / W) /\ Rabs (fval 52 11 v - (B * C - A * D) / (C * C + D * D)) <= bpow radix2 (-50) * (Z / W))%R.
Proof.
  intros A B C D Z W Ba Bb Bc Bd Fa Fb Fc Fd NZ HZ HQ.
  destruct (scale_ok c d Bc Bd Fc Fd NZ) as (lw & e & c' & d' & C' & D' & L1 & L2 & L3 & He & S1 & S2 & DC & DD & X). cbv zeta in X. fold C D in X. destruct X as (E1 & E2 & UC & UD & LO).
  set (s := bpow radix2 (- e)) in *. assert (PS : (0 < s)%R) by apply bpow_gt_0. set (C1 := (C * s)%R) in *. set (D1 := (D * s)%R) in *. set (W1 := sqrt (C1 * C1 + D1 * D1)).
  assert (Q1 : (0 <= C1 * C1)%R) by apply Rle_0_sqr. assert (Q2 : (0 <= D1 * D1)%R) by apply Rle_0_sqr. assert (Q3 : (0 <= C * C)%R) by apply Rle_0_sqr. assert (Q4 : (0 <= D * D)%R) by apply Rle_0_sqr. assert (Q5 : (0 <= A * A)%R) by apply Rle_0_sqr. assert (Q6 : (0 <= B * B)%R) by apply Rle_0_sqr.
  assert (W1S : (W1 * W1 = C1 * C1 + D1 * D1)%R) by (apply sqrt_sqrt; lra). assert (ZS : (Z * Z = A * A + B * B)%R) by (apply sqrt_sqrt; lra). assert (WS : (W * W = C * C + D * D)%R) by (apply sqrt_sqrt; lra).
  assert (SQ : forall x : R, (Rabs x * Rabs x = x * x)%R) by (intros x; rewrite <- Rabs_mult; apply Rabs_pos_eq; apply Rle_0_sqr).
  assert (W1P : (1 <= W1)%R).
  { unfold W1. rewrite <- sqrt_1. apply sqrt_le_1_alt. rewrite <- (SQ C1), <- (SQ D1). pose proof (SQ C1). pose proof (SQ D1). destruct LO as [LO|LO]; pose proof (Rmult_le_compat 1 _ 1 _ ltac:(lra) ltac:(lra) LO LO); lra. }
  assert (W13 : (W1 <= 3)%R).
  { unfold W1. replace 3%R with (sqrt (3 * 3)) by (apply sqrt_square; lra). apply sqrt_le_1_alt. rewrite <- (SQ C1), <- (SQ D1). pose proof (Rmult_le_compat _ _ _ _ (Rabs_pos C1) (Rabs_pos C1) UC UC). pose proof (Rmult_le_compat _ _ _ _ (Rabs_pos D1) (Rabs_pos D1) UD UD). lra. }
  assert (WW : W1 = (W * s)%R).
  { unfold W1, W, C1, D1. replace (C * s * (C * s) + D * s * (D * s))%R with ((C * C + D * D) * (s * s))%R by ring. rewrite sqrt_mult by (try apply Rle_0_sqr; lra). rewrite sqrt_square by lra. reflexivity. }
  assert (PW : (0 < W)%R) by (apply Rmult_lt_reg_r with s; [exact PS|]; rewrite <- WW; lra).
  assert (PZ : (0 <= Z)%R) by apply sqrt_pos.
  assert (Z600 : (Z <= bpow radix2 600)%R) by (apply Rle_trans with (bpow radix2 590); [lra|apply bpow_le; lia]).
  assert (AZ : (Rabs A <= Z)%R) by (unfold Z; rewrite <- (sqrt_square (Rabs A)) by apply Rabs_pos; apply sqrt_le_1_alt; rewrite SQ; lra).
  assert (BZ : (Rabs B <= Z)%R) by (unfold Z; rewrite <- (sqrt_square (Rabs B)) by apply Rabs_pos; apply sqrt_le_1_alt; rewrite SQ; lra).
  assert (DA : dbl a A) by (repeat split; try assumption; try apply Ba; lra). assert (DB : dbl b B) by (repeat split; try assumption; try apply Bb; lra).
  destruct (num_part a b c' d' A B C1 D1 C' D' Z W1 DA DB DC DD E1 E2 PZ (conj W1P W13) ZS W1S HZ) as (N & M & DN & DM & N1 & N2 & N3 & N4).
  set (V := (W1 * W1)%R). assert (V1 : (1 <= V)%R) by (unfold V; pose proof (Rmult_le_compat 1 _ 1 _ ltac:(lra) ltac:(lra) W1P W1P); lra).
  destruct (sq_part C1 C' V E1 UC V1) as [G1 G2]. destruct (sq_part D1 D' V E2 UD V1) as [G3 G4].
  assert (ET : (eta <= 0.000001 * (u53 * V))%R) by (apply eta_tiny; pose proof (bpow_le radix2 (-900) 0 ltac:(lia)) as G; change (bpow radix2 0) with 1%R in G; lra).
  destruct (sum_eta (RN53 (C' * C')) (RN53 (D' * D')) (C1 * C1) (D1 * D1) (Rabs C1 * Rabs C1) (Rabs D1 * Rabs D1) V ltac:(rewrite Rabs_mult; lra) ltac:(rewrite Rabs_mult; lra) ltac:(rewrite !SQ; unfold V; lra) ET G1 G3) as [G5 G6].
  rewrite <- W1S in G5. fold V in G5.
  assert (V9 : (V <= 3 * 3)%R) by (unfold V; apply Rmult_le_compat; lra).
  pose proof (dbl_mul c' c' C' C' 3 DC DC ltac:(change (bpow radix2 3) with 8%R; lra) ltac:(lia)) as M1. pose proof (dbl_mul d' d' D' D' 3 DD DD ltac:(change (bpow radix2 3) with 8%R; lra) ltac:(lia)) as M2.
  pose proof (dbl_add _ _ _ _ 4 M1 M2 ltac:(change (bpow radix2 4) with 16%R; lra) ltac:(lia)) as DK.
  assert (QQ : (Z / W = Z / W1 * s)%R) by (rewrite WW; field; lra).
  destruct (part_ok _ _ _ _ _ V Z W1 e (Z / W) DN DK W1P eq_refl HZ N1 N3 G5 W13 He QQ HQ) as (u & U1 & U2 & U3 & U4).
  destruct (part_ok _ _ _ _ _ V Z W1 e (Z / W) DM DK W1P eq_refl HZ N2 N4 G5 W13 He QQ HQ) as (v & Y1 & Y2 & Y3 & Y4).
  exists u, v. split.
  { unfold divdc3, isfin64. rewrite L1. cbn [bind]. rewrite L2, L3. cbn [bind]. rewrite S1. cbn [bind]. rewrite S2. cbn [bind]. rewrite U1. cbn [bind]. rewrite Y1. cbn [bind].
    rewrite (finite_not_nan 52 11 u U3). reflexivity. }
  split; [exact U2|]. split; [exact Y2|]. split; [exact U3|]. split; [exact Y3|]. fold s in U4, Y4.
  assert (VW : V = ((C * C + D * D) * (s * s))%R) by (unfold V; rewrite W1S; unfold C1, D1; ring).
  assert (CD : (C * C + D * D <> 0)%R) by (rewrite <- WS; apply Rmult_integral_contrapositive_currified; lra).
  split.
  - replace ((A * C + B * D) / (C * C + D * D))%R with ((A * C1 + B * D1) / V * s)%R; [exact U4|]. rewrite VW. unfold C1, D1. field. split; [exact CD|lra].
  - replace ((B * C - A * D) / (C * C + D * D))%R with ((B * C1 - A * D1) / V * s)%R; [exact Y4|]. rewrite VW. unfold C1, D1. field. split; [exact CD|lra].
Qed.
