(** Float complex quotients: proofs. *)
From Coq Require Import Reals Lra Lia Psatz.
From Flocq Require Import Core BinarySingleNaN.
From Verif Require Import Base FP FP_Proof HW HW_Proof Fmaf_Proof Math_Model Math_Lconv_Proof Hypotf_Model Hypotf_Real Hypotf_Proof Ferr Elem_Spec Logf_Kernel Logf_Proof Hyperf_Proof Hyperf3_Proof.
From Verif Require Import Complex_Model Complex_Spec Complex_Proof.
Open Scope Z_scope.
Local Ltac Zify.zify_post_hook ::= idtac.

(** a finite float as a double: |x| < 2^128 and a multiple of 2^-149 *)
Definition flt (x : R) : Prop := (Rabs x <= bpow radix2 128)%R /\ F24 x.

Lemma flt_mult x : F24 x -> exists n, x = (IZR n * bpow radix2 (-149))%R.
Proof.
  intros F. destruct (F24_split x F) as (n & e & E & _ & He). exists (n * 2^(e + 149)).
  rewrite mult_IZR. change (2^(e+149)) with (Zpower radix2 (e + 149)). rewrite IZR_Zpower by lia. rewrite Rmult_assoc, <- bpow_plus.
  replace (e + 149 + -149) with e by lia. exact E.
Qed.

Lemma multi_nice n e : -1022 <= e -> nice (-1022) (IZR n * bpow radix2 e).
Proof.
  intros He. destruct (Z.eq_dec n 0) as [->|N]; [left; ring|right].
  rewrite Rabs_mult. rewrite (Rabs_pos_eq (bpow radix2 e)) by apply bpow_ge_0. rewrite <- abs_IZR.
  apply Rle_trans with (bpow radix2 e); [apply bpow_le; exact He|].
  rewrite <- (Rmult_1_l (bpow radix2 e)) at 1. apply Rmult_le_compat_r; [apply bpow_ge_0|]. apply IZR_le. lia.
Qed.

Definition U1 : R := 0.0000000000000001112.
Lemma flt_sum x y z w : flt x -> flt y -> flt z -> flt w ->
  (nice (-298) (x * y + z * w)) /\ (nice (-298) (x * y - z * w)) /\ (Rabs (x * y + z * w) <= bpow radix2 257)%R /\ (Rabs (x * y - z * w) <= bpow radix2 257)%R.
Proof.
  intros [Bx Fx] [By Fy] [Bz Fz] [Bw Fw].
  destruct (flt_mult x Fx) as (n1 & E1). destruct (flt_mult y Fy) as (n2 & E2). destruct (flt_mult z Fz) as (n3 & E3). destruct (flt_mult w Fw) as (n4 & E4).
  assert (M : forall n e, nice e (IZR n * bpow radix2 e)).
  { intros n e. destruct (Z.eq_dec n 0) as [->|N]; [left; ring|right].
    rewrite Rabs_mult. rewrite (Rabs_pos_eq (bpow radix2 e)) by apply bpow_ge_0. rewrite <- abs_IZR.
    rewrite <- (Rmult_1_l (bpow radix2 e)) at 1. apply Rmult_le_compat_r; [apply bpow_ge_0|]. apply IZR_le. lia. }
  assert (PB : forall p q, (Rabs p <= bpow radix2 128 -> Rabs q <= bpow radix2 128 -> Rabs (p * q) <= bpow radix2 256)%R).
  { intros p q Bp Bq. rewrite Rabs_mult. change 256 with (128 + 128). rewrite bpow_plus. apply Rmult_le_compat; try apply Rabs_pos; assumption. }
  assert (T : bpow radix2 257 = (bpow radix2 256 + bpow radix2 256)%R) by (change 257 with (1 + 256); rewrite bpow_plus; change (bpow radix2 1) with 2%R; ring).
  pose proof (PB x y Bx By) as P1. pose proof (PB z w Bz Bw) as P2.
  assert (Q : (bpow radix2 (-298) = bpow radix2 (-149) * bpow radix2 (-149))%R) by (rewrite <- bpow_plus; reflexivity).
  split; [|split; [|split]].
  - replace (x * y + z * w)%R with (IZR (n1 * n2 + n3 * n4) * bpow radix2 (-298))%R; [apply M|]. rewrite E1, E2, E3, E4, Q, plus_IZR, !mult_IZR. ring.
  - replace (x * y - z * w)%R with (IZR (n1 * n2 - n3 * n4) * bpow radix2 (-298))%R; [apply M|]. rewrite E1, E2, E3, E4, Q, minus_IZR, !mult_IZR. ring.
  - rewrite T. apply Rle_trans with (1 := Rabs_triang _ _). lra.
  - rewrite T. unfold Rminus. apply Rle_trans with (1 := Rabs_triang _ _). rewrite Rabs_Ropp. lra.
Qed.

Lemma f2d_flt a : fbits 23 8 a -> ffinite 23 8 a = true -> dbl (f2d a) (fval 23 8 a) /\ flt (fval 23 8 a).
Proof.
  intros Ha Fa. split; [apply dbl_f2d; assumption|]. split; [left; apply (fval_bound 23 8 eq_refl eq_refl eq_refl a Ha Fa)|].
  exact (fval_format 23 8 eq_refl eq_refl a Ha).
Qed.

Lemma prod_exact p q x y : dbl p x -> dbl q y -> flt x -> flt y -> dbl (mul64 p q) (x * y).
Proof.
  intros Dp Dq [Bx Fx] [By Fy]. rewrite <- (RN53_id (x * y)) by (apply F53_mul; assumption).
  apply (dbl_mul p q x y 256 Dp Dq); [|lia]. rewrite Rabs_mult. change 256 with (128 + 128). rewrite bpow_plus. apply Rmult_le_compat; try apply Rabs_pos; assumption.
Qed.

Lemma nice_le e f x : f <= e -> nice e x -> nice f x.
Proof. intros L [->|H]; [left; reflexivity|right]. apply Rle_trans with (2 := H). apply bpow_le. exact L. Qed.

(** one part: a sum of two products over the squared modulus *)
Lemma part_ok (n : Z) N d D : dbl n (RN53 N) -> nice (-298) N -> (Rabs N <= bpow radix2 257)%R ->
  dbl d (RN53 D) -> (bpow radix2 (-298) <= D <= bpow radix2 257)%R ->
  exists q, dbl (div64 n d) q /\ relr (bpow radix2 (-51)) q (N / D).
Proof.
  intros Dn Nn Bn Dd BD.
  assert (DP : (0 < D)%R) by (pose proof (bpow_gt_0 radix2 (-298)); lra).
  assert (R1 : relr (0 + 0.0000000000000001112) (RN53 N) N) by (apply relr_round; [lra|apply (nice_le (-298)); [lia|exact Nn]|apply relr_refl]).
  assert (R2 : relr (0 + 0.0000000000000001112) (RN53 D) D).
  { apply relr_round; [lra| |apply relr_refl]. right. rewrite Rabs_pos_eq by lra. apply Rle_trans with (2 := proj1 BD). apply bpow_le. lia. }
  set (u := (0 + 0.0000000000000001112)%R) in *. assert (Hu : (0 <= u <= 0.000001)%R) by (unfold u; lra).
  pose proof (relr_range u _ _ Hu DP R2) as RD.
  pose proof (relr_div u u _ _ _ _ Hu Hu (Rgt_not_eq _ _ DP) R1 R2) as R3.
  assert (Hv : (0 <= u + u * 1.0001 <= 0.000001)%R) by (unfold u; lra).
  assert (ID : (bpow radix2 (-257) <= / D <= bpow radix2 298)%R).
  { change (-257) with (- (257)). change 298 with (- (-298)) at 1. rewrite !bpow_opp. split; apply Rinv_le_contravar; try lra. apply bpow_gt_0. }
  assert (QB : (Rabs (N / D) <= bpow radix2 555)%R).
  { unfold Rdiv. rewrite Rabs_mult, (Rabs_pos_eq (/ D)) by (left; apply Rinv_0_lt_compat; exact DP).
    change 555 with (257 + 298). rewrite bpow_plus. apply Rmult_le_compat; [apply Rabs_pos| |exact Bn|apply ID]. left; apply Rinv_0_lt_compat; exact DP. }
  assert (QN : nice (-555) (N / D)).
  { destruct Nn as [->|Nn]; [left; unfold Rdiv; ring|right].
    unfold Rdiv. rewrite Rabs_mult, (Rabs_pos_eq (/ D)) by (left; apply Rinv_0_lt_compat; exact DP).
    change (-555) with (-298 + -257). rewrite bpow_plus. apply Rmult_le_compat; try apply bpow_ge_0; [exact Nn|apply ID]. }
  destruct (relr_ex _ _ _ (proj1 Hv) R3) as (t & Ht & Et). apply Rabs_le_inv in Ht.
  assert (QA : (0.5 * Rabs (N / D) <= Rabs (RN53 N / RN53 D) <= 2 * Rabs (N / D))%R).
  { rewrite Et, Rabs_mult. rewrite (Rabs_pos_eq (1 + t)) by lra. pose proof (Rabs_pos (N / D)). nra. }
  exists (RN53 (RN53 N / RN53 D)). split.
  - apply (dbl_div n d _ _ 556 Dn Dd); [lra| |lia]. change 556 with (1 + 555). rewrite bpow_plus. change (bpow radix2 1) with 2%R. lra.
  - assert (NQ : nice (-1022) (RN53 N / RN53 D)).
    { destruct QN as [Z|QN].
      + left. rewrite Z in QA. rewrite Rabs_R0 in QA. destruct (Req_dec (RN53 N / RN53 D) 0) as [E|E]; [exact E|]. pose proof (Rabs_pos_lt _ E). lra.
      + right. apply Rle_trans with (2 := proj1 QA). apply Rle_trans with (0.5 * bpow radix2 (-555))%R; [|lra].
        apply Rle_trans with (bpow radix2 (-1 + -555)); [apply bpow_le; lia|]. rewrite bpow_plus. change (bpow radix2 (-1)) with (/ 2)%R. pose proof (bpow_gt_0 radix2 (-555)). lra. }
    apply (relr_weak (u + u * 1.0001 + 0.0000000000000001112)); [change (bpow radix2 (-51)) with (/ 2251799813685248)%R; unfold u; lra|].
    apply relr_round; [exact Hv|exact NQ|exact R3].
Qed.

(** ** finite operands, divisor not zero *)
Definition fin32 (x : Z) : Prop := fbits 23 8 x /\ ffinite 23 8 x = true.

Lemma kernel_ok a b c d : fin32 a -> fin32 b -> fin32 c -> fin32 d -> (fval 23 8 c <> 0 \/ fval 23 8 d <> 0)%R ->
  let M := (fval 23 8 c * fval 23 8 c + fval 23 8 d * fval 23 8 d)%R in
  exists q r, dbl (fst (divsc3_kernel (f2d a) (f2d b) (f2d c) (f2d d))) q /\
    dbl (snd (divsc3_kernel (f2d a) (f2d b) (f2d c) (f2d d))) r /\
    relr (bpow radix2 (-51)) q ((fval 23 8 a * fval 23 8 c + fval 23 8 b * fval 23 8 d) / M) /\
    relr (bpow radix2 (-51)) r ((fval 23 8 b * fval 23 8 c - fval 23 8 a * fval 23 8 d) / M).
Proof.
  intros [Ha Fa] [Hb Fb] [Hc Fc] [Hd Fd] NZ M.
  destruct (f2d_flt a Ha Fa) as [Da Ra]. destruct (f2d_flt b Hb Fb) as [Db Rb]. destruct (f2d_flt c Hc Fc) as [Dc Rc]. destruct (f2d_flt d Hd Fd) as [Dd Rd].
  unfold divsc3_kernel. cbn [fst snd].
  set (A := fval 23 8 a) in *. set (B := fval 23 8 b) in *. set (C := fval 23 8 c) in *. set (D := fval 23 8 d) in *. clearbody A B C D.
  destruct (flt_sum A C B D Ra Rc Rb Rd) as (N1 & _ & N2 & _). destruct (flt_sum B C A D Rb Rc Ra Rd) as (_ & N3 & _ & N4).
  destruct (flt_sum C C D D Rc Rc Rd Rd) as (N5 & _ & N6 & _). fold M in N5, N6.
  assert (MP : (0 < M)%R) by (unfold M; destruct NZ as [NZ|NZ]; pose proof (Rsqr_pos_lt _ NZ) as Q; unfold Rsqr in Q; nra).
  rewrite Rabs_pos_eq in N6 by lra. destruct N5 as [N5|N5]; [lra|]. rewrite Rabs_pos_eq in N5 by lra.
  pose proof (prod_exact _ _ _ _ Dc Dc Rc Rc) as P1. pose proof (prod_exact _ _ _ _ Dd Dd Rd Rd) as P2.
  pose proof (prod_exact _ _ _ _ Da Dc Ra Rc) as P3. pose proof (prod_exact _ _ _ _ Db Dd Rb Rd) as P4.
  pose proof (prod_exact _ _ _ _ Db Dc Rb Rc) as P5. pose proof (prod_exact _ _ _ _ Da Dd Ra Rd) as P6.
  assert (S1 : dbl (add64 (mul64 (f2d c) (f2d c)) (mul64 (f2d d) (f2d d))) (RN53 M)).
  { apply (dbl_add _ _ _ _ 257 P1 P2); [fold M; rewrite Rabs_pos_eq by lra; exact N6|lia]. }
  assert (S2 : dbl (add64 (mul64 (f2d a) (f2d c)) (mul64 (f2d b) (f2d d))) (RN53 (A * C + B * D))) by (apply (dbl_add _ _ _ _ 257 P3 P4); [exact N2|lia]).
  assert (S3 : dbl (sub64 (mul64 (f2d b) (f2d c)) (mul64 (f2d a) (f2d d))) (RN53 (B * C - A * D))) by (apply (dbl_sub _ _ _ _ 257 P5 P6); [exact N4|lia]).
  destruct (part_ok _ _ _ _ S2 N1 N2 S1 (conj N5 N6)) as (q & Q1 & Q2).
  destruct (part_ok _ _ _ _ S3 N3 N4 S1 (conj N5 N6)) as (r & R1 & R2).
  exists q, r. auto.
Qed.

Lemma d2f_part z q v : dbl z q -> relr (bpow radix2 (-51)) q v ->
  (v <> 0%R -> nearly_rounded 51 v (d2f z)) /\ (v = 0%R -> ffinite 23 8 (d2f z) = true /\ fval 23 8 (d2f z) = 0%R) /\ fisnan 23 8 (d2f z) = false.
Proof.
  intros D R. pose proof D as (A & B & C & _).
  pose proof (hcvt_ok 52 11 23 8 eq_refl eq_refl eq_refl eq_refl eq_refl eq_refl z A B) as H. change (hcvt 52 11 23 8 eq_refl eq_refl eq_refl eq_refl eq_refl z) with (d2f z) in H.
  split; [|split].
  - intros N. apply (to_float' z q v 51 D N ltac:(lia)). exact R.
  - intros Z. unfold relr in R. rewrite Z, Rabs_R0, Rmult_0_r, Rminus_0_r in R. pose proof (Rabs_pos q).
    assert (Q : q = 0%R) by (destruct (Req_dec q 0) as [E|E]; [exact E|pose proof (Rabs_pos_lt _ E); lra]).
    rewrite C, Q in H. destruct H as (_ & _ & H & _).
    assert (Z0 : RN 23 8 0 = 0%R) by (unfold RN; apply round_0; apply valid_rnd_N). rewrite Z0, Rabs_R0 in H. apply H. apply bpow_gt_0.
  - apply (rt_notnan 23 8 eq_refl _ _ _ H).
Qed.

(** ** infinities and zeros *)

Lemma div_nf p q : fbits 52 11 p -> fbits 52 11 q -> ffinite 52 11 p = false -> ffinite 52 11 q = true -> ffinite 52 11 (div64 p q) = false.
Proof.
  intros Hp Hq Fp Fq. unfold div64, hdiv. rewrite enc_ffinite by reflexivity.
  rewrite <- (dec_isfin 52 11 eq_refl eq_refl eq_refl p Hp) in Fp. rewrite <- (dec_isfin 52 11 eq_refl eq_refl eq_refl q Hq) in Fq.
  revert Fp Fq. destruct (dec 52 11 eq_refl eq_refl eq_refl p), (dec 52 11 eq_refl eq_refl eq_refl q); cbn; intros; try discriminate; reflexivity.
Qed.
Lemma div_nn p q : fbits 52 11 p -> fbits 52 11 q -> ffinite 52 11 p = false -> ffinite 52 11 q = false -> fisnan 52 11 (div64 p q) = true.
Proof.
  intros Hp Hq Fp Fq. unfold div64, hdiv. rewrite enc_isnan by reflexivity.
  rewrite <- (dec_isfin 52 11 eq_refl eq_refl eq_refl p Hp) in Fp. rewrite <- (dec_isfin 52 11 eq_refl eq_refl eq_refl q Hq) in Fq.
  revert Fp Fq. destruct (dec 52 11 eq_refl eq_refl eq_refl p), (dec 52 11 eq_refl eq_refl eq_refl q); cbn; intros; try discriminate; reflexivity.
Qed.
Lemma div_00 p q : dbl p 0 -> dbl q 0 -> fisnan 52 11 (div64 p q) = true.
Proof.
  intros (Hp & Fp & Vp & _) (Hq & Fq & Vq & _). unfold div64, hdiv. rewrite enc_isnan by reflexivity.
  destruct (dec_finite 52 11 eq_refl eq_refl eq_refl p Hp Fp) as (A1 & A2 & _). destruct (dec_finite 52 11 eq_refl eq_refl eq_refl q Hq Fq) as (B1 & B2 & _).
  rewrite Vp in A2. rewrite Vq in B2. revert A1 A2 B1 B2.
  assert (Z : forall f : binary_float (52+1) (2^(11-1)), is_finite f = true -> B2R f = 0%R -> exists s, f = B754_zero s).
  { intros f Ff Vf. destruct f as [s|s| |s m e Hb]; try discriminate; [eauto|]. exfalso. cbn in Vf. apply eq_0_F2R in Vf. destruct s; discriminate. }
  intros A1 A2 B1 B2. destruct (Z _ A1 A2) as (s & ->). destruct (Z _ B1 B2) as (t & ->). reflexivity.
Qed.
Lemma div_nan p q : fbits 52 11 p -> fisnan 52 11 p = true -> fisnan 52 11 (div64 p q) = true.
Proof.
  intros Hp N. unfold div64, hdiv. rewrite enc_isnan by reflexivity. rewrite (dec_nan 52 11 eq_refl eq_refl eq_refl p Hp N). destruct (dec 52 11 _ _ _ q); reflexivity.
Qed.

Lemma f2d_class x : fbits 23 8 x -> fbits 52 11 (f2d x) /\ ffinite 52 11 (f2d x) = ffinite 23 8 x.
Proof.
  intros Hx. destruct (class3 23 8 eq_refl x) as [K|[K|K]]; destruct K as (K1 & K2 & K3); rewrite K1.
  - destruct (dbl_f2d x Hx K1) as (A & B & _). auto.
  - unfold f2d. rewrite (hcvt_inf 23 8 52 11 eq_refl eq_refl eq_refl eq_refl eq_refl x Hx K2).
    destruct (fneg 23 8 x); split; vm_compute; intuition discriminate.
  - unfold f2d. rewrite (hcvt_nan 23 8 52 11 eq_refl eq_refl eq_refl eq_refl eq_refl x Hx K3). split; vm_compute; intuition discriminate.
Qed.
Lemma d2f_nf x : fbits 52 11 x -> ffinite 52 11 x = false -> ffinite 23 8 (d2f x) = false.
Proof.
  intros Hx F. destruct (class3 52 11 eq_refl x) as [K|[K|K]]; destruct K as (K1 & K2 & K3); [congruence| |].
  - unfold d2f. rewrite (hcvt_inf 52 11 23 8 eq_refl eq_refl eq_refl eq_refl eq_refl x Hx K2). destruct (fneg 52 11 x); reflexivity.
  - unfold d2f. rewrite (hcvt_nan 52 11 23 8 eq_refl eq_refl eq_refl eq_refl eq_refl x Hx K3). reflexivity.
Qed.
Lemma d2f_nan x : fbits 52 11 x -> fisnan 52 11 x = true -> fisnan 23 8 (d2f x) = true.
Proof. intros Hx K3. unfold d2f. rewrite (hcvt_nan 52 11 23 8 eq_refl eq_refl eq_refl eq_refl eq_refl x Hx K3). reflexivity. Qed.
Lemma div_bits p q : fbits 52 11 (div64 p q).
Proof. apply enc_bits; reflexivity. Qed.

(** the numerators are not finite when an operand is infinite *)
Lemma num_nf p q r s : fbits 52 11 p -> fbits 52 11 q -> fbits 52 11 r -> fbits 52 11 s ->
  ffinite 52 11 p = false \/ ffinite 52 11 q = false \/ ffinite 52 11 r = false \/ ffinite 52 11 s = false ->
  ffinite 52 11 (add64 (mul64 p q) (mul64 r s)) = false /\ ffinite 52 11 (sub64 (mul64 p q) (mul64 r s)) = false.
Proof.
  intros Hp Hq Hr Hs H.
  assert (M : ffinite 52 11 (mul64 p q) = false \/ ffinite 52 11 (mul64 r s) = false).
  { destruct H as [H|[H|H]]; [left|left|right]; apply mul_nf; auto. }
  split; [apply add_nf|apply sub_nf]; try (apply mul_bits; reflexivity); exact M.
Qed.

Lemma core_div a b c d : fin 23 8 a -> fin 23 8 b -> fin 23 8 c -> fin 23 8 d -> nz2 23 8 a b -> nz2 23 8 c d ->
  unitv 23 8 a /\ unitv 23 8 b ->
  nonz 23 8 (add32 (mul32 a c) (mul32 b d)) \/ nonz 23 8 (sub32 (mul32 b c) (mul32 a d)).
Proof.
  intros [Ha Fa] [Hb Fb] [Hc Fc] [Hd Fd] N1 N2 [U1 U2].
  pose proof (mul_unit 23 8 eq_refl eq_refl eq_refl) as MU.
  destruct (MU a c Ha Fa Hc Fc ltac:(tauto)) as (A1 & A2 & A3).
  destruct (MU b d Hb Fb Hd Fd ltac:(tauto)) as (B1 & B2 & B3).
  destruct (MU a d Ha Fa Hd Fd ltac:(tauto)) as (C1 & C2 & C3).
  destruct (MU b c Hb Fb Hc Fc ltac:(tauto)) as (D1 & D2 & D3).
  change (hmul 23 8 eq_refl eq_refl eq_refl) with mul32 in *.
  destruct (Req_dec (fval 23 8 (mul32 a c) + fval 23 8 (mul32 b d)) 0) as [E1|E1]; [|left; apply nz_add; assumption].
  destruct (Req_dec (fval 23 8 (mul32 b c) - fval 23 8 (mul32 a d)) 0) as [E2|E2]; [|right; apply nz_sub; assumption].
  exfalso. rewrite A3, B3 in E1. rewrite C3, D3 in E2. unfold nz2 in *.
  set (x := fval 23 8 a) in *. set (y := fval 23 8 b) in *. set (z := fval 23 8 c) in *. set (w := fval 23 8 d) in *. clearbody x y z w.
  assert (P : ((x * x + y * y) * (z * z + w * w) = 0)%R).
  { replace ((x * x + y * y) * (z * z + w * w))%R with ((x * z + y * w) * (x * z + y * w) + (y * z - x * w) * (y * z - x * w))%R by ring.
    rewrite E1, E2. ring. }
  apply Rmult_integral in P. destruct P as [P|P].
  - assert (x = 0%R) by nra. assert (y = 0%R) by nra. tauto.
  - assert (z = 0%R) by nra. assert (w = 0%R) by nra. tauto.
Qed.

Lemma heq_zero x : fbits 23 8 x -> heq 23 8 x 0 = true <-> ffinite 23 8 x = true /\ fval 23 8 x = 0%R.
Proof.
  intros Hx. assert (H0 : fbits 23 8 0) by (vm_compute; intuition discriminate).
  assert (V0 : fval 23 8 0 = 0%R) by (change (fval 23 8 0) with (fmag 23 8 0); apply fmag_0; reflexivity).
  destruct (class3 23 8 eq_refl x) as [K|[K|K]]; destruct K as (K1 & K2 & K3).
  - rewrite (heq_ok 23 8 eq_refl eq_refl x 0 Hx H0 K1 eq_refl), V0. tauto.
  - rewrite K1. split; [|intros [? _]; discriminate]. unfold heq, ford. change (fneg 23 8 0) with false. change (fabsb 23 8 0) with 0. intros E. exfalso.
    unfold fisinf, finf in K2. destruct (fneg 23 8 x); lia.
  - rewrite K1. split; [|intros [? _]; discriminate]. unfold heq. rewrite K3. discriminate.
Qed.
Lemma heq_self x : heq 23 8 x x = negb (fisnan 23 8 x).
Proof. unfold heq. rewrite Z.eqb_refl. destruct (fisnan 23 8 x); reflexivity. Qed.

Lemma inf_parts w r : fisinf 23 8 w = true -> fbits 23 8 w -> fbits 23 8 r -> fisnan 23 8 r = false -> (ffinite 23 8 r = true -> fval 23 8 r <> 0%R) -> fisinf 23 8 (mul32 w r) = true.
Proof. intros. apply inf_mul; try assumption. Qed.

Lemma sgn_inf x : fbits 23 8 (copysign 23 8 (finf 23 8) x) /\ fisinf 23 8 (copysign 23 8 (finf 23 8) x) = true.
Proof. unfold copysign. destruct (fneg 23 8 x); split; vm_compute; intuition discriminate. Qed.

(** dividing by zero: both parts of the formula are NaNs *)
Lemma mul_zero p q x : dbl p x -> dbl q 0 -> dbl (mul64 p q) 0.
Proof.
  intros Dp Dq. pose proof (dbl_mul p q x 0 0 Dp Dq) as H. rewrite Rmult_0_r in H.
  rewrite RN53_id in H by apply generic_format_0. apply H; [rewrite Rabs_R0; apply bpow_ge_0|lia].
Qed.
Lemma add_zero p q : dbl p 0 -> dbl q 0 -> dbl (add64 p q) 0 /\ dbl (sub64 p q) 0.
Proof.
  intros Dp Dq. pose proof (dbl_add p q 0 0 0 Dp Dq) as H. pose proof (dbl_sub p q 0 0 0 Dp Dq) as H1. rewrite Rplus_0_r in H. rewrite Rminus_0_r in H1.
  rewrite RN53_id in H, H1 by apply generic_format_0. rewrite Rabs_R0 in H, H1. pose proof (bpow_ge_0 radix2 0). split; [apply H|apply H1]; (assumption || lia).
Qed.

Lemma nf_zero p q : fbits 52 11 p -> ffinite 52 11 p = false -> dbl q 0 -> fisnan 52 11 (mul64 p q) = true.
Proof.
  intros Hp Fp (Hq & Fq & Vq & _). unfold mul64, hmul. rewrite enc_isnan by reflexivity.
  rewrite <- (dec_isfin 52 11 eq_refl eq_refl eq_refl p Hp) in Fp.
  destruct (dec_finite 52 11 eq_refl eq_refl eq_refl q Hq Fq) as (B1 & B2 & _). rewrite Vq in B2. revert Fp B1 B2.
  destruct (dec 52 11 eq_refl eq_refl eq_refl p), (dec 52 11 eq_refl eq_refl eq_refl q) as [t|t| |t m1 e1 Hb1]; intros Fp B1 B2; try discriminate; try reflexivity.
  exfalso. cbn in B2. apply eq_0_F2R in B2. destruct t; discriminate.
Qed.
Lemma nan_plus p q : fbits 52 11 p -> fbits 52 11 q -> fisnan 52 11 p = true \/ fisnan 52 11 q = true ->
  fisnan 52 11 (add64 p q) = true /\ fisnan 52 11 (sub64 p q) = true.
Proof.
  intros Hp Hq H. unfold add64, sub64, hadd, hsub. rewrite !enc_isnan by reflexivity.
  destruct H as [H|H].
  - rewrite (dec_nan 52 11 eq_refl eq_refl eq_refl p Hp H). destruct (dec 52 11 eq_refl eq_refl eq_refl q); split; reflexivity.
  - rewrite (dec_nan 52 11 eq_refl eq_refl eq_refl q Hq H). destruct (dec 52 11 eq_refl eq_refl eq_refl p); split; reflexivity.
Qed.

Lemma kernel_zero a b c d : fbits 23 8 a -> fbits 23 8 b -> fbits 23 8 c -> fbits 23 8 d ->
  ffinite 23 8 c = true -> fval 23 8 c = 0%R -> ffinite 23 8 d = true -> fval 23 8 d = 0%R ->
  let k := divsc3_kernel (f2d a) (f2d b) (f2d c) (f2d d) in
  fisnan 23 8 (d2f (fst k)) = true /\ fisnan 23 8 (d2f (snd k)) = true.
Proof.
  intros Ha Hb Hc Hd Fc Vc Fd Vd k.
  pose proof (dbl_f2d c Hc Fc) as Dc. pose proof (dbl_f2d d Hd Fd) as Dd. rewrite Vc in Dc. rewrite Vd in Dd.
  destruct (f2d_class a Ha) as [Ba Ca]. destruct (f2d_class b Hb) as [Bb Cb].
  assert (MB : forall p q, fbits 52 11 (mul64 p q)) by (intros p q; apply mul_bits; reflexivity).
  assert (AB : forall p q, fbits 52 11 (add64 p q)) by (intros p q; apply add_bits; reflexivity).
  assert (SB : forall p q, fbits 52 11 (sub64 p q)) by (intros p q; apply sub_bits; reflexivity).
  assert (DEN : dbl (add64 (mul64 (f2d c) (f2d c)) (mul64 (f2d d) (f2d d))) 0) by (apply add_zero; eapply mul_zero; eassumption).
  assert (Q : fisnan 52 11 (fst k) = true /\ fisnan 52 11 (snd k) = true).
  { unfold k, divsc3_kernel. cbn [fst snd].
    destruct (ffinite 23 8 a) eqn:Fa.
    - destruct (ffinite 23 8 b) eqn:Fb.
      + pose proof (dbl_f2d a Ha Fa) as Da. pose proof (dbl_f2d b Hb Fb) as Db.
        pose proof (mul_zero _ _ _ Da Dc) as P1. pose proof (mul_zero _ _ _ Db Dd) as P2. pose proof (mul_zero _ _ _ Db Dc) as P3. pose proof (mul_zero _ _ _ Da Dd) as P4.
        split; apply div_00; try exact DEN; [apply (add_zero _ _ P1 P2)|apply (add_zero _ _ P3 P4)].
      + pose proof (nf_zero _ _ Bb Cb Dd) as N1. pose proof (nf_zero _ _ Bb Cb Dc) as N2.
        split; (apply div_nan; [auto|]); apply nan_plus; auto.
    - pose proof (nf_zero _ _ Ba Ca Dc) as N1. pose proof (nf_zero _ _ Ba Ca Dd) as N2.
      split; (apply div_nan; [auto|]); apply nan_plus; auto. }
  destruct Q as [Q1 Q2]. split; apply d2f_nan; try assumption; apply div_bits.
Qed.

Lemma divsc3_zero a b c d : cbits 23 8 (a, b) -> cbits 23 8 (c, d) -> czero 23 8 (c, d) ->
  cinf 23 8 (a, b) \/ (cfin 23 8 (a, b) /\ ~ czero 23 8 (a, b)) -> cinf 23 8 (divsc3 a b c d).
Proof.
  unfold cbits, czero, cinf, cfin. cbn [fst snd]. intros [Ha Hb] [Hc Hd] ((Fc & Fd) & Vc & Vd) H.
  destruct (kernel_zero a b c d Ha Hb Hc Hd Fc Vc Fd Vd) as [K1 K2].
  unfold divsc3. cbv zeta. cbn [fst snd]. rewrite K1, K2. cbn [andb].
  rewrite (proj2 (heq_zero c Hc) (conj Fc Vc)), (proj2 (heq_zero d Hd) (conj Fd Vd)). cbn [andb]. rewrite !heq_self.
  destruct (sgn_inf c) as [S1 S2].
  assert (Q : (fisnan 23 8 a = false /\ (ffinite 23 8 a = true -> fval 23 8 a <> 0%R)) \/ (fisnan 23 8 b = false /\ (ffinite 23 8 b = true -> fval 23 8 b <> 0%R))).
  { destruct H as [[H|H]|[[Fa Fb] H]].
    - left. unfold fisinf, fisnan, ffinite in *. split; [lia|]. intros; lia.
    - right. unfold fisinf, fisnan, ffinite in *. split; [lia|]. intros; lia.
    - destruct (Req_dec (fval 23 8 a) 0) as [E|E].
      + right. split; [apply finite_not_nan; exact Fb|]. intros _ E'. tauto.
      + left. split; [apply finite_not_nan; exact Fa|]. intros _. exact E. }
  destruct Q as [[Q1 Q2]|[Q1 Q2]]; rewrite Q1; cbn [negb orb]; rewrite ?Bool.orb_true_r; cbn [fst snd]; [left|right]; apply inf_parts; assumption.
Qed.

Lemma divsc3_inf_nz a b c d : cbits 23 8 (a, b) -> cbits 23 8 (c, d) -> cinf 23 8 (a, b) -> cfin 23 8 (c, d) -> nz2 23 8 c d -> cinf 23 8 (divsc3 a b c d).
Proof.
  intros B1 B2 I F NZ.
  revert B1 B2 I F. unfold cbits, cinf, cfin. cbn [fst snd]. intros [Ha Hb] [Hc Hd] I [Fc Fd].
  destruct (f2d_class a Ha) as [Ba Ca]; destruct (f2d_class b Hb) as [Bb Cb]; destruct (f2d_class c Hc) as [Bc Cc]; destruct (f2d_class d Hd) as [Bd Cd].
  assert (NF : forall x, fisinf 23 8 x = true -> ffinite 23 8 x = false) by (intros x Ix; unfold fisinf, ffinite in *; lia).
  assert (AB : ffinite 52 11 (f2d a) = false \/ ffinite 52 11 (f2d b) = false) by (rewrite Ca, Cb; destruct I as [I|I]; apply NF in I; tauto).
  assert (DEN : ffinite 52 11 (add64 (mul64 (f2d c) (f2d c)) (mul64 (f2d d) (f2d d))) = true) by
   (destruct (f2d_flt c Hc Fc) as [Dc Rc]; destruct (f2d_flt d Hd Fd) as [Dd Rd];
    destruct (flt_sum _ _ _ _ Rc Rc Rd Rd) as (_ & _ & N6 & _);
    pose proof (prod_exact _ _ _ _ Dc Dc Rc Rc) as P1; pose proof (prod_exact _ _ _ _ Dd Dd Rd Rd) as P2;
    apply (dbl_add _ _ _ _ 257 P1 P2); [exact N6|lia]).
  assert (MB : forall p q, fbits 52 11 (mul64 p q)) by (intros p q; apply mul_bits; reflexivity).
  assert (ABt : forall p q, fbits 52 11 (add64 p q)) by (intros p q; apply add_bits; reflexivity).
  assert (SBt : forall p q, fbits 52 11 (sub64 p q)) by (intros p q; apply sub_bits; reflexivity).
  pose proof (proj1 (num_nf (f2d a) (f2d c) (f2d b) (f2d d) Ba Bc Bb Bd ltac:(tauto))) as X.
  pose proof (proj2 (num_nf (f2d b) (f2d c) (f2d a) (f2d d) Bb Bc Ba Bd ltac:(tauto))) as Y.
  pose proof (d2f_nf _ (div_bits _ _) (div_nf _ _ (ABt _ _) (ABt _ _) X DEN)) as X'.
  pose proof (d2f_nf _ (div_bits _ _) (div_nf _ _ (SBt _ _) (ABt _ _) Y DEN)) as Y'.
  unfold divsc3, divsc3_kernel; cbv zeta; cbn [fst snd].
  destruct (fisnan 23 8 (d2f (div64 (add64 (mul64 (f2d a) (f2d c)) (mul64 (f2d b) (f2d d))) (add64 (mul64 (f2d c) (f2d c)) (mul64 (f2d d) (f2d d)))))) eqn:NX; cbn [andb];
    [|left; apply (nf_notnan 23 8 eq_refl); assumption].
  destruct (fisnan 23 8 (d2f (div64 (sub64 (mul64 (f2d b) (f2d c)) (mul64 (f2d a) (f2d d))) (add64 (mul64 (f2d c) (f2d c)) (mul64 (f2d d) (f2d d)))))) eqn:NY;
    [|right; apply (nf_notnan 23 8 eq_refl); assumption].
  assert (ZZ : heq 23 8 c 0 && heq 23 8 d 0 = false) by
   (apply Bool.not_true_iff_false; intros ZZ; apply andb_prop in ZZ; destruct ZZ as [Z1 Z2]; apply (heq_zero c Hc) in Z1; apply (heq_zero d Hd) in Z2; unfold nz2 in NZ; tauto).
  rewrite ZZ; cbn [andb]; unfold isfin32; rewrite Fc, Fd.
  assert (I' : fisinf 23 8 a || fisinf 23 8 b = true) by (apply Bool.orb_true_iff; exact I).
  rewrite I'; cbn [andb fst snd].
  destruct (box_pair 23 8 eq_refl eq_refl eq_refl a b Ha Hb I) as (U1 & U2 & U3).
  destruct (core_div (box 23 8 a) (box 23 8 b) c d (unit_fin 23 8 _ U1) (unit_fin 23 8 _ U2) (conj Hc Fc) (conj Hd Fd) U3 NZ (conj U1 U2)) as [K|K]; [left|right];
  apply (inf_nonz 23 8 eq_refl eq_refl eq_refl); exact K.
Qed.

Lemma divsc3_inf a b c d : cbits 23 8 (a, b) -> cbits 23 8 (c, d) -> cinf 23 8 (a, b) -> cfin 23 8 (c, d) -> cinf 23 8 (divsc3 a b c d).
Proof.
  intros B1 B2 I F.
  destruct (Req_dec (fval 23 8 c) 0) as [E|E]; [destruct (Req_dec (fval 23 8 d) 0) as [E'|E']|].
  - apply divsc3_zero; [exact B1|exact B2|split; [exact F|split; assumption]|left; exact I].
  - apply divsc3_inf_nz; try assumption. right; exact E'.
  - apply divsc3_inf_nz; try assumption. left; exact E.
Qed.

Lemma box_zero x : fbits 23 8 x -> fisinf 23 8 x = false -> fval 23 8 (box 23 8 x) = 0%R.
Proof.
  intros Hx I. unfold box, copysign. rewrite I. change (fabsb 23 8 0) with 0.
  rewrite (with_sign_fval 23 8 eq_refl eq_refl) by lia. rewrite (fmag_0 23 8 eq_refl). destruct (fneg 23 8 x); lra.
Qed.

Local Instance P24 : Prec_gt_0 (23 + 1) := eq_refl.
Lemma RN_abs_le x y : (Rabs x <= y)%R -> (Rabs (RN 23 8 x) <= RN 23 8 y)%R.
Proof.
  intros H. unfold RN. rewrite <- round_NE_abs by typeclasses eauto. apply round_le; [typeclasses eauto|typeclasses eauto|exact H].
Qed.

(** a sum of two operands times 0, 1 or -1, when it does not overflow *)
Definition tame (A B C D : R) : Prop := (C = 0 \/ D = 0 \/ RN 23 8 (Rabs A + Rabs B) < bpow radix2 128)%R.
Lemma unit_abs C X : (C = 0 \/ C = 1 \/ C = -1 -> Rabs (X * C) <= Rabs X)%R.
Proof.
  intros H. rewrite Rabs_mult. pose proof (Rabs_pos X). destruct H as [->|[->| ->]].
  - rewrite Rabs_R0. lra.
  - rewrite Rabs_R1. lra.
  - replace (Rabs (-1)) with 1%R by (rewrite Rabs_left; lra). lra.
Qed.
Lemma tame_bound a b c d : fin32 a -> fin32 b -> unitv 23 8 c -> unitv 23 8 d -> tame (fval 23 8 a) (fval 23 8 b) (fval 23 8 c) (fval 23 8 d) ->
  (Rabs (RN 23 8 (fval 23 8 a * fval 23 8 c + fval 23 8 b * fval 23 8 d)) < bpow radix2 128)%R /\
  (Rabs (RN 23 8 (fval 23 8 a * fval 23 8 c - fval 23 8 b * fval 23 8 d)) < bpow radix2 128)%R.
Proof.
  intros [Ha Fa] [Hb Fb] (Hc & Fc & Uc) (Hd & Fd & Ud) T.
  pose proof (unit_exact 23 8 eq_refl eq_refl eq_refl (fval 23 8 c) a Uc Ha Fa) as [G1 G2].
  pose proof (unit_exact 23 8 eq_refl eq_refl eq_refl (fval 23 8 d) b Ud Hb Fb) as [G3 G4].
  change (2^(8-1)) with 128 in *.
  assert (ID : forall x, generic_format radix2 (FLT_exp (emin 23 8) (23+1)) x -> RN 23 8 x = x) by (intros x Gx; apply round_generic; [typeclasses eauto|exact Gx]).
  set (A := fval 23 8 a) in *. set (B := fval 23 8 b) in *. set (C := fval 23 8 c) in *. set (D := fval 23 8 d) in *.
  destruct T as [E|[E|T]].
  - rewrite E, Rmult_0_r, Rplus_0_l. unfold Rminus. rewrite Rplus_0_l. rewrite (Rmult_comm B D).
    rewrite (ID _ G3). rewrite (ID _ (generic_format_opp _ _ _ G3)). rewrite Rabs_Ropp. split; exact G4.
  - rewrite E, Rmult_0_r, Rplus_0_r, Rminus_0_r. rewrite (Rmult_comm A C). rewrite (ID _ G1). split; exact G2.
  - pose proof (unit_abs C A Uc) as L1. pose proof (unit_abs D B Ud) as L2.
    split; (eapply Rle_lt_trans; [apply RN_abs_le|exact T]).
    + apply Rle_trans with (1 := Rabs_triang _ _). lra.
    + unfold Rminus. apply Rle_trans with (1 := Rabs_triang _ _). rewrite Rabs_Ropp. lra.
Qed.

Lemma zero_times r : fbits 23 8 r -> ffinite 23 8 r = true -> ffinite 23 8 (mul32 0 r) = true /\ fval 23 8 (mul32 0 r) = 0%R.
Proof.
  intros Hr Fr. assert (H0 : fbits 23 8 0) by (vm_compute; intuition discriminate).
  pose proof (hmul_ok 23 8 eq_refl eq_refl eq_refl 0 r H0 Hr eq_refl Fr) as H. change (hmul 23 8 eq_refl eq_refl eq_refl 0 r) with (mul32 0 r) in H.
  assert (V0 : fval 23 8 0 = 0%R) by (change (fval 23 8 0) with (fmag 23 8 0); apply fmag_0; reflexivity).
  rewrite V0, Rmult_0_l in H. destruct H as (_ & _ & H & _).
  assert (Z0 : RN 23 8 0 = 0%R) by (unfold RN; apply round_0; apply valid_rnd_N). rewrite Z0, Rabs_R0 in H. apply H. apply bpow_gt_0.
Qed.

Lemma divsc3_over_inf a b c d : cbits 23 8 (a, b) -> cbits 23 8 (c, d) -> cfin 23 8 (a, b) -> cinf 23 8 (c, d) ->
  (fisinf 23 8 c = false \/ fisinf 23 8 d = false \/ (RN 23 8 (Rabs (fval 23 8 a) + Rabs (fval 23 8 b)) < bpow radix2 128)%R) ->
  czero 23 8 (divsc3 a b c d).
Proof.
  unfold cbits, cinf, cfin, czero. cbn [fst snd]. intros [Ha Hb] [Hc Hd] [Fa Fb] I T.
  destruct (f2d_class a Ha) as [Ba Ca]. destruct (f2d_class b Hb) as [Bb Cb]. destruct (f2d_class c Hc) as [Bc Cc]. destruct (f2d_class d Hd) as [Bd Cd].
  assert (NF : forall x, fisinf 23 8 x = true -> ffinite 23 8 x = false) by (intros x Ix; unfold fisinf, ffinite in *; lia).
  assert (CD : ffinite 52 11 (f2d c) = false \/ ffinite 52 11 (f2d d) = false) by (rewrite Cc, Cd; destruct I as [I|I]; apply NF in I; tauto).
  pose proof (proj1 (num_nf (f2d a) (f2d c) (f2d b) (f2d d) Ba Bc Bb Bd ltac:(tauto))) as X.
  pose proof (proj2 (num_nf (f2d b) (f2d c) (f2d a) (f2d d) Bb Bc Ba Bd ltac:(tauto))) as Y.
  pose proof (proj1 (num_nf (f2d c) (f2d c) (f2d d) (f2d d) Bc Bc Bd Bd ltac:(tauto))) as DEN.
  assert (ABt : forall p q, fbits 52 11 (add64 p q)) by (intros p q; apply add_bits; reflexivity).
  assert (SBt : forall p q, fbits 52 11 (sub64 p q)) by (intros p q; apply sub_bits; reflexivity).
  pose proof (d2f_nan _ (div_bits _ _) (div_nn _ _ (ABt _ _) (ABt _ _) X DEN)) as X'.
  pose proof (d2f_nan _ (div_bits _ _) (div_nn _ _ (SBt _ _) (ABt _ _) Y DEN)) as Y'.
  assert (ZZ : heq 23 8 c 0 && heq 23 8 d 0 = false).
  { apply Bool.not_true_iff_false. intros ZZ. apply andb_prop in ZZ. destruct ZZ as [Z1 Z2]. apply (heq_zero c Hc) in Z1. apply (heq_zero d Hd) in Z2.
    destruct I as [I|I]; apply NF in I; destruct Z1, Z2; congruence. }
  destruct (fin_class 23 8 eq_refl a (conj Ha Fa)) as [Ia _]. destruct (fin_class 23 8 eq_refl b (conj Hb Fb)) as [Ib _].
  assert (I' : fisinf 23 8 c || fisinf 23 8 d = true) by (apply Bool.orb_true_iff; exact I).
  unfold divsc3, divsc3_kernel. cbv zeta. cbn [fst snd]. rewrite X', Y', ZZ, Ia, Ib, I'. unfold isfin32. rewrite Fa, Fb. cbn [andb orb fst snd].
  pose proof (box_unit 23 8 eq_refl eq_refl eq_refl c) as Uc. specialize (Uc Hc). pose proof (box_unit 23 8 eq_refl eq_refl eq_refl d) as Ud. specialize (Ud Hd).
  assert (TT : tame (fval 23 8 a) (fval 23 8 b) (fval 23 8 (box 23 8 c)) (fval 23 8 (box 23 8 d))).
  { destruct T as [T|[T|T]]; [left; apply box_zero; assumption|right; left; apply box_zero; assumption|right; right; exact T]. }
  assert (TT' : tame (fval 23 8 b) (fval 23 8 a) (fval 23 8 (box 23 8 c)) (fval 23 8 (box 23 8 d))).
  { unfold tame in *. rewrite (Rplus_comm (Rabs (fval 23 8 b))). exact TT. }
  destruct (tame_bound a b _ _ (conj Ha Fa) (conj Hb Fb) Uc Ud TT) as [TB1 _].
  destruct (tame_bound b a _ _ (conj Hb Fb) (conj Ha Fa) Uc Ud TT') as [_ TB2].
  set (c1 := box 23 8 c) in *. set (d1 := box 23 8 d) in *. clearbody c1 d1. pose proof Uc as (Hc1 & Fc1 & _). pose proof Ud as (Hd1 & Fd1 & _).
  pose proof (mul_unit 23 8 eq_refl eq_refl eq_refl) as MU.
  destruct (MU a c1 Ha Fa Hc1 Fc1 ltac:(tauto)) as (A1 & A2 & A3).
  destruct (MU b d1 Hb Fb Hd1 Fd1 ltac:(tauto)) as (B1 & B2 & B3).
  destruct (MU a d1 Ha Fa Hd1 Fd1 ltac:(tauto)) as (C1 & C2 & C3).
  destruct (MU b c1 Hb Fb Hc1 Fc1 ltac:(tauto)) as (D1 & D2 & D3).
  change (hmul 23 8 eq_refl eq_refl eq_refl) with mul32 in *.
  pose proof (hadd_ok 23 8 eq_refl eq_refl eq_refl _ _ A1 B1 A2 B2) as (E1 & _ & E2 & _).
  pose proof (hsub_ok 23 8 eq_refl eq_refl eq_refl _ _ D1 C1 D2 C2) as (E3 & _ & E4 & _).
  rewrite A3, B3 in E2. rewrite C3, D3 in E4. destruct (E2 TB1) as [E5 _]. destruct (E4 TB2) as [E6 _].
  destruct (zero_times _ E1 E5) as [Z1 Z2]. destruct (zero_times _ E3 E6) as [Z3 Z4]. exact (conj (conj Z1 Z3) (conj Z2 Z4)).
Qed.
