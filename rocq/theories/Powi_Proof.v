(** Integer powers: proofs. *)
From Coq Require Import Reals Lra Lia Psatz.
From Flocq Require Import Core BinarySingleNaN Relative.
From Verif Require Import Base FP FP_Proof HW HW_Proof Math_Model Complex_Model Complex_Proof Powi_Model.
Open Scope Z_scope.
Local Ltac Zify.zify_post_hook ::= idtac.

(** ** relative errors that multiply *)
Definition wit (E x v : R) : Prop := (Rabs (x - v) <= (E - 1) * Rabs v)%R.
Lemma wit_ex E x v : (1 <= E)%R -> wit E x v -> exists d, (Rabs d <= E - 1)%R /\ x = (v * (1 + d))%R.
Proof.
  intros HE H. unfold wit in H. destruct (Req_dec v 0) as [Z|Z].
  - exists 0%R. split; [rewrite Rabs_R0; lra|]. rewrite Z, Rabs_R0, Rmult_0_r, Rminus_0_r in H. rewrite Z. pose proof (Rabs_pos x).
    destruct (Req_dec x 0) as [->|N]; [ring|]. pose proof (Rabs_pos_lt x N). lra.
  - exists ((x - v) / v)%R. split; [|field; exact Z]. unfold Rdiv. rewrite Rabs_mult, Rabs_inv.
    pose proof (Rabs_pos_lt v Z) as P. apply Rmult_le_reg_r with (Rabs v); [exact P|]. rewrite Rmult_assoc, Rinv_l, Rmult_1_r by lra. exact H.
Qed.
Lemma wit_of E d v : (Rabs d <= E - 1)%R -> wit E (v * (1 + d)) v.
Proof. intros H. unfold wit. replace (v * (1 + d) - v)%R with (d * v)%R by ring. rewrite Rabs_mult. apply Rmult_le_compat_r; [apply Rabs_pos|exact H]. Qed.
Lemma wit_mul E F x v y w : (1 <= E)%R -> (1 <= F)%R -> wit E x v -> wit F y w -> wit (E * F) (x * y) (v * w).
Proof.
  intros HE HF A B. destruct (wit_ex E x v HE A) as (d & Hd & ->). destruct (wit_ex F y w HF B) as (e & He & ->).
  replace (v * (1 + d) * (w * (1 + e)))%R with (v * w * (1 + (d + e + d * e)))%R by ring. apply wit_of.
  apply Rle_trans with (Rabs d + Rabs e + Rabs d * Rabs e)%R.
  - eapply Rle_trans; [apply Rabs_triang|]. rewrite Rabs_mult. apply Rplus_le_compat_r. apply Rabs_triang.
  - pose proof (Rabs_pos d). pose proof (Rabs_pos e). nra.
Qed.
Lemma wit_le E F x v : (E <= F)%R -> wit E x v -> wit F x v.
Proof. intros L H. unfold wit in *. pose proof (Rabs_pos v). nra. Qed.
Lemma wit_range E x v : (1 <= E <= 2)%R -> wit E x v -> (Rabs x <= 2 * Rabs v)%R.
Proof.
  intros HE H. unfold wit in H. pose proof (Rabs_pos v). replace x with (v + (x - v))%R by ring. eapply Rle_trans; [apply Rabs_triang|]. nra.
Qed.
Lemma wit_low E x v : (1 <= E <= 1.5)%R -> wit E x v -> (/ 2 * Rabs v <= Rabs x)%R.
Proof.
  intros HE H. unfold wit in H. pose proof (Rabs_pos v).
  assert (Rabs v <= Rabs x + Rabs (x - v))%R by (replace v with (x + - (x - v))%R at 1 by ring; eapply Rle_trans; [apply Rabs_triang|]; rewrite Rabs_Ropp; lra). nra.
Qed.

(** powers between 1 and the n-th one *)
Lemma pow_between x n m lo hi : (0 <= x)%R -> (m <= n)%nat -> (lo <= 1 <= hi)%R -> (lo <= x ^ n <= hi)%R -> (lo <= x ^ m <= hi)%R.
Proof.
  intros Hx L H1 H2. destruct (Rle_or_lt x 1) as [C|C].
  - assert (x ^ m <= 1)%R by (rewrite <- (pow1 m); apply pow_incr; lra).
    assert (x ^ n <= x ^ m)%R.
    { replace n with (m + (n - m))%nat by lia. rewrite pow_add. pose proof (pow_le x m Hx).
      assert (x ^ (n - m) <= 1)%R by (rewrite <- (pow1 (n - m)); apply pow_incr; lra). nra. }
    lra.
  - assert (1 <= x ^ m)%R by (apply pow_R1_Rle; lra). assert (x ^ m <= x ^ n)%R by (apply Rle_pow; [lra|exact L]). lra.
Qed.

Section Ops.
Variables mw ew : Z.
Hypothesis Hmw : 0 < mw.
Hypothesis Hew0 : 0 < ew.
Hypothesis Hpe : mw + 1 < 2^(ew - 1).
Notation Hew := (hw_ew mw ew Hmw Hew0 Hpe).
Notation mul := (hmul mw ew Hmw Hew0 Hpe).
Notation div := (hdiv mw ew Hmw Hew0 Hpe).
Notation fval := (fval mw ew).
Notation fbits := (fbits mw ew).
Notation ffinite := (ffinite mw ew).
Notation emax := (2^(ew - 1)).
Local Instance P1 : Prec_gt_0 (mw + 1) := hw_prec mw Hmw.

(** unit roundoff, least normal number *)
Definition u : R := bpow radix2 (- (mw + 1)).
Definition lo : R := bpow radix2 (3 - emax).
Definition hi : R := bpow radix2 (emax - 2).

Lemma u_pos : (0 < u <= / 4)%R.
Proof. unfold u. split; [apply bpow_gt_0|]. change (/ 4)%R with (bpow radix2 (-2)). apply bpow_le. lia. Qed.

Definition good (E : R) (x : Z) (v : R) : Prop := fbits x /\ ffinite x = true /\ wit E (fval x) v.

Lemma rounds_good E z s r v : rounds_to mw ew z s r -> (1 <= E)%R -> (E * (1 + u) <= 1.5)%R -> wit E z v -> (lo <= Rabs v <= hi)%R -> good (E * (1 + u)) r v.
Proof.
  intros (A & _ & B & _) HE HU W V. pose proof u_pos as UP.
  assert (E1 : (1 <= E <= 1.5)%R) by nra.
  pose proof (wit_low E z v E1 W) as L. pose proof (wit_range E z v ltac:(lra) W) as H.
  assert (LZ : (bpow radix2 (emin mw ew + (mw + 1) - 1) <= Rabs z)%R).
  { apply Rle_trans with (2 := L). apply Rle_trans with (/ 2 * lo)%R; [|lra]. unfold lo. change (/ 2)%R with (bpow radix2 (-1)). rewrite <- bpow_plus. apply bpow_le. unfold emin. lia. }
  assert (HZ : (Rabs z <= bpow radix2 (emax - 1))%R).
  { apply Rle_trans with (1 := H). apply Rle_trans with (2 * hi)%R; [lra|]. unfold hi. change 2%R with (bpow radix2 1). rewrite <- bpow_plus. apply bpow_le. lia. }
  assert (RZ : (Rabs (RN mw ew z) < bpow radix2 emax)%R).
  { apply Rle_lt_trans with (bpow radix2 (emax - 1)); [|apply bpow_lt; lia].
    unfold RN. apply abs_round_le_generic; [typeclasses eauto|typeclasses eauto| |exact HZ].
    apply generic_format_bpow. unfold FLT_exp, emin. lia. }
  destruct (B RZ) as [B1 B2]. split; [exact A|]. split; [exact B1|]. rewrite B2.
  destruct (relative_error_N_FLT_ex radix2 (emin mw ew) (mw + 1) (hw_prec mw Hmw) (fun x => negb (Z.even x)) z LZ) as (d & Hd & Ed).
  unfold RN. change ZnearestE with (Znearest (fun x => negb (Z.even x))). rewrite Ed.
  replace v with (v * 1)%R by ring. apply wit_mul; [lra|lra|exact W|]. unfold wit. rewrite Rabs_R1.
  replace (1 + d - 1)%R with d by ring. apply Rle_trans with (1 := Hd). unfold u.
  right. replace (1 + bpow radix2 (- (mw + 1)) - 1)%R with (bpow radix2 (- (mw + 1))) by ring. rewrite Rmult_1_r.
  change (/ 2)%R with (bpow radix2 (-1)). rewrite <- bpow_plus. f_equal. lia.
Qed.

Lemma mul_good E F x y v w : good E x v -> good F y w -> (1 <= E)%R -> (1 <= F)%R -> (E * F * (1 + u) <= 1.5)%R -> (lo <= Rabs (v * w) <= hi)%R ->
  good (E * F * (1 + u)) (mul x y) (v * w).
Proof.
  intros (A1 & A2 & A3) (B1 & B2 & B3) HE HF HU V.
  apply (rounds_good (E * F) _ _ _ _ (hmul_ok mw ew Hmw Hew0 Hpe x y A1 B1 A2 B2)); [nra|exact HU|apply wit_mul; assumption|exact V].
Qed.

(** [X ^ n] approximated with k roundings *)
Definition app (k : nat) (x : Z) (v : R) : Prop := good ((1 + u) ^ k) x v.

Lemma one_good : fbits (c_one mw ew) /\ ffinite (c_one mw ew) = true /\ fval (c_one mw ew) = 1%R.
Proof.
  destruct (c_one_val mw ew Hmw Hew0 Hpe) as [C1 C2]. pose proof (finf_pos mw ew Hmw Hew) as FI.
  destruct (with_sign_spec mw ew Hmw Hew false (c_one mw ew) ltac:(lia)) as (A & B & C). unfold with_sign in A, B, C. rewrite Z.add_0_l in A, B, C.
  split; [exact C|]. unfold FP.ffinite, FP.fval. rewrite A, B. split; [lia|exact C2].
Qed.

Lemma pow_u_mono j k : (j <= k)%nat -> (1 <= (1 + u) ^ j <= (1 + u) ^ k)%R.
Proof. intros L. pose proof u_pos. split; [apply pow_R1_Rle; lra|apply Rle_pow; [lra|exact L]]. Qed.

(** the loop; K roundings per power of the given number *)
Lemma loop_ok X (n : nat) K : ((1 + u) ^ (K * n + n) <= 1.5)%R -> (lo <= Rabs (X ^ n) <= hi)%R ->
  forall fuel x y i (p q : nat), 0 <= i < 2^(Z.of_nat fuel) -> (1 <= q)%nat -> (p + q * Z.to_nat i = n)%nat ->
  app (K * p + p) y (X ^ p) -> (i <> 0 -> app (K * q + q - 1) x (X ^ q)) ->
  exists r, powu_loop mw ew Hmw Hew0 Hpe (S fuel) x y i = Ok r /\ app (K * n + n) r (X ^ n).
Proof.
  intros HU HX. pose proof u_pos as UP.
  assert (H1 : (lo <= 1 <= hi)%R).
  { unfold lo, hi. change 1%R with (bpow radix2 0). split; apply bpow_le; lia. }
  assert (RG : forall m, (m <= n)%nat -> (lo <= Rabs (X ^ m) <= hi)%R).
  { intros m L. rewrite <- RPow_abs in *. apply (pow_between (Rabs X) n m lo hi (Rabs_pos X) L H1 HX). }
  induction fuel as [|fuel IH]; intros x y i p q Hi Hq E Ay Ax.
  - change (2^Z.of_nat 0) with 1 in Hi. assert (i = 0) as -> by lia. cbn [powu_loop Z.eqb]. exists y. split; [reflexivity|].
    change (Z.to_nat 0) with 0%nat in E. replace p with n in Ay by lia. exact Ay.
  - destruct (Z.eqb_spec i 0) as [->|N].
    { cbn [powu_loop Z.eqb]. exists y. split; [reflexivity|]. change (Z.to_nat 0) with 0%nat in E. replace p with n in Ay by lia. exact Ay. }
    specialize (Ax N).
    change (powu_loop mw ew Hmw Hew0 Hpe (S (S fuel)) x y i) with
      (if i =? 0 then Ok y else powu_loop mw ew Hmw Hew0 Hpe (S fuel) (mul x x) (if Z.odd i then mul y x else y) (Z.shiftr i 1)).
    rewrite (proj2 (Z.eqb_neq i 0) N).
    rewrite Z.shiftr_div_pow2 by lia. change (2^1) with 2.
    pose proof (Z.div_mod i 2 ltac:(lia)) as DM. rewrite Zmod_odd in DM.
    assert (H2 : 0 <= i / 2) by (apply Z.div_pos; lia).
    assert (Hi2 : i / 2 < 2^Z.of_nat fuel).
    { apply Z.div_lt_upper_bound; [lia|]. rewrite Nat2Z.inj_succ, Z.pow_succ_r in Hi by lia. lia. }
    set (j := i / 2) in *. clearbody j.
    assert (TI : Z.to_nat i = (2 * Z.to_nat j + (if Z.odd i then 1 else 0))%nat) by (destruct (Z.odd i); lia).
    assert (E2 : (p + (if Z.odd i then q else 0) + 2 * q * Z.to_nat j = n)%nat) by (rewrite TI in E; destruct (Z.odd i); nia).
    assert (SQ : j <> 0 -> app (K * (2 * q) + 2 * q - 1) (mul x x) (X ^ (2 * q))).
    { intros Nj. assert (LQ : (2 * q <= n)%nat) by (assert (1 <= Z.to_nat j)%nat by lia; nia).
      replace (2 * q)%nat with (q + q)%nat by lia. rewrite pow_add. unfold app.
      replace (K * (q + q) + (q + q) - 1)%nat with ((K * q + q - 1) + (K * q + q - 1) + 1)%nat by lia. rewrite !pow_add, pow_1.
      apply mul_good; try exact Ax; try (apply (pow_u_mono (K * q + q - 1) (K * q + q - 1)); lia).
      - replace (1 + u)%R with ((1 + u) ^ 1)%R at 3 by ring. rewrite <- !pow_add. apply Rle_trans with (2 := HU). apply pow_u_mono. nia.
      - rewrite <- pow_add. apply RG. lia. }
    destruct (Z.odd i).
    + assert (LQ : (p + q <= n)%nat) by nia.
      apply (IH (mul x x) (mul y x) j (p + q)%nat (2 * q)%nat); [lia|lia|exact E2| |exact SQ].
      unfold app in *. set (k1 := (K * p + p)%nat) in *. set (k2 := (K * q + q - 1)%nat) in *.
      assert (EK : (K * (p + q) + (p + q) = k1 + k2 + 1)%nat) by (unfold k1, k2; nia).
      assert (LK : (k1 + k2 + 1 <= K * n + n)%nat) by (rewrite <- EK; nia). rewrite EK. clearbody k1 k2.
      assert (EP : ((1 + u) ^ (k1 + k2 + 1) = (1 + u) ^ k1 * (1 + u) ^ k2 * (1 + u))%R) by (rewrite !pow_add, pow_1; ring).
      pose proof (pow_u_mono _ _ LK) as PM. rewrite EP in *. rewrite (pow_add X).
      apply mul_good; [exact Ay|exact Ax|apply (pow_u_mono k1 k1); lia|apply (pow_u_mono k2 k2); lia|lra|]. rewrite <- pow_add. apply RG. exact LQ.
    + apply (IH (mul x x) y j p (2 * q)%nat); [lia|lia|rewrite Nat.add_0_r in E2; exact E2|exact Ay|exact SQ].
Qed.

Lemma loop_total fuel : forall x y i, 0 <= i < 2^(Z.of_nat fuel) -> exists r, powu_loop mw ew Hmw Hew0 Hpe (S fuel) x y i = Ok r.
Proof.
  induction fuel as [|fuel IH]; intros x y i Hi.
  - change (2^Z.of_nat 0) with 1 in Hi. assert (i = 0) as -> by lia. exists y. reflexivity.
  - change (powu_loop mw ew Hmw Hew0 Hpe (S (S fuel)) x y i) with
      (if i =? 0 then Ok y else powu_loop mw ew Hmw Hew0 Hpe (S fuel) (mul x x) (if Z.odd i then mul y x else y) (Z.shiftr i 1)).
    destruct (i =? 0); [eauto|]. apply IH. rewrite Z.shiftr_div_pow2 by lia. change (2^1) with 2. split; [apply Z.div_pos; lia|].
    apply Z.div_lt_upper_bound; [lia|]. rewrite Nat2Z.inj_succ, Z.pow_succ_r in Hi by lia. lia.
Qed.

Lemma hdiv_gen a b : fbits a -> fbits b -> ffinite a = true -> ffinite b = true -> fval b <> 0%R ->
  rounds_to mw ew (fval a / fval b) (xorb (fneg mw ew a) (fneg mw ew b)) (div a b).
Proof.
  intros Ha Hb Fa Fb NZ. destruct (dec_finite mw ew Hmw Hew0 Hpe a Ha Fa) as (A1 & A2 & A3). destruct (dec_finite mw ew Hmw Hew0 Hpe b Hb Fb) as (B1 & B2 & B3).
  unfold hdiv. apply (enc_rounds mw ew Hmw Hew0 Hpe).
  pose proof (Bdiv_correct (mw + 1) emax (hw_prec mw Hmw) (hw_emax mw ew Hpe) mode_NE (dec mw ew Hmw Hew0 Hpe a) (dec mw ew Hmw Hew0 Hpe b)) as H.
  rewrite (round_flocq mw ew), A2, B2, A1, A3, B3 in H. specialize (H NZ).
  destruct (Rlt_bool _ _).
  - destruct H as (H1 & H2 & H3). split; [exact H1|]. split; [exact H2|]. apply H3.
    destruct (Bdiv mode_NE _ _); cbn in *; congruence.
  - exact H.
Qed.

Lemma powu_ok K X x n : 0 <= n < 2^32 -> ((1 + u) ^ (K * Z.to_nat n + Z.to_nat n) <= 1.5)%R -> (lo <= Rabs (X ^ Z.to_nat n) <= hi)%R ->
  (n <> 0 -> app K x X) -> exists r, powu_ mw ew Hmw Hew0 Hpe x n = Ok r /\ app (K * Z.to_nat n + Z.to_nat n) r (X ^ Z.to_nat n).
Proof.
  intros Hn HU HX A. unfold powu_. apply (loop_ok X (Z.to_nat n) K HU HX 32 x (c_one mw ew) n 0%nat 1%nat); [exact Hn|lia|lia| |].
  - rewrite Nat.mul_0_r. destruct one_good as (B1 & B2 & B3). split; [exact B1|]. split; [exact B2|]. rewrite B3. unfold wit. cbn [pow Nat.add].
    replace (1 - 1)%R with 0%R by ring. rewrite Rabs_R0. lra.
  - intros N. rewrite pow_1. replace (K * 1 + 1 - 1)%nat with K by lia. apply A. exact N.
Qed.

(** (1+u)^k - 1 is at most 3/2 k u *)
Lemma pow_u_bound (k : nat) : (INR k * u <= / 3)%R -> ((1 + u) ^ k <= 1.5 /\ (1 + u) ^ k - 1 <= 1.5 * INR k * u)%R.
Proof.
  intros H. pose proof u_pos as UP.
  assert (G : forall j, ((1 + u) ^ j * (1 - INR j * u) <= 1)%R).
  { induction j as [|j IH]; [cbn [pow INR]; lra|]. rewrite S_INR. cbn [pow].
    assert (P : (0 < (1 + u) ^ j)%R) by (apply pow_lt; lra). pose proof (pos_INR j).
    apply Rle_trans with (2 := IH). replace ((1 + u) * (1 + u) ^ j * (1 - (INR j + 1) * u))%R with ((1 + u) ^ j * ((1 + u) * (1 - (INR j + 1) * u)))%R by ring.
    apply Rmult_le_compat_l; [lra|]. nra. }
  specialize (G k). set (P := ((1 + u) ^ k)%R) in *. set (t := (INR k * u)%R) in *.
  assert (1 <= P)%R by (apply pow_R1_Rle; lra).
  assert (T0 : (0 <= t)%R) by (apply Rmult_le_pos; [apply pos_INR|lra]).
  replace (1.5 * INR k * u)%R with (1.5 * t)%R by (unfold t; ring). clearbody P t. split; nra.
Qed.

Lemma recip_good x : fbits x -> ffinite x = true -> fval x <> 0%R -> (lo <= Rabs (/ fval x) <= hi)%R -> app 1 (div (c_one mw ew) x) (/ fval x).
Proof.
  intros Hx Fx NZ V. destruct one_good as (B1 & B2 & B3). pose proof (hdiv_gen _ _ B1 Hx B2 Fx NZ) as R. rewrite B3 in R.
  unfold app. rewrite pow_1. rewrite <- (Rmult_1_l (1 + u)). apply (rounds_good 1 _ _ _ _ R); [lra| | |exact V].
  - pose proof u_pos. lra.
  - unfold wit, Rdiv. rewrite Rmult_1_l. replace (/ fval x - / fval x)%R with 0%R by ring. rewrite Rabs_R0. lra.
Qed.

Lemma powi_ok x n : fbits x -> ffinite x = true -> -2^31 < n < 2^31 -> (n < 0 -> fval x <> 0%R) ->
  (2 * IZR (Z.abs n) * u <= / 3)%R -> (lo <= Rabs (powerRZ (fval x) n) <= hi)%R ->
  exists r, powi_ mw ew Hmw Hew0 Hpe x n = Ok r /\ fbits r /\ ffinite r = true /\
   (Rabs (fval r - powerRZ (fval x) n) <= (if (n <? 0)%Z then 3 else 1.5) * IZR (Z.abs n) * u * Rabs (powerRZ (fval x) n))%R.
Proof.
  intros Hx Fx Hn NZ HU V. unfold powi_. pose proof u_pos as UP. pose proof (IZR_le 0 (Z.abs n) (Z.abs_nonneg n)) as A0.
  assert (EI : INR (Z.to_nat (Z.abs n)) = IZR (Z.abs n)) by (rewrite INR_IZR_INZ, Z2Nat.id by lia; reflexivity).
  destruct (Z.ltb_spec n 0) as [L|L].
  - specialize (NZ L). rewrite chk_i32_ok by (unfold INT_MIN, INT_MAX; lia). cbn [bind]. unfold u32. rewrite Z.mod_small by lia.
    rewrite Z.abs_neq in * by lia.
    assert (EP : powerRZ (fval x) n = ((/ fval x) ^ Z.to_nat (- n))%R).
    { destruct n as [|p|p]; try lia. cbn [powerRZ Z.opp]. rewrite pow_inv. reflexivity. }
    rewrite EP in *.
    destruct (pow_u_bound (1 * Z.to_nat (- n) + Z.to_nat (- n))) as [B1 B2].
    { rewrite Nat.mul_1_l, plus_INR, EI. lra. }
    rewrite Nat.mul_1_l, plus_INR, EI in B2.
    assert (V1 : (lo <= Rabs (/ fval x) <= hi)%R).
    { rewrite <- (pow_1 (/ fval x)). rewrite <- RPow_abs in *. apply (pow_between _ (Z.to_nat (- n)) 1 lo hi); [apply Rabs_pos|lia| |exact V].
      unfold lo, hi. change 1%R with (bpow radix2 0). split; apply bpow_le; lia. }
    destruct (powu_ok 1 (/ fval x) (div (c_one mw ew) x) (- n) ltac:(lia) B1 V (fun _ => recip_good x Hx Fx NZ V1)) as (r & R1 & R2 & R3 & R4).
    exists r. split; [exact R1|]. split; [exact R2|]. split; [exact R3|]. unfold wit in R4. apply Rle_trans with (1 := R4).
    apply Rmult_le_compat_r; [apply Rabs_pos|]. rewrite Nat.mul_1_l. lra.
  - unfold u32. rewrite Z.mod_small by lia. rewrite Z.abs_eq in * by lia.
    assert (EP : powerRZ (fval x) n = (fval x ^ Z.to_nat n)%R).
    { destruct n as [|p|p]; try lia; reflexivity. }
    rewrite EP in *.
    destruct (pow_u_bound (0 * Z.to_nat n + Z.to_nat n)) as [B1 B2].
    { rewrite Nat.mul_0_l, Nat.add_0_l, EI. lra. }
    rewrite Nat.mul_0_l, Nat.add_0_l, EI in B2.
    destruct (powu_ok 0 (fval x) x n ltac:(lia) B1 V) as (r & R1 & R2 & R3 & R4).
    { intros _. split; [exact Hx|]. split; [exact Fx|]. unfold wit. rewrite pow_O. replace (fval x - fval x)%R with 0%R by ring. rewrite Rabs_R0. lra. }
    exists r. split; [exact R1|]. split; [exact R2|]. split; [exact R3|]. unfold wit in R4. apply Rle_trans with (1 := R4).
    apply Rmult_le_compat_r; [apply Rabs_pos|]. rewrite Nat.mul_0_l, Nat.add_0_l. lra.
Qed.
End Ops.
