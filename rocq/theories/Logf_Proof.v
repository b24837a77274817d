(** Accuracy of logf, log2f and log10f. *)
From Coq Require Import Reals Lra Lia Psatz QArith Qreals Qabs List.
From Flocq Require Import Core BinarySingleNaN Relative Sterbenz.
From Coquelicot Require Import Coquelicot.
From Verif Require Import Base FP FP_Proof HW HW_Proof Tf_Narrow_Proof Midpoint Fmaf_Proof Math_Model Math_Basic_Proof Math_Round_Proof Math_Int_Proof Math_Lconv_Proof Hypotf_Real Hypotf_Proof Approx Subdiv Ferr Elem_Spec Elem_Proof Elem_Num Expf_Model Expf_Proof Logf_Model Logf_Kernel.
Import ListNotations.
Open Scope Z_scope.
Local Ltac Zify.zify_post_hook ::= idtac.

(** ** the reduced argument *)
Lemma split32_ok x : 0 < x < 0x7F800000 -> exists n e m M, normalize_ 23 8 x = Ok n /\ split32 n = Ok (e, m) /\ dbl m M /\ (0.7071 <= M <= 1.41422)%R /\
  fmag 23 8 x = (M * bpow radix2 e)%R /\ -150 <= e <= 128.
Proof.
  intros Hx. destruct (normalize_ok 23 8 eq_refl eq_refl eq_refl eq_refl x Hx) as (E & f & N & Hf & HE & V). rewrite N.
  change (2^23) with 8388608 in *. change (2^8) with 256 in *. exists (E * 8388608 + f). unfold split32. rewrite chk_i32_ok by (unfold INT_MIN, INT_MAX; lia). cbn [bind].
  rewrite Z.shiftr_div_pow2 by lia. change (2^23) with 8388608. set (d := E * 8388608 + f - 1060439284).
  pose proof (Z.div_mod d 8388608 ltac:(lia)) as DM. pose proof (Z.mod_pos_bound d 8388608 ltac:(lia)) as DB. set (e := d / 8388608) in *. set (r := d mod 8388608) in *.
  assert (He : -150 <= e <= 128) by lia. rewrite sgn_id by (try reflexivity; change (2^(32-1)) with 2147483648; lia).
  rewrite chk_i32_ok by (unfold INT_MIN, INT_MAX; lia). cbn [bind]. set (j := E * 8388608 + f - e * 8388608). assert (Hj : 1060439284 <= j < 1060439284 + 8388608) by lia.
  assert (U : u32 j = j) by (apply Z.mod_small; lia). rewrite U. exists e, (f2d j), (fmag 23 8 j).
  split; [reflexivity|]. split; [reflexivity|]. split; [apply dbl_float; lia|]. split; [|split; [|exact He]].
  - split.
    + eapply Rle_trans; [|apply (fmag_le 23 8 eq_refl 1060439284 j); lia]. rewrite fmag32_q by lia. eapply Rle_trans; [|apply (Q2R_le (7071 # 10000)); vm_compute; reflexivity]. unfold Q2R. cbn [Qnum Qden]. lra.
    + eapply Rle_trans; [apply (fmag_le 23 8 eq_refl j (1060439284 + 8388608)); lia|]. rewrite fmag32_q by lia. eapply Rle_trans; [apply (Q2R_le _ (141422 # 100000)); vm_compute; reflexivity|]. unfold Q2R. cbn [Qnum Qden]. lra.
  - rewrite V. rewrite (fmag_normal 23 8 j (E - e) f) by (change (2^23) with 8388608; lia). unfold F2R. cbn [Fnum Fexp]. change (2^23) with 8388608. rewrite Rmult_assoc, <- bpow_plus. do 2 f_equal. lia.
Qed.

(** ** the final sum *)
Lemma fneg_sign z y : fbits 52 11 z -> fval 52 11 z = y -> y <> 0%R -> fneg 52 11 z = Rlt_bool y 0.
Proof.
  intros H <- N. unfold fval in *. assert (P : 0 <= fabsb 52 11 z) by (apply Z.mod_pos_bound; reflexivity). pose proof (fmag_nonneg 52 11 eq_refl _ P) as Q.
  destruct (fneg 52 11 z); symmetry; [apply Rlt_bool_true; lra|apply Rlt_bool_false; lra].
Qed.
Lemma to_float' z y v k : dbl z y -> v <> 0%R -> (1 <= k)%Z -> (Rabs (y - v) <= bpow radix2 (- k) * Rabs v)%R -> nearly_rounded k v (d2f z).
Proof.
  intros (A & B & C & _) N Hk H. assert (K : (bpow radix2 (- k) <= / 2)%R) by (change (/ 2)%R with (bpow radix2 (-1)); apply bpow_le; lia).
  apply to_float; [exact A|exact B| |rewrite C; exact H]. pose proof (Rabs_pos_lt v N) as P. apply Rabs_le_inv in H.
  assert (Y : (v < 0 /\ y < 0 \/ 0 < v /\ 0 < y)%R).
  { destruct (Rtotal_order v 0) as [L|[L|L]]; [left; rewrite Rabs_left in * by exact L; nra|contradiction|right; rewrite Rabs_pos_eq in * by lra; nra]. }
  rewrite (fneg_sign z y A C) by (intros Z; lra). destruct Y as [[Y1 Y2]|[Y1 Y2]]; [rewrite !Rlt_bool_true by assumption|rewrite !Rlt_bool_false by lra]; reflexivity.
Qed.
Lemma logsum a b A B l alpha beta k L e : dbl a A -> dbl b B -> (0.3 <= l <= 2)%R -> (Rabs L <= 0.347)%R -> -2000 <= e <= 2000 ->
  (Rabs (A - l * L) <= alpha * (l * Rabs L))%R -> (Rabs (B - l * (IZR e * ln 2)) <= beta * (l * (Rabs (IZR e) * ln 2)))%R ->
  (0 <= alpha <= 0.00000001)%R -> (0 <= beta <= 0.00000001)%R -> (alpha <= bpow radix2 (- k))%R -> (0.347 * alpha + 0.6932 * beta <= 0.346 * (bpow radix2 (- k) - 0.000000000000000112))%R -> 
  exists y, dbl (add64 a b) y /\ (Rabs (y - l * (L + IZR e * ln 2)) <= bpow radix2 (- k) * Rabs (l * (L + IZR e * ln 2)))%R.
Proof.
  intros DA DB Hl HL He HA HB Ha Hb K1 K2. pose proof ln2_dec as LN. destruct u53_dec as [U0 U1]. assert (AL := Rabs_pos L).
  destruct (Z.eq_dec e 0) as [->|NZ].
  - rewrite Rmult_0_l, Rmult_0_r, Rabs_R0, Rmult_0_l, Rmult_0_r, Rmult_0_r, Rminus_0_r in HB. assert (B0 : B = 0%R) by (apply Rabs_le_inv in HB; lra). subst B.
    exists A. split.
    + assert (BA : (Rabs (A + 0) <= bpow radix2 1)%R). { rewrite Rplus_0_r. change (bpow radix2 1) with 2%R. replace A with ((A - l * L) + l * L)%R by ring. eapply Rle_trans; [apply Rabs_triang|]. rewrite Rabs_mult, (Rabs_pos_eq l) by lra. assert (0 <= l * Rabs L <= 0.7)%R by (split; nra). nra. }
      pose proof (dbl_add a b A 0 1 DA DB BA ltac:(lia)) as X. rewrite Rplus_0_r, RN53_id in X by apply (dbl_fin _ _ DA). exact X.
    + rewrite Rmult_0_l, Rplus_0_r. eapply Rle_trans; [exact HA|]. rewrite Rabs_mult, (Rabs_pos_eq l) by lra. apply Rmult_le_compat_r; [nra|exact K1].
  - set (E := Rabs (IZR e)) in *. assert (E1 : (1 <= E <= 2000)%R). { unfold E. rewrite <- abs_IZR. split; apply IZR_le; lia. }
    set (v := (l * (L + IZR e * ln 2))%R).
    assert (LV : (l * (0.346 * E) <= Rabs v)%R).
    { unfold v. rewrite Rabs_mult, (Rabs_pos_eq l) by lra. apply Rmult_le_compat_l; [lra|]. pose proof (Rabs_triang_inv (IZR e * ln 2) (- L)) as X. replace (IZR e * ln 2 - - L)%R with (L + IZR e * ln 2)%R in X by ring.
      rewrite Rabs_Ropp, Rabs_mult, (Rabs_pos_eq (ln 2)) in X by lra. fold E in X. nra. }
    assert (UV : (Rabs v <= l * (1.1 * E))%R).
    { unfold v. rewrite Rabs_mult, (Rabs_pos_eq l) by lra. apply Rmult_le_compat_l; [lra|]. pose proof (Rabs_triang L (IZR e * ln 2)) as X. rewrite Rabs_mult, (Rabs_pos_eq (ln 2)) in X by lra. fold E in X. nra. }
    assert (S : (Rabs (A + B - v) <= l * E * (0.347 * alpha + 0.6932 * beta))%R).
    { replace (A + B - v)%R with ((A - l * L) + (B - l * (IZR e * ln 2)))%R by (unfold v; ring). eapply Rle_trans; [apply Rabs_triang|].
      assert (Q1 : (alpha * (l * Rabs L) <= l * E * (0.347 * alpha))%R).
      { replace (l * E * (0.347 * alpha))%R with (alpha * (l * (E * 0.347)))%R by ring. apply Rmult_le_compat_l; [lra|]. apply Rmult_le_compat_l; [lra|]. nra. }
      assert (Q2 : (beta * (l * (E * ln 2)) <= l * E * (0.6932 * beta))%R).
      { replace (l * E * (0.6932 * beta))%R with (beta * (l * (E * 0.6932)))%R by ring. apply Rmult_le_compat_l; [lra|]. apply Rmult_le_compat_l; [lra|]. nra. }
      lra. }
    set (g := (0.347 * alpha + 0.6932 * beta)%R) in *. assert (G : (0 <= g <= 0.00000002)%R) by (unfold g; lra). clearbody g.
    assert (LE : (0.3 <= l * E <= 4000)%R) by (split; nra).
    assert (S2 : (Rabs (A + B - v) <= 0.0001)%R) by (eapply Rle_trans; [exact S|]; nra).
    assert (AB : (0.1 <= Rabs (A + B) <= Rabs v + 0.0001)%R).
    { pose proof (Rabs_triang_inv v (v - (A + B))) as X. replace (v - (v - (A + B)))%R with (A + B)%R in X by ring. rewrite (Rabs_minus_sym v (A + B)) in X.
      pose proof (Rabs_triang v (A + B - v)) as Y. replace (v + (A + B - v))%R with (A + B)%R in Y by ring. split; nra. }
    destruct (R53_ex (A + B)) as (h & Hh & EH). { right. apply Rle_trans with (bpow radix2 (-4)); [apply bpow_le; lia|]. change (bpow radix2 (-4)) with (/ 16)%R. lra. }
    exists ((A + B) * (1 + h))%R. split.
    + rewrite <- EH. apply (dbl_add a b A B 13 DA DB); [|lia]. change (bpow radix2 13) with 8192%R. nra.
    + replace ((A + B) * (1 + h) - v)%R with ((A + B - v) * (1 + h) + v * h)%R by ring. eapply Rle_trans; [apply Rabs_triang|]. rewrite !Rabs_mult.
      assert (H1 : (Rabs (1 + h) <= 1 + u53)%R). { eapply Rle_trans; [apply Rabs_triang|]. rewrite Rabs_R1. lra. }
      set (w := Rabs (A + B - v)) in *. assert (0 <= w)%R by apply Rabs_pos. set (V := Rabs v) in *. assert (V0 : (0 <= V)%R) by apply Rabs_pos.
      assert (M1 : (w * Rabs (1 + h) <= l * E * g * (1 + u53))%R). { apply Rmult_le_compat; try assumption. apply Rabs_pos. }
      assert (M2 : (V * Rabs h <= V * 0.0000000000000001111)%R) by (apply Rmult_le_compat_l; lra).
      assert (M3 : (l * E * g * (1 + u53) <= l * E * (0.346 * (bpow radix2 (- k) - 0.000000000000000112)) + 0.0000000000000000001 * (l * E))%R).
      { rewrite Rmult_assoc. apply Rle_trans with (l * E * (g + 0.0000000000000000001))%R; [apply Rmult_le_compat_l; [lra|]; nra|]. rewrite Rmult_plus_distr_l. apply Rplus_le_compat; [apply Rmult_le_compat_l; lra|lra]. }
      assert (KP : (0 <= bpow radix2 (- k) - 0.000000000000000112)%R) by lra.
      assert (M4 : (l * E * (0.346 * (bpow radix2 (- k) - 0.000000000000000112)) <= V * (bpow radix2 (- k) - 0.000000000000000112))%R).
      { rewrite <- Rmult_assoc. apply Rmult_le_compat_r; [exact KP|]. lra. }
      lra.
Qed.

(** ** the two terms *)
Lemma log_term c K l kap m M : dbl c K -> (0.3 <= l <= 2)%R -> (Rabs (K - 2 * l) <= kap * (2 * l))%R -> (0 <= kap <= 0.000000001)%R ->
  dbl m M -> (0.7071 <= M <= 1.41422)%R ->
  exists A, dbl (mul64 c (kernel_atanhf_ (ratio1 m))) A /\ (Rabs (A - l * ln M) <= (0.00000000000000115 + 1.001 * kap + 0.0000000000000001113) * (l * Rabs (ln M)))%R /\ (Rabs (ln M) <= 0.347)%R.
Proof.
  intros DK Hl HK Hk D HM. destruct u53_dec as [U0 U1]. destruct (log_core m M D HM) as (T & DT & ET & BT & NT).
  set (t := kernel_atanhf_ (ratio1 m)) in *. clearbody t. set (H := (ln M / 2)%R) in *. replace (ln M) with (2 * H)%R by (unfold H; field). clearbody H.
  assert (AH := Rabs_pos H). assert (HK' := Rabs_le_inv _ _ HK). assert (K0 : (0.5 <= K <= 5)%R) by (split; nra).
  assert (BT' : (Rabs T <= 0.174)%R). { replace T with ((T - H) + H)%R by ring. eapply Rle_trans; [apply Rabs_triang|]. lra. }
  assert (NK : nice (-204) (K * T)). { change (-204) with (-2 + -202). apply nice_mul; [|exact NT]. right. change (bpow radix2 (-2)) with (/ 4)%R. rewrite Rabs_pos_eq by lra. lra. }
  destruct (R53_ex (K * T) (nice_weak (-204) (-1022) _ ltac:(lia) NK)) as (d & Hd & ED). assert (Hd' := Rabs_le_inv _ _ Hd).
  exists (K * T * (1 + d))%R. split; [|split].
  - rewrite <- ED. apply (dbl_mul c t K T 1 DK DT); [|lia]. rewrite Rabs_mult, (Rabs_pos_eq K) by lra. change (bpow radix2 1) with 2%R. pose proof (Rabs_pos T). nra.
  - set (q := (K / (2 * l) - 1)%R). assert (EK : K = (2 * l * (1 + q))%R) by (unfold q; field; lra).
    assert (HQ : (Rabs q <= kap)%R). { replace q with ((K - 2 * l) / (2 * l))%R by (unfold q; field; lra). unfold Rdiv. rewrite Rabs_mult, (Rabs_pos_eq (/ (2 * l))) by (left; apply Rinv_0_lt_compat; lra).
      apply (Rmult_le_reg_r (2 * l)); [lra|]. rewrite Rmult_assoc, Rinv_l, Rmult_1_r by lra. exact HK. }
    assert (HQ' := Rabs_le_inv _ _ HQ). clearbody q.
    set (p := ((1 + q) * (1 + d) - 1)%R). assert (HP : (Rabs p <= 1.00001 * kap + 0.0000000000000001112)%R) by (unfold p; apply Rabs_le; split; nra).
    replace (K * T * (1 + d) - l * (2 * H))%R with (2 * l * ((1 + p) * (T - H) + p * H))%R by (rewrite EK; unfold p; ring).
    rewrite !Rabs_mult, (Rabs_pos_eq 2), (Rabs_pos_eq l) by lra. clearbody p.
    assert (X : (Rabs ((1 + p) * (T - H) + p * H) <= (0.00000000000000115 + 1.001 * kap + 0.0000000000000001113) * Rabs H)%R).
    { eapply Rle_trans; [apply Rabs_triang|]. rewrite !Rabs_mult. assert (R1 : (Rabs (1 + p) <= 1.00001)%R). { eapply Rle_trans; [apply Rabs_triang|]. rewrite Rabs_R1. lra. }
      assert (R2 : (Rabs (1 + p) * Rabs (T - H) <= (1 + (1.00001 * kap + 0.0000000000000001112)) * (0.00000000000000115 * Rabs H))%R).
      { apply Rmult_le_compat; try apply Rabs_pos; [|exact ET]. eapply Rle_trans; [apply Rabs_triang|]. rewrite Rabs_R1. lra. }
      assert (R3 : (Rabs p * Rabs H <= (1.00001 * kap + 0.0000000000000001112) * Rabs H)%R) by (apply Rmult_le_compat_r; assumption). nra. }
    apply (Rmult_le_compat_l (2 * l)) in X; [|lra]. eapply Rle_trans; [exact X|]. right. ring.
  - rewrite Rabs_mult, (Rabs_pos_eq 2) by lra. lra.
Qed.
Lemma dbl_int e : -2000 <= e <= 2000 -> dbl (ofZ64 e) (IZR e).
Proof.
  intros He. assert (B : (Rabs (IZR e) <= 2048)%R) by (rewrite <- abs_IZR; apply IZR_le; lia).
  destruct (hofZ_exact 52 11 eq_refl eq_refl eq_refl eq_refl e ltac:(change (2^(52+1)) with 9007199254740992; lia)) as (A & F & V & _).
  split; [exact A|]. split; [exact F|]. split; [exact V|]. apply Rle_trans with (bpow radix2 11); [exact B|]. apply bpow_le. lia.
Qed.
Lemma exp_term c C r gam e : dbl c C -> (0.3 <= r <= 2)%R -> (Rabs (C - r) <= gam * r)%R -> (0 <= gam <= 0.000000001)%R -> -2000 <= e <= 2000 ->
  exists B, (dbl (mul64 (ofZ64 e) c) B /\ dbl (mul64 c (ofZ64 e)) B) /\ (Rabs (B - IZR e * r) <= (1.001 * gam + 0.0000000000000001113) * (Rabs (IZR e) * r))%R.
Proof.
  intros DC Hr HC Hg He. destruct u53_dec as [U0 U1]. pose proof (dbl_int e He) as DE. assert (HC' := Rabs_le_inv _ _ HC). assert (C0 : (0.2 <= C <= 3)%R) by (split; nra).
  assert (NE : nice 0 (IZR e)). { destruct (Z.eq_dec e 0) as [->|N]; [left; reflexivity|right]. rewrite <- abs_IZR. apply (IZR_le 1). lia. }
  assert (BE : (Rabs (IZR e) <= 2000)%R) by (rewrite <- abs_IZR; apply IZR_le; lia). set (E := IZR e) in *. clearbody E.
  assert (N : nice (-3) (E * C)). { change (-3) with (0 + -3). apply nice_mul; [exact NE|]. right. change (bpow radix2 (-3)) with (/ 8)%R. rewrite Rabs_pos_eq by lra. lra. }
  destruct (R53_ex (E * C) (nice_weak (-3) (-1022) _ ltac:(lia) N)) as (d & Hd & ED). assert (Hd' := Rabs_le_inv _ _ Hd).
  exists (E * C * (1 + d))%R. split.
  - assert (BD : (Rabs (E * C) <= bpow radix2 13)%R) by (rewrite Rabs_mult, (Rabs_pos_eq C) by lra; change (bpow radix2 13) with 8192%R; pose proof (Rabs_pos E); nra).
    rewrite <- ED. split; [apply (dbl_mul _ c E C 13 DE DC); [exact BD|lia]|]. rewrite Rmult_comm. apply (dbl_mul c _ C E 13 DC DE); [rewrite Rmult_comm; exact BD|lia].
  - replace (E * C * (1 + d) - E * r)%R with (E * ((C - r) * (1 + d) + d * r))%R by ring. rewrite Rabs_mult.
    replace ((1.001 * gam + 0.0000000000000001113) * (Rabs E * r))%R with (Rabs E * ((1.001 * gam + 0.0000000000000001113) * r))%R by ring. apply Rmult_le_compat_l; [apply Rabs_pos|].
    eapply Rle_trans; [apply Rabs_triang|]. rewrite !Rabs_mult, (Rabs_pos_eq (1 + d)), (Rabs_pos_eq r) by lra.
    assert (Rabs (C - r) * (1 + d) <= gam * r * 1.0001)%R by (apply Rmult_le_compat; try lra; apply Rabs_pos). nra.
Qed.

(** ** logarithms of rational numbers *)
Definition q2 (e : Z) : Q := if 0 <=? e then inject_Z (2^e) else 1 # Z.to_pos (2^(- e)).
Lemma q2_ok e : Q2R (q2 e) = bpow radix2 e.
Proof.
  unfold q2. destruct (Z.leb_spec 0 e) as [H|H].
  - unfold Q2R, inject_Z. cbn [Qnum Qden]. rewrite <- (IZR_Zpower radix2 e H). change (radix_val radix2) with 2. field.
  - unfold Q2R. cbn [Qnum Qden]. rewrite Z2Pos.id by (apply Z.pow_pos_nonneg; lia). replace e with (- - e) at 2 by ring. rewrite bpow_opp. rewrite <- (IZR_Zpower radix2 (- e)) by lia. change (radix_val radix2) with 2. lra.
Qed.
Lemma ln_scale M e : (0 < M)%R -> ln (M * bpow radix2 e) = (ln M + IZR e * ln 2)%R.
Proof. intros H. rewrite ln_mult; [|exact H|apply bpow_gt_0]. f_equal. rewrite <- exp_bpow, ln_exp. reflexivity. Qed.
(** ln of q, which is close to 2^e *)
Definition lnq (q : Q) (e : Z) : Q :=
  let m := Qred (q / q2 e) in let s := Qred ((m - 1) / (m + 1)) in Qred (2 * (s * qpeval (atl 20 1) (Qred (s * s))) + inject_Z e * ln2_lo)%Q.
Definition lnq_fits (q : Q) (e : Z) : bool :=
  let m := Qred (q / q2 e) in negb (Qle_bool m 0) && Qle_bool (Qabs (Qred ((m - 1) / (m + 1)))) (1 # 5) && (Z.abs e <=? 99).
Lemma qpeval_red l q : peval l (Q2R q) = Q2R (qpeval l (Qred q)).
Proof. rewrite <- qpeval_ok, Q2R_red. reflexivity. Qed.
Lemma lnq_err q e : lnq_fits q e = true -> (0 < Q2R q /\ Rabs (Q2R (lnq q e) - ln (Q2R q)) <= Rabs (IZR e) * / 100000000000000000000000 + 2 * / 10000000000000000000000000000)%R.
Proof.
  unfold lnq_fits, lnq. cbv zeta. intros H. apply andb_prop in H. destruct H as [H H3]. apply andb_prop in H. destruct H as [H1 H2].
  set (m := Qred (q / q2 e)) in *. assert (PM : (0 < Q2R m)%R).
  { rewrite <- Q2R_0. apply Qlt_Rlt, Qnot_le_lt. intros K. apply Qle_bool_iff in K. rewrite K in H1. discriminate. }
  assert (N2 : ~ (q2 e == 0)%Q). { intros K. apply Qeq_eqR in K. rewrite q2_ok, Q2R_0 in K. pose proof (bpow_gt_0 radix2 e). lra. }
  assert (EQ : Q2R q = (Q2R m * bpow radix2 e)%R). { unfold m. rewrite Q2R_red, Q2R_div, q2_ok by exact N2. field. apply Rgt_not_eq, bpow_gt_0. }
  split; [rewrite EQ; apply Rmult_lt_0_compat; [exact PM|apply bpow_gt_0]|].
  assert (N1 : ~ (m + 1 == 0)%Q). { intros K. apply Qeq_eqR in K. rewrite Q2R_plus, Q2R_0, Q2R_1 in K. lra. }
  set (s := Qred ((m - 1) / (m + 1))) in *. assert (ES : Q2R s = ((Q2R m - 1) / (Q2R m + 1))%R). { unfold s. rewrite Q2R_red, Q2R_div, Q2R_plus, Q2R_minus, Q2R_1 by exact N1. reflexivity. }
  apply Q2R_le in H2. rewrite Q2R_abs in H2. assert (E5 : Q2R (1 # 5) = (/ 5)%R) by (unfold Q2R; cbn [Qnum Qden]; lra). rewrite E5 in H2.
  rewrite EQ, ln_scale by exact PM. pose proof (atanh_ln _ PM) as AL. rewrite <- ES in AL.
  pose proof (atanh_taylor 20 (Q2R s) (/ 5) H2 ltac:(lra)) as T. rewrite <- atl_ok, <- Q2R_mult, qpeval_red, <- Q2R_mult in T.
  rewrite Q2R_red, Q2R_plus, Q2R_mult. rewrite (Q2R_mult (inject_Z e)). set (w := Q2R (s * qpeval (atl 20 1) (Qred (s * s)))) in *.
  assert (EZ : Q2R (inject_Z e) = IZR e) by (unfold Q2R, inject_Z; cbn [Qnum Qden]; field). rewrite EZ. assert (E2 : Q2R 2 = 2%R) by (unfold Q2R; cbn [Qnum Qden]; lra). rewrite E2.
  pose proof ln2_mid as LM. pose proof E78.
  assert (TB : (Rabs (atanh (Q2R s) - w) <= / 10000000000000000000000000000)%R).
  { eapply Rle_trans; [exact T|]. assert (PW : ((Rabs (Q2R s))^(S (2 * 20)) <= / 5 ^ 41)%R). { rewrite Rinv_pow by lra. apply (pow_incr _ _ (S (2 * 20))). split; [apply Rabs_pos|exact H2]. }
    replace (INR (S (2 * 20))) with 41%R by (rewrite INR_IZR_INZ; reflexivity). assert (P0 : (0 <= (Rabs (Q2R s))^(S (2 * 20)))%R) by (apply pow_le, Rabs_pos). set (p := ((Rabs (Q2R s))^(S (2 * 20)))%R) in *.
    assert (P41 : (/ 5^41 <= / 40000000000000000000000000000)%R). { apply Rinv_le_contravar; [lra|]. cbn [pow]. lra. }
    assert (EI : (/ (1 - / 5 * / 5) = 25 / 24)%R) by field. rewrite EI. lra. }
  replace (2 * w + IZR e * Q2R ln2_lo - (ln (Q2R m) + IZR e * ln 2))%R with (2 * - (atanh (Q2R s) - w) + IZR e * - (ln 2 - Q2R ln2_lo))%R by (rewrite AL; field).
  eapply Rle_trans; [apply Rabs_triang|]. rewrite !Rabs_mult, !Rabs_Ropp, (Rabs_pos_eq 2) by lra.
  assert (Rabs (IZR e) * Rabs (ln 2 - Q2R ln2_lo) <= Rabs (IZR e) * / 100000000000000000000000)%R by (apply Rmult_le_compat_l; [apply Rabs_pos|lra]). lra.
Qed.
Lemma lnq_ok q e : lnq_fits q e = true -> (0 < Q2R q /\ Rabs (Q2R (lnq q e) - ln (Q2R q)) <= Q2R (1 # 10^21))%R.
Proof.
  intros H. destruct (lnq_err q e H) as [A B]. split; [exact A|]. eapply Rle_trans; [exact B|]. unfold lnq_fits in H. cbv zeta in H. apply andb_prop in H. destruct H as [_ H3].
  assert (BE : (Rabs (IZR e) <= 99)%R) by (rewrite <- abs_IZR; apply IZR_le; lia).
  replace (Q2R (1 # 10^21)) with (/ 1000000000000000000000)%R by (unfold Q2R; cbn [Qnum Qden]; change (Zpos (10^21)) with 1000000000000000000000; lra). lra.
Qed.
Definition ln10_q : Q := Eval vm_compute in lnq 10 3.
Lemma ln10_ok : (Rabs (Q2R ln10_q - ln 10) <= Q2R (1 # 10^21))%R.
Proof. assert (C : lnq_fits 10 3 = true) by (vm_compute; reflexivity). destruct (lnq_ok 10 3 C) as [_ H]. change (lnq 10 3) with ln10_q in H. replace (Q2R 10) with 10%R in H by (unfold Q2R; cbn [Qnum Qden]; lra). exact H. Qed.

(** ** logf *)
Lemma rounds_neg v n : 0 <= n < 0x80000000 -> rounds_to 23 8 v false n -> rounds_to 23 8 (- v) true (n + 0x80000000).
Proof.
  intros Hn (A & B & C & D). assert (EA : fabsb 23 8 (n + 0x80000000) = fabsb 23 8 n). { unfold fabsb. change (2^(23+8)) with 0x80000000. replace (n + 0x80000000) with (n + 1 * 0x80000000) by ring. apply Z.mod_add. lia. }
  assert (EN : fneg 23 8 (n + 0x80000000) = true) by (unfold fneg; change (2^(23+8)) with 0x80000000; lia). assert (EN' : fneg 23 8 n = false) by (unfold fneg; change (2^(23+8)) with 0x80000000; lia).
  assert (RO : RN 23 8 (- v) = (- RN 23 8 v)%R) by apply RN24_opp.
  split; [unfold fbits in *; change (2^(23+8+1)) with 0x100000000; lia|]. split; [exact EN|]. rewrite RO, Rabs_Ropp. split.
  - intros L. destruct (C L) as [C1 C2]. unfold ffinite in *. rewrite EA. split; [exact C1|]. unfold fval in *. rewrite EA, EN. rewrite EN' in C2. rewrite C2. reflexivity.
  - intros L. rewrite EA. exact (D L).
Qed.
Lemma nearly_exact k v s b : v <> 0%R -> s = Rlt_bool v 0 -> rounds_to 23 8 v s b -> nearly_rounded k v b.
Proof.
  intros N -> H. exists v. split; [rewrite Rminus_diag_eq, Rabs_R0 by reflexivity; apply Rmult_le_pos; [apply bpow_ge_0|apply Rabs_pos]|exact H].
Qed.

(** patterns of positive floats *)
Lemma pos_pattern' x : fbits 23 8 x -> ffinite 23 8 x = true -> (0 < fval 23 8 x)%R -> 0 < x < 0x7F800000 /\ fval 23 8 x = fmag 23 8 x.
Proof.
  intros Hx Fx P. unfold fval in *. assert (N : 0 <= fabsb 23 8 x) by (apply Z.mod_pos_bound; reflexivity). pose proof (fmag_nonneg 23 8 eq_refl _ N).
  destruct (fneg 23 8 x) eqn:E; [lra|]. unfold fneg in E. change (2^(23+8)) with 0x80000000 in E. destruct Hx as [Hx _].
  assert (A : fabsb 23 8 x = x) by (apply Z.mod_small; change (2^(23+8)) with 0x80000000; lia). rewrite A in *. unfold ffinite in Fx. rewrite A in Fx. change (finf 23 8) with 0x7F800000 in Fx.
  split; [|reflexivity]. destruct (Z.eq_dec x 0) as [->|]; [|lia]. rewrite (fmag_0 23 8 eq_refl) in P. lra.
Qed.
Lemma eq32_pos x c : 0 < x < 0x7F800000 -> 0 < c < 0x7F800000 -> eq32 x c = true -> x = c.
Proof.
  intros Hx Hc H. destruct (pos_float x ltac:(lia)) as (A1 & A2 & A3 & A4). destruct (pos_float c ltac:(lia)) as (B1 & B2 & B3 & B4).
  apply eq32_val in H; try assumption. rewrite A4, B4 in H. apply (fmag_inj 23 8 eq_refl); (exact H || lia).
Qed.

Lemma ln_nonzero x : 0 < x < 0x7F800000 -> x <> 0x3F800000 -> ln (fmag 23 8 x) <> 0%R.
Proof.
  intros Hx N1 K. rewrite <- ln_1 in K. apply ln_inv in K; [|rewrite <- (fmag_0 23 8 eq_refl); apply (fmag_lt 23 8 eq_refl); lia|lra]. apply N1.
  apply (fmag_inj 23 8 eq_refl); [lia|lia|]. rewrite K, fmag32_q by lia. replace (qval (f2d 1065353216)) with 1%Q by (vm_compute; reflexivity). symmetry. apply Q2R_1.
Qed.
Lemma ln_one : ln (fmag 23 8 0x3F800000) = 0%R.
Proof. rewrite fmag32_q by lia. replace (qval (f2d 1065353216)) with 1%Q by (vm_compute; reflexivity). rewrite Q2R_1. apply ln_1. Qed.
Lemma nearly_zero k : nearly_rounded k 0 0.
Proof. apply rounds_nearly; [lra|]. apply rounds_zero. split; [lra|apply bpow_gt_0]. Qed.
Lemma point_pos k x v n q e : 1 <= n < 0x7F7FFFFF -> chkp n q e = true -> (Rabs (Q2R q - v) <= Q2R e)%R -> (0 < v)%R -> v = x -> nearly_rounded k x n.
Proof. intros Hn C H P <-. apply (nearly_exact k v false); [lra|rewrite Rlt_bool_false by lra; reflexivity|exact (chkp_ok _ _ _ _ Hn C H)]. Qed.

Lemma ln_sum m M e : dbl m M -> (0.7071 <= M <= 1.41422)%R -> -2000 <= e <= 2000 ->
  exists y, dbl (add64 (mul64 c_2 (kernel_atanhf_ (ratio1 m))) (mul64 (ofZ64 e) 0x3FE62E42FEFA39EF)) y /\ (Rabs (y - (ln M + IZR e * ln 2)) <= bpow radix2 (- (49)) * Rabs (ln M + IZR e * ln 2))%R.
Proof.
  intros D HM He. replace (ln M + IZR e * ln 2)%R with (1 * (ln M + IZR e * ln 2))%R by ring.
  assert (DC : dbl c_2 2). { replace 2%R with (Q2R 2) by (unfold Q2R; cbn [Qnum Qden]; lra). apply dbl_c; vm_compute; reflexivity. }
  destruct (log_term c_2 2 1 0 m M DC ltac:(lra) ltac:(rewrite Rminus_diag_eq, Rabs_R0 by ring; lra) ltac:(lra) D HM) as (A & DA & HA & BL).
  assert (DL : dbl 0x3FE62E42FEFA39EF (Q2R (qval 0x3FE62E42FEFA39EF))) by (apply dbl_c; vm_compute; reflexivity).
  pose proof ln2_dec as LN.
  assert (HC : (Rabs (Q2R (qval 0x3FE62E42FEFA39EF) - ln 2) <= 0.00000000000000004 * ln 2)%R).
  { pose proof (ln2_affine (qval 0x3FE62E42FEFA39EF) (-1) (24 # 10^18) ltac:(vm_compute; reflexivity) ltac:(vm_compute; reflexivity)) as X. replace (Q2R (-1)) with (-1)%R in X by (unfold Q2R; cbn [Qnum Qden]; lra).
    replace (Q2R (24 # 10^18)) with (24 / 1000000000000000000)%R in X by (unfold Q2R; cbn [Qnum Qden]; change (Zpos (10^18)) with 1000000000000000000; lra). replace (-1 * ln 2)%R with (- ln 2)%R in X by ring. unfold Rminus. lra. }
  set (C := Q2R (qval 0x3FE62E42FEFA39EF)) in *. clearbody C.
  destruct (exp_term _ C (ln 2) 0.00000000000000004 e DL ltac:(lra) HC ltac:(lra) ltac:(lia)) as (B & [DB _] & HB).
  assert (B49 : (bpow radix2 (- (49)) = / 562949953421312)%R) by reflexivity.
  destruct (logsum _ _ A B 1 0.0000000000000012613 0.00000000000000015134 49 (ln M) e DA DB ltac:(lra) BL ltac:(lia)) as (y & DY & EY).
  - eapply Rle_trans; [exact HA|]. apply Rmult_le_compat_r; [pose proof (Rabs_pos (ln M)); lra|lra].
  - rewrite !Rmult_1_l. eapply Rle_trans; [exact HB|]. apply Rmult_le_compat_r; [apply Rmult_le_pos; [apply Rabs_pos|lra]|lra].
  - lra.
  - lra.
  - rewrite B49. lra.
  - rewrite B49. lra.
  - exists y. split; [exact DY|exact EY].
Qed.

Theorem logf_pos x : 0 < x < 0x7F800000 -> exists b, logf x = Ok b /\ nearly_rounded 49 (ln (fmag 23 8 x)) b.
Proof.
  intros Hx. unfold logf. rewrite sgn_id by (try reflexivity; change (2^(32-1)) with 0x80000000; lia).
  replace (x <=? 0) with false by lia. replace (0x7F800000 <=? x) with false by lia.
  assert (PT : forall c n e, 0 < c < 0x7F800000 -> 1 <= n < 0x7F7FFFFF -> lnq_fits (qval (f2d c)) e = true -> chkp n (lnq (qval (f2d c)) e) (1 # 10^21) = true -> Qle_bool 1 (qval (f2d c)) = true -> nearly_rounded 49 (ln (fmag 23 8 c)) n).
  { intros c n e Hc Hn C1 C2 C3. destruct (lnq_ok _ _ C1) as [P1 P2]. rewrite fmag32_q by lia. exists (ln (Q2R (qval (f2d c)))).
    split; [rewrite Rminus_diag_eq, Rabs_R0 by reflexivity; apply Rmult_le_pos; [apply bpow_ge_0|apply Rabs_pos]|].
    apply Q2R_le in C3. rewrite Q2R_1 in C3. rewrite Rlt_bool_false by (rewrite <- ln_1; destruct (Rle_lt_or_eq_dec _ _ C3) as [L|<-]; [left; apply ln_increasing; lra|apply Rle_refl]).
    exact (chkp_ok _ _ _ _ Hn C2 P2). }
  destruct (eq32 x 0x4C5D65A5) eqn:Q1; [apply eq32_pos in Q1; [|lia|lia]; subst x; eexists; split; [reflexivity|]; apply (PT _ _ 26); [lia|lia|vm_compute; reflexivity..]|].
  destruct (eq32 x 0x65D890D3) eqn:Q2; [apply eq32_pos in Q2; [|lia|lia]; subst x; eexists; split; [reflexivity|]; apply (PT _ _ 77); [lia|lia|vm_compute; reflexivity..]|].
  destruct (eq32 x 0x6F31A8EC) eqn:Q3; [apply eq32_pos in Q3; [|lia|lia]; subst x; eexists; split; [reflexivity|]; apply (PT _ _ 95); [lia|lia|vm_compute; reflexivity..]|].
  clear PT Q1 Q2 Q3. destruct (Z.eq_dec x 0x3F800000) as [->|N1].
  { exists 0. split; [vm_compute; reflexivity|]. rewrite ln_one. apply nearly_zero. }
  destruct (split32_ok x Hx) as (n & e & m & M & -> & S & D & HM & V & He). cbn [bind]. unfold logf_finite_. rewrite S. cbn [bind fst snd]. eexists. split; [reflexivity|].
  pose proof (ln_nonzero x Hx N1) as NV.
  assert (EV : ln (fmag 23 8 x) = (1 * (ln M + IZR e * ln 2))%R) by (rewrite V, ln_scale by lra; ring). rewrite EV in *.
  destruct (ln_sum m M e D HM ltac:(lia)) as (y & DY & EY). rewrite Rmult_1_l in *. apply (to_float' _ y); [exact DY|exact NV|lia|exact EY].
Qed.

(** ** log2f *)
Theorem log2f_pos x : 0 < x < 0x7F800000 -> exists b, log2f x = Ok b /\ nearly_rounded 49 (ln (fmag 23 8 x) / ln 2) b.
Proof.
  intros Hx. unfold log2f. rewrite sgn_id by (try reflexivity; change (2^(32-1)) with 0x80000000; lia).
  replace (x <=? 0) with false by lia. replace (x <? 0x7F800000) with true by lia. pose proof ln2_dec as LN.
  destruct (Z.eq_dec x 0x3F800000) as [->|N1].
  { exists 0. split; [vm_compute; reflexivity|]. rewrite ln_one. replace (0 / ln 2)%R with 0%R by (field; lra). apply nearly_zero. }
  destruct (split32_ok x Hx) as (n & e & m & M & -> & S & D & HM & V & He). cbn [bind]. unfold log2f_finite_. rewrite S. cbn [bind fst snd]. eexists. split; [reflexivity|].
  assert (NV : (ln (fmag 23 8 x) / ln 2)%R <> 0%R). { pose proof (ln_nonzero x Hx N1). intros K. apply H. apply (Rmult_eq_reg_r (/ ln 2)); [unfold Rdiv in K; lra|]. apply Rinv_neq_0_compat. lra. }
  set (l := (/ ln 2)%R). assert (Hl : (1.4 <= l <= 1.5)%R). { unfold l. split; [apply Rle_trans with (/ 0.7)%R; [lra|apply Rinv_le_contravar; lra]|apply Rle_trans with (/ 0.69)%R; [apply Rinv_le_contravar; lra|lra]]. }
  assert (L1 : (l * ln 2 = 1)%R) by (unfold l; field; lra).
  assert (EV : (ln (fmag 23 8 x) / ln 2 = l * (ln M + IZR e * ln 2))%R) by (rewrite V, ln_scale by lra; unfold l; field; lra). rewrite EV in *. clearbody l.
  set (c := mul64 c_2 0x3FF71547652B82FE). assert (DK : dbl c (Q2R (qval c))) by (apply dbl_c; vm_compute; reflexivity).
  assert (HK : (Rabs (Q2R (qval c) - 2 * l) <= 0.00000000000000002 * (2 * l))%R).
  { pose proof (ln2_affine (-2) (qval c) (4 # 10^17) ltac:(vm_compute; reflexivity) ltac:(vm_compute; reflexivity)) as X. replace (Q2R (-2)) with (-2)%R in X by (unfold Q2R; cbn [Qnum Qden]; lra).
    replace (Q2R (4 # 10^17)) with (4 / 100000000000000000)%R in X by (unfold Q2R; cbn [Qnum Qden]; change (Zpos (10^17)) with 100000000000000000; lra).
    replace (Q2R (qval c) - 2 * l)%R with (l * (-2 + Q2R (qval c) * ln 2))%R. 2:{ transitivity (-2 * l + Q2R (qval c) * (l * ln 2))%R; [ring|rewrite L1; ring]. }
    rewrite Rabs_mult, (Rabs_pos_eq l) by lra. nra. }
  set (K := Q2R (qval c)) in *. clearbody K. clearbody c.
  destruct (log_term c K l 0.00000000000000002 m M DK ltac:(lra) HK ltac:(lra) D HM) as (A & DA & HA & BL).
  pose proof (dbl_int e ltac:(lia)) as DB.
  assert (B49 : (bpow radix2 (- (49)) = / 562949953421312)%R) by reflexivity.
  destruct (logsum _ _ A (IZR e) l 0.0000000000000012815 0 49 (ln M) e DA DB ltac:(lra) BL ltac:(lia)) as (y & DY & EY).
  - eapply Rle_trans; [exact HA|]. apply Rmult_le_compat_r; [apply Rmult_le_pos; [lra|apply Rabs_pos]|lra].
  - replace (IZR e - l * (IZR e * ln 2))%R with (IZR e * (1 - l * ln 2))%R by ring. rewrite L1, Rminus_diag_eq, Rmult_0_r, Rabs_R0 by reflexivity. lra.
  - lra.
  - lra.
  - rewrite B49. lra.
  - rewrite B49. lra.
  - apply (to_float' _ y); [exact DY|exact NV|lia|exact EY].
Qed.

(** ** log10f *)
Lemma ln10_dec : (2.30258 <= ln 10 <= 2.30259)%R.
Proof.
  pose proof ln10_ok as H. apply Rabs_le_inv in H. assert (K1 : (Q2R (23025850 # 10000000) <= Q2R ln10_q)%R) by (apply Q2R_le; reflexivity). assert (K2 : (Q2R ln10_q <= Q2R (23025859 # 10000000))%R) by (apply Q2R_le; reflexivity).
  replace (Q2R (1 # 10^21)) with (/ 1000000000000000000000)%R in H by (unfold Q2R; cbn [Qnum Qden]; change (Zpos (10^21)) with 1000000000000000000000; lra).
  assert (E1 : Q2R (23025850 # 10000000) = 2.3025850%R) by (unfold Q2R; cbn [Qnum Qden]; lra). assert (E2 : Q2R (23025859 # 10000000) = 2.3025859%R) by (unfold Q2R; cbn [Qnum Qden]; lra). lra.
Qed.
(** a double times ln 10 *)
Lemma times_ln10 q r e : Qle_bool (Qabs q) 2 = true -> Qle_bool (Qabs (q * ln10_q - r)) e = true -> (Rabs (Q2R q * ln 10 - Q2R r) <= Q2R e + / 100000000000000000000)%R.
Proof.
  intros H1 H2. apply Q2R_le in H1. apply Q2R_le in H2. rewrite Q2R_abs in H1, H2. rewrite Q2R_minus, Q2R_mult in H2. pose proof ln10_ok as H. replace (Q2R 2) with 2%R in H1 by (unfold Q2R; cbn [Qnum Qden]; lra).
  replace (Q2R (1 # 10^21)) with (/ 1000000000000000000000)%R in H by (unfold Q2R; cbn [Qnum Qden]; change (Zpos (10^21)) with 1000000000000000000000; lra).
  replace (Q2R q * ln 10 - Q2R r)%R with ((Q2R q * Q2R ln10_q - Q2R r) + Q2R q * - (Q2R ln10_q - ln 10))%R by ring. eapply Rle_trans; [apply Rabs_triang|]. rewrite (Rabs_mult (Q2R q)), Rabs_Ropp.
  pose proof (Rabs_pos (Q2R q)). pose proof (Rabs_pos (Q2R ln10_q - ln 10)). nra.
Qed.
Theorem log10f_pos x : 0 < x < 0x7F800000 -> exists b, log10f x = Ok b /\ nearly_rounded 48 (ln (fmag 23 8 x) / ln 10) b.
Proof.
  intros Hx. unfold log10f. rewrite sgn_id by (try reflexivity; change (2^(32-1)) with 0x80000000; lia).
  replace (x <=? 0) with false by lia. replace (0x7F800000 <=? x) with false by lia. pose proof ln2_dec as LN. pose proof ln10_dec as LT.
  assert (PT : forall c n e, 0 < c < 0x7F800000 -> 1 <= n < 0x7F7FFFFF -> lnq_fits (qval (f2d c)) e = true -> chkp n (- (lnq (qval (f2d c)) e / ln10_q)) (3 # 10^20) = true ->
    Qle_bool (qval (f2d c)) (1 # 10) = true -> Qle_bool (Qabs (lnq (qval (f2d c)) e / ln10_q)) 40 = true -> nearly_rounded 48 (ln (fmag 23 8 c) / ln 10) (n + 0x80000000)).
  { intros c n e Hc Hn C1 C2 C3 C4. destruct (lnq_ok _ _ C1) as [P1 P2]. rewrite fmag32_q by lia. apply Q2R_le in C3. apply Q2R_le in C4. rewrite Q2R_abs in C4.
    set (v := ln (Q2R (qval (f2d c)))) in *. assert (V0 : (v < 0)%R). { unfold v. rewrite <- ln_1. apply ln_increasing; [exact P1|]. assert (E1 : Q2R (1 # 10) = (/ 10)%R) by (unfold Q2R; cbn [Qnum Qden]; lra). lra. }
    assert (W0 : (v / ln 10 < 0)%R). { unfold Rdiv. assert (0 < / ln 10)%R by (apply Rinv_0_lt_compat; lra). nra. }
    apply (nearly_exact 48 _ true); [lra|rewrite Rlt_bool_true by exact W0; reflexivity|]. replace (v / ln 10)%R with (- (- (v / ln 10)))%R by ring. apply rounds_neg; [lia|].
    apply (chkp_ok _ _ _ _ Hn C2). rewrite Q2R_opp. replace (- Q2R (lnq (qval (f2d c)) e / ln10_q) - - (v / ln 10))%R with (- (Q2R (lnq (qval (f2d c)) e / ln10_q) - v / ln 10))%R by ring. rewrite Rabs_Ropp.
    assert (NZ : ~ (ln10_q == 0)%Q) by (intros K; apply Qeq_bool_iff in K; vm_compute in K; discriminate). rewrite Q2R_div in * by exact NZ.
    assert (T0 : (2.3 <= Q2R ln10_q)%R). { eapply Rle_trans; [|apply (Q2R_le (23 # 10)); reflexivity]. unfold Q2R. cbn [Qnum Qden]. lra. }
    set (r := (Q2R (lnq (qval (f2d c)) e) / Q2R ln10_q)%R) in *. assert (ER : Q2R (lnq (qval (f2d c)) e) = (r * Q2R ln10_q)%R) by (unfold r; field; lra).
    replace (Q2R 40) with 40%R in C4 by (unfold Q2R; cbn [Qnum Qden]; lra). pose proof ln10_ok as TO.
    replace (Q2R (1 # 10^21)) with (/ 1000000000000000000000)%R in * by (unfold Q2R; cbn [Qnum Qden]; change (Zpos (10^21)) with 1000000000000000000000; lra).
    replace (Q2R (3 # 10^20)) with (3 / 100000000000000000000)%R by (unfold Q2R; cbn [Qnum Qden]; change (Zpos (10^20)) with 100000000000000000000; lra).
    rewrite ER in P2. clearbody r.
    assert (X : (Rabs ((r - v / ln 10) * ln 10) <= 41 * / 1000000000000000000000)%R).
    { replace ((r - v / ln 10) * ln 10)%R with ((r * Q2R ln10_q - v) + r * - (Q2R ln10_q - ln 10))%R by (field; lra). eapply Rle_trans; [apply Rabs_triang|]. rewrite (Rabs_mult r), Rabs_Ropp.
      pose proof (Rabs_pos r). pose proof (Rabs_pos (Q2R ln10_q - ln 10)). nra. }
    rewrite Rabs_mult, (Rabs_pos_eq (ln 10)) in X by lra. pose proof (Rabs_pos (r - v / ln 10)). nra. }
  destruct (eq32 x 0x0EFEEE7A) eqn:Q1; [apply eq32_pos in Q1; [|lia|lia]; subst x; eexists; split; [reflexivity|]; apply (PT _ 0x41E99D23 (-97)); [lia|lia|vm_compute; reflexivity..]|].
  destruct (eq32 x 0x120B93DC) eqn:Q2; [apply eq32_pos in Q2; [|lia|lia]; subst x; eexists; split; [reflexivity|]; apply (PT _ 0x41DAD957 (-91)); [lia|lia|vm_compute; reflexivity..]|].
  destruct (eq32 x 0x13AE78D3) eqn:Q3; [apply eq32_pos in Q3; [|lia|lia]; subst x; eexists; split; [reflexivity|]; apply (PT _ 0x41D2D957 (-88)); [lia|lia|vm_compute; reflexivity..]|].
  clear PT Q1 Q2 Q3. destruct (Z.eq_dec x 0x3F800000) as [->|N1].
  { exists 0. split; [vm_compute; reflexivity|]. rewrite ln_one. replace (0 / ln 10)%R with 0%R by (field; lra). apply nearly_zero. }
  destruct (split32_ok x Hx) as (n & e & m & M & -> & S & D & HM & V & He). cbn [bind]. unfold log10f_finite_. rewrite S. cbn [bind fst snd]. eexists. split; [reflexivity|].
  assert (NV : (ln (fmag 23 8 x) / ln 10)%R <> 0%R). { pose proof (ln_nonzero x Hx N1). intros K. apply H. apply (Rmult_eq_reg_r (/ ln 10)); [unfold Rdiv in K; lra|]. apply Rinv_neq_0_compat. lra. }
  set (l := (/ ln 10)%R). assert (Hl : (0.43 <= l <= 0.44)%R). { unfold l. split; [apply Rle_trans with (/ 2.31)%R; [lra|apply Rinv_le_contravar; lra]|apply Rle_trans with (/ 2.3)%R; [apply Rinv_le_contravar; lra|lra]]. }
  assert (L1 : (l * ln 10 = 1)%R) by (unfold l; field; lra).
  assert (EV : (ln (fmag 23 8 x) / ln 10 = l * (ln M + IZR e * ln 2))%R) by (rewrite V, ln_scale by lra; unfold l; field; lra). rewrite EV in *. clearbody l.
  assert (E16 : forall n : Z, Q2R (n # 10^18) = (IZR n / 1000000000000000000)%R) by (intros z; unfold Q2R, Rdiv; cbn [Qnum Qden]; change (Zpos (10^18)) with 1000000000000000000; reflexivity).
  set (c := mul64 c_2 0x3FDBCB7B1526E50E). assert (DK : dbl c (Q2R (qval c))) by (apply dbl_c; vm_compute; reflexivity).
  assert (HK : (Rabs (Q2R (qval c) - 2 * l) <= 0.00000000000000006 * (2 * l))%R).
  { pose proof (times_ln10 (qval c) 2 (110 # 10^18) ltac:(vm_compute; reflexivity) ltac:(vm_compute; reflexivity)) as X. replace (Q2R 2) with 2%R in X by (unfold Q2R; cbn [Qnum Qden]; lra). rewrite E16 in X.
    replace (Q2R (qval c) - 2 * l)%R with (l * (Q2R (qval c) * ln 10 - 2))%R. 2:{ transitivity (-2 * l + Q2R (qval c) * (l * ln 10))%R; [ring|rewrite L1; ring]. }
    rewrite Rabs_mult, (Rabs_pos_eq l) by lra. nra. }
  set (K := Q2R (qval c)) in *. clearbody K. clearbody c.
  destruct (log_term c K l 0.00000000000000006 m M DK ltac:(lra) HK ltac:(lra) D HM) as (A & DA & HA & BL).
  assert (DL : dbl 0x3FD34413509F79FF (Q2R (qval 0x3FD34413509F79FF))) by (apply dbl_c; vm_compute; reflexivity).
  assert (HC : (Rabs (Q2R (qval 0x3FD34413509F79FF) - l * ln 2) <= 0.0000000000000002 * (l * ln 2))%R).
  { pose proof (times_ln10 (qval 0x3FD34413509F79FF) ln2_lo (130 # 10^18) ltac:(vm_compute; reflexivity) ltac:(vm_compute; reflexivity)) as X. rewrite E16 in X. pose proof ln2_mid as LM. pose proof E78.
    set (C := Q2R (qval 0x3FD34413509F79FF)) in *. replace (C - l * ln 2)%R with (l * ((C * ln 10 - Q2R ln2_lo) + - (ln 2 - Q2R ln2_lo)))%R. 2:{ transitivity (C * (l * ln 10) - l * ln 2)%R; [ring|rewrite L1; ring]. }
    rewrite Rabs_mult, (Rabs_pos_eq l) by lra. assert (Y : (Rabs ((C * ln 10 - Q2R ln2_lo) + - (ln 2 - Q2R ln2_lo)) <= 0.0000000000000002 * ln 2)%R) by (eapply Rle_trans; [apply Rabs_triang|]; rewrite Rabs_Ropp; lra). nra. }
  set (C := Q2R (qval 0x3FD34413509F79FF)) in *. clearbody C.
  destruct (exp_term _ C (l * ln 2) 0.0000000000000002 e DL ltac:(split; nra) HC ltac:(lra) ltac:(lia)) as (B & [DB _] & HB).
  assert (B48 : (bpow radix2 (- (48)) = / 281474976710656)%R) by reflexivity.
  destruct (logsum _ _ A B l 0.0000000000000013215 0.0000000000000003116 48 (ln M) e DA DB ltac:(lra) BL ltac:(lia)) as (y & DY & EY).
  - eapply Rle_trans; [exact HA|]. apply Rmult_le_compat_r; [apply Rmult_le_pos; [lra|apply Rabs_pos]|lra].
  - replace (l * (IZR e * ln 2))%R with (IZR e * (l * ln 2))%R by ring. replace (l * (Rabs (IZR e) * ln 2))%R with (Rabs (IZR e) * (l * ln 2))%R by ring. eapply Rle_trans; [exact HB|]. apply Rmult_le_compat_r; [apply Rmult_le_pos; [apply Rabs_pos|nra]|lra].
  - lra.
  - lra.
  - rewrite B48. lra.
  - rewrite B48. lra.
  - apply (to_float' _ y); [exact DY|exact NV|lia|exact EY].
Qed.
