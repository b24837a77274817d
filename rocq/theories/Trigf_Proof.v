From Coq Require Import Reals Lra Lia Psatz QArith Qreals Qabs List.
From Flocq Require Import Core BinarySingleNaN Relative Sterbenz.
From Coquelicot Require Import Coquelicot.
From Verif Require Import Base FP FP_Proof HW HW_Proof Tf_Narrow_Proof Midpoint Fmaf_Proof Math_Model Math_Basic_Proof Math_Int_Proof Math_Lconv_Proof Hypotf_Model Hypotf_Real Hypotf_Proof Approx Subdiv Ferr Elem_Spec Elem_Proof Elem_Num Expf_Model Expf_Proof Logf_Model Logf_Kernel Logf_Proof Loginv_Proof Loginv3_Proof Hyperf_Model Hyperf_Proof Hyperf2_Proof Hyperf3_Proof Atan_Num Atanf_Model Atanf_Proof Asinf_Model Asinf_Proof Pi_Num Trig_Num Trigf_Model Trigf_Kernel Trigf_Red Math_Round_Proof.
Import ListNotations.
Open Scope Z_scope.
Local Ltac Zify.zify_post_hook ::= idtac.

(** * sinf, cosf, tanf: the result is the value of a real within the stated
    relative distance of the exact one, rounded once. *)

(** ** sin and cos on the reduced interval *)
Lemma half_diff a b : (Rabs a <= 0.7856)%R -> (Rabs b <= 0.7856)%R -> (Rabs (sin ((a - b) / 2)) <= Rabs (a - b) / 2)%R.
Proof.
  intros A B. apply Rabs_le_inv in A, B. destruct (sin_ge ((a - b) / 2)) as [_ U]; [apply Rabs_le; lra|]. eapply Rle_trans; [exact U|]. unfold Rdiv. rewrite Rabs_mult, (Rabs_pos_eq (/ 2)) by lra. lra.
Qed.
Lemma sin_lip a b : (Rabs a <= 0.7856)%R -> (Rabs b <= 0.7856)%R -> (Rabs (sin a - sin b) <= Rabs (a - b))%R.
Proof.
  intros A B. rewrite form4, !Rabs_mult, (Rabs_pos_eq 2) by lra. pose proof (half_diff a b A B) as H. pose proof (COS_bound ((a + b) / 2)) as C. assert (Rabs (cos ((a + b) / 2)) <= 1)%R by (apply Rabs_le; lra).
  pose proof (Rabs_pos (cos ((a + b) / 2))). pose proof (Rabs_pos (sin ((a - b) / 2))). nra.
Qed.
Lemma cos_lip a b : (Rabs a <= 0.7856)%R -> (Rabs b <= 0.7856)%R -> (Rabs (cos a - cos b) <= Rabs (a - b))%R.
Proof.
  intros A B. rewrite form2, !Rabs_mult. replace (Rabs (-2)) with 2%R by (rewrite Rabs_left by lra; lra). pose proof (half_diff a b A B) as H. pose proof (SIN_bound ((a + b) / 2)) as C. assert (Rabs (sin ((a + b) / 2)) <= 1)%R by (apply Rabs_le; lra).
  pose proof (Rabs_pos (sin ((a + b) / 2))). pose proof (Rabs_pos (sin ((a - b) / 2))). nra.
Qed.
Lemma sin_per x j : sin (x + IZR j * (2 * PI)) = sin x.
Proof.
  destruct (Z_le_gt_dec 0 j) as [H|H].
  - rewrite <- (sin_period x (Z.to_nat j)), INR_IZR_INZ, Z2Nat.id by lia. f_equal. ring.
  - rewrite <- (sin_period (x + IZR j * (2 * PI)) (Z.to_nat (- j))), INR_IZR_INZ, Z2Nat.id, opp_IZR by lia. f_equal. ring.
Qed.
Lemma cos_per x j : cos (x + IZR j * (2 * PI)) = cos x.
Proof.
  destruct (Z_le_gt_dec 0 j) as [H|H].
  - rewrite <- (cos_period x (Z.to_nat j)), INR_IZR_INZ, Z2Nat.id by lia. f_equal. ring.
  - rewrite <- (cos_period (x + IZR j * (2 * PI)) (Z.to_nat (- j))), INR_IZR_INZ, Z2Nat.id, opp_IZR by lia. f_equal. ring.
Qed.
Definition sinK (K : Z) (T : R) : R := if K mod 4 =? 0 then sin T else if K mod 4 =? 1 then cos T else if K mod 4 =? 2 then (- sin T)%R else (- cos T)%R.
Definition cosK (K : Z) (T : R) : R := if K mod 4 =? 0 then cos T else if K mod 4 =? 1 then (- sin T)%R else if K mod 4 =? 2 then (- cos T)%R else sin T.
Lemma cosq T : cos (PI / 2 + T) = (- sin T)%R.
Proof. rewrite cos_sin. replace (PI / 2 + (PI / 2 + T))%R with (T + PI)%R by field. apply neg_sin. Qed.
Lemma quadrant K T : sin (T + IZR K * (PI / 2)) = sinK K T /\ cos (T + IZR K * (PI / 2)) = cosK K T.
Proof.
  unfold sinK, cosK. pose proof (Z.div_mod K 4 ltac:(lia)) as E. pose proof (Z.mod_pos_bound K 4 ltac:(lia)) as B. set (j := K / 4) in *. set (r := K mod 4) in *. clearbody j r. subst K.
  replace (T + IZR (4 * j + r) * (PI / 2))%R with ((T + IZR r * (PI / 2)) + IZR j * (2 * PI))%R by (rewrite plus_IZR, mult_IZR; field). rewrite sin_per, cos_per.
  assert (C : r = 0 \/ r = 1 \/ r = 2 \/ r = 3) by lia. destruct C as [->|[->|[->| ->]]]; cbn [Z.eqb Pos.eqb].
  - replace (T + 0 * (PI / 2))%R with T by ring. auto.
  - replace (T + 1 * (PI / 2))%R with (PI / 2 + T)%R by ring. rewrite cosq, <- cos_sin. auto.
  - replace (T + 2 * (PI / 2))%R with (T + PI)%R by field. rewrite neg_sin, neg_cos. auto.
  - replace (T + 3 * (PI / 2))%R with ((PI / 2 + T) + PI)%R by field. rewrite neg_sin, neg_cos, cosq, <- cos_sin, Ropp_involutive. auto.
Qed.

(** ** the two kernels after reduction *)
Definition kernels (k : Z) (x : Z) : Prop :=
  exists n y K T S C, rem_pio2f x = Ok (n, y) /\ n mod 4 = K mod 4 /\ fval 23 8 x = (T + IZR K * (PI / 2))%R /\ (Rabs T <= 0.7856)%R /\ (fval 23 8 x <> 0%R \/ K <> 0 -> T <> 0%R) /\
    dbl (kernel_sinf_ y) S /\ dbl (kernel_cosf_ y) C /\ (Rabs (S - sin T) <= 0.96 * bpow radix2 (- k) * Rabs (sin T))%R /\ (Rabs (C - cos T) <= 0.96 * bpow radix2 (- k) * Rabs (cos T))%R.
Lemma k_range k : 26 <= k <= 39 -> (0.0000000000018 <= bpow radix2 (- k) <= 0.000000015)%R.
Proof.
  intros H. split.
  - apply Rle_trans with (bpow radix2 (-39)); [change (bpow radix2 (-39)) with (/ 549755813888)%R; lra|apply bpow_le; lia].
  - apply Rle_trans with (bpow radix2 (-26)); [apply bpow_le; lia|change (bpow radix2 (-26)) with (/ 67108864)%R; lra].
Qed.
Lemma ten k : bpow radix2 (- k - 10) = (bpow radix2 (- k) / 1024)%R.
Proof. replace (- k - 10) with (- k + -10) by ring. rewrite bpow_plus. reflexivity. Qed.
Lemma kernels_ok k x : 26 <= k <= 39 -> reduced k x -> kernels k x.
Proof.
  intros Hk (n & y & K & Y & E & DY & NK & BY & NY & R). cbv zeta in R. set (T := (fval 23 8 x - IZR K * (PI / 2))%R) in *. destruct R as (BT & TZ & R1 & R2).
  assert (EX : fval 23 8 x = (T + IZR K * (PI / 2))%R) by (unfold T; ring).
  destruct (kernel_sin y Y DY BY (nice_weak (-150) (-200) _ ltac:(lia) NY)) as (S & DS & HS). destruct (kernel_cos y Y DY BY (nice_weak (-150) (-200) _ ltac:(lia) NY)) as (C & DC & HC).
  exists n, y, K, T, S, C. repeat (split; [assumption|]).
  split. { intros [H|H]; [|exact (TZ H)]. destruct (Z.eq_dec K 0) as [->|Z]; [|exact (TZ Z)]. rewrite EX in H. intros Z. apply H. rewrite Z. ring. }
  repeat (split; [assumption|]). clearbody T. pose proof (k_range k Hk) as W. rewrite ten in R2. set (w := bpow radix2 (- k)) in *. clearbody w.
  pose proof (sin_lip Y T BY BT) as LS. pose proof (cos_lip Y T BY BT) as LC. pose proof (Rabs_pos T) as T0.
  split.
  - assert (AY : (Rabs Y <= 1.01 * Rabs T)%R). { replace Y with ((Y - T) + T)%R by ring. eapply Rle_trans; [apply Rabs_triang|]. assert (0.951 * w * Rabs T <= 0.01 * Rabs T)%R by (apply Rmult_le_compat_r; lra). lra. }
    assert (A : (Rabs (S - sin T) <= 0.00000000000000024 * Rabs T + Rabs (Y - T))%R). { replace (S - sin T)%R with ((S - sin Y) + (sin Y - sin T))%R by ring. eapply Rle_trans; [apply Rabs_triang|]. lra. }
    assert (WT : (0.00000000000000024 * Rabs T <= 0.0002 * (w * Rabs T))%R). { rewrite <- Rmult_assoc. apply Rmult_le_compat_r; lra. }
    destruct (Rle_or_lt (Rabs T) (/ 1024)) as [L|L].
    + destruct (sin_ge T BT) as [G _]. assert (Q : (T * T <= / 1048576)%R) by (apply Rabs_le_inv in L; nra). assert (G' : (0.9999 * Rabs T <= Rabs (sin T))%R) by (eapply Rle_trans; [|exact G]; apply Rmult_le_compat_r; lra).
      apply Rle_trans with (0.96 * w * (0.9999 * Rabs T))%R; [|apply Rmult_le_compat_l; lra]. assert (0 <= w * Rabs T)%R by (apply Rmult_le_pos; lra). lra.
    + pose proof (sin_ge9 T BT) as G. apply Rle_trans with (0.96 * w * (0.87 * Rabs T))%R; [|apply Rmult_le_compat_l; lra]. assert (w * / 1024 <= w * Rabs T)%R by (apply Rmult_le_compat_l; lra). lra.
  - destruct (cos_ge T BT) as [G _]. rewrite (Rabs_pos_eq (cos T)) by lra. apply Rle_trans with (0.96 * w * 0.7)%R; [|apply Rmult_le_compat_l; lra].
    replace (C - cos T)%R with ((C - cos Y) + (cos Y - cos T))%R by ring. eapply Rle_trans; [apply Rabs_triang|]. lra.
Qed.

(** ** quadrant bits *)
Lemma low_bits n b : (b = 1 \/ b = 2) -> Z.land n b = Z.land (n mod 4) b.
Proof. intros H. change 4 with (2^2). rewrite <- Z.land_ones, <- Z.land_assoc by lia. destruct H as [->| ->]; reflexivity. Qed.
Lemma mod4 n : u32 n mod 4 = n mod 4.
Proof. unfold u32. symmetry. apply Znumtheory.Zmod_div_mod; [lia|lia|]. exists (2^30). reflexivity. Qed.
Lemma q_bits n K b : n mod 4 = K mod 4 -> (b = 1 \/ b = 2) -> Z.land (u32 n) b = Z.land (K mod 4) b /\ Z.land (u32 (u32 n + 1)) b = Z.land ((K + 1) mod 4) b.
Proof.
  intros E H. rewrite (low_bits (u32 n) b H), (low_bits (u32 (u32 n + 1)) b H), !mod4, E. split; [reflexivity|]. f_equal. rewrite Z.add_mod, mod4, E by lia. symmetry. apply Z.add_mod. lia.
Qed.
Lemma mod_cases K : K mod 4 = 0 \/ K mod 4 = 1 \/ K mod 4 = 2 \/ K mod 4 = 3.
Proof. pose proof (Z.mod_pos_bound K 4 ltac:(lia)). lia. Qed.
Lemma mod_next K : (K + 1) mod 4 = (K mod 4 + 1) mod 4.
Proof. symmetry. apply Zplus_mod_idemp_l. Qed.
Lemma dbl_neg y Y : dbl y Y -> dbl (neg64 y) (- Y).
Proof.
  intros (A & B & C & D). destruct (negate_spec 52 11 eq_refl eq_refl eq_refl eq_refl y A) as (N1 & N2 & _ & N3). unfold neg64. split; [exact N1|]. split; [rewrite N2; exact B|]. split; [rewrite N3, C; reflexivity|rewrite Rabs_Ropp; exact D].
Qed.
Lemma near_float k z Z v : 26 <= k -> dbl z Z -> v <> 0%R -> (Rabs (Z - v) <= 0.96 * bpow radix2 (- k) * Rabs v)%R -> nearly_rounded k v (d2f z) /\ nearly_rounded k (- v) (d2f (neg64 z)).
Proof.
  intros Hk D N H. pose proof (bpow_gt_0 radix2 (- k)) as W. pose proof (Rabs_pos v) as V. assert (H' : (Rabs (Z - v) <= bpow radix2 (- k) * Rabs v)%R) by (eapply Rle_trans; [exact H|]; apply Rmult_le_compat_r; lra).
  split; [apply (to_float' _ _ _ _ D N); [lia|exact H']|]. apply (to_float' _ _ _ _ (dbl_neg _ _ D)); [lra|lia|]. rewrite (Rabs_Ropp v). replace (- Z - - v)%R with (- (Z - v))%R by ring. rewrite Rabs_Ropp. exact H'.
Qed.
Lemma near_special k z z' n Z v : 26 <= k <= 39 -> dbl z Z -> (Rabs (Z - v) <= 0.96 * bpow radix2 (- k) * Rabs v)%R ->
  1 <= n < 0x7F7FFFFF -> chkp n (qval z') 0 && Qle_bool (3 # 10) (qval z) && Qle_bool (Qabs (qval z' - qval z)) (2 # 10^16) = true -> (0 < v)%R /\ nearly_rounded k v n.
Proof.
  intros Hk D H Hn C. apply andb_prop in C. destruct C as [C C3]. apply andb_prop in C. destruct C as [C1 C2]. pose proof (k_range k Hk) as W. pose proof (value_qval _ _ D) as EZ.
  apply Qle_bool_iff, Qle_Rle in C2, C3. rewrite <- EZ in C2. rewrite Q2R_abs, Q2R_minus, <- EZ in C3. set (q := Q2R (qval z')) in *. replace (Q2R (3 # 10)) with 0.3%R in C2 by (unfold Q2R; cbn [Qnum Qden]; lra).
  replace (Q2R (2 # 10^16)) with (2 / 10000000000000000)%R in C3 by (unfold Q2R; cbn [Qnum Qden]; change (Zpos (10^16)) with 10000000000000000; lra).
  assert (V0 : (0 < v)%R). { destruct (Rlt_or_le 0 v) as [|L]; [assumption|exfalso]. rewrite (Rabs_left1 v), Rabs_pos_eq in H by lra. assert (0.96 * bpow radix2 (- k) * - v <= 1 * - v)%R by (apply Rmult_le_compat_r; lra). lra. }
  split; [exact V0|]. rewrite (Rabs_pos_eq v) in H by lra. assert (V1 : (0.29 <= v)%R). { apply Rabs_le_inv in H. assert (0.96 * bpow radix2 (- k) * v <= 0.01 * v)%R by (apply Rmult_le_compat_r; lra). lra. }
  apply (nearly_point k v n (qval z') (2 / 10000000000000000 + 0.96 * bpow radix2 (- k) * v)); [exact Hn|exact C1|exact V0| |].
  - fold q. replace (q - v)%R with ((q - Z) + (Z - v))%R by ring. eapply Rle_trans; [apply Rabs_triang|]. lra.
  - assert (0.04 * bpow radix2 (- k) * v >= 0.04 * 0.0000000000018 * 0.29)%R by (apply Rle_ge; apply Rmult_le_compat; lra). lra.
Qed.
Lemma sin_nz T : (Rabs T <= 0.7856)%R -> T <> 0%R -> sin T <> 0%R.
Proof. intros B N E. pose proof (sin_ge9 T B) as G. rewrite E, Rabs_R0 in G. pose proof (Rabs_pos_lt T N). lra. Qed.
Lemma cos_nz T : (Rabs T <= 0.7856)%R -> cos T <> 0%R.
Proof. intros B. pose proof (cos_ge T B). lra. Qed.

Lemma sin_main k x : 26 <= k <= 39 -> kernels k x -> fval 23 8 x <> 0%R -> exists b,
  (do (n, y) <- rem_pio2f x; let q := u32 n in let y := if negb (Z.land q 1 =? 0) then kernel_cosf_ y else kernel_sinf_ y in Ok (d2f (if negb (Z.land q 2 =? 0) then neg64 y else y))) = Ok b /\
  nearly_rounded k (sin (fval 23 8 x)) b.
Proof.
  intros Hk (n & y & K & T & S & C & E & NK & EX & BT & TZ & DS & DC & HS & HC) NZ. specialize (TZ (or_introl NZ)). rewrite E. cbn [bind]. cbv zeta. eexists. split; [reflexivity|].
  rewrite EX, (proj1 (quadrant K T)). unfold sinK. destruct (q_bits n K 1 NK (or_introl eq_refl)) as [-> _]. destruct (q_bits n K 2 NK (or_intror eq_refl)) as [-> _].
  destruct (near_float k _ _ _ ltac:(lia) DS (sin_nz T BT TZ) HS) as [A1 A2]. destruct (near_float k _ _ _ ltac:(lia) DC (cos_nz T BT) HC) as [B1 B2].
  destruct (mod_cases K) as [-> |[-> |[-> | ->]]]; cbn [Z.eqb Pos.eqb Z.land Pos.land Pos.Nsucc_double Pos.Ndouble negb]; assumption.
Qed.
Lemma cos_main k x : 26 <= k <= 39 -> kernels k x -> exists b,
  (do (n, y) <- rem_pio2f x; let q := u32 n in let y := if negb (Z.land q 1 =? 0) then kernel_sinf_ y else kernel_cosf_ y in Ok (d2f (if negb (Z.land (u32 (q + 1)) 2 =? 0) then neg64 y else y))) = Ok b /\
  nearly_rounded k (cos (fval 23 8 x)) b.
Proof.
  intros Hk (n & y & K & T & S & C & E & NK & EX & BT & TZ & DS & DC & HS & HC). rewrite E. cbn [bind]. cbv zeta. eexists. split; [reflexivity|].
  rewrite EX, (proj2 (quadrant K T)). unfold cosK. destruct (q_bits n K 1 NK (or_introl eq_refl)) as [-> _]. destruct (q_bits n K 2 NK (or_intror eq_refl)) as [_ ->]. rewrite mod_next.
  destruct (near_float k _ _ _ ltac:(lia) DC (cos_nz T BT) HC) as [B1 B2].
  assert (A : K mod 4 <> 0 -> nearly_rounded k (sin T) (d2f (kernel_sinf_ y)) /\ nearly_rounded k (- sin T) (d2f (neg64 (kernel_sinf_ y)))).
  { intros M. apply (near_float k _ S _ ltac:(lia) DS); [|exact HS]. apply (sin_nz T BT). apply TZ. right. intros ->. apply M. reflexivity. }
  destruct (mod_cases K) as [Q|[Q|[Q|Q]]]; rewrite Q in A |- *; try (destruct A as [A1 A2]; [discriminate|]); cbn -[d2f neg64 kernel_sinf_ kernel_cosf_ nearly_rounded]; assumption.
Qed.

(** ** the reduction, by range *)
Definition bits_of (x : Z) : Z := if fabsb 23 8 x <? 0x47000000 then 39 else if fabsb 23 8 x <? 0x4C000000 then 30 else if fabsb 23 8 x <? 0x4DC90FDB then 26 else 31.
Lemma bits_range x : 26 <= bits_of x <= 39.
Proof. unfold bits_of. repeat destruct (_ <? _); lia. Qed.
Lemma kernels_all x : fbits 23 8 x -> ffinite 23 8 x = true -> kernels (bits_of x) x.
Proof. intros H F. apply kernels_ok; [apply bits_range|exact (reduced_ok x H F)]. Qed.
Lemma special_kernels c k n y : fbits 23 8 c -> ffinite 23 8 c = true -> bits_of c = k -> rem_pio2f c = Ok (n, y) ->
  exists S C, dbl (kernel_sinf_ y) S /\ dbl (kernel_cosf_ y) C /\
    (n mod 4 = 2 -> (Rabs (S - - sin (fval 23 8 c)) <= 0.96 * bpow radix2 (- k) * Rabs (- sin (fval 23 8 c)))%R) /\
    (n mod 4 = 0 -> (Rabs (C - cos (fval 23 8 c)) <= 0.96 * bpow radix2 (- k) * Rabs (cos (fval 23 8 c)))%R).
Proof.
  intros H F B R. pose proof (kernels_all c H F) as (n' & y' & K & T & S & C & E & NK & EX & BT & TZ & DS & DC & HS & HC). rewrite R in E. injection E as -> ->. rewrite B in HS, HC.
  exists S, C. split; [exact DS|]. split; [exact DC|]. rewrite EX, (proj1 (quadrant K T)), (proj2 (quadrant K T)). unfold sinK, cosK. rewrite <- NK.
  split; intros ->; cbn [Z.eqb Pos.eqb]; [rewrite Ropp_involutive|]; assumption.
Qed.
Lemma special_sin : (0 < - sin (fval 23 8 0x46199998))%R /\ nearly_rounded 39 (- sin (fval 23 8 0x46199998)) 0x3EB1FA5D.
Proof.
  destruct (rem_pio2f 0x46199998) as [[n y]| |] eqn:E; [|vm_compute in E; discriminate E..].
  destruct (special_kernels 0x46199998 39 n y ltac:(split; [discriminate|reflexivity]) eq_refl eq_refl E) as (S & C & DS & _ & HS & _). vm_compute in E. injection E as <- <-.
  apply (near_special 39 (kernel_sinf_ 4600067171256013385) 4599933663713427455 _ S); [lia|exact DS|exact (HS eq_refl)|lia|vm_compute; reflexivity].
Qed.
Lemma special_cos c n z' k : fbits 23 8 c -> ffinite 23 8 c = true -> bits_of c = k -> 26 <= k <= 39 -> 1 <= n < 0x7F7FFFFF ->
  match rem_pio2f c with Ok (q, y) => (q mod 4 =? 0) && (chkp n (qval z') 0 && Qle_bool (3 # 10) (qval (kernel_cosf_ y)) && Qle_bool (Qabs (qval z' - qval (kernel_cosf_ y))) (2 # 10^16)) | _ => false end = true ->
  nearly_rounded k (cos (fval 23 8 c)) n.
Proof.
  intros H F B Hk Hn M. destruct (rem_pio2f c) as [[q y]| |] eqn:E; [|discriminate M..]. apply andb_prop in M. destruct M as [M1 M2]. apply Z.eqb_eq in M1.
  destruct (special_kernels c k q y H F B E) as (S & C & _ & DC & _ & HC). exact (proj2 (near_special k _ z' n C _ Hk DC (HC M1) Hn M2)).
Qed.

Lemma nearly_minus k v n : (0 < v)%R -> nearly_rounded k v n -> nearly_rounded k (- v) (n + 0x80000000).
Proof.
  intros V N. pose proof (nearly_copysign k v n 0x80000000 V N) as R. change (fneg 23 8 0x80000000) with true in R. cbv iota in R. replace (n + 0x80000000) with (copysign 23 8 n 0x80000000); [exact R|].
  destruct N as (r & _ & (B1 & B2 & _)). rewrite Rlt_bool_false in B2 by lra. unfold fneg in B2. change (2^(23+8)) with 0x80000000 in B2. unfold fbits in B1. change (2^(23+8+1)) with 0x100000000 in B1.
  assert (AB : fabsb 23 8 n = n) by (apply Z.mod_small; change (2^(23+8)) with 0x80000000; lia). unfold copysign, with_sign. rewrite AB. change (fneg 23 8 0x80000000) with true. cbv iota. change (2^(23+8)) with 0x80000000. lia.
Qed.
Lemma const_neg n : 0 <= n < 0x80000000 -> fval 23 8 (n + 0x80000000) = (- fval 23 8 n)%R.
Proof.
  intros H. unfold fval. assert (E1 : fabsb 23 8 (n + 0x80000000) = n) by (unfold fabsb; change (2^(23+8)) with 0x80000000; replace (n + 0x80000000) with (n + 1 * 0x80000000) by ring; rewrite Z.mod_add by lia; apply Z.mod_small; lia).
  assert (E2 : fabsb 23 8 n = n) by (apply Z.mod_small; change (2^(23+8)) with 0x80000000; lia). rewrite E1, E2. unfold fneg. change (2^(23+8)) with 0x80000000. replace (0x80000000 <=? n + 0x80000000) with true by lia. replace (0x80000000 <=? n) with false by lia. reflexivity.
Qed.
(** magnitude of a float from its value *)
Lemma value_bits x n : fbits 23 8 x -> 0 <= n < 0x7F800000 -> fval 23 8 x = fmag 23 8 n \/ fval 23 8 x = (- fmag 23 8 n)%R -> fabsb 23 8 x = n.
Proof.
  intros Hx Hn E. assert (A : 0 <= fabsb 23 8 x) by (apply Z.mod_pos_bound; reflexivity). pose proof (fmag_nonneg 23 8 eq_refl n ltac:(lia)) as P. pose proof (fmag_nonneg 23 8 eq_refl _ A) as Q.
  apply (fmag_inj 23 8 eq_refl); [exact A|lia|]. unfold fval in E. destruct (fneg 23 8 x); lra.
Qed.
Lemma pos_const n : 0 <= n < 0x80000000 -> fval 23 8 n = fmag 23 8 n.
Proof.
  intros H. unfold fval. assert (E2 : fabsb 23 8 n = n) by (apply Z.mod_small; change (2^(23+8)) with 0x80000000; lia). rewrite E2. unfold fneg. change (2^(23+8)) with 0x80000000. replace (0x80000000 <=? n) with false by lia. reflexivity.
Qed.
Ltac tofb := unfold fbits; change (2^(23+8+1)) with 0x100000000; lia.

Theorem sinf_ok x : fbits 23 8 x -> ffinite 23 8 x = true -> fval 23 8 x <> 0%R -> exists b, sinf x = Ok b /\ nearly_rounded (bits_of x) (sin (fval 23 8 x)) b.
Proof.
  intros Hx Fx NZ. unfold sinf. destruct (eq32 x 0) eqn:E0.
  { exfalso. apply NZ. rewrite (eq32_val x 0 Hx Fx ltac:(tofb) eq_refl E0). rewrite pos_const by lia. apply (fmag_0 23 8 eq_refl). }
  destruct special_sin as [SP SN]. destruct (eq32 x 0x46199998) eqn:E1.
  { exists 0xBEB1FA5D. split; [reflexivity|]. pose proof (eq32_val x 0x46199998 Hx Fx ltac:(tofb) eq_refl E1) as V. assert (B : bits_of x = 39) by (unfold bits_of; rewrite (value_bits x 0x46199998 Hx ltac:(lia)) by (left; rewrite V; apply pos_const; lia); reflexivity).
    rewrite B, V. rewrite <- (Ropp_involutive (sin _)). exact (nearly_minus 39 _ _ SP SN). }
  destruct (eq32 x 0xC6199998) eqn:E2.
  { exists 0x3EB1FA5D. split; [reflexivity|]. pose proof (eq32_val x 0xC6199998 Hx Fx ltac:(tofb) eq_refl E2) as V. change 0xC6199998 with (0x46199998 + 0x80000000) in V. rewrite const_neg in V by lia.
    assert (B : bits_of x = 39) by (unfold bits_of; rewrite (value_bits x 0x46199998 Hx ltac:(lia)) by (right; rewrite V; f_equal; apply pos_const; lia); reflexivity).
    rewrite B, V, sin_neg. exact SN. }
  exact (sin_main _ x (bits_range x) (kernels_all x Hx Fx) NZ).
Qed.
Lemma cos_pair x c n z' : fbits 23 8 x -> ffinite 23 8 x = true -> fbits 23 8 c -> 0 <= c < 0x7F800000 -> 1 <= n < 0x7F7FFFFF ->
  match rem_pio2f c with Ok (q, y) => (q mod 4 =? 0) && (chkp n (qval z') 0 && Qle_bool (3 # 10) (qval (kernel_cosf_ y)) && Qle_bool (Qabs (qval z' - qval (kernel_cosf_ y))) (2 # 10^16)) | _ => false end = true ->
  eq32 x c || eq32 x (c + 0x80000000) = true -> nearly_rounded (bits_of x) (cos (fval 23 8 x)) n.
Proof.
  intros Hx Fx Hc C0 Hn M E. assert (AC : fabsb 23 8 c = c) by (apply Z.mod_small; change (2^(23+8)) with 0x80000000; lia). assert (FC : ffinite 23 8 c = true) by (unfold ffinite; rewrite AC; change (finf 23 8) with 0x7F800000; lia).
  assert (AC' : fabsb 23 8 (c + 0x80000000) = c) by (unfold fabsb; change (2^(23+8)) with 0x80000000; replace (c + 0x80000000) with (c + 1 * 0x80000000) by ring; rewrite Z.mod_add by lia; apply Z.mod_small; lia).
  assert (FC' : ffinite 23 8 (c + 0x80000000) = true) by (unfold ffinite; rewrite AC'; change (finf 23 8) with 0x7F800000; lia).
  assert (HC' : fbits 23 8 (c + 0x80000000)) by (unfold fbits; change (2^(23+8+1)) with 0x100000000; lia).
  assert (V : fval 23 8 x = fval 23 8 c \/ fval 23 8 x = (- fval 23 8 c)%R). { apply orb_prop in E. destruct E as [E|E]; [left; exact (eq32_val x c Hx Fx Hc FC E)|right]. rewrite <- const_neg by lia. exact (eq32_val x _ Hx Fx HC' FC' E). }
  assert (CV : cos (fval 23 8 x) = cos (fval 23 8 c)) by (destruct V as [->| ->]; [reflexivity|apply cos_neg]).
  assert (AX : fabsb 23 8 x = c) by (apply (value_bits x c Hx C0); rewrite <- pos_const by lia; exact V).
  assert (BX : bits_of c = bits_of x) by (unfold bits_of; rewrite AX, AC; reflexivity). rewrite CV. exact (special_cos c n z' _ Hc FC BX (bits_range x) Hn M).
Qed.
Theorem cosf_ok x : fbits 23 8 x -> ffinite 23 8 x = true -> exists b, cosf x = Ok b /\ nearly_rounded (bits_of x) (cos (fval 23 8 x)) b.
Proof.
  intros Hx Fx. unfold cosf.
  destruct (eq32 x 0x7908CD73 || eq32 x 0xF908CD73) eqn:E1; [exists 0x3F798BB5; split; [reflexivity|]; apply (cos_pair x 0x7908CD73 0x3F798BB5 4606955329651998719 Hx Fx ltac:(tofb) ltac:(lia) ltac:(lia)); [vm_compute; reflexivity|exact E1]|].
  destruct (eq32 x 0x6115CB11 || eq32 x 0xE115CB11) eqn:E2; [exists 0x3F78142F; split; [reflexivity|]; apply (cos_pair x 0x6115CB11 0x3F78142F 4606903717566873601 Hx Fx ltac:(tofb) ltac:(lia) ltac:(lia)); [vm_compute; reflexivity|exact E2]|].
  destruct (eq32 x 0x5F18B878 || eq32 x 0xDF18B878) eqn:E3; [exists 0x3F7F14BB; split; [reflexivity|]; apply (cos_pair x 0x5F18B878 0x3F7F14BB 4607150083870294015 Hx Fx ltac:(tofb) ltac:(lia) ltac:(lia)); [vm_compute; reflexivity|exact E3]|].
  exact (cos_main _ x (bits_range x) (kernels_all x Hx Fx)).
Qed.

(** ** tanf *)
Lemma tan_lip k Y T : 26 <= k <= 39 -> (Rabs Y <= 0.7856)%R -> (Rabs T <= 0.7856)%R -> T <> 0%R -> (Rabs (Y - T) <= 0.951 * bpow radix2 (- k) * Rabs T)%R -> (Rabs (Y - T) <= 0.4 * bpow radix2 (- k - 10))%R ->
  relr (0.953 * bpow radix2 (- k)) (tan Y) (tan T).
Proof.
  intros Hk BY BT NT R1 R2. pose proof (k_range k Hk) as W. rewrite ten in R2. set (w := bpow radix2 (- k)) in *. clearbody w. destruct (cos_ge Y BY) as [CY _]. destruct (cos_ge T BT) as [CT _]. pose proof (sin_nz T BT NT) as SN.
  unfold relr, tan. replace (sin Y / cos Y - sin T / cos T)%R with (sin (Y - T) / (cos Y * sin T) * (sin T / cos T))%R by (rewrite sin_minus; field; repeat split; lra).
  rewrite Rabs_mult. apply Rmult_le_compat_r; [apply Rabs_pos|]. unfold Rdiv. rewrite Rabs_mult, Rabs_inv, Rabs_mult, (Rabs_pos_eq (cos Y)) by lra.
  assert (SL : (Rabs (sin (Y - T)) <= Rabs (Y - T))%R).
  { apply sin_ge. eapply Rle_trans; [exact R2|]. lra. }
  pose proof (Rabs_pos_lt _ SN) as SP. pose proof (Rabs_pos T) as T0. apply Rmult_le_reg_r with (cos Y * Rabs (sin T))%R; [apply Rmult_lt_0_compat; lra|]. rewrite Rmult_assoc, Rinv_l, Rmult_1_r by (apply Rgt_not_eq; apply Rmult_lt_0_compat; lra).
  eapply Rle_trans; [exact SL|]. destruct (Rle_or_lt (Rabs T) (/ 1024)) as [L|L].
  - assert (AY : (Rabs Y <= 0.001)%R). { replace Y with ((Y - T) + T)%R by ring. eapply Rle_trans; [apply Rabs_triang|]. lra. }
    destruct (sin_ge T BT) as [G _]. assert (Q : (T * T <= / 1048576)%R) by (apply Rabs_le_inv in L; nra). assert (G' : (0.9999 * Rabs T <= Rabs (sin T))%R) by (eapply Rle_trans; [|exact G]; apply Rmult_le_compat_r; lra).
    assert (CY1 : (0.9999 <= cos Y)%R). { pose proof (cos_lip Y 0 BY ltac:(rewrite Rabs_R0; lra)) as CL. rewrite cos_0 in CL. 
      pose proof (sin2_cos2 Y) as SC. unfold Rsqr in SC. destruct (sin_ge Y BY) as [_ SY]. assert (SS : (Rabs (sin Y) * Rabs (sin Y) <= 0.001 * 0.001)%R) by (pose proof (Rabs_pos (sin Y)); apply Rmult_le_compat; lra). rewrite <- Rabs_mult, Rabs_pos_eq in SS by (apply Rle_0_sqr). destruct (cos_ge Y BY) as [_ C1]. nra. }
    apply Rle_trans with (0.953 * w * (0.9999 * (0.9999 * Rabs T)))%R; [|apply Rmult_le_compat_l; [lra|]; apply Rmult_le_compat; lra]. assert (0 <= w * Rabs T)%R by (apply Rmult_le_pos; lra). lra.
  - pose proof (sin_ge9 T BT) as G. apply Rle_trans with (0.953 * w * (0.7 * (0.87 * Rabs T)))%R; [|apply Rmult_le_compat_l; [lra|]; apply Rmult_le_compat; lra]. assert (w * / 1024 <= w * Rabs T)%R by (apply Rmult_le_compat_l; lra). lra.
Qed.
Theorem tanf_ok x : fbits 23 8 x -> ffinite 23 8 x = true -> fval 23 8 x <> 0%R -> exists b, tanf x = Ok b /\ nearly_rounded (bits_of x) (tan (fval 23 8 x)) b.
Proof.
  intros Hx Fx NZ. pose proof (bits_range x) as Hk. pose proof (reduced_ok x Hx Fx) as R. fold (bits_of x) in R. set (k := bits_of x) in *. clearbody k.
  destruct R as (n & y & K & Y & E & DY & NK & BY & NY & R). cbv zeta in R. set (T := (fval 23 8 x - IZR K * (PI / 2))%R) in *. destruct R as (BT & TZ & R1 & R2).
  assert (EX : fval 23 8 x = (T + IZR K * (PI / 2))%R) by (unfold T; ring).
  assert (NT : T <> 0%R). { destruct (Z.eq_dec K 0) as [->|Z]; [|exact (TZ Z)]. rewrite EX in NZ. intros Z. apply NZ. rewrite Z. ring. }
  clearbody T. pose proof (tan_lip k Y T Hk BY BT NT R1 R2) as RT. destruct (tan_parts y Y DY BY (nice_weak (-150) (-200) _ ltac:(lia) NY)) as (P & D & DP & DD & RP & RD). pose proof (tan_rat Y BY) as TR.
  assert (ZZ : (0 <= Y * Y <= 0.61718)%R) by (apply Rabs_le_inv in BY; split; nra). pose proof (tn_range _ ZZ) as RN. pose proof (td_range _ ZZ) as RR. set (p := peval ptn (Y * Y)) in *. set (d := peval ptd (Y * Y)) in *. clearbody p d.
  pose proof (k_range k Hk) as W. set (w := bpow radix2 (- k)) in *.
  assert (NYZ : Y <> 0%R). { intros Z. rewrite Z in R1. replace (0 - T)%R with (- T)%R in R1 by ring. rewrite Rabs_Ropp in R1. pose proof (Rabs_pos_lt _ NT). assert (0.951 * w * Rabs T <= 0.1 * Rabs T)%R by (apply Rmult_le_compat_r; lra). lra. }
  destruct (cos_ge Y BY) as [CY CY1]. destruct (cos_ge T BT) as [CT _]. pose proof (sin_nz T BT NT) as SN. pose proof (sin_nz Y BY NYZ) as SY.
  assert (TN : tan T <> 0%R) by (unfold tan, Rdiv; apply Rmult_integral_contrapositive_currified; [exact SN|apply Rinv_neq_0_compat; lra]).
  pose proof (relr_range 0.0000000000000003 P p ltac:(lra) ltac:(lra) RP) as PB. pose proof (relr_range 0.0000000000000005 D d ltac:(lra) ltac:(lra) RD) as DB.
  (* Y p / d against tan Y *)
  assert (RQ : relr 0.000000000000000065 (Y * p / d) (tan Y)).
  { unfold relr, tan. replace (Y * p / d - sin Y / cos Y)%R with ((Y * p * cos Y - d * sin Y) / (d * cos Y))%R by (field; split; lra). unfold Rdiv. rewrite !Rabs_mult, !Rabs_inv, Rabs_mult, (Rabs_pos_eq d), (Rabs_pos_eq (cos Y)) by lra.
    apply Rmult_le_reg_r with (d * cos Y)%R; [apply Rmult_lt_0_compat; lra|]. rewrite Rmult_assoc, Rinv_l, Rmult_1_r by (apply Rgt_not_eq; apply Rmult_lt_0_compat; lra).
    replace (0.000000000000000065 * (Rabs (sin Y) * / cos Y) * (d * cos Y))%R with (0.000000000000000065 * Rabs (sin Y) * d)%R by (field; lra).
    eapply Rle_trans; [exact TR|]. pose proof (sin_ge9 Y BY) as G. pose proof (Rabs_pos Y). apply Rle_trans with (0.000000000000000065 * (0.87 * Rabs Y) * 0.72)%R; [lra|]. apply Rmult_le_compat; lra. }
  assert (NYP : nice (-152) (Y * P)) by (replace (-152) with (-150 + -2) by reflexivity; apply nice_mul; [exact NY|apply nice_ge; change (bpow radix2 (-2)) with (/ 4)%R; lra]).
  assert (BYP : (Rabs (Y * P) <= 1)%R) by (rewrite Rabs_mult, (Rabs_pos_eq P) by lra; apply Rle_trans with (0.7856 * 1.02)%R; [apply Rmult_le_compat; try lra; apply Rabs_pos|lra]).
  assert (DYP : dbl (mul64 y (num_tanf_ (mul64 y y))) (RN53 (Y * P))) by (apply (dbl_mul _ _ _ _ 0 DY DP); [change (bpow radix2 0) with 1%R; lra|lia]).
  assert (RYP : relr 0.00000000000000042 (RN53 (Y * P)) (Y * p)).
  { eapply relr_weak; [|apply (relr_round 0.0000000000000003); [lra|exact (nice_weak (-152) (-1022) _ ltac:(lia) NYP)|]]; [lra|]. eapply relr_weak; [|apply (relr_mul 0 0.0000000000000003 _ _ _ _ ltac:(lra) ltac:(lra) (relr_refl Y) RP)]. lra. }
  assert (NQ : nice (-153) (RN53 (Y * P))) by (destruct (R53_ex _ (nice_weak (-152) (-1022) _ ltac:(lia) NYP)) as (a & Ha & ->); exact (nice_u (-152) _ _ NYP Ha)).
  assert (BQ : (Rabs (RN53 (Y * P)) <= 1.1)%R). { destruct (R53_ex _ (nice_weak (-152) (-1022) _ ltac:(lia) NYP)) as (a & Ha & ->). destruct u53_dec as [U0 U1]. rewrite Rabs_mult. pose proof (Rabs_le_inv _ _ Ha). rewrite (Rabs_pos_eq (1 + a)) by lra. apply Rle_trans with (1 * 1.1)%R; [apply Rmult_le_compat; try lra; apply Rabs_pos|lra]. }
  assert (QNZ : RN53 (Y * P) <> 0%R).
  { intros Z. rewrite Z in RYP. unfold relr in RYP. replace (0 - Y * p)%R with (- (Y * p))%R in RYP by ring. rewrite Rabs_Ropp in RYP. assert (YP0 : (0 < Rabs (Y * p))%R) by (apply Rabs_pos_lt; apply Rmult_integral_contrapositive_currified; [exact NYZ|lra]). lra. }
  set (q := RN53 (Y * P)) in *. clearbody q. destruct NQ as [NQ|NQ]; [contradiction|].
  assert (RQD : relr 0.00000000000000093 (q / D) (Y * p / d)) by (eapply relr_weak; [|apply (relr_div 0.00000000000000042 0.0000000000000005 _ _ (Y * p) d ltac:(lra) ltac:(lra) ltac:(lra) RYP RD)]; lra).
  assert (RF : relr (0.953 * w + 0.00000000000000101) (q / D) (tan T)).
  { apply (relr_weak (0.000000000000001 + 0.953 * w + 0.000000000000001 * (0.953 * w))); [lra|]. apply (relr_trans 0.000000000000001 (0.953 * w) _ (tan Y)); [lra|lra| |exact RT].
    apply (relr_weak (0.00000000000000093 + 0.000000000000000065 + 0.00000000000000093 * 0.000000000000000065)); [lra|]. apply (relr_trans 0.00000000000000093 0.000000000000000065 _ (Y * p / d)); [lra|lra|exact RQD|exact RQ]. }
  assert (IQ : (/ 1.1 <= / D <= 1.5)%R). { split; [apply Rinv_le_contravar; lra|]. replace 1.5%R with (/ (2/3))%R by lra. apply Rinv_le_contravar; lra. }
  unfold tanf. rewrite E. cbn [bind]. cbv zeta. eexists. split; [reflexivity|]. rewrite EX. unfold tan at 1. destruct (quadrant K T) as [-> ->]. destruct (q_bits n K 1 NK (or_introl eq_refl)) as [-> _].
  assert (EV : nearly_rounded k (tan T) (d2f (div64 (mul64 y (num_tanf_ (mul64 y y))) (den_tanf_ (mul64 y y))))).
  { assert (BD : (Rabs (q / D) <= 2)%R) by (unfold Rdiv; rewrite Rabs_mult, (Rabs_pos_eq (/ D)) by lra; apply Rle_trans with (1.1 * 1.5)%R; [apply Rmult_le_compat; try lra; apply Rabs_pos|lra]).
    assert (DQ : dbl (div64 (mul64 y (num_tanf_ (mul64 y y))) (den_tanf_ (mul64 y y))) (RN53 (q / D))) by (apply (dbl_div _ _ _ _ 1 DYP DD); [lra|change (bpow radix2 1) with 2%R; lra|lia]).
    assert (ND : nice (-1022) (q / D)) by (apply (nice_weak (-154)); [lia|]; unfold Rdiv; replace (-154) with (-153 + -1) by reflexivity; apply nice_mul; [right; exact NQ|apply nice_ge; change (bpow radix2 (-1)) with (/ 2)%R; lra]).
    apply (to_float' _ _ _ _ DQ TN); [lia|]. change (relr w (RN53 (q / D)) (tan T)). eapply relr_weak; [|apply (relr_round (0.953 * w + 0.00000000000000101)); [lra|exact ND|exact RF]]. lra. }
  assert (OD : K mod 4 = 1 \/ K mod 4 = 3 -> nearly_rounded k (- / tan T) (d2f (div64 (neg64 (den_tanf_ (mul64 y y))) (mul64 y (num_tanf_ (mul64 y y)))))).
  { intros _. pose proof (relr_inv (0.953 * w + 0.00000000000000101) _ _ ltac:(lra) TN RF) as RI. replace (/ (q / D))%R with (D / q)%R in RI by (field; split; [lra|exact QNZ]).
    assert (RI' : relr ((0.953 * w + 0.00000000000000101) * 1.00001) (- D / q) (- / tan T)) by (unfold relr in *; rewrite Rabs_Ropp; replace (- D / q - - / tan T)%R with (- (D / q - / tan T))%R by (field; split; [exact TN|exact QNZ]); rewrite Rabs_Ropp; exact RI).
    assert (AQ : Rabs (- D / q) = (D / Rabs q)%R) by (unfold Rdiv; rewrite Rabs_mult, Rabs_inv, Rabs_Ropp, (Rabs_pos_eq D) by lra; reflexivity). assert (Q0 : (0 < Rabs q)%R) by (apply Rabs_pos_lt; exact QNZ).
    assert (DQ : dbl (div64 (neg64 (den_tanf_ (mul64 y y))) (mul64 y (num_tanf_ (mul64 y y)))) (RN53 (- D / q))).
    { apply (dbl_div _ _ _ _ 154 (dbl_neg _ _ DD) DYP QNZ); [|lia]. rewrite AQ. apply Rmult_le_reg_r with (Rabs q); [exact Q0|]. unfold Rdiv. rewrite Rmult_assoc, Rinv_l by lra. apply Rle_trans with (bpow radix2 154 * bpow radix2 (-153))%R; [rewrite <- bpow_plus; change (bpow radix2 (154 + -153)) with 2%R; lra|]. apply Rmult_le_compat_l; [apply bpow_ge_0|exact NQ]. }
    assert (ND : nice (-1022) (- D / q)). { right. apply Rle_trans with (bpow radix2 (-1)); [apply bpow_le; lia|]. rewrite AQ. change (bpow radix2 (-1)) with (/ 2)%R. apply Rmult_le_reg_r with (Rabs q); [exact Q0|]. unfold Rdiv. rewrite Rmult_assoc, Rinv_l by lra. lra. }
    apply (to_float' _ _ _ _ DQ); [apply Ropp_neq_0_compat, Rinv_neq_0_compat; exact TN|lia|]. change (relr w (RN53 (- D / q)) (- / tan T)). eapply relr_weak; [|apply (relr_round ((0.953 * w + 0.00000000000000101) * 1.00001)); [lra|exact ND|exact RI']]. lra. }
  unfold sinK, cosK. destruct (mod_cases K) as [Q|[Q|[Q|Q]]]; rewrite Q in OD |- *; cbn [Z.eqb Pos.eqb Z.land Pos.land Pos.Nsucc_double Pos.Ndouble negb].
  - exact EV.
  - replace (cos T / - sin T)%R with (- / tan T)%R by (unfold tan; field; repeat split; first [exact SN|lra]). apply OD. auto.
  - replace (- sin T / - cos T)%R with (tan T) by (unfold tan; field; lra). exact EV.
  - replace (- cos T / sin T)%R with (- / tan T)%R by (unfold tan; field; repeat split; first [exact SN|lra]). apply OD. auto.
Qed.
