(** Accuracy of the inverse hyperbolic tangent kernel. *)
From Coq Require Import Reals Lra Lia Psatz QArith Qreals Qabs List.
From Flocq Require Import Core BinarySingleNaN Relative Sterbenz.
From Coquelicot Require Import Coquelicot.
From Verif Require Import Base FP FP_Proof HW HW_Proof Midpoint Fmaf_Proof Math_Model Math_Int_Proof Math_Lconv_Proof Hypotf_Real Hypotf_Proof Approx Subdiv Ferr Elem_Spec Elem_Proof Elem_Num Expf_Model Expf_Proof Logf_Model.
Import ListNotations.
Open Scope Z_scope.
Local Ltac Zify.zify_post_hook ::= idtac.

#[local] Instance prec53 : Prec_gt_0 53 := eq_refl.
Definition u53 : R := bpow radix2 (-53).
Lemma u53_dec : (0 < u53 /\ u53 <= 0.0000000000000001111)%R.
Proof.
  unfold u53. split; [apply bpow_gt_0|]. change (bpow radix2 (-53)) with (/ 9007199254740992)%R. lra.
Qed.
(** a value is zero or far from the subnormal range *)
Definition nice (e : Z) (x : R) : Prop := x = 0%R \/ (bpow radix2 e <= Rabs x)%R.
Lemma R53_ex x : nice (-1022) x -> exists d, (Rabs d <= u53)%R /\ RN53 x = (x * (1 + d))%R.
Proof.
  intros [->|H].
  - exists 0%R. split; [rewrite Rabs_R0; left; apply u53_dec|]. rewrite RN53_id by apply generic_format_0. ring.
  - destruct (relative_error_N_FLT_ex radix2 (-1074) 53 eq_refl (fun z => negb (Z.even z)) x H) as (d & D1 & D2).
    exists d. split; [|rewrite RN53_eq; exact D2]. eapply Rle_trans; [exact D1|]. unfold u53.
    replace (/ 2 * bpow radix2 (- (53) + 1))%R with (bpow radix2 (-53)); [apply Rle_refl|]. change (/ 2)%R with (bpow radix2 (-1)). rewrite <- bpow_plus. reflexivity.
Qed.
Lemma nice_weak e f x : f <= e -> nice e x -> nice f x.
Proof. intros H [->|L]; [left; reflexivity|right]. eapply Rle_trans; [|exact L]. apply bpow_le. exact H. Qed.
Lemma nice_mul a b x y : nice a x -> nice b y -> nice (a + b) (x * y).
Proof.
  intros [->|A]; [intros _; left; ring|]. intros [->|B]; [left; ring|right]. rewrite bpow_plus, Rabs_mult. apply Rmult_le_compat; (apply bpow_ge_0 || assumption).
Qed.
(** a factor between 1/2 and 2 costs one bit *)
Lemma nice_near e x d : nice e x -> (Rabs d <= / 2)%R -> nice (e - 1) (x * (1 + d)).
Proof.
  intros [->|A] D; [left; ring|right]. unfold Z.sub. rewrite bpow_plus, Rabs_mult. change (bpow radix2 (-(1))) with (/ 2)%R. apply Rabs_le_inv in D.
  apply Rmult_le_compat; [apply bpow_ge_0|lra|exact A|]. rewrite Rabs_pos_eq by lra. lra.
Qed.

Lemma nice_u e x d : nice e x -> (Rabs d <= u53)%R -> nice (e - 1) (x * (1 + d)).
Proof. intros A D. destruct u53_dec. apply nice_near; [exact A|lra]. Qed.

(** ** the kernel *)
Definition katanh : fe := hornr [0x3FB5471A00A27E2D; 0x3FB73824FFF997BB; 0x3FBC71FD073EF892;
    0x3FC249246261F73E; 0x3FC9999999B8B079; 0x3FD55555555553B3].
Definition patanh : list Q := Eval vm_compute in poly_of katanh.
Lemma katanh_bits d : poly_atanhf_ d = ebits (env1 d d) katanh.
Proof. unfold poly_atanhf_, katanh, hstep. cbn [hornr fold_left hs ebits env1]. reflexivity. Qed.
Lemma katanh_poly : epoly katanh = Some patanh.
Proof. vm_compute. reflexivity. Qed.

Lemma patanh_range z : (0 <= z <= 0.02945)%R -> (0.32 <= peval patanh z <= 0.36)%R.
Proof.
  intros H. assert (B : (Rabs (peval patanh z - peval [337 # 1000] z) <= Q2R (12 # 1000))%R).
  { rewrite <- psub_ok. eapply Rle_trans; [apply (pbound_ok _ (2945 # 100000)); rewrite Rabs_pos_eq by lra; unfold Q2R; cbn [Qnum Qden]; lra|]. apply Q2R_le. vm_compute. reflexivity. }
  cbn [peval] in B. rewrite Rmult_0_r, Rplus_0_r in B. apply Rabs_le_inv in B. unfold Q2R in B. cbn [Qnum Qden] in B. lra.
Qed.

(** one-step relative errors multiplied out *)
Lemma three_factors a b c : (Rabs a <= u53 -> Rabs b <= u53 -> Rabs c <= u53 -> Rabs ((1 + a) * (1 + b) * (1 + c) - 1) <= 3.1 * u53)%R.
Proof.
  intros A B C. destruct u53_dec as [U0 U1]. apply Rabs_le_inv in A. apply Rabs_le_inv in B. apply Rabs_le_inv in C.
  assert (AB : (Rabs ((1 + a) * (1 + b) - 1) <= 2.01 * u53)%R) by (apply Rabs_le; split; nra). apply Rabs_le_inv in AB.
  set (g := ((1 + a) * (1 + b) - 1)%R) in *. replace ((1 + a) * (1 + b) * (1 + c) - 1)%R with (g + c + g * c)%R by (unfold g; ring). apply Rabs_le. split; nra.
Qed.

Lemma kernel_rel d S : dbl d S -> (Rabs S <= 0.1716)%R -> nice (-200) S ->
  exists T, dbl (kernel_atanhf_ d) T /\ (Rabs (T - S * (1 + S * S * peval patanh (S * S))) <= 0.000000000000000126 * Rabs S)%R /\ nice (-202) T.
Proof.
  intros D B N. unfold kernel_atanhf_. cbv zeta. destruct u53_dec as [U0 U1].
  assert (Z : (0 <= S * S <= 0.02945)%R) by (apply Rabs_le_inv in B; split; nra). set (z := (S * S)%R) in *.
  pose proof (patanh_range z Z) as PR. set (P := peval patanh z) in *.
  assert (B1 : (1 <= bpow radix2 1)%R) by (change (bpow radix2 1) with 2%R; lra).
  (* xx *)
  assert (DA : dbl (mul64 d d) (RN53 z)) by (apply (dbl_mul _ _ _ _ 1 D D); [fold z; rewrite Rabs_pos_eq by lra; lra|lia]).
  assert (NZ : nice (-400) z) by exact (nice_mul (-200) (-200) S S N N). clearbody z.
  destruct (R53_ex z (nice_weak (-400) (-1022) _ ltac:(lia) NZ)) as (a & Ha & EA). rewrite EA in DA.
  set (xx := mul64 d d) in *. clearbody xx. assert (Ha' := Rabs_le_inv _ _ Ha).
  assert (NX : nearq xx z (2945 # 100000) (4 # 10^18)).
  { exists (z * (1 + a))%R. split; [exact DA|]. split.
    - replace (z * (1 + a) - z)%R with (z * a)%R by ring. rewrite Rabs_mult, (Rabs_pos_eq z) by lra. pose proof (Rabs_pos a).
      replace (Q2R (4 # 10^18)) with (4 / 1000000000000000000)%R by (unfold Q2R; cbn [Qnum Qden]; change (Zpos (10^18)) with 1000000000000000000; lra). nra.
    - rewrite Rabs_pos_eq by lra. unfold Q2R. cbn [Qnum Qden]. lra. }
  assert (C : chk2 (2945 # 100000) (4 # 10^18) (2945 # 100000) (4 # 10^18) katanh 1 (1 # 10^16) = true) by (vm_compute; reflexivity).
  pose proof (chk1_ok _ _ _ _ _ _ _ _ C katanh_poly NX) as NP. rewrite <- katanh_bits in NP. fold P in NP. destruct NP as (y & DP & EP & _).
  set (pp := poly_atanhf_ xx) in *. clearbody pp.
  replace (Q2R (1 # 10^16)) with (/ 10000000000000000)%R in EP by (unfold Q2R; cbn [Qnum Qden]; change (Zpos (10^16)) with 10000000000000000; lra).
  assert (EP' := Rabs_le_inv _ _ EP).
  (* x * xx *)
  assert (NB : nice (-601) (S * (z * (1 + a)))) by exact (nice_mul (-200) (-401) _ _ N (nice_u (-400) _ _ NZ Ha)).
  assert (AS := Rabs_pos S).
  clearbody P. assert (ZA : (0 <= z * (1 + a) <= 0.02951)%R) by (split; nra).
  assert (BB : (Rabs (S * (z * (1 + a))) <= 0.02951 * Rabs S)%R) by (rewrite Rabs_mult, (Rabs_pos_eq (z * (1 + a))) by lra; nra).
  assert (DB : dbl (mul64 d xx) (RN53 (S * (z * (1 + a))))) by (apply (dbl_mul _ _ _ _ 1 D DA); [lra|lia]).
  destruct (R53_ex _ (nice_weak (-601) (-1022) _ ltac:(lia) NB)) as (b & Hb & EB). rewrite EB in DB. assert (Hb' := Rabs_le_inv _ _ Hb).
  set (w := mul64 d xx) in *. clearbody w. set (t := (S * (z * (1 + a)) * (1 + b))%R) in *.
  assert (NT : nice (-602) t) by exact (nice_u (-601) _ _ NB Hb).
  assert (BT : (Rabs t <= 0.03 * Rabs S)%R).
  { unfold t. rewrite Rabs_mult, (Rabs_pos_eq (1 + b)) by lra. nra. }
  assert (NY : nice (-2) y). { right. change (bpow radix2 (-2)) with (/ 4)%R. rewrite Rabs_pos_eq by lra. lra. }
  assert (NC : nice (-604) (t * y)) by exact (nice_mul (-602) (-2) _ _ NT NY).
  assert (AT := Rabs_pos t).
  assert (BC : (Rabs (t * y) <= 0.012 * Rabs S)%R) by (rewrite Rabs_mult, (Rabs_pos_eq y) by lra; nra).
  assert (DC : dbl (mul64 w pp) (RN53 (t * y))) by (apply (dbl_mul _ _ _ _ 1 DB DP); [lra|lia]).
  destruct (R53_ex _ (nice_weak (-604) (-1022) _ ltac:(lia) NC)) as (c & Hc & EC). rewrite EC in DC. assert (Hc' := Rabs_le_inv _ _ Hc).
  set (q := mul64 w pp) in *. clearbody q.
  (* the sum *)
  set (F := ((1 + a) * (1 + b) * (1 + c))%R). pose proof (three_factors a b c Ha Hb Hc) as HF. fold F in HF. assert (HF' := Rabs_le_inv _ _ HF).
  assert (ES : (S + t * y * (1 + c) = S * (1 + z * (F * y)))%R) by (unfold t, F; ring).
  assert (HG : (0 <= z * (F * y) <= 0.0115)%R). { assert (0 <= F * y <= 0.38)%R by (split; nra). split; nra. }
  assert (NS : nice (-201) (S * (1 + z * (F * y)))) by (apply (nice_near (-200)); [exact N|rewrite Rabs_pos_eq by lra; lra]).
  assert (DD : dbl (add64 d q) (RN53 (S + t * y * (1 + c)))).
  { apply (dbl_add _ _ _ _ 1 D DC); [|lia]. rewrite ES, Rabs_mult, (Rabs_pos_eq (1 + z * (F * y))) by lra. nra. }
  rewrite ES in DD. destruct (R53_ex _ (nice_weak (-201) (-1022) _ ltac:(lia) NS)) as (e & He & EE). rewrite EE in DD. assert (He' := Rabs_le_inv _ _ He).
  eexists. split; [exact DD|]. split; [|exact (nice_u (-201) _ _ NS He)].
  replace (S * (1 + z * (F * y)) * (1 + e) - S * (1 + z * P))%R with (S * (z * (F * y - P) + e * (1 + z * (F * y))))%R by ring.
  rewrite Rabs_mult, Rmult_comm. apply Rmult_le_compat_r; [exact AS|].
  assert (HQ : (Rabs (F * y - P) <= 0.0000000000000003)%R).
  { replace (F * y - P)%R with ((F - 1) * y + (y - P))%R by ring. apply Rabs_le. split; nra. }
  assert (HQ' := Rabs_le_inv _ _ HQ). apply Rabs_le. split; nra.
Qed.

(** ** against the function *)
Lemma one_patanh z : (0 <= z <= 0.02945)%R -> (Rabs (1 + z * peval patanh z - peval (atl 14 1) z) <= 0.00000000000000075)%R.
Proof.
  intros H. assert (E75 : Q2R (75 # 10^17) = (0.00000000000000075)%R) by (unfold Q2R; cbn [Qnum Qden]; change (Zpos (10^17)) with 100000000000000000; lra).
  replace (1 + z * peval patanh z)%R with (peval (1%Q :: patanh) z) by (cbn [peval]; rewrite Q2R_1; reflexivity). rewrite <- E75.
  destruct (Rle_dec z 0.029296875) as [L|L].
  - assert (C : subdiv (1%Q :: patanh) (atl 14 1) 128 12 0 59%nat (75 # 10^17) = true) by (vm_compute; reflexivity).
    apply (subdiv_ok _ _ _ _ _ _ _ z C); [rewrite Rabs_pos_eq by lra; lra|]. change (IZR (0 + 2 * Z.of_nat 60)) with 120%R. change (bpow radix2 (- (12))) with (/ 4096)%R. lra.
  - assert (C : subdiv (1%Q :: patanh) (atl 14 1) 128 17 3840 10%nat (75 # 10^17) = true) by (vm_compute; reflexivity).
    apply (subdiv_ok _ _ _ _ _ _ _ z C); [rewrite Rabs_pos_eq by lra; lra|]. change (IZR (3840 + 2 * Z.of_nat 11)) with 3862%R. change (bpow radix2 (- (17))) with (/ 131072)%R. lra.
Qed.
Lemma atanh_kernel S : (Rabs S <= 0.1716)%R -> (Rabs (S * (1 + S * S * peval patanh (S * S)) - atanh S) <= 0.00000000000000076 * Rabs S)%R.
Proof.
  intros B. assert (Z : (0 <= S * S <= 0.02945)%R) by (apply Rabs_le_inv in B; split; nra).
  pose proof (one_patanh _ Z) as A. pose proof (atanh_taylor 14 S 0.1716 B ltac:(lra)) as T. rewrite <- atl_ok in T.
  set (z := (S * S)%R) in *. assert (AS := Rabs_pos S).
  assert (PW : ((Rabs S)^(Datatypes.S (2 * 14)) <= Rabs S * (/ 1000000000000000000))%R).
  { replace (Datatypes.S (2 * 14)) with (1 + 2 * 14)%nat by reflexivity. rewrite pow_add, pow_1. apply Rmult_le_compat_l; [exact AS|]. rewrite pow_mult.
    apply Rle_trans with ((0.03)^14)%R; [apply pow_incr; split; [apply pow2_ge_0|]; rewrite <- Rsqr_pow2, <- Rsqr_abs; unfold Rsqr; fold z; lra|]. cbn [pow]. lra. }
  assert (T' : (Rabs (atanh S - S * peval (atl 14 1) z) <= 0.00000000000000001 * Rabs S)%R).
  { eapply Rle_trans; [exact T|]. replace (INR (Datatypes.S (2 * 14))) with 29%R by (cbn; lra). assert (/ (1 - 0.1716 * 0.1716) <= 2)%R by lra.
    set (k := (/ (1 - 0.1716 * 0.1716))%R) in *. assert (0 <= k)%R by (unfold k; left; apply Rinv_0_lt_compat; lra). set (p := ((Rabs S)^(Datatypes.S (2 * 14)))%R) in *.
    assert (0 <= p)%R by (apply pow_le; exact AS). nra. }
  replace (S * (1 + z * peval patanh z) - atanh S)%R with (S * (1 + z * peval patanh z - peval (atl 14 1) z) + - (atanh S - S * peval (atl 14 1) z))%R by ring.
  eapply Rle_trans; [apply Rabs_triang|]. rewrite Rabs_Ropp, Rabs_mult. nra.
Qed.
Lemma kernel_atanh d S : dbl d S -> (Rabs S <= 0.1716)%R -> nice (-200) S ->
  exists T, dbl (kernel_atanhf_ d) T /\ (Rabs (T - atanh S) <= 0.00000000000000089 * Rabs S)%R /\ nice (-202) T.
Proof.
  intros D B N. destruct (kernel_rel d S D B N) as (T & DT & ET & NT). exists T. split; [exact DT|]. split; [|exact NT]. pose proof (atanh_kernel S B) as A.
  set (k := (S * (1 + S * S * peval patanh (S * S)))%R) in *. replace (T - atanh S)%R with ((T - k) + (k - atanh S))%R by ring.
  eapply Rle_trans; [apply Rabs_triang|]. pose proof (Rabs_pos S). lra.
Qed.

(** ** atanh is close to the identity *)
Lemma atanh_near S : (Rabs S <= 0.172)%R -> (Rabs (atanh S - S) <= 0.011 * Rabs S)%R.
Proof.
  intros B. pose proof (atanh_taylor 1 S 0.172 B ltac:(lra)) as T. assert (AS := Rabs_pos S).
  replace (Tatanh 1 S) with S in T by (cbn; field). replace (Datatypes.S (2 * 1)) with 3%nat in T by reflexivity. replace (INR 3) with 3%R in T by (cbn; lra).
  eapply Rle_trans; [exact T|]. assert (/ (1 - 0.172 * 0.172) <= 1.031)%R by lra. set (k := (/ (1 - 0.172 * 0.172))%R) in *. assert (0 <= k)%R by (unfold k; left; apply Rinv_0_lt_compat; lra).
  replace (Rabs S ^ 3)%R with (Rabs S * (Rabs S * Rabs S))%R by ring. assert (0 <= Rabs S * Rabs S <= 0.0296)%R by (split; nra).
  assert (0 <= Rabs S * (Rabs S * Rabs S) <= Rabs S * 0.0296)%R by (split; nra). nra.
Qed.
Lemma atanh_lip a b : (Rabs a <= 0.172 -> Rabs b <= 0.172 -> Rabs (atanh a - atanh b) <= 1.04 * Rabs (a - b))%R.
Proof.
  intros A B. apply Rabs_le_inv in A. apply Rabs_le_inv in B.
  assert (G : forall x y, (-0.172 <= x)%R -> (y <= 0.172)%R -> (x < y)%R -> (0 <= atanh y - atanh x <= 1.04 * (y - x))%R).
  { intros x y X Y L. destruct (MVT_gen atanh x y (fun t => / (1 - t * t))%R) as (c & [C1 C2] & E).
    - intros t [T1 T2]. rewrite Rmin_left in T1 by lra. rewrite Rmax_right in T2 by lra. apply atanh_derive. lra.
    - intros t [T1 T2]. rewrite Rmin_left in T1 by lra. rewrite Rmax_right in T2 by lra. apply continuity_pt_filterlim. apply (ex_derive_continuous atanh). exists (/ (1 - t * t))%R. apply atanh_derive. lra.
    - rewrite Rmin_left in C1 by lra. rewrite Rmax_right in C2 by lra. rewrite E.
      assert (Q : (0 <= c * c <= 0.0296)%R) by (split; nra). assert (I : (/ (1 - c * c) <= / 0.9704)%R) by (apply Rinv_le_contravar; lra). assert (I0 : (0 < / (1 - c * c))%R) by (apply Rinv_0_lt_compat; lra).
      assert (/ 0.9704 <= 1.04)%R by lra. split; nra. }
  destruct (Rtotal_order a b) as [L|[->|L]].
  - specialize (G a b ltac:(lra) ltac:(lra) L). rewrite Rabs_minus_sym, Rabs_pos_eq by lra. rewrite Rabs_minus_sym, Rabs_pos_eq by lra. lra.
  - rewrite !Rminus_diag_eq, Rabs_R0 by reflexivity. lra.
  - specialize (G b a ltac:(lra) ltac:(lra) ltac:(lra)). rewrite !Rabs_pos_eq by lra. lra.
Qed.

(** ** the logarithm of the reduced argument *)
Lemma atanh_ln M : (0 < M)%R -> atanh ((M - 1) / (M + 1)) = (ln M / 2)%R.
Proof.
  intros H. unfold atanh. replace (1 + (M - 1) / (M + 1))%R with (M * (2 / (M + 1)))%R by (field; lra). replace (1 - (M - 1) / (M + 1))%R with (2 / (M + 1))%R by (field; lra).
  assert (0 < 2 / (M + 1))%R by (apply Rdiv_lt_0_compat; lra). rewrite ln_mult by assumption. field.
Qed.
Lemma ratio_small M : (0.7071 <= M <= 1.41422)%R -> (Rabs ((M - 1) / (M + 1)) <= 0.17158)%R.
Proof.
  intros H. apply Rabs_le. assert (P : (0 < M + 1)%R) by lra. split; apply (Rmult_le_reg_r (M + 1)); try exact P; unfold Rdiv; rewrite Rmult_assoc, Rinv_l, Rmult_1_r by lra; nra.
Qed.
Lemma ratio_ok m M : dbl m M -> (0.7071 <= M <= 1.41422)%R ->
  exists S, dbl (ratio1 m) S /\ (Rabs (S - (M - 1) / (M + 1)) <= 2.01 * u53 * Rabs ((M - 1) / (M + 1)))%R /\ (Rabs S <= 0.1716)%R /\ nice (-200) S.
Proof.
  intros D H. destruct u53_dec as [U0 U1]. unfold ratio1. assert (D1 : dbl c_1 1).
  { replace 1%R with (Q2R 1) by apply Q2R_1. apply dbl_c; reflexivity. }
  pose proof (dbl_fin _ _ D) as FM.
  assert (FS : F53 (M - 1)). { apply (sterbenz radix2 (FLT_exp (-1074) 53)); [exact FM|apply (dbl_fin _ _ D1)|lra]. }
  assert (DS : dbl (sub64 m c_1) (M - 1)). { pose proof (dbl_sub m c_1 M 1 0 D D1) as X. rewrite RN53_id in X by exact FS. apply X; [apply Rabs_le; change (bpow radix2 0) with 1%R; lra|lia]. }
  assert (DA : dbl (add64 m c_1) (RN53 (M + 1))). { apply (dbl_add m c_1 M 1 2 D D1); [apply Rabs_le; change (bpow radix2 2) with 4%R; lra|lia]. }
  destruct (R53_ex (M + 1)) as (a & Ha & EA). { right. rewrite Rabs_pos_eq by lra. apply Rle_trans with 1%R; [change 1%R with (bpow radix2 0); apply bpow_le; lia|lra]. }
  rewrite EA in DA. assert (Ha' := Rabs_le_inv _ _ Ha).
  set (s := sub64 m c_1) in *. clearbody s. set (t := add64 m c_1) in *. clearbody t.
  (* M - 1 is zero or at least 2^-54 *)
  assert (NM : nice (-60) (M - 1)).
  { destruct (Req_dec (M - 1) 0) as [Z|Z]; [left; exact Z|right]. apply Rnot_lt_le. intros L.
    assert (LM : (bpow radix2 (-1) <= M)%R) by (change (bpow radix2 (-1)) with (/ 2)%R; lra).
    destruct (Rtotal_order M 1) as [K|[K|K]]; [|lra|].
    - assert (X : (M <= pred radix2 (FLT_exp (-1074) 53) 1)%R) by (apply pred_ge_gt; [typeclasses eauto|exact FM|apply (dbl_fin _ _ D1)|exact K]).
      replace 1%R with (bpow radix2 0) in X by reflexivity. rewrite pred_bpow in X. cbn [FLT_exp Z.max] in X. change (FLT_exp (-1074) 53 0) with (-53) in X.
      rewrite Rabs_left1 in L by lra. assert (bpow radix2 (-60) < bpow radix2 (-53))%R by (apply bpow_lt; lia). change (bpow radix2 0) with 1%R in X. lra.
    - assert (X : (succ radix2 (FLT_exp (-1074) 53) 1 <= M)%R) by (apply succ_le_lt; [typeclasses eauto|apply (dbl_fin _ _ D1)|exact FM|exact K]).
      rewrite succ_eq_pos in X by lra. replace (ulp radix2 (FLT_exp (-1074) 53) 1) with (bpow radix2 (-52)) in X by (symmetry; change 1%R with (bpow radix2 0); rewrite ulp_bpow; reflexivity).
      rewrite Rabs_pos_eq in L by lra. assert (bpow radix2 (-60) < bpow radix2 (-52))%R by (apply bpow_lt; lia). lra. }
  set (S0 := ((M - 1) / (M + 1))%R). pose proof (ratio_small M H) as R0. fold S0 in R0.
  assert (PA : (0 < 1 + a)%R) by lra.
  assert (EQ : ((M - 1) / ((M + 1) * (1 + a)) = S0 * (1 + (/ (1 + a) - 1)))%R) by (unfold S0; field; lra).
  assert (IA : (Rabs (/ (1 + a) - 1) <= 1.001 * u53)%R).
  { replace (/ (1 + a) - 1)%R with (- a * / (1 + a))%R by (field; lra). rewrite Rabs_mult, Rabs_Ropp, (Rabs_pos_eq (/ (1 + a))) by (left; apply Rinv_0_lt_compat; lra).
    assert (/ (1 + a) <= / 0.9999)%R by (apply Rinv_le_contravar; lra). assert (/ 0.9999 <= 1.001)%R by lra. assert (0 < / (1 + a))%R by (apply Rinv_0_lt_compat; lra). pose proof (Rabs_pos a). nra. }
  set (h := (/ (1 + a) - 1)%R) in *. assert (IA' := Rabs_le_inv _ _ IA).
  assert (NS0 : nice (-62) S0).
  { unfold S0, Rdiv. change (-62) with (-60 + -2). apply nice_mul; [exact NM|]. right. change (bpow radix2 (-2)) with (/ 4)%R. rewrite Rabs_pos_eq by (left; apply Rinv_0_lt_compat; lra). apply Rinv_le_contravar; lra. }
  assert (NQ : nice (-63) (S0 * (1 + h))) by (apply (nice_near (-62)); [exact NS0|lra]).
  assert (AS0 := Rabs_pos S0).
  assert (DQ : dbl (div64 s t) (RN53 (S0 * (1 + h)))).
  { rewrite <- EQ. apply (dbl_div _ _ _ _ 0 DS DA); [nra| |lia]. rewrite EQ, Rabs_mult, (Rabs_pos_eq (1 + h)) by lra. change (bpow radix2 0) with 1%R. nra. }
  destruct (R53_ex _ (nice_weak (-63) (-1022) _ ltac:(lia) NQ)) as (b & Hb & EB). rewrite EB in DQ. assert (Hb' := Rabs_le_inv _ _ Hb).
  assert (KQ : (Rabs ((1 + h) * (1 + b) - 1) <= 2.01 * u53)%R) by (apply Rabs_le; split; nra).
  eexists. split; [exact DQ|]. split; [|split].
  - replace (S0 * (1 + h) * (1 + b) - S0)%R with (((1 + h) * (1 + b) - 1) * S0)%R by ring. rewrite Rabs_mult. apply Rmult_le_compat_r; assumption.
  - rewrite !Rabs_mult, (Rabs_pos_eq (1 + h)), (Rabs_pos_eq (1 + b)) by lra. rewrite Rmult_assoc. assert ((1 + h) * (1 + b) <= 1.0001)%R by nra. nra.
  - apply (nice_weak (-64)); [lia|]. apply (nice_near (-63)); [exact NQ|lra].
Qed.
Lemma log_core m M : dbl m M -> (0.7071 <= M <= 1.41422)%R ->
  exists T, dbl (kernel_atanhf_ (ratio1 m)) T /\ (Rabs (T - ln M / 2) <= 0.00000000000000115 * Rabs (ln M / 2))%R /\ (Rabs (ln M / 2) <= 0.1735)%R /\ nice (-202) T.
Proof.
  intros D H. destruct u53_dec as [U0 U1]. destruct (ratio_ok m M D H) as (S & DS & ES & BS & NS). destruct (kernel_atanh _ S DS BS NS) as (T & DT & ET & NT).
  exists T. split; [exact DT|]. rewrite <- (atanh_ln M) by lra. pose proof (ratio_small M H) as R0. set (S0 := ((M - 1) / (M + 1))%R) in *.
  pose proof (atanh_near S0 ltac:(lra)) as AN. pose proof (atanh_lip S S0 ltac:(lra) ltac:(lra)) as AL. assert (A0 := Rabs_pos S0).
  assert (LB : (0.989 * Rabs S0 <= Rabs (atanh S0))%R). { pose proof (Rabs_triang_inv S0 (S0 - atanh S0)) as X. replace (S0 - (S0 - atanh S0))%R with (atanh S0) in X by ring. rewrite (Rabs_minus_sym S0 (atanh S0)) in X. lra. }
  assert (UB : (Rabs (atanh S0) <= 1.011 * Rabs S0)%R). { replace (atanh S0) with ((atanh S0 - S0) + S0)%R by ring. eapply Rle_trans; [apply Rabs_triang|]. lra. }
  assert (SS : (Rabs S <= 1.0001 * Rabs S0)%R). { replace S with ((S - S0) + S0)%R by ring. eapply Rle_trans; [apply Rabs_triang|]. nra. }
  split; [|split; [lra|exact NT]].
  replace (T - atanh S0)%R with ((T - atanh S) + (atanh S - atanh S0))%R by ring. eapply Rle_trans; [apply Rabs_triang|].
  assert (Rabs (S - S0) <= 2.01 * 0.0000000000000001111 * Rabs S0)%R by (eapply Rle_trans; [exact ES|]; apply Rmult_le_compat_r; [exact A0|lra]). lra.
Qed.
