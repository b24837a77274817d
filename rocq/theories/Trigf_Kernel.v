(** The kernels of sinf, cosf and tanf on [-pi/4, pi/4]. *)
From Coq Require Import Reals Lra Lia Psatz QArith Qreals Qabs List.
From Flocq Require Import Core BinarySingleNaN Relative Sterbenz.
From Coquelicot Require Import Coquelicot.
From Verif Require Import Base FP FP_Proof HW HW_Proof Tf_Narrow_Proof Midpoint Fmaf_Proof Math_Model Math_Basic_Proof Math_Int_Proof Math_Lconv_Proof Hypotf_Model Hypotf_Real Hypotf_Proof Approx Subdiv Ferr Elem_Spec Elem_Proof Elem_Num Expf_Model Expf_Proof Logf_Model Logf_Kernel Logf_Proof Loginv_Proof Loginv3_Proof Hyperf_Model Hyperf_Proof Hyperf2_Proof Hyperf3_Proof Atan_Num Atanf_Model Atanf_Proof Asinf_Model Pi_Num Trig_Num Trigf_Model.
Import ListNotations.
Open Scope Z_scope.
Local Ltac Zify.zify_post_hook ::= idtac.

Definition fsin : fe := hornr [0x3DE5D8E365902310; 0xBE5AE5E546D6A6EB; 0x3EC71DE355EF443E; 0xBF2A01A019BF2048; 0x3F8111111110F75C; 0xBFC5555555555548].
Definition fcos : fe := hornr [0x3E21B951C4AA36EC; 0xBE927DF6880F96CC; 0x3EFA019F879581CA; 0xBF56C16C1647B026; 0x3FA555555554F800; 0xBFDFFFFFFFFFFFA0; 0x3FF0000000000000].
Definition ftn : fe := hornr [0xBEDF624090DAF722; 0x3F66FC2FECB35A93; 0xBFC06B8EC6FE0678; 0x3FF0000000000000].
Definition ftd : fe := hornr [0xBF2B51C81DF38E70; 0x3F97E796A424CDF8; 0xBFDD8B1CB8D4586E; 0x3FF0000000000000].
Lemma fsin_bits d : poly_sinf_ d = ebits (env1 d d) fsin.
Proof. unfold poly_sinf_, fsin, hstep. cbn [hornr fold_left hs ebits env1]. reflexivity. Qed.
Lemma fcos_bits d : kernel_cosf_ d = ebits (env1 (mul64 d d) (mul64 d d)) fcos.
Proof. unfold kernel_cosf_, fcos, hstep. cbv zeta. cbn [hornr fold_left hs ebits env1]. reflexivity. Qed.
Lemma ftn_bits d : num_tanf_ d = ebits (env1 d d) ftn.
Proof. unfold num_tanf_, ftn, hstep. cbn [hornr fold_left hs ebits env1]. reflexivity. Qed.
Lemma ftd_bits d : den_tanf_ d = ebits (env1 d d) ftd.
Proof. unfold den_tanf_, ftd, hstep. cbn [hornr fold_left hs ebits env1]. reflexivity. Qed.
Definition psin' : list Q := Eval vm_compute in poly_of fsin.
Definition pcos' : list Q := Eval vm_compute in poly_of fcos.
Definition ptn' : list Q := Eval vm_compute in poly_of ftn.
Definition ptd' : list Q := Eval vm_compute in poly_of ftd.
Lemma fsin_poly : epoly fsin = Some psin'. Proof. vm_compute. reflexivity. Qed.
Lemma fcos_poly : epoly fcos = Some pcos'. Proof. vm_compute. reflexivity. Qed.
Lemma ftn_poly : epoly ftn = Some ptn'. Proof. vm_compute. reflexivity. Qed.
Lemma ftd_poly : epoly ftd = Some ptd'. Proof. vm_compute. reflexivity. Qed.
Lemma psin_eq u : peval psin' u = peval psin u. Proof. apply qeqs_ok. vm_compute. reflexivity. Qed.
Lemma pcos_eq u : peval pcos' u = peval pcos u. Proof. apply qeqs_ok. vm_compute. reflexivity. Qed.
Lemma ptn_eq u : peval ptn' u = peval ptn u. Proof. apply qeqs_ok. vm_compute. reflexivity. Qed.
Lemma ptd_eq u : peval ptd' u = peval ptd u. Proof. apply qeqs_ok. vm_compute. reflexivity. Qed.

(** the square *)
Lemma square d S : dbl d S -> (Rabs S <= 0.7856)%R -> nice (-200) S ->
  (0 <= S * S <= 0.61718)%R /\ exists a, (Rabs a <= u53)%R /\ dbl (mul64 d d) (S * S * (1 + a)) /\ nice (-400) (S * S) /\ nearq (mul64 d d) (S * S) (61718 # 100000) (7 # 10^17).
Proof.
  intros D B N. destruct u53_dec as [U0 U1]. assert (Z : (0 <= S * S <= 0.61718)%R) by (apply Rabs_le_inv in B; split; nra). split; [exact Z|]. set (z := (S * S)%R) in *.
  assert (DA : dbl (mul64 d d) (RN53 z)) by (apply (dbl_mul _ _ _ _ 1 D D); [fold z; change (bpow radix2 1) with 2%R; rewrite Rabs_pos_eq by lra; lra|lia]).
  assert (NZ : nice (-400) z) by exact (nice_mul (-200) (-200) S S N N). clearbody z.
  destruct (R53_ex z (nice_weak (-400) (-1022) _ ltac:(lia) NZ)) as (a & Ha & EA). rewrite EA in DA. exists a. split; [exact Ha|]. split; [exact DA|]. split; [exact NZ|].
  exists (z * (1 + a))%R. split; [exact DA|]. split.
  - replace (z * (1 + a) - z)%R with (z * a)%R by ring. rewrite Rabs_mult, (Rabs_pos_eq z) by lra. pose proof (Rabs_pos a).
    replace (Q2R (7 # 10^17)) with (7 / 100000000000000000)%R by (unfold Q2R; cbn [Qnum Qden]; change (Zpos (10^17)) with 100000000000000000; lra). nra.
  - rewrite Rabs_pos_eq by lra. unfold Q2R. cbn [Qnum Qden]. lra.
Qed.
Lemma psin_range z : (0 <= z <= 0.61718)%R -> (-0.17 <= peval psin z <= -0.15)%R.
Proof.
  intros H. assert (B : (Rabs (peval psin z - peval [(-16) # 100] z) <= Q2R (9 # 1000))%R) by (apply (subdiv_ok _ _ 100 8 0 78); [vm_compute; reflexivity|apply bound62; lra|apply rng62; lra]).
  cbn [peval] in B. replace (Q2R (-16 # 100)) with (-0.16)%R in B by (unfold Q2R; cbn [Qnum Qden]; lra). replace (Q2R (9 # 1000)) with (0.009)%R in B by (unfold Q2R; cbn [Qnum Qden]; lra). apply Rabs_le_inv in B. lra.
Qed.

Lemma kernel_sin d S : dbl d S -> (Rabs S <= 0.7856)%R -> nice (-200) S ->
  exists T, dbl (kernel_sinf_ d) T /\ (Rabs (T - sin S) <= 0.00000000000000023 * Rabs S)%R.
Proof.
  intros D B N. unfold kernel_sinf_. cbv zeta. destruct u53_dec as [U0 U1].
  destruct (square d S D B N) as (Z & a & Ha & DA & NZ & NX). assert (KS := psin_near _ Z). pose proof (sin_taylor S B) as KT. set (z := (S * S)%R) in *.
  pose proof (psin_range z Z) as PR. cbn [peval] in KS. rewrite Approx.Q2R_1 in KS. set (P := peval psin z) in *.
  replace (Q2R (5 # 10^18)) with (5 / 1000000000000000000)%R in KS by (unfold Q2R; cbn [Qnum Qden]; change (Zpos (10^18)) with 1000000000000000000; lra). set (S9 := peval sin9 z) in *. clearbody S9.
  assert (B1 : (1 <= bpow radix2 1)%R) by (change (bpow radix2 1) with 2%R; lra).
  assert (C : chk2 (61718 # 100000) (7 # 10^17) (61718 # 100000) (7 # 10^17) fsin 1 (3 # 10^17) = true) by (vm_compute; reflexivity).
  pose proof (chk1_ok _ _ _ _ _ _ _ _ C fsin_poly NX) as NP. rewrite <- fsin_bits, psin_eq in NP. fold P in NP. destruct NP as (y & DP & EP & _). clearbody z.
  set (xx := mul64 d d) in *. clearbody xx. assert (Ha' := Rabs_le_inv _ _ Ha).
  set (pp := poly_sinf_ xx) in *. clearbody pp.
  replace (Q2R (3 # 10^17)) with (3 / 100000000000000000)%R in EP by (unfold Q2R; cbn [Qnum Qden]; change (Zpos (10^17)) with 100000000000000000; lra).
  assert (EP' := Rabs_le_inv _ _ EP).
  assert (NB : nice (-601) (S * (z * (1 + a)))) by exact (nice_mul (-200) (-401) _ _ N (nice_u (-400) _ _ NZ Ha)).
  assert (AS := Rabs_pos S).
  clearbody P. assert (ZA : (0 <= z * (1 + a) <= 0.61719)%R) by (split; nra).
  assert (BB : (Rabs (S * (z * (1 + a))) <= 0.61719 * Rabs S)%R) by (rewrite Rabs_mult, (Rabs_pos_eq (z * (1 + a))) by lra; nra).
  assert (DB : dbl (mul64 d xx) (RN53 (S * (z * (1 + a))))) by (apply (dbl_mul _ _ _ _ 1 D DA); [lra|lia]).
  destruct (R53_ex _ (nice_weak (-601) (-1022) _ ltac:(lia) NB)) as (b & Hb & EB). rewrite EB in DB. assert (Hb' := Rabs_le_inv _ _ Hb).
  set (w := mul64 d xx) in *. clearbody w. set (t := (S * (z * (1 + a)) * (1 + b))%R) in *.
  assert (NT : nice (-602) t) by exact (nice_u (-601) _ _ NB Hb).
  assert (BT : (Rabs t <= 0.6172 * Rabs S)%R).
  { unfold t. rewrite Rabs_mult, (Rabs_pos_eq (1 + b)) by lra. nra. }
  assert (NY : nice (-3) y). { right. change (bpow radix2 (-3)) with (/ 8)%R. rewrite Rabs_left by lra. lra. }
  assert (NC : nice (-605) (t * y)) by exact (nice_mul (-602) (-3) _ _ NT NY).
  assert (AT := Rabs_pos t).
  assert (BC : (Rabs (t * y) <= 0.12 * Rabs S)%R) by (rewrite Rabs_mult, (Rabs_left y) by lra; nra).
  assert (DC : dbl (mul64 w pp) (RN53 (t * y))) by (apply (dbl_mul _ _ _ _ 1 DB DP); [lra|lia]).
  destruct (R53_ex _ (nice_weak (-605) (-1022) _ ltac:(lia) NC)) as (c & Hc & EC). rewrite EC in DC. assert (Hc' := Rabs_le_inv _ _ Hc).
  set (q := mul64 w pp) in *. clearbody q.
  set (F := ((1 + a) * (1 + b) * (1 + c))%R). pose proof (three_factors a b c Ha Hb Hc) as HF. fold F in HF. assert (HF' := Rabs_le_inv _ _ HF).
  assert (ES : (S + t * y * (1 + c) = S * (1 + z * (F * y)))%R) by (unfold t, F; ring).
  assert (HG : (-0.12 <= z * (F * y) <= 0)%R). { assert (-0.18 <= F * y <= 0)%R by (split; nra). split; nra. }
  assert (NS : nice (-201) (S * (1 + z * (F * y)))) by (apply (nice_near (-200)); [exact N|apply Rabs_le; lra]).
  assert (DD : dbl (add64 d q) (RN53 (S + t * y * (1 + c)))).
  { apply (dbl_add _ _ _ _ 1 D DC); [|lia]. rewrite ES, Rabs_mult, (Rabs_pos_eq (1 + z * (F * y))) by lra. nra. }
  rewrite ES in DD. destruct (R53_ex _ (nice_weak (-201) (-1022) _ ltac:(lia) NS)) as (e & He & EE). rewrite EE in DD. assert (He' := Rabs_le_inv _ _ He).
  eexists. split; [exact DD|].
  assert (K : (Rabs (S * (1 + z * (F * y)) * (1 + e) - S * S9) <= 0.000000000000000225 * Rabs S)%R).
  { replace (S * (1 + z * (F * y)) * (1 + e) - S * S9)%R with (S * (z * (F * y - P) + e * (1 + z * (F * y)) + (1 + z * P - S9)))%R by ring.
    rewrite Rabs_mult, Rmult_comm. apply Rmult_le_compat_r; [exact AS|].
    assert (HQ : (Rabs (F * y - P) <= 0.0000000000000001)%R).
    { replace (F * y - P)%R with ((F - 1) * y + (y - P))%R by ring. apply Rabs_le. split; nra. }
    assert (HQ' := Rabs_le_inv _ _ HQ). apply Rabs_le_inv in KS.
    assert (H1 : (-0.0000000000000000618 <= z * (F * y - P) <= 0.0000000000000000618)%R) by (clear - HQ' Z; set (g := (F * y - P)%R) in *; clearbody g; split; nra).
    assert (H2 : (-0.0000000000000001112 <= e * (1 + z * (F * y)) <= 0.0000000000000001112)%R) by (clear - HG He' U1; set (g := (z * (F * y))%R) in *; clearbody g; split; nra).
    apply Rabs_le. lra. }
  replace (S * (1 + z * (F * y)) * (1 + e) - sin S)%R with ((S * (1 + z * (F * y)) * (1 + e) - S * S9) + - (sin S - S * S9))%R by ring.
  eapply Rle_trans; [apply Rabs_triang|]. rewrite (Rabs_Ropp (sin S - S * S9)). lra.
Qed.

Lemma kernel_cos d S : dbl d S -> (Rabs S <= 0.7856)%R -> nice (-200) S ->
  exists T, dbl (kernel_cosf_ d) T /\ (Rabs (T - cos S) <= 0.0000000000000005)%R.
Proof.
  intros D B N. destruct (square d S D B N) as (Z & a & Ha & DA & NZ & NX). assert (KS := pcos_near _ Z). pose proof (cos_taylor S B) as KT. set (z := (S * S)%R) in *. clearbody z.
  assert (C : chk2 (61718 # 100000) (7 # 10^17) (61718 # 100000) (7 # 10^17) fcos 2 (4 # 10^16) = true) by (vm_compute; reflexivity).
  pose proof (chk1_ok _ _ _ _ _ _ _ _ C fcos_poly NX) as NP. rewrite <- fcos_bits, pcos_eq in NP. destruct NP as (y & DP & EP & _). exists y. split; [exact DP|].
  replace (Q2R (4 # 10^16)) with (4 / 10000000000000000)%R in EP by (unfold Q2R; cbn [Qnum Qden]; change (Zpos (10^16)) with 10000000000000000; lra).
  replace (Q2R (6 # 10^17)) with (6 / 100000000000000000)%R in KS by (unfold Q2R; cbn [Qnum Qden]; change (Zpos (10^17)) with 100000000000000000; lra).
  apply Rabs_le_inv in EP, KS, KT. apply Rabs_le. lra.
Qed.

Lemma cos_ge S : (Rabs S <= 0.7856)%R -> (0.7 <= cos S <= 1)%R.
Proof.
  intros B. pose proof (cos_taylor S B) as KT. assert (Z : (0 <= S * S <= 0.61718)%R) by (apply Rabs_le_inv in B; split; nra). set (z := (S * S)%R) in *. clearbody z.
  assert (K : (Rabs (peval cos9 z - peval [(851 # 1000)] z) <= Q2R (15 # 100))%R) by (apply (subdiv_ok _ _ 100 8 0 78); [vm_compute; reflexivity|apply bound62; lra|apply rng62; lra]).
  cbn [peval] in K. replace (Q2R (851 # 1000)) with (0.851)%R in K by (unfold Q2R; cbn [Qnum Qden]; lra). replace (Q2R (15 # 100)) with (0.15)%R in K by (unfold Q2R; cbn [Qnum Qden]; lra). apply Rabs_le_inv in KT, K. pose proof (COS_bound S). lra.
Qed.
(** |sin S| is between 0.89 |S| and |S|; more precisely above (1 - S^2/6) |S| *)
Lemma sin_ge S : (Rabs S <= 0.7856)%R -> ((1 - S * S / 5) * Rabs S <= Rabs (sin S) <= Rabs S)%R.
Proof.
  intros B. assert (G : forall b, (0 <= b <= 0.7856)%R -> ((1 - b * b / 5) * b <= sin b <= b)%R).
  { clear S B. intros b H. destruct (pre_sin_bound b 0 ltac:(lra) ltac:(lra)) as [L _]. change (2 * 0 + 1)%nat with 1%nat in L. rewrite sinl_ok in L. change (sinl 1) with [1; -1 # 6]%Q in L. cbn [peval] in L. rewrite Approx.Q2R_1 in L.
    replace (Q2R (-1 # 6)) with (- / 6)%R in L by (unfold Q2R; cbn [Qnum Qden]; lra). split; [nra|]. destruct (Req_dec b 0) as [->|E]; [rewrite sin_0; lra|]. left. apply sin_lt_x. lra. }
  destruct (Rle_or_lt 0 S) as [P|P].
  - rewrite (Rabs_pos_eq S) in B |- * by lra. specialize (G S ltac:(lra)). assert (0 <= (1 - S * S / 5) * S)%R by (apply Rmult_le_pos; nra). rewrite Rabs_pos_eq by lra. exact G.
  - rewrite (Rabs_left S) in B |- * by lra. specialize (G (- S)%R ltac:(lra)). rewrite sin_neg in G. replace (- S * - S)%R with (S * S)%R in G by ring. assert (0 <= (1 - S * S / 5) * - S)%R by (apply Rmult_le_pos; nra). rewrite Rabs_left1 by lra. exact G.
Qed.
Lemma sin_ge9 S : (Rabs S <= 0.7856)%R -> (0.87 * Rabs S <= Rabs (sin S))%R.
Proof. intros B. destruct (sin_ge S B) as [H _]. eapply Rle_trans; [|exact H]. apply Rmult_le_compat_r; [apply Rabs_pos|]. apply Rabs_le_inv in B. nra. Qed.

(** ** the rational function of tanf *)
Lemma tn_range z : (0 <= z <= 0.61718)%R -> (0.92 <= peval ptn z <= 1.01)%R.
Proof.
  intros H. assert (B : (Rabs (peval ptn z - peval [(961 # 1000)] z) <= Q2R (4 # 100))%R) by (apply (subdiv_ok _ _ 100 8 0 78); [vm_compute; reflexivity|apply bound62; lra|apply rng62; lra]).
  cbn [peval] in B. replace (Q2R (961 # 1000)) with (0.961)%R in B by (unfold Q2R; cbn [Qnum Qden]; lra). replace (Q2R (4 # 100)) with (0.04)%R in B by (unfold Q2R; cbn [Qnum Qden]; lra). apply Rabs_le_inv in B. lra.
Qed.
Lemma td_range z : (0 <= z <= 0.61718)%R -> (0.72 <= peval ptd z <= 1.01)%R.
Proof.
  intros H. assert (B : (Rabs (peval ptd z - peval [(862 # 1000)] z) <= Q2R (14 # 100))%R) by (apply (subdiv_ok _ _ 100 8 0 78); [vm_compute; reflexivity|apply bound62; lra|apply rng62; lra]).
  cbn [peval] in B. replace (Q2R (862 # 1000)) with (0.862)%R in B by (unfold Q2R; cbn [Qnum Qden]; lra). replace (Q2R (14 # 100)) with (0.14)%R in B by (unfold Q2R; cbn [Qnum Qden]; lra). apply Rabs_le_inv in B. lra.
Qed.
Lemma tan_rat S : (Rabs S <= 0.7856)%R -> (Rabs (S * peval ptn (S * S) * cos S - peval ptd (S * S) * sin S) <= 0.00000000000000004 * Rabs S)%R.
Proof.
  intros B. pose proof (cos_taylor S B) as C. pose proof (sin_taylor S B) as T. assert (Z : (0 <= S * S <= 0.61718)%R) by (apply Rabs_le_inv in B; split; nra).
  pose proof (ptan_near _ Z) as K. rewrite !pmul_ok in K. replace (Q2R (3 # 10^17)) with (3 / 100000000000000000)%R in K by (unfold Q2R; cbn [Qnum Qden]; change (Zpos (10^17)) with 100000000000000000; lra).
  pose proof (tn_range _ Z) as N. pose proof (td_range _ Z) as D. set (n := peval ptn (S * S)) in *. set (d := peval ptd (S * S)) in *. set (c9 := peval cos9 (S * S)) in *. set (s9 := peval sin9 (S * S)) in *. clearbody n d c9 s9.
  replace (S * n * cos S - d * sin S)%R with (S * (n * (cos S - c9) + (n * c9 - d * s9)) + - (d * (sin S - S * s9)))%R by ring.
  assert (AS := Rabs_pos S). eapply Rle_trans; [apply Rabs_triang|]. rewrite Rabs_Ropp, !Rabs_mult, (Rabs_pos_eq d) by lra.
  assert (K2 : (Rabs (n * (cos S - c9) + (n * c9 - d * s9)) <= 3.2 / 100000000000000000)%R) by (apply Rabs_le_inv in C, K; apply Rabs_le; split; nra).
  pose proof (Rabs_pos (sin S - S * s9)). nra.
Qed.
Lemma tan_parts d S : dbl d S -> (Rabs S <= 0.7856)%R -> nice (-200) S ->
  exists P D, dbl (num_tanf_ (mul64 d d)) P /\ dbl (den_tanf_ (mul64 d d)) D /\ relr 0.0000000000000003 P (peval ptn (S * S)) /\ relr 0.0000000000000005 D (peval ptd (S * S)).
Proof.
  intros DS B N. destruct (square d S DS B N) as (Z & a & Ha & DA & NZ & NX). pose proof (tn_range _ Z) as RN. pose proof (td_range _ Z) as RD. set (z := (S * S)%R) in *. clearbody z.
  assert (C : chk2 (61718 # 100000) (7 # 10^17) (61718 # 100000) (7 # 10^17) ftn 2 (25 # 10^17) = true) by (vm_compute; reflexivity).
  assert (C2 : chk2 (61718 # 100000) (7 # 10^17) (61718 # 100000) (7 # 10^17) ftd 2 (35 # 10^17) = true) by (vm_compute; reflexivity).
  pose proof (chk1_ok _ _ _ _ _ _ _ _ C ftn_poly NX) as NP. rewrite <- ftn_bits, ptn_eq in NP. destruct NP as (y & DP & EP & _).
  pose proof (chk1_ok _ _ _ _ _ _ _ _ C2 ftd_poly NX) as NP. rewrite <- ftd_bits, ptd_eq in NP. destruct NP as (y2 & DP2 & EP2 & _).
  exists y, y2. split; [exact DP|]. split; [exact DP2|]. unfold relr. rewrite (Rabs_pos_eq (peval ptn z)), (Rabs_pos_eq (peval ptd z)) by lra.
  replace (Q2R (25 # 10^17)) with (25 / 100000000000000000)%R in EP by (unfold Q2R; cbn [Qnum Qden]; change (Zpos (10^17)) with 100000000000000000; lra).
  replace (Q2R (35 # 10^17)) with (35 / 100000000000000000)%R in EP2 by (unfold Q2R; cbn [Qnum Qden]; change (Zpos (10^17)) with 100000000000000000; lra). split; lra.
Qed.
