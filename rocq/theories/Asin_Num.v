(** The polynomial of the arcsine kernel against the arcsine: the derivative is
    compared with 1/sqrt(1 - t^2) on five intervals. *)
From Coq Require Import Reals Lra Lia Psatz QArith Qreals Qabs List.
From Flocq Require Import Core BinarySingleNaN Relative Sterbenz.
From Coquelicot Require Import Coquelicot.
From Verif Require Import Base FP FP_Proof HW HW_Proof Tf_Narrow_Proof Midpoint Fmaf_Proof Math_Model Math_Basic_Proof Math_Int_Proof Math_Lconv_Proof Hypotf_Real Hypotf_Proof Approx Subdiv Ferr Elem_Spec Elem_Proof Elem_Num Expf_Model Expf_Proof Logf_Model Logf_Kernel Logf_Proof Loginv_Proof Loginv3_Proof Hyperf_Model Hyperf_Proof Hyperf2_Proof Hyperf3_Proof Atan_Num Atanf_Model Atanf_Proof Asinf_Model.
Import ListNotations.
Open Scope Z_scope.
Local Ltac Zify.zify_post_hook ::= idtac.

Definition kasin : fe :=
  let u := EV 0 in let u2 := EMul u u in let u4 := EMul u2 u2 in let u8 := EMul u4 u4 in
  let p01 := EAdd (EC 0x3FC55555555555C2) (EMul u (EC 0x3FB33333333004C3)) in
  let p23 := EAdd (EC 0x3FA6DB6DBAC8181C) (EMul u (EC 0x3F9F1C6FE544A91A)) in
  let p45 := EAdd (EC 0x3F96E8F53473F0A8) (EMul u (EC 0x3F91C0BA7D4115EE)) in
  let p67 := EAdd (EC 0x3F8CF7FC18E38CA0) (EMul u (EC 0x3F8507172F1B62BE)) in
  let p89 := EAdd (EC 0x3F8FC979DA826000) (EMul u (EC 0xBF7C87CDF2909242)) in
  let p03 := EAdd p01 (EMul u2 p23) in
  let p47 := EAdd p45 (EMul u2 p67) in
  let p8a := EAdd p89 (EMul u2 (EC 0x3F9CA87A18BC0B31)) in
  EAdd (EAdd p03 (EMul u4 p47)) (EMul u8 p8a).
Definition pasin : list Q := Eval vm_compute in poly_of kasin.
Lemma kasin_bits d : poly_asin_ d = ebits (env1 d d) kasin.
Proof. unfold poly_asin_, kasin. cbn [ebits env1]. reflexivity. Qed.
Lemma kasin_poly : epoly kasin = Some pasin.
Proof. vm_compute. reflexivity. Qed.

(** derivative of t + t^3 P(t^2) as a polynomial in s = t^2 *)
Definition pas' : list Q := Eval vm_compute in map Qred (padd [1] (padd (pmul [0; 3] pasin) (pmul [0; 0; 2] (pder pasin))))%Q.
Lemma pas'_ok s : peval pas' s = (1 + 3 * s * peval pasin s + 2 * s * s * peval (pder pasin) s)%R.
Proof.
  transitivity (peval (map Qred (padd [1] (padd (pmul [0; 3] pasin) (pmul [0; 0; 2] (pder pasin))))%Q) s); [f_equal; vm_compute; reflexivity|].
  rewrite peval_red, !padd_ok, !pmul_ok. cbn [peval]. rewrite Q2R_0, Q2R_1. replace (Q2R 2) with 2%R by (unfold Q2R; cbn [Qnum Qden]; lra). replace (Q2R 3) with 3%R by (unfold Q2R; cbn [Qnum Qden]; lra). ring.
Qed.
Definition pw : list Q := Eval vm_compute in map Qred (psub (pmul [1; -1] (pmul pas' pas')) [1])%Q.
Lemma pw_ok s : peval pw s = ((1 - s) * (peval pas' s * peval pas' s) - 1)%R.
Proof.
  transitivity (peval (map Qred (psub (pmul [1; -1] (pmul pas' pas')) [1])%Q) s); [f_equal; vm_compute; reflexivity|].
  rewrite peval_red, psub_ok, !pmul_ok. cbn [peval]. rewrite Q2R_1. replace (Q2R (-1)) with (-1)%R by (unfold Q2R; cbn [Qnum Qden]; lra). ring.
Qed.
Lemma pasin_range s : (0 <= s <= / 4)%R -> (0.16 <= peval pasin s <= 0.2)%R.
Proof.
  intros H. assert (B : (Rabs (peval pasin s - peval [18 # 100] s) <= Q2R (2 # 100))%R).
  { apply (subdiv_ok _ _ 60 4 0 1); [vm_compute; reflexivity|rewrite Rabs_pos_eq by lra; lra|]. cbn. lra. }
  cbn [peval] in B. rewrite Rmult_0_r, Rplus_0_r in B. apply Rabs_le_inv in B. unfold Q2R in B. cbn [Qnum Qden] in B. lra.
Qed.
Lemma pas'_ge s : (0 <= s <= / 4)%R -> (1 <= peval pas' s)%R.
Proof.
  intros H. pose proof (pasin_range s H) as P. rewrite pas'_ok.
  assert (B : (Rabs (peval (pder pasin) s - peval [10 # 100] s) <= Q2R (7 # 100))%R).
  { apply (subdiv_ok _ _ 60 4 0 1); [vm_compute; reflexivity|rewrite Rabs_pos_eq by lra; lra|]. cbn. lra. }
  cbn [peval] in B. rewrite Rmult_0_r, Rplus_0_r in B. apply Rabs_le_inv in B. unfold Q2R in B. cbn [Qnum Qden] in B.
  assert (0 <= s * peval pasin s)%R by (apply Rmult_le_pos; lra). assert (0 <= s * s * peval (pder pasin) s)%R by (apply Rmult_le_pos; [apply Rmult_le_pos; lra|lra]). lra.
Qed.
Definition fas (t : R) : R := (t + t * (t * t) * peval pasin (t * t))%R.
Lemma fas_derive (t : R) : is_derive fas t (peval pas' (t * t)).
Proof.
  rewrite pas'_ok. unfold fas.
  assert (E : (1 + 3 * (t * t) * peval pasin (t * t) + 2 * (t * t) * (t * t) * peval (pder pasin) (t * t))%R =
    (1 + ((3 * (t * t)) * peval pasin (t * t) + (t * (t * t)) * ((2 * t) * peval (pder pasin) (t * t))))%R) by ring. rewrite E.
  apply (is_derive_plus (fun t : R => t) (fun t => t * (t * t) * peval pasin (t * t))%R t 1%R); [apply (is_derive_id t)|].
  apply (is_derive_mult (fun t => t * (t * t))%R (fun t => peval pasin (t * t)) t (3 * (t * t))%R); [|apply pder_sq|intros; apply Rmult_comm].
  auto_derive; [exact I|ring].
Qed.
Lemma asin_derive t : (-1 < t < 1)%R -> is_derive asin t (/ sqrt (1 - t * t)).
Proof.
  intros H. apply is_derive_Reals. pose proof (derive_pt_asin t H) as E. apply derive_pt_eq_1 in E. replace (/ sqrt (1 - t * t))%R with (1 / sqrt (1 - t²))%R by (unfold Rsqr, Rdiv; ring). exact E.
Qed.
Definition has (t : R) : R := (fas t - asin t)%R.
Lemma has_derive (t : R) : (-1 < t < 1)%R -> is_derive has t (peval pas' (t * t) - / sqrt (1 - t * t))%R.
Proof. intros H. apply (is_derive_minus fas asin); [apply fas_derive|apply asin_derive; exact H]. Qed.
Lemma has'_bound t w : (0 <= t <= / 2)%R -> (Rabs (peval pw (t * t)) <= w)%R -> (Rabs (peval pas' (t * t) - / sqrt (1 - t * t)) <= w / 1.6)%R.
Proof.
  intros H W. assert (S : (0 <= t * t <= / 4)%R) by nra. set (s := (t * t)%R) in *. clearbody s. pose proof (pas'_ge s S) as R1. rewrite pw_ok in W.
  set (r := peval pas' s) in *. clearbody r. set (q := sqrt (1 - s)). assert (Q2 : (q * q = 1 - s)%R) by (apply sqrt_sqrt; lra).
  assert (Q0 : (0.86 <= q)%R). { unfold q. rewrite <- (sqrt_square 0.86) by lra. apply sqrt_le_1_alt. lra. }
  assert (DD : (1.6 <= q * (r * q + 1))%R) by nra. replace (r - / q)%R with (((1 - s) * (r * r) - 1) / (q * (r * q + 1)))%R by (rewrite <- Q2; field; split; nra).
  unfold Rdiv. rewrite Rabs_mult, (Rabs_pos_eq (/ _)) by (left; apply Rinv_0_lt_compat; lra). apply Rmult_le_compat; [apply Rabs_pos|left; apply Rinv_0_lt_compat; lra|exact W|apply Rinv_le_contravar; lra].
Qed.
(** the error grows at most linearly on each interval *)
Lemma has_step a b w : (0 <= a <= b)%R -> (b <= / 2)%R -> (forall t, (a <= t <= b)%R -> (Rabs (peval pw (t * t)) <= w)%R) -> (Rabs (has b) <= Rabs (has a) + w / 1.6 * (b - a))%R.
Proof.
  intros H HB W. assert (K : (Rabs ((fun u => has (a + u) - has a) (b - a)) <= w / 1.6 * (b - a)^1 / INR 1)%R).
  { apply (small_derivative (fun u => has (a + u) - has a)%R (fun u => peval pas' ((a + u) * (a + u)) - / sqrt (1 - (a + u) * (a + u)))%R (w / 1.6) 0); [lra|rewrite Rplus_0_r; ring| |].
    - intros t Ht. set (d := (peval pas' ((a + t) * (a + t)) - / sqrt (1 - (a + t) * (a + t)))%R). replace d with (minus (1 * d)%R 0%R) by (unfold minus, plus, opp; cbn; ring).
      apply (is_derive_minus (fun u => has (a + u)) (fun _ => has a)); [|apply (is_derive_const (has a) t)].
      apply (is_derive_comp has (fun u => a + u)%R t d 1%R); [apply has_derive; lra|]. replace 1%R with (0 + 1)%R by ring. apply (is_derive_plus (fun _ : R => a) (fun u => u) t 0%R 1%R); [apply (is_derive_const a t)|apply (is_derive_id t)].
    - intros t Ht. cbn [pow]. rewrite Rmult_1_r. apply has'_bound; [lra|apply W; lra]. }
  cbv beta in K. replace (a + (b - a))%R with b in K by ring. change (INR 1) with 1%R in K. pose proof (Rabs_triang (has b - has a) (has a)) as T. replace (has b - has a + has a)%R with (has b) in T by ring. lra.
Qed.
Lemma pw_piece j lo cnt eps a b t : subdiv pw [] 110 j lo cnt eps = true -> (0 <= a <= t)%R -> (t <= b <= / 2)%R -> (IZR lo * bpow radix2 (- j) <= a * a)%R -> (b * b <= IZR (lo + 2 * Z.of_nat (S cnt)) * bpow radix2 (- j))%R ->
  (Rabs (peval pw (t * t)) <= Q2R eps)%R.
Proof.
  intros C H1 H2 L U. assert (a * a <= t * t <= b * b)%R by nra. pose proof (subdiv_ok _ _ _ _ _ _ _ (t * t) C ltac:(rewrite Rabs_pos_eq; nra) ltac:(lra)) as B. cbn [peval] in B. rewrite Rminus_0_r in B. exact B.
Qed.
Lemma has_0 : has 0 = 0%R.
Proof. unfold has, fas. rewrite asin_0. ring. Qed.
Lemma has_bound t : (0 <= t <= / 2)%R -> (Rabs (has t) <= 0.0000000000000113 /\ Rabs (has t) <= 0.000000000000025 * t)%R.
Proof.
  intros H.
  assert (H1 : forall b, (0 <= b <= 11 / 32)%R -> (Rabs (has b) <= Rabs (has 0) + 0.000000000000013 / 1.6 * (b - 0))%R).
  { intros b Hb. apply has_step; [lra|lra|]. intros u Hu. replace 0.000000000000013%R with (Q2R (13 # 10^15)) by (unfold Q2R; cbn [Qnum Qden]; change (Zpos (10^15)) with 1000000000000000; lra). apply (pw_piece 10 0 60 _ 0 (11 / 32)); [vm_compute; reflexivity|lra|lra| |]; cbn; lra. }
  assert (H2 : forall b, (11 / 32 <= b <= 7 / 16)%R -> (Rabs (has b) <= Rabs (has (11 / 32)) + 0.000000000000048 / 1.6 * (b - 11 / 32))%R).
  { intros b Hb. apply has_step; [lra|lra|]. intros u Hu. replace 0.000000000000048%R with (Q2R (48 # 10^15)) by (unfold Q2R; cbn [Qnum Qden]; change (Zpos (10^15)) with 1000000000000000; lra). apply (pw_piece 10 121 37 _ (11 / 32) (7 / 16)); [vm_compute; reflexivity|lra|lra| |]; cbn; lra. }
  assert (H3 : forall b, (7 / 16 <= b <= 31 / 64)%R -> (Rabs (has b) <= Rabs (has (7 / 16)) + 0.000000000000083 / 1.6 * (b - 7 / 16))%R).
  { intros b Hb. apply has_step; [lra|lra|]. intros u Hu. replace 0.000000000000083%R with (Q2R (83 # 10^15)) by (unfold Q2R; cbn [Qnum Qden]; change (Zpos (10^15)) with 1000000000000000; lra). apply (pw_piece 12 784 88 _ (7 / 16) (31 / 64)); [vm_compute; reflexivity|lra|lra| |]; cbn; lra. }
  assert (H4 : forall b, (31 / 64 <= b <= 127 / 256)%R -> (Rabs (has b) <= Rabs (has (31 / 64)) + 0.000000000000155 / 1.6 * (b - 31 / 64))%R).
  { intros b Hb. apply has_step; [lra|lra|]. intros u Hu. replace 0.000000000000155%R with (Q2R (155 # 10^15)) by (unfold Q2R; cbn [Qnum Qden]; change (Zpos (10^15)) with 1000000000000000; lra). apply (pw_piece 12 961 23 _ (31 / 64) (127 / 256)); [vm_compute; reflexivity|lra|lra| |]; cbn; lra. }
  assert (H5 : forall b, (127 / 256 <= b <= / 2)%R -> (Rabs (has b) <= Rabs (has (127 / 256)) + 0.00000000000076 / 1.6 * (b - 127 / 256))%R).
  { intros b Hb. apply has_step; [lra|lra|]. intros u Hu. replace 0.00000000000076%R with (Q2R (76 # 10^14)) by (unfold Q2R; cbn [Qnum Qden]; change (Zpos (10^14)) with 100000000000000; lra). apply (pw_piece 12 1008 7 _ (127 / 256) (/ 2)); [vm_compute; reflexivity|lra|lra| |]; cbn; lra. }
  rewrite has_0, Rabs_R0 in H1.
  pose proof (H1 (11 / 32)%R ltac:(lra)) as K1. pose proof (H2 (7 / 16)%R ltac:(lra)) as K2. pose proof (H3 (31 / 64)%R ltac:(lra)) as K3. pose proof (H4 (127 / 256)%R ltac:(lra)) as K4.
  destruct (Rle_or_lt t (11 / 32)) as [L1|L1]; [specialize (H1 t ltac:(lra)); lra|].
  destruct (Rle_or_lt t (7 / 16)) as [L2|L2]; [specialize (H2 t ltac:(lra)); lra|].
  destruct (Rle_or_lt t (31 / 64)) as [L3|L3]; [specialize (H3 t ltac:(lra)); lra|].
  destruct (Rle_or_lt t (127 / 256)) as [L4|L4]; [specialize (H4 t ltac:(lra)); lra|].
  specialize (H5 t ltac:(lra)). lra.
Qed.
