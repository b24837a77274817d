(** sin and cos by their Taylor polynomials, and the polynomials of the
    kernels compared with them. *)
From Coq Require Import Reals Lra Lia Psatz QArith Qreals Qabs List.
From Flocq Require Import Core BinarySingleNaN Relative Sterbenz.
From Coquelicot Require Import Coquelicot.
From Verif Require Import Base FP FP_Proof HW HW_Proof Tf_Narrow_Proof Midpoint Fmaf_Proof Math_Model Math_Basic_Proof Math_Int_Proof Math_Lconv_Proof Hypotf_Model Hypotf_Real Hypotf_Proof Approx Subdiv Ferr Elem_Spec Elem_Proof Elem_Num Expf_Model Expf_Proof Logf_Model Logf_Kernel Logf_Proof Loginv_Proof Loginv3_Proof Hyperf_Model Hyperf_Proof Hyperf2_Proof Hyperf3_Proof Atan_Num Atanf_Model Atanf_Proof Asinf_Model.
Import ListNotations.
Open Scope Z_scope.
Local Ltac Zify.zify_post_hook ::= idtac.

(** ** Taylor polynomials *)
Lemma peval_snoc l c x : peval (l ++ [c]) x = (peval l x + Q2R c * x^(length l))%R.
Proof. induction l as [|d l IH]; cbn [app peval length pow]; [ring|]. rewrite IH. ring. Qed.
Definition sg (i : nat) : Z := if Nat.even i then 1 else -1.
Lemma sg_ok i : ((-1)^i = IZR (sg i))%R.
Proof.
  unfold sg. induction i as [|i IH]; [reflexivity|]. rewrite <- tech_pow_Rmult, IH, Nat.even_succ, <- Nat.negb_even. destruct (Nat.even i); cbn [negb]; lra.
Qed.
Definition sinl (n : nat) : list Q := map (fun i => sg i # pfact (2 * i + 1))%Q (seq 0 (S n)).
Definition cosl (n : nat) : list Q := map (fun i => sg i # pfact (2 * i))%Q (seq 0 (S n)).
Lemma frac_q z k : (Q2R (z # pfact k) = IZR z * / INR (fact k))%R.
Proof. rewrite pfact_ok. reflexivity. Qed.
Lemma sinl_ok n a : sin_approx a n = (a * peval (sinl n) (a * a))%R.
Proof.
  unfold sin_approx, sinl. induction n as [|n IH].
  - cbn [sum_f_R0 seq map peval]. unfold sin_term. rewrite frac_q. change (2 * 0 + 1)%nat with 1%nat. cbn [fact pow Nat.mul Nat.add INR sg Nat.even]. lra.
  - rewrite seq_S, map_app. cbn [map]. rewrite peval_snoc, map_length, seq_length, Nat.add_0_l. cbn [sum_f_R0]. rewrite IH. unfold sin_term. rewrite frac_q, sg_ok. set (m := S n). clearbody m.
    replace (a^(2 * m + 1))%R with (a * (a * a)^m)%R by (rewrite pow_add, pow_mult; cbn [pow]; replace (a * (a * 1))%R with (a * a)%R by ring; ring). unfold Rdiv. ring.
Qed.
Lemma cosl_ok n a : cos_approx a n = peval (cosl n) (a * a).
Proof.
  unfold cos_approx, cosl. induction n as [|n IH].
  - cbn [sum_f_R0 seq map peval]. unfold cos_term. rewrite frac_q. change (2 * 0)%nat with 0%nat. cbn [fact pow Nat.mul Nat.add INR sg Nat.even]. lra.
  - rewrite seq_S, map_app. cbn [map]. rewrite peval_snoc, map_length, seq_length, Nat.add_0_l. cbn [sum_f_R0]. rewrite IH. unfold cos_term. rewrite frac_q, sg_ok. set (m := S n). clearbody m.
    replace (a^(2 * m))%R with ((a * a)^m)%R by (rewrite pow_mult; cbn [pow]; replace (a * (a * 1))%R with (a * a)%R by ring; ring). unfold Rdiv. ring.
Qed.
Definition sin9 : list Q := Eval vm_compute in sinl 9.
Definition cos9 : list Q := Eval vm_compute in cosl 9.
Lemma top9 a n : (0 <= a <= 0.61718)%R -> (20 <= n)%nat -> (0 <= Q2R (1 # pfact n) * a^10 <= / 200000000000000000000)%R.
Proof.
  intros H N. assert (P0 := pow_le a 10 ltac:(lra)).
  assert (F : (0 <= Q2R (1 # pfact n) <= / 2400000000000000000)%R).
  { rewrite frac_q, Rmult_1_l. split; [left; apply Rinv_0_lt_compat, INR_fact_lt_0|]. apply Rinv_le_contravar; [lra|]. apply Rle_trans with (INR (fact 20)); [rewrite pfact_ok; apply IZR_le; vm_compute; discriminate|]. apply le_INR, fact_le. lia. }
  assert (P2 : (a^10 <= 0.0084)%R). { apply Rle_trans with (0.62^10)%R; [apply pow_incr; lra|]. cbn [pow]. lra. }
  split; [apply Rmult_le_pos; lra|]. apply Rle_trans with (/ 2400000000000000000 * 0.0084)%R; [apply Rmult_le_compat; lra|]. lra.
Qed.
Lemma cos_taylor a : (Rabs a <= 0.7856)%R -> (Rabs (cos a - peval cos9 (a * a)) <= / 200000000000000000000)%R.
Proof.
  intros H. apply Rabs_le_inv in H. destruct (pre_cos_bound a 4 ltac:(lra) ltac:(lra)) as [L U]. change (2 * 4 + 1)%nat with 9%nat in L. change (2 * (4 + 1))%nat with 10%nat in U. rewrite cosl_ok in L, U.
  change (cosl 9) with cos9 in L. replace (peval (cosl 10) (a * a)) with (peval cos9 (a * a) + Q2R (1 # pfact 20) * (a * a)^10)%R in U.
  2:{ unfold cosl. rewrite seq_S, map_app. cbn [map]. rewrite peval_snoc, map_length, seq_length. change (map (fun i => sg i # pfact (2 * i))%Q (seq 0 10)) with cos9. reflexivity. }
  pose proof (top9 (a * a) 20 ltac:(nra) ltac:(lia)). apply Rabs_le. lra.
Qed.
Lemma sin_taylor a : (Rabs a <= 0.7856)%R -> (Rabs (sin a - a * peval sin9 (a * a)) <= / 200000000000000000000 * Rabs a)%R.
Proof.
  intros H. assert (G : forall b, (0 <= b <= 0.7856)%R -> (Rabs (sin b - b * peval sin9 (b * b)) <= / 200000000000000000000 * b)%R).
  { clear a H. intros b H. destruct (pre_sin_bound b 4 ltac:(lra) ltac:(lra)) as [L U]. change (2 * 4 + 1)%nat with 9%nat in L. change (2 * (4 + 1))%nat with 10%nat in U. rewrite sinl_ok in L, U.
    change (sinl 9) with sin9 in L. replace (peval (sinl 10) (b * b)) with (peval sin9 (b * b) + Q2R (1 # pfact 21) * (b * b)^10)%R in U.
    2:{ unfold sinl. rewrite seq_S, map_app. cbn [map]. rewrite peval_snoc, map_length, seq_length. change (map (fun i => sg i # pfact (2 * i + 1))%Q (seq 0 10)) with sin9. reflexivity. }
    pose proof (top9 (b * b) 21 ltac:(nra) ltac:(lia)) as T. set (t := (Q2R (1 # pfact 21) * (b * b)^10)%R) in *. clearbody t. apply Rabs_le. nra. }
  destruct (Rle_or_lt 0 a) as [P|P].
  - rewrite (Rabs_pos_eq a) in H |- * by lra. apply G. lra.
  - rewrite (Rabs_left a) in H |- * by lra. specialize (G (- a)%R ltac:(lra)). rewrite sin_neg in G. replace (- a * - a)%R with (a * a)%R in G by ring. rewrite <- Rabs_Ropp. replace (- (sin a - a * peval sin9 (a * a)))%R with (- sin a - - a * peval sin9 (a * a))%R by ring. exact G.
Qed.

(** ** the polynomials of the kernels, in u = x^2 *)
Definition psin : list Q := Eval vm_compute in map qval [0xBFC5555555555548; 0x3F8111111110F75C; 0xBF2A01A019BF2048; 0x3EC71DE355EF443E; 0xBE5AE5E546D6A6EB; 0x3DE5D8E365902310].
Definition pcos : list Q := Eval vm_compute in map qval [0x3FF0000000000000; 0xBFDFFFFFFFFFFFA0; 0x3FA555555554F800; 0xBF56C16C1647B026; 0x3EFA019F879581CA; 0xBE927DF6880F96CC; 0x3E21B951C4AA36EC].
Definition ptn : list Q := Eval vm_compute in map qval [0x3FF0000000000000; 0xBFC06B8EC6FE0678; 0x3F66FC2FECB35A93; 0xBEDF624090DAF722].
Definition ptd : list Q := Eval vm_compute in map qval [0x3FF0000000000000; 0xBFDD8B1CB8D4586E; 0x3F97E796A424CDF8; 0xBF2B51C81DF38E70].
Lemma bound62 u : (0 <= u <= 0.61718)%R -> (Rabs u <= 1)%R.
Proof. intros. apply Rabs_le. lra. Qed.
Lemma rng62 u : (0 <= u <= 0.61718)%R -> (IZR 0 * bpow radix2 (- (8)) <= u <= IZR (0 + 2 * Z.of_nat 79) * bpow radix2 (- (8)))%R.
Proof. intros H. change (bpow radix2 (- (8))) with (/ 256)%R. change (0 + 2 * Z.of_nat 79) with 158. lra. Qed.
Lemma psin_near u : (0 <= u <= 0.61718)%R -> (Rabs (peval (1%Q :: psin) u - peval sin9 u) <= Q2R (5 # 10^18))%R.
Proof. intros H. apply (subdiv_ok _ _ 100 8 0 78); [vm_compute; reflexivity|apply bound62; lra|apply rng62; lra]. Qed.
Lemma pcos_near u : (0 <= u <= 0.61718)%R -> (Rabs (peval pcos u - peval cos9 u) <= Q2R (6 # 10^17))%R.
Proof. intros H. apply (subdiv_ok _ _ 100 8 0 78); [vm_compute; reflexivity|apply bound62; lra|apply rng62; lra]. Qed.
Lemma ptan_near u : (0 <= u <= 0.61718)%R -> (Rabs (peval (pmul ptn cos9) u - peval (pmul ptd sin9) u) <= Q2R (3 # 10^17))%R.
Proof. intros H. apply (subdiv_ok _ _ 100 8 0 78); [vm_compute; reflexivity|apply bound62; lra|apply rng62; lra]. Qed.
