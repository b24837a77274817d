(** Bounding a rational polynomial on an interval by subdivision: on each piece
    the polynomial is recentred and the absolute values of its coefficients are
    summed.  All arithmetic is on integers. *)
From Coq Require Import Reals Lra Lia Psatz QArith Qreals Qabs List ZArith.
From Flocq Require Import Core.
From Verif Require Import Approx.
Import ListNotations.
Open Scope Z_scope.
Local Ltac Zify.zify_post_hook ::= idtac.

Fixpoint zeval (l : list Z) (x : R) : R := match l with [] => 0%R | c :: l => (IZR c + x * zeval l x)%R end.

(** fixed-point coefficients *)
Definition zcoefs (S : Z) (l : list Q) : list Z := map (fun q => Qnum q * 2^S / Zpos (Qden q)) l.
Lemma zcoef_err S q : 0 <= S -> (Rabs (Q2R q * bpow radix2 S - IZR (Qnum q * 2^S / Zpos (Qden q))) <= 1)%R.
Proof.
  intros HS. unfold Q2R. set (a := Qnum q). set (d := Zpos (Qden q)). assert (D : 0 < d) by reflexivity.
  assert (DR : (0 < IZR d)%R) by (apply IZR_lt; exact D).
  pose proof (Z.mul_div_le (a * 2^S) d D) as L. pose proof (Z.mul_succ_div_gt (a * 2^S) d D) as G. set (k := a * 2^S / d) in *.
  apply IZR_le in L. apply IZR_lt in G. rewrite !mult_IZR in L, G. rewrite succ_IZR in G.
  replace (IZR (2^S)) with (bpow radix2 S) in L, G by (symmetry; apply (IZR_Zpower radix2 S HS)).
  assert (E : (IZR a * / IZR d * bpow radix2 S - IZR k = (IZR a * bpow radix2 S - IZR d * IZR k) / IZR d)%R) by (field; lra).
  rewrite E. unfold Rdiv. rewrite Rabs_mult, (Rabs_pos_eq (/ _)) by (left; apply Rinv_0_lt_compat; exact DR).
  apply (Rmult_le_reg_r (IZR d)); [exact DR|]. rewrite Rmult_assoc, Rinv_l, Rmult_1_r, Rmult_1_l by lra. apply Rabs_le. lra.
Qed.
Lemma zcoefs_err S l x : 0 <= S -> (Rabs x <= 1)%R -> (Rabs (peval l x * bpow radix2 S - zeval (zcoefs S l) x) <= INR (length l))%R.
Proof.
  intros HS H. induction l as [|c l IH]; cbn [peval zeval zcoefs map length]; [rewrite Rmult_0_l, Rminus_0_r, Rabs_R0; cbn; lra|].
  rewrite S_INR. fold (zcoefs S l). set (k := Qnum c * 2^S / Zpos (Qden c)) in *. pose proof (zcoef_err S c HS) as E. fold k in E.
  replace ((Q2R c + x * peval l x) * bpow radix2 S - (IZR k + x * zeval (zcoefs S l) x))%R with
    ((Q2R c * bpow radix2 S - IZR k) + x * (peval l x * bpow radix2 S - zeval (zcoefs S l) x))%R by ring.
  eapply Rle_trans; [apply Rabs_triang|]. rewrite Rabs_mult. pose proof (Rabs_pos x). pose proof (Rabs_pos (peval l x * bpow radix2 S - zeval (zcoefs S l) x)). nra.
Qed.

(** the argument in units of 2^-j *)
Fixpoint zscale (l : list Z) (j : Z) : list Z := match l with [] => [] | c :: l => c * 2^(j * Z.of_nat (length l)) :: zscale l j end.
Lemma zscale_ok l j y : 0 <= j -> (bpow radix2 j * zeval (zscale l j) y = bpow radix2 (j * Z.of_nat (length l)) * zeval l (y * bpow radix2 (- j)))%R.
Proof.
  intros Hj. induction l as [|c l IH]; cbn [zscale zeval length]; [ring|].
  rewrite mult_IZR. replace (IZR (2^(j * Z.of_nat (length l)))) with (bpow radix2 (j * Z.of_nat (length l))) by (symmetry; apply (IZR_Zpower radix2); nia).
  rewrite Nat2Z.inj_succ. replace (j * Z.succ (Z.of_nat (length l))) with (j + j * Z.of_nat (length l)) by ring. rewrite bpow_plus.
  assert (I : (bpow radix2 j * bpow radix2 (- j) = 1)%R) by (rewrite <- bpow_plus, Z.add_opp_diag_r; reflexivity).
  set (P := bpow radix2 (j * Z.of_nat (length l))) in *.
  transitivity (bpow radix2 j * (IZR c * P) + y * (bpow radix2 j * zeval (zscale l j) y))%R; [ring|]. rewrite IH.
  transitivity (bpow radix2 j * (IZR c * P) + (bpow radix2 j * bpow radix2 (- j)) * (y * (P * zeval l (y * bpow radix2 (- j)))))%R; [rewrite I; ring|ring].
Qed.

(** recentring *)
Fixpoint zmulx (m c : Z) (p : list Z) : list Z := match p with [] => [c] | a :: p => (m * a + c) :: zmulx m a p end.
Lemma zmulx_ok m p u : forall c, zeval (zmulx m c p) u = (IZR c + (IZR m + u) * zeval p u)%R.
Proof.
  induction p as [|a p IH]; intros c; cbn [zmulx zeval]; [ring|]. rewrite IH, plus_IZR, mult_IZR. ring.
Qed.
Fixpoint zshift (l : list Z) (m : Z) : list Z := match l with [] => [] | c :: l => zmulx m c (zshift l m) end.
Lemma zshift_ok l m u : zeval (zshift l m) u = zeval l (IZR m + u).
Proof. induction l as [|c l IH]; cbn [zshift zeval]; [reflexivity|]. rewrite zmulx_ok, IH. reflexivity. Qed.

Fixpoint zsum (l : list Z) : Z := match l with [] => 0 | c :: l => Z.abs c + zsum l end.
Lemma zsum_ok l u : (Rabs u <= 1)%R -> (Rabs (zeval l u) <= IZR (zsum l))%R.
Proof.
  intros H. induction l as [|c l IH]; cbn [zeval zsum]; [rewrite Rabs_R0; apply Rle_refl|].
  rewrite plus_IZR, abs_IZR. eapply Rle_trans; [apply Rabs_triang|]. apply Rplus_le_compat_l. rewrite Rabs_mult. pose proof (Rabs_pos u). pose proof (Rabs_pos (zeval l u)). nra.
Qed.

Fixpoint zcheck (b : list Z) (B m : Z) (cnt : nat) : bool := match cnt with O => true | S cnt => (zsum (zshift b m) <=? B) && zcheck b B (m + 2) cnt end.
Lemma zcheck_ok b B cnt : forall m y, zcheck b B m (S cnt) = true -> (IZR (m - 1) <= y <= IZR (m - 1 + 2 * Z.of_nat (S cnt)))%R -> (Rabs (zeval b y) <= IZR B)%R.
Proof.
  induction cnt as [|cnt IH]; intros m y C H; cbn [zcheck] in C; apply andb_prop in C; destruct C as [C1 C2]; apply Z.leb_le in C1.
  - replace y with (IZR m + (y - IZR m))%R by ring. rewrite <- zshift_ok. eapply Rle_trans; [apply zsum_ok|apply IZR_le; exact C1].
    replace (m - 1 + 2 * Z.of_nat 1) with (m + 1) in H by lia. rewrite minus_IZR, plus_IZR in H. apply Rabs_le. lra.
  - destruct (Rle_or_lt y (IZR (m + 1))) as [L|L].
    + replace y with (IZR m + (y - IZR m))%R by ring. rewrite <- zshift_ok. eapply Rle_trans; [apply zsum_ok|apply IZR_le; exact C1].
      rewrite minus_IZR in H. rewrite plus_IZR in L. apply Rabs_le. lra.
    + apply (IH (m + 2) y C2). replace (m + 2 - 1) with (m + 1) by ring. replace (m + 1 + 2 * Z.of_nat (S cnt)) with (m - 1 + 2 * Z.of_nat (S (S cnt))) by lia. lra.
Qed.

(** difference of two polynomials *)
Fixpoint zsub (a b : list Z) : list Z := match a, b with [], _ => map Z.opp b | _, [] => a | x :: a, y :: b => (x - y) :: zsub a b end.
Lemma zopp_ok b x : zeval (map Z.opp b) x = (- zeval b x)%R.
Proof. induction b as [|c b IH]; cbn [map zeval]; [ring|]. rewrite IH, opp_IZR. ring. Qed.
Lemma zsub_ok a x : forall b, zeval (zsub a b) x = (zeval a x - zeval b x)%R.
Proof.
  induction a as [|c a IH]; intros b.
  - cbn [zsub zeval]. rewrite zopp_ok. ring.
  - destruct b as [|d b]; cbn [zsub zeval]; [ring|]. rewrite IH, minus_IZR. ring.
Qed.

(** |l - r| <= eps on [lo/2^j, (lo + 2 cnt + 2)/2^j], a part of [-1, 1] *)
Definition subdiv (l r : list Q) (S j lo : Z) (cnt : nat) (eps : Q) : bool :=
  let a := zsub (zcoefs S l) (zcoefs S r) in
  let n := Z.of_nat (length a) in
  (0 <=? S) && (0 <=? j) && (1 <=? n) &&
  zcheck (zscale a j) ((Qnum eps * 2^S / Zpos (Qden eps) - (Z.of_nat (length l) + Z.of_nat (length r))) * 2^(j * (n - 1))) (lo + 1) (Datatypes.S cnt).
Lemma subdiv_ok l r S j lo cnt eps x : subdiv l r S j lo cnt eps = true -> (Rabs x <= 1)%R ->
  (IZR lo * bpow radix2 (- j) <= x <= IZR (lo + 2 * Z.of_nat (Datatypes.S cnt)) * bpow radix2 (- j))%R -> (Rabs (peval l x - peval r x) <= Q2R eps)%R.
Proof.
  unfold subdiv. cbv zeta. intros C H1 H2. apply andb_prop in C. destruct C as [C C4]. apply andb_prop in C. destruct C as [C C3]. apply andb_prop in C. destruct C as [C1 C2].
  apply Z.leb_le in C1, C2, C3. set (a := zsub (zcoefs S l) (zcoefs S r)) in *. set (n := Z.of_nat (length a)) in *. set (E := Qnum eps * 2^S / Zpos (Qden eps)) in *.
  assert (J : (bpow radix2 j * bpow radix2 (- j) = 1)%R) by (rewrite <- bpow_plus, Z.add_opp_diag_r; reflexivity). pose proof (bpow_gt_0 radix2 j) as J0. pose proof (bpow_gt_0 radix2 (- j)) as J1.
  set (y := (x * bpow radix2 j)%R). assert (X : x = (y * bpow radix2 (- j))%R) by (unfold y; rewrite Rmult_assoc, J; ring).
  assert (HY : (IZR (lo + 1 - 1) <= y <= IZR (lo + 1 - 1 + 2 * Z.of_nat (Datatypes.S cnt)))%R).
  { replace (lo + 1 - 1) with lo by ring. rewrite X in H2. destruct H2 as [A B]. apply Rmult_le_reg_r in A; [|exact J1]. apply Rmult_le_reg_r in B; [|exact J1]. lra. }
  pose proof (zcheck_ok _ _ _ _ _ C4 HY) as K. pose proof (zscale_ok a j y C2) as Z. rewrite <- X in Z. fold n in Z.
  replace (j * n) with (j + j * (n - 1)) in Z by ring. rewrite bpow_plus, Rmult_assoc in Z. apply Rmult_eq_reg_l in Z; [|lra].
  rewrite Z, mult_IZR in K. replace (IZR (2^(j * (n - 1)))) with (bpow radix2 (j * (n - 1))) in K by (symmetry; apply (IZR_Zpower radix2); nia).
  pose proof (bpow_gt_0 radix2 (j * (n - 1))) as W. rewrite Rabs_mult, (Rabs_pos_eq (bpow radix2 (j * (n - 1)))), (Rmult_comm (bpow _ _)) in K by lra. apply Rmult_le_reg_r in K; [|exact W].
  pose proof (zcoefs_err S l x C1 H1) as EL. pose proof (zcoefs_err S r x C1 H1) as ER. rewrite INR_IZR_INZ in EL, ER. rewrite minus_IZR, plus_IZR in K. unfold a in K. rewrite zsub_ok in K.
  set (zl := zeval (zcoefs S l) x) in *. set (zr := zeval (zcoefs S r) x) in *.
  assert (PS : (Rabs ((peval l x - peval r x) * bpow radix2 S) <= IZR E)%R).
  { replace ((peval l x - peval r x) * bpow radix2 S)%R with ((peval l x * bpow radix2 S - zl) + (- (peval r x * bpow radix2 S - zr) + (zl - zr)))%R by ring.
    eapply Rle_trans; [apply Rabs_triang|]. eapply Rle_trans; [apply Rplus_le_compat_l, Rabs_triang|]. rewrite Rabs_Ropp. lra. }
  assert (EE : (IZR E <= Q2R eps * bpow radix2 S)%R).
  { unfold E, Q2R. pose proof (Z.mul_div_le (Qnum eps * 2^S) (Zpos (Qden eps)) eq_refl) as L. apply IZR_le in L. rewrite !mult_IZR in L.
    replace (IZR (2^S)) with (bpow radix2 S) in L by (symmetry; apply (IZR_Zpower radix2 S C1)). assert (DR : (0 < IZR (Zpos (Qden eps)))%R) by (apply IZR_lt; reflexivity).
    apply (Rmult_le_reg_l (IZR (Zpos (Qden eps)))); [exact DR|]. eapply Rle_trans; [exact L|]. right. field. lra. }
  pose proof (bpow_gt_0 radix2 S) as S0. rewrite Rabs_mult, (Rabs_pos_eq (bpow radix2 S)) in PS by lra. apply (Rmult_le_reg_r (bpow radix2 S)); [exact S0|lra].
Qed.
