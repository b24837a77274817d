(** Tools shared by the proofs about the elementary functions: checked error
    bounds with rational data, rounding to an integer, scaling by a power of
    two through the exponent field. *)
From Coq Require Import Reals Lra Lia Psatz QArith Qreals Qabs List.
From Flocq Require Import Core BinarySingleNaN.
From Verif Require Import Base FP FP_Proof HW HW_Proof Midpoint Fmaf_Proof Math_Model Math_Int_Proof Hypotf_Real Hypotf_Proof Approx Ferr Elem_Spec Expf_Model.
Import ListNotations.
Open Scope Z_scope.
Local Ltac Zify.zify_post_hook ::= idtac.

(** ** error bounds with rational data *)
Definition nearq (d : Z) (V : R) (m e : Q) : Prop := exists y, dbl d y /\ (Rabs (y - V) <= Q2R e)%R /\ (Rabs V <= Q2R m)%R.

Lemma cbound_real q : (Q2R q <= IZR (cbound q) * U)%R.
Proof. eapply Rle_trans; [apply Rle_abs|apply cbound_ok]. Qed.
Lemma nearq_near d V m e : nearq d V m e -> near d V (cbound m) (cbound e).
Proof.
  intros (y & D & A & B). exists y. split; [exact D|]. split.
  - eapply Rle_trans; [exact A|apply cbound_real].
  - eapply Rle_trans; [exact B|apply cbound_real].
Qed.
Lemma unit_q E e : Qle_bool (E # 2^160) e = true -> (IZR E * U <= Q2R e)%R.
Proof.
  intros H. apply Q2R_le in H. eapply Rle_trans; [|exact H]. unfold Q2R, U. cbn [Qnum Qden]. right. f_equal.
Qed.
Lemma nearq_refine d V V' m e m' e' d' : nearq d V m e -> (Rabs (V - V') <= Q2R d')%R -> (Rabs V' <= Q2R m')%R -> Qle_bool (e + d') e' = true -> nearq d V' m' e'.
Proof.
  intros (y & D & A & _) H M K. apply Q2R_le in K. rewrite Q2R_plus in K. exists y. split; [exact D|]. split; [|exact M].
  replace (y - V')%R with ((y - V) + (V - V'))%R by ring. eapply Rle_trans; [apply Rabs_triang|]. lra.
Qed.

Definition env1 {A} (a : A) (b : A) (n : nat) : A := match n with O => a | S _ => b end.
Definition chk2 (m0 e0 m1 e1 : Q) (ex : fe) (m e : Q) : bool :=
  match ebnd (env1 (Some (cbound m0, cbound e0)) (Some (cbound m1, cbound e1))) ex with
  | Some (M, E) => Qle_bool (M # 2^160) m && Qle_bool (E # 2^160) e
  | None => false
  end.
Lemma chk2_ok m0 e0 m1 e1 ex m e d0 V0 d1 V1 : chk2 m0 e0 m1 e1 ex m e = true -> nearq d0 V0 m0 e0 -> nearq d1 V1 m1 e1 ->
  nearq (ebits (env1 d0 d1) ex) (ereal (env1 V0 V1) ex) m e.
Proof.
  unfold chk2. intros H N0 N1. destruct (ebnd _ ex) as [[M E]|] eqn:B; [|discriminate]. apply andb_prop in H. destruct H as [H1 H2].
  assert (N : near (ebits (env1 d0 d1) ex) (ereal (env1 V0 V1) ex) M E).
  { refine (ebnd_ok _ _ _ ex _ M E B). intros [|n] M' E' K; cbn [env1] in *; injection K as <- <-; apply nearq_near; assumption. }
  destruct N as (y & D & X1 & X2). exists y. split; [exact D|]. split; (eapply Rle_trans; [eassumption|apply unit_q; assumption]).
Qed.

(** one variable, result compared with its polynomial *)
Lemma chk1_ok m0 e0 ex m e d V l : chk2 m0 e0 m0 e0 ex m e = true -> epoly ex = Some l -> nearq d V m0 e0 ->
  nearq (ebits (env1 d d) ex) (peval l V) m e.
Proof.
  intros H P N. rewrite <- (epoly_ok (env1 V V) ex l P : _ = peval l V). exact (chk2_ok _ _ _ _ _ _ _ _ _ _ _ H N N).
Qed.

(** a difference known to be small *)
Definition chks (ea eb m e : Q) : bool :=
  let M := cbound m in let E := cbound ea + cbound eb in fits M E && Qle_bool (radd M E # 2^160) e.
Lemma subq_ok ma ea mb eb m e a b A B : chks ea eb m e = true -> nearq a A ma ea -> nearq b B mb eb -> (Rabs (A - B) <= Q2R m)%R -> nearq (sub64 a b) (A - B) m e.
Proof.
  unfold chks. cbv zeta. intros H NA NB L. apply andb_prop in H. destruct H as [F K]. apply nearq_near in NA. apply nearq_near in NB.
  destruct NA as (x & Dx & X1 & _). destruct NB as (y & Dy & Y1 & _).
  assert (H1 : (Rabs (x - y - (A - B)) <= IZR (cbound ea + cbound eb) * U)%R).
  { replace (x - y - (A - B))%R with ((x - A) + - (y - B))%R by ring. rewrite plus_IZR. eapply Rle_trans; [apply Rabs_triang|]. rewrite Rabs_Ropp. lra. }
  assert (H2 : (Rabs (A - B) <= IZR (cbound m) * U)%R) by (eapply Rle_trans; [exact L|apply cbound_real]).
  exists (RN53 (x - y)). split; [apply (dbl_sub _ _ _ _ 500 Dx Dy); [exact (fits_bound _ _ _ _ F H1 H2)|lia]|]. split; [|exact L].
  eapply Rle_trans; [apply round_step; eassumption|apply unit_q; exact K].
Qed.

(** ** rounding to an integer *)
Lemma rint64_ok d y : dbl d y -> (Rabs y <= bpow radix2 40)%R ->
  exists k, dbl (rint64 d) (IZR k) /\ (Rabs (IZR k - y) <= / 2)%R /\ to_signed 64 (trunc64 (rint64 d)) = Ok k.
Proof.
  intros (A & B & C & D) L. destruct (hround_ok 52 11 eq_refl eq_refl eq_refl eq_refl mode_NE d A) as (R1 & _ & _ & R2).
  destruct (R2 B) as (R3 & _ & R4). change (hround 52 11 eq_refl eq_refl eq_refl mode_NE d) with (rint64 d) in *. rewrite C in R4. cbn [round_mode] in R4.
  set (k := ZnearestE y) in *. exists k.
  assert (N : (Rabs (IZR k - y) <= / 2)%R) by (rewrite Rabs_minus_sym; apply Znearest_half).
  assert (KB : (Rabs (IZR k) <= bpow radix2 41)%R).
  { replace (IZR k) with ((IZR k - y) + y)%R by ring. eapply Rle_trans; [apply Rabs_triang|].
    change (bpow radix2 41) with (2 * bpow radix2 40)%R. assert (1 <= bpow radix2 40)%R by (change 1%R with (bpow radix2 0); apply bpow_le; lia). lra. }
  split; [|split].
  - split; [exact R1|]. split; [exact R3|]. split; [exact R4|]. apply (Rabs_weak _ _ _ KB). lia.
  - exact N.
  - unfold trunc64. rewrite (htrunc_ok 52 11 eq_refl eq_refl eq_refl _ R1 R3), R4, Ztrunc_IZR. unfold to_signed.
    rewrite <- abs_IZR in KB. change (bpow radix2 41) with (IZR (2^41)) in KB. apply le_IZR in KB.
    change (2^(64-1)) with 0x8000000000000000. replace (_ && _) with true by lia. reflexivity.
Qed.
Lemma rint32_ok d : fbits 23 8 d -> ffinite 23 8 d = true -> (Rabs (fval 23 8 d) <= bpow radix2 40)%R ->
  exists k, fbits 23 8 (rint32 d) /\ ffinite 23 8 (rint32 d) = true /\ fval 23 8 (rint32 d) = IZR k /\
    (Rabs (IZR k - fval 23 8 d) <= / 2)%R /\ to_signed 64 (trunc32 (rint32 d)) = Ok k /\ k = ZnearestE (fval 23 8 d).
Proof.
  intros A B L. destruct (hround_ok 23 8 eq_refl eq_refl eq_refl eq_refl mode_NE d A) as (R1 & _ & _ & R2).
  destruct (R2 B) as (R3 & _ & R4). change (hround 23 8 eq_refl eq_refl eq_refl mode_NE d) with (rint32 d) in *. cbn [round_mode] in R4. set (y := fval 23 8 d) in *.
  set (k := ZnearestE y) in *. exists k.
  assert (N : (Rabs (IZR k - y) <= / 2)%R) by (rewrite Rabs_minus_sym; apply Znearest_half).
  assert (KB : (Rabs (IZR k) <= bpow radix2 41)%R).
  { replace (IZR k) with ((IZR k - y) + y)%R by ring. eapply Rle_trans; [apply Rabs_triang|].
    change (bpow radix2 41) with (2 * bpow radix2 40)%R. assert (1 <= bpow radix2 40)%R by (change 1%R with (bpow radix2 0); apply bpow_le; lia). lra. }
  split; [exact R1|]. split; [exact R3|]. split; [exact R4|]. split; [exact N|]. split; [|reflexivity].
  unfold trunc32. rewrite (htrunc_ok 23 8 eq_refl eq_refl eq_refl _ R1 R3), R4, Ztrunc_IZR. unfold to_signed.
  rewrite <- abs_IZR in KB. change (bpow radix2 41) with (IZR (2^41)) in KB. apply le_IZR in KB.
  change (2^(64-1)) with 0x8000000000000000. replace (_ && _) with true by lia. reflexivity.
Qed.

(** ** the exponent field *)
Lemma fmag_shift d k : 2^52 <= d -> 2^52 <= d + k * 2^52 -> fmag 52 11 (d + k * 2^52) = (fmag 52 11 d * bpow radix2 k)%R.
Proof.
  intros H1 H2. unfold fmag. change (emin 52 11) with (-1074).
  rewrite Z.div_add, Z.mod_add by lia.
  assert (Q : 1 <= d / 2^52) by (apply Z.div_le_lower_bound; lia).
  assert (Q2 : 1 <= d / 2^52 + k) by (rewrite <- Z.div_add by lia; apply Z.div_le_lower_bound; lia).
  replace (d / 2^52 + k =? 0) with false by lia. replace (d / 2^52 =? 0) with false by lia.
  unfold F2R. cbn [Fnum Fexp]. rewrite Rmult_assoc, <- bpow_plus. f_equal. f_equal. lia.
Qed.

Lemma shift_ok d y k : dbl d y -> (/ 2 <= y <= 2)%R -> -1000 <= k <= 1000 ->
  exists r, shift_ d k = Ok r /\ fbits 52 11 r /\ ffinite 52 11 r = true /\ fneg 52 11 r = false /\ fval 52 11 r = (y * bpow radix2 k)%R.
Proof.
  intros (A & B & C & D) HY HK.
  assert (NG : fneg 52 11 d = false).
  { destruct (fneg 52 11 d) eqn:N; [|reflexivity]. unfold fval in C. rewrite N in C.
    pose proof (fmag_nonneg 52 11 eq_refl (fabsb 52 11 d) ltac:(apply Z.mod_pos_bound; reflexivity)). lra. }
  destruct (pos_pattern 52 11 d eq_refl eq_refl A NG) as (E & R & V). rewrite V in C.
  assert (L1 : 0x3FE0000000000000 <= d).
  { apply Z.nlt_ge. intros K. pose proof (fmag_lt 52 11 eq_refl d 0x3FE0000000000000 ltac:(lia)) as G.
    replace (fmag 52 11 0x3FE0000000000000) with (/ 2)%R in G; [lra|]. transitivity (Q2R (1 # 2)); [unfold Q2R; cbn; lra|rewrite <- qmag_ok; apply Qeq_eqR; reflexivity]. }
  assert (L2 : d <= 0x4000000000000000).
  { apply Z.nlt_ge. intros K. pose proof (fmag_lt 52 11 eq_refl 0x4000000000000000 d ltac:(lia)) as G.
    replace (fmag 52 11 0x4000000000000000) with 2%R in G; [lra|]. transitivity (Q2R 2); [unfold Q2R; cbn; lra|rewrite <- qmag_ok; apply Qeq_eqR; reflexivity]. }
  unfold shift_. rewrite (sgn_id 64 d), (sgn_id 64 (k * 2^52)) by lia. unfold chk_i64. replace (_ && _) with true by lia. cbn [bind].
  exists (d + k * 2^52). unfold u64. rewrite Z.mod_small by lia. split; [reflexivity|].
  assert (AB : fabsb 52 11 (d + k * 2^52) = d + k * 2^52) by (apply Z.mod_small; change (2^(52+11)) with 0x8000000000000000; lia).
  assert (NR : fneg 52 11 (d + k * 2^52) = false) by (unfold fneg; change (2^(52+11)) with 0x8000000000000000; lia).
  split; [split; [lia|change (2^(52+11+1)) with 0x10000000000000000; lia]|].
  split; [unfold ffinite; rewrite AB; change (finf 52 11) with 0x7FF0000000000000; lia|]. split; [exact NR|].
  unfold fval. rewrite NR, AB, fmag_shift by lia. rewrite C. reflexivity.
Qed.

(** the conversion to float of a double close to v *)
Lemma to_float z v k : fbits 52 11 z -> ffinite 52 11 z = true -> fneg 52 11 z = Rlt_bool v 0 ->
  (Rabs (fval 52 11 z - v) <= bpow radix2 (- k) * Rabs v)%R -> nearly_rounded k v (d2f z).
Proof.
  intros H F N E. exists (fval 52 11 z). split; [exact E|]. rewrite <- N. exact (hcvt_ok 52 11 23 8 eq_refl eq_refl eq_refl eq_refl eq_refl eq_refl z H F).
Qed.
