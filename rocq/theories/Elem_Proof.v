(** Nearly rounded results are faithful, and correctly rounded away from midpoints. *)
From Coq Require Import Reals Lra Lia Psatz.
From Flocq Require Import Core.
From Verif Require Import Base FP FP_Proof HW_Proof Midpoint Fmaf_Proof Hypotf_Real Hypotf_Proof Elem_Spec.
Open Scope R_scope.
Local Ltac Zify.zify_post_hook ::= idtac.
Local Existing Instance V24.
Local Instance P24 : Prec_gt_0 24 := eq_refl.
Local Instance M24 : Monotone_exp (FLT_exp (-149) 24) := FLT_exp_monotone _ _.

Lemma RN24_opp x : RN24 (- x) = - RN24 x.
Proof. rewrite RN24_eq. apply round_NE_opp. Qed.

(** the gap below and above a float is at least its value times 2^-24 *)
Lemma pred_gap_pos f : F24 f -> 0 < f -> pred24 f <= f - bpow radix2 (-24) * f.
Proof.
  intros Ff P. rewrite pred_eq_pos by lra. unfold pred_pos.
  destruct (Req_bool_spec f (bpow radix2 (mag radix2 f - 1))) as [E|E].
  - apply Rplus_le_compat_l, Ropp_le_contravar. rewrite E at 1. rewrite <- bpow_plus. apply bpow_le. unfold FLT_exp. lia.
  - apply Rplus_le_compat_l, Ropp_le_contravar. rewrite Rmult_comm. left.
    rewrite <- (Rabs_pos_eq f) at 1 by lra. apply (ulp_FLT_gt radix2 (-149) 24 f).
Qed.
Lemma succ_gap_pos f : F24 f -> 0 <= f -> f + bpow radix2 (-24) * f <= succ24 f.
Proof.
  intros Ff P. rewrite succ_eq_pos by exact P. apply Rplus_le_compat_l. rewrite Rmult_comm. left.
  rewrite <- (Rabs_pos_eq f) at 1 by lra. apply (ulp_FLT_gt radix2 (-149) 24 f).
Qed.
Lemma pred_gap f : F24 f -> pred24 f <= f - bpow radix2 (-24) * Rabs f.
Proof.
  intros Ff. destruct (Rlt_or_le 0 f) as [P|P]; [rewrite Rabs_pos_eq by lra; apply pred_gap_pos; assumption|].
  rewrite <- (Ropp_involutive f) at 1. rewrite pred_opp. pose proof (succ_gap_pos (- f) (generic_format_opp _ _ _ Ff) ltac:(lra)). rewrite Rabs_left1 by lra. lra.
Qed.
Lemma succ_gap f : F24 f -> f + bpow radix2 (-24) * Rabs f <= succ24 f.
Proof.
  intros Ff. pose proof (pred_gap (- f) (generic_format_opp _ _ _ Ff)) as H. rewrite pred_opp, Rabs_Ropp in H. lra.
Qed.

Lemma near_above k v r f : (26 <= k)%Z -> Rabs (r - v) <= bpow radix2 (- k) * Rabs v -> F24 f -> f <= v -> f <= RN24 r.
Proof.
  intros Hk H Ff L. assert (B : bpow radix2 (- k) <= bpow radix2 (-26)) by (apply bpow_le; lia). pose proof (bpow_gt_0 radix2 (- k)) as B0.
  assert (B1 : bpow radix2 (-26) * 4 = bpow radix2 (-24)) by (change 4 with (bpow radix2 2); rewrite <- bpow_plus; reflexivity).
  assert (B2 : bpow radix2 (-26) < / 4) by (change (/ 4) with (bpow radix2 (-2)); apply bpow_lt; lia).
  apply Rabs_le_inv in H. set (d := bpow radix2 (- k)) in *. set (e := bpow radix2 (-26)) in *.
  assert (G : f - d * Rabs f <= r).
  { destruct (Rle_or_lt 0 v) as [P|P].
    - rewrite (Rabs_pos_eq v P) in H. destruct (Rle_or_lt 0 f) as [Q|Q]; [rewrite (Rabs_pos_eq f Q); nra|]. rewrite (Rabs_left f Q). nra.
    - rewrite (Rabs_left v P) in H. rewrite (Rabs_left f) by lra. nra. }
  destruct (Req_dec f 0) as [->|N].
  - rewrite Rabs_R0 in G. rewrite <- (RN24_id 0) by apply generic_format_0. apply RN24_le. lra.
  - apply RN24_ge_mid; [exact Ff|]. pose proof (pred_gap f Ff) as PG. rewrite <- B1 in PG. pose proof (Rabs_pos_lt f N). nra.
Qed.
Lemma near_below k v r f : (26 <= k)%Z -> Rabs (r - v) <= bpow radix2 (- k) * Rabs v -> F24 f -> v <= f -> RN24 r <= f.
Proof.
  intros Hk H Ff L. pose proof (near_above k (- v) (- r) (- f) Hk) as K. rewrite RN24_opp, Rabs_Ropp in K.
  replace (- r - - v) with (- (r - v)) in K by ring. rewrite Rabs_Ropp in K. specialize (K H (generic_format_opp _ _ _ Ff) ltac:(lra)). lra.
Qed.

Theorem nearly_faithful k v b : (26 <= k)%Z -> nearly_rounded k v b -> faithful v b.
Proof.
  intros Hk (r & H & Hb & _ & A & B).
  assert (B1 : bpow radix2 (2^(8-1)) = bpow radix2 128) by reflexivity. rewrite B1 in A, B.
  assert (T : ffinite 23 8 b = true /\ fval 23 8 b = RN24 r \/ (ffinite 23 8 b = false /\ fisnan 23 8 b = false /\ bpow radix2 128 <= Rabs (RN24 r))).
  { destruct (Rlt_or_le (Rabs (RN24 r)) (bpow radix2 128)) as [L|L]; [left; exact (A L)|right].
    specialize (B L). unfold ffinite, fisnan. rewrite B, Z.ltb_irrefl. auto. }
  split; [exact Hb|]. destruct T as [[F V]|(F & N & G)].
  - split; [apply (finite_not_nan 23 8); exact F|]. split; [|congruence]. intros _ f Hf Ff. rewrite V.
    pose proof (fval_format 23 8 eq_refl eq_refl f Hf) as FF. change (generic_format radix2 (FLT_exp (emin 23 8) (23 + 1)) (fval 23 8 f)) with (F24 (fval 23 8 f)) in FF.
    split; intros [L1 L2].
    + pose proof (near_above k v r _ Hk H FF L2). lra.
    + pose proof (near_below k v r _ Hk H FF L1). lra.
  - split; [exact N|]. split; [congruence|]. intros _ f Hf Ff. apply Rnot_le_lt. intros L.
    pose proof (fval_format 23 8 eq_refl eq_refl f Hf) as FF. change (generic_format radix2 (FLT_exp (emin 23 8) (23 + 1)) (fval 23 8 f)) with (F24 (fval 23 8 f)) in FF.
    pose proof (fval_bound 23 8 eq_refl eq_refl eq_refl f Hf Ff) as FB. rewrite B1 in FB.
    assert (FA : F24 (Rabs (fval 23 8 f))) by (apply generic_format_abs; exact FF).
    destruct (Rle_or_lt 0 v) as [P|P].
    + rewrite (Rabs_pos_eq v P) in L. pose proof (near_below k v r _ Hk H FA L). pose proof (near_above k v r _ Hk H (generic_format_0 _ _) P). rewrite Rabs_pos_eq in G by lra. lra.
    + rewrite (Rabs_left v P) in L. pose proof (near_above k v r _ Hk H (generic_format_opp _ _ _ FA) ltac:(lra)). pose proof (near_below k v r _ Hk H (generic_format_0 _ _) ltac:(lra)). rewrite Rabs_left1 in G by lra. lra.
Qed.

(** between two reals that round differently there is a midpoint *)
Lemma midpoint_between x y : 0 <= x -> RN24 x < RN24 y -> exists n, (0 <= n)%Z /\ x <= midpoint n <= y.
Proof.
  intros P L. set (f := RN24 x) in *. assert (Ff : F24 f) by apply RN24_F.
  assert (P0 : 0 <= f) by (unfold f; rewrite <- (RN24_id 0) by apply generic_format_0; apply RN24_le; exact P).
  pose proof (between (-149) 24 (-1074) 53 eq_refl ltac:(lia) ltac:(lia) x) as [_ U]. change (round radix2 (FLT_exp (-149) 24) ZnearestE x) with f in U.
  assert (Fs : succ24 f <= RN24 y) by (apply succ_le_lt; [typeclasses eauto|exact Ff|apply RN24_F|exact L]).
  set (g := RN24 y) in *. pose proof (between (-149) 24 (-1074) 53 eq_refl ltac:(lia) ltac:(lia) y) as [D _]. change (round radix2 (FLT_exp (-149) 24) ZnearestE y) with g in D. assert (Fg : F24 g) by apply RN24_F.
  assert (K : f <= pred24 g) by (apply pred_ge_gt; [typeclasses eauto|exact Ff|exact Fg|exact L]).
  assert (M : x <= (f + succ24 f) / 2 <= y) by lra.
  assert (HM : half24 ((f + succ24 f) / 2)) by (apply half_up; exact Ff).
  assert (SP : f < succ24 f). { pose proof (succ_gap f Ff). destruct (Req_dec f 0) as [Z|Z]; [|pose proof (Rabs_pos_lt f Z); pose proof (bpow_gt_0 radix2 (-24)); nra]. rewrite Z, succ_0, ulp_FLT_0 by reflexivity. apply bpow_gt_0. }
  destruct (halfway_pos (-149) 24 (-1074) 53 eq_refl ltac:(lia) ltac:(lia) _ HM ltac:(lra)) as (n & e & E & Hn & He & HL).
  exists ((e - -149) * 2^23 + n)%Z. split; [lia|]. unfold midpoint.
  assert (Q : (0 <= n <= 2^(23 + 1))%Z) by (change (2^(23+1))%Z with (2^24)%Z; lia).
  change (-149)%Z with (emin 23 8). rewrite (fmag_pack 23 8 eq_refl e n He Q HL).
  replace ((e - emin 23 8) * 2^23 + n + 1)%Z with ((e - emin 23 8) * 2^23 + (n + 1))%Z by ring.
  rewrite (fmag_pack 23 8 eq_refl e (n + 1) He) by (change (2^(23+1))%Z with (2^24)%Z; change (emin 23 8) with (-149)%Z; lia).
  unfold F2R. cbn [Fnum Fexp]. rewrite <- Rmult_plus_distr_r, <- plus_IZR. replace (n + (n + 1))%Z with (2 * n + 1)%Z by ring.
  replace (IZR (2 * n + 1) * bpow radix2 e / 2) with ((f + succ24 f) / 2); [exact M|]. rewrite E. unfold Zminus. rewrite bpow_plus. change (bpow radix2 (- (1))) with (/ 2). field.
Qed.

Lemma nearly_correct_pos k v r : (1 <= k)%Z -> 0 <= v -> Rabs (r - v) <= bpow radix2 (- k) * Rabs v ->
  (forall n, (0 <= n)%Z -> bpow radix2 (- k) * Rabs v < Rabs (Rabs v - midpoint n)) -> RN24 r = RN24 v.
Proof.
  intros Hk P H M. rewrite (Rabs_pos_eq v P) in *.
  assert (B : bpow radix2 (- k) < 1) by (change 1 with (bpow radix2 0); apply bpow_lt; lia).
  assert (Pr : 0 <= r) by (apply Rabs_le_inv in H; nra). apply Rabs_le_inv in H.
  destruct (Rtotal_order (RN24 r) (RN24 v)) as [L|[L|L]]; [|exact L|].
  - destruct (midpoint_between r v Pr L) as (n & Hn & Hm). specialize (M n Hn). rewrite Rabs_pos_eq in M by lra. lra.
  - destruct (midpoint_between v r P L) as (n & Hn & Hm). specialize (M n Hn). rewrite Rabs_left1 in M by lra. lra.
Qed.

Theorem nearly_correct k v b : (1 <= k)%Z -> nearly_rounded k v b ->
  (forall n, (0 <= n)%Z -> bpow radix2 (- k) * Rabs v < Rabs (Rabs v - midpoint n)) -> rounds_to 23 8 v (Rlt_bool v 0) b.
Proof.
  intros Hk (r & H & R) M. apply (same_result r); [|exact R].
  destruct (Rle_or_lt 0 v) as [P|P]; [apply (nearly_correct_pos k); assumption|].
  pose proof (nearly_correct_pos k (- v) (- r) Hk ltac:(lra)) as K. rewrite !RN24_opp, Rabs_Ropp in K.
  replace (- r - - v) with (- (r - v)) in K by ring. rewrite Rabs_Ropp in K. specialize (K H M). lra.
Qed.
