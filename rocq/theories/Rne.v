(** Integer rounding to nearest-even: scaling, sticky bits, tests used in code. *)
From Coq Require Import Reals Lra.
From Flocq Require Import Core.
From Verif Require Import Base Bits FP FP_Proof.
Open Scope Z_scope.
Local Ltac Zify.zify_post_hook ::= idtac.

Lemma rne_unfold n d : rne n d = n / d + b2z (d <? 2 * (n mod d) + (n / d) mod 2).
Proof.
  unfold rne. rewrite Zmod_even. destruct (Z.even (n / d)) eqn:E; unfold b2z.
  - destruct (Z.ltb_spec (2 * (n mod d)) d), (Z.ltb_spec d (2 * (n mod d))), (Z.ltb_spec d (2 * (n mod d) + 0)); lia.
  - destruct (Z.ltb_spec (2 * (n mod d)) d), (Z.ltb_spec d (2 * (n mod d))), (Z.ltb_spec d (2 * (n mod d) + 1)); lia.
Qed.

Lemma rne_scale n d c : 0 < c -> 0 < d -> rne (n * c) (d * c) = rne n d.
Proof.
  intros Hc Hd. rewrite !rne_unfold. rewrite Z.div_mul_cancel_r, Z.mul_mod_distr_r by lia.
  f_equal. f_equal. pose proof (Z.mod_pos_bound n d Hd). pose proof (Z.mod_pos_bound (n / d) 2 ltac:(lia)).
  set (r := n mod d) in *. set (b := (n / d) mod 2) in *.
  destruct (Z.lt_trichotomy (2 * r) d) as [L|[L|L]].
  - assert (2 * (r * c) + c <= d * c) by nia. lia.
  - assert (2 * (r * c) = d * c) by (rewrite <- L; ring). lia.
  - assert (d * c + c <= 2 * (r * c)) by nia. lia.
Qed.

Lemma rne_0 n d : 0 <= n -> 2 * n <= d -> 0 < d -> rne n d = 0.
Proof.
  intros Hn H Hd. rewrite rne_unfold. rewrite Z.div_small, Z.mod_small by lia. change (0 mod 2) with 0.
  unfold b2z. destruct (Z.ltb_spec d (2 * n + 0)); lia.
Qed.

Lemma rne_range n d lo hi : 0 < d -> lo * d <= n <= hi * d -> lo <= rne n d <= hi.
Proof.
  intros Hd H. pose proof (rne_bounds n d Hd) as B.
  assert (lo <= n / d) by (apply Z.div_le_lower_bound; lia).
  split; [lia|]. destruct (Z.lt_ge_cases (n / d) hi) as [|G]; [lia|].
  assert (E : n = hi * d).
  { pose proof (Z.div_mod n d ltac:(lia)). pose proof (Z.mod_pos_bound n d Hd). nia. }
  rewrite E, rne_exact by lia. lia.
Qed.

(** [A | (B != 0)] keeps enough to round [A * 2^g + B] two or more bits up. *)
Lemma lor_bool x (b : bool) : Z.lor x (b2z b) = x + (if b then 1 - x mod 2 else 0).
Proof.
  destruct b; cbn [b2z]; [|rewrite Z.lor_0_r; lia].
  pose proof (lor_bit x 0 ltac:(lia)) as H. change (2^0) with 1 in H. rewrite Z.div_1_r in H. rewrite H. lia.
Qed.

Lemma rne_sticky n g s : 0 <= n -> 0 <= g -> 2 <= s ->
  rne n (2^(g + s)) = rne (Z.lor (n / 2^g) (b2z (negb (n mod 2^g =? 0)))) (2^s).
Proof.
  intros Hn Hg Hs.
  assert (PG : 0 < 2^g) by (apply pow2_pos; lia). assert (PS : 0 < 2^s) by (apply pow2_pos; lia).
  assert (EG : 2^(g+s) = 2^g * 2^s) by (apply Z.pow_add_r; lia).
  assert (ES : 2^s = 4 * 2^(s-2)) by (change 4 with (2^2); rewrite <- Z.pow_add_r by lia; f_equal; lia).
  set (A := n / 2^g). set (B := n mod 2^g).
  assert (EN : n = A * 2^g + B) by (pose proof (Z.div_mod n (2^g) ltac:(lia)); subst A B; lia).
  assert (HB : 0 <= B < 2^g) by (apply Z.mod_pos_bound; lia).
  set (Q := A / 2^s). set (R := A mod 2^s).
  assert (EA : A = Q * 2^s + R) by (pose proof (Z.div_mod A (2^s) ltac:(lia)); subst Q R; lia).
  assert (HR : 0 <= R < 2^s) by (apply Z.mod_pos_bound; lia).
  assert (PA : A mod 2 = R mod 2).
  { rewrite EA, ES. replace (Q * (4 * 2^(s-2)) + R) with (R + (2 * Q * 2^(s-2)) * 2) by ring. apply Z.mod_add. lia. }
  rewrite lor_bool, PA. set (st := if negb (B =? 0) then 1 - R mod 2 else 0).
  assert (PR : R = 2 * (R / 2) + R mod 2) by (apply Z.div_mod; lia). pose proof (Z.mod_pos_bound R 2 ltac:(lia)) as BR.
  assert (HST : 0 <= R + st < 2^s /\ 0 <= st <= 1).
  { subst st. destruct (B =? 0); cbn [negb]; lia. }
  rewrite !rne_unfold.
  assert (D1 : n / 2^(g+s) = Q). { rewrite EG, <- Z.div_div by lia. reflexivity. }
  assert (M1 : n mod 2^(g+s) = R * 2^g + B).
  { symmetry. apply Z.mod_unique with Q; [left; rewrite EG; assert ((R + 1) * 2^g <= 2^s * 2^g) by (apply Z.mul_le_mono_nonneg_r; lia); lia|]. rewrite EG; rewrite EN at 1; rewrite EA at 1; ring. }
  assert (D2 : (A + st) / 2^s = Q). { symmetry. apply Z.div_unique with (R + st); lia. }
  assert (M2 : (A + st) mod 2^s = R + st). { symmetry. apply Z.mod_unique with Q; lia. }
  rewrite D1, M1, D2, M2. f_equal. f_equal. pose proof (Z.mod_pos_bound Q 2 ltac:(lia)) as BQ.
  set (b := Q mod 2) in *. set (h := 2^(s-2)) in *.
  destruct (Z.lt_trichotomy R (2 * h)) as [L|[L|L]].
  - (* below half *)
    assert (2 * (R + st) + b < 2^s). { subst st. destruct (B =? 0); cbn [negb]; lia. }
    assert ((R + 1) * 2^g <= (2 * h) * 2^g) by (apply Z.mul_le_mono_nonneg_r; lia).
    rewrite EG. assert (2 * (R * 2^g + B) + b < 2^g * 2^s \/ (2 * (R * 2^g + B) + b <= 2^g * 2^s)) by lia. lia.
  - rewrite EG. assert (E2 : 2 * (R * 2^g) = 2^g * 2^s) by (rewrite ES, L; ring).
    subst st. assert (R mod 2 = 0) by (rewrite L, Z.mul_comm; apply Z.mod_mul; lia).
    destruct (Z.eqb_spec B 0) as [Z0|N0]; cbn [negb]; lia.
  - assert ((2 * h + 1) * 2^g <= R * 2^g) by (apply Z.mul_le_mono_nonneg_r; lia). rewrite EG.
    assert (2^s < 2 * (R + st) + b) by lia. assert (2^g * 2^s < 2 * (R * 2^g + B) + b) by lia. lia.
Qed.

(** the round-half-even test of the code, on the low bits [f] of [n] scaled to [W] *)
Lemma rne_test n s : 0 <= n -> 1 <= s -> rne n (2^s) = n / 2^s + b2z (2^s <? Z.lor (2 * (n mod 2^s)) ((n / 2^s) mod 2)).
Proof.
  intros Hn Hs. rewrite rne_unfold. f_equal. f_equal. f_equal.
  pose proof (Z.mod_pos_bound (n / 2^s) 2 ltac:(lia)). replace (2 * (n mod 2^s)) with ((n mod 2^s) * 2^1) by lia.
  rewrite lor_mul_low; lia.
Qed.

Section F.
Variables mw ew : Z.
Hypothesis Hmw : 0 < mw.
Hypothesis Hew : 1 < ew.
Lemma RN_tiny x : (0 <= x <= bpow radix2 (emin mw ew - 1))%R -> RN mw ew x = 0%R.
Proof.
  intros [H0 H1].
  assert (P : RN mw ew (F2R (Float radix2 1 (emin mw ew - 1))) = 0%R).
  { rewrite (RN_dyadic mw ew Hmw 1 (emin mw ew - 1) (emin mw ew)); try lia.
    - replace (emin mw ew - (emin mw ew - 1)) with 1 by lia. change (rne 1 (2^1)) with 0. apply F2R_0.
    - replace (emin mw ew - (emin mw ew - 1)) with 1 by lia. change (1 / 2^1) with 0. apply pow2_pos. lia. }
  rewrite F2R_bpow in P || (unfold F2R in P; cbn [Fnum Fexp] in P; rewrite Rmult_1_l in P).
  apply Rle_antisym.
  - rewrite <- P. apply round_le; [apply FLT_exp_valid; unfold Prec_gt_0; lia|typeclasses eauto|exact H1].
  - rewrite <- (RN_0 mw ew). apply round_le; [apply FLT_exp_valid; unfold Prec_gt_0; lia|typeclasses eauto|exact H0].
Qed.
Lemma rounds_of_RN x y neg b : rounds_to mw ew x neg b -> RN mw ew x = RN mw ew y -> rounds_to mw ew y neg b.
Proof. unfold rounds_to. intros H E. rewrite <- E. exact H. Qed.
End F.
