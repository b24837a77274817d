(** Real-number side of the correctness of hypotf: the sum of squares, its square root and the midpoints of two floats. *)
From Coq Require Import Reals Lra Lia Psatz.
From Flocq Require Import Core Sterbenz Plus_error.
From Verif Require Import Base FP FP_Proof HW_Proof Midpoint Fmaf_Proof Hypotf_Num.
Open Scope R_scope.
Local Ltac Zify.zify_post_hook ::= idtac.
Local Existing Instance V53.
Local Existing Instance V24.
Local Instance M53 : Monotone_exp (FLT_exp (-1074) 53) := FLT_exp_monotone _ _.
Local Instance M24 : Monotone_exp (FLT_exp (-149) 24) := FLT_exp_monotone _ _.

Notation F24 := (generic_format radix2 (FLT_exp (-149) 24)).
Notation succ24 := (succ radix2 (FLT_exp (-149) 24)).
Notation pred24 := (pred radix2 (FLT_exp (-149) 24)).

Lemma RN53_F x : F53 (RN53 x).
Proof. rewrite RN53_eq. apply generic_format_round; typeclasses eauto. Qed.
Lemma RN24_F x : F24 (RN24 x).
Proof. rewrite RN24_eq. apply generic_format_round; typeclasses eauto. Qed.
Lemma RN53_id x : F53 x -> RN53 x = x.
Proof. rewrite RN53_eq. apply round_generic. typeclasses eauto. Qed.
Lemma RN53_le x y : x <= y -> RN53 x <= RN53 y.
Proof. rewrite RN53_eq. apply round_le; typeclasses eauto. Qed.
Lemma RN24_le x y : x <= y -> RN24 x <= RN24 y.
Proof. rewrite RN24_eq. apply round_le; typeclasses eauto. Qed.
Lemma RN24_id x : F24 x -> RN24 x = x.
Proof. rewrite RN24_eq. apply round_generic. typeclasses eauto. Qed.

Lemma F24_split x : F24 x -> exists n e, x = IZR n * bpow radix2 e /\ (Z.abs n < 2^24)%Z /\ (-149 <= e)%Z.
Proof. intros H. destruct (FLT_split (-149) 24 x eq_refl H) as (n & E & Hn & He & _). eauto. Qed.

Lemma F53_mul x y : F24 x -> F24 y -> F53 (x * y).
Proof.
  intros Hx Hy. destruct (F24_split x Hx) as (n & e & -> & Hn & He). destruct (F24_split y Hy) as (m & f & -> & Hm & Hf).
  replace (IZR n * bpow radix2 e * (IZR m * bpow radix2 f)) with (IZR (n * m) * bpow radix2 (e + f)) by (rewrite mult_IZR, bpow_plus; ring).
  apply F53_mult; [|lia]. rewrite Z.abs_mul. nia.
Qed.

(** the square of a midpoint is a double *)
Lemma half_square h : half24 h -> 0 < h -> F53 (h * h).
Proof.
  intros H P. destruct (halfway_pos (-149) 24 (-1074) 53 eq_refl ltac:(lia) ltac:(lia) h H P) as (n & e & -> & Hn & He & _).
  replace (_ * _) with (IZR ((2 * n + 1) * (2 * n + 1)) * bpow radix2 ((e - 1) + (e - 1))) by (rewrite mult_IZR, bpow_plus; ring).
  apply F53_mult; [|lia]. nia.
Qed.

Definition root (S : R) := RN53 (sqrt (RN53 S)).

Lemma root_ge h S : half24 h -> 0 < h -> h * h <= S -> h <= root S.
Proof.
  intros H P L. unfold root. rewrite RN53_eq. apply round_ge_generic; [typeclasses eauto|typeclasses eauto|apply (halfway_fine (-149) 24 (-1074) 53 eq_refl ltac:(lia) ltac:(lia)); exact H|].
  rewrite <- (sqrt_square h) by lra. apply sqrt_le_1_alt. apply round_ge_generic; [typeclasses eauto|typeclasses eauto|apply half_square; assumption|exact L].
Qed.
Lemma root_le h S : half24 h -> 0 < h -> S <= h * h -> root S <= h.
Proof.
  intros H P L. unfold root. rewrite RN53_eq. apply round_le_generic; [typeclasses eauto|typeclasses eauto|apply (halfway_fine (-149) 24 (-1074) 53 eq_refl ltac:(lia) ltac:(lia)); exact H|].
  rewrite <- (sqrt_square h) by lra. apply sqrt_le_1_alt. apply round_le_generic; [typeclasses eauto|typeclasses eauto|apply half_square; assumption|exact L].
Qed.

Lemma sqrt_lt_of S h : 0 <= S -> 0 < h -> S < h * h -> sqrt S < h.
Proof. intros A B C. rewrite <- (sqrt_square h) by lra. apply sqrt_lt_1_alt. lra. Qed.
Lemma sqrt_gt_of S h : 0 < h -> h * h < S -> h < sqrt S.
Proof. intros B C. rewrite <- (sqrt_square h) at 1 by lra. apply sqrt_lt_1_alt. nra. Qed.

Lemma root_lt h S : 0 <= S -> half24 h -> 0 < h -> root S < h -> sqrt S < h.
Proof. intros P H B L. apply sqrt_lt_of; auto. apply Rnot_le_lt. intros K. pose proof (root_ge h S H B K). lra. Qed.
Lemma root_gt h S : half24 h -> 0 < h -> h < root S -> h < sqrt S.
Proof. intros H B L. apply sqrt_gt_of; auto. apply Rnot_le_lt. intros K. pose proof (root_le h S H B K). lra. Qed.

Lemma succ24_gt f : F24 f -> f < succ24 f.
Proof. intros _. destruct (Req_dec f 0) as [->|N]; [|apply succ_gt_id; exact N]. rewrite succ_0, ulp_FLT_0 by reflexivity. apply bpow_gt_0. Qed.
Lemma pred24_lt f : F24 f -> pred24 f < f.
Proof. intros H. rewrite <- (succ_pred radix2 (FLT_exp (-149) 24) f) at 2 by (exact H || typeclasses eauto). apply succ24_gt. apply generic_format_pred; [typeclasses eauto|exact H]. Qed.
Lemma half_up f : F24 f -> half24 ((f + succ24 f) / 2).
Proof. intros H. exists f. auto. Qed.
Lemma half_dn f : F24 f -> half24 ((pred24 f + f) / 2).
Proof. intros H. exists (pred24 f). split; [apply generic_format_pred; [typeclasses eauto|exact H]|]. rewrite succ_pred by (exact H || typeclasses eauto). reflexivity. Qed.
Lemma F24_succ f : F24 f -> F24 (succ24 f).
Proof. apply generic_format_succ. typeclasses eauto. Qed.
Lemma F24_pred f : F24 f -> F24 (pred24 f).
Proof. apply generic_format_pred. typeclasses eauto. Qed.

Lemma RN24_ge_mid f x : F24 f -> (pred24 f + f) / 2 < x -> f <= RN24 x.
Proof. intros H L. rewrite RN24_eq. apply round_N_ge_midp; [typeclasses eauto|exact H|]. lra. Qed.
Lemma RN24_le_mid f x : F24 f -> x < (f + succ24 f) / 2 -> RN24 x <= f.
Proof. intros H L. rewrite RN24_eq. apply round_N_le_midp; [typeclasses eauto|exact H|]. lra. Qed.

Lemma root_nonneg S : 0 <= root S.
Proof. unfold root. rewrite <- (RN53_id 0) by apply generic_format_0. apply RN53_le, sqrt_pos. Qed.
Lemma RN24_nonneg x : 0 <= x -> 0 <= RN24 x.
Proof. intros H. rewrite <- (RN24_id 0) by apply generic_format_0. apply RN24_le, H. Qed.

(** the double root, unless itself a midpoint, rounds as the exact root *)
Lemma root_round S : 0 <= S -> ~ half24 (root S) -> RN24 (sqrt S) = RN24 (root S).
Proof.
  intros P NH. set (f := RN24 (root S)). assert (Ff : F24 f) by apply RN24_F.
  pose proof (between (-149) 24 (-1074) 53 eq_refl ltac:(lia) ltac:(lia) (root S)) as [L U]. change (round radix2 (FLT_exp (-149) 24) ZnearestE (root S)) with f in L, U.
  assert (f0 : 0 <= f) by (apply RN24_nonneg, root_nonneg).
  pose proof (succ24_gt f Ff) as G. pose proof (pred24_lt f Ff) as G'.
  apply Rle_antisym.
  - apply RN24_le_mid; [exact Ff|]. apply root_lt; [exact P|apply half_up; exact Ff|lra|].
    destruct U as [U|U]; [exact U|]. exfalso. apply NH. rewrite U. apply half_up. exact Ff.
  - destruct (Req_dec f 0) as [Z|Z]; [rewrite Z; apply RN24_nonneg, sqrt_pos|].
    apply RN24_ge_mid; [exact Ff|].
    assert (0 <= pred24 f) by (apply pred_ge_0; [typeclasses eauto|lra|exact Ff]).
    apply root_gt; [apply half_dn; exact Ff|lra|].
    destruct L as [L|L]; [exact L|]. exfalso. apply NH. rewrite <- L. apply half_dn. exact Ff.
Qed.

(** in any case the exact root rounds to a neighbour *)
Lemma root_near S : 0 <= S -> let f := RN24 (root S) in RN24 (sqrt S) <= succ24 f /\ (0 < f -> pred24 f <= RN24 (sqrt S)).
Proof.
  intros P f. assert (Ff : F24 f) by apply RN24_F.
  pose proof (between (-149) 24 (-1074) 53 eq_refl ltac:(lia) ltac:(lia) (root S)) as [L U]. change (round radix2 (FLT_exp (-149) 24) ZnearestE (root S)) with f in L, U.
  assert (f0 : 0 <= f) by (apply RN24_nonneg, root_nonneg).
  pose proof (succ24_gt f Ff) as G. pose proof (pred24_lt f Ff) as G'.
  pose proof (F24_succ f Ff) as Fs. pose proof (F24_pred f Ff) as Fp.
  pose proof (succ24_gt _ Fs) as G2. pose proof (pred24_lt _ Fp) as G3.
  split.
  - apply RN24_le_mid; [exact Fs|]. apply root_lt; [exact P|apply half_up; exact Fs|lra|lra].
  - intros f1. assert (0 <= pred24 f) by (apply pred_ge_0; [typeclasses eauto|lra|exact Ff]).
    destruct (Req_dec (pred24 f) 0) as [Z|Z]; [rewrite Z; apply RN24_nonneg, sqrt_pos|].
    assert (0 <= pred24 (pred24 f)) by (apply pred_ge_0; [typeclasses eauto|lra|exact Fp]).
    apply RN24_ge_mid; [exact Fp|]. apply root_gt; [apply half_dn; exact Fp|lra|lra].
Qed.

(** what comparing S with the squares of f and of its neighbouring midpoint decides *)
Lemma decide_up S : 0 <= S -> let f := RN24 (root S) in let m := (f + succ24 f) / 2 in f < sqrt S ->
  (S < m * m -> RN24 (sqrt S) = f) /\ (m * m < S -> RN24 (sqrt S) = succ24 f).
Proof.
  intros P f m L. assert (Ff : F24 f) by apply RN24_F. assert (f0 : 0 <= f) by (apply RN24_nonneg, root_nonneg).
  pose proof (succ24_gt f Ff) as G. destruct (root_near S P) as [N1 _]. fold f in N1.
  assert (m0 : 0 < m) by (unfold m; lra). split; intros C; apply Rle_antisym.
  - apply RN24_le_mid; [exact Ff|]. apply sqrt_lt_of; auto.
  - rewrite <- (RN24_id f Ff). apply RN24_le. lra.
  - exact N1.
  - apply RN24_ge_mid; [apply F24_succ; exact Ff|]. rewrite pred_succ by (exact Ff || typeclasses eauto). apply sqrt_gt_of; auto.
Qed.
Lemma decide_dn S : 0 <= S -> let f := RN24 (root S) in let m := (pred24 f + f) / 2 in 0 < f -> sqrt S < f ->
  (S < m * m -> RN24 (sqrt S) = pred24 f) /\ (m * m < S -> RN24 (sqrt S) = f).
Proof.
  intros P f m f1 L. assert (Ff : F24 f) by apply RN24_F.
  pose proof (pred24_lt f Ff) as G. destruct (root_near S P) as [_ N1]. fold f in N1. specialize (N1 f1).
  assert (0 <= pred24 f) by (apply pred_ge_0; [typeclasses eauto|lra|exact Ff]).
  assert (m0 : 0 < m) by (unfold m; lra). split; intros C; apply Rle_antisym.
  - apply RN24_le_mid; [apply F24_pred; exact Ff|]. rewrite succ_pred by (exact Ff || typeclasses eauto). apply sqrt_lt_of; auto.
  - exact N1.
  - rewrite <- (RN24_id f Ff). apply RN24_le. lra.
  - apply RN24_ge_mid; [exact Ff|]. apply sqrt_gt_of; auto.
Qed.

(** the small operand is negligible *)
Lemma negligible B b : F24 B -> 0 <= b -> b < B * (IZR (2^24 - 1) * bpow radix2 (-36)) -> RN24 (sqrt (B * B + b * b)) = B.
Proof.
  intros FB b0 L. change (bpow radix2 (-36)) with (/ IZR (2^36)) in L.
  assert (B0 : 0 < B).
  { assert (0 < IZR (2^24 - 1) * / IZR (2^36)) by (apply Rmult_lt_0_compat; [apply IZR_lt; reflexivity|apply Rinv_0_lt_compat, IZR_lt; reflexivity]).
    apply Rmult_lt_reg_r with (IZR (2^24 - 1) * / IZR (2^36)); lra. }
  destruct (FLT_split (-149) 24 B eq_refl FB) as (n & E & Hn & He & _).
  assert (U : succ24 B = B + ulp radix2 (FLT_exp (-149) 24) B) by (apply succ_eq_pos; lra).
  rewrite ulp_neq_0 in U by lra. set (u := bpow radix2 (cexp radix2 (FLT_exp (-149) 24) B)) in *.
  assert (u0 : 0 < u) by apply bpow_gt_0.
  assert (V : B < IZR (2^24) * u). { rewrite E. apply Rmult_lt_compat_r; [exact u0|]. apply IZR_lt. lia. }
  apply Rle_antisym.
  - apply RN24_le_mid; [exact FB|]. rewrite U. apply sqrt_lt_of; [nra|lra|].
    assert (b * b < B * u); [|nra].
    assert (K1 : b < B * / IZR (2^12)). { apply Rlt_trans with (1 := L). apply Rmult_lt_compat_l; [exact B0|]. change (2^24 - 1)%Z with 16777215%Z. change (2^36)%Z with 68719476736%Z. change (2^12)%Z with 4096%Z. lra. }
    change (2^12)%Z with 4096%Z in K1. change (2^24)%Z with 16777216%Z in V.
    assert (b * b <= (B * / 4096) * (B * / 4096)) by (apply Rmult_le_compat; lra).
    replace (B * / 4096 * (B * / 4096)) with (B * (B * / 16777216)) in H by field.
    assert (B * (B * / 16777216) < B * u) by (apply Rmult_lt_compat_l; lra). lra.
  - rewrite <- (RN24_id B FB) at 1. apply RN24_le. rewrite <- (sqrt_square B) at 1 by lra. apply sqrt_le_1_alt. nra.
Qed.

(** the residuals have the sign of the exact difference *)
Lemma residual_sign S z : F53 z -> F53 (S - RN53 S) -> forall D, D = RN53 (RN53 (RN53 S - z) + (S - RN53 S)) ->
  (D = 0 <-> S = z) /\ (0 < D <-> z < S) /\ (D < 0 <-> S < z).
Proof.
  intros Fz Fe D ED. set (r := RN53 S) in *. set (e := S - r) in *. set (d := r - z) in *.
  assert (Fr : F53 r) by apply RN53_F.
  assert (N : Rabs e <= Rabs (S - z)).
  { unfold e. pose proof (round_N_pt radix2 (FLT_exp (-1074) 53) (fun x => negb (Z.even x)) S) as [_ K]. specialize (K z Fz).
    change (round radix2 (FLT_exp (-1074) 53) ZnearestE S) with r in K. rewrite <- (Rabs_Ropp (S - r)), <- (Rabs_Ropp (S - z)).
    replace (- (S - r)) with (r - S) by ring. replace (- (S - z)) with (z - S) by ring. exact K. }
  assert (ES : S - z = d + e) by (unfold d, e; ring). rewrite ES in N.
  set (dr := RN53 d) in *. assert (Fd : F53 dr) by apply RN53_F.
  assert (F2e : forall s, F53 s -> F53 (2 * s)).
  { intros s Hs. destruct (FLT_split (-1074) 53 s eq_refl Hs) as (n & E & Hn & He & _). rewrite E. replace (2 * (IZR n * _)) with (IZR n * bpow radix2 (cexp radix2 (FLT_exp (-1074) 53) s + 1)).
    apply F53_mult; lia. rewrite bpow_plus. change (bpow radix2 1) with 2. ring. }
  assert (NZ : forall a b, F53 a -> F53 b -> a + b <> 0 -> RN53 (a + b) <> 0).
  { intros a b Ha Hb H. rewrite RN53_eq. apply round_plus_neq_0; try typeclasses eauto; assumption. }
  assert (PO : forall a b, F53 a -> F53 b -> 0 < a + b -> 0 < RN53 (a + b)).
  { intros a b Ha Hb H. assert (0 <= RN53 (a + b)). { rewrite <- (RN53_id 0) by apply generic_format_0. apply RN53_le. lra. }
    specialize (NZ a b Ha Hb ltac:(lra)). lra. }
  assert (NG : forall a b, F53 a -> F53 b -> a + b < 0 -> RN53 (a + b) < 0).
  { intros a b Ha Hb H. assert (RN53 (a + b) <= 0). { rewrite <- (RN53_id 0) by apply generic_format_0. apply RN53_le. lra. }
    specialize (NZ a b Ha Hb ltac:(lra)). lra. }
  assert (Fmz : F53 (- z)) by (apply generic_format_opp; exact Fz).
  destruct (Rtotal_order d 0) as [C|[C|C]].
  - assert (dr < 0) by (unfold dr, d; apply NG; auto; unfold d in C; lra).
    assert (NE : dr + e < 0 /\ d + e < 0).
    { destruct (Rle_or_lt e 0) as [A|A]; [lra|]. rewrite (Rabs_pos_eq e) in N by lra.
      assert (d + e < 0). { apply Rnot_le_lt. intros Q. rewrite Rabs_pos_eq in N by exact Q. lra. }
      rewrite Rabs_left in N by assumption. assert (dr <= - (2 * e)); [|lra].
      unfold dr. rewrite RN53_eq. apply round_le_generic; [typeclasses eauto|typeclasses eauto|apply generic_format_opp, F2e; exact Fe|lra]. }
    assert (D < 0) by (rewrite ED; apply NG; try assumption; apply NE).
    repeat split; intros; lra.
  - assert (Z0 : dr = 0) by (unfold dr; rewrite C; apply RN53_id, generic_format_0).
    rewrite Z0, Rplus_0_l, RN53_id in ED by exact Fe. repeat split; intros; lra.
  - assert (0 < dr) by (unfold dr, d; apply PO; auto; unfold d in C; lra).
    assert (NE : 0 < dr + e /\ 0 < d + e).
    { destruct (Rle_or_lt 0 e) as [A|A]; [lra|]. rewrite (Rabs_left e) in N by lra.
      assert (0 < d + e). { apply Rnot_le_lt. intros Q. rewrite Rabs_left1 in N by exact Q. lra. }
      rewrite Rabs_pos_eq in N by lra. assert (2 * (- e) <= dr); [|lra].
      unfold dr. rewrite RN53_eq. apply round_ge_generic; [typeclasses eauto|typeclasses eauto|apply F2e, generic_format_opp; exact Fe|lra]. }
    assert (0 < D) by (rewrite ED; apply PO; try assumption; apply NE).
    repeat split; intros; lra.
Qed.

(** TwoSum *)
Lemma sum_error x y : F53 x -> F53 y -> F53 (x + y - RN53 (x + y)).
Proof.
  intros Hx Hy. replace (x + y - RN53 (x + y)) with (- (RN53 (x + y) - (x + y))) by ring. apply generic_format_opp.
  rewrite RN53_eq. apply plus_error; try typeclasses eauto; assumption.
Qed.
Lemma sum_part x y : F53 x -> F53 y -> 0 <= y <= x -> F53 (RN53 (x + y) - x) /\ x <= RN53 (x + y) <= 2 * x.
Proof.
  intros Hx Hy L.
  assert (A : x <= RN53 (x + y)) by (rewrite <- (RN53_id x Hx) at 1; apply RN53_le; lra).
  assert (B : RN53 (x + y) <= 2 * x).
  { rewrite RN53_eq. apply round_le_generic; [typeclasses eauto|typeclasses eauto| |lra].
    destruct (FLT_split (-1074) 53 x eq_refl Hx) as (n & E & Hn & He & _). rewrite E. replace (2 * (IZR n * _)) with (IZR n * bpow radix2 (cexp radix2 (FLT_exp (-1074) 53) x + 1)).
    apply F53_mult; lia. rewrite bpow_plus. change (bpow radix2 1) with 2. ring. }
  split; [|lra]. apply sterbenz; try typeclasses eauto; [apply RN53_F|exact Hx|lra].
Qed.

(** near the overflow threshold *)
Definition top : R := IZR (2^25 - 1) * bpow radix2 103.

Lemma top_root B b : F24 B -> F24 b -> 0 <= b <= B -> B < bpow radix2 128 -> root (B * B + b * b) = top -> top * top <= B * B + b * b.
Proof.
  intros FB Fb L HB E. apply Rnot_lt_le. intros C. set (S := B * B + b * b) in *.
  assert (T2 : top * top = IZR ((2^25 - 1) * (2^25 - 1)) * bpow radix2 206).
  { unfold top. rewrite mult_IZR. replace 206%Z with (103 + 103)%Z by reflexivity. rewrite bpow_plus. ring. }
  assert (S1 : top * top - bpow radix2 202 <= S).
  { apply Rnot_lt_le. intros K.
    assert (R2 : RN53 S <= top * top - bpow radix2 203).
    { assert (F : F53 (IZR ((2^25 - 1) * (2^25 - 1) * 2^3 - 1) * bpow radix2 203)) by (apply F53_mult; [vm_compute; discriminate|lia]).
      replace (top * top - bpow radix2 203) with (IZR ((2^25 - 1) * (2^25 - 1) * 2^3 - 1) * bpow radix2 203).
      2:{ rewrite T2. rewrite minus_IZR, mult_IZR. replace 206%Z with (3 + 203)%Z by reflexivity. rewrite (bpow_plus radix2 3 203). change (bpow radix2 3) with (IZR (2^3)). ring. }
      rewrite RN53_eq. apply round_N_le_midp; [typeclasses eauto|exact F|].
      rewrite succ53 by lia. apply Rlt_le_trans with (1 := K). apply Req_le. rewrite T2.
      replace 206%Z with (4 + 202)%Z by reflexivity. replace 203%Z with (1 + 202)%Z by reflexivity. rewrite !(bpow_plus radix2 _ 202). change (bpow radix2 4) with (IZR (2^4)). change (bpow radix2 1) with 2.
      set (q := bpow radix2 202). field_simplify. 
      change (2^25 - 1)%Z with 33554431%Z. change (33554431 * 33554431)%Z with 1125899839733761%Z. change (1125899839733761 * 2^3 - 1)%Z with 9007198717870087%Z. change (9007198717870087 + 1)%Z with 9007198717870088%Z. change (2^4)%Z with 16%Z. lra. }
    assert (R3 : root S <= IZR ((2^25 - 1) * 2^28 - 1) * bpow radix2 75).
    { unfold root. rewrite RN53_eq. apply round_N_le_midp; [typeclasses eauto|apply F53_mult; [vm_compute; discriminate|lia]|].
      rewrite succ53 by lia.
      apply sqrt_lt_of.
      - rewrite <- RN53_eq. rewrite <- (RN53_id 0) by apply generic_format_0. apply RN53_le. unfold S. nra.
      - pose proof (bpow_gt_0 radix2 75). assert (0 < IZR ((2^25 - 1) * 2^28 - 1) * bpow radix2 75) by (apply Rmult_lt_0_compat; [apply IZR_lt; reflexivity|assumption]).
        assert (0 < IZR ((2^25 - 1) * 2^28 - 1 + 1) * bpow radix2 75) by (apply Rmult_lt_0_compat; [apply IZR_lt; reflexivity|assumption]). lra.
      - rewrite <- RN53_eq. apply Rle_lt_trans with (1 := R2).
        replace ((IZR ((2^25 - 1) * 2^28 - 1) * bpow radix2 75 + IZR ((2^25 - 1) * 2^28 - 1 + 1) * bpow radix2 75) / 2) with (top - bpow radix2 74).
        2:{ unfold top. replace 103%Z with (29 + 74)%Z by reflexivity. replace 75%Z with (1 + 74)%Z by reflexivity. rewrite !(bpow_plus radix2 _ 74). change (bpow radix2 29) with (IZR (2^29)). change (bpow radix2 1) with 2.
            set (q := bpow radix2 74). change ((2^25 - 1) * 2^28 - 1)%Z with 9007198986305535%Z. change (9007198986305535 + 1)%Z with 9007198986305536%Z. change (2^25 - 1)%Z with 33554431%Z. change (2^29)%Z with 536870912%Z. field. }
        assert (2 * top * bpow radix2 74 < bpow radix2 203); [|pose proof (bpow_gt_0 radix2 74); nra].
        unfold top. replace 203%Z with (26 + 103 + 74)%Z by reflexivity. rewrite (bpow_plus radix2 (26 + 103) 74). rewrite (bpow_plus radix2 26 103). change (bpow radix2 26) with (IZR (2^26)).
        apply Rmult_lt_compat_r; [apply bpow_gt_0|]. rewrite <- Rmult_assoc. apply Rmult_lt_compat_r; [apply bpow_gt_0|]. rewrite <- mult_IZR. apply IZR_lt. reflexivity. }
    rewrite E in R3. unfold top in R3. replace 103%Z with (28 + 75)%Z in R3 by reflexivity. rewrite (bpow_plus radix2 28 75) in R3. change (bpow radix2 28) with (IZR (2^28)) in R3.
    rewrite <- Rmult_assoc, <- mult_IZR in R3. apply Rmult_le_reg_r in R3; [|apply bpow_gt_0]. apply le_IZR in R3. revert R3. vm_compute. congruence. }
  (* B is large *)
  assert (P202 : 0 < bpow radix2 202) by apply bpow_gt_0.
  assert (SB : bpow radix2 254 < B * B).
  { assert (bpow radix2 255 < S).
    { apply Rlt_le_trans with (2 := S1). rewrite T2. replace 206%Z with (4 + 202)%Z by reflexivity. replace 255%Z with (53 + 202)%Z by reflexivity. rewrite !(bpow_plus radix2 _ 202).
      change (bpow radix2 4) with (IZR (2^4)). change (bpow radix2 53) with (IZR (2^53)). rewrite <- Rmult_assoc, <- mult_IZR. change ((2^25 - 1) * (2^25 - 1) * 2^4)%Z with 18014397435740176%Z. change (2^53)%Z with 9007199254740992%Z. nra. }
    assert (b * b <= B * B) by nra. replace 255%Z with (1 + 254)%Z in H by reflexivity. rewrite bpow_plus in H. change (bpow radix2 1) with 2 in H. unfold S in H. lra. }
  assert (B1 : bpow radix2 127 < B).
  { apply Rnot_le_lt. intros K. replace 254%Z with (127 + 127)%Z in SB by reflexivity. rewrite bpow_plus in SB. pose proof (bpow_gt_0 radix2 127). nra. }
  assert (norm : forall x k, F24 x -> (-126 <= k)%Z -> bpow radix2 k <= x -> exists n e, x = IZR n * bpow radix2 e /\ (2^23 <= n < 2^24)%Z /\ (k - 23 <= e)%Z).
  { intros x k Fx Hk Lx. destruct (FLT_split (-149) 24 x eq_refl Fx) as (n & En & Hn & He & Hc). set (e := cexp _ _ _) in *.
    assert (x0 : 0 < x) by (pose proof (bpow_gt_0 radix2 k); lra).
    assert (n0 : (0 < n)%Z). { apply lt_IZR. apply Rmult_lt_reg_r with (bpow radix2 e); [apply bpow_gt_0|]. rewrite Rmult_0_l, <- En. exact x0. }
    assert (KE : (k - 23 <= e)%Z).
    { apply Znot_gt_le. intros G. assert (x < bpow radix2 (24 + e)).
      { rewrite En, bpow_plus. apply Rmult_lt_compat_r; [apply bpow_gt_0|]. change (bpow radix2 24) with (IZR (2^24)). apply IZR_lt. lia. }
      assert (bpow radix2 (24 + e) <= bpow radix2 k) by (apply bpow_le; lia). lra. }
    exists n, e. split; [exact En|]. split; [|exact KE].
    destruct Hc as [Hc|[Hc|Hc]]; [|change (2^(24-1))%Z with (2^23)%Z in Hc; lia|lra].
    split; [|lia]. assert (k = -126)%Z by lia. subst k. rewrite En, Hc in Lx. change (-126)%Z with (23 + -149)%Z in Lx. rewrite bpow_plus in Lx.
    apply Rmult_le_reg_r in Lx; [|apply bpow_gt_0]. change (bpow radix2 23) with (IZR (2^23)) in Lx. apply le_IZR in Lx. exact Lx. }
  destruct (norm B 127%Z FB ltac:(lia) ltac:(lra)) as (nB & eB & EB & HnB & HeB).
  assert (eB = 104)%Z.
  { assert (eB + 23 < 128)%Z; [|lia]. apply (lt_bpow radix2). apply Rle_lt_trans with (2 := HB). rewrite EB, Z.add_comm, bpow_plus. apply Rmult_le_compat_r; [apply bpow_ge_0|]. change (bpow radix2 23) with (IZR (2^23)). apply IZR_le. lia. }
  subst eB.
  assert (BB : B * B = IZR (4 * (nB * nB)) * bpow radix2 206).
  { rewrite EB. replace 206%Z with (102 + 104)%Z by reflexivity. rewrite bpow_plus. replace 104%Z with (2 + 102)%Z at 2 by reflexivity. rewrite (bpow_plus radix2 2 102). change (bpow radix2 2) with 4. rewrite !mult_IZR. ring. }
  set (D := ((2^25 - 1) * (2^25 - 1) - 4 * (nB * nB))%Z).
  assert (HD : (2^26 - 3 <= D)%Z) by (unfold D; nia).
  assert (TB : top * top - B * B = IZR D * bpow radix2 206) by (rewrite T2, BB; unfold D; rewrite minus_IZR; ring).
  assert (b1 : bpow radix2 115 < b).
  { apply Rnot_le_lt. intros K. assert (b * b <= bpow radix2 230). { replace 230%Z with (115 + 115)%Z by reflexivity. rewrite bpow_plus. apply Rmult_le_compat; lra. }
    assert (IZR (2^26 - 3) * bpow radix2 206 <= IZR D * bpow radix2 206) by (apply Rmult_le_compat_r; [apply bpow_ge_0|apply IZR_le; exact HD]).
    rewrite <- TB in H0. replace 206%Z with (4 + 202)%Z in H0 by reflexivity. replace 230%Z with (28 + 202)%Z in H by reflexivity. rewrite bpow_plus in H, H0.
    change (bpow radix2 4) with 16 in H0. change (bpow radix2 28) with 268435456 in H. change (2^26 - 3)%Z with 67108861%Z in H0. unfold S in S1. lra. }
  destruct (norm b 115%Z Fb ltac:(lia) ltac:(lra)) as (s & t & Et & Hs & Ht).
  assert (HY : (2^23 <= s * 2^(t - 92))%Z).
  { assert (1 <= 2^(t - 92))%Z by (change 1%Z with (2^0)%Z; apply Z.pow_le_mono_r; lia). apply Z.le_trans with (s * 1)%Z; [lia|apply Z.mul_le_mono_nonneg_l; lia]. }
  apply (no_near_square nB s (t - 92) HnB ltac:(lia) ltac:(lia) HY).
  fold D. set (y := (s * 2^(t - 92))%Z).
  assert (Ey : b = IZR y * bpow radix2 92).
  { rewrite Et. unfold y. rewrite mult_IZR. change 2%Z with (radix_val radix2). rewrite IZR_Zpower by lia. rewrite Rmult_assoc, <- bpow_plus. do 2 f_equal. lia. }
  assert (EG : top * top - S = IZR (2^22 * D - y * y) * bpow radix2 184).
  { unfold S. replace (top * top - (B * B + b * b)) with (top * top - B * B - b * b) by ring. rewrite TB, Ey. replace 206%Z with (22 + 184)%Z by reflexivity. rewrite bpow_plus. change (bpow radix2 22) with (IZR (2^22)).
    rewrite minus_IZR, !mult_IZR. replace (bpow radix2 184) with (bpow radix2 92 * bpow radix2 92) by (rewrite <- bpow_plus; reflexivity). ring. }
  split.
  - apply lt_IZR. apply Rmult_lt_reg_r with (bpow radix2 184); [apply bpow_gt_0|]. rewrite <- EG. lra.
  - apply le_IZR. apply Rmult_le_reg_r with (bpow radix2 184); [apply bpow_gt_0|]. rewrite <- EG. change (IZR (2^18)) with (bpow radix2 18). rewrite <- bpow_plus. change (18 + 184)%Z with 202%Z. lra.
Qed.
