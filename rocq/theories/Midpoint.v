(** Rounding twice: when rounding to a finer format first does not change the result. *)
From Coq Require Import Reals Lra ZArith Lia.
From Flocq Require Import Core.
Open Scope R_scope.

Lemma FLT_multiple emin prec n e : (0 < prec)%Z -> (emin <= e)%Z -> (Z.abs n <= 2^prec)%Z ->
  generic_format radix2 (FLT_exp emin prec) (IZR n * bpow radix2 e).
Proof.
  intros Hp He Hn. destruct (Z.eq_dec (Z.abs n) (2^prec)) as [K|K].
  - assert (E : (n = Z.sgn n * 2^prec)%Z) by lia. rewrite E, mult_IZR. change 2%Z with (radix_val radix2). rewrite IZR_Zpower by lia.
    rewrite Rmult_assoc, <- bpow_plus. apply generic_format_FLT. exists (Float radix2 (Z.sgn n) (prec + e)); cbn.
    + reflexivity.
    + assert (2 <= 2^prec)%Z. { change 2%Z with (2^1)%Z at 1. apply Z.pow_le_mono_r; lia. }
      change (Zpower_pos 2) with (Z.pow_pos 2). change (radix_val radix2) with 2%Z. change (Z.abs (Z.sgn n) < 2^prec)%Z. lia.
    + lia.
  - apply generic_format_FLT. exists (Float radix2 n e); cbn; [reflexivity| |exact He]. change (Z.abs n < 2^prec)%Z. lia.
Qed.

Lemma FLT_split emin prec x : (0 < prec)%Z -> generic_format radix2 (FLT_exp emin prec) x ->
  exists n, x = IZR n * bpow radix2 (cexp radix2 (FLT_exp emin prec) x) /\ (Z.abs n < 2^prec)%Z /\
    (emin <= cexp radix2 (FLT_exp emin prec) x)%Z /\
    (cexp radix2 (FLT_exp emin prec) x = emin \/ (2^(prec - 1) <= Z.abs n)%Z \/ x = 0).
Proof.
  intros Hp Fx. set (e := cexp radix2 (FLT_exp emin prec) x).
  assert (Ee : e = Z.max (mag radix2 x - prec) emin) by reflexivity.
  exists (Ztrunc (scaled_mantissa radix2 (FLT_exp emin prec) x)). rewrite Fx at 1. split; [reflexivity|].
  set (n := Ztrunc _). assert (EX : x = IZR n * bpow radix2 e) by exact Fx.
  destruct (Req_dec x 0) as [X0|X0].
  { assert (N0 : n = 0%Z). { apply eq_IZR. pose proof (bpow_gt_0 radix2 e). rewrite X0 in EX. nra. }
    rewrite N0. split; [cbn; apply Z.pow_pos_nonneg; lia|]. split; [lia|]. right. right. exact X0. }
  assert (A : Rabs x = IZR (Z.abs n) * bpow radix2 e).
  { rewrite EX, Rabs_mult, abs_IZR, (Rabs_pos_eq (bpow radix2 e)) by (apply bpow_ge_0). reflexivity. }
  pose proof (bpow_mag_gt radix2 x) as B1. pose proof (bpow_mag_le radix2 x X0) as B2. rewrite A in B1, B2.
  set (g := mag_val radix2 x (mag radix2 x)) in *.
  split; [|split; [lia|]].
  - apply lt_IZR. change 2%Z with (radix_val radix2). rewrite IZR_Zpower by lia. apply Rmult_lt_reg_r with (bpow radix2 e); [apply bpow_gt_0|].
    rewrite <- bpow_plus. apply Rlt_le_trans with (1 := B1). apply bpow_le. lia.
  - destruct (Z.eq_dec e emin) as [|NE]; [left; assumption|right; left].
    apply le_IZR. change 2%Z with (radix_val radix2). rewrite IZR_Zpower by lia. apply Rmult_le_reg_r with (bpow radix2 e); [apply bpow_gt_0|].
    rewrite <- bpow_plus. apply Rle_trans with (2 := B2). apply bpow_le. lia.
Qed.

Section Two.
Set Default Proof Using "All".
Variables e1 p1 e2 p2 : Z.
Hypothesis P1 : (0 < p1)%Z.
Hypothesis P2 : (p1 + 1 <= p2)%Z.
Hypothesis E2 : (e2 <= e1 - 1)%Z.
Notation f1 := (FLT_exp e1 p1).
Notation f2 := (FLT_exp e2 p2).
Notation F1 := (generic_format radix2 f1).
Notation F2 := (generic_format radix2 f2).
Notation RN1 := (round radix2 f1 ZnearestE).
Notation RN2 := (round radix2 f2 ZnearestE).
Notation succ1 := (succ radix2 f1).
Notation pred1 := (pred radix2 f1).

Local Instance V1 : Valid_exp f1.
Proof. apply FLT_exp_valid. exact P1. Qed.
Local Instance V2 : Valid_exp f2.
Proof. apply FLT_exp_valid. unfold Prec_gt_0. lia. Qed.
Local Instance M1 : Monotone_exp f1.
Proof. apply FLT_exp_monotone. Qed.

(** [x] is halfway between two neighbours of the coarse format *)
Definition halfway (x : R) : Prop := exists f, F1 f /\ x = (f + succ1 f) / 2.

Lemma halfway_pos x : halfway x -> 0 < x -> exists n e, x = IZR (2 * n + 1) * bpow radix2 (e - 1) /\
  (0 <= n < 2^p1)%Z /\ (e1 <= e)%Z /\ (e = e1 \/ (2^(p1 - 1) <= n)%Z).
Proof.
  intros (f & Ff & E) Hx.
  assert (Hf : 0 <= f).
  { destruct (Rle_or_lt 0 f) as [H|H]; [exact H|]. assert (K : succ1 f <= 0) by (apply succ_le_lt; [typeclasses eauto|exact Ff|apply generic_format_0|exact H]). lra. }
  rewrite succ_eq_pos in E by exact Hf.
  destruct (FLT_split e1 p1 f P1 Ff) as (n & En & Hn & He & Hc). set (e := cexp radix2 f1 f) in *.
  assert (n0 : (0 <= n)%Z).
  { apply le_IZR. pose proof (bpow_gt_0 radix2 e). rewrite En in Hf. apply Rmult_le_reg_r with (bpow radix2 e); lra. }
  destruct (Req_dec f 0) as [F0|F0].
  - rewrite F0 in E. rewrite ulp_FLT_0 in E by exact P1. exists 0%Z, e1. split; [|split; [|split; [lia|left; reflexivity]]].
    + rewrite E. unfold Zminus. rewrite bpow_plus. change (bpow radix2 (-(1))) with (/ 2). change (IZR (2 * 0 + 1)) with 1. lra.
    + split; [lia|apply Z.pow_pos_nonneg; lia].
  - rewrite ulp_neq_0 in E by exact F0. fold e in E. exists n, e.
    split; [|split; [lia|split; [exact He|destruct Hc as [C|[C|C]]; [left; exact C|right; lia|contradiction]]]].
    rewrite E, En. unfold Zminus. rewrite bpow_plus. change (bpow radix2 (-(1))) with (/ 2). rewrite plus_IZR, mult_IZR. lra.
Qed.

Lemma halfway_opp x : halfway x -> halfway (- x).
Proof.
  intros (f & Ff & E). exists (- succ1 f). split; [apply generic_format_opp, generic_format_succ; [typeclasses eauto|exact Ff]|].
  rewrite succ_opp, pred_succ by (exact Ff || typeclasses eauto). lra.
Qed.

Lemma halfway_fine x : halfway x -> F2 x.
Proof.
  assert (main : forall y, halfway y -> 0 < y -> F2 y).
  { intros y Hy Py. destruct (halfway_pos y Hy Py) as (n & e & -> & Hn & He & _). apply FLT_multiple; try lia.
    assert (2^(p1 + 1) = 2 * 2^p1)%Z by (rewrite Z.pow_add_r by lia; change (2^1)%Z with 2%Z; ring).
    assert (2^(p1+1) <= 2^p2)%Z by (apply Z.pow_le_mono_r; lia). lia. }
  intros Hx. destruct (Rtotal_order x 0) as [L|[->|L]].
  - rewrite <- (Ropp_involutive x). apply generic_format_opp. apply main; [apply halfway_opp; exact Hx|lra].
  - apply generic_format_0.
  - apply main; assumption.
Qed.

Lemma between x : let f := RN1 x in (pred1 f + f) / 2 <= x <= (f + succ1 f) / 2.
Proof.
  intros f. assert (Ff : F1 f) by (apply generic_format_round; typeclasses eauto).
  assert (ND : forall g, F1 g -> g < succ1 g).
  { intros g Fg. destruct (Req_dec g 0) as [->|N]; [|apply succ_gt_id; exact N]. rewrite succ_0, ulp_FLT_0 by exact P1. apply bpow_gt_0. }
  split; apply Rnot_lt_le; intros L.
  - assert (K : RN1 x <= pred1 f).
    { apply round_N_le_midp; [typeclasses eauto|apply generic_format_pred; [typeclasses eauto|exact Ff]|].
      rewrite succ_pred by (exact Ff || typeclasses eauto). exact L. }
    fold f in K. pose proof (ND (pred1 f) ltac:(apply generic_format_pred; [typeclasses eauto|exact Ff])) as K2.
    rewrite succ_pred in K2 by (exact Ff || typeclasses eauto). lra.
  - assert (K : succ1 f <= RN1 x).
    { apply round_N_ge_midp; [typeclasses eauto|apply generic_format_succ; [typeclasses eauto|exact Ff]|].
      rewrite pred_succ by (exact Ff || typeclasses eauto). lra. }
    fold f in K. pose proof (ND f Ff). lra.
Qed.

(** [s] not halfway, no number of the fine format separating [x] from [s] *)
Lemma same_round x s : (forall m, F2 m -> m < s -> m < x) -> (forall m, F2 m -> s < m -> x < m) -> ~ halfway s -> RN1 x = RN1 s.
Proof.
  intros A B NH. set (f := RN1 s). assert (Ff : F1 f) by (apply generic_format_round; typeclasses eauto).
  pose proof (between s) as [L U]. fold f in L, U.
  assert (Hu : halfway ((f + succ1 f) / 2)) by (exists f; auto).
  assert (Hl : halfway ((pred1 f + f) / 2)).
  { exists (pred1 f). split; [apply generic_format_pred; [typeclasses eauto|exact Ff]|]. rewrite succ_pred by (exact Ff || typeclasses eauto). reflexivity. }
  apply Rle_antisym.
  - apply round_N_le_midp; [typeclasses eauto|exact Ff|]. apply B; [apply halfway_fine; exact Hu|].
    destruct U as [U|U]; [exact U|]. rewrite <- U in Hu. contradiction.
  - apply round_N_ge_midp; [typeclasses eauto|exact Ff|]. rewrite Rplus_comm. apply A; [apply halfway_fine; exact Hl|].
    destruct L as [L|L]; [exact L|]. rewrite L in Hl. contradiction.
Qed.

Lemma round_twice x : ~ halfway (RN2 x) -> RN1 x = RN1 (RN2 x).
Proof.
  apply same_round; intros m Fm L; apply Rnot_le_lt; intros K.
  - assert (RN2 x <= m) by (apply round_le_generic; [typeclasses eauto|typeclasses eauto|exact Fm|exact K]). lra.
  - assert (m <= RN2 x) by (apply round_ge_generic; [typeclasses eauto|typeclasses eauto|exact Fm|exact K]). lra.
Qed.
End Two.

(** A sum of p and a smaller c that is seen to be exact is. *)
Lemma sum_exact emin prec p c : (0 < prec)%Z ->
  let F := generic_format radix2 (FLT_exp emin prec) in
  let RN := round radix2 (FLT_exp emin prec) ZnearestE in
  F p -> F c -> Rabs c <= Rabs p -> RN (RN (p + c) - p) = c -> RN (p + c) = p + c.
Proof.
  intros Hp F RN Fp Fc L H.
  assert (V : Valid_exp (FLT_exp emin prec)) by (apply FLT_exp_valid; exact Hp).
  destruct (Req_dec c 0) as [C0|C0].
  { rewrite C0, Rplus_0_r. apply round_generic; [typeclasses eauto|exact Fp]. }
  destruct (FLT_split emin prec c Hp Fc) as (n & En & Hn & He & _). set (e := cexp radix2 (FLT_exp emin prec) c) in *.
  destruct (FLT_split emin prec p Hp Fp) as (m & Em & Hm & _). set (e' := cexp radix2 (FLT_exp emin prec) p) in *.
  assert (EE : (e <= e')%Z).
  { unfold e, e', cexp, FLT_exp. assert (mag radix2 c <= mag radix2 p)%Z by (apply mag_le_abs; assumption). lia. }
  assert (MU : forall a i, (e <= i)%Z -> IZR a * bpow radix2 i = IZR (a * 2^(i - e)) * bpow radix2 e).
  { intros a i Hi. rewrite mult_IZR. change 2%Z with (radix_val radix2). rewrite IZR_Zpower by lia. rewrite Rmult_assoc, <- bpow_plus. f_equal. f_equal. lia. }
  rewrite (MU m e' EE) in Em. set (m' := (m * 2^(e' - e))%Z) in *.
  assert (ES : p + c = IZR (m' + n) * bpow radix2 e) by (rewrite Em, En, plus_IZR; ring).
  destruct (Z_le_gt_dec (cexp radix2 (FLT_exp emin prec) (p + c)) e) as [SM|LG].
  { apply round_generic; [typeclasses eauto|]. rewrite ES. apply generic_format_F2R with (f := Float radix2 (m' + n) e) || idtac.
    change (IZR (m' + n) * bpow radix2 e) with (F2R (Float radix2 (m' + n) e)). apply generic_format_F2R. intros _.
    unfold F2R. cbn [Fnum Fexp]. rewrite <- ES. exact SM. }
  assert (MS : exists j, RN (p + c) - p = IZR j * bpow radix2 e).
  { unfold RN at 1. unfold round. set (t := ZnearestE _). exists (t * 2^(cexp radix2 (FLT_exp emin prec) (p + c) - e) - m')%Z.
    unfold F2R. cbn [Fnum Fexp]. rewrite MU by lia. rewrite Em at 2. rewrite minus_IZR. ring. }
  destruct MS as [j Ej]. rewrite Ej in H. pose proof (bpow_gt_0 radix2 e) as PB.
  assert (FM : forall k, (Z.abs k <= 2^prec)%Z -> F (IZR k * bpow radix2 e)) by (intros k Hk; apply FLT_multiple; assumption).
  assert (j = n).
  { destruct (Z.lt_trichotomy j n) as [J|[J|J]]; [exfalso| exact J |exfalso].
    - assert (K : RN (IZR j * bpow radix2 e) <= IZR (n - 1) * bpow radix2 e).
      { apply round_le_generic; [typeclasses eauto|typeclasses eauto|apply FM; lia|]. apply Rmult_le_compat_r; [lra|apply IZR_le; lia]. }
      rewrite H, En in K. apply Rmult_le_reg_r in K; [|exact PB]. apply le_IZR in K. lia.
    - assert (K : IZR (n + 1) * bpow radix2 e <= RN (IZR j * bpow radix2 e)).
      { apply round_ge_generic; [typeclasses eauto|typeclasses eauto|apply FM; lia|]. apply Rmult_le_compat_r; [lra|apply IZR_le; lia]. }
      rewrite H, En in K. apply Rmult_le_reg_r in K; [|exact PB]. apply le_IZR in K. lia. }
  subst j. rewrite <- En in Ej. lra.
Qed.
