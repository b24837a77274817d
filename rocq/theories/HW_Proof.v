(** The native operations compute the correctly rounded results. *)
From Coq Require Import Reals Lra.
From Flocq Require Import Core Binary Bits BinarySingleNaN.
From Verif Require Import Base FP FP_Proof HW.
Open Scope Z_scope.
Local Ltac Zify.zify_post_hook ::= idtac.

Section Ops.
Variables mw ew : Z.
Hypothesis Hmw : 0 < mw.
Hypothesis Hew0 : 0 < ew.
Hypothesis Hpe : mw + 1 < 2^(ew - 1).

Lemma hw_ew : 1 < ew.
Proof.
  destruct (Z.eq_dec ew 1) as [E|N]; [|lia]. rewrite E in Hpe. change (2^(1-1)) with 1 in Hpe. lia.
Qed.
Notation Hew := hw_ew.

Notation prec := (mw + 1).
Notation emax := (2^(ew - 1)).
Notation bfloat := (BinarySingleNaN.binary_float prec emax).
Notation dec := (dec mw ew Hmw Hew0 Hpe).
Notation enc := (enc mw ew).
Notation fval := (fval mw ew).
Notation fneg := (fneg mw ew).
Notation fbits := (fbits mw ew).
Notation ffinite := (ffinite mw ew).
Notation RN := (RN mw ew).
Local Instance P1 : Prec_gt_0 prec := hw_prec mw Hmw.
Local Instance P2 : Prec_lt_emax prec emax := hw_emax mw ew Hpe.

Lemma dec_finite b : fbits b -> ffinite b = true ->
  is_finite (dec b) = true /\ B2R (dec b) = fval b /\ Bsign (dec b) = fneg b.
Proof.
  intros Hb Hf. destruct (fval_flocq mw ew Hmw Hew Hpe Hmw Hew0 b Hb) as (A & _ & _).
  destruct (A Hf) as (A1 & A2 & A3). unfold HW.dec.
  rewrite is_finite_B2BSN, B2R_B2BSN. split; [assumption|]. split; [assumption|].
  rewrite Bsign_B2BSN; [assumption|]. revert A1. destruct (binary_float_of_bits mw ew Hmw Hew0 Hpe b); cbn; congruence.
Qed.

Lemma dec_inf b : fbits b -> fisinf mw ew b = true -> dec b = B754_infinity (fneg b).
Proof.
  intros Hb Hf. destruct (fval_flocq mw ew Hmw Hew Hpe Hmw Hew0 b Hb) as (_ & A & _).
  unfold HW.dec. rewrite (A Hf). reflexivity.
Qed.

Lemma dec_nan b : fbits b -> fisnan mw ew b = true -> dec b = B754_nan.
Proof.
  intros Hb Hf. destruct (fval_flocq mw ew Hmw Hew Hpe Hmw Hew0 b Hb) as (_ & _ & A).
  unfold HW.dec. specialize (A Hf). destruct (binary_float_of_bits mw ew Hmw Hew0 Hpe b); cbn in *; congruence.
Qed.

Lemma bounded_pack m e : SpecFloat.bounded prec emax m e = true ->
  emin mw ew <= e /\ 0 <= Z.pos m <= 2^(mw + 1) /\ (e = emin mw ew \/ 2^mw <= Z.pos m) /\
  0 <= (e - emin mw ew) * 2^mw + Z.pos m < finf mw ew.
Proof.
  intros H. unfold SpecFloat.bounded in H. apply andb_prop in H. destruct H as [H1 H2].
  unfold SpecFloat.canonical_mantissa in H1. apply Zeq_bool_eq in H1. apply Zle_bool_imp_le in H2.
  rewrite Digits.Zpos_digits2_pos in H1. unfold SpecFloat.fexp in H1.
  rewrite (emin_flocq mw ew) in H1.
  assert (HP : 0 < 2^mw) by (apply pow2_pos; lia).
  assert (EP : 2^(mw + 1) = 2 * 2^mw) by (rewrite (Z.pow_add_r 2 mw 1) by lia; lia).
  destruct (pow_ew ew Hew) as [W1 W2].
  pose proof (Zpower_gt_Zdigits radix2 prec (Z.pos m) ltac:(lia)) as U.
  change (Zpower radix2 prec) with (2^(mw+1)) in U. cbn [Z.abs] in U.
  assert (L : e <> emin mw ew -> 2^mw <= Z.pos m).
  { intros Ne. pose proof (Zpower_le_Zdigits radix2 mw (Z.pos m) ltac:(lia)) as L.
    change (Zpower radix2 mw) with (2^mw) in L. cbn [Z.abs] in L. exact L. }
  assert (emin mw ew <= e) by lia.
  split; [assumption|]. split; [lia|]. split; [destruct (Z.eq_dec e (emin mw ew)); [left|right]; auto|].
  assert (E : (e - emin mw ew) * 2^mw <= (2^ew - 3) * 2^mw).
  { apply Z.mul_le_mono_nonneg_r; [lia|]. unfold emin. lia. }
  assert (0 <= (e - emin mw ew) * 2^mw) by (apply Z.mul_nonneg_nonneg; lia).
  unfold finf. lia.
Qed.

Lemma enc_finite f : is_finite f = true ->
  fbits (enc f) /\ ffinite (enc f) = true /\ fval (enc f) = B2R f /\ fneg (enc f) = Bsign f.
Proof.
  pose proof (finf_pos mw ew Hmw Hew) as FI.
  destruct f as [s|s| |s m e Hb]; cbn; try discriminate; intros _.
  - destruct (with_sign_spec mw ew Hmw Hew s 0 ltac:(lia)) as (A & B & C).
    split; [exact C|]. unfold FP.ffinite. rewrite A. split; [lia|]. split; [|exact B].
    rewrite with_sign_fval by (assumption || exact Hew || lia). rewrite fmag_0 by (assumption || exact Hew). destruct s; lra.
  - destruct (bounded_pack m e Hb) as (P1 & P2 & P3 & P4).
    destruct (with_sign_spec mw ew Hmw Hew s _ (conj (proj1 P4) (Z.lt_trans _ _ _ (proj2 P4) (proj2 FI)))) as (A & B & C).
    split; [exact C|]. unfold FP.ffinite. rewrite A. split; [lia|]. split; [|exact B].
    rewrite with_sign_fval by (assumption || exact Hew || lia). rewrite fmag_pack by (assumption || exact Hew).
    destruct s; [|reflexivity]. rewrite <- F2R_Zopp. reflexivity.
Qed.

Lemma enc_inf s : enc (B754_infinity s) = with_sign mw ew s (finf mw ew).
Proof. reflexivity. Qed.

Lemma round_flocq x : round radix2 (SpecFloat.fexp prec emax) (round_mode mode_NE) x = RN x.
Proof.
  unfold FP.RN. unfold FLT_exp, SpecFloat.fexp. rewrite (emin_flocq mw ew). reflexivity.
Qed.

(** From Flocq's correctness statements to [rounds_to]. *)
Lemma enc_rounds x (s : bool) (f : bfloat) :
  (if Rlt_bool (Rabs (RN x)) (bpow radix2 emax)
   then B2R f = RN x /\ is_finite f = true /\ Bsign f = s
   else B2SF f = SpecFloat.S754_infinity s) ->
  rounds_to mw ew x s (enc f).
Proof.
  pose proof (finf_pos mw ew Hmw Hew) as FI.
  destruct (Rlt_bool_spec (Rabs (RN x)) (bpow radix2 emax)) as [L|G]; intros H.
  - destruct H as (H1 & H2 & H3). destruct (enc_finite f H2) as (A & B & C & D).
    split; [exact A|]. split; [congruence|]. split.
    + intros _. split; [exact B|]. fold RN. congruence.
    + intros G. fold RN in G. lra.
  - assert (f = B754_infinity s) as -> by (destruct f; cbn in H; congruence).
    cbn [HW.enc]. destruct (with_sign_spec mw ew Hmw Hew s (finf mw ew) ltac:(lia)) as (A & B & C).
    split; [exact C|]. split; [exact B|]. split; [intros L; fold RN in L; lra|]. intros _. exact A.
Qed.

Lemma hmul_ok a b : fbits a -> fbits b -> ffinite a = true -> ffinite b = true ->
  rounds_to mw ew (fval a * fval b) (xorb (fneg a) (fneg b)) (hmul mw ew Hmw Hew0 Hpe a b).
Proof.
  intros Ha Hb Fa Fb. destruct (dec_finite a Ha Fa) as (A1 & A2 & A3). destruct (dec_finite b Hb Fb) as (B1 & B2 & B3).
  unfold hmul. apply enc_rounds.
  pose proof (Bmult_correct prec emax (hw_prec mw Hmw) (hw_emax mw ew Hpe) mode_NE (dec a) (dec b)) as H.
  rewrite round_flocq, A2, B2, A1, B1, A3, B3 in H. cbn [andb] in H.
  destruct (Rlt_bool _ _).
  - destruct H as (H1 & H2 & H3). split; [exact H1|]. split; [exact H2|]. apply H3.
    destruct (Bmult mode_NE (dec a) (dec b)); cbn in *; congruence.
  - exact H.
Qed.

Definition sum_sign (x : R) (sa sb : bool) : bool :=
  match Rcompare x 0 with Eq => andb sa sb | Lt => true | Gt => false end.

Lemma hadd_ok a b : fbits a -> fbits b -> ffinite a = true -> ffinite b = true ->
  rounds_to mw ew (fval a + fval b) (sum_sign (fval a + fval b) (fneg a) (fneg b)) (hadd mw ew Hmw Hew0 Hpe a b).
Proof.
  intros Ha Hb Fa Fb. destruct (dec_finite a Ha Fa) as (A1 & A2 & A3). destruct (dec_finite b Hb Fb) as (B1 & B2 & B3).
  unfold hadd. apply enc_rounds.
  pose proof (Bplus_correct prec emax (hw_prec mw Hmw) (hw_emax mw ew Hpe) mode_NE (dec a) (dec b) A1 B1) as H.
  rewrite round_flocq, A2, B2, A3, B3 in H.
  destruct (Rlt_bool_spec (Rabs (RN (fval a + fval b))) (bpow radix2 emax)) as [L|G].
  - exact H.
  - destruct H as [H1 H2]. rewrite H1. cbn. unfold binary_overflow. cbn. f_equal.
    unfold sum_sign.
    assert (SG : forall c, fbits c -> (fneg c = true -> (fval c <= 0)%R) /\ (fneg c = false -> (0 <= fval c)%R)).
    { intros c Hc. unfold FP.fval.
      pose proof (fmag_nonneg mw ew Hmw (fabsb mw ew c) (proj1 (Z.mod_pos_bound c _ (pow2_pos (mw + ew) ltac:(lia))))).
      destruct (FP.fneg mw ew c); split; intros; try discriminate; lra. }
    destruct (SG a Ha) as [Sa1 Sa2]. destruct (SG b Hb) as [Sb1 Sb2].
    assert (NZ : (fval a + fval b <> 0)%R).
    { intros E0. rewrite E0 in G. unfold FP.RN in G. rewrite round_0 in G by typeclasses eauto.
      rewrite Rabs_R0 in G. pose proof (bpow_gt_0 radix2 emax). lra. }
    destruct (Rcompare_spec (fval a + fval b) 0) as [C|C|C].
    + destruct (fneg a) eqn:Ea; [reflexivity|]. symmetry in H2. specialize (Sa2 eq_refl). specialize (Sb2 H2). lra.
    + contradiction.
    + destruct (fneg a) eqn:Ea; [|reflexivity]. symmetry in H2. specialize (Sa1 eq_refl). specialize (Sb1 H2). lra.
Qed.

Lemma hsub_ok a b : fbits a -> fbits b -> ffinite a = true -> ffinite b = true ->
  rounds_to mw ew (fval a - fval b) (sum_sign (fval a - fval b) (fneg a) (negb (fneg b))) (hsub mw ew Hmw Hew0 Hpe a b).
Proof.
  intros Ha Hb Fa Fb. destruct (dec_finite a Ha Fa) as (A1 & A2 & A3). destruct (dec_finite b Hb Fb) as (B1 & B2 & B3).
  unfold hsub. apply enc_rounds.
  pose proof (Bminus_correct prec emax (hw_prec mw Hmw) (hw_emax mw ew Hpe) mode_NE (dec a) (dec b) A1 B1) as H.
  rewrite round_flocq, A2, B2, A3, B3 in H.
  destruct (Rlt_bool_spec (Rabs (RN (fval a - fval b))) (bpow radix2 emax)) as [L|G].
  - exact H.
  - destruct H as [H1 H2]. rewrite H1. cbn. unfold binary_overflow. cbn. f_equal.
    unfold sum_sign.
    assert (SG : forall c, fbits c -> (fneg c = true -> (fval c <= 0)%R) /\ (fneg c = false -> (0 <= fval c)%R)).
    { intros c Hc. unfold FP.fval.
      pose proof (fmag_nonneg mw ew Hmw (fabsb mw ew c) (proj1 (Z.mod_pos_bound c _ (pow2_pos (mw + ew) ltac:(lia))))).
      destruct (FP.fneg mw ew c); split; intros; try discriminate; lra. }
    destruct (SG a Ha) as [Sa1 Sa2]. destruct (SG b Hb) as [Sb1 Sb2].
    assert (NZ : (fval a - fval b <> 0)%R).
    { intros E0. rewrite E0 in G. unfold FP.RN in G. rewrite round_0 in G by typeclasses eauto.
      rewrite Rabs_R0 in G. pose proof (bpow_gt_0 radix2 emax). lra. }
    destruct (Rcompare_spec (fval a - fval b) 0) as [C|C|C].
    + destruct (fneg a) eqn:Ea; [reflexivity|]. destruct (fneg b) eqn:Eb; [|discriminate].
      specialize (Sa2 eq_refl). specialize (Sb1 eq_refl). lra.
    + contradiction.
    + destruct (fneg a) eqn:Ea; [|reflexivity]. destruct (fneg b) eqn:Eb; [discriminate|].
      specialize (Sa1 eq_refl). specialize (Sb2 eq_refl). lra.
Qed.

Lemma hofZ_ok n : rounds_to mw ew (IZR n) (n <? 0) (hofZ mw ew Hmw Hpe n).
Proof.
  unfold hofZ. apply enc_rounds.
  pose proof (binary_normalize_correct prec emax (hw_prec mw Hmw) (hw_emax mw ew Hpe) mode_NE n 0 false) as H. cbv zeta in H.
  rewrite round_flocq in H.
  replace (F2R (Float radix2 n 0)) with (IZR n) in H by (unfold F2R; cbn; ring).
  destruct (Rlt_bool _ _).
  - destruct H as (H1 & H2 & H3). split; [exact H1|]. split; [exact H2|]. rewrite H3.
    destruct (Rcompare_spec (IZR n) 0) as [C|C|C].
    + apply lt_IZR in C. symmetry. apply Z.ltb_lt. exact C.
    + apply eq_IZR in C. rewrite C. reflexivity.
    + apply lt_IZR in C. symmetry. apply Z.ltb_ge. lia.
  - rewrite H. unfold binary_overflow. cbn. f_equal.
    destruct (Z.ltb_spec n 0).
    + apply Rlt_bool_true. apply IZR_lt. assumption.
    + apply Rlt_bool_false. apply IZR_le. assumption.
Qed.

Lemma htrunc_ok a : fbits a -> ffinite a = true -> htrunc mw ew Hmw Hew0 Hpe a = Some (Ztrunc (fval a)).
Proof.
  intros Ha Fa. unfold htrunc. rewrite Fa. f_equal. apply eq_IZR. rewrite Btrunc_correct.
  destruct (dec_finite a Ha Fa) as (_ & -> & _).
  unfold round, F2R, scaled_mantissa, cexp, FIX_exp. cbn. rewrite !Rmult_1_r. reflexivity.
  exact Hpe.
Qed.

(** Values of the format are fixed by rounding. *)
Lemma fval_format b : fbits b -> generic_format radix2 (FLT_exp (emin mw ew) prec) (fval b).
Proof.
  intros Hb.
  assert (F : generic_format radix2 (FLT_exp (emin mw ew) prec) (fmag mw ew (fabsb mw ew b))).
  { assert (H0 : 0 <= fabsb mw ew b) by (apply Z.mod_pos_bound, pow2_pos; lia).
    destruct (fmag_unpack mw ew Hmw _ H0) as (t & q & Ht & Hq & HL & E & ->).
    apply generic_format_FLT. exists (Float radix2 q t); [reflexivity| |assumption].
    cbn. change (Zpower_pos 2) with (Z.pow_pos 2). rewrite Z.abs_eq by lia. apply Hq. }
  unfold FP.fval. destruct (FP.fneg mw ew b); [apply generic_format_opp|]; exact F.
Qed.

Lemma RN_fval b : fbits b -> RN (fval b) = fval b.
Proof. intros Hb. apply round_generic; [typeclasses eauto|]. apply fval_format. exact Hb. Qed.

Lemma fval_bound b : fbits b -> ffinite b = true -> (Rabs (fval b) < bpow radix2 emax)%R.
Proof.
  intros Hb Hf. rewrite <- (fmag_inf mw ew Hmw Hew). unfold FP.ffinite in Hf.
  assert (H0 : 0 <= fabsb mw ew b) by (apply Z.mod_pos_bound, pow2_pos; lia).
  pose proof (fmag_lt mw ew Hmw (fabsb mw ew b) (finf mw ew) ltac:(lia)).
  pose proof (fmag_nonneg mw ew Hmw _ H0).
  unfold FP.fval. destruct (FP.fneg mw ew b); [rewrite Rabs_Ropp|]; rewrite Rabs_pos_eq; lra.
Qed.

(** When the exact result is a value of the format, the operation is exact. *)
Lemma rounds_exact x s r c : rounds_to mw ew x s r -> fbits c -> ffinite c = true -> fval c = x ->
  fbits r /\ ffinite r = true /\ fval r = x /\ fneg r = s.
Proof.
  intros (A & B & C & _) Hc Fc E. subst x.
  destruct (C ltac:(rewrite RN_fval by assumption; apply fval_bound; assumption)) as [C1 C2].
  rewrite RN_fval in C2 by assumption. auto.
Qed.

Lemma rounds_exact' x s r : rounds_to mw ew x s r ->
  generic_format radix2 (FLT_exp (emin mw ew) prec) x -> (Rabs x < bpow radix2 emax)%R ->
  fbits r /\ ffinite r = true /\ fval r = x /\ fneg r = s.
Proof.
  intros (A & B & C & _) G Hb.
  assert (E : RN x = x) by (apply round_generic; [typeclasses eauto|exact G]).
  fold RN in C. rewrite E in C. destruct (C Hb). auto.
Qed.

(** Order of patterns = order of values. *)
Lemma ford_lt a b : fbits a -> fbits b -> (ford mw ew a < ford mw ew b <-> (fval a < fval b)%R).
Proof.
  intros Ha Hb. unfold ford, FP.fval.
  assert (A0 : 0 <= fabsb mw ew a) by (apply Z.mod_pos_bound, pow2_pos; lia).
  assert (B0 : 0 <= fabsb mw ew b) by (apply Z.mod_pos_bound, pow2_pos; lia).
  pose proof (fmag_lt_iff mw ew Hmw _ _ A0 B0) as L1. pose proof (fmag_lt_iff mw ew Hmw _ _ B0 A0) as L2.
  pose proof (fmag_nonneg mw ew Hmw _ A0) as NA. pose proof (fmag_nonneg mw ew Hmw _ B0) as NB.
  pose proof (fmag_0 mw ew Hmw) as Z0.
  pose proof (fmag_lt_iff mw ew Hmw 0 _ ltac:(lia) A0) as LA. pose proof (fmag_lt_iff mw ew Hmw 0 _ ltac:(lia) B0) as LB.
  rewrite Z0 in LA, LB.
  destruct (FP.fneg mw ew a), (FP.fneg mw ew b).
  - rewrite <- Z.opp_lt_mono. rewrite L2. lra.
  - split; intros H.
    + assert (0 < fabsb mw ew a \/ 0 < fabsb mw ew b) as [K|K] by lia; [apply LA in K|apply LB in K]; lra.
    + assert (0 < fmag mw ew (fabsb mw ew a) \/ 0 < fmag mw ew (fabsb mw ew b))%R as [K|K] by lra; [apply LA in K|apply LB in K]; lia.
  - split; intros H; [lia|lra].
  - exact L1.
Qed.

Lemma ford_eq a b : fbits a -> fbits b -> (ford mw ew a = ford mw ew b <-> (fval a = fval b)%R).
Proof.
  intros Ha Hb. pose proof (ford_lt a b Ha Hb). pose proof (ford_lt b a Hb Ha).
  split; intros E.
  - apply Rle_antisym; apply Rnot_lt_le; intros K; [apply H0 in K|apply H in K]; lia.
  - destruct (Z.lt_trichotomy (ford mw ew a) (ford mw ew b)) as [K|[K|K]]; [apply H in K; lra|assumption|apply H0 in K; lra].
Qed.

Lemma finite_not_nan b : ffinite b = true -> fisnan mw ew b = false.
Proof. unfold FP.ffinite, fisnan. lia. Qed.

Lemma hlt_ok a b : fbits a -> fbits b -> ffinite a = true -> ffinite b = true ->
  (hlt mw ew a b = true <-> (fval a < fval b)%R).
Proof.
  intros Ha Hb Fa Fb. unfold hlt. rewrite !finite_not_nan by assumption. cbn [negb andb].
  rewrite Z.ltb_lt. apply ford_lt; assumption.
Qed.
Lemma heq_ok a b : fbits a -> fbits b -> ffinite a = true -> ffinite b = true ->
  (heq mw ew a b = true <-> fval a = fval b).
Proof.
  intros Ha Hb Fa Fb. unfold heq. rewrite !finite_not_nan by assumption. cbn [negb andb].
  rewrite Z.eqb_eq. apply ford_eq; assumption.
Qed.
Lemma hle_ok a b : fbits a -> fbits b -> ffinite a = true -> ffinite b = true ->
  (hle mw ew a b = true <-> (fval a <= fval b)%R).
Proof.
  intros Ha Hb Fa Fb. unfold hle. rewrite !finite_not_nan by assumption. cbn [negb andb].
  rewrite Z.leb_le. pose proof (ford_lt a b Ha Hb). pose proof (ford_lt b a Hb Ha). split; intros K.
  - apply Rnot_lt_le. intros C. apply H0 in C. lia.
  - apply Z.le_ngt. intros C. apply H0 in C. lra.
Qed.
End Ops.

Section Cvt.
Variables mw ew mw' ew' : Z.
Hypothesis Hmw : 0 < mw.
Hypothesis Hew : 0 < ew.
Hypothesis Hpe : mw + 1 < 2^(ew - 1).
Hypothesis Hmw' : 0 < mw'.
Hypothesis Hew' : 0 < ew'.
Hypothesis Hpe' : mw' + 1 < 2^(ew' - 1).
Notation cvt := (hcvt mw ew mw' ew' Hmw Hew Hpe Hmw' Hpe').

Lemma hcvt_ok a : fbits mw ew a -> ffinite mw ew a = true ->
  rounds_to mw' ew' (fval mw ew a) (fneg mw ew a) (cvt a).
Proof.
  intros Ha Fa. destruct (dec_finite mw ew Hmw Hew Hpe a Ha Fa) as (A & B & C).
  unfold hcvt. rewrite <- B, <- C. revert A. destruct (dec mw ew Hmw Hew Hpe a) as [s|s| |s m e Hb]; cbn; try discriminate; intros _.
  - apply (enc_rounds mw' ew' Hmw' Hew' Hpe' 0%R s (B754_zero s)).
    unfold RN. rewrite round_0 by typeclasses eauto. rewrite Rabs_R0.
    rewrite Rlt_bool_true by apply bpow_gt_0. auto.
  - apply enc_rounds; try assumption.
    pose proof (binary_normalize_correct (mw'+1) (2^(ew'-1)) (hw_prec mw' Hmw') (hw_emax mw' ew' Hpe') mode_NE
      (SpecFloat.cond_Zopp s (Z.pos m)) e s) as H. cbv zeta in H. rewrite round_flocq in H.
    assert (SG : (match Rcompare (F2R (Float radix2 (SpecFloat.cond_Zopp s (Z.pos m)) e)) 0 with
       | Eq => s | Lt => true | Gt => false end) = s /\
       Rlt_bool (F2R (Float radix2 (SpecFloat.cond_Zopp s (Z.pos m)) e)) 0 = s).
    { destruct s; cbn [SpecFloat.cond_Zopp].
      - assert (F2R (Float radix2 (- Z.pos m) e) < 0)%R by (apply F2R_lt_0; cbn; lia).
        rewrite Rcompare_Lt by assumption. rewrite Rlt_bool_true by assumption. auto.
      - assert (0 < F2R (Float radix2 (Z.pos m) e))%R by (apply F2R_gt_0; cbn; lia).
        rewrite Rcompare_Gt by assumption. rewrite Rlt_bool_false by lra. auto. }
    destruct SG as [S1 S2]. rewrite S1, S2 in H. exact H.
Qed.

Lemma hcvt_inf a : fbits mw ew a -> fisinf mw ew a = true -> cvt a = with_sign mw' ew' (fneg mw ew a) (finf mw' ew').
Proof. intros Ha Fa. unfold hcvt. rewrite dec_inf by assumption. reflexivity. Qed.

Lemma hcvt_nan a : fbits mw ew a -> fisnan mw ew a = true -> cvt a = qnan mw' ew'.
Proof. intros Ha Fa. unfold hcvt. rewrite dec_nan by assumption. reflexivity. Qed.

Lemma qnan_nan : fbits mw' ew' (qnan mw' ew') /\ fisnan mw' ew' (qnan mw' ew') = true.
Proof.
  pose proof (hw_ew mw' ew' Hmw' Hew' Hpe') as He. pose proof (finf_pos mw' ew' Hmw' He) as FI.
  assert (HP : 0 < 2^(mw'-1)) by (apply pow2_pos; lia).
  assert (EP : 2^mw' = 2 * 2^(mw'-1)) by (rewrite <- Z.pow_succ_r by lia; f_equal; lia).
  assert (E : finf mw' ew' + 2^mw' = 2^(mw'+ew')).
  { unfold finf. rewrite Z.pow_add_r by lia. ring. }
  unfold qnan, fbits, fisnan. rewrite (Z.pow_add_r 2 (mw'+ew') 1) by lia.
  unfold fabsb. rewrite Z.mod_small by lia. split; lia.
Qed.
End Cvt.
