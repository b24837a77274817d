(** trunc, the rounding instructions, rint, round, modf and the conversions to integers. *)
From Coq Require Import Reals Lra.
From Flocq Require Import Core BinarySingleNaN.
From Verif Require Import Base Bits FP FP_Proof HW HW_Proof FPInt FPOps Int128_Model Math_Model Math_Round_Proof Rne.
Open Scope Z_scope.
Local Ltac Zify.zify_post_hook ::= idtac.

Lemma round_fix rnd x : round radix2 (FIX_exp 0) rnd x = IZR (rnd x).
Proof. unfold round, F2R, scaled_mantissa, cexp, FIX_exp. cbn. rewrite !Rmult_1_r. reflexivity. Qed.

Lemma ZnearestE_opp x : ZnearestE (- x) = - ZnearestE x.
Proof. apply eq_IZR. rewrite opp_IZR, <- !(round_fix ZnearestE). apply round_NE_opp. Qed.

Section Format.
Set Default Proof Using "All".
Variables mw ew : Z.
Hypothesis Hmw : 0 < mw.
Hypothesis Hew0 : 0 < ew.
Hypothesis Hpe : mw + 1 < 2^(ew - 1).
Hypothesis Hew : 1 < ew.

Notation emin := (emin mw ew).
Notation fval := (fval mw ew).
Notation fabsb := (fabsb mw ew).
Notation fneg := (fneg mw ew).
Notation fbits := (fbits mw ew).
Notation ffinite := (ffinite mw ew).
Notation with_sign := (with_sign mw ew).
Notation imag := (imag mw).
Notation ival := (ival mw ew).
Notation unit := (unit mw ew).
Notation finf := (finf mw ew).
Notation limit := (limit mw ew).
Notation repr := (repr mw).
Notation W := (mw + ew + 1).
Notation bias := (2^(ew - 1) - 1).
Notation hofZ := (hofZ mw ew Hmw Hpe).
Notation hadd := (hadd mw ew Hmw Hew0 Hpe).
Notation hsub := (hsub mw ew Hmw Hew0 Hpe).
Notation rounds_int := (rounds_int mw ew).

Lemma trunc_ok x : fbits x -> exists r, trunc_ mw ew x = Ok r /\ rounds_int Ztrunc x r.
Proof.
  intros Hx. unfold trunc_. cbv zeta. rewrite sgn_magnitude by (assumption || exact Hew).
  pose proof (fabsb_range mw ew Hmw Hew x) as R. pose proof (unit_pos mw ew Hmw Hew) as U.
  pose proof (big_finf mw ew Hmw Hew0 Hpe Hew) as BF. pose proof (pmw mw Hmw) as P. pose proof (pmw1 mw Hmw) as P1. pose proof (finf_pos mw ew Hmw Hew) as FI.
  pose proof (pow_ew ew Hew) as PE. destruct (pW mw ew Hmw Hew) as (W1 & W2 & W3).
  assert (V : Ztrunc (fval x) = Z.quot (ival x) unit) by (apply Ztrunc_fval; [assumption|exact Hew]).
  assert (BO : c_one mw ew <= c_big mw ew).
  { rewrite (c_one_eq mw ew Hmw Hew0 Hpe Hew), (c_big_eq mw ew Hmw Hew0 Hpe Hew). apply Z.mul_le_mono_nonneg_r; lia. }
  assert (QS : forall (b : bool) n, 0 <= n -> Z.quot (if b then - n else n) unit = if b then - (n / unit) else n / unit).
  { intros b n Hn. destruct b; [rewrite Z.quot_opp_l by lia; f_equal|]; apply Z.quot_div_nonneg; lia. }
  pose proof (imag_nonneg mw ew Hmw Hew (fabsb x) ltac:(lia)) as IN.
  destruct (Z.ltb_spec (fabsb x) (c_one mw ew)) as [S|S].
  - assert (F : ffinite x = true) by (unfold FP.ffinite; lia).
    eexists. split; [reflexivity|].
    assert (E : Z.land (sgn W x) (2^(W-1)) mod 2^W = with_sign (fneg x) 0).
    { rewrite sgn_pattern by (assumption || exact Hew). rewrite W2.
      assert (L : forall y, Z.land y (2^(mw+ew)) = if Z.testbit y (mw + ew) then 2^(mw+ew) else 0).
      { intros y. apply Z.bits_inj'. intros i Hi. rewrite Z.land_spec, Z.pow2_bits_eqb by lia.
        destruct (Z.eqb_spec (mw + ew) i) as [->|N].
        - rewrite andb_true_r. destruct (Z.testbit y i); [rewrite Z.pow2_bits_true by lia; reflexivity|rewrite Z.bits_0; reflexivity].
        - rewrite andb_false_r. destruct (Z.testbit y (mw + ew)); [rewrite Z.pow2_bits_false by lia; reflexivity|rewrite Z.bits_0; reflexivity]. }
      rewrite L. destruct (fneg x) eqn:NG.
      - assert (Z.testbit (fabsb x - 2^(mw+ew)) (mw+ew) = true) as ->.
        { apply Z.testbit_true; [lia|]. assert ((fabsb x - 2^(mw+ew)) / 2^(mw+ew) = -1) as ->; [|reflexivity].
          symmetry. apply Z.div_unique with (fabsb x); lia. }
        unfold FP.with_sign. rewrite W1, Z.mod_small by lia. lia.
      - assert (Z.testbit (fabsb x - 0) (mw+ew) = false) as ->.
        { apply Z.testbit_false; [lia|]. rewrite Z.sub_0_r, Z.div_small by lia. reflexivity. }
        unfold FP.with_sign. rewrite Z.mod_0_l by lia. reflexivity. }
    rewrite E. destruct (result_val mw ew Hmw Hew0 Hpe Hew (fneg x) 0 0 ltac:(lia)) as (A & B & C & D).
    { rewrite imag_0 by exact Hmw. lia. }
    split; [exact A|]. split; [congruence|]. intros _. split; [exact B|]. split; [exact C|].
    rewrite D, V. f_equal. unfold FPInt.ival. rewrite QS by lia.
    rewrite Z.div_small by (apply (small_mag mw ew Hmw Hew0 Hpe Hew); lia). destruct (fneg x); reflexivity.
  - destruct (Z.ltb_spec (fabsb x) (c_big mw ew)) as [B|B].
    + assert (F : ffinite x = true) by (unfold FP.ffinite; lia).
      destruct (mid_mag mw ew Hmw Hew0 Hpe Hew (fabsb x) S B) as (j & q & s & Hj & Hq & Hs & Ek & Ei & Eu & Ex & Eb).
      rewrite shiftr_div by lia. rewrite Ex. rewrite rsh_mones by lia. replace (mw - (mw - s)) with s by lia. cbn [bind].
      eexists. split; [reflexivity|]. rewrite Z.land_comm.
      replace (- 2^s) with (Z.lnot (2^s - 1)) by (unfold Z.lnot; lia).
      rewrite sgn_pattern by (assumption || exact Hew). rewrite land_neg_mask by lia.
      destruct (down_mag mw ew Hmw Hew0 Hpe Hew j q s Hj Hq Hs) as (Q1 & _ & Q2). rewrite <- Ek in Q1, Q2.
      rewrite (signed_pattern mw ew Hmw Hew) by lia.
      destruct (result_val mw ew Hmw Hew0 Hpe Hew (fneg x) (fabsb x - fabsb x mod 2^s) _ ltac:(lia) (eq_trans Q1 (f_equal _ (eq_sym Eu)))) as (A & B' & C & D).
      split; [exact A|]. split; [congruence|]. intros _. split; [exact B'|]. split; [exact C|].
      rewrite D, V. f_equal. unfold FPInt.ival. rewrite QS by lia. rewrite Ei, Eu. reflexivity.
    + exists x. split; [reflexivity|]. apply integral_case; try assumption; [apply Ztrunc_IZR|].
      apply (big_mag mw ew Hmw Hew0 Hpe Hew); lia.
Qed.

(** ** The rounding instructions *)
Lemma hround_ok m x : fbits x -> let r := hround mw ew Hmw Hew0 Hpe m x in
  fbits r /\ (fisnan mw ew x = true -> fisnan mw ew r = true) /\ (fisinf mw ew x = true -> r = x) /\
  (ffinite x = true -> ffinite r = true /\ fneg r = fneg x /\ fval r = IZR (round_mode m (fval x))).
Proof.
  intros Hx. cbv zeta. unfold hround.
  pose proof (finf_pos mw ew Hmw Hew) as FI.
  assert (T : ffinite x = true \/ fisinf mw ew x = true \/ fisnan mw ew x = true) by (unfold FP.ffinite, fisinf, fisnan; lia).
  destruct T as [T|[T|T]].
  - destruct (dec_finite mw ew Hmw Hew0 Hpe x Hx T) as (A & B & C).
    pose proof (Bnearbyint_correct (mw+1) (2^(ew-1)) (hw_emax mw ew Hpe) m (dec mw ew Hmw Hew0 Hpe x)) as (N1 & N2 & N3).
    rewrite A in N2. rewrite B, round_fix in N1.
    destruct (enc_finite mw ew Hmw Hew0 Hpe _ N2) as (E1 & E2 & E3 & E4).
    split; [exact E1|]. split; [unfold fisnan, FP.ffinite in *; lia|]. split; [unfold fisinf, FP.ffinite in *; lia|].
    intros _. split; [exact E2|].
    assert (is_nan (Bnearbyint (prec_lt_emax_ := hw_emax mw ew Hpe) m (dec mw ew Hmw Hew0 Hpe x)) = false) as NN.
    { destruct (Bnearbyint _ _); cbn in *; congruence. }
    split; [rewrite <- C, <- (N3 NN); exact E4|rewrite <- N1; exact E3].
  - rewrite (dec_inf mw ew Hmw Hew0 Hpe x Hx T). cbn [Bnearbyint]. rewrite enc_inf.
    assert (with_sign (fneg x) finf = x) as ->.
    { symmetry. apply with_sign_inj; try assumption; try exact Hew; try reflexivity. unfold fisinf in T. lia. }
    split; [exact Hx|]. split; [unfold fisinf, fisnan in *; lia|]. split; [reflexivity|]. unfold fisinf, FP.ffinite in *. lia.
  - rewrite (dec_nan mw ew Hmw Hew0 Hpe x Hx T). cbn [Bnearbyint enc].
    destruct (qnan_nan ew mw ew Hew0 Hmw Hew0 Hpe) as [Q1 Q2]. split; [exact Q1|]. split; [intros _; exact Q2|].
    split; unfold fisnan, fisinf, FP.ffinite in *; lia.
Qed.

End Format.
