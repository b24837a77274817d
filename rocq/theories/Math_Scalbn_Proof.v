(** scalbn, ldexpl, scalbnf. *)
From Coq Require Import Reals Lra.
From Flocq Require Import Core BinarySingleNaN.
From Verif Require Import Base Bits FP FP_Proof HW HW_Proof FPInt FPOps Int128_Model Math_Model Math_Round_Proof Math_Int_Proof Math_Spec Math_Lround_Proof Math_Basic_Proof Math_Conv_Proof Math_Lconv_Proof Rne.
Open Scope Z_scope.
Local Ltac Zify.zify_post_hook ::= idtac.

Section Format.
Set Default Proof Using "All".
Variables mw ew : Z.
Hypothesis Hmw : 0 < mw.
Hypothesis Hew0 : 0 < ew.
Hypothesis Hpe : mw + 1 < 2^(ew - 1).
Hypothesis Hew : 1 < ew.

Notation emin := (emin mw ew).
Notation fval := (fval mw ew).
Notation fabsb := (fabsb mw ew).
Notation fneg := (fneg mw ew).
Notation fbits := (fbits mw ew).
Notation ffinite := (ffinite mw ew).
Notation fisinf := (fisinf mw ew).
Notation with_sign := (with_sign mw ew).
Notation finf := (finf mw ew).
Notation W := (mw + ew + 1).
Notation bias := (2^(ew - 1) - 1).
Notation copysign := (copysign mw ew).
Notation RN := (RN mw ew).

Lemma RN_opp x : RN (- x) = (- RN x)%R.
Proof. apply round_NE_opp. Qed.

Lemma RN_abs x : Rabs (RN x) = RN (Rabs x).
Proof.
  assert (Vp : Valid_exp (FLT_exp emin (mw + 1))) by (apply FLT_exp_valid; unfold Prec_gt_0; lia).
  assert (P : forall y, (0 <= y)%R -> (0 <= RN y)%R).
  { intros y Hy. rewrite <- (round_0 radix2 (FLT_exp emin (mw + 1)) ZnearestE). apply round_le; [exact Vp|typeclasses eauto|exact Hy]. }
  destruct (Rle_or_lt 0 x) as [H|H].
  - rewrite (Rabs_pos_eq x) by exact H. apply Rabs_pos_eq, P, H.
  - rewrite (Rabs_left x) by exact H. rewrite RN_opp. rewrite <- (Ropp_involutive x) at 1. rewrite RN_opp, Rabs_Ropp.
    rewrite <- RN_opp. apply Rabs_pos_eq. apply P. lra.
Qed.

Lemma RN_zero x : (Rabs x <= bpow radix2 (emin - 1))%R -> RN x = 0%R.
Proof.
  intros H. assert (E : RN (Rabs x) = 0%R).
  { apply RN_tiny; [exact Hmw|]. split; [apply Rabs_pos|exact H]. }
  rewrite <- RN_abs in E. destruct (Req_dec (RN x) 0) as [K|K]; [exact K|]. apply Rabs_no_R0 in K. contradiction.
Qed.

Lemma RN_large x : (bpow radix2 (2^(ew-1)) <= Rabs x)%R -> (bpow radix2 (2^(ew-1)) <= Rabs (RN x))%R.
Proof.
  intros H. rewrite RN_abs.
  assert (Vp : Valid_exp (FLT_exp emin (mw + 1))) by (apply FLT_exp_valid; unfold Prec_gt_0; lia).
  rewrite <- (round_generic radix2 (FLT_exp emin (mw + 1)) ZnearestE (bpow radix2 (2^(ew-1)))).
  - apply round_le; [exact Vp|typeclasses eauto|exact H].
  - apply generic_format_bpow. unfold FLT_exp, FP.emin. lia.
Qed.

Lemma rounds_inf x s : (bpow radix2 (2^(ew-1)) <= Rabs x)%R -> rounds_to mw ew x s (with_sign s finf).
Proof.
  intros H. apply RN_large in H. pose proof (finf_pos mw ew Hmw Hew) as FI.
  destruct (with_sign_spec mw ew Hmw Hew s finf ltac:(lia)) as (A & B & C).
  split; [exact C|]. split; [exact B|]. split; [intros K; lra|]. intros _. exact A.
Qed.

(** what a multiplication does, as far as needed *)
Definition mul_spec (mul : Z -> Z -> res Z) : Prop := forall a b, fbits a -> fbits b -> exists r, mul a b = Ok r /\
  (ffinite a = true -> ffinite b = true -> rounds_to mw ew (fval a * fval b) (xorb (fneg a) (fneg b)) r) /\
  (ffinite a = true -> fabsb a <> 0 -> fisinf b = true -> r = with_sign (xorb (fneg a) (fneg b)) finf).

Lemma scalbn_ok mul x e : mul_spec mul -> mw + 1 < bias -> ew < 32 -> is_i32 e -> fbits x -> ffinite x = true ->
  exists r, scalbn_ mw ew mul x e = Ok r /\ rounds_to mw ew (fval x * bpow radix2 e) (fneg x) r.
Proof.
  intros HM Mw Ew He Hx F. unfold scalbn_, fabs. pose proof (fabsb_range mw ew Hmw Hew x) as R. pose proof (finf_pos mw ew Hmw Hew) as FI.
  pose proof (pmw mw Hmw) as P. destruct (pow_ew ew Hew) as [PE PE2].
  assert (E32 : 2^ew < 2^32) by (apply Z.pow_lt_mono_r; lia).
  destruct (Z.eq_dec (fabsb x) 0) as [Z0|Z0].
  - rewrite Z0. cbn [Z.eqb orb]. exists x. split; [reflexivity|].
    assert (V : fval x = 0%R).
    { unfold FP.fval. rewrite Z0. unfold fmag. rewrite Z.div_0_l by lia. cbn [Z.eqb]. rewrite F2R_0. destruct (fneg x); ring. }
    rewrite V, Rmult_0_l. split; [exact Hx|]. split; [reflexivity|]. unfold FP.RN. rewrite (round_0 radix2 (FLT_exp emin (mw+1)) ZnearestE).
    rewrite Rabs_R0. split; [intros _; split; [exact F|exact V]|]. intros K. pose proof (bpow_gt_0 radix2 (2^(ew-1))). lra.
  - assert (F' := F). unfold FP.ffinite in F'. replace ((fabsb x =? 0) || (finf <=? fabsb x)) with false by lia.
    destruct (normalize_ok mw ew Hmw Hew0 Hpe Hew (fabsb x) ltac:(lia)) as (E & f & -> & Hf & HE & HV). cbn [bind].
    rewrite shiftr_div by lia. rewrite Z.div_add_l, (Z.div_small f) by lia. rewrite Z.add_0_r.
    unfold is_i32, INT_MIN, INT_MAX in He. unfold chk_i64. match goal with |- context[if ?c then Ok _ else UB] => replace c with true by lia end. cbn [bind].
    rewrite land_ones_mod by lia. rewrite (Z.add_comm (E * 2^mw) f), Z.mod_add, Z.mod_small by lia.
    set (t := e + E). assert (AX : (Rabs (fval x * bpow radix2 e) = IZR (2^mw + f) * bpow radix2 (t - 1 + emin))%R).
    { rewrite Rabs_mult, (Rabs_pos_eq (bpow radix2 e)) by apply bpow_ge_0.
      rewrite (abs_fval mw ew Hmw Hew0 Hpe Hew), HV, Rmult_assoc, <- bpow_plus. do 2 f_equal. unfold t. lia. }
    destruct (Z.leb_spec (2^ew - 1) t) as [T1|T1]; [|destruct (Z.ltb_spec t (- (mw + 1))) as [T2|T2]].
    + (* overflow *)
      cbn [orb]. replace (e <? 0) with false by lia.
      destruct (HM x finf Hx ltac:(unfold FP.fbits; destruct (pW mw ew Hmw Hew) as (W1 & _); lia)) as (r & -> & _ & HI).
      exists r. split; [reflexivity|]. assert (FF : fabsb finf = finf) by (apply Z.mod_small; lia).
      assert (FN : fneg finf = false) by (unfold FP.fneg; lia).
      rewrite (HI F Z0) by (unfold FP.fisinf; rewrite FF; lia). rewrite FN, xorb_false_r. apply rounds_inf.
      rewrite AX. apply Rle_trans with (IZR (2^mw) * bpow radix2 (t - 1 + emin))%R.
      * rewrite <- bpow2, <- bpow_plus by lia. apply bpow_le. unfold FP.emin. lia.
      * apply Rmult_le_compat_r; [apply bpow_ge_0|]. apply IZR_le. lia.
    + (* underflow to zero *)
      cbn [orb]. replace (e <? 0) with true by lia.
      assert (B0 : fbits 0) by (unfold FP.fbits; pose proof (pow2_pos W ltac:(lia)); lia).
      assert (F0 : ffinite 0 = true) by (unfold FP.ffinite, FP.fabsb; rewrite Z.mod_0_l by (pose proof (pow2_pos (mw+ew)); lia); lia).
      assert (FN : fneg 0 = false) by (unfold FP.fneg; pose proof (pow2_pos (mw+ew)); lia).
      destruct (HM x 0 Hx B0) as (r & -> & HF & _). exists r. split; [reflexivity|].
      specialize (HF F F0). rewrite FN, xorb_false_r in HF. apply rounds_of_RN with (1 := HF).
      assert (fval 0 = 0%R) as ->.
      { unfold FP.fval, FP.fabsb. rewrite FN, Z.mod_0_l by (pose proof (pow2_pos (mw+ew)); lia). unfold fmag. rewrite Z.div_0_l by lia. cbn [Z.eqb]. apply F2R_0. }
      rewrite Rmult_0_r. rewrite RN_zero by (rewrite Rabs_R0; apply bpow_ge_0). symmetry. apply RN_zero. rewrite AX.
      apply Rle_trans with (IZR (2^(mw+1)) * bpow radix2 (t - 1 + emin))%R.
      * apply Rmult_le_compat_r; [apply bpow_ge_0|]. apply IZR_le. rewrite (pmw1 mw Hmw). lia.
      * rewrite <- bpow2, <- bpow_plus by lia. apply bpow_le. lia.
    + cbn [orb]. assert (PW : 2^W = 2^mw * (2 * 2^ew)) by (rewrite <- Z.pow_succ_r, <- Z.pow_add_r by lia; f_equal; lia).
      (* pattern of exponent field u and fraction f *)
      assert (PK : forall u, 0 <= u < 2^ew - 1 -> exists k, (do b <- lsh W u mw; Ok (Z.lor f b)) = Ok k /\ 0 <= k < finf /\
        fmag mw ew k = if u =? 0 then (IZR f * bpow radix2 emin)%R else (IZR (2^mw + f) * bpow radix2 (u - 1 + emin))%R).
      { intros u Hu. unfold lsh. replace ((0 <=? mw) && (mw <? W)) with true by lia. cbn [bind].
        rewrite Z.mod_small by (rewrite shiftl_mul, PW by lia; nia). rewrite lor_low_high by lia.
        exists (f + u * 2^mw). split; [reflexivity|]. split; [unfold FP.finf; nia|]. unfold fmag. rewrite Z.div_add, (Z.div_small f), Z.add_0_l by lia.
        rewrite Z.mod_add, Z.mod_small by lia. destruct (Z.eqb_spec u 0) as [->|]; unfold F2R; cbn [Fnum Fexp]; [f_equal; f_equal; ring|].
        do 2 f_equal. lia. }
      destruct (Z.ltb_spec 0 t) as [T3|T3].
      * destruct (PK t ltac:(lia)) as (k & EK & HK & VK). replace (t =? 0) with false in VK by lia.
        destruct (lsh W t mw) as [b| |]; cbn [bind] in EK |- *; try discriminate. injection EK as EK.
        exists (copysign (Z.lor f b) x). split; [reflexivity|]. rewrite EK.
        destruct (copysign_spec mw ew Hmw Hew0 Hpe Hew k x) as (S1 & S2 & S3 & S4 & S5).
        assert (FK : fabsb k = k) by (apply Z.mod_small; lia). rewrite FK in S2.
        assert (VC : fval (copysign k x) = (fval x * bpow radix2 e)%R).
        { unfold FP.fval. rewrite S3, S2, VK, HV. assert (IZR (2^mw + f) * bpow radix2 (t - 1 + emin) = IZR (2^mw + f) * bpow radix2 (E - 1 + emin) * bpow radix2 e)%R as ->.
          { rewrite Rmult_assoc, <- bpow_plus. do 2 f_equal. unfold t. lia. }
          destruct (fneg x); ring. }
        assert (FC : ffinite (copysign k x) = true) by (rewrite S4; unfold FP.ffinite; lia).
        rewrite <- VC, <- S3. split; [exact S1|]. split; [reflexivity|]. rewrite (RN_fval mw ew Hmw) by assumption.
        pose proof (fval_bound mw ew Hmw Hew0 Hpe _ S1 FC). split; [intros _; split; [exact FC|reflexivity]|intros; lra].
      * destruct (PK (t + (mw + 1)) ltac:(lia)) as (k & EK & HK & VK).
        destruct (lsh W (t + (mw + 1)) mw) as [b| |]; cbn [bind] in EK |- *; try discriminate. injection EK as EK. rewrite EK.
        assert (FK : fabsb k = k) by (apply Z.mod_small; lia).
        assert (BK : fbits k) by (unfold FP.fbits; destruct (pW mw ew Hmw Hew) as (W1 & _); lia).
        assert (FIK : ffinite k = true) by (unfold FP.ffinite; lia).
        assert (NK : fneg k = false) by (unfold FP.fneg; lia).
        destruct (pow2_pattern mw ew Hmw Hew0 Hpe Hew (bias - (mw + 1)) ltac:(lia)) as (C1 & C2 & C3 & C4).
        set (c := Z.shiftl (bias - (mw + 1)) mw) in *. clearbody c.
        destruct (copysign_spec mw ew Hmw Hew0 Hpe Hew c x) as (S1 & S2 & S3 & S4 & S5).
        rewrite C2 in S4. rewrite (imag_ival_pos mw ew Hmw Hew0 Hpe Hew _ C3), C4 in S5.
        destruct (HM (copysign c x) k S1 BK) as (r & -> & HF & _). exists r. split; [reflexivity|].
        specialize (HF S4 FIK). rewrite NK, xorb_false_r, S3 in HF.
        assert (VC : fval (copysign c x) = ((if fneg x then -1 else 1) * bpow radix2 (- (mw + 1)))%R).
        { rewrite (fval_ival mw ew Hmw Hew), S5.
          assert (IZR (2^(mw + (bias - (mw + 1)) - 1)) * bpow radix2 emin = bpow radix2 (- (mw + 1)))%R as B.
          { rewrite <- bpow2, <- bpow_plus by lia. f_equal. unfold FP.emin. lia. }
          destruct (fneg x); [rewrite opp_IZR|]; rewrite <- B; ring. }
        assert (VX : (fval x * bpow radix2 e = (if fneg x then -1 else 1) * (IZR (2^mw + f) * bpow radix2 (t - 1 + emin)))%R).
        { unfold FP.fval. rewrite HV. assert (IZR (2^mw + f) * bpow radix2 (t - 1 + emin) = IZR (2^mw + f) * bpow radix2 (E - 1 + emin) * bpow radix2 e)%R as ->.
          { rewrite Rmult_assoc, <- bpow_plus. do 2 f_equal. unfold t. lia. }
          destruct (fneg x); ring. }
        assert (VK' : fval k = fmag mw ew k) by (unfold FP.fval; rewrite NK, FK; reflexivity).
        destruct (Z.eqb_spec (t + (mw + 1)) 0) as [T0|T0].
        -- apply rounds_of_RN with (1 := HF). rewrite !RN_zero; [reflexivity| |].
           ++ rewrite AX. apply Rle_trans with (IZR (2^(mw+1)) * bpow radix2 (t - 1 + emin))%R.
              ** apply Rmult_le_compat_r; [apply bpow_ge_0|]. apply IZR_le. rewrite (pmw1 mw Hmw). lia.
              ** rewrite <- bpow2, <- bpow_plus by lia. apply bpow_le. lia.
           ++ rewrite VC, VK', VK. rewrite !Rabs_mult.
              replace (Rabs (if fneg x then -1 else 1)) with 1%R by (destruct (fneg x); [rewrite Rabs_left by lra; lra|rewrite Rabs_R1; reflexivity]).
              rewrite !(Rabs_pos_eq (bpow _ _)) by apply bpow_ge_0. rewrite (Rabs_pos_eq (IZR f)) by (apply IZR_le; lia).
              apply Rle_trans with (1 * bpow radix2 (- (mw + 1)) * (IZR (2^mw) * bpow radix2 emin))%R.
              ** apply Rmult_le_compat_l; [pose proof (bpow_ge_0 radix2 (- (mw+1))); lra|].
                 apply Rmult_le_compat_r; [apply bpow_ge_0|]. apply IZR_le. lia.
              ** rewrite <- bpow2, Rmult_1_l, <- !bpow_plus by lia. apply bpow_le. lia.
        -- replace (fval x * bpow radix2 e)%R with (fval (copysign c x) * fval k)%R; [exact HF|].
           rewrite VX, VC, VK', VK.
           replace (bpow radix2 (t + (mw + 1) - 1 + emin)) with (bpow radix2 (t - 1 + emin) * bpow radix2 (mw + 1))%R by (rewrite <- bpow_plus; f_equal; lia).
           replace ((if fneg x then -1 else 1) * bpow radix2 (- (mw + 1)) * (IZR (2^mw + f) * (bpow radix2 (t - 1 + emin) * bpow radix2 (mw + 1))))%R
             with ((if fneg x then -1 else 1) * (IZR (2^mw + f) * bpow radix2 (t - 1 + emin)) * (bpow radix2 (- (mw + 1)) * bpow radix2 (mw + 1)))%R by ring.
           rewrite <- bpow_plus. replace (- (mw + 1) + (mw + 1)) with 0 by lia. cbn [bpow]. ring.
Qed.

Lemma scalbn_special mul x e : ffinite x = false -> scalbn_ mw ew mul x e = Ok x.
Proof.
  intros F. unfold scalbn_, fabs. unfold FP.ffinite in F. replace ((fabsb x =? 0) || (finf <=? fabsb x)) with true by lia. reflexivity.
Qed.

Lemma hmul_spec : mul_spec (fun a b => Ok (hmul mw ew Hmw Hew0 Hpe a b)).
Proof.
  intros a b Ha Hb. eexists. split; [reflexivity|]. split.
  - intros Fa Fb. apply hmul_ok; assumption.
  - intros Fa Na Ib. unfold hmul. rewrite (dec_inf mw ew Hmw Hew0 Hpe b Hb Ib).
    destruct (dec_finite mw ew Hmw Hew0 Hpe a Ha Fa) as (A & B & C).
    destruct (dec mw ew Hmw Hew0 Hpe a) as [s|s| |s m e0 Hb0]; cbn in A, B, C; try discriminate.
    + exfalso. apply Na. symmetry in B. pose proof (fabsb_range mw ew Hmw Hew a) as R.
      rewrite (fval_ival mw ew Hmw Hew) in B. apply Rmult_integral in B. pose proof (bpow_gt_0 radix2 emin).
      destruct B as [B|B]; [|lra]. apply eq_IZR in B. unfold FPInt.ival in B.
      assert (imag mw (fabsb a) = 0) by (destruct (fneg a); lia).
      apply (imag_inj mw ew Hmw Hew); [lia|lia|]. rewrite imag_0 by exact Hmw. assumption.
    + cbn [Bmult]. rewrite <- C. apply enc_inf.
Qed.
End Format.

(** ** scalbnf: one rounding in double, one to float *)
Lemma pair_overflow p q s r : rounds_to 52 11 p s r -> (bpow radix2 128 <= Rabs p)%R -> (bpow radix2 128 <= Rabs q)%R ->
  rounds_to 23 8 q s (d2f r).
Proof.
  intros (A & B & C & D) Hp Hq.
  assert (R : (bpow radix2 128 <= Rabs (RN 52 11 p))%R).
  { rewrite (RN_abs 52 11 eq_refl eq_refl eq_refl eq_refl).
    rewrite <- (round_generic radix2 (FLT_exp (emin 52 11) (52 + 1)) ZnearestE (bpow radix2 128)) by (apply generic_format_bpow; vm_compute; discriminate).
    apply round_le; [apply FLT_exp_valid; reflexivity|typeclasses eauto|exact Hp]. }
  destruct (Rlt_le_dec (Rabs (RN 52 11 p)) (bpow radix2 (2^(11-1)))) as [L|L].
  - destruct (C L) as [F V]. pose proof (d2f_round r A F) as Q. rewrite V, B in Q.
    destruct Q as (Q1 & Q2 & _ & Q4). pose proof (RN_large 23 8 eq_refl eq_refl eq_refl eq_refl _ R) as K. specialize (Q4 K).
    assert (d2f r = with_sign 23 8 s (finf 23 8)) as ->.
    { apply with_sign_inj; try assumption; reflexivity. }
    apply (rounds_inf 23 8 eq_refl eq_refl eq_refl eq_refl). exact Hq.
  - specialize (D L). unfold d2f. rewrite hcvt_inf; [|exact A|unfold fisinf; rewrite D; reflexivity]. rewrite B.
    apply (rounds_inf 23 8 eq_refl eq_refl eq_refl eq_refl). exact Hq.
Qed.

Lemma pair_zero p q s r : rounds_to 52 11 p s r -> (Rabs p <= bpow radix2 (-151))%R -> (Rabs q <= bpow radix2 (-150))%R ->
  rounds_to 23 8 q s (d2f r).
Proof.
  intros (A & B & C & _) Hp Hq.
  assert (R : (Rabs (RN 52 11 p) <= bpow radix2 (-151))%R).
  { rewrite (RN_abs 52 11 eq_refl eq_refl eq_refl eq_refl).
    rewrite <- (round_generic radix2 (FLT_exp (emin 52 11) (52 + 1)) ZnearestE (bpow radix2 (-151))) by (apply generic_format_bpow; vm_compute; discriminate).
    apply round_le; [apply FLT_exp_valid; reflexivity|typeclasses eauto|exact Hp]. }
  destruct C as [F V].
  { apply Rle_lt_trans with (1 := R). apply bpow_lt. reflexivity. }
  pose proof (d2f_round r A F) as Q. rewrite V, B in Q. apply rounds_of_RN with (1 := Q).
  rewrite !(RN_zero 23 8 eq_refl eq_refl eq_refl eq_refl); [reflexivity|exact Hq|].
  apply Rle_trans with (1 := R). apply bpow_le. discriminate.
Qed.

Lemma pair_exact p s r : rounds_to 52 11 p s r -> generic_format radix2 (FLT_exp (emin 52 11) (52 + 1)) p -> (Rabs p < bpow radix2 1024)%R ->
  rounds_to 23 8 p s (d2f r).
Proof.
  intros H G L. destruct (rounds_exact' 52 11 p s r H G L) as (A & B & C & D).
  pose proof (d2f_round r A B) as Q. rewrite C, D in Q. exact Q.
Qed.

Lemma coeff_ok e : is_i32 e -> exists c, coeff_ e = Ok c /\ fbits 52 11 c /\ ffinite 52 11 c = true /\ fneg 52 11 c = false /\
  (if 1024 <=? e then (bpow radix2 1023 <= fval 52 11 c)%R
   else if e <? -1022 then fval 52 11 c = bpow radix2 (-1023) else fval 52 11 c = bpow radix2 e).
Proof.
  intros He. unfold coeff_. destruct (Z.leb_spec 1024 e).
  - eexists. split; [reflexivity|]. split; [vm_compute; split; congruence|]. split; [reflexivity|]. split; [reflexivity|].
    rewrite (fval_ival 52 11 eq_refl eq_refl). replace 1023 with (2097 + emin 52 11) by reflexivity. rewrite bpow_plus.
    apply Rmult_le_compat_r; [apply bpow_ge_0|]. rewrite bpow2 by lia. apply IZR_le. vm_compute. discriminate.
  - destruct (Z.ltb_spec e (-1022)).
    + eexists. split; [reflexivity|]. split; [vm_compute; split; congruence|]. split; [reflexivity|]. split; [reflexivity|].
      rewrite (fval_ival 52 11 eq_refl eq_refl). replace (-1023) with (51 + emin 52 11) by reflexivity. rewrite bpow_plus. f_equal.
    + unfold lsh. cbn [Z.leb Z.ltb Z.compare andb]. change ((0 <=? 52) && (52 <? 64)) with true. cbv iota.
      rewrite Z.mod_small by (rewrite shiftl_mul by lia; lia).
      destruct (pow2_pattern 52 11 eq_refl eq_refl eq_refl eq_refl (1023 + e) ltac:(lia)) as (A & B & C & D).
      eexists. split; [reflexivity|]. split; [exact A|]. split; [exact B|]. split; [exact C|].
      rewrite (fval_ival 52 11 eq_refl eq_refl), D, <- bpow2, <- bpow_plus by lia. f_equal. change (emin 52 11) with (-1074). lia.
Qed.

Lemma scalbnf_ok x e : is_i32 e -> fbits 23 8 x -> ffinite 23 8 x = true ->
  exists r, scalbnf x e = Ok r /\ rounds_to 23 8 (fval 23 8 x * bpow radix2 e) (fneg 23 8 x) r.
Proof.
  intros He Hx F. unfold scalbnf. destruct (coeff_ok e He) as (c & -> & C1 & C2 & C3 & C4). cbn [bind].
  eexists. split; [reflexivity|]. destruct (f2d_fin x Hx F) as (X1 & X2 & X3 & X4). pose proof (fval_f2d x Hx F) as XV.
  pose proof (hmul_ok 52 11 eq_refl eq_refl eq_refl (f2d x) c X1 C1 X2 C2) as M. fold mul64 in M.
  rewrite XV, X3, C3, xorb_false_r in M.
  pose proof (proj1 (finite_limit 23 8 eq_refl eq_refl eq_refl eq_refl x Hx) F) as L. rewrite limit32 in L.
  assert (XB : (Rabs (fval 23 8 x) <= bpow radix2 128)%R).
  { rewrite (fval_ival 23 8 eq_refl eq_refl), Rabs_mult, (Rabs_pos_eq (bpow _ _)) by apply bpow_ge_0.
    replace 128 with (277 + emin 23 8) by reflexivity. rewrite bpow_plus. apply Rmult_le_compat_r; [apply bpow_ge_0|].
    rewrite <- abs_IZR, bpow2 by lia. apply IZR_le. lia. }
  destruct (Z.leb_spec 1024 e) as [E1|E1]; [|destruct (Z.ltb_spec e (-1022)) as [E2|E2]].
  - destruct (Z.eq_dec (ival 23 8 x) 0) as [Z0|Z0].
    + assert (V : fval 23 8 x = 0%R) by (rewrite (fval_ival 23 8 eq_refl eq_refl), Z0; ring).
      rewrite V, Rmult_0_l in M |- *. apply pair_zero with (1 := M); rewrite Rabs_R0; apply bpow_ge_0.
    + assert (XL : (bpow radix2 (-149) <= Rabs (fval 23 8 x))%R).
      { rewrite (fval_ival 23 8 eq_refl eq_refl), Rabs_mult, (Rabs_pos_eq (bpow _ _)) by apply bpow_ge_0.
        rewrite <- (Rmult_1_l (bpow radix2 (-149))). apply Rmult_le_compat_r; [apply bpow_ge_0|]. rewrite <- abs_IZR. apply IZR_le. lia. }
      assert (K : forall k y, (bpow radix2 k <= y)%R -> 1023 <= k -> (bpow radix2 128 <= Rabs (fval 23 8 x * y))%R).
      { intros k y Hy Hk. pose proof (bpow_gt_0 radix2 k). rewrite Rabs_mult, (Rabs_pos_eq y) by lra.
        apply Rle_trans with (bpow radix2 (-149) * bpow radix2 k)%R.
        - rewrite <- bpow_plus. apply bpow_le. lia.
        - apply Rmult_le_compat; try apply bpow_ge_0; assumption. }
      apply pair_overflow with (1 := M); [apply (K 1023); [exact C4|lia]|apply (K e); [apply Rle_refl|lia]].
  - assert (K : forall y, (0 <= y <= bpow radix2 (-1023))%R -> (Rabs (fval 23 8 x * y) <= bpow radix2 (-151))%R).
    { intros y Hy. rewrite Rabs_mult, (Rabs_pos_eq y) by lra. apply Rle_trans with (bpow radix2 128 * bpow radix2 (-1023))%R.
      - apply Rmult_le_compat; try apply Rabs_pos; try lra; assumption.
      - rewrite <- bpow_plus. apply bpow_le. discriminate. }
    apply pair_zero with (1 := M).
    + apply K. rewrite C4. split; [apply bpow_ge_0|apply Rle_refl].
    + apply Rle_trans with (bpow radix2 (-151)); [|apply bpow_le; discriminate]. apply K. split; [apply bpow_ge_0|]. apply bpow_le. lia.
  - rewrite C4 in M. destruct (Rle_or_lt (Rabs (fval 23 8 x * bpow radix2 e)) (bpow radix2 (-151))) as [S|S].
    { apply pair_zero with (1 := M); [exact S|]. apply Rle_trans with (1 := S). apply bpow_le. discriminate. }
    destruct (Rle_or_lt (bpow radix2 1024) (Rabs (fval 23 8 x * bpow radix2 e))) as [T|T].
    { assert (bpow radix2 128 <= Rabs (fval 23 8 x * bpow radix2 e))%R by (apply Rle_trans with (2 := T); apply bpow_le; discriminate).
      apply pair_overflow with (1 := M); assumption. }
    apply pair_exact with (1 := M); [|exact T].
    destruct (imag_unpack 23 eq_refl (fabsb 23 8 x)) as (j & q & Hj & Hq & _ & _ & EV).
    { pose proof (fabsb_range 23 8 eq_refl eq_refl x). lia. }
    assert (V : (fval 23 8 x * bpow radix2 e)%R = F2R (Float radix2 (if fneg 23 8 x then - q else q) (j + e - 149))).
    { rewrite (fval_ival 23 8 eq_refl eq_refl). unfold ival. rewrite EV. unfold F2R. cbn [Fnum Fexp].
      replace (j + e - 149) with (j + e + emin 23 8) by reflexivity. rewrite !bpow_plus, (bpow2 j) by lia.
      destruct (fneg 23 8 x); rewrite ?opp_IZR, mult_IZR; ring. }
    rewrite V in S |- *. apply generic_format_FLT. eexists; [reflexivity| |].
    + cbn [Fnum]. change (Z.pow (radix_val radix2) (52+1)) with (2^53). change (23 + 1) with 24 in Hq. clear - Hq. destruct (fneg 23 8 x); lia.
    + cbn [Fexp]. change (emin 52 11) with (-1074). destruct (Z.le_gt_cases (-1074) (j + e - 149)) as [G|G]; [exact G|exfalso].
      apply (Rlt_not_le _ _ S). rewrite F2R_Zabs || rewrite <- F2R_Zabs. unfold F2R. cbn [Fnum Fexp].
      apply Rle_trans with (bpow radix2 24 * bpow radix2 (-1074))%R.
      * apply Rmult_le_compat; [apply IZR_le; lia|apply bpow_ge_0| |apply bpow_le; lia]. rewrite bpow2 by lia. apply IZR_le.
        change (23 + 1) with 24 in Hq. clear - Hq. destruct (fneg 23 8 x); lia.
      * rewrite <- bpow_plus. apply bpow_le. discriminate.
Qed.
