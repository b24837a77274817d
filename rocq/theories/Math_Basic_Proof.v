(** modf, frexp, ilogb, logb, nextafter, fmin, fmax, fdim. *)
From Coq Require Import Reals Lra.
From Flocq Require Import Core BinarySingleNaN.
From Verif Require Import Base Bits FP FP_Proof HW HW_Proof FPInt FPOps Int128_Model Math_Model Math_Round_Proof Math_Int_Proof Math_Spec Math_Lround_Proof.
Open Scope Z_scope.
Local Ltac Zify.zify_post_hook ::= idtac.

Lemma lxor_neg_iff a b : (Z.lxor a b <? 0) = xorb (0 <=? a) (0 <=? b).
Proof.
  pose proof (Z.lxor_nonneg a b). destruct (Z.ltb_spec (Z.lxor a b) 0), (Z.leb_spec 0 a), (Z.leb_spec 0 b); cbn; intuition lia.
Qed.

Section Format.
Set Default Proof Using "All".
Variables mw ew : Z.
Hypothesis Hmw : 0 < mw.
Hypothesis Hew0 : 0 < ew.
Hypothesis Hpe : mw + 1 < 2^(ew - 1).
Hypothesis Hew : 1 < ew.

Notation emin := (emin mw ew).
Notation fval := (fval mw ew).
Notation fabsb := (fabsb mw ew).
Notation fneg := (fneg mw ew).
Notation fbits := (fbits mw ew).
Notation ffinite := (ffinite mw ew).
Notation fisnan := (fisnan mw ew).
Notation fisinf := (fisinf mw ew).
Notation with_sign := (with_sign mw ew).
Notation imag := (imag mw).
Notation ival := (ival mw ew).
Notation unit := (unit mw ew).
Notation finf := (finf mw ew).
Notation limit := (limit mw ew).
Notation repr := (repr mw).
Notation W := (mw + ew + 1).
Notation bias := (2^(ew - 1) - 1).
Notation hofZ := (hofZ mw ew Hmw Hpe).
Notation hadd := (hadd mw ew Hmw Hew0 Hpe).
Notation hsub := (hsub mw ew Hmw Hew0 Hpe).
Notation copysign := (copysign mw ew).
Notation ford := (ford mw ew).
Notation xval := (xval mw ew).

(** ** Specials *)
Lemma hsub_nan a b : fbits a -> fbits b -> fisnan a || fisnan b = true -> fbits (hsub a b) /\ fisnan (hsub a b) = true.
Proof.
  intros Ha Hb N. assert (hsub a b = qnan mw ew) as ->.
  { unfold HW.hsub. apply orb_prop in N. destruct N as [N|N].
    - rewrite (dec_nan mw ew Hmw Hew0 Hpe a Ha N). reflexivity.
    - rewrite (dec_nan mw ew Hmw Hew0 Hpe b Hb N). destruct (dec mw ew Hmw Hew0 Hpe a); reflexivity. }
  exact (qnan_nan ew mw ew Hew0 Hmw Hew0 Hpe).
Qed.

Lemma copysign_nan y x : fisnan (copysign y x) = fisnan y.
Proof. unfold FP.fisnan. destruct (copysign_spec mw ew Hmw Hew0 Hpe Hew y x) as (_ & -> & _). reflexivity. Qed.

Lemma xlt_ford a b : fbits a -> fbits b -> fisnan a = false -> fisnan b = false ->
  (xlt (xval a) (xval b) <-> ford a < ford b).
Proof.
  intros Ha Hb Na Nb. pose proof (ford_lt mw ew Hmw Hew0 a b Ha Hb) as FL.
  pose proof (finf_pos mw ew Hmw Hew) as FI.
  pose proof (fabsb_range mw ew Hmw Hew a). pose proof (fabsb_range mw ew Hmw Hew b).
  unfold FP.xval. destruct (ffinite a) eqn:Fa, (ffinite b) eqn:Fb.
  - cbn [xlt]. tauto.
  - clear FL. unfold HW.ford, FP.ffinite, FP.fisnan in *. destruct (fneg b) eqn:Gb; cbn [xlt]; destruct (fneg a); intuition lia.
  - clear FL. unfold HW.ford, FP.ffinite, FP.fisnan in *. destruct (fneg a) eqn:Ga; cbn [xlt]; destruct (fneg b); intuition lia.
  - clear FL. unfold HW.ford, FP.ffinite, FP.fisnan in *. destruct (fneg a) eqn:Ga, (fneg b) eqn:Gb; cbn [xlt]; intuition lia.
Qed.

Lemma ford_inj a b : fbits a -> fbits b -> ford a = ford b -> ford a <> 0 -> a = b.
Proof.
  intros Ha Hb E N. rewrite (pattern_split mw ew Hmw Hew a Ha), (pattern_split mw ew Hmw Hew b Hb).
  pose proof (fabsb_range mw ew Hmw Hew a). pose proof (fabsb_range mw ew Hmw Hew b). unfold HW.ford in *.
  destruct (fneg a), (fneg b); f_equal; lia.
Qed.

(** ** modf *)
Lemma modf_ok x : fbits x -> let '(f, i) := modf mw ew Hmw Hew0 Hpe x in
  fbits f /\ fbits i /\
  (fisnan x = true -> fisnan f = true /\ fisnan i = true) /\
  (fisinf x = true -> i = x /\ fabsb f = 0 /\ fneg f = fneg x) /\
  (ffinite x = true -> ffinite f = true /\ ffinite i = true /\ fneg f = fneg x /\ fneg i = fneg x /\
     fval i = IZR (Ztrunc (fval x)) /\ fval f = (fval x - IZR (Ztrunc (fval x)))%R).
Proof.
  intros Hx. unfold modf. cbv zeta. destruct (hround_ok mw ew Hmw Hew0 Hpe Hew mode_ZR x Hx) as (A & B & C & D).
  unfold btrunc. set (i := hround mw ew Hmw Hew0 Hpe mode_ZR x) in *. clearbody i.
  match goal with |- context[copysign ?t x] => set (g := t); destruct (copysign_spec mw ew Hmw Hew0 Hpe Hew g x) as (S1 & S2 & S3 & S4 & S5) end.
  split; [exact S1|]. split; [exact A|]. split; [|split].
  - intros N. split; [|exact (B N)]. rewrite copysign_nan. unfold g.
    replace (fisinf x) with false by (unfold FP.fisnan, FP.fisinf in *; lia).
    apply hsub_nan; try assumption. rewrite N. reflexivity.
  - intros I. split; [exact (C I)|]. split; [|exact S3]. rewrite S2. unfold g. rewrite I. apply Z.mod_0_l.
    pose proof (pow2_pos (mw + ew)). lia.
  - intros F. destruct (D F) as (D1 & D2 & D3). cbn [round_mode] in D3.
    pose proof (proj1 (finite_limit mw ew Hmw Hew0 Hpe Hew x Hx) F) as L.
    assert (EI : ival i = Ztrunc (fval x) * unit) by (apply fval_IZR; [assumption|exact Hew|exact D3]).
    pose proof (unit_pos mw ew Hmw Hew) as U. rewrite (Ztrunc_fval mw ew Hmw Hew) in EI.
    pose proof (Z.quot_rem' (ival x) unit) as QR.
    assert (ER : ival x - ival i = Z.rem (ival x) unit) by lia.
    assert (RR : repr (Z.rem (ival x) unit)).
    { destruct (Z.le_gt_cases 0 (ival x)) as [P|P].
      - rewrite Z.rem_mod_nonneg by lia. unfold FPInt.unit. apply (repr_mod mw ew Hmw Hew0 Hpe Hew); [pose proof (emin_neg mw ew Hmw Hew); lia|lia|apply (repr_ival mw ew Hmw Hew0 Hpe Hew)].
      - replace (ival x) with (- (- ival x)) by lia. rewrite Z.rem_opp_l by lia. apply repr_opp; [exact Hmw|].
        rewrite Z.rem_mod_nonneg by lia. unfold FPInt.unit. apply (repr_mod mw ew Hmw Hew0 Hpe Hew); [pose proof (emin_neg mw ew Hmw Hew); lia|lia|].
        apply repr_opp; [exact Hmw|]. apply (repr_ival mw ew Hmw Hew0 Hpe Hew). }
    assert (RL : Z.abs (Z.rem (ival x) unit) < limit).
    { apply Z.le_lt_trans with (Z.abs (ival x)); [|exact L].
      pose proof (Z.rem_bound_abs (ival x) unit ltac:(lia)) as RB. destruct (Z.le_gt_cases 0 (ival x)) as [C0|C0].
      - pose proof (Z.rem_nonneg (ival x) unit ltac:(lia) C0). pose proof (Z.quot_pos (ival x) unit C0 U). nia.
      - pose proof (Z.rem_nonpos (ival x) unit ltac:(lia) ltac:(lia)).
        assert (Z.quot (ival x) unit <= 0).
        { replace (ival x) with (- (- ival x)) by lia. rewrite Z.quot_opp_l by lia. pose proof (Z.quot_pos (- ival x) unit). lia. }
        nia. }
    rewrite <- ER in RR, RL.
    assert (Eg : g = hsub x i) by (unfold g; replace (fisinf x) with false by (unfold FP.ffinite, FP.fisinf in *; lia); reflexivity).
    destruct (hsub_exact mw ew Hmw Hew0 Hpe Hew x i Hx A F D1 RR RL) as (G1 & G2 & G3 & G4). rewrite <- Eg in G1, G2, G3, G4.
    split; [congruence|]. split; [exact D1|]. split; [exact S3|]. split; [exact D2|]. split; [exact D3|].
    rewrite <- D3, !(fval_ival mw ew Hmw Hew), <- Rmult_minus_distr_r, <- minus_IZR. do 2 f_equal.
    rewrite S5, <- G4. clear - G4 ER U Hmw Hew. pose proof (sign_ival mw ew Hmw Hew0 Hpe Hew x) as SX.
    assert (SG : (fneg x = true -> ival g <= 0) /\ (fneg x = false -> 0 <= ival g)).
    { rewrite G4, ER. split; intros N; [apply SX in N|apply SX in N].
      - pose proof (Z.rem_nonpos (ival x) unit ltac:(lia) ltac:(lia)). lia.
      - apply Z.rem_nonneg; lia. }
    revert SG. unfold FPInt.ival. pose proof (imag_nonneg mw ew Hmw Hew (fabsb g) ltac:(pose proof (fabsb_range mw ew Hmw Hew g); lia)).
    destruct (fneg x), (fneg g); intuition lia.
Qed.

(** ** normalize_: exponent field, fraction *)
Lemma normalize_ok i : 0 < i < finf -> exists E f, normalize_ mw ew i = Ok (E * 2^mw + f) /\ 0 <= f < 2^mw /\
  1 - mw <= E <= 2^ew - 2 /\ fmag mw ew i = (IZR (2^mw + f) * bpow radix2 (E - 1 + emin))%R.
Proof.
  intros Hi. unfold normalize_, c_min. rewrite shiftl_mul, Z.mul_1_l by lia. pose proof (pmw mw Hmw) as P. pose proof (pmw1 mw Hmw) as P1.
  destruct (pow_ew ew Hew) as [PE PE2]. unfold FP.finf in Hi.
  destruct (Z.ltb_spec i (2^mw)) as [L|L].
  - unfold clz. replace (i =? 0) with false by lia. cbn [bind].
    pose proof (Z.log2_spec i ltac:(lia)) as LS. assert (L0 : 0 <= Z.log2 i) by apply Z.log2_nonneg.
    assert (L1 : Z.log2 i < mw) by (apply Z.log2_lt_pow2; lia).
    set (l := Z.log2 i) in *. clearbody l. replace (W - 1 - l - ew) with (mw - l) by lia.
    assert (WB : 2 * 2^mw * 2^ew = 2^W) by (rewrite <- P1, <- Z.pow_add_r by lia; f_equal; lia).
    assert (X : 2^mw <= i * 2^(mw - l) < 2 * 2^mw).
    { rewrite Z.pow_succ_r in LS by lia. replace (2^mw) with (2^l * 2^(mw - l)) by (rewrite <- Z.pow_add_r by lia; f_equal; lia).
      pose proof (pow2_pos (mw - l) ltac:(lia)). nia. }
    assert (P4 : 4 <= 2^ew) by (change 4 with (2^2); apply Z.pow_le_mono_r; lia).
    assert (WM : 2 * 2^(W - 1) = 2^W) by (rewrite <- Z.pow_succ_r by lia; f_equal; lia).
    assert (S2 : 0 <= (mw - l) * 2^mw < 2^(W-1)).
    { split; [apply Z.mul_nonneg_nonneg; lia|]. assert (2 * ((mw - l) * 2^mw) < 2^W); [|lia]. rewrite <- WB.
      replace (2 * ((mw - l) * 2^mw)) with (2 * 2^mw * (mw - l)) by ring. apply Z.mul_lt_mono_pos_l; [lia|]. lia. }
    assert (S1 : i * 2^(mw - l) < 2^(W-1)).
    { assert (2 * (i * 2^(mw-l)) < 2^W); [|lia]. rewrite <- WB. nia. }
    unfold lsh. replace ((0 <=? mw - l) && (mw - l <? W)) with true by lia. cbn [bind].
    replace ((0 <=? mw) && (mw <? W)) with true by lia. cbn [bind].
    rewrite !shiftl_mul by lia. rewrite !(Z.mod_small _ (2^W)) by lia. rewrite !sgn_id by lia.
    unfold chk. replace (_ && _) with true by lia.
    exists (1 - (mw - l)), (i * 2^(mw - l) - 2^mw). split; [f_equal; ring|]. split; [lia|]. split; [lia|].
    unfold fmag. rewrite Z.div_small by lia. change (0 =? 0) with true. cbv iota. unfold F2R. cbn [Fnum Fexp].
    replace (2^mw + (i * 2^(mw - l) - 2^mw)) with (i * 2^(mw - l)) by ring.
    rewrite mult_IZR, <- bpow2, Rmult_assoc, <- bpow_plus by lia. do 2 f_equal. lia.
  - exists (i / 2^mw), (i mod 2^mw). pose proof (Z.div_mod i (2^mw) ltac:(lia)). pose proof (Z.mod_pos_bound i (2^mw) P).
    split; [f_equal; lia|]. split; [lia|].
    assert (1 <= i / 2^mw) by (apply Z.div_le_lower_bound; lia).
    assert (i / 2^mw < 2^ew - 1) by (apply Z.div_lt_upper_bound; lia).
    split; [lia|]. unfold fmag. replace (i / 2^mw =? 0) with false by lia. unfold F2R. cbn [Fnum Fexp]. do 2 f_equal. lia.
Qed.

Lemma abs_fval x : Rabs (fval x) = fmag mw ew (fabsb x).
Proof.
  unfold FP.fval. pose proof (fabsb_range mw ew Hmw Hew x). pose proof (fmag_nonneg mw ew Hmw (fabsb x) ltac:(lia)).
  destruct (fneg x); [rewrite Rabs_Ropp|]; apply Rabs_pos_eq; assumption.
Qed.

Lemma frexp_ok x : fbits x -> ffinite x = true -> fabsb x <> 0 -> exists m e, frexp mw ew x = Ok (m, e) /\
  fbits m /\ ffinite m = true /\ fneg m = fneg x /\ (/ 2 <= Rabs (fval m) < 1)%R /\ (fval x = fval m * bpow radix2 e)%R /\
  emin < e <= bias + 1.
Proof.
  intros Hx F N. unfold frexp, fabs. pose proof (fabsb_range mw ew Hmw Hew x) as R.
  unfold FP.ffinite in F. replace ((fabsb x =? 0) || (finf <=? fabsb x)) with false by lia.
  destruct (normalize_ok (fabsb x) ltac:(lia)) as (E & f & -> & Hf & HE & HV). cbn [bind].
  pose proof (pmw mw Hmw) as P. destruct (pow_ew ew Hew) as [PE PE2].
  rewrite shiftr_div by lia. rewrite Z.div_add_l, (Z.div_small f) by lia. rewrite Z.add_0_r.
  rewrite land_ones_mod by lia. rewrite (Z.add_comm (E * 2^mw) f), Z.mod_add, Z.mod_small by lia.
  unfold c_half. set (k := Z.lor f (Z.shiftl (bias - 1) mw)).
  assert (EK : k = (bias - 1) * 2^mw + f).
  { unfold k. rewrite lor_low_high by lia. ring. }
  clearbody k.
  assert (KR : 0 <= k < finf) by (unfold FP.finf; nia).
  assert (FB : finf < 2^(mw + ew)) by (apply finf_pos; [exact Hmw|exact Hew]).
  exists (copysign k x), (E - (bias - 1)). split; [reflexivity|].
  destruct (copysign_spec mw ew Hmw Hew0 Hpe Hew k x) as (S1 & S2 & S3 & S4 & S5).
  assert (FK : fabsb k = k) by (apply Z.mod_small; lia). rewrite FK in S2.
  assert (KV : fmag mw ew k = (IZR (2^mw + f) * bpow radix2 (- mw - 1))%R).
  { unfold fmag. rewrite EK. rewrite Z.div_add_l, (Z.div_small f) by lia. rewrite Z.add_0_r.
    replace (bias - 1 =? 0) with false by lia. rewrite (Z.add_comm ((bias - 1) * 2^mw) f), Z.mod_add, Z.mod_small by lia.
    unfold F2R. cbn [Fnum Fexp]. do 2 f_equal. unfold FP.emin. lia. }
  split; [exact S1|]. split; [rewrite S4; unfold FP.ffinite; lia|]. split; [exact S3|].
  split; [|split].
  - rewrite abs_fval, S2, KV. pose proof (bpow_gt_0 radix2 (- mw - 1)) as BP. split.
    + replace (/ 2)%R with (IZR (2^mw) * bpow radix2 (- mw - 1))%R.
      * apply Rmult_le_compat_r; [lra|]. apply IZR_le. lia.
      * rewrite <- bpow2, <- bpow_plus by lia. replace (mw + (- mw - 1)) with (-1) by lia. reflexivity.
    + replace 1%R with (IZR (2^(mw+1)) * bpow radix2 (- mw - 1))%R.
      * apply Rmult_lt_compat_r; [lra|]. apply IZR_lt. rewrite (pmw1 mw Hmw). lia.
      * rewrite <- bpow2, <- bpow_plus by lia. replace (mw + 1 + (- mw - 1)) with 0 by lia. reflexivity.
  - unfold FP.fval. rewrite S3, S2, KV, HV.
    assert (IZR (2^mw + f) * bpow radix2 (E - 1 + emin) = IZR (2^mw + f) * bpow radix2 (- mw - 1) * bpow radix2 (E - (bias - 1)))%R as ->.
    { rewrite Rmult_assoc, <- bpow_plus. do 2 f_equal. unfold FP.emin. lia. }
    destruct (fneg x); ring.
  - unfold FP.emin. lia.
Qed.

Lemma frexp_special x : ffinite x = false \/ fabsb x = 0 -> frexp mw ew x = Ok (x, 0).
Proof.
  intros H. unfold frexp, fabs. pose proof (finf_pos mw ew Hmw Hew). unfold FP.ffinite in H.
  replace ((fabsb x =? 0) || (finf <=? fabsb x)) with true by lia. reflexivity.
Qed.

(** ** ilogb, logb *)
Definition log_is (x : R) (e : Z) : Prop := (bpow radix2 e <= Rabs x < bpow radix2 (e + 1))%R.

Lemma exponent_ok k : 0 < k < finf -> exists e,
  (if k <? c_min mw then (do c <- clz W k; Ok (- (bias - 1 - ew + c))) else Ok (Z.shiftr k mw - bias)) = Ok e /\
  (bpow radix2 e <= fmag mw ew k < bpow radix2 (e + 1))%R /\ emin <= e <= bias.
Proof.
  intros Hk. pose proof (pmw mw Hmw) as P. destruct (pow_ew ew Hew) as [PE PE2]. unfold c_min. rewrite shiftl_mul, Z.mul_1_l by lia.
  unfold FP.finf in Hk. assert (B : forall m e t, 0 < t -> 2^t <= m < 2^(t + 1) -> (bpow radix2 (t + e) <= IZR m * bpow radix2 e < bpow radix2 (t + e + 1))%R).
  { intros m e t Ht Hm. replace (t + e + 1) with (t + 1 + e) by lia. rewrite !bpow_plus, !bpow2 by lia. pose proof (bpow_gt_0 radix2 e).
    change (bpow radix2 1) with 2%R. replace (IZR (2^t) * 2)%R with (IZR (2^(t+1))) by (rewrite Z.pow_add_r, mult_IZR by lia; reflexivity).
    split; [apply Rmult_le_compat_r; [lra|apply IZR_le; lia]|apply Rmult_lt_compat_r; [lra|apply IZR_lt; lia]]. }
  destruct (Z.ltb_spec k (2^mw)) as [L|L].
  - unfold clz. replace (k =? 0) with false by lia. cbn [bind].
    pose proof (Z.log2_spec k ltac:(lia)) as LS. assert (L0 : 0 <= Z.log2 k) by apply Z.log2_nonneg.
    assert (L1 : Z.log2 k < mw) by (apply Z.log2_lt_pow2; lia).
    set (l := Z.log2 k) in *. clearbody l. eexists. split; [reflexivity|].
    replace (- (bias - 1 - ew + (W - 1 - l))) with (l + emin) by (unfold FP.emin; lia).
    split; [|unfold FP.emin; lia]. unfold fmag. rewrite Z.div_small by lia. change (0 =? 0) with true. cbv iota. unfold F2R. cbn [Fnum Fexp].
    destruct (Z.eq_dec l 0) as [->|NL].
    + assert (k = 1) as -> by (cbn in LS; lia). rewrite Rmult_1_l, Z.add_0_l, bpow_plus. pose proof (bpow_gt_0 radix2 emin).
      change (bpow radix2 1) with 2%R. lra.
    + apply B; [lia|]. replace (l + 1) with (Z.succ l) by lia. exact LS.
  - eexists. split; [reflexivity|]. rewrite shiftr_div by lia.
    assert (1 <= k / 2^mw) by (apply Z.div_le_lower_bound; lia).
    assert (k / 2^mw < 2^ew - 1) by (apply Z.div_lt_upper_bound; lia).
    split; [|unfold FP.emin; lia]. unfold fmag. replace (k / 2^mw =? 0) with false by lia. unfold F2R. cbn [Fnum Fexp].
    replace (k / 2^mw - bias) with (mw + (emin + k / 2^mw - 1)) by (unfold FP.emin; lia).
    apply B; [lia|]. pose proof (Z.mod_pos_bound k (2^mw) P). rewrite (pmw1 mw Hmw). lia.
Qed.

Lemma ilogb_ok x : fbits x ->
  (fabsb x = 0 -> ilogb mw ew x = Ok INT_MIN) /\ (ffinite x = false -> ilogb mw ew x = Ok INT_MAX) /\
  (fabsb x <> 0 -> ffinite x = true -> exists e, ilogb mw ew x = Ok e /\ log_is (fval x) e).
Proof.
  intros Hx. unfold ilogb, fabs, FP.ffinite. pose proof (fabsb_range mw ew Hmw Hew x) as R. pose proof (finf_pos mw ew Hmw Hew) as FI.
  assert (CM : c_min mw <= finf).
  { unfold c_min, FP.finf. rewrite shiftl_mul by lia. destruct (pow_ew ew Hew). pose proof (pmw mw Hmw). nia. }
  split; [intros ->; reflexivity|]. split.
  - intros F. replace (fabsb x =? 0) with false by lia. replace (fabsb x <? c_min mw) with false by lia.
    rewrite F. reflexivity.
  - intros N F. replace (fabsb x =? 0) with false by lia. rewrite F.
    destruct (exponent_ok (fabsb x) ltac:(lia)) as (e & E & B & _). exists e. split; [exact E|]. unfold log_is. rewrite abs_fval. exact B.
Qed.

Lemma logb_ok x : bias + mw < 2^(mw + 1) -> fbits x ->
  (fabsb x = 0 -> logb mw ew Hmw Hpe x = Ok (with_sign true finf)) /\
  (fisinf x = true -> logb mw ew Hmw Hpe x = Ok finf) /\
  (fisnan x = true -> exists r, logb mw ew Hmw Hpe x = Ok r /\ fisnan r = true) /\
  (fabsb x <> 0 -> ffinite x = true -> exists r e, logb mw ew Hmw Hpe x = Ok r /\ fbits r /\ ffinite r = true /\ fval r = IZR e /\ log_is (fval x) e).
Proof.
  intros Hs Hx. unfold logb, fabs, FP.ffinite, FP.fisinf, FP.fisnan. pose proof (fabsb_range mw ew Hmw Hew x) as R. pose proof (finf_pos mw ew Hmw Hew) as FI.
  assert (CM : c_min mw <= finf).
  { unfold c_min, FP.finf. rewrite shiftl_mul by lia. destruct (pow_ew ew Hew). pose proof (pmw mw Hmw). nia. }
  split; [intros ->; reflexivity|]. split; [|split].
  - intros F. replace (fabsb x =? 0) with false by lia. replace (fabsb x <? c_min mw) with false by lia.
    replace (fabsb x <? finf) with false by lia. f_equal. lia.
  - intros F. replace (fabsb x =? 0) with false by lia. replace (fabsb x <? c_min mw) with false by lia.
    replace (fabsb x <? finf) with false by lia. eexists. split; [reflexivity|].
    unfold FP.fabsb at 1. rewrite (Z.mod_small (fabsb x)) by lia. exact F.
  - intros N F. replace (fabsb x =? 0) with false by lia. rewrite F.
    destruct (exponent_ok (fabsb x) ltac:(lia)) as (e & E & B & BE). exists (hofZ e), e.
    destruct (hofZ_exact mw ew Hmw Hew0 Hpe Hew e) as (H1 & H2 & H3 & _).
    { unfold FP.emin in BE. lia. }
    split; [|split; [exact H1|split; [exact H2|split; [exact H3|unfold log_is; rewrite abs_fval; exact B]]]].
    destruct (fabsb x <? c_min mw); [destruct (clz W (fabsb x)); cbn [bind] in *|]; congruence.
Qed.

(** ** nextafter *)
Lemma nextafter_ok from to : fbits from -> fbits to -> fisnan from = false -> fisnan to = false ->
  (ford from = ford to -> nextafter mw ew from to = Ok to) /\
  (ford from < ford to -> exists r, nextafter mw ew from to = Ok r /\ fbits r /\ fisnan r = false /\ ford r = ford from + 1) /\
  (ford to < ford from -> exists r, nextafter mw ew from to = Ok r /\ fbits r /\ fisnan r = false /\ ford r = ford from - 1).
Proof.
  intros Hf Ht Nf Nt. unfold nextafter, heq. rewrite Nf, Nt. cbn [negb andb].
  pose proof (finf_pos mw ew Hmw Hew) as FI. destruct (pW mw ew Hmw Hew) as (W1 & W2 & W3).
  assert (F0 : fisnan 0 = false) by (unfold FP.fisnan, FP.fabsb; rewrite Z.mod_0_l by lia; lia).
  assert (O0 : ford 0 = 0).
  { unfold HW.ford, FP.fneg, FP.fabsb. rewrite Z.mod_0_l by lia. destruct (_ <=? _); reflexivity. }
  rewrite F0, O0. cbn [negb andb]. split; [intros ->; rewrite Z.eqb_refl; reflexivity|].
  pose proof (fabsb_range mw ew Hmw Hew from) as Rf. pose proof (fabsb_range mw ew Hmw Hew to) as Rt.
  assert (main : ford from <> ford to -> exists r,
    (if (ford from =? ford to) || false then Ok to else if ford from =? 0 then Ok (copysign 1 to)
     else (do r <- chk W (if (sgn W to <? sgn W from) || (Z.lxor (sgn W from) (sgn W to) <? 0) then sgn W from - 1 else sgn W from + 1); Ok (r mod 2^W))) = Ok r /\
    fbits r /\ fisnan r = false /\ ford r = if ford from <? ford to then ford from + 1 else ford from - 1).
  { intros NE. replace (ford from =? ford to) with false by lia. cbn [orb].
    destruct (Z.eqb_spec (ford from) 0) as [Z0|Z0].
    - exists (copysign 1 to). split; [reflexivity|].
      destruct (copysign_spec mw ew Hmw Hew0 Hpe Hew 1 to) as (S1 & S2 & S3 & _).
      assert (A1 : fabsb 1 = 1).
      { apply Z.mod_small. split; [lia|]. pose proof (Z.pow_lt_mono_r 2 0 (mw+ew)). lia. }
      assert (FB : 1 < finf).
      { unfold FP.finf. pose proof (pmw mw Hmw). assert (2^2 <= 2^ew) by (apply Z.pow_le_mono_r; lia). nia. }
      split; [exact S1|]. split; [rewrite copysign_nan; unfold FP.fisnan; lia|].
      destruct (Z.ltb_spec (ford from) (ford to)); unfold HW.ford in *; rewrite S2, S3, A1; destruct (fneg to), (fneg from); lia.
    - rewrite !(sgn_pattern mw ew Hmw Hew) by assumption. rewrite lxor_neg_iff.
      set (a := fabsb from) in *. set (b := fabsb to) in *.
      assert (Ra : a <= finf) by (unfold FP.fisnan in Nf; fold a in Nf; lia).
      assert (Rb : b <= finf) by (unfold FP.fisnan in Nt; fold b in Nt; lia).
      set (t := a - (if fneg from then 2^(mw+ew) else 0)). set (u := b - (if fneg to then 2^(mw+ew) else 0)).
      assert (D : exists a', (if (u <? t) || xorb (0 <=? t) (0 <=? u) then t - 1 else t + 1) = a' - (if fneg from then 2^(mw+ew) else 0)
        /\ 0 <= a' <= finf /\ (if fneg from then - a' else a') = if ford from <? ford to then ford from + 1 else ford from - 1).
      { unfold HW.ford in *. fold a b in Z0, NE |- *. unfold t, u.
        destruct (fneg from), (fneg to).
        - destruct (Z.ltb_spec (- a) (- b)).
          + exists (a - 1). replace (_ || _) with true by lia. lia.
          + exists (a + 1). replace (_ || _) with false by lia. lia.
        - exists (a - 1). replace (_ || _) with true by lia. replace (- a <? b) with true by lia. lia.
        - exists (a - 1). replace (_ || _) with true by lia. replace (a <? - b) with false by lia. lia.
        - destruct (Z.ltb_spec a b).
          + exists (a + 1). replace (_ || _) with false by lia. lia.
          + exists (a - 1). replace (_ || _) with true by lia. lia. }
      destruct D as (a' & -> & Ra' & EF). unfold chk.
      replace (_ && _) with true by (destruct (fneg from); lia). cbn [bind]. eexists. split; [reflexivity|].
      rewrite (signed_pattern mw ew Hmw Hew) by lia.
      destruct (with_sign_spec mw ew Hmw Hew (fneg from) a' ltac:(lia)) as (S1 & S2 & S3).
      split; [exact S3|]. split; [unfold FP.fisnan; rewrite S1; lia|].
      unfold HW.ford at 1. rewrite S1, S2. exact EF. }
  split; intros L; destruct (main ltac:(lia)) as (r & E & A & B & C); exists r; (split; [exact E|]); (split; [exact A|]); (split; [exact B|]).
  - replace (ford from <? ford to) with true in C by lia. exact C.
  - replace (ford from <? ford to) with false in C by lia. exact C.
Qed.

End Format.
