(** Property theorem C22: binary128 addition and subtraction. *)
From Coq Require Import Reals Lra.
From Flocq Require Import Core.
From Verif Require Import Base Bits FP FP_Proof Rne HW HW_Proof Int128_Model Int128_Proof Int128_Div_Proof
  Int128_Float_Model Int128_Float_Proof Tf_Model Tf_Proof Tf_Widen_Proof Tf_Narrow_Proof Tf_Int_Proof Tf_Mul_Proof
  Tf_Add_Proof Tf_Sub_Proof.
Open Scope Z_scope.
Local Ltac Zify.zify_post_hook ::= idtac.

(** ** The IEEE specification of x + y, on patterns *)
Definition add_spec (mw ew x y r : Z) : Prop :=
  if fisnan mw ew x || fisnan mw ew y || (fisinf mw ew x && fisinf mw ew y && xorb (fneg mw ew x) (fneg mw ew y))
  then fbits mw ew r /\ fisnan mw ew r = true
  else if fisinf mw ew x then r = with_sign mw ew (fneg mw ew x) (finf mw ew)
  else if fisinf mw ew y then r = with_sign mw ew (fneg mw ew y) (finf mw ew)
  else exists neg, let v := (fval mw ew x + fval mw ew y)%R in
    ((v < 0)%R -> neg = true) /\ ((0 < v)%R -> neg = false) /\
    (v = 0%R -> neg = fneg mw ew x && fneg mw ew y) /\ rounds_to mw ew v neg r.

(** ** The domain on which the code computes it.
    [bexp k] is the biased exponent of a magnitude (1 for subnormals).  The code
    shifts by [128 - (bexp B - bexp S)], undefined when the exponents are equal
    (unless both operands are subnormal for a sum, or below 2 * the smallest normal
    number for a difference); and [sub114] is the case |x| a power of two, |y| with
    exponent 114 less and |y| not a power of two, in which the difference should
    be the predecessor of |x|. *)
Definition add_domain (same : bool) (B S : Z) : Prop :=
  if same then B < 2^112 \/ bexp B <> bexp S
  else B = S \/ B = finf 112 15 \/ ((B < 2 * 2^112 \/ bexp B <> bexp S) /\ ~ sub114 B S).

Lemma lor_sign' (neg : bool) m : 0 <= m < 2^127 -> Z.lor (if neg then 2^127 else 0) m = with_sign 112 15 neg m.
Proof. intros. rewrite Z.lor_comm. apply lor_sign. assumption. Qed.

Lemma xor_sign a b : fb a -> fb b -> (Z.shiftr (Z.lxor a b) 127 =? 0) = negb (xorb (fn a) (fn b)).
Proof.
  intros Ha Hb. pose proof (signbit_xor a b Ha Hb) as H. unfold signbit128, SIGN128 in H.
  rewrite shiftr_div by lia.
  assert (B : 0 <= Z.lxor a b < 2^128).
  { unfold fbits in *. change (112 + 15 + 1) with 128 in *.
    assert (N : 0 <= Z.lxor a b) by (apply Z.lxor_nonneg; lia). split; [exact N|].
    destruct (Z.eq_dec (Z.lxor a b) 0) as [->|N0]; [lia|].
    apply Z.log2_lt_pow2; [lia|]. eapply Z.le_lt_trans; [apply Z.log2_lxor; lia|].
    apply Z.max_lub_lt; (destruct (Z.eq_dec a 0), (Z.eq_dec b 0); subst; try (cbn; lia); apply Z.log2_lt_pow2; lia). }
  rewrite shiftl_mul, Z.mul_1_l in H by lia. change (2^127) with (2^128 - 2^127) in H at 1.
  rewrite (land_field (Z.lxor a b) 127 128) in H by lia. rewrite (Z.mod_small (Z.lxor a b) (2^128)) in H by lia.
  pose proof (Z.div_mod (Z.lxor a b) (2^127) ltac:(lia)). destruct (xorb (fn a) (fn b)); lia.
Qed.

Lemma add_inf b : 0 <= b <= finf 112 15 -> bexp b <> 0x7FFF -> addtf_add (finf 112 15) b = Ok (finf 112 15).
Proof.
  intros Hb HX. unfold addtf_add. change (finf 112 15) with (0x7FFF * 2^112) in *. cbv zeta.
  rewrite bexp_lor by lia. change (0x7FFF * 2^112 <? Z.shiftl 1 112) with false. cbv iota.
  change (Z.shiftr (0x7FFF * 2^112) 112) with 0x7FFF.
  assert (B : 1 <= bexp b < 0x7FFF).
  { unfold bexp in *. assert (b / 2^112 < 0x8000) by (apply Z.div_lt_upper_bound; lia). lia. }
  set (s := 0x7FFF - bexp b). unfold u32. rewrite (Z.mod_small s) by lia.
  destruct (Z.leb_spec 114 s); [reflexivity|]. rewrite rsh_ok, lsh_ok by lia. cbn [bind].
  unfold compose_sum. change (0x7FFF - 1 <? 0x7FFE) with false. change (0x7FFF <? 0x7FFE) with false. cbv iota.
  destruct (_ <? _); reflexivity.
Qed.

Definition sadd (x y : Z) : R := (fval 112 15 x + fval 112 15 y)%R.

Lemma sorted_ok a b : fb a -> fb b -> fa b <= fa a ->
  (fisnan 112 15 a = false -> add_domain (eqb (fn a) (fn b)) (fa a) (fa b)) ->
  exists r, addtf_sorted a b = Ok r /\ add_spec 112 15 a b r.
Proof.
  intros Ha Hb HL HD. destruct (tf_split a Ha) as [Ea Ba]. destruct (tf_split b Hb) as [Eb Bb].
  unfold addtf_sorted. cbv zeta. rewrite !nosign_ok, xor_sign, signbit_ok by assumption. change INF128 with (finf 112 15).
  unfold add_spec. unfold fisnan, fisinf in *. pose proof (finf_pos 112 15 eq_refl eq_refl) as FP. change (112 + 15) with 127 in FP.
  pose proof (fmag_nonneg 112 15 eq_refl (fa a) ltac:(lia)) as NNa. pose proof (fmag_nonneg 112 15 eq_refl (fa b) ltac:(lia)) as NNb.
  assert (FI : finf 112 15 = 0x7FFF * 2^112) by reflexivity.
  destruct (Z.ltb_spec (finf 112 15) (fa a)) as [N|N].
  { eexists. split; [reflexivity|]. cbn [orb].
    assert (E : Z.lor a (Z.shiftl 1 111) = with_sign 112 15 (fn a) (Z.lor (fa a) (Z.shiftl 1 111))).
    { destruct (lor_bit111 (fa a) true ltac:(lia)) as (R1 & _). cbn [b2z] in R1.
      rewrite <- lor_sign by lia. rewrite Ea at 1. unfold with_sign. change (112 + 15) with 127.
      rewrite <- Z.lor_assoc, (Z.lor_comm (Z.shiftl 1 111)), Z.lor_assoc. f_equal.
      destruct (fn a); [|rewrite Z.lor_0_r; reflexivity].
      rewrite Z.lor_comm. replace (2^127 + fa a) with (1 * 2^127 + fa a) by lia. rewrite <- lor_mul_low by lia. f_equal. }
    rewrite E. destruct (lor_bit111 (fa a) true ltac:(lia)) as (R1 & _ & R3). apply nan_sign. cbn [b2z] in *. specialize (R3 eq_refl). lia. }
  specialize (HD ltac:(lia)). unfold add_domain in HD.
  replace (finf 112 15 <? fa b) with false by lia. cbn [orb].
  destruct (eqb (fn a) (fn b)) eqn:SE.
  - apply eqb_prop in SE. rewrite SE, xorb_nilpotent, andb_false_r. cbn [negb].
    destruct (Z.eqb_spec (fa a) (finf 112 15)) as [IA|IA].
    + rewrite IA. rewrite add_inf; [|lia|].
      2:{ destruct HD as [HD|HD]; [lia|]. rewrite IA in HD. change (bexp (finf 112 15)) with 0x7FFF in HD. lia. }
      cbn [bind]. eexists. split; [reflexivity|]. apply lor_sign'. lia.
    + replace (fa b =? finf 112 15) with false by lia.
      destruct (add_mag (fa a) (fa b) ltac:(lia) ltac:(lia) HD) as (D & E & R). rewrite E. cbn [bind]. eexists. split; [reflexivity|].
      exists (fn b). cbv zeta.
      destruct (rounds_with_sign 112 15 _ (fn b) D eq_refl eq_refl R) as [R' BD]. rewrite lor_sign' by exact BD.
      assert (V : (fval 112 15 a + fval 112 15 b = if fn b then - (fmag 112 15 (fa a) + fmag 112 15 (fa b)) else fmag 112 15 (fa a) + fmag 112 15 (fa b))%R).
      { unfold fval. rewrite SE. destruct (fn b); ring. }
      rewrite V. split; [|split; [|split]].
      * destruct (fn b); [reflexivity|intros; lra].
      * destruct (fn b); [intros; lra|reflexivity].
      * intros _. rewrite andb_diag. reflexivity.
      * exact R'.
  - assert (XO : xorb (fn a) (fn b) = true) by (destruct (fn a), (fn b); try discriminate SE; reflexivity).
    rewrite XO, andb_true_r. cbn [negb].
    destruct (Z.eqb_spec (fa a) (finf 112 15)) as [IA|IA].
    + eexists. split; [reflexivity|]. cbn [andb].
      assert (E : forall c : bool, Z.lor a (Z.shiftl (b2z c) 111) = with_sign 112 15 (fn a) (Z.lor (fa a) (Z.shiftl (b2z c) 111))).
      { intros c. destruct (lor_bit111 (fa a) c ltac:(lia)) as (R1 & _).
        rewrite <- lor_sign by lia. rewrite Ea at 1. unfold with_sign. change (112 + 15) with 127.
        rewrite <- Z.lor_assoc, (Z.lor_comm (Z.shiftl (b2z c) 111)), Z.lor_assoc. f_equal.
        destruct (fn a); [|rewrite Z.lor_0_r; reflexivity].
        rewrite Z.lor_comm. replace (2^127 + fa a) with (1 * 2^127 + fa a) by lia. rewrite <- lor_mul_low by lia. f_equal. }
      rewrite E. destruct (Z.eqb_spec (fa b) (finf 112 15)) as [IB|IB].
      * destruct (lor_bit111 (fa a) true ltac:(lia)) as (R1 & _ & R3). apply nan_sign. specialize (R3 eq_refl). lia.
      * rewrite Z.shiftl_0_l, Z.lor_0_r, IA. reflexivity.
    + replace (fa b =? finf 112 15) with false by lia. cbn [andb].
      destruct (Z.eqb_spec (fa a) (fa b)) as [AB|AB].
      * exists 0. split; [reflexivity|]. exists false. cbv zeta.
        assert (V : (fval 112 15 a + fval 112 15 b = 0)%R).
        { unfold fval. rewrite AB. destruct (fn a), (fn b); try discriminate SE; ring. }
        rewrite V. split; [intros; lra|]. split; [reflexivity|]. split.
        { intros _. destruct (fn a), (fn b); try discriminate SE; reflexivity. }
        split; [unfold fbits; lia|]. split; [reflexivity|]. rewrite RN_0, Rabs_R0. split.
        { intros _. split; [reflexivity|]. change (fval 112 15 0) with (fmag 112 15 0). apply fmag_0. reflexivity. }
        intros K. pose proof (bpow_gt_0 radix2 (2^(15-1))). lra.
      * destruct HD as [HD|[HD|[HD1 HD2]]]; [lia|lia|].
        destruct (sub_mag (fa a) (fa b) ltac:(lia) ltac:(lia) HD1 HD2) as (D & E & R). rewrite E. cbn [bind]. eexists. split; [reflexivity|].
        exists (fn a). cbv zeta.
        destruct (rounds_with_sign 112 15 _ (fn a) D eq_refl eq_refl R) as [R' BD]. rewrite lor_sign' by exact BD.
        assert (V : (fval 112 15 a + fval 112 15 b = if fn a then - (fmag 112 15 (fa a) - fmag 112 15 (fa b)) else fmag 112 15 (fa a) - fmag 112 15 (fa b))%R).
        { unfold fval. destruct (fn a), (fn b); try discriminate SE; ring. }
        pose proof (fmag_lt 112 15 eq_refl (fa b) (fa a) ltac:(lia)) as LT.
        rewrite V. split; [|split; [|split]].
        -- destruct (fn a); [reflexivity|intros; lra].
        -- destruct (fn a); [intros; lra|reflexivity].
        -- intros Z0. destruct (fn a); lra.
        -- exact R'.
Qed.

Lemma add_spec_comm x y r : add_spec 112 15 x y r -> add_spec 112 15 y x r.
Proof.
  unfold add_spec. rewrite (orb_comm (fisnan 112 15 y)), (andb_comm (fisinf 112 15 y)), (xorb_comm (fneg 112 15 y)).
  destruct (_ || _) eqn:C; [auto|].
  destruct (fisinf 112 15 x) eqn:I1, (fisinf 112 15 y) eqn:I2; auto.
  - intros ->. apply orb_false_elim in C. destruct C as [_ C]. cbn in C. destruct (fn x), (fn y); try discriminate C; reflexivity.
  - intros (neg & H). exists neg. cbv zeta in *. rewrite (Rplus_comm (fval 112 15 y)), (andb_comm (fn y)). exact H.
Qed.

(** Full statement: [add_spec] for every pair, with no [add_domain] hypothesis.
    Missing (false, see below): the pairs outside [add_domain]. *)
Theorem C22_addition_partial :
  (forall a b, fbits 112 15 a -> fbits 112 15 b ->
    (fisnan 112 15 a = false -> fisnan 112 15 b = false ->
      add_domain (eqb (fneg 112 15 a) (fneg 112 15 b)) (Z.max (fabsb 112 15 a) (fabsb 112 15 b)) (Z.min (fabsb 112 15 a) (fabsb 112 15 b))) ->
    exists r, addtf3 a b = Ok r /\ add_spec 112 15 a b r) /\
  (forall a b, fbits 112 15 a -> fbits 112 15 b ->
    (fisnan 112 15 a = false -> fisnan 112 15 b = false ->
      add_domain (negb (eqb (fneg 112 15 a) (fneg 112 15 b))) (Z.max (fabsb 112 15 a) (fabsb 112 15 b)) (Z.min (fabsb 112 15 a) (fabsb 112 15 b))) ->
    exists r, subtf3 a b = Ok r /\ add_spec 112 15 a (with_sign 112 15 (negb (fneg 112 15 b)) (fabsb 112 15 b)) r).
Proof.
  assert (ADD : forall a b, fbits 112 15 a -> fbits 112 15 b ->
    (fisnan 112 15 a = false -> fisnan 112 15 b = false ->
      add_domain (eqb (fneg 112 15 a) (fneg 112 15 b)) (Z.max (fabsb 112 15 a) (fabsb 112 15 b)) (Z.min (fabsb 112 15 a) (fabsb 112 15 b))) ->
    exists r, addtf3 a b = Ok r /\ add_spec 112 15 a b r).
  { intros a b Ha Hb HD. unfold addtf3. rewrite !nosign_ok.
    destruct (Z.ltb_spec (fa a) (fa b)) as [L|L].
    - destruct (sorted_ok b a Hb Ha ltac:(lia)) as (r & E & S).
      { intros N. rewrite Z.max_r, Z.min_l in HD by lia.
        replace (eqb (fn b) (fn a)) with (eqb (fn a) (fn b)) by (destruct (fn a), (fn b); reflexivity).
        apply HD; [|exact N]. unfold fisnan in *. lia. }
      exists r. split; [exact E|]. apply add_spec_comm. exact S.
    - apply sorted_ok; try assumption. rewrite Z.max_l, Z.min_r in HD by lia. intros N. apply HD; [exact N|]. unfold fisnan in *. lia. }
  split; [exact ADD|]. intros a b Ha Hb HD. unfold subtf3.
  destruct (tf_split b Hb) as [Eb Bb].
  assert (EX : Z.lxor b SIGN128 = with_sign 112 15 (negb (fn b)) (fa b)).
  { unfold SIGN128. rewrite shiftl_mul, Z.mul_1_l by lia. unfold with_sign. change (112 + 15) with 127.
    assert (X : forall m, 0 <= m < 2^127 -> Z.lxor (2^127 + m) (2^127) = m /\ Z.lxor m (2^127) = 2^127 + m).
    { intros m Hm. assert (L1 : Z.lxor m (2^127) = 2^127 + m).
      { rewrite Z.lxor_lor.
        - rewrite Z.lor_comm. replace (2^127) with (1 * 2^127) by lia. apply lor_mul_low; lia.
        - apply Z.bits_inj'. intros n Hn. rewrite Z.land_spec, Z.bits_0, Z.pow2_bits_eqb by lia.
          destruct (Z.eqb_spec 127 n) as [<-|]; [|apply andb_false_r]. rewrite andb_true_r.
          rewrite <- (Z.mod_small m (2^127)) by lia. apply Z.mod_pow2_bits_high. lia. }
      split; [|exact L1]. rewrite <- L1, Z.lxor_assoc, Z.lxor_nilpotent. apply Z.lxor_0_r. }
    destruct (X (fa b) Bb) as [X1 X2]. rewrite Eb at 1. unfold with_sign. change (112 + 15) with 127. destruct (fn b); cbn [negb].
    - rewrite X1. lia.
    - rewrite Z.add_0_l, X2. reflexivity. }
  rewrite EX. destruct (with_sign_spec 112 15 eq_refl eq_refl (negb (fn b)) (fa b) Bb) as (W1 & W2 & W3).
  apply ADD; try assumption. rewrite W1, W2. intros N1 N2. replace (eqb (fn a) (negb (fn b))) with (negb (eqb (fn a) (fn b))) by (destruct (fn a), (fn b); reflexivity).
  apply HD; [exact N1|]. unfold fisnan in *. rewrite W1 in N2. exact N2.
Qed.
Print Assumptions C22_addition_partial.

(** 2 + 0.75 = 2.75 and 1 - 2^-113 - ... : hypotheses met and values *)
Example C22_ex :
  add_domain true (0x4000 * 2^112) (0x3FFE * 2^112 + 2^111) /\ addtf3 (0x4000 * 2^112) (0x3FFE * 2^112 + 2^111) = Ok (0x4000 * 2^112 + 3 * 2^109) /\
  add_domain false (0x3FFF * 2^112) ((0x3FFF - 113) * 2^112) /\ subtf3 (0x3FFF * 2^112) ((0x3FFF - 113) * 2^112) = Ok (0x3FFF * 2^112 - 1).
Proof.
  split; [right; vm_compute; discriminate|]. split; [vm_compute; reflexivity|]. split; [|vm_compute; reflexivity].
  right. right. split; [right; vm_compute; discriminate|]. intros [H _]. vm_compute in H. discriminate H.
Qed.

(** 1 + 1 shifts a 128-bit integer by 128. *)
Theorem C22_undefined_shift_refuted : exists a b, fbits 112 15 a /\ fbits 112 15 b /\
  ffinite 112 15 a = true /\ ffinite 112 15 b = true /\ addtf3 a b = UB.
Proof.
  exists (0x3FFF * 2^112), (0x3FFF * 2^112). split; [unfold fbits; lia|]. split; [unfold fbits; lia|].
  split; [reflexivity|]. split; [reflexivity|]. vm_compute. reflexivity.
Qed.
Print Assumptions C22_undefined_shift_refuted.

(** 1 - 1.5 * 2^-114 yields 1 instead of 1 - 2^-113. *)
Theorem C22_misrounding_refuted : exists a b r, fbits 112 15 a /\ fbits 112 15 b /\
  ffinite 112 15 a = true /\ ffinite 112 15 b = true /\ subtf3 a b = Ok r /\
  ~ exists neg, rounds_to 112 15 (fval 112 15 a - fval 112 15 b) neg r.
Proof.
  exists (0x3FFF * 2^112), ((0x3FFF - 114) * 2^112 + 2^111), (0x3FFF * 2^112).
  split; [unfold fbits; lia|]. split; [unfold fbits; lia|]. split; [reflexivity|]. split; [reflexivity|].
  split; [vm_compute; reflexivity|]. intros (neg & H).
  assert (N : neg = false) by (destruct H as (_ & H & _); rewrite <- H; reflexivity). subst neg.
  assert (V : (fval 112 15 (0x3FFF * 2^112) - fval 112 15 ((0x3FFF - 114) * 2^112 + 2^111) = F2R (Float radix2 (2^112 * 2^114 - (2^112 + 2^111)) (-226)))%R).
  { unfold fval. change (fneg 112 15 (0x3FFF * 2^112)) with false. change (fneg 112 15 ((0x3FFF - 114) * 2^112 + 2^111)) with false. cbv iota.
    change (fabsb 112 15 (0x3FFF * 2^112)) with (0x3FFF * 2^112). change (fabsb 112 15 ((0x3FFF - 114) * 2^112 + 2^111)) with ((0x3FFF - 114) * 2^112 + 2^111).
    rewrite (fmag_normal 112 15 (0x3FFF * 2^112) 0x3FFF 0) by (reflexivity || lia).
    rewrite (fmag_normal 112 15 _ (0x3FFF - 114) (2^111)) by (reflexivity || lia).
    change (emin 112 15 + 0x3FFF - 1) with (-112). change (emin 112 15 + (0x3FFF - 114) - 1) with (-226).
    rewrite F2R_sub by lia. reflexivity. }
  rewrite V in H.
  pose proof (pack (2^112 * 2^114 - (2^112 + 2^111)) (-226) (-113) ltac:(lia) ltac:(lia) ltac:(unfold emin; lia) ltac:(vm_compute; reflexivity) ltac:(left; vm_compute; discriminate)) as P.
  pose proof (rounds_unique 112 15 _ _ _ _ eq_refl eq_refl H P) as E. vm_compute in E. discriminate E.
Qed.
Print Assumptions C22_misrounding_refuted.
