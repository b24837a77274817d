(** Property C23: binary128 division, special cases and a misrounded quotient. *)
From Coq Require Import Reals Lra.
From Flocq Require Import Core.
From Verif Require Import Base Bits FP FP_Proof Rne HW HW_Proof Int128_Model Int128_Proof Int128_Div_Proof
  Int128_Float_Model Int128_Float_Proof Tf_Model Tf_Proof Tf_Widen_Proof Tf_Narrow_Proof Tf_Mul_Proof.
Open Scope Z_scope.
Local Ltac Zify.zify_post_hook ::= idtac.

(** Full statement: additionally, for finite a and finite nonzero b, the result
    is [rounds_to] of fval a / fval b.  Missing: that clause for nonzero a, which
    is false (see below); proved are all the special cases. *)
Theorem C23_division_special_partial : forall a b, fbits 112 15 a -> fbits 112 15 b ->
  let s := xorb (fneg 112 15 a) (fneg 112 15 b) in
  let nan r := fbits 112 15 r /\ fisnan 112 15 r = true in
  (fisnan 112 15 a = true \/ fisnan 112 15 b = true -> exists r, divtf3 a b = Ok r /\ nan r) /\
  (fisinf 112 15 a = true -> fisinf 112 15 b = true -> exists r, divtf3 a b = Ok r /\ nan r) /\
  (fabsb 112 15 a = 0 -> fabsb 112 15 b = 0 -> exists r, divtf3 a b = Ok r /\ nan r) /\
  (fisinf 112 15 a = true -> ffinite 112 15 b = true -> divtf3 a b = Ok (with_sign 112 15 s (finf 112 15))) /\
  (ffinite 112 15 a = true -> fabsb 112 15 a <> 0 -> fabsb 112 15 b = 0 -> divtf3 a b = Ok (with_sign 112 15 s (finf 112 15))) /\
  (ffinite 112 15 a = true -> fisinf 112 15 b = true -> divtf3 a b = Ok (with_sign 112 15 s 0)) /\
  (fabsb 112 15 a = 0 -> ffinite 112 15 b = true -> fabsb 112 15 b <> 0 -> divtf3 a b = Ok (with_sign 112 15 s 0)).
Proof.
  intros a b Ha Hb s nan. destruct (tf_split a Ha) as [Ea Ba]. destruct (tf_split b Hb) as [Eb Bb].
  unfold divtf3. rewrite !nosign_ok, signbit_xor by assumption. fold s. unfold nan, fisnan, fisinf, ffinite, divtf_magnitude.
  change INF128 with (finf 112 15). pose proof (finf_pos 112 15 eq_refl eq_refl) as FP. change (112 + 15) with 127 in FP.
  set (ka := fa a) in *. set (kb := fa b) in *. set (I := finf 112 15) in *.
  assert (NS : forall m, I < m < 2^127 -> exists r, Ok (Z.lor m (if s then 2^127 else 0)) = Ok r /\ fb r /\ (I <? fa r) = true).
  { intros m Hm. eexists. split; [reflexivity|]. rewrite lor_sign by lia. apply (nan_sign s m). exact Hm. }
  assert (L111 : forall x (c : bool), I <= x < 2^127 -> I < x \/ c = true -> I < Z.lor x (Z.shiftl (b2z c) 111) < 2^127).
  { intros x c Hx Hc. destruct (lor_bit111 x c Hx) as (R1 & R2 & R3). destruct c; [specialize (R3 eq_refl)|specialize (R2 eq_refl); destruct Hc; [|discriminate]]; unfold I in *; lia. }
  split; [|split; [|split; [|split; [|split; [|split]]]]].
  - intros HN. destruct (Z.leb_spec I ka) as [A|A].
    + cbn [bind]. apply NS. apply L111; lia.
    + replace (kb =? 0) with false by lia. replace (I <? kb) with true by lia. cbn [bind]. apply NS.
      apply (L111 kb true); lia.
  - intros. replace (I <=? ka) with true by lia. cbn [bind]. apply NS. apply L111; lia.
  - intros. replace (I <=? ka) with false by lia. replace (kb =? 0) with true by lia. cbn [bind].
    apply NS. unfold lnot0. apply L111; lia.
  - intros. replace (I <=? ka) with true by lia. replace (I <=? kb) with false by lia. cbn [bind b2z]. f_equal.
    rewrite Z.shiftl_0_l, Z.lor_0_r. rewrite lor_sign by lia. f_equal. lia.
  - intros. replace (I <=? ka) with false by lia. replace (kb =? 0) with true by lia. unfold lnot0. replace (ka =? 0) with false by lia. cbn [bind b2z]. f_equal.
    rewrite Z.shiftl_0_l, Z.lor_0_r. rewrite lor_sign by lia. reflexivity.
  - intros. replace (I <=? ka) with false by lia. replace (kb =? 0) with false by lia. replace (I <? kb) with false by lia.
    replace (kb =? I) with true by lia. rewrite orb_true_r. cbn [bind]. f_equal. rewrite lor_sign by lia. reflexivity.
  - intros. replace (I <=? ka) with false by lia. replace (kb =? 0) with false by lia. replace (I <? kb) with false by lia.
    replace (ka =? 0) with true by lia. cbn [orb bind]. f_equal. rewrite lor_sign by lia. reflexivity.
Qed.
Print Assumptions C23_division_special_partial.

(** 6 / 3 = 2; 1 / 0 = inf; 0 / -inf = -0 *)
Example C23_ex : divtf3 (0x4001 * 2^112 + 2^111) (0x4000 * 2^112 + 2^111) = Ok (0x4000 * 2^112) /\
  divtf3 (0x3FFF * 2^112) 0 = Ok (0x7FFF * 2^112) /\ divtf3 0 (0xFFFF * 2^112) = Ok (2^127).
Proof. repeat split; vm_compute; reflexivity. Qed.

Lemma RN_le mw ew x y : 0 < mw -> (x <= y)%R -> (RN mw ew x <= RN mw ew y)%R.
Proof.
  intros Hm H. unfold RN. assert (Prec_gt_0 (mw + 1)) by (unfold Prec_gt_0; lia).
  apply round_le; try typeclasses eauto. exact H.
Qed.

(** A quotient that is not correctly rounded: the exact quotient lies just
    below the midpoint of two neighbours and the upper one is returned.  (About
    one random pair in three thousand behaves like this.) *)
Theorem C23_misrounding_refuted : exists a b r, fbits 112 15 a /\ fbits 112 15 b /\
  ffinite 112 15 a = true /\ ffinite 112 15 b = true /\ fval 112 15 b <> 0%R /\ divtf3 a b = Ok r /\
  ~ exists neg, rounds_to 112 15 (fval 112 15 a / fval 112 15 b) neg r.
Proof.
  set (ma := 266641102320081806818341496557420). set (mb := 1845729700377100107988647956054340).
  set (r := 0x3FFE * 2^112 + (8054651737337429335484869558865548 - 2^112)).
  exists (0x3FFF * 2^112 + ma), (0x3FFF * 2^112 + mb), r.
  assert (VA : fval 112 15 (0x3FFF * 2^112 + ma) = F2R (Float radix2 (2^112 + ma) (-112))).
  { unfold fval. change (fneg 112 15 (0x3FFF * 2^112 + ma)) with false. change (fabsb 112 15 (0x3FFF * 2^112 + ma)) with (0x3FFF * 2^112 + ma). cbv iota.
    rewrite (fmag_normal 112 15 _ 0x3FFF ma) by (unfold ma; reflexivity || lia). reflexivity. }
  assert (VB : fval 112 15 (0x3FFF * 2^112 + mb) = F2R (Float radix2 (2^112 + mb) (-112))).
  { unfold fval. change (fneg 112 15 (0x3FFF * 2^112 + mb)) with false. change (fabsb 112 15 (0x3FFF * 2^112 + mb)) with (0x3FFF * 2^112 + mb). cbv iota.
    rewrite (fmag_normal 112 15 _ 0x3FFF mb) by (unfold mb; reflexivity || lia). reflexivity. }
  assert (NB : (0 < IZR (2^112 + mb))%R) by (apply IZR_lt; unfold mb; lia).
  assert (PW : (0 < bpow radix2 (-112))%R) by apply bpow_gt_0.
  split; [unfold fbits, ma; lia|]. split; [unfold fbits, mb; lia|]. split; [reflexivity|]. split; [reflexivity|].
  split. { rewrite VB. unfold F2R. cbn [Fnum Fexp]. nra. }
  split; [vm_compute; reflexivity|].
  intros (neg & H1 & H2 & H3 & H4).
  assert (EQ : (fval 112 15 (0x3FFF * 2^112 + ma) / fval 112 15 (0x3FFF * 2^112 + mb) = IZR (2^112 + ma) / IZR (2^112 + mb))%R).
  { rewrite VA, VB. unfold F2R. cbn [Fnum Fexp]. field. split; lra. }
  rewrite EQ in *. clear EQ VA VB.
  (* a dyadic upper bound of the quotient, still below the midpoint *)
  set (y := (2^112 + ma) * 2^240 / (2^112 + mb) + 1).
  assert (XY : (IZR (2^112 + ma) / IZR (2^112 + mb) <= F2R (Float radix2 y (-240)))%R).
  { unfold F2R. cbn [Fnum Fexp]. apply Rmult_le_reg_r with (IZR (2^112 + mb) * IZR (2^240))%R.
    - apply Rmult_lt_0_compat; [exact NB|apply IZR_lt; lia].
    - replace (IZR (2^112 + ma) / IZR (2^112 + mb) * (IZR (2^112 + mb) * IZR (2^240)))%R with (IZR ((2^112 + ma) * 2^240)) by (rewrite mult_IZR; field; lra).
      replace (IZR y * bpow radix2 (-240) * (IZR (2^112 + mb) * IZR (2^240)))%R with (IZR (y * (2^112 + mb))).
      + apply IZR_le. apply Z.lt_le_incl. apply Z.ltb_lt. vm_compute. reflexivity.
      + rewrite mult_IZR. rewrite <- bpow2 by lia.
        replace (IZR y * bpow radix2 (-240) * (IZR (2^112 + mb) * bpow radix2 240))%R with (IZR y * IZR (2^112 + mb) * (bpow radix2 (-240) * bpow radix2 240))%R by ring.
        rewrite <- bpow_plus. change (bpow radix2 (-240 + 240)) with 1%R. ring. }
  assert (RY : RN 112 15 (F2R (Float radix2 y (-240))) = F2R (Float radix2 8054651737337429335484869558865547 (-113))).
  { rewrite (RN_dyadic 112 15 eq_refl y (-240) (-113)).
    - reflexivity.
    - vm_compute. discriminate.
    - lia.
    - unfold emin. lia.
    - vm_compute. reflexivity.
    - left. vm_compute. discriminate. }
  pose proof (RN_le 112 15 _ _ eq_refl XY) as LE. rewrite RY in LE.
  assert (POS : (0 <= RN 112 15 (IZR (2^112 + ma) / IZR (2^112 + mb)))%R).
  { rewrite <- (RN_0 112 15). apply RN_le; [reflexivity|]. apply Rlt_le. apply Rdiv_lt_0_compat; [apply IZR_lt; unfold ma; lia|exact NB]. }
  assert (B1 : (F2R (Float radix2 8054651737337429335484869558865547 (-113)) < bpow radix2 0)%R).
  { unfold F2R. cbn [Fnum Fexp]. apply Rmult_lt_reg_r with (bpow radix2 113); [apply bpow_gt_0|].
    rewrite Rmult_assoc, <- !bpow_plus. change (bpow radix2 (-113 + 113)) with 1%R. rewrite Rmult_1_r. change (0 + 113) with 113. rewrite bpow2 by lia.
    apply IZR_lt. lia. }
  assert (B2 : (bpow radix2 0 <= bpow radix2 (2^(15-1)))%R) by (apply bpow_le; lia).
  destruct H3 as [_ H3]. { rewrite Rabs_pos_eq by exact POS. lra. }
  assert (VR : fval 112 15 r = F2R (Float radix2 8054651737337429335484869558865548 (-113))).
  { unfold fval. change (fneg 112 15 r) with false. change (fabsb 112 15 r) with r. cbv iota. unfold r.
    rewrite (fmag_normal 112 15 _ 0x3FFE (8054651737337429335484869558865548 - 2^112)) by (reflexivity || lia). reflexivity. }
  rewrite VR in H3. rewrite <- H3 in LE. apply F2R_le_reg in LE || apply le_F2R in LE. lia.
Qed.
Print Assumptions C23_misrounding_refuted.
