(** fmaf: the product is exact in double, the sum is rounded to double and, when that falls on a
    midpoint of the floats, moved towards the exact sum. *)
From Coq Require Import Reals Lra.
From Flocq Require Import Core.
From Verif Require Import Base Bits FP FP_Proof Rne HW HW_Proof FPInt FPOps Tf_Widen_Proof Math_Lconv_Proof Midpoint Math_Model Mathl_Spec.
Open Scope Z_scope.
Local Ltac Zify.zify_post_hook ::= idtac.

Notation half24 := (halfway (-149) 24).
Notation RN24 := (RN 23 8).
Notation RN53 := (RN 52 11).
Notation F53 := (generic_format radix2 (FLT_exp (-1074) 53)).

Lemma RN24_eq : RN24 = round radix2 (FLT_exp (-149) 24) ZnearestE.
Proof. reflexivity. Qed.
Lemma RN53_eq : RN53 = round radix2 (FLT_exp (-1074) 53) ZnearestE.
Proof. reflexivity. Qed.

Local Instance V53 : Valid_exp (FLT_exp (-1074) 53).
Proof. apply FLT_exp_valid. reflexivity. Qed.
Local Instance V24 : Valid_exp (FLT_exp (-149) 24).
Proof. apply FLT_exp_valid. reflexivity. Qed.

Lemma bpow_Z e : 0 <= e -> bpow radix2 e = IZR (2^e).
Proof. intros H. change 2 with (radix_val radix2). symmetry. apply IZR_Zpower. exact H. Qed.

(** equal positive multiples of powers of two, the left exponent being the smaller *)
Lemma scale_eq q e m i : (IZR q * bpow radix2 e = IZR m * bpow radix2 i)%R -> e <= i -> q = m * 2^(i - e).
Proof.
  intros H L. apply eq_IZR. rewrite mult_IZR. change 2 with (radix_val radix2). rewrite IZR_Zpower by lia. apply Rmult_eq_reg_r with (bpow radix2 e); [|apply Rgt_not_eq, bpow_gt_0].
  rewrite H, Rmult_assoc, <- bpow_plus. do 2 f_equal. lia.
Qed.

Lemma scale_lt q e m i : (IZR q * bpow radix2 e < IZR m * bpow radix2 i)%R -> i <= e -> q * 2^(e - i) < m.
Proof.
  intros H L. apply lt_IZR. rewrite mult_IZR. change 2 with (radix_val radix2). rewrite IZR_Zpower by lia. apply Rmult_lt_reg_r with (bpow radix2 i); [apply bpow_gt_0|].
  rewrite Rmult_assoc, <- bpow_plus. replace (e - i + i) with e by lia. exact H.
Qed.

Lemma half_exponent q e n i : 2^52 <= q < 2^53 -> 0 <= n < 2^24 ->
  (IZR q * bpow radix2 e = IZR (2 * n + 1) * bpow radix2 (i - 1))%R -> e + 28 <= i - 1.
Proof.
  intros Hq Hn H. destruct (Z_le_gt_dec (e + 28) (i - 1)) as [L|L]; [exact L|exfalso].
  assert (K : 2 * n + 1 = q * 2^(e - (i - 1)) \/ q = (2 * n + 1) * 2^(i - 1 - e)).
  { destruct (Z_le_gt_dec e (i - 1)) as [A|A].
    - right. apply scale_eq; assumption.
    - left. apply scale_eq; [symmetry; exact H|lia]. }
  destruct K as [K|K].
  - destruct (Z_le_gt_dec 0 (e - (i - 1))) as [A|A]; [|rewrite Z.pow_neg_r in K by lia; lia].
    assert (1 <= 2^(e - (i - 1))) by (pose proof (pow2_pos (e - (i - 1))); lia). nia.
  - destruct (Z_le_gt_dec 0 (i - 1 - e)) as [A|A]; [|rewrite Z.pow_neg_r in K by lia; lia].
    assert (2^(i - 1 - e) <= 2^27) by (apply Z.pow_le_mono_r; lia). nia.
Qed.

Lemma half_low q e : 2^52 <= q < 2^53 -> half24 (IZR q * bpow radix2 e) -> q mod 2^28 = 0.
Proof.
  intros Hq H. assert (P : (0 < IZR q * bpow radix2 e)%R) by (apply Rmult_lt_0_compat; [apply IZR_lt; lia|apply bpow_gt_0]).
  destruct (halfway_pos (-149) 24 (-1074) 53 eq_refl ltac:(lia) ltac:(lia) _ H P) as (n & i & E & Hn & Hi & _).
  pose proof (half_exponent q e n i Hq Hn E) as L. apply scale_eq in E; [|lia].
  rewrite E. replace (i - 1 - e) with ((i - 1 - e - 28) + 28) by lia. rewrite Z.pow_add_r, Z.mul_assoc by lia. apply Z.mod_mul. discriminate.
Qed.

Lemma half_pattern q e : 2^52 <= q < 2^53 -> (bpow radix2 (-126) <= IZR q * bpow radix2 e)%R ->
  half24 (IZR q * bpow radix2 e) -> q mod 2^29 = 2^28.
Proof.
  intros Hq B H. assert (P : (0 < IZR q * bpow radix2 e)%R) by (apply Rmult_lt_0_compat; [apply IZR_lt; lia|apply bpow_gt_0]).
  destruct (halfway_pos (-149) 24 (-1074) 53 eq_refl ltac:(lia) ltac:(lia) _ H P) as (n & i & E & Hn & Hi & HI).
  pose proof (half_exponent q e n i Hq Hn E) as L.
  assert (N : 2^23 <= n).
  { destruct HI as [->|HI]; [|exact HI]. rewrite E in B.
    assert (K : 1 * 2^(-126 - (-149 - 1)) < 2 * n + 1 + 1).
    { apply scale_lt; [|lia]. rewrite Rmult_1_l. eapply Rle_lt_trans; [exact B|]. apply Rmult_lt_compat_r; [apply bpow_gt_0|apply IZR_lt; lia]. }
    change (2^(-126 - (-149 - 1))) with (2 * 2^23) in K. lia. }
  apply scale_eq in E; [|lia].
  assert (i - 1 - e = 28).
  { destruct (Z.eq_dec (i - 1 - e) 28) as [K|K]; [exact K|exfalso]. assert (2^29 <= 2^(i - 1 - e)) by (apply Z.pow_le_mono_r; lia). nia. }
  rewrite E. replace (i - 1 - e) with 28 by lia. symmetry. apply Z.mod_unique with n; [left; lia|]. change (2^29) with (2 * 2^28). ring.
Qed.

(** a fraction of 53 bits and its successor *)
Lemma succ53 q e : 2^52 <= q < 2^53 -> -1074 <= e ->
  succ radix2 (FLT_exp (-1074) 53) (IZR q * bpow radix2 e) = (IZR (q + 1) * bpow radix2 e)%R.
Proof.
  intros Hq He. pose proof (bpow_gt_0 radix2 e) as P.
  assert (Q : (0 < IZR q)%R) by (apply IZR_lt; lia).
  assert (X : (0 < IZR q * bpow radix2 e)%R) by (apply Rmult_lt_0_compat; assumption).
  rewrite succ_eq_pos by lra. rewrite ulp_neq_0 by lra. unfold cexp.
  rewrite (mag_unique radix2 (IZR q * bpow radix2 e) (e + 53)).
  - unfold FLT_exp. replace (Z.max (e + 53 - 53) (-1074)) with e by lia. rewrite plus_IZR. ring.
  - rewrite Rabs_pos_eq by lra. replace (e + 53 - 1) with (52 + e) by lia. rewrite (Z.add_comm e 53), !bpow_plus, (bpow_Z 52), (bpow_Z 53) by lia.
    split; [apply Rmult_le_compat_r; [lra|apply IZR_le; lia]|apply Rmult_lt_compat_r; [lra|apply IZR_lt; lia]].
Qed.

Lemma F53_mult q e : Z.abs q <= 2^53 -> -1074 <= e -> F53 (IZR q * bpow radix2 e).
Proof. intros A B. apply FLT_multiple; [reflexivity|exact B|exact A]. Qed.

(** the adjusted double rounds to float as the exact value *)
Lemma adjusted x q e : 2^52 <= q < 2^53 -> -1074 <= e -> q mod 2^29 = 2^28 ->
  RN53 x = (IZR q * bpow radix2 e)%R ->
  ((IZR q * bpow radix2 e < x)%R -> RN24 x = RN24 (IZR (q + 1) * bpow radix2 e)) /\
  ((x < IZR q * bpow radix2 e)%R -> RN24 x = RN24 (IZR (q - 1) * bpow radix2 e)).
Proof.
  intros Hq He HM HR. pose proof (bpow_gt_0 radix2 e) as P.
  assert (Hq' : 2^52 < q /\ q + 1 < 2^53).
  { pose proof (Z.div_mod q (2^29) ltac:(discriminate)) as D. rewrite HM in D. set (d := q / 2^29) in *. clearbody d. split.
    - destruct (Z.eq_dec q (2^52)); [exfalso; lia|lia].
    - destruct (Z.eq_dec (q + 1) (2^53)); [exfalso; lia|lia]. }
  assert (LT : forall u v, u < v -> (IZR u * bpow radix2 e < IZR v * bpow radix2 e)%R).
  { intros u v H. apply Rmult_lt_compat_r; [exact P|apply IZR_lt; exact H]. }
  assert (NH : forall d, d = 1 \/ d = -1 -> ~ half24 (IZR (q + d) * bpow radix2 e)).
  { intros d Hd H. apply half_low in H; [|lia].
    pose proof (Z.div_mod q (2^29) ltac:(discriminate)) as D. rewrite HM in D. pose proof (Z.div_mod (q + d) (2^28) ltac:(discriminate)) as D2.
    rewrite H in D2. set (d1 := q / 2^29) in *. set (d2 := (q + d) / 2^28) in *. clearbody d1 d2. lia. }
  assert (RR := HR). rewrite RN53_eq in RR. rewrite RN24_eq. split; intros L.
  - apply (same_round (-149) 24 (-1074) 53 eq_refl ltac:(lia) ltac:(lia)); [| |apply (NH 1); lia].
    + intros m Fm H. apply Rle_lt_trans with (2 := L). apply Rnot_lt_le. intros K.
      apply (succ_le_lt radix2 (FLT_exp (-1074) 53)) in K; [|apply F53_mult; lia|exact Fm].
      rewrite succ53 in K by lia. lra.
    + intros m Fm H. apply Rle_lt_trans with (2 := H). apply Rnot_lt_le. intros K.
      assert (B : (IZR (q + 1) * bpow radix2 e <= round radix2 (FLT_exp (-1074) 53) ZnearestE x)%R).
      { apply round_ge_generic; [typeclasses eauto|typeclasses eauto|apply F53_mult; lia|lra]. }
      rewrite RR in B. specialize (LT q (q + 1) ltac:(lia)). lra.
  - apply (same_round (-149) 24 (-1074) 53 eq_refl ltac:(lia) ltac:(lia)); [| |apply (NH (-1)); lia].
    + intros m Fm H. apply Rlt_le_trans with (1 := H). apply Rnot_lt_le. intros K.
      assert (B : (round radix2 (FLT_exp (-1074) 53) ZnearestE x <= IZR (q - 1) * bpow radix2 e)%R).
      { apply round_le_generic; [typeclasses eauto|typeclasses eauto|apply F53_mult; lia|lra]. }
      rewrite RR in B. specialize (LT (q - 1) q ltac:(lia)). lra.
    + intros m Fm H. apply Rlt_le_trans with (1 := L). apply Rnot_lt_le. intros K.
      apply (succ_le_lt radix2 (FLT_exp (-1074) 53)) in H; [|apply F53_mult; lia|exact Fm].
      rewrite succ53 in H by lia. replace (q - 1 + 1) with q in H by lia. lra.
Qed.

Lemma adjusted_neg x q e : 2^52 <= q < 2^53 -> -1074 <= e -> q mod 2^29 = 2^28 ->
  RN53 x = (- (IZR q * bpow radix2 e))%R ->
  ((- (IZR q * bpow radix2 e) < x)%R -> RN24 x = RN24 (- (IZR (q - 1) * bpow radix2 e))) /\
  ((x < - (IZR q * bpow radix2 e))%R -> RN24 x = RN24 (- (IZR (q + 1) * bpow radix2 e))).
Proof.
  intros Hq He HM HR.
  assert (O24 : forall y, RN24 (- y) = (- RN24 y)%R) by (intros y; rewrite RN24_eq; apply round_NE_opp).
  assert (O53 : forall y, RN53 (- y) = (- RN53 y)%R) by (intros y; rewrite RN53_eq; apply round_NE_opp).
  destruct (adjusted (- x) q e Hq He HM) as [A B]; [rewrite O53, HR; ring|].
  rewrite O24 in A, B. rewrite !O24. split; intros L.
  - rewrite <- B by lra. ring.
  - rewrite <- A by lra. ring.
Qed.

(** ** the double operations *)
Lemma rounds_small x neg r e : rounds_to 52 11 x neg r -> (Rabs x <= bpow radix2 e)%R -> -1074 <= e < 1024 ->
  fbits 52 11 r /\ ffinite 52 11 r = true /\ fval 52 11 r = RN53 x /\ fneg 52 11 r = neg /\ (Rabs (fval 52 11 r) <= bpow radix2 e)%R.
Proof.
  intros (A & B & C & _) L He.
  assert (K : (Rabs (RN53 x) <= bpow radix2 e)%R).
  { rewrite RN53_eq. apply abs_round_le_generic; [typeclasses eauto|typeclasses eauto| |exact L].
    apply generic_format_bpow. unfold FLT_exp. lia. }
  destruct C as [C1 C2]. { eapply Rle_lt_trans; [exact K|]. apply bpow_lt. change (2^(11-1)) with 1024. lia. }
  split; [exact A|]. split; [exact C1|]. split; [exact C2|]. split; [exact B|]. rewrite C2. exact K.
Qed.

Lemma float_split a : fbits 23 8 a -> ffinite 23 8 a = true -> exists n e, fval 23 8 a = (IZR n * bpow radix2 e)%R /\ Z.abs n < 2^24 /\ -149 <= e.
Proof.
  intros Ha F. pose proof (fval_format 23 8 eq_refl eq_refl a Ha) as G.
  destruct (FLT_split (-149) 24 (fval 23 8 a) eq_refl G) as (n & E & Hn & He & _). exists n. eexists. split; [exact E|]. split; [exact Hn|exact He].
Qed.

Lemma float_bound a : fbits 23 8 a -> ffinite 23 8 a = true -> (Rabs (fval 23 8 a) <= bpow radix2 128)%R.
Proof. intros Ha F. left. exact (fval_bound 23 8 eq_refl eq_refl eq_refl a Ha F). Qed.

Lemma Rabs_sum a b e : (Rabs a <= bpow radix2 e -> Rabs b <= bpow radix2 e -> Rabs (a + b) <= bpow radix2 (e + 1))%R.
Proof. intros A B. rewrite bpow_plus. change (bpow radix2 1) with 2%R. pose proof (Rabs_triang a b). lra. Qed.

Lemma Rabs_weak a e e' : (Rabs a <= bpow radix2 e)%R -> e <= e' -> (Rabs a <= bpow radix2 e')%R.
Proof. intros A B. eapply Rle_trans; [exact A|]. apply bpow_le. exact B. Qed.

Lemma multiple a b c : fbits 23 8 a -> ffinite 23 8 a = true -> fbits 23 8 b -> ffinite 23 8 b = true -> fbits 23 8 c -> ffinite 23 8 c = true ->
  let p := (fval 23 8 a * fval 23 8 b)%R in
  F53 p /\ exists k, (p + fval 23 8 c)%R = (IZR k * bpow radix2 (-298))%R.
Proof.
  intros Ha Fa Hb Fb Hc Fc p. destruct (float_split a Ha Fa) as (n & e & E & Hn & He). destruct (float_split b Hb Fb) as (m & f & E' & Hm & Hf).
  destruct (float_split c Hc Fc) as (l & g & E'' & Hl & Hg).
  assert (P : p = (IZR (n * m) * bpow radix2 (e + f))%R) by (unfold p; rewrite E, E', mult_IZR, bpow_plus; ring).
  split.
  - rewrite P. apply F53_mult; [|lia]. rewrite Z.abs_mul. assert (2^53 = 2^24 * 2^24 * 32) by reflexivity. nia.
  - assert (MU : forall a i, -298 <= i -> (IZR a * bpow radix2 i = IZR (a * 2^(i + 298)) * bpow radix2 (-298))%R).
    { intros u i Hi. rewrite mult_IZR. change 2 with (radix_val radix2). rewrite IZR_Zpower by lia. rewrite Rmult_assoc, <- bpow_plus. do 2 f_equal. lia. }
    exists (n * m * 2^(e + f + 298) + l * 2^(g + 298)). rewrite P, E'', (MU (n * m) (e + f)), (MU l g), plus_IZR by lia. ring.
Qed.

Lemma lower x k : x = (IZR k * bpow radix2 (-298))%R -> x <> 0%R -> (bpow radix2 (-298) <= Rabs x)%R.
Proof.
  intros E N. assert (k <> 0) by (intros ->; apply N; rewrite E; ring).
  rewrite E, Rabs_mult, <- abs_IZR, (Rabs_pos_eq (bpow _ _)) by apply bpow_ge_0. rewrite <- (Rmult_1_l (bpow radix2 (-298))) at 1.
  apply Rmult_le_compat_r; [apply bpow_ge_0|]. apply IZR_le. lia.
Qed.

(** a normal double *)
Lemma normal_double s : fbits 52 11 s -> (bpow radix2 (-298) <= Rabs (fval 52 11 s))%R ->
  let k := fabsb 52 11 s in
  fmag 52 11 k = (IZR (2^52 + k mod 2^52) * bpow radix2 (-1074 + k / 2^52 - 1))%R /\ 1 <= k / 2^52.
Proof.
  intros Hs L k. pose proof (fabsb_range 52 11 eq_refl eq_refl s) as Hk. fold k in Hk.
  assert (A : Rabs (fval 52 11 s) = fmag 52 11 k).
  { unfold fval. fold k. pose proof (fmag_nonneg 52 11 eq_refl k ltac:(lia)). destruct (fneg 52 11 s); [rewrite Rabs_Ropp|]; apply Rabs_pos_eq; assumption. }
  rewrite A in L. assert (0 <= k / 2^52) by (apply Z.div_pos; lia). unfold fmag in *. destruct (k / 2^52 =? 0) eqn:Z0.
  - exfalso. apply Z.eqb_eq in Z0. change (emin 52 11) with (-1074) in L. unfold F2R in L. cbn [Fnum Fexp] in L.
    assert (k < 2^52) by (apply Z.div_small_iff in Z0; lia).
    assert (K : 1 * 2^(-298 - -1074) < k + 1).
    { apply scale_lt; [|lia]. rewrite Rmult_1_l. eapply Rle_lt_trans; [exact L|]. apply Rmult_lt_compat_r; [apply bpow_gt_0|apply IZR_lt; lia]. }
    assert (2^52 < 2^(-298 - -1074)) by (apply Z.pow_lt_mono_r; lia). lia.
  - apply Z.eqb_neq in Z0. split; [reflexivity|lia].
Qed.

Lemma land_low29 s : 0 <= s -> Z.land s 0x1FFFFFFF = s mod 2^29.
Proof. intros H. change 0x1FFFFFFF with (Z.ones 29). apply Z.land_ones. lia. Qed.

Lemma low_sign s : fbits 52 11 s -> s mod 2^29 = (2^52 + fabsb 52 11 s mod 2^52) mod 2^29.
Proof.
  intros H. unfold fabsb. change (2^(52+11)) with (2^52 * 2^11).
  rewrite (Z.add_mod (2^52)) by discriminate. change (2^52 mod 2^29) with 0. rewrite Z.add_0_l, Z.mod_mod by discriminate.
  change (2^52) with (2^29 * 2^23) at 1. rewrite <- Z.mul_assoc.
  rewrite (Z.rem_mul_r s (2^29) (2^23 * 2^11)) by (discriminate || reflexivity).
  change (2^52) with (2^29 * 2^23). rewrite (Z.rem_mul_r (s mod 2^29 + _) (2^29) (2^23)) by (discriminate || reflexivity).
  rewrite (Z.mul_comm (2^29) ((s / 2^29) mod _)). rewrite Z.mod_add by discriminate. rewrite Z.mod_mod by discriminate.
  rewrite (Z.mul_comm (2^29) (_ mod 2^23)). rewrite Z.mod_add by discriminate. rewrite Z.mod_mod by discriminate. reflexivity.
Qed.

Lemma fval_move s d : fbits 52 11 s -> (bpow radix2 (-298) <= Rabs (fval 52 11 s))%R -> ffinite 52 11 s = true -> s mod 2^29 = 2^28 -> d = 1 \/ d = -1 ->
  let k := fabsb 52 11 s in let q := 2^52 + k mod 2^52 in let e := -1074 + k / 2^52 - 1 in
  fbits 52 11 (s + d) /\ ffinite 52 11 (s + d) = true /\ fneg 52 11 (s + d) = fneg 52 11 s /\
  fval 52 11 (s + d) = (if fneg 52 11 s then - (IZR (q + d) * bpow radix2 e) else IZR (q + d) * bpow radix2 e)%R /\
  fval 52 11 s = (if fneg 52 11 s then - (IZR q * bpow radix2 e) else IZR q * bpow radix2 e)%R /\
  2^52 <= q < 2^53 /\ q mod 2^29 = 2^28 /\ -1074 <= e.
Proof.
  intros Hs L F M Hd k q e. destruct (normal_double s Hs L) as [E1 E2]. fold k in E1, E2. fold q e in E1.
  pose proof (fabsb_range 52 11 eq_refl eq_refl s) as Hk. fold k in Hk. change (2^(52+11)) with (2^63) in Hk.
  pose proof (low_sign s Hs) as Q. fold k in Q. fold q in Q. rewrite M in Q.
  assert (F' : k < finf 52 11) by (unfold ffinite in F; fold k in F; lia).
  assert (P0 : 0 <= k mod 2^52 < 2^52) by (apply Z.mod_pos_bound; reflexivity).
  assert (P1 : 0 <= k mod 2^52 + d < 2^52).
  { pose proof (Z.div_mod q (2^29) ltac:(discriminate)) as D. rewrite <- Q in D. unfold q in D.
    set (r := k mod 2^52) in *. set (t := (2^52 + r) / 2^29) in *. clearbody r t. split.
    - destruct (Z.eq_dec r 0); [exfalso; lia|lia].
    - destruct (Z.eq_dec r (2^52 - 1)); [exfalso; lia|lia]. }
  pose proof (Z.div_mod k (2^52) ltac:(discriminate)) as D.
  assert (FI : finf 52 11 = 2047 * 2^52) by reflexivity.
  assert (K2 : k / 2^52 < 2047) by (apply Z.div_lt_upper_bound; lia).
  assert (Hk' : 0 <= k + d < 2^63).
  { change (2^63) with (2^52 * 2048). lia. }
  assert (Fk' : k + d < finf 52 11) by (rewrite FI; lia).
  assert (DIV : (k + d) / 2^52 = k / 2^52) by (symmetry; apply Z.div_unique with (k mod 2^52 + d); [left; exact P1|lia]).
  assert (MOD : (k + d) mod 2^52 = k mod 2^52 + d) by (symmetry; apply Z.mod_unique with (k / 2^52); [left; exact P1|lia]).
  assert (S : s + d = with_sign 52 11 (fneg 52 11 s) (k + d)).
  { rewrite (pattern_split 52 11 eq_refl eq_refl s Hs) at 1. fold k. unfold with_sign. lia. }
  destruct (with_sign_spec 52 11 eq_refl eq_refl (fneg 52 11 s) (k + d) Hk') as (A & B & C).
  rewrite S. unfold ffinite, fval at 1. rewrite A, B.
  split; [exact C|]. split; [apply Z.ltb_lt; exact Fk'|]. split; [reflexivity|].
  split. { unfold fmag. rewrite DIV, MOD. replace (k / 2^52 =? 0) with false by lia. change (emin 52 11) with (-1074). unfold F2R. cbn [Fnum Fexp].
    fold e. replace (2^52 + (k mod 2^52 + d)) with (q + d) by (unfold q; lia). reflexivity. }
  split. { unfold fval. fold k. rewrite E1. reflexivity. }
  split; [unfold q; change (2^53) with (2^52 + 2^52); lia|]. split; [symmetry; exact Q|unfold e; lia].
Qed.

Lemma adjustment_value s t : fbits 52 11 s -> fbits 52 11 t ->
  1 - u64 (Z.shiftl (Z.shiftr (Z.lxor s t) 63) 1) = (if xorb (fneg 52 11 s) (fneg 52 11 t) then -1 else 1).
Proof.
  intros Hs Ht. rewrite Z.shiftr_lxor.
  assert (K : forall z, fbits 52 11 z -> Z.shiftr z 63 = if fneg 52 11 z then 1 else 0).
  { intros z Hz. rewrite Z.shiftr_div_pow2 by lia. unfold fbits in Hz. change (2^(52+11+1)) with (2^63 * 2) in Hz. unfold fneg. change (2^(52+11)) with (2^63).
    destruct (2^63 <=? z) eqn:E; symmetry.
    - apply Z.div_unique with (z - 2^63); lia.
    - apply Z.div_unique with z; lia. }
  rewrite (K s Hs), (K t Ht). destruct (fneg 52 11 s), (fneg 52 11 t); reflexivity.
Qed.

Lemma fval_0 : fval 52 11 0 = 0%R.
Proof. unfold fval, fmag, fneg, fabsb. change (0 mod 2^(52+11)) with 0. change (0 / 2^52 =? 0) with true. change (2^(52+11) <=? 0) with false. unfold F2R. cbn [Fnum]. ring. Qed.

Lemma sum_sign_pos x a b : (0 < x)%R -> sum_sign x a b = false.
Proof. intros H. unfold sum_sign. rewrite Rcompare_Gt by exact H. reflexivity. Qed.
Lemma sum_sign_neg x a b : (x < 0)%R -> sum_sign x a b = true.
Proof. intros H. unfold sum_sign. rewrite Rcompare_Lt by exact H. reflexivity. Qed.

Theorem fmaf_ok a b c : fbits 23 8 a -> fbits 23 8 b -> fbits 23 8 c ->
  ffinite 23 8 a = true -> ffinite 23 8 b = true -> ffinite 23 8 c = true ->
  let p := (fval 23 8 a * fval 23 8 b)%R in
  let x := (p + fval 23 8 c)%R in
  (half24 (RN53 x) -> RN53 x <> x -> (Rabs (fval 23 8 c) <= Rabs p)%R /\ (bpow radix2 (-126) <= Rabs x)%R) ->
  fma_result 23 8 a b c (fmaf a b c).
Proof.
  intros Ha Hb Hc Fa Fb Fc p x HY. unfold fma_result. fold p. fold x.
  destruct (f2d_fin a Ha Fa) as (HA & FA & SA & _). destruct (f2d_fin b Hb Fb) as (HB & FB & SB & _). destruct (f2d_fin c Hc Fc) as (HC & FC & SC & _).
  pose proof (fval_f2d a Ha Fa) as VA. pose proof (fval_f2d b Hb Fb) as VB. pose proof (fval_f2d c Hc Fc) as VC.
  destruct (multiple a b c Ha Fa Hb Fb Hc Fc) as [Fp [m Em]]. fold p in Fp, Em. fold x in Em.
  pose proof (float_bound a Ha Fa) as BA. pose proof (float_bound b Hb Fb) as BB. pose proof (float_bound c Hc Fc) as BC.
  assert (Bp : (Rabs p <= bpow radix2 256)%R).
  { unfold p. rewrite Rabs_mult. change 256 with (128 + 128). rewrite bpow_plus. apply Rmult_le_compat; try apply Rabs_pos; assumption. }
  unfold fmaf.
  pose proof (hmul_ok 52 11 eq_refl eq_refl eq_refl (f2d a) (f2d b) HA HB FA FB) as R1. rewrite VA, VB, SA, SB in R1. fold p in R1.
  change (hmul 52 11 eq_refl eq_refl eq_refl) with mul64 in R1. set (ab := mul64 (f2d a) (f2d b)) in *. clearbody ab.
  destruct (rounds_small _ _ _ 256 R1 Bp ltac:(lia)) as (Hab & Fab & Vab & Sab & _).
  assert (Rp : RN53 p = p) by (rewrite RN53_eq; apply round_generic; [typeclasses eauto|exact Fp]). rewrite Rp in Vab. clear R1.
  pose proof (hadd_ok 52 11 eq_refl eq_refl eq_refl ab (f2d c) Hab HC Fab FC) as R2. rewrite Vab, VC, Sab, SC in R2. fold x in R2.
  change (hadd 52 11 eq_refl eq_refl eq_refl) with add64 in R2. set (s := add64 ab (f2d c)) in *. clearbody s.
  assert (Bx : (Rabs x <= bpow radix2 257)%R). { apply (Rabs_sum _ _ 256); [exact Bp|]. apply (Rabs_weak _ _ _ BC). lia. }
  destruct (rounds_small _ _ _ 257 R2 Bx ltac:(lia)) as (Hs & Fs & Vs & Ss & Bs). clear R2.
  change (sum_sign x) with (fma_sign x) in Ss.
  assert (Rc : RN53 (fval 23 8 c) = fval 23 8 c). { rewrite <- VC. apply RN_fval; [reflexivity|reflexivity|exact HC]. }
  (* s - s *)
  assert (Z0 : ftrue (sub64 s s) = false).
  { pose proof (hsub_ok 52 11 eq_refl eq_refl eq_refl s s Hs Hs Fs Fs) as R. change (hsub 52 11 eq_refl eq_refl eq_refl) with sub64 in R.
    replace (fval 52 11 s - fval 52 11 s)%R with 0%R in R by ring.
    destruct (rounds_small _ _ _ 0 R ltac:(rewrite Rabs_R0; apply bpow_ge_0) ltac:(lia)) as (A & B & C & _).
    unfold ftrue. rewrite (proj2 (heq_ok 52 11 eq_refl eq_refl (sub64 s s) 0 A ltac:(split; [discriminate|reflexivity]) B eq_refl)); [reflexivity|].
    rewrite C. unfold RN. rewrite round_0 by typeclasses eauto. symmetry. apply fval_0. }
  (* s - ab *)
  pose proof (hsub_ok 52 11 eq_refl eq_refl eq_refl s ab Hs Hab Fs Fab) as R3. change (hsub 52 11 eq_refl eq_refl eq_refl) with sub64 in R3.
  rewrite Vab in R3. set (t := sub64 s ab) in *. clearbody t.
  assert (Bsp : (Rabs (fval 52 11 s - p) <= bpow radix2 258)%R).
  { apply (Rabs_sum _ _ 257); [exact Bs|]. rewrite Rabs_Ropp. apply (Rabs_weak _ _ _ Bp). lia. }
  destruct (rounds_small _ _ _ 258 R3 Bsp ltac:(lia)) as (Ht & Ft & Vt & _ & _). clear R3. rewrite Vs in Vt.
  (* ab - s, + c *)
  pose proof (hsub_ok 52 11 eq_refl eq_refl eq_refl ab s Hab Hs Fab Fs) as R4. change (hsub 52 11 eq_refl eq_refl eq_refl) with sub64 in R4.
  rewrite Vab in R4. set (v := sub64 ab s) in *. clearbody v.
  assert (Bps : (Rabs (p - fval 52 11 s) <= bpow radix2 258)%R) by (rewrite Rabs_minus_sym; exact Bsp).
  destruct (rounds_small _ _ _ 258 R4 Bps ltac:(lia)) as (Hv & Fv & Vv & _ & Bv). clear R4. rewrite Vs in Vv.
  pose proof (hadd_ok 52 11 eq_refl eq_refl eq_refl v (f2d c) Hv HC Fv FC) as R5. change (hadd 52 11 eq_refl eq_refl eq_refl) with add64 in R5.
  rewrite VC in R5. set (w := add64 v (f2d c)) in *. clearbody w. destruct R5 as (Hw & Sw & _).
  assert (OPP : RN53 (p - RN53 x) = (- RN53 (RN53 x - p))%R).
  { replace (p - RN53 x)%R with (- (RN53 x - p))%R by ring. apply round_NE_opp. }
  rewrite OPP in Vv.
  (* plain rounding of s *)
  assert (PLAIN : RN24 (fval 52 11 s) = RN24 x -> rounds_to 23 8 x (fma_sign x (xorb (fneg 23 8 a) (fneg 23 8 b)) (fneg 23 8 c)) (d2f s)).
  { intros E. pose proof (d2f_round s Hs Fs) as R. rewrite Ss in R. apply (rounds_of_RN 23 8 _ _ _ _ R E). }
  assert (NOHALF : ~ half24 (RN53 x) -> RN24 (fval 52 11 s) = RN24 x).
  { intros N. rewrite Vs. symmetry. exact (round_twice (-149) 24 (-1074) 53 eq_refl ltac:(lia) ltac:(lia) x N). }
  assert (SAME : RN53 x = x -> RN24 (fval 52 11 s) = RN24 x) by (intros E; rewrite Vs, E; reflexivity).
  rewrite Z0, Bool.orb_false_r. rewrite (land_low29 s) by (unfold fbits in Hs; lia).
  destruct (Req_dec (RN53 x) x) as [EQ|NE].
  { assert (T : heq 52 11 t (f2d c) = true).
    { apply (heq_ok 52 11 eq_refl eq_refl); try assumption. rewrite Vt, VC, EQ. unfold x. replace (p + fval 23 8 c - p)%R with (fval 23 8 c) by ring. exact Rc. }
    rewrite T, Bool.orb_true_r. apply PLAIN, SAME, EQ. }
  assert (X0 : x <> 0%R). { intros E. apply NE. rewrite E. unfold RN. apply round_0. typeclasses eauto. }
  assert (LOW : (bpow radix2 (-298) <= Rabs (fval 52 11 s))%R).
  { rewrite Vs, RN53_eq. apply abs_round_ge_generic; [typeclasses eauto|typeclasses eauto|apply generic_format_bpow; unfold FLT_exp; lia|].
    apply (lower x m Em X0). }
  assert (HALF : half24 (RN53 x) -> s mod 2^29 = 2^28).
  { intros H. destruct (HY H NE) as [_ BX]. rewrite (low_sign s Hs). destruct (normal_double s Hs LOW) as [E1 E2].
    set (k := fabsb 52 11 s) in *. apply half_pattern with (-1074 + k / 2^52 - 1).
    - pose proof (Z.mod_pos_bound k (2^52) eq_refl). change (2^53) with (2^52 + 2^52). lia.
    - rewrite <- E1.
      assert (A : Rabs (fval 52 11 s) = fmag 52 11 k).
      { unfold fval. fold k. pose proof (fmag_nonneg 52 11 eq_refl k ltac:(apply (fabsb_range 52 11 eq_refl eq_refl))) as N0. destruct (fneg 52 11 s); [rewrite Rabs_Ropp|]; apply Rabs_pos_eq; assumption. }
      rewrite <- A, Vs, RN53_eq. apply abs_round_ge_generic; [typeclasses eauto|typeclasses eauto|apply generic_format_bpow; unfold FLT_exp; lia|exact BX].
    - rewrite <- E1. rewrite <- Vs in H. unfold fval in H. fold k in H. destruct (fneg 52 11 s); [|exact H].
      apply (halfway_opp (-149) 24 (-1074) 53 eq_refl ltac:(lia) ltac:(lia)) in H. rewrite Ropp_involutive in H. exact H. }
  destruct (s mod 2^29 =? 268435456) eqn:EP; cbn [negb orb].
  2: { apply PLAIN, NOHALF. intros H. apply HALF in H. apply Z.eqb_neq in EP. apply EP. exact H. }
  apply Z.eqb_eq in EP. change 268435456 with (2^28) in EP.
  destruct (heq 52 11 t (f2d c)) eqn:EH.
  { apply PLAIN, NOHALF. intros H. destruct (HY H NE) as [LC _]. apply NE.
    apply (heq_ok 52 11 eq_refl eq_refl) in EH; try assumption. rewrite Vt, VC in EH.
    apply (sum_exact (-1074) 53 p (fval 23 8 c) eq_refl); [exact Fp| |exact LC|exact EH].
    rewrite <- VC. apply (fval_format 52 11 eq_refl eq_refl). exact HC. }
  assert (NC : RN53 (RN53 x - p) <> fval 23 8 c).
  { intros E. assert (K : heq 52 11 t (f2d c) = true) by (apply (heq_ok 52 11 eq_refl eq_refl); try assumption; rewrite Vt, VC; exact E). rewrite K in EH. discriminate. }
  rewrite adjustment_value by assumption. rewrite Vv in Sw.
  assert (MONO : forall y z, (y <= z -> RN53 y <= RN53 z)%R) by (intros y z L; apply round_le; [typeclasses eauto|typeclasses eauto|exact L]).
  assert (GE : (RN53 x < x)%R -> fneg 52 11 w = false).
  { intros L. rewrite Sw. apply sum_sign_pos. assert (K : (RN53 (RN53 x - p) <= RN53 (fval 23 8 c))%R) by (apply MONO; unfold x in *; lra). rewrite Rc in K. lra. }
  assert (LE : (x < RN53 x)%R -> fneg 52 11 w = true).
  { intros L. rewrite Sw. apply sum_sign_neg. assert (K : (RN53 (fval 23 8 c) <= RN53 (RN53 x - p))%R) by (apply MONO; unfold x in *; lra). rewrite Rc in K. lra. }
  set (d := if xorb (fneg 52 11 s) (fneg 52 11 w) then -1 else 1) in *.
  assert (Hd : d = 1 \/ d = -1) by (unfold d; destruct (xorb (fneg 52 11 s) (fneg 52 11 w)); [right|left]; reflexivity).
  destruct (fval_move s d Hs LOW Fs EP Hd) as (M1 & M2 & M3 & M4 & M5 & M6 & M7 & M8).
  set (q := 2^52 + fabsb 52 11 s mod 2^52) in *. set (e := -1074 + fabsb 52 11 s / 2^52 - 1) in *. clearbody q e.
  replace (u64 (s + d)) with (s + d) by (symmetry; apply Z.mod_small; exact M1).
  pose proof (d2f_round (s + d) M1 M2) as R. rewrite M3, Ss in R. apply (rounds_of_RN 23 8 _ _ _ _ R). rewrite M4. symmetry. clear R.
  rewrite Vs in M5.
  destruct (Rtotal_order (RN53 x) x) as [L|[L|L]]; [|contradiction|].
  - specialize (GE L). unfold d. rewrite GE.  destruct (fneg 52 11 s) eqn:S; cbn [xorb].
    + destruct (adjusted_neg x q e M6 M8 M7 M5) as [K _]. rewrite M5 in L. exact (K L).
    + destruct (adjusted x q e M6 M8 M7 M5) as [K _]. rewrite M5 in L. exact (K L).
  - specialize (LE L). unfold d. rewrite LE.  destruct (fneg 52 11 s) eqn:S; cbn [xorb].
    + destruct (adjusted_neg x q e M6 M8 M7 M5) as [_ K]. rewrite M5 in L. exact (K L).
    + destruct (adjusted x q e M6 M8 M7 M5) as [_ K]. rewrite M5 in L. exact (K L).
Qed.

(** with a dominant product, an inexact sum in double is not a subnormal float *)
Lemma dominant_exact a b c : fbits 23 8 a -> ffinite 23 8 a = true -> fbits 23 8 b -> ffinite 23 8 b = true -> fbits 23 8 c -> ffinite 23 8 c = true ->
  let p := (fval 23 8 a * fval 23 8 b)%R in let x := (p + fval 23 8 c)%R in
  (Rabs (fval 23 8 c) <= Rabs p)%R -> (Rabs x < bpow radix2 (-126))%R -> RN53 x = x.
Proof.
  intros Ha Fa Hb Fb Hc Fc p x L S. destruct (float_split a Ha Fa) as (n & e & E & Hn & He). destruct (float_split b Hb Fb) as (m & f & E' & Hm & Hf).
  destruct (float_split c Hc Fc) as (l & g & E'' & Hl & Hg).
  assert (P : p = (IZR (n * m) * bpow radix2 (e + f))%R) by (unfold p; rewrite E, E', mult_IZR, bpow_plus; ring).
  assert (Hnm : Z.abs (n * m) < 2^48) by (rewrite Z.abs_mul; change (2^48) with (2^24 * 2^24); nia).
  rewrite RN53_eq. apply round_generic; [typeclasses eauto|].
  assert (MU : forall a i j, j <= i -> (IZR a * bpow radix2 i = IZR (a * 2^(i - j)) * bpow radix2 j)%R).
  { intros u i j Hi. rewrite mult_IZR. change 2 with (radix_val radix2). rewrite IZR_Zpower by lia. rewrite Rmult_assoc, <- bpow_plus. do 2 f_equal. lia. }
  assert (AB : forall k i, Rabs (IZR k * bpow radix2 i) = (IZR (Z.abs k) * bpow radix2 i)%R).
  { intros k i. rewrite Rabs_mult, <- abs_IZR, (Rabs_pos_eq (bpow _ _)) by apply bpow_ge_0. reflexivity. }
  destruct (Z_le_gt_dec (e + f) g) as [K|K].
  - assert (X : x = (IZR (n * m + l * 2^(g - (e + f))) * bpow radix2 (e + f))%R) by (unfold x; rewrite P, E'', (MU l g (e + f)), plus_IZR by lia; ring).
    rewrite X. apply F53_mult; [|lia].
    assert (B : (IZR (Z.abs (n * m + l * 2^(g - (e + f)))) * bpow radix2 (e + f) <= IZR (2 * Z.abs (n * m)) * bpow radix2 (e + f))%R).
    { rewrite <- AB, <- X. rewrite mult_IZR, Rmult_assoc, <- AB, <- P. unfold x. pose proof (Rabs_triang p (fval 23 8 c)). lra. }
    apply Rmult_le_reg_r in B; [|apply bpow_gt_0]. apply le_IZR in B. assert (2 * 2^48 < 2^53) by reflexivity. lia.
  - assert (X : x = (IZR (n * m * 2^(e + f - g) + l) * bpow radix2 g)%R) by (unfold x; rewrite P, E'', (MU (n * m) (e + f) g), plus_IZR by lia; ring).
    rewrite X. apply F53_mult; [|lia]. set (k := _ + l) in *. rewrite X, AB in S.
    destruct (Z_le_gt_dec (-126) g) as [G|G].
    + assert (KK : (IZR (Z.abs k) * bpow radix2 g < 1 * bpow radix2 g)%R).
      { rewrite Rmult_1_l. eapply Rlt_le_trans; [exact S|]. apply bpow_le. lia. }
      apply Rmult_lt_reg_r in KK; [|apply bpow_gt_0]. apply lt_IZR in KK.
      assert (0 < 2^53) by reflexivity. lia.
    + rewrite <- (Rmult_1_l (bpow radix2 (-126))), (MU 1 (-126) g) in S by lia. apply Rmult_lt_reg_r in S; [|apply bpow_gt_0]. apply lt_IZR in S.
      rewrite Z.mul_1_l in S. assert (2^(-126 - g) <= 2^23) by (apply Z.pow_le_mono_r; lia). assert (2^23 < 2^53) by reflexivity. lia.
Qed.

Theorem fmaf_correct a b c : fbits 23 8 a -> fbits 23 8 b -> fbits 23 8 c ->
  ffinite 23 8 a = true -> ffinite 23 8 b = true -> ffinite 23 8 c = true ->
  let p := (fval 23 8 a * fval 23 8 b)%R in
  let x := (p + fval 23 8 c)%R in
  (half24 (RN53 x) -> RN53 x <> x -> (Rabs (fval 23 8 c) <= Rabs p)%R) ->
  fma_result 23 8 a b c (fmaf a b c).
Proof.
  intros Ha Hb Hc Fa Fb Fc p x H. apply fmaf_ok; try assumption. fold p. fold x. intros A B.
  split; [exact (H A B)|]. apply Rnot_lt_le. intros L. apply B. apply (dominant_exact a b c); try assumption. exact (H A B).
Qed.
