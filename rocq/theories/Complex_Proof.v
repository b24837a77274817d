(** Complex products: proofs. *)
From Coq Require Import Reals Lra Lia Psatz.
From Flocq Require Import Core BinarySingleNaN Plus_error.
From Verif Require Import Base FP FP_Proof HW HW_Proof Math_Model Complex_Model Complex_Spec.
Open Scope Z_scope.
Local Ltac Zify.zify_post_hook ::= idtac.

Section Ops.
Variables mw ew : Z.
Hypothesis Hmw : 0 < mw.
Hypothesis Hew0 : 0 < ew.
Hypothesis Hpe : mw + 1 < 2^(ew - 1).
Notation Hew := (hw_ew mw ew Hmw Hew0 Hpe).
Notation add := (hadd mw ew Hmw Hew0 Hpe).
Notation sub := (hsub mw ew Hmw Hew0 Hpe).
Notation mul := (hmul mw ew Hmw Hew0 Hpe).
Notation dec := (dec mw ew Hmw Hew0 Hpe).
Notation enc := (enc mw ew).
Notation fval := (fval mw ew).
Notation fneg := (fneg mw ew).
Notation fbits := (fbits mw ew).
Notation ffinite := (ffinite mw ew).
Notation isinf := (fisinf mw ew).
Notation isnan := (fisnan mw ew).
Notation INF := (finf mw ew).
Notation cmul := (cmul mw ew Hmw Hew0 Hpe).

Local Instance P1 : Prec_gt_0 (mw + 1) := hw_prec mw Hmw.
Local Instance P2 : Prec_lt_emax (mw + 1) (2^(ew - 1)) := hw_emax mw ew Hpe.

Lemma class3 b : (ffinite b = true /\ isinf b = false /\ isnan b = false) \/
  (ffinite b = false /\ isinf b = true /\ isnan b = false) \/
  (ffinite b = false /\ isinf b = false /\ isnan b = true).
Proof. unfold FP.ffinite, fisinf, fisnan. lia. Qed.


Lemma qnan_class : fbits (qnan mw ew) /\ isnan (qnan mw ew) = true.
Proof. exact (qnan_nan mw mw ew Hmw Hmw Hew0 Hpe). Qed.

Lemma winf s : fbits (with_sign mw ew s INF) /\ isinf (with_sign mw ew s INF) = true /\ fneg (with_sign mw ew s INF) = s.
Proof.
  pose proof (finf_pos mw ew Hmw Hew) as FI.
  destruct (with_sign_spec mw ew Hmw Hew s INF ltac:(lia)) as (A & B & C).
  split; [exact C|]. split; [|exact B]. unfold fisinf. rewrite A. lia.
Qed.

Lemma inf_class : fbits INF /\ isinf INF = true /\ fneg INF = false.
Proof. exact (winf false). Qed.

(** classes of an encoded result *)
Lemma enc_bits f : fbits (enc f).
Proof.
  destruct f as [s|s| |s m e Hb].
  - apply (enc_finite mw ew Hmw Hew0 Hpe). reflexivity.
  - apply (winf s).
  - apply qnan_class.
  - apply (enc_finite mw ew Hmw Hew0 Hpe). reflexivity.
Qed.
Lemma enc_ffinite f : ffinite (enc f) = is_finite f.
Proof.
  destruct f as [s|s| |s m e Hb]; cbn [is_finite].
  - apply (enc_finite mw ew Hmw Hew0 Hpe). reflexivity.
  - cbn [HW.enc]. destruct (winf s) as (_ & I & _). destruct (class3 (with_sign mw ew s INF)) as [K|[K|K]]; destruct K as (K1 & K2 & K3); congruence.
  - cbn [HW.enc]. destruct qnan_class as (_ & I). destruct (class3 (qnan mw ew)) as [K|[K|K]]; destruct K as (K1 & K2 & K3); congruence.
  - apply (enc_finite mw ew Hmw Hew0 Hpe). reflexivity.
Qed.
Lemma enc_isnan f : isnan (enc f) = is_nan f.
Proof.
  pose proof (enc_ffinite f) as F. destruct f as [s|s| |s m e Hb]; cbn [is_nan is_finite] in *.
  - destruct (class3 (enc (B754_zero s))) as [K|[K|K]]; destruct K as (K1 & K2 & K3); congruence.
  - cbn [HW.enc]. destruct (winf s) as (_ & I & _). destruct (class3 (with_sign mw ew s INF)) as [K|[K|K]]; destruct K as (K1 & K2 & K3); congruence.
  - apply qnan_class.
  - destruct (class3 (enc (B754_finite s m e Hb))) as [K|[K|K]]; destruct K as (K1 & K2 & K3); congruence.
Qed.

Lemma dec_isfin b : fbits b -> is_finite (dec b) = ffinite b.
Proof.
  intros Hb. destruct (class3 b) as [K|[K|K]]; destruct K as (K1 & K2 & K3); rewrite K1.
  - apply (dec_finite mw ew Hmw Hew0 Hpe b Hb K1).
  - rewrite (dec_inf mw ew Hmw Hew0 Hpe b Hb K2). reflexivity.
  - rewrite (dec_nan mw ew Hmw Hew0 Hpe b Hb K3). reflexivity.
Qed.

Lemma mul_bits a c : fbits (mul a c). Proof. apply enc_bits. Qed.
Lemma add_bits a c : fbits (add a c). Proof. apply enc_bits. Qed.
Lemma sub_bits a c : fbits (sub a c). Proof. apply enc_bits. Qed.

(** a result is finite only if the operands are *)
Lemma mul_nf a c : fbits a -> fbits c -> ffinite a = false \/ ffinite c = false -> ffinite (mul a c) = false.
Proof.
  intros Ha Hc H. unfold hmul. rewrite enc_ffinite. rewrite <- (dec_isfin a Ha), <- (dec_isfin c Hc) in H.
  revert H. destruct (dec a), (dec c); cbn; intros [H|H]; try discriminate; reflexivity.
Qed.
Lemma add_nf a c : fbits a -> fbits c -> ffinite a = false \/ ffinite c = false -> ffinite (add a c) = false.
Proof.
  intros Ha Hc H. unfold hadd. rewrite enc_ffinite. rewrite <- (dec_isfin a Ha), <- (dec_isfin c Hc) in H.
  revert H. destruct (dec a), (dec c); cbn; intros [H|H]; try discriminate; try reflexivity; destruct (Bool.eqb _ _); reflexivity.
Qed.
Lemma sub_nf a c : fbits a -> fbits c -> ffinite a = false \/ ffinite c = false -> ffinite (sub a c) = false.
Proof.
  intros Ha Hc H. unfold hsub. rewrite enc_ffinite. rewrite <- (dec_isfin a Ha), <- (dec_isfin c Hc) in H.
  revert H. destruct (dec a), (dec c); cbn; intros [H|H]; try discriminate; try reflexivity; destruct (Bool.eqb _ _); reflexivity.
Qed.

(** infinity times a number that is not zero *)
Lemma inf_mul w r : fbits w -> isinf w = true -> fbits r -> isnan r = false -> (ffinite r = true -> fval r <> 0%R) ->
  isinf (mul w r) = true.
Proof.
  intros Hw Iw Hr Nr Zr. unfold hmul. rewrite (dec_inf mw ew Hmw Hew0 Hpe w Hw Iw).
  destruct (class3 r) as [K|[K|K]]; destruct K as (K1 & K2 & K3); [| |congruence].
  - destruct (dec_finite mw ew Hmw Hew0 Hpe r Hr K1) as (A & B & _). specialize (Zr K1). rewrite <- B in Zr.
    revert A Zr. destruct (dec r) as [s|s| |s m e Hb]; cbn; intros A Z; try discriminate; [lra|]. apply winf.
  - rewrite (dec_inf mw ew Hmw Hew0 Hpe r Hr K2). apply winf.
Qed.

(** rounding to the format *)
Lemma rt_notnan x s r : rounds_to mw ew x s r -> isnan r = false.
Proof.
  intros (A & B & C & D). destruct (class3 r) as [K|[K|K]]; destruct K as (K1 & K2 & K3); try assumption.
  destruct (Rlt_or_le (Rabs (RN mw ew x)) (bpow radix2 (2^(ew-1)))) as [L|G].
  - destruct (C L). congruence.
  - specialize (D G). unfold fisinf in K2. lia.
Qed.
Lemma rt_fin x s r : rounds_to mw ew x s r -> ffinite r = true -> fval r = RN mw ew x.
Proof.
  intros (A & B & C & D) F. destruct (Rlt_or_le (Rabs (RN mw ew x)) (bpow radix2 (2^(ew-1)))) as [L|G].
  - apply (C L).
  - specialize (D G). unfold FP.ffinite in F. lia.
Qed.

(** the factors after an infinite operand is boxed: 0, 1 or -1 *)
Definition unitv (x : Z) : Prop := fbits x /\ ffinite x = true /\ (fval x = 0 \/ fval x = 1 \/ fval x = -1)%R.

Lemma c_one_val : 0 <= c_one mw ew < INF /\ fmag mw ew (c_one mw ew) = 1%R.
Proof.
  destruct (pow_ew ew Hew) as [W1 W2]. assert (HP : 0 < 2^mw) by (apply pow2_pos; lia).
  unfold c_one. rewrite Z.shiftl_mul_pow2 by lia. unfold finf.
  split.
  - split; [apply Z.mul_nonneg_nonneg; lia|]. apply Z.mul_lt_mono_pos_r; lia.
  - unfold fmag. rewrite Z.div_mul, Z_mod_mult by lia.
    destruct (Z.eqb_spec (2^(ew-1) - 1) 0) as [E|N]; [lia|]. rewrite Z.add_0_r.
    unfold F2R, emin. cbn [Fnum Fexp]. change (2^mw) with (Zpower radix2 mw). rewrite IZR_Zpower by lia. rewrite <- bpow_plus.
    replace (mw + _) with 0 by lia. reflexivity.
Qed.

Lemma box_unit x : fbits x -> unitv (box mw ew x).
Proof.
  intros Hx. pose proof (finf_pos mw ew Hmw Hew) as FI. destruct c_one_val as [C1 C2].
  unfold box, copysign. set (k := if isinf x then c_one mw ew else 0).
  assert (K : 0 <= k < INF /\ (fmag mw ew k = 0 \/ fmag mw ew k = 1)%R).
  { subst k. destruct (isinf x); [split; [lia|right; exact C2]|split; [lia|left; apply fmag_0; exact Hmw]]. }
  clearbody k. destruct K as [K0 K].
  assert (E : fabsb mw ew k = k) by (unfold fabsb; apply Z.mod_small; lia). rewrite E.
  destruct (with_sign_spec mw ew Hmw Hew (fneg x) k ltac:(lia)) as (A & B & C).
  split; [exact C|]. unfold FP.ffinite. rewrite A. split; [lia|].
  rewrite with_sign_fval by (assumption || exact Hew || lia). destruct (fneg x), K as [K|K]; rewrite K; lra.
Qed.

Lemma box_inf x : fbits x -> isinf x = true -> (fval (box mw ew x) <> 0)%R.
Proof.
  intros Hx I. pose proof (finf_pos mw ew Hmw Hew) as FI. destruct c_one_val as [C1 C2].
  unfold box, copysign. rewrite I.
  assert (E : fabsb mw ew (c_one mw ew) = c_one mw ew) by (unfold fabsb; apply Z.mod_small; lia). rewrite E.
  rewrite with_sign_fval by (assumption || exact Hew || lia). rewrite C2. destruct (fneg x); lra.
Qed.


(** neither a NaN nor a zero *)
Definition nonz (r : Z) : Prop := fbits r /\ isnan r = false /\ (ffinite r = true -> fval r <> 0%R).

Lemma nz_add p q : fbits p -> fbits q -> ffinite p = true -> ffinite q = true -> (fval p + fval q <> 0)%R -> nonz (add p q).
Proof.
  intros Hp Hq Fp Fq N. pose proof (hadd_ok mw ew Hmw Hew0 Hpe p q Hp Hq Fp Fq) as R.
  split; [apply add_bits|]. split; [exact (rt_notnan _ _ _ R)|]. intros F. rewrite (rt_fin _ _ _ R F).
  unfold RN. apply round_plus_neq_0; [typeclasses eauto| |typeclasses eauto|apply fval_format; assumption|apply fval_format; assumption|exact N].
  apply monotone_exp_not_FTZ; typeclasses eauto.
Qed.
Lemma nz_sub p q : fbits p -> fbits q -> ffinite p = true -> ffinite q = true -> (fval p - fval q <> 0)%R -> nonz (sub p q).
Proof.
  intros Hp Hq Fp Fq N. pose proof (hsub_ok mw ew Hmw Hew0 Hpe p q Hp Hq Fp Fq) as R.
  split; [apply sub_bits|]. split; [exact (rt_notnan _ _ _ R)|]. intros F. rewrite (rt_fin _ _ _ R F).
  unfold RN. unfold Rminus in *. apply round_plus_neq_0; [typeclasses eauto| |typeclasses eauto|apply fval_format; assumption|apply generic_format_opp, fval_format; assumption|exact N].
  apply monotone_exp_not_FTZ; typeclasses eauto.
Qed.
Lemma inf_nonz r : nonz r -> isinf (mul INF r) = true.
Proof. intros (A & B & C). apply inf_mul; try assumption; apply inf_class. Qed.

Lemma unit_exact x c : (x = 0 \/ x = 1 \/ x = -1)%R -> fbits c -> ffinite c = true ->
  generic_format radix2 (FLT_exp (emin mw ew) (mw+1)) (x * fval c) /\ (Rabs (x * fval c) < bpow radix2 (2^(ew-1)))%R.
Proof.
  intros U Hc Fc. pose proof (fval_bound mw ew Hmw Hew0 Hpe c Hc Fc) as B. pose proof (fval_format mw ew Hmw Hew0 c Hc) as G.
  destruct U as [->|[->| ->]].
  - rewrite Rmult_0_l. split; [apply generic_format_0|]. rewrite Rabs_R0. apply bpow_gt_0.
  - rewrite Rmult_1_l. auto.
  - replace (-1 * fval c)%R with (- fval c)%R by ring. rewrite Rabs_Ropp. split; [apply generic_format_opp; exact G|exact B].
Qed.
Lemma mul_unit a c : fbits a -> ffinite a = true -> fbits c -> ffinite c = true -> unitv a \/ unitv c ->
  fbits (mul a c) /\ ffinite (mul a c) = true /\ fval (mul a c) = (fval a * fval c)%R.
Proof.
  intros Ha Fa Hc Fc U. pose proof (hmul_ok mw ew Hmw Hew0 Hpe a c Ha Hc Fa Fc) as R.
  assert (G : generic_format radix2 (FLT_exp (emin mw ew) (mw+1)) (fval a * fval c) /\ (Rabs (fval a * fval c) < bpow radix2 (2^(ew-1)))%R).
  { destruct U as [(_ & _ & U)|(_ & _ & U)].
    - apply unit_exact; assumption.
    - rewrite Rmult_comm. apply unit_exact; assumption. }
  destruct G as [G1 G2]. destruct (rounds_exact' mw ew _ _ _ R G1 G2) as (A & B & C & _). auto.
Qed.

Definition fin (x : Z) : Prop := fbits x /\ ffinite x = true.
Definition nz2 (a b : Z) : Prop := (fval a <> 0 \/ fval b <> 0)%R.

(** after boxing, a part of the product is not zero *)
Lemma core_mul a b c d : fin a -> fin b -> fin c -> fin d -> nz2 a b -> nz2 c d ->
  (unitv a /\ unitv b) \/ (unitv c /\ unitv d) ->
  nonz (sub (mul a c) (mul b d)) \/ nonz (add (mul a d) (mul b c)).
Proof.
  intros [Ha Fa] [Hb Fb] [Hc Fc] [Hd Fd] N1 N2 U.
  destruct (mul_unit a c Ha Fa Hc Fc ltac:(tauto)) as (A1 & A2 & A3).
  destruct (mul_unit b d Hb Fb Hd Fd ltac:(tauto)) as (B1 & B2 & B3).
  destruct (mul_unit a d Ha Fa Hd Fd ltac:(tauto)) as (C1 & C2 & C3).
  destruct (mul_unit b c Hb Fb Hc Fc ltac:(tauto)) as (D1 & D2 & D3).
  destruct (Req_dec (fval (mul a c) - fval (mul b d)) 0) as [E1|E1]; [|left; apply nz_sub; assumption].
  destruct (Req_dec (fval (mul a d) + fval (mul b c)) 0) as [E2|E2]; [|right; apply nz_add; assumption].
  exfalso. rewrite A3, B3 in E1. rewrite C3, D3 in E2. unfold nz2 in *.
  set (x := fval a) in *. set (y := fval b) in *. set (z := fval c) in *. set (w := fval d) in *. clearbody x y z w.
  assert (P : ((x * x + y * y) * (z * z + w * w) = 0)%R).
  { replace ((x * x + y * y) * (z * z + w * w))%R with ((x * z - y * w) * (x * z - y * w) + (x * w + y * z) * (x * w + y * z))%R by ring.
    rewrite E1, E2. ring. }
  apply Rmult_integral in P. destruct P as [P|P].
  - assert (x = 0%R) by nra. assert (y = 0%R) by nra. tauto.
  - assert (z = 0%R) by nra. assert (w = 0%R) by nra. tauto.
Qed.

Lemma denan_fin x : fbits x -> isinf x = false -> fin (denan mw ew x).
Proof.
  intros Hx I. unfold denan. destruct (class3 x) as [K|[K|K]]; destruct K as (K1 & K2 & K3); [rewrite K3; split; assumption|congruence|].
  rewrite K3. pose proof (finf_pos mw ew Hmw Hew) as FI. unfold copysign.
  assert (E : fabsb mw ew 0 = 0) by reflexivity. rewrite E.
  destruct (with_sign_spec mw ew Hmw Hew (fneg x) 0 ltac:(lia)) as (A & B & C).
  split; [exact C|]. unfold FP.ffinite. rewrite A. lia.
Qed.
Lemma denan_bits x : fbits x -> fbits (denan mw ew x).
Proof.
  intros Hx. destruct (isinf x) eqn:I; [|apply denan_fin; assumption].
  unfold denan. destruct (class3 x) as [K|[K|K]]; destruct K as (K1 & K2 & K3); try congruence. rewrite K3. exact Hx.
Qed.
Lemma denan_id x : isnan x = false -> denan mw ew x = x.
Proof. intros E. unfold denan. rewrite E. reflexivity. Qed.
Lemma unit_fin x : unitv x -> fin x.
Proof. intros (A & B & _). split; assumption. Qed.
Lemma fin_class x : fin x -> isinf x = false /\ isnan x = false.
Proof. intros [_ F]. destruct (class3 x) as [K|[K|K]]; destruct K as (K1 & K2 & K3); [auto|congruence|congruence]. Qed.

Lemma denan_inf x : fbits x -> isinf (denan mw ew x) = isinf x.
Proof.
  intros Hx. destruct (isinf x) eqn:I; [|apply fin_class, denan_fin; assumption].
  unfold denan. destruct (class3 x) as [K|[K|K]]; destruct K as (K1 & K2 & K3); try congruence. rewrite K3. exact I.
Qed.

(** sums of numbers are NaNs only for opposite infinities *)
Lemma add_nan p q : fbits p -> fbits q -> isnan p = false -> isnan q = false -> isnan (add p q) = true -> fneg p <> fneg q.
Proof.
  intros Hp Hq Np Nq N. unfold hadd in N. rewrite enc_isnan in N.
  destruct (class3 p) as [K|[K|K]]; destruct K as (K1 & K2 & K3); [| |congruence];
  (destruct (class3 q) as [L|[L|L]]; destruct L as (L1 & L2 & L3); [| |congruence]).
  - pose proof (hadd_ok mw ew Hmw Hew0 Hpe p q Hp Hq K1 L1) as R. apply rt_notnan in R. unfold hadd in R. rewrite enc_isnan in R. congruence.
  - rewrite (dec_inf mw ew Hmw Hew0 Hpe q Hq L2) in N. destruct (dec_finite mw ew Hmw Hew0 Hpe p Hp K1) as (A & _).
    destruct (dec p); cbn in *; discriminate.
  - rewrite (dec_inf mw ew Hmw Hew0 Hpe p Hp K2) in N. destruct (dec_finite mw ew Hmw Hew0 Hpe q Hq L1) as (A & _).
    destruct (dec q); cbn in *; discriminate.
  - rewrite (dec_inf mw ew Hmw Hew0 Hpe p Hp K2), (dec_inf mw ew Hmw Hew0 Hpe q Hq L2) in N.
    intros E. rewrite E in N. cbn in N. rewrite Bool.eqb_reflx in N. discriminate.
Qed.
Lemma sub_nan p q : fbits p -> fbits q -> isnan p = false -> isnan q = false -> isnan (sub p q) = true -> fneg p = fneg q.
Proof.
  intros Hp Hq Np Nq N. unfold hsub in N. rewrite enc_isnan in N.
  destruct (class3 p) as [K|[K|K]]; destruct K as (K1 & K2 & K3); [| |congruence];
  (destruct (class3 q) as [L|[L|L]]; destruct L as (L1 & L2 & L3); [| |congruence]).
  - pose proof (hsub_ok mw ew Hmw Hew0 Hpe p q Hp Hq K1 L1) as R. apply rt_notnan in R. unfold hsub in R. rewrite enc_isnan in R. congruence.
  - rewrite (dec_inf mw ew Hmw Hew0 Hpe q Hq L2) in N. destruct (dec_finite mw ew Hmw Hew0 Hpe p Hp K1) as (A & _).
    destruct (dec p); cbn in *; discriminate.
  - rewrite (dec_inf mw ew Hmw Hew0 Hpe p Hp K2) in N. destruct (dec_finite mw ew Hmw Hew0 Hpe q Hq L1) as (A & _).
    destruct (dec q); cbn in *; discriminate.
  - rewrite (dec_inf mw ew Hmw Hew0 Hpe p Hp K2), (dec_inf mw ew Hmw Hew0 Hpe q Hq L2) in N.
    destruct (fneg p), (fneg q); cbn in N; congruence.
Qed.

(** an infinite operand leaves no finite part in the naive formula *)
Lemma raw_nf a b c d : fbits a -> fbits b -> fbits c -> fbits d ->
  isinf a = true \/ isinf b = true \/ isinf c = true \/ isinf d = true ->
  ffinite (sub (mul a c) (mul b d)) = false /\ ffinite (add (mul a d) (mul b c)) = false.
Proof.
  intros Ha Hb Hc Hd H.
  assert (Q : forall x, isinf x = true -> ffinite x = false) by (intros x Ix; unfold fisinf, FP.ffinite in *; lia).
  split; [apply sub_nf|apply add_nf]; try apply mul_bits; destruct H as [H|[H|[H|H]]]; apply Q in H;
  ((left; apply mul_nf; [assumption|assumption|solve [left; assumption|right; assumption]]) || (right; apply mul_nf; [assumption|assumption|solve [left; assumption|right; assumption]])).
Qed.
Lemma nf_notnan x : ffinite x = false -> isnan x = false -> isinf x = true.
Proof. intros F N. destruct (class3 x) as [K|[K|K]]; destruct K as (K1 & K2 & K3); congruence. Qed.

Definition pfin (x y : Z) : Prop := fin x /\ fin y /\ nz2 x y.
Lemma box_pair x y : fbits x -> fbits y -> isinf x = true \/ isinf y = true ->
  unitv (box mw ew x) /\ unitv (box mw ew y) /\ nz2 (box mw ew x) (box mw ew y).
Proof.
  intros Hx Hy I. split; [apply box_unit; assumption|]. split; [apply box_unit; assumption|].
  destruct I as [I|I]; [left|right]; apply box_inf; assumption.
Qed.

Lemma cmul_inf a b c d : cbits mw ew (a, b) -> cbits mw ew (c, d) ->
  (cinf mw ew (a, b) /\ (cinf mw ew (c, d) \/ (cfin mw ew (c, d) /\ ~ czero mw ew (c, d)))) \/
  (cinf mw ew (c, d) /\ (cfin mw ew (a, b) /\ ~ czero mw ew (a, b))) ->
  cinf mw ew (cmul a b c d).
Proof.
  unfold cbits, cinf, cfin, czero. cbn [fst snd]. intros [Ha Hb] [Hc Hd] H.
  assert (HI : isinf a = true \/ isinf b = true \/ isinf c = true \/ isinf d = true) by tauto.
  destruct (raw_nf a b c d Ha Hb Hc Hd HI) as [X Y].
  unfold Complex_Model.cmul. cbv zeta.
  destruct (isnan (sub (mul a c) (mul b d))) eqn:NX; cbn [andb]; [|left; apply nf_notnan; assumption].
  destruct (isnan (add (mul a d) (mul b c))) eqn:NY; [|right; apply nf_notnan; assumption].
  clear X Y NX NY HI.
  assert (FIN : forall a1 b1 c1 d1, fin a1 -> fin b1 -> fin c1 -> fin d1 -> nz2 a1 b1 -> nz2 c1 d1 ->
    (unitv a1 /\ unitv b1) \/ (unitv c1 /\ unitv d1) ->
    isinf (mul INF (sub (mul a1 c1) (mul b1 d1))) = true \/ isinf (mul INF (add (mul a1 d1) (mul b1 c1))) = true).
  { intros a1 b1 c1 d1 A1 A2 A3 A4 A5 A6 A7.
    destruct (core_mul a1 b1 c1 d1 A1 A2 A3 A4 A5 A6 A7) as [K|K]; [left|right]; apply inf_nonz; exact K. }
  assert (NZ : forall x y, fbits x -> fbits y -> (ffinite x = true /\ ffinite y = true) /\
     ~ ((ffinite x = true /\ ffinite y = true) /\ fval x = 0%R /\ fval y = 0%R) -> pfin x y /\ isinf x = false /\ isinf y = false /\ isnan x = false /\ isnan y = false).
  { intros x y Hx Hy [[Fx Fy] N]. assert (fin x) by (split; assumption). assert (fin y) by (split; assumption).
    destruct (fin_class x); [assumption|]. destruct (fin_class y); [assumption|]. split; [|tauto].
    split; [assumption|]. split; [assumption|]. unfold nz2. destruct (Req_dec (fval x) 0); [|tauto]. destruct (Req_dec (fval y) 0); tauto. }
  assert (DN : forall x, fin x -> denan mw ew x = x) by (intros x Fx; apply denan_id, fin_class; exact Fx).
  destruct (isinf a || isinf b) eqn:AB.
  - apply Bool.orb_true_iff in AB. destruct (box_pair a b Ha Hb AB) as (U1 & U2 & U3).
    destruct (isinf (denan mw ew c) || isinf (denan mw ew d)) eqn:CD; cbn [negb andb].
    + apply Bool.orb_true_iff in CD.
      assert (Bc : fbits (denan mw ew c)) by (apply denan_bits; exact Hc).
      assert (Bd : fbits (denan mw ew d)) by (apply denan_bits; exact Hd).
      destruct (box_pair _ _ Bc Bd CD) as (V1 & V2 & V3).
      rewrite (DN (box mw ew a)), (DN (box mw ew b)) by (apply unit_fin; assumption).
      apply FIN; try (apply unit_fin; assumption); try assumption. left; split; assumption.
    + apply Bool.orb_false_iff in CD. destruct CD as [CD1 CD2]. rewrite denan_inf in CD1 by exact Hc. rewrite denan_inf in CD2 by exact Hd.
      assert (N : (ffinite c = true /\ ffinite d = true) /\ ~ ((ffinite c = true /\ ffinite d = true) /\ fval c = 0%R /\ fval d = 0%R)).
      { destruct H as [(_ & [[H|H]|H])|([H|H] & _)]; try congruence. exact H. }
      destruct (NZ c d Hc Hd N) as ((F1 & F2 & F3) & _). rewrite (DN c F1), (DN d F2).
      apply FIN; try (apply unit_fin; assumption); try assumption. left; split; assumption.
  - apply Bool.orb_false_iff in AB. destruct AB as [AB1 AB2].
    assert (N : (isinf c = true \/ isinf d = true) /\ (ffinite a = true /\ ffinite b = true) /\ ~ ((ffinite a = true /\ ffinite b = true) /\ fval a = 0%R /\ fval b = 0%R)).
    { destruct H as [([H|H] & _)|H]; try congruence. exact H. }
    destruct N as [CD N]. destruct (NZ a b Ha Hb N) as ((F1 & F2 & F3) & _).
    destruct (box_pair _ _ Hc Hd CD) as (V1 & V2 & V3). apply Bool.orb_true_iff in CD. rewrite CD. cbn [negb andb].
    rewrite (DN a F1), (DN b F2).
    apply FIN; try (apply unit_fin; assumption); try assumption. right; split; assumption.
Qed.

(** the two parts of a product of finite numbers are not both NaNs *)
Lemma raw_finite a b c d : fin a -> fin b -> fin c -> fin d ->
  isnan (sub (mul a c) (mul b d)) && isnan (add (mul a d) (mul b c)) = false.
Proof.
  intros [Ha Fa] [Hb Fb] [Hc Fc] [Hd Fd]. apply Bool.not_true_iff_false. intros N. apply andb_prop in N. destruct N as [N1 N2].
  pose proof (hmul_ok mw ew Hmw Hew0 Hpe a c Ha Hc Fa Fc) as R1. pose proof (hmul_ok mw ew Hmw Hew0 Hpe b d Hb Hd Fb Fd) as R2.
  pose proof (hmul_ok mw ew Hmw Hew0 Hpe a d Ha Hd Fa Fd) as R3. pose proof (hmul_ok mw ew Hmw Hew0 Hpe b c Hb Hc Fb Fc) as R4.
  pose proof (sub_nan _ _ (mul_bits a c) (mul_bits b d) (rt_notnan _ _ _ R1) (rt_notnan _ _ _ R2) N1) as S1.
  pose proof (add_nan _ _ (mul_bits a d) (mul_bits b c) (rt_notnan _ _ _ R3) (rt_notnan _ _ _ R4) N2) as S2.
  destruct R1 as (_ & R1 & _). destruct R2 as (_ & R2 & _). destruct R3 as (_ & R3 & _). destruct R4 as (_ & R4 & _).
  rewrite R1, R2 in S1. rewrite R3, R4 in S2. revert S1 S2. destruct (fneg a), (fneg b), (fneg c), (fneg d); cbn; congruence.
Qed.

Lemma cmul_raw a b c d : isnan (sub (mul a c) (mul b d)) && isnan (add (mul a d) (mul b c)) = false ->
  cmul a b c d = (sub (mul a c) (mul b d), add (mul a d) (mul b c)).
Proof. intros E. unfold Complex_Model.cmul. cbv zeta. rewrite E. reflexivity. Qed.

(** an overflowing product beside NaN operands *)
Lemma inf_fin p q : fbits p -> fbits q -> isinf p = true -> ffinite q = true ->
  isinf (add p q) = true /\ isinf (add q p) = true /\ isinf (sub p q) = true /\ isinf (sub q p) = true.
Proof.
  intros Hp Hq Ip Fq. unfold hadd, hsub. rewrite (dec_inf mw ew Hmw Hew0 Hpe p Hp Ip).
  destruct (dec_finite mw ew Hmw Hew0 Hpe q Hq Fq) as (A & _).
  destruct (dec q) as [s|s| |s m e Hb]; try discriminate; cbn; repeat split; apply winf.
Qed.
Lemma inf_inf p : fbits p -> isinf p = true -> isinf (mul INF p) = true.
Proof.
  intros Hp Ip. apply inf_mul; try apply inf_class; try assumption; destruct (class3 p) as [K|[K|K]]; destruct K as (K1 & K2 & K3); congruence.
Qed.
Lemma nan_unit x : fbits x -> isnan x = true -> unitv (denan mw ew x).
Proof.
  intros Hx N. pose proof (finf_pos mw ew Hmw Hew) as FI. unfold denan, copysign. rewrite N. change (fabsb mw ew 0) with 0.
  destruct (with_sign_spec mw ew Hmw Hew (fneg x) 0 ltac:(lia)) as (A & B & C).
  split; [exact C|]. unfold FP.ffinite. rewrite A. split; [lia|].
  rewrite with_sign_fval by (assumption || exact Hew || lia). rewrite (fmag_0 mw ew Hmw). left. destruct (fneg x); lra.
Qed.
Lemma prod_inf_fin p q : fbits p -> fbits q -> isinf p = false -> isinf q = false -> isinf (mul p q) = true -> ffinite p = true /\ ffinite q = true.
Proof.
  intros Hp Hq Ip Iq I. unfold hmul in I.
  destruct (class3 p) as [K|[K|K]]; destruct K as (K1 & K2 & K3); [|congruence|].
  - split; [exact K1|]. destruct (class3 q) as [L|[L|L]]; destruct L as (L1 & L2 & L3); [exact L1|congruence|]. exfalso.
    rewrite (dec_nan mw ew Hmw Hew0 Hpe q Hq L3) in I.
    match type of I with fisinf _ _ ?t = true => assert (E : isnan t = true) by (rewrite enc_isnan; destruct (dec p); reflexivity) end.
    unfold fisinf, fisnan in *. lia.
  - exfalso. rewrite (dec_nan mw ew Hmw Hew0 Hpe p Hp K3) in I.
    match type of I with fisinf _ _ ?t = true => assert (E : isnan t = true) by (rewrite enc_isnan; destruct (dec q); reflexivity) end.
    unfold fisinf, fisnan in *. lia.
Qed.

Lemma cmul_overflow a b c d : cbits mw ew (a, b) -> cbits mw ew (c, d) -> ~ cinf mw ew (a, b) -> ~ cinf mw ew (c, d) ->
  isinf (mul a c) = true \/ isinf (mul b d) = true \/ isinf (mul a d) = true \/ isinf (mul b c) = true ->
  ~ cnan mw ew (cmul a b c d).
Proof.
  unfold cbits, cinf, cnan. cbn [fst snd]. intros [Ha Hb] [Hc Hd] I1 I2 P.
  assert (Ia : isinf a = false) by (apply Bool.not_true_iff_false; tauto). assert (Ib : isinf b = false) by (apply Bool.not_true_iff_false; tauto).
  assert (Ic : isinf c = false) by (apply Bool.not_true_iff_false; tauto). assert (Id : isinf d = false) by (apply Bool.not_true_iff_false; tauto).
  unfold Complex_Model.cmul. cbv zeta.
  destruct (isnan (sub (mul a c) (mul b d)) && isnan (add (mul a d) (mul b c))) eqn:NN; cbn [andb].
  2:{ cbn [fst snd]. apply Bool.andb_false_iff in NN. intros [N1 N2]. destruct NN; congruence. }
  rewrite Ia, Ib. cbn [orb]. rewrite Ic, Id. cbn [orb negb andb].
  assert (PP : isinf (mul a c) || isinf (mul b d) || isinf (mul a d) || isinf (mul b c) = true) by (rewrite !Bool.orb_true_iff; tauto).
  rewrite PP. cbn [fst snd].
  pose proof (denan_fin a Ha Ia) as [Ba Fa]. pose proof (denan_fin b Hb Ib) as [Bb Fb]. pose proof (denan_fin c Hc Ic) as [Bc Fc]. pose proof (denan_fin d Hd Id) as [Bd Fd].
  assert (NNx : ~ (ffinite a = true /\ ffinite b = true /\ ffinite c = true /\ ffinite d = true)).
  { intros (Ga & Gb & Gc & Gd). pose proof (raw_finite a b c d (conj Ha Ga) (conj Hb Gb) (conj Hc Gc) (conj Hd Gd)). congruence. }
  assert (ID : forall x, ffinite x = true -> denan mw ew x = x) by (intros x Fx; apply denan_id; unfold FP.ffinite, fisnan in *; lia).
  assert (UN : forall x y, fbits x -> fbits y -> isinf x = false -> isinf y = false -> ~ (ffinite x = true /\ ffinite y = true) -> unitv (denan mw ew x) \/ unitv (denan mw ew y)).
  { intros x y Hx Hy Ix Iy N. destruct (class3 x) as [K|[K|K]]; destruct K as (K1 & K2 & K3); [|congruence|left; apply nan_unit; assumption].
    destruct (class3 y) as [L|[L|L]]; destruct L as (L1 & L2 & L3); [tauto|congruence|right; apply nan_unit; assumption]. }
  assert (NI : forall x, isinf x = true -> isnan x = true -> False) by (intros x H1 H2; unfold fisinf, fisnan in *; lia).
  intros [N1 N2]. destruct P as [P|[P|[P|P]]].
  - destruct (prod_inf_fin a c Ha Hc Ia Ic P) as [Ga Gc].
    destruct (mul_unit _ _ Bb Fb Bd Fd (UN b d Hb Hd Ib Id ltac:(tauto))) as (M1 & M2 & _).
    apply (NI _ (inf_inf _ (sub_bits _ _) (proj1 (proj2 (proj2 (inf_fin _ _ (mul_bits a c) M1 P M2)))))). rewrite (ID a Ga), (ID c Gc) in N1. exact N1.
  - destruct (prod_inf_fin b d Hb Hd Ib Id P) as [Gb Gd].
    destruct (mul_unit _ _ Ba Fa Bc Fc (UN a c Ha Hc Ia Ic ltac:(tauto))) as (M1 & M2 & _).
    apply (NI _ (inf_inf _ (sub_bits _ _) (proj2 (proj2 (proj2 (inf_fin _ _ (mul_bits b d) M1 P M2)))))). rewrite (ID b Gb), (ID d Gd) in N1. exact N1.
  - destruct (prod_inf_fin a d Ha Hd Ia Id P) as [Ga Gd].
    destruct (mul_unit _ _ Bb Fb Bc Fc (UN b c Hb Hc Ib Ic ltac:(tauto))) as (M1 & M2 & _).
    apply (NI _ (inf_inf _ (add_bits _ _) (proj1 (inf_fin _ _ (mul_bits a d) M1 P M2)))). rewrite (ID a Ga), (ID d Gd) in N2. exact N2.
  - destruct (prod_inf_fin b c Hb Hc Ib Ic P) as [Gb Gc].
    destruct (mul_unit _ _ Ba Fa Bd Fd (UN a d Ha Hd Ia Id ltac:(tauto))) as (M1 & M2 & _).
    apply (NI _ (inf_inf _ (add_bits _ _) (proj1 (proj2 (inf_fin _ _ (mul_bits b c) M1 P M2))))). rewrite (ID b Gb), (ID c Gc) in N2. exact N2.
Qed.

Lemma overflows_inf p q : fbits p -> fbits q -> overflows mw ew p q -> isinf (mul p q) = true.
Proof.
  intros Hp Hq (Fp & Fq & O). pose proof (hmul_ok mw ew Hmw Hew0 Hpe p q Hp Hq Fp Fq) as (_ & _ & _ & R).
  specialize (R O). unfold fisinf. rewrite R. apply Z.eqb_refl.
Qed.

(** finite operands, no overflow in the products *)
Lemma cmul_finite a b c d : fin a -> fin b -> fin c -> fin d ->
  ~ overflows mw ew a c -> ~ overflows mw ew b d -> ~ overflows mw ew a d -> ~ overflows mw ew b c ->
  exists s t,
   rounds_to mw ew (RN mw ew (fval a * fval c) - RN mw ew (fval b * fval d)) s (fst (cmul a b c d)) /\
   rounds_to mw ew (RN mw ew (fval a * fval d) + RN mw ew (fval b * fval c)) t (snd (cmul a b c d)).
Proof.
  intros FA FB FC FD O1 O2 O3 O4. rewrite (cmul_raw a b c d (raw_finite a b c d FA FB FC FD)). cbn [fst snd].
  assert (MF : forall p q, fin p -> fin q -> ~ overflows mw ew p q -> fbits (mul p q) /\ ffinite (mul p q) = true /\ fval (mul p q) = RN mw ew (fval p * fval q)).
  { intros p q [Hp Fp] [Hq Fq] O. pose proof (hmul_ok mw ew Hmw Hew0 Hpe p q Hp Hq Fp Fq) as (R1 & _ & R2 & _).
    split; [exact R1|]. apply R2. apply Rnot_le_lt. intros G. apply O. split; [exact Fp|]. split; [exact Fq|exact G]. }
  destruct (MF a c FA FC O1) as (A1 & A2 & A3). destruct (MF b d FB FD O2) as (B1 & B2 & B3).
  destruct (MF a d FA FD O3) as (C1 & C2 & C3). destruct (MF b c FB FC O4) as (D1 & D2 & D3).
  do 2 eexists. rewrite <- A3, <- B3, <- C3, <- D3. split; [apply hsub_ok; assumption|apply hadd_ok; assumption].
Qed.
End Ops.
