(** truncl, nearbyintl, ldexpl, nexttoward. *)
From Coq Require Import Reals Lra.
From Flocq Require Import Core BinarySingleNaN.
From Verif Require Import Base Bits FP FP_Proof HW HW_Proof FPInt FPOps Int128_Model Int128_Proof Int128_Float_Model Int128_Float_Proof
  Tf_Model Tf_Proof Tf_Widen_Proof Tf_Narrow_Proof Tf_Mul_Proof Math_Model Math_Round_Proof Math_Int_Proof Math_Spec
  Math_Lround_Proof Math_Basic_Proof Math_Scalbn_Proof Math_Misc_Proof Mathl_Model Mathl_Spec.
Open Scope Z_scope.
Local Ltac Zify.zify_post_hook ::= idtac.

Notation L4 f := (f 112 15 eq_refl eq_refl eq_refl eq_refl).

(** ** truncl *)
Lemma mask_ok s : 0 <= s < 128 -> lsh 128 (2^128 - 1) s = Ok (2^128 - 2^s).
Proof.
  intros Hs. rewrite Int128_Proof.lsh_ok by lia. f_equal. symmetry. apply Z.mod_unique with (2^s - 1).
  - left. pose proof (pow2_pos s ltac:(lia)). pose proof (Z.pow_lt_mono_r 2 s 128 ltac:(lia) ltac:(lia)). lia.
  - lia.
Qed.

Lemma land_mask x s : 0 <= x < 2^128 -> 0 <= s < 128 -> Z.land x (2^128 - 2^s) = x - x mod 2^s.
Proof.
  intros Hx Hs. pose proof (pow2_pos s ltac:(lia)) as P.
  assert (E : 2^128 - 2^s = Z.land (2^128 - 1) (Z.lnot (2^s - 1))).
  { rewrite land_lnot_low by lia. assert ((2^128 - 1) mod 2^s = 2^s - 1) as ->; [|lia]. symmetry.
    apply Z.mod_unique with (2^(128 - s) - 1); [left; lia|].
    replace (2^128) with (2^s * 2^(128 - s)) by (rewrite <- Z.pow_add_r by lia; f_equal; lia). lia. }
  rewrite E, Z.land_assoc, land_ones_mod, Z.mod_small by lia. apply land_lnot_low. lia.
Qed.

Lemma truncl_ok x : fbits 112 15 x -> exists r, truncl x = Ok r /\ rounded 112 15 Ztrunc x r.
Proof.
  intros Hx. destruct (L4 trunc_ok x Hx) as (r & E & R). exists r. split; [|exact R]. rewrite <- E. clear E R r.
  unfold truncl, trunc_. cbv zeta. rewrite sgn_magnitude by (reflexivity || assumption).
  pose proof (fabsb_range 112 15 eq_refl eq_refl x) as R. pose proof (pattern_split 112 15 eq_refl eq_refl x Hx) as Ex.
  set (k := fabsb 112 15 x) in *. change (112 + 15 + 1) with 128 in *. change (112 + 15) with 127 in *.
  unfold with_sign in Ex. change (112 + 15) with 127 in Ex.
  assert (EE : Z.shiftr (u128 (Z.shiftl x 1)) 113 = k / 2^112).
  { unfold u128. rewrite shiftl_mul, shiftr_div by lia. change (2^128) with (2^127 * 2^1). rewrite Z.mul_mod_distr_r by lia.
    change (2^113) with (2^112 * 2^1). rewrite Z.div_mul_cancel_r by lia. reflexivity. }
  rewrite EE. unfold maskshift_. set (e := k / 2^112).
  assert (He : 0 <= e < 2^15) by (split; [apply Z.div_pos; lia|apply Z.div_lt_upper_bound; lia]).
  assert (Dk : e * 2^112 <= k < (e + 1) * 2^112) by (pose proof (Z.div_mod k (2^112)); pose proof (Z.mod_pos_bound k (2^112)); unfold e; lia).
  change (c_one 112 15) with (0x3FFF * 2^112). change (c_big 112 15) with ((0x3FFF + 112) * 2^112).
  assert (Sx : sgn 128 x = k - (if fneg 112 15 x then 2^127 else 0)) by (apply (sgn_pattern 112 15 eq_refl eq_refl x Hx)).
  assert (Hx' : 0 <= x < 2^128) by exact Hx.
  destruct (Z.ltb_spec e 0x3FFF) as [L|L].
  - replace (k <? 0x3FFF * 2^112) with true by lia. rewrite mask_ok by lia. cbn [bind]. f_equal. rewrite land_mask by (exact Hx' || lia).
    change (128 - 1) with 127. change (2^127) with (2^1 * 2^126) at 2.
    replace (Z.land (sgn 128 x) (2 ^ 1 * 2 ^ 126)) with (if fneg 112 15 x then 2^127 else 0).
    + rewrite Ex at 1 2. destruct (fneg 112 15 x).
      * replace ((2^127 + k) mod 2^127) with k by (apply Z.mod_unique with 1; lia). lia.
      * rewrite Z.mod_small by lia. lia.
    + change (2^1 * 2^126) with (Z.shiftl 1 127). rewrite Sx. apply Z.bits_inj_iff'. intros n Hn.
      rewrite Z.land_spec. destruct (fneg 112 15 x).
      * change (2^127) with (Z.shiftl 1 127). rewrite (Z.shiftl_spec 1 127 n Hn). destruct (Z.eq_dec n 127) as [->|Nn].
        -- change (Z.testbit 1 (127 - 127)) with true. rewrite andb_true_r. symmetry. rewrite Z.testbit_odd, shiftr_div by lia.
           replace ((k - Z.shiftl 1 127) / 2^127) with (-1); [reflexivity|]. change (Z.shiftl 1 127) with (2^127). apply Z.div_unique with k; lia.
        -- replace (Z.testbit 1 (n - 127)) with false; [rewrite andb_false_r; reflexivity|]. symmetry.
           destruct (Z.lt_ge_cases n 127); [apply Z.testbit_neg_r; lia|]. apply Z.bits_above_log2; [lia|]. change (Z.log2 1) with 0. lia.
      * rewrite Z.bits_0. rewrite Z.sub_0_r. rewrite (Z.shiftl_spec 1 127 n Hn). destruct (Z.eq_dec n 127) as [->|Nn].
        -- replace (Z.testbit k 127) with false; [reflexivity|]. symmetry. rewrite Z.testbit_odd, shiftr_div by lia. rewrite Z.div_small by lia. reflexivity.
        -- replace (Z.testbit 1 (n - 127)) with false; [rewrite andb_false_r; reflexivity|]. symmetry.
           destruct (Z.lt_ge_cases n 127); [apply Z.testbit_neg_r; lia|]. apply Z.bits_above_log2; [lia|]. change (Z.log2 1) with 0. lia.
  - replace (k <? 0x3FFF * 2^112) with false by lia.
    destruct (Z.ltb_spec k ((0x3FFF + 112) * 2^112)) as [L2|L2].
    + assert (e < 0x3FFF + 112) by lia. replace (112 + 0x3FFF - e <? 0) with false by lia.
      set (s := 112 + 0x3FFF - e). rewrite mask_ok by lia. cbn [bind]. rewrite shiftr_div by lia. fold e.
      rewrite rsh_mones by lia. cbn [bind]. f_equal.
      replace (112 - (e - (2^(15 - 1) - 1))) with s by (unfold s; lia).
      rewrite land_mask by (exact Hx' || lia). rewrite Z.land_comm, Sx.
      replace (- 2^s) with (Z.lnot (2^s - 1)) by (unfold Z.lnot; lia).
      pose proof (land_neg_mask 112 15 eq_refl eq_refl eq_refl eq_refl k s (fneg 112 15 x) ltac:(unfold s; lia)) as LM.
      change (112 + 15) with 127 in LM. rewrite LM. clear LM.
      assert (EM : x mod 2^s = k mod 2^s).
      { rewrite Ex. destruct (fneg 112 15 x); [|reflexivity]. replace (2^127) with (2^(127 - s) * 2^s) by (rewrite <- Z.pow_add_r by lia; f_equal; lia).
        rewrite Z.add_comm. apply Z.mod_add. pose proof (pow2_pos s ltac:(lia)). lia. }
      rewrite EM. pose proof (pow2_pos s ltac:(lia)). pose proof (Z.mod_pos_bound k (2^s) ltac:(lia)).
      pose proof (Z.mod_le k (2^s) ltac:(lia) ltac:(lia)).
      destruct (fneg 112 15 x); rewrite Ex.
      * apply Z.mod_unique with (-1); lia.
      * rewrite (Z.mod_small (k - k mod 2^s - 0)); lia.
    + assert (0x3FFF + 112 <= e) by lia.
      replace (if 112 + 0x3FFF - e <? 0 then 0 else 112 + 0x3FFF - e) with 0 by (destruct (Z.ltb_spec (112 + 0x3FFF - e) 0); lia).
      rewrite mask_ok by lia. cbn [bind]. f_equal. rewrite land_mask by (exact Hx' || lia). change (2^0) with 1. rewrite Z.mod_1_r. lia.
Qed.

(** ** nexttowardl *)
Lemma heq128 a b : fbits 112 15 a -> fbits 112 15 b -> (eqtf2 a b =? 0) = heq 112 15 a b.
Proof.
  intros Ha Hb. rewrite eqtf2_ok by assumption. unfold heq.
  destruct (fisnan 112 15 a), (fisnan 112 15 b), (ford 112 15 a =? ford 112 15 b); reflexivity.
Qed.

Lemma self128 a : fbits 112 15 a -> negb (eqtf2 a a =? 0) = fisnan 112 15 a.
Proof. intros Ha. rewrite heq128 by assumption. unfold heq. rewrite Z.eqb_refl. destruct (fisnan 112 15 a); reflexivity. Qed.

Lemma nexttowardl_same from to : fbits 112 15 from -> fbits 112 15 to -> nexttowardl from to = nextafter 112 15 from to.
Proof.
  intros Hf Ht. unfold nexttowardl, nextafter. rewrite !self128, !heq128 by (assumption || (unfold fbits; lia)). reflexivity.
Qed.

(** ** ldexpl *)
Lemma clz_same k : 0 < k < 2^128 -> clzti2 k = clz 128 k.
Proof.
  intros Hk. destruct (clzti2_ok k Hk) as (s & -> & Hs & B). unfold clz. replace (k =? 0) with false by lia. f_equal.
  assert (Z.log2 (k * 2^s) = 127) as L.
  { apply Z.log2_unique; [lia|]. change (Z.succ 127) with 128. exact B. }
  rewrite Z.log2_mul_pow2 in L by lia. lia.
Qed.

Lemma normalizel_same k : 0 < k < 2^127 -> normalizel k = normalize_ 112 15 k.
Proof.
  intros Hk. unfold normalizel, normalize_, c_min. change (112 + 15 + 1) with 128. destruct (k <? Z.shiftl 1 112) eqn:L; [|reflexivity].
  unfold u128. rewrite Z.mod_small, clz_same by lia. unfold clz. replace (k =? 0) with false by lia. cbn [bind].
  rewrite shiftl_mul in L by lia. assert (Lk : Z.log2 k < 112) by (apply Z.log2_lt_pow2; lia). pose proof (Z.log2_nonneg k).
  set (s := 128 - 1 - Z.log2 k - 15). destruct (lsh 128 k s); try reflexivity. cbn [bind].
  rewrite (Int128_Proof.lsh_ok 128 s 112) by lia. cbn [bind]. rewrite shiftl_mul by lia. rewrite (Z.mod_small (s * 2^112)) by lia. reflexivity.
Qed.

Lemma mul128_spec : mul_spec 112 15 multf3.
Proof.
  intros a b Ha Hb. destruct (multf3_ok a b Ha Hb) as (r & E & M). exists r. split; [exact E|].
  unfold Tf_Mul_Proof.mul_spec in M. cbv zeta in M. unfold ffinite, fisinf, fisnan in *.
  pose proof (finf_pos 112 15 eq_refl eq_refl) as FI.
  set (ka := fabsb 112 15 a) in *. set (kb := fabsb 112 15 b) in *. set (I := finf 112 15) in *.
  destruct ((I <? ka) || (I <? kb) || ((ka =? I) && (kb =? 0)) || ((ka =? 0) && (kb =? I))) eqn:C1; [split; intros; lia|].
  destruct ((ka =? I) || (kb =? I)) eqn:C2; [split; [intros; lia|intros; exact M]|].
  split; [intros _ _; exact M|intros; lia].
Qed.

Lemma ldexpl_ok x e : is_i32 e -> fbits 112 15 x -> ffinite 112 15 x = true ->
  exists r, ldexpl x e = Ok r /\ rounds_to 112 15 (fval 112 15 x * bpow radix2 e) (fneg 112 15 x) r.
Proof. intros He Hx F. apply (L4 scalbn_ok); try assumption; try lia. exact mul128_spec. Qed.

(** ** double and long double *)
Lemma Ok_eq {A} (a b : A) : Ok a = Ok b -> a = b.
Proof. intros H. injection H. auto. Qed.

Lemma extenddf_low x y : fbits 52 11 x -> extenddftf2 x = Ok y -> fabsb 112 15 y mod 2^60 = 0.
Proof.
  intros Hx E. destruct (split_bits 52 11 x eq_refl eq_refl Hx) as [_ B]. change (52 + 11) with 63 in B.
  unfold extenddftf2 in E. destruct (extenddf_magnitude (fabsb 52 11 x)) as [K| |] eqn:EK; try discriminate. cbn [bind] in E.
  assert (M : K mod 2^60 = 0).
  { revert EK. set (k := fabsb 52 11 x) in *. unfold extenddf_magnitude.
    destruct (0x7FF0000000000000 <=? k).
    - intros EK. apply Ok_eq in EK. rewrite <- EK. replace (Z.shiftl 0x78 120) with (Z.shiftl (Z.shiftl 0x78 60) 60) by (rewrite Z.shiftl_shiftl by lia; reflexivity).
      rewrite <- Z.shiftl_lor, shiftl_mul by lia. apply Z.mod_mul. lia.
    - destruct (Z.eqb_spec k 0) as [|Nk]; [intros EK; apply Ok_eq in EK; rewrite <- EK; reflexivity|].
      destruct (normalize64_ok k ltac:(lia)) as (n & -> & _ & HB). cbn [bind]. rewrite !shiftl_mul by lia.
      unfold s128. rewrite (sgn_id 128) by lia. unfold chk_i128. destruct (_ && _); [|discriminate]. intros EK. apply Ok_eq in EK. rewrite <- EK.
      rewrite Z.mod_add by lia. reflexivity. }
  assert (Ey : fabsb 112 15 y = K mod 2^127).
  { apply Ok_eq in E. rewrite <- E. unfold nosign, u128, SIGN128. rewrite land_ones_mod by lia. rewrite shiftl_mul, Z.mul_1_l by lia.
    assert (MM : (K mod 2^128) mod 2^127 = K mod 2^127).
    { change (2^128) with (2^127 * 2). rewrite Z.rem_mul_r by lia. rewrite Z.mul_comm, Z.mod_add by lia. apply Z.mod_mod. lia. }
    rewrite MM. pose proof (Z.mod_pos_bound K (2^127) ltac:(lia)). rewrite lor_sign by lia.
    apply (with_sign_spec 112 15 eq_refl eq_refl). exact H. }
  rewrite Ey. change (2^127) with (2^60 * 2^67). rewrite Z.rem_mul_r by lia. rewrite M, Z.mul_comm, Z.add_0_l. apply Z.mod_mul. lia.
Qed.

Lemma finite_or x mw ew : fisnan mw ew x = false -> ffinite mw ew x = true \/ fisinf mw ew x = true.
Proof. unfold fisnan, ffinite, fisinf. lia. Qed.

Lemma inf_not_finite x mw ew : fisinf mw ew x = true -> ffinite mw ew x = false.
Proof. unfold ffinite, fisinf. lia. Qed.

(** a long double with the value of a double converts to a double of that value *)
Lemma narrow_exact x y : fbits 52 11 x -> fisnan 52 11 x = false -> fbits 112 15 y -> fisnan 112 15 y = false ->
  xval 112 15 y = xval 52 11 x ->
  let d := trunctfdf2 y in fbits 52 11 d /\ fisnan 52 11 d = false /\ fneg 52 11 d = fneg 112 15 y /\ xval 52 11 d = xval 52 11 x.
Proof.
  intros Hx Nx Hy Ny V d. destruct (extenddftf2_ok x Hx) as (z & E & Z1 & Z2 & Z3 & Z4). rewrite Nx in Z3. specialize (Z4 Nx).
  assert (F : ford 112 15 y = ford 112 15 z) by (apply (L4 xval_ford); try assumption; congruence).
  assert (A : fabsb 112 15 y = fabsb 112 15 z).
  { pose proof (fabsb_range 112 15 eq_refl eq_refl y). pose proof (fabsb_range 112 15 eq_refl eq_refl z).
    unfold ford in F. destruct (fneg 112 15 y), (fneg 112 15 z); lia. }
  assert (NB : ~ trunctfdf_bad (fabsb 112 15 y)).
  { rewrite A. pose proof (extenddf_low x z Hx E) as L. unfold trunctfdf_bad. intros [[_ H]|[_ H]]; [|lia].
    change (2^61) with (2^60 * 2) in H. rewrite Z.rem_mul_r, L in H by lia. pose proof (Z.mod_pos_bound (fabsb 112 15 z / 2^60) 2 ltac:(lia)). lia. }
  destruct (trunctfdf2_ok y Hy) as (T1 & T2 & _). fold d in T1, T2. unfold xval in V |- *.
  destruct (finite_or _ _ _ Ny) as [Fy|Iy].
  - rewrite Fy in V. destruct (ffinite 52 11 x) eqn:Fx; [|destruct (fneg 52 11 x); discriminate]. injection V as V.
    destruct (rounds_exact 52 11 eq_refl eq_refl eq_refl _ _ _ x (T1 Fy NB) Hx Fx (eq_sym V)) as (D1 & D2 & D3 & D4).
    split; [exact D1|]. split; [unfold fisnan, ffinite in *; lia|]. split; [exact D4|]. rewrite D2, D3, V. reflexivity.
  - rewrite (inf_not_finite _ _ _ Iy) in V. rewrite (T2 Iy). pose proof (finf_pos 52 11 eq_refl eq_refl) as FI.
    destruct (with_sign_spec 52 11 eq_refl eq_refl (fneg 112 15 y) (finf 52 11) ltac:(lia)) as (W1 & W2 & W3).
    split; [exact W3|]. split; [unfold fisnan; rewrite W1; lia|]. split; [exact W2|]. unfold ffinite at 1. rewrite W1, W2, Z.ltb_irrefl.
    destruct (ffinite 52 11 x); [destruct (fneg 112 15 y); discriminate|exact V].
Qed.

Lemma trunctfdf2_sign y : fbits 112 15 y -> fbits 52 11 (trunctfdf2 y) /\ fneg 52 11 (trunctfdf2 y) = fneg 112 15 y.
Proof.
  intros Hy. rewrite (trunctfdf2_shape y Hy). destruct (tf_split y Hy) as [_ B]. set (k := fabsb 112 15 y) in *.
  assert (M : 0 <= trunctfdf_magnitude (k / 2^64) (k mod 2^64) < 2^63).
  { destruct (high_split k B) as (e & mh & low & He & Hm & Hl & Ek & -> & ->). unfold trunctfdf_magnitude.
    set (h := e * 2^48 + mh). assert (Hh : 0 <= h < 2^63) by (unfold h; lia).
    destruct (_ || _); [exact Hh|]. destruct (Z.leb_spec 0x43FF000000000000 h) as [G|G]; [lia|].
    destruct (Z.leb_spec 0x3C01000000000000 h) as [G2|G2].
    - rewrite (shiftl_mul (u64 (h - 0x3C00000000000000))), shiftr_div by lia. unfold u64. rewrite (Z.mod_small (h - _)) by lia.
      rewrite (Z.mod_small (_ * 2^4)) by lia.
      assert (0 <= low / 2^60 < 2^4) by (split; [apply Z.div_pos; lia|apply Z.div_lt_upper_bound; lia]).
      rewrite lor_mul_low by lia. set (b := b2z _). assert (0 <= b <= 1) by (unfold b; destruct (_ <? _); cbn; lia).
      rewrite Z.mod_small by lia. lia.
    - destruct (Z.leb_spec 0x3BCC000000000000 h) as [G3|G3]; [|lia].
      set (sg := Z.lor (Z.lor _ _) _). set (co := u64 _).
      assert (S : 0 <= sg < 2^60).
      { unfold sg. assert (P : forall a b n, 0 <= n -> 0 <= a < 2^n -> 0 <= b < 2^n -> 0 <= Z.lor a b < 2^n).
        { intros a b n Hn Ha Hb. split; [apply Z.lor_nonneg; lia|].
          assert (Z.lor a b = Z.lor a b mod 2^n) as ->; [|apply Z.mod_pos_bound; lia].
          rewrite lor_mod, !Z.mod_small by lia. reflexivity. }
        apply P; [lia| |unfold bool0; destruct (_ =? _); cbn; lia]. apply P; [lia| |].
        - rewrite shiftr_div by lia. assert (0 <= Z.lor 0x8000000000000000 (u64 (Z.shiftl h 15)) < 2^64).
          { apply P; [lia|lia|]. unfold u64. apply Z.mod_pos_bound. lia. }
          split; [apply Z.div_pos; lia|apply Z.div_lt_upper_bound; lia].
        - rewrite shiftr_div by lia. split; [apply Z.div_pos; lia|apply Z.div_lt_upper_bound; lia]. }
      assert (C : 0 <= co < 2^62).
      { unfold co. rewrite shiftr_div, shiftl_mul by lia.
        assert (0x3BCC <= h / 2^48 < 0x3C01) by (split; [apply Z.div_le_lower_bound; lia|apply Z.div_lt_upper_bound; lia]).
        unfold u64. rewrite (Z.mod_small (h / 2^48 - 0x3802)) by lia. rewrite Z.mod_small by lia. lia. }
      destruct (fabsb_pos 52 11 sg ltac:(change (52 + 11) with 63; lia)) as [A1 A2].
      destruct (fabsb_pos 52 11 co ltac:(change (52 + 11) with 63; lia)) as [B1 B2].
      destruct (hmul_ok 52 11 eq_refl eq_refl eq_refl sg co) as (Q1 & Q2 & _); try (unfold fbits; lia);
        try (unfold ffinite; rewrite ?A1, ?B1; change (finf 52 11) with (0x7FF * 2^52); lia).
      rewrite A2, B2 in Q2. cbn [xorb] in Q2. unfold mul64. unfold fneg in Q2. unfold fbits in Q1. change (52 + 11) with 63 in *. lia. }
  rewrite lor_sign64 by exact M. destruct (with_sign_spec 52 11 eq_refl eq_refl (fneg 112 15 y) _ M) as (W1 & W2 & W3).
  split; [exact W3|exact W2].
Qed.

(** ** nexttoward *)
Lemma xlt_irr v : ~ xlt v v.
Proof. destruct v; cbn; try tauto. apply Rlt_irrefl. Qed.

Section Toward.
Set Default Proof Using "All".
Variables mw ew : Z.
Hypothesis Hmw : 0 < mw.
Hypothesis Hew0 : 0 < ew.
Hypothesis Hpe : mw + 1 < 2^(ew - 1).
Hypothesis Hew : 1 < ew.
Variable widen : Z -> res Z.
Variable narrow : Z -> Z.
Hypothesis widen_spec : forall x, fbits mw ew x -> fisnan mw ew x = false -> exists y, widen x = Ok y /\ same_value mw ew x 112 15 y.
Hypothesis narrow_sign : forall y, fbits 112 15 y -> fisnan 112 15 y = false ->
  fbits mw ew (narrow y) /\ fneg mw ew (narrow y) = fneg 112 15 y.
Hypothesis narrow_same : forall x y, fbits mw ew x -> fisnan mw ew x = false -> fbits 112 15 y -> fisnan 112 15 y = false ->
  xval 112 15 y = xval mw ew x -> fisnan mw ew (narrow y) = false /\ xval mw ew (narrow y) = xval mw ew x.
Hypothesis narrow_nan : forall y, fbits 112 15 y -> fisnan 112 15 y = true -> some_nan mw ew (narrow y).

Notation ford := (ford mw ew).
Notation fabsb := (fabsb mw ew).
Notation fneg := (fneg mw ew).
Notation finf := (finf mw ew).
Notation W := (mw + ew + 1).

(** the number after [x] upwards or downwards *)
Definition after (up : bool) (x r : Z) : Prop :=
  fbits mw ew r /\ fisnan mw ew r = false /\ ford r = if up then ford x + 1 else ford x - 1.

Lemma step_ok from (up : bool) : fbits mw ew from -> fisnan mw ew from = false -> ford from <> 0 ->
  (if up then ford from < finf else - finf < ford from) ->
  exists r, (do r <- chk W (if (0 <? ford from) && negb up || (ford from <? 0) && up then sgn W from - 1 else sgn W from + 1); Ok (r mod 2^W)) = Ok r /\
    after up from r.
Proof.
  intros Hf Nf Z0 HB. pose proof (finf_pos mw ew Hmw Hew) as FI. destruct (pW mw ew Hmw Hew) as (W1 & W2 & W3).
  pose proof (fabsb_range mw ew Hmw Hew from) as Rf. rewrite (sgn_pattern mw ew Hmw Hew) by assumption.
  set (a := fabsb from) in *. assert (Ra : a <= finf) by (unfold fisnan in Nf; fold a in Nf; lia).
  set (t := a - (if fneg from then 2^(mw+ew) else 0)).
  assert (D : exists a', (if (0 <? ford from) && negb up || (ford from <? 0) && up then t - 1 else t + 1) = a' - (if fneg from then 2^(mw+ew) else 0)
    /\ 0 <= a' <= finf /\ (if fneg from then - a' else a') = if up then ford from + 1 else ford from - 1).
  { unfold HW.ford in *. fold a in Z0, HB |- *. unfold t. destruct (fneg from), up; cbn [negb] in *.
    - exists (a - 1). replace (_ || _) with true by lia. lia.
    - exists (a + 1). replace (_ || _) with false by lia. lia.
    - exists (a + 1). replace (_ || _) with false by lia. lia.
    - exists (a - 1). replace (_ || _) with true by lia. lia. }
  destruct D as (a' & -> & Ra' & EF). unfold chk.
  replace (_ && _) with true by (destruct (fneg from); lia). cbn [bind]. eexists. split; [reflexivity|].
  rewrite (signed_pattern mw ew Hmw Hew) by lia.
  destruct (with_sign_spec mw ew Hmw Hew (fneg from) a' ltac:(lia)) as (S1 & S2 & S3).
  split; [exact S3|]. split; [unfold fisnan; rewrite S1; lia|]. unfold HW.ford at 1. rewrite S1, S2. exact EF.
Qed.

Lemma after_neighbour (up : bool) x y r : fbits mw ew x -> fisnan mw ew x = false -> after up x r ->
  (if up then xlt (xval mw ew x) (xval 112 15 y) else xlt (xval 112 15 y) (xval mw ew x)) ->
  neighbour_toward mw ew x y r.
Proof.
  intros Hx Nx (R1 & R2 & R3) L. pose proof (xlt_ford mw ew Hmw Hew0 Hpe Hew) as XF.
  assert (AS : forall u v, xlt u v -> ~ xlt v u).
  { intros [|u|] [|v|]; cbn; try tauto. lra. }
  unfold neighbour_toward. split; [split; assumption|]. split.
  - intros E. rewrite E in L. destruct up; destruct (xlt_irr _ L).
  - destruct up.
    + split; [|intros K; apply AS in K; tauto]. intros _. rewrite XF by assumption. split; [lia|]. intros z [Z1 Z2]. rewrite XF, XF by assumption. lia.
    + split; [intros K; apply AS in K; tauto|]. intros _. rewrite XF by assumption. split; [lia|]. intros z [Z1 Z2]. rewrite XF, XF by assumption. lia.
Qed.

(** nothing lies beyond the infinities *)
Lemma below_top x v : fbits mw ew x -> fisnan mw ew x = false -> (xlt (xval mw ew x) v -> ford x < finf) /\ (xlt v (xval mw ew x) -> - finf < ford x).
Proof.
  intros Hx Nx. pose proof (finf_pos mw ew Hmw Hew) as FI. pose proof (fabsb_range mw ew Hmw Hew x) as R.
  unfold fisnan in Nx. unfold xval, HW.ford, ffinite.
  destruct (Z.ltb_spec (fabsb x) finf) as [L|L]; destruct (fneg x); split; intros K; try lia; destruct v; cbn in K; contradiction.
Qed.

Lemma nexttoward_ok x y : fbits mw ew x -> fbits 112 15 y ->
  (fisnan mw ew x = false -> fisnan 112 15 y = false -> exists r, nexttoward_ mw ew widen narrow x y = Ok r /\ neighbour_toward mw ew x y r) /\
  (fisnan mw ew x = true \/ fisnan 112 15 y = true -> exists r, nexttoward_ mw ew widen narrow x y = Ok r /\ some_nan mw ew r).
Proof.
  intros Hx Hy. unfold nexttoward_. rewrite self128 by assumption. split.
  2: { intros H. destruct (fisnan 112 15 y) eqn:Ny; [eexists; split; [reflexivity|apply narrow_nan; assumption]|].
    destruct H as [H|H]; [|discriminate]. rewrite H. eexists. split; [reflexivity|]. split; assumption. }
  intros Nx Ny. rewrite Nx, Ny. destruct (widen_spec x Hx Nx) as (l & -> & L1 & L2 & L3 & L4'). rewrite Nx in L3. specialize (L4' Nx). cbn [bind].
  rewrite heq128 by assumption. unfold cmptf2, getf2. rewrite !cmptf2_ok by assumption. unfold heq, hlt. rewrite Nx, Ny, L3.
  pose proof (finf_pos mw ew Hmw Hew) as FI. destruct (pW mw ew Hmw Hew) as (W1 & W2 & W3).
  assert (F0 : fisnan mw ew 0 = false) by (unfold fisnan, FP.fabsb; rewrite Z.mod_0_l by lia; lia).
  assert (O0 : ford 0 = 0).
  { unfold HW.ford, FP.fneg, FP.fabsb. rewrite Z.mod_0_l by lia. destruct (_ <=? _); reflexivity. }
  rewrite F0, O0. cbn [negb andb orb].
  pose proof (L4 xlt_ford l y L1 Hy L3 Ny) as X1. pose proof (L4 xlt_ford y l Hy L1 Ny L3) as X2. rewrite L4' in X1, X2.
  destruct (Z.eqb_spec (HW.ford 112 15 l) (HW.ford 112 15 y)) as [EQ|NE].
  { eexists. split; [reflexivity|]. assert (V : xval 112 15 y = xval mw ew x).
    { rewrite <- L4'. apply (xeq_ford 112 15 eq_refl eq_refl y l Hy L1 Ny L3). lia. }
    destruct (narrow_same x y Hx Nx Hy Ny V) as [N1 N2]. destruct (narrow_sign y Hy Ny) as [N3 N4].
    unfold neighbour_toward. rewrite V. split; [split; assumption|]. split; [intros _; split; [exact N2|exact N4]|].
    split; intros K; destruct (xlt_irr _ K). }
  destruct (Z.eqb_spec (ford x) 0) as [Z0|Z0].
  { eexists. split; [reflexivity|]. destruct (copysign_spec mw ew Hmw Hew0 Hpe Hew 1 (narrow y)) as (S1 & S2 & S3 & _).
    destruct (narrow_sign y Hy Ny) as [N3 N4].
    assert (A1 : fabsb 1 = 1).
    { apply Z.mod_small. split; [lia|]. pose proof (Z.pow_lt_mono_r 2 0 (mw+ew)). lia. }
    assert (FB : 1 < finf).
    { unfold FP.finf. pose proof (pmw mw Hmw). assert (2^2 <= 2^ew) by (apply Z.pow_le_mono_r; lia). nia. }
    assert (NN : fisnan mw ew (copysign mw ew 1 (narrow y)) = false) by (rewrite (copysign_nan mw ew Hmw Hew0 Hpe Hew); unfold fisnan; lia).
    assert (OF : ford (copysign mw ew 1 (narrow y)) = if FP.fneg 112 15 y then -1 else 1).
    { unfold HW.ford. rewrite S2, S3, A1, N4. reflexivity. }
    assert (LZ : HW.ford 112 15 l = 0).
    { assert (V : xval mw ew x = xval 112 15 0).
      { unfold xval. change (ffinite 112 15 0) with true.
        assert (AX : fabsb x = 0) by (pose proof (fabsb_range mw ew Hmw Hew x); unfold HW.ford in Z0; destruct (fneg x); lia).
        unfold ffinite. rewrite AX. replace (0 <? finf) with true by lia. f_equal. unfold fval. rewrite AX.
        change (FP.fneg 112 15 0) with false. change (FP.fabsb 112 15 0) with 0. rewrite !fmag_0 by lia. destruct (fneg x); lra. }
      rewrite V in L4'. apply (L4 xval_ford) in L4'; try assumption; try reflexivity; try (unfold fbits; lia). }
    pose proof (fabsb_range 112 15 eq_refl eq_refl y) as Ry. rewrite LZ in X1, X2, NE.
    destruct (FP.fneg 112 15 y) eqn:SY.
    - apply (after_neighbour false); [assumption|assumption|split; [exact S1|split; [exact NN|lia]]|]. apply X2. unfold HW.ford in *. rewrite SY in *. lia.
    - apply (after_neighbour true); [assumption|assumption|split; [exact S1|split; [exact NN|lia]]|]. apply X1. unfold HW.ford in *. rewrite SY in *. lia. }
  destruct (below_top x (xval 112 15 y) Hx Nx) as [T1 T2].
  assert (up : exists up : bool, up = (HW.ford 112 15 l <? HW.ford 112 15 y)) by (eexists; reflexivity). destruct up as [up Eup].
  destruct (step_ok x up Hx Nx Z0) as (r & E & A).
  { destruct up; [apply T1, X1|apply T2, X2]; lia. }
  exists r. split.
  - rewrite <- E. replace (Z.sgn (HW.ford 112 15 y - HW.ford 112 15 l) <? 0) with (negb up) by (rewrite Eup; lia).
    replace (0 <? Z.sgn (HW.ford 112 15 y - HW.ford 112 15 l)) with up by (rewrite Eup; lia). reflexivity.
  - apply (after_neighbour up); try assumption. destruct up; [apply X1|apply X2]; lia.
Qed.
End Toward.

Lemma nexttoward64_ok x y : fbits 52 11 x -> fbits 112 15 y ->
  (fisnan 52 11 x = false -> fisnan 112 15 y = false -> exists r, nexttoward x y = Ok r /\ neighbour_toward 52 11 x y r) /\
  (fisnan 52 11 x = true \/ fisnan 112 15 y = true -> exists r, nexttoward x y = Ok r /\ some_nan 52 11 r).
Proof.
  apply (nexttoward_ok 52 11); try reflexivity.
  - intros z Hz _. apply extenddftf2_ok. exact Hz.
  - intros z Hz _. apply trunctfdf2_sign. exact Hz.
  - intros a b Ha Na Hb Nb V. destruct (narrow_exact a b Ha Na Hb Nb V) as (_ & A & _ & B). split; assumption.
  - intros z Hz Nz. apply trunctfdf2_ok; assumption.
Qed.

Lemma nexttoward32_ok x y : fbits 23 8 x -> fbits 112 15 y ->
  (fisnan 23 8 x = false -> fisnan 112 15 y = false -> exists r, nexttowardf x y = Ok r /\ neighbour_toward 23 8 x y r) /\
  (fisnan 23 8 x = true \/ fisnan 112 15 y = true -> exists r, nexttowardf x y = Ok r /\ some_nan 23 8 r).
Proof.
  pose proof (finf_pos 23 8 eq_refl eq_refl) as FI.
  apply (nexttoward_ok 23 8); try reflexivity.
  - intros z Hz Nz. eexists. split; [reflexivity|]. apply extendsftf2_ok; assumption.
  - intros z Hz Nz. destruct (trunctfsf2_ok z Hz) as (A & B & _). destruct (finite_or _ _ _ Nz) as [F|I].
    + destruct (A F) as (H1 & H2 & _). split; assumption.
    + rewrite (B I). destruct (with_sign_spec 23 8 eq_refl eq_refl (fneg 112 15 z) (finf 23 8) ltac:(lia)) as (W1 & W2 & W3). split; assumption.
  - intros a b Ha Na Hb Nb V. destruct (trunctfsf2_ok b Hb) as (A & B & _). unfold xval in V |- *. destruct (finite_or _ _ _ Nb) as [F|I].
    + rewrite F in V. destruct (ffinite 23 8 a) eqn:Fa; [|destruct (fneg 23 8 a); discriminate]. injection V as V.
      destruct (rounds_exact 23 8 eq_refl eq_refl eq_refl _ _ _ a (A F) Ha Fa (eq_sym V)) as (D1 & D2 & D3 & D4).
      split; [unfold fisnan, ffinite in *; lia|]. rewrite D2, D3, V. reflexivity.
    + rewrite (inf_not_finite _ _ _ I) in V. rewrite (B I).
      destruct (with_sign_spec 23 8 eq_refl eq_refl (fneg 112 15 b) (finf 23 8) ltac:(lia)) as (W1 & W2 & W3).
      split; [unfold fisnan; rewrite W1; lia|]. unfold ffinite at 1. rewrite W1, W2, Z.ltb_irrefl.
      destruct (ffinite 23 8 a); [destruct (fneg 112 15 b); discriminate|exact V].
  - intros z Hz Nz. apply trunctfsf2_ok; assumption.
Qed.

(** ** nearbyintl *)
Lemma nearbyintl_ok x d : fbits 112 15 x -> fisnan 112 15 x = false -> fbits 52 11 d -> fisnan 52 11 d = false -> xval 52 11 d = xval 112 15 x ->
  exists r, nearbyintl x = Ok r /\ rounded 112 15 ZnearestE x r.
Proof.
  intros Hx Nx Hd Nd V. destruct (narrow_exact d x Hd Nd Hx Nx (eq_sym V)) as (D1 & D2 & D3 & D4). unfold nearbyintl. set (c := trunctfdf2 x) in *.
  destruct (hround_ok 52 11 eq_refl eq_refl eq_refl eq_refl mode_NE c D1) as (R1 & _ & R3 & R4).
  change (hround 52 11 eq_refl eq_refl eq_refl mode_NE c) with (brint 52 11 eq_refl eq_refl eq_refl c) in *. set (q := brint 52 11 _ _ _ c) in *.
  destruct (extenddftf2_ok q R1) as (r & E & S1 & S2 & S3 & S4). exists r. split; [exact E|].
  pose proof (inf_not_finite c 52 11) as IC. unfold xval in D4, V.
  unfold rounded. split; [exact S1|]. destruct (finite_or _ _ _ D2) as [F|I].
  - rewrite F in D4. destruct (ffinite 52 11 d) eqn:Fd; [|destruct (fneg 52 11 d); discriminate]. injection D4 as D4.
    destruct (ffinite 112 15 x) eqn:Fx; [|destruct (fneg 112 15 x); discriminate]. injection V as V. split; [discriminate|]. intros _.
    destruct (R4 F) as (Q1 & Q2 & Q3). assert (NQ : fisnan 52 11 q = false) by (unfold fisnan, ffinite in *; lia).
    specialize (S4 NQ). unfold xval in S4. rewrite Q1 in S4. destruct (ffinite 112 15 r) eqn:Fr; [|destruct (fneg 112 15 r); discriminate].
    injection S4 as S4. split; [reflexivity|]. split; [rewrite S2, Q2, D3; reflexivity|]. rewrite S4, Q3, D4, V. reflexivity.
  - rewrite (IC I) in D4. destruct (ffinite 52 11 d) eqn:Fd; [destruct (fneg 52 11 c); discriminate|].
    destruct (ffinite 112 15 x) eqn:Fx; [destruct (fneg 52 11 d); discriminate|]. split; [|discriminate]. intros _.
    rewrite (R3 I) in *. rewrite D2 in S3. specialize (S4 D2). unfold xval in S4. rewrite (IC I) in S4.
    assert (Fr : ffinite 112 15 r = false) by (destruct (ffinite 112 15 r); [destruct (fneg 52 11 c); discriminate|reflexivity]).
    rewrite (pattern_split 112 15 eq_refl eq_refl r S1), (pattern_split 112 15 eq_refl eq_refl x Hx). rewrite S2, D3. f_equal.
    unfold ffinite, fisnan in *. lia.
Qed.
