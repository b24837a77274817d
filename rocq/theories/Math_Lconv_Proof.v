(** Instances at double and float: lround, llround, lrint, llrint and the float versions. *)
From Coq Require Import Reals Lra.
From Flocq Require Import Core BinarySingleNaN.
From Verif Require Import Base Bits FP FP_Proof HW HW_Proof FPInt FPOps Int128_Model Math_Model Math_Round_Proof Math_Int_Proof Math_Spec Math_Lround_Proof Math_Conv_Proof Rne.
Open Scope Z_scope.
Local Ltac Zify.zify_post_hook ::= idtac.

Lemma bounds_d32 : bounds 52 11 eq_refl eq_refl 32.
Proof. repeat split; vm_compute; congruence. Qed.
Lemma bounds_d64 : bounds 52 11 eq_refl eq_refl 64.
Proof. repeat split; vm_compute; congruence. Qed.
Lemma bounds_f32 : bounds 23 8 eq_refl eq_refl 32.
Proof. repeat split; vm_compute; congruence. Qed.
Lemma bounds_f64 : bounds 23 8 eq_refl eq_refl 64.
Proof. repeat split; vm_compute; congruence. Qed.

(** ** Conversions between float and double *)
Lemma repr_mono m m' n : 0 <= m <= m' -> repr m n -> repr m' n.
Proof.
  intros Hm (q & j & E & Hj & Hq). exists q, j. split; [exact E|]. split; [exact Hj|].
  transitivity (2^(m+1)); [exact Hq|]. apply Z.pow_le_mono_r; lia.
Qed.

Lemma float_scale n : (IZR n * bpow radix2 (emin 23 8) = IZR (n * 2^925) * bpow radix2 (emin 52 11))%R.
Proof.
  rewrite mult_IZR, <- bpow2 by lia. rewrite Rmult_assoc, <- bpow_plus. reflexivity.
Qed.

Lemma limit32 : limit 23 8 = 2^277.
Proof. vm_compute. reflexivity. Qed.
Lemma limit64 : limit 52 11 = 2^2098.
Proof. vm_compute. reflexivity. Qed.
Lemma unit64 : unit 52 11 = 2^1074.
Proof. reflexivity. Qed.
Lemma unit32 : unit 23 8 = 2^149.
Proof. reflexivity. Qed.

Lemma f2d_fin x : fbits 23 8 x -> ffinite 23 8 x = true ->
  fbits 52 11 (f2d x) /\ ffinite 52 11 (f2d x) = true /\ fneg 52 11 (f2d x) = fneg 23 8 x /\
  ival 52 11 (f2d x) = ival 23 8 x * 2^925.
Proof.
  intros Hx F. pose proof (hcvt_ok 23 8 52 11 eq_refl eq_refl eq_refl eq_refl eq_refl eq_refl x Hx F) as R. fold f2d in R.
  rewrite (fval_ival 23 8 eq_refl eq_refl), float_scale in R.
  apply (rounds_exact_int 52 11 eq_refl eq_refl eq_refl eq_refl) in R; [exact R| |].
  - apply repr_pow2; [reflexivity| |lia]. apply repr_mono with 23; [lia|]. apply (repr_ival 23 8 eq_refl eq_refl eq_refl eq_refl).
  - pose proof (proj1 (finite_limit 23 8 eq_refl eq_refl eq_refl eq_refl x Hx) F) as L. rewrite limit32 in L.
    rewrite limit64, Z.abs_mul, (Z.abs_eq (2^925)) by (pose proof (pow2_pos 925); lia).
    apply Z.lt_trans with (2^277 * 2^925); [apply Z.mul_lt_mono_pos_r; [reflexivity|exact L]|].
    rewrite <- Z.pow_add_r by lia. apply Z.pow_lt_mono_r; lia.
Qed.

Lemma fval_f2d x : fbits 23 8 x -> ffinite 23 8 x = true -> fval 52 11 (f2d x) = fval 23 8 x.
Proof.
  intros Hx F. destruct (f2d_fin x Hx F) as (_ & _ & _ & E).
  rewrite (fval_ival 23 8 eq_refl eq_refl), float_scale, (fval_ival 52 11 eq_refl eq_refl), E. reflexivity.
Qed.

Lemma d2f_round y : fbits 52 11 y -> ffinite 52 11 y = true -> rounds_to 23 8 (fval 52 11 y) (fneg 52 11 y) (d2f y).
Proof. intros Hy F. exact (hcvt_ok 52 11 23 8 eq_refl eq_refl eq_refl eq_refl eq_refl eq_refl y Hy F). Qed.

(** ** double *)
Notation D f := (f 52 11 eq_refl eq_refl eq_refl) (only parsing).
Notation D4 f := (f 52 11 eq_refl eq_refl eq_refl eq_refl) (only parsing).

(** the double below one half *)
Definition pred_half : Z := 0x3FDFFFFFFFFFFFFF.

Lemma saturate_hi w n : 0 < w -> 2^(w-1) <= n -> saturate w n = 2^(w-1) - 1.
Proof. intros Hw H. unfold saturate. pose proof (pow2_pos (w-1)). lia. Qed.
Lemma saturate_lo w n : 0 < w -> n <= - 2^(w-1) -> saturate w n = - 2^(w-1).
Proof. intros Hw H. unfold saturate. pose proof (pow2_pos (w-1)). lia. Qed.

Lemma lround_ok x : fbits 52 11 x -> ffinite 52 11 x = true -> fabsb 52 11 x <> pred_half ->
  lround x = Ok (saturate 32 (half_away (fval 52 11 x))).
Proof.
  intros Hx F Hne. unfold lround. set (y := add64 x _).
  destruct (Z.lt_ge_cases (imag 52 (fabsb 52 11 x)) (2^52 * unit 52 11)) as [L|L].
  - destruct (D4 add_half x ltac:(lia) Hx F Hne L) as (A & B & C & E).
    change (hadd 52 11 eq_refl eq_refl eq_refl) with add64 in A, B, C, E. fold y in A, B, C, E.
    rewrite (D4 clamp_ok 32 y bounds_d32 A B), E. reflexivity.
  - destruct (D4 half_pow) as (_ & HU & H0). destruct (D4 c_half_spec) as (H1 & H2 & H3 & H4).
    destruct (D4 copysign_spec (c_half 52 11) x) as (C1 & C2 & C3 & C4 & C5).
    rewrite (D4 imag_ival_pos _ H3) in C5. rewrite H2 in C4.
    pose proof (D4 hadd_int x _ Hx C1 F C4) as S. rewrite C3, C5, (D4 ival_abs) in S.
    change (hadd 52 11 eq_refl eq_refl eq_refl) with add64 in S. fold y in S.
    rewrite (D4 half_away_half). cbv zeta. clear - L HU H0 S Hx F.
    set (v := imag 52 (fabsb 52 11 x)) in *. set (h := ival 52 11 (c_half 52 11)) in *.
    assert (RV : repr 52 v) by (apply repr_imag; [reflexivity|]; pose proof (fabsb_range 52 11 eq_refl eq_refl x); lia).
    assert (By : fbits 52 11 y) by apply S.
    assert (Z.shiftl 1 52 <= v / unit 52 11) as Q.
    { apply Z.div_le_lower_bound; [lia|]. rewrite Z.mul_comm. exact L. }
    assert (Q2 : v / unit 52 11 <= (v + h) / unit 52 11) by (apply Z.div_le_mono; lia).
    change (Z.shiftl 1 52) with (2^52) in Q.
    assert (2^31 < 2^52) as P31 by reflexivity. clearbody v h.
    destruct (ffinite 52 11 y) eqn:Fy.
    + rewrite (D4 clamp_ok 32 y bounds_d32 By Fy). rewrite (Ztrunc_fval 52 11 eq_refl eq_refl). f_equal.
      destruct (fneg 52 11 x).
      * destruct (D4 rounds_ge _ _ _ (- v) S ltac:(apply repr_opp; [reflexivity|exact RV]) Fy) as [_ G].
        specialize (G ltac:(lia)).
        rewrite !saturate_lo; [reflexivity|reflexivity|change (32-1) with 31; lia|reflexivity|].
        change (32 - 1) with 31. replace (ival 52 11 y) with (- (- ival 52 11 y)) by lia.
        rewrite Z.quot_opp_l, Z.quot_div_nonneg by lia.
        assert (v / unit 52 11 <= - ival 52 11 y / unit 52 11) by (apply Z.div_le_mono; lia). lia.
      * destruct (D4 rounds_ge _ _ _ v S RV Fy) as [G _]. specialize (G ltac:(lia)).
        rewrite !saturate_hi; [reflexivity|reflexivity|change (32-1) with 31; lia|reflexivity|].
        change (32 - 1) with 31. rewrite Z.quot_div_nonneg by lia.
        assert (v / unit 52 11 <= ival 52 11 y / unit 52 11) by (apply Z.div_le_mono; lia). lia.
    + destruct S as (_ & S2 & S3 & S4).
      assert (I : fabsb 52 11 y = finf 52 11).
      { apply S4. apply Rnot_lt_le. intros K. destruct (S3 K). congruence. }
      rewrite (D4 clamp_inf 32 y bounds_d32 By ltac:(unfold fisinf; rewrite I; reflexivity)). f_equal.
      rewrite S2. destruct (fneg 52 11 x).
      * rewrite saturate_lo; [|reflexivity|change (32-1) with 31; lia].
        unfold zsign. destruct (Z.compare_spec (- v + - h) 0); [lia|reflexivity|lia].
      * rewrite saturate_hi; [|reflexivity|change (32-1) with 31; lia].
        unfold zsign. destruct (Z.compare_spec (v + h) 0); [lia|lia|reflexivity].
Qed.

Lemma llround_ok x : fbits 52 11 x -> ffinite 52 11 x = true ->
  llround x = Ok (saturate 64 (half_away (fval 52 11 x))).
Proof.
  intros Hx F. unfold llround. destruct (D4 round_ok x Hx F) as (A & _ & B). destruct (B F) as (B1 & B2 & B3).
  rewrite (D4 clamp_ok 64 _ bounds_d64 A B1), B3, Ztrunc_IZR. reflexivity.
Qed.

(** ** float, through double *)
Lemma add_half_float x : fbits 23 8 x -> ffinite 23 8 x = true ->
  let y := add64 (f2d x) (copysign 52 11 (c_half 52 11) (f2d x)) in
  fbits 52 11 y /\ ffinite 52 11 y = true /\ fneg 52 11 y = fneg 23 8 x /\ Ztrunc (fval 52 11 y) = half_away (fval 23 8 x).
Proof.
  intros Hx F. cbv zeta. destruct (f2d_fin x Hx F) as (A & B & C & E). rewrite <- (fval_f2d x Hx F), <- C.
  assert (EI : exists q j, imag 52 (fabsb 52 11 (f2d x)) = q * 2^j /\ 0 <= j /\ 0 <= q < 2^24).
  { destruct (imag_unpack 23 eq_refl (fabsb 23 8 x)) as (j & q & Hj & Hq & HL & Ek & Ev).
    { pose proof (fabsb_range 23 8 eq_refl eq_refl x). lia. }
    exists q, (j + 925). split; [|split; [lia|exact Hq]].
    rewrite Z.pow_add_r, Z.mul_assoc, <- Ev by lia. unfold ival in E. rewrite C in E.
    clear - E. destruct (fneg 23 8 x); lia. }
  destruct EI as (q & j & EV & Hj & Hq).
  set (z := f2d x) in *. clearbody z. clear x Hx F C E.
  set (v := imag 52 (fabsb 52 11 z)) in *. pose proof (pow2_pos j Hj) as Pj.
  destruct (Z.lt_ge_cases v (2^52 * unit 52 11)) as [L|L].
  - apply (D4 add_half); try assumption; [lia|].
    intros K. assert (K2 : v = (2^53 - 1) * 2^1020) by (unfold v; rewrite K; vm_compute; reflexivity).
    rewrite EV in K2.
    assert (1021 <= j).
    { apply Z.lt_pred_le. apply Z.pow_lt_mono_r_iff with 2; [lia|lia|]. apply Z.mul_lt_mono_pos_l with (2^24); [reflexivity|].
      apply Z.lt_le_trans with ((2^53-1) * 2^1020); [vm_compute; reflexivity|]. rewrite <- K2. apply Z.mul_le_mono_nonneg_r; lia. }
    replace (2^j) with (2^(j-1021) * 2 * 2^1020) in K2.
    + rewrite Z.mul_assoc in K2. apply Z.mul_cancel_r in K2; [|discriminate]. clear - K2.
      assert (Z.odd (q * (2^(j - 1021) * 2)) = Z.odd (2^53 - 1)) as O by (rewrite K2; reflexivity).
      rewrite !Z.odd_mul, !andb_false_r in O. discriminate.
    + rewrite Z.mul_comm, Z.mul_assoc. replace (2^1020 * 2^(j - 1021) * 2) with (2^1020 * (2^(j-1021) * 2^1)) by (change (2^1) with 2; ring).
      rewrite <- !Z.pow_add_r by lia. f_equal. lia.
  - destruct (imag_unpack 52 eq_refl (fabsb 52 11 z)) as (j' & q' & Hj' & Hq' & HL & Ek & Ev).
    { pose proof (fabsb_range 52 11 eq_refl eq_refl z). lia. }
    fold v in Ev. rewrite unit64 in L. pose proof (pow2_pos j' Hj') as Pj'.
    assert (J' : 1073 < j').
    { apply Z.pow_lt_mono_r_iff with 2; [lia|lia|]. apply Z.mul_lt_mono_pos_l with (2^53); [reflexivity|].
      apply Z.le_lt_trans with v; [|rewrite Ev; apply Z.mul_lt_mono_pos_r; [exact Pj'|apply Hq']].
      etransitivity; [|exact L]. apply Z.eq_le_incl. vm_compute. reflexivity. }
    assert (Q' : 2^52 <= q') by (destruct HL as [HL|HL]; [lia|exact HL]).
    assert (J2 : j' < j).
    { apply Z.pow_lt_mono_r_iff with 2; [lia|lia|]. apply Z.mul_lt_mono_pos_l with (2^24); [reflexivity|].
      apply Z.le_lt_trans with (2^52 * 2^j').
      - apply Z.mul_le_mono_nonneg_r; [lia|]. discriminate.
      - apply Z.le_lt_trans with v; [rewrite Ev; apply Z.mul_le_mono_nonneg_r; lia|].
        rewrite EV. apply Z.mul_lt_mono_pos_r; lia. }
    assert (O : Z.even q' = true).
    { assert (q' = q * 2^(j - j' - 1) * 2) as ->.
      - apply Z.mul_cancel_r with (2^j'); [lia|]. rewrite <- Ev, EV.
        replace (q * 2^(j - j' - 1) * 2 * 2^j') with (q * (2^(j - j' - 1) * 2^1 * 2^j')) by (change (2^1) with 2; ring).
        rewrite <- !Z.pow_add_r by lia. do 2 f_equal. lia.
      - rewrite Z.even_mul, orb_true_r. reflexivity. }
    destruct (D4 add_half_big z q' j' A B Ev (conj Q' (proj2 Hq')) O ltac:(change (2^(11-1) - 1 + 52 - 1) with 1074; lia)) as (R1 & R2 & R3 & R4).
    change (hadd 52 11 eq_refl eq_refl eq_refl) with add64 in R1, R2, R3, R4.
    split; [exact R1|]. split; [exact R2|]. split; [exact R3|].
    rewrite (D4 half_away_half), (Ztrunc_fval 52 11 eq_refl eq_refl), R4. cbv zeta. fold v.
    destruct (D4 half_pow) as (_ & HU & H0). rewrite (D4 ival_abs). fold v.
    assert (DV : exists m, v = m * unit 52 11).
    { exists (q' * 2^(j' - 1074)). rewrite unit64, <- Z.mul_assoc, <- Z.pow_add_r by lia. rewrite Ev. do 2 f_equal. lia. }
    destruct DV as (m & Em). assert ((v + ival 52 11 (c_half 52 11)) / unit 52 11 = m) as ->.
    { symmetry. apply Z.div_unique with (ival 52 11 (c_half 52 11)); lia. }
    destruct (fneg 52 11 z); rewrite Em; [rewrite <- Z.mul_opp_l|]; apply Z.quot_mul; lia.
Qed.

Lemma lroundf_ok w x : bounds 52 11 eq_refl eq_refl w -> fbits 23 8 x -> ffinite 23 8 x = true ->
  lroundf w x = Ok (saturate w (half_away (fval 23 8 x))).
Proof.
  intros Hb Hx F. unfold lroundf. destruct (add_half_float x Hx F) as (A & B & C & E).
  rewrite (D4 clamp_ok w _ Hb A B), E. reflexivity.
Qed.

Lemma half_away_int n : half_away (IZR n) = n.
Proof.
  unfold half_away. destruct (Rle_dec 0 (IZR n)).
  - apply Zfloor_imp. rewrite plus_IZR. lra.
  - apply Zceil_imp. rewrite minus_IZR. lra.
Qed.

Lemma roundf_ok x : fbits 23 8 x -> ffinite 23 8 x = true ->
  rounds_int 23 8 half_away x (roundf x).
Proof.
  intros Hx F. unfold roundf. destruct (add_half_float x Hx F) as (A & B & C & E).
  set (y := add64 _ _) in *. clearbody y.
  destruct (D4 hround_ok mode_ZR y A) as (H1 & _ & _ & H2). destruct (H2 B) as (H3 & H4 & H5).
  fold (btrunc 52 11 eq_refl eq_refl eq_refl y) in H1, H3, H4, H5. set (z := btrunc _ _ _ _ _ y) in *. clearbody z.
  cbn [round_mode] in H5. rewrite E in H5. pose proof (d2f_round z H1 H3) as R. rewrite H5, H4, C in R.
  set (n := half_away (fval 23 8 x)) in *.
  assert (RN : repr 23 (n * unit 23 8) /\ Z.abs (n * unit 23 8) < limit 23 8).
  { pose proof (proj1 (finite_limit 23 8 eq_refl eq_refl eq_refl eq_refl x Hx) F) as L.
    destruct (half_pow 23 8 eq_refl eq_refl eq_refl eq_refl) as (_ & HU & H0).
    destruct (Z.lt_ge_cases (imag 23 (fabsb 23 8 x)) (2^23 * unit 23 8)) as [K|K].
    - assert (Z.abs n <= 2^23).
      { unfold n. rewrite (half_away_half 23 8 eq_refl eq_refl eq_refl eq_refl). cbv zeta.
        pose proof (imag_nonneg 23 8 eq_refl eq_refl (fabsb 23 8 x) ltac:(pose proof (fabsb_range 23 8 eq_refl eq_refl x); lia)) as I.
        set (v := imag 23 (fabsb 23 8 x)) in *. set (h := ival 23 8 (c_half 23 8)) in *.
        assert (0 <= (v + h) / unit 23 8) by (apply Z.div_pos; lia).
        assert ((v + h) / unit 23 8 < 2^23 + 1) by (apply Z.div_lt_upper_bound; lia).
        destruct (fneg 23 8 x); lia. }
      split.
      + rewrite unit32. apply repr_pow2; [reflexivity| |lia]. apply repr_small; [reflexivity|]. lia.
      + rewrite limit32, unit32, Z.abs_mul, (Z.abs_eq (2^149)) by discriminate.
        apply Z.le_lt_trans with (2^23 * 2^149); [apply Z.mul_le_mono_nonneg_r; [discriminate|assumption]|reflexivity].
    - assert (EX : n * unit 23 8 = ival 23 8 x).
      { assert (M : exists m, imag 23 (fabsb 23 8 x) = m * unit 23 8).
        { apply (big_mag 23 8 eq_refl eq_refl eq_refl eq_refl); [pose proof (fabsb_range 23 8 eq_refl eq_refl x); lia|].
          apply (imag_le 23 8 eq_refl eq_refl); [vm_compute; discriminate|pose proof (fabsb_range 23 8 eq_refl eq_refl x); lia|].
          etransitivity; [|exact K]. vm_compute. discriminate. }
        destruct M as (m & M). assert (V : fval 23 8 x = IZR (if fneg 23 8 x then - m else m)).
        { apply fval_IZR; [reflexivity|reflexivity|]. rewrite (ival_abs 23 8 eq_refl eq_refl eq_refl eq_refl), M. destruct (fneg 23 8 x); ring. }
        unfold n. rewrite V, half_away_int. symmetry. apply fval_IZR; [reflexivity|reflexivity|exact V]. }
      rewrite EX. split; [apply (repr_ival 23 8 eq_refl eq_refl eq_refl eq_refl)|exact L]. }
  destruct RN as [RN1 RN2].
  assert (EZ : IZR n = (IZR (n * unit 23 8) * bpow radix2 (emin 23 8))%R).
  { rewrite unit32, mult_IZR, <- bpow2 by lia. rewrite Rmult_assoc, <- bpow_plus. change (149 + emin 23 8) with 0. cbn [bpow]. ring. }
  rewrite EZ in R.
  destruct (rounds_exact_int 23 8 eq_refl eq_refl eq_refl eq_refl _ _ _ R RN1 RN2) as (Q1 & Q2 & Q3 & Q4).
  split; [exact Q1|]. split; [congruence|]. intros _. split; [exact Q2|]. split; [exact Q3|].
  apply fval_IZR; [reflexivity|reflexivity|exact Q4].
Qed.
