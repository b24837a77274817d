(** Conversions to integers: lrint, lround and their variants; roundf. *)
From Coq Require Import Reals Lra.
From Flocq Require Import Core BinarySingleNaN.
From Verif Require Import Base Bits FP FP_Proof HW HW_Proof FPInt FPOps Int128_Model Math_Model Math_Round_Proof Math_Int_Proof Math_Spec Math_Lround_Proof Rne.
Open Scope Z_scope.
Local Ltac Zify.zify_post_hook ::= idtac.

Lemma half_grid P q g c : 0 < P -> 1 <= g <= P -> P <= q < 2 * P -> (g <> 1 -> exists g', g = 2 * g') -> 2 * P = c * (2 * g) ->
  exists hi, q + g <= hi /\ hi / (2 * g) = (q + g) / (2 * g) /\ 0 <= (q + g) / (2 * g) <= 2 * P /\
    (Z.abs hi <= 2 * P \/ exists h, hi = 2 * h /\ Z.abs h <= 2 * P) /\ hi <= 4 * P.
Proof.
  intros HP Hg Hq HE Hc.
  assert (M : 0 <= (q + g) / (2 * g) <= 2 * P).
  { split; [apply Z.div_pos; lia|]. assert ((q + g) / (2 * g) < 2 * P + 1); [|lia]. apply Z.div_lt_upper_bound; nia. }
  destruct (Z.le_gt_cases (q + g) (2 * P)) as [C|C].
  { exists (q + g). repeat split; try lia. }
  assert (G1 : g <> 1) by lia. destruct (HE G1) as (g' & Eg).
  exists (2 * P + g). split; [lia|]. split.
  { transitivity c; [symmetry|]; [apply Z.div_unique with g|apply Z.div_unique with (q + g - 2 * P)]; lia. }
  split; [exact M|]. split; [|lia]. right. exists (P + g'). lia.
Qed.

Section Format.
Set Default Proof Using "All".
Variables mw ew : Z.
Hypothesis Hmw : 0 < mw.
Hypothesis Hew0 : 0 < ew.
Hypothesis Hpe : mw + 1 < 2^(ew - 1).
Hypothesis Hew : 1 < ew.

Notation emin := (emin mw ew).
Notation fval := (fval mw ew).
Notation fabsb := (fabsb mw ew).
Notation fneg := (fneg mw ew).
Notation fbits := (fbits mw ew).
Notation ffinite := (ffinite mw ew).
Notation with_sign := (with_sign mw ew).
Notation imag := (imag mw).
Notation ival := (ival mw ew).
Notation unit := (unit mw ew).
Notation finf := (finf mw ew).
Notation limit := (limit mw ew).
Notation repr := (repr mw).
Notation W := (mw + ew + 1).
Notation bias := (2^(ew - 1) - 1).
Notation hofZ := (hofZ mw ew Hmw Hpe).
Notation hadd := (hadd mw ew Hmw Hew0 Hpe).
Notation hsub := (hsub mw ew Hmw Hew0 Hpe).
Notation clamp := (clamp mw ew Hmw Hew0 Hpe).
Notation copysign := (copysign mw ew).
Notation G f := (f mw ew Hmw Hew0 Hpe Hew) (only parsing).

(** The bounds as converted to the floating type. *)
Definition bounds (w : Z) : Prop :=
  0 < w /\
  (fbits (hofZ (2^(w-1) - 1)) /\ ffinite (hofZ (2^(w-1) - 1)) = true /\ (2^(w-1) - 1) * unit <= ival (hofZ (2^(w-1) - 1)) <= 2^(w-1) * unit) /\
  (fbits (hofZ (- 2^(w-1))) /\ ffinite (hofZ (- 2^(w-1))) = true /\ ival (hofZ (- 2^(w-1))) = - 2^(w-1) * unit).

Lemma clamp_ok w y : bounds w -> fbits y -> ffinite y = true ->
  clamp w y = Ok (saturate w (Ztrunc (fval y))).
Proof.
  intros (Hw & (B1 & B2 & B3) & (C1 & C2 & C3)) Hy Fy. unfold Math_Model.clamp.
  rewrite (hle_int mw ew Hmw Hew0 Hpe Hew _ _ B1 Hy B2 Fy), (hlt_int mw ew Hmw Hew0 Hpe Hew _ _ C1 Hy C2 Fy), C3.
  rewrite (htrunc_ok mw ew Hmw Hew0 Hpe y Hy Fy), (Ztrunc_fval mw ew Hmw Hew).
  pose proof (unit_pos mw ew Hmw Hew) as U. assert (PM : 1 <= 2^(w-1)) by (pose proof (pow2_pos (w-1)); lia).
  set (M := 2^(w-1)) in *. set (v := ival y) in *.
  assert (QL : forall n, n * unit <= v -> 0 <= n -> n <= Z.quot v unit).
  { intros n H H0. rewrite Z.quot_div_nonneg by nia. apply Z.div_le_lower_bound; lia. }
  assert (QU : forall n, v < n * unit -> 0 < n -> Z.quot v unit < n).
  { intros n H H0. destruct (Z.le_gt_cases 0 v).
    - rewrite Z.quot_div_nonneg by lia. apply Z.div_lt_upper_bound; lia.
    - replace v with (- (- v)) by lia. rewrite Z.quot_opp_l, Z.quot_div_nonneg by lia.
      pose proof (Z.div_pos (- v) unit). lia. }
  unfold saturate. fold M.
  destruct (Z.leb_spec (ival (hofZ (M - 1))) v) as [L|L].
  { specialize (QL (M - 1) ltac:(lia) ltac:(lia)). f_equal. lia. }
  specialize (QU M ltac:(lia) ltac:(lia)).
  destruct (Z.ltb_spec (- M * unit) v) as [K|K].
  - assert (- M <= Z.quot v unit).
    { destruct (Z.le_gt_cases 0 v); [pose proof (Z.quot_pos v unit); lia|].
      replace v with (- (- v)) by lia. rewrite Z.quot_opp_l, Z.quot_div_nonneg by lia.
      assert (- v / unit <= M); [|lia]. assert (- v / unit < M + 1); [|lia]. apply Z.div_lt_upper_bound; lia. }
    unfold to_signed. fold M. replace ((- M <=? Z.quot v unit) && (Z.quot v unit <? M)) with true by lia. f_equal. lia.
  - assert (Z.quot v unit <= - M); [|f_equal; lia].
    replace v with (- (- v)) by lia. rewrite Z.quot_opp_l, Z.quot_div_nonneg by lia.
    assert (M <= - v / unit); [|lia]. apply Z.div_le_lower_bound; lia.
Qed.

Lemma fcases x : fbits x -> ffinite x = true \/ fisinf mw ew x = true \/ fisnan mw ew x = true.
Proof. intros _. unfold FP.ffinite, fisinf, fisnan. lia. Qed.

Lemma clamp_inf w y : bounds w -> fbits y -> fisinf mw ew y = true ->
  clamp w y = Ok (if fneg y then - 2^(w-1) else 2^(w-1) - 1).
Proof.
  intros (Hw & (B1 & B2 & B3) & (C1 & C2 & C3)) Hy Iy. unfold Math_Model.clamp, hle, hlt.
  unfold fisinf, FP.ffinite, fisnan, ford in *.
  pose proof (finf_pos mw ew Hmw Hew). pose proof (fabsb_range mw ew Hmw Hew (hofZ (2^(w-1) - 1))).
  pose proof (fabsb_range mw ew Hmw Hew (hofZ (- 2^(w-1)))).
  replace (fabsb y) with finf by lia.
  replace (finf <? finf) with false by lia.
  replace (finf <? fabsb (hofZ (2^(w-1) - 1))) with false by lia.
  replace (finf <? fabsb (hofZ (- 2^(w-1)))) with false by lia. cbn [negb andb].
  destruct (fneg y).
  - replace ((if fneg (hofZ (2^(w-1) - 1)) then - fabsb (hofZ (2^(w-1) - 1)) else fabsb (hofZ (2^(w-1) - 1))) <=? - finf) with false by (destruct (fneg _); lia).
    replace ((if fneg (hofZ (- 2^(w-1))) then - fabsb (hofZ (- 2^(w-1))) else fabsb (hofZ (- 2^(w-1)))) <? - finf) with false by (destruct (fneg _); lia).
    reflexivity.
  - replace ((if fneg (hofZ (2^(w-1) - 1)) then - fabsb (hofZ (2^(w-1) - 1)) else fabsb (hofZ (2^(w-1) - 1))) <=? finf) with true by (destruct (fneg _); lia).
    reflexivity.
Qed.

Lemma clamp_nan w y : fisnan mw ew y = true -> clamp w y = Ok (- 2^(w-1)).
Proof. intros Ny. unfold Math_Model.clamp, hle, hlt. rewrite Ny. cbn [negb]. rewrite !andb_false_r. reflexivity. Qed.

Lemma lrint_ok w x : bounds w -> fbits x ->
  lrint mw ew Hmw Hew0 Hpe w x = Ok (if ffinite x then saturate w (ZnearestE (fval x))
                                     else if fisnan mw ew x || fneg x then - 2^(w-1) else 2^(w-1) - 1).
Proof.
  intros Hb Hx. unfold lrint, brint.
  destruct (hround_ok mw ew Hmw Hew0 Hpe Hew mode_NE x Hx) as (A & B & C & D).
  destruct (fcases x Hx) as [F|[F|F]].
  - rewrite F. destruct (D F) as (D1 & D2 & D3). rewrite clamp_ok by assumption. rewrite D3, Ztrunc_IZR. reflexivity.
  - rewrite (C F). rewrite clamp_inf by assumption.
    replace (ffinite x) with false by (unfold FP.ffinite, fisinf in *; lia).
    replace (fisnan mw ew x) with false by (unfold fisnan, fisinf in *; lia). reflexivity.
  - rewrite (clamp_nan w _ (B F)). replace (ffinite x) with false by (unfold FP.ffinite, fisnan in *; lia).
    rewrite F. reflexivity.
Qed.

(** ** Adding one half *)
Notation half := (ival (c_half mw ew)).

Lemma half_pow : half = 2^(bias + mw - 2) /\ unit = 2 * half /\ 0 < half.
Proof.
  destruct (c_half_spec mw ew Hmw Hew0 Hpe Hew) as (_ & _ & _ & E). pose proof (unit_pos mw ew Hmw Hew).
  split; [|lia]. rewrite (unit_eq mw ew Hmw Hew0 Hpe Hew) in E.
  replace (bias + mw - 1) with (Z.succ (bias + mw - 2)) in E by lia. rewrite Z.pow_succ_r in E by lia. lia.
Qed.

Lemma half_bounds k : 3 <= bias -> 0 <= k -> k <> c_half mw ew - 1 -> let v := imag k in
  v < 2^mw * unit ->
  exists lo hi, repr lo /\ repr hi /\ 0 <= lo <= v + half /\ v + half <= hi /\ hi < limit /\
    lo / unit = (v + half) / unit /\ hi / unit = (v + half) / unit.
Proof.
  intros Hbias Hk Hne v HV. destruct half_pow as (HP & HU & H0). pose proof (pmw mw Hmw) as P. pose proof (pmw1 mw Hmw) as P1.
  assert (v0 : 0 <= v) by (apply (imag_nonneg mw ew Hmw Hew); exact Hk).
  assert (PE : 2^(bias - 3) > 0) by (pose proof (pow2_pos (bias-3)); lia).
  assert (EH : half = 2^(mw + 1) * 2^(bias - 3)) by (rewrite HP, <- Z.pow_add_r by lia; f_equal; lia).
  assert (P2 : 2 <= 2^mw) by (change 2 with (2^1) at 1; apply Z.pow_le_mono_r; lia).
  assert (LIM : forall z, z <= 2^(mw+1) * unit -> z < limit).
  { intros z Hz. pose proof (limit_unit mw ew Hmw Hew0 Hpe Hew (2^(mw+1))). lia. }
  assert (KH : imag (c_half mw ew) = half).
  { destruct (c_half_spec mw ew Hmw Hew0 Hpe Hew) as (A & B & C & D). unfold FPInt.ival. rewrite C.
    f_equal. rewrite (pattern_split mw ew Hmw Hew _ A) at 1. rewrite C. unfold FP.with_sign. lia. }
  destruct (Z.lt_ge_cases v half) as [L|L].
  - (* below one half: the sum stays below 1 *)
    assert (Hk2 : k <= c_half mw ew - 2).
    { assert (k < c_half mw ew); [|lia]. apply (imag_lt mw ew Hmw Hew k (c_half mw ew)); try lia.
      unfold c_half. rewrite shiftl_mul by lia. nia. }
    assert (V2 : v <= (2^(mw+1) - 2) * 2^(bias - 3)).
    { rewrite <- (imag_pack mw Hmw (bias - 3) (2^(mw+1) - 2)) by lia. unfold c_half in Hk2. rewrite shiftl_mul in Hk2 by lia.
      apply (imag_le mw ew Hmw Hew k); nia. }
    exists half, ((2^(mw+1) - 1) * 2^(bias - 2)).
    assert (E2 : 2^(bias - 2) = 2 * 2^(bias - 3)) by (rewrite <- Z.pow_succ_r by lia; f_equal; lia).
    split; [apply (repr_ival mw ew Hmw Hew0 Hpe Hew)|]. split; [exists (2^(mw+1) - 1), (bias - 2); repeat split; lia|].
    split; [lia|]. split; [nia|]. split; [apply LIM; nia|].
    rewrite !Z.div_small by nia. split; reflexivity.
  - destruct (imag_unpack mw Hmw k Hk) as (j & q & Hj & Hq & HL & Ek & Ev). fold v in Ev.
    assert (Hq2 : 2^mw <= q).
    { destruct HL as [-> |HL]; [|exact HL]. rewrite Z.pow_0_r, Z.mul_1_r in Ev. assert (2^(mw+1) * 1 <= half); [rewrite EH; apply Z.mul_le_mono_nonneg_l; lia|lia]. }
    pose proof (pow2_pos j Hj) as Pj.
    assert (Ebias : half = 2^(bias + mw - 2)) by exact HP.
    assert (J1 : bias + mw - 2 < mw + 1 + j).
    { apply Z.pow_lt_mono_r_iff with 2; [lia|lia|]. rewrite <- HP. rewrite (Z.pow_add_r 2 (mw+1) j) by lia. nia. }
    assert (J2 : j < bias + mw - 1).
    { apply Z.pow_lt_mono_r_iff with 2; [lia|lia|]. rewrite <- (unit_eq mw ew Hmw Hew0 Hpe Hew).
      apply Z.mul_lt_mono_pos_l with (2^mw); nia. }
    (* the grid: unit = d * 2^j *)
    set (d := 2^(bias + mw - 1 - j)). assert (Ed : unit = d * 2^j).
    { unfold d. rewrite (unit_eq mw ew Hmw Hew0 Hpe Hew), <- Z.pow_add_r by lia. f_equal. lia. }
    set (g := 2^(bias + mw - 2 - j)). assert (Eg : half = g * 2^j).
    { unfold g. rewrite HP, <- Z.pow_add_r by lia. f_equal. lia. }
    assert (g0 : 1 <= g) by (pose proof (pow2_pos (bias + mw - 2 - j)); unfold g; lia).
    assert (Edg : d = 2 * g) by (unfold d, g; rewrite <- Z.pow_succ_r by lia; f_equal; lia).
    assert (GB : g <= 2^mw).
    { unfold g. apply Z.pow_le_mono_r; lia. }
    assert (GE : g <> 1 -> exists g', g = 2 * g').
    { intros G1. exists (2^(bias + mw - 3 - j)). unfold g. rewrite <- Z.pow_succ_r.
      - f_equal. lia.
      - assert (bias + mw - 2 - j <> 0); [|lia]. intros K. apply G1. unfold g. rewrite K. reflexivity. }
    assert (DD : exists c, 2^(mw+1) = c * d).
    { exists (2^(mw + 1 - (bias + mw - 1 - j))). unfold d. rewrite <- Z.pow_add_r by lia. f_equal. lia. }
    destruct DD as (c & Ec). rewrite Edg, P1 in Ec. rewrite P1 in Hq.
    destruct (half_grid (2^mw) q g c P (conj g0 GB) (conj Hq2 (proj2 Hq)) GE Ec) as (hi & H1 & H2 & H3 & H4 & H5).
    rewrite <- Edg in H2, H3. clearbody d g. clear J1 J2 HP Ebias EH PE Hbias GE Ec c P2 g0 GB Hq Hq2 HL Ek Hne Hk KH.
    assert (d0 : 0 < d) by (apply Z.mul_pos_cancel_r with (2^j); [lia|]; rewrite <- Ed; lia).
    assert (ES : v + half = (q + g) * 2^j) by (rewrite Ev, Eg; ring).
    assert (Em : (v + half) / unit = (q + g) / d) by (rewrite ES, Ed; apply Z.div_mul_cancel_r; lia).
    exists ((q + g) / d * unit), (hi * 2^j).
    split.
    { unfold FPInt.unit. apply repr_pow2; [exact Hmw| |pose proof (emin_neg mw ew Hmw Hew); lia]. apply repr_small; [exact Hmw|]. rewrite P1. lia. }
    split.
    { destruct H4 as [H4|(h & E & H4)].
      - apply repr_pow2; [exact Hmw| |exact Hj]. apply repr_small; [exact Hmw|]. rewrite P1. lia.
      - rewrite E. replace (2 * h * 2^j) with (h * 2^(j + 1)) by (rewrite Z.pow_add_r by lia; change (2^1) with 2; ring).
        apply repr_pow2; [exact Hmw| |lia]. apply repr_small; [exact Hmw|]. rewrite P1. lia. }
    split; [split; [apply Z.mul_nonneg_nonneg; lia|]|].
    { rewrite ES, Ed, Z.mul_assoc. apply Z.mul_le_mono_nonneg_r; [lia|].
      rewrite Z.mul_comm. apply Z.mul_div_le. exact d0. }
    split; [rewrite ES; apply Z.mul_le_mono_nonneg_r; lia|].
    split; [apply LIM; rewrite P1, Ed|].
    { transitivity (4 * 2^mw * 2^j); [apply Z.mul_le_mono_nonneg_r; lia|].
      replace (4 * 2^mw * 2^j) with (2 * (2 * 2^mw * 2^j)) by ring. replace (2 * 2^mw * (d * 2^j)) with (d * (2 * 2^mw * 2^j)) by ring.
      apply Z.mul_le_mono_nonneg_r; [|lia]. apply Z.mul_nonneg_nonneg; lia. }
    rewrite Em. split; [apply Z.div_mul; lia|]. rewrite Ed, Z.div_mul_cancel_r by lia. exact H2.
Qed.

Lemma half_away_half x : half_away (fval x) =
  let n := (imag (fabsb x) + half) / unit in if fneg x then - n else n.
Proof.
  rewrite (half_away_fval mw ew Hmw Hew0 Hpe Hew). cbv zeta. destruct half_pow as (_ & HU & H0).
  replace (2 * imag (fabsb x) + unit) with ((imag (fabsb x) + half) * 2) by lia.
  replace (2 * unit) with (unit * 2) by lia. rewrite Z.div_mul_cancel_r by lia. reflexivity.
Qed.

(** x + copysign(0.5, x), truncated, is x rounded half away from zero *)
Lemma add_half x : 3 <= bias -> fbits x -> ffinite x = true -> fabsb x <> c_half mw ew - 1 -> imag (fabsb x) < 2^mw * unit ->
  let y := hadd x (copysign (c_half mw ew) x) in
  fbits y /\ ffinite y = true /\ fneg y = fneg x /\ Ztrunc (fval y) = half_away (fval x).
Proof.
  intros Hbias Hx Fx Hne HV. cbv zeta.
  pose proof (fabsb_range mw ew Hmw Hew x) as R. destruct half_pow as (_ & HU & H0).
  pose proof (imag_nonneg mw ew Hmw Hew (fabsb x) ltac:(lia)) as IN.
  destruct (half_bounds (fabsb x) Hbias ltac:(lia) Hne HV) as (lo & hi & R1 & R2 & L1 & L2 & L3 & D1 & D2).
  destruct (c_half_spec mw ew Hmw Hew0 Hpe Hew) as (H1 & H2 & H3 & H4).
  destruct (copysign_spec mw ew Hmw Hew0 Hpe Hew (c_half mw ew) x) as (C1 & C2 & C3 & C4 & C5).
  assert (KH : imag (fabsb (c_half mw ew)) = half) by (apply (imag_ival_pos mw ew Hmw Hew0 Hpe Hew); exact H3).
  rewrite KH in C5. rewrite H2 in C4.
  pose proof (hadd_int mw ew Hmw Hew0 Hpe Hew x _ Hx C1 Fx C4) as S. rewrite C3, C5, (ival_abs mw ew Hmw Hew0 Hpe Hew) in S.
  rewrite half_away_half, (Ztrunc_fval mw ew Hmw Hew). cbv zeta.
  set (v := imag (fabsb x)) in *. set (h := half) in *. set (y := hadd x _) in *. clearbody v h y.
  clear Hbias Hx Fx Hne HV R H1 H2 H3 H4 C1 C2 C3 C4 C5 KH. destruct (fneg x).
  - replace (- v + - h) with (- (v + h)) in S by lia.
    destruct (rounds_between mw ew Hmw Hew0 Hpe Hew (- (v + h)) _ _ (- hi) (- lo) S) as (A & B & C & D);
      [apply repr_opp; assumption|apply repr_opp; assumption|lia|lia|lia|].
    split; [exact A|]. split; [exact B|]. split.
    { rewrite C. unfold zsign. destruct (Z.compare_spec (- (v + h)) 0); [lia|reflexivity|lia]. }
    replace (ival y) with (- (- ival y)) by lia.
    rewrite Z.quot_opp_l, Z.quot_div_nonneg by lia. f_equal. apply Z.le_antisymm.
    + rewrite <- D2. apply Z.div_le_mono; lia.
    + rewrite <- D1. apply Z.div_le_mono; lia.
  - destruct (rounds_between mw ew Hmw Hew0 Hpe Hew (v + h) _ _ lo hi S) as (A & B & C & D);
      [assumption|assumption|lia|lia|lia|].
    split; [exact A|]. split; [exact B|]. split.
    { rewrite C. unfold zsign. destruct (Z.compare_spec (v + h) 0); [lia|lia|reflexivity]. }
    rewrite Z.quot_div_nonneg by lia. apply Z.le_antisymm.
    + rewrite <- D2. apply Z.div_le_mono; lia.
    + rewrite <- D1. apply Z.div_le_mono; lia.
Qed.

(** Large operands whose significand is even: adding one half changes nothing. *)
Lemma add_half_big x q j : fbits x -> ffinite x = true -> imag (fabsb x) = q * 2^j -> 2^mw <= q < 2^(mw+1) -> Z.even q = true ->
  bias + mw - 1 <= j ->
  let y := hadd x (copysign (c_half mw ew) x) in
  fbits y /\ ffinite y = true /\ fneg y = fneg x /\ ival y = ival x.
Proof.
  intros Hx Fx Ev Hq Ho Hj. cbv zeta.
  pose proof (fabsb_range mw ew Hmw Hew x) as R. destruct half_pow as (HP & HU & H0). pose proof (emin_bias mw ew) as EB.
  pose proof (emin_neg mw ew Hmw Hew) as EN.
  destruct (c_half_spec mw ew Hmw Hew0 Hpe Hew) as (H1 & H2 & H3 & H4).
  destruct (copysign_spec mw ew Hmw Hew0 Hpe Hew (c_half mw ew) x) as (C1 & C2 & C3 & C4 & C5).
  assert (KH : imag (fabsb (c_half mw ew)) = half) by (apply (imag_ival_pos mw ew Hmw Hew0 Hpe Hew); exact H3).
  rewrite KH in C5. rewrite H2 in C4.
  pose proof (hadd_int mw ew Hmw Hew0 Hpe Hew x _ Hx C1 Fx C4) as S. rewrite C3, C5, (ival_abs mw ew Hmw Hew0 Hpe Hew) in S.
  set (v := imag (fabsb x)) in *. set (h := half) in *. set (y := hadd x _) in *.
  pose proof (pow2_pos j ltac:(lia)) as Pj. pose proof (pmw mw Hmw) as P.
  assert (v0 : 0 < v) by (rewrite Ev; apply Z.mul_pos_pos; lia).
  assert (hj : 2 * h <= 2^j).
  { rewrite <- HU, (unit_eq mw ew Hmw Hew0 Hpe Hew). apply Z.pow_le_mono_r; lia. }
  assert (DV : (v + h) / 2^j = q) by (symmetry; apply Z.div_unique with h; lia).
  assert (MV : (v + h) mod 2^j = h) by (symmetry; apply Z.mod_unique with q; lia).
  assert (RE : RN mw ew (IZR (v + h) * bpow radix2 emin) = (IZR v * bpow radix2 emin)%R).
  { pose proof (RN_dyadic mw ew Hmw (v + h) emin (emin + j) ltac:(lia) ltac:(lia) ltac:(lia)) as D.
    replace (emin + j - emin) with j in D by lia. rewrite DV in D. specialize (D ltac:(lia) ltac:(lia)).
    unfold F2R in D. cbn [Fnum Fexp] in D. rewrite D.
    assert (rne (v + h) (2^j) = q) as ->.
    { unfold rne. rewrite DV, MV, Ho. destruct (Z.ltb_spec (2 * h) (2^j)); [reflexivity|].
      destruct (Z.ltb_spec (2^j) (2 * h)); [lia|reflexivity]. }
    rewrite Ev, mult_IZR, <- bpow2 by lia. rewrite bpow_plus. ring. }
  assert (RV : (Rabs (IZR v * bpow radix2 emin) < bpow radix2 (2^(ew-1)))%R).
  { rewrite <- (limit_bpow mw ew Hmw Hew0 Hpe Hew).
    rewrite Rabs_pos_eq by (apply Rmult_le_pos; [apply IZR_le; lia|apply bpow_ge_0]).
    apply Rmult_lt_compat_r; [apply bpow_gt_0|]. apply IZR_lt.
    pose proof (proj1 (finite_limit mw ew Hmw Hew0 Hpe Hew x Hx) Fx) as L.
    rewrite (ival_abs mw ew Hmw Hew0 Hpe Hew) in L. fold v in L. destruct (fneg x); lia. }
  destruct S as (S1 & S2 & S3 & _). split; [exact S1|].
  rewrite (ival_abs mw ew Hmw Hew0 Hpe Hew x). fold v.
  assert (OUT : forall n, (fval y = IZR n * bpow radix2 emin)%R -> ival y = n).
  { intros n E. rewrite (fval_ival mw ew Hmw Hew) in E. apply Rmult_eq_reg_r in E; [apply eq_IZR; exact E|].
    apply Rgt_not_eq, bpow_gt_0. }
  destruct (fneg x).
  - replace (- v + - h) with (- (v + h)) in S2, S3 by lia.
    assert (RO : (RN mw ew (IZR (- (v + h)) * bpow radix2 emin) = - (IZR v * bpow radix2 emin))%R).
    { rewrite opp_IZR, <- Ropp_mult_distr_l. unfold FP.RN in *. rewrite round_NE_opp, RE. reflexivity. }
    rewrite RO, Rabs_Ropp in S3. destruct (S3 RV) as [F V]. split; [exact F|]. split.
    { rewrite S2. unfold zsign. destruct (Z.compare_spec (- (v + h)) 0); [lia|reflexivity|lia]. }
    apply OUT. rewrite V, opp_IZR. ring.
  - rewrite RE in S3. destruct (S3 RV) as [F V]. split; [exact F|]. split.
    { rewrite S2. unfold zsign. destruct (Z.compare_spec (v + h) 0); [lia|lia|reflexivity]. }
    apply OUT. exact V.
Qed.

Lemma rounds_ge n s r lo : rounds_to mw ew (IZR n * bpow radix2 emin) s r -> repr lo -> ffinite r = true ->
  (lo <= n -> lo <= ival r) /\ (n <= lo -> ival r <= lo).
Proof.
  intros (A & B & C & D) RL F.
  assert (V : (fval r = RN mw ew (IZR n * bpow radix2 emin))%R).
  { destruct (Rlt_le_dec (Rabs (RN mw ew (IZR n * bpow radix2 emin))) (bpow radix2 (2^(ew-1)))) as [L|L]; [apply C, L|].
    specialize (D L). unfold FP.ffinite in F. lia. }
  rewrite (fval_ival mw ew Hmw Hew) in V.
  assert (E : RN mw ew (IZR lo * bpow radix2 emin) = (IZR lo * bpow radix2 emin)%R).
  { apply round_generic; [typeclasses eauto|]. apply (repr_format mw ew Hmw Hew0 Hpe Hew), RL. }
  pose proof (bpow_gt_0 radix2 emin) as BP.
  assert (Vp : Valid_exp (FLT_exp emin (mw + 1))) by (apply FLT_exp_valid; unfold Prec_gt_0; lia).
  split; intros L; apply le_IZR; apply Rmult_le_reg_r with (bpow radix2 emin); try exact BP; rewrite V, <- E;
    unfold FP.RN; (apply round_le; [exact Vp|typeclasses eauto|]); apply Rmult_le_compat_r; try lra; apply IZR_le; exact L.
Qed.

End Format.
