(** fmod and fmodf. *)
From Coq Require Import Reals Lra.
From Flocq Require Import Core BinarySingleNaN.
From Verif Require Import Base Bits FP FP_Proof HW HW_Proof FPInt FPOps Int128_Model Math_Model Math_Round_Proof Math_Int_Proof Math_Spec Math_Lround_Proof Math_Basic_Proof.
Open Scope Z_scope.
Local Ltac Zify.zify_post_hook ::= idtac.

Lemma sgn_of_mod n x : 0 < n -> sgn n (x mod 2^n) = sgn n x.
Proof. intros Hn. unfold sgn. rewrite Z.mod_mod; [reflexivity|]. pose proof (pow2_pos n ltac:(lia)). lia. Qed.

(* pure integer facts, kept apart so that nia sees small contexts *)
Lemma arith_lt x p g : 0 < p -> p <= g < 2 * p -> x * p + (g - p) < p -> x < 1.
Proof. intros; nia. Qed.
Lemma arith_ge x p g : 0 < p -> p <= g < 2 * p -> p <= x * p + (g - p) -> 1 <= x.
Proof. intros; nia. Qed.
Lemma arith_half g q t p : g = q * t -> 2 <= t -> 0 <= q -> 0 <= g < 2 * p -> q < p.
Proof. intros; nia. Qed.
Lemma arith_top x p g t : 0 < p -> p <= g < 2 * p -> 1 <= x < t -> 0 <= x * p + (g - p) < t * p.
Proof. intros; nia. Qed.
Lemma arith_box x p t : 0 < p -> - t <= x < t -> - (p * t) <= x * p < p * t.
Proof. intros; nia. Qed.
Lemma arith_quarter g p t : 0 < p -> 0 <= g < 2 * p -> 4 <= t -> 2 * g < 2 * p * t.
Proof. intros; nia. Qed.

(** ** (a 2^exp) mod b *)
Lemma lsh_ok w x k : 0 <= k < w -> 0 <= x * 2^k < 2^w -> lsh w x k = Ok (x * 2^k).
Proof.
  intros Hk Hx. unfold lsh. replace ((0 <=? k) && (k <? w)) with true by lia. rewrite shiftl_mul by lia. rewrite Z.mod_small by lia. reflexivity.
Qed.
Lemma urem_ok a b : b <> 0 -> urem a b = Ok (a mod b).
Proof. intros H. unfold urem. replace (b =? 0) with false by lia. reflexivity. Qed.

Lemma remshiftf_loop_ok n : forall r b, 0 < b <= 2^24 -> 0 <= r < b -> remshiftf_loop n r b = Ok ((r * 2^(32 * Z.of_nat n)) mod b).
Proof.
  induction n as [|n IH]; intros r b Hb Hr.
  - cbn [remshiftf_loop]. change (32 * Z.of_nat 0) with 0. rewrite Z.mul_1_r, Z.mod_small by lia. reflexivity.
  - cbn [remshiftf_loop]. rewrite lsh_ok by lia. cbn [bind]. rewrite urem_ok by lia. cbn [bind].
    rewrite IH by (try lia; apply Z.mod_pos_bound; lia). f_equal. rewrite Z.mul_mod_idemp_l by lia. f_equal.
    rewrite <- Z.mul_assoc, <- Z.pow_add_r by lia. f_equal. f_equal. lia.
Qed.

Lemma remshiftf_ok a b exp : 0 <= a < 2^24 -> 0 < b <= 2^24 -> 0 <= exp -> remshiftf_ a b exp = Ok ((a * 2^exp) mod b).
Proof.
  intros Ha Hb He. unfold remshiftf_. change 31 with (2^5 - 1). rewrite land_ones_mod by lia. rewrite shiftr_div by lia. change (2^5) with 32.
  pose proof (Z.mod_pos_bound exp 32 ltac:(lia)) as M. pose proof (Z.div_mod exp 32 ltac:(lia)) as DM.
  assert (0 <= exp / 32) by (apply Z.div_pos; lia).
  assert (2^(exp mod 32) <= 2^31) by (apply Z.pow_le_mono_r; lia). pose proof (pow2_pos (exp mod 32) ltac:(lia)).
  rewrite lsh_ok by (try lia; change (2^64) with (2^24 * 2^40); change (2^31) with 2147483648 in *; nia). cbn [bind].
  rewrite urem_ok by lia. cbn [bind]. pose proof (Z.mod_pos_bound (a * 2^(exp mod 32)) b ltac:(lia)).
  rewrite remshiftf_loop_ok by lia. cbn [bind]. rewrite Z2Nat.id by lia. rewrite Z.mul_mod_idemp_l by lia.
  rewrite <- Z.mul_assoc, <- Z.pow_add_r by lia. replace (exp mod 32 + 32 * (exp / 32)) with exp by lia.
  unfold u32. rewrite Z.mod_small; [reflexivity|]. pose proof (Z.mod_pos_bound (a * 2^exp) b ltac:(lia)). lia.
Qed.

Lemma ctz_pos_ok p : 0 <= ctz_pos p /\ exists m, Zpos p = m * 2^(ctz_pos p).
Proof.
  induction p as [p [I (m & J)]|p [I (m & J)]|]; cbn [ctz_pos].
  - split; [lia|]. exists (Zpos p~1). change (2^0) with 1. lia.
  - split; [lia|]. exists m. rewrite Z.pow_add_r by lia. change (2^1) with 2. rewrite Pos2Z.inj_xO, J. ring.
  - split; [lia|]. exists 1. reflexivity.
Qed.
Lemma ctz_ok b : 0 < b -> exists z m, ctz b = Ok z /\ 0 <= z /\ b = m * 2^z.
Proof.
  intros Hb. destruct b as [|p|p]; try lia. destruct (ctz_pos_ok p) as (A & m & B). exists (ctz_pos p), m. split; [reflexivity|]. split; [exact A|exact B].
Qed.

Lemma remshift_loop_ok fuel : forall r exp d space, 0 < space < 64 -> 0 < d -> d * 2^space <= 2^64 -> 0 <= r < d -> 0 <= exp < Z.of_nat fuel ->
  exists r' exp', remshift_loop fuel r exp d space = Ok (r', exp') /\ 0 <= r' < d /\ 0 <= exp' < space /\
    (r * 2^exp) mod d = (r' * 2^exp') mod d.
Proof.
  induction fuel as [|fuel IH]; intros r exp d space Hs Hd HS Hr He; [lia|]. cbn [remshift_loop].
  destruct (Z.leb_spec space exp) as [L|L].
  - pose proof (pow2_pos space ltac:(lia)). rewrite lsh_ok by (try lia; nia). cbn [bind]. rewrite urem_ok by lia. cbn [bind].
    pose proof (Z.mod_pos_bound (r * 2^space) d Hd) as MB.
    destruct (IH ((r * 2^space) mod d) (exp - space) d space Hs Hd HS MB ltac:(lia)) as (r' & e' & E & A & B & C).
    exists r', e'. split; [exact E|]. split; [exact A|]. split; [exact B|]. rewrite <- C, Z.mul_mod_idemp_l by lia.
    rewrite <- Z.mul_assoc, <- Z.pow_add_r by lia. do 3 f_equal. lia.
  - exists r, exp. repeat split; lia.
Qed.

Lemma remshift_ok a b exp : 0 <= a < 2^53 -> 0 < b <= 2^53 -> 0 <= exp -> remshift_ a b exp = Ok ((a * 2^exp) mod b).
Proof.
  intros Ha Hb He. unfold remshift_. destruct (ctz_ok b ltac:(lia)) as (z & m & -> & Hz & Eb). cbn [bind].
  set (s := if z <? exp then z else exp). assert (Hs : 0 <= s <= z /\ s <= exp) by (unfold s; destruct (Z.ltb_spec z exp); lia).
  clearbody s. set (d := m * 2^(z - s)). assert (Ed : b = d * 2^s).
  { unfold d. rewrite <- Z.mul_assoc, <- Z.pow_add_r by lia. rewrite Eb. do 2 f_equal. lia. }
  clearbody d. pose proof (pow2_pos s ltac:(lia)) as Ps. assert (Hd : 0 < d) by nia.
  assert (S64 : s < 64).
  { apply Z.pow_lt_mono_r_iff with 2; [lia|lia|]. change (2^64) with (2^53 * 2048). nia. }
  unfold rsh. replace ((0 <=? s) && (s <? 64)) with true by lia. cbn [bind]. rewrite shiftr_div, Ed, Z.div_mul by lia.
  rewrite urem_ok by lia. cbn [bind]. unfold clz. replace (d =? 0) with false by lia. cbn [bind].
  assert (D53 : d <= 2^53) by nia.
  pose proof (Z.log2_spec d Hd) as LS. pose proof (Z.log2_nonneg d) as L0.
  assert (L53 : Z.log2 d <= 53) by (rewrite <- (Z.log2_pow2 53) by lia; apply Z.log2_le_mono; exact D53).
  set (l := Z.log2 d) in *. clearbody l.
  assert (SP : 2^(64 - 1 - l) * 2^(Z.succ l) = 2^64) by (rewrite <- Z.pow_add_r by lia; f_equal; lia).
  pose proof (pow2_pos (64 - 1 - l) ltac:(lia)) as Pl.
  pose proof (Z.mod_pos_bound a d Hd) as MA.
  assert (DS : d * 2^(64 - 1 - l) <= 2^64) by nia.
  destruct (remshift_loop_ok (Z.to_nat exp + 1) (a mod d) (exp - s) d (64 - 1 - l) ltac:(lia) Hd DS MA ltac:(lia)) as (r' & e' & -> & A & B & C).
  cbn [bind]. assert (2^e' <= 2^(64 - 1 - l)) by (apply Z.pow_le_mono_r; lia). pose proof (pow2_pos e' ltac:(lia)).
  rewrite lsh_ok by (try lia; nia). cbn [bind]. rewrite urem_ok by lia. cbn [bind].
  rewrite <- C. rewrite Z.mul_mod_idemp_l by lia.
  pose proof (Z.mod_pos_bound (a * 2^(exp - s)) d Hd) as MB.
  rewrite lsh_ok by (try lia; change (2^64) with (2^53 * 2048); nia). f_equal.
  rewrite <- Z.mul_mod_distr_r by lia. rewrite <- Z.mul_assoc, <- Z.pow_add_r by lia. do 3 f_equal. lia.
Qed.

Section Format.
Set Default Proof Using "All".
Variables mw ew : Z.
Hypothesis Hmw : 0 < mw.
Hypothesis Hew0 : 0 < ew.
Hypothesis Hpe : mw + 1 < 2^(ew - 1).
Hypothesis Hew : 1 < ew.

Notation emin := (emin mw ew).
Notation fval := (fval mw ew).
Notation fabsb := (fabsb mw ew).
Notation fneg := (fneg mw ew).
Notation fbits := (fbits mw ew).
Notation ffinite := (ffinite mw ew).
Notation fisnan := (fisnan mw ew).
Notation fisinf := (fisinf mw ew).
Notation with_sign := (with_sign mw ew).
Notation imag := (imag mw).
Notation ival := (ival mw ew).
Notation unit := (unit mw ew).
Notation finf := (finf mw ew).
Notation limit := (limit mw ew).
Notation repr := (repr mw).
Notation W := (mw + ew + 1).
Notation bias := (2^(ew - 1) - 1).
Notation copysign := (copysign mw ew).

Variable remshift : Z -> Z -> Z -> res Z.
Hypothesis remshift_spec : forall a b e, 0 <= a < 2^(mw+1) -> 0 < b <= 2^(mw+1) -> 0 <= e -> remshift a b e = Ok ((a * 2^e) mod b).

Lemma imag_small k : 0 <= k <= 2^(mw+1) -> imag k = k.
Proof. intros Hk. pose proof (imag_pack mw Hmw 0 k ltac:(lia) Hk (or_introl eq_refl)) as H. rewrite Z.mul_1_r in H. exact H. Qed.

Lemma significand_ok k : 2^mw <= k -> exists s e, significand_ mw k = s /\ 2^mw <= s < 2^(mw+1) /\ Z.shiftr k mw = e /\ 1 <= e /\
  k = (e - 1) * 2^mw + s /\ imag k = s * 2^(e - 1).
Proof.
  intros Hk. pose proof (pmw mw Hmw) as P. pose proof (pmw1 mw Hmw) as P1. unfold significand_, c_min. rewrite shiftl_mul, Z.mul_1_l by lia.
  rewrite land_ones_mod by lia. pose proof (Z.mod_pos_bound k (2^mw) P) as M. pose proof (Z.div_mod k (2^mw) ltac:(lia)) as DM.
  assert (LO : Z.lor (k mod 2^mw) (2^mw) = 1 * 2^mw + k mod 2^mw)
    by (rewrite Z.lor_comm, <- (Z.mul_1_l (2^mw)) at 1; apply lor_mul_low; lia).
  rewrite LO, shiftr_div by lia.
  assert (1 <= k / 2^mw) by (apply Z.div_le_lower_bound; lia).
  exists (1 * 2^mw + k mod 2^mw), (k / 2^mw). split; [reflexivity|]. split; [lia|]. split; [reflexivity|]. split; [assumption|].
  assert (E : k = (k / 2^mw - 1) * 2^mw + (1 * 2^mw + k mod 2^mw)) by lia. split; [exact E|].
  rewrite E at 1. apply imag_pack; [exact Hmw|lia|lia|lia].
Qed.

Lemma load_ok r b s : 0 <= r < s -> s < 2^(mw+1) -> 2^mw <= s -> forall e, 1 <= e < 2^ew - 1 -> Z.shiftr b mw = e ->
  exists k, load_ mw ew r b = Ok k /\ 0 <= k < finf /\ imag k = r * 2^(e - 1).
Proof.
  intros Hr Hs Hs2 e He Eb. unfold load_. pose proof (pmw mw Hmw) as P. pose proof (pmw1 mw Hmw) as P1. pose proof (finf_pos mw ew Hmw Hew) as FI.
  destruct (Z.eqb_spec r 0) as [->|R0].
  { exists 0. split; [reflexivity|]. split; [lia|]. rewrite imag_0 by exact Hmw. ring. }
  unfold clz. replace (r =? 0) with false by lia. cbn [bind].
  pose proof (Z.log2_spec r ltac:(lia)) as LS. pose proof (Z.log2_nonneg r) as L0.
  assert (L1 : Z.log2 r <= mw) by (apply Zlt_succ_le; apply Z.log2_lt_pow2; [lia|]; replace (Z.succ mw) with (mw + 1) by lia; lia).
  set (l := Z.log2 r) in *. clearbody l. replace (W - 1 - l - ew) with (mw - l) by lia. set (sh := mw - l).
  rewrite Eb. destruct (pow_ew ew Hew) as [PE PE2].
  assert (X : 2^mw <= r * 2^sh < 2 * 2^mw).
  { rewrite Z.pow_succ_r in LS by lia. replace (2^mw) with (2^l * 2^sh) by (rewrite <- Z.pow_add_r by (unfold sh; lia); f_equal; unfold sh; lia).
    pose proof (pow2_pos sh ltac:(unfold sh; lia)). nia. }
  assert (WB : 2 * 2^mw * 2^ew = 2^W) by (rewrite <- P1, <- Z.pow_add_r by lia; f_equal; lia).
  assert (WM : 2 * 2^(W - 1) = 2^W) by (rewrite <- Z.pow_succ_r by lia; f_equal; lia).
  assert (P4 : 4 <= 2^ew) by (change 4 with (2^2); apply Z.pow_le_mono_r; lia).
  assert (S1 : r * 2^sh < 2^(W-1)) by (assert (2 * (r * 2^sh) < 2^W); [rewrite <- WB; apply arith_quarter; lia|lia]).
  rewrite lsh_ok by (unfold sh; fold sh; lia). cbn [bind]. rewrite sgn_id by lia.
  set (g := r * 2^sh) in *.
  unfold lsh. replace ((0 <=? mw) && (mw <? W)) with true by lia. cbn [bind]. rewrite sgn_of_mod by lia.
  rewrite shiftl_mul by lia. set (x := e - sh).
  assert (XB : - 2^(W-1) <= x * 2^mw < 2^(W-1)).
  { assert (E2 : 2^(W-1) = 2^mw * 2^ew) by lia. rewrite E2. apply arith_box; [exact P|]. assert (mw < 2^ew) by lia. unfold x, sh. lia. }
  rewrite sgn_id by lia. unfold c_min. rewrite shiftl_mul, Z.mul_1_l by lia.
  rewrite land_ones_mod by lia. assert (GM : g mod 2^mw = g - 2^mw) by (symmetry; apply Z.mod_unique with 1; lia).
  rewrite GM. rewrite lor_mul_low by lia. assert (SHB : 0 <= sh < mw + 1) by (unfold sh; lia).
  destruct (Z.ltb_spec (x * 2^mw + (g - 2^mw)) (2^mw)) as [N|N].
  - pose proof (arith_lt x (2^mw) g P X N) as XL. unfold rsh. replace ((0 <=? 1 - x) && (1 - x <? W)) with true by (unfold x; lia). rewrite shiftr_div by lia.
    assert (EG : g = r * 2^(e - 1) * 2^(1 - x)).
    { unfold g. rewrite <- Z.mul_assoc, <- Z.pow_add_r by lia. do 2 f_equal. unfold x. lia. }
    pose proof (pow2_pos (1 - x) ltac:(lia)). pose proof (pow2_pos (e - 1) ltac:(lia)). rewrite EG, Z.div_mul by lia.
    exists (r * 2^(e - 1)). split; [reflexivity|].
    assert (2^1 <= 2^(1 - x)) by (apply Z.pow_le_mono_r; lia).
    assert (Q0 : 0 <= r * 2^(e-1)) by (apply Z.mul_nonneg_nonneg; lia).
    assert (B : 0 <= r * 2^(e-1) < 2^mw) by (split; [exact Q0|]; apply (arith_half g _ (2^(1-x)) _ EG); lia).
    split; [|apply imag_small; lia]. assert (2^mw < finf); [|lia].
    unfold FP.finf. clear - P4 P. nia.
  - pose proof (arith_ge x (2^mw) g P X N) as XG. exists (x * 2^mw + (g - 2^mw)). split; [reflexivity|].
    split; [unfold FP.finf; apply arith_top; [exact P|exact X|unfold x in *; lia]|].
    replace (x * 2^mw + (g - 2^mw)) with ((x - 1) * 2^mw + g) by ring. rewrite imag_pack by lia.
    unfold g. rewrite <- Z.mul_assoc, <- Z.pow_add_r by lia. do 2 f_equal. unfold x. lia.
Qed.

Lemma finite_ok a b : 0 < b <= a -> a < finf -> exists r, finite_ mw ew remshift a b = Ok r /\ 0 <= r < finf /\ imag r = imag a mod imag b.
Proof.
  intros Hab Ha. unfold finite_. rewrite shiftl_mul by lia. pose proof (pmw mw Hmw) as P. pose proof (pmw1 mw Hmw) as P1. rewrite <- P1.
  assert (FT : 2^(mw+1) < finf).
  { unfold FP.finf. assert (2^2 <= 2^ew) by (apply Z.pow_le_mono_r; lia). nia. }
  destruct (Z.leb_spec b (2^(mw+1))) as [B|B].
  - rewrite (imag_small b) by lia. destruct (Z.leb_spec a (2^(mw+1))) as [A|A].
    + rewrite urem_ok by lia. exists (a mod b). pose proof (Z.mod_pos_bound a b ltac:(lia)).
      split; [reflexivity|]. split; [lia|]. rewrite !imag_small by lia. reflexivity.
    + destruct (significand_ok a ltac:(lia)) as (s & e & -> & Hs & -> & He & _ & EI). rewrite remshift_spec by lia.
      exists ((s * 2^(e - 1)) mod b). pose proof (Z.mod_pos_bound (s * 2^(e-1)) b ltac:(lia)). split; [reflexivity|]. split; [lia|].
      rewrite imag_small by lia. rewrite EI. reflexivity.
  - destruct (significand_ok a ltac:(lia)) as (s & e & -> & Hs & -> & He & Ea & EI).
    destruct (significand_ok b ltac:(lia)) as (s' & e' & -> & Hs' & Es & He' & Eb & EI'). rewrite Es.
    assert (LE : e' <= e) by nia. assert (EB : e < 2^ew - 1) by (unfold FP.finf in Ha; nia).
    rewrite remshift_spec by lia. cbn [bind]. pose proof (Z.mod_pos_bound (s * 2^(e - e')) s' ltac:(lia)) as MB.
    destruct (load_ok _ b s' MB ltac:(lia) ltac:(lia) e' ltac:(lia) Es) as (k & -> & HK & EK). exists k. split; [reflexivity|]. split; [exact HK|].
    rewrite EK, EI, EI'. pose proof (pow2_pos (e' - 1) ltac:(lia)). rewrite <- Z.mul_mod_distr_r by lia.
    rewrite <- Z.mul_assoc, <- Z.pow_add_r by lia. do 3 f_equal. lia.
Qed.

Lemma fmod_ok x y : fbits x -> fbits y ->
  (ffinite x = false \/ fisnan y = true \/ fabsb y = 0 -> fmod_ mw ew remshift x y = Ok (qnan mw ew)) /\
  (ffinite x = true -> fisinf y = true -> fmod_ mw ew remshift x y = Ok x) /\
  (ffinite x = true -> ffinite y = true -> fabsb y <> 0 -> exists r, fmod_ mw ew remshift x y = Ok r /\ fbits r /\ ffinite r = true /\
     fneg r = fneg x /\ imag (fabsb r) = imag (fabsb x) mod imag (fabsb y)).
Proof.
  intros Hx Hy. unfold fmod_, fabs. unfold FP.ffinite, FP.fisnan, FP.fisinf.
  pose proof (fabsb_range mw ew Hmw Hew x) as Rx. pose proof (fabsb_range mw ew Hmw Hew y) as Ry. pose proof (finf_pos mw ew Hmw Hew) as FI.
  split; [intros H|split].
  - replace (_ || _ || _) with true by lia. reflexivity.
  - intros A B. replace (_ || _ || _) with false by lia. replace (fabsb x <? fabsb y) with true by lia. reflexivity.
  - intros A B C. replace (_ || _ || _) with false by lia. destruct (Z.ltb_spec (fabsb x) (fabsb y)) as [L|L].
    + exists x. split; [reflexivity|]. split; [exact Hx|]. split; [exact A|]. split; [reflexivity|].
      symmetry. apply Z.mod_small. split; [apply (imag_nonneg mw ew Hmw Hew); lia|]. apply (imag_lt mw ew Hmw Hew (fabsb x) (fabsb y)); lia.
    + destruct (finite_ok (fabsb x) (fabsb y) ltac:(lia) ltac:(lia)) as (r & -> & HR & ER). cbn [bind].
      destruct (pW mw ew Hmw Hew) as (W1 & _ & _). rewrite (Z.mod_small r) by lia.
      destruct (copysign_spec mw ew Hmw Hew0 Hpe Hew r x) as (S1 & S2 & S3 & S4 & S5).
      assert (FR : fabsb r = r) by (apply Z.mod_small; lia). rewrite FR in S2.
      exists (copysign r x). split; [reflexivity|]. split; [exact S1|].
      split; [rewrite S2; lia|]. split; [exact S3|]. rewrite S2. exact ER.
Qed.

(** in terms of real values *)
Lemma trunc_quotient x y : ival y <> 0 -> Ztrunc (fval x / fval y) = Z.quot (ival x) (ival y).
Proof.
  intros N. rewrite !(fval_ival mw ew Hmw Hew). rewrite <- Ztrunc_div by exact N. f_equal. unfold Rdiv.
  pose proof (bpow_gt_0 radix2 emin). apply IZR_neq in N. field. split; lra.
Qed.

Lemma fmod_real x y r : ival y <> 0 -> fneg r = fneg x -> imag (fabsb r) = imag (fabsb x) mod imag (fabsb y) ->
  (fval r = fval x - IZR (Ztrunc (fval x / fval y)) * fval y)%R.
Proof.
  intros N S E. rewrite (trunc_quotient x y N), !(fval_ival mw ew Hmw Hew), <- Rmult_assoc, <- Rmult_minus_distr_r, <- mult_IZR, <- minus_IZR.
  do 2 f_equal. pose proof (Z.quot_rem' (ival x) (ival y)) as Q.
  replace (ival x - Z.quot (ival x) (ival y) * ival y) with (Z.rem (ival x) (ival y)) by lia.
  pose proof (fabsb_range mw ew Hmw Hew x). pose proof (fabsb_range mw ew Hmw Hew y).
  pose proof (imag_nonneg mw ew Hmw Hew (fabsb x) ltac:(lia)). pose proof (imag_nonneg mw ew Hmw Hew (fabsb y) ltac:(lia)).
  revert N. unfold FPInt.ival. rewrite S, E. intros N.
  assert (imag (fabsb y) <> 0) by (destruct (fneg y); lia).
  destruct (fneg x), (fneg y); rewrite ?Z.rem_opp_l, ?Z.rem_opp_r by lia; rewrite Z.rem_mod_nonneg by lia; reflexivity.
Qed.
End Format.
