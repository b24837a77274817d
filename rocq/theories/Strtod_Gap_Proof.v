(** Decimals of at most 18 digits keep away from the midpoints of doubles. *)
From Coq Require Import Reals Lra.
From Flocq Require Import Core.
From Verif Require Import Base Bits FP FP_Proof Midpoint Strtod_Spec Strtod_Model Strtod_Arith_Proof Strtod_Round_Proof Strtod_Gap_Table.
Open Scope Z_scope.
Local Ltac Zify.zify_post_hook ::= idtac.

(** A <= B * 2^x *)
Definition le2 (A B x : Z) : bool := if 0 <=? x then A <=? Z.shiftl B x else Z.shiftl A (- x) <=? B.
Lemma le2_ok A B x : le2 A B x = true -> (IZR A <= IZR B * pow2 x)%R.
Proof.
  unfold le2. destruct (Z.leb_spec 0 x); intros H1; apply Z.leb_le, IZR_le in H1.
  - rewrite shiftl_mul, mult_IZR, pow2_Z in H1 by lia. exact H1.
  - rewrite shiftl_mul, mult_IZR, pow2_Z in H1 by lia. apply (Rmult_le_compat_r (pow2 x)) in H1; [|apply bpow_ge_0].
    rewrite Rmult_assoc, pow2_mul in H1. replace (- x + x) with 0 in H1 by lia. cbn [bpow] in H1. lra.
Qed.

(** a bound n/d * 2^x of a power of five *)
Definition frac : Type := Z * Z * Z.
Definition fle (f : frac) (r : R) : Prop := let '(n, d, x) := f in 0 < n /\ 0 < d /\ (IZR n * pow2 x <= IZR d * r)%R.
Definition fge (f : frac) (r : R) : Prop := let '(n, d, x) := f in 0 < n /\ 0 < d /\ (IZR d * r <= IZR n * pow2 x)%R.

Definition cert (lo hi : frac) (e q : Z) (k : Z * Z * Z * Z) : bool :=
  let '(a, b, c, d) := k in
  let '(n1, d1, x1) := lo in
  let '(n2, d2, x2) := hi in
  let bn := b * n1 in
  let dn := d * n2 in
  (0 <=? a) && (0 <? b) && (0 <? c) && (0 <=? d) && (b * c - a * d =? 1) && ((10^18 <=? b + d) || (2^54 <=? a + c)) &&
  le2 (Z.shiftl (a * d1) 126) (Z.shiftl bn 126 - 5 * bn) (x1 + e - q) &&
  le2 (Z.shiftl dn 126 + 5 * dn) (Z.shiftl (c * d2) 126) (- (x2 + e - q)).

Open Scope R_scope.
Definition eta : R := 5 * pow2 (-126).
Lemma farey a b c d w M : (b * c - a * d = 1)%Z -> (0 <= a)%Z -> (0 < b)%Z -> (0 < c)%Z -> (0 <= d)%Z -> (w < b + d)%Z \/ (M < a + c)%Z ->
  (0 < w)%Z -> (0 < M)%Z -> (M * b <= a * w)%Z \/ (c * w <= M * d)%Z.
Proof.
  assert (G : forall p x, (0 <= p -> 1 <= x -> p <= p * x)%Z) by (intros; nia).
  intros H Ha Hb Hc Hd N Hw HM. destruct (Z.le_gt_cases (M * b) (a * w)) as [|G1]; [left; assumption|].
  destruct (Z.le_gt_cases (c * w) (M * d)) as [|G2]; [right; assumption|]. exfalso.
  assert (E1 : (w = b * (c * w - M * d) + d * (M * b - a * w))%Z) by (replace (b * (c * w - M * d) + d * (M * b - a * w))%Z with ((b * c - a * d) * w)%Z by ring; rewrite H; ring).
  assert (E2 : (M = a * (c * w - M * d) + c * (M * b - a * w))%Z) by (replace (a * (c * w - M * d) + c * (M * b - a * w))%Z with ((b * c - a * d) * M)%Z by ring; rewrite H; ring).
  set (X := (c * w - M * d)%Z) in *. set (Y := (M * b - a * w)%Z) in *. assert (X1 : (1 <= X)%Z) by lia. assert (Y1 : (1 <= Y)%Z) by lia. clearbody X Y.
  pose proof (G b X ltac:(lia) X1). pose proof (G d Y Hd Y1). pose proof (G a X Ha X1). pose proof (G c Y ltac:(lia) Y1). clear G H. lia.
Qed.
Lemma cert_ok lo hi e q k f : cert lo hi e q k = true -> fle lo f -> fge hi f -> forall w M,
  (0 < w < 10^18)%Z -> (0 < M < 2^54)%Z ->
  eta * (IZR w * (f * pow2 e)) <= Rabs (IZR w * (f * pow2 e) - IZR M * pow2 q).
Proof.
  unfold cert. destruct k as [[[a b] c] d], lo as [[n1 d1] x1], hi as [[n2 d2] x2]. intros H FL FG w M Hw HM.
  apply andb_prop in H as [H C2]. apply andb_prop in H as [H C1]. apply andb_prop in H as [H N].
  apply andb_prop in H as [H H1]. apply andb_prop in H as [H Hd]. apply andb_prop in H as [H Hc]. apply andb_prop in H as [Ha Hb].
  apply Z.leb_le in Ha, Hd. apply Z.ltb_lt in Hb, Hc. apply Z.eqb_eq in H1. apply orb_prop in N.
  destruct FL as (Pn1 & Pd1 & FL), FG as (Pn2 & Pd2 & FG).
  apply le2_ok in C1, C2.
  set (al := f * pow2 (e - q)).
  assert (PQ : 0 < pow2 q) by apply bpow_gt_0.
  assert (EV : IZR w * (f * pow2 e) = IZR w * al * pow2 q).
  { unfold al. rewrite !Rmult_assoc, pow2_mul. replace (e - q + q)%Z with e by lia. reflexivity. }
  rewrite EV.
  assert (I126 : IZR (2^126) = pow2 126) by (apply pow2_Z; lia).
  assert (C126 : pow2 126 * pow2 (-126) = 1) by (rewrite pow2_mul; reflexivity).
  assert (P126 : 0 < pow2 126) by apply bpow_gt_0. assert (PM126 : 0 < pow2 (-126)) by apply bpow_gt_0.
  assert (Rd1 : 0 < IZR d1) by (apply IZR_lt; lia). assert (Rd2 : 0 < IZR d2) by (apply IZR_lt; lia).
  assert (Rn1 : 0 < IZR n1) by (apply IZR_lt; lia).
  assert (Rb : 0 < IZR b) by (apply IZR_lt; lia). assert (Rdd : 0 <= IZR d) by (apply IZR_le; lia).
  assert (eta_s : 0 < eta < / 2). { unfold eta. split; [lra|]. apply Rle_lt_trans with (5 * pow2 (-5)); [apply Rmult_le_compat_l; [lra|apply bpow_le; lia]|]. cbn. lra. }
  assert (eta_e : eta * pow2 126 = 5) by (unfold eta; rewrite Rmult_assoc, (Rmult_comm (pow2 (-126))), C126; ring).
  assert (PX : 0 < pow2 (e - q)) by apply bpow_gt_0.
  assert (A1 : IZR a <= IZR b * al * (1 - eta)).
  { rewrite shiftl_mul, mult_IZR, mult_IZR, I126 in C1 by lia. rewrite minus_IZR, shiftl_mul, !mult_IZR, I126 in C1 by lia.
    replace (x1 + e - q)%Z with (x1 + (e - q))%Z in C1 by lia. rewrite bpow_plus in C1.
    assert (Q : IZR b * IZR n1 * pow2 126 - 5 * (IZR b * IZR n1) = IZR b * IZR n1 * (pow2 126 * (1 - eta))) by (rewrite <- eta_e; ring).
    rewrite Q in C1.
    assert (T : IZR a * IZR d1 * pow2 126 <= (IZR b * al * (1 - eta)) * IZR d1 * pow2 126).
    { apply Rle_trans with (1 := C1).
      replace (IZR b * IZR n1 * (pow2 126 * (1 - eta)) * (pow2 x1 * pow2 (e - q))) with ((IZR b * (1 - eta) * pow2 126 * pow2 (e - q)) * (IZR n1 * pow2 x1)) by ring.
      replace (IZR b * al * (1 - eta) * IZR d1 * pow2 126) with ((IZR b * (1 - eta) * pow2 126 * pow2 (e - q)) * (IZR d1 * f)) by (unfold al; ring).
      apply Rmult_le_compat_l; [|exact FL]. apply Rlt_le. repeat (apply Rmult_lt_0_compat); lra. }
    apply Rmult_le_reg_r in T; [|exact P126]. apply Rmult_le_reg_r in T; [exact T|exact Rd1]. }
  assert (A2 : IZR d * al * (1 + eta) <= IZR c).
  { rewrite plus_IZR, shiftl_mul, !mult_IZR, I126 in C2 by lia. rewrite shiftl_mul, mult_IZR, mult_IZR, I126 in C2 by lia.
    assert (Q : IZR d * IZR n2 * pow2 126 + 5 * (IZR d * IZR n2) = IZR d * IZR n2 * (pow2 126 * (1 + eta))) by (rewrite <- eta_e; ring).
    rewrite Q in C2.
    apply (Rmult_le_compat_r (pow2 (x2 + e - q))) in C2; [|apply bpow_ge_0].
    rewrite (Rmult_assoc (IZR c * IZR d2 * pow2 126)), pow2_mul in C2. replace (- (x2 + e - q) + (x2 + e - q))%Z with 0%Z in C2 by lia.
    replace (x2 + e - q)%Z with (x2 + (e - q))%Z in C2 by lia. rewrite bpow_plus in C2. change (pow2 0) with 1 in C2.
    assert (T : (IZR d * al * (1 + eta)) * IZR d2 * pow2 126 <= IZR c * IZR d2 * pow2 126).
    { rewrite <- (Rmult_1_r (IZR c * IZR d2 * pow2 126)). apply Rle_trans with (2 := C2).
      replace (IZR d * IZR n2 * (pow2 126 * (1 + eta)) * (pow2 x2 * pow2 (e - q))) with ((IZR d * (1 + eta) * pow2 126 * pow2 (e - q)) * (IZR n2 * pow2 x2)) by ring.
      replace (IZR d * al * (1 + eta) * IZR d2 * pow2 126) with ((IZR d * (1 + eta) * pow2 126 * pow2 (e - q)) * (IZR d2 * f)) by (unfold al; ring).
      apply Rmult_le_compat_l; [|exact FG]. repeat (apply Rmult_le_pos); lra. }
    apply Rmult_le_reg_r in T; [|exact P126]. apply Rmult_le_reg_r in T; [exact T|exact Rd2]. }
  clear C1 C2.
  assert (PF : 0 < f). { assert (0 < IZR d1 * f); [|nra]. apply Rlt_le_trans with (2 := FL). apply Rmult_lt_0_compat; [exact Rn1|apply bpow_gt_0]. }
  assert (PA : 0 < al) by (apply Rmult_lt_0_compat; assumption).
  assert (Rw : 0 < IZR w) by (apply IZR_lt; lia).
  assert (BD : (w < b + d)%Z \/ (M < a + c)%Z) by (destruct N as [N|N]; apply Z.leb_le in N; [left|right]; lia).
  replace (IZR w * al * pow2 q - IZR M * pow2 q) with ((IZR w * al - IZR M) * pow2 q) by ring.
  rewrite Rabs_mult, (Rabs_pos_eq (pow2 q)), <- Rmult_assoc by lra. apply Rmult_le_compat_r; [lra|].
  assert (PE : 0 < eta * (IZR w * al)) by (apply Rmult_lt_0_compat; [lra|apply Rmult_lt_0_compat; lra]).
  destruct (farey a b c d w M H1 Ha Hb Hc Hd BD ltac:(lia) ltac:(lia)) as [K|K]; apply IZR_le in K; rewrite !mult_IZR in K.
  - assert (X : IZR M * IZR b <= (IZR w * al * (1 - eta)) * IZR b).
    { apply Rle_trans with (1 := K). apply Rle_trans with (IZR b * al * (1 - eta) * IZR w); [apply Rmult_le_compat_r; lra|right; ring]. }
    apply Rmult_le_reg_r in X; [|exact Rb]. rewrite Rmult_minus_distr_l, Rmult_1_r, (Rmult_comm _ eta) in X. rewrite Rabs_pos_eq; lra.
  - assert (Dp : 0 < IZR d). { assert (0 < IZR c * IZR w) by (apply Rmult_lt_0_compat; [apply IZR_lt; lia|lra]). assert (0 < IZR M) by (apply IZR_lt; lia). nra. }
    assert (X : (IZR w * al * (1 + eta)) * IZR d <= IZR M * IZR d).
    { apply Rle_trans with (2 := K). apply Rle_trans with (IZR d * al * (1 + eta) * IZR w); [right; ring|apply Rmult_le_compat_r; lra]. }
    apply Rmult_le_reg_r in X; [|exact Dp]. rewrite Rmult_plus_distr_l, Rmult_1_r, (Rmult_comm _ eta) in X. rewrite Rabs_left1; lra.
Qed.

(** ** enclosures of the powers of five *)
Open Scope Z_scope.
Definition encl : Type := Z * Z * Z.
Definition encloses (s : encl) (k : Z) : Prop := let '(l, u, t) := s in 0 < l /\ 0 <= t /\ l * 2^t <= 5^k <= u * 2^t.
Definition step (s : encl) : encl :=
  let '(l, u, t) := s in
  let l := 5 * l in
  let u := 5 * u in
  if 2^140 <=? l then (Z.shiftr l 3, Z.shiftr u 3 + 1, t + 3) else (l, u, t).
Lemma step_ok s k : 0 <= k -> encloses s k -> encloses (step s) (k + 1).
Proof.
  destruct s as [[l u] t]. intros Hk (H1 & Ht & H2). unfold step. rewrite !shiftr_div by lia. change (2^3) with 8.
  assert (E : 5^(k + 1) = 5 * 5^k) by (rewrite Z.pow_add_r by lia; lia).
  assert (P : 0 < 2^t) by (apply pow2_pos; lia). 
  destruct (Z.leb_spec (2^140) (5 * l)); unfold encloses; rewrite E.
  - assert (E3 : 2^(t + 3) = 8 * 2^t) by (rewrite Z.pow_add_r by lia; lia). rewrite E3.
    pose proof (Z.div_mod (5 * l) 8 ltac:(lia)) as D1. pose proof (Z.mod_pos_bound (5 * l) 8 ltac:(lia)).
    pose proof (Z.div_mod (5 * u) 8 ltac:(lia)) as D2. pose proof (Z.mod_pos_bound (5 * u) 8 ltac:(lia)).
    set (x := 5 * l / 8) in *. set (y := 5 * u / 8) in *. split; [lia|split; [lia|]].
    assert (8 * x * 2^t <= 5 * l * 2^t) by (apply Z.mul_le_mono_nonneg_r; lia).
    assert (5 * u * 2^t <= 8 * (y + 1) * 2^t) by (apply Z.mul_le_mono_nonneg_r; lia). lia.
  - lia.
Qed.
Definition bounds (neg : bool) (s : encl) : frac * frac :=
  let '(l, u, t) := s in if neg then ((1, u, - t), (1, l, - t)) else ((l, 1, t), (u, 1, t)).
Definition expo (neg : bool) (k : Z) : Z := if neg then - k else k.
Lemma bounds_ok neg s k : 0 <= k -> encloses s k -> let f := (ten (expo neg k) * pow2 (- expo neg k))%R in fle (fst (bounds neg s)) f /\ fge (snd (bounds neg s)) f.
Proof.
  destruct s as [[l u] t]. intros Hk (H1 & Ht & H2).
  assert (P : 0 < 2^t) by (apply pow2_pos; lia). assert (P5 : 0 < 5^k) by (apply Z.pow_pos_nonneg; lia).
  assert (Hu : 0 < u) by nia.
  assert (F : (ten (expo neg k) * pow2 (- expo neg k) = if neg then / IZR (5^k) else IZR (5^k))%R).
  { rewrite ten_25. unfold expo. destruct neg.
    - destruct (Z.leb_spec 0 (- k)).
      + assert (k = 0) as -> by lia. cbn. lra.
      + rewrite Z.opp_involutive. unfold Rdiv. rewrite Rmult_comm, <- Rmult_assoc, pow2_mul. replace (k + - k) with 0 by lia. cbn [bpow]. lra.
    - replace (0 <=? k) with true by lia. rewrite Rmult_comm, <- Rmult_assoc, pow2_mul. replace (- k + k) with 0 by lia. cbn [bpow]. lra. }
  cbv zeta. rewrite F. destruct H2 as [L U]. apply IZR_le in L, U. rewrite mult_IZR, pow2_Z in L, U by lia.
  assert (R5 : (0 < IZR (5^k))%R) by (apply IZR_lt; lia). pose proof (bpow_gt_0 radix2 t) as PT.
  assert (PI : (pow2 (- t) = / pow2 t)%R) by (symmetry; apply pow2_inv).
  unfold bounds. destruct neg; cbn [fst snd]; unfold fle, fge.
  - rewrite PI. split; (split; [lia|split; [lia|]]); rewrite Rmult_1_l; apply (Rmult_le_reg_r (pow2 t * IZR (5^k))); try nra.
    + replace (/ pow2 t * (pow2 t * IZR (5^k)))%R with (IZR (5^k)) by (field; lra).
      replace (IZR u * / IZR (5^k) * (pow2 t * IZR (5^k)))%R with (IZR u * pow2 t)%R by (field; lra). exact U.
    + replace (/ pow2 t * (pow2 t * IZR (5^k)))%R with (IZR (5^k)) by (field; lra).
      replace (IZR l * / IZR (5^k) * (pow2 t * IZR (5^k)))%R with (IZR l * pow2 t)%R by (field; lra). exact L.
  - split; (split; [lia|split; [lia|]]); lra.
Qed.

Fixpoint certs (lo hi : frac) (e q : Z) (l : list (Z * Z * Z * Z)) : bool :=
  match l with [] => true | k :: l => cert lo hi e q k && certs lo hi e (q + 1) l end.
Lemma certs_ok lo hi e f l : fle lo f -> fge hi f -> forall q, certs lo hi e q l = true -> forall w M q',
  0 < w < 10^18 -> 0 < M < 2^54 -> q <= q' < q + Z.of_nat (length l) ->
  (eta * (IZR w * (f * pow2 e)) <= Rabs (IZR w * (f * pow2 e) - IZR M * pow2 q'))%R.
Proof.
  intros FL FG. induction l as [|k l IH]; intros q H w M q' Hw HM Hq; cbn [length certs] in *; [lia|].
  apply andb_prop in H as [H1 H2]. destruct (Z.eq_dec q' q) as [->|N]; [exact (cert_ok lo hi e q k f H1 FL FG w M Hw HM)|].
  apply (IH (q + 1)); try assumption. lia.
Qed.
Definition row_check (neg : bool) (k : Z) (s : encl) (row : Z * list (Z * Z * Z * Z)) : bool :=
  let '(lo, hi) := bounds neg s in
  let '(n1, d1, x1) := lo in
  let '(n2, d2, x2) := hi in
  let e := expo neg k in
  let '(q0, l) := row in
  let qend := q0 + Z.of_nat (length l) in
  ((q0 =? -1075) || le2 (8 * d1) (7 * 10^17 * n1) (x1 + e - q0 - 53)) && (-1075 <? qend) &&
  le2 (9 * 10^18 * n2) (8 * d2) (qend + 53 - x2 - e) && certs lo hi e q0 l.
Lemma row_ok neg k s row : 0 <= k -> encloses s k -> row_check neg k s row = true -> forall w M q,
  10^17 <= w < 10^18 -> 0 < M < 2^54 -> -1075 <= q -> q = -1075 \/ 2^53 <= M ->
  let v := (IZR w * ten (expo neg k))%R in let m := (IZR M * pow2 q)%R in
  (7/8 * v < m < 9/8 * v -> eta * v <= Rabs (v - m))%R.
Proof.
  intros Hk HE HC w M q Hw HM Hq Hn v m Hv. pose proof (bounds_ok neg s k Hk HE) as BO. unfold row_check in HC.
  destruct (bounds neg s) as [lo hi]. cbn [fst snd] in BO. set (e := expo neg k) in *. set (f := (ten e * pow2 (- e))%R) in *.
  assert (TE : (ten e = f * pow2 e)%R) by (unfold f; rewrite Rmult_assoc, pow2_mul; replace (- e + e) with 0 by lia; cbn [bpow]; ring).
  destruct BO as [FL FG]. pose proof (certs_ok lo hi e f) as CO. destruct lo as [[n1 d1] x1], hi as [[n2 d2] x2]. destruct row as [q0 l].
  apply andb_prop in HC as [HC C4]. apply andb_prop in HC as [HC C3]. apply andb_prop in HC as [C1 C2]. apply Z.ltb_lt in C2.
  destruct FL as (Pn1 & Pd1 & FL'). destruct FG as (Pn2 & Pd2 & FG').
  assert (Rd1 : (0 < IZR d1)%R) by (apply IZR_lt; lia). assert (Rd2 : (0 < IZR d2)%R) by (apply IZR_lt; lia).
  assert (Tp : (0 < ten e)%R) by apply ten_pos.
  assert (W1 : (IZR (10^17) * ten e <= v)%R) by (apply Rmult_le_compat_r; [lra|apply IZR_le; lia]).
  assert (W2 : (v <= IZR (10^18) * ten e)%R) by (apply Rmult_le_compat_r; [lra|apply IZR_le; lia]).
  assert (Pe : (0 < pow2 e)%R) by apply bpow_gt_0.
  assert (Q0 : q0 <= q).
  { destruct (Z.lt_ge_cases q q0) as [L|]; [exfalso|assumption]. apply orb_prop in C1 as [C1|C1]; [apply Z.eqb_eq in C1; lia|].
    apply le2_ok in C1. rewrite !mult_IZR in C1.
    assert (m < pow2 (q0 + 53))%R.
    { apply Rlt_le_trans with (IZR (2^54) * pow2 q)%R; [apply Rmult_lt_compat_r; [apply bpow_gt_0|apply IZR_lt; lia]|]. rewrite pow2_Z, pow2_mul by lia. apply bpow_le. lia. }
    assert (pow2 (q0 + 53) <= 7/8 * (IZR (10^17) * ten e))%R; [|lra].
    replace (x1 + e - q0 - 53) with (x1 + (e + - (q0 + 53))) in C1 by lia. rewrite !bpow_plus, bpow_opp in C1. rewrite bpow_plus in C1 |- *.
    set (a := pow2 q0) in *. set (b := pow2 53) in *. assert (0 < a * b)%R by (apply Rmult_lt_0_compat; apply bpow_gt_0). set (ab := (a * b)%R) in *.
    apply (Rmult_le_compat_r ab) in C1; [|lra]. apply (Rmult_le_reg_r (8 * IZR d1)%R); [lra|].
    apply Rle_trans with (7 * IZR (10^17) * (IZR n1 * pow2 x1) * pow2 e)%R.
    - apply Rle_trans with (8 * IZR d1 * ab)%R; [right; ring|]. apply Rle_trans with (1 := C1). right. field. lra.
    - rewrite TE. apply Rle_trans with (7 * IZR (10^17) * (IZR d1 * f) * pow2 e)%R; [|right; field].
      apply Rmult_le_compat_r; [lra|]. apply Rmult_le_compat_l; [lra|exact FL']. }
  assert (Q1 : q < q0 + Z.of_nat (length l)).
  { destruct (Z.lt_ge_cases q (q0 + Z.of_nat (length l))) as [|G]; [assumption|exfalso]. assert (2^53 <= M) by lia.
    set (qe := q0 + Z.of_nat (length l)) in *.
    assert (pow2 (qe + 53) <= m)%R.
    { apply Rle_trans with (IZR (2^53) * pow2 q)%R; [|apply Rmult_le_compat_r; [apply bpow_ge_0|apply IZR_le; lia]]. rewrite pow2_Z, pow2_mul by lia. apply bpow_le. lia. }
    assert (9/8 * (IZR (10^18) * ten e) <= pow2 (qe + 53))%R; [|lra].
    apply le2_ok in C3. rewrite !mult_IZR in C3. 
    replace (qe + 53 - x2 - e) with ((qe + 53) + (- x2 + - e)) in C3 by lia. rewrite (bpow_plus _ (qe + 53)), (bpow_plus _ (- x2) (- e)), !bpow_opp in C3.
    set (Z53 := pow2 (qe + 53)) in *. set (X2 := pow2 x2) in *. assert (HX2 : (0 < X2)%R) by apply bpow_gt_0.
    apply (Rmult_le_compat_r (X2 * pow2 e)) in C3; [|apply Rlt_le, Rmult_lt_0_compat; lra].
    apply (Rmult_le_reg_r (8 * IZR d2)%R); [lra|].
    apply Rle_trans with (9 * IZR (10^18) * (IZR n2 * X2) * pow2 e)%R.
    - rewrite TE. apply Rle_trans with (9 * IZR (10^18) * (IZR d2 * f) * pow2 e)%R; [right; field|].
      apply Rmult_le_compat_r; [lra|]. apply Rmult_le_compat_l; [lra|exact FG'].
    - apply Rle_trans with (9 * IZR (10^18) * IZR n2 * (X2 * pow2 e))%R; [right; ring|]. apply Rle_trans with (1 := C3). right. field. lra. }
  unfold v. rewrite TE. apply (CO l ltac:(repeat split; assumption) ltac:(repeat split; assumption) q0 C4 w M q); lia.
Qed.

Fixpoint rows_check (neg : bool) (k : Z) (s : encl) (rows : list (Z * list (Z * Z * Z * Z))) : bool :=
  match rows with [] => true | r :: rows => row_check neg k s r && rows_check neg (k + 1) (step s) rows end.
Lemma rows_ok neg rows : forall k s, 0 <= k -> encloses s k -> rows_check neg k s rows = true -> forall j, k <= j < k + Z.of_nat (length rows) ->
  exists s row, encloses s j /\ row_check neg j s row = true.
Proof.
  induction rows as [|r rows IH]; intros k s Hk HE H j Hj; cbn [length rows_check] in *; [lia|].
  apply andb_prop in H as [H1 H2]. destruct (Z.eq_dec j k) as [->|N]; [exists s, r; auto|].
  apply (IH (k + 1) (step s)); try lia; [|exact H2]. apply step_ok; assumption.
Qed.
Lemma iter_step n : encloses (Nat.iter n step (1, 1, 0)) (Z.of_nat n).
Proof.
  induction n as [|n IH]; [cbn; lia|]. cbn [Nat.iter]. replace (Z.of_nat (S n)) with (Z.of_nat n + 1) by lia. apply step_ok; [lia|exact IH].
Qed.
Definition neg_start : encl := Eval vm_compute in Nat.iter 35 step (1, 1, 0).
Definition pos_start : encl := Eval vm_compute in Nat.iter 38 step (1, 1, 0).
Lemma neg_checked : rows_check true 35 neg_start neg_rows = true.
Proof. vm_compute. reflexivity. Qed.
Lemma pos_checked : rows_check false 38 pos_start pos_rows = true.
Proof. vm_compute. reflexivity. Qed.

(** ** decimals of 18 digits *)
Open Scope R_scope.
Lemma ten_plus a b : ten (a + b) = ten a * ten b.
Proof.
  assert (E : forall k, ten k = bpow (Build_radix 10 eq_refl) k).
  { intros k. unfold ten. destruct (Z.leb_spec 0 k) as [H|H].
    - change 10%Z with (radix_val (Build_radix 10 eq_refl)). apply IZR_Zpower. exact H.
    - change 10%Z with (radix_val (Build_radix 10 eq_refl)) at 1. rewrite IZR_Zpower, <- bpow_opp by lia. f_equal. lia. }
  rewrite !E. apply bpow_plus.
Qed.
Lemma ten_le a b : (a <= b)%Z -> ten a <= ten b.
Proof.
  intros H. replace b with (a + (b - a))%Z by lia. rewrite ten_plus. pose proof (ten_pos a).
  assert (1 <= ten (b - a)). { unfold ten. replace (0 <=? b - a)%Z with true by lia. apply IZR_le. pose proof (Z.pow_pos_nonneg 10 (b - a)). lia. }
  nra.
Qed.
Lemma ten_Z k : (0 <= k)%Z -> ten k = IZR (10^k).
Proof. intros H. unfold ten. replace (0 <=? k)%Z with true by lia. reflexivity. Qed.
Lemma ten_small : ten (-324) < pow2 (-1076).
Proof.
  unfold ten. cbn [Z.leb Z.opp]. replace (pow2 (-1076)) with (/ IZR (2^1076)).
  2:{ rewrite pow2_Z by lia. rewrite pow2_inv. reflexivity. }
  apply Rinv_lt_contravar; [apply Rmult_lt_0_compat; apply IZR_lt; apply Z.pow_pos_nonneg; lia|]. apply IZR_lt. vm_compute. reflexivity.
Qed.
Lemma ten_big : pow2 1024 <= ten 309.
Proof. rewrite ten_Z by lia. rewrite <- pow2_Z by lia. apply IZR_le. vm_compute. discriminate. Qed.

Lemma mid_cases m : midpoint m -> 0 < m -> exists M q, m = IZR M * pow2 q /\ (0 < M < 2^54)%Z /\ (-1075 <= q)%Z /\ (q = -1075 \/ 2^53 <= M)%Z.
Proof.
  intros H Hm. destruct (halfway_pos (-1074) 53 (-1075) 54 eq_refl ltac:(lia) ltac:(lia) m H Hm) as (n & e & E & H1 & H2 & H3).
  exists (2 * n + 1)%Z, (e - 1)%Z. change (53 - 1)%Z with 52%Z in H3. repeat split; try lia. exact E.
Qed.
Lemma far_tiny x : 0 < x < pow2 (-1076) -> far x.
Proof.
  intros [H0 H] m Hm Pm. destruct (mid_cases m Hm Pm) as (M & q & -> & HM & Hq & _).
  assert (K : 2 * x < IZR M * pow2 q).
  { apply Rlt_le_trans with (pow2 (-1075)).
    - replace (pow2 (-1075)) with (2 * pow2 (-1076)) by (change (-1075)%Z with (1 + -1076)%Z; rewrite (bpow_plus _ 1); reflexivity). lra.
    - apply Rle_trans with (1 * pow2 q); [rewrite Rmult_1_l; apply bpow_le; lia|]. apply Rmult_le_compat_r; [apply bpow_ge_0|apply IZR_le; lia]. }
  assert (pow2 (-124) < 1) by (change 1 with (pow2 0); apply bpow_lt; lia).
  rewrite Rabs_left1 by lra. nra.
Qed.
Lemma far_row neg k w : (exists s row, encloses s k /\ row_check neg k s row = true) -> (0 <= k)%Z -> (10^17 <= w < 10^18)%Z -> far (IZR w * ten (expo neg k)).
Proof.
  intros (s & row & HE & HC) Hk Hw m Hm Pm. destruct (mid_cases m Hm Pm) as (M & q & Em & HM & Hq & Hn).
  pose proof (row_ok neg k s row Hk HE HC w M q Hw HM Hq Hn) as R. cbv zeta in R. rewrite <- Em in R.
  set (v := IZR w * ten (expo neg k)) in *.
  assert (Pv : 0 < v) by (apply Rmult_lt_0_compat; [apply IZR_lt; lia|apply ten_pos]).
  assert (E24 : pow2 (-124) * v < eta * v).
  { apply Rmult_lt_compat_r; [exact Pv|]. unfold eta. change (-124)%Z with (2 + -126)%Z. rewrite bpow_plus. change (pow2 2) with 4. pose proof (bpow_gt_0 radix2 (-126)). lra. }
  assert (S8 : pow2 (-124) < 1/8). { replace (1/8) with (pow2 (-3)) by (cbn; lra). apply bpow_lt. lia. }
  destruct (Rle_or_lt m (7/8 * v)) as [A|A]; [rewrite Rabs_pos_eq by lra; nra|].
  destruct (Rle_or_lt (9/8 * v) m) as [B|B]; [rewrite Rabs_left1 by lra; nra|].
  apply Rlt_le_trans with (1 := E24). apply R. lra.
Qed.
Lemma far_18 w e : (10^17 <= w < 10^18)%Z -> (e <= -35 \/ 38 <= e)%Z -> IZR w * ten e < pow2 1024 -> far (IZR w * ten e).
Proof.
  intros Hw He Hv. assert (Pv : 0 < IZR w * ten e) by (apply Rmult_lt_0_compat; [apply IZR_lt; lia|apply ten_pos]).
  destruct (Z.le_gt_cases e (-342)) as [A|A].
  - apply far_tiny. split; [exact Pv|]. apply Rlt_trans with (2 := ten_small).
    apply Rlt_le_trans with (ten 18 * ten e); [apply Rmult_lt_compat_r; [apply ten_pos|]; rewrite ten_Z by lia; apply IZR_lt; lia|].
    rewrite <- ten_plus. apply ten_le. lia.
  - destruct He as [He|He].
    + replace e with (expo true (- e)) by (unfold expo; lia). apply far_row; try lia.
      apply (rows_ok true neg_rows 35 neg_start); [lia|exact (iter_step 35)|exact neg_checked|]. change (Z.of_nat (length neg_rows)) with 307%Z. lia.
    + assert (e <= 291)%Z.
      { destruct (Z.le_gt_cases e 291) as [|G]; [assumption|exfalso]. 
        assert (ten 309 <= IZR w * ten e); [|pose proof ten_big; lra].
        apply Rle_trans with (ten 17 * ten e); [rewrite <- ten_plus; apply ten_le; lia|]. apply Rmult_le_compat_r; [apply Rlt_le, ten_pos|]. rewrite ten_Z by lia. apply IZR_le. lia. }
      replace e with (expo false e) by reflexivity. apply far_row; try lia.
      apply (rows_ok false pos_rows 38 pos_start); [lia|exact (iter_step 38)|exact pos_checked|]. change (Z.of_nat (length pos_rows)) with 254%Z. lia.
Qed.
