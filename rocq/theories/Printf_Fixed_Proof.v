(** %f *)
From Verif Require Import Base Bits FP Rne Str_Spec Printf_Model Printf_Spec Printf_Hex_Spec Printf_Fixed_Model Printf_Fixed_Spec
  Printf_Proof Printf_Hex_Proof Printf_Limb_Proof.
Open Scope Z_scope.
Local Ltac Zify.zify_post_hook ::= idtac.

(** ** rounding *)
Lemma rne_unique n d N : 0 < d -> 2 * Z.abs (N * d - n) < d -> rne n d = N.
Proof.
  intros Hd H. rewrite rne_unfold. pose proof (Z.div_mod n d ltac:(lia)) as D. pose proof (Z.mod_pos_bound n d Hd) as Bm.
  pose proof (Z.mod_pos_bound (n / d) 2 ltac:(lia)) as B2. set (q := n / d) in *. set (r := n mod d) in *. set (b := q mod 2) in *.
  assert (C : N = q \/ N = q + 1) by nia. destruct C as [-> | ->].
  - replace (d <? 2 * r + b) with false; [cbn; lia|]. symmetry. apply Z.ltb_ge. nia.
  - replace (d <? 2 * r + b) with true; [cbn; lia|]. symmetry. apply Z.ltb_lt. nia.
Qed.
Lemma rne_near n d : 0 < d -> 2 * Z.abs (rne n d * d - n) <= d.
Proof.
  intros Hd. rewrite rne_unfold. pose proof (Z.div_mod n d ltac:(lia)) as D. pose proof (Z.mod_pos_bound n d Hd) as Bm.
  pose proof (Z.mod_pos_bound (n / d) 2 ltac:(lia)) as B2. set (q := n / d) in *. set (r := n mod d) in *. set (b := q mod 2) in *.
  destruct (d <? 2 * r + b) eqn:E; cbn [b2z]; nia.
Qed.
Lemma rne_exact k d : 0 < d -> rne (k * d) d = k.
Proof. intros Hd. apply rne_unique; [lia|]. rewrite Z.sub_diag. cbn. lia. Qed.
Lemma rnd53_err n k : 0 <= n < 2^k -> 53 <= k -> Z.abs (rnd53 n - n) <= 2^(k - 54) /\ 0 <= rnd53 n.
Proof.
  intros Hn Hk. unfold rnd53. assert (P : 0 < 2^(k - 54) \/ k = 53) by (destruct (Z.eq_dec k 53); [auto|left; apply Z.pow_pos_nonneg; lia]).
  destruct (n <? 2^53) eqn:E.
  { rewrite Z.sub_diag. split; [|lia]. cbn. apply Z.pow_nonneg. lia. }
  assert (L : Z.log2 n < k) by (apply Z.log2_lt_pow2; lia). assert (L2 : 53 <= Z.log2 n) by (apply Z.log2_le_pow2; lia).
  set (s := Z.log2 n - 52). assert (Ps : 0 < 2^s) by (apply Z.pow_pos_nonneg; lia).
  pose proof (rne_near n (2^s) Ps) as R. split.
  - assert (2^s <= 2 * 2^(k - 54)); [|lia]. rewrite <- Z.pow_succ_r by lia. apply Z.pow_le_mono_r; lia.
  - apply Z.mul_nonneg_nonneg; [|lia]. apply (rne_range n (2^s) 0 n); [lia|]. nia.
Qed.
Lemma rnd53_exact k t : 0 <= k < 2^53 -> 0 <= t -> rnd53 (k * 2^t) = k * 2^t.
Proof.
  intros Hk Ht. unfold rnd53. destruct (_ <? 2^53) eqn:E; [reflexivity|]. assert (Pt : 0 < 2^t) by (apply Z.pow_pos_nonneg; lia).
  assert (L : Z.log2 (k * 2^t) < 53 + t). { apply Z.log2_lt_pow2; [lia|]. rewrite Z.pow_add_r by lia. nia. }
  assert (L2 : 53 <= Z.log2 (k * 2^t)) by (apply Z.log2_le_pow2; lia).
  set (s := Z.log2 (k * 2^t) - 52) in *. assert (Ps : 0 < 2^s) by (apply Z.pow_pos_nonneg; lia).
  replace (k * 2^t) with (k * 2^(t - s) * 2^s). { now rewrite rne_exact by lia. }
  rewrite <- Z.mul_assoc, <- Z.pow_add_r by lia. do 2 f_equal. lia.
Qed.

(** ** decimal digits *)
Definition dig (c : Z) : Prop := 48 <= c <= 57.
Fixpoint dv (l : list Z) : Z := match l with [] => 0 | c :: l => (c - 48) * 10 ^ Z.of_nat (len l) + dv l end.
Lemma dig_value c : dig c -> digit_value c = c - 48.
Proof. unfold dig, digit_value. intros H. destruct (c <=? 57) eqn:E; lia. Qed.
Lemma dv_nv l : Forall dig l -> numeral_value 10 l = dv l.
Proof. induction 1 as [|c l Hc _ I]; [reflexivity|]. rewrite nv_cons by lia. cbn [dv]. rewrite I, dig_value by exact Hc. reflexivity. Qed.
Lemma dig_alpha c : alpha 10 false c -> dig c.
Proof. unfold alpha, dig. intros H. vm_compute in H. lia. Qed.
Lemma alpha_dig c : dig c -> alpha 10 false c.
Proof. unfold dig. intros H. replace c with (dchar false (c - 48)). { apply dchar_alpha; lia. } rewrite dchar_dec by lia. lia. Qed.
Lemma dv_app a b : dv (a ++ b) = dv a * 10 ^ Z.of_nat (len b) + dv b.
Proof. induction a as [|c a I]; [cbn; lia|]. cbn [dv List.app]. rewrite I, app_length, Nat2Z.inj_add, Z.pow_add_r by lia. ring. Qed.
Lemma dv_bound l : Forall dig l -> 0 <= dv l < 10 ^ Z.of_nat (len l).
Proof.
  induction 1 as [|c l Hc _ I]; [cbn; lia|]. cbn [dv len]. rewrite Nat2Z.inj_succ, Z.pow_succ_r by lia. unfold dig in Hc. nia.
Qed.
Lemma zeros_dig n : Forall dig (chars 48 n).
Proof. apply Forall_forall. intros x Hx. apply repeat_spec in Hx as ->. unfold dig. lia. Qed.
Lemma zeros_dv n : dv (chars 48 n) = 0.
Proof. unfold chars. induction (Z.to_nat n) as [|k I]; [reflexivity|]. cbn [repeat dv]. rewrite I. lia. Qed.
Lemma pow10S n : 10 ^ Z.of_nat (S n) = 10 * 10 ^ Z.of_nat n.
Proof. rewrite Nat2Z.inj_succ. apply Z.pow_succ_r. lia. Qed.
Lemma pow10pos n : 0 < 10 ^ Z.of_nat n.
Proof. apply Z.pow_pos_nonneg; lia. Qed.

Lemma frac_ok n : forall fr, 0 <= fr < 2^60 -> exists l, frac_digits n fr = (l, (fr * 10 ^ Z.of_nat n) mod 2^60) /\
  len l = n /\ Forall dig l /\ dv l = fr * 10 ^ Z.of_nat n / 2^60.
Proof.
  induction n as [|n I]; intros fr H.
  - exists []. cbn [frac_digits]. change (10 ^ Z.of_nat 0) with 1. rewrite Z.mul_1_r, Z.mod_small, Z.div_small by lia. repeat split; constructor.
  - cbn [frac_digits]. assert (E : u64 (fr * 10) = fr * 10) by (unfold u64; apply Z.mod_small; lia). rewrite E.
    pose proof (Z.mod_pos_bound (fr * 10) (2^60) ltac:(lia)) as Bm. destruct (I ((fr * 10) mod 2^60) Bm) as (l & -> & Ll & Dl & Vl).
    rewrite Z.shiftr_div_pow2 by lia. pose proof (Z.div_mod (fr * 10) (2^60) ltac:(lia)) as D.
    assert (Bd : 0 <= fr * 10 / 2^60 < 10) by (split; [apply Z.div_pos; lia|apply Z.div_lt_upper_bound; lia]).
    exists (48 + fr * 10 / 2^60 :: l). rewrite pow10S. set (P := 10 ^ Z.of_nat n) in *.
    set (d := fr * 10 / 2^60) in *. set (m := (fr * 10) mod 2^60) in *.
    assert (EQ : fr * (10 * P) = m * P + d * P * 2^60) by (replace (fr * (10 * P)) with (fr * 10 * P) by ring; rewrite D; ring).
    rewrite EQ, Z.mod_add, Z.div_add by lia. repeat split.
    + cbn. lia.
    + constructor; auto. unfold dig. lia.
    + cbn [dv]. rewrite Vl, Ll. fold P. lia.
Qed.
Lemma carry_ok l : Forall (fun c => 48 <= c <= 58) l -> exists l' b, carry_digits l = (l', b) /\ len l' = len l /\ Forall dig l' /\
  dv l' + b2z b * 10 ^ Z.of_nat (len l) = dv l.
Proof.
  induction 1 as [|c l Hc _ I]; [exists [], false; cbn; repeat split; constructor|].
  destruct I as (l' & b & E & Ll & Dl & Vl). cbn [carry_digits]. rewrite E.
  assert (Bb : 0 <= b2z b <= 1) by (destruct b; cbn; lia).
  destruct (57 <? c + b2z b) eqn:Q.
  - exists (c + b2z b - 10 :: l'), true. split; [reflexivity|]. split; [cbn; lia|]. split; [constructor; auto; unfold dig; lia|].
    cbn [dv b2z len]. rewrite pow10S, Ll. lia.
  - exists (c + b2z b :: l'), false. split; [reflexivity|]. split; [cbn; lia|]. split; [constructor; auto; unfold dig; lia|].
    cbn [dv b2z len]. rewrite Ll. lia.
Qed.
Lemma dig_nondigit l c : Forall dig l -> 48 <= c <= 58 -> Forall (fun c => 48 <= c <= 58) (l ++ [c]).
Proof. intros H Hc. apply Forall_app. split; [eapply Forall_impl; [|exact H]; unfold dig; intros; lia|constructor; auto]. Qed.

Definition good_tie (X p : Z) : Prop := let r := 2 * ((X * 10^p) mod 2^60) in r = 2^60 \/ 4096 < Z.abs (r - 2^60).
Lemma last_ok f : 0 <= f < 2^60 ->
  let l := rne (rnd53 (10 * rnd53 f)) (2^60) in
  0 <= l <= 10 /\ 2 * Z.abs (l * 2^60 - 10 * f) <= 2^60 + 3328 /\
  (let r := 2 * ((10 * f) mod 2^60) in r = 2^60 \/ 4096 < Z.abs (r - 2^60) -> l = rne (10 * f) (2^60)).
Proof.
  intros Hf. pose proof (rnd53_err f 60 Hf ltac:(lia)) as [E1 P1]. change (2^(60 - 54)) with 64 in E1.
  pose proof (rnd53_err (10 * rnd53 f) 64 ltac:(lia) ltac:(lia)) as [E2 P2]. change (2^(64 - 54)) with 1024 in E2.
  set (a := rnd53 f) in *. set (G := rnd53 (10 * a)) in *.
  pose proof (rne_near G (2^60) ltac:(lia)) as R. cbv zeta. set (l := rne G (2^60)) in *.
  split; [lia|]. split; [lia|].
  intros [T|T].
  - pose proof (Z.div_mod (10 * f) (2^60) ltac:(lia)) as D. set (q := 10 * f / 2^60) in *. set (r := (10 * f) mod 2^60) in *.
    (* 10 f = (2q+1) 2^59, hence 5 divides 2q+1 and f is a multiple of 2^58 *)
    assert (EX : exists k, f = k * 2^58 /\ 0 <= k < 4).
    { exists (f / 2^58). assert (f = f / 2^58 * 2^58); [|lia].
      assert (W : 5 * f = (2 * q + 1) * 2^58) by lia.
      assert (DV : (2^58 | 5 * f)) by (exists (2 * q + 1); lia).
      apply Z.gauss in DV; [|reflexivity]. destruct DV as [k Hk]. rewrite Hk. rewrite Z.div_mul by lia. reflexivity. }
    destruct EX as (k & Ek & Bk).
    assert (Ea : a = f). { unfold a. rewrite Ek. apply rnd53_exact; lia. }
    assert (EG : G = 10 * f). { unfold G. rewrite Ea, Ek. replace (10 * (k * 2^58)) with ((10 * k) * 2^58) by ring. apply rnd53_exact; lia. }
    unfold l. now rewrite EG.
  - apply rne_unique; [lia|]. pose proof (rne_near (10 * f) (2^60) ltac:(lia)) as R2. set (N := rne (10 * f) (2^60)) in *.
    pose proof (Z.div_mod (10 * f) (2^60) ltac:(lia)) as D. pose proof (Z.mod_pos_bound (10 * f) (2^60) ltac:(lia)) as Bm.
    set (q := 10 * f / 2^60) in *. set (r := (10 * f) mod 2^60) in *.
    assert (NN : N = q \/ N = q + 1) by lia. lia.
Qed.

Lemma rne_even K n d : 0 < d -> rne (2 * K * d + n) d = 2 * K + rne n d.
Proof.
  intros Hd. rewrite !rne_unfold. rewrite (Z.add_comm (2 * K * d)), Z.div_add, Z.mod_add by lia.
  replace ((n / d + 2 * K) mod 2) with ((n / d) mod 2) by (rewrite (Z.mul_comm 2 K), Z.mod_add by lia; reflexivity). lia.
Qed.

Lemma modf_ok X p : 0 <= X < 2^124 -> (X mod 2^60 = 0 \/ X / 2^60 + 1 < 2^64) -> 0 <= p -> exists t f, limbs_modf_ X p = (t, f) /\ Z.of_nat (len f) = p /\ Forall dig f /\
  0 <= t /\ t <= X / 2^60 + 1 /\
  let N := t * 10^p + dv f in 2 * Z.abs (N * 2^60 - X * 10^p) <= 2^60 + 3328 /\ (p = 0 \/ good_tie X p -> N = rne (X * 10^p) (2^60)).
Proof.
  intros HX HW Hp. unfold limbs_modf_. assert (BQ : 0 <= X / 2^60 < 2^64) by (split; [apply Z.div_pos; lia|apply Z.div_lt_upper_bound; lia]).
  pose proof (Z.div_mod X (2^60) ltac:(lia)) as D. pose proof (Z.mod_pos_bound X (2^60) ltac:(lia)) as Bm.
  set (i := X / 2^60) in *. set (fr := X mod 2^60) in *.
  destruct (p =? 0) eqn:E.
  - assert (p = 0) by lia. subst p. exists (rne X (2^60)), []. pose proof (rne_near X (2^60) ltac:(lia)) as R. change (10^0) with 1. cbn [dv len].
    split; [reflexivity|]. split; [reflexivity|]. split; [constructor|]. split; [lia|]. split; [lia|]. cbv zeta. rewrite !Z.mul_1_r, Z.add_0_r. split; [lia|reflexivity].
  - destruct (frac_ok (Z.to_nat (p - 1)) fr Bm) as (l & -> & Ll & Dl & Vl). set (n := Z.to_nat (p - 1)) in *.
    assert (Pn : 10^p = 10 * 10^Z.of_nat n) by (rewrite <- Z.pow_succ_r by lia; f_equal; lia).
    set (P := 10^Z.of_nat n) in *. pose proof (pow10pos n) as PP. fold P in PP.
    pose proof (Z.div_mod (fr * P) (2^60) ltac:(lia)) as D2. pose proof (Z.mod_pos_bound (fr * P) (2^60) ltac:(lia)) as Bf.
    set (q := fr * P / 2^60) in *. set (f := (fr * P) mod 2^60) in *.
    destruct (last_ok f Bf) as (L1 & L2 & L3). set (d := rne (rnd53 (10 * rnd53 f)) (2^60)) in *. cbv zeta in L3.
    destruct (carry_ok (l ++ [48 + d]) (dig_nondigit l (48 + d) Dl ltac:(lia))) as (l' & b & -> & Ll' & Dl' & Vl').
    rewrite dv_app, app_length in Vl'. cbn [len dv] in Vl'. rewrite Vl in Vl'. change (10 ^ Z.of_nat 0) with 1 in Vl'. change (10 ^ Z.of_nat 1) with 10 in Vl'.
    rewrite Ll in Vl'. replace (10 ^ Z.of_nat (n + 1)) with (10 * P) in Vl' by (rewrite Nat.add_1_r, pow10S; reflexivity).
    set (t := if b : bool then u64 (i + 1) else i).
    assert (Et : t = i + b2z b).
    { unfold t. destruct b; [|cbn; lia]. cbn [b2z] in *. unfold u64. apply Z.mod_small. destruct HW as [F0|HW]; [|lia].
      exfalso. assert (F1 : f = 0) by (unfold f; rewrite F0; reflexivity). assert (q = 0) by (unfold q; rewrite F0; reflexivity).
      assert (d = 0) by (unfold d; rewrite F1; reflexivity). pose proof (dv_bound l' Dl'). clear - Vl' PP H H0 H1. lia. }
    exists t, l'.
    split; [reflexivity|]. split; [rewrite Ll', app_length; cbn [len]; lia|]. split; [exact Dl'|].
    assert (Bb : 0 <= b2z b <= 1) by (destruct b; cbn; lia).
    split; [lia|]. split; [lia|]. cbv zeta. rewrite Pn.
    assert (EN : t * (10 * P) + dv l' = 2 * (5 * (i * P + q)) + d) by (rewrite Et; lia).
    assert (EX : X * (10 * P) = 2 * (5 * (i * P + q)) * 2^60 + 10 * f).
    { transitivity (10 * (i * P * 2^60 + fr * P)); [rewrite D; ring|]. rewrite D2. ring. }
    rewrite EN, EX. split.
    + replace ((2 * (5 * (i * P + q)) + d) * 2^60 - (2 * (5 * (i * P + q)) * 2^60 + 10 * f)) with (d * 2^60 - 10 * f) by ring. exact L2.
    + intros [H|H]; [lia|]. rewrite rne_even by lia. f_equal. apply L3. unfold good_tie in H. rewrite Pn, EX, Z.add_comm, Z.mod_add in H by lia. exact H.
Qed.

(** ** from bits to the number *)
Lemma ctz_ok n : forall x, 0 < x < 2^Z.of_nat n -> let c := ctz n x in 0 <= c < Z.of_nat n /\ x = Z.shiftr x c * 2^c.
Proof.
  induction n as [|n I]; intros x H; [cbn in H; lia|]. cbn [ctz]. rewrite Nat2Z.inj_succ, Z.pow_succ_r in H by lia.
  destruct (Z.odd x) eqn:O; [cbn; lia|]. pose proof (Zdiv2_odd_eqn x) as D. rewrite O, Z.add_0_r, Z.div2_div in D.
  assert (H2 : 0 < x / 2 < 2^Z.of_nat n) by lia. destruct (I _ H2) as [I1 I2]. set (c := ctz n (x / 2)) in *. cbv zeta. split; [lia|].
  rewrite Z.shiftr_div_pow2 in I2 |- * by lia. rewrite Z.pow_add_r by lia. change (2^1) with 2. rewrite <- Z.div_div by lia. lia.
Qed.
Lemma norm1 a : 0 < a < B -> norm [a] /\ lv [a] = a.
Proof. intros H. split; [|cbn [lv]; lia]. split; [repeat constructor; lia|]. split; [discriminate|]. cbn [len lv]. change (B ^ (Z.of_nat 1 - 1)) with 1. lia. Qed.
Lemma norm2 a b : 0 <= a < B -> 0 < b < B -> norm [a; b] /\ lv [a; b] = a + B * b.
Proof.
  intros H1 H2. split; [|cbn [lv]; lia]. split; [repeat constructor; lia|]. split; [discriminate|]. cbn [len lv].
  change (B ^ (Z.of_nat 2 - 1)) with B. rewrite Z.mul_0_r, Z.add_0_r. pose proof Bpos as P. clear - P H1 H2. generalize dependent B. intros. nia.
Qed.
Lemma norm3 a b c : 0 <= a < B -> 0 <= b < B -> 0 < c < B -> norm [a; b; c] /\ lv [a; b; c] = a + B * (b + B * c).
Proof.
  intros H1 H2 H3. split; [|cbn [lv]; lia]. split; [repeat constructor; lia|]. split; [discriminate|]. cbn [len lv].
  change (B ^ (Z.of_nat 3 - 1)) with (B * B). rewrite Z.mul_0_r, Z.add_0_r. pose proof Bpos as P. clear - P H1 H2 H3. generalize dependent B. intros.
  assert (z <= b + z * c) by nia. nia.
Qed.
Lemma u64_norm x : 0 < x < 2^64 -> norm (limbs_set_u64_ x) /\ lv (limbs_set_u64_ x) = x.
Proof.
  intros H. unfold limbs_set_u64_. pose proof (Z.div_mod x B ltac:(discriminate)) as D. pose proof (Z.mod_pos_bound x B ltac:(reflexivity)) as M.
  assert (Q : 0 <= x / B < 18446744074) by (split; [apply Z.div_pos; [lia|reflexivity]|apply Z.div_lt_upper_bound; [reflexivity|unfold BASE; lia]]).
  assert (Q2 : 0 <= x / B / B < B) by (split; [apply Z.div_pos; [lia|reflexivity]|apply Z.div_lt_upper_bound; [reflexivity|unfold BASE in *; lia]]).
  pose proof (Z.div_mod (x / B) B ltac:(discriminate)) as D2. pose proof (Z.mod_pos_bound (x / B) B ltac:(reflexivity)) as M2.
  set (q := x / B) in *. set (d0 := x mod B) in *. set (d2 := q / B) in *. set (d1 := q mod B) in *.
  assert (H0 : 0 < x) by lia. clearbody d0 d1 d2 q. clear H Q.
  destruct (d2 =? 0) eqn:E2; cbn [negb].
  - apply Z.eqb_eq in E2. subst d2. rewrite Z.mul_0_r, Z.add_0_l in D2. subst q. destruct (d1 =? 0) eqn:E1; cbn [negb].
    + apply Z.eqb_eq in E1. subst d1. rewrite Z.mul_0_r, Z.add_0_l in D. subst x. destruct (d0 =? 0) eqn:E0; cbn [negb]; [apply Z.eqb_eq in E0; lia|]. apply norm1. lia.
    + apply Z.eqb_neq in E1. destruct (norm2 d0 d1 M ltac:(lia)) as [A1 A2]. split; [exact A1|]. rewrite A2, D. ring.
  - apply Z.eqb_neq in E2. destruct (norm3 d0 d1 d2 M M2 ltac:(lia)) as [A1 A2]. split; [exact A1|]. rewrite A2, D, D2. ring.
Qed.
Lemma u18d_norm x : 0 < x < 2^53 -> norm (limbs_set_u18d_ x) /\ lv (limbs_set_u18d_ x) = x.
Proof.
  intros H. unfold limbs_set_u18d_. pose proof (Z.div_mod x B ltac:(discriminate)) as D. pose proof (Z.mod_pos_bound x B ltac:(reflexivity)) as M.
  assert (Q : 0 <= x / B < B) by (split; [apply Z.div_pos; [lia|reflexivity]|apply Z.div_lt_upper_bound; [reflexivity|unfold BASE; lia]]).
  assert (U : u32 (x / B) = x / B) by (unfold u32; apply Z.mod_small; unfold BASE in *; lia). rewrite U.
  set (d0 := x mod B) in *. set (d1 := x / B) in *. assert (H0 : 0 < x) by lia. clearbody d0 d1. clear H U.
  destruct (d1 =? 0) eqn:E1; cbn [negb].
  - apply Z.eqb_eq in E1. subst d1. rewrite Z.mul_0_r, Z.add_0_l in D. subst x. destruct (d0 =? 0) eqn:E0; cbn [negb]; [apply Z.eqb_eq in E0; lia|]. apply norm1. lia.
  - apply Z.eqb_neq in E1. destruct (norm2 d0 d1 M ltac:(lia)) as [A1 A2]. split; [exact A1|]. rewrite A2, D. ring.
Qed.
Lemma bits_limbs b k : 0 <= b <= 1100 -> 0 <= k -> 30103 * b <= 900000 * k -> 2^b <= B^k.
Proof.
  intros Hb Hk H. destruct (Z_le_gt_dec (2^b) (B^k)) as [L|G]; [exact L|exfalso].
  assert (P : 0 < B^k) by (apply Z.pow_pos_nonneg; [reflexivity|lia]).
  assert (S1 : (B^k)^485 < (2^b)^485) by (apply Z.pow_lt_mono_l; lia).
  rewrite <- !Z.pow_mul_r in S1 by lia. rewrite (Z.mul_comm b 485), (Z.pow_mul_r 2) in S1 by lia.
  assert (C : 2^485 <= 10^146) by (vm_compute; discriminate).
  assert (S2 : (2^485)^b <= (10^146)^b) by (apply Z.pow_le_mono_l; split; [apply Z.pow_nonneg; lia|exact C]).
  change B with (10^9) in S1. rewrite <- !Z.pow_mul_r in S1 by lia. rewrite <- !Z.pow_mul_r in S2 by lia.
  assert (S3 : 10^(9 * (k * 485)) < 10^(146 * b)) by (eapply Z.lt_le_trans; [exact S1|exact S2]).
  apply Z.pow_lt_mono_r_iff in S3; lia.
Qed.
Lemma btl_eq b : 0 <= b <= 1100 -> bits_to_limbs_ b = (b * 30103 + 899999) / 900000.
Proof. intros H. unfold bits_to_limbs_, u32. rewrite !Z.mod_small by (rewrite ?Z.mod_small; lia). reflexivity. Qed.
Lemma btl_ok b : 0 <= b <= 1100 -> 0 <= bits_to_limbs_ b /\ 2^b <= B^bits_to_limbs_ b.
Proof.
  intros H. rewrite btl_eq by lia. pose proof (Z.div_mod (b * 30103 + 899999) 900000 ltac:(lia)) as D. pose proof (Z.mod_pos_bound (b * 30103 + 899999) 900000 ltac:(lia)) as M.
  set (k := (b * 30103 + 899999) / 900000) in *. split; [lia|]. apply bits_limbs; lia.
Qed.
Lemma new_len n : 0 <= n -> Z.of_nat (len (new_arr n)) = n.
Proof. intros H. unfold new_arr. rewrite repeat_length. lia. Qed.

Lemma set_in a i x : 0 <= i < Z.of_nat (len a) -> set_ a i x = Ok (firstn (Z.to_nat i) a ++ Some x :: skipn (Z.to_nat i + 1) a).
Proof. intros H. unfold set_. replace ((0 <=? i) && (i <? Z.of_nat (len a))) with true by lia. reflexivity. Qed.

Lemma ldexp_ok odd shift bits : 0 < odd < 2^53 -> 0 <= shift -> shift + 53 <= bits + 52 -> 1 <= bits <= 1024 -> odd * 2^shift < 2^bits ->
  exists a n, limbs_ldexp_ (new_arr (bits_to_limbs_ bits + 1)) (limbs_set_u18d_ odd) shift = Ok (a, n) /\ holds a n (odd * 2^shift).
Proof.
  intros Ho Hs Hsb Hb HV. unfold limbs_ldexp_.
  destruct (u18d_norm odd Ho) as [N1 V1].
  pose proof (Z.div_mod shift 64 ltac:(lia)) as D. pose proof (Z.mod_pos_bound shift 64 ltac:(lia)) as M. set (s0 := shift mod 64) in *.
  assert (E0 : u64 (Z.shiftl 1 s0) = 2^s0).
  { rewrite Z.shiftl_1_l. unfold u64. apply Z.mod_small. split; [apply Z.pow_nonneg; lia|apply Z.pow_lt_mono_r; lia]. }
  rewrite E0. assert (P0 : 0 < 2^s0 < 2^64) by (split; [apply Z.pow_pos_nonneg; lia|apply Z.pow_lt_mono_r; lia]).
  destruct (u64_norm _ P0) as [N2 V2].
  destruct (btl_ok bits ltac:(lia)) as [K1 K2]. set (kp := bits_to_limbs_ bits) in *.
  assert (Hkp : 1 <= kp). { destruct (Z.eq_dec kp 0) as [E|E]; [|lia]. rewrite E in K2. change (B^0) with 1 in K2. assert (2^1 <= 2^bits) by (apply Z.pow_le_mono_r; lia). lia. }
  assert (Sh : 2^shift = 2^s0 * (4294967296 * 4294967296)^(shift / 64)).
  { change (4294967296 * 4294967296) with (2^64). rewrite <- Z.pow_mul_r, <- Z.pow_add_r by (try apply Z.div_pos; lia). f_equal. lia. }
  assert (PW : 0 < (4294967296 * 4294967296)^(shift / 64)) by (apply Z.pow_pos_nonneg; [lia|apply Z.div_pos; lia]).
  assert (L1 : lv (limbs_set_u18d_ odd) * lv (limbs_set_u64_ (2^s0)) < B^kp).
  { rewrite V1, V2. eapply Z.lt_le_trans; [|exact K2]. eapply Z.le_lt_trans; [|exact HV]. rewrite Sh. nia. }
  pose proof (norm_prod _ _ kp N1 N2 L1 Hkp) as LP.
  destruct (mul_ok (new_arr (kp + 1)) _ _ N1 N2) as (a & n & EM & La & Ha).
  { pose proof (new_len (kp + 1) ltac:(lia)). lia. }
  rewrite EM. cbn [bind].
  destruct (btl_ok (shift - s0) ltac:(lia)) as [Y1 Y2]. set (ky := bits_to_limbs_ (shift - s0)) in *.
  assert (EY : exists m, new_arr (ky + 2) = None :: None :: repeat None m).
  { exists (Z.to_nat ky). unfold new_arr. replace (Z.to_nat (ky + 2)) with (S (S (Z.to_nat ky))) by lia. reflexivity. }
  destruct EY as (m & EY). pose proof (new_len (ky + 2) ltac:(lia)) as LY. rewrite EY in LY |- *.
  assert (W0 : set_ (None :: None :: repeat None m) 0 294967296 = Ok (Some 294967296 :: None :: repeat None m)) by (rewrite set_in by (cbn [len]; lia); reflexivity).
  assert (W1 : set_ (Some 294967296 :: None :: repeat None m) 1 4 = Ok (Some 294967296 :: Some 4 :: repeat None m)) by (rewrite set_in by (cbn [len]; lia); reflexivity).
  rewrite W0. cbn [bind]. rewrite W1. cbn [bind].
  rewrite Z.shiftr_div_pow2 by lia. change (2^6) with 64.
  assert (HY : holds (Some 294967296 :: Some 4 :: repeat None m) 2 4294967296).
  { exists [294967296; 4], (repeat None m). split; [reflexivity|]. split; [|split; reflexivity].
    split; [repeat constructor; unfold BASE; lia|]. split; [discriminate|]. vm_compute. discriminate. }
  assert (ES : (4294967296 * 4294967296)^(shift / 64) = 2^(shift - s0)).
  { change (4294967296 * 4294967296) with (2^64). rewrite <- Z.pow_mul_r by (try apply Z.div_pos; lia). f_equal. lia. }
  destruct (power_ok (ky + 1) kp ltac:(lia) Hkp 31 (shift / 64) (Some 294967296 :: Some 4 :: repeat None m) 2 4294967296 a n (odd * 2^s0)) as (a' & n' & E1 & E2 & E3).
  - split; [apply Z.div_pos; lia|]. apply Z.div_lt_upper_bound; lia.
  - exact HY.
  - rewrite V1, V2 in Ha. exact Ha.
  - rewrite ES. rewrite Z.pow_add_r by lia. change (B^1) with B. pose proof Bpos. assert (0 < B^ky) by (apply Z.pow_pos_nonneg; lia). nia.
  - rewrite <- Z.mul_assoc, <- Sh. lia.
  - cbn [len] in LY |- *. lia.
  - rewrite La. apply new_len. lia.
  - exists a', n'. split; [exact E1|]. rewrite Sh, Z.mul_assoc. exact E3.
Qed.
