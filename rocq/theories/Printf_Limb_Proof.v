(** Base-10^9 arithmetic of %f. *)
From Verif Require Import Base FP Str_Model Printf_Model Printf_Fixed_Model.
Open Scope Z_scope.
Local Ltac Zify.zify_post_hook ::= idtac.
Notation len := List.length.
Notation B := BASE.

Fixpoint lv (l : list Z) : Z := match l with [] => 0 | x :: l => x + B * lv l end.
Definition limbs (l : list Z) : Prop := Forall (fun x => 0 <= x < B) l.
Lemma Bpos : 1 < B.
Proof. unfold BASE. lia. Qed.
Lemma Bpow n : 0 < B ^ Z.of_nat n.
Proof. pose proof Bpos. apply Z.pow_pos_nonneg; lia. Qed.
Lemma BpowS n : B ^ Z.of_nat (S n) = B * B ^ Z.of_nat n.
Proof. rewrite Nat2Z.inj_succ. apply Z.pow_succ_r. lia. Qed.
Lemma lv_app a b : lv (a ++ b) = lv a + B ^ Z.of_nat (len a) * lv b.
Proof. induction a as [|x a I]; [cbn [lv List.app len]; change (B ^ Z.of_nat 0) with 1; lia|]. cbn [lv List.app len]. rewrite I, BpowS. ring. Qed.
Lemma lv_bound l : limbs l -> 0 <= lv l < B ^ Z.of_nat (len l).
Proof.
  induction 1 as [|x l Hx _ I]; [cbn [lv len]; change (B ^ Z.of_nat 0) with 1; lia|]. cbn [lv len]. rewrite BpowS. pose proof Bpos. nia.
Qed.
Lemma lv_zeros n : lv (repeat 0 n) = 0.
Proof. induction n as [|n I]; [reflexivity|]. cbn. rewrite I. reflexivity. Qed.
Lemma limbs_zeros n : limbs (repeat 0 n).
Proof. induction n; cbn; constructor; auto. pose proof Bpos. lia. Qed.

Lemma row_ok x : 0 <= x < B -> forall ys p0 pl rest, limbs ys -> len pl = len ys -> 0 <= p0 < 2 * B -> limbs pl ->
  exists q t, mul_row x ys (p0 :: pl ++ rest) = q ++ t :: rest /\ len q = len ys /\ limbs q /\ 0 <= t < 2 * B /\
    lv (q ++ [t]) = lv (p0 :: pl) + x * lv ys.
Proof.
  intros Hx. induction ys as [|y ys I]; intros p0 pl rest Hy Hl Hp Hpl.
  - destruct pl; [|discriminate]. exists [], p0. cbn [mul_row List.app len lv]. repeat split; auto; try (clear - Hp; lia).
  - destruct pl as [|p1 pl]; [discriminate|]. injection Hl as Hl. inversion_clear Hy as [|? ? Hy0 Hys]. inversion_clear Hpl as [|? ? Hp1 Hpl'].
    cbn [mul_row List.app].
    assert (Hz : 0 <= x * y + p0 <= B * B) by (unfold BASE in *; nia).
    assert (E64 : u64 (x * y + p0) = x * y + p0). { unfold u64. apply Z.mod_small. unfold BASE in *. lia. }
    rewrite E64. set (z := x * y + p0) in *.
    assert (Hc : 0 <= z / B <= B). { pose proof Bpos. split; [apply Z.div_pos; lia|]. apply Z.div_le_upper_bound; lia. }
    assert (E32 : u32 (p1 + z / B) = p1 + z / B). { unfold u32. apply Z.mod_small. unfold BASE in *. lia. }
    rewrite E32.
    destruct (I (p1 + z / B) pl rest Hys Hl ltac:(clear - Hc Hp1; lia) Hpl') as (q & t & R & Lq & Aq & Ht & V).
    exists (z mod B :: q), t. rewrite R. repeat split; auto; try lia.
    + cbn. lia.
    + constructor; auto. apply Z.mod_pos_bound. pose proof Bpos. lia.
    + cbn [lv List.app]. cbn [lv] in V. rewrite V. pose proof (Z.div_mod z B ltac:(pose proof Bpos; lia)) as D.
      clear - D. unfold z in D. nia.
Qed.
Lemma rows_ok ys : limbs ys -> forall xs P, limbs xs -> limbs P -> len P = len ys ->
  exists q, mul_rows xs ys (P ++ repeat 0 (len xs)) = q /\ len q = (len xs + len ys)%nat /\ limbs q /\ lv q = lv P + lv xs * lv ys.
Proof.
  intros Hy. induction xs as [|x xs I]; intros P Hx HP HL.
  - exists P. cbn [mul_rows len repeat lv]. rewrite app_nil_r. repeat split; auto. lia.
  - inversion_clear Hx as [|? ? Hx0 Hxs]. cbn [len repeat mul_rows].
    assert (D : exists p0 pl, P ++ 0 :: repeat 0 (len xs) = p0 :: pl ++ repeat 0 (len xs) /\ len pl = len ys /\ 0 <= p0 < B /\ limbs pl /\ lv (p0 :: pl) = lv P).
    { pose proof Bpos. destruct P as [|p0 P].
      - exists 0, []. cbn. repeat split; auto; lia.
      - inversion_clear HP as [|? ? Hp0 HP']. exists p0, (P ++ [0]). rewrite <- app_assoc. split; [reflexivity|]. split; [rewrite app_length; cbn in *; lia|]. split; [auto|]. split.
        + apply Forall_app. split; auto. constructor; [lia|constructor].
        + cbn [lv]. rewrite lv_app. cbn [lv]. ring. }
    destruct D as (p0 & pl & -> & Lpl & Hp0 & Hpl & Ev).
    destruct (row_ok x Hx0 ys p0 pl (repeat 0 (len xs)) Hy Lpl ltac:(lia) Hpl) as (q & t & -> & Lq & Aq & Ht & V).
    assert (Ht' : t < B).
    { rewrite Ev, lv_app in V. cbn [lv] in V. pose proof (lv_bound P HP) as BP. pose proof (lv_bound ys Hy) as By. pose proof (lv_bound q Aq) as Bq.
      rewrite HL in BP. rewrite Lq in V, Bq. pose proof (Bpow (len ys)) as PB. set (b := B ^ Z.of_nat (len ys)) in *.
      assert (b * t < b * B); [|nia]. unfold BASE in *. nia. }
    destruct q as [|q0 q].
    + cbn [List.app]. destruct ys; [|discriminate]. exists (t :: mul_rows xs [] (repeat 0 (len xs))).
      destruct (I [] Hxs ltac:(constructor) eq_refl) as (q & R & Lq2 & Aq2 & V2). cbn [List.app] in R. rewrite R.
      cbn [lv List.app] in *. repeat split; auto; try lia.
      * cbn. rewrite Lq2. cbn. lia.
      * constructor; [lia|auto].
    + cbn [List.app]. inversion_clear Aq as [|? ? Hq0 Aq'].
      destruct (I (q ++ [t]) Hxs) as (r & R & Lr & Ar & Vr).
      { apply Forall_app. split; auto. constructor; [lia|constructor]. }
      { rewrite app_length. cbn in *. lia. }
      exists (q0 :: r). rewrite <- app_assoc in R. cbn [List.app] in R. rewrite R. repeat split; auto.
      * cbn. lia.
      * constructor; auto.
      * cbn [lv]. rewrite Vr. cbn [lv List.app] in V. rewrite <- Ev. cbn [lv]. nia.
Qed.

(** ** arrays holding a normalised number *)
Definition norm (l : list Z) : Prop := limbs l /\ l <> [] /\ B ^ (Z.of_nat (len l) - 1) <= lv l.
Definition holds (a : arr) (n v : Z) : Prop := exists l rest, a = map Some l ++ rest /\ norm l /\ Z.of_nat (len l) = n /\ lv l = v.
Lemma put_n_ok a l : (len l <= len a)%nat -> put_n a l = Ok (map Some l ++ skipn (len l) a).
Proof. intros H. unfold put_n. replace (len l <=? len a)%nat with true by (symmetry; apply Nat.leb_le; lia). reflexivity. Qed.
Lemma get_map l rest k : (k < len l)%nat -> get (map Some l ++ rest) (Z.of_nat k) = Ok (nth k l 0).
Proof.
  intros H. unfold get. replace (Z.of_nat k <? 0) with false by lia. rewrite Nat2Z.id, app_nth1 by (rewrite map_length; lia).
  rewrite (nth_indep _ None (Some 0)) by (rewrite map_length; lia). rewrite map_nth. reflexivity.
Qed.
Lemma get_n_ok l rest : get_n (len l) (map Some l ++ rest) = Ok l.
Proof. induction l as [|x l I]; [reflexivity|]. cbn. rewrite I. reflexivity. Qed.
Lemma mul_ok a x y : norm x -> norm y -> (len x + len y <= len a)%nat ->
  exists a' n, limbs_mul_ a x y = Ok (a', n) /\ len a' = len a /\ holds a' n (lv x * lv y).
Proof.
  intros (Lx & Nx & Mx) (Ly & Ny & My) Ha. unfold limbs_mul_.
  rewrite put_n_ok by (rewrite repeat_length; lia). cbn [bind].
  destruct (rows_ok y Ly x (repeat 0 (len y)) Lx (limbs_zeros _) (repeat_length _ _)) as (q & R & Lq & Aq & V).
  rewrite <- repeat_app, (Nat.add_comm (len y)) in R. rewrite R. rewrite put_n_ok by lia. cbn [bind].
  rewrite lv_zeros, Z.add_0_l in V.
  assert (X1 : (0 < len x)%nat) by (destruct x; [congruence|cbn; lia]). assert (Y1 : (0 < len y)%nat) by (destruct y; [congruence|cbn; lia]).
  replace (Z.of_nat (len x + len y) - 1) with (Z.of_nat (len x + len y - 1)) by lia.
  rewrite get_map by lia. cbn [bind]. set (top := nth (len x + len y - 1) q 0).
  assert (Sz : len (map Some q ++ skipn (len q) a) = len a) by (rewrite app_length, map_length, skipn_length; lia).
  assert (HV : B ^ (Z.of_nat (len q) - 2) <= lv q).
  { rewrite V. replace (Z.of_nat (len q) - 2) with ((Z.of_nat (len x) - 1) + (Z.of_nat (len y) - 1)) by lia.
    rewrite Z.pow_add_r by lia. apply Z.mul_le_mono_nonneg; auto; apply Z.lt_le_incl, Z.pow_pos_nonneg; pose proof Bpos; lia. }
  destruct (exists_last (l := q)) as (q1 & t & Eq); [destruct q; [cbn in Lq; lia|discriminate]|].
  assert (L1 : len q = S (len q1)) by (rewrite Eq, app_length; cbn; lia).
  assert (Et : top = t). { unfold top. replace (len x + len y - 1)%nat with (len q1) by lia. rewrite Eq, app_nth2, Nat.sub_diag by lia. reflexivity. }
  pose proof Bpos as PB.
  assert (At : 0 <= t < B /\ limbs q1). { rewrite Eq in Aq. apply Forall_app in Aq as [A1 A2]. inversion A2; subst; auto. }
  exists (map Some q ++ skipn (len q) a), (Z.of_nat (len x + len y) - b2z (top =? 0)). split; [reflexivity|]. split; [exact Sz|].
  rewrite Et. destruct (t =? 0) eqn:T0.
  - assert (t = 0) by lia. exists q1, (Some t :: skipn (len q) a).
    assert (V1 : lv q1 = lv x * lv y). { rewrite <- V, Eq, lv_app. cbn [lv]. rewrite H. ring. }
    split; [rewrite Eq at 1; now rewrite map_app, <- app_assoc|]. split; [|split; [cbn [b2z]; lia|exact V1]].
    split; [apply At|]. split; [destruct q1; [cbn in L1; lia|discriminate]|].
    rewrite V1, <- V. replace (Z.of_nat (len q1) - 1) with (Z.of_nat (len q) - 2) by lia. exact HV.
  - exists q, (skipn (len q) a). split; [reflexivity|]. split; [|split; [cbn [b2z]; lia|exact V]].
    split; [exact Aq|]. split; [destruct q; [cbn in Lq; lia|discriminate]|].
    replace (Z.of_nat (len q) - 1) with (Z.of_nat (len q1)) by lia. rewrite Eq, lv_app. cbn [lv].
    pose proof (lv_bound q1 (proj2 At)). pose proof (Bpow (len q1)). assert (1 <= t) by lia. nia.
Qed.

(** ** the power loop *)
Lemma norm_pow l k : norm l -> lv l < B ^ k -> 0 <= k -> Z.of_nat (len l) <= k.
Proof.
  intros (_ & N & M) H Hk. destruct (Z_le_gt_dec (Z.of_nat (len l)) k) as [L|L]; [exact L|].
  assert (B ^ k <= B ^ (Z.of_nat (len l) - 1)); [|lia]. apply Z.pow_le_mono_r; [pose proof Bpos; lia|lia].
Qed.
Lemma norm_pos l : norm l -> 0 < lv l.
Proof. intros (A & N & M). assert (0 < B ^ (Z.of_nat (len l) - 1)); [|lia]. destruct l; [congruence|]. apply Z.pow_pos_nonneg; [pose proof Bpos; lia|cbn [len]; lia]. Qed.
Lemma norm_prod x y k : norm x -> norm y -> lv x * lv y < B ^ k -> 1 <= k -> Z.of_nat (len x + len y) <= k + 1.
Proof.
  intros (Lx & Nx & Mx) (Ly & Ny & My) H Hk.
  assert (X1 : (0 < len x)%nat) by (destruct x; [congruence|cbn; lia]). assert (Y1 : (0 < len y)%nat) by (destruct y; [congruence|cbn; lia]).
  destruct (Z_le_gt_dec (Z.of_nat (len x + len y)) (k + 1)) as [L|L]; [exact L|].
  assert (B ^ k <= B ^ (Z.of_nat (len x) - 1) * B ^ (Z.of_nat (len y) - 1)).
  { rewrite <- Z.pow_add_r by lia. apply Z.pow_le_mono_r; [pose proof Bpos; lia|lia]. }
  assert (B ^ (Z.of_nat (len x) - 1) * B ^ (Z.of_nat (len y) - 1) <= lv x * lv y); [|lia].
  apply Z.mul_le_mono_nonneg; auto; apply Z.lt_le_incl, Z.pow_pos_nonneg; pose proof Bpos; lia.
Qed.
Lemma power_ok ky kp : 1 <= ky -> 1 <= kp -> forall fuel power y yn Y product xn V,
  0 <= power < 2 ^ Z.of_nat fuel -> holds y yn Y -> holds product xn V -> (Y * Y) ^ power < B ^ ky -> V * (Y * Y) ^ power < B ^ kp ->
  Z.of_nat (len y) = ky + 1 -> Z.of_nat (len product) = kp + 1 ->
  exists product' xn', power_loop (S fuel) power y yn product xn = Ok (product', xn') /\ len product' = len product /\ holds product' xn' (V * (Y * Y) ^ power).
Proof.
  intros Hky Hkp. induction fuel as [|f I]; intros power y yn Y product xn V Hp Hy Hv Ly Lp Sy Sp.
  - change (2 ^ Z.of_nat 0) with 1 in Hp. assert (power = 0) by lia. subst power. exists product, xn. rewrite Z.pow_0_r, Z.mul_1_r. auto.
  - remember (S f) as f'. cbn [power_loop]. subst f'. destruct (power =? 0) eqn:P0.
    { assert (power = 0) by lia. subst power. exists product, xn. rewrite Z.pow_0_r, Z.mul_1_r. auto. }
    destruct Hy as (l & rest & -> & Nl & Ll & VY). rewrite <- Ll, Nat2Z.id, get_n_ok. cbn [bind].
    pose proof (norm_pos l Nl) as PY. rewrite VY in PY.
    assert (YY : 1 <= Y * Y) by nia.
    assert (P1 : (Y * Y) ^ 1 <= (Y * Y) ^ power) by (apply Z.pow_le_mono_r; lia). rewrite Z.pow_1_r in P1.
    assert (L2 : (len l + len l <= len (map Some l ++ rest))%nat).
    { assert (Z.of_nat (len l + len l) <= ky + 1); [|lia]. apply (norm_prod l l ky); auto. rewrite VY. lia. }
    destruct (mul_ok (map Some l ++ rest) l l Nl Nl L2) as (y' & yn' & -> & Sy' & Hy'). cbn [bind]. rewrite VY in Hy'.
    set (Y2 := Y * Y) in *.
    set (h := Z.shiftr power 1). assert (Eh : h = power / 2) by (unfold h; rewrite Z.shiftr_div_pow2 by lia; reflexivity).
    assert (Dh : power = 2 * h + b2z (Z.odd power)). { rewrite Eh. unfold b2z. rewrite (Z.div_mod power 2) at 1 by lia. rewrite Zmod_odd. destruct (Z.odd power); lia. }
    assert (Hh : 0 <= h) by (rewrite Eh; apply Z.div_pos; lia).
    assert (Hh2 : h < 2 ^ Z.of_nat f). { rewrite Nat2Z.inj_succ, Z.pow_succ_r in Hp by lia. unfold b2z in Dh. destruct (Z.odd power); lia. }
    assert (Py : (Y2 * Y2) ^ h <= Y2 ^ power).
    { replace (Y2 * Y2) with (Y2 ^ 2) by ring. rewrite <- Z.pow_mul_r by lia. apply Z.pow_le_mono_r; [lia|]. unfold b2z in Dh. destruct (Z.odd power); lia. }
    assert (Epow : Y2 ^ power = (Y2 * Y2) ^ h * (if Z.odd power then Y2 else 1)).
    { rewrite Dh at 1. rewrite Z.pow_add_r by (unfold b2z; destruct (Z.odd power); lia). rewrite Z.pow_mul_r by lia. replace (Y2 ^ 2) with (Y2 * Y2) by ring.
      destruct (Z.odd power); cbn [b2z]; [rewrite Z.pow_1_r|rewrite Z.pow_0_r]; reflexivity. }
    destruct Hv as (vl & vrest & -> & Nv & Lv & VV).
    pose proof (norm_pos vl Nv) as PV. rewrite VV in PV.
    destruct (Z.odd power) eqn:OD.
    + rewrite <- Lv, Nat2Z.id, get_n_ok. cbn [bind].
      destruct Hy' as (yl & yrest & -> & Nyl & Lyl & VYl). rewrite <- Lyl, Nat2Z.id, get_n_ok. cbn [bind].
      assert (L3 : (len vl + len yl <= len (map Some vl ++ vrest))%nat).
      { assert (Z.of_nat (len vl + len yl) <= kp + 1); [|lia]. apply (norm_prod vl yl kp); auto. rewrite VV, VYl.
        assert (V * Y2 <= V * Y2 ^ power) by (apply Z.mul_le_mono_nonneg_l; lia). lia. }
      destruct (mul_ok _ vl yl Nv Nyl L3) as (p' & n' & -> & Sp' & Hp'). cbn [bind]. rewrite VV, VYl in Hp'.
      destruct (I h (map Some yl ++ yrest) (Z.of_nat (len yl)) Y2 p' n' (V * Y2)) as (p'' & n'' & R & S'' & H''); auto; try lia.
      { exists yl, yrest. auto. }
      exists p'', n''. split; [exact R|]. split; [lia|]. rewrite Epow. replace (V * ((Y2 * Y2) ^ h * Y2)) with (V * Y2 * (Y2 * Y2) ^ h) by ring. exact H''.
    + destruct (I h y' yn' Y2 (map Some vl ++ vrest) xn V) as (p'' & n'' & R & S'' & H''); auto; try lia.
      { exists vl, vrest. auto. }
      exists p'', n''. cbn [bind]. split; [exact R|]. split; [lia|]. rewrite Epow, Z.mul_1_r. exact H''.
Qed.
