(** %f below 2^-8: what is printed whenever the conversion stays inside its arrays *)
From Verif Require Import Base Bits FP Rne Str_Spec Printf_Model Printf_Spec Printf_Hex_Spec Printf_Fixed_Model Printf_Fixed_Spec
  Printf_Proof Printf_Hex_Proof Printf_Limb_Proof Printf_Fixed_Proof Printf_F_Proof.
Open Scope Z_scope.
Local Ltac Zify.zify_post_hook ::= idtac.

Lemma bind_inv {A C} (r : res A) (k : A -> res C) y : bind r k = Ok y -> exists x, r = Ok x /\ k x = Ok y.
Proof. destruct r; cbn; intros H; try discriminate. eauto. Qed.
(** an element that was never written, or a leading zero *)
Definition zn (o : option Z) : Prop := o = None \/ o = Some 0.
Definition holds0 (a : arr) (n v : Z) : Prop :=
  exists l rest, a = map Some l ++ rest /\ norm l /\ Z.of_nat (len l) = n /\ lv l = v /\ Forall zn rest.
Lemma zn_skip n a : Forall zn a -> Forall zn (skipn n a).
Proof. intros H. apply Forall_forall. intros y Hy. apply (proj1 (Forall_forall _ _) H). rewrite <- (firstn_skipn n a). apply in_or_app. auto. Qed.
Lemma skipn_past (x : list Z) rest k : skipn (len x + k) (map Some x ++ rest) = skipn k rest.
Proof. rewrite skipn_app, map_length. rewrite skipn_all2 by (rewrite map_length; lia). cbn [List.app]. f_equal. lia. Qed.

Lemma mul0 a x y a' n : norm x -> norm y -> Forall zn (skipn (len x + len y) a) -> limbs_mul_ a x y = Ok (a', n) ->
  len a' = len a /\ holds0 a' n (lv x * lv y).
Proof.
  intros Nx0 Ny0 Hz H.
  assert (Ha : (len x + len y <= len a)%nat).
  { unfold limbs_mul_, put_n in H. rewrite repeat_length in H. destruct (len x + len y <=? len a)%nat eqn:E; [now apply Nat.leb_le|discriminate]. }
  destruct Nx0 as (Lx & Nx & Mx), Ny0 as (Ly & Ny & My). unfold limbs_mul_ in H.
  rewrite put_n_ok in H by (rewrite repeat_length; lia). cbn [bind] in H.
  destruct (rows_ok y Ly x (repeat 0 (len y)) Lx (limbs_zeros _) (repeat_length _ _)) as (q & R & Lq & Aq & V).
  rewrite <- repeat_app, (Nat.add_comm (len y)) in R. rewrite R in H. rewrite put_n_ok in H by lia. cbn [bind] in H.
  rewrite lv_zeros, Z.add_0_l in V.
  assert (X1 : (0 < len x)%nat) by (destruct x; [congruence|cbn; lia]). assert (Y1 : (0 < len y)%nat) by (destruct y; [congruence|cbn; lia]).
  replace (Z.of_nat (len x + len y) - 1) with (Z.of_nat (len x + len y - 1)) in H by lia.
  rewrite get_map in H by lia. cbn [bind] in H. set (top := nth (len x + len y - 1) q 0) in *.
  assert (Sz : len (map Some q ++ skipn (len q) a) = len a) by (rewrite app_length, map_length, skipn_length; lia).
  assert (HV : B ^ (Z.of_nat (len q) - 2) <= lv q).
  { rewrite V. replace (Z.of_nat (len q) - 2) with ((Z.of_nat (len x) - 1) + (Z.of_nat (len y) - 1)) by lia.
    rewrite Z.pow_add_r by lia. apply Z.mul_le_mono_nonneg; auto; apply Z.lt_le_incl, Z.pow_pos_nonneg; pose proof Bpos; lia. }
  destruct (exists_last (l := q)) as (q1 & t & Eq); [destruct q; [cbn in Lq; lia|discriminate]|].
  assert (L1 : len q = S (len q1)) by (rewrite Eq, app_length; cbn; lia).
  assert (Et : top = t). { unfold top. replace (len x + len y - 1)%nat with (len q1) by lia. rewrite Eq, app_nth2, Nat.sub_diag by lia. reflexivity. }
  pose proof Bpos as PB.
  assert (At : 0 <= t < B /\ limbs q1). { rewrite Eq in Aq. apply Forall_app in Aq as [A1 A2]. inversion A2; subst; auto. }
  assert (Hz' : Forall zn (skipn (len q) a)) by (rewrite Lq; exact Hz).
  injection H as <- <-. split; [exact Sz|]. rewrite Et. destruct (t =? 0) eqn:T0.
  - assert (t = 0) by lia. exists q1, (Some t :: skipn (len q) a).
    assert (V1 : lv q1 = lv x * lv y). { rewrite <- V, Eq, lv_app. cbn [lv]. rewrite H. ring. }
    split; [rewrite Eq at 1; now rewrite map_app, <- app_assoc|]. split; [|split; [cbn [b2z]; lia|split; [exact V1|]]].
    + split; [apply At|]. split; [destruct q1; [cbn in L1; lia|discriminate]|].
      rewrite V1, <- V. replace (Z.of_nat (len q1) - 1) with (Z.of_nat (len q) - 2) by lia. exact HV.
    + constructor; [right; congruence|exact Hz'].
  - exists q, (skipn (len q) a). split; [reflexivity|]. split; [|split; [cbn [b2z]; lia|split; [exact V|exact Hz']]].
    split; [exact Aq|]. split; [destruct q; [cbn in Lq; lia|discriminate]|].
    replace (Z.of_nat (len q) - 1) with (Z.of_nat (len q1)) by lia. rewrite Eq, lv_app. cbn [lv].
    pose proof (lv_bound q1 (proj2 At)). pose proof (Bpow (len q1)). assert (1 <= t) by lia. nia.
Qed.

Lemma power_inv : forall fuel power y yn Y product xn V r n, 0 <= power -> holds0 y yn Y -> holds0 product xn V ->
  power_loop fuel power y yn product xn = Ok (r, n) -> len r = len product /\ holds0 r n (V * (Y * Y) ^ power).
Proof.
  induction fuel as [|f I]; intros power y yn Y product xn V r n Hp Hy Hv H; [discriminate|]. cbn [power_loop] in H.
  destruct (power =? 0) eqn:P0.
  { injection H as <- <-. assert (power = 0) by lia. subst power. rewrite Z.pow_0_r, Z.mul_1_r. auto. }
  destruct Hy as (l & rest & -> & Nl & Ll & VY & Zl). rewrite <- Ll, Nat2Z.id, get_n_ok in H. cbn [bind] in H.
  apply bind_inv in H as ((y' & yn') & E1 & H).
  apply mul0 in E1 as (Sy & Hy'); auto; [|rewrite skipn_past; now apply zn_skip]. rewrite VY in Hy'.
  set (Y2 := Y * Y) in *.
  set (h := Z.shiftr power 1) in *. assert (Eh : h = power / 2) by (unfold h; rewrite Z.shiftr_div_pow2 by lia; reflexivity).
  assert (Dh : power = 2 * h + b2z (Z.odd power)). { rewrite Eh. unfold b2z. rewrite (Z.div_mod power 2) at 1 by lia. rewrite Zmod_odd. destruct (Z.odd power); lia. }
  assert (Hh : 0 <= h) by (rewrite Eh; apply Z.div_pos; lia).
  assert (Epow : Y2 ^ power = (Y2 * Y2) ^ h * (if Z.odd power then Y2 else 1)).
  { rewrite Dh at 1. rewrite Z.pow_add_r by (unfold b2z; destruct (Z.odd power); lia). rewrite Z.pow_mul_r by lia. replace (Y2 ^ 2) with (Y2 * Y2) by ring.
    destruct (Z.odd power); cbn [b2z]; [rewrite Z.pow_1_r|rewrite Z.pow_0_r]; reflexivity. }
  destruct Hv as (vl & vrest & -> & Nv & Lv & VV & Zv). rewrite Epow. destruct (Z.odd power) eqn:OD.
  - rewrite <- Lv, Nat2Z.id, get_n_ok in H. cbn [bind] in H.
    destruct Hy' as (yl & yrest & -> & Nyl & Lyl & VYl & Zyl). rewrite <- Lyl, Nat2Z.id, get_n_ok in H. cbn [bind] in H.
    apply bind_inv in H as ((p' & n') & E2 & H). apply mul0 in E2 as (Sp & Hp'); auto; [|rewrite skipn_past; now apply zn_skip].
    rewrite VV, VYl in Hp'.
    apply (I h _ _ Y2 _ _ (V * Y2)) in H as (S2 & H2); auto; [|exists yl, yrest; auto].
    split; [lia|]. replace (V * ((Y2 * Y2) ^ h * Y2)) with (V * Y2 * (Y2 * Y2) ^ h) by ring. exact H2.
  - cbn [bind] in H. rewrite Z.mul_1_r. apply (I h y' yn' Y2 _ xn V) in H; auto. exists vl, vrest. auto.
Qed.

Lemma zn_new n : Forall zn (new_arr n).
Proof. apply Forall_forall. intros y Hy. apply repeat_spec in Hy. left. exact Hy. Qed.
Lemma exp5_ok k : 0 <= k < 28 -> exp5_u64_ k = 5^k.
Proof.
  intros H. assert (A : forallb (fun n => exp5_u64_ (Z.of_nat n) =? 5^Z.of_nat n) (seq 0 28) = true) by (vm_compute; reflexivity).
  rewrite forallb_forall in A. specialize (A (Z.to_nat k)). rewrite Z2Nat.id in A by lia. apply Z.eqb_eq. apply A. apply in_seq. lia.
Qed.
Lemma exp10_ok k : 0 <= k < 9 -> exp10_limb_ k = 10^k.
Proof.
  intros H. assert (A : forallb (fun n => exp10_limb_ (Z.of_nat n) =? 10^Z.of_nat n) (seq 0 9) = true) by (vm_compute; reflexivity).
  rewrite forallb_forall in A. specialize (A (Z.to_nat k)). rewrite Z2Nat.id in A by lia. apply Z.eqb_eq. apply A. apply in_seq. lia.
Qed.
Lemma scal5_inv k v power a n : 0 <= power -> norm v -> limbs_scal5n_ (new_arr k) v power = Ok (a, n) ->
  len a = len (new_arr k) /\ holds0 a n (lv v * 5^power).
Proof.
  intros Hp Nv H. unfold limbs_scal5n_ in H. pose proof (Z.mod_pos_bound power 28 ltac:(lia)) as M. rewrite (exp5_ok _ M) in H.
  assert (P5 : 0 < 5^(power mod 28) < 2^64).
  { split; [apply Z.pow_pos_nonneg; lia|]. apply Z.le_lt_trans with (5^27); [apply Z.pow_le_mono_r; lia|reflexivity]. }
  destruct (u64_norm _ P5) as [N5 V5].
  apply bind_inv in H as ((p & xn) & E1 & H). apply mul0 in E1 as (S1 & H1); auto; [|apply zn_skip, zn_new]. rewrite V5 in H1.
  apply bind_inv in H as (y1 & E2 & H). apply bind_inv in H as (y2 & E3 & H).
  assert (Hy : holds0 y2 2 (5^14)).
  { unfold set_ in E2. destruct ((0 <=? 0) && _) eqn:C; [|discriminate]. injection E2 as <-.
    unfold set_ in E3. destruct ((0 <=? 1) && _) eqn:C2 in E3; [|discriminate]. injection E3 as <-. unfold new_arr in *.
    destruct (Z.to_nat (fives_to_limbs_ power)) as [|[|m]]; cbn in C, C2; try lia.
    exists [103515625; 6], (repeat None m). split; [reflexivity|]. destruct (norm2 103515625 6) as [N2 V2]; [unfold BASE; lia..|].
    split; [exact N2|]. split; [reflexivity|]. split; [rewrite V2; reflexivity|]. apply (zn_new (Z.of_nat m)) || (apply Forall_forall; intros y Hy; apply repeat_spec in Hy; left; exact Hy). }
  apply (power_inv _ _ _ _ (5^14) _ _ (lv v * 5^(power mod 28))) in H as (S2 & H2); auto; [|apply Z.div_pos; lia].
  split; [lia|]. replace (5^power) with (5^(power mod 28) * (5^14 * 5^14)^(power / 28)); [rewrite Z.mul_assoc; exact H2|].
  change (5^14 * 5^14) with (5^28). rewrite <- Z.pow_mul_r, <- Z.pow_add_r by (try apply Z.mul_nonneg_nonneg; try apply Z.div_pos; lia).
  f_equal. pose proof (Z.div_mod power 28 ltac:(lia)). lia.
Qed.

(** ** rounding at a decimal place *)
Lemma get_at p o q : get (p ++ o :: q) (Z.of_nat (len p)) = match o with Some x => Ok x | None => UB end.
Proof. unfold get. replace (Z.of_nat (len p) <? 0) with false by lia. rewrite Nat2Z.id, app_nth2, Nat.sub_diag by lia. reflexivity. Qed.
Lemma get_end p : get p (Z.of_nat (len p)) = UB.
Proof. unfold get. replace (Z.of_nat (len p) <? 0) with false by lia. rewrite Nat2Z.id, nth_overflow by lia. reflexivity. Qed.
Lemma set_at p o q x : set_ (p ++ o :: q) (Z.of_nat (len p)) x = Ok (p ++ Some x :: q).
Proof.
  unfold set_. rewrite app_length. cbn [len]. replace ((0 <=? Z.of_nat (len p)) && (Z.of_nat (len p) <? Z.of_nat (len p + S (len q)))) with true by lia.
  rewrite Nat2Z.id, firstn_app, Nat.sub_diag, firstn_all. cbn [firstn]. rewrite app_nil_r. rewrite skipn_app, skipn_all2 by lia.
  replace (len p + 1 - len p)%nat with 1%nat by lia. reflexivity.
Qed.
Lemma carry_inv rest : Forall zn rest -> forall fuel hi low h a' i', 0 <= h <= B -> limbs hi ->
  carry_loop fuel (map Some low ++ Some h :: map Some hi ++ rest) (Z.of_nat (len low)) (Z.of_nat (len low + S (len hi))) = Ok (a', i') ->
  exists hi' rest', a' = map Some low ++ map Some hi' ++ rest' /\ limbs hi' /\ lv hi' = h + B * lv hi /\
    Z.of_nat (len low + S (len hi)) + b2z (i' =? Z.of_nat (len low + S (len hi))) = Z.of_nat (len low + len hi') /\
    (len hi' = S (len hi) \/ B ^ (Z.of_nat (len hi') - 1) <= lv hi') /\ (1 <= len hi')%nat.
Proof.
  intros Hz. pose proof Bpos as PB. induction fuel as [|f I]; intros hi low h a' i' Hh Hhi H; [discriminate|]. cbn [carry_loop] in H.
  replace (Z.of_nat (len low) <? Z.of_nat (len low + S (len hi))) with true in H by lia.
  assert (G : get (map Some low ++ Some h :: map Some hi ++ rest) (Z.of_nat (len low)) = Ok h).
  { rewrite <- (map_length Some low). apply get_at. }
  rewrite G in H. cbn [bind] in H. destruct (B <=? h) eqn:C.
  - assert (h = B) by lia. subst h.
    assert (S1 : set_ (map Some low ++ Some B :: map Some hi ++ rest) (Z.of_nat (len low)) (B - B) = Ok (map Some (low ++ [0]) ++ map Some hi ++ rest)).
    { rewrite <- (map_length Some low). rewrite set_at, map_app, <- app_assoc, Z.sub_diag. reflexivity. }
    rewrite S1 in H. cbn [bind] in H. clear S1 G.
    assert (L1 : Z.of_nat (len low) + 1 = Z.of_nat (len (map Some (low ++ [0])))) by (rewrite map_length, app_length; cbn [len]; lia).
    destruct hi as [|g hi].
    + cbn [map List.app] in H. destruct rest as [|o rest].
      { rewrite app_nil_r, L1, get_end in H. discriminate. }
      rewrite L1, get_at in H. pose proof (Forall_inv Hz) as [->| ->]; [discriminate H|]. cbn [bind] in H. rewrite set_at in H. cbn [bind] in H.
      change (u32 (0 + 1)) with 1 in H. rewrite <- L1 in H. destruct f as [|f]; [discriminate|]. cbn [carry_loop] in H.
      replace (Z.of_nat (len low) + 1 <? _) with false in H by (cbn [len]; lia). injection H as <- <-.
      exists [0; 1], rest. rewrite map_app, <- app_assoc. split; [reflexivity|]. split; [repeat constructor; lia|]. cbn [lv len].
      split; [ring|]. replace (_ =? _) with true by lia. cbn [b2z]. split; [lia|]. split; [right; cbn; lia|lia].
    + inversion_clear Hhi as [|? ? Hg Hhi']. cbn [map List.app] in H. rewrite L1, get_at in H. cbn [bind] in H. rewrite set_at in H. cbn [bind] in H.
      assert (U : u32 (g + 1) = g + 1) by (unfold u32; apply Z.mod_small; unfold BASE in *; lia). rewrite U in H.
      rewrite map_length in H. replace (Z.of_nat (len low + S (len (g :: hi)))) with (Z.of_nat (len (low ++ [0]) + S (len hi))) in H by (rewrite app_length; cbn [len]; lia).
      apply I in H as (hi' & rest' & -> & A1 & A2 & A3 & A4 & A5); [|lia|exact Hhi'].
      exists (0 :: hi'), rest'. rewrite map_app, <- app_assoc. split; [reflexivity|]. split; [constructor; [lia|exact A1]|]. cbn [lv len].
      split; [rewrite A2; ring|].
      assert (Q : Z.of_nat (len low + S (S (len hi))) = Z.of_nat (len (low ++ [0]) + S (len hi))) by (rewrite app_length; cbn [len]; lia).
      rewrite Q, A3, app_length. cbn [len]. split; [lia|]. split; [|lia].
      destruct A4 as [A4|A4]; [left; lia|right]. rewrite Z.add_0_l. replace (Z.of_nat (S (len hi')) - 1) with (Z.succ (Z.of_nat (len hi') - 1)) by lia.
      rewrite Z.pow_succ_r by lia. apply Z.mul_le_mono_nonneg_l; lia.
  - injection H as <- <-. exists (h :: hi), rest. split; [reflexivity|]. split; [constructor; [lia|exact Hhi]|]. split; [reflexivity|].
    replace (_ =? _) with false by lia. cbn [b2z len]. split; [lia|]. split; [auto|lia].
Qed.

(** twice the collapsed fraction *)
Definition frac2 (R D : Z) : Z := if 2 * R <? D then 0 else if 2 * R =? D then 1 else 2.
Lemma any_inv l rest : limbs l -> forall n b, (n <= len l)%nat -> any_nonzero n (map Some l ++ rest) = Ok b -> b = negb (lv (firstn n l) =? 0).
Proof.
  intros Hl. induction n as [|n I]; intros b Hn H.
  - cbn in H. injection H as <-. reflexivity.
  - cbn [any_nonzero] in H. rewrite get_map in H by lia. cbn [bind] in H. rewrite nth_split_firstn by lia. rewrite lv_app, firstn_length, Nat.min_l by lia. cbn [lv].
    assert (Hx : 0 <= nth n l 0 < B) by (apply (proj1 (Forall_forall _ _) Hl); apply nth_In; lia).
    assert (FB : 0 <= lv (firstn n l)).
    { apply lv_bound. apply Forall_forall; intros y Hy; apply (proj1 (Forall_forall _ _) Hl y); rewrite <- (firstn_skipn n l); apply in_or_app; auto. }
    pose proof (Bpow n) as PB. destruct (nth n l 0 =? 0) eqn:Z0.
    + rewrite (I b ltac:(lia) H). f_equal. f_equal. replace (nth n l 0) with 0 by lia. ring.
    + injection H as <-. symmetry. apply negb_true_iff. apply Z.eqb_neq. assert (1 <= nth n l 0) by lia. nia.
Qed.
Lemma getfrac_inv l rest n fr : limbs l -> (n <= len l)%nat -> limbs_getfrac2_ (map Some l ++ rest) (Z.of_nat n) = Ok fr ->
  fr = frac2 (lv (firstn n l)) (B ^ Z.of_nat n).
Proof.
  intros Hl Hn H. unfold limbs_getfrac2_ in H. unfold frac2. destruct n as [|n].
  - cbn in H. injection H as <-. reflexivity.
  - replace (0 <? Z.of_nat (S n)) with true in H by lia. replace (Z.of_nat (S n) - 1) with (Z.of_nat n) in H by lia.
    rewrite get_map in H by lia. cbn [bind] in H. rewrite nth_split_firstn by lia. rewrite lv_app, firstn_length, Nat.min_l by lia. cbn [lv].
    assert (Hx : 0 <= nth n l 0 < B) by (apply (proj1 (Forall_forall _ _) Hl); apply nth_In; lia).
    assert (FB : 0 <= lv (firstn n l) < B ^ Z.of_nat n).
    { pose proof (lv_bound (firstn n l)) as Q. rewrite firstn_length, Nat.min_l in Q by lia. apply Q.
      apply Forall_forall; intros y Hy; apply (proj1 (Forall_forall _ _) Hl y); rewrite <- (firstn_skipn n l); apply in_or_app; auto. }
    rewrite BpowS. pose proof (Bpow n) as PB. set (D := B ^ Z.of_nat n) in *. rewrite Z.mul_0_r, Z.add_0_r. set (h := nth n l 0) in *.
    destruct (h <? 500000000) eqn:C1; [|destruct (h =? 500000000) eqn:C2].
    + injection H as <-. replace (_ <? B * D) with true; [reflexivity|]. symmetry. apply Z.ltb_lt. unfold BASE in *. nia.
    + apply bind_inv in H as (b & E & H). rewrite Nat2Z.id in E. apply any_inv in E; [|exact Hl|lia]. injection H as <-.
      replace (_ <? B * D) with false by (symmetry; apply Z.ltb_ge; unfold BASE in *; nia). rewrite E.
      destruct (lv (firstn n l) =? 0) eqn:E0; cbn [negb]; destruct (_ =? B * D) eqn:E1; try reflexivity; exfalso; unfold BASE in *; nia.
    + injection H as <-. replace (_ <? B * D) with false by (symmetry; apply Z.ltb_ge; unfold BASE in *; nia).
      replace (_ =? B * D) with false; [reflexivity|]. symmetry. apply Z.eqb_neq. unfold BASE in *. nia.
Qed.
Lemma frac2_range R D : 0 <= frac2 R D <= 2.
Proof. unfold frac2. destruct (2 * R <? D), (2 * R =? D); lia. Qed.

(** the rounded quotient: [V] is divided by D 10^s after its part below D has been collapsed *)
Definition collapsed (V D s : Z) : Z := rne (2 * (V / D) + frac2 (V mod D) D) (2 * 10^s).
Lemma placed_inv l rest place a' limbs' : norm l -> Forall zn rest -> 0 < place -> place <= 9 * Z.of_nat (len l) -> 9 * Z.of_nat (len l) < 2^32 ->
  limbs_placed_rint_ (map Some l ++ rest) (Z.of_nat (len l)) place = Ok (a', limbs') ->
  exists low hi' rest', a' = map Some low ++ map Some hi' ++ rest' /\ Z.of_nat (len low) = place / 9 /\ limbs hi' /\ (1 <= len hi')%nat /\
    lv hi' = collapsed (lv l) (B ^ (place / 9)) (place mod 9) * 10^(place mod 9) /\ limbs' = Z.of_nat (len low + len hi') /\
    (len hi' = 1%nat \/ B ^ (Z.of_nat (len hi') - 1) <= lv hi').
Proof.
  intros (Ll & Nl & Ml) Hz H0 H1 H2 H. unfold limbs_placed_rint_ in H. replace (place <=? 0) with false in H by lia.
  assert (U : u32 (9 * Z.of_nat (len l)) = 9 * Z.of_nat (len l)) by (unfold u32; apply Z.mod_small; lia). rewrite U in H.
  replace (place <=? 9 * Z.of_nat (len l)) with true in H by lia.
  pose proof (Z.mod_pos_bound place 9 ltac:(lia)) as MS. pose proof (Z.div_mod place 9 ltac:(lia)) as DM.
  assert (I0 : 0 <= place / 9) by (apply Z.div_pos; lia). set (s := place mod 9) in *. set (i := place / 9) in *. clearbody s i.
  pose proof (Z2Nat.id i I0) as EI. set (n := Z.to_nat i) in *. clearbody n. rewrite <- EI in *. clear EI i U.
  assert (Hn : (n <= len l)%nat) by lia.
  apply bind_inv in H as (v & Ev & H). apply bind_inv in H as (fr & Ef & H). apply getfrac_inv in Ef; [|exact Ll|exact Hn].
  assert (SP : l = firstn n l ++ skipn n l) by (symmetry; apply firstn_skipn).
  assert (LF : len (firstn n l) = n) by (rewrite firstn_length; lia).
  assert (Lf : limbs (firstn n l)) by (apply Forall_forall; intros y Hy; apply (proj1 (Forall_forall _ _) Ll y); rewrite SP; apply in_or_app; auto).
  assert (Ls : limbs (skipn n l)) by (apply Forall_forall; intros y Hy; apply (proj1 (Forall_forall _ _) Ll y); rewrite SP; apply in_or_app; auto).
  pose proof (lv_bound _ Lf) as FB. rewrite LF in FB. pose proof (Bpow n) as PD.
  assert (EV : lv l = lv (firstn n l) + B ^ Z.of_nat n * lv (skipn n l)) by (rewrite SP at 1; rewrite lv_app, LF; reflexivity).
  assert (Q1 : lv l / B ^ Z.of_nat n = lv (skipn n l)) by (symmetry; apply (Z.div_unique_pos _ _ _ (lv (firstn n l))); lia).
  assert (Q2 : lv l mod B ^ Z.of_nat n = lv (firstn n l)) by (symmetry; apply (Z.mod_unique_pos _ _ (lv (skipn n l))); lia).
  unfold collapsed. rewrite Q1, Q2, <- Ef.
  assert (FR : 0 <= fr <= 2) by (rewrite Ef; apply frac2_range).
  apply bind_inv in H as (x1 & E1 & H). apply bind_inv in H as ((x2 & i2) & E2 & H). injection H as <- <-.
  unfold limb_placed_rint_ in E1. rewrite exp10_ok in E1 by lia. assert (P10 : 0 < 10^s) by (apply Z.pow_pos_nonneg; lia).
  assert (PB9 : B = 10^(9 - s) * 10^s) by (rewrite <- Z.pow_add_r by lia; replace (9 - s + s) with 9 by lia; reflexivity).
  set (L := rne (2 * v + fr) (2 * 10^s) * 10^s) in *.
  destruct (skipn n l) as [|g hi] eqn:SK.
  - rewrite app_nil_r in SP. rewrite <- SP in *. assert (En : n = len l) by lia. assert (Es : s = 0) by lia.
    destruct rest as [|o rest]; [rewrite app_nil_r in Ev; rewrite En, <- (map_length Some l), get_end in Ev; discriminate|].
    inversion_clear Hz as [|? ? Ho Hz']. rewrite En, <- (map_length Some l) in Ev, E1. rewrite get_at in Ev. rewrite set_at in E1. injection E1 as <-.
    destruct Ho as [-> | ->]; [discriminate|]. injection Ev as <-.
    rewrite app_length in E2. cbn [len] in E2. rewrite map_length, Nat.add_succ_r in E2. cbn [carry_loop] in E2.
    replace (Z.of_nat n <? Z.of_nat (len l)) with false in E2 by lia. injection E2 as <- <-.
    exists l, [L], rest. cbn [map List.app len lv]. split; [reflexivity|]. split; [lia|].
    assert (RL : 0 <= L <= 1).
    { unfold L. rewrite Es. change (10^0) with 1. rewrite Z.mul_1_r. apply rne_range; lia. }
    split; [constructor; [pose proof Bpos; lia|constructor]|]. split; [lia|]. split; [unfold L; ring|]. replace (_ =? _) with true by lia. cbn [b2z].
    split; [lia|]. left; reflexivity.
  - inversion_clear Ls as [|? ? Hg Hhi]. assert (LL : len l = (n + S (len hi))%nat) by (rewrite SP, app_length, LF; reflexivity).
    assert (EA : map Some l ++ rest = map Some (firstn n l) ++ Some g :: map Some hi ++ rest) by (rewrite SP at 1; rewrite map_app, <- app_assoc; reflexivity).
    rewrite EA in *. assert (LM : Z.of_nat n = Z.of_nat (len (map Some (firstn n l)))) by (rewrite map_length; lia).
    rewrite LM, get_at in Ev. injection Ev as <-. rewrite LM, set_at in E1. injection E1 as <-.
    assert (RL : 0 <= L <= B).
    { unfold L. assert (0 <= rne (2 * g + fr) (2 * 10^s) <= 10^(9 - s)); [|rewrite PB9; nia]. apply rne_range; [lia|]. rewrite PB9 in Hg. nia. }
    replace (Z.of_nat n) with (Z.of_nat (len (firstn n l))) in E2 by lia.
    replace (Z.of_nat (len l)) with (Z.of_nat (len (firstn n l) + S (len hi))) in E2 by lia. apply carry_inv in E2; [|exact Hz|exact RL|exact Hhi].
    destruct E2 as (hi' & rest' & -> & A1 & A2 & A3 & A4 & A5). exists (firstn n l), hi', rest'. split; [reflexivity|]. split; [lia|].
    split; [exact A1|]. split; [exact A5|]. split; [|split; [replace (Z.of_nat (len l)) with (Z.of_nat (len (firstn n l) + S (len hi))) by lia; exact A3|]].
    + rewrite A2. unfold L. cbn [lv].
      replace (2 * (g + B * lv hi) + fr) with (2 * (5 * 10^(8 - s) * lv hi) * (2 * 10^s) + (2 * g + fr)).
      2:{ rewrite PB9. replace (9 - s) with (Z.succ (8 - s)) by lia. rewrite Z.pow_succ_r by lia. ring. }
      rewrite rne_even by lia. rewrite PB9 at 1. replace (9 - s) with (Z.succ (8 - s)) by lia. rewrite Z.pow_succ_r by lia. ring.
    + destruct A4 as [A4|A4]; [|right; exact A4]. destruct hi as [|g2 hi]; [left; rewrite A4; reflexivity|right].
      rewrite A2, A4. assert (HH : B ^ Z.of_nat (len hi) <= lv (g2 :: hi)).
      { rewrite EV in Ml. cbn [lv] in Ml. rewrite LL in Ml. cbn [len] in Ml. replace (Z.of_nat (n + S (S (len hi))) - 1) with (Z.of_nat n + (1 + Z.of_nat (len hi))) in Ml by lia.
        rewrite !Z.pow_add_r in Ml by lia. rewrite Z.pow_1_r in Ml. pose proof (Bpow (len hi)). pose proof Bpos. cbn [lv].
        set (D := B ^ Z.of_nat n) in *. set (C := B ^ Z.of_nat (len hi)) in *. set (w := g2 + B * lv hi) in *.
        assert (D * (B * C) < D * (1 + (g + B * w))) by lia. assert (B * C < 1 + (g + B * w)) by nia. nia. }
      cbn [len]. replace (Z.of_nat (S (S (len hi))) - 1) with (Z.succ (Z.of_nat (len hi))) by lia. rewrite Z.pow_succ_r by lia. pose proof Bpos. nia.
Qed.

(** ** how good the rounding is *)
Lemma collapsed_err V D s : 0 <= V -> 0 < D -> 0 <= s -> let T := D * 10^s in let Q := collapsed V D s in
  10 * (2 * Z.abs (Q * T - V) - T) <= T /\
  (2 * (V mod T) = T \/ T < 10 * Z.abs (2 * (V mod T) - T) -> Q = rne V T) /\ 0 <= Q.
Proof.
  intros HV HD Hs T Q. assert (P10 : 0 < 10^s) by (apply Z.pow_pos_nonneg; lia).
  pose proof (Z.div_mod V D ltac:(lia)) as DM. pose proof (Z.mod_pos_bound V D HD) as MB. assert (H0 : 0 <= V / D) by (apply Z.div_pos; lia).
  set (H := V / D) in *. set (R := V mod D) in *. pose proof (frac2_range R D) as FR.
  pose proof (rne_near (2 * H + frac2 R D) (2 * 10^s) ltac:(lia)) as RN. change (rne (2 * H + frac2 R D) (2 * 10^s)) with Q in RN.
  assert (Q0 : 0 <= Q).
  { unfold Q, collapsed. fold H R. pose proof (rne_range (2 * H + frac2 R D) (2 * 10^s) 0 (2 * H + frac2 R D) ltac:(lia)) as X. apply X. nia. }
  assert (CF : Z.abs ((2 * H + frac2 R D) * D - 2 * V) <= D).
  { unfold frac2. destruct (2 * R <? D) eqn:C1; [|destruct (2 * R =? D) eqn:C2]; nia. }
  assert (E1 : 2 * Z.abs (Q * T - V) <= T + D).
  { unfold T. set (G := 2 * H + frac2 R D) in *. clearbody G Q.
    assert (Z.abs (Q * (2 * 10^s) * D - G * D) <= 10^s * D) by (rewrite <- Z.mul_sub_distr_r, Z.abs_mul, (Z.abs_eq D) by lia; apply Z.mul_le_mono_nonneg_r; lia). lia. }
  destruct (Z.eq_dec s 0) as [->|S0].
  - assert (EQ : Q = rne V T).
    { unfold Q, collapsed. fold H R. change (10^0) with 1. unfold T. change (10^0) with 1. rewrite (Z.mul_1_r D), (rne_unfold V D). fold H R.
      pose proof (Z.mod_pos_bound H 2 ltac:(lia)) as M2. unfold frac2. rewrite (Z.mul_1_r 2).
      destruct (2 * R <? D) eqn:C1; [|destruct (2 * R =? D) eqn:C2].
      - rewrite Z.add_0_r, Z.mul_comm, rne_exact by lia. replace (D <? _) with false by lia. cbn [b2z]. lia.
      - rewrite rne_unfold. rewrite (Z.mul_comm 2 H), Z.div_add_l, (Z.add_comm (H * 2) 1), Z.mod_add by lia. change (1 / 2) with 0. change (1 mod 2) with 1. rewrite Z.add_0_r.
        do 2 f_equal. lia.
      - replace (2 * H + 2) with ((H + 1) * 2) by ring. rewrite rne_exact by lia. replace (D <? _) with true by lia. reflexivity. }
    split; [|split; auto]. rewrite EQ. pose proof (rne_near V T ltac:(unfold T; nia)). assert (0 < T) by (unfold T; nia). lia.
  - assert (P1 : 10 <= 10^s) by (change 10 with (10^1) at 1; apply Z.pow_le_mono_r; lia).
    assert (T10 : 10 * D <= T) by (unfold T; nia). split; [lia|]. split; [|exact Q0].
    pose proof (Z.div_mod V T ltac:(lia)) as DT. pose proof (Z.mod_pos_bound V T ltac:(lia)) as MT. set (r := V mod T) in *. set (k := V / T) in *.
    intros [TIE|FAR].
    + assert (R = 0) as R0.
      { unfold R. rewrite DT. assert (Er : r = D * (5 * 10^(s - 1))).
        { replace s with (Z.succ (s - 1)) in TIE, DT by lia. unfold T in TIE. replace (10^s) with (10 * 10^(s - 1)) in TIE; [lia|].
          replace s with (Z.succ (s - 1)) at 2 by lia. rewrite Z.pow_succ_r by lia. reflexivity. }
        rewrite Er. unfold T. replace (D * 10^s * k + D * (5 * 10^(s - 1))) with ((10^s * k + 5 * 10^(s - 1)) * D) by ring. apply Z.mod_mul. lia. }
      unfold Q, collapsed. fold H R. rewrite R0. unfold frac2. replace (2 * 0 <? D) with true by lia. rewrite Z.add_0_r.
      rewrite (Z.mul_comm 2 H), (Z.mul_comm 2), rne_scale by lia. rewrite DM, R0, Z.add_0_r. unfold T. rewrite (Z.mul_comm D H), (Z.mul_comm D). symmetry. apply rne_scale; lia.
    + symmetry. apply rne_unique; [lia|]. destruct (Z_lt_le_dec (2 * Z.abs (Q * T - V)) T) as [L|L]; [exact L|exfalso].
      clearbody Q T k r. clear - E1 L T10 FAR DT MT HD.
      assert (Z.abs (2 * r - T) <= D); [|lia]. subst V.
      destruct (Z_le_gt_dec (Q * T) (T * k + r)) as [G|G].
      * assert (Q <= k) by nia. assert (k - 1 < Q) by nia. assert (Q = k) by lia. subst. nia.
      * assert (k + 1 <= Q) by nia. assert (Q < k + 2) by nia. assert (Q = k + 1) by lia. subst. nia.
Qed.

(** ** the fraction digits *)
Lemma down_ok rest mid : limbs mid -> forall low, exists ps,
  dump_down (len mid) (Z.of_nat (len low + len mid) - 1) (map Some low ++ map Some mid ++ rest) = Ok ps /\
  Z.of_nat (len (List.concat ps)) = 9 * Z.of_nat (len mid) /\ Forall dig (List.concat ps) /\ dv (List.concat ps) = lv mid.
Proof.
  revert rest. induction mid as [|x mid I] using rev_ind; intros rest Hm low.
  - exists []. cbn. repeat split; constructor.
  - apply Forall_app in Hm as [Hm Hx]. pose proof (Forall_inv Hx) as Hx0. cbv beta in Hx0. rewrite app_length, Nat.add_1_r. cbn [dump_down].
    destruct (I (Some x :: rest) Hm low) as (ps & E & L & Dg & V).
    assert (EA : map Some low ++ map Some (mid ++ [x]) ++ rest = map Some low ++ map Some mid ++ Some x :: rest) by (rewrite map_app, <- !app_assoc; reflexivity).
    rewrite EA. replace (Z.of_nat (len low + S (len mid)) - 1) with (Z.of_nat (len (map Some low ++ map Some mid))) by (rewrite app_length, !map_length; lia).
    assert (G : get (map Some low ++ map Some mid ++ Some x :: rest) (Z.of_nat (len (map Some low ++ map Some mid))) = Ok x) by (rewrite app_assoc; apply (get_at _ (Some x))).
    rewrite G. cbn [bind].
    replace (Z.of_nat (len (map Some low ++ map Some mid)) - 1) with (Z.of_nat (len low + len mid) - 1) by (rewrite app_length, !map_length; lia).
    rewrite E. cbn [bind]. eexists. split; [reflexivity|]. cbn [List.concat].
    destruct (dump_ok 9 x [] ltac:(lia)) as (d & -> & Ld & Dd & Vd). rewrite app_nil_r, app_length, dv_app.
    split; [lia|]. split; [apply Forall_app; auto|]. rewrite Vd, V, L, lv_app. cbn [lv]. change (10 ^ Z.of_nat 9) with B. rewrite Z.mod_small by lia.
    rewrite (Z.pow_mul_r 10 9) by lia. change (10 ^ 9) with B. ring.
Qed.
Lemma numeral9 x : 0 <= x < B -> exists d, decimal_ F 9 x [] = Ok d /\ Forall dig d /\ dv d = x /\ Z.of_nat (len d) <= 9 /\ (d = [] \/ 10 ^ (Z.of_nat (len d) - 1) <= x).
Proof.
  intros H. destruct (numeral_exists 10 false x ltac:(lia) ltac:(lia)) as (d & Hd). exists d.
  assert (LD : Z.of_nat (len d) <= 9) by (apply (numeral_len 10 false d x 9); try lia; [exact Hd|change (10^9) with B; lia]).
  rewrite (decimal_ok F false 9 d x [] Hd), fits_ok by (unfold F; lia). split; [reflexivity|].
  destruct (numeral_digits d x Hd) as [(Dd & Vd & Nd)|[-> ->]].
  - split; [exact Dd|]. split; [exact Vd|]. split; [exact LD|]. right. destruct d as [|c d]; [cbn in Nd; congruence|].
    inversion_clear Dd as [|? ? Hc Dd']. cbn [nth] in Nd. rewrite <- Vd. cbn [dv len]. pose proof (dv_bound d Dd') as BD. pose proof (pow10pos (len d)).
    replace (Z.of_nat (S (len d)) - 1) with (Z.of_nat (len d)) by lia. unfold dig in Hc. assert (1 <= c - 48) by lia. nia.
  - cbn. repeat split; auto; try constructor; try lia.
Qed.

Lemma dv_firstn d k : Forall dig d -> (k <= len d)%nat -> dv (firstn k d) = dv d / 10 ^ Z.of_nat (len d - k).
Proof.
  intros Hd Hk. rewrite <- (firstn_skipn k d) at 2. rewrite dv_app, skipn_length.
  assert (Hs : Forall dig (skipn k d)) by (apply Forall_forall; intros y Hy; apply (proj1 (Forall_forall _ _) Hd y); rewrite <- (firstn_skipn k d); apply in_or_app; auto).
  pose proof (dv_bound _ Hs) as BS. rewrite skipn_length in BS. pose proof (pow10pos (len d - k)). rewrite Z.div_add_l by lia. rewrite Z.div_small by lia. lia.
Qed.
Lemma dig_firstn d k : Forall dig d -> Forall dig (firstn k d).
Proof. intros H. apply Forall_forall. intros y Hy. apply (proj1 (Forall_forall _ _) H y). rewrite <- (firstn_skipn k d). apply in_or_app. auto. Qed.
Definition frac_pieces (big : arr) (p limbs index cut : Z) : res pieces :=
  if index + 1 <? limbs then
    do top <- get big (limbs - 1);
    do begin <- decimal_ F 9 top [];
    do middle <- dump_down (Z.to_nat (limbs - 2 - index)) (limbs - 2) big;
    do low <- get big index;
    Ok (pad_ 48 (p - 9 * (limbs - 1) - Z.of_nat (List.length begin)) ++ [begin] ++ middle ++ [firstn (Z.to_nat (9 - cut)) (dump_limb_ 9 low [])])
  else
    do v <- get big index;
    do begin <- decimal_ F 9 (v / exp10_limb_ cut) [];
    Ok (pad_ 48 (p - 9 * index - (Z.of_nat (List.length begin) + cut)) ++ [begin]).
Lemma pieces_ok low hi rest Q s p : limbs hi -> (1 <= len hi)%nat -> 0 <= s < 9 -> lv hi = Q * 10^s -> 0 <= Q ->
  (len hi = 1%nat \/ B ^ (Z.of_nat (len hi) - 1) <= lv hi) -> 9 * Z.of_nat (len low) + s <= p < 2^32 -> Q * 10^(9 * Z.of_nat (len low) + s) < 10^p ->
  exists ds, frac_pieces (map Some low ++ map Some hi ++ rest) p (Z.of_nat (len low + len hi)) (Z.of_nat (len low)) s = Ok ds /\
    Forall dig (List.concat ds) /\ Z.of_nat (len (List.concat ds)) = p - 9 * Z.of_nat (len low) - s /\ dv (List.concat ds) = Q.
Proof.
  intros Hl H1 Hs V Q0 Ht Hp BQ. assert (P10 : 0 < 10^s) by (apply Z.pow_pos_nonneg; lia). pose proof Bpos as PB.
  set (n := len low) in *. assert (LM : Z.of_nat n = Z.of_nat (len (map Some low))) by (rewrite map_length; reflexivity).
  assert (PB9 : B = 10^(9 - s) * 10^s) by (rewrite <- Z.pow_add_r by lia; replace (9 - s + s) with 9 by lia; reflexivity).
  unfold frac_pieces. destruct hi as [|g hi]; [cbn in H1; lia|]. inversion_clear Hl as [|? ? Hg Hhi]. cbn [lv len] in *.
  destruct hi as [|g2 hi].
  - cbn [len]. replace (Z.of_nat n + 1 <? Z.of_nat (n + 1)) with false by lia. rewrite LM. cbn [map List.app]. rewrite get_at. cbn [bind]. rewrite <- LM. cbn [lv] in V.
    assert (EQ : g / 10^s = Q) by (replace g with (Q * 10^s) by lia; apply Z.div_mul; lia). rewrite exp10_ok, EQ by lia.
    assert (QB : Q < B) by nia. destruct (numeral9 Q ltac:(lia)) as (d & -> & Dd & Vd & Ld & Nd). cbn [bind]. eexists. split; [reflexivity|].
    assert (LP : Z.of_nat (len d) + (9 * Z.of_nat n + s) <= p).
    { destruct Nd as [->|Nd]; [cbn [len]; lia|]. destruct d as [|c d]; [cbn [len]; lia|]. set (k := Z.of_nat (len (c :: d))) in *. assert (1 <= k) by (unfold k; cbn [len]; lia).
      assert (P : 10^(k - 1) * 10^(9 * Z.of_nat n + s) < 10^p).
      { eapply Z.le_lt_trans; [|exact BQ]. apply Z.mul_le_mono_nonneg_r; [apply Z.pow_nonneg; lia|exact Nd]. }
      rewrite <- Z.pow_add_r in P by lia. apply Z.pow_lt_mono_r_iff in P; lia. }
    rewrite concat_app, pad_text by (unfold is_byte; lia). cbn [List.concat]. rewrite app_nil_r. split; [apply Forall_app; split; [apply zeros_dig|exact Dd]|].
    rewrite app_length, Nat2Z.inj_add, chars_len, dv_app, zeros_dv, Vd. lia.
  - destruct (exists_last (l := g2 :: hi)) as (mid & top & EM); [discriminate|]. rewrite EM in *. clear EM g2 hi.
    apply Forall_app in Hhi as [Hm Ht']. pose proof (Forall_inv Ht') as Htop. cbv beta in Htop. clear Ht'. rewrite app_length in *. cbn [len] in *.
    destruct Ht as [Ht|Ht]; [lia|]. rewrite lv_app in V, Ht. cbn [lv] in V, Ht.
    replace (Z.of_nat n + 1 <? _) with true by lia.
    assert (EA : map Some low ++ map Some (g :: mid ++ [top]) ++ rest = map Some (low ++ [g]) ++ map Some mid ++ Some top :: rest).
    { cbn [map]. rewrite !map_app, <- !app_assoc. cbn [map List.app]. rewrite <- app_assoc. reflexivity. }
    assert (GT : get (map Some low ++ map Some (g :: mid ++ [top]) ++ rest) (Z.of_nat (n + S (len mid + 1)) - 1) = Ok top).
    { rewrite EA, app_assoc. rewrite <- (get_at (map Some (low ++ [g]) ++ map Some mid) (Some top) rest). f_equal. rewrite app_length, !map_length, app_length. cbn [len]. lia. }
    assert (GL : get (map Some low ++ map Some (g :: mid ++ [top]) ++ rest) (Z.of_nat n) = Ok g) by (rewrite LM; apply (get_at _ (Some g))).
    rewrite GT, GL. cbn [bind]. destruct (numeral9 top Htop) as (d & -> & Dd & Vd & Ld & Nd). cbn [bind].
    destruct (down_ok (Some top :: rest) mid Hm (low ++ [g])) as (ps & E & Lm & Dm & Vm).
    replace (Z.to_nat (Z.of_nat (n + S (len mid + 1)) - 2 - Z.of_nat n)) with (len mid) by lia.
    replace (Z.of_nat (n + S (len mid + 1)) - 2) with (Z.of_nat (len (low ++ [g]) + len mid) - 1) by (rewrite app_length; cbn [len]; lia).
    rewrite EA, E. cbn [bind]. eexists. split; [reflexivity|].
    destruct (dump_ok 9 g [] ltac:(lia)) as (e & -> & Le & De & Ve). rewrite app_nil_r in *. change (10 ^ Z.of_nat 9) with B in Ve. rewrite Z.mod_small in Ve by lia.
    pose proof (lv_bound mid Hm) as BM. pose proof (Bpow (len mid)) as PM. set (M := B ^ Z.of_nat (len mid)) in *.
    assert (T0 : 1 <= top).
    { replace (Z.of_nat (S (len mid + 1)) - 1) with (Z.succ (Z.of_nat (len mid))) in Ht by lia. rewrite Z.pow_succ_r in Ht by lia. fold M in Ht. nia. }
    destruct Nd as [->|Nd]; [cbn in Vd; lia|].
    assert (D1 : 1 <= Z.of_nat (len d)) by (destruct d; [cbn in Vd; lia|cbn [len]; lia]).
    assert (EB : B * M = 10 ^ (9 * Z.of_nat (S (len mid)))).
    { rewrite Z.pow_mul_r by lia. change (10^9) with B. rewrite BpowS. reflexivity. }
    assert (LP : 9 * Z.of_nat (n + S (len mid)) + Z.of_nat (len d) <= p).
    { assert (P : 10^(Z.of_nat (len d) - 1) * (B * M) * 10^(9 * Z.of_nat n) < 10^p).
      { eapply Z.le_lt_trans; [|exact BQ]. rewrite Z.pow_add_r by lia. replace (Q * (10^(9 * Z.of_nat n) * 10^s)) with ((Q * 10^s) * 10^(9 * Z.of_nat n)) by ring.
        apply Z.mul_le_mono_nonneg_r; [apply Z.pow_nonneg; lia|]. rewrite <- V. nia. }
      rewrite EB, <- !Z.pow_add_r in P by lia. apply Z.pow_lt_mono_r_iff in P; lia. }
    rewrite !concat_app, pad_text by (unfold is_byte; lia). cbn [List.concat]. rewrite !app_nil_r.
    assert (K9 : (Z.to_nat (9 - s) <= len e)%nat) by lia.
    split; [repeat (apply Forall_app; split); auto using zeros_dig, dig_firstn|].
    rewrite !app_length, !Nat2Z.inj_add, chars_len, Lm, firstn_length, Nat.min_l by lia. split; [lia|].
    rewrite !dv_app, zeros_dv, Z.mul_0_l, Z.add_0_l, Vd, Vm, dv_firstn, Ve, !app_length, firstn_length, Nat.min_l by (auto; lia).
    replace (Z.of_nat (len e - Z.to_nat (9 - s))) with s by lia.
    rewrite !Nat2Z.inj_add, Lm, Z2Nat.id by lia. rewrite Z.pow_add_r by lia. rewrite (Z.pow_mul_r 10 9) by lia. change (10^9) with B. fold M.
    assert (G10 : 10^s * (g / 10^s) = g).
    { assert (g mod 10^s = 0); [|pose proof (Z.div_mod g (10^s) ltac:(lia)); lia].
      replace g with ((Q - 10^(9 - s) * (lv mid + M * (top + B * 0))) * 10^s) by (rewrite Z.mul_sub_distr_r, <- V; rewrite PB9 at 1; ring). apply Z.mod_mul. lia. }
    apply (Z.mul_reg_r _ _ (10^s)); [lia|]. rewrite <- V. rewrite <- G10 at 2. rewrite PB9 at 1. ring.
Qed.

Lemma f2l_range p : 0 <= p <= 1100 -> 0 <= fives_to_limbs_ p <= 87.
Proof.
  intros H. unfold fives_to_limbs_, u32. rewrite (Z.mod_small (p * 699)), Z.mod_small by lia. split; [apply Z.div_pos; lia|].
  assert ((p * 699 + 8999) / 9000 < 88) by (apply Z.div_lt_upper_bound; lia). lia.
Qed.
Lemma ifrexp_small M m e : 0 < M < 0x3F70000000000000 -> ifrexp_ M = (m, e) ->
  -1074 <= e < 0 /\ 0 < m < 2^53 /\ exists c, 0 <= c /\ dsig M = m * 2^c /\ e = dexp M + c /\ 0 < dsig M < 2^53 /\ dexp M <= -61.
Proof.
  intros HM H. unfold ifrexp_ in H. destruct (M <? 2^52) eqn:S.
  - replace (M =? 0) with false in H by lia. cbn [negb b2z] in H. injection H as <- <-. split; [lia|]. split; [lia|]. exists 0.
    assert (ED : dexp M = -1074) by (unfold dexp; rewrite Z.shiftr_div_pow2, Z.div_small by lia; reflexivity).
    assert (DM : dsig M = M) by (unfold dsig; rewrite S; reflexivity). rewrite ED, DM. lia.
  - unfold kernel_ifrexp_ in H. assert (M0 : 2^52 <= M) by lia.
    assert (DS : 2^52 <= dsig M < 2^53) by (unfold dsig; rewrite S; pose proof (Z.mod_pos_bound M (2^52) ltac:(lia)); lia).
    assert (SE : Z.lor (M mod 2^52) (2^52) = dsig M).
    { unfold dsig. rewrite S. rewrite lor_bit by lia. pose proof (Z.mod_pos_bound M (2^52) ltac:(lia)).
      rewrite (Z.div_small (M mod 2^52)) by lia. cbn [Z.modulo]. change (0 mod 2) with 0. lia. }
    rewrite SE in H. destruct (ctz_ok 64 (dsig M) ltac:(lia)) as [C1 C2]. set (c := ctz 64 (dsig M)) in *. clearbody c. apply pair_equal_spec in H as [<- <-]. set (odd := Z.shiftr (dsig M) c) in *.
    assert (EM : 1 <= Z.shiftr M 52 <= 1014).
    { rewrite Z.shiftr_div_pow2 by lia. split; [apply Z.div_le_lower_bound; lia|]. assert (M / 2^52 < 1015) by (apply Z.div_lt_upper_bound; lia). lia. }
    assert (ED : dexp M = Z.shiftr M 52 - 1075) by (unfold dexp; lia).
    assert (P2 : 0 < 2^c) by (apply Z.pow_pos_nonneg; lia).
    assert (O1 : 0 < odd < 2^53) by (clear - C2 DS P2; nia).
    assert (C3 : c <= 52). { assert (2^c < 2^53) by (clear - C2 DS P2 O1; nia). apply Z.pow_lt_mono_r_iff in H; lia. }
    split; [lia|]. split; [exact O1|]. exists c. repeat split; try lia.
Qed.

Lemma Bten i : 0 <= i -> B^i = 10^(9 * i).
Proof. intros H. rewrite (Z.pow_mul_r 10 9 i) by lia. f_equal. Qed.

Section S.
Context (arg : Z) (spec : Spec) (Hw : 0 <= width spec <= INT_MAX) (Hp : 0 <= precision spec <= INT_MAX - 400).
Notation M := (arg mod 2^63).
Notation prec := (precision spec).
Notation neg := (negative binary64 arg).
Lemma small_layout f digits padding : 0 <= padding < 2^31 -> List.concat digits = f ->
  List.concat (((if has (flags spec) 45 || has (flags spec) 48 then [] else pad_ 32 padding) ++ put_sign (signchar_ neg (flags spec))
    ++ (if has (flags spec) 48 && negb (has (flags spec) 45) then pad_ 48 (padding + 1) else put_ 48) ++ (if pointed spec then put_ 46 else []))
    ++ digits ++ (if has (flags spec) 45 then pad_ 32 padding else []))
  = laid spec true (sign_text (view spec) neg) ([48] ++ (if pointed spec then [46] else []) ++ f) padding.
Proof.
  intros H1 <-. unfold laid. rewrite andb_true_r. destruct (signtext_ok spec neg) as [S1 _]. rewrite !concat_app, S1.
  assert (P : List.concat (if pointed spec then put_ 46 else []) = if pointed spec then [46] else []) by (destruct (pointed spec); reflexivity). rewrite P.
  assert (C1 : chars 48 (padding + 1) = chars 48 padding ++ [48]).
  { unfold chars. replace (Z.to_nat (padding + 1)) with (Z.to_nat padding + 1)%nat by lia. rewrite repeat_app. reflexivity. }
  destruct (has (flags spec) 45), (has (flags spec) 48); cbn [andb orb negb]; rewrite ?pad_text by (unfold is_byte; lia); cbn [List.concat List.app]; rewrite ?C1, ?app_nil_r, <- ?app_assoc; reflexivity.
Qed.
Theorem small_ok ps r : M < 0x3F70000000000000 -> fixed_small_ spec (signchar_ neg (flags spec)) M = Ok (ps, r) ->
  exists out N, r = Z.of_nat (len out) /\ List.concat ps = out /\ fixed_text (view spec) arg prec N out /\
    10 * (2 * Z.abs (N * fden arg - fnum arg prec) - fden arg) <= fden arg /\
    (not_near_tie20 arg prec -> N = fixed_correct arg prec).
Proof.
  intros HM H. pose proof (Z.mod_pos_bound arg (2^63) ltac:(lia)) as MB. unfold fixed_small_ in H.
  destruct (ifrexp_ M) as [m e] eqn:EI. unfold common_fixed_small_ in H. fold (pointed spec) in H. rewrite pointed_eq in H.
  apply bind_inv in H as (L & EL & H). apply bind_inv in H as (padding & EP & H). apply bind_inv in H as (place & EPl & H).
  apply bind_inv in H as ((big & xn) & EB & H).
  destruct (Z.eq_dec M 0) as [M0|M0].
  { rewrite M0 in EI. cbv in EI. injection EI as <- <-. exfalso. revert EB. vm_compute. discriminate. }
  destruct (ifrexp_small M m e ltac:(lia) EI) as (He & Hm & c & C0 & Dm & Ee & Ds & De).
  assert (PL : place = - e - prec).
  { unfold chk_i32 in EPl. destruct (_ && _); [injection EPl as <-; reflexivity|discriminate]. }
  clear EPl. set (p := - e) in *.
  destruct (u18d_norm m Hm) as [Nm Vm]. pose proof (f2l_range p ltac:(lia)) as F2.
  apply scal5_inv in EB as (Sb & l & rest & -> & Nl & <- & Vl & Zr); [|lia|exact Nm]. rewrite Vm in Vl.
  assert (LB : Z.of_nat (len l) <= 89).
  { rewrite app_length, map_length in Sb. assert (Z.of_nat (len (new_arr (fives_to_limbs_ p + 2))) = fives_to_limbs_ p + 2) by (apply new_len; lia). lia. }
  apply bind_inv in H as ((big & limbs') & ER & H). apply bind_inv in H as (digits & ED & H). apply bind_inv in H as (r' & Er & H).
  injection H as Eps Er'. subst r'.
  (* the number *)
  set (V := lv l) in *. assert (V0 : 0 < V) by (apply norm_pos; exact Nl).
  assert (D0 : 0 < fden arg) by apply fden_pos.
  assert (EF : fden arg = 2^(p + c)).
  { unfold fden. f_equal. pose proof (dexp_eq arg ltac:(lia)). lia. }
  assert (EN : fnum arg prec = dsig M * 10^prec).
  { unfold fnum. rewrite dexp_eq, dsig_eq by lia. rewrite Z.max_l by lia. change (2^0) with 1. ring. }
  assert (VF : V * fden arg = dsig M * 10^p).
  { rewrite Vl, EF, Dm, Z.pow_add_r by lia. change 10 with (2 * 5) at 1. rewrite Z.pow_mul_l. ring. }
  assert (V256 : 256 * V < 10^p).
  { assert (256 * dsig M < fden arg).
    { rewrite EF. assert (2^61 <= 2^(p + c)) by (apply Z.pow_le_mono_r; lia). lia. }
    assert (0 < 10^p) by (apply Z.pow_pos_nonneg; lia). nia. }
  (* the fraction *)
  assert (FR : exists N, Forall dig (List.concat digits) /\ Z.of_nat (len (List.concat digits)) = prec /\ dv (List.concat digits) = N /\
    10 * (2 * Z.abs (N * fden arg - fnum arg prec) - fden arg) <= fden arg /\ (not_near_tie20 arg prec -> N = fixed_correct arg prec)).
  { assert (ZL : limbs_placed_rint_ (map Some l ++ rest) (Z.of_nat (len l)) place = Ok (big, limbs') -> 0 < place -> V * fden arg = fnum arg prec * 10^place).
    { intros _ P0. rewrite VF, EN, <- Z.mul_assoc, <- Z.pow_add_r by lia. do 2 f_equal. lia. }
    specialize (ZL ER).
    destruct (Z_le_gt_dec place 0) as [P0|P0].
    - unfold limbs_placed_rint_ in ER. replace (place <=? 0) with true in ER by lia. injection ER as <- <-.
      assert (IX : b2z (0 <=? place) * (u32 place / 9) = 0 /\ b2z (0 <=? place) * (u32 place mod 9) = 0).
      { destruct (Z.eq_dec place 0) as [->|]; [split; reflexivity|]. replace (0 <=? place) with false by lia. split; reflexivity. }
      destruct IX as [IX1 IX2]. rewrite IX1, IX2 in ED. destruct Nl as (Ll & NN & Ml). assert (L1 : (1 <= len l)%nat) by (destruct l; [congruence|cbn; lia]).
      replace (Z.of_nat (len l) =? 0) with false in ED by lia.
      assert (Q1 : lv l = V * 10^0) by (rewrite Z.pow_0_r; unfold V; lia).
      assert (Q2 : 9 * Z.of_nat (len (@nil Z)) + 0 <= p < 2^32) by (cbn [len]; change (9 * Z.of_nat 0 + 0) with 0; lia).
      assert (Q3 : V * 10^(9 * Z.of_nat (len (@nil Z)) + 0) < 10^p) by (cbn [len]; change (10 ^ (9 * Z.of_nat 0 + 0)) with 1; lia).
      destruct (pieces_ok [] l rest V 0 p Ll L1 ltac:(lia) Q1 ltac:(lia) (or_intror Ml) Q2 Q3) as (ds & E1 & E2 & E3 & E4).
      change (frac_pieces (map Some l ++ rest) p (Z.of_nat (len l)) 0 0 = Ok ds) in E1. apply bind_inv in ED as (ds' & ED1 & ED).
      change (frac_pieces (map Some l ++ rest) p (Z.of_nat (len l)) 0 0 = Ok ds') in ED1. rewrite E1 in ED1. injection ED1 as <-. injection ED as <-.
      assert (EZ : List.concat (if place <? 0 then pad_ 48 (- place) else []) = chars 48 (- place)).
      { destruct (place <? 0) eqn:C; [apply pad_text; [unfold is_byte; lia|unfold INT_MAX in *; lia]|]. rewrite chars_nil by lia. reflexivity. }
      exists (V * 10^(- place)). rewrite concat_app, EZ. split; [apply Forall_app; split; [exact E2|apply zeros_dig]|].
      rewrite app_length, Nat2Z.inj_add, chars_len, E3, dv_app, E4, zeros_dv, chars_len. cbn [len]. split; [lia|]. split; [rewrite Z.max_r by lia; ring|].
      assert (EX : V * 10^(- place) * fden arg = fnum arg prec).
      { rewrite EN. replace (V * 10^(- place) * fden arg) with (V * fden arg * 10^(- place)) by ring. rewrite VF, <- Z.mul_assoc, <- Z.pow_add_r by lia. do 2 f_equal. lia. }
      rewrite EX, Z.sub_diag. split; [cbn [Z.abs]; lia|]. intros _. unfold fixed_correct. rewrite <- EX. symmetry. apply rne_exact. exact D0.
    - specialize (ZL ltac:(lia)). assert (PT : 0 < 10^place) by (apply Z.pow_pos_nonneg; lia). assert (TP : 10^place <= 10^p) by (apply Z.pow_le_mono_r; lia).
      assert (RS : rne V (10^place) = fixed_correct arg prec).
      { unfold fixed_correct. rewrite <- (rne_scale V _ (fden arg)) by lia. rewrite ZL, (Z.mul_comm (10^place)). apply rne_scale; lia. }
      assert (FIN : forall N, 10 * (2 * Z.abs (N * 10^place - V) - 10^place) <= 10^place ->
        (2 * (V mod 10^place) = 10^place \/ 10^place < 10 * Z.abs (2 * (V mod 10^place) - 10^place) -> N = rne V (10^place)) ->
        10 * (2 * Z.abs (N * fden arg - fnum arg prec) - fden arg) <= fden arg /\ (not_near_tie20 arg prec -> N = fixed_correct arg prec)).
      { intros N A1 A2. set (T := 10^place) in *. set (D := fden arg) in *. set (F := fnum arg prec) in *. split.
        - assert (E : Z.abs (N * D - F) * T = Z.abs (N * T - V) * D).
          { rewrite <- (Z.abs_eq T) at 1 by lia. rewrite <- (Z.abs_eq D) at 2 by lia. rewrite <- !Z.abs_mul. f_equal. lia. }
          set (a := Z.abs (N * D - F)) in *. set (b := Z.abs (N * T - V)) in *. clearbody a b. clear - E A1 PT D0. nia.
        - intros NT. rewrite <- RS. apply A2. unfold not_near_tie20 in NT. cbv zeta in NT. fold D F in NT.
          assert (R : (V mod T) * D = (F mod D) * T).
          { rewrite <- !Z.mul_mod_distr_r by lia. rewrite ZL. f_equal. ring. }
          set (a := V mod T) in *. set (b := F mod D) in *. clearbody a b. clear - R NT PT D0. destruct NT as [H|H]; [left|right]; nia. }
      destruct (Z_le_gt_dec place (9 * Z.of_nat (len l))) as [P9|P9].
      + apply placed_inv in ER; auto; try lia. destruct ER as (low & hi' & rest' & -> & A1 & A2 & A3 & A4 & -> & A6).
        pose proof (Z.mod_pos_bound place 9 ltac:(lia)) as MS. pose proof (Z.div_mod place 9 ltac:(lia)) as DMp.
        assert (I0 : 0 <= place / 9) by (apply Z.div_pos; lia). set (s := place mod 9) in *. set (i := place / 9) in *.
        assert (U : u32 place = place) by (unfold u32; apply Z.mod_small; lia). rewrite U in ED. fold s i in ED. replace (0 <=? place) with true in ED by lia.
        cbn [b2z] in ED. rewrite !Z.mul_1_l in ED. replace (Z.of_nat (len low + len hi') =? 0) with false in ED by lia. replace (place <? 0) with false in ED by lia.
        assert (PD : 0 < B^i) by (clear - I0; apply Z.pow_pos_nonneg; [pose proof Bpos|]; lia).
        destruct (collapsed_err V (B^i) s ltac:(lia) PD ltac:(lia)) as (C1 & C2 & C3). fold V in A4. set (Q := collapsed V (B^i) s) in *.
        clearbody s i. assert (ET : B^i * 10^s = 10^place).
        { clear - I0 MS DMp. rewrite (Bten i I0). rewrite <- Z.pow_add_r by lia. f_equal. lia. }
        rewrite ET in C1, C2.
        assert (QP : Q * 10^place < 10^p) by (clear - C1 V256 TP PT V0; lia).
        assert (PR : 9 * i + s = place) by (clear - DMp; lia).
        assert (Q2 : 9 * Z.of_nat (len low) + s <= p < 2^32) by (rewrite A1, PR; clear - PL He Hp; unfold p; lia).
        assert (Q3 : Q * 10^(9 * Z.of_nat (len low) + s) < 10^p) by (rewrite A1, PR; exact QP).
        destruct (pieces_ok low hi' rest' Q s p A2 A3 MS A4 C3 A6 Q2 Q3) as (ds & E1 & E2 & E3 & E4).
        rewrite A1 in E1. apply bind_inv in ED as (ds' & ED1 & ED).
        change (frac_pieces (map Some low ++ map Some hi' ++ rest') p (Z.of_nat (len low + len hi')) i s = Ok ds') in ED1. rewrite E1 in ED1. injection ED1 as <-.
        rewrite app_nil_r in ED. injection ED as <-.
        exists Q. split; [exact E2|]. split; [rewrite E3, A1; clear - PR PL; unfold p; lia|]. split; [exact E4|]. apply FIN; assumption.
      + unfold limbs_placed_rint_ in ER. replace (place <=? 0) with false in ER by lia.
        assert (U : u32 (9 * Z.of_nat (len l)) = 9 * Z.of_nat (len l)) by (unfold u32; apply Z.mod_small; lia). rewrite U in ER.
        replace (place <=? 9 * Z.of_nat (len l)) with false in ER by lia. injection ER as <- <-. cbn [Z.eqb] in ED. injection ED as <-.
        rewrite pad_text by (unfold is_byte, INT_MAX in *; lia). exists 0. split; [apply zeros_dig|]. split; [rewrite chars_len; lia|]. split; [apply zeros_dv|].
        assert (VB : 10 * V < 10^place).
        { pose proof (lv_bound l (proj1 Nl)) as X. fold V in X. pose proof (Bten (Z.of_nat (len l)) ltac:(lia)).
          assert (10 * 10^(9 * Z.of_nat (len l)) <= 10^place) by (rewrite <- Z.pow_succ_r by lia; apply Z.pow_le_mono_r; lia). lia. }
        apply FIN; [lia|]. intros _. symmetry. apply rne_0; lia. }
  destruct FR as (N & FD & FL & FV & ERR & COR).
  set (f := List.concat digits) in *.
  destruct (signtext_ok spec neg) as [_ S2].
  assert (LL : L = Z.of_nat (len (sign_text (view spec) neg ++ [48] ++ (if pointed spec then [46] else []) ++ f))).
  { unfold chk_i32 in EL. destruct (_ && _) in EL; [injection EL as <-|discriminate]. rewrite S2, !app_length, !Nat2Z.inj_add, FL.
    destruct (pointed spec); cbn [b2z len]; lia. }
  assert (LI : L <= INT_MAX).
  { unfold chk_i32 in EL. destruct (_ && _) eqn:E in EL; [injection EL as EL2; clear - E EL2; apply andb_true_iff in E as [_ E]; apply Z.leb_le in E; rewrite <- EL2; exact E|discriminate]. }
  assert (PB : 0 <= padding < 2^31).
  { unfold padding_ in EP. apply bind_inv in EP as (d & Ed & EP). unfold chk_i32 in Ed. destruct (_ && _) eqn:E in Ed; [|discriminate]. injection Ed as <-. injection EP as <-.
    clear - Hw E. unfold INT_MIN, INT_MAX in *. destruct (L <? width spec) eqn:C; cbn [b2z]; lia. }
  destruct (afin_ok spec true (sign_text (view spec) neg) ([48] ++ (if pointed spec then [46] else []) ++ f)
    (fun q => [laid spec true (sign_text (view spec) neg) ([48] ++ (if pointed spec then [46] else []) ++ f) q]) Hw) as (ps' & F1 & F2').
  { rewrite <- LL. exact LI. }
  { intros q Hq. cbn [List.concat]. apply app_nil_r. }
  cbv zeta in F1, F2'. rewrite <- LL, EP in F1. cbn [bind] in F1. rewrite Er in F1. cbn [bind] in F1. injection F1 as F1 F3. subst ps'. cbn [List.concat] in F2'. rewrite app_nil_r in F2'.
  eexists _, N. split; [exact F3|]. split.
  { rewrite <- Eps. etransitivity; [apply (small_layout f); [exact PB|reflexivity]|exact F2']. }
  split; [|split; [exact ERR|exact COR]].
  exists [48], f. assert (FD' : Forall dig ([48] ++ f)) by (constructor; [unfold dig; lia|exact FD]). split; [exact FD'|]. split; [auto|]. split; [exact FL|]. split.
  - rewrite dv_nv by exact FD'. rewrite dv_app, FV. cbn [dv]. lia.
  - reflexivity.
Qed.
End S.
