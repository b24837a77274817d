From Verif Require Import Base Ctype_Model Ctype_Spec Ctype_Proof Stdlib_Model Stdlib_Spec.
Open Scope Z_scope.
Local Ltac Zify.zify_post_hook ::= idtac.

Lemma span (P : Z -> Prop) (dec : forall c, P c \/ ~ P c) l : exists a b, l = a ++ b /\ Forall P a /\ ~ starts P b.
Proof.
  induction l as [|c l (a & b & E & Ha & Hb)].
  - exists [], []. cbn. auto.
  - destruct (dec c) as [H|H].
    + exists (c :: a), b. subst l. cbn. auto.
    + exists [], (c :: l). cbn. auto.
Qed.
Lemma space_dec c : is_space_spec c \/ ~ is_space_spec c.
Proof. unfold is_space_spec. destruct (in_dec Z.eq_dec c [32; 9; 10; 11; 12; 13]); auto. Qed.
Lemma digit_dec b c : is_digit b c \/ ~ is_digit b c.
Proof.
  unfold is_digit. destruct (digit_value c) as [d|].
  - destruct (Z_lt_dec d b); [left; eauto|right; intros (d' & E & H); injection E as <-; lia].
  - right. intros (d' & E & _). discriminate.
Qed.
Lemma prefixed_dec base t : prefixed base t \/ ~ prefixed base t.
Proof.
  unfold prefixed. destruct (Z.eq_dec base 0) as [H|H]; [|destruct (Z.eq_dec base 16) as [H'|H']; [|right; tauto]].
  1,2: destruct t as [|z [|x [|h r]]]; try (right; intros (_ & x' & h' & r' & E & _); discriminate).
  1,2: destruct (Z.eq_dec z 48) as [->|]; [|right; intros (_ & x' & h' & r' & E & _); congruence].
  1,2: destruct (digit_dec 16 h); [|right; intros (_ & x' & h' & r' & E & _ & D); congruence].
  1,2: destruct (Z.eq_dec x 120); [left; split; [tauto|]; exists x, h, r; tauto|].
  1,2: destruct (Z.eq_dec x 88); [left; split; [tauto|]; exists x, h, r; tauto|].
  1,2: right; intros (_ & x' & h' & r' & E & Hx & D); injection E as -> -> ->; tauto.
Qed.

Lemma reading_total base s : exists neg mag len, reading base s neg mag len.
Proof.
  destruct (span is_space_spec space_dec s) as (ws & t & Es & Hws & Ht).
  assert (S : exists sg u neg, t = sg ++ u /\ sign_ok sg u neg).
  { destruct t as [|c u].
    - exists [], [], false. split; [reflexivity|]. right. right. cbn. auto.
    - destruct (Z.eq_dec c 45) as [->|H1]; [exists [45], u, true; split; [reflexivity|left; auto]|].
      destruct (Z.eq_dec c 43) as [->|H2]; [exists [43], u, false; split; [reflexivity|right; left; auto]|].
      exists [], (c :: u), false. split; [reflexivity|]. right. right. cbn. tauto. }
  destruct S as (sg & u & neg & Et & Hsg).
  assert (P : exists pre v b, u = pre ++ v /\ prefix_ok base pre v b).
  { destruct (prefixed_dec base u) as [H|H].
    - destruct H as (Hb & x & h & r & Eu & Hx & Hh). exists [48; x], (h :: r), 16.
      split; [exact Eu|]. left. split; [split; [exact Hb|]; exists x, h, r; auto|]. auto.
    - exists [], u. destruct (Z.eq_dec base 0) as [B|B].
      + destruct u as [|c u]; [exists 10|destruct (Z.eq_dec 48 c); [exists 8|exists 10]]; (split; [reflexivity|]); right; cbn; tauto.
      + exists base. split; [reflexivity|]. right. tauto. }
  destruct P as (pre & v & b & Eu & Hpre).
  destruct (span (is_digit b) (digit_dec b) v) as (ds & rest & Ev & Hds & Hrest).
  exists neg, (digits_value b 0 ds), (if ds then 0 else Z.of_nat (length (ws ++ sg ++ pre ++ ds))).
  exists ws, sg, pre, ds, rest, b. subst s t u v. tauto.
Qed.

(** ** Characters *)
Lemma s8_byte c : is_byte c -> s8 c = if c <? 128 then c else c - 256.
Proof. intros H. unfold s8, sgn, is_byte in *. change (2^8) with 256. change (2^(8-1)) with 128. rewrite Z.mod_small by lia. reflexivity. Qed.
Lemma s8_inj_small c k : is_byte c -> 0 <= k < 128 -> (s8 c = k <-> c = k).
Proof. intros H Hk. rewrite s8_byte by assumption. unfold is_byte in H. destruct (Z.ltb_spec c 128); lia. Qed.
Lemma s8_range c : is_byte c -> -128 <= s8 c < 128.
Proof. intros H. rewrite s8_byte by assumption. unfold is_byte in H. destruct (Z.ltb_spec c 128); lia. Qed.

Lemma isspace_cur c : is_byte c -> exists v, isspace (s8 c) = Ok v /\ (v <> 0 <-> is_space_spec c).
Proof.
  intros H. pose proof (s8_range c H) as R.
  rewrite isspace_val by (unfold ctype_dom, INT_MIN, INT_MAX; lia). eexists; split; [reflexivity|].
  rewrite b2z_nz. unfold is_space_spec. rewrite (s8_byte c H) in *. unfold is_byte in H. cbn [In].
  destruct (Z.ltb_spec c 128); lia.
Qed.
Lemma skip_space_ok ws : forall t k, Forall is_byte (ws ++ t) -> Forall is_space_spec ws -> ~ starts is_space_spec t ->
  skip_space (ws ++ t) k = Ok (t, k + Z.of_nat (length ws)).
Proof.
  induction ws as [|c ws IH]; intros t k Hb Hs Ht.
  - cbn [app length]. replace (k + Z.of_nat 0) with k by lia. destruct t as [|c t]; [reflexivity|].
    cbn [skip_space cur starts] in *. apply Forall_inv in Hb. destruct (isspace_cur c Hb) as (v & -> & Hv). cbn [bind].
    destruct (Z.eqb_spec v 0); [reflexivity|]. tauto.
  - cbn [app] in *. cbn [skip_space cur]. pose proof (Forall_inv Hb) as Hc. apply Forall_inv_tail in Hb.
    destruct (isspace_cur c Hc) as (v & -> & Hv). cbn [bind]. pose proof (Forall_inv Hs). apply Forall_inv_tail in Hs.
    destruct (Z.eqb_spec v 0); [tauto|]. rewrite IH by assumption. cbn [length]. do 2 f_equal; try lia.
Qed.

Lemma byte_forall (P : Z -> bool) : forallb P (map Z.of_nat (seq 0 256)) = true -> forall c, is_byte c -> P c = true.
Proof.
  intros H c Hc. rewrite forallb_forall in H. apply H. unfold is_byte in Hc. apply in_map_iff. exists (Z.to_nat c).
  split; [lia|]. apply in_seq. lia.
Qed.
Lemma digit_byte c : is_byte c -> digit_ (u32 (s8 c)) = match digit_value c with Some d => d | None => 2^32 - 1 end.
Proof.
  intros H. apply Z.eqb_eq. revert c H.
  apply (byte_forall (fun c => digit_ (u32 (s8 c)) =? match digit_value c with Some d => d | None => 2^32 - 1 end)).
  vm_compute. reflexivity.
Qed.
Lemma digit_value_range c d : digit_value c = Some d -> 0 <= d < 36.
Proof.
  unfold digit_value. ifs; intros E; try discriminate; injection E as <-; lia.
Qed.

Lemma digits_value_ge b ds : 0 < b -> forall acc, 0 <= acc -> acc <= digits_value b acc ds.
Proof.
  intros Hb. induction ds as [|c ds IH]; intros acc Ha; [cbn; lia|]. cbn [digits_value].
  set (d := match digit_value c with Some d => d | None => 0 end).
  assert (0 <= d) by (subst d; destruct (digit_value c) eqn:E; [apply digit_value_range in E|]; lia).
  assert (acc <= acc * b) by nia. specialize (IH (acc * b + d)). lia.
Qed.

Lemma digit_loop_ok w b : 8 < w -> 2 <= b <= 36 -> forall ds rest acc k e,
  0 <= acc -> Forall is_byte (ds ++ rest) -> Forall (is_digit b) ds -> ~ starts (is_digit b) rest ->
  digit_loop w (ds ++ rest) b ((2^w - 1) / b) (acc mod 2^w) (2^w <=? acc) k e =
    (digits_value b acc ds mod 2^w, 2^w <=? digits_value b acc ds, if ds then e else k + Z.of_nat (length ds)).
Proof.
  intros Hw Hb.
  assert (Hp : 2^8 < 2^w) by (apply Z.pow_lt_mono_r; lia). change (2^8) with 256 in Hp.
  remember (2^w) as M eqn:EM.
  induction ds as [|c ds IH]; intros rest acc k e Ha Hby Hd Hr.
  - cbn [app digits_value]. destruct rest as [|c r]; [reflexivity|]. cbn [digit_loop].
    apply Forall_inv in Hby. rewrite (digit_byte c Hby). cbn [starts] in Hr. unfold is_digit in Hr.
    destruct (digit_value c) as [d|].
    + destruct (Z.ltb_spec d b); [exfalso; eauto|reflexivity].
    + destruct (Z.ltb_spec (2^32 - 1) b); [lia|reflexivity].
  - cbn [app] in *. cbn [digit_loop digits_value]. rewrite <- EM.
    pose proof (Forall_inv Hby) as Hc. apply Forall_inv_tail in Hby.
    destruct (Forall_inv Hd) as (d & Ed & Hdb). apply Forall_inv_tail in Hd.
    rewrite (digit_byte c Hc), Ed. pose proof (digit_value_range _ _ Ed).
    destruct (Z.ltb_spec d b); [|lia].
    assert (Hacc : acc <= acc * b) by nia.
    assert (E1 : (acc mod M * b + d) mod M = (acc * b + d) mod M).
    { rewrite Z.add_mod, Z.mul_mod_idemp_l by lia. rewrite <- Z.add_mod by lia. reflexivity. }
    assert (E2 : (M <=? acc) || ((M - 1) / b <? acc mod M) || ((acc mod M * b + d) mod M <? d) = (M <=? acc * b + d)).
    { rewrite E1. destruct (Z.leb_spec M acc) as [H1|H1]; cbn [orb]; [lia|].
      rewrite (Z.mod_small acc) by lia.
      destruct (Z.ltb_spec ((M - 1) / b) acc) as [H2|H2]; cbn [orb].
      - symmetry. apply Z.leb_le. assert (b * ((M - 1) / b + 1) <= b * acc) by (apply Z.mul_le_mono_nonneg_l; lia).
        pose proof (Z_div_mod_eq_full (M - 1) b). pose proof (Z.mod_pos_bound (M - 1) b). lia.
      - assert (b * acc <= b * ((M - 1) / b)) by (apply Z.mul_le_mono_nonneg_l; lia).
        pose proof (Z_div_mod_eq_full (M - 1) b). pose proof (Z.mod_pos_bound (M - 1) b).
        destruct (Z.leb_spec M (acc * b + d)).
        + assert (X : (acc * b + d) mod M = acc * b + d - M).
          { symmetry. apply (Z.mod_unique_pos _ _ 1); lia. }
          rewrite X. apply Z.ltb_lt. lia.
        + rewrite Z.mod_small by lia. apply Z.ltb_ge. lia. }
    rewrite E2, E1. rewrite IH by (first [assumption|lia]).
    f_equal. cbn [length]. destruct ds; cbn [length]; lia.
Qed.

(** ** The whole parse *)
Lemma prefixed_rev base t : 0 <= base -> prefixed base t -> (base =? 0) || (base =? 16) = true.
Proof. intros _ [[->| ->] _]; reflexivity. Qed.

Lemma x_char c : is_byte c -> (Z.lor (s8 c) 32 =? 120) = ((c =? 120) || (c =? 88)).
Proof.
  intros H. apply eqb_prop. revert c H.
  apply (byte_forall (fun c => Bool.eqb (Z.lor (s8 c) 32 =? 120) ((c =? 120) || (c =? 88)))). vm_compute. reflexivity.
Qed.
Lemma cur_eq s k : Forall is_byte s -> 0 < k < 128 -> (cur s =? k) = true -> exists t, s = k :: t.
Proof.
  intros Hb Hk E. apply Z.eqb_eq in E. destruct s as [|c t]; cbn [cur] in E; [lia|].
  apply Forall_inv in Hb. apply (proj1 (s8_inj_small c k Hb ltac:(lia))) in E. subst c. eauto.
Qed.
Lemma cur_neq s k : Forall is_byte s -> 0 < k < 128 -> (cur s =? k) = false -> ~ starts (eq k) s.
Proof.
  intros Hb Hk E. apply Z.eqb_neq in E. destruct s as [|c t]; cbn [cur starts] in *; [tauto|].
  intros ->. apply E. apply Forall_inv in Hb. apply s8_inj_small; [assumption|lia|reflexivity].
Qed.
Lemma cur_starts s k : Forall is_byte s -> 0 < k < 128 -> starts (eq k) s -> (cur s =? k) = true.
Proof.
  intros Hb Hk E. destruct (cur s =? k) eqn:F; [reflexivity|]. apply cur_neq in F; tauto.
Qed.
Lemma cur_nstarts s k : Forall is_byte s -> 0 < k < 128 -> ~ starts (eq k) s -> (cur s =? k) = false.
Proof.
  intros Hb Hk E. destruct (cur s =? k) eqn:F; [|reflexivity]. apply cur_eq in F as [t ->]; [|assumption..]. cbn in E. tauto.
Qed.
Lemma digit16_8 : forall b, 0 < b -> is_digit b 48.
Proof. intros b H. exists 0. split; [reflexivity|lia]. Qed.

(** The value part of parseint_, from its exact magnitude. *)
Definition conclude (w : Z) (sg neg : bool) (max mag e : Z) : res parsed :=
  let max := if neg then (max + b2z sg) mod 2^w else max in
  if (2^w <=? mag) || (max <? mag mod 2^w) then
    Ok (mk_parsed (to_int w sg (if (to_int w sg (if neg then -1 else 1) <? 0) then (- max) mod 2^w else max)) e true)
  else do v <- mul_int w sg (to_int w sg (if neg then -1 else 1)) (to_int w sg (mag mod 2^w)); Ok (mk_parsed v e false).

Lemma parseint_ok w sg s base max neg mag len : 8 < w -> Forall is_byte s -> base = 0 \/ 2 <= base <= 36 ->
  reading base s neg mag len -> parseint_ w sg s base max = conclude w sg neg max mag len.
Proof.
  intros Hw Hby Hbase (ws & sgn & pre & ds & rest & b & Es & Hws & Hns & Hsg & Hpre & Hds & Hrest & Em & El).
  unfold parseint_. rewrite Es. rewrite skip_space_ok by (try rewrite <- Es; assumption). cbn [bind].
  subst s. apply Forall_app in Hby as [_ Hby].
  assert (SG : (cur (sgn ++ pre ++ ds ++ rest) =? 45) = neg /\
     (if neg || (cur (sgn ++ pre ++ ds ++ rest) =? 43) then do t <- next (sgn ++ pre ++ ds ++ rest); Ok (t, 0 + Z.of_nat (length ws) + 1)
      else Ok (sgn ++ pre ++ ds ++ rest, 0 + Z.of_nat (length ws))) = Ok (pre ++ ds ++ rest, Z.of_nat (length (ws ++ sgn)))).
  { rewrite app_length. destruct Hsg as [[-> ->]|[[-> ->]|(-> & -> & Hn)]].
    - split; [reflexivity|]. cbn. do 2 f_equal; try lia.
    - split; [reflexivity|]. cbn. do 2 f_equal; try lia.
    - cbn [app] in *. rewrite !cur_nstarts; [|assumption|lia| |assumption|lia|].
      + split; [reflexivity|]. cbn [length orb]. do 2 f_equal; try lia.
      + intros H. apply Hn. destruct (pre ++ ds ++ rest); cbn in *; auto.
      + intros H. apply Hn. destruct (pre ++ ds ++ rest); cbn in *; auto. }
  destruct SG as [-> ->]. cbn [bind].
  apply Forall_app in Hby as [_ Hby].
  set (L := Z.of_nat (length (ws ++ sgn))) in *.
  assert (El' : len = if ds then 0 else L + Z.of_nat (length pre) + Z.of_nat (length ds)).
  { rewrite El. destruct ds; [reflexivity|]. subst L. rewrite !app_length. lia. }
  clear El. clearbody L. pose proof Hby as Hby'. apply Forall_app in Hby' as [_ Hby'].
  assert (B : 2 <= b <= 36) by (destruct Hpre as [(_ & _ & ->)|(_ & _ & [[? ->]|[? [[? ->]|[? ->]]]])]; lia).
  pose proof (digit_loop_ok w b Hw B ds rest 0) as DL. cbn [Z.leb] in DL.
  rewrite Z.mod_0_l in DL by (apply Z.pow_nonzero; lia).
  replace (2^w <=? 0) with false in DL by (symmetry; apply Z.leb_gt, Z.pow_pos_nonneg; lia).
  assert (FIN : forall k e, k = L + Z.of_nat (length pre) -> (ds = [] -> e = 0) ->
    (let '(magnitude, overflow, end_) := digit_loop w (ds ++ rest) b ((2^w - 1) / b) 0 false k e in
      if overflow || ((if neg then (max + b2z sg) mod 2^w else max) <? magnitude)
      then Ok (mk_parsed (to_int w sg (if to_int w sg (if neg then -1 else 1) <? 0
                 then (- (if neg then (max + b2z sg) mod 2^w else max)) mod 2^w
                 else if neg then (max + b2z sg) mod 2^w else max)) end_ true)
      else do v <- mul_int w sg (to_int w sg (if neg then -1 else 1)) (to_int w sg magnitude); Ok (mk_parsed v end_ false))
    = conclude w sg neg max mag len).
  { intros k e -> He. rewrite DL by (first [assumption|lia]). cbv iota beta. unfold conclude. rewrite <- Em.
    replace (if ds then e else L + Z.of_nat (length pre) + Z.of_nat (length ds)) with len
      by (rewrite El'; destruct ds; [symmetry; apply He; reflexivity|reflexivity]).
    reflexivity. }
  destruct Hpre as [((Hb & x & h & r & Ep & Hx & Hh) & Hl & Eb)|(Hnp & -> & Eb)].
  - destruct pre as [|p0 [|p1 [|? ?]]]; try discriminate Hl. cbn [app] in *. injection Ep as -> -> Ep.
    replace (cur (48 :: x :: ds ++ rest) =? 48) with true by reflexivity. cbn [next bind].
    assert (Hxb : is_byte x) by (apply Forall_inv_tail in Hby; apply Forall_inv in Hby; assumption).
    replace ((base =? 0) || (base =? 16)) with true by (destruct Hb as [->| ->]; reflexivity). cbn [cur]. rewrite x_char by assumption.
    replace ((x =? 120) || (x =? 88)) with true by (destruct Hx as [->| ->]; reflexivity). cbn [andb next bind].
    rewrite Eb in FIN. apply FIN; [reflexivity|].
    intros ->. exfalso. cbn in Ep. subst rest. apply Hrest. rewrite Eb. exact Hh.
  - cbn [app] in *.
    destruct (cur (ds ++ rest) =? 48) eqn:Z0.
    + destruct (cur_eq _ 48 Hby' ltac:(lia) Z0) as [t Et]. rewrite Et. cbn [next bind].
      destruct (((base =? 0) || (base =? 16)) && (Z.lor (cur t) 32 =? 120)) eqn:PX.
      * (* 0x not followed by a hexadecimal digit: the subject sequence is "0" *)
        apply andb_prop in PX as [PB PX].
        assert (Xt : exists x t2, t = x :: t2 /\ (x = 120 \/ x = 88)).
        { rewrite Et in Hby'. apply Forall_inv_tail in Hby'. destruct t as [|x t2]; [discriminate PX|].
          cbn [cur] in PX. rewrite x_char in PX by (apply Forall_inv in Hby'; assumption). exists x, t2. split; [reflexivity|].
          apply orb_true_iff in PX as [PX|PX]; apply Z.eqb_eq in PX; auto. }
        destruct Xt as (x & t2 & -> & Hx). cbn [next bind].
        assert (Ht2 : ~ starts (is_digit 16) t2).
        { intros H. apply Hnp. split; [apply orb_true_iff in PB as [PB|PB]; apply Z.eqb_eq in PB; auto|].
          destruct t2 as [|h r]; [destruct H|]. exists x, h, r. auto. }
        assert (Hxd : ~ is_digit b x).
        { intros (d & Ed & Hd). destruct Eb as [[E0 Eb]|(E0 & [[_ Eb]|[Hn _]])].
          - destruct Hx as [->| ->]; injection Ed as <-; lia.
          - destruct Hx as [->| ->]; injection Ed as <-; lia.
          - apply Hn. rewrite Et. reflexivity. }
        assert (Eds : ds = [48]).
        { destruct ds as [|d0 [|d1 ds]].
          - exfalso. cbn in Et. subst rest. apply Hrest. cbn. apply digit16_8. lia.
          - injection Et as -> _. reflexivity.
          - injection Et as -> -> _. apply Forall_inv_tail, Forall_inv in Hds. tauto. }
        subst ds. injection Et as Et. cbn [length Z.of_nat] in *.
        pose proof (digit_loop_ok w 16 Hw ltac:(lia) [] t2 0 (L + 2) (L + 1)) as DL2. cbn [app] in DL2.
        rewrite Z.mod_0_l in DL2 by (apply Z.pow_nonzero; lia).
        replace (2^w <=? 0) with false in DL2 by (symmetry; apply Z.leb_gt, Z.pow_pos_nonneg; lia).
        rewrite DL2; [|lia| |constructor|exact Ht2].
        2:{ rewrite Et in Hby'. do 2 apply Forall_inv_tail in Hby'. exact Hby'. }
        cbv iota beta. unfold conclude.
        assert (M0 : mag = 0) by (rewrite Em; cbn; lia).
        rewrite M0, El'. cbn [digits_value]. rewrite Z.mod_0_l by (apply Z.pow_nonzero; lia).
        replace (2^w <=? 0) with false by (symmetry; apply Z.leb_gt, Z.pow_pos_nonneg; lia).
        replace (L + 0 + Z.pos (Pos.of_succ_nat 0)) with (L + 1) by (change (Z.pos (Pos.of_succ_nat 0)) with 1; lia). reflexivity.
      * assert (Eb' : (if base =? 0 then 8 else base) = b).
        { destruct (Z.eqb_spec base 0); destruct Eb as [[? ->]|[? [[? ->]|[Hn ->]]]]; try lia.
          exfalso. apply Hn. rewrite Et. reflexivity. }
        cbn [bind]. rewrite Eb', <- Et. apply FIN; cbn [length]; [lia|reflexivity].
    + apply cur_neq in Z0; [|assumption|lia].
      assert (Eb' : (if base =? 0 then 10 else base) = b).
      { destruct (Z.eqb_spec base 0); destruct Eb as [[? ->]|[? [[Hy ->]|[Hn ->]]]]; try lia. contradiction. }
      cbn [bind]. rewrite Eb'. apply FIN; cbn [length]; [lia|reflexivity].
Qed.

Lemma pow_split w : 1 < w -> 2^w = 2 * 2^(w-1) /\ 0 < 2^(w-1).
Proof. intros H. split; [rewrite <- Z.pow_succ_r by lia; f_equal; lia|apply Z.pow_pos_nonneg; lia]. Qed.

(** signed result: exact, clamped, or (only for -2^(w-1)) undefined *)
Lemma conclude_signed w neg mag e : 8 < w -> 0 <= mag ->
  conclude w true neg (2^(w-1) - 1) mag e =
    if neg then
      if mag =? 2^(w-1) then UB
      else if 2^(w-1) <? mag then Ok (mk_parsed (- 2^(w-1)) e true) else Ok (mk_parsed (- mag) e false)
    else if 2^(w-1) - 1 <? mag then Ok (mk_parsed (2^(w-1) - 1) e true) else Ok (mk_parsed mag e false).
Proof.
  intros Hw Hm. unfold conclude, to_int, mul_int. destruct (pow_split w) as [E P]; [lia|].
  assert (P8 : 2^7 < 2^(w-1)) by (apply Z.pow_lt_mono_r; lia). change (2^7) with 128 in P8.
  set (H := 2^(w-1)) in *. cbn [b2z].
  assert (Sm1 : sgn w (-1) = -1) by (apply sgn_id; fold H; lia).
  assert (S1 : sgn w 1 = 1) by (apply sgn_id; fold H; lia).
  assert (SH : sgn w H = - H).
  { unfold sgn. rewrite Z.mod_small by lia. fold H. destruct (Z.ltb_spec H H); lia. }
  assert (SH1 : sgn w (H - 1) = H - 1) by (apply sgn_id; fold H; lia).
  assert (SmH : sgn w ((- H) mod 2^w) = - H).
  { assert ((- H) mod 2^w = H) as -> by (symmetry; apply (Z.mod_unique_pos _ _ (-1)); lia). exact SH. }
  destruct neg.
  - replace (H - 1 + 1) with H by lia. rewrite (Z.mod_small H) by lia. rewrite Sm1. cbn [Z.ltb]. change (-1 <? 0) with true. cbv iota.
    destruct (Z.leb_spec (2^w) mag) as [B|B]; cbn [orb].
    + rewrite SmH. destruct (Z.eqb_spec mag H); [lia|]. destruct (Z.ltb_spec H mag); [reflexivity|lia].
    + rewrite (Z.mod_small mag) by lia. destruct (Z.ltb_spec H mag) as [C|C].
      * rewrite SmH. destruct (Z.eqb_spec mag H); [lia|reflexivity].
      * destruct (Z.eqb_spec mag H) as [->|D].
        -- rewrite SH. replace ((- H <=? -1 * - H) && (-1 * - H <? H)) with false by lia. reflexivity.
        -- rewrite (sgn_id w mag) by (fold H; lia). replace ((- H <=? -1 * mag) && (-1 * mag <? H)) with true by lia.
           cbn [bind]. do 2 f_equal; try lia.
  - rewrite S1. change (1 <? 0) with false. cbv iota. rewrite SH1.
    destruct (Z.leb_spec (2^w) mag) as [B|B]; cbn [orb].
    + destruct (Z.ltb_spec (H - 1) mag); [reflexivity|lia].
    + rewrite (Z.mod_small mag) by lia. destruct (Z.ltb_spec (H - 1) mag) as [C|C]; [reflexivity|].
      rewrite (sgn_id w mag) by (fold H; lia). replace ((- H <=? 1 * mag) && (1 * mag <? H)) with true by lia.
      cbn [bind]. do 2 f_equal; try lia.
Qed.
Lemma conclude_unsigned w neg mag e : 8 < w -> 0 <= mag ->
  conclude w false neg (2^w - 1) mag e =
    if 2^w - 1 <? mag then Ok (mk_parsed (2^w - 1) e true)
    else Ok (mk_parsed (if neg then (- mag) mod 2^w else mag) e false).
Proof.
  intros Hw Hm. unfold conclude, to_int, mul_int. destruct (pow_split w) as [E P]; [lia|].
  assert (P8 : 2^7 < 2^(w-1)) by (apply Z.pow_lt_mono_r; lia). change (2^7) with 128 in P8.
  set (M := 2^w) in *. cbn [b2z].
  assert (X : (if neg then (M - 1 + 0) mod M else M - 1) = M - 1).
  { destruct neg; [|reflexivity]. rewrite Z.mod_small by lia. lia. }
  rewrite X. assert (Y : ((if neg then -1 else 1) mod M <? 0) = false).
  { apply Z.ltb_ge. apply Z.mod_pos_bound. lia. }
  rewrite Y. destruct (Z.leb_spec M mag) as [B|B]; cbn [orb].
  - rewrite Z.mod_small by lia. destruct (Z.ltb_spec (M - 1) mag); [reflexivity|lia].
  - rewrite (Z.mod_small mag) by lia. destruct (Z.ltb_spec (M - 1) mag) as [C|C]; [lia|].
    cbn [bind]. do 2 f_equal. rewrite (Z.mod_small mag) by lia. rewrite Z.mul_mod_idemp_l by lia.
    destruct neg; [f_equal; lia|]. rewrite Z.mul_1_l. apply Z.mod_small. lia.
Qed.
Lemma reading_nonneg base s neg mag len : base = 0 \/ 2 <= base <= 36 -> reading base s neg mag len -> 0 <= mag.
Proof.
  intros Hbase (ws & sgn & pre & ds & rest & b & Es & Hws & Hns & Hsg & Hpre & Hds & Hrest & -> & El).
  assert (B : 2 <= b <= 36) by (destruct Hpre as [(_ & _ & ->)|(_ & _ & [[? ->]|[? [[? ->]|[? ->]]]])]; lia).
  pose proof (digits_value_ge b ds ltac:(lia) 0). lia.
Qed.

(** ** atoi *)
Lemma atoi_digit c : is_byte c -> (u32 (s8 c - 48) <? 10) = ((48 <=? c) && (c <=? 57)) /\ (48 <= c <= 57 -> u32 (s8 c - 48) = c - 48).
Proof.
  intros H. split.
  - apply eqb_prop. revert c H. apply (byte_forall (fun c => Bool.eqb (u32 (s8 c - 48) <? 10) ((48 <=? c) && (c <=? 57)))). vm_compute. reflexivity.
  - intros Hc. rewrite s8_byte by assumption. destruct (Z.ltb_spec c 128); [|lia]. unfold u32. rewrite Z.mod_small; lia.
Qed.
Lemma dec_digit c : is_digit 10 c <-> 48 <= c <= 57.
Proof.
  unfold is_digit, digit_value. split.
  - intros (d & E & H). revert E. ifs; intros E; try discriminate; injection E as <-; lia.
  - intros H. exists (c - 48). replace ((48 <=? c) && (c <=? 57)) with true by lia. split; [reflexivity|lia].
Qed.
Lemma dec_value c : 48 <= c <= 57 -> digit_value c = Some (c - 48).
Proof. intros H. unfold digit_value. replace ((48 <=? c) && (c <=? 57)) with true by lia. reflexivity. Qed.
Lemma atoi_loop_ok w : w = 32 \/ w = 64 -> forall ds rest acc, Forall is_byte (ds ++ rest) -> Forall (is_digit 10) ds ->
  ~ starts (is_digit 10) rest -> 0 <= acc -> digits_value 10 acc ds < 2^(w-1) ->
  atoi_loop w (ds ++ rest) acc = Ok (digits_value 10 acc ds).
Proof.
  intros Hw. induction ds as [|c ds IH]; intros rest acc Hb Hd Hr Ha Hv.
  - cbn [app digits_value]. destruct rest as [|c r]; [reflexivity|]. cbn [atoi_loop starts] in *.
    apply Forall_inv in Hb. destruct (atoi_digit c Hb) as [-> _]. rewrite dec_digit in Hr.
    replace ((48 <=? c) && (c <=? 57)) with false by lia. reflexivity.
  - cbn [app] in *. cbn [atoi_loop digits_value] in *.
    pose proof (Forall_inv Hb) as Hc. apply Forall_inv_tail in Hb.
    pose proof (Forall_inv Hd) as Hc'. apply Forall_inv_tail in Hd. apply dec_digit in Hc'.
    destruct (atoi_digit c Hc) as [-> E]. rewrite (E Hc'). rewrite (dec_value c Hc') in *.
    replace ((48 <=? c) && (c <=? 57)) with true by lia.
    pose proof (digits_value_ge 10 ds ltac:(lia) (acc * 10 + (c - 48)) ltac:(lia)).
    unfold atoi_step, mul_int.
    replace ((- 2 ^ (w - 1) <=? 10 * acc) && (10 * acc <? 2 ^ (w - 1))) with true
      by (assert (0 < 2^(w-1)) by (apply Z.pow_pos_nonneg; lia); lia). cbn [bind].
    assert (St : (if w =? 32 then Ok (s32 (10 * acc + (c - 48))) else if 10 * acc + (c - 48) <? 2^(w-1) then Ok (10 * acc + (c - 48)) else UB)
       = Ok (acc * 10 + (c - 48))).
    { destruct Hw as [->| ->]; cbn [Z.eqb Pos.eqb].
      - f_equal. unfold s32. rewrite sgn_id; lia.
      - change (64 =? 32) with false. cbv iota. replace (10 * acc + (c - 48) <? 2^(64-1)) with true by lia. f_equal. lia. }
    rewrite St. cbn [bind]. apply IH; try assumption; lia.
Qed.
Lemma atoi_ok w s neg mag len : w = 32 \/ w = 64 -> Forall is_byte s -> reading 10 s neg mag len -> mag < 2^(w-1) ->
  atoi_ w s = Ok (if neg then - mag else mag).
Proof.
  intros Hw Hby R Hm. pose proof (reading_nonneg 10 s neg mag len ltac:(lia) R) as Hm0.
  destruct R as (ws & sgn & pre & ds & rest & b & Es & Hws & Hns & Hsg & Hpre & Hds & Hrest & Em & El).
  unfold atoi_. rewrite Es. rewrite skip_space_ok by (try rewrite <- Es; assumption). cbn [bind].
  subst s. apply Forall_app in Hby as [_ Hby].
  assert (SG : (cur (sgn ++ pre ++ ds ++ rest) =? 45) = neg /\
     (if neg || (cur (sgn ++ pre ++ ds ++ rest) =? 43) then next (sgn ++ pre ++ ds ++ rest)
      else Ok (sgn ++ pre ++ ds ++ rest)) = Ok (pre ++ ds ++ rest)).
  { destruct Hsg as [[-> ->]|[[-> ->]|(-> & -> & Hn)]].
    - split; reflexivity.
    - split; reflexivity.
    - cbn [app] in *. rewrite !cur_nstarts; [|assumption|lia| |assumption|lia|].
      + split; reflexivity.
      + intros H. apply Hn. destruct (pre ++ ds ++ rest); cbn in *; auto.
      + intros H. apply Hn. destruct (pre ++ ds ++ rest); cbn in *; auto. }
  destruct SG as [-> ->]. cbn [bind].
  apply Forall_app in Hby as [_ Hby].
  assert (B : pre = [] /\ b = 10).
  { destruct Hpre as [(([?|?] & _) & _ & _)|(_ & -> & [[? ->]|[? _]])]; try lia. auto. }
  destruct B as [-> ->]. cbn [app] in *.
  rewrite atoi_loop_ok; try assumption; try lia. cbn [bind]. rewrite <- Em. unfold mul_int.
  assert (0 < 2^(w-1)) by (apply Z.pow_pos_nonneg; lia).
  destruct neg; replace ((- 2 ^ (w - 1) <=? _) && _) with true by lia; f_equal; lia.
Qed.

(** ** abs, div, rand *)
Lemma abs_ok w a : - 2^(w-1) < a < 2^(w-1) -> abs_ w a = Ok (Z.abs a).
Proof.
  intros H. unfold abs_, chk_w. destruct (Z.ltb_spec a 0).
  - replace ((- 2 ^ (w - 1) <=? - a) && (- a <? 2 ^ (w - 1))) with true by lia. f_equal. lia.
  - destruct (Z.eqb_spec a 0); f_equal; lia.
Qed.
Lemma abs_min w : 0 < w -> abs_ w (- 2^(w-1)) = UB.
Proof.
  intros H. assert (0 < 2^(w-1)) by (apply Z.pow_pos_nonneg; lia). unfold abs_, chk_w.
  destruct (Z.ltb_spec (- 2^(w-1)) 0); [|lia].
  replace ((- 2 ^ (w - 1) <=? - - 2 ^ (w - 1)) && (- - 2 ^ (w - 1) <? 2 ^ (w - 1))) with false by lia. reflexivity.
Qed.
Lemma quot_bound n d : d <> 0 -> Z.abs (Z.quot n d) <= Z.abs n.
Proof.
  intros Hd. rewrite <- Z.quot_abs by assumption. rewrite Z.quot_div_nonneg by lia.
  destruct (Z.eq_dec (Z.abs d) 1) as [->|]; [rewrite Z.div_1_r; lia|].
  destruct (Z.eq_dec n 0) as [->|]; [rewrite Z.div_0_l; lia|].
  pose proof (Z.div_lt (Z.abs n) (Z.abs d)). lia.
Qed.
Lemma div_ok w n d : 0 < w -> - 2^(w-1) <= n < 2^(w-1) -> d <> 0 -> ~ (n = - 2^(w-1) /\ d = -1) ->
  exists q r, div_ w n d = Ok (q, r) /\ n = q * d + r /\ Z.abs r < Z.abs d /\ (r = 0 \/ Z.sgn r = Z.sgn n).
Proof.
  intros Hw Hn Hd Hm. unfold div_, chk_w. destruct (Z.eqb_spec d 0); [lia|].
  exists (Z.quot n d), (Z.rem n d).
  pose proof (quot_bound n d Hd). pose proof (Z.quot_rem n d Hd).
  assert (Q : Z.quot n d < 2^(w-1)).
  { destruct (Z.eq_dec (Z.quot n d) (2^(w-1))) as [E|E]; [|lia]. exfalso. apply Hm.
    assert (0 < 2^(w-1)) by (apply Z.pow_pos_nonneg; lia).
    assert (n = - 2^(w-1)) by (destruct (Z.eq_dec n (- 2^(w-1))); [assumption|lia]). split; [assumption|].
    pose proof (Z.rem_bound_abs n d Hd).
    destruct (Z.eq_dec (Z.abs d) 1) as [D|D].
    - assert (D1 : d = 1 \/ d = -1) by lia. destruct D1 as [->| ->]; [|reflexivity]. rewrite Z.quot_1_r in E. lia.
    - exfalso. assert (Z.abs (Z.quot n d) < Z.abs n); [|lia].
      rewrite <- Z.quot_abs, Z.quot_div_nonneg by lia. apply Z.div_lt; lia. }
  replace ((- 2 ^ (w - 1) <=? n ÷ d) && (n ÷ d <? 2 ^ (w - 1))) with true by lia.
  split; [reflexivity|]. split; [lia|]. split; [apply Z.rem_bound_abs; assumption|].
  destruct (Z.eq_dec (Z.rem n d) 0); [auto|]. right. apply Z.rem_sign_nz; assumption.
Qed.
Lemma div_unique n d q1 r1 q2 r2 : d <> 0 ->
  n = q1 * d + r1 -> Z.abs r1 < Z.abs d -> (r1 = 0 \/ Z.sgn r1 = Z.sgn n) ->
  n = q2 * d + r2 -> Z.abs r2 < Z.abs d -> (r2 = 0 \/ Z.sgn r2 = Z.sgn n) -> q1 = q2 /\ r1 = r2.
Proof.
  intros Hd E1 A1 S1 E2 A2 S2.
  assert (K : (q1 - q2) * d = r2 - r1) by lia.
  assert (Z.abs (r2 - r1) < Z.abs d) by lia.
  rewrite <- K, Z.abs_mul in H. assert (q1 - q2 = 0) by nia. split; [lia|]. rewrite H0 in K. lia.
Qed.
Lemma rand_range n : forall s r, 0 <= s < 2^32 -> In r (rand_seq n s) -> 0 <= r <= 2147483646.
Proof.
  induction n as [|n IH]; intros s r Hs Hin; [destruct Hin|]. cbn [rand_seq rand] in Hin. unfold rand in Hin.
  set (t := u32 (s * 48271) mod 2147483647) in *. assert (Ht : 0 <= t < 2147483647) by (apply Z.mod_pos_bound; lia).
  destruct Hin as [<-|Hin].
  - unfold s32. rewrite sgn_id; lia.
  - apply (IH t); [lia|exact Hin].
Qed.

(** ** getenv *)
Lemma env_matches_ok e : forall name, Forall is_byte e -> Forall (fun c => is_byte c /\ c <> 0 /\ c <> 61) name -> Forall (fun c => c <> 0) e ->
  exists b, env_matches e name = Ok b /\ (b = true <-> exists v, defines e name v).
Proof.
  intros name. revert e. induction name as [|c n IH]; intros e Hb Hn Hz.
  - cbn [env_matches]. eexists; split; [reflexivity|]. unfold defines. cbn [app]. split.
    + intros E. destruct (cur_eq e 61 Hb ltac:(lia) E) as [t ->]. eauto.
    + intros [v ->]. reflexivity.
  - cbn [env_matches]. destruct (Forall_inv Hn) as (Hc & Hc0 & Hc1). apply Forall_inv_tail in Hn.
    destruct (Z.eqb_spec c 61); [contradiction|].
    destruct e as [|x e].
    + cbn [cur]. assert (s8 c <> 0).
      { intros E. apply Hc0. apply (s8_inj_small c 0); [assumption|lia|assumption]. }
      destruct (Z.eqb_spec 0 (s8 c)); [lia|]. cbn [negb]. exists false. split; [reflexivity|].
      split; [discriminate|intros [v E]; discriminate E].
    + cbn [cur]. pose proof (Forall_inv Hb) as Hx. apply Forall_inv_tail in Hb. apply Forall_inv_tail in Hz.
      assert (Q : s8 x = s8 c <-> x = c).
      { rewrite !s8_byte by assumption. unfold is_byte in *. destruct (Z.ltb_spec x 128), (Z.ltb_spec c 128); lia. }
      destruct (Z.eqb_spec (s8 x) (s8 c)) as [E|E]; cbn [negb next bind].
      * apply (proj1 Q) in E. subst x. destruct (IH e Hb Hn Hz) as (b & -> & Hbv). exists b. split; [reflexivity|].
        rewrite Hbv. unfold defines. cbn [app]. split; intros [v Ev]; exists v; congruence.
      * exists false. split; [reflexivity|]. split; [discriminate|]. intros [v Ev]. unfold defines in Ev. cbn [app] in Ev.
        injection Ev as -> _. tauto.
Qed.
Lemma env_value_ok e n v : Forall is_byte e -> Forall (fun c => c <> 61) n -> defines e n v -> env_value e = Some v.
Proof.
  intros Hb Hn. unfold defines. intros ->. induction n as [|c n IH]; [reflexivity|]. cbn [app env_value] in *.
  pose proof (Forall_inv Hb). apply Forall_inv_tail in Hb. pose proof (Forall_inv Hn). apply Forall_inv_tail in Hn.
  destruct (Z.eqb_spec (s8 c) 61) as [E|E]; [|apply IH; assumption].
  exfalso. apply H0. apply (s8_inj_small c 61); [assumption|lia|assumption].
Qed.
Lemma env_find_ok name : Forall (fun c => is_byte c /\ c <> 0 /\ c <> 61) name -> forall env i,
  Forall (fun o => match o with Some e => Forall (fun c => is_byte c /\ c <> 0) e | None => True end) env ->
  exists r, env_find i env name = Ok r /\
    match r with
    | Some (k, v) => exists e, i <= k /\ nth_error env (Z.to_nat (k - i)) = Some (Some e) /\ defines e name v /\
        forall j e', (j < Z.to_nat (k - i))%nat -> nth_error env j = Some (Some e') -> ~ exists v', defines e' name v'
    | None => forall e' v', In (Some e') env -> ~ defines e' name v'
    end.
Proof.
  intros Hn. assert (Hn' : Forall (fun c => c <> 61) name) by (eapply Forall_impl; [|exact Hn]; cbn; tauto).
  induction env as [|o env IH]; intros i He.
  - exists None. split; [reflexivity|]. intros e' v' [].
  - pose proof (Forall_inv He) as Ho. apply Forall_inv_tail in He. specialize (IH (i + 1) He). destruct IH as (r & Er & Hr).
    assert (REC : (forall e v', o = Some e -> ~ defines e name v') ->
      match r with
      | Some (k, v) => exists e, i <= k /\ nth_error (o :: env) (Z.to_nat (k - i)) = Some (Some e) /\ defines e name v /\
        forall j e', (j < Z.to_nat (k - i))%nat -> nth_error (o :: env) j = Some (Some e') -> ~ exists v', defines e' name v'
      | None => forall e' v', In (Some e') (o :: env) -> ~ defines e' name v'
      end).
    { intros Hno. destruct r as [[k v]|].
      - destruct Hr as (e & Hk & E1 & E2 & E3). exists e. replace (Z.to_nat (k - i)) with (S (Z.to_nat (k - (i + 1)))) by lia.
        split; [lia|]. split; [exact E1|]. split; [exact E2|]. intros j e' Hj Hj' [v' Hv'].
        destruct j as [|j]; cbn in Hj'; [injection Hj' as ->; exact (Hno e' v' eq_refl Hv')|].
        apply (E3 j e'); [lia|assumption|eauto].
      - intros e' v' [->|Hin]; [apply Hno; reflexivity|apply Hr; assumption]. }
    destruct o as [e|]; cbn [env_find].
    + assert (Hb : Forall is_byte e) by (eapply Forall_impl; [|exact Ho]; cbn; tauto).
      assert (Hz : Forall (fun c => c <> 0) e) by (eapply Forall_impl; [|exact Ho]; cbn; tauto).
      destruct (env_matches_ok e name Hb Hn Hz) as (b & -> & Hbv). cbn [bind]. destruct b.
      * destruct (proj1 Hbv eq_refl) as [v Hv]. rewrite (env_value_ok e name v Hb Hn' Hv).
        exists (Some (i, v)). split; [reflexivity|]. exists e. rewrite Z.sub_diag. cbn [Z.to_nat nth_error].
        split; [lia|]. split; [reflexivity|]. split; [exact Hv|]. intros j e' Hj. lia.
      * exists r. split; [exact Er|]. apply REC. intros e0 v' [= <-] Hd. assert (false = true) by (apply Hbv; eauto). discriminate.
    + exists r. split; [exact Er|]. apply REC. discriminate.
Qed.

(** ** bsearch *)
Lemma half_lt n : 1 < n -> 0 < Z.shiftr n 1 < n.
Proof. intros H. rewrite Z.shiftr_div_pow2 by lia. change (2^1) with 2. pose proof (Z_div_mod_eq_full n 2). pose proof (Z.mod_pos_bound n 2). lia. Qed.
Lemma bsearch_found c compare count : sorted_for c count -> (forall i, 0 <= i < count -> compare i = Ok (c i)) ->
  forall fuel b n x, 0 <= b -> b + n <= count -> b <= x < b + n -> c x = 0 -> (Z.to_nat n < fuel)%nat ->
  exists r, bsearch fuel compare b n = Ok (Some r) /\ b <= r < b + n /\ c r = 0.
Proof.
  intros Hs Hc. induction fuel as [|f IH]; intros b n x Hb Hn Hx Ex Hf; [lia|]. cbn [bsearch].
  destruct (Z.eqb_spec n 0); [lia|]. set (h := Z.shiftr n 1).
  assert (Hh : 0 <= h < n /\ (n = 1 \/ 0 < h)).
  { destruct (Z.eq_dec n 1) as [->|]; [subst h; cbn; lia|]. pose proof (half_lt n). subst h. lia. }
  rewrite Hc by lia. cbn [bind]. destruct (Z.ltb_spec (c (b + h)) 0) as [L|L].
  - destruct (Z_lt_dec x (b + h)) as [X|X].
    + destruct (IH b h x) as (r & E & R1 & R2); try lia. exists r. split; [exact E|]. split; [lia|exact R2].
    + exfalso. destruct (Hs (b + h) x) as [_ S]; lia.
  - destruct (Z.eqb_spec (c (b + h)) 0) as [Z|Z]; cbn [negb].
    + exists (b + h). split; [reflexivity|]. split; [lia|exact Z].
    + destruct (Z_lt_dec x (b + h)) as [X|X].
      * exfalso. destruct (Hs x (b + h)) as [S _]; lia.
      * destruct (Z.eq_dec n 1) as [->|N].
        -- exfalso. assert (x = b + h) by lia. congruence.
        -- destruct (IH (b + h) (n - h) x) as (r & E & R1 & R2); try lia. exists r. split; [exact E|]. split; [lia|exact R2].
Qed.
Lemma bsearch_below c compare count : (forall i, 0 <= i < count -> compare i = Ok (c i)) ->
  forall fuel b n, 0 <= b -> 0 <= n -> b + n <= count -> (forall x, b <= x < b + n -> c x < 0) -> (Z.to_nat n < fuel)%nat ->
  bsearch fuel compare b n = Ok None.
Proof.
  intros Hc. induction fuel as [|f IH]; intros b n Hb Hn0 Hn Hx Hf; [lia|]. cbn [bsearch].
  destruct (Z.eqb_spec n 0); [reflexivity|]. set (h := Z.shiftr n 1).
  assert (Hh : 0 <= h < n). { destruct (Z.eq_dec n 1) as [->|]; [subst h; cbn; lia|]. pose proof (half_lt n). subst h. lia. }
  rewrite Hc by lia. cbn [bind]. pose proof (Hx (b + h) ltac:(lia)). destruct (Z.ltb_spec (c (b + h)) 0); [|lia].
  apply IH; try lia. intros x Hxx. apply Hx. lia.
Qed.
(** no equal element, but a smaller one: the search never returns *)
Lemma bsearch_diverges c compare count : sorted_for c count -> (forall i, 0 <= i < count -> compare i = Ok (c i)) ->
  (forall i, 0 <= i < count -> c i <> 0) ->
  forall fuel b n, 0 <= b -> 0 < n -> b + n <= count -> 0 < c b -> bsearch fuel compare b n = Fuel.
Proof.
  intros Hs Hc Hne. induction fuel as [|f IH]; intros b n Hb Hn Hbn Hcb; [reflexivity|]. cbn [bsearch].
  destruct (Z.eqb_spec n 0); [lia|]. set (h := Z.shiftr n 1).
  assert (Hh : 0 <= h < n /\ (n = 1 \/ 0 < h)).
  { destruct (Z.eq_dec n 1) as [->|]; [subst h; cbn; lia|]. pose proof (half_lt n). subst h. lia. }
  rewrite Hc by lia. cbn [bind]. pose proof (Hne (b + h) ltac:(lia)). destruct (Z.ltb_spec (c (b + h)) 0) as [L|L].
  - destruct (Z.eq_dec h 0) as [E|E]; [rewrite E, Z.add_0_r in L; lia|]. apply IH; lia.
  - destruct (Z.eqb_spec (c (b + h)) 0); [contradiction|]. cbn [negb]. apply IH; lia.
Qed.
