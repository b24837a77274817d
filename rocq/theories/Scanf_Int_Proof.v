(** Proofs about scanf: the integer conversions. *)
From Verif Require Import Base Ctype_Model Ctype_Spec Ctype_Proof Stdlib_Model Stdlib_Spec Stdlib_Proof Stdlib_Props Stdio_Model Stdio_Spec Stdio_Proof Scanf_Model Scanf_Spec Scanf_Proof.
Open Scope Z_scope.

Lemma int_item_core base t : let '(sg, r) := split_sign t in let '(pre, ds, b) := core base r in int_item base t = mk_item sg pre ds b.
Proof. unfold int_item, core. destruct (split_sign t) as [sg r]. destruct (hex_prefixed base r); reflexivity. Qed.
Lemma takewhile_all f l : Forall (fun c => f c = true) (takewhile f l).
Proof. induction l as [|c l IH]; cbn; [constructor|]. destruct (f c) eqn:E; constructor; assumption. Qed.
Lemma takewhile_skip f l : takewhile f l = firstn (len (takewhile f l)) l.
Proof. induction l as [|c l IH]; cbn; [reflexivity|]. destruct (f c) eqn:E; cbn; [now rewrite <- IH|reflexivity]. Qed.
Lemma digitb_digit b c : digitb b c = true -> is_digit b c.
Proof. unfold digitb, is_digit. destruct (digit_value c) as [d|]; [|discriminate]. intros H. exists d. split; [reflexivity|lia]. Qed.
Lemma digit_not_space b c : is_digit b c -> ~ is_space_spec c /\ ~ (c = 45 \/ c = 43).
Proof. intros (d & E & _). unfold digit_value in E. unfold is_space_spec. cbn. destruct (Z.leb_spec 48 c), (Z.leb_spec 97 c), (Z.leb_spec 65 c); cbn in E; try discriminate; lia. Qed.
Definition neg_of (sg : list Z) : bool := match sg with c :: _ => c =? 45 | [] => false end.
(** The text of an item is read back by strtoll and strtoull *)
Lemma item_reading base t : base = 0 \/ base = 8 \/ base = 10 \/ base = 16 -> let i := int_item base t in idigits i <> [] ->
  Stdlib_Spec.reading (ibase i) (item_text i) (neg_of (isign i)) (magnitude i) (Z.of_nat (len (item_text i))) /\ (ibase i = 8 \/ ibase i = 10 \/ ibase i = 16).
Proof.
  intros HB i. subst i. pose proof (int_item_core base t) as C. destruct (split_sign t) as [sg r] eqn:SS. destruct (core base r) as [[pre ds] b] eqn:CC. rewrite C.
  cbn [idigits isign ibase]. unfold magnitude, item_text. cbn [idigits isign ibase iprefix]. intros ND.
  assert (b = 8 \/ b = 10 \/ b = 16) as Bb.
  { unfold core in CC. destruct (hex_prefixed base r); [inversion CC; lia|]. destruct (Z.eqb_spec base 0); [|inversion CC; lia].
    destruct r as [|z q]; [inversion CC; lia|]. destruct (z =? 48); inversion CC; lia. }
  split; [|exact Bb].
  assert (Forall (is_digit b) ds) as FD.
  { unfold core in CC. destruct (hex_prefixed base r); inversion CC; subst; (eapply Forall_impl; [|apply takewhile_all]; intros; now apply digitb_digit). }
  assert ((pre = [] \/ (b = 16 /\ exists x, pre = [48; x] /\ (x = 120 \/ x = 88)))) as PRE.
  { unfold core in CC. destruct (hex_prefixed base r) eqn:HP; [right|left; now inversion CC].
    unfold hex_prefixed in HP. destruct r as [|z [|x q]]; try (rewrite andb_false_r in HP; discriminate).
    inversion CC; subst. split; [reflexivity|]. exists x. cbn. split; [f_equal; lia|lia]. }
  assert ((sg = [45] \/ sg = [43]) \/ sg = []) as SG.
  { unfold split_sign in SS. destruct t as [|c q]; [inversion SS; auto|]. destruct (Z.eqb_spec c 43), (Z.eqb_spec c 45); cbn in SS; inversion SS; subst; auto. }
  destruct ds as [|d ds]; [contradiction|]. pose proof (Forall_inv FD) as DD. destruct (digit_not_space _ _ DD) as [NSP NSG].
  exists [], sg, pre, (d :: ds), [], b. rewrite !app_nil_r. cbn [app].
  split; [reflexivity|]. split; [constructor|]. split.
  { destruct SG as [[->| ->]| ->]; cbn; [unfold is_space_spec; cbn; lia|unfold is_space_spec; cbn; lia|].
    destruct PRE as [->|(_ & x & -> & _)]; cbn; [exact NSP|]. unfold is_space_spec. cbn. lia. }
  split.
  { destruct SG as [[->| ->]| ->]; unfold sign_ok; cbn [neg_of]; [left; auto|right; left; auto|].
    right. right. split; [reflexivity|]. split; [reflexivity|]. destruct PRE as [->|(_ & x & -> & _)]; cbn; [exact NSG|lia]. }
  split.
  { unfold prefix_ok. destruct PRE as [->|(-> & x & -> & X)].
    - right. split; [|split; [reflexivity|left; split; [lia|reflexivity]]]. intros [_ (x & h & r' & E & X & _)]. cbn in E. inversion E; subst.
      inversion FD as [|? ? _ FD']. inversion FD' as [|? ? FX _]. destruct FX as (dv & E1 & E2). destruct X as [X|X]; subst x; cbn in E1; inversion E1; subst; lia.
    - left. split; [|split; reflexivity]. split; [right; reflexivity|]. exists x, d, ds. split; [reflexivity|]. split; [exact X|exact DD]. }
  split; [exact FD|]. split; [intros []|]. split; [reflexivity|]. reflexivity.
Qed.
Lemma item_value_eq i : item_value i = if neg_of (isign i) then - magnitude i else magnitude i.
Proof. unfold item_value, neg_of. destruct (isign i); reflexivity. Qed.
Lemma digits_value_mono b : 2 <= b -> forall ds acc, 0 <= acc -> 0 <= digits_value b acc ds.
Proof.
  intros HB. induction ds as [|c ds IH]; intros acc A; cbn; [exact A|]. apply IH. unfold digit_value.
  repeat match goal with |- context [if ?x then _ else _] => destruct x eqn:? end; nia.
Qed.

Lemma bits_eq length : (if length =? 0 then 32 else if length =? 104 * 4 + 1 then 16 else if length =? 104 * 4 + 2 then 8
              else if length =? 108 * 4 + 1 then 32 else if (length =? 108 * 4 + 2) || (length =? 106 * 4 + 1) then 64 else 32) = object_bits length.
Proof.
  unfold object_bits. destruct (Z.eqb_spec length 0); [subst; reflexivity|]. destruct (Z.eqb_spec length (104*4+1)); [subst; reflexivity|].
  destruct (Z.eqb_spec length (104*4+2)); [reflexivity|]. destruct (Z.eqb_spec length (108*4+1)); [subst; reflexivity|]. reflexivity.
Qed.
Lemma object_bits_cases l : object_bits l = 8 \/ object_bits l = 16 \/ object_bits l = 32 \/ object_bits l = 64.
Proof. unfold object_bits. repeat match goal with |- context [if ?x then _ else _] => destruct x end; lia. Qed.
Lemma sgn_u64 bits v : bits = 8 \/ bits = 16 \/ bits = 32 \/ bits = 64 -> sgn bits (u64 v) = sgn bits v /\ (u64 v) mod 2^bits = v mod 2^bits.
Proof.
  intros H. assert ((u64 v) mod 2^bits = v mod 2^bits) as M.
  { unfold u64. rewrite <- Znumtheory.Zmod_div_mod; [reflexivity| | |]; destruct H as [->|[->|[->| ->]]]; try lia; [exists (2^56)|exists (2^48)|exists (2^32)|exists 1]; reflexivity. }
  split; [|exact M]. unfold sgn. rewrite M. reflexivity.
Qed.
Lemma int_done_ok s0 k s c b sign length i : At s0 k s c -> (len (peek s0) <= 7)%nat -> b = ibase i -> Forall is_byte (item_text i) ->
  (idigits i <> [] -> Stdlib_Spec.reading (ibase i) (item_text i) (neg_of (isign i)) (magnitude i) (Z.of_nat (len (item_text i))) /\ (ibase i = 8 \/ ibase i = 10 \/ ibase i = 16)) ->
  (sign = true -> item_value i <> - 2^63) ->
  exists s', int_done b sign length (c, rev (item_text i), negb (len (idigits i) =? 0)%nat, s) =
    Ok (match idigits i with [] => (0, None, s') | _ => (1, Some (converted sign length i), s') end) /\ Done s0 k 1 s'.
Proof.
  intros A P7 -> FB R NE. destruct (unget s0 k s c A P7) as (s' & E & DD). exists s'. unfold int_done. rewrite E. cbn [bind]. split; [|exact DD].
  destruct (idigits i) as [|d ds] eqn:ED; [reflexivity|]. cbn [len Nat.eqb negb]. rewrite rev_involutive. destruct (R ltac:(discriminate)) as [RD Bb].
  assert (0 <= magnitude i) as M0 by (unfold magnitude; apply digits_value_mono; lia).
  pose proof (item_value_eq i) as IV. unfold converted, store_int_. rewrite bits_eq. destruct sign.
  - rewrite (C34_strtoll_partial _ (ibase i) _ _ _ FB ltac:(lia) RD).
    2:{ intros [N1 N2]. apply (NE eq_refl). rewrite IV, N1, N2. reflexivity. }
    cbv zeta. rewrite <- IV. cbn [bind].
    set (m := Z.max _ _).
    destruct (Z.ltb_spec (item_value i) (-2^63)); [replace m with (-2^63) by (unfold m; lia)|destruct (Z.ltb_spec (2^63 - 1) (item_value i)); [replace m with (2^63-1) by (unfold m; lia)|replace m with (item_value i) by (unfold m; lia)]];
      cbn [pval bind]; rewrite (proj1 (sgn_u64 _ _ (object_bits_cases length))); reflexivity.
  - rewrite (C34_strtoull _ (ibase i) _ _ _ FB ltac:(lia) RD). cbn [bind].
    destruct (Z.ltb_spec (2^64 - 1) (magnitude i)); cbn [pval bind]; rewrite (proj2 (sgn_u64 _ _ (object_bits_cases length))).
    + replace (2^64 <=? magnitude i) with true by lia. reflexivity.
    + replace (2^64 <=? magnitude i) with false by lia. rewrite IV. destruct (neg_of (isign i)); [|reflexivity].
      do 5 f_equal. change ((- magnitude i) mod 2^64) with (u64 (- magnitude i)). apply sgn_u64, object_bits_cases.
Qed.
Lemma split_sign_firstn w t : (0 < w)%nat -> let '(sg, r) := split_sign t in split_sign (firstn w t) = (sg, firstn (w - len sg) r) /\ t = sg ++ r /\ (len sg <= 1)%nat.
Proof.
  intros W. unfold split_sign. destruct w as [|w]; [lia|]. destruct t as [|c t]; [cbn; auto|]. cbn [firstn].
  destruct ((c =? 43) || (c =? 45)); cbn [len]; [rewrite Nat.sub_succ, Nat.sub_0_r; auto|auto].
Qed.
Lemma core_text base r : let '(pre, ds, b) := core base r in pre ++ ds = firstn (len (pre ++ ds)) r.
Proof.
  unfold core. destruct (hex_prefixed base r) eqn:H.
  - unfold hex_prefixed in H. destruct r as [|z [|x q]]; try (rewrite andb_false_r in H; discriminate). cbn [firstn skipn app len]. do 2 f_equal. apply takewhile_skip.
  - cbn [app]. apply takewhile_skip.
Qed.
Lemma item_text_firstn base t : item_text (int_item base t) = firstn (len (item_text (int_item base t))) t.
Proof.
  pose proof (int_item_core base t) as C. destruct (split_sign t) as [sg r] eqn:SS. pose proof (core_text base r) as CT.
  destruct (core base r) as [[pre ds] b]. rewrite C. unfold item_text. cbn [isign iprefix idigits].
  assert (t = sg ++ r) as -> by (unfold split_sign in SS; destruct t as [|c t]; [now inversion SS|]; destruct (_ || _); inversion SS; reflexivity).
  rewrite app_length, firstn_app_2, <- CT. reflexivity.
Qed.

Lemma scan_int_ok fuel s width base sign length : inv s -> u32 (count s) = count s -> enough fuel s -> (len (peek s) <= 7)%nat -> 0 < width ->
  base = 0 \/ base = 8 \/ base = 10 \/ base = 16 ->
  let t := dropwhile spaceb (left_of s) in
  head_length base t < width ->
  let i := int_item base (firstn (Z.to_nat width) t) in
  (len (item_text i) <= 127)%nat -> (sign = true -> item_value i <> - 2^63) ->
  exists s' k, scan_int fuel s width base sign length = Ok
      (match t with [] => (-1, None, s') | _ => match idigits i with [] => (0, None, s') | _ => (1, Some (converted sign length i), s') end end) /\
    Done s k 1 s' /\ left_of s' = skipn (len (item_text i)) t.
Proof.
  intros I CU F P7 W HB t HL i L127 NE. rewrite scan_int_eq.
  destruct (skip_ws_ok fuel s I CU F P7) as (s1 & k & E & DD & L & CU1). fold t in L. rewrite E. cbn [bind]. clearbody t. pose proof DD as (I1 & A1 & D1 & K1 & L1 & C1 & P1).
  assert (len (peek s1) <= 7)%nat as P71 by lia. assert (len (left_of s1) < fuel)%nat as F1 by (rewrite L1, skipn_length; unfold enough in F; lia).
  destruct (get_first s1 I1 CU1) as (c & s2 & E2 & A2). rewrite E2. cbn [bind].
  assert (Forall is_byte t) as Bt by (rewrite <- L; now apply left_bytes).
  assert (Forall is_byte (item_text i)) as BI.
  { unfold i. rewrite item_text_firstn. now apply Forall_firstn, Forall_firstn. }
  destruct (Z.eqb_spec c EOF) as [CE|CE].
  { destruct (at_eof_done s1 0 s2 c A2 CE) as [D2 Q]. cbn [skipn] in Q. rewrite L in Q. rewrite Q. exists s2, (k + 0)%nat. split; [reflexivity|].
    split; [now apply Done_trans with s1|]. destruct D2 as (_ & _ & _ & _ & L2 & _). rewrite L2, L, Q, !skipn_nil. reflexivity. }
  destruct (at_char s1 0 s2 c A2 CE) as [B Q]. cbn [skipn Nat.add] in Q. rewrite L in Q. destruct t as [|c0 tl] eqn:ET; [discriminate|]. injection Q as Q1. subst c0.
  pose proof (int_item_core base (firstn (Z.to_nat width) (c :: tl))) as IC. fold i in IC.
  pose proof (split_sign_firstn (Z.to_nat width) (c :: tl) ltac:(lia)) as SF. unfold head_length in HL.
  assert (forall s' kk, Done s1 kk 1 s' -> kk = len (item_text i) -> left_of s' = skipn (len (item_text i)) (c :: tl)) as FIN.
  { intros s' kk (_ & _ & _ & _ & L' & _) ->. now rewrite L', L. }
  destruct ((c =? 43) || (c =? 45)) eqn:SG; unfold split_sign at 1 in SF; unfold split_sign in HL; rewrite SG in SF, HL; cbn [len] in HL; destruct SF as (SF1 & SF2 & SF3); rewrite SF1 in IC.
  - assert (1 < width) as W1 by (destruct (hex_prefixed _ _) in HL; [lia|]; destruct tl as [|z ?]; [|destruct (z =? 48) in HL]; lia). cbv zeta. replace (width - 1 =? 0) with false by lia.
    destruct (get_next s1 0 s2 c A2 CE) as (c1 & s3 & E3 & A3). rewrite E3. cbn [bind Nat.add] in *.
    pose proof (int_rest_ok fuel s1 1 s3 c1 base (width - 1) (put [] c) sign length A3 ltac:(lia) HB) as IR. cbv zeta in IR. rewrite L in IR. cbn [skipn] in IR.
    specialize (IR ltac:(unfold core_head; lia)). replace (Z.to_nat width - len [c])%nat with (Z.to_nat (width - 1)) in IC by (cbn; lia).
    destruct (core base (firstn (Z.to_nat (width - 1)) tl)) as [[pre ds] b] eqn:EC. destruct IR as (c' & s' & E' & A'). rewrite E'.
    assert (item_text i = [c] ++ pre ++ ds) as IT by (rewrite IC; reflexivity).
    rewrite fold_put.
    2:{ rewrite IT in L127. rewrite app_length in L127. cbn [len] in *. unfold put; cbn [len]. change (Z.of_nat 0 <? BUFSZ - 1) with true. cbn [len]. lia. }
    change (put [] c) with [c].
    replace (rev (pre ++ ds) ++ [c]) with (rev (item_text i)) by (rewrite IT; reflexivity). replace ds with (idigits i) by (rewrite IC; reflexivity).
    destruct (int_done_ok s1 _ s' c' b sign length i A' P71 ltac:(rewrite IC; reflexivity) BI ltac:(intros ND; apply item_reading; [exact HB|exact ND]) NE) as (s4 & E4 & D4).
    exists s4, (k + (1 + len (pre ++ ds)))%nat. rewrite E4. split; [reflexivity|]. split; [now apply Done_trans with s1|]. eapply FIN; [exact D4|]. rewrite IT. reflexivity.
  - pose proof (int_rest_ok fuel s1 0 s2 c base width [] sign length A2 ltac:(lia) HB) as IR. cbv zeta in IR. rewrite L in IR. cbn [skipn] in IR.
    specialize (IR ltac:(unfold core_head; lia)). replace (Z.to_nat width - len [])%nat with (Z.to_nat width) in IC by (cbn; lia).
    destruct (core base (firstn (Z.to_nat width) (c :: tl))) as [[pre ds] b] eqn:EC. destruct IR as (c' & s' & E' & A'). rewrite E'.
    assert (item_text i = pre ++ ds) as IT by (rewrite IC; reflexivity).
    rewrite fold_put by (rewrite IT in L127; cbn [len]; lia).
    rewrite app_nil_r. rewrite <- IT in *. replace ds with (idigits i) by (rewrite IC; reflexivity).
    destruct (int_done_ok s1 _ s' c' b sign length i A' P71 ltac:(rewrite IC; reflexivity) BI ltac:(intros ND; apply item_reading; [exact HB|exact ND]) NE) as (s4 & E4 & D4).
    exists s4, (k + (0 + len (item_text i)))%nat. rewrite E4. split; [reflexivity|]. split; [now apply Done_trans with s1|]. eapply FIN; [exact D4|]. reflexivity.
Qed.
