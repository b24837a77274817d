(** Proofs about scanf. *)
From Verif Require Import Base Ctype_Model Ctype_Spec Ctype_Proof Stdlib_Model Stdlib_Spec Stdlib_Proof Stdio_Model Stdio_Spec Stdio_Proof Scanf_Model Scanf_Spec.
Open Scope Z_scope.
Notation len := List.length.
Arguments Z.of_nat : simpl never.
Arguments stream_of : simpl never.
Arguments left_of : simpl never.

Definition inv (s : scanner) : Prop :=
  sane (sF s) (sh s) /\ healthy (sh s) /\ Forall is_byte (peek s) /\ (seof s = true -> stream_of s = []).
(** Bookkeeping: [n] characters were read from the stream, all consumed or looked ahead at *)
Definition adv (s0 s : scanner) : Prop := exists n, (n <= len (stream_of s0))%nat /\ stream_of s = skipn n (stream_of s0) /\
  u32 (count s + Z.of_nat (len (peek s))) = u32 (count s0 + Z.of_nat (len (peek s0)) + Z.of_nat n).
Lemma adv_refl s : adv s s.
Proof. exists 0%nat. split; [lia|]. split; [reflexivity|]. f_equal. lia. Qed.
Lemma u32_add a b c : u32 a = u32 b -> u32 (a + c) = u32 (b + c).
Proof. unfold u32. intros H. rewrite <- Zplus_mod_idemp_l, H, Zplus_mod_idemp_l. reflexivity. Qed.
Lemma adv_trans a b c : adv a b -> adv b c -> adv a c.
Proof.
  intros (n & N1 & N2 & N3) (m & M1 & M2 & M3). exists (n + m)%nat. rewrite N2, skipn_length in M1. split; [lia|]. split.
  - rewrite M2, N2. now rewrite skipn_skipn'.
  - rewrite M3. rewrite (u32_add _ _ (Z.of_nat m) N3). f_equal. lia.
Qed.
Lemma stream_bytes s : inv s -> Forall is_byte (stream_of s).
Proof.
  intros ((_ & _ & B & _ & D & _) & _). unfold stream_of, upcoming, seen. cbn. apply Forall_app. split; now apply Forall_skipn.
Qed.
Lemma left_bytes s : inv s -> Forall is_byte (left_of s).
Proof. intros I. apply Forall_app. split; [apply I|now apply stream_bytes]. Qed.

(** ** Reading one character *)
Lemma sgetc_ok s : inv s -> exists c s', sgetc s = Ok (c, s') /\ inv s' /\ adv s s' /\ data (sh s') = data (sh s) /\
  match left_of s with
  | [] => c = EOF /\ left_of s' = [] /\ count s' = count s /\ peek s' = []
  | d :: q => c = d /\ is_byte d /\ left_of s' = q /\ count s' = u32 (count s + 1) /\ peek s' = tl (peek s)
  end.
Proof.
  intros I. pose proof I as (S & H & B & E). unfold sgetc, left_of. destruct (peek s) as [|c p] eqn:P.
  - cbn [app]. destruct (seof s) eqn:SE.
    + rewrite (E eq_refl). exists EOF, s. split; [reflexivity|]. split; [exact I|]. split; [apply adv_refl|]. rewrite P, (E eq_refl). repeat split.
    + destruct (getc_healthy (sF s) (sh s) S H) as (F1 & h1 & S1 & H1 & D1 & A1 & SC & FE & G). fold (stream_of s) in G.
      destruct (stream_of s) as [|c q] eqn:Q.
      * destruct G as (E1 & V). rewrite E1. cbn [bind]. rewrite Z.eqb_refl. exists EOF, (mk_sc F1 h1 (count s) [] true). split; [reflexivity|].
        assert (stream_of (mk_sc F1 h1 (count s) [] true) = []) as ST by (unfold stream_of; cbn [sF sh]; rewrite V; reflexivity).
        split; [unfold inv; cbn; rewrite ST; auto|]. split; [|cbn; rewrite ST; auto].
        exists 0%nat. rewrite ST, Q, P. cbn. split; [lia|]. split; [reflexivity|]. f_equal. lia.
      * destruct G as (E1 & Bc & U & FO & W & PP). rewrite E1. cbn [bind]. replace (c =? EOF) with false by (unfold is_byte, EOF in *; lia).
        exists c, (mk_sc F1 h1 (u32 (count s + 1)) [] false). split; [reflexivity|].
        assert (stream_of (mk_sc F1 h1 (u32 (count s + 1)) [] false) = q) as ST by (exact U).
        split; [unfold inv; cbn; repeat (split; [solve [auto]|]); discriminate|]. split; [|split; [exact D1|]; cbn; rewrite ST; auto].
        exists 1%nat. rewrite ST, Q, P. cbn. split; [lia|]. split; [reflexivity|]. unfold u32. rewrite Zplus_mod_idemp_l. f_equal. lia.
  - cbn [app]. exists c, (mk_sc (sF s) (sh s) (u32 (count s + 1)) p (seof s)). split; [reflexivity|]. inversion B; subst.
    split; [unfold inv; cbn; auto|]. split; [|cbn; repeat (split; [solve [auto]|]); reflexivity].
    exists 0%nat. cbn. rewrite P. cbn [len]. split; [lia|]. split; [reflexivity|]. unfold u32. rewrite Zplus_mod_idemp_l. f_equal. lia.
Qed.
Lemma sungetc_ok s c : inv s -> is_byte c -> (len (peek s) < 8)%nat ->
  exists s', sungetc s c = Ok s' /\ inv s' /\ adv s s' /\ data (sh s') = data (sh s) /\ left_of s' = c :: left_of s /\ count s' = u32 (count s - 1) /\ peek s' = c :: peek s.
Proof.
  intros I B L. unfold sungetc. replace (c =? EOF) with false by (unfold is_byte, EOF in *; lia).
  replace (8 <=? len (peek s))%nat with false by lia. eexists. split; [reflexivity|].
  destruct I as (S & H & BB & E). split; [unfold inv; cbn; auto|]. split; [|auto].
  exists 0%nat. cbn [peek count len]. split; [lia|]. split; [reflexivity|]. unfold u32. rewrite Zplus_mod_idemp_l. f_equal. lia.
Qed.

(** ** The character under consideration *)
(** After reading characters 0..k of [left_of s0]; the last one, [c], may be EOF *)
Definition At (s0 : scanner) (k : nat) (s : scanner) (c : Z) : Prop :=
  inv s /\ adv s0 s /\ data (sh s) = data (sh s0) /\ (k <= len (left_of s0))%nat /\ len (peek s) = (len (peek s0) - (k + 1))%nat /\
  match skipn k (left_of s0) with
  | [] => c = EOF /\ left_of s = [] /\ count s = u32 (count s0 + Z.of_nat k)
  | d :: q => c = d /\ is_byte d /\ left_of s = q /\ count s = u32 (count s0 + Z.of_nat k + 1)
  end.
(** [k] characters consumed, at most [m] newly looked ahead at *)
Definition Done (s0 : scanner) (k m : nat) (s : scanner) : Prop :=
  inv s /\ adv s0 s /\ data (sh s) = data (sh s0) /\ (k <= len (left_of s0))%nat /\ left_of s = skipn k (left_of s0) /\
  count s = u32 (count s0 + Z.of_nat k) /\ (len (peek s) <= Nat.max (len (peek s0)) m)%nat.
Lemma u32_idem x : u32 (u32 x) = u32 x.
Proof. unfold u32. now rewrite Z.mod_mod by lia. Qed.
Lemma u32_plus x y : u32 (u32 x + y) = u32 (x + y).
Proof. unfold u32. now rewrite Zplus_mod_idemp_l. Qed.
Lemma Done_trans a b c k l m : Done a k m b -> Done b l m c -> Done a (k + l) m c.
Proof.
  intros (I1 & A1 & D1 & K1 & L1 & C1 & P1) (I2 & A2 & D2 & K2 & L2 & C2 & P2). rewrite L1, skipn_length in K2.
  split; [exact I2|]. split; [now apply adv_trans with b|]. split; [congruence|]. split; [lia|]. split; [now rewrite L2, L1, skipn_skipn'|].
  split; [rewrite C2, C1, u32_plus; f_equal; lia|lia].
Qed.
Lemma get_first s0 : inv s0 -> u32 (count s0) = count s0 -> exists c s, sgetc s0 = Ok (c, s) /\ At s0 0 s c.
Proof.
  intros I CU. destruct (sgetc_ok s0 I) as (c & s & E & I' & A & D & G). exists c, s. split; [exact E|]. split; [exact I'|]. split; [exact A|]. split; [exact D|].
  cbn [skipn]. split; [lia|]. destruct (left_of s0) as [|d q] eqn:L.
  - destruct G as (G1 & G2 & G3 & G4). unfold left_of in L. apply app_eq_nil in L. destruct L as [L _]. rewrite G4, L. cbn.
    repeat (split; [solve [auto]|]). rewrite G3, <- CU. f_equal. lia.
  - destruct G as (G1 & G2 & G3 & G4 & G5). split; [rewrite G5; destruct (peek s0); cbn; lia|]. repeat (split; [assumption|]). rewrite G4. f_equal. lia.
Qed.
Lemma skipn_hd {A} k (l : list A) d q : skipn k l = d :: q -> (k < len l)%nat /\ skipn (k + 1) l = q.
Proof.
  intros H. split.
  - destruct (Nat.lt_ge_cases k (len l)); [assumption|]. rewrite skipn_all2 in H by lia. discriminate.
  - rewrite <- skipn_skipn', H. reflexivity.
Qed.
Lemma get_next s0 k s c : At s0 k s c -> c <> EOF -> exists c' s', sgetc s = Ok (c', s') /\ At s0 (k + 1) s' c'.
Proof.
  intros (I & A & D & K & P & G) N. destruct (skipn k (left_of s0)) as [|d q] eqn:Q; [destruct G; contradiction|].
  destruct G as (-> & Bd & L & C). destruct (skipn_hd _ _ _ _ Q) as [K1 Q1].
  destruct (sgetc_ok s I) as (c' & s' & E & I' & A' & D' & G). exists c', s'. split; [exact E|]. split; [exact I'|]. split; [now apply adv_trans with s|].
  split; [congruence|]. split; [lia|]. rewrite Q1. rewrite <- L in *. destruct (left_of s) as [|d' q'] eqn:LL.
  - destruct G as (G1 & G2 & G3 & G4). split.
    { rewrite G4. unfold left_of in LL. apply app_eq_nil in LL. destruct LL as [LL _]. rewrite LL in P. cbn in *. lia. }
    repeat (split; [assumption|]). rewrite G3, C. f_equal. lia.
  - destruct G as (G1 & G2 & G3 & G4 & G5). split; [rewrite G5; destruct (peek s); cbn in *; lia|]. repeat (split; [assumption|]).
    rewrite G4, C, u32_plus. f_equal. lia.
Qed.
Lemma unget s0 k s c : At s0 k s c -> (len (peek s0) <= 7)%nat -> exists s', sungetc s c = Ok s' /\ Done s0 k 1 s'.
Proof.
  intros (I & A & D & K & P & G) L7. destruct (skipn k (left_of s0)) as [|d q] eqn:Q.
  - destruct G as (-> & L & C). exists s. split; [reflexivity|]. split; [exact I|]. split; [exact A|]. split; [exact D|]. split; [exact K|]. split; [congruence|]. split; [exact C|lia].
  - destruct G as (-> & Bd & L & C). destruct (sungetc_ok s d I Bd ltac:(lia)) as (s' & E & I' & A' & D' & L' & C' & P').
    exists s'. split; [exact E|]. split; [exact I'|]. split; [now apply adv_trans with s|]. split; [congruence|]. split; [exact K|]. split; [congruence|].
    split; [rewrite C', C, <- Z.add_opp_r, u32_plus; f_equal; lia|]. rewrite P'. cbn [len]. lia.
Qed.
Lemma at_eof_done s0 k s c : At s0 k s c -> c = EOF -> Done s0 k 1 s /\ skipn k (left_of s0) = [].
Proof.
  intros (I & A & D & K & P & G) ->. destruct (skipn k (left_of s0)) as [|d q] eqn:Q.
  - destruct G as (_ & L & C). split; [|reflexivity]. split; [exact I|]. split; [exact A|]. split; [exact D|]. split; [exact K|]. split; [congruence|]. split; [exact C|lia].
  - destruct G as (G & B & _). unfold is_byte, EOF in *. lia.
Qed.
Lemma at_keep s0 k s c : At s0 k s c -> c <> EOF -> Done s0 (k + 1) 1 s.
Proof.
  intros (I & A & D & K & P & G) N. destruct (skipn k (left_of s0)) as [|d q] eqn:Q; [destruct G; contradiction|].
  destruct G as (-> & Bd & L & C). destruct (skipn_hd _ _ _ _ Q) as [K1 Q1].
  split; [exact I|]. split; [exact A|]. split; [exact D|]. split; [lia|]. split; [congruence|]. split; [rewrite C; f_equal; lia|lia].
Qed.
Lemma at_char s0 k s c : At s0 k s c -> c <> EOF -> is_byte c /\ skipn k (left_of s0) = c :: skipn (k + 1) (left_of s0).
Proof.
  intros (I & A & D & K & P & G) N. destruct (skipn k (left_of s0)) as [|d q] eqn:Q; [destruct G; contradiction|].
  destruct G as (-> & Bd & L & C). destruct (skipn_hd _ _ _ _ Q) as [K1 Q1]. split; [exact Bd|]. now rewrite Q1.
Qed.

(** ** White space *)
Lemma isspace_byte c : is_byte c -> isspace c = Ok (b2z (spaceb c)).
Proof. intros B. rewrite isspace_val; [reflexivity|]. unfold ctype_dom, INT_MIN, INT_MAX, is_byte in *. lia. Qed.
Lemma skip_ws_at fuel : forall s0 k s c, At s0 k s c -> (len (left_of s0) <= k + fuel)%nat -> (len (peek s0) <= 7)%nat ->
  exists s', (if c =? EOF then sungetc s c else do b <- isspace c; if b =? 0 then sungetc s c else skip_ws fuel s) = Ok s' /\
  Done s0 (k + (len (skipn k (left_of s0)) - len (dropwhile spaceb (skipn k (left_of s0))))) 1 s' /\
  left_of s' = dropwhile spaceb (skipn k (left_of s0)).
Proof.
  induction fuel as [|f IH]; intros s0 k s c A F P7; (destruct (Z.eqb_spec c EOF) as [CE|CE];
    [destruct (at_eof_done s0 k s c A CE) as [_ Q]; rewrite Q; cbn [dropwhile len]; destruct (unget s0 k s c A P7) as (s' & E & DD); exists s'; rewrite Nat.add_0_r; split; [exact E|]; split; [exact DD|];
     destruct DD as (_ & _ & _ & _ & L & _); congruence |]).
  - destruct (at_char s0 k s c A CE) as [_ Q]. destruct (skipn_hd _ _ _ _ Q). lia.
  - destruct (at_char s0 k s c A CE) as [B Q]. rewrite isspace_byte by exact B. cbn [bind]. rewrite Q. cbn [dropwhile].
    destruct (spaceb c) eqn:SP; cbn [b2z Z.eqb].
    + cbn [skip_ws]. destruct (get_next s0 k s c A CE) as (c' & s' & E & A'). rewrite E. cbn [bind].
      destruct (IH s0 (k + 1)%nat s' c' A' ltac:(lia) P7) as (s'' & E' & DD & L). exists s''. split; [exact E'|]. split; [|exact L].
      assert (len (dropwhile spaceb (skipn (k + 1) (left_of s0))) <= len (skipn (k + 1) (left_of s0)))%nat as LE.
      { clear. generalize (skipn (k + 1) (left_of s0)). intros l. induction l as [|x l IHl]; cbn; [lia|]. destruct (spaceb x); cbn; lia. }
      cbn [len]. eapply eq_rect with (P := fun n => Done s0 n 1 s''); [exact DD|]. lia.
    + destruct (unget s0 k s c A P7) as (s' & E & DD). exists s'. split; [exact E|]. cbn [len]. rewrite Nat.sub_diag, Nat.add_0_r. split; [exact DD|].
      destruct DD as (_ & _ & _ & _ & L & _). congruence.
Qed.
Lemma skip_ws_ok fuel s : inv s -> u32 (count s) = count s -> enough fuel s -> (len (peek s) <= 7)%nat ->
  exists s' k, skip_ws fuel s = Ok s' /\ Done s k 1 s' /\ left_of s' = dropwhile spaceb (left_of s) /\ u32 (count s') = count s'.
Proof.
  intros I CU F P7. destruct fuel as [|f]; [unfold enough in F; lia|]. cbn [skip_ws].
  destruct (get_first s I CU) as (c & s1 & E & A). rewrite E. cbn [bind].
  destruct (skip_ws_at f s 0 s1 c A ltac:(unfold enough in F; lia) P7) as (s' & E' & DD & L). cbn [skipn] in *.
  do 2 eexists. split; [exact E'|]. split; [exact DD|]. split; [exact L|]. destruct DD as (_ & _ & _ & _ & _ & -> & _). apply u32_idem.
Qed.

(** ** Integers *)
Lemma digit_of_value c : digit_of c = digit_value c.
Proof. unfold digit_of, digit_value. repeat match goal with |- context [if ?b then _ else _] => destruct b end; f_equal; lia. Qed.
Lemma takewhile_le f l : (len (takewhile f l) <= len l)%nat.
Proof. induction l as [|x l IH]; cbn; [lia|]. destruct (f x); cbn; lia. Qed.
Lemma int_digits_ok fuel : forall s0 k s c base width buf seen, At s0 k s c -> (len (left_of s0) < k + fuel)%nat -> 0 <= width ->
  let ds := takewhile (digitb base) (firstn (Z.to_nat width) (skipn k (left_of s0))) in
  exists c' s', int_digits fuel base width c buf seen s = Ok (c', fold_left put ds buf, seen || negb (len ds =? 0)%nat, s') /\ At s0 (k + len ds) s' c'.
Proof.
  induction fuel as [|f IH]; intros s0 k s c base width buf seen A F W; cbv zeta.
  - destruct A as (_ & _ & _ & K & _). lia.
  - cbn [int_digits]. destruct (Z.ltb_spec 0 width) as [W1|W1].
    2:{ replace width with 0 by lia. cbn. rewrite orb_false_r, Nat.add_0_r. eauto. }
    destruct (Z.eqb_spec c EOF) as [CE|CE]; cbn [negb andb].
    { destruct (at_eof_done s0 k s c A CE) as [_ Q]. rewrite Q, firstn_nil. cbn. rewrite orb_false_r, Nat.add_0_r. eauto. }
    destruct (at_char s0 k s c A CE) as [B Q]. rewrite Q. replace (Z.to_nat width) with (S (Z.to_nat (width - 1))) by lia. cbn [firstn takewhile].
    unfold digitb at 1 3 5. rewrite digit_of_value. destruct (digit_value c) as [d|] eqn:DV.
    2:{ cbn. rewrite orb_false_r, Nat.add_0_r. eauto. }
    destruct (Z.leb_spec base d) as [BD|BD].
    { replace (d <? base) with false by lia. cbn. rewrite orb_false_r, Nat.add_0_r. eauto. }
    replace (d <? base) with true by lia. destruct (get_next s0 k s c A CE) as (c1 & s1 & E & A1). rewrite E. cbn [bind].
    destruct (IH s0 (k + 1)%nat s1 c1 base (width - 1) (put buf c) true A1 ltac:(lia) ltac:(lia)) as (c' & s' & E' & A').
    exists c', s'. rewrite E'. cbn [fold_left len Nat.eqb negb]. rewrite orb_true_r. cbn [orb]. split; [reflexivity|].
    eapply eq_rect with (P := fun n => At s0 n s' c'); [exact A'|]. lia.
Qed.
Lemma fold_put l : forall buf, (len buf + len l <= 127)%nat -> fold_left put l buf = rev l ++ buf.
Proof.
  induction l as [|c l IH]; intros buf L; cbn [fold_left rev]; [reflexivity|]. cbn [len] in L. unfold put at 2. unfold BUFSZ.
  replace (Z.of_nat (len buf) <? 128 - 1) with true by lia. rewrite IH by (cbn [len]; lia). now rewrite <- app_assoc.
Qed.

(** The body of [scan_int] after the sign *)
Definition int_rest (fuel : nat) (base : Z) (sign : bool) (length : Z) (c width : Z) (buf : list Z) (s : scanner) :=
  let digits c width base buf seen s :=
    let base := if base =? 0 then 10 else base in
    do r <- int_digits fuel base width c buf seen s; int_done base sign length r in
    if (c =? 48) && (0 <? width) then
      let buf := put buf c in
      let width := width - 1 in
      if width =? 0 then int_done base sign length (c, buf, true, s) else
      do (c, s) <- sgetc s;
      if ((c =? 120) || (c =? 88)) && ((base =? 0) || (base =? 16)) then
        let buf := put buf c in
        let width := width - 1 in
        if width =? 0 then int_done 16 sign length (c, buf, false, s) else
        do (c, s) <- sgetc s; digits c width 16 buf false s
      else digits c width (if base =? 0 then 8 else base) buf true s
    else digits c width base buf false s.
Lemma scan_int_eq fuel s width base sign length : scan_int fuel s width base sign length =
  (do s <- skip_ws fuel s;
   do (c, s) <- sgetc s;
   if c =? EOF then Ok (-1, None, s) else
   if (c =? 43) || (c =? 45) then
     let width := width - 1 in
     if width =? 0 then int_done base sign length (c, put [] c, false, s) else
     do (c', s) <- sgetc s; int_rest fuel base sign length c' width (put [] c) s
   else int_rest fuel base sign length c width [] s).
Proof. reflexivity. Qed.
Definition core (base : Z) (r : list Z) : list Z * list Z * Z :=
  if hex_prefixed base r then (firstn 2 r, takewhile (digitb 16) (skipn 2 r), 16)
  else let b := if base =? 0 then match r with z :: _ => if z =? 48 then 8 else 10 | [] => 10 end else base in
       ([], takewhile (digitb b) r, b).
Definition core_head (base : Z) (r : list Z) : Z :=
  if hex_prefixed base r then 2 else match r with z :: _ => if z =? 48 then 1 else 0 | [] => 0 end.
Lemma skipn_At_eof s0 k s : At s0 k s EOF -> skipn k (left_of s0) = [].
Proof. intros A. now destruct (at_eof_done s0 k s EOF A eq_refl). Qed.
Lemma digitb_0 b : 0 < b -> digitb b 48 = true.
Proof. intros H. unfold digitb. cbn. lia. Qed.
(** The item is recognised when its head is not cut by the width *)
Lemma int_rest_ok fuel s0 k s c base width buf sign length : At s0 k s c -> (len (left_of s0) < k + fuel)%nat ->
  base = 0 \/ base = 8 \/ base = 10 \/ base = 16 ->
  let q := skipn k (left_of s0) in
  core_head base q < width ->
  let '(pre, ds, b) := core base (firstn (Z.to_nat width) q) in
  exists c' s', int_rest fuel base sign length c width buf s =
      int_done b sign length (c', fold_left put (pre ++ ds) buf, negb (len ds =? 0)%nat, s') /\
    At s0 (k + len (pre ++ ds)) s' c'.
Proof.
  intros A F HB q H. unfold int_rest. subst q.
  assert (0 < width) as W by (unfold core_head in H; destruct (hex_prefixed _ _); [lia|]; destruct (skipn k _) as [|z ?]; [lia|]; destruct (z =? 48); lia).
  replace (0 <? width) with true by lia. rewrite andb_true_r.
  destruct (Z.eqb_spec c 48) as [C0|C0].
  - assert (c <> EOF) as CE by (unfold EOF; lia). destruct (at_char s0 k s c A CE) as [B Q]. subst c.
    destruct (get_next s0 k s 48 A CE) as (c1 & s1 & E & A1).
    assert (1 < width) as W1. { unfold core_head in H. rewrite Q in H. cbn in H. destruct (hex_prefixed _ _) in H; lia. }
    replace (width - 1 =? 0) with false by lia. rewrite E. cbn [bind].
    destruct (((c1 =? 120) || (c1 =? 88)) && ((base =? 0) || (base =? 16))) eqn:X.
    + apply andb_true_iff in X. destruct X as [X HX]. assert (c1 <> EOF) as CE1 by (unfold EOF; lia).
      destruct (at_char s0 _ s1 c1 A1 CE1) as [B1 Q1].
      assert (2 < width) as W2. { unfold core_head, hex_prefixed in H. rewrite Q, Q1, X, HX in H. cbn in H. lia. }
      replace (width - 1 - 1 =? 0) with false by lia. destruct (get_next s0 _ s1 c1 A1 CE1) as (c2 & s2 & E2 & A2). rewrite E2. cbn [bind].
      rewrite Q, Q1. replace (Z.to_nat width) with (S (S (Z.to_nat (width - 2)))) by lia. cbn [firstn]. unfold core, hex_prefixed. rewrite HX, X. cbn [andb Z.eqb Pos.eqb firstn skipn].
      change (16 =? 0) with false. cbv iota.
      destruct (int_digits_ok fuel s0 _ s2 c2 16 (width - 1 - 1) (put (put buf 48) c1) false A2 ltac:(lia) ltac:(lia)) as (c' & s' & E' & A').
      replace (width - 1 - 1) with (width - 2) in * by lia. set (d := takewhile _ _) in *. exists c', s'. rewrite E'. cbn [bind].
      cbn [app fold_left]. split; [reflexivity|]. cbn [len]. eapply eq_rect with (P := fun n => At s0 n s' c'); [exact A'|]. lia.
    + set (b := if base =? 0 then 8 else base).
      assert (hex_prefixed base (firstn (Z.to_nat width) (skipn k (left_of s0))) = false) as HP.
      { rewrite Q. replace (Z.to_nat width) with (S (S (Z.to_nat (width - 2)))) by lia. cbn [firstn]. unfold hex_prefixed.
        destruct (Z.eqb_spec c1 EOF) as [CE1|CE1].
        - subst c1. rewrite (skipn_At_eof _ _ _ A1). now rewrite andb_false_r.
        - destruct (at_char s0 _ s1 c1 A1 CE1) as [B1 Q1]. rewrite Q1. rewrite Z.eqb_refl. cbn [andb]. rewrite andb_comm. exact X. }
      unfold core. rewrite HP.
      replace (if base =? 0 then match firstn (Z.to_nat width) (skipn k (left_of s0)) with z :: _ => if z =? 48 then 8 else 10 | [] => 10 end else base) with b.
      2:{ unfold b. destruct (base =? 0); [|reflexivity]. rewrite Q. replace (Z.to_nat width) with (S (Z.to_nat (width - 1))) by lia. reflexivity. }
      assert (b = 8 \/ b = 10 \/ b = 16) as HB' by (unfold b; destruct (Z.eqb_spec base 0); lia).
      replace (if b =? 0 then 10 else b) with b by (destruct (Z.eqb_spec b 0); lia).
      destruct (int_digits_ok fuel s0 _ s1 c1 b (width - 1) (put buf 48) true A1 ltac:(lia) ltac:(lia)) as (c' & s' & E' & A').
      rewrite Q. replace (Z.to_nat width) with (S (Z.to_nat (width - 1))) by lia. cbn [firstn takewhile]. rewrite digitb_0 by lia.
      set (d := takewhile _ _) in *. exists c', s'. rewrite E'. cbn [bind]. cbn [app fold_left len Nat.eqb negb orb]. split; [reflexivity|].
      eapply eq_rect with (P := fun n => At s0 n s' c'); [exact A'|]. lia.
  - cbv zeta. set (b := if base =? 0 then 10 else base).
    assert (forall r, firstn (Z.to_nat width) (skipn k (left_of s0)) = 48 :: r -> False) as N48.
    { intros r Hr. destruct (Z.eqb_spec c EOF) as [CE|CE].
      - subst c. rewrite (skipn_At_eof _ _ _ A), firstn_nil in Hr. discriminate.
      - destruct (at_char s0 _ s c A CE) as [B1 Q1]. rewrite Q1 in Hr. replace (Z.to_nat width) with (S (Z.to_nat (width - 1))) in Hr by lia. cbn in Hr. congruence. }
    set (t := firstn (Z.to_nat width) (skipn k (left_of s0))) in *.
    assert (hex_prefixed base t = false) as HP.
    { unfold hex_prefixed. destruct t as [|z [|x r]]; try apply andb_false_r. destruct (Z.eqb_spec z 48); [subst; now destruct (N48 (x :: r))|]. apply andb_false_r. }
    unfold core. rewrite HP. replace (if base =? 0 then match t with z :: _ => if z =? 48 then 8 else 10 | [] => 10 end else base) with b.
    2:{ unfold b. destruct (base =? 0); [|reflexivity]. destruct t as [|z r]; [reflexivity|]. destruct (Z.eqb_spec z 48); [subst; now destruct (N48 r)|reflexivity]. }
    destruct (int_digits_ok fuel s0 _ s c b width buf false A ltac:(lia) ltac:(lia)) as (c' & s' & E' & A'). fold t in E', A'.
    exists c', s'. rewrite E'. cbn [bind app orb]. split; [reflexivity|exact A'].
Qed.
