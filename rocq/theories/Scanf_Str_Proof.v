(** Proofs about scanf: the string, character and set conversions, and formats of several conversions. *)
From Verif Require Import Base Ctype_Model Ctype_Spec Ctype_Proof Stdlib_Model Stdlib_Spec Stdlib_Proof Stdio_Model Stdio_Spec Stdio_Proof Scanf_Model Scanf_Spec Scanf_Proof Scanf_Int_Proof.
Open Scope Z_scope.

Lemma collect_ok test f : (forall c, is_byte c -> test c = Ok (f c)) -> forall fuel s0 k s c width acc, At s0 k s c -> (len (left_of s0) < k + fuel)%nat -> 0 <= width ->
  let ds := takewhile f (firstn (Z.to_nat width) (skipn k (left_of s0))) in
  exists c' s', collect fuel test width c acc s = Ok (c', rev ds ++ acc, s') /\ At s0 (k + len ds) s' c'.
Proof.
  intros T. induction fuel as [|fu IH]; intros s0 k s c width acc A F W; cbv zeta.
  - destruct A as (_ & _ & _ & K & _). lia.
  - cbn [collect]. destruct (Z.ltb_spec 0 width) as [W1|W1].
    2:{ replace width with 0 by lia. cbn. rewrite Nat.add_0_r. eauto. }
    destruct (Z.eqb_spec c EOF) as [CE|CE]; cbn [negb andb].
    { destruct (at_eof_done s0 k s c A CE) as [_ Q]. rewrite Q, firstn_nil. cbn. rewrite Nat.add_0_r. eauto. }
    destruct (at_char s0 k s c A CE) as [B Q]. rewrite Q. replace (Z.to_nat width) with (S (Z.to_nat (width - 1))) by lia. cbn [firstn takewhile].
    rewrite (T c B). cbn [bind]. destruct (f c).
    2:{ cbn. rewrite Nat.add_0_r. eauto. }
    destruct (get_next s0 k s c A CE) as (c1 & s1 & E & A1). rewrite E. cbn [bind].
    destruct (IH s0 (k + 1)%nat s1 c1 (width - 1) (c :: acc) A1 ltac:(lia) ltac:(lia)) as (c' & s' & E' & A').
    exists c', s'. rewrite E'. cbn [rev len]. rewrite <- app_assoc. split; [reflexivity|].
    eapply eq_rect with (P := fun n => At s0 n s' c'); [exact A'|]. lia.
Qed.
Lemma match_rev {A B} (l : list A) (x y : B) : match rev l ++ [] with [] => x | _ => y end = match l with [] => x | _ => y end.
Proof.
  rewrite app_nil_r. destruct l as [|a l]; [reflexivity|]. destruct (rev (a :: l)) eqn:E; [|reflexivity]. apply (f_equal (@rev A)) in E. rewrite rev_involutive in E. discriminate.
Qed.
Lemma dropwhile_head f l : match dropwhile f l with c :: _ => f c = false | [] => True end.
Proof. induction l as [|c l IH]; cbn; [exact I|]. destruct (f c) eqn:E; [exact IH|exact E]. Qed.
(** %s *)
Lemma scan_str_ok fuel s width : inv s -> u32 (count s) = count s -> enough fuel s -> (len (peek s) <= 7)%nat -> 0 < width ->
  let t := dropwhile spaceb (left_of s) in
  let w := takewhile (fun c => negb (spaceb c)) (firstn (Z.to_nat width) t) in
  exists s' k, scan_str fuel s width = Ok (match t with [] => (-1, None, s') | _ => (1, Some (Sbytes (w ++ [0])), s') end) /\
    Done s k 1 s' /\ left_of s' = skipn (len w) t.
Proof.
  intros I CU F P7 W t w. unfold scan_str. pose proof (dropwhile_head spaceb (left_of s)) as DH. fold t in DH.
  destruct (skip_ws_ok fuel s I CU F P7) as (s1 & k & E & DD & L & CU1). fold t in L. rewrite E. cbn [bind]. pose proof DD as (I1 & A1 & D1 & K1 & L1 & C1 & P1).
  clearbody t. assert (len (peek s1) <= 7)%nat as P71 by lia. assert (len (left_of s1) < fuel)%nat as F1 by (rewrite L1, skipn_length; unfold enough in F; lia).
  destruct (get_first s1 I1 CU1) as (c & s2 & E2 & A2). rewrite E2. cbn [bind].
  destruct (Z.eqb_spec c EOF) as [CE|CE].
  { destruct (at_eof_done s1 0 s2 c A2 CE) as [D2 Q]. cbn [skipn] in Q. rewrite L in Q. subst w. rewrite Q. exists s2, (k + 0)%nat. split; [reflexivity|].
    split; [now apply Done_trans with s1|]. destruct D2 as (_ & _ & _ & _ & L2 & _). rewrite L2, L, Q, !skipn_nil. reflexivity. }
  destruct (collect_ok (fun c => do b <- isspace c; Ok (b =? 0)) (fun c => negb (spaceb c)) ltac:(intros x Bx; cbv beta; rewrite isspace_byte by exact Bx; cbn [bind]; destruct (spaceb x); reflexivity)
     fuel s1 0%nat s2 c width [] A2 ltac:(lia) ltac:(lia)) as (c' & s3 & E3 & A3). cbn [skipn] in E3, A3. rewrite L in E3, A3. fold w in E3, A3. rewrite E3. cbn [bind].
  destruct (unget s1 _ s3 c' A3 P71) as (s4 & E4 & D4). rewrite E4. cbn [bind].
  destruct (at_char s1 0 s2 c A2 CE) as [B Q]. cbn [skipn] in Q. rewrite L in Q. exists s4, (k + (0 + len w))%nat.
  rewrite (match_rev w). rewrite app_nil_r, rev_involutive. split.
  - destruct t as [|c0 tl]; [discriminate|]. subst w. replace (Z.to_nat width) with (S (Z.to_nat (width - 1))) by lia. cbn [firstn takewhile]. rewrite DH. cbn [negb]. reflexivity.
  - split; [now apply Done_trans with s1|]. destruct D4 as (_ & _ & _ & _ & L4 & _). rewrite L4, L. reflexivity.
Qed.
(** %[ *)
Definition in_map (map : list Z) (negate : bool) (c : Z) : bool := negb (Bool.eqb (existsb (Z.eqb c) map) negate).
Lemma scan_set_ok fuel s width map negate : inv s -> u32 (count s) = count s -> enough fuel s -> (len (peek s) <= 7)%nat -> 0 < width ->
  let t := left_of s in
  let w := takewhile (in_map map negate) (firstn (Z.to_nat width) t) in
  exists s', scan_set_ fuel s width map negate = Ok (match t with [] => (-1, None, s') | _ => match w with [] => (0, None, s') | _ => (1, Some (Sbytes (w ++ [0])), s') end end) /\
    Done s (len w) 1 s'.
Proof.
  intros I CU F P7 W t w. unfold scan_set_. destruct (get_first s I CU) as (c & s2 & E2 & A2). rewrite E2. cbn [bind]. fold t in F.
  destruct (Z.eqb_spec c EOF) as [CE|CE].
  { destruct (at_eof_done s 0 s2 c A2 CE) as [D2 Q]. cbn [skipn] in Q. exists s2. subst w t. rewrite Q, firstn_nil. cbn. auto. }
  destruct (collect_ok (fun c => Ok (negb (Bool.eqb (existsb (Z.eqb (u8 c)) map) negate))) (in_map map negate)
     ltac:(intros x Bx; unfold in_map; replace (u8 x) with x by (unfold u8, is_byte in *; lia); reflexivity)
     fuel s 0%nat s2 c width [] A2 ltac:(unfold enough in F; lia) ltac:(lia)) as (c' & s3 & E3 & A3). cbn [skipn] in E3, A3. fold t w in E3, A3. rewrite E3. cbn [bind].
  destruct (unget s _ s3 c' A3 P7) as (s4 & E4 & D4). rewrite E4. cbn [bind].
  destruct (at_char s 0 s2 c A2 CE) as [B Q]. cbn [skipn] in Q. fold t in Q. exists s4.
  rewrite (match_rev w). rewrite app_nil_r, rev_involutive. split; [rewrite Q; generalize w; intros [|? ?]; reflexivity|exact D4].
Qed.
(** %c *)
Lemma char_loop_ok fuel : forall s0 k s c width acc, At s0 k s c -> (len (left_of s0) < k + fuel)%nat -> 0 < width ->
  let ds := firstn (Z.to_nat width) (skipn k (left_of s0)) in
  exists s', char_loop fuel width c acc s = Ok (rev ds ++ acc, s') /\ Done s0 (k + len ds) 1 s'.
Proof.
  induction fuel as [|fu IH]; intros s0 k s c width acc A F W; cbv zeta.
  - destruct A as (_ & _ & _ & K & _). lia.
  - cbn [char_loop]. replace (0 <? width) with true by lia.
    destruct (Z.eqb_spec c EOF) as [CE|CE]; cbn [negb andb].
    { destruct (at_eof_done s0 k s c A CE) as [D Q]. rewrite Q, firstn_nil. cbn. rewrite Nat.add_0_r. eauto. }
    destruct (at_char s0 k s c A CE) as [B Q]. rewrite Q. replace (Z.to_nat width) with (S (Z.to_nat (width - 1))) by lia. cbn [firstn].
    destruct (Z.leb_spec (width - 1) 0) as [W1|W1].
    { replace (Z.to_nat (width - 1)) with 0%nat by lia. cbn. exists s. split; [reflexivity|]. now apply at_keep with c. }
    destruct (get_next s0 k s c A CE) as (c1 & s1 & E & A1). rewrite E. cbn [bind].
    destruct (IH s0 (k + 1)%nat s1 c1 (width - 1) (c :: acc) A1 ltac:(lia) ltac:(lia)) as (s' & E' & D').
    exists s'. rewrite E'. cbn [rev len]. rewrite <- app_assoc. split; [reflexivity|].
    eapply eq_rect with (P := fun n => Done s0 n 1 s'); [exact D'|]. lia.
Qed.
Lemma scan_chars_ok fuel s width : inv s -> u32 (count s) = count s -> enough fuel s -> 0 < width ->
  let t := left_of s in let w := firstn (Z.to_nat width) t in
  exists s', scan_chars fuel s width = Ok (match t with [] => (-1, None, s') | _ => (1, Some (Sbytes w), s') end) /\ Done s (len w) 1 s'.
Proof.
  intros I CU F W t w. unfold scan_chars. destruct (get_first s I CU) as (c & s2 & E2 & A2). rewrite E2. cbn [bind].
  destruct (Z.eqb_spec c EOF) as [CE|CE].
  { destruct (at_eof_done s 0 s2 c A2 CE) as [D2 Q]. cbn [skipn] in Q. exists s2. subst w t. rewrite Q, firstn_nil. cbn. auto. }
  destruct (char_loop_ok fuel s 0%nat s2 c width [] A2 ltac:(unfold enough in F; lia) W) as (s3 & E3 & D3). cbn [skipn] in E3, D3. fold t w in E3, D3. rewrite E3. cbn [bind].
  destruct (at_char s 0 s2 c A2 CE) as [B Q]. cbn [skipn] in Q. fold t in Q. exists s3. rewrite (match_rev w), app_nil_r, rev_involutive. split; [|exact D3].
  subst w. rewrite Q. replace (Z.to_nat width) with (S (Z.to_nat (width - 1))) by lia. reflexivity.
Qed.

(** ** Scan sets *)
Lemma in_range n : forall lo x, In x (range_ n lo) <-> lo <= x < lo + Z.of_nat n.
Proof. induction n as [|n IH]; intros lo x; cbn; [lia|]. rewrite IH. lia. Qed.
Lemma not_dash {A} (q : list Z) (X : Z -> list Z -> A) (Y : A) : (forall hi r, q <> 45 :: hi :: r) -> match q with 45 :: hi :: r => X hi r | _ => Y end = Y.
Proof.
  intros H. destruct q as [|d q]; [reflexivity|]. destruct d as [|d|d]; try reflexivity. do 6 (destruct d as [d|d|]; try reflexivity). destruct q as [|hi r]; [reflexivity|].
  now destruct (H hi r).
Qed.
Definition dash_start (q : list Z) : Prop := exists hi r, q = 45 :: hi :: r.
Lemma scanset_loop_ok : forall es first map rest fuel, (len (flat_map elem_text es ++ 93%Z :: rest) < fuel)%nat ->
  match es with [] => first = false | e :: r => elem_ok first e /\ Forall (elem_ok false) r end ->
  exists map', scanset_loop fuel first (flat_map elem_text es ++ 93 :: rest) map = Ok (93 :: rest, map') /\
    forall x, In x map' <-> In x map \/ Exists (elem_has x) es.
Proof.
  induction es as [|e es IH]; intros first map rest fuel F H; destruct fuel as [|f]; try lia; cbn [flat_map app scanset_loop].
  - subst first. cbn. exists map. split; [reflexivity|]. intros x. rewrite Exists_nil. tauto.
  - destruct H as [He Hr].
    assert (forall hi r, flat_map elem_text es ++ 93 :: rest <> 45 :: hi :: r) as ND.
    { intros hi r E. destruct es as [|[c|a b] es]; cbn in E; [inversion E| |]; inversion E; subst; inversion Hr as [|? ? HH _]; cbn in HH; lia. }
    assert (match es with [] => false = false | e :: r => elem_ok false e /\ Forall (elem_ok false) r end) as Hn.
    { destruct es as [|e2 es]; [reflexivity|]. inversion Hr; auto. }
    destruct e as [c|a b]; cbn [elem_text app].
    + destruct He as [H45 H93]. replace (first || negb (c =? 93)) with true by (destruct first; cbn; [reflexivity|]; destruct H93; [discriminate|lia]).
      rewrite not_dash by exact ND. destruct (IH false (c :: map) rest f ltac:(cbn in F; lia) Hn) as (map' & E & M). exists map'. split; [exact E|].
      intros x. rewrite M, Exists_cons. cbn. intuition.
    + destruct He as [H45 [Hb H93]]. replace (first || negb (a =? 93)) with true by (destruct first; cbn; [reflexivity|]; destruct H93; [discriminate|lia]).
      replace (b =? 93) with false by lia. cbv zeta.
      destruct (IH false (range_ (Z.to_nat (Z.max a b - Z.min a b + 1)) (Z.min a b) ++ map) rest f ltac:(cbn in F; lia) Hn) as (map' & E & M). exists map'. split; [exact E|].
      intros x. rewrite M, Exists_cons, in_app_iff, in_range. cbn [elem_has]. rewrite Z2Nat.id by lia. intuition lia.
Qed.
Lemma match_94 {A} (q : list Z) (X : list Z -> A) (Y : A) : hd 0 q <> 94 -> match q with 94 :: r => X r | _ => Y end = Y.
Proof. intros H. destruct q as [|d q]; [reflexivity|]. cbn in H. destruct d as [|d|d]; try reflexivity. do 7 (destruct d as [d|d|]; try reflexivity). now destruct H. Qed.
Lemma parse_scanset_ok negate es rest : set_ok negate es ->
  exists map, parse_scanset_ (set_text negate es ++ rest) = Ok (rest, map, negate) /\ forall x, In x map <-> Exists (elem_has x) es.
Proof.
  intros H. unfold parse_scanset_, set_text. destruct es as [|e es]; [destruct H|]. destruct H as (H1 & H2 & H3). rewrite <- !app_assoc. cbn [app].
  assert ((match (if negate then [94] else []) ++ flat_map elem_text (e :: es) ++ 93 :: rest with 94 :: q => (true, q) | _ => (false, (if negate then [94] else []) ++ flat_map elem_text (e :: es) ++ 93 :: rest) end) = (negate, flat_map elem_text (e :: es) ++ 93 :: rest)) as ->.
  { destruct negate; [reflexivity|]. cbn [app]. rewrite match_94; [reflexivity|]. destruct H3 as [H3|H3]; [discriminate|]. destruct e; exact H3. }
  destruct (scanset_loop_ok (e :: es) true [] rest (S (len (flat_map elem_text (e :: es) ++ 93 :: rest))) ltac:(lia) (conj H1 H2)) as (map & E & M).
  rewrite E. cbn [bind]. exists map. split; [reflexivity|]. intros x. rewrite M. cbn. tauto.
Qed.
Lemma in_map_spec map negate es c : (forall x, In x map <-> Exists (elem_has x) es) -> in_map map negate c = true <-> (if negate then ~ Exists (elem_has c) es else Exists (elem_has c) es).
Proof.
  intros M. unfold in_map. assert (existsb (Z.eqb c) map = true <-> Exists (elem_has c) es) as X.
  { rewrite <- M, existsb_exists. split; [intros (y & Hy & E); apply Z.eqb_eq in E; now subst|]. intros Hc. exists c. split; [exact Hc|apply Z.eqb_refl]. }
  destruct (existsb (Z.eqb c) map), negate; cbn; intuition discriminate.
Qed.

(** ** Formats of several conversions *)
Lemma takewhile_firstn f ds : forall r n, Forall (fun c => f c = true) ds -> match r with c :: _ => f c = false | [] => True end -> (len ds <= n)%nat ->
  takewhile f (firstn n (ds ++ r)) = ds.
Proof.
  induction ds as [|d ds IH]; intros r n F R L; cbn [app].
  - destruct n as [|n]; [reflexivity|]. destruct r as [|c r]; [reflexivity|]. cbn. now rewrite R.
  - destruct n as [|n]; [cbn in L; lia|]. inversion F as [|? ? F1 F2]; subst. cbn [firstn takewhile]. rewrite F1. f_equal. apply IH; auto. cbn in L. lia.
Qed.
Lemma dec_digitb c : digitb 10 c = true <-> 48 <= c <= 57.
Proof.
  unfold digitb, digit_value. destruct (Z.leb_spec 48 c), (Z.leb_spec c 57), (Z.leb_spec 97 c), (Z.leb_spec c 122), (Z.leb_spec 65 c), (Z.leb_spec c 90); cbn; lia.
Qed.
Lemma int_item_dec sg ds r n : sg = [] \/ sg = [43] \/ sg = [45] -> ds <> [] -> Forall (fun c => 48 <= c <= 57) ds ->
  match r with c :: _ => ~ 48 <= c <= 57 | [] => True end -> (len sg + len ds <= n)%nat ->
  int_item 10 (firstn n (sg ++ ds ++ r)) = mk_item sg [] ds 10.
Proof.
  intros SG ND FD R N. destruct ds as [|d ds]; [contradiction|].
  assert (forall m, (len (d :: ds) <= m)%nat -> core 10 (firstn m ((d :: ds) ++ r)) = ([], d :: ds, 10)) as C.
  { intros m M. unfold core, hex_prefixed. cbn [Z.eqb Pos.eqb orb andb]. rewrite takewhile_firstn; [reflexivity| |destruct r as [|c r]; [exact I|]; destruct (digitb 10 c) eqn:E; [apply dec_digitb in E; tauto|reflexivity]|exact M].
    eapply Forall_impl; [|exact FD]. intros c Hc. now apply dec_digitb. }
  pose proof (int_item_core 10 (firstn n (sg ++ (d :: ds) ++ r))) as IC.
  assert (split_sign (firstn n (sg ++ (d :: ds) ++ r)) = (sg, firstn (n - len sg) ((d :: ds) ++ r))) as SS.
  { destruct SG as [->|SG].
    - cbn [app len]. rewrite Nat.sub_0_r. destruct n as [|n]; [cbn in N; lia|]. cbn [firstn split_sign]. inversion FD as [|? ? Fd _]; subst.
      replace ((d =? 43) || (d =? 45)) with false by lia. reflexivity.
    - destruct n as [|n]; [cbn in N; lia|]. destruct SG as [->| ->]; cbn [app firstn split_sign Z.eqb Pos.eqb orb len]; now rewrite Nat.sub_succ, Nat.sub_0_r. }
  rewrite SS in IC. rewrite C in IC by lia. exact IC.
Qed.
Lemma dropwhile_app f ws t : Forall (fun c => f c = true) ws -> match t with c :: _ => f c = false | [] => True end -> dropwhile f (ws ++ t) = t.
Proof. intros F H. induction F as [|c ws Hc F IH]; cbn; [destruct t; [reflexivity|cbn; now rewrite H]|]. now rewrite Hc. Qed.
Lemma one_number fuel s n R : inv s -> u32 (count s) = count s -> enough fuel s -> (len (peek s) <= 3)%nat -> left_of s = number_text n ++ R -> number_ok n ->
  match R with c :: _ => ~ 48 <= c <= 57 | [] => True end ->
  exists s', scan_int fuel s INT_MAX 10 true 0 = Ok (1, Some (Sint 4 (number_value n)), s') /\ Done s (len (number_text n)) 1 s' /\ left_of s' = R.
Proof.
  intros I CU F P3 LE NO HR. destruct n as [[ws sg] ds]. cbn [number_text] in LE. destruct NO as (HW & SG & ND & FD & L126 & V).
  assert (dropwhile spaceb (left_of s) = sg ++ ds ++ R) as DW.
  { rewrite LE, <- !app_assoc. apply dropwhile_app; [exact HW|]. destruct SG as [->|[->| ->]]; [|reflexivity|reflexivity]. destruct ds as [|d ds]; [contradiction|].
    inversion FD; subst. cbn. unfold spaceb. lia. }
  assert (exists m, Z.to_nat INT_MAX = (200 + m)%nat) as (m & EM) by (exists (Z.to_nat (INT_MAX - 200)); unfold INT_MAX; lia).
  assert (len sg <= 1)%nat as LSG by (destruct SG as [->|[->| ->]]; cbn; lia).
  pose proof (int_item_dec sg ds R (Z.to_nat INT_MAX) SG ND FD HR ltac:(lia)) as II. rewrite <- DW in II.
  assert (item_value (mk_item sg [] ds 10) = number_value (ws, sg, ds)) as VV.
  { unfold item_value, magnitude, number_value. cbn [isign idigits ibase]. destruct sg as [|c q]; [lia|]. destruct (c =? 45); lia. }
  destruct (scan_int_ok fuel s INT_MAX 10 true 0 I CU F ltac:(lia) ltac:(unfold INT_MAX; lia) ltac:(lia)) as (s' & k & E & DD & L).
  - rewrite DW. unfold head_length. destruct (split_sign (sg ++ ds ++ R)) as [a b] eqn:SS.
    assert (len a <= 1)%nat by (unfold split_sign in SS; destruct (sg ++ ds ++ R) as [|c q]; [inversion SS; cbn; lia|]; destruct (_ || _); inversion SS; cbn; lia).
    unfold hex_prefixed. cbn [Z.eqb Pos.eqb orb andb]. unfold INT_MAX. destruct b as [|z b]; [lia|]. destruct (z =? 48); lia.
  - rewrite II. unfold item_text. cbn [isign iprefix idigits app]. rewrite app_length. lia.
  - intros _. rewrite II, VV. lia.
  - rewrite II in E, L. cbn [idigits] in E. rewrite DW in E, L.
    assert (L' : left_of s' = R).
    { rewrite L. unfold item_text. cbn [isign iprefix idigits app]. rewrite app_assoc, skipn_app, skipn_all, Nat.sub_diag. reflexivity. }
    exists s'. split; [|split; [|exact L']].
    + rewrite E. destruct (sg ++ ds ++ R) as [|c0 q0] eqn:EQ; [destruct sg; [destruct ds; [contradiction|discriminate]|discriminate]|].
      destruct ds as [|d ds]; [contradiction|]. unfold converted. change (object_bits 0) with 32. rewrite VV. change (32 / 8) with 4.
      rewrite Z.min_l, Z.max_r by lia. rewrite sgn_id by lia. reflexivity.
    + destruct DD as (D1 & D2 & D3 & D4 & D5 & D6). assert (k = len (number_text (ws, sg, ds))) as ->; [|repeat (split; [assumption|]); exact D6].
      apply (f_equal (@len Z)) in D5. rewrite L', skipn_length, LE, app_length in D5. rewrite LE, app_length in D4. cbn [number_text] in *. lia.
Qed.
Definition dirs (n : nat) : list Z := concat (repeat [37; 100] n).
Lemma dir_step ff fuel q nargs arg assigned out s : scan_loop (S ff) fuel (37 :: 100 :: q) nargs arg assigned out s =
  (do arg' <- (if nargs <=? arg then UB else Ok (arg + 1));
   do (r, o, s) <- scan_int fuel s INT_MAX 10 true 0;
   let out := match o with Some x => (arg, x) :: out | None => out end in
   if r =? -1 then Ok (if assigned =? 0 then EOF else assigned, rev out, s)
   else if r =? 0 then Ok (assigned, rev out, s)
   else scan_loop ff fuel q nargs arg' (if (r =? 1) && true then assigned + 1 else assigned) out s).
Proof.
  cbn [scan_loop]. replace (isspace 37) with (@Ok Z 0) by reflexivity. cbn [bind Z.eqb negb]. change (37 =? 37) with true. cbn [negb width_].
  change ((48 <=? 100) && (100 <=? 57)) with false. cbv beta iota. cbn [bind]. change (0 =? 0) with true. cbv beta iota zeta.
  replace (length_ (100 :: q)) with 0 by reflexivity. change (Z.to_nat (Z.land 0 3)) with 0%nat. cbn [skipn]. change (s8 100) with 100.
  destruct (nargs <=? arg); [reflexivity|]. cbn [bind]. unfold convert. change (100 =? 100) with true. cbv beta iota zeta.
  destruct (scan_int fuel s INT_MAX 10 true 0) as [[[r o] s']| |]; reflexivity.
Qed.
Lemma numbers_ok ns : forall ff fuel tail fmt nargs arg assigned out s, inv s -> u32 (count s) = count s -> enough fuel s -> (len (peek s) <= 3)%nat ->
  left_of s = flat_map number_text ns ++ tail -> Forall number_ok ns -> separated ns tail -> arg + Z.of_nat (len ns) <= nargs ->
  exists s', scan_loop (len ns + ff) fuel (dirs (len ns) ++ fmt) nargs arg assigned out s =
    scan_loop ff fuel fmt nargs (arg + Z.of_nat (len ns)) (assigned + Z.of_nat (len ns)) (rev (stored_from arg ns) ++ out) s' /\
    Done s (len (flat_map number_text ns)) 1 s' /\ left_of s' = tail.
Proof.
  induction ns as [|n ns IH]; intros ff fuel tail fmt nargs arg assigned out s I CU F P3 LE NO SEP NA.
  - exists s. cbn [len Nat.add dirs repeat concat app stored_from rev flat_map]. rewrite !Z.add_0_r. split; [reflexivity|]. split; [|exact LE].
    split; [exact I|]. split; [apply adv_refl|]. split; [reflexivity|]. split; [lia|]. split; [reflexivity|]. split; [rewrite <- CU at 1; f_equal; lia|lia].
  - inversion NO as [|? ? N1 N2]; subst. destruct SEP as [S1 S2]. cbn [flat_map] in LE. rewrite <- app_assoc in LE.
    destruct (one_number fuel s n _ I CU F P3 LE N1 S1) as (s1 & E1 & D1 & L1). pose proof D1 as (I1 & A1 & _ & K1 & LL & C1 & P1).
    change (dirs (len (n :: ns)) ++ fmt) with (37 :: 100 :: (dirs (len ns) ++ fmt)). cbn [len Nat.add]. cbn [len] in NA. rewrite dir_step.
    replace (nargs <=? arg) with false by lia. cbn [bind]. rewrite E1. cbn [bind]. cbv zeta. change (1 =? -1) with false. change (1 =? 0) with false. change ((1 =? 1) && true) with true. cbv iota.
    destruct (IH ff fuel tail fmt nargs (arg + 1) (assigned + 1) ((arg, Sint 4 (number_value n)) :: out) s1) as (s2 & E2 & D2 & L2); auto; try lia.
    { rewrite C1. apply u32_idem. }
    { unfold enough in *. rewrite LL, skipn_length. lia. }
    exists s2. rewrite E2. split; [|split; [|exact L2]].
    + cbn [stored_from rev]. rewrite <- app_assoc. f_equal; lia.
    + cbn [flat_map]. rewrite app_length. now apply Done_trans with s1.
Qed.
