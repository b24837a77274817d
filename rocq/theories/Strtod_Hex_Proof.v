(** strtod: hexadecimal constants. *)
From Coq Require Import Reals Lra.
From Flocq Require Import Core.
From Verif Require Import Base Bits FP FP_Proof Rne Midpoint Ctype_Spec Stdlib_Spec Stdlib_Model Stdlib_Proof HW HW_Proof Math_Model Strtod_Spec Strtod_Model Strtod_Parse_Proof Strtod_Proof.
Open Scope Z_scope.
Local Ltac Zify.zify_post_hook ::= idtac.

(** ** digits *)
Definition dv (c : Z) : Z := match digit_value c with Some d => d | None => 0 end.
Lemma hex_dv c : hex_char c -> 0 <= dv c < 16 /\ digit_value c = Some (dv c).
Proof. intros (d & E & L). unfold dv. rewrite E. pose proof (digit_value_range c d E). split; [lia|reflexivity]. Qed.
Lemma hex_byte c : hex_char c -> is_byte c.
Proof. intros (d & E & L). revert E. unfold digit_value, is_byte. ifs; intros; try discriminate; lia. Qed.
Lemma Forall_hex_byte l : Forall hex_char l -> Forall is_byte l.
Proof. apply Forall_impl. exact hex_byte. Qed.
Lemma hex_zero c : hex_char c -> dv c = 0 -> c = 48.
Proof. intros H. destruct (hex_dv c H) as [_ E]. intros Z0. rewrite Z0 in E. revert E. unfold digit_value. ifs; intros E; try discriminate; injection E; lia. Qed.
Lemma hex_acc ds : forall acc, digits_value 16 acc ds = acc * 16^(len ds) + hexnum ds.
Proof.
  unfold hexnum. induction ds as [|c ds IH]; intros acc; cbn [digits_value length]; [cbn; lia|].
  rewrite IH. rewrite (IH (0 * 16 + _)). rewrite Nat2Z.inj_succ, Z.pow_succ_r by lia. ring.
Qed.
Lemma hexnum_app a b : hexnum (a ++ b) = hexnum a * 16^(len b) + hexnum b.
Proof.
  unfold hexnum at 1.
  assert (G : forall l acc, digits_value 16 acc (l ++ b) = digits_value 16 (digits_value 16 acc l) b) by (induction l as [|c l IH]; intros acc; cbn [app digits_value]; auto).
  rewrite G. apply hex_acc.
Qed.
Lemma hexnum_1 c : hexnum [c] = dv c. Proof. unfold hexnum, dv. cbn [digits_value]. lia. Qed.
Lemma hexnum_bound ds : Forall hex_char ds -> 0 <= hexnum ds < 16^(len ds).
Proof.
  induction 1 as [|c ds Hc Hds IH]; [cbn; lia|]. change (c :: ds) with ([c] ++ ds). rewrite hexnum_app, hexnum_1.
  destruct (hex_dv c Hc) as [B _]. cbn [app length]. rewrite Nat2Z.inj_succ, Z.pow_succ_r by lia. nia.
Qed.
Lemma hexnum_zeros a ds : hexnum (repeat 48 a ++ ds) = hexnum ds.
Proof. induction a as [|a IH]; [reflexivity|]. cbn [repeat app]. change (48 :: repeat 48 a ++ ds) with ([48] ++ (repeat 48 a ++ ds)). rewrite hexnum_app, IH. change (hexnum [48]) with 0. lia. Qed.
Lemma split_hex l : Forall hex_char l -> exists a l', l = repeat 48 a ++ l' /\ Forall hex_char l' /\ (l' = [] \/ exists c t, l' = c :: t /\ c <> 48).
Proof.
  induction 1 as [|c l Hc Hl (a & l' & E & F & D)]; [exists O, []; auto|].
  destruct (Z.eq_dec c 48) as [->|N].
  - exists (S a), l'. rewrite E. auto.
  - exists O, (c :: l). repeat split; [constructor; auto|right; eauto].
Qed.
Lemma hexnum_pos c t : hex_char c -> Forall hex_char t -> c <> 48 -> 16^(len t) <= hexnum (c :: t).
Proof.
  intros Hc Ht N. change (c :: t) with ([c] ++ t). rewrite hexnum_app, hexnum_1. destruct (hex_dv c Hc) as [B _].
  assert (dv c <> 0) by (intros Q; apply N, hex_zero; assumption).
  pose proof (hexnum_bound t Ht) as [Q1 Q2]. assert (0 < 16^(len t)) by (apply Z.pow_pos_nonneg; lia). nia.
Qed.
Lemma hexnum_0 l : Forall hex_char l -> hexnum l = 0 -> exists a, l = repeat 48 a.
Proof.
  intros Hl N. destruct (split_hex l Hl) as (a & l' & E & F & [->|(c & t & -> & Nc)]); [exists a; rewrite app_nil_r in E; exact E|].
  exfalso. rewrite E, hexnum_zeros in N. inversion F; subst. pose proof (hexnum_pos c t ltac:(assumption) ltac:(assumption) Nc). assert (0 < 16^(len t)) by (apply Z.pow_pos_nonneg; lia). lia.
Qed.
Lemma hex_lt c : is_byte c -> (digit_ (u32 (s8 c)) <? 16) = true <-> hex_char c.
Proof.
  intros B. rewrite digit_byte by exact B. unfold hex_char, is_digit. destruct (digit_value c) as [d|]; split; intros H.
  - exists d. split; [reflexivity|lia].
  - destruct H as (d' & E & L). injection E as ->. lia.
  - exfalso. lia.
  - destruct H as (d' & E & L). discriminate.
Qed.

(** ** the exponent *)
Lemma letter_p c : is_byte c -> (Z.lor (s8 c) 32 =? 112) = ((c =? 112) || (c =? 80)).
Proof.
  intros H. apply eqb_prop. revert c H.
  apply (byte_forall (fun c => Bool.eqb (Z.lor (s8 c) 32 =? 112) ((c =? 112) || (c =? 80)))). vm_compute. reflexivity.
Qed.
Definition pexp_starts (s : list Z) : Prop := exists c sg d t, s = c :: sg ++ d :: t /\ (c = 112 \/ c = 80) /\ (sg = [] \/ sg = [43] \/ sg = [45]) /\ dec_char d.
Lemma parseexp_pe c t k e : is_byte c -> (c = 112 \/ c = 80) -> parseexp 112 (c :: t) k e = parseexp 101 (101 :: t) k e.
Proof. intros B H. cbn [parseexp]. rewrite letter_p by exact B. replace ((c =? 112) || (c =? 80)) with true by lia. reflexivity. Qed.
Lemma parsep_none s k e : Forall is_byte s -> ~ pexp_starts s -> parseexp 112 s k e = (0, e).
Proof.
  intros Hb Hs. destruct s as [|x t]; [reflexivity|]. inversion Hb; subst. destruct ((x =? 112) || (x =? 80)) eqn:L.
  - rewrite parseexp_pe by (assumption || lia). apply parseexp_none; [constructor; [unfold is_byte; lia|assumption]|].
    intros (c & sg & d & u & E & Hc & R). injection E as E1 E2. apply Hs. exists x, sg, d, u. rewrite E2. split; [reflexivity|]. split; [lia|exact R].
  - cbn [parseexp]. rewrite letter_p by assumption. rewrite L. reflexivity.
Qed.
Lemma parsep_some c sg ds rest k e : (c = 112 \/ c = 80) -> (sg = [] \/ sg = [43] \/ sg = [45]) -> Forall dec_char ds -> ds <> [] ->
  Forall is_byte rest -> ~ starts dec_char rest ->
  parseexp 112 (c :: sg ++ ds ++ rest) k e = (match sg with [45] => -1 | _ => 1 end * cap_exp (num ds), k + len (c :: sg ++ ds)).
Proof. intros Hc ? ? ? ? ?. rewrite parseexp_pe by (unfold is_byte; lia). rewrite parseexp_some by auto. reflexivity. Qed.

(** ** the digit loop *)
Section Hex.
Variables w cap : Z.
Hypothesis Hw : w - 4 * cap = 0.
Lemma Ew : w = 4 * cap. Proof. lia. Qed.
Hypothesis Hcap : 0 < cap.
Notation ncap := (Z.to_nat cap).
Definition hor (x : Z) (l : list Z) : Z := fold_left (fun a c => Z.lor a (dv c)) l x.
Definition hmant (ds : list Z) : Z := hor (hexnum (firstn ncap ds)) (skipn ncap ds).
Definition hst (ds : list Z) (pos : Z) (ptd : bool) : scan := mk_scan (hmant ds) false (len ds) pos ptd.
Lemma hor_app x a b : hor x (a ++ b) = hor (hor x a) b. Proof. apply fold_left_app. Qed.
Lemma lor_nibble a b : 0 <= a -> 0 <= b < 16 -> Z.lor a b / 16 = a / 16 /\ Z.lor a b mod 16 = Z.lor (a mod 16) b /\ 0 <= Z.lor a b.
Proof.
  intros Ha Hb. assert (E : Z.lor a b = a / 16 * 16 + Z.lor (a mod 16) b /\ 0 <= Z.lor (a mod 16) b < 16).
  { assert (B : 0 <= Z.lor (a mod 16) b < 16).
    { split; [apply Z.lor_nonneg; split; [apply Z.mod_pos_bound; lia|lia]|]. pose proof (Z.mod_pos_bound a 16 ltac:(lia)) as M.
      assert (T : forall v, 0 < v -> (Z.log2 v < 4 <-> v < 16)) by (intros v Hv; change 16 with (2^4); symmetry; apply Z.log2_lt_pow2; assumption).
      assert (NN : 0 <= Z.lor (a mod 16) b) by (apply Z.lor_nonneg; lia).
      destruct (Z.eq_dec (Z.lor (a mod 16) b) 0) as [->|N]; [lia|]. apply T; [lia|]. rewrite Z.log2_lor by lia. apply Z.max_lub_lt.
      - destruct (Z.eq_dec (a mod 16) 0) as [->|]; [cbn; lia|]. apply T; lia.
      - destruct (Z.eq_dec b 0) as [->|]; [cbn; lia|]. apply T; lia. }
    split; [|exact B]. pose proof (Z.mod_pos_bound a 16 ltac:(lia)) as M. pose proof (Z.div_pos a 16 Ha ltac:(lia)) as D.
    pose proof (lor_mul_low (Z.lor (a mod 16) b) (a / 16) 4 ltac:(lia) ltac:(lia)) as Q1. pose proof (lor_mul_low (a mod 16) (a / 16) 4 ltac:(lia) ltac:(lia)) as Q2. change (2^4) with 16 in *.
    rewrite <- Q1, Z.lor_assoc, Q2. f_equal. rewrite Z.mul_comm. apply Z.div_mod. lia. }
  destruct E as [E B]. rewrite E. split; [|split].
  - rewrite Z.add_comm, Z.div_add by lia. rewrite Z.div_small by lia. lia.
  - rewrite Z.add_comm, Z.mod_add by lia. apply Z.mod_small. lia.
  - pose proof (Z.div_pos a 16 Ha ltac:(lia)). lia.
Qed.
Lemma hor_spec l : Forall hex_char l -> forall x, 0 <= x -> hor x l / 16 = x / 16 /\ 0 <= hor x l /\ (hexnum l = 0 -> hor x l = x) /\ (hor x l mod 16 = 0 <-> x mod 16 = 0 /\ hexnum l = 0).
Proof.
  induction 1 as [|c l Hc Hl IH]; intros x Hx; [cbn; repeat split; try tauto; lia|].
  change (hor x (c :: l)) with (hor (Z.lor x (dv c)) l). destruct (hex_dv c Hc) as [B _]. destruct (lor_nibble x (dv c) Hx B) as (L1 & L2 & L3).
  destruct (IH _ L3) as (I1 & I2 & I3 & I4). change (c :: l) with ([c] ++ l). rewrite hexnum_app, hexnum_1. pose proof (hexnum_bound l Hl) as HB.
  assert (P : 0 < 16^(len l)) by (apply Z.pow_pos_nonneg; lia).
  assert (Z0 : dv c * 16^(len l) + hexnum l = 0 <-> dv c = 0 /\ hexnum l = 0) by (split; [intros; nia|intros [-> ->]; lia]).
  split; [congruence|]. split; [exact I2|]. split.
  - intros Q. apply Z0 in Q. destruct Q as [Q1 Q2]. rewrite I3, Q1 by exact Q2. apply Z.lor_0_r.
  - rewrite I4, L2, Z.lor_eq_0_iff, Z0. tauto.
Qed.
Lemma hex_step c t k e ds pos ptd : Forall hex_char ds -> hex_char c -> len ds < 2^31 - 1 ->
  hex_loop w cap (c :: t) k e (hst ds pos ptd) = hex_loop w cap t (k + 1) (k + 1) (hst (ds ++ [c]) pos ptd).
Proof.
  intros Hd Hc Hl. cbn [hex_loop]. pose proof (hex_byte c Hc) as Bc. rewrite (proj2 (hex_lt c Bc) Hc). destruct (hex_dv c Hc) as [B E].
  rewrite digit_byte, E by exact Bc. cbn [sconsumed sx strunc sposition spointed hst]. rewrite chk_i32_ok by (unfold INT_MIN, INT_MAX; lia). cbn [bind].
  unfold hst. rewrite app_length. cbn [length]. replace (Z.of_nat (length ds + 1)) with (len ds + 1) by lia. do 2 f_equal. unfold hmant.
  destruct (Z.ltb_spec (len ds) cap) as [L|L]; cbn [b2z].
  - rewrite !firstn_all2, !skipn_all2 by (rewrite ?app_length; cbn [length]; lia). cbn [hor fold_left]. change (hor ?x []) with x. rewrite hexnum_app, hexnum_1. cbn [length]. change (16^(Z.of_nat 1)) with 16.
    pose proof (hexnum_bound ds Hd) as HB. change (4 * 1) with 4. rewrite Z.shiftl_mul_pow2 by lia. change (2^4) with 16 at 1.
    assert (H : 16^(len ds) * 16 <= 2^w).
    { rewrite Ew, Z.pow_mul_r by lia. change (2^4) with 16. replace 16 with (16^1) at 2 by reflexivity. rewrite <- Z.pow_add_r by lia. apply Z.pow_le_mono_r; lia. }
    rewrite Z.mod_small by nia. change 16 with (2^4). apply lor_mul_low; lia.
  - rewrite firstn_app, skipn_app. replace (ncap - length ds)%nat with O by lia. cbn [firstn skipn]. rewrite app_nil_r, hor_app. cbn [hor fold_left].
    change (4 * 0) with 0. rewrite Z.shiftl_0_r.
    assert (HM : 0 <= hor (hexnum (firstn ncap ds)) (skipn ncap ds) < 2^w).
    { assert (D1 : Forall hex_char (firstn ncap ds)) by (apply Forall_firstn; exact Hd).
      assert (D2 : Forall hex_char (skipn ncap ds)) by (rewrite <- (firstn_skipn ncap ds) in Hd; apply Forall_app in Hd; apply Hd).
      pose proof (hexnum_bound _ D1) as HB. destruct (hor_spec _ D2 (hexnum (firstn ncap ds)) ltac:(lia)) as (S1 & S2 & _). split; [exact S2|].
      assert (FL : len (firstn ncap ds) = cap) by (rewrite firstn_length; lia). rewrite FL in HB.
      assert (E16 : 2^w = 16^(cap - 1) * 16). { rewrite Ew, Z.pow_mul_r by lia. change (2^4) with 16. replace 16 with (16^1) at 3 by reflexivity. rewrite <- Z.pow_add_r by lia. f_equal. lia. }
      assert (E17 : 16^cap = 16^(cap-1) * 16) by (rewrite <- E16, Ew, Z.pow_mul_r by lia; reflexivity).
      assert (hexnum (firstn ncap ds) / 16 < 16^(cap - 1)) by (apply Z.div_lt_upper_bound; lia).
      rewrite <- S1 in H. pose proof (Z.div_mod (hor (hexnum (firstn ncap ds)) (skipn ncap ds)) 16 ltac:(lia)). pose proof (Z.mod_pos_bound (hor (hexnum (firstn ncap ds)) (skipn ncap ds)) 16 ltac:(lia)). lia. }
    rewrite Z.mod_small by exact HM. reflexivity.
Qed.
Lemma hex_digits l : forall s k e ds pos ptd, Forall hex_char l -> Forall hex_char ds -> len ds + len l < 2^31 ->
  hex_loop w cap (l ++ s) k e (hst ds pos ptd) = hex_loop w cap s (k + len l) (if l then e else k + len l) (hst (ds ++ l) pos ptd).
Proof.
  induction l as [|c l IH]; intros s k e ds pos ptd Hl Hd HL.
  - cbn [app length]. rewrite app_nil_r. replace (k + Z.of_nat 0) with k by lia. reflexivity.
  - inversion Hl as [|? ? Hc Hl']; subst. cbn [app length] in *. rewrite hex_step by (assumption || lia).
    rewrite IH by (try apply Forall_app; auto; rewrite ?app_length; cbn [length]; lia). rewrite <- app_assoc. cbn [app].
    replace (k + 1 + len l) with (k + Z.of_nat (S (length l))) by lia. destruct l; [|reflexivity]. cbn [length]. do 2 f_equal; lia.
Qed.
Lemma hex_point t k e ds pos : hex_loop w cap (46 :: t) k e (hst ds pos false) = hex_loop w cap t (k + 1) (k + 1) (hst ds (len ds) true).
Proof. cbn [hex_loop]. replace (digit_ (u32 (s8 46)) <? 16) with false by (vm_compute; reflexivity). change (s8 46 =? 46) with true. reflexivity. Qed.
Lemma hex_stop s k e st : Forall is_byte s -> ~ starts hex_char s -> (~ starts (eq 46) s \/ spointed st = true) -> hex_loop w cap s k e st = Ok (s, k, e, st).
Proof.
  intros Hb Hs Hp. destruct s as [|c s]; [reflexivity|]. cbn [hex_loop starts] in *. inversion Hb; subst.
  destruct (digit_ (u32 (s8 c)) <? 16) eqn:Q; [apply hex_lt in Q; [contradiction|assumption]|]. rewrite s8_eq by (assumption || lia).
  replace ((c =? 46) && negb (spointed st)) with false; [reflexivity|]. destruct Hp as [Hp|Hp]; [|rewrite Hp, andb_false_r; reflexivity].
  destruct (Z.eqb_spec c 46); [exfalso; apply Hp; congruence|reflexivity].
Qed.

Definition hmant_end (dot s : list Z) : Prop := ~ starts hex_char s /\ (dot = [] -> ~ starts (eq 46) s).
Lemma not48 s : ~ starts hex_char s -> ~ starts (eq 48) s.
Proof. destruct s as [|c s]; cbn [starts]; [auto|]. intros H <-. apply H. exists 0. split; [reflexivity|lia]. Qed.
Lemma parsehex_gen ip dot fp s k x e' :
  Forall hex_char ip -> Forall hex_char fp -> (dot = [] /\ fp = [] \/ dot = [46]) -> ip ++ fp <> [] ->
  Forall is_byte s -> hmant_end dot s ->
  (forall e1, (e1 = k + len (ip ++ dot ++ fp) \/ e1 = k + len (ip ++ dot ++ fp) - 1 /\ fp = [] /\ dot = [46] /\ hexnum ip = 0) ->
     parseexp 112 s (k + len (ip ++ dot ++ fp)) e1 = (x, e' e1)) ->
  4 * (len (ip ++ fp) + cap) + Z.abs x < 2^31 - 100 ->
  exists ds e1, parsehex w cap (ip ++ dot ++ fp ++ s) k = Ok (hmant ds, 4 * (len ds - len fp - Z.min cap (len ds)) + x, e' e1) /\
    (exists z, ip ++ fp = repeat 48 z ++ ds) /\ (ds = [] \/ exists c t, ds = c :: t /\ c <> 48) /\
    (e1 = k + len (ip ++ dot ++ fp) \/ e1 = k + len (ip ++ dot ++ fp) - 1 /\ fp = [] /\ dot = [46] /\ hexnum ip = 0).
Proof.
  intros Hi Hf Hdot Hne Hb [He1 He2] Hx HL. set (e := k - 1).
  destruct (split_hex ip Hi) as (a & i' & Ei & Fi & Di).
  assert (Bf : Forall is_byte (fp ++ s)) by (apply Forall_app; split; [apply Forall_hex_byte; exact Hf|exact Hb]).
  assert (Bdf : Forall is_byte (dot ++ fp ++ s)).
  { apply Forall_app. split; [|exact Bf]. destruct Hdot as [[-> _]| ->]; repeat constructor; unfold is_byte; lia. }
  assert (Lip : len ip = Z.of_nat a + len i') by (rewrite Ei, app_length, repeat_length; lia).
  rewrite app_length in HL. pose proof (not48 s He1) as N48.
  assert (Z1 : zeros (ip ++ dot ++ fp ++ s) k e = (i' ++ dot ++ fp ++ s, k + Z.of_nat a, if (a =? 0)%nat then e else k + Z.of_nat a)).
  { rewrite Ei, <- app_assoc. apply zeros_ok; [apply Forall_app; split; [apply Forall_hex_byte; exact Fi|exact Bdf]|].
    destruct Di as [->|(c & t & -> & N)]; cbn [app]; [|cbn [starts]; intros <-; congruence].
    destruct Hdot as [[-> ->]| ->]; cbn [app starts]; [exact N48|lia]. }
  unfold parsehex. fold e. rewrite Z1.
  assert (H0 : forall p b, mk_scan 0 false 0 p b = hst [] p b) by (intros; unfold hst, hmant; rewrite firstn_nil, skipn_nil; reflexivity).
  destruct Di as [->|(c & t & E & N)].
  - cbn [app]. rewrite app_nil_r in Ei. cbn [length] in Lip.
    assert (NI : hexnum ip = 0). { rewrite Ei. rewrite <- (app_nil_r (repeat 48 a)). rewrite hexnum_zeros. reflexivity. }
    destruct Hdot as [[-> ->]| ->].
    + cbn [app] in *. rewrite app_nil_r in Hne. assert (A0 : (a =? 0)%nat = false) by (apply Nat.eqb_neq; intros ->; apply Hne; exact Ei).
      rewrite A0. exists [], (k + Z.of_nat a).
      assert (M : (match s with [] => Ok (s, k + Z.of_nat a, k + Z.of_nat a, 0, false) | c :: t => if s8 c =? 46 then do (s', k', e', p) <- point_zeros t (k + Z.of_nat a + 1) (k + Z.of_nat a) 0; Ok (s', k', e', p, true) else Ok (s, k + Z.of_nat a, k + Z.of_nat a, 0, false) end) = Ok (s, k + Z.of_nat a, k + Z.of_nat a, 0, false)).
      { destruct s as [|y r]; [reflexivity|]. inversion Hb; subst. rewrite s8_eq by (assumption || lia). cbn [starts] in He2.
        destruct (Z.eqb_spec y 46); [exfalso; apply (He2 eq_refl); congruence|reflexivity]. }
      rewrite M. cbn [bind].
      rewrite H0, hex_stop by (auto). cbn [bind spointed sconsumed hst sposition length].
      rewrite app_nil_r in Hx.
      assert (K : k + Z.of_nat a = k + len ip) by lia. rewrite K. rewrite Hx by (left; reflexivity).
      cbn [length] in *. rewrite chk_i32_ok by (unfold INT_MIN, INT_MAX; lia). cbn [bind]. rewrite chk_i32_ok by (unfold INT_MIN, INT_MAX; lia). cbn [bind].
      split; [do 3 f_equal; lia|]. split; [exists a; rewrite !app_nil_r; exact Ei|]. split; [left; reflexivity|].
      left. rewrite app_nil_r. reflexivity.
    + destruct (split_hex fp Hf) as (b & f' & Ef & Ff & Df). cbn [app]. change (s8 46 =? 46) with true. cbv iota.
      assert (Lfp : len fp = Z.of_nat b + len f') by (rewrite Ef, app_length, repeat_length; lia).
      assert (Z2 : point_zeros (fp ++ s) (k + Z.of_nat a + 1) (if (a =? 0)%nat then e else k + Z.of_nat a) 0 =
        Ok (f' ++ s, k + Z.of_nat a + 1 + Z.of_nat b, (if (b =? 0)%nat then (if (a =? 0)%nat then e else k + Z.of_nat a) else k + Z.of_nat a + 1 + Z.of_nat b), 0 - Z.of_nat b)).
      { rewrite Ef, <- app_assoc. apply point_zeros_ok; try lia; [apply Forall_app; split; [apply Forall_hex_byte; exact Ff|exact Hb]|].
        destruct Df as [->|(y & r & -> & N)]; cbn [app starts]; [exact N48|intros <-; congruence]. }
      rewrite Z2. cbn [bind].
      rewrite H0, hex_digits by (auto; cbn [length]; lia). rewrite hex_stop by (auto). cbn [bind spointed sconsumed hst sposition app].
      assert (LT : len (ip ++ [46] ++ fp) = Z.of_nat a + 1 + Z.of_nat b + len f') by (rewrite !app_length; cbn [length]; lia).
      replace (k + Z.of_nat a + 1 + Z.of_nat b + len f') with (k + len (ip ++ [46] ++ fp)) by lia.
      match goal with |- context [parseexp 112 s _ ?E1] => set (e1 := E1) end.
      assert (HE1 : e1 = k + len (ip ++ [46] ++ fp) \/ e1 = k + len (ip ++ [46] ++ fp) - 1 /\ fp = [] /\ [46] = [46] /\ hexnum ip = 0).
      { unfold e1. destruct f' as [|y r]; [|left; reflexivity]. destruct (Nat.eqb_spec b 0) as [B0|B0].
        - right. subst b. cbn [repeat app] in Ef. assert (A0 : (a =? 0)%nat = false).
          { apply Nat.eqb_neq. intros A0. rewrite A0 in Ei. cbn in Ei. rewrite Ei, Ef in Hne. apply Hne. reflexivity. }
          rewrite A0. cbn [length] in LT. repeat split; auto; lia.
        - left. cbn [length] in LT. lia. }
      rewrite (Hx e1 HE1). exists f', e1.
      rewrite chk_i32_ok by (unfold INT_MIN, INT_MAX; lia). cbn [bind]. rewrite chk_i32_ok by (unfold INT_MIN, INT_MAX; lia). cbn [bind].
      split; [do 3 f_equal; lia|]. split; [exists (a + b)%nat; rewrite Ei, Ef, repeat_app, app_assoc; reflexivity|]. split; [exact Df|].
      exact HE1.
  - subst i'. cbn [app]. inversion Fi as [|? ? Hc Ft]; subst.
    pose proof (hex_byte c Hc) as Hcb. rewrite s8_eq by (exact Hcb || lia).
    replace (c =? 46) with false by (destruct (Z.eqb_spec c 46) as [->|]; [destruct Hc as (d & Q & _); discriminate|reflexivity]). cbv iota. cbn [bind].
    match goal with |- context [hex_loop _ _ _ ?K ?E _] => set (K0 := K); set (E0 := E) end.
    change (c :: t ++ dot ++ fp ++ s) with ((c :: t) ++ dot ++ fp ++ s).
    rewrite H0, hex_digits by (auto; cbn [length] in *; lia). cbn [app].
    assert (DL : exists e1 pos ptd, hex_loop w cap (dot ++ fp ++ s) (K0 + len (c :: t)) (K0 + len (c :: t)) (hst (c :: t) 0 false) =
        Ok (s, k + len ((repeat 48 a ++ c :: t) ++ dot ++ fp), e1, hst ((c :: t) ++ fp) pos ptd) /\
        (if ptd then pos else len ((c :: t) ++ fp)) = len (c :: t) /\ e1 = k + len ((repeat 48 a ++ c :: t) ++ dot ++ fp)).
    { destruct Hdot as [[-> ->]| ->]; cbn [app].
      - rewrite hex_stop by auto. rewrite !app_nil_r.
        assert (KK : K0 + len (c :: t) = k + len (repeat 48 a ++ c :: t)) by (rewrite app_length, repeat_length; unfold K0; lia).
        rewrite KK. exists (k + len (repeat 48 a ++ c :: t)), 0, false. repeat split; reflexivity.
      - rewrite hex_point. rewrite hex_digits by (auto; cbn [length] in *; lia). rewrite hex_stop by auto.
        assert (KK : K0 + len (c :: t) + 1 + len fp = k + len ((repeat 48 a ++ c :: t) ++ 46 :: fp)) by (rewrite !app_length, repeat_length; cbn [length]; unfold K0; lia).
        rewrite KK. replace (match fp with [] => K0 + len (c :: t) + 1 | _ :: _ => k + len ((repeat 48 a ++ c :: t) ++ 46 :: fp) end) with (k + len ((repeat 48 a ++ c :: t) ++ 46 :: fp)) by (destruct fp; [rewrite <- KK; cbn [length]; lia|reflexivity]).
        exists (k + len ((repeat 48 a ++ c :: t) ++ 46 :: fp)), (len (c :: t)), true. repeat split; reflexivity. }
    destruct DL as (e1 & pos & ptd & -> & EP & E1). cbn [bind spointed sconsumed hst sposition].
    rewrite EP. rewrite (Hx e1 (or_introl E1)). exists ((c :: t) ++ fp), e1.
    rewrite app_length. cbn [length] in *.
    rewrite chk_i32_ok by (unfold INT_MIN, INT_MAX; lia). cbn [bind]. rewrite chk_i32_ok by (unfold INT_MIN, INT_MAX; lia). cbn [bind].
    split; [do 3 f_equal; lia|]. split; [exists a; rewrite <- app_assoc; reflexivity|]. split; [right; exists c, (t ++ fp); split; [reflexivity|exact N]|].
    left; exact E1.
Qed.
End Hex.
