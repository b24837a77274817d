(** The decimal parser of strtod. *)
From Verif Require Import Base Bits Ctype_Spec Stdlib_Spec Stdlib_Model Stdlib_Proof Strtod_Spec Strtod_Model.
Open Scope Z_scope.
Local Ltac Zify.zify_post_hook ::= idtac.

(** ** characters *)
Lemma decdigit_lt c : is_byte c -> (decdigit c <? 10) = ((48 <=? c) && (c <=? 57)).
Proof.
  intros H. apply eqb_prop. revert c H. apply (byte_forall (fun c => Bool.eqb (decdigit c <? 10) ((48 <=? c) && (c <=? 57)))). vm_compute. reflexivity.
Qed.
Lemma decdigit_val c : dec_char c -> decdigit c = c - 48.
Proof.
  unfold dec_char. intros H. assert (B : is_byte c) by (unfold is_byte; lia).
  revert H. pattern c. 
  assert (K : forall c, is_byte c -> implb ((48 <=? c) && (c <=? 57)) (decdigit c =? c - 48) = true) by (apply byte_forall; vm_compute; reflexivity).
  specialize (K c B). intros H. destruct (Z.eqb_spec (decdigit c) (c - 48)); [assumption|]. replace ((48 <=? c) && (c <=? 57)) with true in K by lia. discriminate.
Qed.
Lemma s8_eq c x : is_byte c -> 0 <= x < 128 -> (s8 c =? x) = (c =? x).
Proof.
  intros H Hx. unfold is_byte in H. unfold s8, sgn. change (2^(8-1)) with 128. change (2^8) with 256.
  rewrite Z.mod_small by lia. destruct (Z.ltb_spec c 128); lia.
Qed.
Lemma letter_e c : is_byte c -> (Z.lor (s8 c) 32 =? 101) = ((c =? 101) || (c =? 69)).
Proof.
  intros H. apply eqb_prop. revert c H. apply (byte_forall (fun c => Bool.eqb (Z.lor (s8 c) 32 =? 101) ((c =? 101) || (c =? 69)))). vm_compute. reflexivity.
Qed.
Lemma dec_byte c : dec_char c -> is_byte c.
Proof. unfold dec_char, is_byte. lia. Qed.
Lemma Forall_dec_byte l : Forall dec_char l -> Forall is_byte l.
Proof. apply Forall_impl. exact dec_byte. Qed.

(** ** digit strings *)
Notation len l := (Z.of_nat (length l)).
Lemma digits_acc ds : Forall dec_char ds -> forall acc, digits_value 10 acc ds = acc * 10^(len ds) + num ds.
Proof.
  unfold num. induction 1 as [|c ds Hc Hds IH]; intros acc; cbn [digits_value length]; [cbn; lia|].
  rewrite IH. rewrite (IH (0 * 10 + _)). rewrite Nat2Z.inj_succ, Z.pow_succ_r by lia. ring.
Qed.
Lemma num_app a b : Forall dec_char a -> Forall dec_char b -> num (a ++ b) = num a * 10^(len b) + num b.
Proof.
  intros Ha Hb. unfold num at 1.
  assert (G : forall l acc, digits_value 10 acc (l ++ b) = digits_value 10 (digits_value 10 acc l) b) by (induction l as [|c l IH]; intros acc; cbn [app digits_value]; auto).
  rewrite G. apply digits_acc. exact Hb.
Qed.
Lemma digit_value_dec c : dec_char c -> digit_value c = Some (c - 48).
Proof. unfold dec_char, digit_value. intros H. replace ((48 <=? c) && (c <=? 57)) with true by lia. reflexivity. Qed.
Lemma num_1 c : dec_char c -> num [c] = c - 48.
Proof. intros H. unfold num. cbn [digits_value]. rewrite digit_value_dec by exact H. lia. Qed.
Lemma num_bound ds : Forall dec_char ds -> 0 <= num ds < 10^(len ds).
Proof.
  induction 1 as [|c ds Hc Hds IH]; [cbn; lia|]. change (c :: ds) with ([c] ++ ds). rewrite num_app by (auto || constructor; auto).
  rewrite num_1 by exact Hc. unfold dec_char in Hc. cbn [app length]. rewrite Nat2Z.inj_succ, Z.pow_succ_r by lia. nia.
Qed.
Lemma num_zeros a ds : Forall dec_char ds -> num (repeat 48 a ++ ds) = num ds.
Proof.
  intros H. induction a as [|a IH]; [reflexivity|]. cbn [repeat app]. change (48 :: repeat 48 a ++ ds) with ([48] ++ (repeat 48 a ++ ds)).
  assert (Forall dec_char (repeat 48 a ++ ds)). { apply Forall_app. split; [|exact H]. clear. induction a; constructor; auto. unfold dec_char. lia. }
  rewrite num_app by (try constructor; unfold dec_char; auto; lia). rewrite IH. change (num [48]) with 0. lia.
Qed.
Lemma split_zeros l : Forall dec_char l -> exists a l', l = repeat 48 a ++ l' /\ Forall dec_char l' /\ (l' = [] \/ exists c t, l' = c :: t /\ c <> 48).
Proof.
  induction 1 as [|c l Hc Hl (a & l' & E & F & D)]; [exists O, []; auto|].
  destruct (Z.eq_dec c 48) as [->|N].
  - exists (S a), l'. rewrite E. auto.
  - exists O, (c :: l). repeat split; [constructor; auto|right; eauto].
Qed.
Lemma zeros_ok a : forall s k e, Forall is_byte s -> ~ starts (eq 48) s ->
  zeros (repeat 48 a ++ s) k e = (s, k + Z.of_nat a, if (a =? 0)%nat then e else k + Z.of_nat a).
Proof.
  induction a as [|a IH]; intros s k e Hb Hs.
  - cbn [repeat app Nat.eqb]. replace (k + Z.of_nat 0) with k by lia. destruct s as [|c s]; [reflexivity|]. cbn [zeros].
    rewrite s8_eq by (inversion Hb; auto; lia). cbn [starts] in Hs. replace (c =? 48) with false by (destruct (Z.eqb_spec c 48); [exfalso; apply Hs; auto|reflexivity]). reflexivity.
  - cbn [repeat app zeros]. change (s8 48 =? 48) with true. cbv iota. rewrite IH by assumption. cbn [Nat.eqb].
    destruct (a =? 0)%nat eqn:E; f_equal; [f_equal; lia| |f_equal; lia|lia]. apply Nat.eqb_eq in E. lia.
Qed.
Lemma point_zeros_ok a : forall s k e p, Forall is_byte s -> ~ starts (eq 48) s -> 0 <= Z.of_nat a < 2^31 + p -> p <= 0 ->
  point_zeros (repeat 48 a ++ s) k e p = Ok (s, k + Z.of_nat a, if (a =? 0)%nat then e else k + Z.of_nat a, p - Z.of_nat a).
Proof.
  induction a as [|a IH]; intros s k e p Hb Hs Ha Hp.
  - cbn [repeat app Nat.eqb]. replace (k + Z.of_nat 0) with k by lia. replace (p - Z.of_nat 0) with p by lia. destruct s as [|c s]; [reflexivity|]. cbn [point_zeros].
    rewrite s8_eq by (inversion Hb; auto; lia). cbn [starts] in Hs. replace (c =? 48) with false by (destruct (Z.eqb_spec c 48); [exfalso; apply Hs; auto|reflexivity]). reflexivity.
  - cbn [repeat app point_zeros]. change (s8 48 =? 48) with true. cbv iota.
    rewrite chk_i32_ok by (unfold INT_MIN, INT_MAX; lia). cbn [bind]. rewrite IH by (assumption || lia). cbn [Nat.eqb].
    destruct (a =? 0)%nat eqn:E; f_equal; f_equal; [f_equal; [f_equal; lia|apply Nat.eqb_eq in E; lia]|lia|f_equal; [f_equal; lia|lia]|lia].
Qed.

(** ** the exponent *)
Definition cap_exp (n : Z) : Z := if 32000 <=? n then 32000 else n.
Lemma skip_digits_ok ds : forall s k, Forall dec_char ds -> Forall is_byte s -> ~ starts dec_char s -> skip_digits (ds ++ s) k = k + len ds.
Proof.
  induction ds as [|c ds IH]; intros s k Hd Hb Hs; cbn [app length].
  - replace (k + Z.of_nat 0) with k by lia. destruct s as [|c s]; [reflexivity|]. cbn [skip_digits starts] in *. inversion Hb; subst.
    rewrite decdigit_lt by assumption. unfold dec_char in Hs. replace ((48 <=? c) && (c <=? 57)) with false by lia. reflexivity.
  - inversion Hd; subst. cbn [skip_digits]. rewrite decdigit_val by assumption. unfold dec_char in *. replace (c - 48 <? 10) with true by lia. rewrite IH by assumption. lia.
Qed.
Lemma exp_digits_ok ds : forall s k e m, Forall dec_char ds -> Forall is_byte s -> ~ starts dec_char s -> 0 <= m < 32000 ->
  exp_digits (ds ++ s) k e m = (cap_exp (m * 10^(len ds) + num ds), if ds then e else k + len ds).
Proof.
  induction ds as [|c ds IH]; intros s k e m Hd Hb Hs Hm.
  - cbn [app length]. change (num []) with 0. change (10^(Z.of_nat 0)) with 1. unfold cap_exp. replace (32000 <=? m * 1 + 0) with false by lia.
    replace (m * 1 + 0) with m by lia. destruct s as [|c s]; [reflexivity|]. cbn [exp_digits starts] in *. inversion Hb; subst.
    rewrite decdigit_lt by assumption. unfold dec_char in Hs. replace ((48 <=? c) && (c <=? 57)) with false by lia. reflexivity.
  - inversion Hd as [|? ? Hc Hd']; subst. cbn [app exp_digits]. rewrite decdigit_val by exact Hc. unfold dec_char in Hc. replace (c - 48 <? 10) with true by lia.
    assert (E : m * 10^(len (c :: ds)) + num (c :: ds) = (10 * m + (c - 48)) * 10^(len ds) + num ds).
    { change (c :: ds) with ([c] ++ ds) at 2. rewrite num_app, num_1 by (auto || (constructor; auto)). cbn [length]. rewrite Nat2Z.inj_succ, Z.pow_succ_r by lia. ring. }
    rewrite E. pose proof (num_bound ds Hd') as Hn. assert (P : 1 <= 10^(len ds)) by (pose proof (Z.pow_pos_nonneg 10 (len ds)); lia).
    destruct (Z.leb_spec 3200 m) as [G|G].
    + rewrite skip_digits_ok by assumption. unfold cap_exp. replace (32000 <=? _) with true; [f_equal; cbn [length]; lia|].
      symmetry. apply Z.leb_le. nia.
    + rewrite IH by (assumption || lia). destruct ds; f_equal; cbn [length]; lia.
Qed.

(** the start of an exponent with digits *)
Definition exp_starts (s : list Z) : Prop := exists c sg d t, s = c :: sg ++ d :: t /\ (c = 101 \/ c = 69) /\ (sg = [] \/ sg = [43] \/ sg = [45]) /\ dec_char d.
Lemma parseexp_none s k e : Forall is_byte s -> ~ exp_starts s -> parseexp 101 s k e = (0, e).
Proof.
  intros Hb Hs. destruct s as [|x t]; [reflexivity|]. cbn [parseexp]. inversion Hb as [|? ? Bx Bt]; subst. rewrite letter_e by exact Bx.
  destruct ((x =? 101) || (x =? 69)) eqn:L; cbn [negb]; [|reflexivity].
  assert (G : forall u k', Forall is_byte u -> ~ starts dec_char u -> forall sign, (let '(u, k, e) := zeros u k' e in let '(m, e) := exp_digits u k e 0 in (sign * m, e)) = (0, e)).
  { intros u k' Bu Su sign. rewrite <- (app_nil_l u) at 1. change (@nil Z) with (repeat 48 0). rewrite (zeros_ok 0); [|exact Bu|].
    2:{ destruct u as [|y u]; cbn [starts] in *; [auto|]. intros <-. apply Su. unfold dec_char. lia. }
    cbn [Nat.eqb]. rewrite <- (app_nil_l u). rewrite (exp_digits_ok []); try assumption; [|constructor|lia].
    cbn. f_equal. unfold cap_exp. cbn. lia. }
  destruct t as [|y u].
  - cbn [cur]. apply G; [constructor|auto].
  - inversion Bt as [|? ? By Bu]; subst. rewrite !s8_eq by (assumption || lia). destruct ((y =? 45) || (y =? 43)) eqn:S.
    + apply G; [exact Bu|]. intros D. destruct u as [|d u]; [contradiction|]. cbn [starts] in D. apply Hs. exists x, [y], d, u. repeat split; try lia; auto.
      * destruct (Z.eqb_spec y 43); [right; left; congruence|right; right; f_equal; lia].
      * apply D. 
      * apply D.
    + apply G; [exact Bt|]. intros D. cbn [starts] in D. apply Hs. exists x, [], y, u. repeat split; try lia; auto; apply D.
Qed.
Lemma parseexp_some c sg ds rest k e : (c = 101 \/ c = 69) -> (sg = [] \/ sg = [43] \/ sg = [45]) -> Forall dec_char ds -> ds <> [] ->
  Forall is_byte rest -> ~ starts dec_char rest ->
  parseexp 101 (c :: sg ++ ds ++ rest) k e = (match sg with [45] => -1 | _ => 1 end * cap_exp (num ds), k + len (c :: sg ++ ds)).
Proof.
  intros Hc Hsg Hd Hne Hb Hs. cbn [parseexp]. assert (Bc : is_byte c) by (unfold is_byte; lia). rewrite letter_e by exact Bc.
  replace ((c =? 101) || (c =? 69)) with true by lia. cbn [negb].
  assert (G : forall k' sign, (let '(u, k, e) := zeros (ds ++ rest) k' e in let '(m, e) := exp_digits u k e 0 in (sign * m, e)) = (sign * cap_exp (num ds), k' + len ds)).
  { intros k' sign. destruct (split_zeros ds Hd) as (a & l & E & Fl & D). subst ds. rewrite <- app_assoc. rewrite zeros_ok.
    2:{ apply Forall_app. split; [apply Forall_dec_byte; exact Fl|exact Hb]. }
    2:{ destruct D as [->|(x & t & -> & N)]; cbn [app starts].
        - destruct rest as [|y r]; cbn [starts] in *; [auto|]. intros <-. apply Hs. unfold dec_char. lia.
        - intros <-. congruence. }
    rewrite exp_digits_ok by (assumption || lia). rewrite num_zeros by exact Fl. rewrite app_length, repeat_length.
    f_equal. destruct l; [|lia].
    destruct (Nat.eqb_spec a 0) as [->|]; [exfalso; apply Hne; reflexivity|cbn [length]; lia]. }
  assert (EX : exists d w, ds ++ rest = d :: w /\ is_byte d /\ dec_char d).
  { destruct ds as [|d ds']; [congruence|]. inversion Hd; subst. exists d, (ds' ++ rest). repeat split; try apply dec_byte; assumption || apply H1. }
  destruct EX as (d & w & EX & Bd1 & Bd2). unfold dec_char in Bd2. cbn [length]. rewrite app_length.
  destruct Hsg as [->|[->| ->]]; cbn [app].
  - cbn [app] in *. rewrite EX in *. cbn [cur]. rewrite !s8_eq by (lia || exact Bd1). replace (d =? 45) with false by lia. replace (d =? 43) with false by lia.
    cbn [orb]. rewrite G. cbn [length]. f_equal; lia.
  - change (cur (43 :: ds ++ rest) =? 45) with false. change ((s8 43 =? 45) || (s8 43 =? 43)) with true. cbv iota. rewrite G. cbn [length]. f_equal; lia.
  - change (cur (45 :: ds ++ rest) =? 45) with true. change ((s8 45 =? 45) || (s8 45 =? 43)) with true. cbv iota. rewrite G. cbn [length]. f_equal; lia.
Qed.

(** ** the digit loop *)
Definition lost (ds : list Z) : bool := existsb (fun c => negb (c =? 48)) (skipn 38 ds).
Definition kept (ds : list Z) : Z := num (firstn 38 ds).
Definition mantissa (ds : list Z) : Z := if lost ds then Z.lor (kept ds) 1 else kept ds.
Definition st_of (ds : list Z) (pos : Z) (ptd : bool) : scan := mk_scan (mantissa ds) (lost ds) (len ds) pos ptd.
Lemma Forall_firstn {A} (P : A -> Prop) n l : Forall P l -> Forall P (firstn n l).
Proof. intros H. rewrite <- (firstn_skipn n l) in H. apply Forall_app in H. apply H. Qed.
Lemma dec_step c t k e ds pos ptd : Forall dec_char ds -> dec_char c -> len ds < 2^31 - 1 ->
  dec_loop (c :: t) k e (st_of ds pos ptd) = dec_loop t (k + 1) (k + 1) (st_of (ds ++ [c]) pos ptd).
Proof.
  intros Hd Hc Hl. cbn [dec_loop]. rewrite decdigit_val by exact Hc. pose proof Hc as Hc'. unfold dec_char in Hc'. replace (c - 48 <? 10) with true by lia.
  cbn [sconsumed sx strunc sposition spointed st_of]. rewrite chk_i32_ok by (unfold INT_MIN, INT_MAX; lia). cbn [bind].
  assert (EL : len (ds ++ [c]) = len ds + 1) by (rewrite app_length; cbn [length]; lia).
  unfold st_of. rewrite EL. destruct (Z.ltb_spec (len ds) 38) as [L|L].
  - assert (S1 : skipn 38 ds = []) by (apply skipn_all2; lia). assert (S2 : skipn 38 (ds ++ [c]) = []) by (apply skipn_all2; rewrite app_length; cbn [length]; lia).
    assert (F1 : firstn 38 ds = ds) by (apply firstn_all2; lia). assert (F2 : firstn 38 (ds ++ [c]) = ds ++ [c]) by (apply firstn_all2; rewrite app_length; cbn [length]; lia).
    unfold mantissa, lost, kept. rewrite S1, S2, F1, F2. cbn [existsb]. rewrite num_app, num_1 by (auto || (constructor; auto)). cbn [length].
    change (10^(Z.of_nat 1)) with 10.
    pose proof (num_bound ds Hd). assert (10^(len ds) <= 10^37) by (apply Z.pow_le_mono_r; lia).
    unfold u128. rewrite Z.mod_small by lia. do 2 f_equal. lia.
  - assert (F2 : firstn 38 (ds ++ [c]) = firstn 38 ds). { rewrite firstn_app. replace (38 - length ds)%nat with O by lia. cbn [firstn]. apply app_nil_r. }
    assert (S2 : skipn 38 (ds ++ [c]) = skipn 38 ds ++ [c]). { rewrite skipn_app. replace (38 - length ds)%nat with O by lia. reflexivity. }
    unfold mantissa, lost, kept. rewrite F2, S2, existsb_app. cbn [existsb]. rewrite orb_false_r.
    replace (negb (c - 48 =? 0)) with (negb (c =? 48)) by lia.
    destruct (c =? 48) eqn:Q; cbn [negb]; [rewrite orb_false_r; reflexivity|]. rewrite orb_true_r.
    destruct (existsb _ _); [|reflexivity]. rewrite <- Z.lor_assoc. reflexivity.
Qed.
Lemma dec_digits l : forall s k e ds pos ptd, Forall dec_char l -> Forall dec_char ds -> len ds + len l < 2^31 ->
  dec_loop (l ++ s) k e (st_of ds pos ptd) = dec_loop s (k + len l) (if l then e else k + len l) (st_of (ds ++ l) pos ptd).
Proof.
  induction l as [|c l IH]; intros s k e ds pos ptd Hl Hd HL.
  - cbn [app length]. rewrite app_nil_r. replace (k + Z.of_nat 0) with k by lia. reflexivity.
  - inversion Hl as [|? ? Hc Hl']; subst. cbn [app length] in *. rewrite dec_step by (assumption || lia).
    rewrite IH by (try apply Forall_app; auto; rewrite ?app_length; cbn [length]; lia). rewrite <- app_assoc. cbn [app].
    replace (k + 1 + len l) with (k + Z.of_nat (S (length l))) by lia. destruct l; [|reflexivity]. cbn [length]. do 2 f_equal; lia.
Qed.
Lemma dec_point t k e ds pos : dec_loop (46 :: t) k e (st_of ds pos false) = dec_loop t (k + 1) (k + 1) (st_of ds (len ds) true).
Proof. cbn [dec_loop]. change (decdigit 46 <? 10) with false. change (s8 46 =? 46) with true. reflexivity. Qed.
Lemma dec_stop s k e st : Forall is_byte s -> ~ starts dec_char s -> (~ starts (eq 46) s \/ spointed st = true) -> dec_loop s k e st = Ok (s, k, e, st).
Proof.
  intros Hb Hs Hp. destruct s as [|c s]; [reflexivity|]. cbn [dec_loop starts] in *. inversion Hb; subst. rewrite decdigit_lt by assumption.
  unfold dec_char in Hs. replace ((48 <=? c) && (c <=? 57)) with false by lia. rewrite s8_eq by (assumption || lia).
  replace ((c =? 46) && negb (spointed st)) with false; [reflexivity|]. destruct Hp as [Hp|Hp]; [|rewrite Hp, andb_false_r; reflexivity].
  destruct (Z.eqb_spec c 46); [exfalso; apply Hp; congruence|reflexivity].
Qed.

(** what the rest of the text must not start with *)
Definition mant_end (dot s : list Z) : Prop := ~ starts dec_char s /\ (dot = [] -> ~ starts (eq 46) s).
(** the decimal that parsedec_ hands on: [ds] are the significant digits, [tx] the text the pointer [digits] sees *)
Definition dec_of (ds fp tx : list Z) (x : Z) : decimal :=
  mk_decimal (mantissa ds) (len ds - len fp - Z.min 38 (len ds) + x) (lost ds) tx (len ds).

Lemma parsedec_gen ip dot fp s k e x e' :
  Forall dec_char ip -> Forall dec_char fp -> (dot = [] /\ fp = [] \/ dot = [46]) -> ip ++ fp <> [] ->
  Forall is_byte s -> mant_end dot s ->
  (forall e1, (e1 = k + len (ip ++ dot ++ fp) \/ e1 = k + len (ip ++ dot ++ fp) - 1 /\ fp = [] /\ dot = [46] /\ num ip = 0) ->
     parseexp 101 s (k + len (ip ++ dot ++ fp)) e1 = (x, e' e1)) ->
  len (ip ++ fp) + Z.abs x < 2^31 - 100 ->
  exists ds tx e1, parsedec (ip ++ dot ++ fp ++ s) k e = Ok (dec_of ds fp tx x, e' e1) /\
    (exists z, ip ++ fp = repeat 48 z ++ ds) /\ (ds = [] \/ exists c t, ds = c :: t /\ c <> 48) /\
    (exists d1 d2, ds = d1 ++ d2 /\ (tx = d1 ++ 46 :: d2 ++ s \/ tx = ds ++ s)) /\
    (e1 = k + len (ip ++ dot ++ fp) \/ e1 = k + len (ip ++ dot ++ fp) - 1 /\ fp = [] /\ dot = [46] /\ num ip = 0).
Proof.
  intros Hi Hf Hdot Hne Hb [He1 He2] Hx HL.
  destruct (split_zeros ip Hi) as (a & i' & Ei & Fi & Di).
  assert (Bf : Forall is_byte (fp ++ s)) by (apply Forall_app; split; [apply Forall_dec_byte; exact Hf|exact Hb]).
  assert (Bdf : Forall is_byte (dot ++ fp ++ s)).
  { apply Forall_app. split; [|exact Bf]. destruct Hdot as [[-> _]| ->]; repeat constructor; unfold is_byte; lia. }
  assert (Lip : len ip = Z.of_nat a + len i') by (rewrite Ei, app_length, repeat_length; lia).
  rewrite app_length in HL.
  (* zeros *)
  assert (Z1 : zeros (ip ++ dot ++ fp ++ s) k e = (i' ++ dot ++ fp ++ s, k + Z.of_nat a, if (a =? 0)%nat then e else k + Z.of_nat a)).
  { rewrite Ei, <- app_assoc. apply zeros_ok; [apply Forall_app; split; [apply Forall_dec_byte; exact Fi|exact Bdf]|].
    destruct Di as [->|(c & t & -> & N)]; cbn [app]; [|cbn [starts]; intros <-; congruence].
    destruct Hdot as [[-> ->]| ->]; cbn [app starts]; [|lia]. destruct s as [|y r]; cbn [starts] in *; [auto|]. intros <-. apply He1. unfold dec_char. lia. }
  unfold parsedec. rewrite Z1.
  destruct Di as [->|(c & t & E & N)].
  - (* only zeros before the point *)
    cbn [app]. rewrite app_nil_r in Ei. cbn [length] in Lip.
    assert (NI : num ip = 0). { rewrite Ei. rewrite <- (app_nil_r (repeat 48 a)). rewrite num_zeros by constructor. reflexivity. }
    destruct Hdot as [[-> ->]| ->].
    + (* no point *)
      cbn [app] in *. rewrite app_nil_r in Hne. assert (A0 : (a =? 0)%nat = false) by (apply Nat.eqb_neq; intros ->; apply Hne; exact Ei).
      rewrite A0. exists [], s, (k + Z.of_nat a).
      assert (M : (match s with [] => Ok (s, k + Z.of_nat a, k + Z.of_nat a, 0, false) | c :: t => if s8 c =? 46 then do (s', k', e', p) <- point_zeros t (k + Z.of_nat a + 1) (k + Z.of_nat a) 0; Ok (s', k', e', p, true) else Ok (s, k + Z.of_nat a, k + Z.of_nat a, 0, false) end) = Ok (s, k + Z.of_nat a, k + Z.of_nat a, 0, false)).
      { destruct s as [|y r]; [reflexivity|]. inversion Hb; subst. rewrite s8_eq by (assumption || lia). cbn [starts] in He2.
        destruct (Z.eqb_spec y 46); [exfalso; apply (He2 eq_refl); congruence|reflexivity]. }
      rewrite M. cbn [bind].
      change (mk_scan 0 false 0 0 false) with (st_of [] 0 false).
      rewrite dec_stop by (auto). cbn [bind spointed sconsumed st_of sposition length].
      rewrite app_nil_r in Hx. 
      assert (K : k + Z.of_nat a = k + len ip) by lia. rewrite K. rewrite Hx by (left; reflexivity).
      rewrite chk_i32_ok by (unfold INT_MIN, INT_MAX; cbn; lia). cbn [bind]. rewrite chk_i32_ok by (unfold INT_MIN, INT_MAX; cbn; lia). cbn [bind].
      split; [reflexivity|]. split; [exists a; rewrite !app_nil_r; exact Ei|]. split; [left; reflexivity|].
      split; [exists [], []; split; [reflexivity|right; reflexivity]|]. left. rewrite app_nil_r. reflexivity.
    + (* a point *)
      destruct (split_zeros fp Hf) as (b & f' & Ef & Ff & Df). cbn [app]. change (s8 46 =? 46) with true. cbv iota.
      assert (Lfp : len fp = Z.of_nat b + len f') by (rewrite Ef, app_length, repeat_length; lia).
      assert (Z2 : point_zeros (fp ++ s) (k + Z.of_nat a + 1) (if (a =? 0)%nat then e else k + Z.of_nat a) 0 =
        Ok (f' ++ s, k + Z.of_nat a + 1 + Z.of_nat b, (if (b =? 0)%nat then (if (a =? 0)%nat then e else k + Z.of_nat a) else k + Z.of_nat a + 1 + Z.of_nat b), 0 - Z.of_nat b)).
      { rewrite Ef, <- app_assoc. apply point_zeros_ok; try lia; [apply Forall_app; split; [apply Forall_dec_byte; exact Ff|exact Hb]|].
        destruct Df as [->|(y & r & -> & N)]; cbn [app starts]; [|intros <-; congruence].
        destruct s as [|y r]; cbn [starts] in *; [auto|]. intros <-. apply He1. unfold dec_char. lia. }
      rewrite Z2. cbn [bind]. change (mk_scan 0 false 0 (0 - Z.of_nat b) true) with (st_of [] (0 - Z.of_nat b) true).
      rewrite dec_digits by (auto; cbn [length]; lia). rewrite dec_stop by (auto). cbn [bind spointed sconsumed st_of sposition app].
      assert (LT : len (ip ++ [46] ++ fp) = Z.of_nat a + 1 + Z.of_nat b + len f') by (rewrite !app_length; cbn [length]; lia).
      replace (k + Z.of_nat a + 1 + Z.of_nat b + len f') with (k + len (ip ++ [46] ++ fp)) by lia.
      match goal with |- context [parseexp 101 s _ ?E1] => set (e1 := E1) end.
      assert (HE1 : e1 = k + len (ip ++ [46] ++ fp) \/ e1 = k + len (ip ++ [46] ++ fp) - 1 /\ fp = [] /\ [46] = [46] /\ num ip = 0).
      { unfold e1. destruct f' as [|y r]; [|left; reflexivity]. destruct (Nat.eqb_spec b 0) as [B0|B0].
        - right. subst b. cbn [repeat app] in Ef. assert (A0 : (a =? 0)%nat = false).
          { apply Nat.eqb_neq. intros A0. rewrite A0 in Ei. cbn in Ei. rewrite Ei, Ef in Hne. apply Hne. reflexivity. }
          rewrite A0. cbn [length] in LT. repeat split; auto; lia.
        - left. cbn [length] in LT. lia. }
      rewrite (Hx e1 HE1). exists f', (f' ++ s), e1.
      rewrite chk_i32_ok by (unfold INT_MIN, INT_MAX; lia). cbn [bind]. rewrite chk_i32_ok by (unfold INT_MIN, INT_MAX; lia). cbn [bind].
      split; [unfold dec_of; do 3 f_equal; lia|]. split; [exists (a + b)%nat; rewrite Ei, Ef, repeat_app, app_assoc; reflexivity|]. split; [exact Df|].
      split; [exists f', []; split; [rewrite app_nil_r; reflexivity|right; reflexivity]|]. exact HE1.
  - (* a non-zero digit before the point *)
    subst i'. cbn [app]. inversion Fi as [|? ? Hc Ft]; subst. 
    pose proof (dec_byte c Hc) as Hcb. rewrite s8_eq by (exact Hcb || lia). unfold dec_char in Hc. replace (c =? 46) with false by lia. cbv iota. cbn [bind].
    match goal with |- context [dec_loop _ ?K ?E _] => set (K0 := K); set (E0 := E) end.
    change (c :: t ++ dot ++ fp ++ s) with ((c :: t) ++ dot ++ fp ++ s).
    change (mk_scan 0 false 0 0 false) with (st_of [] 0 false).
    rewrite dec_digits by (auto; cbn [length] in *; lia). cbn [app].
    assert (DL : exists e1 pos ptd, dec_loop (dot ++ fp ++ s) (K0 + len (c :: t)) (K0 + len (c :: t)) (st_of (c :: t) 0 false) =
        Ok (s, k + len ((repeat 48 a ++ c :: t) ++ dot ++ fp), e1, st_of ((c :: t) ++ fp) pos ptd) /\
        (if ptd then pos else len ((c :: t) ++ fp)) = len (c :: t) /\ e1 = k + len ((repeat 48 a ++ c :: t) ++ dot ++ fp)).
    { destruct Hdot as [[-> ->]| ->]; cbn [app].
      - rewrite dec_stop by auto. rewrite !app_nil_r.
        assert (KK : K0 + len (c :: t) = k + len (repeat 48 a ++ c :: t)) by (rewrite app_length, repeat_length; unfold K0; lia).
        rewrite KK. exists (k + len (repeat 48 a ++ c :: t)), 0, false. repeat split; reflexivity.
      - rewrite dec_point. rewrite dec_digits by (auto; cbn [length] in *; lia). rewrite dec_stop by auto.
        assert (KK : K0 + len (c :: t) + 1 + len fp = k + len ((repeat 48 a ++ c :: t) ++ 46 :: fp)) by (rewrite !app_length, repeat_length; cbn [length]; unfold K0; lia).
        rewrite KK. replace (match fp with [] => K0 + len (c :: t) + 1 | _ :: _ => k + len ((repeat 48 a ++ c :: t) ++ 46 :: fp) end) with (k + len ((repeat 48 a ++ c :: t) ++ 46 :: fp)) by (destruct fp; [rewrite <- KK; cbn [length]; lia|reflexivity]).
        exists (k + len ((repeat 48 a ++ c :: t) ++ 46 :: fp)), (len (c :: t)), true. repeat split; reflexivity. }
    destruct DL as (e1 & pos & ptd & -> & EP & E1). cbn [bind spointed sconsumed st_of sposition].
    rewrite EP. rewrite (Hx e1 (or_introl E1)). exists ((c :: t) ++ fp), ((c :: t) ++ dot ++ fp ++ s), e1.
    rewrite app_length. cbn [length] in *.
    rewrite chk_i32_ok by (unfold INT_MIN, INT_MAX; lia). cbn [bind]. rewrite chk_i32_ok by (unfold INT_MIN, INT_MAX; lia). cbn [bind].
    split; [unfold dec_of; do 2 f_equal; rewrite app_length; cbn [length app]; f_equal; lia|]. split; [exists a; rewrite <- app_assoc; reflexivity|]. split; [right; exists c, (t ++ fp); split; [reflexivity|exact N]|].
    split; [|left; exact E1]. exists (c :: t), fp. split; [reflexivity|]. destruct Hdot as [[-> ->]| ->]; [right; rewrite app_nil_r|left]; reflexivity.
Qed.
