(** strtod: the text of a decimal constant, and the value it stands for. *)
From Coq Require Import Reals Lra.
From Flocq Require Import Core.
From Verif Require Import Base FP FP_Proof Rne Midpoint Ctype_Spec Stdlib_Spec Stdlib_Model Stdlib_Proof HW HW_Proof Math_Model Math_Lconv_Proof Strtod_Spec Strtod_Model Strtod_Arith_Proof Strtod_Round_Proof Strtod_Gap_Proof Strtod_Dec_Proof Strtod_Parse_Proof.
Open Scope Z_scope.
Local Ltac Zify.zify_post_hook ::= idtac.

(** ** the longest constant *)
Lemma longest_end ip dot fp ex x rest :
  (dot = [] /\ fp = [] \/ dot = [46]) -> exp_part (fun c => c = 101 \/ c = 69) ex x -> Forall dec_char ip -> Forall dec_char fp -> ip ++ fp <> [] ->
  longest (fun t => exists ip fp x, decimal_text t ip fp x) (ip ++ dot ++ fp ++ ex) rest ->
  ~ starts dec_char rest /\ (ex = [] -> dot = [] -> ~ starts (eq 46) rest) /\ (ex = [] -> ~ exp_starts rest).
Proof.
  intros Hd Hx Hi Hf Hn [_ HL].
  assert (K : forall more rest' ip' fp' x', rest = more ++ rest' -> more <> [] -> decimal_text ((ip ++ dot ++ fp ++ ex) ++ more) ip' fp' x' -> False).
  { intros more rest' ip' fp' x' E N T. specialize (HL ((ip ++ dot ++ fp ++ ex) ++ more) rest'). rewrite E in HL.
    specialize (HL ltac:(rewrite <- !app_assoc; reflexivity) (ex_intro _ ip' (ex_intro _ fp' (ex_intro _ x' T)))). rewrite app_length in HL. destruct more; [congruence|cbn [length] in HL; lia]. }
  split; [|split].
  - destruct rest as [|c r]; cbn [starts]; [auto|]. intros Hc.
    destruct Hx as [[-> _]|(l & sg & ds & E & Hl & Hds & Nds & S)].
    + rewrite app_nil_r in K. destruct Hd as [[-> ->]| ->].
      * apply (K [c] r (ip ++ [c]) [] 0 eq_refl ltac:(discriminate)). exists [], []. cbn [app]. rewrite !app_nil_r. repeat split; auto.
        -- left. auto.
        -- apply Forall_app. auto.
        -- intros E. apply app_eq_nil in E. destruct E; discriminate.
      * apply (K [c] r ip (fp ++ [c]) 0 eq_refl ltac:(discriminate)). exists [46], []. rewrite app_nil_r, <- !app_assoc. repeat split; auto.
        -- left. auto.
        -- apply Forall_app. auto.
        -- intros E. apply app_eq_nil in E. destruct E as [_ E]. apply app_eq_nil in E. destruct E; discriminate.
    + assert (T : exists x', decimal_text ((ip ++ dot ++ fp ++ ex) ++ [c]) ip fp x').
      { exists (match sg with [45] => - num (ds ++ [c]) | _ => num (ds ++ [c]) end). exists dot, (ex ++ [c]). rewrite <- !app_assoc. repeat split; auto.
        right. exists l, sg, (ds ++ [c]). rewrite E. cbn [app]. rewrite <- app_assoc. repeat split; auto.
        - apply Forall_app. auto.
        - intros Q. apply app_eq_nil in Q. destruct Q; discriminate.
        - destruct S as [[-> _]|[[-> | ->] _]]; auto. }
      destruct T as (x' & T). exact (K [c] r ip fp x' eq_refl ltac:(discriminate) T).
  - intros -> ->. destruct Hd as [[_ ->]|]; [|discriminate]. destruct rest as [|c r]; cbn [starts]; [auto|]. intros <-.
    cbn [app] in K. rewrite !app_nil_r in *. apply (K [46] r ip [] 0 eq_refl ltac:(discriminate)). exists [46], []. cbn [app]. rewrite !app_nil_r. repeat split; auto. left. auto.
  - intros -> (c & sg & d & t & E & Hc & Hsg & Hdd). rewrite app_nil_r in K.
    apply (K (c :: sg ++ [d]) t ip fp (match sg with [45] => - num [d] | _ => num [d] end)); [rewrite E; cbn [app]; rewrite <- app_assoc; reflexivity|discriminate|].
    exists dot, (c :: sg ++ [d]). rewrite <- !app_assoc. repeat split; auto. right. exists c, sg, [d]. repeat split; auto; [discriminate|].
    destruct Hsg as [->|[->| ->]]; auto.
Qed.

Definition capped (x x' : Z) : Prop := x' = x \/ 32000 <= x /\ x' = 32000 \/ x <= -32000 /\ x' = -32000.
Lemma cap_capped n : capped n (cap_exp n) /\ capped (- n) (- cap_exp n) /\ (0 <= n -> 0 <= cap_exp n <= 32000).
Proof. unfold capped, cap_exp. destruct (Z.leb_spec 32000 n); lia. Qed.

Lemma num_pos c t : dec_char c -> Forall dec_char t -> c <> 48 -> 10^(len t) <= num (c :: t).
Proof.
  intros Hc Ht N. change (c :: t) with ([c] ++ t). rewrite num_app, num_1 by (auto; repeat constructor; auto; apply Hc).
  pose proof (num_bound t Ht) as [Q1 Q2]. assert (0 < 10^(len t)) by (apply Z.pow_pos_nonneg; lia). unfold dec_char in Hc. nia.
Qed.
Lemma num_0 l : Forall dec_char l -> num l = 0 -> exists a, l = repeat 48 a.
Proof.
  intros Hl N. destruct (split_zeros l Hl) as (a & l' & E & F & [->|(c & t & -> & Nc)]); [exists a; rewrite app_nil_r in E; exact E|].
  exfalso. rewrite E, num_zeros in N by exact F. inversion F; subst. pose proof (num_pos c t ltac:(assumption) ltac:(assumption) Nc). assert (0 < 10^(len t)) by (apply Z.pow_pos_nonneg; lia). lia.
Qed.

(** the whole text [body] with its reading *)
Lemma parsedec_text body ip fp x rest k e :
  decimal_text body ip fp x -> longest (fun t => exists ip fp x, decimal_text t ip fp x) body rest -> Forall is_byte rest ->
  len (ip ++ fp) < 2^30 -> (forall n, body <> repeat 48 n ++ [46]) ->
  exists ds tx x', parsedec (body ++ rest) k e = Ok (dec_of ds fp tx x', k + len body) /\ capped x x' /\
    (exists z, ip ++ fp = repeat 48 z ++ ds) /\ (ds = [] \/ exists c t, ds = c :: t /\ c <> 48) /\
    (exists ex d1 d2, ds = d1 ++ d2 /\ (tx = d1 ++ 46 :: d2 ++ ex ++ rest \/ tx = ds ++ ex ++ rest) /\ ~ starts dec_char (ex ++ rest) /\ (ex = [] \/ ~ starts (eq 46) (ex ++ rest))).
Proof.
  intros (dot & ex & E & Hd & Hx & Hi & Hf & Hn) HL Hb Hlen Hdang. rewrite E in HL.
  destruct (longest_end ip dot fp ex x rest Hd Hx Hi Hf Hn HL) as (L1 & L2 & L3).
  assert (X : Forall is_byte ex /\ ~ starts dec_char (ex ++ rest) /\ (dot = [] -> ~ starts (eq 46) (ex ++ rest)) /\ (ex = [] \/ ~ starts (eq 46) (ex ++ rest)) /\
     exists x', capped x x' /\ Z.abs x' <= 32000 /\ forall kk e1, (ex = [] -> e1 = kk) -> parseexp 101 (ex ++ rest) kk e1 = (x', kk + len ex)).
  { destruct Hx as [[-> ->]|(c & sg & ds & Eex & Hc & Hds & Nds & S)].
    - cbn [app]. repeat split; auto. exists 0. split; [left; reflexivity|]. split; [lia|]. intros kk e1 He. rewrite parseexp_none by auto. rewrite He by reflexivity. f_equal. cbn. lia.
    - assert (SG : sg = [] \/ sg = [43] \/ sg = [45]) by tauto.
      assert (NE : ex <> []) by (rewrite Eex; discriminate).
      split; [|split; [|split; [|split]]].
      + rewrite Eex. constructor; [unfold is_byte; lia|]. apply Forall_app. split; [destruct SG as [->|[->| ->]]; repeat constructor; unfold is_byte; lia|apply Forall_dec_byte; exact Hds].
      + rewrite Eex. cbn [app starts]. unfold dec_char. lia.
      + intros _. rewrite Eex. cbn [app starts]. lia.
      + right. rewrite Eex. cbn [app starts]. lia.
      + exists (match sg with [45] => -1 | _ => 1 end * cap_exp (num ds)). pose proof (num_bound ds Hds) as [NB _]. destruct (cap_capped (num ds)) as (C1 & C2 & C3). specialize (C3 NB).
        split; [|split].
        * destruct S as [[-> ->]|[[->| ->] ->]]; [replace (-1 * cap_exp (num ds)) with (- cap_exp (num ds)) by lia; exact C2| |]; rewrite Z.mul_1_l; exact C1.
        * destruct SG as [->|[->| ->]]; lia.
        * intros kk e1 _. rewrite Eex. cbn [app]. rewrite <- app_assoc. apply parseexp_some; auto. }
  destruct X as (Bex & X1 & X2 & X2' & x' & Cx & Ax & PE).
  assert (Bs : Forall is_byte (ex ++ rest)) by (apply Forall_app; auto).
  set (T := len (ip ++ dot ++ fp)).
  destruct (parsedec_gen ip dot fp (ex ++ rest) k e x' (fun e1 => match ex with [] => e1 | _ => k + T + len ex end) Hi Hf Hd Hn Bs) as (ds & tx & e1 & P & A1 & A2 & A3 & A4).
  - split; assumption.
  - intros e1 H1. destruct H1 as [H1|(H1 & H2 & H3 & H4)].
    + rewrite PE by auto. f_equal. destruct ex; [cbn [length]; lia|reflexivity].
    + destruct ex as [|c ex]; [|apply PE; discriminate].
      exfalso. subst fp dot. rewrite app_nil_r in Hn. destruct (num_0 ip Hi H4) as (a & EI). apply (Hdang a). rewrite E, EI, !app_nil_r. reflexivity.
  - lia.
  - exists ds, tx, x'. rewrite E, <- !app_assoc. rewrite P. split; [|split; [exact Cx|split; [exact A1|split; [exact A2|]]]].
    + do 2 f_equal. unfold T. destruct ex as [|c ex].
      * destruct A4 as [A4|(A4 & A5 & A6 & A7)]; [rewrite app_nil_r; exact A4|].
        exfalso. subst fp dot. rewrite app_nil_r in Hn. destruct (num_0 ip Hi A7) as (a & EI). apply (Hdang a). rewrite E, EI, !app_nil_r. reflexivity.
      * rewrite !app_length. lia.
    + destruct A3 as (d1 & d2 & D1 & D2). exists ex, d1, d2. repeat split; auto.
Qed.

(** ** the front end *)
Definition body_start (s : list Z) : Prop := exists c t, s = c :: t /\ (dec_char c \/ c = 46).
Lemma text_start body ip fp x : decimal_text body ip fp x -> body_start body.
Proof.
  intros (dot & ex & E & Hd & _ & Hi & _ & Hn). destruct ip as [|c ip].
  - cbn [app] in *. destruct Hd as [[_ ->]| ->]; [congruence|]. rewrite E. cbn [app]. eexists _, _. split; [reflexivity|]. auto.
  - rewrite E. cbn [app]. inversion Hi; subst. eexists _, _. split; [reflexivity|]. auto.
Qed.
Lemma start_lor c : dec_char c \/ c = 46 -> is_byte c /\ Z.lor (s8 c) 32 = c /\ s8 c = c.
Proof.
  unfold dec_char. intros H. assert (I : In c [46;48;49;50;51;52;53;54;55;56;57]) by (cbn; lia). clear H.
  revert c I. apply Forall_forall. repeat constructor; unfold is_byte; lia || reflexivity.
Qed.

Section Front.
Variables mw ew : Z.
Variable of_decimal : decimal -> res Z.
Variable of_bitset : Z -> Z.
Variable ldexp : Z -> Z -> res Z.
Variable capacity : Z.
Lemma magnitude_text body ip fp x rest k e :
  decimal_text body ip fp x -> longest (fun t => exists ip fp x, decimal_text t ip fp x) body rest -> ~ hex_prefix (body ++ rest) ->
  Forall is_byte (body ++ rest) -> len (ip ++ fp) < 2^30 -> (forall n, body <> repeat 48 n ++ [46]) ->
  exists ds tx x', magnitude_ mw ew of_decimal of_bitset ldexp capacity (body ++ rest) k e =
      (do v <- of_decimal (dec_of ds fp tx x'); Ok (mk_fparsed v (k + len body) (heq mw ew v (finf mw ew)))) /\
    capped x x' /\ (exists z, ip ++ fp = repeat 48 z ++ ds) /\ (ds = [] \/ exists c t, ds = c :: t /\ c <> 48) /\
    (exists ex d1 d2, ds = d1 ++ d2 /\ (tx = d1 ++ 46 :: d2 ++ ex ++ rest \/ tx = ds ++ ex ++ rest) /\ ~ starts dec_char (ex ++ rest) /\ (ex = [] \/ ~ starts (eq 46) (ex ++ rest))).
Proof.
  intros T L NH Hb Hlen Hdang. pose proof (text_start _ _ _ _ T) as (c & t & Ec & Hc). destruct (start_lor c Hc) as (Bc & Lc & Sc).
  assert (Brest : Forall is_byte rest) by (apply Forall_app in Hb; apply Hb).
  destruct (parsedec_text body ip fp x rest k e T L Brest Hlen Hdang) as (ds & tx & x' & P & R). exists ds, tx, x'. split; [|exact R].
  assert (M1 : match_ (body ++ rest) [105; 110; 102; 105; 110; 105; 116; 121] = 0).
  { rewrite Ec. cbn [app match_]. rewrite Lc. unfold dec_char in Hc. replace (c =? 105) with false by lia. reflexivity. }
  assert (M2 : match_ (body ++ rest) [110; 97; 110] = 0).
  { rewrite Ec. cbn [app match_]. rewrite Lc. unfold dec_char in Hc. replace (c =? 110) with false by lia. reflexivity. }
  unfold magnitude_. rewrite M1, M2. change (3 <=? 0) with false. change (0 =? 3) with false. cbv iota.
  assert (G : (match body ++ rest with
      | c :: x :: t => if (s8 c =? 48) && (Z.lor (s8 x) 32 =? 120) then
                         do (m, n, e) <- parsehex (mw + ew + 1) capacity t (k + 2); do v <- ldexp (of_bitset m) n; Ok (v, e)
                       else do (d, e) <- parsedec (body ++ rest) k e; do v <- of_decimal d; Ok (v, e)
      | _ => do (d, e) <- parsedec (body ++ rest) k e; do v <- of_decimal d; Ok (v, e)
      end) = do (d, e) <- parsedec (body ++ rest) k e; do v <- of_decimal d; Ok (v, e)).
  { destruct (body ++ rest) as [|y [|z w]]; [reflexivity|reflexivity|].
    inversion Hb as [|? ? By Bw]; subst. inversion Bw as [|? ? Bz Bw']; subst.
    assert (H : (s8 y =? 48) && (Z.lor (s8 z) 32 =? 120) = false); [|rewrite H; reflexivity].
    rewrite s8_eq by (assumption || lia). destruct (Z.eqb_spec y 48); [|reflexivity]. cbn [andb]. apply Z.eqb_neq. intros Q. apply NH. exists z, w.
    split; [congruence|]. clear -Q Bz.
    assert (F : forallb (fun z => negb (Z.lor (s8 z) 32 =? 120) || ((z =? 120) || (z =? 88))) (map Z.of_nat (seq 0 256)) = true) by (vm_compute; reflexivity).
    rewrite forallb_forall in F. unfold is_byte in Bz. specialize (F z). rewrite in_map_iff in F.
    assert (I : exists x : nat, Z.of_nat x = z /\ In x (seq 0 256)) by (exists (Z.to_nat z); split; [lia|apply in_seq; lia]). specialize (F I).
    rewrite Q in F. cbn in F. lia. }
  rewrite G, P. cbn [bind]. destruct (of_decimal _); reflexivity.
Qed.
Lemma parsefloat_text ws sg body rest neg ip fp x :
  Forall is_byte (ws ++ sg ++ body ++ rest) -> Forall is_space_spec ws -> sign_ok sg body neg ->
  decimal_text body ip fp x -> longest (fun t => exists ip fp x, decimal_text t ip fp x) body rest -> ~ hex_prefix (body ++ rest) ->
  len (ip ++ fp) < 2^30 -> (forall n, body <> repeat 48 n ++ [46]) ->
  exists ds tx x', parsefloat_ mw ew of_decimal of_bitset ldexp capacity (ws ++ sg ++ body ++ rest) =
      (do v <- of_decimal (dec_of ds fp tx x'); Ok (mk_fparsed (with_sign mw ew neg (fabsb mw ew v)) (len (ws ++ sg ++ body)) (heq mw ew v (finf mw ew)))) /\
    capped x x' /\ (exists z, ip ++ fp = repeat 48 z ++ ds) /\ (ds = [] \/ exists c t, ds = c :: t /\ c <> 48) /\
    (exists ex d1 d2, ds = d1 ++ d2 /\ (tx = d1 ++ 46 :: d2 ++ ex ++ rest \/ tx = ds ++ ex ++ rest) /\ ~ starts dec_char (ex ++ rest) /\ (ex = [] \/ ~ starts (eq 46) (ex ++ rest))).
Proof.
  intros Hb Hws Hsg T L NH Hlen Hdang. pose proof (text_start _ _ _ _ T) as (c & t & Ec & Hc). destruct (start_lor c Hc) as (Bc & Lc & Sc).
  assert (Hb2 : Forall is_byte (sg ++ body ++ rest)) by (apply Forall_app in Hb; apply Hb).
  assert (Hb3 : Forall is_byte (body ++ rest)) by (apply Forall_app in Hb2; apply Hb2).
  assert (NS : ~ starts is_space_spec (sg ++ body ++ rest)).
  { destruct Hsg as [[-> _]|[[-> _]|[-> _]]]; [| |rewrite Ec]; cbn [app starts]; unfold is_space_spec, dec_char in *; cbn [In]; lia. }
  destruct (magnitude_text body ip fp x rest (len (ws ++ sg)) 0 T L NH Hb3 Hlen Hdang) as (ds & tx & x' & M & R). exists ds, tx, x'. split; [|exact R].
  unfold parsefloat_. rewrite skip_space_ok by auto. cbn [bind]. rewrite Z.add_0_l.
  assert (S : (if (cur (sg ++ body ++ rest) =? 45) || (cur (sg ++ body ++ rest) =? 43) then do t <- next (sg ++ body ++ rest); Ok (t, len ws + 1) else Ok (sg ++ body ++ rest, len ws)) = Ok (body ++ rest, len (ws ++ sg)) /\ (cur (sg ++ body ++ rest) =? 45) = neg).
  { rewrite app_length. destruct Hsg as [[-> ->]|[[-> ->]|(-> & -> & _)]]; cbn [app length].
    - split; [|reflexivity]. cbn. do 2 f_equal. lia.
    - split; [|reflexivity]. cbn. do 2 f_equal. lia.
    - rewrite Ec. cbn [app cur]. rewrite Sc. unfold dec_char in Hc. replace (c =? 45) with false by lia. replace (c =? 43) with false by lia. cbn [orb]. split; [|reflexivity]. do 2 f_equal. lia. }
  destruct S as [S1 S2]. rewrite S1. cbn [bind]. rewrite M, S2. destruct (of_decimal _); cbn [bind]; [|reflexivity|reflexivity].
  cbn [fpval fpend fperange]. do 2 f_equal. rewrite !app_length. lia.
Qed.
End Front.

(** ** the decimal handed on, when no digit was lost *)
Lemma lost_false ds m : Forall dec_char ds -> num ds mod 10^m = 0 -> 0 <= m -> len ds - 38 <= m -> lost ds = false /\ kept ds * 10^(len ds - Z.min 38 (len ds)) = num ds.
Proof.
  intros Hd Hm H0 HL. unfold lost, kept. pose proof (firstn_skipn 38 ds) as S. 
  assert (D1 : Forall dec_char (firstn 38 ds)) by (apply Forall_firstn; exact Hd).
  assert (D2 : Forall dec_char (skipn 38 ds)) by (rewrite <- S in Hd; apply Forall_app in Hd; apply Hd).
  assert (L2 : len (skipn 38 ds) = len ds - Z.min 38 (len ds)) by (rewrite skipn_length; lia).
  assert (E : num ds = num (firstn 38 ds) * 10^(len (skipn 38 ds)) + num (skipn 38 ds)) by (rewrite <- S at 1; apply num_app; assumption).
  pose proof (num_bound _ D2) as B2.
  assert (Z0 : num (skipn 38 ds) = 0).
  { assert (DV : (10^(len (skipn 38 ds)) | num (skipn 38 ds))).
    { replace (num (skipn 38 ds)) with (num ds - num (firstn 38 ds) * 10^(len (skipn 38 ds))) by (rewrite E; ring). apply Z.divide_sub_r; [|apply Z.divide_factor_r].
      apply Z.mod_divide in Hm; [|apply Z.pow_nonzero; lia]. apply Z.divide_trans with (2 := Hm). exists (10^(m - len (skipn 38 ds))). rewrite <- Z.pow_add_r by lia. f_equal. lia. }
    apply Z.mod_divide in DV; [|apply Z.pow_nonzero; lia]. rewrite Z.mod_small in DV by exact B2. exact DV. }
  split.
  - destruct (num_0 _ D2 Z0) as (a & ->). clear. induction a; [reflexivity|exact IHa].
  - rewrite <- L2. lia.
Qed.
Lemma dvalue_dec ds fp tx x : lost ds = false -> kept ds * 10^(len ds - Z.min 38 (len ds)) = num ds ->
  dvalue (dec_of ds fp tx x) = (IZR (num ds) * ten (x - len fp))%R.
Proof.
  intros L K. unfold dvalue, dec_of, mantissa. cbn [mant dec_exp]. rewrite L, <- K, mult_IZR.
  replace (len ds - len fp - Z.min 38 (len ds) + x) with ((len ds - Z.min 38 (len ds)) + (x - len fp)) by lia. rewrite ten_plus, ten_Z by lia. ring.
Qed.
Lemma kept_bound ds : Forall dec_char ds -> 0 <= kept ds < 10^38.
Proof.
  intros H. unfold kept. pose proof (num_bound (firstn 38 ds) (Forall_firstn _ 38 ds H)) as [A B]. split; [exact A|]. apply Z.lt_le_trans with (1 := B).
  apply Z.pow_le_mono_r; [lia|]. rewrite firstn_length. lia.
Qed.

Open Scope R_scope.
(** the saturated exponent does not change the rounded value *)
Lemma capped_same n a x x' b : (0 <= n < 10^a)%Z -> (0 <= a <= 30000)%Z -> forall f, (0 <= f <= 30000)%Z -> capped x x' ->
  rounds_to 52 11 (IZR n * ten (x' - f)) false b -> rounds_to 52 11 (IZR n * ten (x - f)) false b.
Proof.
  intros Hn Ha f Hf C R. destruct C as [->|[[C ->]|[C ->]]]; [exact R| |].
  - destruct (Z.eq_dec n 0) as [->|N]; [rewrite Rmult_0_l in *; exact R|].
    assert (G : forall y, (32000 <= y)%Z -> pow2 1024 <= IZR n * ten (y - f)).
    { intros y Hy. apply Rle_trans with (1 * ten (y - f)).
      - rewrite Rmult_1_l. apply Rle_trans with (1 := ten_big). apply ten_le. lia.
      - apply Rmult_le_compat_r; [left; apply ten_pos|]. apply IZR_le. lia. }
    destruct R as (R1 & R2 & R3 & R4). pose proof (RN_ge_1024 _ (G 32000%Z ltac:(lia))) as Q1. pose proof (RN_ge_1024 _ (G x C)) as Q2.
    unfold rounds_to in *. change (2^(11-1))%Z with 1024%Z in *. split; [exact R1|]. split; [exact R2|]. split; [intros; lra|]. intros _. apply R4. exact Q1.
  - assert (G : forall y, (y <= -32000)%Z -> 0 <= IZR n * ten (y - f) <= pow2 (-1075)).
    { intros y Hy. split; [apply Rmult_le_pos; [apply IZR_le; lia|left; apply ten_pos]|].
      apply Rle_trans with (ten a * ten (y - f)); [apply Rmult_le_compat_r; [left; apply ten_pos|]; rewrite ten_Z by lia; apply IZR_le; lia|].
      rewrite <- ten_plus. apply Rle_trans with (ten (-324)); [apply ten_le; lia|]. pose proof ten_small. apply Rle_trans with (pow2 (-1076)); [lra|apply bpow_le; lia]. }
    apply rounds_of_RN with (1 := R). rewrite !RN_tiny; try (change (emin 52 11 - 1)%Z with (-1075)%Z); try lia; auto; apply G; lia.
Qed.
Section Sign.
Variables mw ew : Z.
Hypothesis Hmw : (0 < mw)%Z.
Hypothesis Hew : (1 < ew)%Z.
Lemma mag_false x b : rounds_to mw ew x false b -> (0 <= b < 2^(mw + ew))%Z /\ fabsb mw ew b = b /\ (b <= finf mw ew)%Z.
Proof.
  intros (R1 & R2 & R3 & R4). unfold fbits, fneg in R1, R2. assert (B : (0 <= b < 2^(mw + ew))%Z) by lia.
  assert (A : fabsb mw ew b = b) by (apply Z.mod_small; exact B). split; [exact B|]. split; [exact A|].
  destruct (Rlt_le_dec (Rabs (RN mw ew x)) (bpow radix2 (2^(ew-1)))) as [Q|Q].
  - destruct (R3 Q) as [F _]. unfold ffinite in F. rewrite A in F. lia.
  - rewrite <- (R4 Q), A. lia.
Qed.
Lemma rounds_sign x b (neg : bool) : rounds_to mw ew x false b -> rounds_to mw ew (if neg then - x else x) neg (with_sign mw ew neg (fabsb mw ew b)) /\ fabsb mw ew (with_sign mw ew neg (fabsb mw ew b)) = b.
Proof.
  intros R. destruct (mag_false x b R) as (B & A & _). destruct R as (R1 & R2 & R3 & R4).
  rewrite A in *. destruct (with_sign_spec mw ew Hmw Hew neg b B) as (W3 & W2 & W1). split; [|exact W3].
  split; [exact W1|]. split; [exact W2|].
  assert (RR : Rabs (RN mw ew (if neg then - x else x)) = Rabs (RN mw ew x)) by (destruct neg; [rewrite RN_opp, Rabs_Ropp|]; reflexivity).
  rewrite RR, W3. split; [|exact R4]. intros Q. destruct (R3 Q) as [F V].
  assert (FF : ffinite mw ew (with_sign mw ew neg b) = true) by (unfold ffinite in *; rewrite W3; rewrite A in F; exact F).
  split; [exact FF|]. unfold fval. rewrite W2, W3. unfold fval in V. rewrite R2, A in V. destruct neg; [rewrite RN_opp, <- V|]; auto.
Qed.
Lemma finf_range : (0 < finf mw ew < 2^(mw + ew))%Z.
Proof.
  unfold finf. rewrite Z.pow_add_r by lia. assert (0 < 2^mw)%Z by (apply Z.pow_pos_nonneg; lia).
  assert (2^1 < 2^ew)%Z by (apply Z.pow_lt_mono_r; lia). change (2^1)%Z with 2%Z in *. split; [apply Z.mul_pos_pos; lia|]. rewrite (Z.mul_comm (2^mw)). apply Z.mul_lt_mono_pos_r; lia.
Qed.
Lemma heq_inf x b : rounds_to mw ew x false b -> heq mw ew b (finf mw ew) = (b =? finf mw ew)%Z.
Proof.
  intros R. destruct (mag_false x b R) as (B & A & N). pose proof finf_range as F. destruct R as (_ & R2 & _).
  assert (AF : fabsb mw ew (finf mw ew) = finf mw ew) by (apply Z.mod_small; lia).
  assert (NF : fneg mw ew (finf mw ew) = false) by (unfold fneg; lia).
  unfold heq, fisnan, ford. rewrite A, AF, R2, NF. replace (finf mw ew <? b)%Z with false by lia. rewrite Z.ltb_irrefl. reflexivity.
Qed.
End Sign.

(** ** strtod on a decimal constant *)
(** at most 18 significant digits; or at most 38 and a moderate exponent; or too large for a double; or 38 and not close to halfway *)
Definition easy (ip fp : list Z) (x : Z) : Prop :=
  (exists w i, num (ip ++ fp) = w * 10^i /\ 0 <= i /\ 0 <= w < 10^18)%Z \/
  (num (ip ++ fp) < 10^38)%Z /\ ((-54 <= x - len fp <= 54)%Z \/ far (decimal_value ip fp x) \/ pow2 1024 <= decimal_value ip fp x).
Lemma add_lost (P Q : Z -> Prop) (l : bool) : l = false -> (exists b, P b /\ Q b) -> exists b, P b /\ Q b /\ l = false.
Proof. intros ? (b & ? & ?). exists b. auto. Qed.
Lemma decimal_main ip fp x ds tx x' : Forall dec_char (ip ++ fp) -> (exists z, ip ++ fp = repeat 48 z ++ ds)%Z -> (ds = [] \/ exists c t, ds = c :: t /\ c <> 48%Z) ->
  (len (ip ++ fp) <= 30000)%Z -> capped x x' -> easy ip fp x ->
  exists b, decimal_to_double (dec_of ds fp tx x') = Ok b /\ rounds_to 52 11 (decimal_value ip fp x) false b /\ lost ds = false.
Proof.
  intros Hif (z & Ez) Dd Hlen C Hez.
  assert (Hds : Forall dec_char ds) by (rewrite Ez in Hif; apply Forall_app in Hif; apply Hif).
  assert (EN : num (ip ++ fp) = num ds) by (rewrite Ez; apply num_zeros; exact Hds).
  pose proof (num_bound ds Hds) as NB.
  assert (LD : (len ds <= len (ip ++ fp))%Z) by (rewrite Ez, app_length; lia).
  assert (LF : (len fp <= len (ip ++ fp))%Z) by (rewrite app_length; lia).
  assert (MIN : (ds <> [] -> 10^(len ds - 1) <= num ds)%Z).
  { intros N. destruct Dd as [->|(c & t & -> & Nc)]; [congruence|]. inversion Hds; subst. pose proof (num_pos c t ltac:(assumption) ltac:(assumption) Nc). cbn [length]. replace (Z.of_nat (S (length t)) - 1)%Z with (len t) by lia. assumption. }
  pose proof (kept_bound ds Hds) as KB.
  assert (GOAL : exists b, decimal_to_double (dec_of ds fp tx x') = Ok b /\ rounds_to 52 11 (IZR (num ds) * ten (x' - len fp)) false b /\ lost ds = false).
    { destruct Hez as [(w & i & Ew & Hi & Hw)|[N38 Hez]].
      - rewrite EN in Ew. assert (LI : (ds = [] \/ len ds <= 18 + i)%Z).
        { destruct Dd as [->|(c & t & E & Nc)]; [left; reflexivity|right]. assert (NE : ds <> []) by (rewrite E; discriminate). specialize (MIN NE).
          assert (H : (10^(len ds - 1) < 10^(18 + i))%Z). { rewrite Z.pow_add_r by lia. assert (0 < 10^i)%Z by (apply Z.pow_pos_nonneg; lia). nia. }
          destruct (Z.le_gt_cases (len ds) (18 + i)) as [Q|Q]; [exact Q|]. assert (10^(18 + i) <= 10^(len ds - 1))%Z by (apply Z.pow_le_mono_r; lia). lia. }
        assert (LI' : (len ds <= 18 + i)%Z) by (destruct LI as [Q|Q]; [rewrite Q; cbn [length]|]; lia).
        destruct (lost_false ds i Hds) as [LF1 LF2]; try lia; [rewrite Ew; apply Z.mod_mul; apply Z.pow_nonzero; lia|].
        rewrite <- (dvalue_dec ds fp tx x') by assumption. apply (add_lost _ _ _ LF1).
        assert (KI : (kept ds = w * 10^(i - (len ds - Z.min 38 (len ds))))%Z).
        { assert (P0 : (0 < 10^(len ds - Z.min 38 (len ds)))%Z) by (apply Z.pow_pos_nonneg; lia). apply (Z.mul_reg_r _ _ (10^(len ds - Z.min 38 (len ds)))); [lia|].
          rewrite LF2, Ew, <- Z.mul_assoc, <- Z.pow_add_r by lia. do 2 f_equal. lia. }
        assert (MD : mant (dec_of ds fp tx x') = kept ds) by (cbn [mant dec_of]; unfold mantissa; rewrite LF1; reflexivity).
        apply decimal_18 with w (i - (len ds - Z.min 38 (len ds)))%Z; [rewrite MD; exact KI|lia|exact Hw|rewrite MD; lia|exact LF1].
      - rewrite EN in N38. assert (L38 : (len ds <= 38)%Z).
        { destruct Dd as [->|(c & t & E & Nc)]; [cbn; lia|]. assert (NE : ds <> []) by (rewrite E; discriminate). specialize (MIN NE).
          assert (H : (10^(len ds - 1) < 10^38)%Z) by lia. destruct (Z.le_gt_cases (len ds) 38) as [Q|Q]; [exact Q|]. assert (10^38 <= 10^(len ds - 1))%Z by (apply Z.pow_le_mono_r; lia). lia. }
        destruct (lost_false ds 0 Hds (Z.mod_1_r _) ltac:(lia) ltac:(lia)) as [LF1 LF2].
        rewrite <- (dvalue_dec ds fp tx x') by assumption. apply (add_lost _ _ _ LF1).
        assert (MD : mant (dec_of ds fp tx x') = kept ds) by (cbn [mant dec_of]; unfold mantissa; rewrite LF1; reflexivity).
        assert (DE : dec_exp (dec_of ds fp tx x') = (x' - len fp)%Z) by (cbn [dec_exp dec_of]; lia).
        pose proof (dvalue_dec ds fp tx x' LF1 LF2) as DV.
        destruct C as [EX|C].
        + subst x'. apply decimal_rounds; [rewrite MD; exact KB|exact LF1|]. rewrite DE, DV. unfold decimal_value in Hez. rewrite EN in Hez. exact Hez.
        + (* a saturated exponent *)
          apply decimal_rounds; [rewrite MD; exact KB|exact LF1|]. destruct (Z.eq_dec (num ds) 0) as [N0|N0].
          { right. left. rewrite DV, N0, Rmult_0_l. intros m Hm Pm. rewrite Rmult_0_r. apply Rabs_pos_lt. lra. }
          right. rewrite DV. destruct C as [[C1 ->]|[C1 ->]].
          * right. apply Rle_trans with (1 * ten (32000 - len fp)); [rewrite Rmult_1_l; apply Rle_trans with (1 := ten_big); apply ten_le; lia|].
            apply Rmult_le_compat_r; [left; apply ten_pos|]. apply IZR_le. lia.
          * left. apply far_tiny. split; [apply Rmult_lt_0_compat; [apply IZR_lt; lia|apply ten_pos]|].
            apply Rle_lt_trans with (ten 38 * ten (-32000 - len fp)); [apply Rmult_le_compat_r; [left; apply ten_pos|]; rewrite ten_Z by lia; apply IZR_le; lia|].
            rewrite <- ten_plus. apply Rle_lt_trans with (ten (-324)); [apply ten_le; lia|exact ten_small]. }
    destruct GOAL as (b & E & R & LL). exists b. split; [exact E|]. split; [|exact LL]. unfold decimal_value. rewrite EN. apply (capped_same (num ds) (len ds) x x'); [exact NB|lia|lia|exact C|exact R].
Qed.
Theorem strtod_decimal ws sg body rest neg ip fp x :
  Forall is_byte (ws ++ sg ++ body ++ rest) -> Forall is_space_spec ws -> sign_ok sg body neg ->
  decimal_text body ip fp x -> longest (fun t => exists ip fp x, decimal_text t ip fp x) body rest -> ~ hex_prefix (body ++ rest) ->
  (len (ip ++ fp) <= 30000)%Z -> (forall n, body <> repeat 48 n ++ [46])%Z -> easy ip fp x ->
  exists v erange, strtod (ws ++ sg ++ body ++ rest) = Ok (mk_fparsed v (len (ws ++ sg ++ body)) erange) /\
    rounds_to 52 11 (if neg then - decimal_value ip fp x else decimal_value ip fp x) neg v /\ erange = fisinf 52 11 v.
Proof.
  intros Hb Hws Hsg T L NH Hlen Hdang Hez.
  destruct (parsefloat_text 52 11 decimal_to_double ofZ64 scalbn 16 ws sg body rest neg ip fp x Hb Hws Hsg T L NH ltac:(lia) Hdang) as (ds & tx & x' & P & C & (z & Ez) & Dd & _).
  unfold strtod. rewrite P.
  assert (Hif : Forall dec_char (ip ++ fp)) by (destruct T as (? & ? & _ & _ & _ & ? & ? & _); apply Forall_app; auto).
  destruct (decimal_main ip fp x ds tx x' Hif (ex_intro _ z Ez) Dd Hlen C Hez) as (b & E & R & _).
  rewrite E. cbn [bind]. destruct (rounds_sign 52 11 eq_refl eq_refl _ b neg R) as [RS AB].
  eexists _, _. split; [reflexivity|]. split; [exact RS|]. unfold fisinf. rewrite AB. apply (heq_inf 52 11 eq_refl eq_refl _ _ R).
Qed.

(** ** strtof: through double *)
Lemma narrow x b : rounds_to 52 11 x false b -> (halfway (-149) 24 (RN 52 11 x) -> RN 52 11 x = x) -> rounds_to 23 8 x false (d2f b).
Proof.
  intros R NH. destruct (Rlt_le_dec (Rabs (RN 52 11 x)) (bpow radix2 (2^(11-1)))) as [Q|Q].
  - destruct R as (R1 & R2 & R3 & R4). destruct (R3 Q) as [F V]. pose proof (d2f_round b R1 F) as D. rewrite V, R2 in D. apply (rounds_of_RN 23 8 _ _ _ _ D).
    destruct (Classical_Prop.classic (halfway (-149) 24 (RN 52 11 x))) as [H|H]; [rewrite (NH H); reflexivity|].
    unfold RN in *. change (emin 23 8) with (-149)%Z in *. change (23 + 1)%Z with 24%Z in *. symmetry. apply (round_twice (-149) 24 (emin 52 11) (52 + 1)); try (vm_compute; congruence). exact H.
  - destruct (mag_false 52 11 x b R) as (_ & A & _). destruct R as (_ & _ & _ & R4). specialize (R4 Q). rewrite A in R4. subst b.
    replace (d2f (finf 52 11)) with (finf 23 8) by (vm_compute; reflexivity).
    assert (BIG : pow2 1023 <= Rabs x).
    { apply Rnot_lt_le. intros L. assert (Rabs (RN 52 11 x) <= pow2 1023).
      { apply abs_round_le_generic; [apply FLT_exp_valid; reflexivity|apply valid_rnd_N|apply generic_format_bpow; vm_compute; discriminate|lra]. }
      assert (pow2 1023 < bpow radix2 (2^(11-1))) by (apply bpow_lt; vm_compute; reflexivity). lra. }
    assert (B2 : bpow radix2 (2^(8-1)) <= Rabs (RN 23 8 x)).
    { apply Rle_trans with (pow2 1023); [apply bpow_le; vm_compute; discriminate|].
      apply abs_round_ge_generic; [apply FLT_exp_valid; reflexivity|apply valid_rnd_N|apply generic_format_bpow; vm_compute; discriminate|exact BIG]. }
    split; [split; vm_compute; [discriminate|reflexivity]|]. split; [reflexivity|]. split; [intros; lra|intros _; vm_compute; reflexivity].
Qed.
Theorem strtof_decimal ws sg body rest neg ip fp x :
  Forall is_byte (ws ++ sg ++ body ++ rest) -> Forall is_space_spec ws -> sign_ok sg body neg ->
  decimal_text body ip fp x -> longest (fun t => exists ip fp x, decimal_text t ip fp x) body rest -> ~ hex_prefix (body ++ rest) ->
  (len (ip ++ fp) <= 30000)%Z -> (forall n, body <> repeat 48 n ++ [46])%Z -> easy ip fp x ->
  (halfway (-149) 24 (RN 52 11 (decimal_value ip fp x)) -> RN 52 11 (decimal_value ip fp x) = decimal_value ip fp x) ->
  exists v erange, strtof (ws ++ sg ++ body ++ rest) = Ok (mk_fparsed v (len (ws ++ sg ++ body)) erange) /\
    rounds_to 23 8 (if neg then - decimal_value ip fp x else decimal_value ip fp x) neg v /\ erange = fisinf 23 8 v.
Proof.
  intros Hb Hws Hsg T L NH Hlen Hdang Hez Hhalf.
  destruct (parsefloat_text 23 8 decimal_to_float ofZ32 scalbnf 8 ws sg body rest neg ip fp x Hb Hws Hsg T L NH ltac:(lia) Hdang) as (ds & tx & x' & P & C & (z & Ez) & Dd & _).
  unfold strtof. rewrite P.
  assert (Hif : Forall dec_char (ip ++ fp)) by (destruct T as (? & ? & _ & _ & _ & ? & ? & _); apply Forall_app; auto).
  destruct (decimal_main ip fp x ds tx x' Hif (ex_intro _ z Ez) Dd Hlen C Hez) as (b & E & R & LL).
  unfold decimal_to_float. rewrite E. cbn [bind]. change (truncated (dec_of ds fp tx x')) with (lost ds). rewrite LL, andb_false_r.
  apply narrow in R; [|exact Hhalf]. destruct (rounds_sign 23 8 eq_refl eq_refl _ _ neg R) as [RS AB].
  eexists _, _. split; [reflexivity|]. split; [exact RS|]. unfold fisinf. rewrite AB. apply (heq_inf 23 8 eq_refl eq_refl _ _ R).
Qed.
