(** strtod and strtof on hexadecimal constants. *)
From Coq Require Import Reals Lra.
From Flocq Require Import Core.
From Verif Require Import Base Bits FP FP_Proof Rne Midpoint Ctype_Spec Stdlib_Spec Stdlib_Model Stdlib_Proof HW HW_Proof Math_Model Math_Scalbn_Proof Strtod_Spec Strtod_Model Strtod_Arith_Proof Strtod_Parse_Proof Strtod_Proof Strtod_Hex_Proof Strtod_HexRound_Proof.
Open Scope Z_scope.
Local Ltac Zify.zify_post_hook ::= idtac.

Notation hexP := (fun t => exists ip fp x, hex_text t ip fp x).
Lemma hex_end c ip dot fp ex x rest : (c = 120 \/ c = 88) ->
  (dot = [] /\ fp = [] \/ dot = [46]) -> exp_part (fun c => c = 112 \/ c = 80) ex x -> Forall hex_char ip -> Forall hex_char fp -> ip ++ fp <> [] ->
  longest hexP (48 :: c :: ip ++ dot ++ fp ++ ex) rest ->
  (ex = [] -> ~ starts hex_char rest) /\ (ex <> [] -> ~ starts dec_char rest) /\ (ex = [] -> dot = [] -> ~ starts (eq 46) rest) /\ (ex = [] -> ~ pexp_starts rest).
Proof.
  intros Hcx Hd Hx Hi Hf Hn [_ HL].
  assert (K : forall more rest' ip' fp' x', rest = more ++ rest' -> more <> [] -> constant hex_char (fun c => c = 112 \/ c = 80) ((ip ++ dot ++ fp ++ ex) ++ more) ip' fp' x' -> False).
  { intros more rest' ip' fp' x' E N T. specialize (HL (48 :: c :: (ip ++ dot ++ fp ++ ex) ++ more) rest'). rewrite E in HL.
    assert (T' : hex_text (48 :: c :: (ip ++ dot ++ fp ++ ex) ++ more) ip' fp' x') by (exists c, ((ip ++ dot ++ fp ++ ex) ++ more); auto).
    specialize (HL ltac:(cbn [app]; rewrite <- !app_assoc; reflexivity) (ex_intro _ ip' (ex_intro _ fp' (ex_intro _ x' T')))). cbn [length] in HL. rewrite app_length in HL. destruct more; [congruence|cbn [length] in HL; lia]. }
  split; [|split; [|split]].
  - intros ->. destruct rest as [|y r]; cbn [starts]; [auto|]. intros Hc. rewrite app_nil_r in K. destruct Hd as [[-> ->]| ->].
    + apply (K [y] r (ip ++ [y]) [] 0 eq_refl ltac:(discriminate)). exists [], []. cbn [app]. rewrite !app_nil_r. repeat split; auto.
      * left. auto.
      * apply Forall_app. auto.
      * intros E. apply app_eq_nil in E. destruct E; discriminate.
    + apply (K [y] r ip (fp ++ [y]) 0 eq_refl ltac:(discriminate)). exists [46], []. rewrite app_nil_r, <- !app_assoc. repeat split; auto.
      * left. auto.
      * apply Forall_app. auto.
      * intros E. apply app_eq_nil in E. destruct E as [_ E]. apply app_eq_nil in E. destruct E; discriminate.
  - intros Nex. destruct rest as [|y r]; cbn [starts]; [auto|]. intros Hc.
    destruct Hx as [[-> _]|(l & sg & ds & E & Hl & Hds & Nds & S)]; [congruence|].
    assert (T : exists x', constant hex_char (fun c => c = 112 \/ c = 80) ((ip ++ dot ++ fp ++ ex) ++ [y]) ip fp x').
    { exists (match sg with [45] => - num (ds ++ [y]) | _ => num (ds ++ [y]) end). exists dot, (ex ++ [y]). rewrite <- !app_assoc. repeat split; auto.
      right. exists l, sg, (ds ++ [y]). rewrite E. cbn [app]. rewrite <- app_assoc. repeat split; auto.
      - apply Forall_app. auto.
      - intros Q. apply app_eq_nil in Q. destruct Q; discriminate.
      - destruct S as [[-> _]|[[-> | ->] _]]; auto. }
    destruct T as (x' & T). exact (K [y] r ip fp x' eq_refl ltac:(discriminate) T).
  - intros -> ->. destruct Hd as [[_ ->]|]; [|discriminate]. destruct rest as [|y r]; cbn [starts]; [auto|]. intros <-.
    cbn [app] in K. rewrite !app_nil_r in *. apply (K [46] r ip [] 0 eq_refl ltac:(discriminate)). exists [46], []. cbn [app]. rewrite !app_nil_r. repeat split; auto. left. auto.
  - intros -> (y & sg & d & t & E & Hc & Hsg & Hdd). rewrite app_nil_r in K.
    apply (K (y :: sg ++ [d]) t ip fp (match sg with [45] => - num [d] | _ => num [d] end)); [rewrite E; cbn [app]; rewrite <- app_assoc; reflexivity|discriminate|].
    exists dot, (y :: sg ++ [d]). rewrite <- !app_assoc. repeat split; auto. right. exists y, sg, [d]. repeat split; auto; [discriminate|].
    destruct Hsg as [->|[->| ->]]; auto.
Qed.

Section Text.
Variables mw ew cap : Z.
Hypothesis Hw : mw + ew + 1 - 4 * cap = 0.
Hypothesis Hcap : 0 < cap < 100.
Lemma parsehex_text c t ip fp x rest k : (c = 120 \/ c = 88) ->
  constant hex_char (fun c => c = 112 \/ c = 80) t ip fp x -> longest hexP (48 :: c :: t) rest -> Forall is_byte rest ->
  len (ip ++ fp) < 2^28 -> (forall n, t <> repeat 48 n ++ [46]) ->
  exists ds x', parsehex (mw + ew + 1) cap (t ++ rest) k = Ok (hmant cap ds, 4 * (len ds - len fp - Z.min cap (len ds)) + x', k + len t) /\ capped x x' /\ Z.abs x' <= 32000 /\
    (exists z, ip ++ fp = repeat 48 z ++ ds) /\ (ds = [] \/ exists c t, ds = c :: t /\ c <> 48).
Proof.
  intros Hcx (dot & ex & E & Hd & Hx & Hi & Hf & Hn) HL Hb Hlen Hdang. rewrite E in HL.
  destruct (hex_end c ip dot fp ex x rest Hcx Hd Hx Hi Hf Hn HL) as (L1 & L1' & L2 & L3).
  assert (X : Forall is_byte ex /\ ~ starts hex_char (ex ++ rest) /\ (dot = [] -> ~ starts (eq 46) (ex ++ rest)) /\
     exists x', capped x x' /\ Z.abs x' <= 32000 /\ forall kk e1, (ex = [] -> e1 = kk) -> parseexp 112 (ex ++ rest) kk e1 = (x', kk + len ex)).
  { destruct Hx as [[-> ->]|(y & sg & ds & Eex & Hc & Hds & Nds & S)].
    - cbn [app]. repeat split; auto. exists 0. split; [left; reflexivity|]. split; [lia|]. intros kk e1 He. rewrite parsep_none by auto. rewrite He by reflexivity. f_equal. cbn. lia.
    - assert (SG : sg = [] \/ sg = [43] \/ sg = [45]) by tauto.
      assert (NE : ex <> []) by (rewrite Eex; discriminate).
      split; [|split; [|split]].
      + rewrite Eex. constructor; [unfold is_byte; lia|]. apply Forall_app. split; [destruct SG as [->|[->| ->]]; repeat constructor; unfold is_byte; lia|apply Forall_dec_byte; exact Hds].
      + rewrite Eex. cbn [app starts]. intros (d & Q & L). destruct Hc as [->| ->]; injection Q as <-; lia.
      + intros _. rewrite Eex. cbn [app starts]. lia.
      + exists (match sg with [45] => -1 | _ => 1 end * cap_exp (num ds)). pose proof (num_bound ds Hds) as [NB _]. destruct (cap_capped (num ds)) as (C1 & C2 & C3). specialize (C3 NB).
        split; [|split].
        * destruct S as [[-> ->]|[[->| ->] ->]]; [replace (-1 * cap_exp (num ds)) with (- cap_exp (num ds)) by lia; exact C2| |]; rewrite Z.mul_1_l; exact C1.
        * destruct SG as [->|[->| ->]]; lia.
        * intros kk e1 _. rewrite Eex. cbn [app]. rewrite <- app_assoc. apply parsep_some; auto. }
  destruct X as (Bex & X1 & X2 & x' & Cx & Ax & PE).
  assert (Bs : Forall is_byte (ex ++ rest)) by (apply Forall_app; auto).
  set (T := len (ip ++ dot ++ fp)).
  assert (DANG : ex = [] -> fp = [] -> dot = [46] -> hexnum ip = 0 -> False).
  { intros -> -> -> H4. destruct (hexnum_0 ip Hi H4) as (a & EI). apply (Hdang a). rewrite E, EI, !app_nil_r. reflexivity. }
  destruct (parsehex_gen (mw + ew + 1) cap Hw ltac:(lia) ip dot fp (ex ++ rest) k x' (fun e1 => match ex with [] => e1 | _ => k + T + len ex end) Hi Hf Hd Hn Bs) as (ds & e1 & P & A1 & A2 & A4).
  - split; assumption.
  - intros e1 H1. destruct H1 as [H1|(H1 & H2 & H3 & H4)].
    + rewrite PE by auto. f_equal. destruct ex; [cbn [length]; lia|reflexivity].
    + destruct ex as [|y ex]; [|apply PE; discriminate]. destruct (DANG eq_refl H2 H3 H4).
  - lia.
  - exists ds, x'. rewrite E, <- !app_assoc. rewrite P. split; [|split; [exact Cx|split; [exact Ax|split; [exact A1|exact A2]]]].
    do 2 f_equal. unfold T. destruct ex as [|y ex].
    + destruct A4 as [A4|(A4 & A5 & A6 & A7)]; [rewrite app_nil_r; exact A4|]. destruct (DANG eq_refl A5 A6 A7).
    + rewrite !app_length. lia.
Qed.

Variable of_decimal : decimal -> res Z.
Variable of_bitset : Z -> Z.
Variable ldexp : Z -> Z -> res Z.
Lemma parsefloat_hex ws sg body rest neg ip fp x :
  Forall is_byte (ws ++ sg ++ body ++ rest) -> Forall is_space_spec ws -> sign_ok sg body neg ->
  hex_text body ip fp x -> longest hexP body rest -> len (ip ++ fp) < 2^28 -> (forall n c, body <> 48 :: c :: repeat 48 n ++ [46]) ->
  exists ds x', parsefloat_ mw ew of_decimal of_bitset ldexp cap (ws ++ sg ++ body ++ rest) =
      (do v <- ldexp (of_bitset (hmant cap ds)) (4 * (len ds - len fp - Z.min cap (len ds)) + x'); Ok (mk_fparsed (with_sign mw ew neg (fabsb mw ew v)) (len (ws ++ sg ++ body)) (heq mw ew v (finf mw ew)))) /\
    capped x x' /\ Z.abs x' <= 32000 /\ (exists z, ip ++ fp = repeat 48 z ++ ds) /\ (ds = [] \/ exists c t, ds = c :: t /\ c <> 48).
Proof.
  intros Hb Hws Hsg T L Hlen Hdang.
  assert (Hb2 : Forall is_byte (sg ++ body ++ rest)) by (apply Forall_app in Hb; apply Hb).
  assert (Hb3 : Forall is_byte (body ++ rest)) by (apply Forall_app in Hb2; apply Hb2).
  assert (Brest : Forall is_byte rest) by (apply Forall_app in Hb3; apply Hb3).
  destruct T as (c & t & Eb & Hcx & TT). subst body.
  assert (NS : ~ starts is_space_spec (sg ++ (48 :: c :: t) ++ rest)).
  { destruct Hsg as [[-> _]|[[-> _]|[-> _]]]; cbn [app starts]; unfold is_space_spec; cbn [In]; lia. }
  destruct (parsehex_text c t ip fp x rest (len (ws ++ sg) + 2) Hcx TT L Brest Hlen (fun n => fun Q => Hdang n c ltac:(rewrite Q; reflexivity))) as (ds & x' & P & R). exists ds, x'. split; [|exact R].
  unfold parsefloat_. rewrite skip_space_ok by auto. cbn [bind]. rewrite Z.add_0_l.
  set (body := 48 :: c :: t) in *.
  assert (S : (if (cur (sg ++ body ++ rest) =? 45) || (cur (sg ++ body ++ rest) =? 43) then do t <- next (sg ++ body ++ rest); Ok (t, len ws + 1) else Ok (sg ++ body ++ rest, len ws)) = Ok (body ++ rest, len (ws ++ sg)) /\ (cur (sg ++ body ++ rest) =? 45) = neg).
  { rewrite app_length. destruct Hsg as [[-> ->]|[[-> ->]|(-> & -> & _)]]; cbn [app length].
    - split; [|reflexivity]. cbn. do 2 f_equal. lia.
    - split; [|reflexivity]. cbn. do 2 f_equal. lia.
    - unfold body. cbn. split; [|reflexivity]. do 2 f_equal. lia. }
  destruct S as [S1 S2]. rewrite S1. cbn [bind]. rewrite S2.
  assert (M : magnitude_ mw ew of_decimal of_bitset ldexp cap (body ++ rest) (len (ws ++ sg)) 0 =
    (do v <- ldexp (of_bitset (hmant cap ds)) (4 * (len ds - len fp - Z.min cap (len ds)) + x'); Ok (mk_fparsed v (len (ws ++ sg ++ body)) (heq mw ew v (finf mw ew))))).
  { unfold magnitude_, body. cbn [app].
    change (match_ (48 :: c :: t ++ rest) [105; 110; 102; 105; 110; 105; 116; 121]) with 0. change (match_ (48 :: c :: t ++ rest) [110; 97; 110]) with 0.
    change (3 <=? 0) with false. change (0 =? 3) with false. cbv iota.
    replace ((s8 48 =? 48) && (Z.lor (s8 c) 32 =? 120)) with true by (destruct Hcx as [->| ->]; reflexivity).
    rewrite P. cbn [bind]. destruct (ldexp _ _); cbn [bind]; [|reflexivity|reflexivity]. do 2 f_equal. rewrite !app_length. cbn [length]. lia. }
  rewrite M. destruct (ldexp _ _); reflexivity.
Qed.

Hypothesis Hmw : 0 < mw.
Hypothesis Hew : 1 < ew <= 11.
Hypothesis Hgap : mw + 1 + 5 <= 4 * cap - 3.
Hypothesis Hfin : 4 * cap < 2^(ew - 1).
Hypothesis Hof : forall n, rounds_to mw ew (IZR n) (n <? 0) (of_bitset n).
Hypothesis Hld : forall x n, is_i32 n -> fbits mw ew x -> ffinite mw ew x = true -> exists r, ldexp x n = Ok r /\ rounds_to mw ew (fval mw ew x * bpow radix2 n) (fneg mw ew x) r.

Open Scope R_scope.
Notation pow2 := (bpow radix2).
Lemma two_pow k : two k = pow2 k.
Proof. unfold two. destruct (Z.leb_spec 0 k); [apply pow2_Z; assumption|]. rewrite pow2_Z by lia. rewrite <- bpow_opp. f_equal. lia. Qed.
Lemma small_exp : (2^(ew - 1) <= 1024 /\ -1500 <= emin mw ew /\ emin mw ew + mw <= 2)%Z.
Proof. assert (2^(ew - 1) <= 2^10)%Z by (apply Z.pow_le_mono_r; lia). unfold emin. assert (mw < 400)%Z by lia. change (2^10)%Z with 1024%Z in *. assert (0 < 2^(ew - 1))%Z by (apply Z.pow_pos_nonneg; lia). lia. Qed.
Lemma capped_hex n a f x x' b : (0 <= n < 2^a)%Z -> (0 <= a <= 30000)%Z -> (0 <= f <= 30000)%Z -> capped x x' ->
  rounds_to mw ew (IZR n * pow2 (x' - f)) false b -> rounds_to mw ew (IZR n * pow2 (x - f)) false b.
Proof.
  intros Hn Ha Hf C R. pose proof small_exp as (SE1 & SE2 & SE3). destruct C as [->|[[C ->]|[C ->]]]; [exact R| |].
  - destruct (Z.eq_dec n 0) as [->|N]; [rewrite Rmult_0_l in *; exact R|].
    assert (G : forall y, (32000 <= y)%Z -> pow2 (2^(ew - 1)) <= Rabs (RN mw ew (IZR n * pow2 (y - f)))).
    { intros y Hy. unfold RN. apply abs_round_ge_generic; [apply FLT_exp_valid; unfold Prec_gt_0; lia|apply valid_rnd_N|apply generic_format_bpow; unfold FLT_exp, emin; lia|].
      rewrite Rabs_pos_eq by (apply Rmult_le_pos; [apply IZR_le; lia|apply bpow_ge_0]).
      apply Rle_trans with (1 * pow2 (y - f)); [rewrite Rmult_1_l; apply bpow_le; lia|]. apply Rmult_le_compat_r; [apply bpow_ge_0|]. apply IZR_le. lia. }
    destruct R as (R1 & R2 & R3 & R4). pose proof (G 32000%Z ltac:(lia)) as Q1. pose proof (G x C) as Q2.
    split; [exact R1|]. split; [exact R2|]. split; [intros; lra|]. intros _. apply R4. exact Q1.
  - assert (G : forall y, (y <= -32000)%Z -> 0 <= IZR n * pow2 (y - f) <= pow2 (emin mw ew - 1)).
    { intros y Hy. split; [apply Rmult_le_pos; [apply IZR_le; lia|apply bpow_ge_0]|].
      apply Rle_trans with (pow2 a * pow2 (y - f)); [apply Rmult_le_compat_r; [apply bpow_ge_0|]; rewrite <- pow2_Z by lia; apply IZR_le; lia|].
      rewrite <- bpow_plus. apply bpow_le. lia. }
    apply rounds_of_RN with (1 := R). rewrite !RN_tiny; try lia; auto; apply G; lia.
Qed.
Theorem strtod_hex_gen ws sg body rest neg ip fp x :
  Forall is_byte (ws ++ sg ++ body ++ rest) -> Forall is_space_spec ws -> sign_ok sg body neg ->
  hex_text body ip fp x -> longest hexP body rest -> (len (ip ++ fp) <= 7500)%Z -> (forall n c, body <> 48 :: c :: repeat 48 n ++ [46])%Z ->
  (pow2 (emin mw ew + mw) <= hex_value ip fp x \/ exists u i, (hexnum (ip ++ fp) = u * 2^i /\ 0 <= i /\ 0 <= u < 2^(mw + 1))%Z) ->
  exists v erange, parsefloat_ mw ew of_decimal of_bitset ldexp cap (ws ++ sg ++ body ++ rest) = Ok (mk_fparsed v (len (ws ++ sg ++ body)) erange) /\
    rounds_to mw ew (if neg then - hex_value ip fp x else hex_value ip fp x) neg v /\ erange = fisinf mw ew v.
Proof.
  intros Hb Hws Hsg T L Hlen Hdang HT.
  destruct (parsefloat_hex ws sg body rest neg ip fp x Hb Hws Hsg T L ltac:(lia) Hdang) as (ds & x' & P & C & AX & (z & Ez) & Dd). rewrite P.
  assert (Hif : Forall hex_char (ip ++ fp)) by (destruct T as (? & ? & _ & _ & (? & ? & _ & _ & _ & ? & ? & _)); apply Forall_app; auto).
  assert (Hds : Forall hex_char ds) by (rewrite Ez in Hif; apply Forall_app in Hif; apply Hif).
  assert (EN : hexnum (ip ++ fp) = hexnum ds) by (rewrite Ez; apply hexnum_zeros).
  assert (LD : (len ds <= len (ip ++ fp))%Z) by (rewrite Ez, app_length; lia).
  assert (LF : (len fp <= len (ip ++ fp))%Z) by (rewrite app_length; lia).
  pose proof (hexnum_bound ds Hds) as NB. rewrite pow16 in NB by lia.
  set (n := (4 * (len ds - len fp - Z.min cap (len ds)) + x')%Z) in *.
  assert (EX : (n - 4 * (len ds - Z.min cap (len ds)) = x' - 4 * len fp)%Z) by (unfold n; lia).
  pose proof small_exp as (SE1 & SE2 & SE3).
  assert (HV : hex_value ip fp x = IZR (hexnum ds) * pow2 (x - 4 * len fp)) by (unfold hex_value; rewrite EN, two_pow; reflexivity).
  assert (HT' : tame mw ew (hexnum ds) (IZR (hexnum ds) * pow2 (x' - 4 * len fp))).
  { unfold tame. destruct HT as [HT|HT]; [|right; rewrite <- EN; exact HT]. destruct C as [->|[[C ->]|[C ->]]]; [left; rewrite <- HV; exact HT| |].
    - destruct (Z.eq_dec (hexnum ds) 0) as [Z0|Z0]; [right; exists 0%Z, 0%Z; rewrite Z0; split; [reflexivity|]; split; [lia|]; split; [lia|apply Z.pow_pos_nonneg; lia]|].
      left. apply Rle_trans with (1 * pow2 (32000 - 4 * len fp)); [rewrite Rmult_1_l; apply bpow_le; lia|]. apply Rmult_le_compat_r; [apply bpow_ge_0|]. apply IZR_le. lia.
    - exfalso. rewrite HV in HT. apply (Rlt_irrefl (pow2 (emin mw ew + mw))). apply Rle_lt_trans with (1 := HT).
      apply Rlt_le_trans with (pow2 (4 * len ds) * pow2 (x - 4 * len fp)); [apply Rmult_lt_compat_r; [apply bpow_gt_0|]; rewrite <- pow2_Z by lia; apply IZR_lt; lia|].
      rewrite <- bpow_plus. apply bpow_le. lia. }
  rewrite <- EX in HT'.
  destruct (hex_rounds mw ew cap Hmw ltac:(lia) ltac:(lia) Hgap Hfin of_bitset ldexp Hof Hld ds n Hds Dd ltac:(unfold is_i32, INT_MIN, INT_MAX, n; lia) HT') as (b & E & R).
  rewrite EX in R. apply (capped_hex (hexnum ds) (4 * len ds) (4 * len fp) x x') in R; [|exact NB|lia|lia|exact C]. rewrite <- HV in R.
  rewrite E. cbn [bind]. destruct (rounds_sign mw ew Hmw ltac:(lia) _ b neg R) as [RS AB].
  eexists _, _. split; [reflexivity|]. split; [exact RS|]. unfold fisinf. rewrite AB. apply (heq_inf mw ew Hmw ltac:(lia) _ _ R).
Qed.
End Text.
