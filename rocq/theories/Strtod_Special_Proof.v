(** strtod and strtof: infinities, NaNs, and texts that are not numbers. *)
From Verif Require Import Base FP FP_Proof Ctype_Spec Stdlib_Spec Stdlib_Model Stdlib_Proof HW HW_Proof Math_Model Strtod_Spec Strtod_Model Strtod_Parse_Proof.
Open Scope Z_scope.
Local Ltac Zify.zify_post_hook ::= idtac.

Lemma lor_lower c b : is_byte c -> 97 <= b <= 122 -> (Z.lor (s8 c) 32 =? b) = (lower c =? b).
Proof.
  intros Hc Hb. apply eqb_prop. assert (H : forallb (fun b => forallb (fun c => Bool.eqb (Z.lor (s8 c) 32 =? b) (lower c =? b)) (map Z.of_nat (seq 0 256))) (map Z.of_nat (seq 97 26)) = true) by (vm_compute; reflexivity).
  rewrite forallb_forall in H. specialize (H b). rewrite in_map_iff in H. specialize (H ltac:(exists (Z.to_nat b); split; [lia|apply in_seq; lia])).
  rewrite forallb_forall in H. apply H. rewrite in_map_iff. unfold is_byte in Hc. exists (Z.to_nat c). split; [lia|apply in_seq; lia].
Qed.
Lemma match_nil s : match_ s [] = 0. Proof. destruct s; reflexivity. Qed.
Definition letters (t : list Z) : Prop := Forall (fun b => 97 <= b <= 122) t.
Lemma match_full t : letters t -> forall body rest, Forall is_byte body -> map lower body = t -> match_ (body ++ rest) t = len t.
Proof.
  induction 1 as [|b t Hb Ht IH]; intros body rest Hby E; [destruct body; [destruct rest; reflexivity|discriminate]|]. destruct body as [|c body]; [discriminate|]. cbn [map] in E. injection E as E1 E2.
  inversion Hby; subst. cbn [app match_]. rewrite lor_lower by assumption. rewrite Z.eqb_refl. rewrite IH by auto. cbn [length]. rewrite map_length. lia.
Qed.
Lemma match_le s t : 0 <= match_ s t <= len t.
Proof. revert s. induction t as [|b t IH]; intros s; [rewrite match_nil; cbn; lia|]. destruct s as [|c s]; cbn [match_ length]; [lia|]. destruct (_ =? b); [specialize (IH s)|]; lia. Qed.
Lemma match_all t : letters t -> forall s, Forall is_byte s -> match_ s t = len t -> map lower (firstn (length t) s) = t.
Proof.
  induction 1 as [|b t Hb Ht IH]; intros s Hs E; [reflexivity|]. destruct s as [|c s]; cbn [match_ length] in *; [lia|]. inversion Hs; subst.
  rewrite lor_lower in E by assumption. destruct (Z.eqb_spec (lower c) b) as [Q|Q]; [|lia]. cbn [firstn map]. rewrite Q. f_equal. apply IH; [assumption|lia].
Qed.
Lemma match_app t u : letters t -> forall body rest, Forall is_byte body -> map lower body = t -> match_ (body ++ rest) (t ++ u) = len t + match_ rest u.
Proof.
  induction 1 as [|b t Hb Ht IH]; intros body rest Hby E; [destruct body; [reflexivity|discriminate]|]. destruct body as [|c body]; [discriminate|]. cbn [map] in E. injection E as E1 E2.
  inversion Hby; subst. cbn [app match_]. rewrite lor_lower by assumption. rewrite Z.eqb_refl. rewrite IH by auto. cbn [length]. rewrite map_length. lia.
Qed.
Lemma match_head c s b t : is_byte c -> 97 <= b <= 122 -> lower c <> b -> match_ (c :: s) (b :: t) = 0.
Proof. intros Hc Hb N. cbn [match_]. rewrite lor_lower by assumption. destruct (Z.eqb_spec (lower c) b); [contradiction|reflexivity]. Qed.
Lemma inf_letters : letters text_inf /\ letters text_inity /\ letters (text_inf ++ text_inity) /\ letters text_nan.
Proof. unfold letters, text_inf, text_inity, text_nan. repeat split; repeat constructor; lia. Qed.

(** blanks and sign *)
Section Front.
Variables mw ew cap : Z.
Variable of_decimal : decimal -> res Z.
Variable of_bitset : Z -> Z.
Variable ldexp : Z -> Z -> res Z.
Notation pf := (parsefloat_ mw ew of_decimal of_bitset ldexp cap).
Lemma front ws sg t neg : Forall is_byte (ws ++ sg ++ t) -> Forall is_space_spec ws -> sign_ok sg t neg -> (sg = [] -> ~ starts is_space_spec t) ->
  pf (ws ++ sg ++ t) = (do r <- magnitude_ mw ew of_decimal of_bitset ldexp cap t (len (ws ++ sg)) 0;
    Ok (mk_fparsed (with_sign mw ew neg (fabsb mw ew (fpval r))) (fpend r) (fperange r))).
Proof.
  intros Hb Hws Hsg Hsp. assert (Hb2 : Forall is_byte (sg ++ t)) by (apply Forall_app in Hb; apply Hb).
  assert (NS : ~ starts is_space_spec (sg ++ t)).
  { destruct Hsg as [[-> _]|[[-> _]|[-> _]]]; cbn [app starts]; [unfold is_space_spec; cbn [In]; lia|unfold is_space_spec; cbn [In]; lia|auto]. }
  unfold parsefloat_. rewrite skip_space_ok by auto. cbn [bind]. rewrite Z.add_0_l.
  assert (S : (if (cur (sg ++ t) =? 45) || (cur (sg ++ t) =? 43) then do t <- next (sg ++ t); Ok (t, len ws + 1) else Ok (sg ++ t, len ws)) = Ok (t, len (ws ++ sg)) /\ (cur (sg ++ t) =? 45) = neg).
  { rewrite app_length. destruct Hsg as [[-> ->]|[[-> ->]|(-> & -> & N)]]; cbn [app length].
    - split; [|reflexivity]. cbn. do 2 f_equal. lia.
    - split; [|reflexivity]. cbn. do 2 f_equal. lia.
    - destruct t as [|c t]; cbn [cur]; [split; [|reflexivity]; cbn; do 2 f_equal; lia|]. cbn [starts] in N. inversion Hb2; subst. rewrite !s8_eq by (assumption || lia).
      replace (c =? 45) with false by lia. replace (c =? 43) with false by lia. cbn [orb]. split; [|reflexivity]. do 2 f_equal. lia. }
  destruct S as [S1 S2]. rewrite S1. cbn [bind]. rewrite S2. reflexivity.
Qed.
Hypothesis Hmw : 0 < mw.
Hypothesis Hew : 1 < ew.
Lemma finf_lt : 0 < finf mw ew < 2^(mw + ew).
Proof.
  unfold finf. rewrite Z.pow_add_r by lia. assert (0 < 2^mw) by (apply Z.pow_pos_nonneg; lia).
  assert (2^1 < 2^ew) by (apply Z.pow_lt_mono_r; lia). change (2^1) with 2 in *. split; [apply Z.mul_pos_pos; lia|]. rewrite (Z.mul_comm (2^mw)). apply Z.mul_lt_mono_pos_r; lia.
Qed.
Lemma head_start body rest c t : body ++ rest = c :: t -> lower c <> c \/ 97 <= c -> is_byte c -> ~ starts is_space_spec (body ++ rest) /\ forall neg sg, (sg = [45] /\ neg = true \/ sg = [43] /\ neg = false \/ sg = [] /\ neg = false) -> sign_ok sg (body ++ rest) neg.
Proof.
  intros -> H Hc. unfold lower in H. assert (65 <= c) by (destruct ((65 <=? c) && (c <=? 90)) eqn:Q; lia). cbn [starts]. split; [unfold is_space_spec; cbn [In]; lia|].
  intros neg sg S. unfold sign_ok. cbn [starts]. destruct S as [[-> ->]|[[-> ->]|[-> ->]]]; [left|right; left|right; right]; repeat split; lia.
Qed.
Theorem parse_inf ws sg body rest neg : Forall is_byte (ws ++ sg ++ body ++ rest) -> Forall is_space_spec ws ->
  (sg = [45] /\ neg = true \/ sg = [43] /\ neg = false \/ sg = [] /\ neg = false) -> inf_text body rest ->
  pf (ws ++ sg ++ body ++ rest) = Ok (mk_fparsed (with_sign mw ew neg (finf mw ew)) (len (ws ++ sg ++ body)) false).
Proof.
  intros Hb Hws Hsg HI. destruct inf_letters as (L1 & L2 & L3 & L4).
  assert (Bb : Forall is_byte (body ++ rest)) by (apply Forall_app in Hb; destruct Hb as [_ Hb]; apply Forall_app in Hb; apply Hb).
  assert (Bbody : Forall is_byte body) by (apply Forall_app in Bb; apply Bb). assert (Brest : Forall is_byte rest) by (apply Forall_app in Bb; apply Bb).
  assert (HD : exists c t, body ++ rest = c :: t /\ (lower c <> c \/ 97 <= c) /\ is_byte c).
  { destruct body as [|c body]; [destruct HI as [HI|[HI _]]; discriminate|]. exists c, (body ++ rest). split; [reflexivity|]. inversion Bb; subst. split; [|assumption].
    assert (lower c = 105) by (destruct HI as [HI|[HI _]]; cbn in HI; injection HI; auto). destruct (Z.eq_dec (lower c) c); [right; lia|left; assumption]. }
  destruct HD as (c & t & E & Hc & Bc). destruct (head_start body rest c t E Hc Bc) as [NS SO].
  rewrite (front ws sg (body ++ rest) neg) by auto.
  assert (M : magnitude_ mw ew of_decimal of_bitset ldexp cap (body ++ rest) (len (ws ++ sg)) 0 = Ok (mk_fparsed (finf mw ew) (len (ws ++ sg ++ body)) false)).
  { unfold magnitude_. change [105; 110; 102; 105; 110; 105; 116; 121] with (text_inf ++ text_inity).
    destruct HI as [HI|[HI HN]].
    - rewrite (match_full _ L3 body rest Bbody HI). change (len (text_inf ++ text_inity)) with 8. cbn [Z.leb Z.compare Pos.compare Pos.compare_cont Z.eqb Pos.eqb].
      assert (len body = 8) by (apply (f_equal (@length Z)) in HI; rewrite map_length in HI; rewrite HI; reflexivity). do 2 f_equal. rewrite !app_length. lia.
    - rewrite (match_app _ text_inity L1 body rest Bbody HI). change (len text_inf) with 3. pose proof (match_le rest text_inity) as ML. change (len text_inity) with 5 in ML.
      assert (N5 : match_ rest text_inity <> 5) by (intros Q; apply HN; apply (match_all text_inity L2 rest Brest Q)).
      replace (3 <=? 3 + match_ rest text_inity) with true by lia. replace (3 + match_ rest text_inity =? 8) with false by lia.
      assert (len body = 3) by (apply (f_equal (@length Z)) in HI; rewrite map_length in HI; rewrite HI; reflexivity). do 2 f_equal. rewrite !app_length. lia. }
  rewrite M. cbn [bind fpval fpend fperange]. do 2 f_equal. unfold fabsb. rewrite Z.mod_small by (pose proof finf_lt; lia). reflexivity.
Qed.
Lemma nan_bits : 1 < mw -> finf mw ew < c_nan mw ew < 2^(mw + ew) /\ 0 < 2^(mw - 1).
Proof.
  intros H1. unfold c_nan, finf. rewrite Z.pow_add_r by lia. assert (0 < 2^(mw - 1)) by (apply Z.pow_pos_nonneg; lia). assert (2^mw = 2 * 2^(mw - 1)) by (rewrite <- Z.pow_succ_r by lia; f_equal; lia).
  split; [|assumption]. split; [lia|]. assert (0 < 2^ew) by (apply Z.pow_pos_nonneg; lia). nia.
Qed.
Theorem parse_nan ws sg body rest neg : 1 < mw -> Forall is_byte (ws ++ sg ++ body ++ rest) -> Forall is_space_spec ws ->
  (sg = [45] /\ neg = true \/ sg = [43] /\ neg = false \/ sg = [] /\ neg = false) -> map lower body = text_nan -> ~ starts (eq 40) rest ->
  exists v, pf (ws ++ sg ++ body ++ rest) = Ok (mk_fparsed v (len (ws ++ sg ++ body)) false) /\ fisnan mw ew v = true /\ fneg mw ew v = neg /\ fbits mw ew v.
Proof.
  intros H1 Hb Hws Hsg HI HN. destruct inf_letters as (L1 & L2 & L3 & L4).
  assert (Bb : Forall is_byte (body ++ rest)) by (apply Forall_app in Hb; destruct Hb as [_ Hb]; apply Forall_app in Hb; apply Hb).
  assert (Bbody : Forall is_byte body) by (apply Forall_app in Bb; apply Bb). assert (Brest : Forall is_byte rest) by (apply Forall_app in Bb; apply Bb).
  assert (HD : exists c t, body ++ rest = c :: t /\ lower c = 110 /\ is_byte c).
  { destruct body as [|c body]; [discriminate|]. exists c, (body ++ rest). split; [reflexivity|]. inversion Bb; subst. split; [|assumption]. cbn in HI. injection HI; auto. }
  destruct HD as (c & t & E & Hc & Bc). assert (Hc' : lower c <> c \/ 97 <= c) by (destruct (Z.eq_dec (lower c) c); [right; lia|left; assumption]).
  destruct (head_start body rest c t E Hc' Bc) as [NS SO].
  rewrite (front ws sg (body ++ rest) neg) by auto.
  assert (LB : length body = 3%nat) by (apply (f_equal (@length Z)) in HI; rewrite map_length in HI; exact HI).
  assert (M : magnitude_ mw ew of_decimal of_bitset ldexp cap (body ++ rest) (len (ws ++ sg)) 0 = Ok (mk_fparsed (c_nan mw ew) (len (ws ++ sg ++ body)) false)).
  { assert (M0 : match_ (body ++ rest) [105; 110; 102; 105; 110; 105; 116; 121] = 0) by (rewrite E; apply match_head; [assumption|lia|lia]).
    unfold magnitude_. rewrite M0. change (3 <=? 0) with false. cbv iota.
    change [110; 97; 110] with text_nan. rewrite (match_full _ L4 body rest Bbody HI). change (len text_nan =? 3) with true. cbv iota.
    replace (skipn 3 (body ++ rest)) with rest by (rewrite skipn_app, LB, skipn_all2 by lia; reflexivity).
    replace (cur rest =? 40) with false. { do 2 f_equal. rewrite !app_length. lia. }
    destruct rest as [|y r]; [reflexivity|]. cbn [cur starts] in *. inversion Brest; subst. rewrite s8_eq by (assumption || lia). destruct (Z.eqb_spec y 40); [exfalso; apply HN; congruence|reflexivity]. }
  rewrite M. cbn [bind fpval fpend fperange]. eexists. split; [reflexivity|].
  destruct (nan_bits H1) as [NB _]. pose proof finf_lt as FL. assert (A : fabsb mw ew (c_nan mw ew) = c_nan mw ew) by (apply Z.mod_small; lia). rewrite A.
  destruct (with_sign_spec mw ew Hmw Hew neg (c_nan mw ew) ltac:(lia)) as (W1 & W2 & W3). unfold fisnan. rewrite W1. split; [lia|auto].
Qed.
(** texts that cannot start a number *)
Theorem parse_none ws sg t neg : Forall is_byte (ws ++ sg ++ t) -> Forall is_space_spec ws -> sign_ok sg t neg -> (sg = [] -> ~ starts is_space_spec t) ->
  (t = [] \/ starts no_number t) -> (forall s x tot, of_decimal (mk_decimal 0 x false s tot) = Ok 0) ->
  pf (ws ++ sg ++ t) = Ok (mk_fparsed (with_sign mw ew neg 0) 0 false).
Proof.
  intros Hb Hws Hsg Hsp HN HZ. rewrite (front ws sg t neg) by auto.
  assert (Bt : Forall is_byte t) by (apply Forall_app in Hb; destruct Hb as [_ Hb]; apply Forall_app in Hb; apply Hb).
  assert (F : heq mw ew 0 (finf mw ew) = false).
  { pose proof finf_lt as FL. unfold heq, ford, fabsb. rewrite Z.mod_0_l, Z.mod_small by lia. unfold fneg. replace (2^(mw+ew) <=? 0) with false by lia. replace (2^(mw + ew) <=? finf mw ew) with false by lia.
    replace (0 =? finf mw ew) with false by lia. apply andb_false_r. }
  assert (M : magnitude_ mw ew of_decimal of_bitset ldexp cap t (len (ws ++ sg)) 0 = Ok (mk_fparsed 0 0 false)).
  { destruct t as [|c t].
    - unfold magnitude_. cbn [match_]. change (3 <=? 0) with false. change (0 =? 3) with false. cbv iota.
      unfold parsedec. cbn. rewrite HZ. cbn [bind]. rewrite F. reflexivity.
    - destruct HN as [HN|(N1 & N2 & N3)]; [discriminate|]. inversion Bt; subst. cbn [In] in N3.
      unfold magnitude_. rewrite !match_head by (assumption || lia || (intros Q; apply N3; rewrite Q; auto)). change (3 <=? 0) with false. change (0 =? 3) with false. cbv iota.
      assert (P : parsedec (c :: t) (len (ws ++ sg)) 0 = Ok (mk_decimal 0 0 false (c :: t) 0, 0)).
      { unfold parsedec. cbn [zeros]. unfold dec_char in N1. rewrite s8_eq by (assumption || lia). replace (c =? 48) with false by lia. cbv iota.
        rewrite s8_eq by (assumption || lia). replace (c =? 46) with false by lia. cbn [bind].
        change (mk_scan 0 false 0 0 false) with (st_of [] 0 false). rewrite dec_stop; [|assumption|cbn [starts]; unfold dec_char; lia|left; cbn [starts]; intros Q; apply N2; congruence].
        cbn [bind spointed sconsumed sposition st_of]. rewrite parseexp_none; [reflexivity|assumption|].
        intros (e & sg' & d & u & E & He & _). injection E as <- _. apply N3. unfold lower. destruct He as [->| ->]; cbn; auto. }
      destruct t as [|y t]; [|assert (Q : (s8 c =? 48) = false) by (unfold dec_char in N1; rewrite s8_eq by (assumption || lia); lia); rewrite Q; cbn [andb]]; rewrite P; cbn [bind]; rewrite HZ; cbn [bind]; rewrite F; reflexivity. }
  rewrite M. cbn [bind fpval fpend fperange]. unfold fabsb. rewrite Z.mod_0_l by (pose proof finf_lt; lia). reflexivity.
Qed.
End Front.
