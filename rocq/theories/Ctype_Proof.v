From Verif Require Import Base Bits Ctype_Model Ctype_Spec.

Lemma u32_sub_lt c k lim : INT_MIN <= c - k <= INT_MAX -> 0 <= lim <= 2^31 ->
  (u32 (c - k) <? lim) = (k <=? c) && (c <? k + lim).
Proof.
  unfold u32, INT_MIN, INT_MAX. intros H L.
  destruct (Z.ltb_spec c k).
  - rewrite mod_neg_small by lia. lia.
  - rewrite Z.mod_small by lia. lia.
Qed.

Lemma sub_lt_ok c k lim : 0 <= lim <= 2^31 -> INT_MIN + k <= c <= INT_MAX -> 0 <= k ->
  sub_lt c k lim = Ok (b2z ((k <=? c) && (c <? k + lim))).
Proof.
  intros L H K. unfold sub_lt. rewrite chk_i32_ok by (unfold INT_MIN, INT_MAX in *; lia).
  cbn [bind]. rewrite u32_sub_lt by (unfold INT_MIN, INT_MAX in *; lia). reflexivity.
Qed.

Lemma sub_lt_ub c k lim : c < INT_MIN + k -> sub_lt c k lim = UB.
Proof. intros. unfold sub_lt. rewrite chk_i32_ub by (unfold INT_MIN, INT_MAX in *; lia). reflexivity. Qed.

Lemma b2z_nz b : b2z b <> 0 <-> b = true.
Proof. destruct b; cbn; split; lia || congruence. Qed.

Lemma lor32 c : Z.lor c 32 = c + 32 * (1 - (c / 32) mod 2).
Proof. exact (lor_bit c 5 ltac:(lia)). Qed.

(** The least argument for which no predicate overflows is INT_MIN + 97. *)
Definition ctype_dom (c : Z) : Prop := INT_MIN + 97 <= c <= INT_MAX.

Ltac dom := unfold ctype_dom, INT_MIN, INT_MAX in *.

Lemma isdigit_val c : ctype_dom c -> isdigit c = Ok (b2z ((48 <=? c) && (c <? 58))).
Proof. intros H. unfold isdigit. rewrite sub_lt_ok by (dom; lia). reflexivity. Qed.
Lemma islower_val c : ctype_dom c -> islower c = Ok (b2z ((97 <=? c) && (c <? 123))).
Proof. intros H. unfold islower. rewrite sub_lt_ok by (dom; lia). reflexivity. Qed.
Lemma isupper_val c : ctype_dom c -> isupper c = Ok (b2z ((65 <=? c) && (c <? 91))).
Proof. intros H. unfold isupper. rewrite sub_lt_ok by (dom; lia). reflexivity. Qed.
Lemma isgraph_val c : ctype_dom c -> isgraph c = Ok (b2z ((33 <=? c) && (c <? 127))).
Proof. intros H. unfold isgraph. rewrite sub_lt_ok by (dom; lia). reflexivity. Qed.
Lemma isprint_val c : ctype_dom c -> isprint c = Ok (b2z ((32 <=? c) && (c <? 127))).
Proof. intros H. unfold isprint. rewrite sub_lt_ok by (dom; lia). reflexivity. Qed.

Lemma lor32_dom c : ctype_dom c -> ctype_dom (Z.lor c 32).
Proof. intros H. rewrite lor32. dom. lia. Qed.

Lemma isalpha_val c : ctype_dom c ->
  isalpha c = Ok (b2z (((65 <=? c) && (c <? 91)) || ((97 <=? c) && (c <? 123)))).
Proof.
  intros H. unfold isalpha. rewrite islower_val by (apply lor32_dom; exact H).
  rewrite lor32. do 2 f_equal. lia.
Qed.

Lemma isalnum_val c : ctype_dom c ->
  isalnum c = Ok (b2z (((48 <=? c) && (c <? 58)) || ((65 <=? c) && (c <? 91)) || ((97 <=? c) && (c <? 123)))).
Proof.
  intros H. unfold isalnum, c_or. rewrite isdigit_val, isalpha_val by exact H. cbn [bind].
  destruct ((48 <=? c) && (c <? 58)); cbn [b2z negb orb]; [reflexivity|].
  destruct (_ || _); reflexivity.
Qed.

Lemma isxdigit_val c : ctype_dom c ->
  isxdigit c = Ok (b2z (((48 <=? c) && (c <? 58)) || ((65 <=? c) && (c <? 71)) || ((97 <=? c) && (c <? 103)))).
Proof.
  intros H. unfold isxdigit, c_or. rewrite isdigit_val by exact H.
  rewrite sub_lt_ok by (pose proof (lor32_dom c H); dom; lia).
  cbn [bind]. rewrite lor32.
  destruct ((48 <=? c) && (c <? 58)) eqn:E; cbn [b2z negb orb]; [reflexivity|].
  replace ((97 <=? c + 32 * (1 - (c / 32) mod 2)) && (c + 32 * (1 - (c / 32) mod 2) <? 97 + 6))
    with ((65 <=? c) && (c <? 71) || (97 <=? c) && (c <? 103)) by lia.
  destruct (_ || _); reflexivity.
Qed.

Lemma ispunct_val c : ctype_dom c ->
  ispunct c = Ok (b2z (((33 <=? c) && (c <? 127)) &&
     negb (((48 <=? c) && (c <? 58)) || ((65 <=? c) && (c <? 91)) || ((97 <=? c) && (c <? 123))))).
Proof.
  intros H. unfold ispunct, c_and_not. rewrite isgraph_val, isalnum_val by exact H. cbn [bind].
  destruct ((33 <=? c) && (c <? 127)); [|reflexivity]. cbn [b2z Z.eqb andb].
  destruct (_ || _); reflexivity.
Qed.

Lemma isspace_val c : ctype_dom c ->
  isspace c = Ok (b2z ((c =? 32) || ((9 <=? c) && (c <? 14)))).
Proof.
  intros H. unfold isspace. destruct (Z.eqb_spec c 32); [reflexivity|].
  rewrite sub_lt_ok by (dom; lia). reflexivity.
Qed.

Lemma iscntrl_val c : is_i32 c -> iscntrl c = Ok (b2z (((0 <=? c) && (c <? 32)) || (c =? 127))).
Proof.
  intros H. unfold iscntrl. do 3 f_equal. unfold is_i32, u32 in *. dom.
  destruct (Z.ltb_spec c 0).
  - rewrite mod_neg_small by lia. lia.
  - rewrite Z.mod_small by lia. lia.
Qed.

Lemma decides_b r b P : r = Ok (b2z b) -> (b = true <-> P) -> decides r P.
Proof. intros -> H. exists (b2z b). split; [reflexivity|]. rewrite b2z_nz. exact H. Qed.

Lemma dom_i32 c : ctype_dom c -> is_i32 c.
Proof. unfold is_i32. dom. lia. Qed.

Record ctype_ok (c : Z) : Prop := {
  ok_alnum  : decides (isalnum c) (is_alnum_spec c);
  ok_alpha  : decides (isalpha c) (is_alpha_spec c);
  ok_blank  : decides (isblank c) (is_blank_spec c);
  ok_cntrl  : decides (iscntrl c) (is_cntrl_spec c);
  ok_digit  : decides (isdigit c) (is_digit_spec c);
  ok_graph  : decides (isgraph c) (is_graph_spec c);
  ok_lower  : decides (islower c) (is_lower_spec c);
  ok_print  : decides (isprint c) (is_print_spec c);
  ok_punct  : decides (ispunct c) (is_punct_spec c);
  ok_space  : decides (isspace c) (is_space_spec c);
  ok_upper  : decides (isupper c) (is_upper_spec c);
  ok_xdigit : decides (isxdigit c) (is_xdigit_spec c) }.

Ltac spec := unfold is_punct_spec, is_graph_spec, is_alnum_spec, is_alpha_spec, is_xdigit_spec,
  is_blank_spec, is_space_spec, is_cntrl_spec, is_print_spec, is_upper_spec, is_lower_spec,
  is_digit_spec, range; cbn [In].

Lemma ctype_all c : ctype_dom c -> ctype_ok c.
Proof.
  intros H. constructor.
  - eapply decides_b; [apply isalnum_val; exact H | spec; lia].
  - eapply decides_b; [apply isalpha_val; exact H | spec; lia].
  - eapply decides_b; [reflexivity | spec; lia].
  - eapply decides_b; [apply iscntrl_val, dom_i32; exact H | spec; lia].
  - eapply decides_b; [apply isdigit_val; exact H | spec; lia].
  - eapply decides_b; [apply isgraph_val; exact H | spec; lia].
  - eapply decides_b; [apply islower_val; exact H | spec; lia].
  - eapply decides_b; [apply isprint_val; exact H | spec; lia].
  - eapply decides_b; [apply ispunct_val; exact H | spec; lia].
  - eapply decides_b; [apply isspace_val; exact H | spec; lia].
  - eapply decides_b; [apply isupper_val; exact H | spec; lia].
  - eapply decides_b; [apply isxdigit_val; exact H | spec; lia].
Qed.

Lemma ctype_ub_exact c : is_i32 c ->
  (isdigit c = UB <-> c < INT_MIN + 48) /\ (isupper c = UB <-> c < INT_MIN + 65) /\
  (islower c = UB <-> c < INT_MIN + 97).
Proof.
  intros H. unfold is_i32 in H.
  repeat split; intros K.
  - destruct (Z.ltb_spec c (INT_MIN + 48)); [assumption|].
    unfold isdigit in K. rewrite sub_lt_ok in K by (dom; lia). discriminate.
  - apply sub_lt_ub. exact K.
  - destruct (Z.ltb_spec c (INT_MIN + 65)); [assumption|].
    unfold isupper in K. rewrite sub_lt_ok in K by (dom; lia). discriminate.
  - apply sub_lt_ub. exact K.
  - destruct (Z.ltb_spec c (INT_MIN + 97)); [assumption|].
    unfold islower in K. rewrite sub_lt_ok in K by (dom; lia). discriminate.
  - apply sub_lt_ub. exact K.
Qed.

Lemma tolower_val c : ctype_dom c -> tolower c = Ok (to_lower_spec c).
Proof.
  intros H. unfold tolower, to_lower_spec. rewrite isupper_val by exact H. cbn [bind].
  f_equal. replace (c <? 91) with (c <=? 90) by lia.
  destruct ((65 <=? c) && (c <=? 90)) eqn:E; cbn [b2z].
  - change (Z.shiftl 1 5) with 32. rewrite lor32. lia.
  - change (Z.shiftl 0 5) with 0. apply Z.lor_0_r.
Qed.

Lemma toupper_val c : ctype_dom c -> toupper c = Ok (to_upper_spec c).
Proof.
  intros H. unfold toupper, to_upper_spec. rewrite islower_val by exact H. cbn [bind].
  f_equal. replace (c <? 123) with (c <=? 122) by lia.
  destruct ((97 <=? c) && (c <=? 122)) eqn:E; cbn [b2z].
  - change (Z.shiftl 1 5) with (2^5). rewrite land_lnot_bit by lia. change (2^5) with 32. lia.
  - change (Z.shiftl 0 5) with 0. change (Z.lnot 0) with (-1). apply Z.land_m1_r.
Qed.

Lemma streq_spec a b : streq a b = true <-> a = b.
Proof.
  revert b. induction a as [|x a IH]; intros [|y b]; cbn; split; intros H; try congruence.
  - apply andb_prop in H. destruct H as [Hx Ha]. apply Z.eqb_eq in Hx. apply IH in Ha. congruence.
  - injection H as -> ->. rewrite Z.eqb_refl. cbn. apply IH. reflexivity.
Qed.

Lemma streq_refl a : streq a a = true.
Proof. apply streq_spec. reflexivity. Qed.

Definition ctype_names :=
  [s_alnum; s_alpha; s_blank; s_cntrl; s_digit; s_graph; s_lower; s_print; s_punct; s_space; s_upper; s_xdigit].

Lemma wctype_unknown name : ~ In name ctype_names -> wctype name = 0.
Proof.
  intros H. unfold wctype.
  repeat match goal with
  | |- context [streq name ?s] =>
      let E := fresh in destruct (streq name s) eqn:E;
      [apply streq_spec in E; exfalso; apply H; subst; cbn; tauto | clear E]
  end. reflexivity.
Qed.

Lemma wctrans_unknown name : name <> s_tolower -> name <> s_toupper -> wctrans name = 0.
Proof.
  intros H1 H2. unfold wctrans.
  destruct (streq name s_tolower) eqn:E1; [apply streq_spec in E1; contradiction|].
  destruct (streq name s_toupper) eqn:E2; [apply streq_spec in E2; contradiction|]. reflexivity.
Qed.

Lemma isw_spec f P c : ctype_dom c -> decides (f c) P -> (P -> c < 128) -> decides (isw f c) P.
Proof.
  intros H D L. unfold isw. destruct (Z.ltb_spec c 128); [exact D|].
  exists 0. split; [reflexivity|]. split; [congruence|]. intros K. specialize (L K). lia.
Qed.

Lemma wide_ascii c : ctype_dom c ->
  decides (iswalnum c) (is_alnum_spec c) /\ decides (iswalpha c) (is_alpha_spec c) /\
  decides (iswblank c) (is_blank_spec c) /\ decides (iswcntrl c) (is_cntrl_spec c) /\
  decides (iswdigit c) (is_digit_spec c) /\ decides (iswgraph c) (is_graph_spec c) /\
  decides (iswlower c) (is_lower_spec c) /\ decides (iswprint c) (is_print_spec c) /\
  decides (iswpunct c) (is_punct_spec c) /\ decides (iswspace c) (is_space_spec c) /\
  decides (iswupper c) (is_upper_spec c) /\ decides (iswxdigit c) (is_xdigit_spec c).
Proof.
  intros H. destruct (ctype_all c H).
  repeat apply conj; (apply isw_spec; [exact H | assumption | spec; intuition lia]).
Qed.

Lemma wctrans_ok c : ctype_dom c ->
  towctrans c (wctrans s_tolower) = Ok (to_lower_spec c) /\
  towctrans c (wctrans s_toupper) = Ok (to_upper_spec c) /\
  (forall name, name <> s_tolower -> name <> s_toupper -> wctrans name = 0).
Proof.
  intros H. repeat split; [| |exact wctrans_unknown].
  - change (wctrans s_tolower) with 1. unfold towctrans, towlower. cbn [Z.eqb Pos.eqb].
    destruct (Z.ltb_spec c 128); [apply tolower_val; exact H|].
    f_equal. unfold to_lower_spec. ifs; lia.
  - change (wctrans s_toupper) with 2. unfold towctrans, towupper. cbn [Z.eqb Pos.eqb].
    destruct (Z.ltb_spec c 128); [apply toupper_val; exact H|].
    f_equal. unfold to_upper_spec. ifs; lia.
Qed.
