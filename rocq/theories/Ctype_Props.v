(** Property theorems C01-C03. *)
From Verif Require Import Base Ctype_Model Ctype_Spec Ctype_Proof.

(** C01: every predicate is defined and decides exactly its ASCII class, for
    every int down to INT_MIN + 97 (this includes EOF and all of 0..255). *)
Theorem C01_ctype_classification : forall c : Z, INT_MIN + 97 <= c <= INT_MAX ->
  decides (isalnum c) (is_alnum_spec c) /\ decides (isalpha c) (is_alpha_spec c) /\
  decides (isblank c) (is_blank_spec c) /\ decides (iscntrl c) (is_cntrl_spec c) /\
  decides (isdigit c) (is_digit_spec c) /\ decides (isgraph c) (is_graph_spec c) /\
  decides (islower c) (is_lower_spec c) /\ decides (isprint c) (is_print_spec c) /\
  decides (ispunct c) (is_punct_spec c) /\ decides (isspace c) (is_space_spec c) /\
  decides (isupper c) (is_upper_spec c) /\ decides (isxdigit c) (is_xdigit_spec c).
Proof. intros c H. destruct (ctype_all c H). tauto. Qed.
Print Assumptions C01_ctype_classification.

(** Where the subtraction overflows: exactly the last few values above INT_MIN. *)
Theorem C01_ctype_undefined_exactly : forall c : Z, is_i32 c ->
  (isdigit c = UB <-> c < INT_MIN + 48) /\ (isupper c = UB <-> c < INT_MIN + 65) /\
  (islower c = UB <-> c < INT_MIN + 97).
Proof. exact ctype_ub_exact. Qed.
Print Assumptions C01_ctype_undefined_exactly.

Example C01_example : INT_MIN + 97 <= -1 <= INT_MAX /\ decides (isxdigit 102) (is_xdigit_spec 102)
  /\ is_xdigit_spec 102 /\ ~ is_xdigit_spec 103.
Proof. split; [unfold INT_MIN, INT_MAX; lia|]. split; [apply C01_ctype_classification; unfold INT_MIN, INT_MAX; lia|].
  unfold is_xdigit_spec, is_digit_spec, range; lia. Qed.

(** C02 *)
Theorem C02_case_mapping : forall c : Z, INT_MIN + 97 <= c <= INT_MAX ->
  tolower c = Ok (to_lower_spec c) /\ toupper c = Ok (to_upper_spec c).
Proof. intros c H. split; [exact (tolower_val c H) | exact (toupper_val c H)]. Qed.
Print Assumptions C02_case_mapping.

Theorem C02_case_mapping_laws : forall c : Z, INT_MIN + 97 <= c <= INT_MAX ->
  (do l <- tolower c; tolower l) = tolower c /\
  (do u <- toupper c; toupper u) = toupper c /\
  (is_upper_spec c -> (do l <- tolower c; toupper l) = Ok c) /\
  (is_lower_spec c -> (do u <- toupper c; tolower u) = Ok c).
Proof.
  intros c H. rewrite (tolower_val c H), (toupper_val c H). cbn [bind].
  rewrite !tolower_val, !toupper_val
    by (unfold ctype_dom, to_upper_spec, to_lower_spec, INT_MIN, INT_MAX in *; ifs; lia).
  unfold to_upper_spec, to_lower_spec, is_upper_spec, is_lower_spec, range.
  repeat split; intros; f_equal; ifs; lia.
Qed.
Print Assumptions C02_case_mapping_laws.

Example C02_example : tolower 81 = Ok 113 /\ toupper 113 = Ok 81 /\ tolower (-1) = Ok (-1) /\ toupper 64 = Ok 64.
Proof. repeat split. Qed.

(** C03 *)
Theorem C03_wctype_tokens : forall c : Z,
  iswctype c (wctype s_alnum) = iswalnum c /\ iswctype c (wctype s_alpha) = iswalpha c /\
  iswctype c (wctype s_blank) = iswblank c /\ iswctype c (wctype s_cntrl) = iswcntrl c /\
  iswctype c (wctype s_digit) = iswdigit c /\ iswctype c (wctype s_graph) = iswgraph c /\
  iswctype c (wctype s_lower) = iswlower c /\ iswctype c (wctype s_print) = iswprint c /\
  iswctype c (wctype s_punct) = iswpunct c /\ iswctype c (wctype s_space) = iswspace c /\
  iswctype c (wctype s_upper) = iswupper c /\ iswctype c (wctype s_xdigit) = iswxdigit c /\
  (forall name, ~ In name ctype_names -> wctype name = 0) /\ iswctype c 0 = Ok 0.
Proof. intros c. repeat split; try exact wctype_unknown; reflexivity. Qed.
Print Assumptions C03_wctype_tokens.

Theorem C03_wide_classes_are_ascii : forall c : Z, INT_MIN + 97 <= c <= INT_MAX ->
  decides (iswalnum c) (is_alnum_spec c) /\ decides (iswalpha c) (is_alpha_spec c) /\
  decides (iswblank c) (is_blank_spec c) /\ decides (iswcntrl c) (is_cntrl_spec c) /\
  decides (iswdigit c) (is_digit_spec c) /\ decides (iswgraph c) (is_graph_spec c) /\
  decides (iswlower c) (is_lower_spec c) /\ decides (iswprint c) (is_print_spec c) /\
  decides (iswpunct c) (is_punct_spec c) /\ decides (iswspace c) (is_space_spec c) /\
  decides (iswupper c) (is_upper_spec c) /\ decides (iswxdigit c) (is_xdigit_spec c).
Proof. exact wide_ascii. Qed.
Print Assumptions C03_wide_classes_are_ascii.

Theorem C03_wctrans_tokens : forall c : Z, INT_MIN + 97 <= c <= INT_MAX ->
  towctrans c (wctrans s_tolower) = Ok (to_lower_spec c) /\
  towctrans c (wctrans s_toupper) = Ok (to_upper_spec c) /\
  (forall name, name <> s_tolower -> name <> s_toupper -> wctrans name = 0).
Proof. exact wctrans_ok. Qed.
Print Assumptions C03_wctrans_tokens.

Example C03_example : iswctype 233 (wctype s_alpha) = Ok 0 /\ iswctype 90 (wctype s_upper) = Ok 1
  /\ wctype [102;111;111] = 0 /\ ~ In [102;111;111] ctype_names.
Proof. repeat split. unfold ctype_names; cbn. intuition discriminate. Qed.
