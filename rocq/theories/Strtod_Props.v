(** Property C78: strtod and strtof. *)
From Coq Require Import Reals Lra.
From Flocq Require Import Core.
From Verif Require Import Base FP FP_Proof Rne Midpoint Ctype_Spec Stdlib_Spec HW HW_Proof Math_Model Math_Props Tf_Widen_Proof Strtod_Spec Strtod_Model Strtod_Arith_Proof Strtod_Round_Proof Strtod_Gap_Proof Strtod_Parse_Proof Strtod_Proof Strtod_Hex_Proof Strtod_HexText_Proof Strtod_Special_Proof.
Open Scope Z_scope.
Local Ltac Zify.zify_post_hook ::= idtac.

(** The full statement C78 is after: for every text, the longest constant at its start is converted to the nearest double
    (float), *endptr points behind it, and errno becomes ERANGE iff the value overflows.  It is false of the code (the
    refutations below); the theorems are restricted by
    - at most 18 significant digits, or at most 38 digits and either a decimal exponent within 54 of zero, or overflow,
      or a value that is not within a relative 2^-124 of the middle of two doubles;
    - at most 30000 digits (7500 hexadecimal digits); the exponent saturates at 32000;
    - the constant is not zeros followed by a point and nothing else;
    - hexadecimal: the value is at least the least normal number, or it has at most 53 (24) significant bits;
    - strtof: the double nearest the value is not halfway between two floats, unless it is the exact value. *)
Definition decimal_P (t : list Z) : Prop := exists ip fp x, decimal_text t ip fp x.
Definition hex_P (t : list Z) : Prop := exists ip fp x, hex_text t ip fp x.
Definition decimal_domain (ip fp : list Z) (x : Z) : Prop :=
  (exists w i, num (ip ++ fp) = w * 10^i /\ 0 <= i /\ 0 <= w < 10^18) \/
  num (ip ++ fp) < 10^38 /\
    (-54 <= x - Z.of_nat (length fp) <= 54 \/
     (forall m, halfway (-1074) 53 m -> (0 < m)%R -> (bpow radix2 (-124) * decimal_value ip fp x < Rabs (decimal_value ip fp x - m))%R) \/
     (bpow radix2 1024 <= decimal_value ip fp x)%R).

Theorem C78_strtod_decimal_partial : forall ws sg body rest neg ip fp x,
  Forall is_byte (ws ++ sg ++ body ++ rest) -> Forall is_space_spec ws -> sign_ok sg body neg ->
  decimal_text body ip fp x -> longest decimal_P body rest -> ~ hex_prefix (body ++ rest) ->
  Z.of_nat (length (ip ++ fp)) <= 30000 -> (forall n, body <> repeat 48 n ++ [46]) -> decimal_domain ip fp x ->
  exists v erange, strtod (ws ++ sg ++ body ++ rest) = Ok (mk_fparsed v (Z.of_nat (length (ws ++ sg ++ body))) erange) /\
    rounds_to 52 11 (if neg then Ropp (decimal_value ip fp x) else decimal_value ip fp x) neg v /\ erange = fisinf 52 11 v.
Proof. exact strtod_decimal. Qed.
Print Assumptions C78_strtod_decimal_partial.

Theorem C78_strtof_decimal_partial : forall ws sg body rest neg ip fp x,
  Forall is_byte (ws ++ sg ++ body ++ rest) -> Forall is_space_spec ws -> sign_ok sg body neg ->
  decimal_text body ip fp x -> longest decimal_P body rest -> ~ hex_prefix (body ++ rest) ->
  Z.of_nat (length (ip ++ fp)) <= 30000 -> (forall n, body <> repeat 48 n ++ [46]) -> decimal_domain ip fp x ->
  (halfway (-149) 24 (RN 52 11 (decimal_value ip fp x)) -> RN 52 11 (decimal_value ip fp x) = decimal_value ip fp x) ->
  exists v erange, strtof (ws ++ sg ++ body ++ rest) = Ok (mk_fparsed v (Z.of_nat (length (ws ++ sg ++ body))) erange) /\
    rounds_to 23 8 (if neg then Ropp (decimal_value ip fp x) else decimal_value ip fp x) neg v /\ erange = fisinf 23 8 v.
Proof. exact strtof_decimal. Qed.
Print Assumptions C78_strtof_decimal_partial.

Theorem C78_strtod_hex_partial : forall ws sg body rest neg ip fp x,
  Forall is_byte (ws ++ sg ++ body ++ rest) -> Forall is_space_spec ws -> sign_ok sg body neg ->
  hex_text body ip fp x -> longest hex_P body rest ->
  Z.of_nat (length (ip ++ fp)) <= 7500 -> (forall n c, body <> 48 :: c :: repeat 48 n ++ [46]) ->
  ((bpow radix2 (-1022) <= hex_value ip fp x)%R \/ exists u i, hexnum (ip ++ fp) = u * 2^i /\ 0 <= i /\ 0 <= u < 2^53) ->
  exists v erange, strtod (ws ++ sg ++ body ++ rest) = Ok (mk_fparsed v (Z.of_nat (length (ws ++ sg ++ body))) erange) /\
    rounds_to 52 11 (if neg then Ropp (hex_value ip fp x) else hex_value ip fp x) neg v /\ erange = fisinf 52 11 v.
Proof.
  intros ws sg body rest neg ip fp x Hb Hws Hsg T L Hl Hd HT.
  apply (strtod_hex_gen 52 11 16 eq_refl ltac:(lia) decimal_to_double ofZ64 scalbn eq_refl ltac:(lia) ltac:(lia) ltac:(vm_compute; reflexivity)
    (hofZ_ok 52 11 eq_refl eq_refl eq_refl) (fun x n Hn Hx => proj1 (C70_scalbn x n Hn Hx)) ws sg body rest neg ip fp x Hb Hws Hsg T L Hl Hd).
  exact HT.
Qed.
Print Assumptions C78_strtod_hex_partial.

Theorem C78_strtof_hex_partial : forall ws sg body rest neg ip fp x,
  Forall is_byte (ws ++ sg ++ body ++ rest) -> Forall is_space_spec ws -> sign_ok sg body neg ->
  hex_text body ip fp x -> longest hex_P body rest ->
  Z.of_nat (length (ip ++ fp)) <= 7500 -> (forall n c, body <> 48 :: c :: repeat 48 n ++ [46]) ->
  ((bpow radix2 (-126) <= hex_value ip fp x)%R \/ exists u i, hexnum (ip ++ fp) = u * 2^i /\ 0 <= i /\ 0 <= u < 2^24) ->
  exists v erange, strtof (ws ++ sg ++ body ++ rest) = Ok (mk_fparsed v (Z.of_nat (length (ws ++ sg ++ body))) erange) /\
    rounds_to 23 8 (if neg then Ropp (hex_value ip fp x) else hex_value ip fp x) neg v /\ erange = fisinf 23 8 v.
Proof.
  intros ws sg body rest neg ip fp x Hb Hws Hsg T L Hl Hd HT.
  apply (strtod_hex_gen 23 8 8 eq_refl ltac:(lia) decimal_to_float ofZ32 scalbnf eq_refl ltac:(lia) ltac:(lia) ltac:(vm_compute; reflexivity)
    (hofZ_ok 23 8 eq_refl eq_refl eq_refl) C70_scalbnf ws sg body rest neg ip fp x Hb Hws Hsg T L Hl Hd).
  exact HT.
Qed.
Print Assumptions C78_strtof_hex_partial.

(** INF and INFINITY in any case *)
Theorem C78_infinity : forall ws sg body rest neg, Forall is_byte (ws ++ sg ++ body ++ rest) -> Forall is_space_spec ws ->
  (sg = [45] /\ neg = true \/ sg = [43] /\ neg = false \/ sg = [] /\ neg = false) -> inf_text body rest ->
  strtod (ws ++ sg ++ body ++ rest) = Ok (mk_fparsed (with_sign 52 11 neg (finf 52 11)) (Z.of_nat (length (ws ++ sg ++ body))) false) /\
  strtof (ws ++ sg ++ body ++ rest) = Ok (mk_fparsed (with_sign 23 8 neg (finf 23 8)) (Z.of_nat (length (ws ++ sg ++ body))) false).
Proof. intros. split; apply parse_inf; auto; lia. Qed.
Print Assumptions C78_infinity.
(** NAN without parentheses *)
Theorem C78_nan_partial : forall ws sg body rest neg, Forall is_byte (ws ++ sg ++ body ++ rest) -> Forall is_space_spec ws ->
  (sg = [45] /\ neg = true \/ sg = [43] /\ neg = false \/ sg = [] /\ neg = false) -> map lower body = text_nan -> ~ starts (eq 40) rest ->
  (exists v, strtod (ws ++ sg ++ body ++ rest) = Ok (mk_fparsed v (Z.of_nat (length (ws ++ sg ++ body))) false) /\ fisnan 52 11 v = true /\ fneg 52 11 v = neg /\ fbits 52 11 v) /\
  (exists v, strtof (ws ++ sg ++ body ++ rest) = Ok (mk_fparsed v (Z.of_nat (length (ws ++ sg ++ body))) false) /\ fisnan 23 8 v = true /\ fneg 23 8 v = neg /\ fbits 23 8 v).
Proof. intros. split; apply parse_nan; auto; lia. Qed.
Print Assumptions C78_nan_partial.
(** no conversion when the text cannot start a number: zero, and *endptr is the start of the string *)
Theorem C78_no_conversion_partial : forall ws sg t neg, Forall is_byte (ws ++ sg ++ t) -> Forall is_space_spec ws -> sign_ok sg t neg ->
  (sg = [] -> ~ starts is_space_spec t) -> (t = [] \/ starts no_number t) ->
  strtod (ws ++ sg ++ t) = Ok (mk_fparsed (with_sign 52 11 neg 0) 0 false) /\ strtof (ws ++ sg ++ t) = Ok (mk_fparsed (with_sign 23 8 neg 0) 0 false).
Proof. intros. split; apply parse_none; auto; try lia; intros; vm_compute; reflexivity. Qed.
Print Assumptions C78_no_conversion_partial.

(** ** the domains are not empty *)
Lemma no_longer body rest : (forall t' rest', body ++ rest = t' ++ rest' -> (length body < length t')%nat -> decimal_P t' -> False) -> decimal_P body -> longest decimal_P body rest.
Proof. intros H P. split; [exact P|]. intros t' rest' E T. destruct (Nat.le_gt_cases (length t') (length body)) as [L|L]; [exact L|]. destruct (H t' rest' E L T). Qed.
(* " -12.5e3": -12500, all 8 characters *)
Example C78_decimal_ex : let body := [49; 50; 46; 53; 101; 51] in
  decimal_text body [49; 50] [53] 3 /\ longest decimal_P body [] /\ ~ hex_prefix (body ++ []) /\ (forall n, body <> repeat 48 n ++ [46]) /\
  decimal_domain [49; 50] [53] 3 /\ strtod ([32] ++ [45] ++ body ++ []) = Ok (mk_fparsed 0xC0C86A0000000000 8 false).
Proof.
  assert (T : decimal_text [49; 50; 46; 53; 101; 51] [49; 50] [53] 3).
  { exists [46], [101; 51]. split; [reflexivity|]. split; [right; reflexivity|]. split; [right; exists 101, [], [51]; repeat split; auto; try discriminate; repeat constructor; unfold dec_char; lia|].
    repeat split; try discriminate; repeat constructor; unfold dec_char; lia. }
  repeat split.
  - exact T.
  - exists [49; 50], [53], 3. exact T.
  - intros t' rest' E _. cbn [app] in E. apply (f_equal (@length Z)) in E. rewrite app_length in E. lia.
  - intros (x & t & E & _). discriminate.
  - intros [|n]; cbn; [discriminate|]. intros E. injection E. intros. discriminate.
  - left. exists 125, 0. split; [vm_compute; reflexivity|lia].
Qed.
(* "0x1.8p3" = 12; "0x1.00000000000008p0" is a tie; "0x1.000000000000080000000001p0" is not *)
Example C78_hex_ex : let body := [48; 120; 49; 46; 56; 112; 51] in
  hex_text body [49] [56] 3 /\ longest hex_P body [] /\ (forall n c, body <> 48 :: c :: repeat 48 n ++ [46]) /\ hexnum ([49] ++ [56]) = 3 * 2^3 /\
  strtod body = Ok (mk_fparsed 0x4028000000000000 7 false) /\
  strtod [48;120;49;46;48;48;48;48;48;48;48;48;48;48;48;48;48;56;112;48] = Ok (mk_fparsed 0x3FF0000000000000 20 false) /\
  strtod [48;120;49;46;48;48;48;48;48;48;48;48;48;48;48;48;48;56;48;48;48;48;48;48;48;48;48;49;112;48] = Ok (mk_fparsed 0x3FF0000000000001 30 false).
Proof.
  assert (T : hex_text [48; 120; 49; 46; 56; 112; 51] [49] [56] 3).
  { exists 120, [49; 46; 56; 112; 51]. split; [reflexivity|]. split; [auto|]. exists [46], [112; 51]. split; [reflexivity|]. split; [right; reflexivity|].
    split; [right; exists 112, [], [51]; repeat split; auto; try discriminate; repeat constructor; unfold dec_char; lia|].
    repeat split; try discriminate; repeat constructor; eexists; split; reflexivity || lia. }
  repeat split.
  - exact T.
  - exists [49], [56], 3. exact T.
  - intros t' rest' E _. cbn [app] in E. apply (f_equal (@length Z)) in E. rewrite app_length in E. lia.
  - intros n c. destruct n as [|n]; cbn; intros E; injection E; intros; discriminate.
Qed.
(* "inFinity!" and "nan", "+abc" *)
Example C78_special_ex : inf_text [105; 110; 70; 105; 110; 105; 116; 121] [33] /\ map lower [78; 97; 110] = text_nan /\ starts no_number [97; 98; 99] /\
  strtod [105; 110; 70; 105; 110; 105; 116; 121; 33] = Ok (mk_fparsed 0x7FF0000000000000 8 false) /\ strtod [43; 97; 98; 99] = Ok (mk_fparsed 0 0 false).
Proof. split; [|split; [|split; [|split]]]; try (vm_compute; reflexivity); [left; vm_compute; reflexivity|]. cbn [starts]. unfold no_number, dec_char, lower. cbn. lia. Qed.

(** ** where the full statement fails *)
(* 46401386416734062446178221730643781071e90: 38 digits, just above the middle of two doubles, rounded down *)
Definition hard : list Z := [52;54;52;48;49;51;56;54;52;49;54;55;51;52;48;54;50;52;52;54;49;55;56;50;50;49;55;51;48;54;52;51;55;56;49;48;55;49].
Theorem C78_misrounding_refuted : exists body ip fp x r, decimal_text body ip fp x /\ Z.of_nat (length (ip ++ fp)) = 38 /\ strtod body = Ok r /\
  ~ rounds_to 52 11 (decimal_value ip fp x) false (fpval r).
Proof.
  exists (hard ++ [101; 57; 48]), hard, [], 90, (mk_fparsed 6517028675432697014 41 false). split; [|split; [reflexivity|split; [vm_compute; reflexivity|]]].
  - exists [], [101; 57; 48]. split; [reflexivity|]. split; [left; auto|]. split; [right; exists 101, [], [57; 48]; repeat split; auto; try discriminate; repeat constructor; unfold dec_char; lia|].
    repeat split; try discriminate; repeat constructor; unfold dec_char; lia.
  - intros R. cbn [fpval] in R.
    assert (V : decimal_value hard [] 90 = F2R (Float radix2 (46401386416734062446178221730643781071 * 10^90) 0)).
    { unfold decimal_value, ten, F2R. rewrite app_nil_r. replace (num hard) with 46401386416734062446178221730643781071 by (vm_compute; reflexivity). cbn [length Z.of_nat Fnum Fexp]. replace (90 - 0) with 90 by lia.
      cbn [Z.leb Z.compare]. change (bpow radix2 0) with 1%R. rewrite Rmult_1_r, <- mult_IZR. reflexivity. }
    rewrite V in R.
    pose proof (rounds_pack 52 11 eq_refl eq_refl false (46401386416734062446178221730643781071 * 10^90) 0 372 ltac:(lia) ltac:(lia) ltac:(vm_compute; discriminate) ltac:(vm_compute; reflexivity) ltac:(left; vm_compute; discriminate)) as P.
    cbv iota in P. assert (X : with_sign 52 11 false (Z.min ((372 - emin 52 11) * 2 ^ 52 + rne (46401386416734062446178221730643781071 * 10 ^ 90) (2 ^ (372 - 0))) (finf 52 11)) = 6517028675432697015) by (vm_compute; reflexivity).
    rewrite X in P. pose proof (rounds_unique 52 11 _ _ _ _ ltac:(lia) ltac:(lia) R P). lia.
Qed.
Print Assumptions C78_misrounding_refuted.
(* strtof goes through double: 1.000000059604644775390625000001 is above the middle of 1 and its successor *)
Definition near_half : list Z := [48;48;48;48;48;48;48;53;57;54;48;52;54;52;52;55;55;53;51;57;48;54;50;53;48;48;48;48;48;49].
Theorem C78_strtof_refuted : exists body ip fp x r, decimal_text body ip fp x /\ strtof body = Ok r /\ ~ rounds_to 23 8 (decimal_value ip fp x) false (fpval r).
Proof.
  exists ([49; 46] ++ near_half), [49], near_half, 0, (mk_fparsed 1065353216 32 false). split; [|split; [vm_compute; reflexivity|]].
  - exists [46], []. split; [reflexivity|]. split; [right; reflexivity|]. split; [left; auto|]. repeat split; try discriminate; repeat constructor; unfold dec_char; lia.
  - intros R. cbn [fpval] in R.
    set (v := decimal_value [49] near_half 0) in *. assert (V : v = (IZR 1000000059604644775390625000001 / IZR (10^30))%R).
    { unfold v, decimal_value, ten. replace (num ([49] ++ near_half)) with 1000000059604644775390625000001 by (vm_compute; reflexivity). reflexivity. }
    (* the value lies strictly between 1 + 2^-24 and 1 + 2^-23 *)
    assert (B : (1 + bpow radix2 (-24) < v < 1 + bpow radix2 (-23))%R).
    { rewrite V. change (bpow radix2 (-24)) with (/ 16777216)%R. change (bpow radix2 (-23)) with (/ 8388608)%R. change (10^30) with 1000000000000000000000000000000. lra. }
    assert (RN1 : RN 23 8 v = (1 + bpow radix2 (-23))%R).
    { unfold RN. apply round_N_eq_ub with (rx := fun x => negb (Z.even x)) || idtac.
      assert (VX : Valid_exp (FLT_exp (emin 23 8) (23 + 1))) by (apply FLT_exp_valid; reflexivity).
      assert (G1 : generic_format radix2 (FLT_exp (emin 23 8) (23 + 1)) (1 + bpow radix2 (-23))).
      { replace (1 + bpow radix2 (-23))%R with (IZR 8388609 * bpow radix2 (-23))%R by (change (bpow radix2 (-23)) with (/ 8388608)%R; lra). apply FLT_multiple; vm_compute; congruence. }
      assert (G0 : generic_format radix2 (FLT_exp (emin 23 8) (23 + 1)) 1) by (apply (generic_format_bpow radix2 _ 0); vm_compute; discriminate).
      assert (PR : pred radix2 (FLT_exp (emin 23 8) (23 + 1)) (1 + bpow radix2 (-23)) = 1%R).
      { replace (1 + bpow radix2 (-23))%R with (succ radix2 (FLT_exp (emin 23 8) (23 + 1)) 1); [apply pred_succ; assumption|].
        change 1%R with (bpow radix2 0) at 1. rewrite succ_eq_pos by apply bpow_ge_0. rewrite ulp_bpow. reflexivity. }
      apply Rle_antisym.
      - apply round_le_generic; [exact VX|apply valid_rnd_N|exact G1|lra].
      - apply round_N_ge_midp; [exact VX|exact G1|]. rewrite PR. change (bpow radix2 (-24)) with (/ 16777216)%R in B. change (bpow radix2 (-23)) with (/ 8388608)%R in *. lra. }
    destruct R as (_ & _ & R & _). rewrite RN1 in R. destruct R as [_ R].
    + rewrite Rabs_pos_eq by (pose proof (bpow_ge_0 radix2 (-23)); lra). change (bpow radix2 (-23)) with (/ 8388608)%R. apply Rlt_le_trans with (bpow radix2 2); [change (bpow radix2 2) with 4%R; lra|apply bpow_le; vm_compute; discriminate].
    + unfold fval in R. change (fneg 23 8 1065353216) with false in R. change (fabsb 23 8 1065353216) with 1065353216 in R. cbv iota in R.
      unfold fmag in R. change (1065353216 / 2^23 =? 0) with false in R. cbv iota in R. change (2^23 + 1065353216 mod 2^23) with 8388608 in R. change (emin 23 8 + 1065353216 / 2^23 - 1) with (-23) in R.
      unfold F2R in R. cbn [Fnum Fexp] in R. change (bpow radix2 (-23)) with (/ 8388608)%R in R. lra.
Qed.
Print Assumptions C78_strtof_refuted.
Local Lemma two_bpow k : two k = bpow radix2 k.
Proof. unfold two. destruct (Z.leb_spec 0 k); [apply pow2_Z; assumption|]. rewrite pow2_Z by lia. rewrite <- bpow_opp. f_equal. lia. Qed.
(* 0x1.000000000000001p-1075 is above half of the least subnormal, but rounds to zero *)
Definition hex_tail : list Z := repeat 48 14 ++ [49].
Theorem C78_hex_refuted : exists body ip fp x r, hex_text body ip fp x /\ strtod body = Ok r /\ ~ rounds_to 52 11 (hex_value ip fp x) false (fpval r).
Proof.
  exists ([48; 120; 49; 46] ++ hex_tail ++ [112; 45; 49; 48; 55; 53]), [49], hex_tail, (-1075), (mk_fparsed 0 25 false). split; [|split; [vm_compute; reflexivity|]].
  - exists 120, ([49; 46] ++ hex_tail ++ [112; 45; 49; 48; 55; 53]). split; [reflexivity|]. split; [auto|]. exists [46], [112; 45; 49; 48; 55; 53]. split; [reflexivity|]. split; [right; reflexivity|].
    split; [right; exists 112, [45], [49; 48; 55; 53]; repeat split; auto; try discriminate; repeat constructor; unfold dec_char; lia|].
    repeat split; try discriminate; repeat constructor; eexists; split; reflexivity || lia.
  - intros R. cbn [fpval] in R.
    assert (V : hex_value [49] hex_tail (-1075) = F2R (Float radix2 (2^60 + 1) (-1135))).
    { unfold hex_value. rewrite two_bpow. replace (hexnum ([49] ++ hex_tail)) with (2^60 + 1) by (vm_compute; reflexivity). reflexivity. }
    rewrite V in R.
    pose proof (rounds_pack 52 11 eq_refl eq_refl false (2^60 + 1) (-1135) (-1074) ltac:(lia) ltac:(lia) ltac:(vm_compute; discriminate) ltac:(vm_compute; reflexivity) ltac:(right; vm_compute; reflexivity)) as P.
    cbv iota in P. assert (X : with_sign 52 11 false (Z.min ((-1074 - emin 52 11) * 2 ^ 52 + rne (2^60 + 1) (2 ^ (-1074 - -1135))) (finf 52 11)) = 1) by (vm_compute; reflexivity).
    rewrite X in P. pose proof (rounds_unique 52 11 _ _ _ _ ltac:(lia) ltac:(lia) R P). lia.
Qed.
Print Assumptions C78_hex_refuted.
(* "e5" is not a number, yet *endptr moves past it; "0." is one, yet *endptr stays before the point; "nan(xyz)" is read as "nan" *)
Theorem C78_end_refuted :
  (exists s r, (forall t rest, s = t ++ rest -> ~ decimal_P t) /\ strtod s = Ok r /\ fpend r <> 0) /\
  (exists s r, decimal_P s /\ strtod s = Ok r /\ fpend r <> Z.of_nat (length s)) /\
  (exists s r, s = text_nan ++ [40; 120; 121; 122; 41] /\ strtod s = Ok r /\ fpend r <> Z.of_nat (length s)).
Proof.
  split; [|split].
  - exists [101; 53], (mk_fparsed 0 2 false). split; [|split; [vm_compute; reflexivity|discriminate]].
    intros t rest E (ip & fp & x & dot & ex & Et & Hdot & _ & Hi & Hf & Hne). rewrite Et in E. destruct ip as [|c ip].
    + destruct Hdot as [[-> ->]| ->]; [exact (Hne eq_refl)|]. cbn [app] in E. discriminate.
    + cbn [app] in E. injection E as E _. apply Forall_inv in Hi. unfold dec_char in Hi. lia.
  - exists [48; 46], (mk_fparsed 0 1 false). split; [|split; [vm_compute; reflexivity|discriminate]].
    exists [48], [], 0. exists [46], []. repeat split; auto; try discriminate; [left; auto|repeat constructor; unfold dec_char; lia].
  - exists (text_nan ++ [40; 120; 121; 122; 41]), (mk_fparsed 9221120237041090560 3 false). repeat split; vm_compute; congruence.
Qed.
Print Assumptions C78_end_refuted.
