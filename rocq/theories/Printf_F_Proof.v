(** %f: the text *)
From Verif Require Import Base Bits FP Rne Str_Spec Printf_Model Printf_Spec Printf_Hex_Spec Printf_Fixed_Model Printf_Fixed_Spec
  Printf_Proof Printf_Hex_Proof Printf_Limb_Proof Printf_Fixed_Proof.
Open Scope Z_scope.
Local Ltac Zify.zify_post_hook ::= idtac.

Lemma dump_ok n : forall x acc, 0 <= x -> exists d, dump_limb_ n x acc = d ++ acc /\ len d = n /\ Forall dig d /\ dv d = x mod 10 ^ Z.of_nat n.
Proof.
  induction n as [|n I]; intros x acc Hx.
  - exists []. cbn [dump_limb_ List.app len dv]. change (10 ^ Z.of_nat 0) with 1. rewrite Z.mod_1_r. repeat split; constructor.
  - cbn [dump_limb_]. pose proof (Z.mod_pos_bound x 10 ltac:(lia)) as M.
    destruct (I (x / 10) (x mod 10 + 48 :: acc) ltac:(apply Z.div_pos; lia)) as (d & -> & Ld & Dd & Vd).
    exists (d ++ [x mod 10 + 48]). rewrite <- app_assoc. split; [reflexivity|]. rewrite app_length, dv_app. cbn [len dv].
    split; [lia|]. split; [apply Forall_app; split; [exact Dd|]; constructor; [unfold dig; lia|constructor]|].
    rewrite Vd, (pow10S n). change (10 ^ Z.of_nat 1) with 10. change (10 ^ Z.of_nat 0) with 1.
    rewrite Z.rem_mul_r by (try apply pow10pos; lia). lia.
Qed.
Lemma nth_split_firstn n (l : list Z) : (S n <= len l)%nat -> firstn (S n) l = firstn n l ++ [nth n l 0].
Proof. revert l. induction n as [|n I]; intros [|x l] H; cbn in H; try lia; [reflexivity|]. cbn [firstn nth List.app]. f_equal. apply I. lia. Qed.
Lemma write_ok l rest : limbs l -> forall n, (n <= len l)%nat -> exists ps, limbs_write_ n (map Some l ++ rest) = Ok ps /\
  Z.of_nat (len (List.concat ps)) = 9 * Z.of_nat n /\ Forall dig (List.concat ps) /\ dv (List.concat ps) = lv (firstn n l).
Proof.
  intros Hl. induction n as [|n I]; intros Hn.
  - exists []. cbn. repeat split; constructor.
  - destruct (I ltac:(lia)) as (ps & E & Ln & Dn & Vn). cbn [limbs_write_]. rewrite get_map by lia. cbn [bind]. rewrite E. cbn [bind].
    eexists. split; [reflexivity|]. cbn [List.concat].
    assert (Hx : 0 <= nth n l 0 < B). { apply (proj1 (Forall_forall _ _) Hl). apply nth_In. lia. }
    destruct (dump_ok 9 (nth n l 0) [] ltac:(lia)) as (d & -> & Ld & Dd & Vd). rewrite app_nil_r, app_length, dv_app.
    split; [lia|]. split; [apply Forall_app; auto|]. rewrite Vd, Vn, Ln. change (10 ^ Z.of_nat 9) with B. rewrite Z.mod_small by lia.
    rewrite (nth_split_firstn n l Hn), lv_app, firstn_length. rewrite Nat.min_l by lia. cbn [lv].
    rewrite (Z.pow_mul_r 10 9) by lia. change (10 ^ 9) with B. lia.
Qed.

(** ** the number *)
Section F.
Context (arg : Z).
Notation M := (arg mod 2^63).
Lemma dsig_eq : significand binary64 arg = dsig M.
Proof.
  unfold significand, dsig. change (2^(mw binary64 + ew binary64 - 1)) with (2^63). change (2^mw binary64) with (2^52).
  pose proof (Z.mod_pos_bound arg (2^63) ltac:(lia)) as B. destruct (M <? 2^52) eqn:E.
  - rewrite Z.div_small by lia. reflexivity.
  - replace (M / 2^52 =? 0) with false; [reflexivity|]. symmetry. apply Z.eqb_neq. assert (1 <= M / 2^52) by (apply Z.div_le_lower_bound; lia). lia.
Qed.
Lemma dexp_eq : 0 < M -> exponent binary64 arg - 52 = dexp M.
Proof.
  intros H. unfold exponent, dexp. change (2^(mw binary64 + ew binary64 - 1)) with (2^63). change (2^mw binary64) with (2^52). change (bias binary64) with 1023.
  replace (M =? 0) with false by lia. rewrite Z.shiftr_div_pow2 by lia. pose proof (Z.div_pos M (2^52) ltac:(lia) ltac:(lia)) as B.
  destruct (M / 2^52 =? 0) eqn:E; lia.
Qed.
Lemma dsig_range : 2^52 <= M -> 2^52 <= dsig M < 2^53.
Proof. intros H. unfold dsig. replace (M <? 2^52) with false by lia. pose proof (Z.mod_pos_bound M (2^52) ltac:(lia)). lia. Qed.
(** fnum / fden as a multiple of 2^-60 *)
Lemma scaled p : 0 < M -> -60 <= dexp M -> dsig M * 2^(dexp M + 60) * 10^p * fden arg = fnum arg p * 2^60.
Proof.
  intros H HE. unfold fnum, fden. replace (52 - exponent binary64 arg) with (- dexp M) by (rewrite <- dexp_eq; lia). rewrite dexp_eq, dsig_eq by lia.
  assert (E : 2^(dexp M + 60) * 2^Z.max 0 (- dexp M) = 2^Z.max 0 (dexp M) * 2^60) by (rewrite <- !Z.pow_add_r by lia; f_equal; lia).
  transitivity (dsig M * 10^p * (2^(dexp M + 60) * 2^Z.max 0 (- dexp M))); [ring|]. rewrite E. ring.
Qed.
Lemma fden_pos : 0 < fden arg.
Proof. unfold fden. apply Z.pow_pos_nonneg; lia. Qed.
Lemma tie_scaled X p : X * 10^p * fden arg = fnum arg p * 2^60 -> not_near_tie arg p -> good_tie X p.
Proof.
  intros E H. pose proof fden_pos as P. unfold good_tie, not_near_tie in *. cbv zeta in *.
  assert (R : (X * 10^p) mod 2^60 * fden arg = (fnum arg p) mod (fden arg) * 2^60).
  { rewrite <- !Z.mul_mod_distr_r by lia. rewrite E. f_equal. ring. }
  set (a := (X * 10^p) mod 2^60) in *. set (b := fnum arg p mod fden arg) in *. clearbody a b. generalize dependent (fden arg). intros d. intros.
  destruct H as [H|H]; [left|right]; nia.
Qed.
Lemma rne_scaled X p : X * 10^p * fden arg = fnum arg p * 2^60 -> rne (X * 10^p) (2^60) = fixed_correct arg p.
Proof.
  intros E. unfold fixed_correct. pose proof fden_pos as P. rewrite <- (rne_scale _ _ (fden arg)) by lia. rewrite E, (Z.mul_comm (2^60)). apply rne_scale; lia.
Qed.

(** ** the layout *)
Context (spec : Spec) (Hw : 0 <= width spec <= INT_MAX) (Hp : 0 <= precision spec <= INT_MAX - 400).
Notation p := (precision spec).
Notation neg := (negative binary64 arg).
Definition pointed : bool := negb (p =? 0) || hash (view spec).
Lemma layout_ok padding body btext : 0 <= padding < 2^32 -> List.concat body = btext ->
  List.concat (layout_f spec (signchar_ neg (flags spec)) padding body) = laid spec true (sign_text (view spec) neg) btext padding.
Proof.
  intros H1 H2. unfold layout_f, laid. rewrite andb_true_r. destruct (signtext_ok spec neg) as [S1 _].
  destruct (has (flags spec) 45); [|destruct (has (flags spec) 48)]; rewrite !concat_app, S1, H2, !pad_text by (unfold is_byte; lia); reflexivity.
Qed.
Lemma finish body i f Ln : List.concat body = i ++ (if pointed then [46] else []) ++ f -> (1 <= len i)%nat -> Z.of_nat (len i) <= 350 -> Z.of_nat (len f) = p ->
  Ln = b2z (negb (signchar_ neg (flags spec) =? 0)) + Z.of_nat (len i) + b2z pointed + p ->
  exists ps, let out := field (view spec) true (sign_text (view spec) neg) (i ++ (if pointed then [46] else []) ++ f) in
    (do length <- chk_i32 Ln; do padding <- padding_ (width spec) length; do r <- chk_i32 (length + padding);
     Ok (layout_f spec (signchar_ neg (flags spec)) padding body, r)) = Ok (ps, Z.of_nat (len out)) /\ List.concat ps = out.
Proof.
  intros H1 H2 H3 H4 ->. destruct (signtext_ok spec neg) as [S1 S2]. rewrite S2.
  assert (SL : Z.of_nat (len (sign_text (view spec) neg)) <= 1) by (unfold sign_text; destruct neg, (plus (view spec)), (space (view spec)); cbn; lia).
  assert (PB : Z.of_nat (len (if pointed then [46] else [])) = b2z pointed) by (destruct pointed; reflexivity).
  assert (EL : Z.of_nat (len (sign_text (view spec) neg)) + Z.of_nat (len i) + b2z pointed + p
    = Z.of_nat (len (sign_text (view spec) neg ++ i ++ (if pointed then [46] else []) ++ f))) by (rewrite !app_length, !Nat2Z.inj_add, PB, H4; lia).
  assert (BP : 0 <= b2z pointed <= 1) by (destruct pointed; cbn; lia).
  rewrite chk_ok by (clear - SL H3 Hp BP; unfold INT_MIN, INT_MAX in *; lia). cbn [bind]. rewrite EL.
  apply (afin_ok spec true _ _ (fun padding => layout_f spec (signchar_ neg (flags spec)) padding body) Hw).
  - rewrite <- EL. clear - SL H3 Hp BP. unfold INT_MAX in *. lia.
  - intros q Hq. now apply layout_ok.
Qed.
Lemma pointed_eq : negb (p =? 0) || has (flags spec) 35 = pointed.
Proof. unfold pointed. rewrite has_bit by lia. reflexivity. Qed.

Lemma numeral_digits l x : is_numeral 10 false l x -> Forall dig l /\ dv l = x /\ nth 0 l 48 <> 48 \/ l = [] /\ x = 0.
Proof.
  intros (A & V & N). destruct l as [|c l]; [right; cbn in V; auto|left].
  assert (D : Forall dig (c :: l)). { apply Forall_forall. intros y Hy. apply dig_alpha. apply (proj1 (Forall_forall _ _) A y Hy). }
  split; [exact D|]. split; [now rewrite <- dv_nv|exact N].
Qed.

Theorem bigint_ok : 0x43F0000000000000 <= M < 0x7FF0000000000000 ->
  exists ps out, fixed_bigint_ spec (signchar_ neg (flags spec)) M = Ok (ps, Z.of_nat (len out)) /\ List.concat ps = out /\
  fixed_text (view spec) arg p (fixed_correct arg p) out.
Proof.
  intros HM. unfold fixed_bigint_, kernel_ifrexp_. rewrite pointed_eq.
  pose proof (dsig_range ltac:(lia)) as DS.
  assert (SE : Z.lor (M mod 2^52) (2^52) = dsig M).
  { unfold dsig. replace (M <? 2^52) with false by lia. rewrite lor_bit by lia. pose proof (Z.mod_pos_bound M (2^52) ltac:(lia)).
    rewrite (Z.div_small (M mod 2^52)) by lia. cbn [Z.modulo]. change (0 mod 2) with 0. lia. }
  rewrite SE. destruct (ctz_ok 64 (dsig M) ltac:(lia)) as [C1 C2]. set (c := ctz 64 (dsig M)) in *. set (odd := Z.shiftr (dsig M) c) in *.
  assert (EM : 1087 <= Z.shiftr M 52 <= 2046).
  { rewrite Z.shiftr_div_pow2 by lia. split; [apply Z.div_le_lower_bound; lia|]. assert (M / 2^52 < 2047) by (apply Z.div_lt_upper_bound; lia). lia. }
  assert (ED : dexp M = Z.shiftr M 52 - 1075) by (unfold dexp; lia). set (E := Z.shiftr M 52) in *.
  assert (P2 : 0 < 2^c) by (apply Z.pow_pos_nonneg; lia).
  assert (O1 : 0 < odd < 2^53) by (clear - C2 DS P2; nia).
  assert (C3 : c <= 52). { assert (2^c < 2^53) by (clear - C2 DS P2 O1; nia). apply Z.pow_lt_mono_r_iff in H; lia. }
  assert (V : odd * 2^(E + c - 1075) = dsig M * 2^dexp M).
  { rewrite C2, <- Z.mul_assoc, <- Z.pow_add_r by lia. do 2 f_equal. lia. }
  assert (PE : 0 < 2^(E - 1075)) by (apply Z.pow_pos_nonneg; lia).
  assert (BV : dsig M * 2^dexp M < 2^(E - 1022)).
  { rewrite ED. replace (E - 1022) with (53 + (E - 1075)) by lia. rewrite Z.pow_add_r by lia. clear - DS PE. nia. }
  destruct (ldexp_ok odd (E + c - 1075) (E - 1022) O1 ltac:(lia) ltac:(lia) ltac:(lia) ltac:(lia)) as (a & n & -> & (l & rest & -> & (Ll & Nl & Ml) & Hn & Vl)).
  cbn [bind]. rewrite V in Vl. clear V C1 C2 O1 odd.
  assert (L1 : (1 <= len l)%nat) by (destruct l; [congruence|cbn; lia]).
  assert (EG : get (map Some l ++ rest) (n - 1) = Ok (nth (len l - 1) l 0)) by (rewrite <- (get_map l rest) by lia; f_equal; lia). rewrite EG. cbn [bind].
  assert (SP : l = firstn (len l - 1) l ++ [nth (len l - 1) l 0]).
  { rewrite <- nth_split_firstn by lia. replace (S (len l - 1)) with (len l) by lia. now rewrite firstn_all. }
  set (top := nth (len l - 1) l 0) in *.
  assert (Ht : 0 <= top < B). { apply (proj1 (Forall_forall _ _) Ll). apply nth_In. lia. }
  assert (LVL : lv l = lv (firstn (len l - 1) l) + B ^ (Z.of_nat (len l) - 1) * top).
  { rewrite SP at 1. rewrite lv_app, firstn_length, Nat.min_l by lia. cbn [lv]. replace (Z.of_nat (len l - 1)) with (Z.of_nat (len l) - 1) by lia. ring. }
  assert (FB : 0 <= lv (firstn (len l - 1) l) < B ^ (Z.of_nat (len l) - 1)).
  { pose proof (lv_bound (firstn (len l - 1) l)) as Q. rewrite firstn_length, Nat.min_l in Q by lia. replace (Z.of_nat (len l) - 1) with (Z.of_nat (len l - 1)) by lia.
    apply Q. apply Forall_forall; intros y Hy; apply (proj1 (Forall_forall _ _) Ll y); rewrite <- (firstn_skipn (len l - 1) l); apply in_or_app; auto. }
  assert (T0 : 0 < top) by (clear - Ml LVL FB Ht; nia).
  destruct (numeral_exists 10 false top ltac:(lia) ltac:(lia)) as (d & Hd).
  assert (LD : Z.of_nat (len d) <= 9) by (apply (numeral_len 10 false d top 9); try lia; [exact Hd|change (10^9) with B; lia]).
  rewrite (decimal_ok F false 9 d top [] Hd), fits_ok by (unfold F; lia). cbn [bind].
  destruct (write_ok l rest Ll (len l - 1) ltac:(lia)) as (w & EW & Lw & Dw & Vw). replace (Z.to_nat (n - 1)) with (len l - 1)%nat by lia. rewrite EW. cbn [bind].
  destruct (numeral_digits d top Hd) as [(Dd & Vd & Nd)|[_ K]]; [|lia].
  assert (D1 : (1 <= len d)%nat) by (destruct d; [cbn in Nd; congruence|cbn; lia]).
  assert (VW : dv (d ++ List.concat w) = dsig M * 2^dexp M).
  { rewrite dv_app, Vd, Lw, Vw, <- Vl, LVL. rewrite (Z.pow_mul_r 10 9) by lia. change (10^9) with B. replace (Z.of_nat (len l - 1)) with (Z.of_nat (len l) - 1) by lia. ring. }
  assert (Ln : Z.of_nat (len l) <= 36).
  { apply norm_pow; [repeat split; auto| |lia]. rewrite Vl. eapply Z.lt_le_trans; [exact BV|]. eapply Z.le_trans; [apply (Z.pow_le_mono_r 2 _ 1024); lia|].
    apply Z.leb_le. vm_compute. reflexivity. }
  destruct (finish ([d] ++ w ++ (if pointed then put_ 46 else []) ++ pad_ 48 p) (d ++ List.concat w) (chars 48 p)
    (b2z (negb (signchar_ neg (flags spec) =? 0)) + Z.of_nat (len d) + 9 * (n - 1) + b2z pointed + p)) as (ps & E1 & E2).
  - rewrite !concat_app, pad_text by (unfold is_byte, INT_MAX in *; lia). cbn [List.concat]. rewrite app_nil_r, <- !app_assoc. do 3 f_equal.
    destruct pointed; reflexivity.
  - rewrite app_length. lia.
  - rewrite app_length, Nat2Z.inj_add. lia.
  - rewrite chars_len. lia.
  - rewrite app_length, Nat2Z.inj_add. lia.
  - eexists ps, _. cbv zeta in E1, E2. split; [exact E1|]. split; [exact E2|].
    exists (d ++ List.concat w), (chars 48 p).
    assert (FD : Forall dig ((d ++ List.concat w) ++ chars 48 p)) by (repeat (apply Forall_app; split); auto; apply zeros_dig).
    split; [exact FD|]. split; [right; rewrite app_nth1 by lia; exact Nd|]. split; [rewrite chars_len; lia|]. split; [|reflexivity].
    rewrite dv_nv by exact FD. rewrite dv_app, zeros_dv, VW, chars_len.
    unfold fixed_correct, fden, fnum. rewrite dexp_eq, dsig_eq by lia. rewrite (Z.max_r 0 (dexp M)) by lia.
    rewrite (Z.max_l 0 (52 - _)) by (pose proof (dexp_eq ltac:(lia)); lia). change (2^0) with 1.
    replace (dsig M * 10^p * 2^dexp M) with ((dsig M * 2^dexp M * 10^p) * 1) by ring. rewrite rne_exact by lia. rewrite Z.max_r by lia. ring.
Qed.

Theorem moderate_ok room : 0x3F70000000000000 <= M < 0x43F0000000000000 -> 1 <= room <= 40 -> dsig M * 2^(dexp M + 60) / 2^60 + 1 < 10^room ->
  exists ps out N, fixed_moderate_ room spec (signchar_ neg (flags spec)) M = Ok (ps, Z.of_nat (len out)) /\ List.concat ps = out /\
  fixed_text (view spec) arg p N out /\ 2^48 * (2 * Z.abs (N * fden arg - fnum arg p) - fden arg) <= fden arg /\
  (p = 0 \/ not_near_tie arg p -> N = fixed_correct arg p).
Proof.
  intros HM Hr HT. unfold fixed_moderate_. rewrite pointed_eq. pose proof (dsig_range ltac:(lia)) as DS.
  assert (EM : 1015 <= Z.shiftr M 52 <= 1086).
  { rewrite Z.shiftr_div_pow2 by lia. split; [apply Z.div_le_lower_bound; lia|]. assert (M / 2^52 < 1087) by (apply Z.div_lt_upper_bound; lia). lia. }
  assert (ED : -60 <= dexp M <= 11) by (unfold dexp; lia).
  pose proof (scaled p ltac:(lia) ltac:(lia)) as SC. set (X := dsig M * 2^(dexp M + 60)) in *.
  assert (PX : 0 < 2^(dexp M + 60) <= 2^71) by (split; [apply Z.pow_pos_nonneg; lia|apply Z.pow_le_mono_r; lia]).
  assert (BX : 0 <= X < 2^124) by (unfold X; clear - DS PX; nia).
  assert (WX : X mod 2^60 = 0 \/ X / 2^60 + 1 < 2^64).
  { destruct (Z_le_gt_dec 0 (dexp M)) as [G|G].
    - left. unfold X. rewrite Z.pow_add_r, Z.mul_assoc by lia. apply Z.mod_mul. lia.
    - right. assert (2^(dexp M + 60) <= 2^59) by (apply Z.pow_le_mono_r; lia). assert (X / 2^60 < 2^53) by (apply Z.div_lt_upper_bound; [lia|]; unfold X; clear - DS H PX; nia). lia. }
  destruct (modf_ok X p BX WX ltac:(lia)) as (t & f & -> & Lf & Df & T0 & T1 & N1 & N2). cbv zeta in N1, N2.
  destruct (numeral_exists 10 false t ltac:(lia) T0) as (d & Hd).
  assert (LD : Z.of_nat (len d) <= room) by (apply (numeral_len 10 false d t room); try lia; exact Hd).
  rewrite (decimal_ok F false room d t [] Hd), fits_ok by (unfold F; lia). cbn [bind].
  assert (I : exists i, (if t =? 0 then push room d 48 else Ok d) = Ok i /\ Forall dig i /\ (i = [48] \/ nth 0 i 48 <> 48) /\ dv i = t /\ (1 <= len i)%nat /\ Z.of_nat (len i) <= 40).
  { destruct (numeral_digits d t Hd) as [(Dd & Vd & Nd)|[-> ->]].
    - exists d. assert (D1 : (1 <= len d)%nat) by (destruct d; [cbn in Nd; congruence|cbn; lia]).
      destruct (t =? 0) eqn:E; [|repeat split; auto; lia]. exfalso. assert (t = 0) by lia. subst t. rewrite H in Hd. apply numeral_zero in Hd; [|lia]. subst d. cbn in D1. lia.
    - exists [48]. unfold push. cbn [len Z.eqb]. replace (Z.of_nat 0 <? room) with true by lia. repeat split; auto; cbn; try lia. constructor; [unfold dig; lia|constructor]. }
  destruct I as (i & -> & Di & Ni & Vi & Li & Li2). cbn [bind].
  destruct (finish ([i] ++ (if pointed then put_ 46 else []) ++ [f]) i f _ ltac:(rewrite !concat_app; cbn [List.concat]; rewrite !app_nil_r; do 2 f_equal; destruct pointed; reflexivity)
    Li ltac:(lia) Lf eq_refl) as (ps & E1 & E2).
  cbv zeta in E1, E2. eexists ps, _, (t * 10^p + dv f). split; [exact E1|]. split; [exact E2|].
  assert (FD : Forall dig (i ++ f)) by (apply Forall_app; auto).
  split.
  { exists i, f. split; [exact FD|]. split; [exact Ni|]. split; [exact Lf|]. split; [|reflexivity]. rewrite dv_nv by exact FD. now rewrite dv_app, Vi, Lf. }
  pose proof fden_pos as P. split.
  - clear - N1 SC P. set (N := t * 10^p + dv f) in *. set (Y := X * 10^p) in *. clearbody N Y. generalize dependent (fnum arg p). generalize dependent (fden arg). intros. nia.
  - intros H. rewrite <- (rne_scaled X p SC). apply N2. destruct H as [H|H]; [auto|right]. eapply tie_scaled; eauto.
Qed.
End F.

Lemma below64 a : 0x3F70000000000000 <= a < 0x43F0000000000000 -> dsig a * 2^(dexp a + 60) / 2^60 + 1 < 10^20.
Proof.
  intros H. assert (DS : dsig a < 2^53). { unfold dsig. replace (a <? 2^52) with false by lia. pose proof (Z.mod_pos_bound a (2^52) ltac:(lia)). lia. }
  assert (EM : 1015 <= Z.shiftr a 52 <= 1086).
  { rewrite Z.shiftr_div_pow2 by lia. split; [apply Z.div_le_lower_bound; lia|]. assert (a / 2^52 < 1087) by (apply Z.div_lt_upper_bound; lia). lia. }
  assert (PX : 0 < 2^(dexp a + 60) <= 2^71) by (unfold dexp; split; [apply Z.pow_pos_nonneg; lia|apply Z.pow_le_mono_r; lia]).
  assert (dsig a * 2^(dexp a + 60) / 2^60 < 2^64) by (apply Z.div_lt_upper_bound; [lia|]; clear - DS PX; nia). lia.
Qed.
(** 99.0 is 0x4058C00000000000 *)
Lemma below99 a : 0x3F70000000000000 <= a < 0x4058C00000000000 -> dsig a * 2^(dexp a + 60) / 2^60 + 1 < 10^(DECIMAL_DIGITS 8 false).
Proof.
  intros H. change (10^(DECIMAL_DIGITS 8 false)) with 100. enough (dsig a * 2^(dexp a + 60) / 2^60 < 99) by lia. apply Z.div_lt_upper_bound; [lia|].
  assert (D : dsig a = a mod 2^52 + 2^52) by (unfold dsig; replace (a <? 2^52) with false by lia; reflexivity).
  pose proof (Z.mod_pos_bound a (2^52) ltac:(lia)) as M. pose proof (Z.div_mod a (2^52) ltac:(lia)) as DM.
  assert (EM : 1015 <= a / 2^52 <= 1029) by (split; [apply Z.div_le_lower_bound; lia|]; assert (a / 2^52 < 1030) by (apply Z.div_lt_upper_bound; lia); lia).
  unfold dexp. rewrite Z.shiftr_div_pow2, Z.max_r by lia.
  destruct (Z.eq_dec (a / 2^52) 1029) as [E|E].
  - rewrite E. change (2^(1029 - 1075 + 60)) with (2^14). rewrite D. lia.
  - assert (2^(a / 2^52 - 1075 + 60) <= 2^13) by (apply Z.pow_le_mono_r; lia). assert (0 < 2^(a / 2^52 - 1075 + 60)) by (apply Z.pow_pos_nonneg; lia). rewrite D. clear - M H0 H1. nia.
Qed.
Lemma fixed_nonfinite spec (up : bool) arg : 0 <= width spec <= INT_MAX -> ~ finite binary64 arg ->
  exists ps out, fixed_ spec (lower_of up) arg = Ok (ps, Z.of_nat (len out)) /\ List.concat ps = out /\ prints_nonfinite binary64 (view spec) up arg out.
Proof.
  intros Hw HF. unfold finite in HF. change ((2 * bias binary64 + 1) * 2^mw binary64) with 0x7FF0000000000000 in HF. change (2^(mw binary64 + ew binary64 - 1)) with (2^63) in HF.
  unfold fixed_. replace (arg mod 2^63 <? 0x3F70000000000000) with false by lia.
  replace (arg mod 2^63 <? 0x43F0000000000000) with false by lia. replace (arg mod 2^63 <? 0x7FF0000000000000) with false by lia.
  unfold prints_nonfinite. change ((2 * bias binary64 + 1) * 2^mw binary64) with 0x7FF0000000000000. change (2^(mw binary64 + ew binary64 - 1)) with (2^63).
  change (negative binary64 arg) with (Z.testbit arg 63). destruct (map_lor up) as [I N].
  destruct (arg mod 2^63 =? 0x7FF0000000000000).
  - destruct (nonfinite_ok spec up (Z.testbit arg 63) [73; 78; 70] _ Hw eq_refl I) as (ps & E1 & E2). eauto.
  - destruct (nonfinite_ok spec up (Z.testbit arg 63) [78; 65; 78] _ Hw eq_refl N) as (ps & E1 & E2). eauto.
Qed.
