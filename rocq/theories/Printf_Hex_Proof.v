(** %a *)
From Verif Require Import Base Bits FP Rne Str_Spec Printf_Model Printf_Spec Printf_Hex_Spec Printf_Proof.
Open Scope Z_scope.
Local Ltac Zify.zify_post_hook ::= idtac.

Notation lower_of up := (if up then 0 else 32).
Lemma alpha16 up c : alpha 16 up c -> In c (digit_chars up).
Proof. unfold alpha. destruct up; exact (fun H => H). Qed.
Lemma hexdigit_alpha (up : bool) k : 0 <= k < 16 -> alpha 16 up (hexdigit (lower_of up) k) /\ digit_value (hexdigit (lower_of up) k) = k.
Proof. intros H. rewrite dchar_hex by exact H. apply dchar_alpha; lia. Qed.
Lemma nv_cons b c l : 0 <= b -> numeral_value b (c :: l) = digit_value c * b ^ Z.of_nat (len l) + numeral_value b l.
Proof. intros Hb. change (c :: l) with ([c] ++ l). rewrite nv_app2 by exact Hb. reflexivity. Qed.

(** *** the three digit loops *)
Lemma mantissa_ok (up : bool) W n : forall fuel i, 4 * Z.of_nat n <= W -> 4 <= W -> 0 <= i < 2^W -> i mod 2^(W - 4 * Z.of_nat n) = 0 -> (n < fuel)%nat ->
  exists ds, mantissa_digits fuel W (lower_of up) i = Ok ds /\ Forall (alpha 16 up) ds /\ (len ds <= n)%nat /\
    numeral_value 16 ds * 2^W = i * 16 ^ Z.of_nat (len ds) /\ last ds 0 <> 48 /\ (ds = [] <-> i = 0).
Proof.
  induction n as [|n I]; intros fuel i HW H4 Hi Hm Hf; destruct fuel as [|f]; try lia; cbn [mantissa_digits].
  - assert (i = 0). { cbn [Z.of_nat] in Hm. rewrite Z.mul_0_r, Z.sub_0_r in Hm. rewrite Z.mod_small in Hm; lia. }
    subst i. exists []. cbn. repeat split; auto; try lia.
  - destruct (i =? 0) eqn:E0.
    { exists []. cbn. repeat split; auto; try lia. }
    set (d := Z.shiftr i (W - 4)).
    assert (Hd : d = i / 2^(W - 4)) by (unfold d; now rewrite Z.shiftr_div_pow2 by lia).
    assert (PW : 2^W = 2^(W - 4) * 16). { replace W with ((W - 4) + 4) at 1 by lia. rewrite Z.pow_add_r by lia. reflexivity. }
    assert (P4 : 0 < 2^(W - 4)) by (apply Z.pow_pos_nonneg; lia).
    assert (Bd : 0 <= d < 16). { rewrite Hd. split; [apply Z.div_pos; lia|apply Z.div_lt_upper_bound; lia]. }
    set (i' := (i * 16) mod 2^W).
    assert (Hi' : i' = i * 16 - d * 2^W).
    { unfold i'. rewrite PW, Z.mul_mod_distr_r by lia. rewrite Hd. rewrite Z.mod_eq by lia. nia. }
    assert (Bi' : 0 <= i' < 2^W) by (apply Z.mod_pos_bound; apply Z.pow_pos_nonneg; lia).
    destruct (I f i') as (ds & R & A & Ln & V & La & Z0); try lia.
    { rewrite Hi'. set (k := W - 4 * Z.of_nat n). assert (Hk : 0 <= k) by lia.
      assert (Pk : 2^k = 2^(W - 4 * Z.of_nat (S n)) * 16). { replace k with ((W - 4 * Z.of_nat (S n)) + 4) by lia. rewrite Z.pow_add_r by lia. reflexivity. }
      assert (PWk : 2^W = 2^(4 * Z.of_nat n) * 2^k). { rewrite <- Z.pow_add_r by lia. f_equal. lia. }
      assert (Q : 0 < 2^(W - 4 * Z.of_nat (S n))) by (apply Z.pow_pos_nonneg; lia).
      apply Z.div_exact in Hm; [|lia]. rewrite Hm, PWk. rewrite Z.mod_divide by lia.
      exists (i / 2^(W - 4 * Z.of_nat (S n)) - d * 2^(4 * Z.of_nat n)). rewrite Pk. ring. }
    rewrite R. cbn [bind]. destruct (hexdigit_alpha up d Bd) as [A1 V1].
    exists (hexdigit (lower_of up) d :: ds). split; [reflexivity|]. split; [constructor; auto|]. split; [cbn; lia|]. split; [|split].
    + rewrite nv_cons, V1 by lia. cbn [len]. rewrite Nat2Z.inj_succ, Z.pow_succ_r by lia. rewrite Z.mul_add_distr_r, V, Hi'. ring.
    + destruct ds as [|c ds]; [|exact La]. cbn [last]. assert (i' = 0) by (apply Z0; reflexivity).
      intros C. rewrite dchar_hex in C by exact Bd. apply dchar_48 in C; [|exact Bd]. nia.
    + split; [discriminate|lia].
Qed.
Lemma nibbles_ok (up : bool) n : forall x acc, 0 <= x ->
  exists ds, low_nibbles n (lower_of up) x acc = ds ++ acc /\ len ds = n /\ Forall (alpha 16 up) ds /\ numeral_value 16 ds = x mod 16 ^ Z.of_nat n.
Proof.
  induction n as [|n I]; intros x acc Hx.
  - exists []. cbn. repeat split; [constructor|]. now rewrite Z.mod_1_r.
  - cbn [low_nibbles]. rewrite land15, Z.shiftr_div_pow2 by lia. change (2^4) with 16.
    destruct (I (x / 16) (hexdigit (lower_of up) (x mod 16) :: acc) ltac:(apply Z.div_pos; lia)) as (ds & -> & Hl & A & V).
    destruct (hexdigit_alpha up (x mod 16) ltac:(apply Z.mod_pos_bound; lia)) as [A1 V1].
    exists (ds ++ [hexdigit (lower_of up) (x mod 16)]). rewrite <- app_assoc. split; [reflexivity|]. split; [rewrite app_length; cbn; lia|].
    split; [apply Forall_app; split; auto|]. rewrite nv_app, V, V1. rewrite Nat2Z.inj_succ, Z.pow_succ_r by lia.
    rewrite (Z.rem_mul_r x 16) by (try apply Z.pow_pos_nonneg; lia). lia.
Qed.
Lemma rounded_ok (up : bool) room p : forall fuel r s, 16 ^ Z.of_nat p <= r < 16 ^ (Z.of_nat p + 1) -> Z.of_nat (p + len s) <= room -> (p < fuel)%nat ->
  exists ds, rounded_digits fuel room (lower_of up) r s = Ok (r / 16 ^ Z.of_nat p, ds ++ s) /\ len ds = p /\
    Forall (alpha 16 up) ds /\ numeral_value 16 ds = r mod 16 ^ Z.of_nat p.
Proof.
  induction p as [|p I]; intros fuel r s Hr Hs Hf; destruct fuel as [|f]; try lia; cbn [rounded_digits].
  - change (16 ^ Z.of_nat 0) with 1 in *. change (16 ^ (Z.of_nat 0 + 1)) with 16 in Hr. destruct (15 <? r) eqn:E; [lia|].
    exists []. cbn. rewrite Z.div_1_r, Z.mod_1_r. repeat split; constructor.
  - rewrite Nat2Z.inj_succ in *. assert (Pp : 0 < 16 ^ Z.of_nat p) by (apply Z.pow_pos_nonneg; lia).
    assert (E1 : 16 ^ Z.succ (Z.of_nat p) = 16 * 16 ^ Z.of_nat p) by (apply Z.pow_succ_r; lia).
    assert (E2 : 16 ^ (Z.succ (Z.of_nat p) + 1) = 16 * 16 ^ Z.succ (Z.of_nat p)) by (apply Z.pow_succ_r; lia).
    assert (E3 : 16 ^ (Z.of_nat p + 1) = 16 * 16 ^ Z.of_nat p) by (apply Z.pow_succ_r; lia).
    destruct (15 <? r) eqn:E; [|lia]. unfold push. destruct (Z.of_nat (len s) <? room) eqn:E4; [|lia]. cbn [bind].
    rewrite land15, Z.shiftr_div_pow2 by lia. change (2^4) with 16.
    assert (16 ^ Z.of_nat p <= r / 16 < 16 ^ (Z.of_nat p + 1)) by (split; [apply Z.div_le_lower_bound; lia|apply Z.div_lt_upper_bound; lia]).
    destruct (I f (r / 16) (hexdigit (lower_of up) (r mod 16) :: s)) as (ds & -> & Hl & A & V); try lia.
    { cbn [len]. lia. }
    destruct (hexdigit_alpha up (r mod 16) ltac:(apply Z.mod_pos_bound; lia)) as [A1 V1].
    exists (ds ++ [hexdigit (lower_of up) (r mod 16)]). rewrite <- app_assoc. split.
    { f_equal. f_equal. rewrite E1. now rewrite <- Z.div_div by lia. }
    split; [rewrite app_length; cbn; lia|]. split; [apply Forall_app; split; auto|].
    rewrite nv_app, V, V1, E1. rewrite (Z.rem_mul_r r 16) by lia. lia.
Qed.

(** *** rounding *)
Lemma round_test m W mwT p k : 0 <= m -> 0 <= p -> 1 <= mwT - 4 * p -> W = mwT + k -> 2 <= k ->
  let s := mwT - 4 * p in
  Z.shiftr m s + b2z (2^(W - 1) <? Z.lor (Z.land (Z.shiftr m s) 1) (Z.shiftl m (k + p * 4) mod 2^W)) = rne m (2^s).
Proof.
  intros Hm Hp Hs HW Hk s. rewrite rne_unfold, Z.shiftr_div_pow2 by lia. f_equal. f_equal.
  set (h := m / 2^s).
  assert (L1 : Z.land h 1 = h mod 2). { change 1 with (Z.ones 1). rewrite Z.land_ones by lia. reflexivity. }
  rewrite L1. set (j := k + p * 4 - 1).
  assert (EL : Z.shiftl m (k + p * 4) mod 2^W = 2^j * (2 * (m mod 2^s))).
  { rewrite Z.shiftl_mul_pow2 by lia. replace W with (s + (k + p * 4)) by lia. rewrite (Z.pow_add_r 2 s (k + p * 4)) by lia.
    rewrite Z.mul_mod_distr_r by (apply Z.pow_nonzero; lia). replace (k + p * 4) with (1 + j) by lia. rewrite (Z.pow_add_r 2 1 j) by lia. ring. }
  rewrite EL. assert (Pj : 2 <= 2^j). { change 2 with (2^1) at 1. apply Z.pow_le_mono_r; lia. }
  assert (Ps : 0 < 2^s) by (apply Z.pow_pos_nonneg; lia).
  assert (EW : 2^(W - 1) = 2^j * 2^s). { rewrite <- Z.pow_add_r by lia. f_equal. lia. }
  rewrite EW. pose proof (Z.mod_pos_bound m (2^s) Ps) as Bt. pose proof (Z.mod_pos_bound h 2 ltac:(lia)) as Bh.
  set (t := m mod 2^s) in *. set (b := h mod 2) in *.
  assert (LO : Z.lor b (2^j * (2 * t)) = 2^j * (2 * t) + b).
  { rewrite Z.lor_comm. replace (2^j * (2 * t)) with ((2^j * t) * 2^1) by lia. rewrite <- Z.shiftl_mul_pow2 by lia.
    rewrite <- Z.lxor_lor. 2: { apply Z.bits_inj'. intros n Hn. rewrite Z.land_spec, Z.bits_0. destruct (Z.eq_dec n 0) as [-> |N].
      - rewrite Z.shiftl_spec_low by lia. reflexivity.
      - assert (B : Z.testbit b n = false). { destruct (Z.eq_dec b 0) as [-> |]; [apply Z.bits_0|]. apply Z.bits_above_log2; [lia|]. assert (b = 1) as -> by lia. cbn. lia. }
        rewrite B. apply andb_false_r. }
    rewrite <- Z.add_nocarry_lxor; [reflexivity|].
    apply Z.bits_inj'. intros n Hn. rewrite Z.land_spec, Z.bits_0. destruct (Z.eq_dec n 0) as [-> |N].
    - rewrite Z.shiftl_spec_low by lia. reflexivity.
    - assert (B : Z.testbit b n = false). { destruct (Z.eq_dec b 0) as [-> |]; [apply Z.bits_0|]. apply Z.bits_above_log2; [lia|]. assert (b = 1) as -> by lia. cbn. lia. }
      rewrite B. apply andb_false_r. }
  rewrite LO. destruct (Z.ltb_spec (2^j * 2^s) (2^j * (2 * t) + b)), (Z.ltb_spec (2^s) (2 * t + b)); auto; exfalso; nia.
Qed.

Lemma round_facts m mwT p : 0 <= p -> 1 <= mwT - 4 * p -> 0 <= m < 2 * 2^mwT ->
  let r := rne m (2^(mwT - 4 * p)) in 0 <= r <= 2 * 16^p /\ (2^mwT <= m -> 16^p <= r) /\ r < 16^(p + 1) /\ r = rne (m * 16^p) (2^mwT).
Proof.
  intros Hp Hs Hm r.
  assert (P16 : 16^p = 2^(4 * p)) by (rewrite Z.pow_mul_r by lia; reflexivity).
  assert (PS : 2^mwT = 16^p * 2^(mwT - 4 * p)) by (rewrite P16, <- Z.pow_add_r by lia; f_equal; lia).
  assert (Ps : 0 < 2^(mwT - 4 * p)) by (apply Z.pow_pos_nonneg; lia).
  assert (Pp : 0 < 16^p) by (apply Z.pow_pos_nonneg; lia).
  assert (Rr : 0 <= r <= 2 * 16^p) by (apply rne_range; [lia|]; rewrite PS in Hm; clear - Hm; nia).
  split; [exact Rr|]. split; [|split].
  - intros Hn. apply (rne_range m _ (16^p) (2 * 16^p)); [lia|]. rewrite PS in Hm, Hn. clear - Hm Hn. nia.
  - rewrite Z.pow_add_r by lia. lia.
  - unfold r. rewrite PS, (Z.mul_comm (16^p)). symmetry. apply rne_scale; lia.
Qed.

Lemma rd_ok (up : bool) room p r post : 0 <= p <= 28 -> p = 0 \/ 16^p <= r -> 0 <= r < 16^(p + 1) -> p + Z.of_nat (len post) <= room ->
  exists ds, rounded_digits F room (lower_of up) r post = Ok (r / 16 ^ p, ds ++ post) /\ Z.of_nat (len ds) = p /\
      Forall (alpha 16 up) ds /\ numeral_value 16 ds = r mod 16 ^ p.
Proof.
  intros Hp Hr R2 Hl. destruct Hr as [Z0|Rn].
  - subst p. exists []. change (16^0) with 1 in *. change (16^(0+1)) with 16 in R2. rewrite Z.div_1_r, Z.mod_1_r. cbn [rounded_digits F].
    change F with 64%nat. cbn [rounded_digits]. replace (15 <? r) with false by lia. repeat split; auto.
  - assert (E : Z.of_nat (Z.to_nat p) = p) by lia.
    destruct (rounded_ok up room (Z.to_nat p) F r post) as (ds & R & L' & A & V).
    { rewrite E. lia. } { lia. } { unfold F. lia. }
    rewrite E in *. exists ds. rewrite R. repeat split; auto. lia.
Qed.

(** *** layout *)
Definition laid (spec : Spec) (zok : bool) (pre body : list Z) (n : Z) : list Z :=
  if has (flags spec) 45 then pre ++ body ++ chars 32 n
  else if has (flags spec) 48 && zok then pre ++ chars 48 n ++ body else chars 32 n ++ pre ++ body.
Lemma afin_ok spec zok pre body f : 0 <= width spec <= INT_MAX ->
  let L := Z.of_nat (len (pre ++ body)) in L <= INT_MAX ->
  (forall p, 0 <= p < 2^32 -> List.concat (f p) = laid spec zok pre body p) ->
  exists ps, let out := field (view spec) zok pre body in
    (do padding <- padding_ (width spec) L; do r <- chk_i32 (L + padding); Ok (f padding, r)) = Ok (ps, Z.of_nat (len out)) /\ List.concat ps = out.
Proof.
  intros Hw L HL Hf. unfold padding_. assert (0 <= L) by lia. unfold INT_MAX in *.
  rewrite chk_ok by (unfold INT_MIN, INT_MAX; lia). cbn [bind].
  set (pd := b2z (L <? width spec) * (width spec - L)).
  assert (Hpd : pd = Z.max 0 (width spec - L)) by (unfold pd, b2z; destruct (L <? width spec) eqn:E; lia).
  rewrite chk_ok by (unfold INT_MIN, INT_MAX; lia). cbn [bind].
  assert (C : forall c, chars c pd = chars c (width spec - L)) by (intros c; unfold chars; f_equal; lia).
  assert (O : field (view spec) zok pre body = laid spec zok pre body pd).
  { unfold field, laid. rewrite !has_bit by lia. change (45 - 32) with 13. change (48 - 32) with 16. cbn [minus zero fwidth view]. fold L. now rewrite !C. }
  exists (f pd). cbv zeta. rewrite O. split; [|apply Hf; lia]. f_equal. f_equal.
  subst L. unfold laid. destruct (has (flags spec) 45); [|destruct (has (flags spec) 48 && zok)];
    rewrite ?app_length, ?Nat2Z.inj_add, ?chars_len in *; lia.
Qed.
Lemma map_lor (up : bool) : map (fun c => Z.lor c (lower_of up)) [73; 78; 70] = (if up then [73; 78; 70] else [105; 110; 102]) /\
  map (fun c => Z.lor c (lower_of up)) [78; 65; 78] = (if up then [78; 65; 78] else [110; 97; 110]).
Proof. destruct up; split; reflexivity. Qed.
Lemma nonfinite_ok spec (up : bool) b s s' : 0 <= width spec <= INT_MAX -> len s = 3%nat -> map (fun c => Z.lor c (lower_of up)) s = s' ->
  exists ps, let out := field (view spec) false (sign_text (view spec) b) s' in
    nonfinite_ spec (lower_of up) (signchar_ b (flags spec)) s = Ok (ps, Z.of_nat (len out)) /\ List.concat ps = out.
Proof.
  intros Hw H3 <-. destruct (signtext_ok spec b) as [S1 S2].
  assert (HL : Z.of_nat (len (sign_text (view spec) b)) <= 1) by (unfold sign_text; destruct b, (plus (view spec)), (space (view spec)); cbn; lia).
  unfold nonfinite_. set (s' := map _ s). assert (L3 : len s' = 3%nat) by (unfold s'; now rewrite map_length).
  rewrite S2. replace (3 + Z.of_nat (len (sign_text (view spec) b))) with (Z.of_nat (len (sign_text (view spec) b ++ s'))) by (rewrite app_length; lia).
  apply (afin_ok spec false (sign_text (view spec) b) s'
    (fun padding => if has (flags spec) 45 then put_sign (signchar_ b (flags spec)) ++ [s'] ++ pad_ 32 padding else pad_ 32 padding ++ put_sign (signchar_ b (flags spec)) ++ [s'])); auto.
  - rewrite app_length. unfold INT_MAX. lia.
  - intros p Hp. unfold laid. rewrite andb_false_r. destruct (has (flags spec) 45); rewrite !concat_app, S1, pad_text by (unfold is_byte; lia); cbn [List.concat]; now rewrite app_nil_r.
Qed.

Definition good (T : fmt) (q : Z) : Prop := mw T = 4 * q /\ 1 <= q <= 28 /\ 2 <= ew T <= 16 /\ 0 < bias T < 10 ^ (room_a T - 6 - q) /\ 7 + q <= room_a T <= 40.
Lemma good64 : good binary64 13.
Proof. unfold good. cbn. lia. Qed.
Lemma good128 : good binary128 28.
Proof. unfold good. cbn. lia. Qed.

Section A.
Context (T : fmt) (q : Z) (G : good T q) (spec : Spec) (up : bool) (bits : Z) (Hw : 0 <= width spec <= INT_MAX) (Hp : precision spec <= INT_MAX - 64).
Notation W := (mw T + ew T).
Notation magnitude := (bits mod 2^(W - 1)).
Notation biased := (magnitude / 2^mw T).

Lemma mag_range : 0 <= magnitude < 2^(W - 1).
Proof. destruct G as (G1 & G2 & G3 & _). apply Z.mod_pos_bound. apply Z.pow_pos_nonneg; lia. Qed.
Lemma pmw : 0 < 2^mw T.
Proof. destruct G as (G1 & G2 & G3 & _). apply Z.pow_pos_nonneg; lia. Qed.
Lemma sig_eq : Z.lor (magnitude mod 2^mw T) (Z.shiftl (b2z (negb (biased =? 0))) (mw T)) = significand T bits.
Proof.
  pose proof pmw. pose proof mag_range. destruct G as (G1 & G2 & G3 & _). unfold significand. cbv zeta.
  rewrite Z.shiftl_mul_pow2 by lia. destruct (biased =? 0) eqn:E; cbn [negb b2z].
  - rewrite Z.mul_0_l, Z.lor_0_r. apply Z.eqb_eq in E. apply Z.mod_small. apply Z.div_small_iff in E; lia.
  - rewrite Z.mul_1_l, lor_bit by lia. rewrite (Z.div_small (magnitude mod 2^mw T)) by (apply Z.mod_pos_bound; lia). cbn. lia.
Qed.
Lemma sig_range : 0 <= significand T bits < 2 * 2^mw T /\ (normal T bits -> 2^mw T <= significand T bits).
Proof.
  pose proof pmw. pose proof mag_range. unfold significand, normal. cbv zeta. pose proof (Z.mod_pos_bound magnitude (2^mw T) pmw).
  destruct (biased =? 0) eqn:E; [|lia]. apply Z.eqb_eq in E. apply Z.div_small_iff in E; lia.
Qed.
Lemma exp_eq : (if Z.shiftr magnitude (mw T) =? 0 then (1 - bias T) * b2z (negb (magnitude =? 0)) else Z.shiftr magnitude (mw T) - bias T) = exponent T bits.
Proof.
  pose proof pmw. destruct G as (G1 & G2 & G3 & _). unfold exponent. cbv zeta. rewrite Z.shiftr_div_pow2 by lia.
  destruct (magnitude =? 0) eqn:E0.
  - apply Z.eqb_eq in E0. rewrite E0. rewrite Z.div_0_l by lia. cbn. lia.
  - destruct (biased =? 0); cbn [negb b2z]; lia.
Qed.
Lemma exp_range : finite T bits -> Z.abs (exponent T bits) <= bias T.
Proof.
  pose proof pmw. pose proof mag_range. unfold finite, exponent. cbv zeta. intros Hf. destruct G as (G1 & G2 & G3 & G4 & _).
  destruct (magnitude =? 0); [lia|]. assert (0 <= biased) by (apply Z.div_pos; lia). assert (biased < 2 * bias T + 1) by (apply Z.div_lt_upper_bound; lia).
  destruct (biased =? 0) eqn:E; lia.
Qed.

(** the exponent part *)
Lemma postfix_ok : finite T bits -> exists e,
  (if exponent T bits =? 0 then e = [48] else is_numeral 10 false e (Z.abs (exponent T bits))) /\ Z.of_nat (len e) <= Z.max 1 (room_a T - 6 - q) /\
  (forall K, (do postfix <- decimal_ F (room_a T) (Z.abs (exponent T bits)) [];
   do postfix <- (if exponent T bits =? 0 then push (room_a T) postfix 48 else Ok postfix);
   do postfix <- push (room_a T) postfix (if exponent T bits <? 0 then 45 else 43);
   do postfix <- push (room_a T) postfix (Z.lor 80 (lower_of up)); (K postfix : res (pieces * Z))) =
  K ((if up then 80 else 112) :: (if exponent T bits <? 0 then 45 else 43) :: e))%Z.
Proof.
  intros Hf. pose proof (exp_range Hf) as Be. destruct G as (G1 & G2 & G3 & G4 & G5).
  destruct (numeral_exists 10 false (Z.abs (exponent T bits)) ltac:(lia) ltac:(lia)) as [d Hd].
  assert (Ld : Z.of_nat (len d) <= room_a T - 6 - q) by (apply (numeral_len 10 false d _ (room_a T - 6 - q)) in Hd; lia).
  assert (LZ : Z.lor 80 (lower_of up) = if up then 80 else 112) by (destruct up; reflexivity).
  assert (P : forall l c, Z.of_nat (len l) < room_a T -> push (room_a T) l c = Ok (c :: l)) by (intros l c H; unfold push; destruct (_ <? _) eqn:E; [reflexivity|lia]).
  rewrite LZ.
  destruct (exponent T bits =? 0) eqn:E0.
  - assert (Ez : Z.abs (exponent T bits) = 0) by lia. rewrite Ez in *. apply numeral_zero in Hd; [|lia]. subst d.
    exists [48]. split; [reflexivity|]. split; [cbn; lia|]. intros K.
    rewrite (decimal_ok F false (room_a T) [] 0 [] (proj2 (numeral_nil _ _ _) eq_refl)) by (unfold F; cbn; lia).
    rewrite fits_ok by (cbn; lia). cbn [bind]. rewrite !P by (cbn [len]; lia). cbn [bind]. rewrite !P by (cbn [len]; lia). cbn [bind]. rewrite P by (cbn [len]; lia). reflexivity.
  - exists d. split; [exact Hd|]. split; [lia|]. intros K. rewrite (decimal_ok F false (room_a T) d _ [] Hd) by (unfold F; lia).
    rewrite fits_ok by lia. cbn [bind]. rewrite !P by (cbn [len]; lia). cbn [bind]. rewrite !P by (cbn [len]; lia). reflexivity.
Qed.
Lemma headdigit : digit_value (48 + b2z (negb (biased =? 0))) = b2z (negb (biased =? 0)) /\ alpha 16 up (48 + b2z (negb (biased =? 0))).
Proof. destruct (biased =? 0), up; split; vm_compute; auto 20. Qed.
Lemma sig_split : significand T bits = b2z (negb (biased =? 0)) * 2^mw T + magnitude mod 2^mw T.
Proof.
  pose proof pmw. pose proof mag_range. unfold significand. cbv zeta. destruct (biased =? 0) eqn:E; cbn [negb b2z]; [|ring].
  apply Z.eqb_eq in E. apply Z.div_small_iff in E; [|lia]. rewrite (Z.mod_small magnitude (2^mw T)) by lia. lia.
Qed.
Lemma sign_len b : Z.of_nat (len (sign_text (view spec) b)) <= 1.
Proof. unfold sign_text. destruct b, (plus (view spec)), (space (view spec)); cbn; lia. Qed.
Lemma laid_cut sg x y z post zeros p : 0 <= p < 2^32 -> 0 <= zeros < 2^32 -> List.concat (put_sign sg) = x ->
  List.concat (if has (flags spec) 45 then put_sign sg ++ [y ++ z] ++ pad_ 48 zeros ++ [post] ++ pad_ 32 p
     else if has (flags spec) 48 then put_sign sg ++ [y] ++ pad_ 48 p ++ [z] ++ pad_ 48 zeros ++ [post]
     else pad_ 32 p ++ put_sign sg ++ [y ++ z] ++ pad_ 48 zeros ++ [post]) = laid spec true (x ++ y) (z ++ chars 48 zeros ++ post) p.
Proof.
  intros H1 H2 H3. unfold laid. rewrite andb_true_r. destruct (has (flags spec) 45); [|destruct (has (flags spec) 48)];
  rewrite !concat_app, H3, !pad_text by (unfold is_byte; lia); cbn [List.concat]; rewrite ?app_nil_r, <- ?app_assoc; reflexivity.
Qed.

Definition tail (sg : Z) (y z : list Z) (zeros : Z) (post : list Z) (padding : Z) : pieces :=
  if has (flags spec) 45 then put_sign sg ++ [y ++ z] ++ pad_ 48 zeros ++ [post] ++ pad_ 32 padding
  else if has (flags spec) 48 then put_sign sg ++ [y] ++ pad_ 48 padding ++ [z] ++ pad_ 48 zeros ++ [post]
  else pad_ 32 padding ++ put_sign sg ++ [y ++ z] ++ pad_ 48 zeros ++ [post].
Lemma tail_ok b X rest zeros post f Ln : Z.of_nat (len rest) <= 50 -> Z.of_nat (len post) <= 50 -> 0 <= zeros -> Z.of_nat (len rest) + zeros + Z.of_nat (len post) <= INT_MAX - 3 ->
  let sg := sign_text (view spec) b in
  Ln = Z.of_nat (len sg) + 2 + Z.of_nat (len rest) + zeros + Z.of_nat (len post) ->
  (forall p, List.concat (f p) = List.concat (tail (signchar_ b (flags spec)) [48; X] rest zeros post p)) ->
  exists ps, let out := field (view spec) true (sg ++ [48; X]) (rest ++ chars 48 zeros ++ post) in
    (do padding <- padding_ (width spec) Ln; do r <- chk_i32 (Ln + padding); Ok (f padding, r)) = Ok (ps, Z.of_nat (len out)) /\
    List.concat ps = out.
Proof.
  clear G. intros H1 H2 H3 H4 sg HL Hf. pose proof (sign_len b) as SL. fold sg in SL. destruct (signtext_ok spec b) as [S1 S2]. fold sg in S1.
  assert (EL : Ln = Z.of_nat (len ((sg ++ [48; X]) ++ rest ++ chars 48 zeros ++ post))).
  { rewrite !app_length, !Nat2Z.inj_add, chars_len. cbn [len]. clear - HL H3. lia. }
  rewrite EL. apply afin_ok; auto.
  - rewrite <- EL. clear - HL H3 H4 SL. unfold INT_MAX in *. lia.
  - intros p Hpp. rewrite Hf. unfold tail. apply laid_cut; auto. clear - H3 H4. unfold INT_MAX in *. lia.
Qed.

Theorem hexfloat_ok : finite T bits -> (precision spec <= 0 \/ q <= precision spec \/ normal T bits) ->
  exists ps out, hexfloat_ T spec (lower_of up) bits = Ok (ps, Z.of_nat (len out)) /\ List.concat ps = out /\
  prints_hexfloat T (view spec) up bits out.
Proof.
  intros Hf Hc. destruct (postfix_ok Hf) as (e & He & Le & HK).
  pose proof pmw as PM. pose proof mag_range as MR. pose proof G as (G1 & G2 & G3 & G4 & G5).
  assert (LX : Z.lor 88 (lower_of up) = if up then 88 else 120) by (destruct up; reflexivity).
  unfold hexfloat_. cbv zeta. rewrite LX.
  replace (magnitude =? _) with false by (symmetry; apply Z.eqb_neq; unfold finite in Hf; rewrite Z.shiftl_mul_pow2; lia).
  replace (_ <? magnitude) with false by (symmetry; apply Z.ltb_ge; unfold finite in Hf; rewrite Z.shiftl_mul_pow2; lia).
  rewrite exp_eq, HK. clear HK. rewrite Z.shiftr_div_pow2 by lia. fold (negative T bits).
  set (post := (if up then 80 else 112) :: (if exponent T bits <? 0 then 45 else 43) :: e).
  assert (Lpost : Z.of_nat (len post) <= room_a T - 4 - q) by (unfold post; cbn [len]; clear - Le G5; lia). clear G4.
  set (h := 48 + b2z (negb (biased =? 0))). destruct headdigit as [Vh Ah]. fold h in Vh, Ah.
  destruct (signtext_ok spec (negative T bits)) as [S1 S2]. rewrite S2. pose proof (sign_len (negative T bits)) as SL.
  set (sg := sign_text (view spec) (negative T bits)) in *.
  set (X := if up then 88 else 120).
  destruct (precision spec <? 0) eqn:P0; [|destruct (precision spec <? mw T / 4) eqn:P1].
  - (* no precision *)
    set (mant := Z.shiftl magnitude (ew T) mod 2^W).
    assert (PW : 2^W = 2^mw T * 2^ew T) by (apply Z.pow_add_r; lia).
    assert (Pe : 0 < 2^ew T) by (apply Z.pow_pos_nonneg; lia).
    assert (Em : mant = magnitude mod 2^mw T * 2^ew T).
    { unfold mant. rewrite Z.shiftl_mul_pow2, PW, Z.mul_mod_distr_r by lia. reflexivity. }
    pose proof (Z.mod_pos_bound magnitude (2^mw T) PM) as Bm.
    assert (Bmant : 0 <= mant < 2^W) by (rewrite Em, PW; clear - Bm Pe; nia).
    assert (Mm : mant mod 2^(W - 4 * Z.of_nat (Z.to_nat q)) = 0).
    { rewrite Z2Nat.id by lia. replace (W - 4 * q) with (ew T) by lia. rewrite Em. apply Z.mod_mul. lia. }
    destruct (mantissa_ok up W (Z.to_nat q) F mant ltac:(clear - G1 G2 G3; lia) ltac:(clear - G1 G2 G3; lia) Bmant Mm ltac:(clear - G2; unfold F; lia)) as (ds & -> & Ad & Ld & Vd & Td & Zd).
    cbn [bind]. set (point := negb (Z.of_nat (len ds) =? 0) || hash (view spec)).
    assert (Ep : (mant =? 0) && negb (has (flags spec) 35) = negb point).
    { unfold point. rewrite has_bit by lia. change (35 - 32) with 3. cbn [hash view].
      destruct (mant =? 0) eqn:M0; [assert (ds = []) as -> by (apply Zd; lia)|]; cbn [len Z.of_nat negb andb orb Z.eqb].
      - reflexivity.
      - destruct ds as [|c ds]; [assert (mant = 0) by (apply Zd; reflexivity); lia|]. reflexivity. }
    rewrite Ep. set (dot := if point then [46] else []).
    assert (Ef : (if negb point then firstn 3 [48; X; h; 46] else [48; X; h; 46]) ++ ds = [48; X] ++ (h :: dot ++ ds)).
    { unfold dot. destruct point; reflexivity. }
    rewrite Ef. set (rest := h :: dot ++ ds).
    assert (Lr : Z.of_nat (len rest) <= 2 + q). { unfold rest, dot. cbn [len]. rewrite app_length. clear - Ld G2. destruct point; cbn [len]; lia. }
    assert (Lf : Z.of_nat (len ([48; X] ++ rest)) = 2 + Z.of_nat (len rest)) by (cbn [len List.app]; clear - Lr; lia).
    replace (room_a T <? _) with false by (symmetry; apply Z.ltb_ge; rewrite Nat2Z.inj_add, Lf; clear - Lr Lpost; lia).
    destruct (tail_ok (negative T bits) X rest 0 post
      (fun padding => if has (flags spec) 45 then put_sign (signchar_ (negative T bits) (flags spec)) ++ [[48; X] ++ rest] ++ [post] ++ pad_ 32 padding
        else if has (flags spec) 48 then put_sign (signchar_ (negative T bits) (flags spec)) ++ [firstn 2 ([48; X] ++ rest)] ++ pad_ 48 padding ++ [skipn 2 ([48; X] ++ rest)] ++ [post]
        else pad_ 32 padding ++ put_sign (signchar_ (negative T bits) (flags spec)) ++ [[48; X] ++ rest] ++ [post])
      (Z.of_nat (len sg) + Z.of_nat (len ([48; X] ++ rest)) + Z.of_nat (len post))) as (ps & F1 & F2).
    { clear - Lr G2. lia. }
    { clear - Lpost G2 G5. lia. }
    { lia. }
    { clear - Lpost G2 Lr G5. unfold INT_MAX. lia. }
    { fold sg. rewrite Lf. clear. lia. }
    { intros p. unfold tail. destruct (has (flags spec) 45); [|destruct (has (flags spec) 48)]; rewrite !concat_app; cbn [List.concat firstn skipn List.app pad_]; reflexivity. }
    exists ps, (field (view spec) true (sg ++ [48; X]) (rest ++ chars 48 0 ++ post)). split; [exact F1|split; [exact F2|]].
    exists h, ds, e. cbv zeta. split; [|split; [exact He|split]].
    { constructor; [apply alpha16, Ah|]. eapply Forall_impl; [|exact Ad]. intros a. apply alpha16. }
    { fold sg X point. f_equal. unfold hex_body. fold dot post. unfold rest. cbn [List.app chars repeat Z.to_nat]. now rewrite <- app_assoc. }
    { cbn [prec view]. rewrite P0. split; [|exact Td]. rewrite nv_cons, Vh by lia. rewrite sig_split.
      assert (numeral_value 16 ds * 2^mw T = magnitude mod 2^mw T * 16 ^ Z.of_nat (len ds)); [|rewrite !Z.mul_add_distr_r, H; ring].
      rewrite Em, PW in Vd. apply (Z.mul_cancel_r _ _ (2^ew T)); [lia|]. rewrite <- Z.mul_assoc, Vd. ring. }
  - (* rounded *)
    assert (Q4 : mw T / 4 = q) by (rewrite G1, Z.mul_comm; apply Z.div_mul; lia). rewrite Q4 in P1.
    set (p := precision spec) in *. assert (Hpq : 0 <= p < q) by lia.
    rewrite sig_eq. destruct sig_range as [SR SN]. set (m := significand T bits) in *.
    pose proof (round_test m W (mw T) p (ew T) ltac:(lia) ltac:(lia) ltac:(lia) eq_refl ltac:(lia)) as RT. cbv zeta in RT.
    replace (mw T - p * 4) with (mw T - 4 * p) by lia. rewrite RT.
    set (r := rne m (2^(mw T - 4 * p))) in *.
    destruct (round_facts m (mw T) p ltac:(clear - Hpq; lia) ltac:(clear - Hpq G1; lia) SR) as (Rr & Rn0 & R2 & RE). fold r in Rr, Rn0, R2, RE.
    assert (Pp : 0 < 16^p) by (apply Z.pow_pos_nonneg; clear - Hpq; lia).
    assert (Rn : p = 0 \/ 16^p <= r). { destruct Hc as [Hc|[Hc|Hc]]; [left; clear - Hc Hpq; lia|clear - Hc Hpq; lia|right; auto]. }
    assert (RW : r mod 2^W = r). { apply Z.mod_small. assert (16^(p + 1) <= 2^W); [|clear - H Rr R2; lia]. change 16 with (2^4). rewrite <- Z.pow_mul_r by (clear - Hpq; lia). apply Z.pow_le_mono_r; clear - Hpq G1 G3; lia. }
    rewrite RW.
    destruct (rd_ok up (room_a T) p r post ltac:(clear - Hpq G2; lia) Rn ltac:(clear - Rr R2; lia) ltac:(clear - Hpq Lpost; lia)) as (ds & -> & Lds & Ads & Vds). cbn [bind].
    assert (Rq : 0 <= r / 16^p < 16). { clear - Rr R2 Pp Hpq. split; [apply Z.div_pos; lia|]. apply Z.div_lt_upper_bound; [lia|]. rewrite Z.mul_comm. rewrite Z.pow_add_r in R2 by lia. lia. }
    set (point := negb (p =? 0) || hash (view spec)).
    assert (Ep : negb (p =? 0) || has (flags spec) 35 = point) by (unfold point; rewrite has_bit by lia; reflexivity).
    rewrite Ep. set (dot := if point then [46] else []).
    assert (Ldot : Z.of_nat (len dot) <= 1) by (unfold dot; destruct point; cbn; lia).
    assert (E1 : (if point then push (room_a T) (ds ++ post) 46 else Ok (ds ++ post)) = Ok (dot ++ ds ++ post)).
    { unfold dot, push. destruct point; [|reflexivity]. rewrite app_length. replace (Z.of_nat _ <? room_a T) with true by (clear - Lds Lpost Hpq; lia). reflexivity. }
    rewrite E1. cbn [bind]. rewrite land15, (Z.mod_small (r / 16^p)) by (clear - Rq; lia).
    destruct (hexdigit_alpha up (r / 16^p) Rq) as [Ah' Vh']. set (h' := hexdigit (lower_of up) (r / 16^p)) in *.
    set (rest := h' :: dot ++ ds ++ post).
    assert (E2 : push (room_a T) (dot ++ ds ++ post) h' = Ok rest).
    { unfold push. rewrite !app_length. replace (Z.of_nat _ <? room_a T) with true by (clear - Lds Lpost Hpq Ldot; lia). reflexivity. }
    rewrite E2. cbn [bind]. assert (Lr : Z.of_nat (len rest) <= room_a T - 2) by (unfold rest; cbn [len]; rewrite !app_length; clear - Lds Lpost Hpq Ldot; lia).
    replace (room_a T <? _) with false by (clear - Lr; lia).
    destruct (tail_ok (negative T bits) X [] 0 rest
      (fun padding => if has (flags spec) 45 then put_sign (signchar_ (negative T bits) (flags spec)) ++ [firstn 2 [48; X; h; 46]] ++ [rest] ++ pad_ 32 padding
        else if has (flags spec) 48 then put_sign (signchar_ (negative T bits) (flags spec)) ++ [firstn 2 [48; X; h; 46]] ++ pad_ 48 padding ++ [rest]
        else pad_ 32 padding ++ put_sign (signchar_ (negative T bits) (flags spec)) ++ [firstn 2 [48; X; h; 46]] ++ [rest])
      (Z.of_nat (len sg) + 2 + Z.of_nat (len rest))) as (ps & F1 & F2).
    { cbn. lia. }
    { clear - Lr G2 G5. lia. }
    { lia. }
    { clear - Lr G2 G5. unfold INT_MAX. cbn [len]. lia. }
    { fold sg. cbn [len]. clear. lia. }
    { intros p'. unfold tail. destruct (has (flags spec) 45); [|destruct (has (flags spec) 48)]; rewrite !concat_app; cbn [List.concat firstn skipn List.app pad_]; reflexivity. }
    exists ps, (field (view spec) true (sg ++ [48; X]) ([] ++ chars 48 0 ++ rest)). split; [exact F1|split; [exact F2|]].
    exists h', ds, e. cbv zeta. rewrite Lds. split; [|split; [exact He|split]].
    { constructor; [apply alpha16, Ah'|]. eapply Forall_impl; [|exact Ads]. intros a. apply alpha16. }
    { fold sg X point. f_equal. }
    { cbn [prec view]. fold p. replace (p <? 0) with false by (clear - Hpq G2; lia). split; [reflexivity|]. rewrite nv_cons, Vh', Vds, Lds by lia.
      rewrite (Z.mul_comm (r / 16^p)), <- Z.div_mod by (clear - Pp; lia). exact RE. }
  - (* all digits *)
    assert (Q4 : mw T / 4 = q) by (rewrite G1, Z.mul_comm; apply Z.div_mul; lia). rewrite Q4 in *.
    set (p := precision spec) in *. assert (Hpq : q <= p) by lia.
    destruct (nibbles_ok up (Z.to_nat q) magnitude [] ltac:(lia)) as (ds & -> & Lds & Ads & Vds). rewrite app_nil_r.
    rewrite Z2Nat.id in Vds by lia. assert (P16 : 16^q = 2^mw T) by (rewrite G1, Z.pow_mul_r by lia; reflexivity). rewrite P16 in Vds.
    change ([48; X; h; 46] ++ ds) with ([48; X] ++ h :: 46 :: ds). set (rest := h :: 46 :: ds).
    assert (Lr : Z.of_nat (len rest) = 2 + q) by (unfold rest; cbn [len]; lia).
    assert (Lf : Z.of_nat (len ([48; X] ++ rest)) = 4 + q) by (cbn [len List.app]; clear - Lr; lia).
    replace (room_a T <? _) with false by (symmetry; apply Z.ltb_ge; rewrite Nat2Z.inj_add, Lf; clear - Lr Lpost; lia).
    rewrite Lf. unfold INT_MAX in *. rewrite chk_ok by (unfold INT_MIN, INT_MAX; clear - SL G2 Hpq Hp; lia). cbn [bind]. rewrite chk_ok by (unfold INT_MIN, INT_MAX; clear - SL G2 Hpq Hp Lpost G5; lia). cbn [bind].
    destruct (tail_ok (negative T bits) X rest (p - q) post
      (tail (signchar_ (negative T bits) (flags spec)) [48; X] rest (p - q) post)
      (Z.of_nat (len sg) + (4 + q) + (p - q) + Z.of_nat (len post))) as (ps & F1 & F2).
    { clear - Lr G2 G5. lia. }
    { clear - Lpost G2 G5. lia. }
    { clear - Hpq. lia. }
    { clear - Lr Lpost G2 G5 Hp Hpq. unfold INT_MAX. lia. }
    { fold sg. rewrite Lr. clear. lia. }
    { reflexivity. }
    exists ps, (field (view spec) true (sg ++ [48; X]) (rest ++ chars 48 (p - q) ++ post)). split; [exact F1|split; [exact F2|]].
    assert (Lz : Z.of_nat (len (ds ++ chars 48 (p - q))) = p) by (rewrite app_length, Nat2Z.inj_add, chars_len; clear - Lds Hpq G2; lia).
    exists h, (ds ++ chars 48 (p - q)), e. cbv zeta. rewrite Lz. split; [|split; [exact He|split]].
    { constructor; [apply alpha16, Ah|]. apply Forall_app. split; [eapply Forall_impl; [|exact Ads]; intros a; apply alpha16|].
      apply Forall_forall. intros x Hx. unfold chars in Hx. apply repeat_spec in Hx as ->. destruct up; cbn; auto. }
    { fold sg X. f_equal. unfold hex_body. fold post. replace (p =? 0) with false by (clear - Hpq G2; lia). cbn [negb orb]. unfold rest. cbn [List.app]. now rewrite <- app_assoc. }
    { cbn [prec view]. fold p. replace (p <? 0) with false by (clear - Hpq G2; lia). split; [reflexivity|].
      assert (Vz : numeral_value 16 (chars 48 (p - q)) = 0).
      { unfold chars. generalize (Z.to_nat (p - q)). induction n as [|n I]; [reflexivity|]. cbn [repeat]. rewrite nv_cons, I by lia. reflexivity. }
      rewrite nv_cons, nv_app2, Vh, Lz, Vds, Vz, chars_len, Z.max_r, sig_split by lia.
      replace (16^p) with (16^(p - q) * 2^mw T) by (rewrite <- P16, <- Z.pow_add_r by lia; f_equal; lia).
      set (c := (b2z (negb (biased =? 0)) * 2^mw T + magnitude mod 2^mw T) * 16 ^ (p - q)).
      replace ((b2z (negb (biased =? 0)) * 2^mw T + magnitude mod 2^mw T) * (16 ^ (p - q) * 2^mw T)) with (c * 2^mw T) by (unfold c; ring).
      rewrite rne_unfold, Z.div_mul, Z.mod_mul by (clear - PM; lia).
      assert (0 <= c mod 2 < 2) by (apply Z.mod_pos_bound; lia).
      assert (4 <= 2^mw T) by (change 4 with (2^2); apply Z.pow_le_mono_r; clear - G1 G2; lia).
      replace (2^mw T <? _) with false by (clear - H H0; lia). cbn [b2z]. unfold c. ring. }
Qed.
Theorem nonfin_ok : ~ finite T bits -> exists ps out,
  hexfloat_ T spec (lower_of up) bits = Ok (ps, Z.of_nat (len out)) /\ List.concat ps = out /\ prints_nonfinite T (view spec) up bits out.
Proof.
  unfold finite. intros Hn. pose proof G as (G1 & G2 & G3 & G4 & G5). unfold hexfloat_, prints_nonfinite. cbv zeta.
  rewrite Z.shiftl_mul_pow2 by lia. fold (negative T bits). destruct (map_lor up) as [M1 M2].
  destruct (magnitude =? _) eqn:E.
  - destruct (nonfinite_ok spec up (negative T bits) [73; 78; 70] _ Hw eq_refl M1) as (ps & A & B). eauto.
  - replace (_ <? magnitude) with true by lia.
    destruct (nonfinite_ok spec up (negative T bits) [78; 65; 78] _ Hw eq_refl M2) as (ps & A & B). eauto.
Qed.
End A.
