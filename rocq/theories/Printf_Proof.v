(** Integer conversions of printf: digit loops, layout. *)
From Coq Require Import String Ascii.
From Verif Require Import Base Str_Model Utf8_Model Printf_Model Time_Spec Printf_Spec.
Open Scope Z_scope.
Open Scope list_scope.
Notation len := List.length.

(** ** Numerals *)
Definition alpha (b : Z) (up : bool) (c : Z) : Prop := In c (firstn (Z.to_nat b) (digit_chars up)).
Definition dchar (up : bool) (k : Z) : Z := nth (Z.to_nat k) (digit_chars up) 0.

Lemma nth_In_firstn (A : Type) (l : list A) d k n : (k < n)%nat -> (k < len l)%nat -> In (nth k l d) (firstn n l).
Proof.
  revert k n; induction l as [|a l I]; intros k n H1 H2; cbn in *; [lia|].
  destruct n; [lia|]. destruct k; cbn; [auto|right; apply I; lia].
Qed.
Lemma alpha_full b up c : 2 <= b <= 16 -> alpha b up c -> 0 <= digit_value c < b /\ dchar up (digit_value c) = c.
Proof.
  intros Hb H. unfold alpha in H.
  assert (H16 : exists k, (k < 16)%nat /\ (Z.of_nat k < b) /\ c = nth k (digit_chars up) 0).
  { apply In_nth with (d := 0) in H as (k & Hk & Hc). rewrite firstn_length in Hk.
    assert (len (digit_chars up) = 16%nat) by (destruct up; reflexivity).
    exists k. split; [lia|]. split; [lia|]. subst c.
    rewrite <- (firstn_skipn (Z.to_nat b) (digit_chars up)) at 2. rewrite app_nth1; [reflexivity|rewrite firstn_length; lia]. }
  destruct H16 as (k & Hk & Hb' & ->).
  assert (E : digit_value (nth k (digit_chars up) 0) = Z.of_nat k).
  { clear - Hk. destruct up; do 16 (destruct k; [reflexivity|]); lia. }
  rewrite E. unfold dchar. rewrite Nat2Z.id. split; [lia|reflexivity].
Qed.
Lemma dchar_alpha b up k : 2 <= b <= 16 -> 0 <= k < b -> alpha b up (dchar up k) /\ digit_value (dchar up k) = k.
Proof.
  intros Hb Hk. unfold alpha, dchar. split.
  - apply nth_In_firstn; [lia|]. assert (len (digit_chars up) = 16%nat) as -> by (destruct up; reflexivity). lia.
  - remember (Z.to_nat k) as n. assert (k = Z.of_nat n) by lia. subst k. assert (n < 16)%nat as Hn by lia. clear - Hn.
    destruct up; do 16 (destruct n; [reflexivity|]); lia.
Qed.
Lemma dchar_48 up k : 0 <= k < 16 -> dchar up k = 48 -> k = 0.
Proof.
  intros Hk. unfold dchar. remember (Z.to_nat k) as n. assert (k = Z.of_nat n) by lia. subst k.
  assert (n < 16)%nat as Hn by lia. clear - Hn.
  destruct up; do 16 (destruct n; [vm_compute; try lia; try discriminate|]); lia.
Qed.

Lemma nv_app b l c : numeral_value b (l ++ [c]) = numeral_value b l * b + digit_value c.
Proof. unfold numeral_value. now rewrite fold_left_app. Qed.
Lemma nv_app2 b l1 l2 : 0 <= b -> numeral_value b (l1 ++ l2) = numeral_value b l1 * b ^ Z.of_nat (len l2) + numeral_value b l2.
Proof.
  intros Hb. induction l2 as [|c l2 I] using rev_ind.
  - rewrite app_nil_r. cbn. lia.
  - rewrite app_assoc, !nv_app, I, app_length. cbn [len]. rewrite Nat2Z.inj_add, Z.pow_add_r by lia. change (b ^ Z.of_nat 1) with (b ^ 1).
    rewrite Z.pow_1_r. ring.
Qed.
Lemma nv_bound b up l : 2 <= b <= 16 -> Forall (alpha b up) l -> 0 <= numeral_value b l < b ^ Z.of_nat (len l).
Proof.
  intros Hb. induction l as [|c l I] using rev_ind; intros H; [cbn; lia|].
  apply Forall_app in H as [H Hc]. inversion Hc; subst. destruct (alpha_full b up c Hb H2) as [D _].
  specialize (I H). rewrite nv_app, app_length. cbn [len]. rewrite Nat2Z.inj_add, Z.pow_add_r by lia. change (b ^ Z.of_nat 1) with (b ^ 1).
  rewrite Z.pow_1_r. nia.
Qed.

Lemma numeral_snoc b up l c x : 2 <= b <= 16 -> is_numeral b up (l ++ [c]) x ->
  is_numeral b up l (x / b) /\ digit_value c = x mod b /\ c = dchar up (x mod b) /\ 0 < x.
Proof.
  intros Hb (H1 & H2 & H3). apply Forall_app in H1 as [H1 Hc]. inversion Hc as [|? ? Hc' _]; subst.
  fold (alpha b up c) in Hc'. destruct (alpha_full b up c Hb Hc') as [D Dc].
  rewrite nv_app.
  assert (0 <= numeral_value b l) by (apply (nv_bound b up l Hb H1)).
  assert (Hq : (numeral_value b l * b + digit_value c) / b = numeral_value b l).
  { symmetry; apply Z.div_unique with (digit_value c); lia. }
  assert (Hr : (numeral_value b l * b + digit_value c) mod b = digit_value c).
  { symmetry; apply Z.mod_unique with (numeral_value b l); lia. }
  rewrite Hq, Hr. repeat split; auto.
  - destruct l as [|a l]; [cbn; lia|exact H3].
  - destruct l as [|a l].
    + cbn in *. assert (digit_value c <> 0). { intros E. rewrite E in Dc. destruct up; vm_compute in Dc; congruence. } lia.
    + assert (0 < numeral_value b (a :: l)); [|nia].
      clear - H1 H3 Hb. change (a :: l) with ([a] ++ l). rewrite nv_app2 by lia. apply Forall_cons_iff in H1 as [Ha Hl].
      pose proof (nv_bound b up l Hb Hl). fold (alpha b up a) in Ha. destruct (alpha_full b up a Hb Ha) as [Da Ea].
      assert (digit_value a <> 0). { intros E. rewrite E in Ea. cbn in H3. destruct up; vm_compute in Ea; congruence. }
      unfold numeral_value at 1. cbn [fold_left]. assert (0 < b ^ Z.of_nat (len l)) by (apply Z.pow_pos_nonneg; lia). nia.
Qed.
Lemma numeral_nil b up x : is_numeral b up [] x <-> x = 0.
Proof. unfold is_numeral. cbn. split; [intuition lia|intros ->; repeat split; [constructor|lia]]. Qed.
Lemma numeral_zero b up l : 2 <= b <= 16 -> is_numeral b up l 0 -> l = [].
Proof. intros Hb. destruct l as [|c l _] using rev_ind; [auto|]. intros H. apply numeral_snoc in H; [lia|auto]. Qed.
Lemma numeral_nonneg b up l x : 2 <= b <= 16 -> is_numeral b up l x -> 0 <= x.
Proof. intros Hb (H & <- & _). apply (nv_bound b up l Hb H). Qed.

Lemma numeral_unique b up l1 l2 x : 2 <= b <= 16 -> is_numeral b up l1 x -> is_numeral b up l2 x -> l1 = l2.
Proof.
  intros Hb. revert l2 x. induction l1 as [|c l1 I] using rev_ind; intros l2 x H1 H2.
  - apply numeral_nil in H1. subst. now rewrite (numeral_zero b up l2).
  - destruct (numeral_snoc _ _ _ _ _ Hb H1) as (A1 & _ & C1 & P1).
    destruct l2 as [|d l2 _] using rev_ind.
    + apply numeral_nil in H2. lia.
    + destruct (numeral_snoc _ _ _ _ _ Hb H2) as (A2 & _ & C2 & _). rewrite C1, C2. f_equal. apply (I _ _ A1 A2).
Qed.
Lemma numeral_exists b up x : 2 <= b <= 16 -> 0 <= x -> exists l, is_numeral b up l x.
Proof.
  intros Hb Hx. enough (G : 0 <= x -> exists l, is_numeral b up l x) by auto.
  apply Z_lt_induction with (x := x) (P := fun x => 0 <= x -> exists l, is_numeral b up l x); [|exact Hx].
  clear x Hx. intros x I Hx. destruct (Z.eq_dec x 0) as [-> |N]; [exists []; now apply numeral_nil|].
  destruct (I (x / b)) as (l & H1 & H2 & H3).
  { split; [apply Z.div_pos; lia|apply Z.div_lt; lia]. }
  { apply Z.div_pos; lia. }
  destruct (dchar_alpha b up (x mod b) Hb) as [A D]; [apply Z.mod_pos_bound; lia|].
  exists (l ++ [dchar up (x mod b)]). split; [|split].
  - apply Forall_app. split; [exact H1|]. constructor; [exact A|constructor].
  - rewrite nv_app, H2, D. pose proof (Z.div_mod x b ltac:(lia)). lia.
  - destruct l as [|c l]; [|exact H3]. cbn. intros E. apply dchar_48 in E.
    + cbn in H2. assert (x = 0); [|lia]. rewrite (Z.div_mod x b ltac:(lia)), <- H2, E. ring.
    + pose proof (Z.mod_pos_bound x b ltac:(lia)). lia.
Qed.
(** Size of a numeral. *)
Lemma numeral_len b up l x k : 2 <= b <= 16 -> is_numeral b up l x -> x < b ^ k -> 0 <= k -> Z.of_nat (len l) <= k.
Proof.
  intros Hb. revert l x. 
  intros l x H Hx Hk. revert x k H Hx Hk. induction l as [|c l I] using rev_ind; intros x k H Hx Hk; [cbn; lia|].
  destruct (numeral_snoc _ _ _ _ _ Hb H) as (A & _ & _ & P). rewrite app_length. cbn [len].
  destruct (Z.eq_dec k 0) as [-> |N]; [cbn in Hx; lia|].
  specialize (I (x / b) (k - 1) A). enough (Z.of_nat (len l) <= k - 1) by lia. apply I; [|lia].
  apply Z.div_lt_upper_bound; [lia|]. replace k with (k - 1 + 1) in Hx by ring. rewrite Z.pow_add_r, Z.pow_1_r in Hx by lia. lia.
Qed.
Lemma numeral_len_ge b up l x k : 2 <= b <= 16 -> is_numeral b up l x -> b ^ k <= x -> 0 <= k -> k < Z.of_nat (len l).
Proof.
  intros Hb (H1 & H2 & _) Hx Hk. pose proof (nv_bound b up l Hb H1). rewrite H2 in H.
  destruct (Z_lt_le_dec k (Z.of_nat (len l))) as [L|L]; [exact L|].
  assert (b ^ Z.of_nat (len l) <= b ^ k) by (apply Z.pow_le_mono_r; lia). lia.
Qed.

(** ** The digit loops *)
(** all three loops push the digits of x, last first *)
Fixpoint to_digits (fuel : nat) (b : Z) (up : bool) (room x : Z) (s : list Z) : res (list Z) :=
  match fuel with
  | O => Fuel
  | S f => if x =? 0 then Ok s else do s <- push room s (dchar up (x mod b)); to_digits f b up room (x / b) s
  end.
Lemma to_digits_ok fuel b up room l x s : 2 <= b <= 16 -> is_numeral b up l x -> (len l < fuel)%nat ->
  to_digits fuel b up room x s = if Z.of_nat (len l + len s) <=? room then Ok (l ++ s)
                                 else if (len l =? 0)%nat then Ok s else UB.
Proof.
  intros Hb. revert fuel x s. induction l as [|c l I] using rev_ind; intros fuel x s H HF.
  - apply numeral_nil in H. subst x. destruct fuel; [lia|]. cbn. now destruct (_ <=? _).
  - destruct (numeral_snoc _ _ _ _ _ Hb H) as (A & _ & C & P). rewrite app_length in *. cbn [len] in *.
    destruct fuel; [lia|]. cbn [to_digits]. destruct (x =? 0) eqn:E; [lia|].
    rewrite <- C. unfold push. destruct (Z.of_nat (len s) <? room) eqn:R.
    + cbn [bind]. rewrite (I fuel (x / b) (c :: s) A) by lia. cbn [len].
      replace (len l + S (len s))%nat with (len l + 1 + len s)%nat by lia.
      destruct (Z.of_nat (len l + 1 + len s) <=? room) eqn:R2.
      * now rewrite <- app_assoc.
      * destruct (len l =? 0)%nat eqn:Z0; [apply Nat.eqb_eq in Z0; lia|].
        destruct (len l + 1 =? 0)%nat eqn:Z1; [apply Nat.eqb_eq in Z1; lia|reflexivity].
    + cbn [bind]. destruct (Z.of_nat (len l + 1 + len s) <=? room) eqn:R2; [lia|].
      destruct (len l + 1 =? 0)%nat eqn:Z1; [apply Nat.eqb_eq in Z1; lia|reflexivity].
Qed.

Lemma dchar_dec up k : 0 <= k < 10 -> dchar up k = k + 48.
Proof. intros H. unfold dchar. remember (Z.to_nat k) as n. assert (k = Z.of_nat n) by lia. subst k. assert (n < 10)%nat as Hn by lia. clear - Hn.
  destruct up; do 10 (destruct n; [reflexivity|]); lia. Qed.
Lemma dchar_hex (up : bool) k : 0 <= k < 16 -> hexdigit (if up then 0 else 32) k = dchar up k.
Proof. intros H. unfold dchar, hexdigit. remember (Z.to_nat k) as n. assert (n < 16)%nat as Hn by lia. clear - Hn.
  destruct up; do 16 (destruct n; [reflexivity|]); lia. Qed.
Lemma land15 x : Z.land x 15 = x mod 16.
Proof. change 15 with (Z.ones 4). now rewrite Z.land_ones. Qed.
Lemma land7 x : Z.land x 7 = x mod 8.
Proof. change 7 with (Z.ones 3). now rewrite Z.land_ones. Qed.

Lemma octal_eq fuel up room x s : 0 <= x -> octal_ fuel room x s = to_digits fuel 8 up room x s.
Proof.
  revert x s. induction fuel as [|f I]; intros x s H; [reflexivity|]. cbn [octal_ to_digits].
  destruct (x =? 0); [reflexivity|]. rewrite land7, Z.shiftr_div_pow2 by lia. change (2^3) with 8.
  pose proof (Z.mod_pos_bound x 8 ltac:(lia)).
  rewrite dchar_dec by lia. destruct (push _ _ _); cbn [bind]; auto. apply I. apply Z.div_pos; lia.
Qed.
Lemma hexadecimal_eq fuel (up : bool) room x s : 0 <= x ->
  hexadecimal_ fuel room x s (if up then 0 else 32) = to_digits fuel 16 up room x s.
Proof.
  revert x s. induction fuel as [|f I]; intros x s H; [reflexivity|]. cbn [hexadecimal_ to_digits].
  destruct (x =? 0); [reflexivity|]. rewrite land15, Z.shiftr_div_pow2 by lia. change (2^4) with 16.
  rewrite dchar_hex by (apply Z.mod_pos_bound; lia). destruct (push _ _ _); cbn [bind]; auto. apply I. apply Z.div_pos; lia.
Qed.
Lemma decimal_lo_eq fuel up room x s : 0 <= x -> decimal_lo fuel room x s = to_digits fuel 10 up room x s.
Proof.
  revert x s. induction fuel as [|f I]; intros x s H; [reflexivity|]. cbn [decimal_lo to_digits].
  destruct (x =? 0); [reflexivity|].
  rewrite dchar_dec by (apply Z.mod_pos_bound; lia). destruct (push _ _ _); cbn [bind]; auto. apply I. apply Z.div_pos; lia.
Qed.
Definition fits (room : Z) (l s : list Z) : res (list Z) :=
  if Z.of_nat (len l + len s) <=? room then Ok (l ++ s) else if (len l =? 0)%nat then Ok s else UB.
Lemma decimal_ok fuel up room l x s : is_numeral 10 up l x -> (S (len l) < fuel)%nat -> decimal_ fuel room x s = fits room l s.
Proof.
  revert fuel x s. induction l as [|c l I] using rev_ind; intros fuel x s H HF.
  - pose proof (proj1 (numeral_nil _ _ _) H) as ->. destruct fuel as [|[|f]]; cbn [len] in HF; try lia. 
    unfold fits. cbn. now destruct (_ <=? _).
  - assert (Hb : 2 <= 10 <= 16) by lia.
    destruct (numeral_snoc _ _ _ _ _ Hb H) as (A & _ & C & P).
    destruct fuel; [lia|]. cbn [decimal_]. destruct (2^32 - 1 <? x) eqn:E.
    + rewrite app_length in HF. cbn [len] in HF. assert (Hc : c = x mod 10 + 48).
      { rewrite C at 1. apply dchar_dec. apply Z.mod_pos_bound; lia. }
      rewrite <- Hc. unfold push, fits. rewrite app_length. cbn [len]. destruct (Z.of_nat (len s) <? room) eqn:R.
      * cbn [bind]. rewrite (I fuel (x / 10) (c :: s) A) by lia. unfold fits. cbn [len].
        replace (len l + S (len s))%nat with (len l + 1 + len s)%nat by lia.
        destruct (Z.of_nat (len l + 1 + len s) <=? room) eqn:R2.
        -- now rewrite <- app_assoc.
        -- destruct (len l =? 0)%nat eqn:Z0; [apply Nat.eqb_eq in Z0; lia|].
           destruct (len l + 1 =? 0)%nat eqn:Z1; [apply Nat.eqb_eq in Z1; lia|reflexivity].
      * cbn [bind]. destruct (Z.of_nat (len l + 1 + len s) <=? room) eqn:R2; [lia|].
        destruct (len l + 1 =? 0)%nat eqn:Z1; [apply Nat.eqb_eq in Z1; lia|reflexivity].
    + unfold u32. rewrite Z.mod_small by lia. rewrite (decimal_lo_eq fuel up) by lia. apply to_digits_ok; auto. lia.
Qed.
Lemma octal_ok fuel up room l x s : is_numeral 8 up l x -> (len l < fuel)%nat -> octal_ fuel room x s = fits room l s.
Proof.
  intros H HF. assert (0 <= x) by (apply (numeral_nonneg 8 up l); [lia|auto]). rewrite (octal_eq _ up) by auto. apply to_digits_ok; auto. lia.
Qed.
Lemma hex_ok fuel (up : bool) room l x s : is_numeral 16 up l x -> (len l < fuel)%nat ->
  hexadecimal_ fuel room x s (if up then 0 else 32) = fits room l s.
Proof.
  intros H HF. assert (0 <= x) by (apply (numeral_nonneg 16 up l); [lia|auto]). rewrite hexadecimal_eq by auto. apply to_digits_ok; auto. lia.
Qed.

(** ** Flags and padding *)
Lemma has_bit fl c : 32 <= c -> has fl c = Z.testbit fl (c - 32).
Proof.
  intros H. unfold has, FLAG. remember (c - 32) as k.
  assert (E : Z.land fl (2^k) = if Z.testbit fl k then 2^k else 0).
  { apply Z.bits_inj'. intros n Hn. rewrite Z.land_spec, Z.pow2_bits_eqb by lia.
    destruct (k =? n) eqn:K.
    - assert (k = n) by lia. subst n. destruct (Z.testbit fl k) eqn:T; [rewrite Z.pow2_bits_true by lia; reflexivity|rewrite Z.bits_0; reflexivity].
    - rewrite andb_false_r. destruct (Z.testbit fl k); [rewrite Z.pow2_bits_false by lia; reflexivity|now rewrite Z.bits_0]. }
  rewrite E. destruct (Z.testbit fl k); [|reflexivity]. assert (0 < 2^k) by (apply Z.pow_pos_nonneg; lia).
  destruct (2^k =? 0) eqn:Z0; [lia|reflexivity].
Qed.
(** The standard's view of a parsed specification. *)
Definition view (s : Spec) : conv :=
  mk_conv (Z.testbit (flags s) 13) (Z.testbit (flags s) 11) (Z.testbit (flags s) 0) (Z.testbit (flags s) 3)
          (Z.testbit (flags s) 16) (width s) (if precision s <? 0 then None else Some (precision s)).
Lemma concat_repeat8 (c : Z) n k : List.concat (repeat (repeat c k) n) = repeat c (n * k).
Proof. induction n; [reflexivity|]. cbn. rewrite IHn. now rewrite <- repeat_app. Qed.
Lemma pad_text c n : is_byte c -> 0 <= n < 2^32 -> List.concat (pad_ c n) = chars c n.
Proof.
  intros Hc Hn. unfold pad_, chars, u32, u8. rewrite (Z.mod_small n), (Z.mod_small c) by (unfold is_byte in Hc; lia).
  rewrite concat_app, concat_repeat8. cbn [List.concat]. rewrite app_nil_r, <- repeat_app. f_equal. lia.
Qed.
Lemma chars_len c n : Z.of_nat (len (chars c n)) = Z.max 0 n.
Proof. unfold chars. rewrite repeat_length. lia. Qed.
Lemma chars_nil c n : n <= 0 -> chars c n = [].
Proof. intros H. unfold chars. replace (Z.to_nat n) with 0%nat by lia. reflexivity. Qed.
Lemma chk_ok x : INT_MIN <= x <= INT_MAX -> chk_i32 x = Ok x.
Proof. intros H. unfold chk_i32, INT_MIN, INT_MAX in *. destruct (_ && _) eqn:E; [reflexivity|lia]. Qed.
Lemma chk64_ok x : - 2^63 <= x < 2^63 -> chk_i64 x = Ok x.
Proof. intros H. unfold chk_i64. destruct (_ && _) eqn:E; [reflexivity|lia]. Qed.

(** The common tail: [pre] sign or prefix, [zeros], [digits]. *)
Definition finish (spec : Spec) (pre : pieces) (zeros L : Z) (d : list Z) : res (pieces * Z) :=
  do padding <- padding_ (width spec) L;
  do out <- layout spec pre zeros padding d;
  do r <- chk_i32 (L + padding);
  Ok (out, r).
Lemma chars_app c a b : 0 <= a -> 0 <= b -> chars c a ++ chars c b = chars c (a + b).
Proof. intros Ha Hb. unfold chars. rewrite <- repeat_app. f_equal. lia. Qed.
Lemma finish_ok spec pre pret zeros d : 0 <= width spec <= INT_MAX -> List.concat pre = pret -> 0 <= zeros ->
  let L := Z.of_nat (len (pret ++ chars 48 zeros ++ d)) in L <= INT_MAX ->
  exists ps, let out := field (view spec) (no_precision (view spec)) pret (chars 48 zeros ++ d) in
    finish spec pre zeros L d = Ok (ps, Z.of_nat (len out)) /\ List.concat ps = out.
Proof.
  intros Hw Hp Hz L HL. unfold finish, padding_.
  assert (HLe : 0 <= L) by lia. unfold INT_MAX in *.
  rewrite chk_ok by (unfold INT_MIN, INT_MAX; lia). cbn [bind].
  set (pd := b2z (L <? width spec) * (width spec - L)).
  assert (Hpd : pd = Z.max 0 (width spec - L)) by (unfold pd, b2z; destruct (L <? width spec) eqn:E; lia).
  assert (Hzl : zeros <= L). { unfold L. rewrite !app_length, !Nat2Z.inj_add, chars_len. lia. }
  unfold layout. rewrite !has_bit by lia. cbn [Z.sub]. change (45 - 32) with 13. change (48 - 32) with 16.
  unfold field. cbn [minus zero fwidth view].
  rewrite !(app_assoc pret), <- !(app_assoc pret).
  change (Z.of_nat (len (pret ++ chars 48 zeros ++ d))) with L.
  assert (Np : no_precision (view spec) = (precision spec <? 0)).
  { unfold no_precision, view. cbn. now destruct (precision spec <? 0). }
  rewrite Np.
  assert (P32 : List.concat (pad_ 32 pd) = chars 32 (width spec - L)).
  { rewrite pad_text by (unfold is_byte; lia). unfold chars. f_equal. lia. }
  assert (Hr : chk_i32 (L + pd) = Ok (L + pd)) by (apply chk_ok; unfold INT_MIN, INT_MAX; lia).
  destruct (Z.testbit (flags spec) 13); [|destruct (Z.testbit (flags spec) 16 && (precision spec <? 0)) eqn:Z0].
  - cbn [bind]. rewrite Hr. cbn [bind]. eexists. split.
    + f_equal. f_equal. rewrite !app_length, !Nat2Z.inj_add, !chars_len. subst L. rewrite !app_length, !Nat2Z.inj_add, chars_len in *. lia.
    + rewrite !concat_app, P32, Hp, pad_text by (unfold is_byte; lia). cbn [List.concat]. now rewrite !app_nil_r, <- !app_assoc.
  - rewrite chk_ok by (unfold INT_MIN, INT_MAX; lia). cbn [bind]. rewrite Hr. cbn [bind]. eexists. split.
    + f_equal. f_equal. rewrite !app_length, !Nat2Z.inj_add, !chars_len. subst L. rewrite !app_length, !Nat2Z.inj_add, chars_len in *. lia.
    + rewrite !concat_app, Hp, pad_text by (unfold is_byte; lia). cbn [List.concat]. rewrite !app_nil_r.
      f_equal. rewrite app_assoc. f_equal. replace (chars 48 (width spec - L)) with (chars 48 pd) by (unfold chars; f_equal; lia).
      rewrite chars_app by lia. f_equal. lia.
  - cbn [bind]. rewrite Hr. cbn [bind]. eexists. split.
    + f_equal. f_equal. rewrite !app_length, !Nat2Z.inj_add, !chars_len. subst L. rewrite !app_length, !Nat2Z.inj_add, chars_len in *. lia.
    + rewrite !concat_app, P32, Hp, pad_text by (unfold is_byte; lia). cbn [List.concat]. now rewrite !app_nil_r.
Qed.

(** ** The integer conversions *)
Lemma signtext_ok spec b : List.concat (put_sign (signchar_ b (flags spec))) = sign_text (view spec) b /\
  b2z (negb (signchar_ b (flags spec) =? 0)) = Z.of_nat (len (sign_text (view spec) b)).
Proof.
  unfold signchar_, sign_text. rewrite !has_bit by lia. change (43 - 32) with 11. change (32 - 32) with 0. cbn [plus space view].
  destruct b, (Z.testbit (flags spec) 11), (Z.testbit (flags spec) 0); split; reflexivity.
Qed.
Lemma prec_ok spec d : default_precision (precision spec) = match prec (view spec) with Some p => p | None => 1 end /\
  with_precision (view spec) d = chars 48 (default_precision (precision spec) - Z.of_nat (len d)) ++ d.
Proof. unfold with_precision, default_precision, view. cbn [prec]. destruct (precision spec <? 0); split; reflexivity. Qed.
Lemma zeros_eq p d : chars 48 (p - Z.of_nat (len d)) ++ d =
  chars 48 (if Z.of_nat (len d) <? p then p - Z.of_nat (len d) else 0) ++ d.
Proof. f_equal. unfold chars. f_equal. destruct (_ <? _) eqn:E; lia. Qed.

Lemma numeral20 up l x : is_numeral 10 up l x -> x < 2^64 -> Z.of_nat (len l) <= 20.
Proof. intros H Hx. apply (numeral_len 10 up l x 20); auto; lia. Qed.

Lemma fits_ok room l : Z.of_nat (len l) <= room -> fits room l [] = Ok l.
Proof. intros H. unfold fits. cbn [len]. rewrite Nat.add_0_r, app_nil_r. destruct (_ <=? _) eqn:E; [reflexivity|lia]. Qed.
Lemma fits_ub room l : 0 <= room -> room < Z.of_nat (len l) -> fits room l [] = UB.
Proof. intros Hr H. unfold fits. cbn [len]. rewrite Nat.add_0_r. destruct (_ <=? _) eqn:E; [lia|]. destruct (len l =? 0)%nat eqn:E0; [apply Nat.eqb_eq in E0; lia|reflexivity]. Qed.

Lemma convert_i_ok room spec arg d up : - 2^63 < arg < 2^63 -> 0 <= width spec <= INT_MAX -> precision spec < INT_MAX ->
  is_numeral 10 up d (Z.abs arg) -> Z.of_nat (len d) <= room ->
  exists ps, convert_i_ room spec arg = Ok (ps, Z.of_nat (len (std_d (view spec) arg d))) /\ List.concat ps = std_d (view spec) arg d.
Proof.
  intros Ha Hw Hp Hd Hr. unfold convert_i_.
  assert (E : (if arg <? 0 then chk_i64 (- arg) else Ok arg) = Ok (Z.abs arg)).
  { destruct (arg <? 0) eqn:S; [rewrite chk64_ok by lia; f_equal; lia|f_equal; lia]. }
  rewrite E. cbn [bind]. unfold u64. rewrite Z.mod_small by lia.
  pose proof (numeral20 _ _ _ Hd ltac:(lia)) as L20.
  rewrite (decimal_ok F up room d (Z.abs arg) [] Hd) by (unfold F; lia).
  rewrite fits_ok by auto. cbn [bind].
  destruct (signtext_ok spec (arg <? 0)) as [S1 S2]. rewrite S2.
  set (zeros := if Z.of_nat (len d) <? default_precision (precision spec) then default_precision (precision spec) - Z.of_nat (len d) else 0).
  assert (Hz : 0 <= zeros) by (unfold zeros; destruct (Z.of_nat (len d) <? _) eqn:Q; lia).
  assert (Hzd : Z.of_nat (len d) + zeros < INT_MAX).
  { unfold zeros, default_precision, INT_MAX in *. destruct (precision spec <? 0) eqn:P; destruct (Z.of_nat (len d) <? _) eqn:Q; lia. }
  assert (Hs : Z.of_nat (len (sign_text (view spec) (arg <? 0))) <= 1).
  { unfold sign_text. destruct (arg <? 0), (plus (view spec)), (space (view spec)); cbn; lia. }
  rewrite chk_ok by (unfold INT_MIN, INT_MAX in *; lia). cbn [bind].
  rewrite chk_ok by (unfold INT_MIN, INT_MAX in *; lia). cbn [bind].
  unfold std_d. rewrite (proj2 (prec_ok spec d)), zeros_eq. fold zeros.
  destruct (finish_ok spec _ _ zeros d Hw S1 Hz) as (ps & F1 & F2).
  { rewrite !app_length, !Nat2Z.inj_add, chars_len. lia. }
  exists ps. split; [|exact F2]. rewrite <- F1. unfold finish.
  replace (Z.of_nat (len (sign_text (view spec) (arg <? 0) ++ chars 48 zeros ++ d)))
     with (Z.of_nat (len d) + zeros + Z.of_nat (len (sign_text (view spec) (arg <? 0)))); [reflexivity|].
  rewrite !app_length, !Nat2Z.inj_add, chars_len. lia.
Qed.
Lemma convert_i_ub room spec arg d up : - 2^63 < arg < 2^63 -> is_numeral 10 up d (Z.abs arg) -> 0 <= room < Z.of_nat (len d) ->
  convert_i_ room spec arg = UB.
Proof.
  intros Ha Hd Hr. unfold convert_i_.
  assert (E : (if arg <? 0 then chk_i64 (- arg) else Ok arg) = Ok (Z.abs arg)).
  { destruct (arg <? 0) eqn:S; [rewrite chk64_ok by lia; f_equal; lia|f_equal; lia]. }
  rewrite E. cbn [bind]. unfold u64. rewrite Z.mod_small by lia.
  pose proof (numeral20 _ _ _ Hd ltac:(lia)) as L20.
  rewrite (decimal_ok F up room d (Z.abs arg) [] Hd) by (unfold F; lia). rewrite fits_ub by lia. reflexivity.
Qed.

Lemma convert_u_ok room spec arg d up : 0 <= arg < 2^64 -> 0 <= width spec <= INT_MAX -> precision spec <= INT_MAX ->
  is_numeral 10 up d arg -> Z.of_nat (len d) <= room ->
  exists ps, convert_u_ room spec arg = Ok (ps, Z.of_nat (len (std_u (view spec) d))) /\ List.concat ps = std_u (view spec) d.
Proof.
  intros Ha Hw Hp Hd Hr. unfold convert_u_.
  pose proof (numeral20 _ _ _ Hd ltac:(lia)) as L20.
  rewrite (decimal_ok F up room d arg [] Hd) by (unfold F; lia).
  rewrite fits_ok by auto. cbn [bind].
  set (zeros := if Z.of_nat (len d) <? default_precision (precision spec) then default_precision (precision spec) - Z.of_nat (len d) else 0).
  assert (Hz : 0 <= zeros) by (unfold zeros; destruct (Z.of_nat (len d) <? _) eqn:Q; lia).
  assert (Hzd : Z.of_nat (len d) + zeros <= INT_MAX).
  { unfold zeros, default_precision, INT_MAX in *. destruct (precision spec <? 0) eqn:P; destruct (Z.of_nat (len d) <? _) eqn:Q; lia. }
  rewrite chk_ok by (unfold INT_MIN, INT_MAX in *; lia). cbn [bind].
  unfold std_u. rewrite (proj2 (prec_ok spec d)), zeros_eq. fold zeros.
  destruct (finish_ok spec [] [] zeros d Hw eq_refl Hz) as (ps & F1 & F2).
  { cbn [List.app]. rewrite !app_length, !Nat2Z.inj_add, chars_len. lia. }
  exists ps. split; [|exact F2]. rewrite <- F1. unfold finish. cbn [List.app].
  replace (Z.of_nat (len (chars 48 zeros ++ d))) with (Z.of_nat (len d) + zeros); [reflexivity|].
  rewrite !app_length, !Nat2Z.inj_add, chars_len. lia.
Qed.
Lemma convert_u_ub room spec arg d up : 0 <= arg < 2^64 -> is_numeral 10 up d arg -> 0 <= room < Z.of_nat (len d) ->
  convert_u_ room spec arg = UB.
Proof.
  intros Ha Hd Hr. unfold convert_u_. pose proof (numeral20 _ _ _ Hd ltac:(lia)) as L20.
  rewrite (decimal_ok F up room d arg [] Hd) by (unfold F; lia). rewrite fits_ub by lia. reflexivity.
Qed.

Lemma hash_bit fl : Z.land (Z.shiftr fl 3) 1 = b2z (Z.testbit fl 3).
Proof.
  change 1 with (Z.ones 1). rewrite Z.land_ones, Z.shiftr_div_pow2 by lia. change (2^1) with 2.
  rewrite <- Z.bit0_mod. rewrite <- Z.shiftr_div_pow2 by lia. rewrite Z.shiftr_spec by lia. reflexivity.
Qed.
Lemma convert_o_ok spec arg d up : 0 <= arg < 2^64 -> 0 <= width spec <= INT_MAX -> precision spec <= INT_MAX ->
  is_numeral 8 up d arg ->
  exists ps, convert_o_ room_o spec arg = Ok (ps, Z.of_nat (len (std_o (view spec) d))) /\ List.concat ps = std_o (view spec) d.
Proof.
  intros Ha Hw Hp Hd. unfold convert_o_.
  assert (L22 : Z.of_nat (len d) <= 22) by (apply (numeral_len 8 up d arg 22); auto; lia).
  rewrite (octal_ok F up room_o d arg [] Hd) by (unfold F; lia).
  rewrite fits_ok by exact L22. cbn [bind]. change (35 - 32) with 3. rewrite hash_bit.
  set (p := default_precision (precision spec)).
  set (zeros := if Z.of_nat (len d) <? p then p - Z.of_nat (len d) else b2z (Z.testbit (flags spec) 3)).
  assert (Hb : 0 <= b2z (Z.testbit (flags spec) 3) <= 1) by (unfold b2z; destruct (Z.testbit _ _); lia).
  assert (Hz : 0 <= zeros) by (unfold zeros; destruct (Z.of_nat (len d) <? _) eqn:Q; lia).
  assert (Hzd : Z.of_nat (len d) + zeros <= INT_MAX).
  { unfold zeros, p, default_precision, INT_MAX in *. destruct (precision spec <? 0) eqn:P; destruct (Z.of_nat (len d) <? _) eqn:Q; lia. }
  rewrite chk_ok by (unfold INT_MIN, INT_MAX in *; lia). cbn [bind].
  unfold std_o. rewrite (proj2 (prec_ok spec d)). fold p. cbn [hash view].
  assert (Hbody : (if Z.testbit (flags spec) 3 && negb (nth 0 (chars 48 (p - Z.of_nat (len d)) ++ d) 0 =? 48)
                   then 48 :: chars 48 (p - Z.of_nat (len d)) ++ d else chars 48 (p - Z.of_nat (len d)) ++ d) = chars 48 zeros ++ d).
  { destruct (Z.of_nat (len d) <? p) eqn:Q; unfold zeros.
    - replace (nth 0 (chars 48 (p - Z.of_nat (len d)) ++ d) 0) with 48; [rewrite andb_false_r; reflexivity|].
      unfold chars. destruct (Z.to_nat (p - Z.of_nat (len d))) eqn:N; [lia|]. reflexivity.
    - rewrite chars_nil by lia. cbn [List.app]. destruct Hd as (_ & _ & Hh). destruct (nth 0 d 0 =? 48) eqn:E; [lia|].
      destruct (Z.testbit (flags spec) 3); reflexivity. }
  rewrite Hbody.
  destruct (finish_ok spec [] [] zeros d Hw eq_refl Hz) as (ps & F1 & F2).
  { cbn [List.app]. rewrite !app_length, !Nat2Z.inj_add, chars_len. lia. }
  exists ps. split; [|exact F2]. rewrite <- F1. unfold finish. cbn [List.app].
  replace (Z.of_nat (len (chars 48 zeros ++ d))) with (Z.of_nat (len d) + zeros); [reflexivity|].
  rewrite !app_length, !Nat2Z.inj_add, chars_len. lia.
Qed.

Lemma convert_x_ok spec (up : bool) arg d : 0 <= arg < 2^64 -> 0 <= width spec <= INT_MAX -> precision spec <= INT_MAX - 2 ->
  is_numeral 16 up d arg ->
  exists ps, convert_x_ room_x spec (if up then 88 else 120) arg = Ok (ps, Z.of_nat (len (std_x (view spec) up arg d))) /\
    List.concat ps = std_x (view spec) up arg d.
Proof.
  intros Ha Hw Hp Hd. unfold convert_x_.
  assert (L16 : Z.of_nat (len d) <= 16) by (apply (numeral_len 16 up d arg 16); auto; lia).
  replace (Z.land (if up then 88 else 120) 32) with (if up then 0 else 32) by (destruct up; reflexivity).
  rewrite (hex_ok F up room_x d arg [] Hd) by (unfold F; lia).
  rewrite fits_ok by exact L16. cbn [bind]. rewrite has_bit by lia. change (35 - 32) with 3.
  set (zeros := if Z.of_nat (len d) <? default_precision (precision spec) then default_precision (precision spec) - Z.of_nat (len d) else 0).
  assert (Hz : 0 <= zeros) by (unfold zeros; destruct (Z.of_nat (len d) <? _) eqn:Q; lia).
  assert (Hzd : Z.of_nat (len d) + zeros <= INT_MAX - 2).
  { unfold zeros, default_precision, INT_MAX in *. destruct (precision spec <? 0) eqn:P; destruct (Z.of_nat (len d) <? _) eqn:Q; lia. }
  set (pf := Z.testbit (flags spec) 3 && negb (arg =? 0)).
  assert (Hpf : 0 <= b2z pf * 2 <= 2) by (unfold b2z; destruct pf; lia).
  rewrite chk_ok by (unfold INT_MIN, INT_MAX in *; lia). cbn [bind].
  rewrite chk_ok by (unfold INT_MIN, INT_MAX in *; lia). cbn [bind].
  unfold std_x. rewrite (proj2 (prec_ok spec d)), zeros_eq. fold zeros. cbn [hash view]. fold pf.
  destruct (finish_ok spec [firstn (Z.to_nat (b2z pf * 2)) [48; if up then 88 else 120]] (if pf then [48; if up then 88 else 120] else []) zeros d Hw) as (ps & F1 & F2); auto.
  { destruct pf; reflexivity. }
  { destruct pf; cbn [List.app len]; rewrite ?app_length, ?Nat2Z.inj_succ, ?Nat2Z.inj_add, chars_len; lia. }
  exists ps. split; [|exact F2]. rewrite <- F1. unfold finish.
  replace (Z.of_nat (len ((if pf then [48; if up then 88 else 120] else []) ++ chars 48 zeros ++ d))) with (Z.of_nat (len d) + zeros + b2z pf * 2); [reflexivity|].
  destruct pf; cbn [List.app len b2z]; rewrite ?app_length, ?Nat2Z.inj_succ, ?Nat2Z.inj_add, chars_len; lia.
Qed.

(** ** Any layout ends in a return value equal to the number of characters written *)
Lemma convert_p_ok arg d : 0 < arg < 2^32 -> is_numeral 16 true d arg ->
  convert_p_ arg = Ok ([[48; 120]; d], Z.of_nat (len d) + 2).
Proof.
  intros Ha Hd. unfold convert_p_. destruct (arg =? 0) eqn:E; [lia|].
  assert (L8 : Z.of_nat (len d) <= 8) by (apply (numeral_len 16 true d arg 8); auto; lia).
  change 0 with (if true then 0 else 32) at 1.
  rewrite (hex_ok F true _ d arg [] Hd) by (unfold F; lia). rewrite fits_ok by exact L8. reflexivity.
Qed.
