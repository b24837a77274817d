(** The format parser and the main loop of vfprintf. *)
From Coq Require Import String Ascii.
From Verif Require Import Base Str_Model Str_Spec Utf8_Model Printf_Model Time_Spec Printf_Spec Printf_Proof Printf_Str_Proof.
Open Scope Z_scope.
Open Scope list_scope.

(** ** Flags *)
Definition flagset (l : list Z) (a : Z) : Z := fold_left (fun a c => Z.lor a (FLAG c)) l a.
Lemma flag_is_flag c : is_flag c -> flag_ c = FLAG c /\ flag_ c <> 0.
Proof. intros H. repeat (destruct H as [<-|H]; [split; [reflexivity|vm_compute; discriminate]|]). destruct H. Qed.
Lemma parse_flags_ok l : forall a c rest, Forall is_flag l -> flag_ c = 0 -> parse_flags (l ++ c :: rest) a = (flagset l a, c :: rest).
Proof.
  induction l as [|x l I]; intros a c rest Hl Hc.
  - cbn. rewrite Hc. reflexivity.
  - inversion Hl; subst. destruct (flag_is_flag x H1) as [E N]. cbn [List.app parse_flags].
    destruct (flag_ x =? 0) eqn:Z0; [lia|]. rewrite E. cbn [flagset fold_left]. apply I; auto.
Qed.
Lemma flagset_bit l : forall a k, Forall is_flag l -> is_flag k -> Z.testbit (flagset l a) (k - 32) = Z.testbit a (k - 32) || Printf_Spec.elem k l.
Proof.
  induction l as [|x l I]; intros a k Hl Hk; [now rewrite orb_false_r|].
  inversion Hl; subst. cbn [flagset fold_left]. rewrite I by auto. rewrite Z.lor_spec.
  unfold Printf_Spec.elem. cbn [existsb]. rewrite <- orb_assoc. f_equal. f_equal.
  assert (R : forall y, is_flag y -> 32 <= y). { intros y Hy. repeat (destruct Hy as [<-|Hy]; [lia|]). destruct Hy. }
  pose proof (R x H1). pose proof (R k Hk). unfold FLAG. rewrite Z.pow2_bits_eqb by lia. lia.
Qed.

(** ** Numbers in the format *)
Definition nodigit (s : list Z) : Prop := match s with [] => True | c :: _ => (u32 (c - 48) <? 10) = false end.
Lemma digits_alpha l : Forall is_digit l -> Forall (alpha 10 false) l.
Proof.
  apply Forall_impl. intros c Hc. destruct (dchar_alpha 10 false (c - 48)) as [A _]; [lia|unfold is_digit in Hc; lia|].
  rewrite dchar_dec in A by (unfold is_digit in Hc; lia). replace (c - 48 + 48) with c in A by ring. exact A.
Qed.
Lemma digit_val c : is_digit c -> digit_value c = c - 48.
Proof. intros H. unfold digit_value, is_digit in *. destruct (c <=? 57) eqn:E; [reflexivity|lia]. Qed.
Lemma field_loop_ok l : forall v value ov rest, Forall is_digit l -> nodigit rest -> 0 <= v ->
  (if v <? 2^32 then value = v /\ ov = false else ov = true) ->
  exists value' ov', field_loop (l ++ rest) value ov = (value', ov', rest) /\
    let v' := fold_left (fun a c => a * 10 + digit_value c) l v in
    0 <= v' /\ (if v' <? 2^32 then value' = v' /\ ov' = false else ov' = true).
Proof.
  induction l as [|c l I]; intros v value ov rest Hl Hr Hv Hinv.
  - exists value, ov. cbn [List.app fold_left]. split; [|auto]. destruct rest as [|c rest]; [reflexivity|]. cbn in *. now rewrite Hr.
  - inversion Hl; subst. cbn [List.app field_loop fold_left].
    assert (D : u32 (c - 48) = c - 48) by (unfold u32, is_digit in *; apply Z.mod_small; lia). rewrite D.
    unfold is_digit in H1. destruct (c - 48 <? 10) eqn:E; [|lia].
    rewrite (digit_val c) by (unfold is_digit; lia).
    apply I; auto; [lia|].
    change ((2^32 - 1) / 10) with 429496729.
    destruct (v <? 2^32) eqn:V.
    + destruct Hinv as [-> ->]. cbn [orb].
      destruct (429496729 <? v) eqn:T.
      * destruct (v * 10 + (c - 48) <? 2^32) eqn:V2; [lia|]. reflexivity.
      * assert (U : u32 (v * 10) = v * 10) by (unfold u32; apply Z.mod_small; lia). rewrite U.
        destruct (v * 10 + (c - 48) <? 2^32) eqn:V2.
        -- unfold u32. rewrite Z.mod_small by lia. split; [reflexivity|]. cbn [orb]. lia.
        -- cbn [orb]. unfold u32. replace ((v * 10 + (c - 48)) mod 2^32) with (v * 10 + (c - 48) - 2^32); [lia|].
           apply Z.mod_unique with 1; lia.
    + subst ov. cbn [orb]. destruct (v * 10 + (c - 48) <? 2^32) eqn:V2; [lia|reflexivity].
Qed.
Lemma field_digits l rest args : Forall is_digit l -> nodigit rest -> (forall c s, l ++ rest = c :: s -> c <> 42) ->
  field_ (l ++ rest) args = Ok (Z.min INT_MAX (numeral_value 10 l), rest, args).
Proof.
  intros Hl Hr H42. destruct (field_loop_ok l 0 0 false rest Hl Hr) as (v & ov & E & P & Q); [lia|cbn; auto|].
  assert (G : field_ (l ++ rest) args = let '(value, overflow, s') := field_loop (l ++ rest) 0 false in
         Ok (if overflow || (INT_MAX <? value) then INT_MAX else value, s', args)).
  { unfold field_. destruct (l ++ rest) as [|c s] eqn:E1; [reflexivity|]. specialize (H42 c s eq_refl).
    destruct c as [|q|q]; try reflexivity. do 6 (destruct q as [q|q|]; try reflexivity). lia. }
  rewrite G, E. cbn [fst snd]. f_equal. f_equal. f_equal.
  change (fold_left (fun a c => a * 10 + digit_value c) l 0) with (numeral_value 10 l) in *.
  unfold INT_MAX in *. destruct (numeral_value 10 l <? 2^32) eqn:V.
  - destruct Q as [-> ->]. cbn [orb]. destruct (2^31 - 1 <? numeral_value 10 l) eqn:B; lia.
  - subst ov. cbn [orb]. lia.
Qed.
Lemma field_star rest args : field_ (42 :: rest) args = do (x, args) <- va_int args; Ok (x, rest, args).
Proof. reflexivity. Qed.

Lemma s32_u32 x : s32 (u32 x) = s32 x.
Proof. unfold s32, sgn, u32. rewrite Z.mod_mod by lia. reflexivity. Qed.
(** characters that may follow a number *)
Definition tail_char (c : Z) : Prop := In c ([46; 104; 108; 106; 122; 116; 76] ++ conversions).
Lemma tail_nodigit c s : tail_char c -> nodigit (c :: s) /\ c <> 42 /\ flag_ c = 0.
Proof. intros H. cbn in H. repeat (destruct H as [<-|H]; [cbn; split; [reflexivity|split; [lia|reflexivity]]|]). destruct H. Qed.

Lemma count_ok_field n c s args x args' : count_ok n -> tail_char c -> count_value n args = Some (x, args') ->
  field_ (count_text n ++ c :: s) args = Ok (x, c :: s, args').
Proof.
  intros Hn Hc. destruct (tail_nodigit c s Hc) as (D & N & _). destruct n as [|l|]; cbn [count_value count_text].
  - intros [= <- <-]. rewrite (field_digits [] (c :: s) args); [reflexivity|constructor|exact D|]. cbn. intros ? ? [= <- <-]. exact N.
  - intros [= <- <-]. destruct Hn as [Hn Hl]. apply field_digits; auto.
    intros c' s' E. destruct l as [|a l]; [congruence|]. inversion E; subst. inversion Hl; subst. unfold is_digit in *. lia.
  - destruct args as [|[z|z|z] args0]; try discriminate. intros [= <- <-]. cbn [List.app]. rewrite field_star. cbn [va_int va32 bind]. now rewrite s32_u32.
Qed.
(** the length codes *)
Definition code (modifier : list Z) : Z :=
  match modifier with [] => 0 | c :: l => Z.lor (c * 4) (1 + Z.of_nat (len l)) end.
Lemma length_ok md c s : In md modifiers -> In c conversions ->
  length_ (md ++ c :: s) = code md /\ skipn (Z.to_nat (Z.land (code md) 3)) (md ++ c :: s) = c :: s.
Proof.
  intros Hm Hc. cbn in Hm. repeat (destruct Hm as [<-|Hm]); [..|destruct Hm]; (split; [|reflexivity]);
  cbn in Hc; repeat (destruct Hc as [<-|Hc]; [reflexivity|]); destruct Hc.
Qed.
Lemma md_head md c s : In md modifiers -> In c conversions -> exists c' s', md ++ c :: s = c' :: s' /\ tail_char c' /\ c' <> 46.
Proof.
  intros Hm Hc. destruct md as [|a md].
  - exists c, s. split; [reflexivity|]. split; [apply in_or_app; right; exact Hc|]. intros ->. cbn in Hc. repeat (destruct Hc as [Hc|Hc]; [discriminate|]). destruct Hc.
  - exists a, (md ++ c :: s). split; [reflexivity|]. cbn in Hm.
    repeat (destruct Hm as [[= <- <-]|Hm]); try discriminate; [..|destruct Hm]; (split; [cbn; tauto|lia]).
Qed.

Lemma count_range n a x a' : count_ok n -> count_value n a = Some (x, a') -> - 2^31 <= x <= INT_MAX.
Proof.
  intros Hn. destruct n as [|l|]; cbn.
  - intros [= <- <-]. unfold INT_MAX. lia.
  - intros [= <- <-]. destruct Hn as [_ Hl]. pose proof (nv_bound 10 false l ltac:(lia) (digits_alpha l Hl)). unfold INT_MAX. lia.
  - destruct a as [|[z|z|z] a0]; try discriminate. intros [= <- <-]. unfold s32, sgn, INT_MAX. change (2^(32-1)) with (2^31).
    pose proof (Z.mod_pos_bound z (2^32)). destruct (_ <? _) eqn:Q; lia.
Qed.
Lemma parse_ok d c rest args v args' : dir_ok d -> In c conversions -> resolve d args = Some (v, args') ->
  exists spec, parse_ (dir_text d ++ c :: rest) args = Ok (spec, c :: rest, args') /\ view spec = v /\ modifier spec = code (dlen d) /\
    0 <= width spec <= INT_MAX /\ precision spec <= INT_MAX.
Proof.
  intros (Hf & Hw & Hw0 & Hp & Hm) Hc Hres. unfold resolve in Hres.
  destruct (count_value (dwidth d) args) as [[w args1]|] eqn:W; [|discriminate].
  destruct (match dprec d with None => Some (-1, args1) | Some n => count_value n args1 end) as [[p args2]|] eqn:P; [|discriminate].
  destruct (w =? INT_MIN) eqn:WM; [discriminate|]. injection Hres as <- <-.
  assert (Hwr : - 2^31 <= w <= INT_MAX) by (apply (count_range (dwidth d) args w args1); assumption).
  assert (Hpr : p <= INT_MAX).
  { destruct (dprec d) as [n|]; [apply (count_range n args1 p args2); assumption|injection P as <- <-; unfold INT_MAX; lia]. }
  destruct (md_head (dlen d) c rest Hm Hc) as (c1 & s1 & E1 & T1 & N46).
  (* the text after the width *)
  set (after := match dprec d with None => [] | Some n => 46 :: count_text n end ++ dlen d ++ c :: rest).
  assert (HA : exists c2 s2, after = c2 :: s2 /\ tail_char c2).
  { unfold after. destruct (dprec d) as [n|].
    - exists 46, (count_text n ++ dlen d ++ c :: rest). split; [reflexivity|]. cbn. tauto.
    - cbn [List.app]. rewrite E1. exists c1, s1. auto. }
  destruct HA as (c2 & s2 & E2 & T2).
  assert (ET : dir_text d ++ c :: rest = dflags d ++ (count_text (dwidth d) ++ after)).
  { unfold dir_text, after. now rewrite <- !app_assoc. }
  assert (HF : parse_flags (dir_text d ++ c :: rest) 0 = (flagset (dflags d) 0, count_text (dwidth d) ++ after)).
  { rewrite ET, E2. destruct (dwidth d) as [|l|]; cbn [count_text].
    - apply parse_flags_ok; [exact Hf|]. apply (tail_nodigit c2 s2 T2).
    - destruct Hw as [Hne Hd]. destruct l as [|a l]; [congruence|]. cbn [List.app]. apply parse_flags_ok; [exact Hf|].
      inversion Hd; subst. cbn in Hw0. unfold is_digit in *.
      assert (C : a = 49 \/ a = 50 \/ a = 51 \/ a = 52 \/ a = 53 \/ a = 54 \/ a = 55 \/ a = 56 \/ a = 57) by lia.
      repeat (destruct C as [-> |C]; [reflexivity|]). subst a. reflexivity.
    - apply parse_flags_ok; [exact Hf|reflexivity]. }
  unfold parse_. rewrite HF. rewrite E2, (count_ok_field (dwidth d) c2 s2 args w args1) by assumption. cbn [bind].
  set (fl := if w <? 0 then Z.lor (flagset (dflags d) 0) (FLAG 45) else flagset (dflags d) 0).
  assert (HW : (if w <? 0 then do w0 <- chk_i32 (- w); Ok (Z.lor (flagset (dflags d) 0) (FLAG 45), w0) else Ok (flagset (dflags d) 0, w)) = Ok (fl, Z.abs w)).
  { unfold fl. unfold INT_MIN, INT_MAX in *. destruct (w <? 0) eqn:S; [|f_equal; f_equal; lia].
    rewrite chk_ok by (unfold INT_MIN, INT_MAX; lia). cbn [bind]. f_equal. f_equal. lia. }
  rewrite HW. cbn [bind]. rewrite <- E2.
  assert (HP : parse_precision after args1 = Ok (p, dlen d ++ c :: rest, args2)).
  { unfold after, parse_precision. destruct (dprec d) as [n|].
    - cbn [List.app]. rewrite E1. apply count_ok_field; assumption.
    - injection P as <- <-. cbn [List.app]. rewrite E1. clear - N46. destruct c1 as [|q|q]; try reflexivity.
      do 6 (destruct q as [q|q|]; try reflexivity). lia. }
  rewrite HP. cbn [bind]. destruct (length_ok (dlen d) c rest Hm Hc) as [L1 L2]. rewrite L1, L2.
  eexists. split; [reflexivity|]. split; [|cbn; split; [reflexivity|]; split; [unfold INT_MIN, INT_MAX in *; lia|exact Hpr]].
  unfold view. cbn [flags width precision].
  assert (FB : forall k, is_flag k -> k <> 45 -> Z.testbit fl (k - 32) = Printf_Spec.elem k (dflags d)).
  { intros k Hk N. unfold fl. pose proof (flagset_bit (dflags d) 0 k Hf Hk) as B. rewrite Z.bits_0 in B. cbn [orb] in B.
    destruct (w <? 0); [|exact B]. rewrite Z.lor_spec, B. unfold FLAG. rewrite Z.pow2_bits_false by lia. now rewrite orb_false_r. }
  pose proof (FB 43 ltac:(cbn; tauto) ltac:(lia)) as B1. change (43 - 32) with 11 in B1.
  pose proof (FB 32 ltac:(cbn; tauto) ltac:(lia)) as B2. change (32 - 32) with 0 in B2.
  pose proof (FB 35 ltac:(cbn; tauto) ltac:(lia)) as B3. change (35 - 32) with 3 in B3.
  pose proof (FB 48 ltac:(cbn; tauto) ltac:(lia)) as B4. change (48 - 32) with 16 in B4.
  rewrite B1, B2, B3, B4.
  replace (Z.testbit fl 13) with (Printf_Spec.elem 45 (dflags d) || (w <? 0)); [reflexivity|].
  unfold fl. pose proof (flagset_bit (dflags d) 0 45 Hf ltac:(cbn; tauto)) as B. rewrite Z.bits_0 in B. cbn [orb] in B. change (45 - 32) with 13 in B.
  destruct (w <? 0); [|rewrite orb_false_r; congruence]. rewrite Z.lor_spec. change (FLAG 45) with (2^13). rewrite Z.pow2_bits_true by lia. now rewrite !orb_true_r.
Qed.

Lemma dir_head d c rest : dir_ok d -> In c conversions -> exists c0 s0, dir_text d ++ c :: rest = c0 :: s0 /\ c0 <> 37.
Proof.
  intros (Hf & Hw & Hw0 & Hp & Hm) Hc. unfold dir_text.
  destruct (dflags d) as [|a fl]; cbn [List.app].
  - destruct (dwidth d) as [|l|]; cbn [count_text List.app].
    + destruct (dprec d) as [n|]; cbn [List.app].
      * eexists _, _. split; [reflexivity|lia].
      * destruct (md_head (dlen d) c rest Hm Hc) as (c1 & s1 & E & T & _). exists c1, s1. split; [exact E|].
        intros ->. cbn in T. repeat (destruct T as [T|T]; [discriminate|]). destruct T.
    + destruct Hw as [Hne Hd]. destruct l as [|a l]; [congruence|]. eexists _, _. split; [reflexivity|]. inversion Hd; subst. unfold is_digit in *. lia.
    + eexists _, _. split; [reflexivity|lia].
  - eexists _, _. split; [reflexivity|]. inversion Hf; subst. intros ->. cbn in H1. repeat (destruct H1 as [H1|H1]; [discriminate|]). destruct H1.
Qed.

(** ** Arguments *)
Lemma s32_mod16 z : s32 (u32 z) mod 2^16 = z mod 2^16.
Proof. unfold s32, sgn, u32. change (2^(32-1)) with (2^31). rewrite Z.mod_mod by lia. destruct (_ <? _); lia. Qed.
Lemma s32_mod8 z : s32 (u32 z) mod 2^8 = z mod 2^8.
Proof. unfold s32, sgn, u32. change (2^(32-1)) with (2^31). rewrite Z.mod_mod by lia. destruct (_ <? _); lia. Qed.
Lemma u32_mod16 z : u16 (u32 z) = u16 z.
Proof. unfold u16, u32. lia. Qed.
Lemma u32_mod8 z : u8 (u32 z) = u8 z.
Proof. unfold u8, u32. lia. Qed.
Lemma pop_signed_ok md args x args' : In md modifiers -> signed_arg md args = Some (x, args') -> pop_signed_ (code md) args = Ok (x, args').
Proof.
  intros Hm. cbn in Hm. repeat (destruct Hm as [<-|Hm]); [..|destruct Hm];
  destruct args as [|[z|z|z] args]; try discriminate; intros [= <- <-];
  unfold pop_signed_; cbn [code LEN Z.eqb]; unfold va_int; cbn [va32 va64 bind];
  unfold LEN; cbn -[s32 u32 s8 u8 sgn s64 u64]; rewrite ?s32_u32; try reflexivity.
  - unfold sgn. rewrite <- (s32_mod16 z), s32_u32. reflexivity.
  - unfold s8, sgn. rewrite <- (s32_mod8 z), s32_u32. reflexivity.
  - unfold s64, sgn, u64. rewrite Z.mod_mod by lia. reflexivity.
  - unfold s64, sgn, u64. rewrite Z.mod_mod by lia. reflexivity.
Qed.
Lemma pop_unsigned_ok md args x args' : In md modifiers -> unsigned_arg md args = Some (x, args') ->
  pop_unsigned_ (code md) args = Ok (x, args') /\ 0 <= x < 2^64.
Proof.
  intros Hm. cbn in Hm. repeat (destruct Hm as [<-|Hm]); [..|destruct Hm];
  destruct args as [|[z|z|z] args]; try discriminate; intros [= <- <-];
  (split; [unfold pop_unsigned_; cbn [code LEN Z.eqb]; cbn [va32 va64 bind];
  unfold LEN; cbn -[s32 u32 s8 u8 u16 sgn s64 u64]; rewrite ?u32_mod16, ?u32_mod8; try reflexivity|unfold u32, u16, u8, u64; lia]).
Qed.
Lemma signed_range md args x args' : signed_arg md args = Some (x, args') -> - 2^63 <= x < 2^63.
Proof.
  unfold signed_arg. assert (S : forall n z, 1 <= n <= 64 -> - 2^63 <= sgn n z < 2^63).
  { intros n z Hn. unfold sgn. assert (2^(n-1) <= 2^63) by (apply Z.pow_le_mono_r; lia). assert (2^n = 2 * 2^(n-1)).
    { replace n with (n - 1 + 1) at 1 by ring. rewrite Z.pow_add_r by lia. lia. }
    assert (0 < 2^(n-1)) by (apply Z.pow_pos_nonneg; lia). pose proof (Z.mod_pos_bound z (2^n) ltac:(lia)). cbv zeta. destruct (_ <? _) eqn:Q; lia. }
  destruct args as [|[z|z|z] args]; try discriminate.
  - destruct (Printf_Spec.elem 104 md).
    + intros [= <- <-]. destruct (_ =? _)%nat; apply S; lia.
    + destruct (existsb _ _); [|discriminate]. intros [= <- <-]. apply S; lia.
  - destruct (existsb _ _); [|discriminate]. intros [= <- <-]. apply S; lia.
Qed.

(** ** Items *)
Section Loop.
Context (convert_f_ : Spec -> Z -> list varg -> res (pieces * Z * list varg)).
Notation loop := (vfprintf_loop convert_f_).
Notation conv_ := (convert_ convert_f_).
Context (sfuel : nat) (m : mem) (Hok : mem_ok m).

Lemma loop_lit f s c lit count args out : c <> 37 ->
  loop (S f) sfuel m (c :: s) lit count args out = loop f sfuel m s (lit ++ [c]) count args out.
Proof.
  intros H. cbn [vfprintf_loop]. destruct c as [|q|q]; try reflexivity.
  do 6 (destruct q as [q|q|]; try reflexivity). lia.
Qed.
Lemma loop_pct f s lit count args out :
  loop (S f) sfuel m (37 :: 37 :: s) lit count args out =
  loop f sfuel m s [] (u32 (count + Z.of_nat (len (lit ++ [37])))) args (out ++ [lit ++ [37]]).
Proof. reflexivity. Qed.
Lemma loop_conv f c s lit count args out : c <> 37 ->
  loop (S f) sfuel m (37 :: c :: s) lit count args out =
  (do (spec, s', args) <- parse_ (c :: s) args;
   do (m', (ps, written), args) <- conv_ sfuel m spec (u32 (count + Z.of_nat (len lit))) (chr s') args;
   if written <? 0 then Ok (m', (out ++ [lit]) ++ ps, written)
   else loop f sfuel m' (skipn 1 s') [] (u32 (u32 (count + Z.of_nat (len lit)) + written)) args ((out ++ [lit]) ++ ps)).
Proof.
  intros H. cbn [vfprintf_loop]. destruct c as [|q|q]; try reflexivity.
  do 6 (destruct q as [q|q|]; try reflexivity). lia.
Qed.

(** conversions *)
Lemma conv_prints d c args o args2 : prints room_i room_u sfuel m (Conv d c) args o args2 -> Z.of_nat (len o) <= INT_MAX ->
  dir_ok d /\ In c conversions /\
  exists v args1, resolve d args = Some (v, args1) /\
  forall spec count, view spec = v -> modifier spec = code (dlen d) -> 0 <= width spec <= INT_MAX -> precision spec <= INT_MAX ->
  exists ps, conv_ sfuel m spec count c args1 = Ok (m, (ps, Z.of_nat (len o)), args2) /\ List.concat ps = o.
Proof.
  intros H HL.
  inversion H as [ | |d0 c0 v a a1 a2 x n Hc Hd Hres Harg Hn Hroom Hp|d0 v a a1 a2 x n Hd Hres Harg Hn Hroom|d0 v a a1 a2 x n Hd Hres Harg Hn
    |d0 up v a a1 a2 x n Hd Hres Harg Hn Hp|d0 v a x a2 Hd Hres Hm Hw|d0 v a x a2 o0 Hd Hres Hm Ha Hs Hw Hf]; subst; split; try exact Hd.
  - split; [cbn in *; tauto|]. exists v, a1. split; [exact Hres|]. intros spec count Hv Hmd Hw Hpr.
    assert (HIn : In (dlen d) modifiers) by apply Hd.
    pose proof (signed_range _ _ _ _ Harg) as Hr.
    assert (x <> - 2^63). { intros ->. assert (Z.of_nat (len n) <= 1) by (apply Hroom). pose proof (numeral_len_ge 10 false n _ 1 ltac:(lia) Hn). lia. }
    destruct (convert_i_ok room_i spec x n false) as (ps & E & C); try assumption; try lia.
    { destruct (Z.eq_dec (precision spec) INT_MAX) as [E|N]; [|lia]. exfalso. apply Hp. rewrite <- Hv. unfold view. cbn [prec]. rewrite E. reflexivity. }
    exists ps. rewrite Hv in *. split; [|exact C]. unfold convert_. replace ((c =? 100) || (c =? 105)) with true by (destruct Hc as [<-|[<-|[]]]; reflexivity).
    rewrite Hmd, (pop_signed_ok _ _ _ _ HIn Harg). cbn [bind]. rewrite E. reflexivity.
  - split; [cbn; tauto|]. exists v, a1. split; [exact Hres|]. intros spec count Hv Hmd Hw Hpr.
    assert (HIn : In (dlen d) modifiers) by apply Hd. destruct (pop_unsigned_ok _ _ _ _ HIn Harg) as [PU Hr].
    destruct (convert_u_ok room_u spec x n false) as (ps & E & C); try assumption.
    exists ps. rewrite Hv in *. split; [|exact C]. unfold convert_. cbn [Z.eqb Pos.eqb orb]. rewrite Hmd, PU. cbn [bind]. rewrite E. reflexivity.
  - split; [cbn; tauto|]. exists v, a1. split; [exact Hres|]. intros spec count Hv Hmd Hw Hpr.
    assert (HIn : In (dlen d) modifiers) by apply Hd. destruct (pop_unsigned_ok _ _ _ _ HIn Harg) as [PU Hr].
    destruct (convert_o_ok spec x n false) as (ps & E & C); try assumption.
    exists ps. rewrite Hv in *. split; [|exact C]. unfold convert_. cbn [Z.eqb Pos.eqb orb]. rewrite Hmd, PU. cbn [bind]. rewrite E. reflexivity.
  - split; [destruct up; cbn; tauto|]. exists v, a1. split; [exact Hres|]. intros spec count Hv Hmd Hw Hpr.
    assert (HIn : In (dlen d) modifiers) by apply Hd. destruct (pop_unsigned_ok _ _ _ _ HIn Harg) as [PU Hr].
    assert (Hp2 : precision spec <= INT_MAX - 2).
    { destruct (precision spec <? 0) eqn:S; [unfold INT_MAX; lia|]. apply Hp. rewrite <- Hv. unfold view. cbn [prec]. rewrite S. reflexivity. }
    destruct (convert_x_ok spec up x n) as (ps & E & C); try assumption.
    exists ps. rewrite Hv in *. split; [|exact C]. unfold convert_.
    replace (((if up then 88 else 120) =? 100) || ((if up then 88 else 120) =? 105)) with false by (destruct up; reflexivity).
    replace ((if up then 88 else 120) =? 111) with false by (destruct up; reflexivity).
    replace ((if up then 88 else 120) =? 117) with false by (destruct up; reflexivity).
    replace (((if up then 88 else 120) =? 120) || ((if up then 88 else 120) =? 88)) with true by (destruct up; reflexivity).
    rewrite Hmd, PU. cbn [bind]. rewrite E. reflexivity.
  - split; [cbn; tauto|]. exists v, (A32 x :: args2). split; [exact Hres|]. intros spec count Hv Hmd Hw' Hpr.
    exists [[u8 x]]. split; [|reflexivity]. unfold convert_. cbn [Z.eqb Pos.eqb orb]. unfold convert_c_. rewrite Hmd, Hm.
    cbn [va_int va32 bind code]. change (Z.shiftr 0 2 =? 108) with false. cbn [bind]. unfold put_.
    replace (u8 (s32 (u32 x))) with (u8 x) by (symmetry; apply s32_mod8). reflexivity.
  - split; [cbn; tauto|]. exists v, (A32 x :: args2). split; [exact Hres|]. intros spec count Hv Hmd Hw' Hpr.
    exists [o]. split; [|apply app_nil_r]. unfold convert_. cbn [Z.eqb Pos.eqb orb].
    destruct Hs as (S1 & S2 & S3 & S4).
    assert (EP : (if precision spec <? 0 then 2^32 - 1 else precision spec) = match prec v with None => 2^32 - 1 | Some p => p end).
    { rewrite <- Hv. unfold view. cbn [prec]. destruct (precision spec <? 0); reflexivity. }
    rewrite (convert_s_ok sfuel m spec x o args2); auto.
    + rewrite Hmd, Hm. cbn. lia.
    + unfold INT_MAX in *. lia.
    + rewrite EP. exact S3.
    + rewrite EP. exact S4.
Qed.

Lemma loop_text l : forall f s lit count args out, ~ In 37 l ->
  loop (len l + f) sfuel m (l ++ s) lit count args out = loop f sfuel m s (lit ++ l) count args out.
Proof.
  induction l as [|c l I]; intros f s lit count args out H; cbn [List.app len plus].
  - now rewrite app_nil_r.
  - rewrite Nat.add_succ_l || idtac. cbn [Nat.add]. rewrite loop_lit by (intros ->; apply H; left; reflexivity).
    rewrite I by (intros X; apply H; right; exact X). now rewrite <- app_assoc.
Qed.

Definition fmt_text (is : list item) : list Z := List.concat (map item_text is).
Lemma loop_ok is : forall args o, prints_all room_i room_u sfuel m is args o -> forall f lit count out,
  (len (fmt_text is) < f)%nat -> count = Z.of_nat (len (List.concat out)) -> Z.of_nat (len (List.concat out ++ lit ++ o)) <= INT_MAX ->
  exists ps, loop f sfuel m (fmt_text is) lit count args out = Ok (m, ps, Z.of_nat (len (List.concat ps))) /\
    List.concat ps = List.concat out ++ lit ++ o.
Proof.
  induction is as [|i is I]; intros args o H f lit count out Hf Hc HL.
  - inversion H; subst. cbn in Hf |- *. destruct f; [lia|]. cbn [vfprintf_loop].
    assert (EC : List.concat (out ++ [lit]) = List.concat out ++ lit ++ []) by (rewrite concat_app; cbn; now rewrite !app_nil_r).
    eexists. split; [|exact EC]. f_equal. f_equal. rewrite EC, app_nil_r in *.
    rewrite app_length, Nat2Z.inj_add in *. unfold INT_MAX in *. unfold s32, sgn, u32.
    rewrite !Z.mod_small by lia. change (2^(32-1)) with (2^31). destruct (_ <? _) eqn:Q; lia.
  - inversion H as [|i0 is0 a a' o1 os Hi Hrest]; subst. unfold fmt_text in *. cbn [map List.concat] in *.
    rewrite app_length in Hf.
    destruct i as [l| |d c].
    + inversion Hi; subst. cbn [item_text] in *.
      replace f with (len o1 + (f - len o1))%nat by lia. rewrite loop_text by assumption.
      destruct (I _ _ Hrest) with (f := (f - len o1)%nat) (lit := lit ++ o1) (count := Z.of_nat (len (List.concat out))) (out := out) as (ps & E & C); auto; try lia.
      { rewrite <- app_assoc. exact HL. }
      exists ps. split; [exact E|]. rewrite C. now rewrite <- !app_assoc.
    + inversion Hi; subst. cbn [item_text List.app len] in *. destruct f; [lia|]. rewrite loop_pct.
      assert (EC : List.concat (out ++ [lit ++ [37]]) = List.concat out ++ lit ++ [37]) by (rewrite concat_app; cbn; now rewrite !app_nil_r).
      destruct (I _ _ Hrest) with (f := f) (lit := @nil Z) (count := u32 (Z.of_nat (len (List.concat out)) + Z.of_nat (len (lit ++ [37])))) (out := out ++ [lit ++ [37]]) as (ps & E & C); auto; try lia.
      { rewrite EC. rewrite !app_length, !Nat2Z.inj_add in *. cbn [len] in *. unfold INT_MAX in HL. unfold u32. rewrite Z.mod_small by lia. lia. }
      { rewrite EC. rewrite !app_length, !Nat2Z.inj_add in *. cbn [len List.app] in *. rewrite ?Nat2Z.inj_succ in *. lia. }
      exists ps. split; [exact E|]. rewrite C, EC. cbn [List.app]. now rewrite <- !app_assoc.
    + assert (Ho1 : Z.of_nat (len o1) <= INT_MAX) by (rewrite !app_length, !Nat2Z.inj_add in HL; lia).
      destruct (conv_prints d c args o1 a' Hi Ho1) as (Hd & Hc & v & args1 & Hres & Hconv).
      cbn [item_text] in *. cbn [List.app len] in Hf |- *. rewrite <- app_assoc. cbn [List.app].
      set (rest := List.concat (map item_text is)) in *.
      destruct (dir_head d c rest Hd Hc) as (c0 & s0 & E0 & N0).
      destruct f; [lia|]. rewrite E0, loop_conv by exact N0. rewrite <- E0.
      destruct (parse_ok d c rest args v args1 Hd Hc Hres) as (spec & -> & V1 & V2 & V3 & V4). cbn [bind]. cbn [chr nth skipn].
      destruct (Hconv spec (u32 (Z.of_nat (len (List.concat out)) + Z.of_nat (len lit))) V1 V2 V3 V4) as (ps1 & -> & C1). cbn [bind].
      destruct (Z.of_nat (len o1) <? 0) eqn:S; [lia|].
      assert (EC : List.concat ((out ++ [lit]) ++ ps1) = List.concat out ++ lit ++ o1).
      { rewrite !concat_app, C1. cbn [List.concat]. now rewrite app_nil_r, <- app_assoc. }
      destruct (I _ _ Hrest) with (f := f) (lit := @nil Z) (count := u32 (u32 (Z.of_nat (len (List.concat out)) + Z.of_nat (len lit)) + Z.of_nat (len o1))) (out := (out ++ [lit]) ++ ps1) as (ps & E & C); auto.
      { fold rest. rewrite app_length in Hf. cbn [len] in Hf. lia. }
      { rewrite EC. rewrite !app_length, !Nat2Z.inj_add in *. unfold INT_MAX in HL. unfold u32. rewrite (Z.mod_small (_ + Z.of_nat (len lit))) by lia. rewrite Z.mod_small by lia. lia. }
      { rewrite EC. cbn [List.app]. rewrite !app_length, !Nat2Z.inj_add in *. lia. }
      exists ps. split; [exact E|]. rewrite C, EC. cbn [List.app]. now rewrite <- !app_assoc.
Qed.
Theorem vfprintf_ok is args o : prints_all room_i room_u sfuel m is args o -> Z.of_nat (len o) <= INT_MAX ->
  exists ps, vfprintf convert_f_ sfuel m (fmt_text is) args = Ok (m, ps, Z.of_nat (len o)) /\ List.concat ps = o.
Proof.
  intros H HL. destruct (loop_ok is args o H (S (len (fmt_text is))) [] 0 []) as (ps & E & C); auto.
  exists ps. cbn [List.app List.concat] in C. split; [|exact C]. rewrite <- C. exact E.
Qed.
End Loop.
