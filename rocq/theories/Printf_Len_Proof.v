(** The return value of vfprintf counts the characters written, for every format and arguments. *)
From Verif Require Import Base Str_Model Str_Spec Str_Proof Utf8_Model Printf_Model Printf_Str_Proof.
Open Scope Z_scope.

Definition L (ps : pieces) : Z := Z.of_nat (len (List.concat ps)).
Lemma L_app a b : L (a ++ b) = L a + L b.
Proof. unfold L. rewrite concat_app, app_length. lia. Qed.
Lemma L_one l : L [l] = Z.of_nat (len l).
Proof. unfold L. cbn. now rewrite app_nil_r. Qed.
Lemma L_cons l ps : L (l :: ps) = Z.of_nat (len l) + L ps.
Proof. unfold L. cbn [List.concat]. rewrite app_length. lia. Qed.
Lemma L_nil : L [] = 0.
Proof. reflexivity. Qed.
Lemma L_rep (l : list Z) n : L (repeat l n) = Z.of_nat n * Z.of_nat (len l).
Proof. induction n as [|n I]; [reflexivity|]. cbn [repeat]. rewrite L_cons, I. lia. Qed.
Lemma L_pad c n : 0 <= n < 2^32 -> L (pad_ c n) = n.
Proof.
  intros H. unfold pad_. rewrite L_app, L_one, L_rep, !repeat_length. unfold u32. rewrite (Z.mod_small n) by lia. lia.
Qed.
Lemma L_sign c : L (put_sign c) = b2z (negb (c =? 0)).
Proof. unfold put_sign. destruct (c =? 0); reflexivity. Qed.
Lemma L_nonneg ps : 0 <= L ps.
Proof. unfold L. lia. Qed.

Lemma chk_inv x y : chk_i32 x = Ok y -> y = x /\ INT_MIN <= x <= INT_MAX.
Proof. unfold chk_i32, INT_MIN, INT_MAX. destruct (_ && _) eqn:E; [|discriminate]. intros [= <-]. lia. Qed.
Lemma padding_inv w l p : padding_ w l = Ok p -> 0 <= p <= INT_MAX /\ (p = 0 \/ p = w - l).
Proof.
  unfold padding_. destruct (chk_i32 (w - l)) as [d| |] eqn:E; cbn [bind]; try discriminate. intros [= <-].
  apply chk_inv in E as [-> E]. unfold b2z, INT_MAX in *. destruct (l <? w) eqn:Q; lia.
Qed.
Ltac inv_bind := repeat match goal with
  | H : bind ?r _ = Ok _ |- _ => let E := fresh "E" in destruct r eqn:E; cbn [bind] in H; try discriminate H
  | H : (if ?b then _ else _) = Ok _ |- _ => let E := fresh "B" in destruct b eqn:E; try discriminate H
  | H : chk_i32 _ = Ok _ |- _ => apply chk_inv in H as [-> H]
  | H : padding_ _ _ = Ok _ |- _ => apply padding_inv in H
  end.

Lemma layout_inv spec pre zeros p d out : layout spec pre zeros p d = Ok out -> 0 <= zeros <= INT_MAX -> 0 <= p <= INT_MAX ->
  L out = L pre + zeros + Z.of_nat (len d) + p.
Proof.
  unfold layout. intros H Hz Hp. inv_bind; injection H as <-; unfold INT_MAX in *; rewrite ?L_app, ?L_cons, ?L_nil, ?L_pad by lia; lia.
Qed.
Definition counts (ps : pieces) (r : Z) : Prop := r < 0 \/ r mod 2^32 = L ps mod 2^32.
Lemma counts_eq ps r : r = L ps -> counts ps r.
Proof. intros ->. right. reflexivity. Qed.

Lemma zeros_range d pr : pr <= INT_MAX -> 0 <= d -> 0 <= (if d <? pr then pr - d else 0) <= INT_MAX.
Proof. unfold INT_MAX. intros. destruct (d <? pr) eqn:E; lia. Qed.

Ltac conv_tac :=
  match goal with H : _ = Ok (?ps, ?r) |- counts ?ps ?r => inv_bind; injection H as <- <- end;
  match goal with H : layout _ _ _ _ _ = Ok _ |- _ => apply layout_inv in H; [apply counts_eq; rewrite H; lia| |] end.
Lemma convert_i_len room spec x ps r : precision spec <= INT_MAX -> convert_i_ room spec x = Ok (ps, r) -> counts ps r.
Proof.
  intros Hp H. unfold convert_i_ in H.
  destruct (if x <? 0 then chk_i64 (- x) else Ok x) as [a| |]; cbn [bind] in H; try discriminate.
  destruct (decimal_ F room (u64 a) []) as [d| |]; cbn [bind] in H; try discriminate.
  set (zeros := if Z.of_nat (len d) <? _ then _ else 0) in H.
  assert (Hz : 0 <= zeros <= INT_MAX). { apply zeros_range; [|lia]. unfold default_precision, INT_MAX in *. destruct (_ <? 0); lia. }
  inv_bind. injection H as <- <-. apply layout_inv in E2; [|lia|lia]. apply counts_eq. rewrite E2, L_sign. lia.
Qed.
Lemma convert_u_len room spec x ps r : precision spec <= INT_MAX -> convert_u_ room spec x = Ok (ps, r) -> counts ps r.
Proof.
  intros Hp H. unfold convert_u_ in H.
  destruct (decimal_ F room x []) as [d| |]; cbn [bind] in H; try discriminate.
  set (zeros := if Z.of_nat (len d) <? _ then _ else 0) in H.
  assert (Hz : 0 <= zeros <= INT_MAX). { apply zeros_range; [|lia]. unfold default_precision, INT_MAX in *. destruct (_ <? 0); lia. }
  inv_bind. injection H as <- <-. apply layout_inv in E1; [|lia|lia]. apply counts_eq. rewrite E1, L_nil. lia.
Qed.
Lemma land1_range x : 0 <= Z.land x 1 <= 1.
Proof. pose proof (Z.land_ones x 1 ltac:(lia)) as H. change (Z.ones 1) with 1 in H. rewrite H. lia. Qed.
Lemma convert_o_len room spec x ps r : precision spec <= INT_MAX -> convert_o_ room spec x = Ok (ps, r) -> counts ps r.
Proof.
  intros Hp H. unfold convert_o_ in H.
  destruct (octal_ F room x []) as [d| |]; cbn [bind] in H; try discriminate.
  set (zeros := if Z.of_nat (len d) <? _ then _ else _) in H.
  assert (Hz : 0 <= zeros <= INT_MAX).
  { pose proof (land1_range (Z.shiftr (flags spec) (35 - 32))). unfold zeros, default_precision, INT_MAX in *. destruct (Z.of_nat _ <? _) eqn:Q; [destruct (_ <? 0); lia|lia]. }
  inv_bind. injection H as <- <-. apply layout_inv in E1; [|lia|lia]. apply counts_eq. rewrite E1, L_nil. lia.
Qed.
Lemma convert_x_len room spec f x ps r : precision spec <= INT_MAX -> convert_x_ room spec f x = Ok (ps, r) -> counts ps r.
Proof.
  intros Hp H. unfold convert_x_ in H.
  destruct (hexadecimal_ F room x [] (Z.land f 32)) as [d| |]; cbn [bind] in H; try discriminate.
  set (zeros := if Z.of_nat (len d) <? _ then _ else 0) in H.
  assert (Hz : 0 <= zeros <= INT_MAX). { apply zeros_range; [|lia]. unfold default_precision, INT_MAX in *. destruct (_ <? 0); lia. }
  inv_bind. injection H as <- <-. apply layout_inv in E2; [|lia|lia]. apply counts_eq. rewrite E2, L_one, firstn_length. cbn [len].
  destruct (has (flags spec) 35 && negb (x =? 0)); cbn [b2z]; lia.
Qed.
Lemma ok_pair {A B} (a c : A) (b d : B) : Ok (a, b) = Ok (c, d) -> a = c /\ b = d.
Proof. now intros [= -> ->]. Qed.
Lemma ok_inj {A} (a b : A) : Ok a = Ok b -> a = b.
Proof. now intros [= ->]. Qed.
Lemma nonfinite_len spec lower sign s ps r : len s = 3%nat -> nonfinite_ spec lower sign s = Ok (ps, r) -> counts ps r.
Proof.
  intros Hs H. unfold nonfinite_ in H. inv_bind. apply ok_pair in H as [<- <-]. apply counts_eq. unfold INT_MAX in *.
  destruct (has (flags spec) 45); rewrite ?L_app, ?L_cons, ?L_app, ?L_nil, L_sign, L_pad, map_length, Hs by lia; lia.
Qed.
Lemma low_nibbles_len n : forall lower x acc, len (low_nibbles n lower x acc) = (n + len acc)%nat.
Proof. induction n as [|n I]; intros; [reflexivity|]. cbn [low_nibbles]. rewrite I. cbn. lia. Qed.
Lemma hexfloat_len T spec lower bits ps r : precision spec <= INT_MAX -> 0 <= mw T -> hexfloat_ T spec lower bits = Ok (ps, r) -> counts ps r.
Proof.
  intros Hp HT H. unfold hexfloat_ in H. cbv zeta in H.
  destruct (_ =? Z.shiftl _ _); [apply nonfinite_len in H; auto|].
  destruct (Z.shiftl _ _ <? _); [apply nonfinite_len in H; auto|].
  destruct (decimal_ _ _ _ _) as [p0| |]; cbn [bind] in H; try discriminate.
  destruct (if _ =? 0 then push _ _ 48 else _) as [p1| |]; cbn [bind] in H; try discriminate.
  destruct (push _ p1 _) as [p2| |]; cbn [bind] in H; try discriminate.
  destruct (push _ p2 _) as [pf| |]; cbn [bind] in H; try discriminate.
  destruct (precision spec <? 0) eqn:P0; [|destruct (precision spec <? mw T / 4) eqn:P1].
  - destruct (mantissa_digits _ _ _ _) as [ds| |]; cbn [bind] in H; try discriminate.
    set (front := _ ++ ds) in H. destruct (_ <? Z.of_nat (len front + _)); [discriminate|]. inv_bind. apply ok_pair in H as [<- <-]. apply counts_eq.
    unfold INT_MAX in *. destruct (has (flags spec) 45); [|destruct (has (flags spec) 48)]; rewrite ?L_app, ?L_cons, ?L_app, ?L_cons, ?L_nil, ?L_sign, ?L_pad by lia; try lia.
    assert (Z.of_nat (len (firstn 2 front)) + Z.of_nat (len (skipn 2 front)) = Z.of_nat (len front)) by (rewrite firstn_length, skipn_length; lia). lia.
  - destruct (rounded_digits _ _ _ _ _) as [[rd p3]| |]; cbn [bind] in H; try discriminate.
    destruct (if _ || has (flags spec) 35 then _ else _) as [p4| |]; cbn [bind] in H; try discriminate.
    destruct (push _ p4 _) as [p5| |]; cbn [bind] in H; try discriminate.
    destruct (_ <? 2 + _); [discriminate|]. inv_bind. apply ok_pair in H as [<- <-]. apply counts_eq. cbn [firstn].
    unfold INT_MAX in *. destruct (has (flags spec) 45); [|destruct (has (flags spec) 48)]; rewrite ?L_app, ?L_cons, ?L_app, ?L_cons, ?L_nil, ?L_sign, ?L_pad by lia; cbn [len]; lia.
  - set (front := _ ++ low_nibbles _ _ _ _) in H. destruct (_ <? Z.of_nat (len front + _)); [discriminate|]. inv_bind. apply ok_pair in H as [<- <-]. apply counts_eq.
    unfold INT_MAX in *. assert (0 <= mw T / 4) by (apply Z.div_pos; lia).
    destruct (has (flags spec) 45); [|destruct (has (flags spec) 48)]; rewrite ?L_app, ?L_cons, ?L_app, ?L_cons, ?L_nil, ?L_sign, ?L_pad by lia; try lia.
    assert (Z.of_nat (len (firstn 2 front)) + Z.of_nat (len (skipn 2 front)) = Z.of_nat (len front)) by (rewrite firstn_length, skipn_length; lia). lia.
Qed.
Lemma wcrtomb_len c : wret (wcrtomb c) = SIZE_M1 \/ wret (wcrtomb c) = Z.of_nat (len (wout (wcrtomb c))) /\ wret (wcrtomb c) <> SIZE_M1.
Proof.
  unfold wcrtomb. destruct (_ <? 0x80); [right; split; [reflexivity|discriminate]|]. destruct (_ <? 0x800); [right; split; [reflexivity|discriminate]|].
  destruct (_ || _); [right; split; [reflexivity|discriminate]|]. destruct (_ <? 0x100000); [right; split; [reflexivity|discriminate]|left; reflexivity].
Qed.
Lemma s32_mod x : s32 x mod 2^32 = x mod 2^32.
Proof.
  unfold s32, sgn. cbv zeta. destruct (_ <? _); [apply Z.mod_mod; lia|].
  replace (x mod 2^32 - 2^32) with (x mod 2^32 + (-1) * 2^32) by lia. rewrite Z.mod_add by lia. apply Z.mod_mod; lia.
Qed.
Lemma wide_len fuel m prec : forall s count out ps r, count mod 2^32 = L out mod 2^32 -> wide_loop fuel m s prec count out = Ok (ps, r) -> counts ps r.
Proof.
  induction fuel as [|f I]; intros s count out ps r Hc H; [discriminate|]. cbn [wide_loop] in H.
  destruct (load_n 4 m s) as [l| |]; cbn [bind] in H; try discriminate.
  pose proof s32_mod as S.
  destruct (le l =? 0); [injection H as <- <-; right; rewrite S; exact Hc|].
  destruct (wret _ =? SIZE_M1) eqn:W; [injection H as <- <-; left; lia|].
  destruct (prec <? _); [injection H as <- <-; right; rewrite S; exact Hc|].
  apply I in H; [exact H|]. rewrite L_app, L_one.
  destruct (wcrtomb_len (s32 (le l))) as [E|[E _]]; [lia|]. rewrite <- E. unfold u32. rewrite Z.mod_mod by lia.
  rewrite (Z.add_mod (L out)), <- Hc, <- Z.add_mod by lia. reflexivity.
Qed.
Lemma load_n_len n : forall m a l, load_n n m a = Ok l -> len l = n.
Proof.
  induction n as [|n I]; intros m a l H; cbn [load_n] in H; [now injection H as <-|].
  destruct (load m a) as [b| |]; cbn [bind] in H; try discriminate. destruct (load_n n m (a + 1)) as [l'| |] eqn:E; cbn [bind] in H; try discriminate.
  injection H as <-. cbn. f_equal. eapply I; eauto.
Qed.
Lemma strnlen_nonneg fuel m s n r : strnlen_ fuel m s n = Ok r -> 0 <= r < 2^32.
Proof.
  unfold strnlen_. destruct (strnlen_pre _ _ _ _) as [[[[|] ?] ?]| |]; cbn [bind]; try discriminate.
  - intros [= <-]. unfold u32. apply Z.mod_pos_bound; lia.
  - destruct (strnlen_vec _ _ _ _) as [[[[|] ?] ?]| |]; cbn [bind]; try discriminate.
    + intros [= <-]. unfold u32. apply Z.mod_pos_bound; lia.
    + destruct (strnlen_tail _ _ _ _); cbn [bind]; try discriminate. intros [= <-]. unfold u32. apply Z.mod_pos_bound; lia.
Qed.
Lemma convert_s_len fuel m spec args ps r args' : convert_s_ fuel m spec args = Ok (ps, r, args') -> counts ps r.
Proof.
  unfold convert_s_. destruct (va32 args) as [[s l]| |]; cbn [bind]; try discriminate.
  destruct (_ =? 108).
  - destruct (wide_loop _ _ _ _ _ _) as [[ps' r']| |] eqn:E; cbn [bind]; try discriminate. intros [= <- <- <-]. eapply wide_len; [|exact E]. reflexivity.
  - destruct (strnlen_ _ _ _ _) as [n| |] eqn:E; cbn [bind]; try discriminate.
    destruct (load_n _ _ _) as [b| |] eqn:E2; cbn [bind]; try discriminate. intros [= <- <- <-].
    apply load_n_len in E2. apply strnlen_nonneg in E. right. rewrite L_one, E2, Z2Nat.id by lia.
    rewrite s32_mod. reflexivity.
Qed.
Lemma convert_c_len spec args ps r args' : convert_c_ spec args = Ok (ps, r, args') -> counts ps r.
Proof.
  unfold convert_c_. destruct (va_int args) as [[s l]| |]; cbn [bind]; try discriminate.
  destruct (_ =? 108); [|intros [= <- <- <-]; right; reflexivity].
  destruct (wcrtomb_len s) as [E|[E N]].
  - rewrite E, Z.eqb_refl. intros [= <- <- <-]. left; lia.
  - destruct (_ =? SIZE_M1) eqn:Q; [lia|]. intros [= <- <- <-]. right. rewrite L_one, <- E. reflexivity.
Qed.
Lemma convert_p_len x ps r : convert_p_ x = Ok (ps, r) -> counts ps r.
Proof.
  unfold convert_p_. destruct (x =? 0); [intros [= <- <-]; right; reflexivity|].
  destruct (hexadecimal_ _ _ _ _ _) as [d| |]; cbn [bind]; try discriminate. intros [= <- <-]. apply counts_eq. rewrite L_cons, L_one. cbn [len]. lia.
Qed.

(** precision of a parsed specification *)
Lemma field_range s args x s' args' : field_ s args = Ok (x, s', args') -> x <= INT_MAX.
Proof.
  assert (G : forall s args, field_ s args = (match s with 42 :: s' => do (x, args) <- va_int args; Ok (x, s', args)
     | _ => let '(value, overflow, s') := field_loop s 0 false in Ok (if overflow || (INT_MAX <? value) then INT_MAX else value, s', args) end)) by reflexivity.
  assert (G2 : (let '(value, overflow, s') := field_loop s 0 false in Ok (if overflow || (INT_MAX <? value) then INT_MAX else value, s', args)) = Ok (x, s', args') -> x <= INT_MAX).
  { destruct (field_loop s 0 false) as [[v ov] s0]. intros [= <- <- <-]. destruct ov; cbn [orb]; [lia|]. destruct (INT_MAX <? v) eqn:E; lia. }
  assert (G3 : forall s0, (do (x, args) <- va_int args; Ok (x, s0, args)) = Ok (x, s', args') -> x <= INT_MAX).
  { intros s0. unfold va_int. destruct (va32 args) as [[z l]| |]; cbn [bind]; try discriminate. intros [= <- <- <-].
    unfold s32, sgn, INT_MAX. change (2^(32-1)) with (2^31). cbv zeta. pose proof (Z.mod_pos_bound z (2^32)). destruct (_ <? _) eqn:Q; lia. }
  intros H. unfold field_ in H. destruct s as [|c s0]; [apply G2; exact H|].
  destruct c as [|q|q]; try (apply G2; exact H). do 6 (destruct q as [q|q|]; try (apply G2; exact H); try (apply (G3 s0); exact H)).
Qed.
Lemma parse_range s args spec s' args' : parse_ s args = Ok (spec, s', args') -> precision spec <= INT_MAX.
Proof.
  unfold parse_. destruct (parse_flags s 0) as [fl s1].
  destruct (field_ s1 args) as [[[w s2] a2]| |]; cbn [bind]; try discriminate.
  destruct (if w <? 0 then _ else _) as [[fl2 w2]| |]; cbn [bind]; try discriminate.
  destruct (parse_precision s2 a2) as [[[p s3] a3]| |] eqn:E; cbn [bind]; try discriminate. intros [= <- <- <-]. cbn [precision].
  unfold parse_precision in E.
  destruct s2 as [|c s2]; [injection E as <- <- <-; unfold INT_MAX; lia|].
  destruct c as [|q|q]; try (injection E as <- <- <-; unfold INT_MAX; lia).
  do 6 (destruct q as [q|q|]; try (injection E as <- <- <-; unfold INT_MAX; lia); try (apply field_range in E; exact E)).
Qed.

Lemma modeq c a w x y : c mod 2^32 = x mod 2^32 -> w mod 2^32 = y mod 2^32 -> (((c + a) mod 2^32 + w) mod 2^32) mod 2^32 = (x + a + y) mod 2^32.
Proof.
  intros H1 H2. rewrite Z.mod_mod, Z.add_mod_idemp_l by lia. rewrite Z.add_mod, (Z.add_mod c), H1, H2, <- (Z.add_mod x), <- Z.add_mod by lia. reflexivity.
Qed.
Ltac pairs := repeat match goal with q : prod _ _ |- _ => destruct q end.
Ltac go := inv_bind; pairs; inv_bind; pairs; match goal with H : Ok _ = Ok _ |- _ => injection H; intros; subst end.

Section Main.
Context (convert_f_ : Spec -> Z -> list varg -> res (pieces * Z * list varg))
  (Hf : forall spec lower l ps r l', 0 <= precision spec <= INT_MAX -> convert_f_ spec lower l = Ok (ps, r, l') -> counts ps r).
Lemma convert_len fuel m spec count f args m' ps r args' : precision spec <= INT_MAX ->
  convert_ convert_f_ fuel m spec count f args = Ok (m', (ps, r), args') -> counts ps r.
Proof.
  intros Hp H. unfold convert_ in H. cbv zeta in H.
  destruct (_ || _). { go. eapply convert_i_len; eauto. }
  destruct (_ =? _). { go. eapply convert_o_len; eauto. }
  destruct (_ =? _). { go. eapply convert_u_len; eauto. }
  destruct (_ || _). { go. eapply convert_x_len; eauto. }
  destruct (_ || _). { go. eapply Hf; [|eassumption]. cbn. unfold INT_MAX in *. destruct (precision _ <? 0) eqn:?; lia. }
  destruct (_ || _).
  { go. unfold convert_a_ in E.
    go; eapply hexfloat_len; try eassumption; cbn; lia. }
  destruct (_ =? _). { go. eapply convert_c_len; eauto. }
  destruct (_ =? _). { go. eapply convert_s_len; eauto. }
  destruct (_ =? _). { go. eapply convert_p_len; eauto. }
  destruct (_ =? _). { go. right; reflexivity. }
  injection H as <- <- <- <-. left; lia.
Qed.

Lemma loop_len fuel sfuel : forall m s lit count args out m' ps st, count mod 2^32 = L out mod 2^32 ->
  vfprintf_loop convert_f_ fuel sfuel m s lit count args out = Ok (m', ps, st) -> counts ps st.
Proof.
  induction fuel as [|f I]; intros m s lit count args out m' ps st Hc H; [discriminate|].
  pose proof s32_mod as S.
  assert (CONV : forall s', (do (spec, s', args) <- parse_ s' args;
      do (m, (ps, written), args) <- convert_ convert_f_ sfuel m spec (u32 (count + Z.of_nat (len lit))) (chr s') args;
      if written <? 0 then Ok (m, (out ++ [lit]) ++ ps, written)
      else vfprintf_loop convert_f_ f sfuel m (skipn 1 s') [] (u32 (u32 (count + Z.of_nat (len lit)) + written)) args ((out ++ [lit]) ++ ps)) = Ok (m', ps, st) -> counts ps st).
  { intros s' G. destruct (parse_ s' args) as [[[spec s2] a2]| |] eqn:EP; cbn [bind] in G; try discriminate.
    apply parse_range in EP.
    destruct (convert_ _ _ _ _ _ _ _) as [[[m2 [ps2 w]] a3]| |] eqn:EC; cbn [bind] in G; try discriminate.
    apply convert_len in EC; [|exact EP]. destruct (w <? 0) eqn:W; [injection G as <- <- <-; left; lia|].
    apply I in G; [exact G|]. destruct EC as [EC|EC]; [lia|]. rewrite !L_app, L_one. unfold u32.
    apply modeq; assumption. }
  cbn [vfprintf_loop] in H.
  assert (LIT : forall c s', vfprintf_loop convert_f_ f sfuel m s' (lit ++ [c]) count args out = Ok (m', ps, st) -> counts ps st).
  { intros c s' G. apply I in G; auto. }
  destruct s as [|c s].
  - injection H as <- <- <-. right. rewrite S, L_app, L_one. unfold u32. rewrite Z.mod_mod by lia.
    rewrite Z.add_comm, Z.add_mod, Hc, <- Z.add_mod by lia. reflexivity.
  - destruct c as [|q|q]; try (apply (LIT _ _ H)).
    do 6 (destruct q as [q|q|]; try (apply (LIT _ _ H))).
    destruct s as [|c2 s]; [apply (CONV _ H)|].
    destruct c2 as [|q|q]; try (apply (CONV _ H)).
    do 6 (destruct q as [q|q|]; try (apply (CONV _ H))).
    apply I in H; [exact H|]. rewrite L_app, L_one. unfold u32. rewrite Z.mod_mod by lia.
    rewrite Z.add_mod, Hc, <- Z.add_mod by lia. reflexivity.
Qed.
Theorem vfprintf_len sfuel m s args m' ps st : vfprintf convert_f_ sfuel m s args = Ok (m', ps, st) -> counts ps st.
Proof. intros H. eapply loop_len; [|exact H]. reflexivity. Qed.
End Main.
