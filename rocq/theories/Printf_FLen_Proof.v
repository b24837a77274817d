(** %f returns the number of characters it writes. *)
From Verif Require Import Base Str_Spec Str_Proof Printf_Model Printf_Fixed_Model Printf_Len_Proof.
Open Scope Z_scope.
Local Ltac Zify.zify_post_hook ::= idtac.
Notation len := List.length.

Lemma L_padm c n : exists k, L (pad_ c n) = n + k * 2^32.
Proof.
  exists (- (n / 2^32)). pose proof (Z.div_mod n (2^32) ltac:(lia)) as D. pose proof (Z.mod_pos_bound n (2^32) ltac:(lia)) as M.
  unfold pad_, u32. rewrite L_app, L_one, L_rep, !repeat_length. set (r := n mod 2^32) in *. set (q := n / 2^32) in *. clearbody r q.
  pose proof (Z.div_mod r 8 ltac:(lia)) as D2. pose proof (Z.mod_pos_bound r 8 ltac:(lia)) as M2.
  assert (0 <= r / 8) by (apply Z.div_pos; lia). lia.
Qed.
Lemma counts_mod ps r k : r = L ps + k * 2^32 -> counts ps r.
Proof. intros ->. right. apply Z.mod_add. lia. Qed.
Lemma dump_len n : forall x acc, len (dump_limb_ n x acc) = (n + len acc)%nat.
Proof. induction n as [|n I]; intros; [reflexivity|]. cbn [dump_limb_]. rewrite I. cbn. lia. Qed.
Lemma write_len n x : forall ps, limbs_write_ n x = Ok ps -> L ps = 9 * Z.of_nat n.
Proof.
  induction n as [|n I]; intros ps H; cbn [limbs_write_] in H; [injection H as <-; reflexivity|].
  inv_bind. apply ok_inj in H. subst ps. rewrite L_cons, dump_len, (I a0) by auto. cbn [len]. lia.
Qed.
Lemma down_len n x : forall k ps, dump_down n k x = Ok ps -> L ps = 9 * Z.of_nat n.
Proof.
  induction n as [|n I]; intros k ps H; cbn [dump_down] in H; [injection H as <-; reflexivity|].
  inv_bind. apply ok_inj in H. subst ps. rewrite L_cons, dump_len, (I (k - 1) a0) by assumption. cbn [len]. lia.
Qed.
Lemma L_put c : L (put_ c) = 1.
Proof. reflexivity. Qed.
Lemma layoutf_len spec sign p body : 0 <= p <= INT_MAX -> L (layout_f spec sign p body) = b2z (negb (sign =? 0)) + L body + p.
Proof. intros H. unfold layout_f, INT_MAX in *. destruct (has _ 45); [|destruct (has _ 48)]; rewrite !L_app, L_sign, L_pad by lia; lia. Qed.
Lemma frac_len n : forall fr, len (fst (frac_digits n fr)) = n.
Proof. induction n as [|n I]; intros fr; [reflexivity|]. cbn [frac_digits]. specialize (I (u64 (fr * 10) mod 2^60)). destruct (frac_digits n _) as [l r]. cbn in *. lia. Qed.
Lemma carry_len l : len (fst (carry_digits l)) = len l.
Proof. induction l as [|c l I]; [reflexivity|]. cbn [carry_digits]. destruct (carry_digits l) as [l' b]. destruct (57 <? _); cbn in *; lia. Qed.
Lemma modf_len X p : 0 <= p -> Z.of_nat (len (snd (limbs_modf_ X p))) = p.
Proof.
  intros Hp. unfold limbs_modf_. destruct (p =? 0) eqn:E; [cbn; lia|].
  pose proof (frac_len (Z.to_nat (p - 1)) (X mod 2^60)) as F. destruct (frac_digits _ _) as [l r]. cbn [fst] in F.
  match goal with |- context [carry_digits ?x] => pose proof (carry_len x) as C; destruct (carry_digits x) as [l' b] end. cbn [fst] in C. cbn [snd].
  rewrite C, app_length. cbn. lia.
Qed.
Lemma moderate_len room spec sign bits ps r : 0 <= precision spec -> fixed_moderate_ room spec sign bits = Ok (ps, r) -> counts ps r.
Proof.
  intros Hp H. unfold fixed_moderate_ in H. set (pt := negb (precision spec =? 0) || has (flags spec) 35) in *.
  pose proof (modf_len (dsig bits * 2^(dexp bits + 60)) _ Hp) as LM. destruct (limbs_modf_ _ _) as [t f]. cbn [snd] in LM.
  destruct (decimal_ _ _ _ _) as [b| |]; cbn [bind] in H; try discriminate.
  destruct (if t =? 0 then _ else _) as [b2| |]; cbn [bind] in H; try discriminate. inv_bind. apply ok_pair in H as [<- <-].
  apply counts_eq. rewrite layoutf_len by lia. destruct pt; cbn [b2z]; rewrite ?L_app, ?L_cons, ?L_app, ?L_put, ?L_cons, ?L_nil; lia.
Qed.
Lemma bigint_len spec sign bits ps r : 0 <= precision spec <= INT_MAX -> fixed_bigint_ spec sign bits = Ok (ps, r) -> counts ps r.
Proof.
  intros Hp H. unfold fixed_bigint_ in H. set (pt := negb (precision spec =? 0) || has (flags spec) 35) in *.
  destruct (kernel_ifrexp_ bits) as [odd shift].
  destruct (limbs_ldexp_ _ _ _) as [[big n]| |]; cbn [bind] in H; try discriminate.
  destruct (get big (n - 1)) as [top| |] eqn:EG; cbn [bind] in H; try discriminate.
  assert (N1 : 0 <= n - 1) by (unfold get in EG; destruct (n - 1 <? 0) eqn:Q; [discriminate|lia]).
  destruct (decimal_ _ _ _ _) as [b| |]; cbn [bind] in H; try discriminate.
  destruct (limbs_write_ _ _) as [w| |] eqn:EW; cbn [bind] in H; try discriminate. apply write_len in EW.
  inv_bind. apply ok_pair in H as [<- <-].
  apply counts_eq. rewrite layoutf_len by lia. unfold INT_MAX in *. destruct pt; cbn [b2z]; rewrite ?L_app, ?L_cons, ?L_app, ?L_put, ?L_nil, ?L_pad by lia; cbn [len]; lia.
Qed.
Lemma small_len spec sign base exp ps r : 0 <= precision spec <= INT_MAX -> common_fixed_small_ spec sign base exp = Ok (ps, r) -> counts ps r.
Proof.
  intros Hp H. unfold common_fixed_small_ in H. cbv zeta in H.
  set (pt := negb (precision spec =? 0) || has (flags spec) 35) in *.
  destruct (chk_i32 (_ + precision spec)) as [ln| |] eqn:E1; cbn [bind] in H; try discriminate. apply chk_inv in E1 as [-> E1].
  destruct (padding_ _ _) as [pd| |] eqn:E2; cbn [bind] in H; try discriminate. apply padding_inv in E2 as [E2 _].
  destruct (chk_i32 (- exp - _)) as [place| |] eqn:E3; cbn [bind] in H; try discriminate. apply chk_inv in E3 as [-> E3].
  destruct (limbs_scal5n_ _ _ _) as [[big xn]| |]; cbn [bind] in H; try discriminate.
  destruct (limbs_placed_rint_ _ _ _) as [[big2 n]| |]; cbn [bind] in H; try discriminate.
  set (front := _ ++ put_sign sign ++ _ ++ _) in H.
  destruct (if n =? 0 then _ else _) as [ds| |] eqn:ED; cbn [bind] in H; try discriminate.
  destruct (chk_i32 (_ + pd)) as [rr| |] eqn:ER; cbn [bind] in H; try discriminate. apply chk_inv in ER as [-> _]. apply ok_pair in H as [<- <-].
  assert (LF : L front = b2z (negb (sign =? 0)) + 1 + b2z pt + (if has (flags spec) 45 then 0 else pd)).
  { unfold front, INT_MAX in *. clear - E2. destruct (has _ 45), (has _ 48), pt; cbn [orb andb negb b2z]; rewrite ?L_app, ?L_nil, ?L_put, ?L_sign, ?L_pad, ?L_nil by lia; lia. }
  assert (LE : L (if has (flags spec) 45 then pad_ 32 pd else []) = if has (flags spec) 45 then pd else 0).
  { destruct (has _ 45); [apply L_pad; unfold INT_MAX in *; lia|reflexivity]. }
  assert (LD : exists k, L ds = precision spec + k * 2^32).
  { destruct (n =? 0). { injection ED as <-. apply L_padm. }
    set (place := - exp - precision spec) in *. 
    set (index := b2z (0 <=? place) * (u32 place / 9)) in *. set (cut := b2z (0 <=? place) * (u32 place mod 9)) in *.
    assert (PC : 0 <= index /\ 0 <= cut <= 8 /\ 9 * index + cut = Z.max 0 place).
    { unfold index, cut. destruct (0 <=? place) eqn:Q; cbn [b2z]; [|lia]. unfold u32. rewrite (Z.mod_small place) by (unfold INT_MAX in *; lia).
      pose proof (Z.div_mod place 9 ltac:(lia)). pose proof (Z.mod_pos_bound place 9 ltac:(lia)). assert (0 <= place / 9) by (apply Z.div_pos; lia). lia. }
    clearbody index cut.
    destruct (if index + 1 <? n then _ else _) as [dd| |] eqn:EQ; cbn [bind] in ED; try discriminate. apply ok_inj in ED. subst ds.
    assert (LZ : L (if place <? 0 then pad_ 48 (- place) else []) = Z.max 0 (- place)).
    { destruct (place <? 0) eqn:Q; [rewrite L_pad by (unfold INT_MIN in *; lia); lia|rewrite L_nil; lia]. }
    rewrite L_app. match goal with |- context [L dd + ?q] => replace q with (Z.max 0 (- place)) by (symmetry; exact LZ) end.
    destruct (index + 1 <? n) eqn:EI.
    - destruct (get big2 (n - 1)) as [top| |]; cbn [bind] in EQ; try discriminate.
      destruct (decimal_ _ _ _ _) as [b| |]; cbn [bind] in EQ; try discriminate.
      destruct (dump_down _ _ _) as [mid| |] eqn:EM; cbn [bind] in EQ; try discriminate. apply down_len in EM.
      destruct (get big2 index) as [low| |]; cbn [bind] in EQ; try discriminate. apply ok_inj in EQ. subst dd.
      destruct (L_padm 48 (- exp - 9 * (n - 1) - Z.of_nat (len b))) as [k K]. exists k.
      assert (LL : Z.of_nat (len (firstn (Z.to_nat (9 - cut)) (dump_limb_ 9 low []))) = 9 - cut) by (rewrite firstn_length, dump_len; cbn [len]; lia).
      rewrite !L_app, K, EM, L_cons, L_nil, L_one, LL. lia.
    - destruct (get big2 index) as [low| |]; cbn [bind] in EQ; try discriminate.
      destruct (decimal_ _ _ _ _) as [b| |]; cbn [bind] in EQ; try discriminate. apply ok_inj in EQ. subst dd.
      destruct (L_padm 48 (- exp - 9 * index - (Z.of_nat (len b) + cut))) as [k K]. exists k.
      rewrite !L_app, K, L_one. lia. }
  destruct LD as [k LD]. apply (counts_mod _ _ (- k)). rewrite !L_app, LF, LD. match goal with |- context [_ + (_ + ?q)] => replace q with (if has (flags spec) 45 then pd else 0) by (symmetry; exact LE) end. destruct (has (flags spec) 45); lia.
Qed.
Theorem convert_f_len spec lower l ps r l' : 0 <= precision spec <= INT_MAX -> convert_f_ spec lower l = Ok (ps, r, l') -> counts ps r.
Proof.
  intros Hp H. unfold convert_f_ in H. destruct (_ =? _); [injection H as <- <- <-; left; lia|].
  destruct (va64 l) as [[x l2]| |]; cbn [bind] in H; try discriminate.
  destruct (fixed_ spec lower x) as [[ps2 r2]| |] eqn:E; cbn [bind] in H; try discriminate. injection H as <- <- <-.
  unfold fixed_ in E. cbv zeta in E. destruct (_ <? 0x3F70000000000000).
  { unfold fixed_small_ in E. destruct (ifrexp_ _) as [o s]. eapply small_len; eauto. }
  destruct (_ <? 0x43F0000000000000); [eapply moderate_len; eauto; lia|].
  destruct (_ <? 0x7FF0000000000000); [eapply bigint_len; eauto|].
  eapply nonfinite_len; [|exact E]. destruct (_ =? _); reflexivity.
Qed.
Theorem printf_len sfuel m s args m' ps st : printf_ sfuel m s args = Ok (m', ps, st) -> counts ps st.
Proof. apply vfprintf_len. exact convert_f_len. Qed.
