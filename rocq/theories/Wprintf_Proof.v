From Verif Require Import Base Str_Model Printf_Model Printf_Fixed_Model Stdio_Model Stdio_Proof Scanf_Model Utf8_Spec Utf8_Model Utf8_Proof Utf8_Str_Proof Wstdio_Model Wprintf_Model.
Open Scope Z_scope.

(** ** transcoding *)
Lemma enc_nz c : nz_scalar c -> Forall (fun b => b <> 0) (utf8_enc c).
Proof.
  intros (S & N). unfold scalar in S. unfold utf8_enc.
  destruct (Z.ltb_spec c 0x80); [repeat constructor; assumption|].
  destruct (Z.ltb_spec c 0x800); [repeat constructor; lia|].
  destruct (Z.ltb_spec c 0x10000); repeat constructor; lia.
Qed.
Lemma string_nz w : Forall nz_scalar w -> Forall (fun b => b <> 0) (utf8_string w).
Proof. induction 1; [constructor|]. rewrite utf8_string_cons. apply Forall_app. split; [apply enc_nz; assumption|assumption]. Qed.
Lemma cstring_ok l t : Forall (fun b => b <> 0) l -> cstring (l ++ 0 :: t) = Ok l.
Proof. induction 1 as [|b l N H IH]; cbn [app cstring]; [reflexivity|]. replace (b =? 0) with false by lia. rewrite IH. reflexivity. Qed.
Lemma transcode_ok w : Forall nz_scalar w -> Z.of_nat (length w) < 2^30 -> transcode true w = Ok (Some (utf8_string w)).
Proof.
  intros N L. unfold transcode. destruct (wcsrtombs_null_spec w [0] 0 N L) as (-> & _); [|reflexivity]. cbn [bind sret].
  pose proof (utf8_string_len w (nz_scalars w N)) as B. replace (Z.of_nat (length (utf8_string w)) =? SIZE_M1) with false by (unfold SIZE_M1; lia). cbn [negb].
  destruct (wcsrtombs_dst_spec w [0] (Z.of_nat (length (utf8_string w)) + 1) N ltac:(lia) L) as (_ & -> & _); [|lia|reflexivity].
  cbn [bind sout]. rewrite cstring_ok by (apply string_nz; assumption). reflexivity.
Qed.
Lemma transcode_bad room p c t : Forall nz_scalar p -> is_i32 c -> ~ scalar c -> Z.of_nat (length p) < 2^30 -> transcode room (p ++ c :: t) = Ok None.
Proof.
  intros N I NS L. unfold transcode. rewrite <- app_assoc. cbn [app]. destruct (wcsrtombs_null_spec p (c :: t ++ [0]) 0 N L) as (_ & H).
  rewrite (H c eq_refl I NS). reflexivity.
Qed.
Lemma transcode_mem p : Forall nz_scalar p -> Z.of_nat (length p) < 2^30 -> transcode false p = Ok None.
Proof.
  intros N L. unfold transcode. destruct (wcsrtombs_null_spec p [0] 0 N L) as (-> & _); [|reflexivity]. cbn [bind]. destruct (_ =? _); reflexivity.
Qed.

(** ** the sink as one pass over all bytes *)
Lemma loop_app a : forall s b, wsink_loop s (a ++ b) = do (s, ok) <- wsink_loop s a; if ok : bool then wsink_loop s b else Ok (s, false).
Proof.
  induction a as [|x a IH]; intros s b; cbn [app wsink_loop bind]; [reflexivity|].
  destruct (mbrtowc [x] 1 (wst s)) as [r| |]; cbn [bind]; [|reflexivity|reflexivity].
  destruct (ret r =? SIZE_M1); [reflexivity|]. destruct (ret r =? SIZE_M2); [apply IH|]. destruct (wc r); [|reflexivity].
  destruct (_ <? _); [|apply IH]. destruct (store_at _ _ _); cbn [bind]; [apply IH|reflexivity|reflexivity].
Qed.
Lemma loop_refuse l s s' : wsink_loop s l = Ok (s', false) -> l <> [].
Proof. intros E ->. discriminate. Qed.
Lemma run_loop ps : forall s, run wsink_write s ps = wsink_loop s (concat ps).
Proof.
  induction ps as [|p ps IH]; intros s; cbn [run concat]; [reflexivity|]. rewrite loop_app. unfold wsink_write at 1.
  destruct (wsink_loop s p) as [(s1 & ok)| |] eqn:E; cbn [bind]; [|reflexivity|reflexivity].
  destruct ok.
  - rewrite Z.eqb_refl. apply IH.
  - apply loop_refuse in E. destruct p; [congruence|]. reflexivity.
Qed.

(** ** one character *)
Definition push (s : wsink) (c : Z) : wsink :=
  if Z.of_nat (wn s) + 1 <? wcap s then mk_wsink (firstn (wn s) (wbuf s) ++ c :: skipn (wn s + 1) (wbuf s)) (wcap s) (S (wn s)) 0 else mk_wsink (wbuf s) (wcap s) (wn s) 0.
Definition at_state (s : wsink) (z : Z) : wsink := mk_wsink (wbuf s) (wcap s) (wn s) z.
Definition fit (s : wsink) : Prop := 0 < wcap s /\ (wn s < Z.to_nat (wcap s))%nat /\ (Z.to_nat (wcap s) <= length (wbuf s))%nat.
Lemma m2_len l : bytes l -> ret (dec0 l) = SIZE_M2 -> (length l < 4)%nat.
Proof. intros B R. destruct (more_short l B R) as [->|H]; [cbn; lia|apply incomplete_len; assumption]. Qed.
Lemma dec_m2 c n : (n <= 100)%nat -> ret (decoded c n) <> SIZE_M2 /\ ret (decoded c n) <> SIZE_M1.
Proof. intros H. destruct (decoded_ret c n H). lia. Qed.
Lemma feed_char r : forall l s c more, fit s -> bytes l -> bytes (r ++ more) -> ret (dec0 l) = SIZE_M2 -> scalar c -> l ++ r = utf8_enc c -> r <> [] ->
  wst s = st (dec0 l) -> wsink_loop s (r ++ more) = wsink_loop (push s c) more.
Proof.
  induction r as [|b r IH]; intros l s c more Ft B Br R Sc E NE W; [congruence|]. cbn [app wsink_loop].
  assert (Bb : bytes [b]) by (cbn [app] in Br; inversion Br; subst; repeat constructor; apply H1).
  assert (Bl : bytes (l ++ [b])) by (apply Forall_app; split; assumption).
  pose proof (m2_len l B R) as L4.
  destruct (mbrtowc_resume l [b] B Bb R ltac:(discriminate)) as (x & Ex & Hx). change (Z.of_nat (length [b])) with 1 in Ex. rewrite W, Ex. cbn [bind]. cbv zeta in Hx.
  assert (EQ : (l ++ [b]) ++ r = utf8_enc c) by (rewrite <- app_assoc; exact E).
  assert (D : dec0 ((l ++ [b]) ++ r) = decoded c (length (utf8_enc c))).
  { rewrite EQ. rewrite <- (app_nil_r (utf8_enc c)) at 1. apply dec0_seq. apply enc_seq. exact Sc. }
  pose proof (enc_len c Sc) as LE.
  destruct Hx as [(Hf & Hr & Hs)|[(Hf & ->)|(c0 & n & Hn & Hf & ->)]].
  - rewrite Hr. change (SIZE_M2 =? SIZE_M1) with false. change (SIZE_M2 =? SIZE_M2) with true. cbv iota. rewrite Hs.
    assert (r <> []). { intros ->. rewrite app_nil_r in D. rewrite D in Hf. destruct (dec_m2 c (length (utf8_enc c)) ltac:(lia)). congruence. }
    refine (eq_trans (IH (l ++ [b]) (at_state s (st (dec0 (l ++ [b])))) c more _ _ _ _ _ _ _ _) _); [exact Ft|exact Bl|cbn [app] in Br; inversion Br; assumption|exact Hf|exact Sc|exact EQ|assumption|reflexivity|reflexivity].
  - exfalso. rewrite (dec0_stable (l ++ [b]) r) in D by (rewrite Hf; cbn; unfold SIZE_M1, SIZE_M2; lia). rewrite Hf in D. unfold mb_fail, decoded in D. discriminate.
  - assert (Dn : ret (decoded c0 (length l + n)) <> SIZE_M2) by (apply dec_m2; lia).
    rewrite (dec0_stable (l ++ [b]) r) in D by (rewrite Hf; exact Dn). rewrite Hf in D.
    destruct (decoded_ret c0 n ltac:(lia)) as (-> & ->). cbn [wc st decoded]. assert (c0 = c) by (unfold decoded in D; congruence). subst c0.
    assert (r = []).
    { assert (decoded_ok := D). destruct (dec0_len (l ++ [b]) Bl) as (p & c' & r' & Ep & Sq & Ed); [rewrite Hf; apply dec_m2; lia|rewrite Hf; exact Dn|].
      assert (c' = c) by (rewrite Hf in Ed; unfold decoded in Ed; congruence). subst c'. apply seq_enc in Sq. subst p. rewrite Ep in EQ.
      rewrite <- app_assoc in EQ. rewrite <- (app_nil_r (utf8_enc c)) in EQ at 2. apply app_inv_head in EQ. apply app_eq_nil in EQ. tauto. }
    subst r. cbn [app]. unfold push. destruct Ft as (F0 & F1 & F2). destruct (Z.ltb_spec (Z.of_nat (wn s) + 1) (wcap s)); [|reflexivity].
    unfold store_at. replace (wn s <? length (wbuf s))%nat with true by lia. reflexivity.
Qed.
Lemma push_len s c : fit s -> length (wbuf (push s c)) = length (wbuf s) /\ fit (push s c) /\ wst (push s c) = 0 /\ wcap (push s c) = wcap s.
Proof.
  intros (F0 & F1 & F2). unfold push, fit. destruct (Z.ltb_spec (Z.of_nat (wn s) + 1) (wcap s)); cbn [wbuf wcap wn wst]; [|repeat split; auto].
  assert (length (firstn (wn s) (wbuf s) ++ c :: skipn (wn s + 1) (wbuf s)) = length (wbuf s)) as -> by (rewrite app_length, firstn_length; cbn [length]; rewrite skipn_length; lia).
  repeat split; auto. lia.
Qed.
Lemma feed_text w : forall s more, fit s -> wst s = 0 -> Forall scalar w -> bytes more -> wsink_loop s (utf8_string w ++ more) = wsink_loop (fold_left push w s) more.
Proof.
  induction w as [|c w IH]; intros s more Ft W Sc B; [reflexivity|]. inversion Sc as [|? ? S0 S1]; subst. rewrite utf8_string_cons, <- app_assoc. cbn [fold_left].
  pose proof (enc_len c S0) as LE.
  rewrite (feed_char (utf8_enc c) [] s c); [|exact Ft|constructor| |reflexivity|exact S0|reflexivity| |exact W].
  - destruct (push_len s c Ft) as (_ & Ft' & W' & _). apply IH; assumption.
  - apply Forall_app. split; [apply enc_bytes; exact S0|]. apply Forall_app. split; [apply utf8_string_bytes; exact S1|exact B].
  - destruct (utf8_enc c); [cbn in LE; lia|discriminate].
Qed.
Lemma feed_tail r : forall l s, bytes l -> bytes r -> ret (dec0 l) = SIZE_M2 -> wst s = st (dec0 l) ->
  (ret (dec0 (l ++ r)) = SIZE_M2 -> wsink_loop s r = Ok (at_state s (st (dec0 (l ++ r))), true)) /\
  (ret (dec0 (l ++ r)) = SIZE_M1 -> exists z, wsink_loop s r = Ok (at_state s z, false)).
Proof.
  induction r as [|b r IH]; intros l s B Br R W; cbn [wsink_loop].
  - rewrite app_nil_r. split; [intros _; rewrite <- W; destruct s; reflexivity|]. rewrite R. discriminate.
  - inversion Br as [|? ? Bb Br']; subst. assert (Bc : bytes [b]) by (repeat constructor; apply Bb). assert (Bl : bytes (l ++ [b])) by (apply Forall_app; split; assumption).
    pose proof (m2_len l B R) as L4.
    destruct (mbrtowc_resume l [b] B Bc R ltac:(discriminate)) as (x & Ex & Hx). change (Z.of_nat (length [b])) with 1 in Ex. rewrite W, Ex. cbn [bind]. cbv zeta in Hx.
    replace (l ++ b :: r) with ((l ++ [b]) ++ r) by (rewrite <- app_assoc; reflexivity).
    destruct Hx as [(Hf & Hr & Hs)|[(Hf & ->)|(c0 & n & Hn & Hf & ->)]].
    + rewrite Hr. change (SIZE_M2 =? SIZE_M1) with false. change (SIZE_M2 =? SIZE_M2) with true. cbv iota. rewrite Hs.
      destruct (IH (l ++ [b]) (at_state s (st (dec0 (l ++ [b])))) Bl Br' Hf eq_refl) as (H1 & H2). split; [exact H1|exact H2].
    + cbn [ret mb_fail]. change (SIZE_M1 =? SIZE_M1) with true. cbv iota. rewrite (dec0_stable (l ++ [b]) r) by (rewrite Hf; cbn; unfold SIZE_M1, SIZE_M2; lia). rewrite Hf.
      split; [discriminate|]. intros _. eexists. reflexivity.
    + destruct (dec_m2 c0 (length l + n) ltac:(lia)) as (D2 & D1). rewrite (dec0_stable (l ++ [b]) r) by (rewrite Hf; exact D2). rewrite Hf. split; congruence.
Qed.
Lemma m2_of r : bytes r -> r = [] \/ incomplete r -> ret (dec0 r) = SIZE_M2.
Proof.
  intros B H. destruct (dec0_verdict r B) as [p c rest E Sq|z HS|A1 A2 A3 A4]; [|reflexivity|].
  - exfalso. destruct H as [->|(lead & tl & Er & Ft & L)]; [inversion Sq; subst; discriminate|].
    assert (forall x, In x tl -> bt 0x80 0xBF x) by (apply Forall_forall; exact Ft). clear B. rewrite Er in *. unfold announces in L.
    inversion Sq; subst; cbn [app] in E; injection E as -> E; unfold bt in *; subst; cbn [length] in L;
      repeat match type of L with context [if ?b then _ else _] => destruct b eqn:? end; rewrite ?app_length in L; cbn [length] in L; lia.
  - exfalso. destruct H; [congruence|contradiction].
Qed.
Lemma m1_of r : bytes r -> ill_formed r -> ret (dec0 r) = SIZE_M1.
Proof.
  intros B (A1 & A2 & A3). destruct (dec0_verdict r B) as [p c rest E Sq|z HS|]; [exfalso; eapply A1; eassumption|tauto|reflexivity].
Qed.

(** ** what the array holds *)
Lemma skipn_skipn' a b (l : list Z) : skipn a (skipn b l) = skipn (b + a) l.
Proof. revert l. induction b as [|b IH]; intros [|x l]; cbn [skipn Nat.add]; try reflexivity; [destruct a; reflexivity|apply IH]. Qed.
Lemma skipn_hd n x (l : list Z) : (1 <= n)%nat -> skipn n (x :: skipn (0 + 1) l) = skipn n l.
Proof. intros H. destruct n as [|n]; [lia|]. destruct l as [|y l]; cbn [Nat.add skipn]; [destruct n; reflexivity|reflexivity]. Qed.
Lemma pushes w : forall s, fit s -> let k := Nat.min (length w) (Z.to_nat (wcap s) - 1 - wn s) in
  wn (fold_left push w s) = (wn s + k)%nat /\ wbuf (fold_left push w s) = firstn (wn s) (wbuf s) ++ firstn k w ++ skipn (wn s + k) (wbuf s) /\
  wcap (fold_left push w s) = wcap s.
Proof.
  induction w as [|c w IH]; intros s Ft; cbv zeta.
  - cbn [fold_left length Nat.min firstn app]. rewrite Nat.add_0_r, firstn_skipn. auto.
  - cbn [fold_left]. destruct (push_len s c Ft) as (L & Ft' & _ & C). destruct (IH (push s c) Ft') as (H1 & H2 & H3). rewrite H1, H2, H3, C.
    destruct Ft as (F0 & F1 & F2). unfold push. destruct (Z.ltb_spec (Z.of_nat (wn s) + 1) (wcap s)); cbn [wbuf wcap wn].
    + set (k := Nat.min (length w) _). cbn [length]. assert (Nat.min (S (length w)) (Z.to_nat (wcap s) - 1 - wn s) = S k) as -> by lia.
      change (firstn (S k) (c :: w)) with (c :: firstn k w). split; [lia|]. split; [|reflexivity].
      assert (LF : length (firstn (wn s) (wbuf s)) = wn s) by (rewrite firstn_length; lia).
      rewrite firstn_app, LF. replace (S (wn s) - wn s)%nat with 1%nat by lia. rewrite (firstn_all2 (firstn (wn s) (wbuf s))) by lia. change (firstn 1 (c :: skipn (wn s + 1) (wbuf s))) with [c].
      rewrite <- app_assoc. cbn [app]. do 3 f_equal. rewrite skipn_app, LF. rewrite skipn_all2 by lia. cbn [app]. replace (S (wn s) + k - wn s)%nat with (S k) by lia. cbn [skipn].
      clearbody k. rewrite skipn_skipn'. f_equal. lia.
    + assert (k0 : (Z.to_nat (wcap s) - 1 - wn s = 0)%nat) by lia. rewrite k0, !Nat.min_0_r. cbn [firstn app]. rewrite Nat.add_0_r. repeat split; auto.
Qed.
Lemma terminate buf k w : (k < length buf)%nat -> length w = k -> store_at (w ++ skipn k buf) k 0 = Ok (w ++ 0 :: skipn (S k) buf).
Proof.
  intros L E. unfold store_at. rewrite app_length, skipn_length. replace (k <? length w + (length buf - k))%nat with true by lia. f_equal.
  rewrite firstn_app, E, Nat.sub_diag. rewrite (firstn_all2 w) by lia. cbn [firstn]. rewrite app_nil_r. f_equal. f_equal.
  rewrite skipn_app, E. rewrite (skipn_all2 w) by lia. cbn [app]. replace (k + 1 - k)%nat with 1%nat by lia.
  clear. revert buf. induction k as [|k IH]; intros [|x l]; cbn [skipn]; try reflexivity. apply IH.
Qed.

Lemma vsw_format buf cap fuel m fmt args : 0 < cap -> Forall nz_scalar fmt -> Z.of_nat (length fmt) < 2^30 ->
  vswprintf buf cap true fuel m fmt args =
  do (m, ps, status) <- printf_ fuel m (utf8_string fmt) args;
  do (s, ok) <- wsink_loop (mk_wsink buf cap 0 0) (concat ps);
  if (if ok : bool then status else -1) <? 0 then do buf <- store_at (wbuf s) 0 0; Ok (buf, m, -1)
  else do buf <- store_at (wbuf s) (wn s) 0; Ok (buf, m, s32 (u32 (Z.of_nat (wn s)))).
Proof.
  intros C N L. unfold vswprintf. replace (cap =? 0) with false by lia. unfold vfwprintf_on. rewrite transcode_ok by assumption. cbn [bind].
  destruct (printf_ fuel m (utf8_string fmt) args) as [((m' & ps) & status)| |]; cbn [bind]; [|reflexivity|reflexivity].
  unfold on_stream. rewrite run_loop. destruct (wsink_loop _ _) as [(s & ok)| |]; cbn [bind]; reflexivity.
Qed.
(** all cases of swprintf *)
Lemma vswprintf_ok buf cap fuel m fmt args m' ps status text tail :
  0 < cap < 2^31 -> (Z.to_nat cap <= length buf)%nat -> Forall nz_scalar fmt -> Z.of_nat (length fmt) < 2^30 ->
  printf_ fuel m (utf8_string fmt) args = Ok (m', ps, status) -> 0 <= status ->
  concat ps = utf8_string text ++ tail -> Forall scalar text -> bytes tail -> tail = [] \/ incomplete tail ->
  let k := Nat.min (length text) (Z.to_nat cap - 1) in
  vswprintf buf cap true fuel m fmt args = Ok (firstn k text ++ 0 :: skipn (S k) buf, m', Z.of_nat k).
Proof.
  intros C L N FL E S0 T Sc B H k. rewrite vsw_format by (assumption || lia). rewrite E. cbn [bind]. rewrite T.
  assert (Ft : fit (mk_wsink buf cap 0 0)) by (unfold fit; cbn; lia).
  rewrite feed_text by (assumption || reflexivity). destruct (pushes text _ Ft) as (P1 & P2 & P3). cbn [wn wcap wbuf firstn app Nat.add] in P1, P2, P3.
  rewrite Nat.sub_0_r in P1, P2. fold k in P1, P2.
  assert (W0 : wst (fold_left push text (mk_wsink buf cap 0 0)) = 0).
  { clear -Ft. assert (G : forall l s, fit s -> wst s = 0 -> wst (fold_left push l s) = 0); [|apply G; [exact Ft|reflexivity]].
    induction l as [|c l IH]; intros s F0 W; cbn [fold_left]; [exact W|]. destruct (push_len s c F0) as (_ & F1 & W1 & _). apply IH; assumption. }
  destruct (feed_tail tail [] (fold_left push text (mk_wsink buf cap 0 0)) ltac:(constructor) B eq_refl W0) as (X & _). cbn [app] in X. rewrite X by (apply m2_of; assumption).
  cbn [bind at_state wbuf wn]. replace (status <? 0) with false by lia. rewrite P1, P2.
  rewrite terminate; [|lia|rewrite firstn_length; lia]. cbn [bind]. do 2 f_equal. unfold s32, sgn, u32. rewrite Z.mod_mod by lia. rewrite Z.mod_small by lia. change (2^(32-1)) with (2^31). 
  destruct (Z.ltb_spec (Z.of_nat k) (2^31)); lia.
Qed.
Lemma vswprintf_ill buf cap fuel m fmt args m' ps status text tail :
  0 < cap < 2^31 -> (Z.to_nat cap <= length buf)%nat -> Forall nz_scalar fmt -> Z.of_nat (length fmt) < 2^30 ->
  printf_ fuel m (utf8_string fmt) args = Ok (m', ps, status) ->
  concat ps = utf8_string text ++ tail -> Forall scalar text -> bytes tail -> status < 0 /\ (tail = [] \/ incomplete tail) \/ ill_formed tail ->
  exists buf', vswprintf buf cap true fuel m fmt args = Ok (buf', m', -1) /\ hd_error buf' = Some 0 /\ length buf' = length buf /\
    skipn (Z.to_nat cap) buf' = skipn (Z.to_nat cap) buf.
Proof.
  intros C L N FL E T Sc B H. rewrite vsw_format by (assumption || lia). rewrite E. cbn [bind]. rewrite T.
  assert (Ft : fit (mk_wsink buf cap 0 0)) by (unfold fit; cbn; lia).
  rewrite feed_text by (assumption || reflexivity). destruct (pushes text _ Ft) as (P1 & P2 & P3). cbn [wn wcap wbuf firstn app Nat.add] in P1, P2, P3.
  rewrite Nat.sub_0_r in P1, P2. set (k := Nat.min (length text) (Z.to_nat cap - 1)) in *.
  assert (W0 : wst (fold_left push text (mk_wsink buf cap 0 0)) = 0).
  { clear -Ft. assert (G : forall l s, fit s -> wst s = 0 -> wst (fold_left push l s) = 0); [|apply G; [exact Ft|reflexivity]].
    induction l as [|c l IH]; intros s F0 W; cbn [fold_left]; [exact W|]. destruct (push_len s c F0) as (_ & F1 & W1 & _). apply IH; assumption. }
  destruct (feed_tail tail [] (fold_left push text (mk_wsink buf cap 0 0)) ltac:(constructor) B eq_refl W0) as (X & Y). cbn [app] in X, Y.
  assert (exists z ok, wsink_loop (fold_left push text (mk_wsink buf cap 0 0)) tail = Ok (at_state (fold_left push text (mk_wsink buf cap 0 0)) z, ok) /\ (ok = true -> status < 0)) as (z & ok & -> & Hok).
  { destruct H as [(Hs & H)|H]; [rewrite X by (apply m2_of; assumption); do 2 eexists; split; [reflexivity|auto]|].
    destruct (Y (m1_of _ B H)) as (z & ->). do 2 eexists. split; [reflexivity|discriminate]. }
  cbn [bind at_state wbuf wn]. replace ((if ok then status else -1) <? 0) with true by (destruct ok; [rewrite (proj2 (Z.ltb_lt _ _) (Hok eq_refl)); reflexivity|reflexivity]).
  rewrite P2. assert (Lk : length (firstn k text ++ skipn k buf) = length buf) by (rewrite app_length, firstn_length, skipn_length; lia).
  unfold store_at. rewrite Lk. replace (0 <? length buf)%nat with true by lia. cbn [bind firstn app]. eexists. split; [reflexivity|]. cbn [hd_error].
  split; [reflexivity|]. split; [cbn [length]; rewrite skipn_length, Lk; lia|].
  rewrite skipn_hd by lia. rewrite skipn_app. rewrite firstn_length. rewrite skipn_all2 by (rewrite firstn_length; lia). cbn [app].
  replace (Nat.min k (length text)) with k by lia. clear -C. 
  rewrite skipn_skipn'. f_equal. lia.
Qed.

(** ** regular streams *)
From Verif Require Import Stdio_Spec Stdio_Pos_Proof.
Lemma run_stream ps : forall W h, 0 <= pos h -> script h = [] ->
  exists W' h', Printf_Model.run stream_write (W, h) ps = Ok ((W', h'), true) /\ append h' = append h /\ 0 <= pos h' /\ script h' = [] /\ ferror (file W') = ferror (file W) /\ orient W' = orient W /\
    overwritten (data h) (out_pos h) (concat ps) (data h') /\ out_pos h' = (out_pos h + length (concat ps))%nat.
Proof.
  induction ps as [|p ps IH]; intros W h P S; cbn [Printf_Model.run concat].
  - exists W, h. cbn. repeat (split; [reflexivity || assumption|]). split; [apply (patch_overwritten (data h) (out_pos h) [])|lia].
  - unfold stream_write at 1. cbn [fst snd]. destruct (write_any (file W) h p P) as (k & F1 & h1 & E & _ & A1 & _ & D1 & P1 & _ & _ & K & S1 & X). specialize (K S). subst k. rewrite E. cbn [bind].
    rewrite Z.eqb_refl. destruct (X eq_refl S) as (FE1 & O1). destruct (IH (set_file W F1) h1 P1 (S1 S)) as (W2 & h2 & E2 & A2 & P2 & S2 & FE2 & OR2 & OV2 & O2).
    exists W2, h2. split; [exact E2|]. split; [congruence|]. do 2 (split; [assumption|]). split; [cbn [set_file file] in FE2; congruence|]. split; [exact OR2|]. split.
    + apply overwritten_app with (d1 := data h1); [rewrite D1, firstn_all; apply patch_overwritten|rewrite <- O1; exact OV2].
    + rewrite O2, O1, app_length. lia.
Qed.
Lemma ascii_string w : Forall (fun c => 0 <= c < 128) w -> utf8_string w = w.
Proof. induction 1 as [|c w H _ IH]; [reflexivity|]. rewrite utf8_string_cons, IH. unfold utf8_enc. replace (c <? 0x80) with true by lia. reflexivity. Qed.
Lemma string_app a b : utf8_string (a ++ b) = utf8_string a ++ utf8_string b.
Proof. unfold utf8_string. rewrite map_app, concat_app. reflexivity. Qed.
