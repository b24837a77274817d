(** Chunked decoding, string conversions and UTF-16. *)
From Verif Require Import Base Bits Utf8_Model Utf8_Spec Utf8_Proof.

Fixpoint feed (chunks : list (list Z)) (state used : Z) : res outcome :=
  match chunks with
  | [] => Ok OMore
  | ch :: rest =>
    do r <- mbrtowc ch (Z.of_nat (length ch)) state;
    if ret r =? SIZE_M2 then feed rest (st r) (used + Z.of_nat (length ch))
    else if ret r =? SIZE_M1 then Ok OInvalid
    else match wc r with Some c => Ok (ODecoded c (used + ret r)) | None => UB end
  end.

Definition outcome_of (r : mbr) : outcome :=
  if ret r =? SIZE_M2 then OMore
  else if ret r =? SIZE_M1 then OInvalid
  else match wc r with Some c => ODecoded c (ret r) | None => OInvalid end.

Lemma decoded_ret c n : (n <= 100)%nat -> (ret (decoded c n) =? SIZE_M2) = false /\ (ret (decoded c n) =? SIZE_M1) = false.
Proof. intros. unfold decoded, SIZE_M1, SIZE_M2. cbn [ret]. destruct (c =? 0); lia. Qed.


Lemma dec0_len l : bytes l -> ret (dec0 l) <> SIZE_M1 -> ret (dec0 l) <> SIZE_M2 ->
  exists p c rest, l = p ++ rest /\ utf8_seq p c /\ dec0 l = decoded c (length p).
Proof.
  intros H A B. destruct (dec0_verdict l H) as [p c rest E S| s HS|]; cbn [ret mb_fail] in *; try congruence.
  exists p, c, rest. auto.
Qed.

Lemma feed_spec chunks : forall l, Forall bytes chunks -> bytes l -> ret (dec0 l) = SIZE_M2 ->
  (length l <= 4)%nat ->
  feed chunks (st (dec0 l)) (Z.of_nat (length l)) = Ok (outcome_of (dec0 (l ++ concat chunks))).
Proof.
  induction chunks as [|ch chunks IH]; intros l HC HL HR H4; cbn [feed concat].
  { rewrite app_nil_r. unfold outcome_of. rewrite HR, Z.eqb_refl. reflexivity. }
  inversion HC as [|? ? Hch Hcs]; subst.
  assert (Hn : ch = [] \/ ch <> []) by (destruct ch; [left|right]; congruence).
  destruct Hn as [-> | Hn].
  { unfold mbrtowc. cbn. rewrite Z.add_0_r. apply IH; assumption. }
  destruct (mbrtowc_resume l ch HL Hch HR Hn) as (r & Er & Cases).
  rewrite Er. cbn [bind].
  assert (HLC : bytes (l ++ ch)) by (apply Forall_app; split; assumption).
  rewrite app_assoc.
  destruct Cases as [(F & R & S) | [[F R] | (c & n & N & F & R)]].
  - rewrite R, Z.eqb_refl, S.
    replace (Z.of_nat (length l) + Z.of_nat (length ch)) with (Z.of_nat (length (l ++ ch))) by (rewrite app_length; lia).
    apply IH; try assumption.
    destruct (dec0_verdict (l ++ ch) HLC) as [p c rest E Sq|s HS|]; cbn [ret mb_fail] in F.
    + unfold decoded in F; cbn [ret] in F. exfalso.
      assert (length p <= 4)%nat by (inversion Sq; cbn; lia).
      unfold SIZE_M2 in F. destruct (c =? 0); lia.
    + destruct HS as [HS | (ld & tl & E & _ & L)]; [rewrite HS; cbn; lia|].
      unfold announces in L. ifs; revert L; ifs; lia.
    + discriminate F.
  - rewrite R. cbn [mb_fail ret]. change (SIZE_M1 =? SIZE_M2) with false. rewrite Z.eqb_refl.
    rewrite (dec0_stable (l ++ ch)); rewrite F; [reflexivity|]. cbn. unfold SIZE_M1, SIZE_M2. lia.
  - rewrite R. destruct (decoded_ret c n) as [-> ->]; [lia|].
    destruct (decoded_ret c (length l + n)) as [E1 E2]; [lia|].
    rewrite (dec0_stable (l ++ ch)); rewrite F; [|lia].
    unfold outcome_of. rewrite E1, E2. unfold decoded. cbn [ret wc].
    destruct (Z.eqb_spec c 0); [|do 2 f_equal; lia].
    (* a NUL is always the first byte *)
    assert (HX : exists p c0 rest, l ++ ch = p ++ rest /\ utf8_seq p c0 /\ dec0 (l ++ ch) = decoded c0 (length p)).
    { apply dec0_len; [assumption| |]; rewrite F; lia. }
    destruct HX as (p & c0 & rest & E & Sq & D). rewrite F in D.
    assert (c0 = c) by (unfold decoded in D; congruence). subst c0.
    destruct l as [|a l]; [reflexivity|]. exfalso.
    cbn [dec0 app] in HR. inversion Sq; subst; unfold bt in *; try lia.
    cbn [app] in E. injection E as -> _. change (0 <? 128) with true in HR. cbn in HR. discriminate.
Qed.

(** ** Calls with a generous byte limit *)

Lemma more_short l : bytes l -> ret (dec0 l) = SIZE_M2 -> l = [] \/ incomplete l.
Proof.
  intros HB F. destruct (dec0_verdict l HB) as [p c rest E Sq|s HS|]; cbn [ret mb_fail] in F.
  - unfold decoded in F; cbn [ret] in F. exfalso.
    assert (length p <= 4)%nat by (inversion Sq; cbn; lia).
    unfold SIZE_M2 in F. destruct (c =? 0); lia.
  - assumption.
  - discriminate F.
Qed.

Lemma incomplete_len l : incomplete l -> (length l < 4)%nat.
Proof. intros (ld & tl & E & _ & L). unfold announces in L. revert L; ifs; lia. Qed.

Lemma bytes_firstn n r : bytes r -> bytes (firstn n r).
Proof.
  intros H. unfold bytes in *. rewrite Forall_forall in *. intros x Hx. apply H.
  rewrite <- (firstn_skipn n r). apply in_or_app. left; assumption.
Qed.

Lemma dec0_firstn n r : (4 <= n)%nat -> bytes r -> dec0 (firstn n r) = dec0 r.
Proof.
  intros Hn HB.
  assert (HF : bytes (firstn n r)) by (apply bytes_firstn; assumption).
  destruct (Z.eq_dec (ret (dec0 (firstn n r))) SIZE_M2) as [E|E].
  - apply more_short in E; [|assumption].
    destruct (Nat.le_gt_cases (length r) n) as [L|L].
    + rewrite firstn_all2 by lia. reflexivity.
    + exfalso. assert (length (firstn n r) = n) by (apply firstn_length_le; lia).
      destruct E as [E|E]; [rewrite E in *; cbn in *; lia|]. apply incomplete_len in E. lia.
  - rewrite <- (firstn_skipn n r) at 2. symmetry. apply dec0_stable. assumption.
Qed.

Lemma mbrtowc_big n r : 4 <= n -> bytes r -> ret (dec0 r) <> SIZE_M2 -> mbrtowc r n 0 = Ok (dec0 r).
Proof.
  intros Hn HB HR.
  assert (E : dec0 (firstn (Z.to_nat n) r) = dec0 r) by (apply dec0_firstn; [lia|assumption]).
  rewrite mbrtowc_dec0; [rewrite E; reflexivity|assumption|lia|right; rewrite E; assumption].
Qed.

Lemma mbrtowc_enc n c r : 4 <= n -> scalar c -> bytes r ->
  mbrtowc (utf8_enc c ++ r) n 0 = Ok (decoded c (length (utf8_enc c))).
Proof.
  intros Hn Hc Hr.
  assert (D : dec0 (utf8_enc c ++ r) = decoded c (length (utf8_enc c))) by (apply dec0_seq, enc_seq, Hc).
  pose proof (enc_len c Hc) as L.
  rewrite mbrtowc_big; [rewrite D; reflexivity|assumption| |].
  - apply Forall_app; split; [apply enc_bytes|]; assumption.
  - rewrite D. destruct (decoded_ret c (length (utf8_enc c))); lia.
Qed.

Lemma mbrtowc_ill n r : 4 <= n -> bytes r -> ill_formed r -> mbrtowc r n 0 = Ok (mb_fail 0).
Proof.
  intros Hn Hr (A & B & C).
  assert (D : dec0 r = mb_fail 0).
  { destruct (dec0_verdict r Hr) as [p c rest E S|s [HS|HS]|]; try contradiction; [|reflexivity].
    exfalso. eapply A; eassumption. }
  rewrite mbrtowc_big; [rewrite D; reflexivity|assumption|assumption|].
  rewrite D. cbn. unfold SIZE_M1, SIZE_M2. lia.
Qed.

Lemma utf8_string_cons c w : utf8_string (c :: w) = utf8_enc c ++ utf8_string w.
Proof. reflexivity. Qed.

Lemma skipn_pre {A} (pre : list A) t : skipn (length pre) (pre ++ t) = t.
Proof. rewrite skipn_app, skipn_all, Nat.sub_diag. reflexivity. Qed.

Lemma utf8_string_bytes w : Forall scalar w -> bytes (utf8_string w).
Proof.
  induction 1; [constructor|]. rewrite utf8_string_cons. apply Forall_app; split; [apply enc_bytes|]; assumption.
Qed.

Lemma nz_scalars w : Forall nz_scalar w -> Forall scalar w.
Proof. intros H; eapply Forall_impl; [|exact H]. unfold nz_scalar. tauto. Qed.

Lemma mbs_dst w : forall fuel pre rest len acc, Forall nz_scalar w -> bytes rest ->
  (length w < fuel)%nat -> Z.of_nat (length acc) <= len ->
  mbsrtowcs_dst fuel (pre ++ utf8_string w ++ rest) len (length pre) 0 acc =
  if len <=? Z.of_nat (length acc + length w) then
    let m := (Z.to_nat len - length acc)%nat in
    Ok (mk_strr len (acc ++ firstn m w) (SrcAt (length pre + length (utf8_string (firstn m w)))) 0 false)
  else mbsrtowcs_dst (fuel - length w) (pre ++ utf8_string w ++ rest) len
         (length pre + length (utf8_string w)) 0 (acc ++ w).
Proof.
  induction w as [|c w IH]; intros fuel pre rest len acc Hw Hr HF HA.
  - cbn [length]. rewrite Nat.add_0_r, Nat.sub_0_r.
    cbn [utf8_string map concat app length]. rewrite Nat.add_0_r, app_nil_r.
    destruct fuel as [|fuel]; [cbn in HF; lia|]. cbn [mbsrtowcs_dst].
    destruct (Z.leb_spec len (Z.of_nat (length acc))).
    + replace (Z.of_nat (length acc) <? len) with false by lia.
      cbn zeta. rewrite firstn_nil, app_nil_r. cbn. rewrite Nat.add_0_r. do 2 f_equal. lia.
    + reflexivity.
  - inversion Hw as [|? ? Hc Hw']; subst.
    destruct fuel as [|fuel]; [cbn in HF; lia|]. cbn [mbsrtowcs_dst length].
    destruct (Z.ltb_spec (Z.of_nat (length acc)) len) as [L|L].
    + rewrite skipn_pre, utf8_string_cons, <- app_assoc.
      destruct Hc as [Hc Hc0].
      rewrite mbrtowc_enc; [|lia|assumption|apply Forall_app; split; [apply utf8_string_bytes, nz_scalars|]; assumption].
      cbn [bind]. pose proof (enc_len c Hc) as LE.
      destruct (decoded_ret c (length (utf8_enc c))) as [E1 E2]; [lia|]. rewrite E2.
      unfold decoded; cbn [wc ret st]. replace (c =? 0) with false by lia. rewrite Nat2Z.id.
      rewrite (app_assoc pre), <- app_length.
      rewrite IH; try assumption; [|cbn in HF; lia|rewrite app_length; cbn; lia].
      rewrite !app_length. cbn [length].
      replace (length acc + 1 + length w)%nat with (length acc + S (length w))%nat by lia.
      destruct (Z.leb_spec len (Z.of_nat (length acc + S (length w)))).
      * cbn zeta. replace (Z.to_nat len - length acc)%nat with (S (Z.to_nat len - (length acc + 1)))%nat by lia.
        cbn [firstn]. rewrite utf8_string_cons, app_length, <- app_assoc. cbn [app].
        do 3 f_equal. lia.
      * rewrite <- !app_assoc. cbn [app Nat.sub]. rewrite Nat.add_assoc. reflexivity.
    + replace (len <=? Z.of_nat (length acc + S (length w))) with true by lia.
      cbn zeta. replace (Z.to_nat len - length acc)%nat with 0%nat by lia.
      cbn [firstn utf8_string map concat length]. rewrite app_nil_r, Nat.add_0_r. do 2 f_equal. lia.
Qed.

Lemma utf8_string_len w : Forall scalar w -> (length w <= length (utf8_string w) <= 4 * length w)%nat.
Proof.
  induction 1; [cbn; lia|]. rewrite utf8_string_cons, app_length. cbn [length].
  pose proof (enc_len x H). lia.
Qed.

Lemma mbsrtowcs_dst_spec w rest len : Forall nz_scalar w -> bytes rest -> 0 <= len ->
  (len <= Z.of_nat (length w) ->
     mbsrtowcs true (utf8_string w ++ rest) len 0 =
     Ok (mk_strr len (firstn (Z.to_nat len) w)
           (SrcAt (length (utf8_string (firstn (Z.to_nat len) w)))) 0 false)) /\
  (Z.of_nat (length w) < len -> hd_error rest = Some 0 ->
     mbsrtowcs true (utf8_string w ++ rest) len 0 =
     Ok (mk_strr (Z.of_nat (length w)) (w ++ [0]) SrcNull 0 false)) /\
  (Z.of_nat (length w) < len -> ill_formed rest ->
     mbsrtowcs true (utf8_string w ++ rest) len 0 =
     Ok (mk_strr SIZE_M1 w (SrcAt (length (utf8_string w))) 0 true)).
Proof.
  intros Hw Hr HL. unfold mbsrtowcs.
  pose proof (utf8_string_len w (nz_scalars w Hw)) as WL.
  pose proof (mbs_dst w (S (length (utf8_string w ++ rest))) [] rest len [] Hw Hr) as E.
  cbn [app length Nat.add] in E. rewrite E; [|rewrite app_length; lia|lia]. clear E.
  split; [|split].
  - intros L. replace (len <=? Z.of_nat (length w)) with true by lia.
    cbn zeta. rewrite Nat.sub_0_r. reflexivity.
  - intros L R. replace (len <=? Z.of_nat (length w)) with false by lia.
    destruct rest as [|z rest]; [discriminate|]. injection R as ->.
    rewrite app_length. cbn [length].
    destruct (S (length (utf8_string w) + S (length rest)) - length w)%nat as [|f] eqn:Ef; [lia|].
    cbn [mbsrtowcs_dst]. replace (Z.of_nat (length w) <? len) with true by lia.
    rewrite skipn_pre. reflexivity.
  - intros L R. replace (len <=? Z.of_nat (length w)) with false by lia.
    rewrite app_length.
    assert (length rest <> 0)%nat by (destruct R as (_ & R & _); destruct rest; [congruence|cbn; lia]).
    destruct (S (length (utf8_string w) + length rest) - length w)%nat as [|f] eqn:Ef; [lia|].
    cbn [mbsrtowcs_dst]. replace (Z.of_nat (length w) <? len) with true by lia.
    rewrite skipn_pre, mbrtowc_ill by (assumption || lia). reflexivity.
Qed.

Lemma mbs_null w : forall fuel pre rest n, Forall nz_scalar w -> bytes rest ->
  (length w < fuel)%nat -> 0 <= n -> n + Z.of_nat (length w) < 2^32 ->
  mbsrtowcs_null fuel (pre ++ utf8_string w ++ rest) (length pre) 0 n =
  mbsrtowcs_null (fuel - length w) (pre ++ utf8_string w ++ rest)
    (length pre + length (utf8_string w)) 0 (n + Z.of_nat (length w)).
Proof.
  induction w as [|c w IH]; intros fuel pre rest n Hw Hr HF Hn HB.
  - cbn [length utf8_string map concat]. rewrite Nat.sub_0_r, Nat.add_0_r, Z.add_0_r. reflexivity.
  - inversion Hw as [|? ? Hc Hw']; subst. cbn [length] in *.
    destruct fuel as [|fuel]; [lia|]. cbn [mbsrtowcs_null Nat.sub].
    rewrite skipn_pre, utf8_string_cons, <- app_assoc.
    destruct Hc as [Hc Hc0].
    rewrite mbrtowc_enc; [|lia|assumption|apply Forall_app; split; [apply utf8_string_bytes, nz_scalars|]; assumption].
    cbn [bind]. pose proof (enc_len c Hc) as LE.
    destruct (decoded_ret c (length (utf8_enc c))) as [E1 E2]; [lia|]. rewrite E2.
    unfold decoded; cbn [wc ret st]. replace (c =? 0) with false by lia. rewrite Nat2Z.id.
    rewrite (app_assoc pre), <- app_length. unfold u32. rewrite Z.mod_small by lia.
    rewrite IH; try assumption; try lia.
    rewrite <- !app_assoc, !app_length, Nat.add_assoc. f_equal. lia.
Qed.

Lemma mbsrtowcs_null_spec w rest len : Forall nz_scalar w -> bytes rest -> Z.of_nat (length w) < 2^32 ->
  (hd_error rest = Some 0 ->
     mbsrtowcs false (utf8_string w ++ rest) len 0 = Ok (mk_strr (Z.of_nat (length w)) [] (SrcAt 0) 0 false)) /\
  (ill_formed rest ->
     mbsrtowcs false (utf8_string w ++ rest) len 0 = Ok (mk_strr SIZE_M1 [] (SrcAt 0) 0 true)).
Proof.
  intros Hw Hr HB. unfold mbsrtowcs.
  pose proof (utf8_string_len w (nz_scalars w Hw)) as WL.
  pose proof (mbs_null w (S (length (utf8_string w ++ rest))) [] rest 0 Hw Hr) as E.
  cbn [app length Nat.add] in E. rewrite E; [|rewrite app_length; lia|lia|lia]. clear E.
  split.
  - intros R. destruct rest as [|z rest]; [discriminate|]. injection R as ->.
    rewrite app_length. cbn [length].
    destruct (S (length (utf8_string w) + S (length rest)) - length w)%nat as [|f] eqn:Ef; [lia|].
    cbn [mbsrtowcs_null]. rewrite skipn_pre. reflexivity.
  - intros R. rewrite app_length.
    assert (length rest <> 0)%nat by (destruct R as (_ & R & _); destruct rest; [congruence|cbn; lia]).
    destruct (S (length (utf8_string w) + length rest) - length w)%nat as [|f] eqn:Ef; [lia|].
    cbn [mbsrtowcs_null]. rewrite skipn_pre, mbrtowc_ill by (assumption || lia). reflexivity.
Qed.

(** Every NUL-terminated byte string splits into well-formed characters followed
    by the terminator or by an ill-formed sequence. *)
Lemma nul_split : forall n s, (length s <= n)%nat -> bytes s -> In 0 s ->
  exists w rest, s = utf8_string w ++ rest /\ Forall nz_scalar w /\
    (hd_error rest = Some 0 \/ ill_formed rest).
Proof.
  induction n as [|n IH]; intros s HL HB HI; [destruct s; [inversion HI|cbn in HL; lia]|].
  destruct (dec0_verdict s HB) as [p c rest E S|st [HS|HS]|A B C D].
  - destruct (Z.eq_dec c 0) as [->|Hc].
    + inversion S; subst; unfold bt in *; try lia.
      exists [], (0 :: rest). repeat split; [constructor|left; reflexivity].
    + assert (Hp : (0 < length p)%nat) by (inversion S; cbn; lia).
      assert (Hrest : In 0 rest).
      { subst s. apply in_app_or in HI. destruct HI as [HI|HI]; [|assumption].
        exfalso. inversion S; subst; unfold bt in *; cbn in HI; intuition lia. }
      destruct (IH rest) as (w & r & E2 & W & R).
      * subst s. rewrite app_length in HL. lia.
      * subst s. apply Forall_app in HB. tauto.
      * assumption.
      * exists (c :: w), r. rewrite utf8_string_cons, <- app_assoc, <- E2, <- (seq_enc p c S).
        repeat split; auto. constructor; [split; [eapply seq_scalar; eassumption|assumption]|assumption].
  - subst s. inversion HI.
  - exfalso. destruct HS as (ld & tl & E & F & L). subst s.
    destruct HI as [HI|HI].
    + subst ld. cbn in L. lia.
    + rewrite Forall_forall in F. apply F in HI. unfold bt in HI. lia.
  - exists [], s. repeat split; [constructor|]. right. repeat split; assumption.
Qed.

(** ** wcsrtombs *)

Lemma wcs_dst_step fuel w len k acc c : Z.of_nat (length acc) < len ->
  nth_error w k = Some c -> nz_scalar c -> Z.of_nat (length acc) + 4 < 2^32 ->
  wcsrtombs_dst (S fuel) w len k acc =
  if len <? Z.of_nat (length acc + length (utf8_enc c)) then
    Ok (mk_strr (Z.of_nat (length acc)) acc (SrcAt k) 0 false)
  else wcsrtombs_dst fuel w len (S k) (acc ++ utf8_enc c).
Proof.
  intros L N [Hc H0] B. cbn [wcsrtombs_dst]. unfold getb.
  replace (Z.of_nat (length acc) <? len) with true by lia. rewrite N. cbn [bind].
  replace (c =? 0) with false by lia. rewrite wcrtomb_scalar by assumption. cbn [wret wout].
  pose proof (enc_len c Hc).
  replace (Z.of_nat (length (utf8_enc c)) =? SIZE_M1) with false by (unfold SIZE_M1; lia).
  unfold u32. rewrite Z.mod_small by lia. rewrite Nat2Z.inj_add. reflexivity.
Qed.

(** The whole characters that fit in [room] bytes. *)
Fixpoint fits (w : list Z) (room : nat) : nat :=
  match w with
  | [] => 0
  | c :: w => if (length (utf8_enc c) <=? room)%nat then S (fits w (room - length (utf8_enc c))) else 0
  end.

Lemma wcs_dst w : forall fuel pre rest len acc, Forall nz_scalar w ->
  (length w < fuel)%nat -> Z.of_nat (length acc) <= len ->
  Z.of_nat (length acc) + 4 * Z.of_nat (length w) < 2^32 ->
  wcsrtombs_dst fuel (pre ++ w ++ rest) len (length pre) acc =
  let m := fits w (Z.to_nat len - length acc) in
  if (m <? length w)%nat || (Z.of_nat (length acc + length (utf8_string w)) =? len) then
    Ok (mk_strr (Z.of_nat (length (acc ++ utf8_string (firstn m w)))) (acc ++ utf8_string (firstn m w))
          (SrcAt (length pre + m)) 0 false)
  else wcsrtombs_dst (fuel - length w) (pre ++ w ++ rest) len
         (length pre + length w) (acc ++ utf8_string w).
Proof.
  induction w as [|c w IH]; intros fuel pre rest len acc Hw HF HA HB.
  - cbn [length fits]. cbn zeta. cbn [firstn utf8_string map concat app length].
    rewrite !Nat.add_0_r, !Nat.sub_0_r, !app_nil_r. cbn [Nat.ltb Nat.leb orb].
    destruct fuel as [|fuel]; [cbn in HF; lia|]. cbn [wcsrtombs_dst].
    destruct (Z.eqb_spec (Z.of_nat (length acc)) len) as [E|E].
    + replace (Z.of_nat (length acc) <? len) with false by lia. reflexivity.
    + replace (Z.of_nat (length acc) <? len) with true by lia. reflexivity.
  - inversion Hw as [|? ? Hc Hw']; subst. cbn [length] in *.
    destruct fuel as [|fuel]; [lia|]. cbn [fits]. rewrite utf8_string_cons.
    pose proof (enc_len c (proj1 Hc)) as LE.
    destruct (Z.ltb_spec (Z.of_nat (length acc)) len) as [L|L].
    + rewrite (wcs_dst_step fuel (pre ++ (c :: w) ++ rest) len (length pre) acc c); try assumption; try lia.
      2:{ rewrite nth_error_app2, Nat.sub_diag by lia. reflexivity. }
      destruct (Nat.leb_spec (length (utf8_enc c)) (Z.to_nat len - length acc)) as [F|F].
      * replace (len <? Z.of_nat (length acc + length (utf8_enc c))) with false by lia.
        pose proof (IH fuel (pre ++ [c]) rest len (acc ++ utf8_enc c) Hw') as E.
        rewrite <- !app_assoc in E. cbn [app] in E. cbn [app].
        rewrite !app_length in E. cbn [length] in E.
        replace (S (length pre)) with (length pre + 1)%nat by lia.
        rewrite E by lia. cbn zeta.
        replace (Z.to_nat len - (length acc + length (utf8_enc c)))%nat with
          (Z.to_nat len - length acc - length (utf8_enc c))%nat by lia.
        set (m := fits w (Z.to_nat len - length acc - length (utf8_enc c))).
        change (S m <? S (length w))%nat with (m <? length w)%nat.
        rewrite !app_length. rewrite !Nat.add_assoc. cbn [firstn].
        rewrite utf8_string_cons. rewrite !app_length, !app_assoc. cbn [Nat.sub].
        replace (length pre + 1 + m)%nat with (length pre + S m)%nat by lia.
        replace (length pre + 1 + length w)%nat with (length pre + S (length w))%nat by lia.
        rewrite !Nat.add_assoc. reflexivity.
      * replace (len <? Z.of_nat (length acc + length (utf8_enc c))) with true by lia.
        cbn zeta. change (0 <? S (length w))%nat with true. cbn [orb firstn utf8_string map concat].
        rewrite app_nil_r, Nat.add_0_r. reflexivity.
    + replace (length (utf8_enc c) <=? Z.to_nat len - length acc)%nat with false.
      2:{ symmetry. apply Nat.leb_gt. lia. }
      cbn zeta. change (0 <? S (length w))%nat with true. cbn [orb firstn utf8_string map concat].
      cbn [wcsrtombs_dst]. replace (Z.of_nat (length acc) <? len) with false by lia.
      rewrite app_nil_r, Nat.add_0_r. reflexivity.
Qed.

Lemma fits_le w : forall room, (fits w room <= length w)%nat.
Proof. induction w; intros; cbn [fits length]; [lia|]. destruct (_ <=? _)%nat; [specialize (IHw (room - length (utf8_enc a))%nat)|]; lia. Qed.

Lemma fits_ok w : Forall scalar w -> forall room,
  (length (utf8_string (firstn (fits w room) w)) <= room)%nat /\
  (forall c, nth_error w (fits w room) = Some c ->
     (room < length (utf8_string (firstn (fits w room) w)) + length (utf8_enc c))%nat).
Proof.
  induction 1 as [|c w Hc Hw IH]; intros room; cbn [fits].
  - cbn. split; [lia|discriminate].
  - destruct (Nat.leb_spec (length (utf8_enc c)) room) as [L|L].
    + destruct (IH (room - length (utf8_enc c))%nat) as [A B]. cbn [firstn nth_error].
      rewrite utf8_string_cons, app_length. split; [lia|]. intros d Hd. specialize (B d Hd). lia.
    + cbn [firstn nth_error utf8_string map concat length]. split; [lia|].
      intros d Hd. injection Hd as <-. lia.
Qed.

Lemma fits_all w : forall room, fits w room = length w -> (length (utf8_string w) <= room)%nat.
Proof.
  induction w as [|c w IH]; intros room H; cbn [fits] in H; [cbn; lia|].
  destruct (Nat.leb_spec (length (utf8_enc c)) room); [|cbn in H; lia].
  rewrite utf8_string_cons, app_length. cbn [length] in H. injection H as H. apply IH in H. lia.
Qed.

Lemma fits_all_conv w : forall room, (length (utf8_string w) <= room)%nat -> fits w room = length w.
Proof.
  induction w as [|c w IH]; intros room H; cbn [fits]; [reflexivity|].
  rewrite utf8_string_cons, app_length in H.
  replace (length (utf8_enc c) <=? room)%nat with true by (symmetry; apply Nat.leb_le; lia).
  cbn [length]. f_equal. apply IH. lia.
Qed.

Lemma wcsrtombs_dst_spec w rest len : Forall nz_scalar w -> 0 <= len -> Z.of_nat (length w) < 2^30 ->
  (len <= Z.of_nat (length (utf8_string w)) ->
     exists m, (m <= length w)%nat /\
     wcsrtombs true (w ++ rest) len =
       Ok (mk_strr (Z.of_nat (length (utf8_string (firstn m w)))) (utf8_string (firstn m w)) (SrcAt m) 0 false) /\
     Z.of_nat (length (utf8_string (firstn m w))) <= len /\
     (forall c, nth_error w m = Some c ->
        len < Z.of_nat (length (utf8_string (firstn m w)) + length (utf8_enc c)))) /\
  (Z.of_nat (length (utf8_string w)) < len -> hd_error rest = Some 0 ->
     wcsrtombs true (w ++ rest) len =
       Ok (mk_strr (Z.of_nat (length (utf8_string w))) (utf8_string w ++ [0]) SrcNull 0 false)) /\
  (forall c, Z.of_nat (length (utf8_string w)) < len -> hd_error rest = Some c -> is_i32 c -> ~ scalar c ->
     wcsrtombs true (w ++ rest) len =
       Ok (mk_strr SIZE_M1 (utf8_string w) (SrcAt (length w)) 0 true)).
Proof.
  intros Hw HL HB. unfold wcsrtombs.
  pose proof (utf8_string_len w (nz_scalars w Hw)) as WL.
  pose proof (wcs_dst w (S (length (w ++ rest))) [] rest len [] Hw) as E.
  cbn [app length Nat.add] in E. rewrite E; [|rewrite app_length; lia|lia|lia]. clear E. cbn zeta.
  rewrite Nat.sub_0_r. set (m := fits w (Z.to_nat len)).
  pose proof (fits_le w (Z.to_nat len)) as ML. fold m in ML.
  destruct (fits_ok w (nz_scalars w Hw) (Z.to_nat len)) as [FA FB]. fold m in FA, FB.
  split; [|split].
  - intros L. exists m. split; [assumption|]. split.
    + destruct (Nat.ltb_spec m (length w)) as [M|M]; [reflexivity|].
      assert (m = length w) by lia.
      assert (length (utf8_string w) <= Z.to_nat len)%nat by (apply fits_all; fold m; lia).
      replace (Z.of_nat (length (utf8_string w)) =? len) with true by lia. reflexivity.
    + split; [lia|]. intros c Hc. apply FB in Hc. lia.
  - intros L R.
    assert (Em : m = length w) by (apply fits_all_conv; lia).
    replace (m <? length w)%nat with false by (symmetry; apply Nat.ltb_ge; lia).
    replace (Z.of_nat (length (utf8_string w)) =? len) with false by lia. cbn [orb].
    destruct rest as [|z rest]; [discriminate|]. injection R as ->.
    rewrite app_length. cbn [length].
    destruct (S (length w + S (length rest)) - length w)%nat as [|f] eqn:Ef; [lia|].
    cbn [wcsrtombs_dst]. replace (Z.of_nat (length (utf8_string w)) <? len) with true by lia.
    unfold getb. rewrite nth_error_app2, Nat.sub_diag by lia. reflexivity.
  - intros c L R Hi Hc.
    assert (Em : m = length w) by (apply fits_all_conv; lia).
    replace (m <? length w)%nat with false by (symmetry; apply Nat.ltb_ge; lia).
    replace (Z.of_nat (length (utf8_string w)) =? len) with false by lia. cbn [orb].
    destruct rest as [|z rest]; [discriminate|]. injection R as ->.
    rewrite app_length. cbn [length].
    destruct (S (length w + S (length rest)) - length w)%nat as [|f] eqn:Ef; [lia|].
    cbn [wcsrtombs_dst]. replace (Z.of_nat (length (utf8_string w)) <? len) with true by lia.
    unfold getb. rewrite nth_error_app2, Nat.sub_diag by lia. cbn [nth_error bind].
    replace (c =? 0) with false by (unfold scalar in Hc; lia).
    rewrite wcrtomb_reject by assumption. cbn [wret]. rewrite Z.eqb_refl. reflexivity.
Qed.

Lemma wcs_null w : forall fuel pre rest n, Forall nz_scalar w ->
  (length w < fuel)%nat -> 0 <= n -> n + 4 * Z.of_nat (length w) < 2^32 ->
  wcsrtombs_null fuel (pre ++ w ++ rest) (length pre) n =
  wcsrtombs_null (fuel - length w) (pre ++ w ++ rest) (length pre + length w)
    (n + Z.of_nat (length (utf8_string w))).
Proof.
  induction w as [|c w IH]; intros fuel pre rest n Hw HF Hn HB.
  - cbn [length utf8_string map concat]. rewrite Nat.sub_0_r, Nat.add_0_r, Z.add_0_r. reflexivity.
  - inversion Hw as [|? ? Hc Hw']; subst. cbn [length] in *.
    destruct fuel as [|fuel]; [lia|]. cbn [wcsrtombs_null Nat.sub].
    unfold getb at 1. rewrite nth_error_app2, Nat.sub_diag by lia. cbn [nth_error app bind].
    destruct Hc as [Hc H0]. replace (c =? 0) with false by lia.
    rewrite wcrtomb_scalar by assumption. cbn [wret wout].
    pose proof (enc_len c Hc).
    replace (Z.of_nat (length (utf8_enc c)) =? SIZE_M1) with false by (unfold SIZE_M1; lia).
    unfold u32. rewrite Z.mod_small by lia.
    pose proof (IH fuel (pre ++ [c]) rest (n + Z.of_nat (length (utf8_enc c))) Hw') as E.
    rewrite <- !app_assoc in E. cbn [app] in E. rewrite !app_length in E. cbn [length] in E.
    replace (S (length pre)) with (length pre + 1)%nat by lia.
    rewrite E by lia. rewrite utf8_string_cons, app_length.
    replace (length pre + 1 + length w)%nat with (length pre + S (length w))%nat by lia.
    f_equal. lia.
Qed.

Lemma wcsrtombs_null_spec w rest len : Forall nz_scalar w -> Z.of_nat (length w) < 2^30 ->
  (hd_error rest = Some 0 ->
     wcsrtombs false (w ++ rest) len = Ok (mk_strr (Z.of_nat (length (utf8_string w))) [] (SrcAt 0) 0 false)) /\
  (forall c, hd_error rest = Some c -> is_i32 c -> ~ scalar c ->
     wcsrtombs false (w ++ rest) len = Ok (mk_strr SIZE_M1 [] (SrcAt 0) 0 true)).
Proof.
  intros Hw HB. unfold wcsrtombs.
  pose proof (wcs_null w (S (length (w ++ rest))) [] rest 0 Hw) as E.
  cbn [app length Nat.add] in E. rewrite E; [|rewrite app_length; lia|lia|lia]. clear E.
  split; [intros R|intros c R Hi Hc]; (destruct rest as [|z rest]; [discriminate|]); injection R as ->;
    rewrite app_length; cbn [length];
    (destruct (S (length w + S (length rest)) - length w)%nat as [|f] eqn:Ef; [lia|]);
    cbn [wcsrtombs_null]; unfold getb; rewrite nth_error_app2, Nat.sub_diag by lia; cbn [nth_error bind].
  - reflexivity.
  - replace (c =? 0) with false by (unfold scalar in Hc; lia).
    rewrite wcrtomb_reject by assumption. cbn [wret]. rewrite Z.eqb_refl. reflexivity.
Qed.

(** ** UTF-16 *)

Lemma u32_sub_lt c lo k : 0 <= c < 2^32 -> 0 <= lo < 2^31 -> 0 < k < 2^31 ->
  (u32 (c - lo) <? k) = ((lo <=? c) && (c <? lo + k)).
Proof.
  intros. unfold u32. destruct (Z.leb_spec lo c).
  - rewrite Z.mod_small by lia. cbn. lia.
  - rewrite mod_neg_small by lia. cbn. lia.
Qed.

Lemma seq_len4 p c : utf8_seq p c -> (1 <= length p <= 4)%nat.
Proof. intros H; inversion H; cbn; lia. Qed.

Lemma mbrtoc16_bmp n c r : 4 <= n -> scalar c -> c < 0x10000 -> bytes r ->
  mbrtoc16 (utf8_enc c ++ r) n 0 = Ok (decoded c (length (utf8_enc c))).
Proof.
  intros Hn Hc HB Hr. unfold mbrtoc16. change (u32 (0 - 0xDC00) <? 0x400) with false. cbv iota.
  rewrite mbrtowc_enc by assumption. cbn [bind].
  pose proof (enc_len c Hc) as LE.
  destruct (decoded_ret c (length (utf8_enc c))) as [E1 E2]; [lia|]. rewrite E1, E2. cbn [orb].
  unfold decoded; cbn [wc ret st]. unfold u32, u16. unfold scalar in Hc.
  rewrite (Z.mod_small c (2^32)) by lia. replace (c <? 0x10000) with true by lia.
  rewrite (Z.mod_small c (2^16)) by lia. reflexivity.
Qed.

Lemma lor_d800 v : 0 <= v < 0x400 -> Z.lor 0xD800 v = 0xD800 + v.
Proof. intros. change 0xD800 with (54 * 2^10). apply lor_mul_low; lia. Qed.
Lemma lor_dc00 v : 0 <= v < 0x400 -> Z.lor 0xDC00 v = 0xDC00 + v.
Proof. intros. change 0xDC00 with (55 * 2^10). apply lor_mul_low; lia. Qed.

Lemma mbrtoc16_pair n c r : 4 <= n -> scalar c -> 0x10000 <= c -> bytes r ->
  mbrtoc16 (utf8_enc c ++ r) n 0 =
    Ok (mk_mbr 4 (Some (0xD800 + (c - 0x10000) / 1024)) (0xDC00 + (c - 0x10000) mod 1024) false).
Proof.
  intros Hn Hc HB Hr. unfold mbrtoc16. change (u32 (0 - 0xDC00) <? 0x400) with false. cbv iota.
  rewrite mbrtowc_enc by assumption. cbn [bind].
  pose proof (enc_len c Hc) as LE.
  destruct (decoded_ret c (length (utf8_enc c))) as [E1 E2]; [lia|]. rewrite E1, E2. cbn [orb].
  unfold decoded; cbn [wc ret st]. unfold u32, u16. unfold scalar in Hc.
  rewrite (Z.mod_small c (2^32)) by lia. replace (c <? 0x10000) with false by lia.
  rewrite (Z.mod_small (c - 0x10000) (2^32)) by lia.
  rewrite shiftr_div by lia. change (2^10) with 1024.
  change 0x3FF with (2^10 - 1). rewrite land_ones_mod by lia. change (2^10) with 1024.
  rewrite lor_d800, lor_dc00 by lia. rewrite Z.mod_small by lia.
  replace (c =? 0) with false by lia.
  unfold utf8_enc. replace (c <? 0x80) with false by lia. replace (c <? 0x800) with false by lia.
  replace (c <? 0x10000) with false by lia. reflexivity.
Qed.

Lemma mbrtoc16_second s n low : 0xDC00 <= low < 0xE000 ->
  mbrtoc16 s n low = Ok (mk_mbr SIZE_M3 (Some low) 0 false).
Proof.
  intros H. unfold mbrtoc16. rewrite u32_sub_lt by lia.
  replace ((0xDC00 <=? low) && (low <? 0xDC00 + 0x400)) with true by lia.
  unfold u16. rewrite Z.mod_small by lia. reflexivity.
Qed.

Lemma c16rtomb_bmp c : scalar c -> c < 0x10000 ->
  c16rtomb c 0 = mk_c16r (Z.of_nat (length (utf8_enc c))) (utf8_enc c) 0 false.
Proof.
  intros Hc HB. unfold c16rtomb. unfold scalar in Hc. rewrite !u32_sub_lt by lia.
  replace ((0xD800 <=? c) && (c <? 0xD800 + 0x400)) with false by lia.
  replace ((0xDC00 <=? c) && (c <? 0xDC00 + 0x400)) with false by lia.
  change ((0xD800 <=? 0) && (0 <? 0xD800 + 0x400)) with false. cbv iota.
  rewrite wcrtomb_scalar by assumption. reflexivity.
Qed.

Lemma c16rtomb_high hi st : 0xD800 <= hi < 0xDC00 -> c16rtomb hi st = mk_c16r 0 [] hi false.
Proof.
  intros H. unfold c16rtomb. rewrite u32_sub_lt by lia.
  replace ((0xD800 <=? hi) && (hi <? 0xD800 + 0x400)) with true by lia. reflexivity.
Qed.

Lemma c16rtomb_low c : scalar c -> 0x10000 <= c ->
  c16rtomb (0xDC00 + (c - 0x10000) mod 1024) (0xD800 + (c - 0x10000) / 1024) =
  mk_c16r (Z.of_nat (length (utf8_enc c))) (utf8_enc c) 0 false.
Proof.
  intros Hc HB. unfold c16rtomb. pose proof Hc as Hc'. unfold scalar in Hc'.
  set (lo := 0xDC00 + (c - 0x10000) mod 1024). set (hi := 0xD800 + (c - 0x10000) / 1024).
  assert (0xDC00 <= lo < 0xE000) by lia. assert (0xD800 <= hi < 0xDC00) by lia.
  rewrite !u32_sub_lt by lia.
  replace ((0xD800 <=? lo) && (lo <? 0xD800 + 0x400)) with false by lia.
  replace ((0xDC00 <=? lo) && (lo <? 0xDC00 + 0x400)) with true by lia.
  assert (E : (0x400 <=? u32 (hi - 0xD800)) = false).
  { unfold u32. rewrite Z.mod_small by lia. lia. }
  rewrite E. cbv iota.
  change 0x3FF with (2^10 - 1). rewrite !land_ones_mod by lia. rewrite shiftl_mul by lia.
  rewrite lor_mul_low by (try lia; apply Z.mod_pos_bound; lia). change (2^10) with 1024.
  replace (0x10000 + (hi mod 1024 * 1024 + lo mod 1024)) with c.
  2:{ subst hi lo. assert (0 <= c - 0x10000 < 0x100000) by lia. clear - H1.
      set (v := c - 0x10000) in *. replace c with (v + 0x10000) by lia. clearbody v. lia. }
  rewrite s32_small by lia.
  rewrite wcrtomb_scalar by assumption. reflexivity.
Qed.

Lemma c16rtomb_lone_low c st : 0xDC00 <= c < 0xE000 -> 0 <= st < 2^32 -> ~ (0xD800 <= st < 0xDC00) ->
  c16rtomb c st = mk_c16r SIZE_M1 [] st true.
Proof.
  intros H S N. unfold c16rtomb. rewrite !u32_sub_lt by lia.
  replace ((0xD800 <=? c) && (c <? 0xD800 + 0x400)) with false by lia.
  replace ((0xDC00 <=? c) && (c <? 0xDC00 + 0x400)) with true by lia.
  pose proof (u32_sub_lt st 0xD800 0x400 S) as E.
  destruct (Z.leb_spec 0x400 (u32 (st - 0xD800))); [reflexivity|].
  exfalso. assert ((u32 (st - 0xD800) <? 0x400) = true) by lia. rewrite E in H1 by lia. lia.
Qed.

Lemma c16rtomb_broken_pair c hi : 0 <= c < 65536 -> ~ (0xD800 <= c < 0xE000) -> 0xD800 <= hi < 0xDC00 ->
  c16rtomb c hi = mk_c16r SIZE_M1 [] hi true.
Proof.
  intros H N S. unfold c16rtomb. rewrite !u32_sub_lt by lia.
  replace ((0xD800 <=? c) && (c <? 0xD800 + 0x400)) with false by lia.
  replace ((0xDC00 <=? c) && (c <? 0xDC00 + 0x400)) with false by lia.
  replace ((0xD800 <=? hi) && (hi <? 0xD800 + 0x400)) with true by lia. reflexivity.
Qed.
