(** Property theorems C04-C09: UTF-8 and UTF-16 conversion. *)
From Verif Require Import Base Bits Utf8_Model Utf8_Spec Utf8_Proof Utf8_Str_Proof.

(** ** C04 *)

Lemma C04_lemma c rest n : scalar c -> bytes rest ->
  Z.of_nat (length (utf8_enc c)) <= n <= Z.of_nat (length (utf8_enc c ++ rest)) ->
  (wcrtomb c = mk_wcr (Z.of_nat (length (utf8_enc c))) (utf8_enc c) false /\
   (forall p, utf8_seq p c <-> p = utf8_enc c) /\ (1 <= length (utf8_enc c) <= 4)%nat) /\
  mbrtowc (utf8_enc c ++ rest) n 0 =
    Ok (mk_mbr (if c =? 0 then 0 else Z.of_nat (length (utf8_enc c))) (Some c) 0 false).
Proof.
  intros Hc Hr Hn. split; [split; [|split]|].
  - apply wcrtomb_scalar; assumption.
  - intros p; split; [apply seq_enc|intros ->; apply enc_seq; assumption].
  - apply enc_len; assumption.
  - rewrite mbrtowc_dec0; [|apply Forall_app; split; [apply enc_bytes|]; assumption|lia|left; lia].
    rewrite firstn_app. rewrite firstn_all2 by lia.
    rewrite (dec0_seq _ c) by (apply enc_seq; assumption). reflexivity.
Qed.

(** Every scalar value is encoded as its unique well-formed sequence, and any
    buffer starting with it, read with a limit covering it, decodes to it. *)
Theorem C04_utf8_roundtrip c rest n : scalar c -> bytes rest ->
  Z.of_nat (length (utf8_enc c)) <= n <= Z.of_nat (length (utf8_enc c ++ rest)) ->
  (wcrtomb c = mk_wcr (Z.of_nat (length (utf8_enc c))) (utf8_enc c) false /\
   (forall p, utf8_seq p c <-> p = utf8_enc c) /\ (1 <= length (utf8_enc c) <= 4)%nat) /\
  mbrtowc (utf8_enc c ++ rest) n 0 =
    Ok (mk_mbr (if c =? 0 then 0 else Z.of_nat (length (utf8_enc c))) (Some c) 0 false).
Proof. exact (C04_lemma c rest n). Qed.
Print Assumptions C04_utf8_roundtrip.

Example C04_ex : scalar 0x1F600 /\ bytes [65] /\
  Z.of_nat (length (utf8_enc 0x1F600)) <= 5 <= Z.of_nat (length (utf8_enc 0x1F600 ++ [65])) /\
  utf8_enc 0x1F600 = [0xF0; 0x9F; 0x98; 0x80].
Proof. unfold scalar. repeat split; try (cbn; lia). repeat constructor; lia. Qed.

(** ** C05 *)

Lemma seq_prefix_free p c q c' : utf8_seq p c -> utf8_seq (p ++ q) c' -> q = [].
Proof.
  intros H H'. pose proof (dec0_seq p c q H) as E.
  pose proof (dec0_seq (p ++ q) c' [] H') as E'. rewrite app_nil_r in E'. rewrite E in E'.
  assert (c = c') by (unfold decoded in E'; congruence). subst c'.
  apply seq_enc in H. apply seq_enc in H'. rewrite <- H in H'.
  apply (f_equal (@length Z)) in H'. rewrite app_length in H'. destruct q; [reflexivity|cbn in H'; lia].
Qed.

Lemma C05_lemma s n : bytes s -> 0 <= n <= Z.of_nat (length s) ->
  let l := firstn (Z.to_nat n) s in
  exists r, mbrtowc s n 0 = Ok r /\
    (forall p c rest, l = p ++ rest -> utf8_seq p c ->
       r = mk_mbr (if c =? 0 then 0 else Z.of_nat (length p)) (Some c) 0 false) /\
    (forall c, wc r = Some c -> exists p rest, l = p ++ rest /\ utf8_seq p c) /\
    (forall ext c, ext <> [] -> utf8_seq (l ++ ext) c -> ret r = SIZE_M2 /\ wc r = None) /\
    (ret r = SIZE_M2 -> l = [] \/ incomplete l) /\
    (ret r = SIZE_M1 <-> ill_formed l) /\
    (ret r = SIZE_M1 -> eilseq r = true /\ wc r = None /\ st r = 0).
Proof.
  intros Hs Hn l. assert (Hl : bytes l) by (apply bytes_firstn; assumption).
  exists (dec0 l). split; [apply mbrtowc_dec0; [assumption|lia|left; lia]|].
  split; [|split; [|split; [|split; [|split]]]].
  - intros p c rest -> S. rewrite (dec0_seq _ _ _ S). reflexivity.
  - intros c Hc. destruct (dec0_verdict l Hl) as [p c' rest E S|st HS|]; try discriminate.
    injection Hc as ->. exists p, rest. auto.
  - intros ext c Hx S. destruct (dec0_verdict l Hl) as [p c' rest E S'|st HS|_ _ _ D].
    + exfalso. rewrite E, <- app_assoc in S. apply (seq_prefix_free _ _ _ _ S') in S.
      apply app_eq_nil in S. tauto.
    + split; reflexivity.
    + exfalso. eapply D; [reflexivity|eassumption].
  - apply more_short. assumption.
  - destruct (dec0_verdict l Hl) as [p c' rest E S'|st HS|A B C D]; cbn [ret mb_fail].
    + pose proof (seq_len4 _ _ S'). destruct (decoded_ret c' (length p)) as [_ E2]; [lia|].
      split; [lia|]. intros (A & _). exfalso. eapply A; eassumption.
    + unfold SIZE_M1, SIZE_M2. split; [lia|]. intros (_ & B & C). tauto.
    + unfold ill_formed. tauto.
  - destruct (dec0_verdict l Hl) as [p c' rest E S'|st HS|A B C D]; cbn [ret mb_fail].
    + pose proof (seq_len4 _ _ S'). destruct (decoded_ret c' (length p)) as [_ E2]; [lia|]. lia.
    + unfold SIZE_M1, SIZE_M2. lia.
    + auto.
Qed.

(** Acceptance is exactly Table 3-7; proper prefixes of well-formed sequences are
    answered (size_t)-2; EILSEQ is answered exactly on input with no well-formed
    prefix that is not "lead byte plus too few continuation bytes".
    Missing from C05: (size_t)-2 should be answered only on prefixes of
    well-formed sequences; see [C05_incomplete_iff_prefix_refuted]. *)
Theorem C05_utf8_acceptance_partial s n : bytes s -> 0 <= n <= Z.of_nat (length s) ->
  let l := firstn (Z.to_nat n) s in
  exists r, mbrtowc s n 0 = Ok r /\
    (forall p c rest, l = p ++ rest -> utf8_seq p c ->
       r = mk_mbr (if c =? 0 then 0 else Z.of_nat (length p)) (Some c) 0 false) /\
    (forall c, wc r = Some c -> exists p rest, l = p ++ rest /\ utf8_seq p c) /\
    (forall ext c, ext <> [] -> utf8_seq (l ++ ext) c -> ret r = SIZE_M2 /\ wc r = None) /\
    (ret r = SIZE_M2 -> l = [] \/ incomplete l) /\
    (ret r = SIZE_M1 <-> ill_formed l) /\
    (ret r = SIZE_M1 -> eilseq r = true /\ wc r = None /\ st r = 0).
Proof. exact (C05_lemma s n). Qed.
Print Assumptions C05_utf8_acceptance_partial.

Example C05_ex : bytes [0xE2; 0x82; 0xAC; 0x41] /\ utf8_seq [0xE2; 0x82; 0xAC] 0x20AC /\
  ill_formed [0xC0; 0x80] /\ incomplete [0xE2; 0x82].
Proof.
  split; [repeat constructor; lia|]. split.
  - apply (seq3 0xE2 0x82 0xAC); unfold bt; lia.
  - split; [split; [|split; [discriminate|]]|].
    + intros p c rest E S. inversion S; subst; cbn [app] in E; injection E as E1 E2; subst; unfold bt in *; lia.
    + intros (ld & tl & E & F & L). injection E as <- <-. cbn in L. lia.
    + exists 0xE2, [0x82]. split; [reflexivity|]. split; [repeat constructor; unfold bt; lia|]. cbn. lia.
Qed.

(** (size_t)-2 on E0 80, which begins no well-formed sequence. *)
Theorem C05_incomplete_iff_prefix_refuted : exists l, bytes l /\ l <> [] /\
  (forall ext c, ~ utf8_seq (l ++ ext) c) /\
  exists r, mbrtowc l (Z.of_nat (length l)) 0 = Ok r /\ ret r = SIZE_M2.
Proof.
  exists [0xE0; 0x80]. split; [repeat constructor; lia|]. split; [discriminate|]. split.
  - intros ext c S. cbn [app] in S. inversion S; subst; unfold bt in *; lia.
  - eexists. split; reflexivity.
Qed.
Print Assumptions C05_incomplete_iff_prefix_refuted.

(** ** C06 *)

(** [feed] hands the chunks one by one to mbrtowc with the same mbstate_t as long
    as it answers (size_t)-2.  Any chunking, empty chunks included, gives the
    outcome of a single call on the whole. *)
Theorem C06_chunking chunks : Forall bytes chunks ->
  feed chunks 0 0 = feed [concat chunks] 0 0.
Proof.
  intros H. assert (HC : bytes (concat chunks)).
  { induction H; cbn; [constructor|]. apply Forall_app; split; assumption. }
  pose proof (feed_spec chunks [] H ltac:(constructor) eq_refl ltac:(cbn; lia)) as E1.
  pose proof (feed_spec [concat chunks] [] ltac:(repeat constructor; assumption) ltac:(constructor) eq_refl ltac:(cbn; lia)) as E2.
  cbn [dec0 st length app] in E1, E2. change (Z.of_nat 0) with 0 in *.
  rewrite E1, E2. cbn [concat]. rewrite app_nil_r. reflexivity.
Qed.
Print Assumptions C06_chunking.

(** And the outcome is the right one when the bytes start with a character. *)
Theorem C06_chunked_decode chunks p c rest : Forall bytes chunks -> concat chunks = p ++ rest ->
  utf8_seq p c -> feed chunks 0 0 = Ok (ODecoded c (if c =? 0 then 0 else Z.of_nat (length p))).
Proof.
  intros H E S.
  pose proof (feed_spec chunks [] H ltac:(constructor) eq_refl ltac:(cbn; lia)) as E1.
  cbn [dec0 st length app] in E1. change (Z.of_nat 0) with 0 in *.
  rewrite E1, E, (dec0_seq _ _ _ S). unfold outcome_of.
  pose proof (seq_len4 _ _ S). destruct (decoded_ret c (length p)) as [-> ->]; [lia|]. reflexivity.
Qed.
Print Assumptions C06_chunked_decode.

Example C06_ex : feed [[0xF0]; []; [0x9F; 0x98]; [0x80; 0x41]] 0 0 = Ok (ODecoded 0x1F600 4) /\
  Forall bytes [[0xF0]; []; [0x9F; 0x98]; [0x80; 0x41]].
Proof. split; [reflexivity|]. repeat constructor; lia. Qed.

(** ** C07 *)
Theorem C07_wcrtomb_rejects c : is_i32 c ->
  (~ scalar c <-> wret (wcrtomb c) = SIZE_M1) /\
  (~ scalar c -> wcrtomb c = mk_wcr SIZE_M1 [] true) /\
  (scalar c -> weilseq (wcrtomb c) = false).
Proof.
  intros Hc. split; [split|split].
  - intros N. rewrite wcrtomb_reject by assumption. reflexivity.
  - intros E S. rewrite wcrtomb_scalar in E by assumption. pose proof (enc_len c S).
    cbn in E. unfold SIZE_M1 in E. lia.
  - apply wcrtomb_reject. assumption.
  - intros S. rewrite wcrtomb_scalar by assumption. reflexivity.
Qed.
Print Assumptions C07_wcrtomb_rejects.

Example C07_ex : is_i32 0xDFFF /\ ~ scalar 0xDFFF /\ is_i32 (-5) /\ ~ scalar (-5) /\ ~ scalar 0x110000.
Proof. unfold is_i32, scalar, INT_MIN, INT_MAX. lia. Qed.

(** ** C08 *)

(** The array at [*src] is [utf8_string w ++ rest]: whole characters, then the
    terminator or an ill-formed sequence ([C08_every_string] shows that every
    NUL-terminated byte string has this shape). *)
Theorem C08_mbsrtowcs w rest len : Forall nz_scalar w -> bytes rest -> 0 <= len ->
  (len <= Z.of_nat (length w) ->
     mbsrtowcs true (utf8_string w ++ rest) len 0 =
     Ok (mk_strr len (firstn (Z.to_nat len) w)
           (SrcAt (length (utf8_string (firstn (Z.to_nat len) w)))) 0 false)) /\
  (Z.of_nat (length w) < len -> hd_error rest = Some 0 ->
     mbsrtowcs true (utf8_string w ++ rest) len 0 =
     Ok (mk_strr (Z.of_nat (length w)) (w ++ [0]) SrcNull 0 false)) /\
  (Z.of_nat (length w) < len -> ill_formed rest ->
     mbsrtowcs true (utf8_string w ++ rest) len 0 =
     Ok (mk_strr SIZE_M1 w (SrcAt (length (utf8_string w))) 0 true)).
Proof. exact (mbsrtowcs_dst_spec w rest len). Qed.
Print Assumptions C08_mbsrtowcs.

Theorem C08_mbsrtowcs_count w rest len : Forall nz_scalar w -> bytes rest -> Z.of_nat (length w) < 2^32 ->
  (hd_error rest = Some 0 ->
     mbsrtowcs false (utf8_string w ++ rest) len 0 = Ok (mk_strr (Z.of_nat (length w)) [] (SrcAt 0) 0 false)) /\
  (ill_formed rest ->
     mbsrtowcs false (utf8_string w ++ rest) len 0 = Ok (mk_strr SIZE_M1 [] (SrcAt 0) 0 true)).
Proof. exact (mbsrtowcs_null_spec w rest len). Qed.
Print Assumptions C08_mbsrtowcs_count.

Theorem C08_every_string s : bytes s -> In 0 s ->
  exists w rest, s = utf8_string w ++ rest /\ Forall nz_scalar w /\ (hd_error rest = Some 0 \/ ill_formed rest).
Proof. exact (nul_split (length s) s (le_n _)). Qed.
Print Assumptions C08_every_string.

(** wcsrtombs: the longest run of whole characters that fits, at most [len]
    bytes, with the source position; the terminator is stored and [*src] set to
    NULL exactly when everything fits.  A wide string in a 32-bit address space
    has fewer than 2^30 elements. *)
Theorem C08_wcsrtombs w rest len : Forall nz_scalar w -> 0 <= len -> Z.of_nat (length w) < 2^30 ->
  (len <= Z.of_nat (length (utf8_string w)) ->
     exists m, (m <= length w)%nat /\
     wcsrtombs true (w ++ rest) len =
       Ok (mk_strr (Z.of_nat (length (utf8_string (firstn m w)))) (utf8_string (firstn m w)) (SrcAt m) 0 false) /\
     Z.of_nat (length (utf8_string (firstn m w))) <= len /\
     (forall c, nth_error w m = Some c ->
        len < Z.of_nat (length (utf8_string (firstn m w)) + length (utf8_enc c)))) /\
  (Z.of_nat (length (utf8_string w)) < len -> hd_error rest = Some 0 ->
     wcsrtombs true (w ++ rest) len =
       Ok (mk_strr (Z.of_nat (length (utf8_string w))) (utf8_string w ++ [0]) SrcNull 0 false)) /\
  (forall c, Z.of_nat (length (utf8_string w)) < len -> hd_error rest = Some c -> is_i32 c -> ~ scalar c ->
     wcsrtombs true (w ++ rest) len =
       Ok (mk_strr SIZE_M1 (utf8_string w) (SrcAt (length w)) 0 true)).
Proof. exact (wcsrtombs_dst_spec w rest len). Qed.
Print Assumptions C08_wcsrtombs.

Theorem C08_wcsrtombs_count w rest len : Forall nz_scalar w -> Z.of_nat (length w) < 2^30 ->
  (hd_error rest = Some 0 ->
     wcsrtombs false (w ++ rest) len = Ok (mk_strr (Z.of_nat (length (utf8_string w))) [] (SrcAt 0) 0 false)) /\
  (forall c, hd_error rest = Some c -> is_i32 c -> ~ scalar c ->
     wcsrtombs false (w ++ rest) len = Ok (mk_strr SIZE_M1 [] (SrcAt 0) 0 true)).
Proof. exact (wcsrtombs_null_spec w rest len). Qed.
Print Assumptions C08_wcsrtombs_count.

(** Wide to multibyte and back. *)
Theorem C08_roundtrip w n n' : Forall nz_scalar w -> Z.of_nat (length w) < 2^30 ->
  Z.of_nat (length (utf8_string w)) < n -> Z.of_nat (length w) < n' ->
  exists b, wcstombs true (w ++ [0]) n = Ok (mk_strr (Z.of_nat (length (utf8_string w))) b SrcNull 0 false) /\
    mbstowcs true b n' = Ok (mk_strr (Z.of_nat (length w)) (w ++ [0]) SrcNull 0 false).
Proof.
  intros Hw HB Hn Hn'. exists (utf8_string w ++ [0]). split.
  - apply (wcsrtombs_dst_spec w [0] n Hw); [lia|assumption|assumption|reflexivity].
  - apply (mbsrtowcs_dst_spec w [0] n' Hw); [repeat constructor; lia|lia|assumption|reflexivity].
Qed.
Print Assumptions C08_roundtrip.

Example C08_ex : Forall nz_scalar [0x48; 0x20AC; 0x1F600] /\
  wcsrtombs true [0x48; 0x20AC; 0x1F600; 0] 5 = Ok (mk_strr 4 [0x48; 0xE2; 0x82; 0xAC] (SrcAt 2) 0 false).
Proof. split; [repeat constructor; unfold scalar; lia|reflexivity]. Qed.

(** ** C09 *)

(** Scalar values travel from UTF-8 to UTF-16 and back. *)
Theorem C09_utf16_roundtrip c rest n : scalar c -> bytes rest -> 4 <= n ->
  (c < 0x10000 ->
     mbrtoc16 (utf8_enc c ++ rest) n 0 =
       Ok (mk_mbr (if c =? 0 then 0 else Z.of_nat (length (utf8_enc c))) (Some c) 0 false) /\
     utf16_enc c = [c] /\
     c16rtomb c 0 = mk_c16r (Z.of_nat (length (utf8_enc c))) (utf8_enc c) 0 false) /\
  (0x10000 <= c ->
     exists hi lo, utf16_enc c = [hi; lo] /\
     mbrtoc16 (utf8_enc c ++ rest) n 0 = Ok (mk_mbr 4 (Some hi) lo false) /\
     (forall s m, mbrtoc16 s m lo = Ok (mk_mbr SIZE_M3 (Some lo) 0 false)) /\
     (forall st, c16rtomb hi st = mk_c16r 0 [] hi false) /\
     c16rtomb lo hi = mk_c16r (Z.of_nat (length (utf8_enc c))) (utf8_enc c) 0 false).
Proof.
  intros Hc Hr Hn. split; intros HB.
  - split; [apply mbrtoc16_bmp; assumption|]. split.
    + unfold utf16_enc. replace (c <? 0x10000) with true by lia. reflexivity.
    + apply c16rtomb_bmp; assumption.
  - exists (0xD800 + (c - 0x10000) / 1024), (0xDC00 + (c - 0x10000) mod 1024).
    pose proof Hc as Hc'. unfold scalar in Hc'.
    split; [unfold utf16_enc; replace (c <? 0x10000) with false by lia; reflexivity|].
    split; [apply mbrtoc16_pair; assumption|].
    split; [intros; apply mbrtoc16_second; lia|].
    split; [intros; apply c16rtomb_high; lia|].
    apply c16rtomb_low; assumption.
Qed.
Print Assumptions C09_utf16_roundtrip.

(** Ill-formed UTF-16 is rejected, except for a high surrogate after a high
    surrogate (see [C09_double_high_refuted]). *)
Theorem C09_utf16_rejects_partial c st : 0 <= c < 65536 -> 0 <= st < 2^32 ->
  (0xDC00 <= c < 0xE000 -> ~ (0xD800 <= st < 0xDC00) -> c16rtomb c st = mk_c16r SIZE_M1 [] st true) /\
  (~ (0xD800 <= c < 0xE000) -> 0xD800 <= st < 0xDC00 -> c16rtomb c st = mk_c16r SIZE_M1 [] st true).
Proof.
  intros Hc Hs. split; intros.
  - apply c16rtomb_lone_low; assumption.
  - apply c16rtomb_broken_pair; assumption.
Qed.
Print Assumptions C09_utf16_rejects_partial.

(** The units D800 D83D DE00 are not well-formed UTF-16, yet c16rtomb converts
    them without an error, dropping the first. *)
Theorem C09_double_high_refuted : exists h1 h2 lo,
  0xD800 <= h1 < 0xDC00 /\ 0xD800 <= h2 < 0xDC00 /\ 0xDC00 <= lo < 0xE000 /\
  let r1 := c16rtomb h1 0 in let r2 := c16rtomb h2 (cst r1) in let r3 := c16rtomb lo (cst r2) in
  ceilseq r1 = false /\ ceilseq r2 = false /\ r3 = mk_c16r 4 [0xF0; 0x9F; 0x98; 0x80] 0 false.
Proof. exists 0xD800, 0xD83D, 0xDE00. repeat split; lia. Qed.
Print Assumptions C09_double_high_refuted.

Example C09_ex : scalar 0x1F600 /\ utf16_enc 0x1F600 = [0xD83D; 0xDE00].
Proof. unfold scalar. split; [lia|reflexivity]. Qed.
