(** Property C99: wide-oriented streams. *)
From Verif Require Import Base Stdio_Model Stdio_Spec Stdio_Proof Stdio_Pos_Proof Utf8_Spec Utf8_Model Utf8_Proof Wstdio_Model Wstdio_Spec Wstdio_Proof.
Open Scope Z_scope.

(** fgetwc on any bytes, from a host that delivers: it takes exactly the next UTF-8 sequence; at the end of the file,
    or when the file ends within a sequence, it sets the end-of-file indicator; on an ill-formed sequence the error
    indicator.  Nothing is lost or read twice. *)
Theorem C99_fgetwc : forall W h, sane (file W) h -> healthy h -> Z.testbit (state (file W)) 8 = false ->
  let q := upcoming (seen (file W) h) in
  exists w W' h', fgetwc W h = Ok (w, W', h') /\ sane (file W') h' /\ healthy h' /\ data h' = data h /\
   ((exists p c r, q = p ++ r /\ utf8_seq p c /\ w = c /\ upcoming (seen (file W') h') = r /\ feof (file W') = feof (file W) /\ ferror (file W') = ferror (file W)) \/
    ((q = [] \/ incomplete q) /\ w = WEOF /\ upcoming (seen (file W') h') = [] /\ feof (file W') = true /\ ferror (file W') = ferror (file W)) \/
    (ill_formed q /\ w = WEOF /\ (exists p, p <> [] /\ q = p ++ upcoming (seen (file W') h')) /\ feof (file W') = feof (file W) /\ ferror (file W') = true)).
Proof.
  intros W h S H T q. destruct (fgetwc_bytes W h S H T) as (w & W' & h' & E & S' & H' & D & _ & _ & _ & G). exists w, W', h'. do 4 (split; [assumption|]).
  apply got_cases; [apply sane_bytes; assumption|exact G].
Qed.
Print Assumptions C99_fgetwc.

(** On a file that is the UTF-8 encoding of a sequence of characters, any sequence of fgetwc, ungetwc, fgetws, feof
    and ferror answers like the reference stream of characters. *)
Theorem C99_input_calls_follow_the_reference_stream : forall os W h v, sane (file W) h -> healthy h -> Forall wlegal os -> shows W h v ->
  exists W' h', wdo_all os W h = Ok (fst (wreference_run os v), W', h') /\ shows W' h' (snd (wreference_run os v)).
Proof. intros os W h v S H L V. destruct (wdo_all_ref os W h v S H L V) as (W' & h' & E & _ & _ & _ & V'). exists W', h'. auto. Qed.
Print Assumptions C99_input_calls_follow_the_reference_stream.

(** fputwc, any host: the bytes that reach the file are a prefix of the encoding, the result tells whether it is all of it *)
Theorem C99_fputwc : forall c W h, is_i32 c -> 0 <= pos h ->
  (scalar c -> exists k W' h', fputwc c W h = ((if (k =? length (utf8_enc c))%nat then c else WEOF), W', h') /\ (k <= length (utf8_enc c))%nat /\
     data h' = patch (data h) (if append h then length (data h) else Z.to_nat (pos h)) (firstn k (utf8_enc c)) /\
     ((k < length (utf8_enc c))%nat -> ferror (file W') = true) /\ (script h = [] -> k = length (utf8_enc c))) /\
  (~ scalar c -> exists W', fputwc c W h = (WEOF, W', h) /\ ferror (file W') = true).
Proof.
  intros c W h I P. split; intros Sc; [|apply fputwc_bad; assumption].
  destruct (fputwc_any c W h P Sc) as (k & W' & h' & E & K & _ & _ & D & FE & _ & X). exists k, W', h'. do 4 (split; [assumption|]). intros S. apply X. exact S.
Qed.
Print Assumptions C99_fputwc.
(** fputws on a regular file writes the encoding of the string, up to the first character that is none *)
Theorem C99_fputws : forall s W h, 0 <= pos h -> script h = [] -> Forall scalar s ->
  let place := if append h then length (data h) else Z.to_nat (pos h) in
  (exists W' h', fputws s W h = (0, W', h') /\ ferror (file W') = ferror (file W) /\ overwritten (data h) place (utf8_string s) (data h')) /\
  (forall c t, is_i32 c -> ~ scalar c ->
     exists W' h', fputws (s ++ c :: t) W h = (-1, W', h') /\ ferror (file W') = true /\ overwritten (data h) place (utf8_string s) (data h')).
Proof.
  intros s W h P S Hs place. split.
  - destruct (fputws_app s W h [] P S Hs) as (W' & h' & E & _ & _ & _ & FE & OV & _). rewrite app_nil_r in E. exists W', h'. auto.
  - intros c t I N. destruct (fputws_app s W h (c :: t) P S Hs) as (W' & h' & E & _ & _ & _ & FE & OV & _). cbn [fputws] in E.
    destruct (fputwc_bad c W' h' I N) as (W2 & E2 & FE2). rewrite E2 in E. exists W2, h'. auto.
Qed.
Print Assumptions C99_fputws.
(** What fputws wrote to an empty file, the input functions see again *)
Theorem C99_roundtrip : forall s, Forall scalar s -> exists W' h', fputws s (new_wfile 0) (mk_host [] 0 false []) = (0, W', h') /\
  shows (new_wfile 0) (mk_host (data h') 0 false []) (mk_wview None s false false).
Proof.
  intros s Hs. destruct (proj1 (C99_fputws s (new_wfile 0) (mk_host [] 0 false []) ltac:(cbn; lia) eq_refl Hs)) as (W' & h' & E & _ & OV). exists W', h'. split; [exact E|].
  assert (D : data h' = utf8_string s).
  { apply (overwritten_unique [] 0 (utf8_string s)); [exact OV|]. split; [cbn [length Nat.max]; destruct (Nat.eqb_spec (length (utf8_string s)) 0); lia|]. intros i I. replace ((0 <=? i)%nat && (i <? 0 + length (utf8_string s))%nat) with true by lia. f_equal. lia. }
  rewrite D. unfold shows. cbn. split; [exact Hs|]. split; reflexivity || auto.
Qed.
Print Assumptions C99_roundtrip.

(** fwide reports the orientation, which is decided once *)
Theorem C99_orientation : forall W mode, let '(o, W') := fwide W mode in orient W' = o /\ file W' = file W /\
  (orient W <> 0 -> o = orient W) /\ (orient W = 0 -> o = Z.sgn mode) /\
  (forall h r W1 h1, fgetwc W h = Ok (r, W1, h1) -> orient W1 = if orient W =? 0 then 1 else orient W) /\
  (forall c h, orient (snd (fst (fputwc c W h))) = if orient W =? 0 then 1 else orient W).
Proof.
  intros W mode. cbn [fwide]. split; [reflexivity|]. split; [reflexivity|]. split; [intros N; replace (orient W =? 0) with false by lia; reflexivity|].
  split. { intros ->. cbn [Z.eqb andb]. destruct (Z.eqb_spec mode 0) as [->|]; cbn [negb]; [reflexivity|]. destruct (Z.ltb_spec 0 mode); lia. }
  split.
  - intros h r W1 h1. unfold fgetwc. cbn [widen file]. destruct (negb _); [intros [= _ <- _]; reflexivity|].
    destruct (fgetwc_loop 8 0 (file W) h) as [((c & F) & h2)| |]; cbn [bind]; [|discriminate|discriminate]. intros [= _ <- _]. reflexivity.
  - intros c h. unfold fputwc. destruct (wret (wcrtomb c) =? SIZE_M1); [reflexivity|]. destruct (stdio_write (file (widen W)) h (wout (wcrtomb c))) as ((n & F) & h2).
    destruct (n =? wret (wcrtomb c)); reflexivity.
Qed.
Print Assumptions C99_orientation.

Ltac easy_sane := unfold sane; cbn [new_wfile new_file file avail cache pos data state]; unfold CACHE;
  repeat split; try (vm_compute; congruence); repeat (apply Forall_cons; [unfold is_byte; lia|]); try apply Forall_nil.
(** "aé\n€" : fgetws of 10, ungetwc 'x', fgetwc, fgetwc, fgetwc *)
Definition wdemo : host := mk_host [97; 0xC3; 0xA9; 10; 0xE2; 0x82; 0xAC] 0 false [].
Example C99_ex : sane (file (new_wfile 0)) wdemo /\ healthy wdemo /\ shows (new_wfile 0) wdemo (mk_wview None [97; 0xE9; 10; 0x20AC] false false) /\
  Forall wlegal [WGets 10; WUngetc 120; WGetc; WGetc; WGetc; WFeof] /\
  fst (wreference_run [WGets 10; WUngetc 120; WGetc; WGetc; WGetc; WFeof] (mk_wview None [97; 0xE9; 10; 0x20AC] false false)) =
    [WLine (Some [97; 0xE9; 10]); WInt 120; WInt 120; WInt 0x20AC; WInt (-1); WFlag true].
Proof.
  split; [easy_sane|]. split; [constructor|].
  split; [unfold shows; cbn; repeat split; auto; repeat constructor; unfold scalar; lia|]. split; [repeat constructor; unfold wlegal, is_i32, INT_MIN, INT_MAX; lia|reflexivity].
Qed.
Example C99_out_ex : fputws [0xE9; 0x20AC] (new_wfile 0) (mk_host [1] 1 false []) = (0, mk_wfile (new_file 0) 1 0, mk_host [1; 0xC3; 0xA9; 0xE2; 0x82; 0xAC] 6 false []) /\
  ~ scalar 0xD800 /\ ill_formed [0xFF; 65] /\ incomplete [0xE2; 0x82].
Proof.
  split; [vm_compute; reflexivity|]. split; [unfold scalar; lia|]. split.
  - split; [|split; [discriminate|]].
    + intros p c r E Sq. inversion Sq; subst; unfold bt in *; cbn [app] in E; injection E as E _; lia.
    + intros (l & t & E & _ & L). injection E as <- _. vm_compute in L. discriminate.
  - exists 0xE2, [0x82]. repeat split; try (vm_compute; congruence). constructor; [unfold bt; lia|constructor].
Qed.

(** ** what is not as C requires *)
(** a file ending within a character is reported like a clean end of file: the error indicator is not set *)
Theorem C99_truncated_character_refuted : exists W h w W' h', sane (file W) h /\ script h = [] /\ incomplete (upcoming (seen (file W) h)) /\
  fgetwc W h = Ok (w, W', h') /\ w = WEOF /\ ferror (file W') = false.
Proof.
  exists (new_wfile 0), (mk_host [0xC3] 0 false []). do 3 eexists. split; [easy_sane|]. split; [reflexivity|].
  split; [exists 0xC3, []; repeat split; constructor|]. split; [vm_compute; reflexivity|]. split; vm_compute; reflexivity.
Qed.
Print Assumptions C99_truncated_character_refuted.
(** a read error sets the end-of-file indicator as well *)
Theorem C99_read_error_refuted : exists W h w W' h', sane (file W) h /\ feof (file W) = false /\ rest (seen (file W) h) <> [] /\ script h = [Fail] /\
  fgetwc W h = Ok (w, W', h') /\ w = WEOF /\ ferror (file W') = true /\ feof (file W') = true.
Proof.
  exists (new_wfile 0), (mk_host [65; 66] 0 false [Fail]). do 3 eexists. split; [easy_sane|].
  split; [reflexivity|]. split; [discriminate|]. split; [reflexivity|]. split; [vm_compute; reflexivity|]. repeat split; vm_compute; reflexivity.
Qed.
Print Assumptions C99_read_error_refuted.
(** rewind (fseek, fsetpos) does not discard the character pushed back by ungetwc; clearerr does *)
Theorem C99_reposition_refuted : exists W h c, sane (file W) h /\ 
  let W1 := snd (ungetwc c W) in
  (let '(F, h2) := rewind (file W1) h in exists W' h', fgetwc (set_file W1 F) h2 = Ok (c, W', h') /\ hd 0 (data h) <> c) /\
  (exists W' h' d, fgetwc (set_file W1 (clearerr (file W1))) h = Ok (d, W', h') /\ d <> c).
Proof.
  exists (new_wfile 0), (mk_host [65; 66] 0 false []), 120. split; [easy_sane|].
  split; [do 2 eexists; split; [vm_compute; reflexivity|discriminate]|do 3 eexists; split; [vm_compute; reflexivity|discriminate]].
Qed.
Print Assumptions C99_reposition_refuted.
(** the byte functions do not give the stream its byte orientation *)
Theorem C99_byte_orientation_refuted : exists W h, sane (file W) h /\ orient W = 0 /\ forall c F h', getc_ (file W) h = Ok (c, F, h') -> c = 65 /\ fst (fwide (set_file W F) 0) = 0.
Proof.
  exists (new_wfile 0), (mk_host [65; 66] 0 false []). split; [easy_sane|]. split; [reflexivity|].
  intros c F h' E. vm_compute in E. injection E as <- <- _. split; reflexivity.
Qed.
Print Assumptions C99_byte_orientation_refuted.
