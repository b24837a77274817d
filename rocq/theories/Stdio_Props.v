(** Properties of streams: C52-C57, C85-C89. *)
From Verif Require Import Base Stdio_Model Stdio_Spec Stdio_Proof Stdio_Pos_Proof.
Open Scope Z_scope.

(** A stream on a regular file holding "ab", newline, "c", newline, "d", at its start, nothing pushed back *)
Definition demo_host : host := mk_host [97; 98; 10; 99; 10; 100] 0 false [].
Lemma demo_sane : sane (new_file 0) demo_host.
Proof.
  unfold sane, new_file, demo_host, CACHE. cbn. repeat split; try lia; repeat constructor; unfold is_byte; lia.
Qed.

(** C52.  Any sequence of input calls on a regular file behaves as the reference stream: pushed-back characters
    come first, in reverse order, and reading them restores the position. *)
Theorem C52_input_calls_follow_the_reference_stream : forall os F h, sane F h -> script h = [] -> Forall legal os ->
  exists rs F' h', run os F h = Ok (rs, F', h') /\ sane F' h' /\ data h' = data h /\
    reference_run os (seen F h) = (rs, seen F' h').
Proof.
  intros os F h S H L. destruct (run_ref os F h S H L) as (rs & F' & h' & E & S' & _ & D & _ & R). eauto 10.
Qed.
Print Assumptions C52_input_calls_follow_the_reference_stream.
Example C52_ex : Forall legal [Getc; Ungetc 65; Ungetc 66; Getc; Fread 2 2; Feof; Getc; Getc; Getc; Feof; Ungetc 67; Feof; Getc] /\
  fst (reference_run [Getc; Ungetc 65; Ungetc 66; Getc; Fread 2 2; Feof; Getc; Getc; Getc; Feof; Ungetc 67; Feof; Getc] (seen (new_file 0) demo_host)) =
  [Int 97; Int 65; Int 66; Int 66; Items [65; 98; 10; 99] 2; Flag false; Int 10; Int 100; Int EOF; Flag true; Int 67; Flag false; Int 67].
Proof. split; [repeat constructor; unfold is_byte; lia|vm_compute; reflexivity]. Qed.

(** Pushing back and reading returns the character and the same view, apart from the end-of-file indicator; room
    for sixteen characters is guaranteed. *)
Theorem C52_ungetc_then_getc : forall c F h, sane F h -> is_byte c -> (length (pushed (seen F h)) < 16)%nat ->
  exists F1 F2, ungetc c F = (c, F1) /\ getc_ F1 h = Ok (c, F2, h) /\
    pushed (seen F2 h) = pushed (seen F h) /\ rest (seen F2 h) = rest (seen F h) /\ where_ (seen F2 h) = where_ (seen F h) /\
    feof F2 = false.
Proof.
  intros c F h S B L. pose proof (pushed_len F h S) as PL.
  destruct (ungetc_ok c F h S B) as (F1 & E & S1 & P1 & R1 & W1 & FO & FE & _); [unfold CACHE; lia|].
  exists F1. pose proof (pushed_len F1 h S1) as PL1. rewrite P1 in PL1. cbn [length] in PL1.
  pose proof S1 as (A & C & _). unfold getc_.
  replace (avail F1 =? 0) with false by lia. cbn [negb].
  replace ((0 <=? CACHE - avail F1) && (CACHE - avail F1 <? CACHE)) with true by lia.
  pose proof (cache_head F1 ltac:(lia) C) as H. change (skipn (Z.to_nat (CACHE - avail F1)) (cache F1)) with (pushed (seen F1 h)) in H.
  rewrite P1 in H. injection H. intros HT HN. exists (mk_file (state F1) (avail F1 - 1) (cache F1)). split; [exact E|]. split; [rewrite <- HN; reflexivity|].
  split; [exact (eq_sym HT)|]. split; [exact R1|]. split; [|exact FO]. cbn [seen where_ avail] in W1 |- *. lia.
Qed.
Print Assumptions C52_ungetc_then_getc.
Example C52_ungetc_ex : exists F, is_byte 255 /\ (length (pushed (seen F demo_host)) < 16)%nat /\ sane F demo_host.
Proof. exists (new_file 0). split; [unfold is_byte; lia|]. split; [vm_compute; lia|apply demo_sane]. Qed.

(** Whatever the host answers (errors, short reads), no byte is lost, duplicated or reordered. *)
Theorem C52_no_byte_lost : forall os F h, sane F h -> Forall legal os ->
  exists rs F' h', run os F h = Ok (rs, F', h') /\ sane F' h' /\ data h' = data h /\
    accounts os rs (upcoming (seen F h)) (upcoming (seen F' h')).
Proof. apply run_accounts. Qed.
Print Assumptions C52_no_byte_lost.
Example C52_lost_ex : let h := mk_host (data demo_host) 0 false [Grant 1; Fail; Grant 2] in
  sane (new_file 0) h /\ exists F' h', run [Fread 1 4; Getc; Ungetc 98; Fread 1 3; Fgets 9] (new_file 0) h =
    Ok ([Items [97] 1; Int EOF; Int 98; Items [98; 98; 10] 3; Line (Some [99; 10])], F', h').
Proof. split; [exact demo_sane|]. do 2 eexists. vm_compute. reflexivity. Qed.

(** C53 *)
(** Full statement: for every size, count and host behaviour, fread returns the number of complete items and sets
    end-of-file only at the end of the source.  It fails in three ways. *)
Theorem C53_fread_zero_size_refuted : exists F h count, sane F h /\ script h = [] /\ fread F h 0 count = UB.
Proof. exists (new_file 0), demo_host, 3. split; [apply demo_sane|]. split; [reflexivity|vm_compute; reflexivity]. Qed.
Print Assumptions C53_fread_zero_size_refuted.
Theorem C53_fread_short_read_refuted : exists F h size count l n F' h', sane F h /\ healthy h /\
  fread F h size count = Ok (l, n, F', h') /\ n < count /\ feof F = false /\ feof F' = true /\ upcoming (seen F' h') <> [].
Proof.
  exists (new_file 0), (mk_host (data demo_host) 0 false [Grant 3]), 1, 5. do 4 eexists.
  split; [exact demo_sane|]. split; [constructor; [exists 3; split; [reflexivity|lia]|constructor]|].
  split; [vm_compute; reflexivity|]. repeat split; vm_compute; congruence.
Qed.
Print Assumptions C53_fread_short_read_refuted.
(** 0x10000 * 0x10001 wraps to 0x10000: one item is reported and only its bytes are asked for. *)
Theorem C53_fread_overflow_refuted : exists size count, 0 < size < 2^32 /\ 0 < count < 2^32 /\ 
  forall F h, sane F h -> exists l n F' h', fread F h size count = Ok (l, n, F', h') /\ n <= 1 < count.
Proof.
  exists 0x10000, 0x10001. split; [lia|]. split; [lia|]. intros F h S. unfold fread. change (u32 (0x10000 * 0x10001)) with 0x10000.
  destruct (fread_any F h 0x10000 S ltac:(lia)) as (l & F1 & h1 & E & _ & _ & _ & _ & L & _). rewrite E. cbn [Z.eqb].
  do 4 eexists. split; [reflexivity|]. split; [|lia]. apply Z.div_le_upper_bound; lia.
Qed.
Print Assumptions C53_fread_overflow_refuted.
(** True for nonzero sizes with a product below 2^32: the count is the number of complete items among the bytes
    delivered, which are the next bytes of the stream; a regular file delivers all it has, and end-of-file is set
    exactly when it has too few. *)
Theorem C53_fread_partial : forall F h size count, sane F h -> 0 < size -> 0 <= count -> size * count < 2^32 ->
  exists l F' h', fread F h size count = Ok (l, Z.of_nat (length l) / size, F', h') /\
    upcoming (seen F h) = l ++ upcoming (seen F' h') /\ Z.of_nat (length l) <= size * count /\
    (script h = [] -> l = firstn (Z.to_nat (size * count)) (upcoming (seen F h)) /\
                      feof F' = (feof F || (Z.of_nat (length (upcoming (seen F h))) <? size * count))).
Proof.
  intros F h size count S Z1 Z2 Z3. unfold fread. assert (u32 (size * count) = size * count) as -> by (unfold u32; apply Z.mod_small; nia).
  destruct (fread_any F h (size * count) S ltac:(nia)) as (l & F' & h' & E & S' & D & A & U & L & B & W & _).
  rewrite E. replace (size =? 0) with false by lia. exists l, F', h'. split; [reflexivity|]. split; [exact U|]. split; [exact L|].
  intros SC. destruct (fread_full F h (size * count) S ltac:(nia) SC) as (F1 & h1 & E1 & _ & _ & _ & _ & V).
  rewrite E in E1. injection E1. intros <- <- ->. split; [reflexivity|]. change (feof F') with (at_eof (seen F' h')). rewrite V.
  unfold take. cbn [snd at_eof]. rewrite Z2Nat.id by nia. reflexivity.
Qed.
Print Assumptions C53_fread_partial.
Example C53_fread_ex : exists F' h', fread (new_file 0) demo_host 4 2 = Ok (data demo_host, 1, F', h') /\ feof F' = true.
Proof. do 2 eexists. split; vm_compute; reflexivity. Qed.
(** fwrite: the count returned is that of the complete items that reached the file. *)
Theorem C53_fwrite_zero_size_refuted : exists F h count, sane F h /\ script h = [] /\ fwrite F h [] 0 count = UB.
Proof. exists (new_file 0), demo_host, 3. split; [apply demo_sane|]. split; [reflexivity|vm_compute; reflexivity]. Qed.
Print Assumptions C53_fwrite_zero_size_refuted.
Theorem C53_fwrite_partial : forall F h b size count, 0 <= pos h -> 0 < size -> 0 <= count -> size * count < 2^32 ->
  size * count <= Z.of_nat (length b) ->
  exists k F' h', fwrite F h b size count = Ok (Z.of_nat k / size, F', h') /\ Z.of_nat k <= size * count /\
    overwritten (data h) (if append h then length (data h) else Z.to_nat (pos h)) (firstn k b) (data h') /\
    (script h = [] -> Z.of_nat k = size * count) /\ (Z.of_nat k < size * count -> ferror F' = true).
Proof.
  intros F h b size count P Z1 Z2 Z3 Z4. unfold fwrite. assert (u32 (size * count) = size * count) as -> by (unfold u32; apply Z.mod_small; nia).
  replace (Z.of_nat (length b) <? size * count) with false by lia.
  set (l := firstn (Z.to_nat (size * count)) b). assert (Z.of_nat (length l) = size * count) as LL by (unfold l; rewrite firstn_length; nia).
  destruct (write_any F h l P) as (k & F1 & h1 & E & KL & A1 & _ & D1 & P1 & FE & FK & FS & SS & FX).
  rewrite E. replace (size =? 0) with false by lia. exists k, F1, h1. split; [reflexivity|]. split; [lia|]. split.
  - fold (out_pos h). rewrite D1. replace (firstn k b) with (firstn k l); [apply patch_overwritten|].
    unfold l. rewrite firstn_firstn. f_equal. lia.
  - split; [intros S; rewrite (FS S); exact LL|]. intros K. apply FE. lia.
Qed.
Print Assumptions C53_fwrite_partial.
Example C53_fwrite_ex : exists F' h', fwrite (new_file 0) (mk_host [1;2;3;4] 1 false [Grant 5]) [11;12;13;14;15;16] 2 3 = Ok (2, F', h') /\
  data h' = [1;11;12;13;14;15].
Proof. do 2 eexists. split; vm_compute; reflexivity. Qed.

(** C54.  fgets, for every host that does not fail (however it splits its answers). *)
Theorem C54_fgets : forall n F h, sane F h -> healthy h -> 1 <= n ->
  let q := upcoming (seen F h) in let l := line 10 (Z.to_nat (n - 1)) q in
  exists F' h', fgets n F h = Ok (if (n =? 1) || negb (length q =? 0)%nat then Some l else None, F', h') /\
    sane F' h' /\ healthy h' /\ upcoming (seen F' h') = skipn (length l) q /\ data h' = data h.
Proof.
  intros n F h S H N q l. unfold fgets. replace (n <=? 0) with false by lia.
  destruct (fgets_healthy (Z.to_nat (n - 1)) [] F h S H) as (F2 & h2 & E2 & S2 & H2 & D2 & A2 & SC2 & U2 & P2 & W2 & FO2 & FE2).
  fold q in E2, U2. fold l in E2, U2. exists F2, h2. split; [|auto]. rewrite E2. f_equal. f_equal. f_equal.
  cbn [rev app]. unfold l in *. destruct (Z.eqb_spec n 1) as [->|N1].
  - change (Z.to_nat (1 - 1)) with 0%nat. cbn. now destruct q.
  - cbn [orb]. destruct (Z.to_nat (n - 1)) eqn:K; [lia|]. destruct q as [|c q']; reflexivity.
Qed.
Print Assumptions C54_fgets.
(** What the line is: a prefix of the input, with no newline before its last byte; and if shorter than n-1 it ends
    with the newline or the input. *)
Theorem C54_line_is_the_next_line : forall d n q, exists m, q = line d n q ++ m /\ (length (line d n q) <= n)%nat /\
  ~ In d (removelast (line d n q)) /\
  ((length (line d n q) < n)%nat -> ends_with d (line d n q) \/ m = []).
Proof.
  intros d n. induction n as [|n IH]; intros q.
  - exists q. cbn. split; [reflexivity|]. split; [lia|]. split; [tauto|lia].
  - destruct q as [|c q]; [exists []; cbn; split; [reflexivity|]; split; [lia|]; tauto|]. cbn [line].
    destruct (Z.eqb_spec c d) as [->|N].
    + exists q. cbn. split; [reflexivity|]. split; [lia|]. split; [tauto|]. intros _. left. exists []. reflexivity.
    + destruct (IH q) as (m & E & L & R & T). exists m. cbn [app length]. split; [now rewrite <- E|]. split; [lia|]. split.
      * cbn [removelast]. destruct (line d n q) eqn:Q; [tauto|]. intros [I|I]; [congruence|]. now apply R.
      * intros LT. destruct T as [(x & X)|X]; [lia| |right; exact X]. left. exists (c :: x). now rewrite X.
Qed.
Print Assumptions C54_line_is_the_next_line.
(** Reading a whole file line by line: the lines, in order, make up the file. *)
Fixpoint read_lines (k : nat) (n : Z) (F : FILE) (h : host) : res (list (list Z) * FILE * host) :=
  match k with
  | O => Ok ([], F, h)
  | S k => do (l, F, h) <- fgets n F h;
           match l with
           | None => Ok ([], F, h)
           | Some l => do (ls, F, h) <- read_lines k n F h; Ok (l :: ls, F, h)
           end
  end.
Theorem C54_all_lines : forall n k F h, sane F h -> healthy h -> 2 <= n -> (length (upcoming (seen F h)) < k)%nat ->
  exists ls F' h', read_lines k n F h = Ok (ls, F', h') /\ concat ls = upcoming (seen F h) /\ upcoming (seen F' h') = [].
Proof.
  intros n k. induction k as [|k IH]; intros F h S H N L; [lia|]. cbn [read_lines].
  destruct (C54_fgets n F h S H ltac:(lia)) as (F1 & h1 & E & S1 & H1 & U & _). rewrite E. cbn [bind].
  replace (n =? 1) with false by lia. cbn [orb]. destruct (upcoming (seen F h)) as [|c q] eqn:Q; cbn [length Nat.eqb negb].
  - do 3 eexists. split; [reflexivity|]. split; [reflexivity|]. rewrite U. apply skipn_nil.
  - destruct (Z.to_nat (n - 1)) as [|m] eqn:M; [lia|]. set (l := line 10 (Datatypes.S m) (c :: q)) in *.
    assert (1 <= length l)%nat as L1 by (unfold l; cbn; lia).
    destruct (IH F1 h1 S1 H1 N) as (ls & F2 & h2 & E2 & C2 & U2); [rewrite U, skipn_length; cbn [length] in *; lia|].
    rewrite E2. cbn [bind]. do 3 eexists. split; [reflexivity|]. split; [|exact U2]. cbn [concat]. rewrite C2, U.
    destruct (line_prefix 10 (Datatypes.S m) (c :: q)) as [r R]. fold l in R. clearbody l. rewrite R.
    now rewrite skipn_app, Nat.sub_diag, skipn_all.
Qed.
Print Assumptions C54_all_lines.
Example C54_ex : exists F' h', read_lines 9 3 (new_file 0) (mk_host (data demo_host) 0 false [Grant 1; Grant 4]) =
  Ok ([[97; 98]; [10]; [99; 10]; [100]], F', h').
Proof. do 2 eexists. vm_compute. reflexivity. Qed.

(** C55.  getdelim while allocation succeeds, for lines below 2^31 - 1 bytes. *)
Theorem C55_getdelim : forall d (null : bool) buf cap mem F h, sane F h -> healthy h -> Forall (eq true) mem ->
  0 <= cap < 2^32 -> (if null then buf = [] else Z.of_nat (length buf) = cap) ->
  let q := upcoming (seen F h) in let l := line d (length q) q in Z.of_nat (length q) < 2^31 - 1 ->
  exists buf' cap' F' h',
    getdelim (length q + 1) d null buf cap mem F h = Ok (if (length q =? 0)%nat then -1 else Z.of_nat (length l), buf', cap', F', h') /\
    Z.of_nat (length buf') = cap' /\ upcoming (seen F' h') = skipn (length l) q /\ sane F' h' /\
    (q <> [] -> (length l + 1 <= length buf')%nat /\ firstn (length l + 1) buf' = l ++ [0]).
Proof.
  intros d null buf cap mem F h S H M C B q l Q.
  assert ((length q =? 0)%nat = (0 + length l =? 0)%nat) as QL by (unfold l; destruct q; reflexivity).
  assert (forall buf1 cap1 mem1, Forall (eq true) mem1 -> Z.of_nat (length buf1) = cap1 -> 0 < cap1 < 2^32 ->
    exists buf' cap' F' h',
    getdelim_loop (length q + 1) d 0 buf1 cap1 mem1 F h = Ok (if (length q =? 0)%nat then -1 else Z.of_nat (length l), buf', cap', F', h') /\
    Z.of_nat (length buf') = cap' /\ upcoming (seen F' h') = skipn (length l) q /\ sane F' h' /\
    (q <> [] -> (length l + 1 <= length buf')%nat /\ firstn (length l + 1) buf' = l ++ [0])) as G.
  { intros buf1 cap1 mem1 M1 L1 C1.
    destruct (getdelim_ok (length q + 1) d 0 buf1 cap1 mem1 F h S H M1 ltac:(fold q; lia) L1 ltac:(lia) ltac:(fold q; lia))
      as (b & c & F1 & h1 & E & S1 & _ & _ & CB & _ & NL & FF & U). fold q in E, NL, FF, U. fold l in E, NL, FF, U.
    exists b, c, F1, h1. rewrite E, QL. split; [reflexivity|]. split; [lia|]. split; [exact U|]. split; [exact S1|].
    intros NQ. split; [lia|]. cbn [plus] in FF. rewrite FF; [reflexivity|]. unfold l. destruct q; [congruence|discriminate]. }
  unfold getdelim. destruct (null || (cap =? 0)) eqn:NC.
  - assert (buf = []) as ->. { destruct null; [exact B|]. cbn in NC. destruct buf; [reflexivity|cbn [length] in B; lia]. }
    assert (length (realloc_to [] 128) = 128%nat) as L1 by reflexivity.
    destruct M as [|x mem Hx M]; [|subst x]; apply G; try lia; [constructor|exact M].
  - apply G; auto. destruct null; [discriminate|exact B]. destruct null; [discriminate|]. cbn in NC. lia.
Qed.
Print Assumptions C55_getdelim.
Example C55_ex : exists cap' buf' F' h', getdelim 7 10 false [1] 1 [] (new_file 0) demo_host = Ok (3, buf', cap', F', h') /\
  buf' = [97; 98; 10; 0] /\ cap' = 4 /\ upcoming (seen F' h') = [99; 10; 100].
Proof. do 4 eexists. repeat split; vm_compute; reflexivity. Qed.
(** A failed allocation loses the character just read. *)
Theorem C55_no_memory_loses_a_byte : exists F h cap buf F' h', sane F h /\ healthy h /\
  getdelim 9 10 false buf cap [false] F h = Ok (-1, buf, cap, F', h') /\
  exists c, upcoming (seen F h) = 97 :: c :: upcoming (seen F' h') /\ firstn 1 buf = [97] .
Proof.
  exists (new_file 0), demo_host, 2, [97; 0]. do 2 eexists. split; [apply demo_sane|]. split; [constructor|]. split; [vm_compute; reflexivity|].
  exists 98. split; vm_compute; reflexivity.
Qed.
Print Assumptions C55_no_memory_loses_a_byte.

(** C56.  A mode string of the standard's form asks the host for exactly what the standard says. *)
Theorem C56_mode_partial : forall mode i, standard_intent mode = Some i ->
  exists r, open_flags (modeflags_ mode) = Some r /\ requested r = i /\
    fopen_state (modeflags_ mode) = (if appending i then appbit_ else 0).
Proof. apply mode_ok. Qed.
Print Assumptions C56_mode_partial.
Example C56_ex : standard_intent [97; 98; 43] = Some (mk_intent true true true false true false) (* "ab+" *) /\
  standard_intent [119; 120] = Some (mk_intent false true true true false true) (* "wx" *) /\
  standard_intent [114] = Some (mk_intent true false false false false false) (* "r" *).
Proof. repeat split; reflexivity. Qed.
(** Unrecognised modes are not rejected: "q" opens for reading, and "q+" for reading and writing. *)
Theorem C56_bad_mode_rejected_refuted : exists mode, standard_intent mode = None /\
  option_map requested (open_flags (modeflags_ mode)) = Some (mk_intent true true false false false false).
Proof. exists [113; 43]. split; vm_compute; reflexivity. Qed.
Print Assumptions C56_bad_mode_rejected_refuted.

(** C57.  clearerr also forgets that the stream is in append mode, which ftell can see. *)
Theorem C57_clearerr_refuted : exists F h, sane F h /\ append h = true /\ state F = fopen_state (modeflags_ [97; 43]) /\
  fst (fst (ftello F h)) = 6 /\ fst (fst (ftello (clearerr F) h)) = 0.
Proof. exists (new_file 128), (mk_host (data demo_host) 0 true []). split; [|repeat split; vm_compute; reflexivity].
  pose proof demo_sane as (A & B & C & D & E & _). repeat split; auto; cbn; lia. Qed.
Print Assumptions C57_clearerr_refuted.
(** Otherwise: both indicators are reset and the unread input and the position are kept; and if the stream is not
    in append mode and has no wide pushback, every other state bit is kept too. *)
Theorem C57_clearerr_partial : forall F h, sane F h ->
  seen (clearerr F) h = mk_view (pushed (seen F h)) (rest (seen F h)) (where_ (seen F h)) false false /\
  ((forall j, Z.testbit (state F) j = true -> j = 4 \/ j = 5) ->
   forall j, 0 <= j -> j <> 4 -> j <> 5 -> Z.testbit (state (clearerr F)) j = Z.testbit (state F) j).
Proof.
  intros F h _. split; [reflexivity|]. intros H j J N4 N5. cbn. rewrite Z.bits_0. destruct (Z.testbit (state F) j) eqn:E; [|reflexivity].
  apply H in E. lia.
Qed.
Print Assumptions C57_clearerr_partial.
Example C57_ex : sane (new_file 48) demo_host /\ feof (new_file 48) = true /\ ferror (new_file 48) = true /\ forall j, Z.testbit 48 j = true -> j = 4 \/ j = 5.
Proof.
  split; [pose proof demo_sane as (A & B & C & D & E & _); repeat split; auto; cbn; lia|]. split; [reflexivity|]. split; [reflexivity|]. intros j H.
  destruct (Z_lt_ge_dec j 0); [rewrite Z.testbit_neg_r in H by lia; discriminate|].
  destruct (Z_lt_ge_dec j 6); [|rewrite Z.bits_above_log2 in H by (change (Z.log2 48) with 5; lia); discriminate].
  assert (j = 0 \/ j = 1 \/ j = 2 \/ j = 3 \/ j = 4 \/ j = 5) as C by lia. destruct C as [->|[->|[->|[->|C]]]]; try discriminate; auto.
Qed.

(** C85.  fseek moves to the position asked for, relative to the start, the position seen by the program, or the end. *)
Theorem C85_fseek : forall F h offset origin, sane F h -> 0 <= origin <= 2 ->
  let p := offset + (if origin =? 0 then 0 else if origin =? 1 then where_ (seen F h) else Z.of_nat (length (data h))) in
  0 <= p < 2^31 ->
  exists F' h', fseeko F h offset origin = (0, F', h') /\ data h' = data h /\
    seen F' h' = mk_view [] (skipn (Z.to_nat p) (data h)) p false (in_error (seen F h)).
Proof.
  intros F h offset origin S O p P. destruct (seek_ok F h offset origin S O P) as (F' & h' & E & _ & D & _ & _ & _ & V & _). eauto.
Qed.
Print Assumptions C85_fseek.
Example C85_fseek_ex : let F := snd (ungetc 98 (new_file 0)) in let h := mk_host (data demo_host) 2 false [] in
  sane F h /\ 0 <= 1 + where_ (seen F h) < 2^31 /\ let '(r, F, h) := fseeko F h 1 1 in upcoming (seen F h) = [10; 99; 10; 100].
Proof.
  cbn zeta. split; [|split; [split; vm_compute; congruence|vm_compute; reflexivity]].
  vm_compute. repeat (first [discriminate | reflexivity | constructor]).
Qed.
(** ftell, then anything, then fseek to the position told: the stream is back where it was. *)
Theorem C85_tell_then_seek : forall os F h, sane F h -> script h = [] -> Forall legal os -> Z.testbit (state F) 7 = false -> pos h < 2^31 ->
  0 <= where_ (seen F h) -> upcoming (seen F h) = skipn (Z.to_nat (where_ (seen F h))) (data h) ->
  exists p F1 rs F2 h2 F3 h3, ftello F h = (p, F1, h) /\ run os F1 h = Ok (rs, F2, h2) /\ fseeko F2 h2 p 0 = (0, F3, h3) /\
    upcoming (seen F3 h3) = upcoming (seen F h) /\ where_ (seen F3 h3) = where_ (seen F h) /\ feof F3 = false.
Proof.
  intros os F h S SC L AP PM W U. destruct (tell_ok F h S AP PM) as (F1 & E1 & S1 & P1 & R1 & W1 & _).
  destruct (run_ref os F1 h S1 SC L) as (rs & F2 & h2 & E2 & S2 & SC2 & D2 & A2 & _).
  pose proof S as (A & _).
  destruct (seek_ok F2 h2 (where_ (seen F h)) 0 S2 ltac:(lia)) as (F3 & h3 & E3 & _ & D3 & _ & _ & _ & V & _).
  { unfold target. cbn [Z.eqb]. rewrite Z.add_0_r. cbn [seen where_] in *. lia. }
  unfold target in V. cbn [Z.eqb] in V. rewrite Z.add_0_r in V.
  exists (where_ (seen F h)), F1, rs, F2, h2, F3, h3. split; [exact E1|]. split; [exact E2|]. split; [exact E3|].
  change (feof F3) with (at_eof (seen F3 h3)). rewrite V. unfold upcoming at 1. cbn [at_pos pushed rest where_ at_eof app]. now rewrite D2.
Qed.
Print Assumptions C85_tell_then_seek.
(** The same for fgetpos and fsetpos. *)
Theorem C85_getpos_setpos : forall os F h, sane F h -> script h = [] -> Forall legal os -> Z.testbit (state F) 7 = false -> pos h < 2^31 ->
  0 <= where_ (seen F h) -> upcoming (seen F h) = skipn (Z.to_nat (where_ (seen F h))) (data h) ->
  exists p F1 rs F2 h2 F3 h3, fgetpos F h = (0, p, F1, h) /\ run os F1 h = Ok (rs, F2, h2) /\ fsetpos F2 h2 p = (0, F3, h3) /\
    upcoming (seen F3 h3) = upcoming (seen F h) /\ where_ (seen F3 h3) = where_ (seen F h) /\ feof F3 = false.
Proof.
  intros os F h S SC L AP PM W U.
  destruct (C85_tell_then_seek os F h S SC L AP PM W U) as (p & F1 & rs & F2 & h2 & F3 & h3 & E1 & E2 & E3 & X).
  exists p, F1, rs, F2, h2, F3, h3. unfold fgetpos. rewrite E1.
  destruct (tell_ok F h S AP PM) as (F1' & E1' & _). rewrite E1 in E1'. injection E1'. intros _ ->.
  cbn [seen where_] in W. split; [replace (pos h - avail F =? -1) with false by lia; reflexivity|]. split; [exact E2|]. split; [|exact X]. exact E3.
Qed.
Print Assumptions C85_getpos_setpos.
Example C85_tell_ex : let h := mk_host (data demo_host) 3 false [] in let F := snd (ungetc 10 (new_file 0)) in
  upcoming (seen F h) = skipn (Z.to_nat (where_ (seen F h))) (data h) /\ where_ (seen F h) = 2.
Proof. split; vm_compute; reflexivity. Qed.
(** rewind *)
Theorem C85_rewind : forall F h, sane F h -> let '(F', h') := rewind F h in
  seen F' h' = mk_view [] (data h) 0 false false.
Proof.
  intros F h S. unfold rewind. destruct (seek_ok F h 0 0 S ltac:(lia)) as (F1 & h1 & E & S1 & D & _ & _ & A & V & _); [split; vm_compute; congruence|]. rewrite E.
  change (target F h 0 0) with 0 in V. pose proof S1 as (_ & C & _). rewrite seen_empty in V by assumption. cbn [at_pos] in V. unfold at_pos in V.
  injection V. intros FE FO P R. rewrite seen_empty by assumption. cbn [set_state state]. rewrite R, P, feof_bit, ferror_bit. cbn [state set_state].
  rewrite feof_bit in FO. cbn [Z.to_nat skipn]. f_equal.
  - change errbit_ with (2^5). rewrite Z.ldiff_spec, FO. reflexivity.
  - change errbit_ with (2^5). rewrite Z.ldiff_spec, Z.pow2_bits_true by lia. apply andb_false_r.
Qed.
Print Assumptions C85_rewind.
Example C85_rewind_ex : sane (new_file 48) demo_host.
Proof. apply C57_ex. Qed.

(** C86.  Asking for the position should not disturb the stream, and a seek that fails should have no effect. *)
Theorem C86_ftell_clears_eof_refuted : exists F h, sane F h /\ feof F = true /\
  let '(p, F', h') := ftello F h in 0 <= p /\ feof F' = false /\ upcoming (seen F' h') = [].
Proof.
  exists (new_file 16), (mk_host (data demo_host) 6 false []). split; [pose proof demo_sane as (A & B & C & D & E & _); repeat split; auto; cbn; lia|].
  split; [reflexivity|]. repeat split; vm_compute; congruence.
Qed.
Print Assumptions C86_ftell_clears_eof_refuted.
Theorem C86_ftell_moves_append_stream_refuted : exists F h, sane F h /\ state F = fopen_state (modeflags_ [97; 43]) /\
  let '(p, F', h') := ftello F h in upcoming (seen F h) = data h /\ upcoming (seen F' h') = [] /\ data h <> [].
Proof.
  exists (new_file 128), (mk_host (data demo_host) 0 true []). split; [pose proof demo_sane as (A & B & C & D & E & _); repeat split; auto; cbn; lia|].
  split; [reflexivity|]. repeat split; vm_compute; congruence.
Qed.
Print Assumptions C86_ftell_moves_append_stream_refuted.
(** A refused seek drops the characters pushed back ... *)
Theorem C86_failed_seek_drops_pushback_refuted : exists F h, sane F h /\
  let '(r, F', h') := fseeko F h (-5) 0 in r <> 0 /\ upcoming (seen F h) = 65 :: upcoming (seen F' h').
Proof.
  exists (snd (ungetc 65 (new_file 0))), demo_host.
  split; [|split; [vm_compute; discriminate|vm_compute; reflexivity]].
  vm_compute. repeat (first [discriminate | reflexivity | constructor]).
Qed.
Print Assumptions C86_failed_seek_drops_pushback_refuted.
(** ... and one refused because the new position exceeds a long has moved the stream. *)
Theorem C86_failed_seek_moves_refuted : exists F h, sane F h /\
  let '(r, F', h') := fseeko F h 0x7FFFFFFF 1 in r <> 0 /\ upcoming (seen F h) <> [] /\ pos h' = pos h + 0x7FFFFFFF.
Proof.
  exists (new_file 0), (mk_host (data demo_host) 1 false []). split; [pose proof demo_sane as (A & B & C & D & E & _); repeat split; auto; cbn; lia|].
  repeat split; vm_compute; congruence.
Qed.
Print Assumptions C86_failed_seek_moves_refuted.
(** True: outside append mode ftell changes nothing but the end-of-file indicator, and a seek before the start,
    with nothing pushed back, has no effect. *)
Theorem C86_ftell_partial : forall F h, sane F h -> Z.testbit (state F) 7 = false -> pos h < 2^31 ->
  exists F', ftello F h = (where_ (seen F h), F', h) /\
    seen F' h = mk_view (pushed (seen F h)) (rest (seen F h)) (where_ (seen F h)) false (in_error (seen F h)).
Proof.
  intros F h S A P. destruct (tell_ok F h S A P) as (F1 & E1 & S1 & P1 & R1 & W1 & FE & FO & _). exists F1. split; [exact E1|].
  destruct (seen F1 h) as [p r w e er] eqn:V. change (ferror F1) with (in_error (seen F1 h)) in FE. change (feof F1) with (at_eof (seen F1 h)) in FO.
  rewrite V in *. cbn [pushed rest where_ at_eof in_error] in P1, R1, W1, FE, FO. subst p r w e. now rewrite FE.
Qed.
Print Assumptions C86_ftell_partial.
Theorem C86_failed_seek_partial : forall F h offset origin, sane F h -> 0 <= origin <= 2 -> avail F = 0 ->
  offset + (if origin =? 0 then 0 else if origin =? 1 then where_ (seen F h) else Z.of_nat (length (data h))) < 0 ->
  fseeko F h offset origin = (1, F, h).
Proof. intros F h offset origin S O A T. rewrite (seek_negative F h offset origin S O T). rewrite <- A. now destruct F. Qed.
Print Assumptions C86_failed_seek_partial.
Example C86_ex : sane (new_file 0) demo_host /\ avail (new_file 0) = 0 /\ -1 + where_ (seen (new_file 0) demo_host) < 0.
Proof. split; [apply demo_sane|]. split; [reflexivity|vm_compute; reflexivity]. Qed.

(** C87.  Any sequence of output calls on a regular file puts their bytes, in order, at the position (or, in append
    mode, at the end) and reports success. *)
Theorem C87_output_calls : forall os F h, 0 <= pos h -> script h = [] -> Forall wlegal os ->
  exists F' h', wrun os F h = Ok (map success os, F', h') /\ ferror F' = ferror F /\
    (if append h then data h' = data h ++ concat (map bytes_of os)
     else overwritten (data h) (Z.to_nat (pos h)) (concat (map bytes_of os)) (data h')).
Proof.
  intros os F h P S L. destruct (wrun_full os F h P S L) as (F' & h' & E & A & FE & OV & OP). exists F', h'. split; [exact E|]. split; [exact FE|].
  unfold out_pos in OV. destruct (append h); [|exact OV]. set (b := concat (map bytes_of os)) in *.
  apply (overwritten_unique (data h) (length (data h)) b); [exact OV|].
  unfold overwritten. rewrite app_length. split; [destruct (Nat.eqb_spec (length b) 0); lia|]. intros i I.
  destruct (Nat.leb_spec (length (data h)) i); cbn [andb].
  - replace (i <? length (data h) + length b)%nat with true by lia. now rewrite app_nth2 by lia.
  - now rewrite app_nth1 by lia.
Qed.
Print Assumptions C87_output_calls.
Example C87_ex : Forall wlegal [Fputs [104; 105]; Putc 321; Fwrite [1; 2; 3; 4; 5; 6] 2 2; Puts [33]] /\
  overwritten [9; 9; 9] 2 [104; 105; 65; 1; 2; 3; 4; 33; 10] [9; 9; 104; 105; 65; 1; 2; 3; 4; 33; 10].
Proof.
  split; [repeat constructor; cbn; lia|]. split; [reflexivity|]. intros i I.
  do 11 (destruct i as [|i]; [reflexivity|]). cbn in I. lia.
Qed.

(** C88.  Success is reported only if everything was written, and the error indicator tells otherwise: true of
    every output call but puts, whatever the host answers. *)
Theorem C88_output_failures_partial : forall o F h, 0 <= pos h -> wlegal o -> match o with Puts _ => False | _ => True end ->
  exists r k F' h', wcall o F h = Ok (r, F', h') /\
    overwritten (data h) (if append h then length (data h) else Z.to_nat (pos h)) (firstn k (bytes_of o)) (data h') /\
    (k <= length (bytes_of o))%nat /\ (r = success o <-> k = length (bytes_of o)) /\ ((k < length (bytes_of o))%nat -> ferror F' = true).
Proof.
  intros o F h P L N. destruct (wcall_any o F h P L N) as (r & k & F' & h' & E & KL & A & P' & D & R & FE & _).
  exists r, k, F', h'. split; [exact E|]. split; [rewrite D; apply patch_overwritten|]. auto.
Qed.
Print Assumptions C88_output_failures_partial.
Example C88_ex : exists F' h', wcall (Fputs [1; 2; 3]) (new_file 0) (mk_host [] 0 false [Grant 2]) = Ok (-1, F', h') /\ data h' = [1; 2] /\ ferror F' = true.
Proof. do 2 eexists. split; [vm_compute; reflexivity|]. split; vm_compute; reflexivity. Qed.
Theorem C88_puts_refuted : exists s F h, wlegal (Puts s) /\ let '(r, F', h') := puts s F h in r = success (Puts s) /\ data h = [] /\ data h' = [10] /\ s <> [].
Proof. exists [104; 105], (new_file 0), (mk_host [] 0 false [Fail]). split; [cbn; lia|]. repeat split; vm_compute; congruence. Qed.
Print Assumptions C88_puts_refuted.
(** puts does set the error indicator. *)
Theorem C88_puts_partial : forall s F h, 0 <= pos h -> exists r k m F' h', puts s F h = (r, F', h') /\
  ((k < length s)%nat \/ (m < 1)%nat -> ferror F' = true) /\ (r = 10 <-> m = 1%nat) /\
  exists d p, overwritten (data h) (if append h then length (data h) else Z.to_nat (pos h)) (firstn k s) d /\ overwritten d p (firstn m [10]) (data h').
Proof.
  intros s F h P. destruct (puts_any s F h P) as (r & k & m & F1 & h1 & E & KL & ML & A1 & P1 & (hm & D1 & D2 & OM) & R & FE & X).
  exists r, k, m, F1, h1. split; [exact E|]. split; [exact FE|]. split; [exact R|]. exists (data hm), (out_pos hm).
  split; [rewrite D1|rewrite D2]; apply patch_overwritten.
Qed.
Print Assumptions C88_puts_partial.

(** C89.  ungetc returns the character pushed back, converted to unsigned char. *)
Theorem C89_ungetc_result_refuted : exists c F h, sane F h /\ avail F = 0 /\ is_i32 c /\
  let '(r, F') := ungetc c F in r = 321 /\ upcoming (seen F' h) = 65 :: upcoming (seen F h).
Proof. exists 321, (new_file 0), demo_host. split; [apply demo_sane|]. split; [reflexivity|]. split; [unfold is_i32, INT_MIN, INT_MAX; lia|]. split; vm_compute; reflexivity. Qed.
Print Assumptions C89_ungetc_result_refuted.
Theorem C89_ungetc_result_partial : forall c F h, sane F h -> is_byte c -> avail F < 16 ->
  exists F', ungetc c F = (c, F') /\ upcoming (seen F' h) = c :: upcoming (seen F h).
Proof.
  intros c F h S B A. destruct (ungetc_ok c F h S B A) as (F1 & E & S1 & P1 & R1 & _). exists F1. split; [exact E|].
  unfold upcoming. now rewrite P1, R1.
Qed.
Print Assumptions C89_ungetc_result_partial.
Example C89_ex : sane (new_file 0) demo_host /\ is_byte 65 /\ avail (new_file 0) < 16.
Proof. split; [apply demo_sane|]. split; [unfold is_byte; lia|vm_compute; reflexivity]. Qed.
