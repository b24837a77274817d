(** Properties C100 and C101: formatted wide output and input. *)
From Coq Require Import String.
From Verif Require Import Base Str_Model Printf_Model Printf_Fixed_Model Printf_Len_Proof Printf_FLen_Proof Stdio_Model Stdio_Spec Stdio_Pos_Proof Stdlib_Spec
  Scanf_Model Scanf_Spec Scanf_Props Utf8_Spec Utf8_Model Utf8_Str_Proof Wstdio_Model Wprintf_Model Wprintf_Proof.
Open Scope Z_scope.
Local Notation len := List.length.

(** ** C100 *)
(** swprintf: [ps] is what the byte formatter prints for the same format and arguments.  If it is the encoding of
    [text] and the array of [cap] characters can hold it with the terminator, the array gets it, nothing behind the
    terminator changes, and the result is the number of characters.  Missing: a negative result when it does not
    fit, see below. *)
Theorem C100_swprintf_partial : forall buf cap fuel m fmt args m' ps status text,
  0 < cap < 2^31 -> (Z.to_nat cap <= len buf)%nat -> Forall nz_scalar fmt -> Z.of_nat (len fmt) < 2^30 ->
  printf_ fuel m (utf8_string fmt) args = Ok (m', ps, status) -> 0 <= status -> List.concat ps = utf8_string text -> Forall scalar text ->
  Z.of_nat (len text) < cap ->
  vswprintf buf cap true fuel m fmt args = Ok (text ++ 0 :: skipn (S (len text)) buf, m', Z.of_nat (len text)).
Proof.
  intros buf cap fuel m fmt args m' ps status text C L N FL E S0 T Sc F.
  rewrite (vswprintf_ok buf cap fuel m fmt args m' ps status text [] C L N FL E S0 ltac:(rewrite app_nil_r; exact T) Sc ltac:(constructor) (or_introl eq_refl)).
  replace (Nat.min (len text) (Z.to_nat cap - 1)) with (len text) by lia. rewrite firstn_all. reflexivity.
Qed.
Print Assumptions C100_swprintf_partial.
(** Text that does not fit is cut, still within the array *)
Theorem C100_cut_partial : forall buf cap fuel m fmt args m' ps status text,
  0 < cap < 2^31 -> (Z.to_nat cap <= len buf)%nat -> Forall nz_scalar fmt -> Z.of_nat (len fmt) < 2^30 ->
  printf_ fuel m (utf8_string fmt) args = Ok (m', ps, status) -> 0 <= status -> List.concat ps = utf8_string text -> Forall scalar text ->
  cap <= Z.of_nat (len text) ->
  vswprintf buf cap true fuel m fmt args = Ok (firstn (Z.to_nat cap - 1) text ++ 0 :: skipn (Z.to_nat cap) buf, m', cap - 1).
Proof.
  intros buf cap fuel m fmt args m' ps status text C L N FL E S0 T Sc F.
  rewrite (vswprintf_ok buf cap fuel m fmt args m' ps status text [] C L N FL E S0 ltac:(rewrite app_nil_r; exact T) Sc ltac:(constructor) (or_introl eq_refl)).
  replace (Nat.min (len text) (Z.to_nat cap - 1)) with (Z.to_nat cap - 1)%nat by lia. replace (S (Z.to_nat cap - 1)) with (Z.to_nat cap) by lia. do 2 f_equal. lia.
Qed.
Print Assumptions C100_cut_partial.
(** Failure: the formatter fails, or what it prints is not UTF-8: an empty string and -1 *)
Theorem C100_swprintf_failure : forall buf cap fuel m fmt args m' ps status text tail,
  0 < cap < 2^31 -> (Z.to_nat cap <= len buf)%nat -> Forall nz_scalar fmt -> Z.of_nat (len fmt) < 2^30 ->
  printf_ fuel m (utf8_string fmt) args = Ok (m', ps, status) ->
  List.concat ps = utf8_string text ++ tail -> Forall scalar text -> bytes tail -> status < 0 /\ (tail = [] \/ incomplete tail) \/ ill_formed tail ->
  exists buf', vswprintf buf cap true fuel m fmt args = Ok (buf', m', -1) /\ hd_error buf' = Some 0 /\ len buf' = len buf /\
    skipn (Z.to_nat cap) buf' = skipn (Z.to_nat cap) buf.
Proof. exact vswprintf_ill. Qed.
Print Assumptions C100_swprintf_failure.
(** An array of no characters: nothing is stored and the result is negative *)
Theorem C100_empty_array : forall buf room fuel m fmt args, vswprintf buf 0 room fuel m fmt args = Ok (buf, m, -1).
Proof. reflexivity. Qed.
Print Assumptions C100_empty_array.
(** fwprintf on a regular file: the file gets the bytes printed, the stream its orientation, and the result is the
    number of characters when they are all ASCII *)
Theorem C100_fwprintf_partial : forall W h fuel m fmt args m' ps status, 0 <= pos h -> script h = [] -> Forall nz_scalar fmt -> Z.of_nat (len fmt) < 2^30 ->
  printf_ fuel m (utf8_string fmt) args = Ok (m', ps, status) -> 0 <= status <= INT_MAX -> Z.of_nat (len (List.concat ps)) <= INT_MAX ->
  exists W' h', vfwprintf W h true fuel m fmt args = Ok (W', h', m', Z.of_nat (len (List.concat ps))) /\
    overwritten (data h) (if append h then len (data h) else Z.to_nat (pos h)) (List.concat ps) (data h') /\
    ferror (file W') = ferror (file W) /\ orient W' = (if orient W =? 0 then 1 else orient W).
Proof.
  intros W h fuel m fmt args m' ps status P S N L E St Hl. unfold vfwprintf, vfwprintf_on. rewrite transcode_ok by assumption. cbn [bind]. pose proof (printf_len _ _ _ _ _ _ _ E) as Q. rewrite E. cbn [bind].
  unfold on_stream. destruct (run_stream ps (widen W) h P S) as (W' & h' & R & _ & _ & _ & FE & OR & OV & _). rewrite R. cbn [bind]. exists W', h'.
  assert (status = Z.of_nat (len (List.concat ps))) as ->. { destruct Q as [Q|Q]; [lia|]. unfold Printf_Len_Proof.L, INT_MAX in *. rewrite !Z.mod_small in Q by lia. exact Q. }
  split; [reflexivity|]. split; [exact OV|]. split; [exact FE|exact OR].
Qed.
Print Assumptions C100_fwprintf_partial.
(** A format with something that is no character: -1, and nothing is printed or stored *)
Theorem C100_bad_format : forall p c t W h buf cap room fuel m args, Forall nz_scalar p -> is_i32 c -> ~ scalar c -> Z.of_nat (len p) < 2^30 ->
  (exists W', vfwprintf W h room fuel m (p ++ c :: t) args = Ok (W', h, m, -1)) /\
  (0 < cap -> buf <> [] -> vswprintf buf cap room fuel m (p ++ c :: t) args = Ok (0 :: tl buf, m, -1)).
Proof.
  intros p c t W h buf cap room fuel m args N I NS L. split.
  - unfold vfwprintf, vfwprintf_on. rewrite transcode_bad by assumption. cbn [bind]. eexists. reflexivity.
  - intros C B. unfold vswprintf. replace (cap =? 0) with false by lia. unfold vfwprintf_on. rewrite transcode_bad by assumption. destruct buf; [congruence|]. reflexivity.
Qed.
Print Assumptions C100_bad_format.
Local Definition text (s : string) : list Z := map (fun a => Z.of_nat (Ascii.nat_of_ascii a)) (list_ascii_of_string s).
Local Definition euro : mem := fun x => if x <? 104 then None else nth_error [0xE2; 0x82; 0xAC; 0; 0; 0; 0; 0] (Z.to_nat (x - 104)).
Local Ltac easy_fmt := repeat (apply Forall_cons; [split; [unfold scalar; cbn; lia|cbn; lia]|]); apply Forall_nil.
(** L"é%s%x" with "€" and 255 into five characters of an array of seven *)
Example C100_ex : Forall nz_scalar (233 :: text "%s%x") /\ (Z.to_nat 5 <= len (repeat 9%Z 7))%nat /\
  (exists ps, printf_ 9 euro (utf8_string (233 :: text "%s%x")) [A32 104; A32 255] = Ok (euro, ps, 7) /\ List.concat ps = utf8_string [233; 8364; 102; 102]) /\
  vswprintf (repeat 9 7) 5 true 9 euro (233 :: text "%s%x") [A32 104; A32 255] = Ok ([233; 8364; 102; 102; 0; 9; 9], euro, 4) /\
  vswprintf (repeat 9 7) 3 true 9 euro (233 :: text "%s%x") [A32 104; A32 255] = Ok ([233; 8364; 0; 9; 9; 9; 9], euro, 2).
Proof.
  split; [change (233 :: text "%s%x") with [233; 37; 115; 37; 120]; easy_fmt|]. split; [cbn; lia|]. split; [eexists; split; vm_compute; reflexivity|]. split; vm_compute; reflexivity.
Qed.
Example C100_bad_ex : ~ scalar 0xD800 /\ ill_formed [0xFF].
Proof.
  split; [unfold scalar; lia|]. split; [|split; [discriminate|]].
  - intros p c r E Sq. inversion Sq; subst; unfold bt in *; cbn [app] in E; injection E as E _; lia.
  - intros (l & t & E & _ & L). injection E as <- _. vm_compute in L. discriminate.
Qed.

(** swprintf must return a negative number when the text does not fit *)
Theorem C100_truncation_refuted : exists buf cap fuel m fmt args m' ps r buf',
  printf_ fuel m (utf8_string fmt) args = Ok (m', ps, 3) /\ (Z.to_nat cap <= len buf)%nat /\ cap = 3 /\
  vswprintf buf cap true fuel m fmt args = Ok (buf', m', r) /\ 0 <= r.
Proof.
  exists [9; 9; 9], 3, 9%nat, (fun _ => None), (text "abc"), []. do 4 eexists. split; [vm_compute; reflexivity|]. split; [cbn; lia|]. split; [reflexivity|].
  split; [vm_compute; reflexivity|lia].
Qed.
Print Assumptions C100_truncation_refuted.
(** fwprintf must return the number of characters, not of bytes *)
Theorem C100_count_refuted : exists W h fuel m fmt args W' h' m' r, script h = [] /\
  vfwprintf W h true fuel m fmt args = Ok (W', h', m', r) /\ data h = [] /\ data h' = utf8_string [233] /\ r = 2.
Proof.
  exists (new_wfile 0), (mk_host [] 0 false []), 9%nat, (fun _ => None), [233], []. do 4 eexists. split; [reflexivity|]. split; [vm_compute; reflexivity|]. repeat split; reflexivity.
Qed.
Print Assumptions C100_count_refuted.
(** The precision of %s counts characters in the wide functions; here it cuts the character in half and loses it *)
Theorem C100_precision_refuted : exists buf cap fuel m fmt args buf' m' r, fmt = text "%.1s" /\ args = [A32 104] /\
  map m [104; 105; 106; 107] = map Some [0xE2; 0x82; 0xAC; 0] /\
  vswprintf buf cap true fuel m fmt args = Ok (buf', m', r) /\ r = 0 /\ hd_error buf' = Some 0.
Proof.
  exists [9; 9; 9], 3, 9%nat, euro, (text "%.1s"), [A32 104]. do 3 eexists. split; [reflexivity|]. split; [reflexivity|]. split; [reflexivity|].
  split; [vm_compute; reflexivity|]. split; reflexivity.
Qed.
Print Assumptions C100_precision_refuted.

(** ** C101 *)
Lemma digit_head c w : scalar c -> match utf8_enc c ++ w with d :: _ => ~ 48 <= d <= 57 | [] => True end <-> ~ 48 <= c <= 57.
Proof.
  intros S. unfold scalar in S. unfold utf8_enc. destruct (Z.ltb_spec c 0x80); [cbn; tauto|]. destruct (Z.ltb_spec c 0x800); [cbn [app]; lia|].
  destruct (Z.ltb_spec c 0x10000); cbn [app]; lia.
Qed.
Lemma space_ascii ws : Forall (fun c => spaceb c = true) ws -> Forall (fun c => 0 < c < 128) ws.
Proof. apply Forall_impl. intros c. unfold spaceb. lia. Qed.
Lemma number_ascii ns : Forall number_ok ns -> Forall (fun c => 0 < c < 128) (flat_map number_text ns).
Proof.
  induction 1 as [|[[ws sg] ds] ns (H1 & H2 & H3 & H4 & _) _ IH]; cbn [flat_map]; [constructor|]. apply Forall_app. split; [|exact IH]. cbn [number_text].
  apply Forall_app. split; [apply space_ascii; exact H1|]. apply Forall_app. split; [destruct H2 as [->|[->| ->]]; repeat constructor; lia|].
  eapply Forall_impl; [|exact H4]. cbn. lia.
Qed.
Lemma ascii_nz w : Forall (fun c => 0 < c < 128) w -> Forall nz_scalar w /\ utf8_string w = w.
Proof.
  intros H. split; [eapply Forall_impl; [|exact H]; unfold nz_scalar, scalar; lia|]. apply ascii_string. eapply Forall_impl; [|exact H]. cbn. lia.
Qed.
(** swscanf of a wide text is sscanf of its encoding *)
Theorem C101_swscanf_transcodes : forall fuel ws fmt nargs, Forall nz_scalar ws -> Z.of_nat (len ws) < 2^30 -> Forall nz_scalar fmt -> Z.of_nat (len fmt) < 2^30 ->
  vswscanf true true fuel ws fmt nargs = vsscanf fuel (utf8_string ws) (utf8_string fmt) nargs.
Proof. intros. unfold vswscanf. rewrite !transcode_ok by assumption. reflexivity. Qed.
Print Assumptions C101_swscanf_transcodes.
(** Numbers: each is stored, whatever wide text follows *)
Theorem C101_swscanf_numbers : forall ns tail fuel, Forall number_ok ns -> Forall nz_scalar tail ->
  separated ns tail -> Z.of_nat (len (flat_map number_text ns ++ tail)) < 2^30 -> Z.of_nat (len ns) < 2^29 ->
  (len (utf8_string (flat_map number_text ns ++ tail)) < fuel)%nat ->
  vswscanf true true fuel (flat_map number_text ns ++ tail) (List.concat (repeat (text "%d") (len ns))) (Z.of_nat (len ns)) =
    Ok (Z.of_nat (len ns), stored_from 0 ns).
Proof.
  intros ns tail fuel NO TS SEP L1 L2 FU. destruct (ascii_nz _ (number_ascii ns NO)) as (NA & NE).
  assert (FA : Forall (fun c => 0 < c < 128) (List.concat (repeat (text "%d") (len ns)))).
  { apply Forall_concat. apply Forall_forall. intros x Hx. apply repeat_spec in Hx. subst x. vm_compute. repeat constructor. }
  destruct (ascii_nz _ FA) as (FN & FE).
  assert (FL : len (List.concat (repeat (text "%d") (len ns))) = (2 * len ns)%nat).
  { clear. induction (len ns) as [|n IH]; [reflexivity|]. cbn [repeat List.concat]. rewrite app_length, IH. cbn [text]. change (len (text "%d")) with 2%nat. lia. }
  rewrite C101_swscanf_transcodes; [|apply Forall_app; split; assumption|exact L1|exact FN|rewrite FL; lia].
  rewrite FE. rewrite string_app, NE in *. apply C90_numbers; [exact NO|apply utf8_string_bytes; apply nz_scalars; exact TS| |exact FU].
  clear -SEP TS NO. induction ns as [|n ns IH]; [exact I|]. inversion NO; subst. destruct SEP as (S1 & S2). split; [|apply IH; assumption].
  destruct (flat_map number_text ns) as [|d r]; [|exact S1]. cbn [app] in *. destruct tail as [|c tail]; [exact I|]. rewrite utf8_string_cons. apply digit_head; [|exact S1].
  inversion TS as [|? ? (X & _) _]; exact X.
Qed.
Print Assumptions C101_swscanf_numbers.
Theorem C101_bad_input : forall p c t fuel fmt nargs room1 room2, Forall nz_scalar p -> is_i32 c -> ~ scalar c -> Z.of_nat (len p) < 2^30 ->
  vswscanf room1 room2 fuel (p ++ c :: t) fmt nargs = Ok (-1, []).
Proof. intros. unfold vswscanf. rewrite transcode_bad by assumption. reflexivity. Qed.
Print Assumptions C101_bad_input.
Example C101_ex : let ns := [([], [45], text "17"); (text "  ", [], text "0042")] in Forall number_ok ns /\ separated ns [8364] /\ Forall nz_scalar [8364] /\
  vswscanf true true 20 (text "-17  0042" ++ [8364]) (text "%d%d") 2 = Ok (2, [(0, Sint 4 (-17)); (1, Sint 4 42)]).
Proof.
  cbv zeta. split.
  { repeat (apply Forall_cons; [split; [vm_compute; repeat constructor|]; split; [auto|]; split; [discriminate|]; split; [apply Forall_forall; intros x X; vm_compute in X; lia|]; split; [vm_compute; lia|vm_compute; split; congruence]|]). constructor. }
  split; [cbn; repeat split; lia|]. split; [easy_fmt|vm_compute; reflexivity].
Qed.
(** %ls stores wide characters and %n counts characters in the wide functions; here both are in bytes *)
Theorem C101_wide_string_refuted : exists fuel ws o, ws = [233] /\ vswscanf true true fuel ws (text "%ls") 1 = Ok (1, o) /\ o = [(0, Sbytes (utf8_string ws ++ [0]))].
Proof. exists 9%nat, [233]. eexists. split; [reflexivity|]. split; [vm_compute; reflexivity|]. reflexivity. Qed.
Print Assumptions C101_wide_string_refuted.
Theorem C101_count_refuted : exists fuel ws o, ws = [233] /\ vswscanf true true fuel (ws) (text "%*c%n") 1 = Ok (0, o) /\ o = [(0, Sint 4 1)] /\
  (exists o2, vswscanf true true fuel ws (text "%*s%n") 1 = Ok (0, o2) /\ o2 = [(0, Sint 4 2)]).
Proof. exists 9%nat, [233]. eexists. split; [reflexivity|]. split; [vm_compute; reflexivity|]. split; [reflexivity|]. eexists. split; vm_compute; reflexivity. Qed.
Print Assumptions C101_count_refuted.
