(** C58, C59, C90 - C92: scanf. *)
From Coq Require Import Ascii String.
From Verif Require Import Base Stdlib_Spec Stdio_Model Stdio_Spec Stdio_Proof Scanf_Model Scanf_Spec Scanf_Proof Scanf_Int_Proof Scanf_Loop_Proof Scanf_Str_Proof.
Notation len := List.length.
Open Scope Z_scope.
Definition text (s : string) : list Z := map (fun a => Z.of_nat (nat_of_ascii a)) (list_ascii_of_string s).
Definition source (s : string) : host := mk_host (text s) 0 false [].
Lemma ready_inv fuel s : ready fuel s -> inv s /\ u32 (count s) = count s /\ enough fuel s /\ (len (peek s) <= 7)%nat.
Proof.
  intros (S & H & B & E & P & C & L). split; [repeat (split; [assumption|]); assumption|]. split; [unfold u32; rewrite Z.mod_small; lia|]. split; [exact L|lia].
Qed.
Lemma done_consumed fuel s k s' : ready fuel s -> Done s k 1 s' -> consumed k s s'.
Proof. intros (_ & _ & _ & _ & P & _) (_ & _ & _ & K & L & C & M). split; [exact L|]. split; [exact K|]. split; [exact C|]. cbn in *. lia. Qed.
Lemma nonempty_none {A} (l : list A) : l = [] \/ l <> [].
Proof. destruct l; [left|right]; congruence. Qed.

(** ** C58 What fscanf takes from the stream *)
(** Whatever the format: the stream has lost the characters the directives consumed and at most three more,
    which were looked at and cannot be read again.  Missing from the full property: those up to three are lost. *)
Theorem C58_accounting_partial : forall fuel F h format nargs, sane F h -> healthy h -> (len (upcoming (seen F h)) < fuel)%nat ->
  match vfscanf fuel F h format nargs with
  | Ok (r, out, s) => sane (sF s) (sh s) /\ data (sh s) = data h /\
      exists read lost, (lost <= 3)%nat /\ (read + lost <= len (upcoming (seen F h)))%nat /\ u32 (count s) = u32 (Z.of_nat read) /\
        upcoming (seen (sF s) (sh s)) = skipn (read + lost) (upcoming (seen F h))
  | UB => True
  | Fuel => False
  end.
Proof.
  intros fuel F h format nargs S H L. pose proof (vfscanf_ok fuel F h format nargs S H L) as V.
  destruct (vfscanf fuel F h format nargs) as [[[r out] s]| |]; cbn [wp snd] in V; [|exact I|exact V].
  destruct V as (SA & D & PK & n & N1 & N2 & N3 & N4). split; [exact SA|]. split; [exact D|]. exists (n - len (peek s))%nat, (len (peek s)).
  split; [exact PK|]. split; [lia|]. replace (n - len (peek s) + len (peek s))%nat with n by lia. split; [|exact N3].
  apply (u32_add _ _ (- Z.of_nat (len (peek s)))) in N4. replace (count s + Z.of_nat (len (peek s)) + - Z.of_nat (len (peek s))) with (count s) in N4 by lia.
  rewrite N4. f_equal. lia.
Qed.
Print Assumptions C58_accounting_partial.
(** "12a": %d consumes two characters, yet getc finds the end of the file instead of 'a' *)
Theorem C58_lookahead_refuted : exists F h s F' h', sane F h /\ healthy h /\
  vfscanf 10 F h (text "%d") 1 = Ok (1, [(0, Sint 4 12)], s) /\ count s = 2 /\ skipn 2 (upcoming (seen F h)) = text "a" /\
  getc_ (sF s) (sh s) = Ok (EOF, F', h').
Proof.
  exists (new_file 0), (source "12a"). do 3 eexists. split; [vm_compute; repeat (first [discriminate | reflexivity | constructor])|]. split; [constructor|].
  split; [vm_compute; reflexivity|]. split; [reflexivity|]. split; [reflexivity|]. vm_compute. reflexivity.
Qed.
Print Assumptions C58_lookahead_refuted.
Example C58_ex : exists r out s, vfscanf 20 (new_file 0) (source "12 1e+x") (text "%d%f") 2 = Ok (r, out, s) /\ len (peek s) = 3%nat /\ count s = 4 /\ r = 2.
Proof. do 3 eexists. split; [vm_compute; reflexivity|]. repeat split. Qed.

(** ** C59 Integers *)
(** Missing: widths that cut the sign, "0" or "0x" off the digits, items of more than 127 characters,
    and -2^63 (undefined in strtoll, see C34) *)
Theorem C59_integer_partial : forall fuel s conv width length assigned p base sign, ready fuel s -> int_conv conv = Some (base, sign) -> 0 < width ->
  let t := dropwhile spaceb (left_of s) in
  let i := int_item base (firstn (Z.to_nat width) t) in
  head_length base t < width -> (len (item_text i) <= 127)%nat -> item_value i <> - 2^63 ->
  exists s', convert fuel conv width length assigned p s =
      Ok (Next (match t with [] => -1 | _ => match idigits i with [] => 0 | _ => 1 end end),
          match idigits i with [] => None | _ => Some (converted sign length i) end, p, s') /\
    left_of s' = skipn (len (item_text i)) t /\ exists k, consumed k s s'.
Proof.
  intros fuel s conv width length assigned p base sign R IC W t i HL L127 NE. destruct (ready_inv fuel s R) as (I & CU & E & P7).
  assert (base = 0 \/ base = 8 \/ base = 10 \/ base = 16) as HB.
  { unfold int_conv in IC. repeat match goal with H : context [if ?b then _ else _] |- _ => destruct b end; inversion IC; lia. }
  destruct (scan_int_ok fuel s width base sign length I CU E P7 W HB HL L127 ltac:(auto)) as (s' & k & EQ & D & L). fold t i in EQ, L.
  assert (convert fuel conv width length assigned p s = do (r, o, s) <- scan_int fuel s width base sign length; Ok (Next r, o, p, s)) as ->.
  { unfold int_conv in IC. unfold convert. repeat match goal with H : context [if ?b then _ else _] |- _ => destruct b end; inversion IC; reflexivity. }
  rewrite EQ. exists s'. split; [|split; [exact L|exists k; now apply done_consumed with fuel]].
  destruct (nonempty_none t) as [ET|NT].
  - subst i. rewrite ET. destruct sign; cbn; rewrite firstn_nil; unfold int_item; cbn [split_sign]; destruct (hex_prefixed base []); reflexivity.
  - destruct t; [contradiction|]. destruct (idigits i); reflexivity.
Qed.
Print Assumptions C59_integer_partial.
(** In range, the object receives the value itself *)
Theorem C59_in_range : forall length i,
  (let b := object_bits length in - 2^(b-1) <= item_value i < 2^(b-1) -> converted true length i = Sint (b / 8) (item_value i)) /\
  (let b := object_bits length in 0 <= item_value i < 2^b -> 0 <= magnitude i -> converted false length i = Sint (b / 8) (item_value i)).
Proof.
  intros length i. unfold converted. destruct (object_bits_cases length) as [->|[->|[->| ->]]]; cbv zeta; (split; [intros H; rewrite Z.min_l, Z.max_r by lia; rewrite sgn_id by lia; reflexivity|]).
  all: intros H M; assert (item_value i = magnitude i) as V by (unfold item_value in *; destruct (isign i) as [|c q]; [reflexivity|]; destruct (c =? 45); lia).
  all: rewrite V in *; replace (2^64 <=? magnitude i) with false by lia; rewrite Z.mod_small by lia; reflexivity.
Qed.
Print Assumptions C59_in_range.
(** "%1d%1d" on "07" stores 0 and 0 *)
Theorem C59_width_refuted : exists input format r out, vsscanf 10 input format 2 = Ok (r, out) /\ input = text "07" /\ format = text "%1d%1d" /\
  int_item 10 (firstn 1 input) = mk_item [] [] [48] 10 /\ int_item 10 (firstn 1 (skipn 1 input)) = mk_item [] [] [55] 10 /\ out = [(0, Sint 4 0); (1, Sint 4 0)].
Proof. exists (text "07"), (text "%1d%1d"). do 2 eexists. split; [vm_compute; reflexivity|]. repeat split. Qed.
Print Assumptions C59_width_refuted.
(** 127 zeros and a 5 are read as 0 *)
Theorem C59_long_refuted : exists input r out, vsscanf 200 input (text "%d") 1 = Ok (r, out) /\ item_value (int_item 10 input) = 5 /\ out = [(0, Sint 4 0)].
Proof. exists (repeat 48 127 ++ [53]). do 2 eexists. split; [vm_compute; reflexivity|]. split; [vm_compute; reflexivity|reflexivity]. Qed.
Print Assumptions C59_long_refuted.
Example C59_ex : let s := mk_sc (new_file 0) (source "  -0x1Fg") 0 [] false in
  ready 20 s /\ int_conv 105 = Some (0, true) /\ head_length 0 (dropwhile spaceb (left_of s)) = 3 /\
  int_item 0 (firstn 5 (dropwhile spaceb (left_of s))) = mk_item [45] [48; 120] [49; 70] 16 /\
  exists s', convert 20 105 5 0 0 [] s = Ok (Next 1, Some (Sint 4 (-31)), [], s') /\ left_of s' = text "g".
Proof.
  cbv zeta. split; [vm_compute; repeat (first [discriminate | reflexivity | constructor])|]. split; [reflexivity|]. split; [vm_compute; reflexivity|]. split; [vm_compute; reflexivity|].
  eexists. split; vm_compute; reflexivity.
Qed.

(** ** C90 Reading back decimal numbers *)
Lemma number_bytes n : number_ok n -> Forall is_byte (number_text n).
Proof.
  destruct n as [[ws sg] ds]. intros (HW & SG & _ & FD & _). cbn [number_text]. apply Forall_app. split.
  - eapply Forall_impl; [|exact HW]. intros c H. unfold spaceb in H. unfold is_byte. lia.
  - apply Forall_app. split; [destruct SG as [->|[->| ->]]; repeat constructor; unfold is_byte; lia|]. eapply Forall_impl; [|exact FD]. intros c H. cbv beta in H. unfold is_byte. lia.
Qed.
Lemma numbers_bytes ns tail : Forall number_ok ns -> Forall is_byte tail -> Forall is_byte (flat_map number_text ns ++ tail).
Proof. intros H T. apply Forall_app. split; [|exact T]. induction H as [|n ns Hn _ IH]; cbn; [constructor|]. apply Forall_app. split; [now apply number_bytes|exact IH]. Qed.
Definition start (input : list Z) : scanner := mk_sc (new_file 0) (mk_host input 0 false []) 0 [] false.
Lemma start_ok input fuel : Forall is_byte input -> (len input < fuel)%nat -> ready fuel (start input) /\ left_of (start input) = input.
Proof.
  intros B L. assert (left_of (start input) = input) as E by reflexivity. split; [|exact E]. unfold ready. rewrite E. cbn [start sF sh peek seof count].
  split; [|repeat split; try (constructor || lia || discriminate); cbn; lia]. unfold sane, new_file. cbn [avail cache pos data state].
  split; [unfold CACHE; lia|]. split; [reflexivity|]. split; [apply Forall_forall; intros x X; apply repeat_spec in X; subst; unfold is_byte; lia|]. split; [lia|]. split; [exact B|lia].
Qed.
Lemma dirs_len n : len (dirs n) = (2 * n)%nat.
Proof. induction n as [|n IH]; [reflexivity|]. change (dirs (S n)) with (37 :: 100 :: dirs n). cbn [len]. lia. Qed.
Theorem C90_numbers : forall ns tail fuel, Forall number_ok ns -> Forall is_byte tail -> separated ns tail ->
  (len (flat_map number_text ns ++ tail) < fuel)%nat ->
  vsscanf fuel (flat_map number_text ns ++ tail) (List.concat (repeat (text "%d") (len ns))) (Z.of_nat (len ns)) =
    Ok (Z.of_nat (len ns), stored_from 0 ns).
Proof.
  intros ns tail fuel NO TB SEP L. destruct (start_ok _ fuel (numbers_bytes ns tail NO TB) L) as [R LE]. destruct (ready_inv _ _ R) as (I & CU & EN & _).
  unfold vsscanf, vfscanf. change (List.concat (repeat (text "%d") (len ns))) with (dirs (len ns)). rewrite dirs_len.
  destruct (numbers_ok ns (S (len ns)) fuel tail [] (Z.of_nat (len ns)) 0 0 [] (start (flat_map number_text ns ++ tail)) I CU EN ltac:(cbn; lia) LE NO SEP ltac:(lia)) as (s' & E & _).
  rewrite app_nil_r in E. replace (len ns + S (len ns))%nat with (S (2 * len ns)) in E by lia. fold (start (flat_map number_text ns ++ tail)). rewrite E. cbn [scan_loop bind].
  rewrite app_nil_r, rev_involutive. f_equal.
Qed.
Print Assumptions C90_numbers.
Example C90_ex : let ns := [([], [45], text "17"); (text "  ", [], text "0042"); (text " ", [43], text "2147483647")] in
  Forall number_ok ns /\ separated ns (text "x") /\ flat_map number_text ns ++ text "x" = text "-17  0042 +2147483647x" /\
  stored_from 0 ns = [(0, Sint 4 (-17)); (1, Sint 4 42); (2, Sint 4 2147483647)].
Proof.
  cbv zeta. split.
  { repeat (apply Forall_cons; [split; [vm_compute; repeat constructor|]; split; [auto|]; split; [discriminate|]; split; [apply Forall_forall; intros x X; vm_compute in X; lia|]; split; [vm_compute; lia|vm_compute; split; congruence]|]). constructor. }
  split; [cbn; repeat split; lia|]. split; reflexivity.
Qed.

(** ** C91 Strings, sets and characters *)
Theorem C91_string : forall fuel s width length assigned p, ready fuel s -> 0 < width ->
  let t := dropwhile spaceb (left_of s) in
  let w := takewhile (fun c => negb (spaceb c)) (firstn (Z.to_nat width) t) in
  exists s', convert fuel 115 width length assigned p s =
      Ok (Next (match t with [] => -1 | _ => 1 end), match t with [] => None | _ => Some (Sbytes (w ++ [0])) end, p, s') /\
    left_of s' = skipn (len w) t /\ (t <> [] -> w <> []) /\ exists k, consumed k s s'.
Proof.
  intros fuel s width length assigned p R W t w. destruct (ready_inv fuel s R) as (I & CU & E & P7).
  destruct (scan_str_ok fuel s width I CU E P7 W) as (s' & k & EQ & D & L). fold t w in EQ, L.
  change (convert fuel 115 width length assigned p s) with (do (r, o, s) <- scan_str fuel s width; Ok (Next r, o, p, s)). rewrite EQ.
  exists s'. split; [destruct t; reflexivity|]. split; [exact L|]. split; [|exists k; now apply done_consumed with fuel].
  intros NT. pose proof (dropwhile_head spaceb (left_of s)) as DH. fold t in DH. subst w. destruct t as [|c t0]; [contradiction|].
  replace (Z.to_nat width) with (S (Z.to_nat (width - 1))) by lia. cbn [firstn takewhile]. rewrite DH. discriminate.
Qed.
Print Assumptions C91_string.
Theorem C91_set : forall fuel s width length assigned rest negate es, ready fuel s -> 0 < width -> set_ok negate es ->
  exists member w s', (forall c, member c = true <-> (if negate : bool then ~ Exists (elem_has c) es else Exists (elem_has c) es)) /\
    w = takewhile member (firstn (Z.to_nat width) (left_of s)) /\
    convert fuel 91 width length assigned (set_text negate es ++ rest) s =
      Ok (Next (match left_of s with [] => -1 | _ => match w with [] => 0 | _ => 1 end end), match w with [] => None | _ => Some (Sbytes (w ++ [0])) end, rest, s') /\
    consumed (len w) s s'.
Proof.
  intros fuel s width length assigned rest negate es R W SO. destruct (ready_inv fuel s R) as (I & CU & E & P7).
  destruct (parse_scanset_ok negate es rest SO) as (map & PE & M). destruct (scan_set_ok fuel s width map negate I CU E P7 W) as (s' & EQ & D).
  exists (in_map map negate), (takewhile (in_map map negate) (firstn (Z.to_nat width) (left_of s))), s'. split; [intros c; now apply in_map_spec|]. split; [reflexivity|].
  split; [|now apply done_consumed with fuel].
  change (convert fuel 91 width length assigned (set_text negate es ++ rest) s) with
    (do (p, map, negate) <- parse_scanset_ (set_text negate es ++ rest); do (r, o, s) <- scan_set_ fuel s width map negate; Ok (Next r, o, p, s)).
  rewrite PE. cbn [bind]. rewrite EQ. destruct (left_of s) as [|c q]; [rewrite firstn_nil; reflexivity|]. destruct (takewhile _ _); reflexivity.
Qed.
Print Assumptions C91_set.
(** without a width one character, with a width that many or as many as there are; no terminator *)
Theorem C91_chars : forall fuel s width length assigned p, ready fuel s -> 0 < width ->
  let n := if width =? INT_MAX then 1 else width in
  let w := firstn (Z.to_nat n) (left_of s) in
  exists s', convert fuel 99 width length assigned p s = Ok (Next (match left_of s with [] => -1 | _ => 1 end), match left_of s with [] => None | _ => Some (Sbytes w) end, p, s') /\
    consumed (len w) s s'.
Proof.
  intros fuel s width length assigned p R W n w. destruct (ready_inv fuel s R) as (I & CU & E & P7).
  assert (0 < n) as N by (unfold n; destruct (width =? INT_MAX); lia).
  destruct (scan_chars_ok fuel s n I CU E N) as (s' & EQ & D). fold w in EQ, D.
  change (convert fuel 99 width length assigned p s) with (do (r, o, s) <- scan_chars fuel s n; Ok (Next r, o, p, s)). rewrite EQ. exists s'.
  split; [destruct (left_of s); reflexivity|now apply done_consumed with fuel].
Qed.
Print Assumptions C91_chars.
Example C91_ex : let s := mk_sc (new_file 0) (source "  abc-d") 0 [] false in
  ready 20 s /\ set_ok true [One 93; Range 48 57] /\ set_text true [One 93; Range 48 57] = text "^]0-9]" /\
  exists s', convert 20 115 4 0 0 [] s = Ok (Next 1, Some (Sbytes (text "abc-" ++ [0])), [], s') /\ left_of s' = text "d".
Proof.
  cbv zeta. split; [vm_compute; repeat (first [discriminate | reflexivity | constructor])|]. split; [cbn; repeat split; auto; repeat constructor; lia|]. split; [reflexivity|].
  eexists. split; vm_compute; reflexivity.
Qed.

(** ** C92 %n and %% *)
(** %n after [ns] numbers tells how many characters they took *)
Theorem C92_count_partial : forall ns tail fuel, Forall number_ok ns -> Forall is_byte tail -> separated ns tail ->
  (len (flat_map number_text ns ++ tail) < fuel)%nat -> Z.of_nat (len (flat_map number_text ns)) < 2^31 ->
  vsscanf fuel (flat_map number_text ns ++ tail) (List.concat (repeat (text "%d") (len ns)) ++ text "%n") (Z.of_nat (len ns) + 1) =
    Ok (Z.of_nat (len ns), stored_from 0 ns ++ [(Z.of_nat (len ns), Sint 4 (Z.of_nat (len (flat_map number_text ns))))]).
Proof.
  intros ns tail fuel NO TB SEP L SM. destruct (start_ok _ fuel (numbers_bytes ns tail NO TB) L) as [R LE]. destruct (ready_inv _ _ R) as (I & CU & EN & _).
  unfold vsscanf, vfscanf. change (List.concat (repeat (text "%d") (len ns))) with (dirs (len ns)). change (text "%n") with [37; 110]. rewrite app_length, dirs_len. cbn [len].
  destruct (numbers_ok ns (S (S (S (len ns)))) fuel tail [37; 110] (Z.of_nat (len ns) + 1) 0 0 [] (start (flat_map number_text ns ++ tail)) I CU EN ltac:(cbn; lia) LE NO SEP ltac:(lia)) as (s' & E & D & _).
  replace (len ns + S (S (S (len ns))))%nat with (S (2 * len ns + 2)) in E by lia. fold (start (flat_map number_text ns ++ tail)). rewrite E.
  destruct D as (_ & _ & _ & _ & _ & C & _). change (count (start (flat_map number_text ns ++ tail))) with 0 in C. cbn [Z.add] in C.
  cbn [scan_loop]. replace (Ctype_Model.isspace 37) with (@Ok Z 0) by reflexivity. cbn [bind Z.eqb negb]. change (37 =? 37) with true. cbn [negb width_].
  change ((48 <=? 110) && (110 <=? 57)) with false. cbv beta iota. cbn [bind]. change (0 =? 0) with true. cbv beta iota zeta.
  change (length_ [110]) with 0. change (Z.to_nat (Z.land 0 3)) with 0%nat. cbn [skipn]. change (s8 110) with 110.
  replace (Z.of_nat (len ns) + 1 <=? 0 + Z.of_nat (len ns)) with false by lia. cbn [bind].
  assert (convert fuel 110 INT_MAX 0 (0 + Z.of_nat (len ns)) [] s' = Ok (Next (-2), Some (store_n_ 0 (count s')), [], s')) as -> by reflexivity.
  cbn [bind]. change (-2 =? -1) with false. change (-2 =? 0) with false. change ((-2 =? 1) && negb false) with false. cbv iota. rewrite app_nil_r. cbn [rev bind]. rewrite rev_involutive.
  assert (store_n_ 0 (count s') = Sint 4 (Z.of_nat (len (flat_map number_text ns)))) as ->.
  { unfold store_n_, store_int_. change (0 =? 0) with true. cbv iota. change (32 / 8) with 4. f_equal. rewrite C. unfold u32. rewrite Z.mod_small by lia. apply sgn_id; lia. }
  rewrite Z.add_0_l. reflexivity.
Qed.
Print Assumptions C92_count_partial.
(** "%%" takes no argument, yet one is fetched *)
Theorem C92_percent_refuted : exists input format, format = text "%%" /\ input = text "%" /\ vsscanf 10 input format 0 = UB.
Proof. exists (text "%"), (text "%%"). repeat split. Qed.
Print Assumptions C92_percent_refuted.
Example C92_ex : vsscanf 20 (text " 12 -3z") (text "%d%d%n") 3 = Ok (2, [(0, Sint 4 12); (1, Sint 4 (-3)); (2, Sint 4 6)]).
Proof. vm_compute. reflexivity. Qed.
