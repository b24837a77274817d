(** printf: C47-C51, C82-C84 *)
From Coq Require Import String.
From Verif Require Import Base FP Str_Model Str_Spec Str_Proof Printf_Model Printf_Spec Printf_Hex_Spec Printf_Fixed_Model Printf_Fixed_Spec
  Printf_Proof Printf_Str_Proof Printf_Fmt_Proof Printf_Len_Proof Printf_Hex_Proof Printf_Fixed_Proof Printf_F_Proof Printf_FLen_Proof Printf_Small_Proof.
Open Scope Z_scope.
Local Notation len := List.length.
Local Definition text (s : string) : list Z := map (fun a => Z.of_nat (Ascii.nat_of_ascii a)) (list_ascii_of_string s).
Local Definition plain : Spec := mk_spec 0 0 (-1) 0.

(** C47.  For every list of pieces: at most [size] bytes are written, they are the first size - 1 characters of
    the output and a NUL, nothing else in memory changes, and the status is the formatter's. *)
Theorem C47_vsnprintf m buf size ps status : 0 <= size < 2^32 -> mapped m buf (buf + size) ->
  let full := List.concat ps in
  exists m', vsnprintf m buf size ps status = Ok (m', status) /\
    overlay m buf (if size =? 0 then [] else firstn (Z.to_nat (size - 1)) full ++ [0]) m'.
Proof. apply vsnprintf_ok. Qed.
Print Assumptions C47_vsnprintf.
Theorem C47_vsprintf m s ps status : let full := List.concat ps in mapped m s (s + Z.of_nat (len full) + 1) ->
  exists m', vsprintf m s ps status = Ok (m', status) /\ overlay m s (full ++ [0]) m'.
Proof. apply vsprintf_ok. Qed.
Print Assumptions C47_vsprintf.
(** The formatter's status, for every format and argument list that it survives: negative, or the
    total length (modulo 2^32, the range of int). *)
Theorem C47_total_length fuel m fmt args m' ps st : printf_ fuel m fmt args = Ok (m', ps, st) ->
  st < 0 \/ st mod 2^32 = Z.of_nat (len (List.concat ps)) mod 2^32.
Proof. apply printf_len. Qed.
Print Assumptions C47_total_length.
(** Together: snprintf of a format. *)
Theorem C47_snprintf fuel m fmt args m1 ps st buf size : printf_ fuel m fmt args = Ok (m1, ps, st) -> 0 <= st ->
  Z.of_nat (len (List.concat ps)) <= INT_MAX -> st <= INT_MAX -> 0 <= size < 2^32 -> mapped m1 buf (buf + size) ->
  exists m2, vsnprintf m1 buf size ps st = Ok (m2, Z.of_nat (len (List.concat ps))) /\
    overlay m1 buf (if size =? 0 then [] else firstn (Z.to_nat (size - 1)) (List.concat ps) ++ [0]) m2.
Proof.
  intros E H0 HL H1 Hs Hm. apply printf_len in E. destruct E as [E|E]; [lia|].
  assert (st = Z.of_nat (len (List.concat ps))) as ->. { unfold L, INT_MAX in *. rewrite !Z.mod_small in E by lia. exact E. }
  now apply vsnprintf_ok.
Qed.
Print Assumptions C47_snprintf.
Local Definition mem0 : mem := fun x => if (100 <=? x) && (x <? 105) then Some 7 else None.
Example C47_example : exists ps m', printf_ 99 mem0 (text "a%xb%oc"%string) [A32 255; A32 8] = Ok (mem0, ps, 7) /\
  List.concat ps = text "affb10c"%string /\ vsnprintf mem0 100 5 ps 7 = Ok (m', 7) /\ map m' [100; 101; 102; 103; 104] = map Some (text "affb"%string ++ [0]).
Proof. do 2 eexists. split; [vm_compute; reflexivity|]. split; [vm_compute; reflexivity|]. split; vm_compute; reflexivity. Qed.
Example C47_hyps : mapped mem0 100 (100 + 5).
Proof. intros x Hx. unfold mem0. replace ((100 <=? x) && (x <? 105)) with true by lia. discriminate. Qed.

(** C48.  %d with a digit buffer of [room] bytes, room being at least the number of digits.  The code's buffer
    has room_i = 1 byte, so this covers -9..9 only. *)
Theorem C48_decimal_partial spec x d : - 2^63 < x < 2^63 -> 0 <= width spec <= INT_MAX -> precision spec < INT_MAX ->
  is_numeral 10 false d (Z.abs x) -> Z.of_nat (len d) <= room_i ->
  exists ps, convert_i_ room_i spec x = Ok (ps, Z.of_nat (len (std_d (view spec) x d))) /\ List.concat ps = std_d (view spec) x d.
Proof. intros. now apply (convert_i_ok room_i spec x d false). Qed.
Print Assumptions C48_decimal_partial.
(** Only the buffer size is wrong: with 19 bytes the same code is right for every argument but INTMAX_MIN. *)
Theorem C48_enough_room_partial spec x d : - 2^63 < x < 2^63 -> 0 <= width spec <= INT_MAX -> precision spec < INT_MAX ->
  is_numeral 10 false d (Z.abs x) ->
  exists ps, convert_i_ 19 spec x = Ok (ps, Z.of_nat (len (std_d (view spec) x d))) /\ List.concat ps = std_d (view spec) x d.
Proof. intros H1 H2 H3 H4. apply (convert_i_ok 19 spec x d false); auto. apply (numeral_len 10 false d (Z.abs x) 19); auto; lia. Qed.
Print Assumptions C48_enough_room_partial.
(** The digits denote the argument. *)
Theorem C48_roundtrip x : - 2^63 < x < 2^63 -> exists d, is_numeral 10 false d (Z.abs x) /\ numeral_value 10 d = Z.abs x /\
  forall d', is_numeral 10 false d' (Z.abs x) -> d' = d.
Proof.
  intros H. destruct (numeral_exists 10 false (Z.abs x) ltac:(lia) ltac:(lia)) as (d & Hd). exists d. split; [exact Hd|]. split; [apply Hd|].
  intros d' Hd'. eapply numeral_unique; [|exact Hd'|exact Hd]. lia.
Qed.
Print Assumptions C48_roundtrip.
Theorem C48_decimal_refuted : (exists x, x = 10 /\ convert_i_ room_i plain x = UB) /\ (exists x, x = - 2^63 /\ forall room, convert_i_ room plain x = UB).
Proof. split; [exists 10; split; reflexivity|]. exists (- 2^63). split; [reflexivity|]. intros room. reflexivity. Qed.
Print Assumptions C48_decimal_refuted.
Example C48_example : exists ps, convert_i_ room_i (mk_spec (Z.lor (FLAG 43) (FLAG 48)) 6 (-1) 0) 7 = Ok (ps, 6) /\ List.concat ps = text "+00007"%string /\
  is_numeral 10 false [55] 7.
Proof. eexists. split; [reflexivity|]. split; [reflexivity|]. repeat split; [|discriminate]. constructor; [vm_compute; tauto|constructor]. Qed.
(** C50: the overflow is not an artefact of one value: every argument of two or more digits overflows. *)
Theorem C50_decimal_refuted : exists spec, forall x, 10 <= Z.abs x < 2^63 -> convert_i_ room_i spec x = UB.
Proof.
  exists plain. intros x H. destruct (numeral_exists 10 false (Z.abs x) ltac:(lia) ltac:(lia)) as (d & Hd).
  apply (convert_i_ub room_i plain x d false); [lia|exact Hd|]. change room_i with 1. pose proof (numeral_len_ge 10 false d (Z.abs x) 1 ltac:(lia) Hd). lia.
Qed.
Print Assumptions C50_decimal_refuted.
Theorem C50_unsigned_refuted : exists spec, forall x, 100 <= x < 2^64 -> convert_u_ room_u spec x = UB.
Proof.
  exists plain. intros x H. destruct (numeral_exists 10 false x ltac:(lia) ltac:(lia)) as (d & Hd).
  apply (convert_u_ub room_u plain x d false); [lia|exact Hd|]. change room_u with 2. pose proof (numeral_len_ge 10 false d x 2 ltac:(lia) Hd). lia.
Qed.
Print Assumptions C50_unsigned_refuted.
(** C50: the octal, hexadecimal and pointer buffers are large enough for every argument. *)
Theorem C50_octal_hex spec (up : bool) x p : 0 <= x < 2^64 -> 0 < p < 2^32 -> 0 <= width spec <= INT_MAX -> precision spec <= INT_MAX - 2 ->
  convert_o_ room_o spec x <> UB /\ convert_x_ room_x spec (if up then 88 else 120) x <> UB /\ convert_p_ p <> UB.
Proof.
  intros H Hp' Hw Hp.
  destruct (numeral_exists 8 false x ltac:(lia) ltac:(lia)) as (d & Hd). destruct (numeral_exists 16 up x ltac:(lia) ltac:(lia)) as (e & He).
  destruct (numeral_exists 16 true p ltac:(lia) ltac:(lia)) as (g & Hg).
  destruct (convert_o_ok spec x d false) as (ps & -> & _); auto; [unfold INT_MAX in *; lia|]. destruct (convert_x_ok spec up x e) as (qs & -> & _); auto.
  rewrite (convert_p_ok p g Hp' Hg). repeat split; discriminate.
Qed.
Print Assumptions C50_octal_hex.
(** 19 and 20 bytes would be enough for the decimal ones. *)
Theorem C50_decimal_room spec x y : - 2^63 < x < 2^63 -> 0 <= y < 2^64 -> 0 <= width spec <= INT_MAX -> precision spec < INT_MAX ->
  convert_i_ 19 spec x <> UB /\ convert_u_ 20 spec y <> UB.
Proof.
  intros Hx Hy Hw Hp.
  destruct (numeral_exists 10 false (Z.abs x) ltac:(lia) ltac:(lia)) as (d & Hd). destruct (numeral_exists 10 false y ltac:(lia) ltac:(lia)) as (e & He).
  destruct (convert_i_ok 19 spec x d false) as (ps & -> & _); auto; [apply (numeral_len 10 false d (Z.abs x) 19); auto; lia|].
  destruct (convert_u_ok 20 spec y e false) as (qs & -> & _); auto; [unfold INT_MAX in *; lia|apply (numeral_len 10 false e y 20); auto; lia|].
  split; discriminate.
Qed.
Print Assumptions C50_decimal_room.
Example C50_example : exists ps, convert_o_ room_o plain (2^64 - 1) = Ok (ps, 22) /\ List.concat ps = text "1777777777777777777777"%string.
Proof. eexists. split; reflexivity. Qed.

(** C49.  %o and %x, %X in full; %u within its 2-byte buffer. *)
Theorem C49_octal spec x d : 0 <= x < 2^64 -> 0 <= width spec <= INT_MAX -> precision spec <= INT_MAX -> is_numeral 8 false d x ->
  exists ps, convert_o_ room_o spec x = Ok (ps, Z.of_nat (len (std_o (view spec) d))) /\ List.concat ps = std_o (view spec) d.
Proof. intros. now apply (convert_o_ok spec x d false). Qed.
Print Assumptions C49_octal.
Theorem C49_hex spec (up : bool) x d : 0 <= x < 2^64 -> 0 <= width spec <= INT_MAX -> precision spec <= INT_MAX - 2 -> is_numeral 16 up d x ->
  exists ps, convert_x_ room_x spec (if up then 88 else 120) x = Ok (ps, Z.of_nat (len (std_x (view spec) up x d))) /\
    List.concat ps = std_x (view spec) up x d.
Proof. intros. now apply convert_x_ok. Qed.
Print Assumptions C49_hex.
Theorem C49_unsigned_partial spec x d : 0 <= x < 2^64 -> 0 <= width spec <= INT_MAX -> precision spec <= INT_MAX -> is_numeral 10 false d x ->
  Z.of_nat (len d) <= room_u ->
  exists ps, convert_u_ room_u spec x = Ok (ps, Z.of_nat (len (std_u (view spec) d))) /\ List.concat ps = std_u (view spec) d.
Proof. intros. now apply (convert_u_ok room_u spec x d false). Qed.
Print Assumptions C49_unsigned_partial.
Theorem C49_unsigned_refuted : exists x, x = 100 /\ convert_u_ room_u plain x = UB.
Proof. exists 100. split; reflexivity. Qed.
Print Assumptions C49_unsigned_refuted.
Example C49_example : exists ps, convert_x_ room_x (mk_spec (Z.lor (FLAG 35) (FLAG 45)) 10 4 0) 120 255 = Ok (ps, 10) /\ List.concat ps = text "0x00ff    "%string /\
  is_numeral 16 false (text "ff"%string) 255.
Proof. eexists. split; [reflexivity|]. split; [reflexivity|]. repeat split; [|discriminate]. repeat constructor; vm_compute; tauto. Qed.

(** C51.  %s: the bytes up to the NUL or the precision; reads stay below the precision and within the
    8-byte word where the string ends.  Missing: precisions that end before the first word boundary. *)
Theorem C51_string_partial fuel m spec a out rest : mem_ok m -> 0 <= a < 2^32 -> Z.shiftr (modifier spec) 2 <> 108 -> precision spec <= INT_MAX ->
  let prec := if precision spec <? 0 then 2^32 - 1 else precision spec in
  contents m a out -> Forall (fun b => b <> 0) out -> Z.of_nat (len out) < 2^31 ->
  (Z.of_nat (len out) = prec /\ (- a) mod 8 <= prec \/ Z.of_nat (len out) < prec /\ m (a + Z.of_nat (len out)) = Some 0) ->
  (forall x, a <= x < a + prec -> x / 8 <= (a + Z.of_nat (len out)) / 8 -> m x <> None) -> (len out + 8 < fuel)%nat ->
  convert_s_ fuel m spec (A32 a :: rest) = Ok ([out], Z.of_nat (len out), rest).
Proof. apply convert_s_ok. Qed.
Print Assumptions C51_string_partial.
Local Definition abc : mem := fun x => if x <? 101 then None else nth_error ([97; 98; 99] ++ repeat 0 13) (Z.to_nat (x - 101)).
Theorem C51_string_refuted : exists spec ps r, precision spec = 1 /\ contents abc 101 (text "abc"%string ++ [0]) /\
  convert_s_ 99 abc spec [A32 101] = Ok (ps, r, []) /\ List.concat ps = text "abc"%string.
Proof. exists (mk_spec 0 0 1 0). do 2 eexists. split; [reflexivity|]. split; [|split; reflexivity].
  intros i Hi. cbn in Hi. do 4 (destruct i as [|i]; [reflexivity|]). lia.
Qed.
Print Assumptions C51_string_refuted.
Example C51_example : exists m, mem_ok m /\ contents m 104 (text "abc"%string) /\ convert_s_ 99 m (mk_spec 0 0 2 0) [A32 104] = Ok ([text "ab"%string], 2, []).
Proof.
  exists (fun x => if x <? 104 then None else nth_error [97; 98; 99; 0] (Z.to_nat (x - 104))). split; [|split; [|reflexivity]].
  - intros x b H. destruct (x <? 104) eqn:E; [discriminate|]. assert (Z.to_nat (x - 104) < 4)%nat as Hx by (change 4%nat with (len [97; 98; 99; 0]); apply nth_error_Some; congruence).
    split; [lia|]. destruct (Z.to_nat (x - 104)) as [|[|[|[|n]]]]; [..|lia]; injection H as <-; lia.
  - intros i Hi. cbn in Hi. do 3 (destruct i as [|i]; [reflexivity|]). lia.
Qed.

(** C82.  The whole formatter: any mix of ordinary text, %% and the conversions d i u o x X c s, with flags, widths, precisions
    (given or '*') and length modifiers, prints the texts of its items in order.  Missing: decimal numbers
    that overflow the code's buffers, %s of a precision below the first word boundary, %c and %s narrower than their field. *)
Theorem C82_formatter_partial fuel m is args o : mem_ok m -> prints_all room_i room_u fuel m is args o -> Z.of_nat (len o) <= INT_MAX ->
  exists ps, printf_ fuel m (fmt_text is) args = Ok (m, ps, Z.of_nat (len o)) /\ List.concat ps = o.
Proof. intros Hm. apply vfprintf_ok. exact Hm. Qed.
Print Assumptions C82_formatter_partial.
Theorem C82_width_refuted : exists ps, printf_ 99 mem0 (text "%3c"%string) [A32 97] = Ok (mem0, ps, 1) /\ List.concat ps = text "a"%string.
Proof. eexists. split; [vm_compute; reflexivity|reflexivity]. Qed.
Print Assumptions C82_width_refuted.
(** "%-5.3dx%%" of 7 *)
Local Definition dir537 : directive := mk_dir [45] (Digits [53]) (Some (Digits [51])) [].
Example C82_example_hyps : fmt_text [Conv dir537 100; Text [120]; Percent] = text "%-5.3dx%%"%string /\
  exists o, prints_all room_i room_u 99 mem0 [Conv dir537 100; Text [120]; Percent] [A32 7] o /\ o = text "007  x%"%string.
Proof.
  split; [reflexivity|]. eexists. split.
  - eapply PA_cons; [eapply (P_d _ _ _ _ dir537 100) with (n := [55])|eapply PA_cons; [apply P_text|eapply PA_cons; [apply P_percent|apply PA_nil]]].
    + cbn. tauto.
    + repeat split; try discriminate; try (repeat constructor; unfold is_flag, is_digit; cbn; try tauto; try lia).
    + reflexivity.
    + reflexivity.
    + repeat split; [|discriminate]. constructor; [vm_compute; tauto|constructor].
    + cbn. lia.
    + discriminate.
    + cbn. intros [H|[]]. discriminate.
  - reflexivity.
Qed.

(** C83.  %a and %A.  For a finite argument, without precision the exact value, with one the value correctly rounded to
    that many hexadecimal digits.  Missing: zeros and subnormals with a precision of 1 to 12 (1 to 27) digits. *)
Theorem C83_hexfloat_double_partial spec (up : bool) bits : 0 <= width spec <= INT_MAX -> precision spec <= INT_MAX - 64 -> finite binary64 bits ->
  (precision spec <= 0 \/ 13 <= precision spec \/ normal binary64 bits) ->
  exists ps out, hexfloat_ binary64 spec (lower_of up) bits = Ok (ps, Z.of_nat (len out)) /\ List.concat ps = out /\ prints_hexfloat binary64 (view spec) up bits out.
Proof. intros Hw Hp. apply (hexfloat_ok binary64 13 good64 spec up bits Hw Hp). Qed.
Print Assumptions C83_hexfloat_double_partial.
Theorem C83_hexfloat_long_double_partial spec (up : bool) bits : 0 <= width spec <= INT_MAX -> precision spec <= INT_MAX - 64 -> finite binary128 bits ->
  (precision spec <= 0 \/ 28 <= precision spec \/ normal binary128 bits) ->
  exists ps out, hexfloat_ binary128 spec (lower_of up) bits = Ok (ps, Z.of_nat (len out)) /\ List.concat ps = out /\ prints_hexfloat binary128 (view spec) up bits out.
Proof. intros Hw Hp. apply (hexfloat_ok binary128 28 good128 spec up bits Hw Hp). Qed.
Print Assumptions C83_hexfloat_long_double_partial.
(** Infinities and NaNs. *)
Theorem C83_nonfinite spec (up : bool) bits : 0 <= width spec <= INT_MAX -> precision spec <= INT_MAX - 64 -> ~ finite binary64 bits ->
  exists ps out, hexfloat_ binary64 spec (lower_of up) bits = Ok (ps, Z.of_nat (len out)) /\ List.concat ps = out /\ prints_nonfinite binary64 (view spec) up bits out.
Proof. intros Hw Hp. apply (nonfin_ok binary64 13 good64 spec up bits Hw). Qed.
Print Assumptions C83_nonfinite.
(** %.1a of zero prints no digit after the point. *)
Theorem C83_hexfloat_refuted : exists bits ps out, finite binary64 bits /\
  hexfloat_ binary64 (mk_spec 0 0 1 0) 32 bits = Ok (ps, 7) /\ List.concat ps = out /\ out = text "0x0.p+0"%string.
Proof. exists 0. do 2 eexists. split; [reflexivity|]. split; [vm_compute; reflexivity|]. split; [reflexivity|vm_compute; reflexivity]. Qed.
Print Assumptions C83_hexfloat_refuted.
(** %.2a of pi *)
Example C83_example : exists ps out, hexfloat_ binary64 (mk_spec 0 0 2 0) 32 0x400921fb54442d18 = Ok (ps, 9) /\ List.concat ps = out /\
  out = text "0x1.92p+1"%string /\ finite binary64 0x400921fb54442d18 /\ normal binary64 0x400921fb54442d18.
Proof. do 2 eexists. split; [vm_compute; reflexivity|]. split; [vm_compute; reflexivity|]. split; [reflexivity|]. split; vm_compute; congruence. Qed.

(** C84.  %f of a double.  At or above 2^64 the text is the exact value. *)
Theorem C84_fixed_large_partial spec arg lower : 0 <= width spec <= INT_MAX -> 0 <= precision spec <= INT_MAX - 400 ->
  0x43F0000000000000 <= arg mod 2^63 < 0x7FF0000000000000 ->
  exists ps out, fixed_ spec lower arg = Ok (ps, Z.of_nat (len out)) /\ List.concat ps = out /\
    fixed_text (view spec) arg (precision spec) (fixed_correct arg (precision spec)) out.
Proof.
  intros Hw Hp HM. unfold fixed_. replace (arg mod 2^63 <? 0x3F70000000000000) with false by lia.
  replace (arg mod 2^63 <? 0x43F0000000000000) with false by lia. replace (arg mod 2^63 <? 0x7FF0000000000000) with true by lia.
  apply (bigint_ok arg spec Hw Hp HM).
Qed.
Print Assumptions C84_fixed_large_partial.
(** From 2^-8 to 98.99...: correctly rounded unless the scaled value is within a relative 2^-49 of a tie without
    being one, and in any case within (1/2 + 2^-49) units in the last place. *)
Theorem C84_fixed_moderate_partial spec arg lower : 0 <= width spec <= INT_MAX -> 0 <= precision spec <= INT_MAX - 400 ->
  0x3F70000000000000 <= arg mod 2^63 < 0x4058C00000000000 ->
  exists ps out N, fixed_ spec lower arg = Ok (ps, Z.of_nat (len out)) /\ List.concat ps = out /\
    fixed_text (view spec) arg (precision spec) N out /\
    2^48 * (2 * Z.abs (N * fden arg - fnum arg (precision spec)) - fden arg) <= fden arg /\
    (precision spec = 0 \/ not_near_tie arg (precision spec) -> N = fixed_correct arg (precision spec)).
Proof.
  intros Hw Hp HM. unfold fixed_. replace (arg mod 2^63 <? 0x3F70000000000000) with false by lia.
  replace (arg mod 2^63 <? 0x43F0000000000000) with true by lia.
  apply (moderate_ok arg spec Hw Hp (DECIMAL_DIGITS 8 false)); [lia|vm_compute; split; discriminate|]. apply below99. lia.
Qed.
Print Assumptions C84_fixed_moderate_partial.
(** With a 20-byte buffer for the integral part it would hold up to 2^64. *)
Theorem C84_enough_room_partial spec arg : 0 <= width spec <= INT_MAX -> 0 <= precision spec <= INT_MAX - 400 ->
  0x3F70000000000000 <= arg mod 2^63 < 0x43F0000000000000 ->
  exists ps out N, fixed_moderate_ 20 spec (signchar_ (Z.testbit arg 63) (flags spec)) (arg mod 2^63) = Ok (ps, Z.of_nat (len out)) /\ List.concat ps = out /\
    fixed_text (view spec) arg (precision spec) N out /\
    2^48 * (2 * Z.abs (N * fden arg - fnum arg (precision spec)) - fden arg) <= fden arg /\
    (precision spec = 0 \/ not_near_tie arg (precision spec) -> N = fixed_correct arg (precision spec)).
Proof. intros Hw Hp HM. apply (moderate_ok arg spec Hw Hp 20); [lia|lia|]. apply below64. lia. Qed.
Print Assumptions C84_enough_room_partial.
(** Below 2^-8, whenever the conversion stays inside its arrays: the layout is right, the number is within 0.55 units in the
    last place, and it is correctly rounded unless the scaled value is within 1/20 of a tie without being one. *)
Theorem C84_fixed_small_partial spec arg lower ps r : 0 <= width spec <= INT_MAX -> 0 <= precision spec <= INT_MAX - 400 ->
  arg mod 2^63 < 0x3F70000000000000 -> fixed_ spec lower arg = Ok (ps, r) ->
  exists out N, r = Z.of_nat (len out) /\ List.concat ps = out /\ fixed_text (view spec) arg (precision spec) N out /\
    10 * (2 * Z.abs (N * fden arg - fnum arg (precision spec)) - fden arg) <= fden arg /\
    (not_near_tie20 arg (precision spec) -> N = fixed_correct arg (precision spec)).
Proof.
  intros Hw Hp HM. unfold fixed_. replace (arg mod 2^63 <? 0x3F70000000000000) with true by lia. apply (small_ok arg spec Hw Hp ps r HM).
Qed.
Print Assumptions C84_fixed_small_partial.
(** 2^-13 and the least subnormal are converted *)
Example C84_small_example : exists ps qs, fixed_ (mk_spec 0 12 8 0) 32 0x3F20000000000000 = Ok (ps, 12) /\ List.concat ps = text "  0.00012207"%string /\
  not_near_tie20 0x3F20000000000000 8 /\ fixed_ (mk_spec 0 0 325 0) 32 1 = Ok (qs, 327) /\
  List.concat qs = text "0."%string ++ repeat 48 323 ++ text "49"%string.
Proof.
  do 2 eexists. split; [vm_compute; reflexivity|]. split; [vm_compute; reflexivity|]. split; [right; vm_compute; reflexivity|].
  split; vm_compute; reflexivity.
Qed.
(** 2^-41 is 4.547...e-13; with 13 decimals it is printed as 4e-13: the digits below a limb are dropped before rounding. *)
Theorem C84_small_tie_refuted : exists arg ps, arg = 0x3D60000000000000 /\ fixed_correct arg 13 = 5 /\
  fixed_ (mk_spec 0 0 13 0) 32 arg = Ok (ps, 15) /\ List.concat ps = text "0.0000000000004"%string.
Proof. do 2 eexists. split; [reflexivity|]. split; [vm_compute; reflexivity|]. split; vm_compute; reflexivity. Qed.
Print Assumptions C84_small_tie_refuted.
Theorem C84_nonfinite spec (up : bool) arg : 0 <= width spec <= INT_MAX -> ~ finite binary64 arg ->
  exists ps out, fixed_ spec (lower_of up) arg = Ok (ps, Z.of_nat (len out)) /\ List.concat ps = out /\ prints_nonfinite binary64 (view spec) up arg out.
Proof. apply fixed_nonfinite. Qed.
Print Assumptions C84_nonfinite.
(** Zero, 0.001 and 100 are undefined; 0.05 with one decimal is 0.1 correctly rounded but prints 0.0. *)
Theorem C84_fixed_refuted : (exists arg, arg = 0 /\ fixed_ (mk_spec 0 0 6 0) 32 arg = UB) /\
  (exists arg, arg = 0x3F50624DD2F1A9FC /\ fixed_ (mk_spec 0 0 6 0) 32 arg = UB) /\
  (exists arg, arg = 0x4059000000000000 /\ fixed_ (mk_spec 0 0 6 0) 32 arg = UB) /\
  (exists arg ps, arg = 0x3FA999999999999A /\ fixed_correct arg 1 = 1 /\ fixed_ (mk_spec 0 0 1 0) 32 arg = Ok (ps, 3) /\ List.concat ps = text "0.0"%string).
Proof.
  split; [exists 0; split; [reflexivity|vm_compute; reflexivity]|]. split; [eexists; split; [reflexivity|vm_compute; reflexivity]|].
  split; [eexists; split; [reflexivity|vm_compute; reflexivity]|]. eexists. eexists. split; [reflexivity|].
  split; [vm_compute; reflexivity|]. split; vm_compute; reflexivity.
Qed.
Print Assumptions C84_fixed_refuted.
(** %.2f of 2.675 (the double below it) and %.1f of 1e22 *)
Example C84_example : exists ps qs, fixed_ (mk_spec 0 8 2 0) 32 0x4005666666666666 = Ok (ps, 8) /\ List.concat ps = text "    2.67"%string /\
  not_near_tie 0x4005666666666666 2 /\ fixed_ (mk_spec 0 0 1 0) 32 0x4480F0CF064DD592 = Ok (qs, 25) /\ List.concat qs = text "10000000000000000000000.0"%string.
Proof.
  do 2 eexists. split; [vm_compute; reflexivity|]. split; [vm_compute; reflexivity|]. split; [right; vm_compute; reflexivity|].
  split; vm_compute; reflexivity.
Qed.
