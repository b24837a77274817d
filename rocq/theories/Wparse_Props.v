(** Property C98: the wide-character number parsers, and the intmax_t names. *)
From Coq Require Import Reals.
From Flocq Require Import Core.
From Verif Require Import Base FP Midpoint Ctype_Spec Stdlib_Spec Stdlib_Model Stdlib_Proof Stdlib_Props Strtod_Spec Strtod_Model Strtod_Props Wparse_Model Wparse_Proof.
Open Scope Z_scope.

(** Integers: the wide string reads like a narrow one ([reading] is about character codes), provided the number ends
    within the first 127 characters: the code copies only so many.  As for strtol, -2^31 and -2^63 are excluded. *)
Theorem C98_wcstol_partial : forall s base neg mag len, base = 0 \/ 2 <= base <= 36 ->
  reading base s neg mag len -> len <= 127 -> ~ (neg = true /\ mag = 2^31) ->
  wcstol s base = Ok (let v := if neg then - mag else mag in
    if v <? - 2^31 then mk_parsed (- 2^31) len true
    else if 2^31 - 1 <? v then mk_parsed (2^31 - 1) len true
    else mk_parsed v len false).
Proof.
  intros s base neg mag len Hb R L N. destruct (copy_reading base s neg mag len Hb R L) as (B & [R'|(R' & -> & ->)]).
  - apply C34_strtol_partial; assumption.
  - unfold wcstol. rewrite (C34_strtol_partial _ base false 0 0 B Hb R') by (intros (E & _); discriminate). destruct neg; reflexivity.
Qed.
Print Assumptions C98_wcstol_partial.
Theorem C98_wcstoll_partial : forall s base neg mag len, base = 0 \/ 2 <= base <= 36 ->
  reading base s neg mag len -> len <= 127 -> ~ (neg = true /\ mag = 2^63) ->
  wcstoll s base = Ok (let v := if neg then - mag else mag in
    if v <? - 2^63 then mk_parsed (- 2^63) len true
    else if 2^63 - 1 <? v then mk_parsed (2^63 - 1) len true
    else mk_parsed v len false) /\ wcstoimax s base = wcstoll s base.
Proof.
  intros s base neg mag len Hb R L N. split; [|reflexivity]. destruct (copy_reading base s neg mag len Hb R L) as (B & [R'|(R' & -> & ->)]).
  - apply C34_strtoll_partial; assumption.
  - unfold wcstoll. rewrite (C34_strtoll_partial _ base false 0 0 B Hb R') by (intros (E & _); discriminate). destruct neg; reflexivity.
Qed.
Print Assumptions C98_wcstoll_partial.
Theorem C98_wcstoul_partial : forall s base neg mag len, base = 0 \/ 2 <= base <= 36 ->
  reading base s neg mag len -> len <= 127 ->
  wcstoul s base = Ok (if 2^32 - 1 <? mag then mk_parsed (2^32 - 1) len true
                       else mk_parsed (if neg then (- mag) mod 2^32 else mag) len false).
Proof.
  intros s base neg mag len Hb R L. destruct (copy_reading base s neg mag len Hb R L) as (B & [R'|(R' & -> & ->)]).
  - apply C34_strtoul; assumption.
  - unfold wcstoul. rewrite (C34_strtoul _ base false 0 0 B Hb R'). destruct neg; reflexivity.
Qed.
Print Assumptions C98_wcstoul_partial.
Theorem C98_wcstoull_partial : forall s base neg mag len, base = 0 \/ 2 <= base <= 36 ->
  reading base s neg mag len -> len <= 127 ->
  wcstoull s base = Ok (if 2^64 - 1 <? mag then mk_parsed (2^64 - 1) len true
                       else mk_parsed (if neg then (- mag) mod 2^64 else mag) len false) /\ wcstoumax s base = wcstoull s base.
Proof.
  intros s base neg mag len Hb R L. split; [|reflexivity]. destruct (copy_reading base s neg mag len Hb R L) as (B & [R'|(R' & -> & ->)]).
  - apply C34_strtoull; assumption.
  - unfold wcstoull. rewrite (C34_strtoull _ base false 0 0 B Hb R'). destruct neg; reflexivity.
Qed.
Print Assumptions C98_wcstoull_partial.
(** strtoimax and strtoumax are strtoll and strtoull *)
Theorem C98_imax_partial : forall s base neg mag len, Forall is_byte s -> base = 0 \/ 2 <= base <= 36 -> reading base s neg mag len ->
  (~ (neg = true /\ mag = 2^63) -> strtoimax s base = Ok (let v := if neg then - mag else mag in
    if v <? - 2^63 then mk_parsed (- 2^63) len true
    else if 2^63 - 1 <? v then mk_parsed (2^63 - 1) len true
    else mk_parsed v len false)) /\
  strtoumax s base = Ok (if 2^64 - 1 <? mag then mk_parsed (2^64 - 1) len true
                         else mk_parsed (if neg then (- mag) mod 2^64 else mag) len false).
Proof. intros s base neg mag len B Hb R. split; [intros N; apply C34_strtoll_partial; assumption|apply C34_strtoull; assumption]. Qed.
Print Assumptions C98_imax_partial.
(** L" -0x1F" U+2026 in base 0 *)
Example C98_ex : reading 0 [32;45;48;120;49;70;0x2026] true 31 6 /\ wcstol [32;45;48;120;49;70;0x2026] 0 = Ok (mk_parsed (-31) 6 false).
Proof.
  split; [|reflexivity].
  exists [32], [45], [48;120], [49;70], [0x2026], 16. split; [reflexivity|]. split; [repeat constructor|].
  split; [cbn; unfold is_space_spec; cbn; lia|]. split; [left; auto|].
  split; [left; split; [split; [auto|exists 120, 49, [70;0x2026]; split; [reflexivity|split; [auto|exists 1; split; [reflexivity|lia]]]]|auto]|].
  split; [repeat constructor; [exists 1|exists 15]; (split; [reflexivity|lia])|].
  split; [intros (d & E & _); discriminate|]. split; reflexivity.
Qed.
(** Without the bound it is false: 127 zeros and a five read as zero *)
Theorem C98_long_refuted : exists s neg mag len r, reading 10 s neg mag len /\ wcstol s 10 = Ok r /\ pval r <> mag /\ pend r <> len.
Proof.
  exists (repeat 48 127 ++ [53]), false, 5, 128, (mk_parsed 0 127 false). split; [|split; [vm_compute; reflexivity|split; discriminate]].
  exists [], [], [], (repeat 48 127 ++ [53]), [], 10. cbn [app]. rewrite app_nil_r. split; [reflexivity|]. split; [constructor|].
  split; [cbn; unfold is_space_spec; cbn; lia|]. split; [right; right; repeat split; cbn; lia|].
  split. { right. split; [intros (_ & x & h & r & E & Hx & _); injection E as <- _; lia|]. split; [reflexivity|left; lia]. }
  split. { apply Forall_app. split; [|repeat constructor; exists 5; split; [reflexivity|lia]]. apply Forall_forall. intros c H. apply repeat_spec in H. subst c. exists 0. split; [reflexivity|lia]. }
  split; [intros []|]. split; vm_compute; reflexivity.
Qed.
Print Assumptions C98_long_refuted.

(** Floating constants ending within the first 255 characters; the domain is that of C78. *)
Theorem C98_wcstod_decimal_partial : forall ws sg body rest neg ip fp x,
  Forall is_space_spec ws -> sign_ok sg body neg -> decimal_text body ip fp x -> longest decimal_P body rest -> ~ hex_prefix (body ++ rest) ->
  Z.of_nat (length (ws ++ sg ++ body)) <= 255 -> (forall n, body <> repeat 48 n ++ [46]) -> decimal_domain ip fp x ->
  exists v erange, wcstod (ws ++ sg ++ body ++ rest) = Ok (mk_fparsed v (Z.of_nat (length (ws ++ sg ++ body))) erange) /\
    rounds_to 52 11 (if neg then Ropp (decimal_value ip fp x) else decimal_value ip fp x) neg v /\ erange = fisinf 52 11 v.
Proof.
  intros ws sg body rest neg ip fp x Hw Hsg T Lg Hx L Hd HD. destruct (decimal_tokens _ _ _ _ T) as (F & Hne).
  destruct (copy_float 256 ws sg body rest Hw (sign_three _ _ _ Hsg) F Hne ltac:(lia)) as (r & E & C & B). unfold wcstod. rewrite E.
  assert (length (ip ++ fp) <= length body)%nat by (destruct T as (dot & ex & -> & _); rewrite !app_length; lia).
  apply C78_strtod_decimal_partial; auto; [revert Lg; apply cut_longest; exact C|intros H'; apply Hx; revert H'; apply cut_hex; exact C|].
  rewrite !app_length in L. lia.
Qed.
Print Assumptions C98_wcstod_decimal_partial.
Theorem C98_wcstof_decimal_partial : forall ws sg body rest neg ip fp x,
  Forall is_space_spec ws -> sign_ok sg body neg -> decimal_text body ip fp x -> longest decimal_P body rest -> ~ hex_prefix (body ++ rest) ->
  Z.of_nat (length (ws ++ sg ++ body)) <= 255 -> (forall n, body <> repeat 48 n ++ [46]) -> decimal_domain ip fp x ->
  (halfway (-149) 24 (RN 52 11 (decimal_value ip fp x)) -> RN 52 11 (decimal_value ip fp x) = decimal_value ip fp x) ->
  exists v erange, wcstof (ws ++ sg ++ body ++ rest) = Ok (mk_fparsed v (Z.of_nat (length (ws ++ sg ++ body))) erange) /\
    rounds_to 23 8 (if neg then Ropp (decimal_value ip fp x) else decimal_value ip fp x) neg v /\ erange = fisinf 23 8 v.
Proof.
  intros ws sg body rest neg ip fp x Hw Hsg T Lg Hx L Hd HD HH. destruct (decimal_tokens _ _ _ _ T) as (F & Hne).
  destruct (copy_float 256 ws sg body rest Hw (sign_three _ _ _ Hsg) F Hne ltac:(lia)) as (r & E & C & B). unfold wcstof. rewrite E.
  assert (length (ip ++ fp) <= length body)%nat by (destruct T as (dot & ex & -> & _); rewrite !app_length; lia).
  apply C78_strtof_decimal_partial; auto; [revert Lg; apply cut_longest; exact C|intros H'; apply Hx; revert H'; apply cut_hex; exact C|].
  rewrite !app_length in L. lia.
Qed.
Print Assumptions C98_wcstof_decimal_partial.
Theorem C98_wcstod_hex_partial : forall ws sg body rest neg ip fp x,
  Forall is_space_spec ws -> sign_ok sg body neg -> hex_text body ip fp x -> longest hex_P body rest ->
  Z.of_nat (length (ws ++ sg ++ body)) <= 255 -> (forall n c, body <> 48 :: c :: repeat 48 n ++ [46]) ->
  ((bpow radix2 (-1022) <= hex_value ip fp x)%R \/ exists u i, hexnum (ip ++ fp) = u * 2^i /\ 0 <= i /\ 0 <= u < 2^53) ->
  exists v erange, wcstod (ws ++ sg ++ body ++ rest) = Ok (mk_fparsed v (Z.of_nat (length (ws ++ sg ++ body))) erange) /\
    rounds_to 52 11 (if neg then Ropp (hex_value ip fp x) else hex_value ip fp x) neg v /\ erange = fisinf 52 11 v.
Proof.
  intros ws sg body rest neg ip fp x Hw Hsg T Lg L Hd HD. destruct (hex_tokens _ _ _ _ T) as (F & Hne).
  destruct (copy_float 256 ws sg body rest Hw (sign_three _ _ _ Hsg) F Hne ltac:(lia)) as (r & E & C & B). unfold wcstod. rewrite E.
  assert (length (ip ++ fp) <= length body)%nat by (destruct T as (c & t & -> & _ & dot & ex & -> & _); cbn [length]; rewrite !app_length; lia).
  apply C78_strtod_hex_partial; auto; [revert Lg; apply cut_longest; exact C|].
  rewrite !app_length in L. lia.
Qed.
Print Assumptions C98_wcstod_hex_partial.
Theorem C98_wcstof_hex_partial : forall ws sg body rest neg ip fp x,
  Forall is_space_spec ws -> sign_ok sg body neg -> hex_text body ip fp x -> longest hex_P body rest ->
  Z.of_nat (length (ws ++ sg ++ body)) <= 255 -> (forall n c, body <> 48 :: c :: repeat 48 n ++ [46]) ->
  ((bpow radix2 (-126) <= hex_value ip fp x)%R \/ exists u i, hexnum (ip ++ fp) = u * 2^i /\ 0 <= i /\ 0 <= u < 2^24) ->
  exists v erange, wcstof (ws ++ sg ++ body ++ rest) = Ok (mk_fparsed v (Z.of_nat (length (ws ++ sg ++ body))) erange) /\
    rounds_to 23 8 (if neg then Ropp (hex_value ip fp x) else hex_value ip fp x) neg v /\ erange = fisinf 23 8 v.
Proof.
  intros ws sg body rest neg ip fp x Hw Hsg T Lg L Hd HD. destruct (hex_tokens _ _ _ _ T) as (F & Hne).
  destruct (copy_float 256 ws sg body rest Hw (sign_three _ _ _ Hsg) F Hne ltac:(lia)) as (r & E & C & B). unfold wcstof. rewrite E.
  assert (length (ip ++ fp) <= length body)%nat by (destruct T as (c & t & -> & _ & dot & ex & -> & _); cbn [length]; rewrite !app_length; lia).
  apply C78_strtof_hex_partial; auto; [revert Lg; apply cut_longest; exact C|].
  rewrite !app_length in L. lia.
Qed.
Print Assumptions C98_wcstof_hex_partial.
(** L"12.5e3" followed by U+00E9 *)
Example C98_wcstod_ex : wcstod ([49; 50; 46; 53; 101; 51] ++ [0xE9]) = Ok (mk_fparsed 0x40C86A0000000000 6 false) /\
  decimal_domain [49; 50] [53] 3 /\ wcstod ([48; 120; 49; 46; 56; 112; 51] ++ [0x2026]) = Ok (mk_fparsed 0x4028000000000000 7 false).
Proof. split; [vm_compute; reflexivity|]. split; [exact (proj1 (proj2 (proj2 (proj2 (proj2 C78_decimal_ex)))))|vm_compute; reflexivity]. Qed.
