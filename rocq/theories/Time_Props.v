(** C43-C46, C79: the calendar functions. *)
From Coq Require Import String.
From Verif Require Import Base Time_Model Time_Spec Time_Proof Time_Fmt_Proof.
Open Scope Z_scope.
Open Scope list_scope.

(** C43.  [first_year] = INT_MIN + 1900 and [last_year] = INT_MAX: the years Y for which Y and the
    member tm_year = Y - 1900 are both representable. *)
Theorem C43_gmtime t : 86400 * year_start first_year <= t < 86400 * year_start (last_year + 1) ->
  exists x, gmtime t = Ok x /\ broken_down t x /\ forall x', broken_down t x' -> x' = x.
Proof. intros H. destruct (break_down_ok t H) as (x & E & B). exists x. split; [exact E|]. split; [exact B|]. intros x' B'. exact (broken_down_unique t x' x B' B). Qed.
Print Assumptions C43_gmtime.
Theorem C43_localtime t : 86400 * year_start first_year <= t < 86400 * year_start (last_year + 1) ->
  exists x, localtime t = Ok x /\ broken_down t x.
Proof. intros H. destruct (C43_gmtime t H) as (x & E & B & _). eauto. Qed.
Print Assumptions C43_localtime.
(** 29 February 2000 23:59:59 was a Tuesday; so was 1 March 1900 not (it was a Thursday). *)
Example C43_example : gmtime 951868799 = Ok (mk_tm 59 59 23 29 1 100 2 59 0).
Proof. reflexivity. Qed.
Example C43_example_1900 : gmtime (-2203891200) = Ok (mk_tm 0 0 0 1 2 0 4 59 0).
Proof. reflexivity. Qed.
Example C43_example_range : 86400 * year_start first_year <= -2203891200 < 86400 * year_start (last_year + 1).
Proof. split; [apply Z.leb_le|apply Z.ltb_lt]; reflexivity. Qed.
(** Every valid date has a time, so the range hypothesis selects exactly the representable years. *)
Theorem C43_range x t : broken_down t x -> first_year <= tm_year x + 1900 <= last_year ->
  86400 * year_start first_year <= t < 86400 * year_start (last_year + 1).
Proof.
  intros (H1 & H2 & H3 & V & E & _) Y. pose proof (valid_range _ _ _ V) as R.
  pose proof (year_start_mono first_year (tm_year x + 1900) ltac:(lia)). pose proof (year_start_mono (tm_year x + 1900 + 1) (last_year + 1) ltac:(lia)). lia.
Qed.
Print Assumptions C43_range.

(** C44 *)
Theorem C44_mktime_inverts_gmtime t x : 86400 * year_start first_year <= t < 86400 * year_start (last_year + 1) ->
  gmtime t = Ok x -> mktime x = Ok (t, x).
Proof.
  intros H G. destruct (break_down_ok t H) as (x0 & E & B). unfold gmtime in G. rewrite E in G. injection G as ->.
  pose proof B as B0. destruct B as (H1 & H2 & H3 & V & Et & _). pose proof V as [Hm Hd].
  assert (Y : first_year <= tm_year x + 1900 <= last_year).
  { pose proof (valid_range _ _ _ V) as R. split.
    - destruct (Z_le_gt_dec first_year (tm_year x + 1900)); [assumption|]. pose proof (year_start_mono (tm_year x + 1900 + 1) first_year ltac:(lia)). lia.
    - destruct (Z_le_gt_dec (tm_year x + 1900) last_year); [assumption|]. pose proof (year_start_mono (last_year + 1) (tm_year x + 1900) ltac:(lia)). lia. }
  assert (Ml : month_len (tm_year x + 1900) (tm_mon x) <= 31).
  { unfold month_len, month_lens. generalize (Z.to_nat (tm_mon x)). intros i. do 12 (destruct i as [|i]; [cbn [nth]; destruct (leap (tm_year x + 1900)); lia|]). destruct i; cbn [nth]; lia. }
  assert (Dm : tm_mon x / 12 = 0) by lia. assert (Mm : tm_mon x mod 12 = tm_mon x) by lia.
  unfold first_year, last_year in Y.
  destruct (mktime_ok x) as (x' & E' & B').
  all: rewrite ?Dm, ?Mm, ?Z.add_0_r, <- ?Et in *; unfold is_i32, INT_MIN, INT_MAX; try lia.
  - apply era_start_le; lia.
  - rewrite E'. do 2 f_equal. exact (broken_down_unique t x' x B' B0).
Qed.
Print Assumptions C44_mktime_inverts_gmtime.

(** Out-of-range members carry, provided the day of the month does not reach back before the
    400-year era (starting on a 1 March of a year divisible by 400) of the year and month. *)
Theorem C44_mktime_normalises_partial x (y := tm_year x + 1900 + tm_mon x / 12) (m := tm_mon x mod 12)
  (t := 86400 * day_number y m (tm_mday x) + 3600 * tm_hour x + 60 * tm_min x + tm_sec x) :
  is_i32 (tm_year x) -> is_i32 (tm_mon x) -> is_i32 (tm_mday x) -> is_i32 (tm_hour x) -> is_i32 (tm_min x) -> is_i32 (tm_sec x) ->
  tm_year x + 1900 <= INT_MAX -> first_year <= y <= last_year ->
  1 <= tm_mday x \/ day_number (400 * ((y - b2z (m <? 2)) / 400)) 2 1 <= day_number y m (tm_mday x) ->
  86400 * year_start first_year <= t < 86400 * year_start (last_year + 1) ->
  exists x', mktime x = Ok (t, x') /\ broken_down t x'.
Proof.
  intros H1 H2 H3 H4 H5 H6 H7 H8 H9 H10. apply mktime_ok; try assumption; fold y m; [unfold first_year, last_year in H8; lia|].
  destruct H9 as [H9|H9]; [|exact H9]. eapply Z.le_trans; [apply (era_start_le y m 1); [split; unfold m; lia|lia]|]. unfold day_number. lia.
Qed.
Print Assumptions C44_mktime_normalises_partial.
(** 31 of month 23 of 1999, 24:-1:3661, is 1 January 2001 01:00:01. *)
Example C44_example : mktime (mk_tm 3661 (-1) 24 31 23 99 0 0 0) = Ok (978310801, mk_tm 1 0 1 1 0 101 1 0 0).
Proof. reflexivity. Qed.
(** mktime of 0 March 2000 (29 February 2000) is off by 2^32 days. *)
Theorem C44_normalises_refuted : exists x t', mktime x = Ok t' /\
  fst t' <> 86400 * day_number (tm_year x + 1900) (tm_mon x) (tm_mday x) + 3600 * tm_hour x + 60 * tm_min x + tm_sec x /\
  tm_mon x = 2 /\ tm_mday x = 0 /\ tm_year x = 100 /\ fst t' = 951782400 + 86400 * 2^32.
Proof. eexists (mk_tm 0 0 0 0 2 100 0 0 0), _. split; [vm_compute; reflexivity|]. repeat split. vm_compute. discriminate. Qed.
Print Assumptions C44_normalises_refuted.

(** C45.  For every format there is a text e, the same for every buffer, such that strftime into a
    buffer of n bytes stores e and a terminator and returns e's length when that fits, and returns
    0 otherwise; the bytes after the buffer never change.  (Storing elsewhere would be UB.) *)
Theorem C45_strftime_bounds x fmt : is_i32 (tm_year x + 1900) -> is_i32 (tm_mon x + 1) -> is_i32 (tm_yday x + 1) ->
  exists e, forall buf rest, Z.of_nat (List.length buf) < 2^32 ->
    exists r mem, strftime (buf ++ rest) (Z.of_nat (List.length buf)) fmt x = Ok (r, mem) /\ strftime_result e buf rest r mem.
Proof. intros Hy Hm Hd. exists (fmt_text (full x) fmt). intros buf rest L. apply strftime_ok; [unfold safe; auto|exact L]. Qed.
Print Assumptions C45_strftime_bounds.
Definition leap_day : tm := mk_tm 5 4 23 29 1 124 4 59 0.
Example C45_example_fits : strftime (text "........#"%string) 8 (text "%d%b%%"%string) leap_day = Ok (6, text "29Feb%"%string ++ [0; 46; 35]).
Proof. reflexivity. Qed.
Example C45_example_full : exists m, strftime (text "......#"%string) 6 (text "%d%b%%"%string) leap_day = Ok (0, m) /\ nth 6 m 0 = 35.
Proof. eexists. split; reflexivity. Qed.

(** C46.  The year must have four digits (7.27.3.1p3); the static buffer has 26 bytes. *)
Theorem C46_asctime x buf : in_range x -> 1000 <= tm_year x + 1900 <= 9999 -> List.length buf = 26%nat ->
  asctime buf x = Ok (asctime_text x ++ [0]) /\ List.length (asctime_text x) = 25%nat.
Proof. exact (asctime_ok x buf). Qed.
Print Assumptions C46_asctime.
Example C46_example : asctime_text leap_day = text "Thu Feb 29 23:04:05 2024"%string ++ [10].
Proof. reflexivity. Qed.
Theorem C46_ctime t buf : 86400 * year_start 1000 <= t < 86400 * year_start 10000 -> List.length buf = 26%nat ->
  exists x, broken_down t x /\ ctime buf t = Ok (asctime_text x ++ [0]).
Proof.
  intros H L. destruct (break_down_ok t) as (x & E & B).
  { pose proof (year_start_mono first_year 1000 ltac:(unfold first_year; lia)). pose proof (year_start_mono 10000 (last_year + 1) ltac:(unfold last_year; lia)). lia. }
  exists x. split; [exact B|]. unfold ctime, localtime, gmtime. rewrite E. cbn [bind].
  destruct B as (H1 & H2 & H3 & V & Et & Yd & Wd & _). pose proof V as [Hm Hd]. pose proof (valid_range _ _ _ V) as R.
  assert (Y : 1000 <= tm_year x + 1900 <= 9999).
  { split.
    - destruct (Z_le_gt_dec 1000 (tm_year x + 1900)); [assumption|]. pose proof (year_start_mono (tm_year x + 1900 + 1) 1000 ltac:(lia)). lia.
    - destruct (Z_le_gt_dec (tm_year x + 1900) 9999); [assumption|]. pose proof (year_start_mono 10000 (tm_year x + 1900) ltac:(lia)). lia. }
  assert (Ml : month_len (tm_year x + 1900) (tm_mon x) <= 31).
  { unfold month_len, month_lens. generalize (Z.to_nat (tm_mon x)). intros i. do 12 (destruct i as [|i]; [cbn [nth]; destruct (leap (tm_year x + 1900)); lia|]). destruct i; cbn [nth]; lia. }
  apply asctime_ok; [|exact Y|exact L].
  rewrite year_start_succ in R. unfold year_len, day_number in R. unfold in_range, INT_MAX. destruct (leap _); lia.
Qed.
Print Assumptions C46_ctime.

(** C79.  Formats made of the conversion specifications of the C standard, except %g %G %U %V %W %z. *)
Theorem C79_strftime_text_partial x l e buf rest : in_range x -> Forall token_ok l -> Forall implemented l -> meaning x l = Some e ->
  Z.of_nat (List.length buf) < 2^32 ->
  exists r mem, strftime (buf ++ rest) (Z.of_nat (List.length buf)) (format_text l) x = Ok (r, mem) /\ strftime_result e buf rest r mem.
Proof.
  intros R K I M L. destruct (strftime_ok x (format_text l) buf rest (in_range_safe x R) L) as (r & mem & E & S).
  rewrite (fmt_text_meaning x l e R K I M) in S. eauto.
Qed.
Print Assumptions C79_strftime_text_partial.
Example C79_example_hyps : in_range leap_day /\ format_text [Conv None 99; Lit 44; Conv (Some 69) 106; Conv None 114] = text "%c,%Ej%r"%string /\
  meaning leap_day [Conv None 99; Lit 44; Conv (Some 69) 106; Conv None 114] = Some (text "Thu Feb 29 23:04:05 2024,06011:04:05 PM"%string).
Proof. split; [unfold in_range, INT_MAX; cbn; lia|]. split; reflexivity. Qed.
(** %U (the week of the year) is copied instead of converted. *)
Theorem C79_strftime_text_refuted : exists x e mem, in_range x /\ meaning x [Conv None 85] = Some e /\ e = text "08"%string /\
  strftime [0; 0; 0; 0] 4 (format_text [Conv None 85]) x = Ok (2, mem) /\ mem = text "%U"%string ++ [0; 0].
Proof.
  exists leap_day. do 2 eexists. split; [unfold in_range, INT_MAX; cbn; lia|]. split; [reflexivity|]. split; [reflexivity|]. split; reflexivity.
Qed.
Print Assumptions C79_strftime_text_refuted.
