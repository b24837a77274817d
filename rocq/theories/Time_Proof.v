From Verif Require Import Base Time_Model Time_Spec.
Open Scope Z_scope.

Ltac tonat := repeat match goal with |- context[Z.to_nat ?k] => let v := eval vm_compute in (Z.to_nat k) in progress change (Z.to_nat k) with v end.
(** ** Days and civil dates *)
(** Days from 1 March of a year divisible by 400 to 1 March n years later. *)
Definition mstart (n : Z) : Z := 365 * n + n / 4 - n / 100.
(** The same at n = 400 and beyond is not needed. *)
Lemma doe_split doe : 0 <= doe <= 146096 -> exists c q k z, 0 <= c <= 3 /\ 0 <= q <= 24 /\ 0 <= k <= 3 /\ 0 <= z <= 365 /\
  doe = 36524 * c + 1461 * q + 365 * k + z /\ (z = 365 -> k = 3 /\ (q = 24 -> c = 3)).
Proof.
  intros H. set (c := Z.min 3 (doe / 36524)). set (r := doe - 36524 * c).
  assert (Hr : 0 <= r <= 36524 /\ (r = 36524 -> c = 3)) by (unfold r, c; lia).
  set (q := Z.min 24 (r / 1461)). set (s := r - 1461 * q).
  assert (Hq : 0 <= q <= 24) by (unfold q; lia).
  assert (Hs : 0 <= s <= 1460 /\ (s = 1460 -> q = 24 -> c = 3)) by (unfold s, q; lia).
  set (k := Z.min 3 (s / 365)). exists c, q, k, (s - 365 * k).
  assert (0 <= k <= 3) by (unfold k; lia). assert (0 <= s - 365 * k <= 365 /\ (s - 365 * k = 365 -> s = 1460)) by (unfold k; lia).
  unfold r in *. repeat split; try lia; unfold c; lia.
Qed.
Lemma yoe_ok c q k z : 0 <= c <= 3 -> 0 <= q <= 24 -> 0 <= k <= 3 -> 0 <= z <= 365 -> (z = 365 -> k = 3 /\ (q = 24 -> c = 3)) ->
  let doe := 36524 * c + 1461 * q + 365 * k + z in
  (doe - doe / 1460 + doe / 36524 - doe / 146096) / 365 = 100 * c + 4 * q + k /\
  mstart (100 * c + 4 * q + k) = doe - z.
Proof.
  intros Hc Hq Hk Hz Hl doe. 
  assert (A : doe / 1460 = 25 * c + q + b2z (1460 <=? 24 * c + q + 365 * k + z)).
  { unfold doe. destruct (Z.leb_spec 1460 (24 * c + q + 365 * k + z)); cbn [b2z]; lia. }
  assert (B : doe / 36524 = c + b2z (doe =? 146096)). { unfold doe. destruct (Z.eqb_spec (36524 * c + 1461 * q + 365 * k + z) 146096); cbn [b2z]; lia. }
  assert (C : doe / 146096 = b2z (doe =? 146096)). { unfold doe. destruct (Z.eqb_spec (36524 * c + 1461 * q + 365 * k + z) 146096); cbn [b2z]; lia. }
  rewrite A, B, C. split.
  - unfold doe. destruct (Z.leb_spec 1460 (24 * c + q + 365 * k + z)); cbn [b2z]; lia.
  - unfold mstart, doe. lia.
Qed.
Lemma mstart_day e n : 0 <= n <= 399 -> year_start (400 * e + n + 1) - 306 = 146097 * e + mstart n - 719468.
Proof. intros. unfold year_start, mstart. lia. Qed.
Lemma month_start_march y m : 2 <= m <= 11 ->
  month_start y m = year_len y - 306 + nth (Z.to_nat (m - 2)) [0; 31; 61; 92; 122; 153; 184; 214; 245; 275] 0.
Proof.
  intros. assert (m = 2 \/ m = 3 \/ m = 4 \/ m = 5 \/ m = 6 \/ m = 7 \/ m = 8 \/ m = 9 \/ m = 10 \/ m = 11) as C by lia.
  unfold year_len. repeat destruct C as [-> | C]; [..|subst m]; unfold month_start, month_lens; destruct (leap y); reflexivity.
Qed.
Lemma month_of_doy doy : 0 <= doy <= 365 ->
  let mp := (5 * doy + 2) / 153 in let dm := doy - (153 * mp + 2) / 5 + 1 in
  0 <= mp <= 11 /\
  (mp < 10 -> 1 <= dm <= nth (Z.to_nat mp) [31; 30; 31; 30; 31; 31; 30; 31; 30; 31] 0 /\
     nth (Z.to_nat mp) [0; 31; 61; 92; 122; 153; 184; 214; 245; 275] 0 + dm - 1 = doy) /\
  (mp = 10 -> 1 <= dm <= 31 /\ 306 + dm - 1 = doy) /\
  (mp = 11 -> 1 <= dm <= 29 /\ 337 + dm - 1 = doy).
Proof.
  intros H mp dm. assert (Hm : 0 <= mp <= 11) by (unfold mp; lia).
  assert (E : mp = (5 * doy + 2) / 153) by reflexivity. unfold dm. clearbody mp.
  split; [exact Hm|].
  assert (mp = 0 \/ mp = 1 \/ mp = 2 \/ mp = 3 \/ mp = 4 \/ mp = 5 \/ mp = 6 \/ mp = 7 \/ mp = 8 \/ mp = 9 \/ mp = 10 \/ mp = 11) as C by lia.
  repeat destruct C as [-> | C]; [..|subst mp]; tonat; cbn [nth]; lia.
Qed.
Lemma u32_id x : 0 <= x < 2^32 -> u32 x = x.
Proof. intros. unfold u32. apply Z.mod_small. lia. Qed.
Lemma s32_id x : - 2^31 <= x < 2^31 -> s32 x = x.
Proof. intros. unfold s32, sgn. change (2^(32-1)) with 2147483648. change (2^32) with 4294967296. destruct (_ <? _) eqn:E; lia. Qed.
Lemma chk_i32_ok x : - 2^31 <= x < 2^31 -> chk_i32 x = Ok x.
Proof. intros. apply Base.chk_i32_ok. unfold INT_MIN, INT_MAX. lia. Qed.
Lemma chk_i64_ok x : - 2^63 <= x < 2^63 -> chk_i64 x = Ok x.
Proof. intros. apply Base.chk_i64_ok. lia. Qed.

Lemma civil_steps days e doe n z mp :
  -1000000000000 <= days <= 1000000000000 -> Z.quot (if days + 719468 >=? 0 then days + 719468 else days + 719468 - 146096) 146097 = e ->
  days + 719468 = 146097 * e + doe -> 0 <= doe <= 146096 -> (doe - doe / 1460 + doe / 36524 - doe / 146096) / 365 = n ->
  mstart n = doe - z -> 0 <= n <= 399 -> 0 <= z <= 365 -> (5 * z + 2) / 153 = mp -> - 2^31 <= e * 400 -> e * 400 + n < 2^31 ->
  (10 <= mp -> e * 400 + n + 1 < 2^31) -> 1 <= z - (153 * mp + 2) / 5 + 1 ->
  civil_from_days days = Ok (e * 400 + n + b2z (10 <=? mp), (if mp <? 10 then mp + 3 else mp - 9), z - (153 * mp + 2) / 5 + 1).
Proof.
  intros R Hq Ed Hd Ey Em Hn Hz Emp E1 E2 E3 E4. assert (0 <= mp <= 11) by lia.
  unfold civil_from_days. rewrite chk_i64_ok by lia. cbn [bind].
  replace (if days + 719468 >=? 0 then Ok (days + 719468) else chk_i64 (days + 719468 - 146096))
    with (Ok (if days + 719468 >=? 0 then days + 719468 else days + 719468 - 146096))
    by (destruct (_ >=? _); [reflexivity|rewrite chk_i64_ok by lia; reflexivity]).
  cbn [bind]. rewrite Hq. replace (days + 719468 - e * 146097) with doe by lia. clear Hq Ed R.
  rewrite (u32_id doe), (u32_id (doe - doe / 1460)), (u32_id (doe - doe / 1460 + doe / 36524)), (u32_id (doe - doe / 1460 + doe / 36524 - doe / 146096)) by lia.
  rewrite Ey. clear Ey. rewrite (s32_id n), (s32_id (e * 400)), chk_i32_ok by lia. cbn [bind].
  rewrite (u32_id (365 * n)), (u32_id (365 * n + n / 4)), (u32_id (365 * n + n / 4 - n / 100)) by lia. fold (mstart n). rewrite Em. clear Em.
  replace (doe - (doe - z)) with z by lia. rewrite (u32_id z), (u32_id (5 * z)), (u32_id (5 * z + 2)) by lia. rewrite Emp.
  rewrite (u32_id (153 * mp)), (u32_id (153 * mp + 2)), (u32_id (z - (153 * mp + 2) / 5)) by lia. 
  rewrite (u32_id (z - _ + 1)) by lia. clear Emp Hd.
  destruct (Z.ltb_spec mp 10) as [L|L]; destruct (Z.leb_spec 10 mp); try lia; cbn [b2z].
  - rewrite (u32_id (mp + 3)) by lia. destruct (Z.leb_spec (mp + 3) 2); [lia|]. cbn [bind]. rewrite !s32_id by lia. do 2 f_equal. f_equal. lia.
  - rewrite (u32_id (mp - 9)) by lia. destruct (Z.leb_spec (mp - 9) 2); [|lia]. rewrite chk_i32_ok by lia. cbn [bind]. rewrite !s32_id by lia. do 2 f_equal. f_equal. lia.
Qed.
Definition first_year : Z := - 2^31 + 1900.
Definition last_year : Z := 2^31 - 1.
Lemma year_start_mono a b : a <= b -> year_start a <= year_start b.
Proof. unfold year_start. lia. Qed.
Lemma civil_ok days : year_start first_year <= days < year_start (last_year + 1) ->
  exists y m d, civil_from_days days = Ok (y, m + 1, d) /\ valid_date y m d /\ day_number y m d = days /\ first_year <= y <= last_year.
Proof.
  intros R. assert (R' : -1000000000000 <= days <= 1000000000000).
  { let a := eval vm_compute in (year_start first_year) in change (year_start first_year) with a in R.
    let a := eval vm_compute in (year_start (last_year + 1)) in change (year_start (last_year + 1)) with a in R. lia. }
  set (e := (days + 719468) / 146097). set (doe := (days + 719468) mod 146097).
  assert (Ed : days + 719468 = 146097 * e + doe) by (unfold e, doe; lia).
  assert (Hd : 0 <= doe <= 146096) by (unfold doe; lia).
  assert (Hq : Z.quot (if days + 719468 >=? 0 then days + 719468 else days + 719468 - 146096) 146097 = e).
  { destruct (Z.geb_spec (days + 719468) 0).
    - rewrite Z.quot_div_nonneg by lia. reflexivity.
    - replace (days + 719468 - 146096) with (- (146096 - (days + 719468))) by lia. rewrite Z.quot_opp_l, Z.quot_div_nonneg by lia. lia. }
  destruct (doe_split doe Hd) as (c & q & k & z & Hc & Hqq & Hk & Hz & E & Hl).
  destruct (yoe_ok c q k z Hc Hqq Hk Hz Hl) as [Ey Em]. cbv zeta in Ey, Em. rewrite <- E in Ey, Em.
  set (n := 100 * c + 4 * q + k) in *. assert (Hn : 0 <= n <= 399) by lia.
  clearbody e doe.
  (* the March-based year *)
  assert (Mar : year_start (400 * e + n + 1) - 306 = days - z) by (rewrite mstart_day by lia; lia).
  assert (Yup : year_start (400 * e + n + 2) = year_start (400 * e + n + 1) + year_len (400 * e + n + 1)).
  { rewrite <- year_start_succ. f_equal. lia. }
  assert (Ydn : year_start (400 * e + n + 1) = year_start (400 * e + n) + year_len (400 * e + n)) by apply year_start_succ.
  assert (YL : z = 365 -> leap (400 * e + n + 1) = true).
  { intros Hz3. destruct (Hl Hz3) as [-> Hc3]. unfold leap, n. lia. }
  pose proof (month_of_doy z Hz) as M. cbv zeta in M. set (mp := (5 * z + 2) / 153) in *. set (dm := z - (153 * mp + 2) / 5 + 1) in *.
  destruct M as (Hmp & M1 & M2 & M3).
  (* which year *)
  assert (Low : mp < 10 -> z < 306) by (unfold mp; lia).
  assert (High : 10 <= mp -> 306 <= z) by (unfold mp; lia).
  assert (B1 : 400 * e + n <= last_year).
  { destruct (Z_le_gt_dec (400 * e + n) last_year); [assumption|].
    pose proof (year_start_mono (last_year + 1) (400 * e + n) ltac:(lia)). unfold year_len in *. destruct (leap (400 * e + n)); lia. }
  assert (B1' : 10 <= mp -> 400 * e + n + 1 <= last_year).
  { intros. destruct (Z_le_gt_dec (400 * e + n + 1) last_year); [assumption|].
    pose proof (year_start_mono (last_year + 1) (400 * e + n + 1) ltac:(lia)). lia. }
  assert (B2 : first_year <= 400 * e + n + 1).
  { destruct (Z_le_gt_dec first_year (400 * e + n + 1)); [assumption|].
    pose proof (year_start_mono (400 * e + n + 2) first_year ltac:(lia)). unfold year_len in *. destruct (leap (400 * e + n + 1)); lia. }
  assert (B2' : mp < 10 -> first_year <= 400 * e + n).
  { intros. destruct (Z_le_gt_dec first_year (400 * e + n)); [assumption|].
    pose proof (year_start_mono (400 * e + n + 1) first_year ltac:(lia)). lia. }
  unfold first_year, last_year in *.
  assert (D1 : 1 <= dm) by (assert (mp < 10 \/ mp = 10 \/ mp = 11) as [C|[C|C]] by lia; [apply M1 in C|apply M2 in C|apply M3 in C]; lia).
  rewrite (civil_steps days e doe n z mp) by (assumption || reflexivity || lia). fold dm. clear Hq Ey Em Ed E.
  destruct (Z.ltb_spec mp 10) as [L|L]; destruct (Z.leb_spec 10 mp); try lia; cbn [b2z].
  - destruct (M1 L) as [D2 D3]. clear M1 M2 M3.
    exists (400 * e + n), (mp + 2), dm. split; [do 2 f_equal; f_equal; lia|]. split.
    + split; [lia|]. enough (Em2 : month_len (400 * e + n) (mp + 2) = nth (Z.to_nat mp) [31; 30; 31; 30; 31; 31; 30; 31; 30; 31] 0) by (rewrite Em2; lia).
      unfold month_len, month_lens. replace (Z.to_nat (mp + 2)) with (S (S (Z.to_nat mp))) by lia.
      generalize (Z.to_nat mp). intros i. do 10 (destruct i as [|i]; [reflexivity|]). destruct i; reflexivity.
    + split; [|lia]. unfold day_number. rewrite month_start_march by lia. replace (mp + 2 - 2) with mp by lia. lia.
  - exists (400 * e + n + 1), (mp - 10), dm. split; [do 2 f_equal; f_equal; lia|]. 
    assert (mp = 10 \/ mp = 11) as [C|C] by lia; rewrite C; change (10 - 10) with 0; change (11 - 10) with 1.
    + destruct (M2 C). clear M1 M2 M3. split; [split; [lia|]; unfold month_len, month_lens; tonat; cbn [nth]; lia|].
      split; [|lia]. unfold day_number, month_start, month_lens. tonat. cbn [firstn sum fold_right]. lia.
    + destruct (M3 C). clear M1 M2 M3. split; [|split; [unfold day_number, month_start, month_lens; tonat; cbn [firstn sum fold_right]; lia|lia]].
      split; [lia|]. unfold month_len, month_lens. tonat. cbn [nth]. destruct (Z.eq_dec z 365) as [Z5|]; [rewrite YL by exact Z5; lia|]. destruct (leap _); lia.
Qed.

(** ** Uniqueness of dates *)
Lemma month_start_succ y m : 0 <= m <= 11 -> month_start y (m + 1) = month_start y m + month_len y m.
Proof.
  intros. assert (m = 0 \/ m = 1 \/ m = 2 \/ m = 3 \/ m = 4 \/ m = 5 \/ m = 6 \/ m = 7 \/ m = 8 \/ m = 9 \/ m = 10 \/ m = 11) as C by lia.
  unfold month_start, month_len, month_lens. repeat destruct C as [-> | C]; [..|subst m]; destruct (leap y); reflexivity.
Qed.
Lemma month_start_mono y m (k : nat) : 0 <= m -> m + Z.of_nat k <= 12 -> month_start y m <= month_start y (m + Z.of_nat k).
Proof.
  intros Hm. induction k as [|k IH]; intros H; [replace (m + Z.of_nat 0) with m by lia; lia|].
  replace (m + Z.of_nat (S k)) with (m + Z.of_nat k + 1) by lia. rewrite month_start_succ by lia.
  enough (0 <= month_len y (m + Z.of_nat k)) by lia. unfold month_len, month_lens.
  generalize (Z.to_nat (m + Z.of_nat k)). intros i. do 12 (destruct i as [|i]; [cbn [nth]; destruct (leap y); lia|]). destruct i; cbn [nth]; lia.
Qed.
Lemma month_start_12 y : month_start y 12 = year_len y.
Proof. unfold month_start, month_lens, year_len. destruct (leap y); reflexivity. Qed.
Lemma month_start_le y m m' : 0 <= m <= m' -> m' <= 12 -> month_start y m <= month_start y m'.
Proof. intros. replace m' with (m + Z.of_nat (Z.to_nat (m' - m))) by lia. apply month_start_mono; lia. Qed.
Lemma valid_range y m d : valid_date y m d -> year_start y <= day_number y m d < year_start (y + 1).
Proof.
  intros [Hm Hd]. pose proof (month_start_le y 0 m ltac:(lia) ltac:(lia)) as L. change (month_start y 0) with 0 in L.
  pose proof (month_start_le y (m + 1) 12 ltac:(lia) ltac:(lia)) as U. rewrite month_start_12 in U. rewrite month_start_succ in U by lia.
  rewrite year_start_succ. unfold day_number. lia.
Qed.
Lemma date_unique y m d y' m' d' : valid_date y m d -> valid_date y' m' d' -> day_number y m d = day_number y' m' d' -> y = y' /\ m = m' /\ d = d'.
Proof.
  intros V V' E. pose proof (valid_range _ _ _ V). pose proof (valid_range _ _ _ V').
  assert (y = y').
  { destruct (Z.lt_trichotomy y y') as [L|[L|L]]; [|exact L|].
    - pose proof (year_start_mono (y + 1) y' ltac:(lia)). lia.
    - pose proof (year_start_mono (y' + 1) y ltac:(lia)). lia. }
  subst y'. destruct V as [Hm Hd], V' as [Hm' Hd']. unfold day_number in E.
  assert (m = m').
  { destruct (Z.lt_trichotomy m m') as [L|[L|L]]; [|exact L|].
    - pose proof (month_start_le y (m + 1) m' ltac:(lia) ltac:(lia)) as U. rewrite month_start_succ in U by lia. lia.
    - pose proof (month_start_le y (m' + 1) m ltac:(lia) ltac:(lia)) as U. rewrite month_start_succ in U by lia. lia. }
  subst m'. lia.
Qed.
Lemma broken_down_unique t x x' : broken_down t x -> broken_down t x' -> x = x'.
Proof.
  destruct x as [s mi h d m y w yd i], x' as [s' mi' h' d' m' y' w' yd' i']. unfold broken_down.
  cbn [tm_sec tm_min tm_hour tm_mday tm_mon tm_year tm_wday tm_yday tm_isdst].
  intros (A1 & A2 & A3 & V & A5 & A6 & A7 & A8) (B1 & B2 & B3 & V' & B5 & B6 & B7 & B8).
  assert (E : day_number (y + 1900) m d = day_number (y' + 1900) m' d') by lia.
  destruct (date_unique _ _ _ _ _ _ V V' E) as (Ey & -> & ->). assert (y = y') by lia. subst y'.
  assert (h = h') by lia. assert (mi = mi') by lia. assert (s = s') by lia. subst. reflexivity.
Qed.

(** ** gmtime *)
Lemma is_leap_ok y : is_leap y = leap y.
Proof.
  assert (R : forall k, 0 < k -> (Z.rem y k =? 0) = (y mod k =? 0)).
  { intros k Hk. pose proof (Z.rem_mod_eq_0 y k ltac:(lia)) as R. destruct (Z.eqb_spec (Z.rem y k) 0), (Z.eqb_spec (y mod k) 0); tauto. }
  unfold is_leap, leap. rewrite !R by lia. reflexivity.
Qed.
Lemma month_yday_ok y m : 0 <= m <= 11 -> idx (month_yday (is_leap y)) m = Ok (month_start y m).
Proof.
  intros. rewrite is_leap_ok. assert (m = 0 \/ m = 1 \/ m = 2 \/ m = 3 \/ m = 4 \/ m = 5 \/ m = 6 \/ m = 7 \/ m = 8 \/ m = 9 \/ m = 10 \/ m = 11) as C by lia.
  unfold month_start, month_lens. repeat destruct C as [-> | C]; [..|subst m]; destruct (leap y); reflexivity.
Qed.
Lemma wday_ok days : (let w := Z.rem (s32 (Z.rem days 7) + 4) 7 in if w <? 0 then w + 7 else w) = (days + 4) mod 7.
Proof.
  cbv zeta. pose proof (Z.rem_bound_abs days 7 ltac:(lia)). rewrite s32_id by lia.
  pose proof (Z.quot_rem' days 7). pose proof (Z.quot_rem' (Z.rem days 7 + 4) 7). pose proof (Z.rem_bound_abs (Z.rem days 7 + 4) 7 ltac:(lia)).
  destruct (Z.ltb_spec (Z.rem (Z.rem days 7 + 4) 7) 0); lia.
Qed.
Lemma break_down_ok t : 86400 * year_start first_year <= t < 86400 * year_start (last_year + 1) ->
  exists x, break_down t = Ok x /\ broken_down t x.
Proof.
  intros R. unfold break_down.
  assert (E : (if Z.rem t 86400 <? 0 then (Z.rem t 86400 + 86400, Z.quot t 86400 - 1) else (Z.rem t 86400, Z.quot t 86400)) = (t mod 86400, t / 86400)).
  { pose proof (Z.quot_rem' t 86400). pose proof (Z.rem_bound_abs t 86400 ltac:(lia)). destruct (Z.ltb_spec (Z.rem t 86400) 0); f_equal; lia. }
  cbv zeta. rewrite E. destruct (civil_ok (t / 86400)) as (y & m & d & Ec & V & D & Y).
  { split; [apply Z.div_le_lower_bound; lia|apply Z.div_lt_upper_bound; lia]. }
  rewrite Ec. cbn [bind]. unfold first_year, last_year in Y. rewrite chk_i32_ok by lia. cbn [bind].
  replace (m + 1 - 1) with m by lia. rewrite month_yday_ok by apply V. cbn [bind].
  pose proof (wday_ok (t / 86400)) as W. cbv zeta in W. rewrite W.
  eexists. split; [reflexivity|]. unfold broken_down. cbn [tm_sec tm_min tm_hour tm_mday tm_mon tm_year tm_wday tm_yday tm_isdst].
  replace (y - 1900 + 1900) with y by lia. rewrite D.
  assert (H : 0 <= t mod 86400 < 86400) by lia. set (s := t mod 86400) in *.
  rewrite Z.rem_mod_nonneg, (Z.quot_div_nonneg s 60), (Z.quot_div_nonneg s 3600), Z.rem_mod_nonneg by lia.
  rewrite !s32_id by lia. repeat split; try lia; try apply V.
Qed.

(** ** mktime *)
(** Day 0 of the 400-year era (1 March of a year divisible by 400) in which month m of year y lies. *)
Definition era_of (y m : Z) : Z := (y - b2z (m <? 2)) / 400.
Lemma days_from_civil_ok y m d : - 2^31 + 400 <= y < 2^31 -> 0 <= m <= 11 -> is_i32 d ->
  day_number (400 * era_of y m) 2 1 <= day_number y m d ->
  days_from_civil y (u32 (m + 1)) (u32 d) = Ok (day_number y m d).
Proof.
  unfold is_i32, INT_MIN, INT_MAX. intros Hy Hm Hd N. unfold days_from_civil. rewrite (u32_id (m + 1)) by lia.
  set (e := era_of y m) in *. set (Y := y - b2z (m <? 2)).
  replace (y - b2z (m + 1 <=? 2)) with Y by (unfold Y; do 2 f_equal; lia).
  assert (HY : - 2^31 + 399 <= Y < 2^31) by (unfold Y; destruct (m <? 2); cbn [b2z]; lia).
  rewrite chk_i32_ok by lia. cbn [bind].
  replace (if Y >=? 0 then Ok Y else chk_i32 (Y - 399)) with (Ok (if Y >=? 0 then Y else Y - 399))
    by (destruct (Y >=? 0); [reflexivity|rewrite chk_i32_ok by lia; reflexivity]).
  cbn [bind]. assert (Q : Z.quot (if Y >=? 0 then Y else Y - 399) 400 = e).
  { unfold e, era_of. fold Y. destruct (Z.geb_spec Y 0).
    - rewrite Z.quot_div_nonneg by lia. reflexivity.
    - replace (Y - 399) with (- (399 - Y)) by lia. rewrite Z.quot_opp_l, Z.quot_div_nonneg by lia. lia. }
  rewrite Q. assert (He : e = Y / 400) by reflexivity. set (n := Y mod 400). assert (Yn : Y = 400 * e + n) by (unfold n; lia). assert (0 <= n <= 399) by (unfold n; lia).
  clearbody n e. clear He Q.
  rewrite chk_i32_ok by lia. cbn [bind]. rewrite chk_i32_ok by lia. cbn [bind]. replace (Y - e * 400) with n by lia. rewrite (u32_id n) by lia.
  set (mm := if 2 <? m + 1 then u32 (m + 1 - 3) else u32 (m + 1 + 9)).
  set (b := (153 * mm + 2) / 5).
  assert (Hmm : 0 <= mm <= 11) by (unfold mm; destruct (Z.ltb_spec 2 (m + 1)); rewrite u32_id; lia).
  assert (B : day_number y m d = 146097 * e + (mstart n + b + d - 1) - 719468 /\ 0 <= b <= 337).
  { pose proof (mstart_day e n ltac:(lia)) as M. rewrite <- Yn in M. unfold Y in M.
    assert (m = 0 \/ m = 1 \/ 2 <= m) as [C|[C|C]] by lia.
    - subst m. unfold b, mm. change (0 <? 2) with true in M. cbn [b2z] in M. replace (y - 1 + 1) with y in M by lia.
      unfold day_number. change (month_start y 0) with 0. change ((153 * (if 2 <? 0 + 1 then u32 (0 + 1 - 3) else u32 (0 + 1 + 9)) + 2) / 5) with 306. lia.
    - subst m. unfold b, mm. change (1 <? 2) with true in M. cbn [b2z] in M. replace (y - 1 + 1) with y in M by lia.
      unfold day_number. change (month_start y 1) with 31. change ((153 * (if 2 <? 1 + 1 then u32 (1 + 1 - 3) else u32 (1 + 1 + 9)) + 2) / 5) with 337. lia.
    - replace (m <? 2) with false in M by lia. cbn [b2z] in M. replace (y - 0 + 1) with (y + 1) in M by lia.
      unfold day_number. rewrite month_start_march by lia. rewrite year_start_succ in M.
      enough (b = nth (Z.to_nat (m - 2)) [0; 31; 61; 92; 122; 153; 184; 214; 245; 275] 0 /\ 0 <= b <= 337) by lia.
      unfold b, mm. clear -C Hm. assert (m = 2 \/ m = 3 \/ m = 4 \/ m = 5 \/ m = 6 \/ m = 7 \/ m = 8 \/ m = 9 \/ m = 10 \/ m = 11) as K by lia.
      repeat destruct K as [-> | K]; [..|subst m]; (split; [reflexivity|vm_compute; split; discriminate]). }
  destruct B as [B Hb]. rewrite B in *. clear B.
  assert (N0 : day_number (400 * e) 2 1 = 146097 * e - 719468).
  { pose proof (mstart_day e 0 ltac:(lia)) as M. change (mstart 0) with 0 in M. unfold day_number. rewrite month_start_march by lia. tonat. cbn [nth].
    replace (400 * e + 0 + 1) with (400 * e + 1) in M by lia. rewrite year_start_succ in M. lia. }
  rewrite N0 in N. assert (Hms : 0 <= mstart n <= 146000) by (unfold mstart; lia).
  rewrite (u32_id (153 * mm)), (u32_id (153 * mm + 2)) by lia. fold b.
  rewrite (u32_id (n * 365)), (u32_id (n * 365 + n / 4)), (u32_id (n * 365 + n / 4 - n / 100)) by lia.
  replace (n * 365 + n / 4 - n / 100) with (mstart n) by (unfold mstart; lia).
  replace (u32 (mstart n + u32 (u32 (b + u32 d) - 1))) with (mstart n + b + d - 1).
  2:{ unfold u32. clear - N Hms Hb Hd. symmetry.
      rewrite Zplus_mod_idemp_r. rewrite <- (Zplus_mod_idemp_l (mstart n)), Zplus_mod_idemp_l.
      replace (mstart n + (((b + d mod 2 ^ 32) mod 2 ^ 32) - 1)) with (mstart n - 1 + ((b + d mod 2 ^ 32) mod 2 ^ 32)) by lia.
      rewrite Zplus_mod_idemp_r. replace (mstart n - 1 + (b + d mod 2^32)) with (mstart n - 1 + b + d mod 2^32) by lia.
      rewrite Zplus_mod_idemp_r. rewrite Z.mod_small by lia. lia. }
  rewrite chk_i64_ok by lia. f_equal. lia.
Qed.
Lemma era_start_le y m d : 0 <= m <= 11 -> 1 <= d -> day_number (400 * ((y - b2z (m <? 2)) / 400)) 2 1 <= day_number y m d.
Proof.
  intros Hm Hd. set (e := (y - b2z (m <? 2)) / 400). assert (He : 400 * e <= y - b2z (m <? 2)) by (unfold e; lia). clearbody e.
  unfold day_number. rewrite (month_start_march _ 2) by lia. tonat. cbn [nth].
  pose proof (year_start_succ (400 * e)) as Se. destruct (Z.ltb_spec m 2); cbn [b2z] in He.
  - pose proof (year_start_mono (400 * e + 1) y ltac:(lia)). pose proof (month_start_le y 0 m ltac:(lia) ltac:(lia)) as L. change (month_start y 0) with 0 in L. lia.
  - pose proof (year_start_mono (400 * e + 1) (y + 1) ltac:(lia)). pose proof (month_start_le y 2 m ltac:(lia) ltac:(lia)) as L.
    rewrite (month_start_march _ 2) in L by lia. revert L. tonat. cbn [nth]. pose proof (year_start_succ y). lia.
Qed.
Lemma i32_range_secs x : is_i32 (tm_hour x) -> is_i32 (tm_min x) -> is_i32 (tm_sec x) ->
  - 2^44 <= tm_hour x * 3600 + tm_min x * 60 + tm_sec x <= 2^44.
Proof. unfold is_i32, INT_MIN, INT_MAX. lia. Qed.
Lemma day_number_bound y m d : - 2^31 + 400 <= y < 2^31 -> 0 <= m <= 11 -> is_i32 d -> - 2^41 <= day_number y m d <= 2^41.
Proof.
  unfold is_i32, INT_MIN, INT_MAX. intros. pose proof (month_start_le y 0 m ltac:(lia) ltac:(lia)) as L. change (month_start y 0) with 0 in L.
  pose proof (month_start_le y m 12 ltac:(lia) ltac:(lia)) as U. rewrite month_start_12 in U. unfold year_len in U.
  unfold day_number, year_start. destruct (leap y); lia.
Qed.
Lemma mktime_ok x (y := tm_year x + 1900 + tm_mon x / 12) (m := tm_mon x mod 12)
  (t := 86400 * day_number y m (tm_mday x) + 3600 * tm_hour x + 60 * tm_min x + tm_sec x) :
  is_i32 (tm_year x) -> is_i32 (tm_mon x) -> is_i32 (tm_mday x) -> is_i32 (tm_hour x) -> is_i32 (tm_min x) -> is_i32 (tm_sec x) ->
  tm_year x + 1900 <= INT_MAX -> - 2^31 + 400 <= y < 2^31 ->
  day_number (400 * era_of y m) 2 1 <= day_number y m (tm_mday x) ->
  86400 * year_start first_year <= t < 86400 * year_start (last_year + 1) ->
  exists x', mktime x = Ok (t, x') /\ broken_down t x'.
Proof.
  intros H1 H2 H3 H4 H5 H6 H7 H8 H9 H10. unfold mktime.
  pose proof (i32_range_secs x H4 H5 H6) as Hs.
  pose proof (day_number_bound y m (tm_mday x) H8 ltac:(unfold m; lia) H3) as Hdn.
  pose proof H3 as H3'. unfold is_i32, INT_MIN, INT_MAX in H1, H2, H7.
  rewrite chk_i32_ok by lia. cbn [bind].
  match goal with |- context[bind ?a _] => replace a with (Ok (y, m)) end.
  2:{ destruct (Z.ltb_spec (tm_mon x) 0), (Z.ltb_spec 11 (tm_mon x)); cbn [orb]; try lia.
      - pose proof (Z.quot_rem' (tm_mon x) 12). pose proof (Z.rem_bound_abs (tm_mon x) 12 ltac:(lia)).
        remember (Z.quot (tm_mon x) 12) as q eqn:Eq. remember (Z.rem (tm_mon x) 12) as r eqn:Er. clear Eq Er.
        assert (Dm : tm_mon x / 12 = if r <? 0 then q - 1 else q) by (destruct (Z.ltb_spec r 0); lia).
        destruct (Z.ltb_spec r 0).
        + replace (tm_year x + 1900 + (q - 1)) with y by (unfold y; rewrite Dm; lia). rewrite chk_i32_ok by lia. cbn [bind]. do 2 f_equal. unfold m. lia.
        + replace (tm_year x + 1900 + q) with y by (unfold y; rewrite Dm; lia). rewrite chk_i32_ok by lia. cbn [bind]. do 2 f_equal. unfold m. lia.
      - rewrite Z.rem_mod_nonneg, Z.quot_div_nonneg by lia. fold m. destruct (Z.ltb_spec m 0); [unfold m in *; lia|].
        fold y. rewrite chk_i32_ok by lia. reflexivity.
      - do 2 f_equal; unfold y, m; lia. }
  cbn [bind]. rewrite days_from_civil_ok by (assumption || (unfold m; lia)). cbn [bind].
  rewrite chk_i64_ok by lia. cbn [bind]. rewrite chk_i64_ok by lia. cbn [bind].
  replace (day_number y m (tm_mday x) * 86400 + (tm_hour x * 3600 + tm_min x * 60 + tm_sec x)) with t by (unfold t; lia).
  assert (- 2^63 <= t < 2^63) by (unfold t; lia).
  rewrite chk_i64_ok by assumption. cbn [bind]. destruct (break_down_ok t H10) as (x' & E & B). rewrite E. cbn [bind]. eauto.
Qed.
