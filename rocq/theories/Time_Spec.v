(** Calendar and strftime specifications, independent of the model's algorithms. *)
From Coq Require Import String Ascii.
From Verif Require Import Base Time_Model.
Open Scope Z_scope.

(** ** Proleptic Gregorian calendar *)
Definition leap (y : Z) : bool := (y mod 4 =? 0) && negb (y mod 100 =? 0) || (y mod 400 =? 0).
Definition year_len (y : Z) : Z := if leap y then 366 else 365.
(** Days from 1 January 1970 to 1 January of year y: see [year_start_1970], [year_start_succ]. *)
Definition year_start (y : Z) : Z := 365 * (y - 1970) + ((y - 1) / 4 - (y - 1) / 100 + (y - 1) / 400) - 477.
(** Lengths of the months January .. December. *)
Definition month_lens (y : Z) : list Z := [31; if leap y then 29 else 28; 31; 30; 31; 30; 31; 31; 30; 31; 30; 31].
Definition month_len (y m : Z) : Z := nth (Z.to_nat m) (month_lens y) 0.
Definition sum (l : list Z) : Z := fold_right Z.add 0 l.
(** Days of the year before month m (0 = January). *)
Definition month_start (y m : Z) : Z := sum (firstn (Z.to_nat m) (month_lens y)).
(** Day number (0 = 1970-01-01) of day d of month m of year y; d may be out of range. *)
Definition day_number (y m d : Z) : Z := year_start y + month_start y m + (d - 1).
Definition valid_date (y m d : Z) : Prop := 0 <= m <= 11 /\ 1 <= d <= month_len y m.

Lemma year_start_1970 : year_start 1970 = 0.
Proof. reflexivity. Qed.
Lemma year_start_succ y : year_start (y + 1) = year_start y + year_len y.
Proof. unfold year_start, year_len, leap. destruct ((y mod 4 =? 0) && negb (y mod 100 =? 0) || (y mod 400 =? 0)) eqn:E; lia. Qed.

(** [x] is the broken-down time of [t] seconds after the epoch. *)
Definition broken_down (t : Z) (x : tm) : Prop :=
  let y := tm_year x + 1900 in
  0 <= tm_sec x < 60 /\ 0 <= tm_min x < 60 /\ 0 <= tm_hour x < 24 /\
  valid_date y (tm_mon x) (tm_mday x) /\
  t = 86400 * day_number y (tm_mon x) (tm_mday x) + 3600 * tm_hour x + 60 * tm_min x + tm_sec x /\
  tm_yday x = month_start y (tm_mon x) + tm_mday x - 1 /\
  tm_wday x = (day_number y (tm_mon x) (tm_mday x) + 4) mod 7 /\ (* 1970-01-01 was a Thursday *)
  tm_isdst x = 0.

(** ** strftime, C locale (C11 7.27.3.5) *)
(** Decimal digits of n >= 0: see [dec_value], [dec_digits]. *)
Fixpoint dec_aux (fuel : nat) (n : Z) (acc : list Z) : list Z :=
  match fuel with
  | O => acc
  | S f => if n <? 10 then (48 + n) :: acc else dec_aux f (n / 10) ((48 + n mod 10) :: acc)
  end.
Definition dec (n : Z) : list Z := dec_aux (S (Z.to_nat (Z.log2 n))) n [].
Definition value (l : list Z) : Z := fold_left (fun a c => 10 * a + (c - 48)) l 0.
(** Right-justified in a field of [w] characters. *)
Definition padded (p : Z) (w : nat) (n : Z) : list Z := repeat p (w - length (dec n)) ++ dec n.

Fixpoint text (s : string) : list Z :=
  match s with EmptyString => [] | String c s => Z.of_nat (nat_of_ascii c) :: text s end.
Definition weekday_name (k : Z) : list Z := text (nth (Z.to_nat k)
  ["Sunday"; "Monday"; "Tuesday"; "Wednesday"; "Thursday"; "Friday"; "Saturday"]%string EmptyString).
Definition month_name (k : Z) : list Z := text (nth (Z.to_nat k)
  ["January"; "February"; "March"; "April"; "May"; "June"; "July"; "August"; "September"; "October"; "November"; "December"]%string EmptyString).

(** The characters the C standard requires for a conversion specifier; None when the standard
    gives it no meaning.  %G %g %V follow ISO 8601: week 1 is the week (Monday first) with 4 January. *)
Definition iso_week_raw (x : tm) : Z := (tm_yday x + 10 - (if tm_wday x =? 0 then 7 else tm_wday x)) / 7.
Definition iso_weeks_in (y : Z) : Z :=
  let jan1 := (year_start y + 4) mod 7 in (if (jan1 =? 4) || leap y && (jan1 =? 3) then 53 else 52).
Definition iso_week (x : tm) : Z :=
  let y := tm_year x + 1900 in let w := iso_week_raw x in
  if w <? 1 then iso_weeks_in (y - 1) else if iso_weeks_in y <? w then 1 else w.
Definition iso_year (x : tm) : Z :=
  let y := tm_year x + 1900 in let w := iso_week_raw x in
  if w <? 1 then y - 1 else if iso_weeks_in y <? w then y + 1 else y.
Definition standard (x : tm) (c : Z) : option (list Z) :=
  let year := tm_year x + 1900 in
  let Y := padded 48 4 year in
  let y2 := padded 48 2 (year mod 100) in
  let mo := padded 48 2 (tm_mon x + 1) in
  let d := padded 48 2 (tm_mday x) in
  let e := padded 32 2 (tm_mday x) in
  let H := padded 48 2 (tm_hour x) in
  let I := padded 48 2 ((tm_hour x + 11) mod 12 + 1) in
  let M := padded 48 2 (tm_min x) in
  let S := padded 48 2 (tm_sec x) in
  let a := firstn 3 (weekday_name (tm_wday x)) in
  let b := firstn 3 (month_name (tm_mon x)) in
  let p := if tm_hour x <? 12 then [65;77] else [80;77] in
  let T := H ++ [58] ++ M ++ [58] ++ S in
  match c with
  | 97 => Some a
  | 65 => Some (weekday_name (tm_wday x))
  | 98 | 104 => Some b
  | 66 => Some (month_name (tm_mon x))
  | 99 => Some (a ++ [32] ++ b ++ [32] ++ e ++ [32] ++ T ++ [32] ++ Y)
  | 67 => Some (padded 48 2 (year / 100))
  | 100 => Some d
  | 68 | 120 => Some (mo ++ [47] ++ d ++ [47] ++ y2)
  | 101 => Some e
  | 70 => Some (Y ++ [45] ++ mo ++ [45] ++ d)
  | 103 => Some (padded 48 2 (iso_year x mod 100))
  | 71 => Some (padded 48 4 (iso_year x))
  | 72 => Some H
  | 73 => Some I
  | 106 => Some (padded 48 3 (tm_yday x + 1))
  | 109 => Some mo
  | 77 => Some M
  | 110 => Some [10]
  | 112 => Some p
  | 114 => Some (I ++ [58] ++ M ++ [58] ++ S ++ [32] ++ p)
  | 82 => Some (H ++ [58] ++ M)
  | 83 => Some S
  | 116 => Some [9]
  | 84 | 88 => Some T
  | 117 => Some (dec (if tm_wday x =? 0 then 7 else tm_wday x))
  | 85 => Some (padded 48 2 ((tm_yday x + 7 - tm_wday x) / 7))
  | 86 => Some (padded 48 2 (iso_week x))
  | 119 => Some (dec (tm_wday x))
  | 87 => Some (padded 48 2 ((tm_yday x + 7 - (tm_wday x + 6) mod 7) / 7))
  | 121 => Some y2
  | 89 => Some Y
  | 122 | 90 => Some [] (* no time zone is determinable *)
  | 37 => Some [37]
  | _ => None
  end.
(** The conversion specifiers of the C standard this library does not implement: g G U V W z. *)
Definition unimplemented (c : Z) : bool := existsb (Z.eqb c) [103; 71; 85; 86; 87; 122].

(** A format is a sequence of ordinary characters and conversion specifications; E and O modifiers
    have no effect in the C locale. *)
Inductive token := Lit (c : Z) | Conv (modifier : option Z) (c : Z).
Definition token_ok (t : token) : Prop :=
  match t with
  | Lit c => c <> 37 /\ c <> 0
  | Conv None c => c <> 69 /\ c <> 79 /\ c <> 0
  | Conv (Some m) c => (m = 69 \/ m = 79) /\ c <> 0
  end.
Definition token_text (t : token) : list Z :=
  match t with Lit c => [c] | Conv None c => [37; c] | Conv (Some m) c => [37; m; c] end.
Definition format_text (l : list token) : list Z := concat (map token_text l).
Definition token_meaning (x : tm) (t : token) : option (list Z) :=
  match t with Lit c => Some [c] | Conv _ c => standard x c end.
Fixpoint meaning (x : tm) (l : list token) : option (list Z) :=
  match l with
  | [] => Some []
  | t :: l => match token_meaning x t, meaning x l with Some a, Some b => Some (a ++ b) | _, _ => None end
  end.
Definition implemented (t : token) : Prop := match t with Lit _ => True | Conv _ c => unimplemented c = false end.

(** Members in their normal ranges (7.27.1p4) and a year that is not negative. *)
Definition in_range (x : tm) : Prop :=
  0 <= tm_sec x <= 60 /\ 0 <= tm_min x <= 59 /\ 0 <= tm_hour x <= 23 /\ 1 <= tm_mday x <= 31 /\ 0 <= tm_mon x <= 11 /\
  0 <= tm_year x + 1900 <= INT_MAX /\ 0 <= tm_wday x <= 6 /\ 0 <= tm_yday x <= 365.

(** The outcome required of strftime(buf, maxsize, ...) when the converted text is e; [buf ++ rest]
    is the memory from the start of the buffer, buf being maxsize bytes. *)
Definition strftime_result (e buf rest : list Z) (r : Z) (mem : list Z) : Prop :=
  if (length e <? length buf)%nat
  then r = Z.of_nat (length e) /\ mem = e ++ [0] ++ skipn (length e + 1) buf ++ rest
  else r = 0 /\ exists buf', length buf' = length buf /\ mem = buf' ++ rest.

(** asctime, C11 7.27.3.1: sprintf "%.3s %.3s%3d %.2d:%.2d:%.2d %d\n". *)
Definition asctime_text (x : tm) : list Z :=
  firstn 3 (weekday_name (tm_wday x)) ++ [32] ++ firstn 3 (month_name (tm_mon x)) ++ padded 32 3 (tm_mday x) ++ [32] ++
  padded 48 2 (tm_hour x) ++ [58] ++ padded 48 2 (tm_min x) ++ [58] ++ padded 48 2 (tm_sec x) ++ [32] ++ dec (tm_year x + 1900) ++ [10].

Lemma dec_aux_ok f n acc : 0 <= n -> (Z.to_nat (Z.log2 n) < f)%nat ->
  exists l, dec_aux f n acc = l ++ acc /\ Forall (fun c => 48 <= c <= 57) l /\ (1 <= length l)%nat /\
    (forall a, fold_left (fun a c => 10 * a + (c - 48)) l a = 10 ^ Z.of_nat (length l) * a + n) /\ (length l = 1%nat \/ 48 < hd 0 l).
Proof.
  revert n acc. induction f as [|f IH]; intros n acc Hn Hf; [lia|]. cbn [dec_aux].
  destruct (Z.ltb_spec n 10).
  - exists [48 + n]. split; [reflexivity|]. split; [repeat constructor; lia|]. split; [cbn; lia|]. split; [intros a; cbn [fold_left length]; change (10 ^ Z.of_nat 1) with 10; lia|left; reflexivity].
  - destruct (IH (n / 10) ((48 + n mod 10) :: acc)) as (l & E & D & L & V & S); [lia| |].
    { assert (Z.log2 (n / 10) < Z.log2 n); [|pose proof (Z.log2_nonneg (n / 10)); lia].
      apply Z.log2_lt_pow2; [lia|]. pose proof (Z.log2_spec n ltac:(lia)) as P. pose proof (Z.log2_pos n ltac:(lia)).
      rewrite <- (Z.succ_pred (Z.log2 n)) in P at 2. rewrite !Z.pow_succ_r in P by lia.
      rewrite <- (Z.succ_pred (Z.log2 n)). rewrite Z.pow_succ_r by lia. lia. }
    exists (l ++ [48 + n mod 10]). split; [rewrite E, <- app_assoc; reflexivity|]. split; [apply Forall_app; split; [exact D|repeat constructor; lia]|].
    split; [rewrite app_length; cbn [length]; lia|]. split.
    + intros a. rewrite fold_left_app, V. cbn [fold_left]. rewrite app_length. cbn [length]. rewrite Nat2Z.inj_add, Z.pow_add_r by lia. change (10 ^ Z.of_nat 1) with 10. lia.
    + right. destruct l as [|c l]; [cbn in L; lia|]. cbn [hd app]. destruct S as [S|S]; [|exact S].
      destruct l; [|cbn in S; lia]. specialize (V 0). cbn [fold_left length] in V. lia.
Qed.
Lemma dec_value n : 0 <= n -> value (dec n) = n.
Proof. intros H. destruct (dec_aux_ok (S (Z.to_nat (Z.log2 n))) n [] H ltac:(lia)) as (l & E & _ & _ & V & _). unfold value, dec. rewrite E, app_nil_r, V. lia. Qed.
Lemma dec_digits n : 0 <= n -> Forall (fun c => 48 <= c <= 57) (dec n) /\ (length (dec n) = 1%nat \/ 48 < hd 0 (dec n)).
Proof. intros H. destruct (dec_aux_ok (S (Z.to_nat (Z.log2 n))) n [] H ltac:(lia)) as (l & E & D & _ & _ & S). unfold dec. rewrite E, app_nil_r. auto. Qed.
