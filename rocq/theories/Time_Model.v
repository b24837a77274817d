(** Model of src/time: gmtime, localtime, mktime, strftime, asctime, ctime.
    int and long are 32 bits, time_t is long long.  The static result buffers are
    the returned values. *)
From Verif Require Import Base.
Open Scope Z_scope.

Record tm := mk_tm { tm_sec : Z; tm_min : Z; tm_hour : Z; tm_mday : Z; tm_mon : Z; tm_year : Z;
                     tm_wday : Z; tm_yday : Z; tm_isdst : Z }.

(* src/time/gmtime.c:11-26; the same code is repeated in mktime.c:75-84 *)
Definition civil_from_days (days0 : Z) : res (Z * Z * Z) :=
  do days <- chk_i64 (days0 + 719468);
  do n <- (if days >=? 0 then Ok days else chk_i64 (days - 146096));
  let era := Z.quot n 146097 in
  let doe := u32 (days - era * 146097) in
  let yoe := u32 (u32 (u32 (doe - doe / 1460) + doe / 36524) - doe / 146096) / 365 in
  do year <- chk_i32 (s32 yoe + s32 (era * 400));
  let doy := u32 (doe - u32 (u32 (u32 (365 * yoe) + yoe / 4) - yoe / 100)) in
  let mp := u32 (u32 (5 * doy) + 2) / 153 in
  let dm := u32 (u32 (doy - u32 (u32 (153 * mp) + 2) / 5) + 1) in
  let mo := if mp <? 10 then u32 (mp + 3) else u32 (mp - 9) in
  do y <- (if mo <=? 2 then chk_i32 (year + 1) else Ok year);
  Ok (y, s32 mo, s32 dm).

(* src/time/gmtime.c:28-31 *)
Definition is_leap (y : Z) : bool :=
  ((Z.rem y 4 =? 0) && negb (Z.rem y 100 =? 0)) || (Z.rem y 400 =? 0).
(* src/time/gmtime.c:33-36 *)
Definition month_yday (leap : bool) : list Z :=
  if leap then [0; 31; 60; 91; 121; 152; 182; 213; 244; 274; 305; 335; 366]
  else [0; 31; 59; 90; 120; 151; 181; 212; 243; 273; 304; 334; 365].
(** array access *)
Definition idx {A} (l : list A) (i : Z) : res A :=
  if i <? 0 then UB else match nth_error l (Z.to_nat i) with Some x => Ok x | None => UB end.

(* src/time/gmtime.c:47-79; the common tail of gmtime and mktime (mktime.c:57-96) *)
Definition break_down (secs_total : Z) : res tm :=
  let days := Z.quot secs_total 86400 in
  let secs := Z.rem secs_total 86400 in
  let '(secs, days) := if secs <? 0 then (secs + 86400, days - 1) else (secs, days) in
  do (year, month, day) <- civil_from_days days;
  do ty <- chk_i32 (year - 1900);
  let wday := s32 (Z.rem days 7) in
  let wday := Z.rem (wday + 4) 7 in
  let wday := if wday <? 0 then wday + 7 else wday in
  do yd <- idx (month_yday (is_leap year)) (month - 1);
  Ok (mk_tm (s32 (Z.rem secs 60)) (s32 (Z.rem (Z.quot secs 60) 60)) (s32 (Z.quot secs 3600)) day (month - 1) ty
            wday (yd + (day - 1)) 0).
(* src/time/gmtime.c:38-82, localtime.c:11-16 *)
Definition gmtime (t : Z) : res tm := break_down t.
Definition localtime (t : Z) : res tm := gmtime t.

(* src/time/mktime.c:8-16; m and d are unsigned *)
Definition days_from_civil (y m d : Z) : res Z :=
  do y <- chk_i32 (y - b2z (m <=? 2));
  do n <- (if y >=? 0 then Ok y else chk_i32 (y - 399));
  let era := Z.quot n 400 in
  do e <- chk_i32 (era * 400);
  do r <- chk_i32 (y - e);
  let yoe := u32 r in
  let mm := if 2 <? m then u32 (m - 3) else u32 (m + 9) in
  let doy := u32 (u32 (u32 (u32 (153 * mm) + 2) / 5 + d) - 1) in
  let doe := u32 (u32 (u32 (u32 (yoe * 365) + yoe / 4) - yoe / 100) + doy) in
  chk_i64 (era * 146097 + doe - 719468).
(* src/time/mktime.c:28-99; returns the time and the updated structure *)
Definition mktime (x : tm) : res (Z * tm) :=
  do year <- chk_i32 (tm_year x + 1900);
  let month := tm_mon x in
  do (year, month) <-
    (if (month <? 0) || (11 <? month) then
       let years := Z.quot month 12 in
       let month := Z.rem month 12 in
       let '(month, years) := if month <? 0 then (month + 12, years - 1) else (month, years) in
       do year <- chk_i32 (year + years); Ok (year, month)
     else Ok (year, month));
  do days <- days_from_civil year (u32 (month + 1)) (u32 (tm_mday x));
  do secs <- chk_i64 (tm_hour x * 3600 + tm_min x * 60 + tm_sec x);
  do d <- chk_i64 (days * 86400);
  do t <- chk_i64 (d + secs);
  do r <- break_down t;
  Ok (t, r).

(** ** strftime *)
(** The caller's buffer (storing outside it is UB) and *pos. *)
Definition st := (list Z * Z)%type.
(** The int result is the boolean (true: overflow). *)
Definition out := (bool * st)%type.
(** s[i] = c *)
Fixpoint store (buf : list Z) (i : nat) (c : Z) : option (list Z) :=
  match buf, i with
  | [], _ => None
  | _ :: t, O => Some (c :: t)
  | x :: t, S i => match store t i c with Some t => Some (x :: t) | None => None end
  end.
Definition put (buf : list Z) (i : Z) (c : Z) : res (list Z) :=
  if i <? 0 then UB else match store buf (Z.to_nat i) c with Some b => Ok b | None => UB end.
(* src/time/strftime.c:28-34 *)
Definition append_char (max : Z) (s : st) (c : Z) : res out :=
  let '(buf, pos) := s in
  if max <=? pos then Ok (true, s) else do buf <- put buf pos c; Ok (false, (buf, u32 (pos + 1))).
(** if (r) return 1; k *)
Definition then_ (r : res out) (k : st -> res out) : res out :=
  do (ov, s) <- r; if ov : bool then Ok (true, s) else k s.
(* src/time/strftime.c:36-42 *)
Fixpoint append_str (max : Z) (s : st) (l : list Z) : res out :=
  match l with
  | [] => Ok (false, s)
  | c :: l => then_ (append_char max s c) (fun s => append_str max s l)
  end.
(** tmp[len++] = c, 20 bytes *)
Definition push (tmp : list Z) (c : Z) : res (list Z) := if Z.of_nat (length tmp) <? 20 then Ok (c :: tmp) else UB.
(* src/time/strftime.c:54-57; tmp is kept most recent character first *)
Fixpoint digits (fuel : nat) (n : Z) (tmp : list Z) : res (list Z) :=
  match fuel with
  | O => Fuel
  | S f => if n >? 0 then do tmp <- push tmp (48 + n mod 10); digits f (n / 10) tmp else Ok tmp
  end.
(* src/time/strftime.c:59-61 *)
Fixpoint pad_to (fuel : nat) (tmp : list Z) (width pad : Z) : res (list Z) :=
  match fuel with
  | O => Fuel
  | S f => if Z.of_nat (length tmp) <? width then do tmp <- push tmp pad; pad_to f tmp width pad else Ok tmp
  end.
(* src/time/strftime.c:46-66; n is an unsigned long *)
Definition append_uint (max : Z) (s : st) (n width pad : Z) : res out :=
  do tmp <- (if n =? 0 then push [] 48 else digits 21 n []);
  do tmp <- pad_to 21 tmp width pad;
  append_str max s tmp.

(* src/time/strftime.c:11-24 *)
Definition wday_full : list (list Z) := [
  [83;117;110;100;97;121]; [77;111;110;100;97;121]; [84;117;101;115;100;97;121];
  [87;101;100;110;101;115;100;97;121]; [84;104;117;114;115;100;97;121]; [70;114;105;100;97;121];
  [83;97;116;117;114;100;97;121]].
Definition wday_abbr : list (list Z) := [
  [83;117;110]; [77;111;110]; [84;117;101]; [87;101;100]; [84;104;117]; [70;114;105]; [83;97;116]].
Definition mon_full : list (list Z) := [
  [74;97;110;117;97;114;121]; [70;101;98;114;117;97;114;121]; [77;97;114;99;104]; [65;112;114;105;108];
  [77;97;121]; [74;117;110;101]; [74;117;108;121]; [65;117;103;117;115;116];
  [83;101;112;116;101;109;98;101;114]; [79;99;116;111;98;101;114]; [78;111;118;101;109;98;101;114];
  [68;101;99;101;109;98;101;114]].
Definition mon_abbr : list (list Z) := [
  [74;97;110]; [70;101;98]; [77;97;114]; [65;112;114]; [77;97;121]; [74;117;110]; [74;117;108]; [65;117;103];
  [83;101;112]; [79;99;116]; [78;111;118]; [68;101;99]].

(* src/time/strftime.c:168-190; [emit] is emit_one; fmt is the list of bytes before the NUL *)
Fixpoint format_ (emit : st -> Z -> res out) (max : Z) (s : st) (fmt : list Z) : res out :=
  match fmt with
  | [] => Ok (false, s)
  | c :: r =>
    if negb (c =? 37) then then_ (append_char max s c) (fun s => format_ emit max s r)
    else
      match r with
      | [] => append_char max s 37
      | c1 :: r1 =>
        if (c1 =? 69) || (c1 =? 79) then
          match r1 with
          | [] => append_char max s 37
          | c2 :: r2 => then_ (emit s c2) (fun s => format_ emit max s r2)
          end
        else then_ (emit s c1) (fun s => format_ emit max s r1)
      end
  end.
(* src/time/strftime.c:73-166; [depth] bounds the mutual recursion of emit_one and format *)
Fixpoint emit_one (depth : nat) (max : Z) (x : tm) (s : st) (spec : Z) : res out :=
  let num n width pad := append_uint max s (u32 n) width pad in
  let str l := append_str max s l in
  let composite fmt := match depth with O => Fuel | S d => format_ (emit_one d max x) max s fmt end in
  if spec =? 89 (* Y *) then do y <- chk_i32 (tm_year x + 1900); num y 4 48
  else if spec =? 121 (* y *) then do y <- chk_i32 (tm_year x + 1900); num (Z.rem y 100) 2 48
  else if spec =? 67 (* C *) then do y <- chk_i32 (tm_year x + 1900); num (Z.quot y 100) 2 48
  else if spec =? 109 (* m *) then do m <- chk_i32 (tm_mon x + 1); num m 2 48
  else if spec =? 100 (* d *) then num (tm_mday x) 2 48
  else if spec =? 101 (* e *) then num (tm_mday x) 2 32
  else if spec =? 72 (* H *) then num (tm_hour x) 2 48
  else if spec =? 73 (* I *) then let h := Z.rem (tm_hour x) 12 in num (if h =? 0 then 12 else h) 2 48
  else if spec =? 77 (* M *) then num (tm_min x) 2 48
  else if spec =? 83 (* S *) then num (tm_sec x) 2 48
  else if spec =? 106 (* j *) then do j <- chk_i32 (tm_yday x + 1); num j 3 48
  else if spec =? 112 (* p *) then str (if tm_hour x <? 12 then [65;77] else [80;77])
  else if spec =? 65 (* A *) then if (tm_wday x <? 0) || (6 <? tm_wday x) then Ok (false, s) else do l <- idx wday_full (tm_wday x); str l
  else if spec =? 97 (* a *) then if (tm_wday x <? 0) || (6 <? tm_wday x) then Ok (false, s) else do l <- idx wday_abbr (tm_wday x); str l
  else if spec =? 66 (* B *) then if (tm_mon x <? 0) || (11 <? tm_mon x) then Ok (false, s) else do l <- idx mon_full (tm_mon x); str l
  else if (spec =? 98) || (spec =? 104) (* b, h *) then if (tm_mon x <? 0) || (11 <? tm_mon x) then Ok (false, s) else do l <- idx mon_abbr (tm_mon x); str l
  else if spec =? 99 (* c *) then composite [37;97;32;37;98;32;37;101;32;37;72;58;37;77;58;37;83;32;37;89]
  else if spec =? 120 (* x *) then composite [37;109;47;37;100;47;37;121]
  else if spec =? 88 (* X *) then composite [37;72;58;37;77;58;37;83]
  else if spec =? 70 (* F *) then composite [37;89;45;37;109;45;37;100]
  else if spec =? 84 (* T *) then composite [37;72;58;37;77;58;37;83]
  else if spec =? 82 (* R *) then composite [37;72;58;37;77]
  else if spec =? 68 (* D *) then composite [37;109;47;37;100;47;37;121]
  else if spec =? 114 (* r *) then composite [37;73;58;37;77;58;37;83;32;37;112]
  else if spec =? 117 (* u *) then num (if tm_wday x =? 0 then 7 else tm_wday x) 0 32
  else if spec =? 119 (* w *) then num (tm_wday x) 0 32
  else if spec =? 90 (* Z *) then Ok (false, s)
  else if spec =? 110 (* n *) then append_char max s 10
  else if spec =? 116 (* t *) then append_char max s 9
  else if spec =? 37 then append_char max s 37
  else then_ (append_char max s 37) (fun s => append_char max s spec).

(** Result: the return value and the final contents of the buffer. *)
(* src/time/strftime.c:192-203 *)
Definition strftime (buf : list Z) (maxsize : Z) (fmt : list Z) (x : tm) : res (Z * list Z) :=
  if maxsize =? 0 then Ok (0, buf)
  else do (overflow, s) <- format_ (emit_one 1 (u32 (maxsize - 1)) x) (u32 (maxsize - 1)) (buf, 0) fmt;
       let '(buf, pos) := s in
       if overflow : bool then Ok (0, buf) else do buf <- put buf pos 0; Ok (pos, buf).
(* src/time/asctime.c:11-16; buf is the static 26-byte buffer before the call *)
Definition asctime (buf : list Z) (x : tm) : res (list Z) :=
  do (n, b) <- strftime buf 26 [37;97;32;37;98;32;37;101;32;37;72;58;37;77;58;37;83;32;37;89;10] x; Ok b.
(* src/time/ctime.c:6-9 *)
Definition ctime (buf : list Z) (t : Z) : res (list Z) := do x <- localtime t; asctime buf x.
