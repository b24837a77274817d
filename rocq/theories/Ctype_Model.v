(** Model of src/ctype and src/wctype.  Arguments are 32-bit C ints; C strings
    are lists of bytes without the terminator. *)
From Verif Require Import Base.

(** C integer promotion used by every predicate: [c - k < lim##u] subtracts as
    [int] (overflow undefined), then compares as [unsigned]. *)
Definition sub_lt (c k lim : Z) : res Z :=
  do d <- chk_i32 (c - k); Ok (b2z (u32 d <? lim)).

(** C's [a || b] with both sides already reduced to 0/1 ints. *)
Definition c_or (a : res Z) (b : res Z) : res Z :=
  do x <- a; if negb (x =? 0) then Ok 1 else do y <- b; Ok (b2z (negb (y =? 0))).
Definition c_and_not (a : res Z) (b : res Z) : res Z :=
  do x <- a; if x =? 0 then Ok 0 else do y <- b; Ok (b2z (y =? 0)).

(* src/ctype/isdigit.c:1-4 *)
Definition isdigit (c : Z) : res Z := sub_lt c 48 10.
(* src/ctype/islower.c:1-4 *)
Definition islower (c : Z) : res Z := sub_lt c 97 26.
(* src/ctype/isupper.c:1-4 *)
Definition isupper (c : Z) : res Z := sub_lt c 65 26.
(* src/ctype/isgraph.c:1-4 *)
Definition isgraph (c : Z) : res Z := sub_lt c 33 94.
(* src/ctype/isprint.c:1-4 *)
Definition isprint (c : Z) : res Z := sub_lt c 32 95.
(* src/ctype/isblank.c:1-4 *)
Definition isblank (c : Z) : res Z := Ok (b2z ((c =? 32) || (c =? 9))).
(* src/ctype/iscntrl.c:1-4; [c < 32u] converts c to unsigned *)
Definition iscntrl (c : Z) : res Z := Ok (b2z ((u32 c <? 32) || (c =? 127))).
(* src/ctype/isspace.c:1-4 *)
Definition isspace (c : Z) : res Z :=
  if c =? 32 then Ok 1 else sub_lt c 9 5.
(* src/ctype/isalpha.c:3-6; [c | 32] on the two's complement int is Z.lor *)
Definition isalpha (c : Z) : res Z := islower (Z.lor c 32).
(* src/ctype/isalnum.c:3-6 *)
Definition isalnum (c : Z) : res Z := c_or (isdigit c) (isalpha c).
(* src/ctype/ispunct.c:3-6 *)
Definition ispunct (c : Z) : res Z := c_and_not (isgraph c) (isalnum c).
(* src/ctype/isxdigit.c:3-6 *)
Definition isxdigit (c : Z) : res Z := c_or (isdigit c) (sub_lt (Z.lor c 32) 97 6).
(* src/ctype/tolower.c:3-6 *)
Definition tolower (c : Z) : res Z :=
  do u <- isupper c; Ok (Z.lor c (Z.shiftl u 5)).
(* src/ctype/toupper.c:3-6 *)
Definition toupper (c : Z) : res Z :=
  do l <- islower c; Ok (Z.land c (Z.lnot (Z.shiftl l 5))).

(** wint_t is [__WINT_TYPE__], a signed 32-bit int on wasm32 (include/wchar.h),
    so [c < 128] is a signed comparison: negative values reach the narrow
    predicates. *)
(* src/wctype/isw{alnum,...,xdigit}.c:4 *)
Definition isw (f : Z -> res Z) (c : Z) : res Z := if c <? 128 then f c else Ok 0.
Definition iswalnum := isw isalnum.
Definition iswalpha := isw isalpha.
Definition iswblank := isw isblank.
Definition iswcntrl := isw iscntrl.
Definition iswdigit := isw isdigit.
Definition iswgraph := isw isgraph.
Definition iswlower := isw islower.
Definition iswprint := isw isprint.
Definition iswpunct := isw ispunct.
Definition iswspace := isw isspace.
Definition iswupper := isw isupper.
Definition iswxdigit := isw isxdigit.
(* src/wctype/towlower.c:4 *)
Definition towlower (c : Z) : res Z := if c <? 128 then tolower c else Ok c.
(* src/wctype/towupper.c:4 *)
Definition towupper (c : Z) : res Z := if c <? 128 then toupper c else Ok c.

(** The names as byte strings. *)
Definition s_alnum  := [97;108;110;117;109].
Definition s_alpha  := [97;108;112;104;97].
Definition s_blank  := [98;108;97;110;107].
Definition s_cntrl  := [99;110;116;114;108].
Definition s_digit  := [100;105;103;105;116].
Definition s_graph  := [103;114;97;112;104].
Definition s_lower  := [108;111;119;101;114].
Definition s_print  := [112;114;105;110;116].
Definition s_punct  := [112;117;110;99;116].
Definition s_space  := [115;112;97;99;101].
Definition s_upper  := [117;112;112;101;114].
Definition s_xdigit := [120;100;105;103;105;116].
Definition s_tolower := [116;111;108;111;119;101;114].
Definition s_toupper := [116;111;117;112;112;101;114].

(** [!strcmp(a,b)] on list-modelled strings (strcmp itself: see Str_Model). *)
Fixpoint streq (a b : list Z) : bool :=
  match a, b with
  | [], [] => true
  | x :: a', y :: b' => (x =? y) && streq a' b'
  | _, _ => false
  end.

(* src/wctype/wctype.c:7-22 *)
Definition wctype (name : list Z) : Z :=
  if streq name s_alnum then 1 else
  if streq name s_alpha then 2 else
  if streq name s_blank then 3 else
  if streq name s_cntrl then 4 else
  if streq name s_digit then 5 else
  if streq name s_graph then 6 else
  if streq name s_lower then 7 else
  if streq name s_print then 8 else
  if streq name s_punct then 9 else
  if streq name s_space then 10 else
  if streq name s_upper then 11 else
  if streq name s_xdigit then 12 else 0.

(* src/wctype/iswctype.c:3-20 *)
Definition iswctype (c type : Z) : res Z :=
  if type =? 1 then iswalnum c else
  if type =? 2 then iswalpha c else
  if type =? 3 then iswblank c else
  if type =? 4 then iswcntrl c else
  if type =? 5 then iswdigit c else
  if type =? 6 then iswgraph c else
  if type =? 7 then iswlower c else
  if type =? 8 then iswprint c else
  if type =? 9 then iswpunct c else
  if type =? 10 then iswspace c else
  if type =? 11 then iswupper c else
  if type =? 12 then iswxdigit c else Ok 0.

(* src/wctype/wctrans.c:4-9 *)
Definition wctrans (name : list Z) : Z :=
  if streq name s_tolower then 1 else
  if streq name s_toupper then 2 else 0.

(* src/wctype/towctrans.c:3-10 *)
Definition towctrans (c trans : Z) : res Z :=
  if trans =? 1 then towlower c else
  if trans =? 2 then towupper c else Ok c.
