(** Model of the wide-string functions (src/wchar/wcs*.c, wmem*.c) over the byte memory of
    Str_Model.  wchar_t is a signed 32-bit integer, stored little-endian in four bytes;
    pointers are byte addresses, so p + 1 in C is [p + 4].  Loops take fuel. *)
From Verif Require Import Base Str_Model.
Open Scope Z_scope.

(** a wchar_t access *)
Definition wload (m : mem) (a : Z) : res Z := do l <- load_n 4 m a; Ok (s32 (le l)).
Definition wbytes (c : Z) : list Z := [u8 c; u8 (c / 2^8); u8 (c / 2^16); u8 (c / 2^24)].
Definition wstore (m : mem) (a c : Z) : res mem := store_n m a (wbytes c).

(* src/wchar/wcslen.c:7-8 *)
Fixpoint wcs_end (fuel : nat) (m : mem) (p : Z) : res Z :=
  match fuel with
  | O => Fuel
  | S f => do c <- wload m p; if c =? 0 then Ok p else wcs_end f m (p + 4)
  end.
(* src/wchar/wcslen.c:3-11; the difference is in elements *)
Definition wcslen (fuel : nat) (m : mem) (s : Z) : res Z :=
  do e <- wcs_end fuel m s; Ok (u32 ((e - s) / 4)).

(* src/wchar/wcscmp.c:3-14, wcscoll.c:3-7 *)
Fixpoint wcscmp (fuel : nat) (m : mem) (x y : Z) : res Z :=
  match fuel with
  | O => Fuel
  | S f => do a <- wload m x; do b <- wload m y;
           if (a =? b) && negb (a =? 0) then wcscmp f m (x + 4) (y + 4)
           else if a =? b then Ok 0 else Ok (if a <? b then -1 else 1)
  end.
Definition wcscoll := wcscmp.
(* src/wchar/wcsncmp.c:3-17 *)
Fixpoint wcsncmp (fuel : nat) (m : mem) (x y len : Z) : res Z :=
  match fuel with
  | O => Fuel
  | S f => if len =? 0 then Ok 0
           else do a <- wload m x; do b <- wload m y;
                if negb (a =? b) then Ok (if a <? b then -1 else 1)
                else if a =? 0 then Ok 0 else wcsncmp f m (x + 4) (y + 4) (u32 (len - 1))
  end.
(* src/wchar/wmemcmp.c:3-14 *)
Fixpoint wmemcmp (fuel : nat) (m : mem) (x y len : Z) : res Z :=
  match fuel with
  | O => Fuel
  | S f => if len =? 0 then Ok 0
           else do a <- wload m x; do b <- wload m y;
                if negb (a =? b) then Ok (if a <? b then -1 else 1)
                else wmemcmp f m (x + 4) (y + 4) (u32 (len - 1))
  end.

(* src/wchar/wcschr.c:3-10 *)
Fixpoint wcschr (fuel : nat) (m : mem) (s c : Z) : res (option Z) :=
  match fuel with
  | O => Fuel
  | S f => do b <- wload m s;
           if b =? 0 then Ok (if c =? 0 then Some s else None)
           else if b =? c then Ok (Some s) else wcschr f m (s + 4) c
  end.
(* src/wchar/wcsrchr.c:3-15 *)
Fixpoint wcsrchr_loop (fuel : nat) (m : mem) (s c : Z) (found : option Z) : res (option Z) :=
  match fuel with
  | O => Fuel
  | S f => do b <- wload m s;
           if b =? 0 then Ok (if c =? 0 then Some s else found)
           else wcsrchr_loop f m (s + 4) c (if b =? c then Some s else found)
  end.
Definition wcsrchr (fuel : nat) (m : mem) (s c : Z) : res (option Z) := wcsrchr_loop fuel m s c None.
(* src/wchar/wmemchr.c:3-10 *)
Fixpoint wmemchr (fuel : nat) (m : mem) (s c len : Z) : res (option Z) :=
  match fuel with
  | O => Fuel
  | S f => if len =? 0 then Ok None
           else do b <- wload m s; if b =? c then Ok (Some s) else wmemchr f m (s + 4) c (u32 (len - 1))
  end.

(* src/wchar/wcsspn.c:3-11 *)
Fixpoint wcsspn_loop (fuel k : nat) (m : mem) (s set count : Z) : res Z :=
  match k with
  | O => Fuel
  | S k => do c <- wload m (s + 4 * count);
           if c =? 0 then Ok count
           else do r <- wcschr fuel m set c;
                match r with None => Ok count | Some _ => wcsspn_loop fuel k m s set (u32 (count + 1)) end
  end.
Definition wcsspn (fuel : nat) (m : mem) (s set : Z) : res Z := wcsspn_loop fuel fuel m s set 0.
(* src/wchar/wcscspn.c:3-11 *)
Fixpoint wcscspn_loop (fuel k : nat) (m : mem) (s set count : Z) : res Z :=
  match k with
  | O => Fuel
  | S k => do c <- wload m (s + 4 * count);
           if c =? 0 then Ok count
           else do r <- wcschr fuel m set c;
                match r with Some _ => Ok count | None => wcscspn_loop fuel k m s set (u32 (count + 1)) end
  end.
Definition wcscspn (fuel : nat) (m : mem) (s set : Z) : res Z := wcscspn_loop fuel fuel m s set 0.
(* src/wchar/wcspbrk.c:3-10 *)
Fixpoint wcspbrk_loop (fuel k : nat) (m : mem) (s set : Z) : res (option Z) :=
  match k with
  | O => Fuel
  | S k => do c <- wload m s;
           if c =? 0 then Ok None
           else do r <- wcschr fuel m set c;
                match r with Some _ => Ok (Some s) | None => wcspbrk_loop fuel k m (s + 4) set end
  end.
Definition wcspbrk (fuel : nat) (m : mem) (s set : Z) : res (option Z) := wcspbrk_loop fuel fuel m s set.

(* src/wchar/wcsstr.c:12-18: the comparison at one position; true when the needle's end is reached *)
Fixpoint wcsstr_at (fuel : nat) (m : mem) (h n : Z) : res bool :=
  match fuel with
  | O => Fuel
  | S f => do a <- wload m h; do b <- wload m n;
           if negb (a =? 0) && negb (b =? 0) && (a =? b) then wcsstr_at f m (h + 4) (n + 4)
           else Ok (b =? 0)
  end.
(* src/wchar/wcsstr.c:8-20 *)
Fixpoint wcsstr_loop (fuel k : nat) (m : mem) (h n : Z) : res (option Z) :=
  match k with
  | O => Fuel
  | S k => do a <- wload m h;
           if a =? 0 then Ok None
           else do r <- wcsstr_at fuel m h n; if r : bool then Ok (Some h) else wcsstr_loop fuel k m (h + 4) n
  end.
(* src/wchar/wcsstr.c:3-21 *)
Definition wcsstr (fuel : nat) (m : mem) (h n : Z) : res (option Z) :=
  do b <- wload m n; if b =? 0 then Ok (Some h) else wcsstr_loop fuel fuel m h n.

(* src/wchar/wcscpy.c:7 *)
Fixpoint wcscpy_loop (fuel : nat) (m : mem) (d s : Z) : res mem :=
  match fuel with
  | O => Fuel
  | S f => do c <- wload m s; do m' <- wstore m d c; if c =? 0 then Ok m' else wcscpy_loop f m' (d + 4) (s + 4)
  end.
(* src/wchar/wcscpy.c:3-10; memory and result *)
Definition wcscpy (fuel : nat) (m : mem) (d s : Z) : res (mem * Z) :=
  do m' <- wcscpy_loop fuel m d s; Ok (m', d).
(* src/wchar/wcscat.c:3-8 *)
Definition wcscat (fuel : nat) (m : mem) (d s : Z) : res (mem * Z) :=
  do n <- wcslen fuel m d; do (m', _) <- wcscpy fuel m (d + 4 * n) s; Ok (m', d).
(* src/wchar/wcsncpy.c:7-8, wcsncat.c:7-8; memory, output and remaining length *)
Fixpoint wcsn_loop (fuel : nat) (m : mem) (d s len : Z) : res (mem * Z * Z) :=
  match fuel with
  | O => Fuel
  | S f => if len =? 0 then Ok (m, d, len)
           else do c <- wload m s;
                if c =? 0 then Ok (m, d, len)
                else do m' <- wstore m d c; wcsn_loop f m' (d + 4) (s + 4) (u32 (len - 1))
  end.
(* src/wchar/wcsncpy.c:10-11, wmemset.c:7-8 *)
Fixpoint wfill_loop (fuel : nat) (m : mem) (d c len : Z) : res mem :=
  match fuel with
  | O => Fuel
  | S f => if len =? 0 then Ok m else do m' <- wstore m d c; wfill_loop f m' (d + 4) c (u32 (len - 1))
  end.
(* src/wchar/wcsncpy.c:3-14 *)
Definition wcsncpy (fuel : nat) (m : mem) (d s len : Z) : res (mem * Z) :=
  do (m1, d1, len1) <- wcsn_loop fuel m d s len; do m2 <- wfill_loop fuel m1 d1 0 len1; Ok (m2, d).
(* src/wchar/wcsncat.c:3-13 *)
Definition wcsncat (fuel : nat) (m : mem) (d s len : Z) : res (mem * Z) :=
  do n <- wcslen fuel m d; do (m1, d1, _) <- wcsn_loop fuel m (d + 4 * n) s len; do m2 <- wstore m1 d1 0; Ok (m2, d).
(* src/wchar/wmemset.c:3-11 *)
Definition wmemset (fuel : nat) (m : mem) (d c len : Z) : res (mem * Z) :=
  do m' <- wfill_loop fuel m d c len; Ok (m', d).
(* src/wchar/wmemcpy.c:4-8; length * sizeof(wchar_t) wraps *)
Definition wmemcpy (fuel : nat) (m : mem) (d s len : Z) : res (mem * Z) :=
  do (m', _) <- memcpy fuel m d s (u32 (len * 4)); Ok (m', d).
(* src/wchar/wmemmove.c:4-8 *)
Definition wmemmove (fuel : nat) (m : mem) (d s len : Z) : res (mem * Z) :=
  do (m', _) <- memmove fuel m d s (u32 (len * 4)); Ok (m', d).
(* src/wchar/wcsxfrm.c:11-12 *)
Fixpoint wcsxfrm_loop (fuel : nat) (m : mem) (d s i copy : Z) : res mem :=
  match fuel with
  | O => Fuel
  | S f => if i <? copy then do c <- wload m (s + 4 * i); do m' <- wstore m (d + 4 * i) c; wcsxfrm_loop f m' d s (u32 (i + 1)) copy
           else Ok m
  end.
(* src/wchar/wcsxfrm.c:3-18 *)
Definition wcsxfrm (fuel : nat) (m : mem) (d s len : Z) : res (mem * Z) :=
  do n <- wcslen fuel m s;
  if len =? 0 then Ok (m, n)
  else let copy := if n <? len then n else u32 (len - 1) in
       do m1 <- wcsxfrm_loop fuel m d s 0 copy; do m2 <- wstore m1 (d + 4 * copy) 0; Ok (m2, n).

(* src/wchar/wcstok.c:3-19; memory, new state and result; [None] is NULL *)
Definition wcstok (fuel : nat) (m : mem) (string : option Z) (sep : Z) (state : option Z) : res (mem * option Z * option Z) :=
  match (match string with Some p => Some p | None => state end) with
  | None => Ok (m, state, None)
  | Some p =>
    do n <- wcsspn fuel m p sep;
    let p := p + 4 * n in
    do c <- wload m p;
    if c =? 0 then Ok (m, None, None)
    else do r <- wcspbrk fuel m p sep;
         match r with
         | None => Ok (m, None, Some p)
         | Some e => do m' <- wstore m e 0; Ok (m', Some (e + 4), Some p)
         end
  end.
(** A client, not library code: wcstok is called until it returns NULL. *)
Fixpoint wtokenise (calls fuel : nat) (m : mem) (string : option Z) (sep : Z) (state : option Z) : res (mem * list Z) :=
  match calls with
  | O => Fuel
  | S c => do (m1, st1, r) <- wcstok fuel m string sep state;
           match r with
           | None => Ok (m1, [])
           | Some p => do (m2, l) <- wtokenise c fuel m1 None sep st1; Ok (m2, p :: l)
           end
  end.
