(** Model of the wide-character number parsers: src/wchar/wcstol.c, wcstoul.c, wcstoll.c, wcstoull.c, wcstod.c,
    wcstof.c over parse.h, and of src/inttypes/strtoimax.c, strtoumax.c, wcstoimax.c, wcstoumax.c.
    A wide string is the list of its characters without the terminator; [end] is an offset, the same one in the
    wide string and in the buffer (wparse_endptr_, parse.h:50-55; strtol always sets [end] here). *)
From Verif Require Import Base Stdlib_Model Strtod_Model.
Open Scope Z_scope.

(* src/wchar/parse.h:21-23 *)
Definition wspace (c : Z) : bool := (c =? 32) || (c =? 9) || (c =? 10) || (c =? 11) || (c =? 12) || (c =? 13).
(* src/wchar/parse.h:32-37 *)
Definition wtoken (c : Z) : bool :=
  ((48 <=? c) && (c <=? 57)) || ((97 <=? c) && (c <=? 122)) || ((65 <=? c) && (c <=? 90)) ||
  (c =? 43) || (c =? 45) || (c =? 46) || (c =? 40) || (c =? 41) || (c =? 95).
(* src/wchar/parse.h:21-23: the leading whitespace s[0..k) and the text from s[k] *)
Fixpoint wskip (s : list Z) : list Z * list Z :=
  match s with
  | [] => ([], [])
  | c :: s' => if wspace c then let '(a, b) := wskip s' in (c :: a, b) else ([], s)
  end.
(* src/wchar/parse.h:29-44; [room] = cap - 1 - n *)
Fixpoint wtokens (room : nat) (s : list Z) : list Z :=
  match room, s with
  | S room, c :: s => if wtoken c then c :: wtokens room s else []
  | _, _ => []
  end.
(* src/wchar/parse.h:16-48: the string in the buffer *)
Definition wparse_copy_ (s : list Z) (cap : Z) : list Z :=
  let '(ws, t) := wskip s in
  let front := firstn (Z.to_nat (cap - 1)) ws in
  front ++ wtokens (Z.to_nat (cap - 1) - length front) t.

(* src/wchar/wcstol.c:5-18, wcstoul.c, wcstoll.c, wcstoull.c:5-17 *)
Definition wcstol (s : list Z) (base : Z) : res parsed := strtol (wparse_copy_ s 128) base.
Definition wcstoul (s : list Z) (base : Z) : res parsed := strtoul (wparse_copy_ s 128) base.
Definition wcstoll (s : list Z) (base : Z) : res parsed := strtoll (wparse_copy_ s 128) base.
Definition wcstoull (s : list Z) (base : Z) : res parsed := strtoull (wparse_copy_ s 128) base.
(* src/wchar/wcstod.c:5-17, wcstof.c:5-17 *)
Definition wcstod (s : list Z) : res fparsed := strtod (wparse_copy_ s 256).
Definition wcstof (s : list Z) : res fparsed := strtof (wparse_copy_ s 256).
(* src/inttypes/strtoimax.c:4-7, strtoumax.c:4-7, wcstoimax.c:4-7, wcstoumax.c:4-7 *)
Definition strtoimax : list Z -> Z -> res parsed := strtoll.
Definition strtoumax : list Z -> Z -> res parsed := strtoull.
Definition wcstoimax : list Z -> Z -> res parsed := wcstoll.
Definition wcstoumax : list Z -> Z -> res parsed := wcstoull.
