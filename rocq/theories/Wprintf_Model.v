(** Model of formatted wide output and input: src/wchar/vfwprintf.c, fwprintf.c, wprintf.c, vwprintf.c, vswprintf.c,
    swprintf.c, vswscanf.c, swscanf.c. *)
From Verif Require Import Base Str_Model Printf_Model Printf_Fixed_Model Stdio_Model Scanf_Model Utf8_Model Wstdio_Model.
Open Scope Z_scope.

(** the C string in a buffer; without a terminator reading it is undefined *)
Fixpoint cstring (l : list Z) : res (list Z) :=
  match l with [] => UB | b :: l => if b =? 0 then Ok [] else do s <- cstring l; Ok (b :: s) end.
(* src/wchar/vfwprintf.c:23-35, vswscanf.c:9-20 and 23-31: a wide string, without its terminator, as the byte string in
   a new buffer; None: the return -1.  [room] tells whether malloc succeeds; the buffer holds bytes + 1 bytes, and
   wcsrtombs writes no more (its limit). *)
Definition transcode (room : bool) (w : list Z) : res (option (list Z)) :=
  do r <- wcsrtombs false (w ++ [0]) 0;
  if sret r =? SIZE_M1 then Ok None
  else if negb room then Ok None
  else do r <- wcsrtombs true (w ++ [0]) (sret r + 1); do s <- cstring (sout r); Ok (Some s).

(* src/wchar/vfwprintf.c:18-40 on any kind of stream, whose orientation is set by the caller of this definition; the
   memory and pieces of the formatter as in Printf_Model *)
Definition vfwprintf_on {S} (write : S -> list Z -> res (S * Z)) (st : S) (room : bool) (fuel : nat) (m : mem) (format : list Z) (args : list varg)
  : res (S * mem * Z) :=
  do f <- transcode room format;
  match f with
  | None => Ok (st, m, -1)
  | Some f => do (m, ps, status) <- printf_ fuel m f args; do (st, status) <- on_stream write st ps status; Ok (st, m, status)
  end.

(** a regular stream *)
Definition stream_write (st : WFILE * host) (l : list Z) : res (WFILE * host * Z) :=
  let '(n, F, h) := stdio_write (file (fst st)) (snd st) l in Ok (set_file (fst st) F, h, n).
(* src/wchar/vfwprintf.c:18-40, fwprintf.c, wprintf.c, vwprintf.c *)
Definition vfwprintf (W : WFILE) (h : host) (room : bool) (fuel : nat) (m : mem) (format : list Z) (args : list varg) : res (WFILE * host * mem * Z) :=
  vfwprintf_on stream_write (widen W, h) room fuel m format args.

(* src/wchar/vswprintf.c:12-19; [wbuf] is the caller's array *)
Record wsink := mk_wsink { wbuf : list Z; wcap : Z; wn : nat; wst : Z }.
(* src/wchar/vswprintf.c:25-34; the boolean tells whether all bytes were accepted.  s->n + 1 does not wrap as n < cap *)
Fixpoint wsink_loop (s : wsink) (l : list Z) : res (wsink * bool) :=
  match l with
  | [] => Ok (s, true)
  | b :: l =>
    do r <- mbrtowc [b] 1 (wst s);
    if ret r =? SIZE_M1 then Ok (mk_wsink (wbuf s) (wcap s) (wn s) (st r), false)
    else if ret r =? SIZE_M2 then wsink_loop (mk_wsink (wbuf s) (wcap s) (wn s) (st r)) l
    else match wc r with
         | None => UB
         | Some c =>
           if Z.of_nat (wn s) + 1 <? wcap s then
             do buf <- store_at (wbuf s) (wn s) c; wsink_loop (mk_wsink buf (wcap s) (S (wn s)) (st r)) l
           else wsink_loop (mk_wsink (wbuf s) (wcap s) (wn s) (st r)) l
         end
  end.
(* src/wchar/vswprintf.c:21-36 *)
Definition wsink_write (s : wsink) (l : list Z) : res (wsink * Z) :=
  do (s, ok) <- wsink_loop s l; Ok (s, if ok : bool then Z.of_nat (length l) else 0).
(* src/wchar/vswprintf.c:38-57, swprintf.c:5-12: the array afterwards, the memory and the result *)
Definition vswprintf (buf : list Z) (cap : Z) (room : bool) (fuel : nat) (m : mem) (format : list Z) (args : list varg) : res (list Z * mem * Z) :=
  if cap =? 0 then Ok (buf, m, -1) else
  do (s, m, r) <- vfwprintf_on wsink_write (mk_wsink buf cap 0 0) room fuel m format args;
  if r <? 0 then do buf <- store_at (wbuf s) 0 0; Ok (buf, m, -1)
  else do buf <- store_at (wbuf s) (wn s) 0; Ok (buf, m, s32 (u32 (Z.of_nat (wn s)))).

(* src/wchar/vswscanf.c:6-38, swscanf.c: -1 and nothing stored when a string cannot be transcoded *)
Definition vswscanf (room1 room2 : bool) (fuel : nat) (ws format : list Z) (nargs : Z) : res (Z * list (Z * stored)) :=
  do s <- transcode room1 ws;
  match s with
  | None => Ok (-1, [])
  | Some s => do f <- transcode room2 format;
              match f with None => Ok (-1, []) | Some f => vsscanf fuel s f nargs end
  end.
