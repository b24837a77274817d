(** Model of the wide-character streams: src/wchar/fgetwc.c, getwc.c, getwchar.c, fgetws.c, ungetwc.c, fputwc.c,
    putwc.c, putwchar.c, fputws.c, fwide.c, and the sink of vswprintf.c.  A FILE of Stdio_Model with the two
    members these functions add; wint_t is a signed 32-bit type (__WINT_TYPE__) and WEOF is -1. *)
From Verif Require Import Base Stdio_Model Utf8_Model.
Open Scope Z_scope.

Definition WEOF : Z := -1.
(* src/stdio/FILE.h:9-28 *)
Record WFILE := mk_wfile { file : FILE; orient : Z; pushback : Z }.
Definition new_wfile (st : Z) : WFILE := mk_wfile (new_file st) 0 0.
Definition set_file (W : WFILE) (F : FILE) : WFILE := mk_wfile F (orient W) (pushback W).
(* "if (stream->orient == 0) stream->orient = 1" *)
Definition widen (W : WFILE) : WFILE := mk_wfile (file W) (if orient W =? 0 then 1 else orient W) (pushback W).

(* src/wchar/fgetwc.c:18-34; the loop ends after at most four bytes *)
Fixpoint fgetwc_loop (fuel : nat) (st : Z) (F : FILE) (h : host) : res (Z * FILE * host) :=
  match fuel with
  | O => Fuel
  | S f =>
    do (c, F, h) <- getc_ F h;
    if c =? EOF then Ok (WEOF, set_state F (Z.lor (state F) eofbit_), h)
    else
      do r <- mbrtowc [u8 c] 1 st;
      if ret r =? SIZE_M1 then Ok (WEOF, set_state F (Z.lor (state F) errbit_), h)
      else if ret r =? SIZE_M2 then fgetwc_loop f (Utf8_Model.st r) F h
      else match wc r with Some w => Ok (w, F, h) | None => UB end
  end.
(* src/wchar/fgetwc.c:6-35; getwc.c:4, getwchar.c:4 *)
Definition fgetwc (W : WFILE) (h : host) : res (Z * WFILE * host) :=
  let W := widen W in
  if negb (Z.land (state (file W)) wpushbit_ =? 0) then
    Ok (s32 (pushback W), set_file W (set_state (file W) (Z.ldiff (state (file W)) wpushbit_)), h)
  else
    do (c, F, h) <- fgetwc_loop 8 0 (file W) h; Ok (c, set_file W F, h).
(* src/wchar/fgetws.c:4-25: [left] = n - 1 - i; the stored characters before the terminator, or NULL *)
Fixpoint fgetws_loop (left : nat) (acc : list Z) (W : WFILE) (h : host) : res (option (list Z) * WFILE * host) :=
  match left with
  | O => Ok (Some (rev acc), W, h)
  | S k => do (c, W, h) <- fgetwc W h;
           if c =? WEOF then Ok (match acc with [] => None | _ => Some (rev acc) end, W, h)
           else if c =? 10 then Ok (Some (rev (c :: acc)), W, h) else fgetws_loop k (c :: acc) W h
  end.
Definition fgetws (n : Z) (W : WFILE) (h : host) : res (option (list Z) * WFILE * host) :=
  if n <=? 0 then Ok (None, W, h) else fgetws_loop (Z.to_nat (n - 1)) [] W h.
(* src/wchar/ungetwc.c:5-17 *)
Definition ungetwc (c : Z) (W : WFILE) : Z * WFILE :=
  if (c =? WEOF) || negb (Z.land (state (file W)) wpushbit_ =? 0) then (WEOF, W)
  else let W := widen W in
       (c, mk_wfile (set_state (file W) (Z.ldiff (Z.lor (state (file W)) wpushbit_) eofbit_)) (orient W) (u32 c)).
(* src/wchar/fputwc.c:6-25, putwc.c:4, putwchar.c:4 *)
Definition fputwc (c : Z) (W : WFILE) (h : host) : Z * WFILE * host :=
  let W := widen W in
  let r := wcrtomb c in
  if wret r =? SIZE_M1 then (WEOF, set_file W (set_state (file W) (Z.lor (state (file W)) errbit_)), h)
  else let '(n, F, h) := stdio_write (file W) h (wout r) in
       if n =? wret r then (c, set_file W F, h)
       else (WEOF, set_file W (set_state F (Z.lor (state F) errbit_)), h).
(* src/wchar/fputws.c:4-10; the string before its terminator *)
Fixpoint fputws (s : list Z) (W : WFILE) (h : host) : Z * WFILE * host :=
  match s with
  | [] => (0, W, h)
  | c :: s => let '(r, W, h) := fputwc c W h in if r =? WEOF then (-1, W, h) else fputws s W h
  end.
(* src/wchar/fwide.c:4-9 *)
Definition fwide (W : WFILE) (mode : Z) : Z * WFILE :=
  let o := if (orient W =? 0) && negb (mode =? 0) then (if 0 <? mode then 1 else -1) else orient W in
  (o, mk_wfile (file W) o (pushback W)).
(** The byte functions and fseek leave orient, pushback and wpushbit_ alone (src/stdio mentions them only in FILE.h). *)
Definition on_bytes {A} (f : FILE -> host -> A * FILE * host) (W : WFILE) (h : host) : A * WFILE * host :=
  let '(a, F, h) := f (file W) h in (a, set_file W F, h).
