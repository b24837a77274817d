(** Model of src/stdio streams: getc, ungetc, fread, fwrite, fgets, getdelim, gets, fputs, putc, puts,
    fseek, ftell, rewind, fgetpos, fsetpos, clearerr, feof, ferror, and the mode strings of fopen.
    Streams are unbuffered (FILE_ leaves [base] null and nothing sets it), so flush_ returns 0 without effect.
    A FILE is its indicator word, the pushback count and the 16-byte pushback cache (MB_LEN_MAX is 4).
    The host side of the descriptor is a file with a position; a script tells how the host answers
    successive reads and writes: with an error, or with at most so many bytes (a regular file
    answers in full: the empty script).  errno is not modelled here (see Wasi_Model). *)
From Verif Require Import Base.
Open Scope Z_scope.

Inductive answer := Fail | Grant (k : Z).
Record host := mk_host { data : list Z; pos : Z; append : bool; script : list answer }.
Record FILE := mk_file { state : Z; avail : Z; cache : list Z }.
(** src/stdio/FILE.h:30-36 *)
Definition eofbit_ : Z := 0x10.
Definition errbit_ : Z := 0x20.
Definition appbit_ : Z := 0x80.
Definition wpushbit_ : Z := 0x100.
Definition CACHE : Z := 16.
Definition EOF : Z := -1.
(* src/stdio/FILE_.h:8-15 *)
Definition new_file (st : Z) : FILE := mk_file st 0 (repeat 0 16).
Definition set_state (F : FILE) (s : Z) : FILE := mk_file s (avail F) (cache F).

(** The host: fd_read, fd_write, fd_seek *)
Definition granted (h : host) (size : Z) : option Z * list answer :=
  match script h with
  | [] => (Some size, [])
  | Fail :: s => (None, s)
  | Grant k :: s => (Some (Z.min k size), s)
  end.
Definition host_read (h : host) (size : Z) : option (list Z) * host :=
  match granted h size with
  | (None, s) => (None, mk_host (data h) (pos h) (append h) s)
  | (Some n, s) => let l := firstn (Z.to_nat n) (skipn (Z.to_nat (pos h)) (data h)) in
                   (Some l, mk_host (data h) (pos h + Z.of_nat (length l)) (append h) s)
  end.
(** Overwriting at [p] extends the file, with zeros if [p] is beyond its end; writing nothing changes nothing. *)
Definition patch (d : list Z) (p : nat) (l : list Z) : list Z :=
  if (length l =? 0)%nat then d else firstn p d ++ repeat 0 (p - length d) ++ l ++ skipn (p + length l) d.
Definition host_write (h : host) (l : list Z) : option Z * host :=
  match granted h (Z.of_nat (length l)) with
  | (None, s) => (None, mk_host (data h) (pos h) (append h) s)
  | (Some n, s) => let w := firstn (Z.to_nat n) l in
                   let p := if append h then Z.of_nat (length (data h)) else pos h in
                   (Some (Z.of_nat (length w)), mk_host (patch (data h) (Z.to_nat p) w) (p + Z.of_nat (length w)) (append h) s)
  end.
Definition host_seek (h : host) (offset origin : Z) : option (Z * host) :=
  let base := if origin =? 0 then 0 else if origin =? 1 then pos h else Z.of_nat (length (data h)) in
  let p := base + offset in
  if (p <? 0) || negb ((0 <=? origin) && (origin <=? 2)) then None
  else Some (p, mk_host (data h) p (append h) (script h)).

(* src/stdio/_read.c:5-19 *)
Definition stdio_read (F : FILE) (h : host) (size : Z) : list Z * FILE * host :=
  match host_read h size with
  | (None, h) => ([], set_state F (Z.lor (state F) errbit_), h)
  | (Some l, h) => (l, set_state F (Z.lor (state F) (b2z (Z.of_nat (length l) <? size) * eofbit_)), h)
  end.
(* src/stdio/_write.c:5-19 *)
Definition stdio_write (F : FILE) (h : host) (l : list Z) : Z * FILE * host :=
  match host_write h l with
  | (None, h) => (0, set_state F (Z.lor (state F) errbit_), h)
  | (Some n, h) => (n, set_state F (Z.lor (state F) (b2z (n <? Z.of_nat (length l)) * errbit_)), h)
  end.
(* src/stdio/_seek.c:6-24: long is 32 bits, so positions above 0x7FFFFFFF are refused after the host has moved *)
Definition stdio_seek (F : FILE) (h : host) (offset origin : Z) : Z * FILE * host :=
  match host_seek h offset origin with
  | None => (-1, F, h)
  | Some (p, h) => if 0x7FFFFFFF <? p then (-1, F, h) else (p, set_state F (Z.ldiff (state F) eofbit_), h)
  end.

(* src/stdio/getc.h:7-14; an index outside the cache is undefined *)
Definition getc_ (F : FILE) (h : host) : res (Z * FILE * host) :=
  if negb (avail F =? 0) then
    let i := CACHE - avail F in
    if (0 <=? i) && (i <? CACHE) then Ok (nth (Z.to_nat i) (cache F) 0, mk_file (state F) (avail F - 1) (cache F), h) else UB
  else
    let '(l, F, h) := stdio_read F h 1 in
    Ok (match l with [] => EOF | c :: _ => c end, F, h).
(* src/stdio/ungetc.c:4-14 *)
Definition ungetc (c : Z) (F : FILE) : Z * FILE :=
  if (avail F <? CACHE) && negb (c =? EOF) then
    let a := avail F + 1 in
    let i := Z.to_nat (CACHE - a) in
    (c, mk_file (Z.ldiff (state F) eofbit_) a (firstn i (cache F) ++ u8 c :: skipn (i + 1) (cache F)))
  else (EOF, F).
(* src/stdio/fread.c:4-17: the bytes stored in the buffer and the returned count *)
Definition fread_wrapper_ (F : FILE) (h : host) (size : Z) : list Z * FILE * host :=
  let hit := if avail F <? size then avail F else size in
  let missed := size - hit in
  let front := firstn (Z.to_nat hit) (skipn (Z.to_nat (CACHE - avail F)) (cache F)) in
  let F := mk_file (state F) (avail F - hit) (cache F) in
  if missed =? 0 then (front, F, h) else
  let '(l, F, h) := stdio_read F h missed in (front ++ l, F, h).
Definition fread (F : FILE) (h : host) (size count : Z) : res (list Z * Z * FILE * host) :=
  let '(l, F, h) := fread_wrapper_ F h (u32 (size * count)) in
  if size =? 0 then UB else Ok (l, Z.of_nat (length l) / size, F, h).
(* src/stdio/fwrite.c:3-6; [buffer] is what the pointer points to *)
Definition fwrite (F : FILE) (h : host) (buffer : list Z) (size count : Z) : res (Z * FILE * host) :=
  let total := u32 (size * count) in
  if Z.of_nat (length buffer) <? total then UB else
  let '(n, F, h) := stdio_write F h (firstn (Z.to_nat total) buffer) in
  if size =? 0 then UB else Ok (n / size, F, h).
(* src/stdio/putc.h:7-12, putc.c *)
Definition putc (c : Z) (F : FILE) (h : host) : Z * FILE * host :=
  let '(n, F, h) := stdio_write F h [u8 c] in (if n =? 1 then u8 c else EOF, F, h).
(* src/stdio/fputs.c:4-9; [s] is the string before its NUL *)
Definition fputs (s : list Z) (F : FILE) (h : host) : Z * FILE * host :=
  let '(n, F, h) := stdio_write F h s in (b2z (n =? Z.of_nat (length s)) - 1, F, h).
(* src/stdio/puts.c:6-11, putchar.c *)
Definition puts (s : list Z) (F : FILE) (h : host) : Z * FILE * host :=
  let '(_, F, h) := stdio_write F h s in putc 10 F h.

(* src/stdio/fgets.c:4-24: [left] = n - 1 - i; the stored bytes before the NUL, or NULL *)
Fixpoint fgets_loop (left : nat) (acc : list Z) (F : FILE) (h : host) : res (option (list Z) * FILE * host) :=
  match left with
  | O => Ok (Some (rev acc), F, h)
  | S k => do (c, F, h) <- getc_ F h;
           if c =? EOF then Ok (match acc with [] => None | _ => Some (rev acc) end, F, h)
           else if c =? 10 then Ok (Some (rev (c :: acc)), F, h) else fgets_loop k (c :: acc) F h
  end.
Definition fgets (n : Z) (F : FILE) (h : host) : res (option (list Z) * FILE * host) :=
  if n <=? 0 then Ok (None, F, h) else fgets_loop (Z.to_nat (n - 1)) [] F h.
(* src/stdio/gets.c:3-18: the stored bytes before the NUL and whether the result is the buffer *)
Fixpoint gets (fuel : nat) (acc : list Z) (F : FILE) (h : host) : res (list Z * bool * FILE * host) :=
  match fuel with
  | O => Fuel
  | S f => do (c, F, h) <- getc_ F h;
           if c =? 10 then Ok (rev acc, true, F, h)
           else if c =? EOF then Ok (rev acc, false, F, h) else gets f (c :: acc) F h
  end.

(** realloc answers: the script tells whether it succeeds; the first min(old, new) bytes are kept, the rest is
    arbitrary (here 0). *)
Definition realloc_to (buf : list Z) (n : Z) : list Z := firstn (Z.to_nat n) buf ++ repeat 0 (Z.to_nat n - length buf).
Definition store_at (buf : list Z) (i : nat) (c : Z) : res (list Z) :=
  if (i <? length buf)%nat then Ok (firstn i buf ++ c :: skipn (i + 1) buf) else UB.
(* src/stdio/getdelim.c:22-47: [buf] is the allocated line buffer, [cap] = *cap; returns -1 or n *)
Fixpoint getdelim_loop (fuel : nat) (delim : Z) (n : nat) (buf : list Z) (cap : Z) (mem : list bool) (F : FILE) (h : host)
  : res (Z * list Z * Z * FILE * host) :=
  match fuel with
  | O => Fuel
  | S f =>
    do (c, F, h) <- getc_ F h;
    let finish n (buf : list Z) := do buf <- store_at buf n 0; Ok (Z.of_nat n, buf, cap, F, h) in
    if c =? EOF then if (n =? 0)%nat then Ok (-1, buf, cap, F, h) else finish n buf
    else
      let put buf cap mem :=
        do buf <- store_at buf n c;
        if c =? delim then do buf <- store_at buf (n + 1) 0; Ok (Z.of_nat (n + 1), buf, cap, F, h)
        else getdelim_loop f delim (n + 1) buf cap mem F h in
      if cap <=? u32 (Z.of_nat n + 1) then
        match mem with
        | false :: mem => Ok (-1, buf, cap, F, h)
        | _ => let need := u32 (cap * 2) in put (realloc_to buf need) need (tl mem)
        end
      else put buf cap mem
  end.
(* src/stdio/getdelim.c:13-20; a null *line is the empty buffer *)
Definition getdelim (fuel : nat) (delim : Z) (null : bool) (buf : list Z) (cap : Z) (mem : list bool) (F : FILE) (h : host)
  : res (Z * list Z * Z * FILE * host) :=
  if null || (cap =? 0) then
    match mem with
    | false :: _ => Ok (-1, buf, cap, F, h)
    | _ => getdelim_loop fuel delim 0 (realloc_to buf 128) 128 (tl mem) F h
    end
  else getdelim_loop fuel delim 0 buf cap mem F h.

(* src/stdio/fseek.c:4-12; off_t is 64 bits, no overflow for long offsets *)
Definition fseeko (F : FILE) (h : host) (offset origin : Z) : Z * FILE * host :=
  let offset := if origin =? 1 then offset - avail F else offset in
  let '(p, F, h) := stdio_seek (mk_file (state F) 0 (cache F)) h offset origin in
  (b2z (p =? -1), F, h).
(* src/stdio/ftell.c:4-10: buffered is 0 *)
Definition ftello (F : FILE) (h : host) : Z * FILE * host :=
  let '(p, F, h) := stdio_seek F h 0 (if Z.land (state F) appbit_ =? 0 then 1 else 2) in
  (if p =? -1 then -1 else p - avail F, F, h).
(* src/stdio/rewind.c:4-8 *)
Definition rewind (F : FILE) (h : host) : FILE * host :=
  let '(_, F, h) := fseeko F h 0 0 in (set_state F (Z.ldiff (state F) errbit_), h).
(* src/stdio/fgetpos.c:6-11, fsetpos.c:5-10 *)
Definition fgetpos (F : FILE) (h : host) : Z * Z * FILE * host :=
  let '(p, F, h) := ftello F h in (b2z (p =? -1), p, F, h).
Definition fsetpos (F : FILE) (h : host) (position : Z) : Z * FILE * host :=
  let '(p, F, h) := stdio_seek (mk_file (state F) 0 (cache F)) h position 0 in (b2z (p =? -1), F, h).
(* src/stdio/clearerr.c, feof.c, ferror.c *)
Definition clearerr (F : FILE) : FILE := set_state F 0.
Definition feof (F : FILE) : bool := negb (Z.land (state F) eofbit_ =? 0).
Definition ferror (F : FILE) : bool := negb (Z.land (state F) errbit_ =? 0).

(** ** Opening *)
(** include/fcntl.h *)
Definition O_RDONLY : Z := 0.
Definition O_WRONLY : Z := 1.
Definition O_RDWR : Z := 2.
Definition O_CREAT : Z := 64.
Definition O_EXCL : Z := 128.
Definition O_TRUNC : Z := 512.
Definition O_APPEND : Z := 1024.
Definition O_CLOEXEC : Z := 2^19.
Definition O_ACCMODE : Z := 2^21 + 3.
(* src/stdio/modeflags.h:20-31 *)
Fixpoint mode_suffix (access modifier : Z) (mode : list Z) : Z :=
  match mode with
  | [] => Z.lor access modifier
  | c :: mode => if c =? 43 then mode_suffix O_RDWR modifier mode
                 else if c =? 120 then mode_suffix access (Z.lor modifier O_EXCL) mode
                 else if c =? 101 then mode_suffix access (Z.lor modifier O_CLOEXEC) mode
                 else mode_suffix access modifier mode
  end.
(* src/stdio/modeflags.h:3-34; the mode before its NUL *)
Definition modeflags_ (mode : list Z) : Z :=
  match mode with
  | [] => mode_suffix O_RDONLY 0 []
  | c :: rest => if c =? 119 then mode_suffix O_WRONLY (Z.lor O_CREAT O_TRUNC) rest
                 else if c =? 97 then mode_suffix O_WRONLY (Z.lor O_CREAT O_APPEND) rest
                 else if c =? 114 then mode_suffix O_RDONLY 0 rest
                 else mode_suffix O_RDONLY 0 mode
  end.
(* src/stdio/_open.c:9-59: rights, oflags, fdflags of the path_open call, or None (EINVAL); bit numbers of
   src/wasi/wasi.h:91-118.  O_DIRECTORY, O_NONBLOCK, O_DSYNC, O_SYNC are never set by modeflags_. *)
Definition read_rights : Z := 2^1 + 2^2 + 2^5 + 2^21 + 2^14 + 2^3.
Definition write_rights : Z := 2^6 + 2^2 + 2^5 + 2^21 + 2^22 + 2^4 + 2^0 + 2^3.
Definition open_flags (flags : Z) : option (Z * Z * Z) :=
  let acc := Z.land flags O_ACCMODE in
  let create := negb (Z.land flags O_CREAT =? 0) in
  let rights := if acc =? O_RDONLY then Some read_rights else if acc =? O_WRONLY then Some write_rights
                else if acc =? O_RDWR then Some (Z.lor read_rights write_rights) else None in
  match rights with
  | None => None
  | Some r => Some (if create then Z.lor r (2^9) else r,
                    b2z create + 4 * b2z (negb (Z.land flags O_EXCL =? 0)) + 8 * b2z (negb (Z.land flags O_TRUNC =? 0)),
                    b2z (negb (Z.land flags O_APPEND =? 0)))
  end.
(* src/stdio/fopen.c:16 *)
Definition fopen_state (flags : Z) : Z := if Z.land flags O_APPEND =? 0 then 0 else appbit_.
