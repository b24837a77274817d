(** Model of src/wasi/errno.h, src/wasi/preopen.c, src/wasi/stat_convert.h and the clock functions
    of src/time. *)
From Coq Require Import String.
From Verif Require Import Base.
Open Scope Z_scope.
Open Scope list_scope.

(** ** Error numbers *)
(* include/errno.h:11-141 *)
Definition errno_h : list (string * Z) := [
  ("EPERM", 1); ("ENOENT", 2); ("ESRCH", 3); ("EINTR", 4); ("EIO", 5); ("ENXIO", 6); ("E2BIG", 7);
  ("ENOEXEC", 8); ("EBADF", 9); ("ECHILD", 10); ("EAGAIN", 11); ("ENOMEM", 12); ("EACCES", 13);
  ("EFAULT", 14); ("ENOTBLK", 15); ("EBUSY", 16); ("EEXIST", 17); ("EXDEV", 18); ("ENODEV", 19);
  ("ENOTDIR", 20); ("EISDIR", 21); ("EINVAL", 22); ("ENFILE", 23); ("EMFILE", 24); ("ENOTTY", 25);
  ("ETXTBSY", 26); ("EFBIG", 27); ("ENOSPC", 28); ("ESPIPE", 29); ("EROFS", 30); ("EMLINK", 31);
  ("EPIPE", 32); ("EDOM", 33); ("ERANGE", 34); ("EDEADLK", 35); ("ENAMETOOLONG", 36); ("ENOLCK", 37);
  ("ENOSYS", 38); ("ENOTEMPTY", 39); ("ELOOP", 40); ("EWOULDBLOCK", 11); ("ENOMSG", 42);
  ("EIDRM", 43); ("ECHRNG", 44); ("EL2NSYNC", 45); ("EL3HLT", 46); ("EL3RST", 47); ("ELNRNG", 48);
  ("EUNATCH", 49); ("ENOCSI", 50); ("EL2HLT", 51); ("EBADE", 52); ("EBADR", 53); ("EXFULL", 54);
  ("ENOANO", 55); ("EBADRQC", 56); ("EBADSLT", 57); ("EDEADLOCK", 35); ("EBFONT", 59);
  ("ENOSTR", 60); ("ENODATA", 61); ("ETIME", 62); ("ENOSR", 63); ("ENONET", 64); ("ENOPKG", 65);
  ("EREMOTE", 66); ("ENOLINK", 67); ("EADV", 68); ("ESRMNT", 69); ("ECOMM", 70); ("EPROTO", 71);
  ("EMULTIHOP", 72); ("EDOTDOT", 73); ("EBADMSG", 74); ("EOVERFLOW", 75); ("ENOTUNIQ", 76);
  ("EBADFD", 77); ("EREMCHG", 78); ("ELIBACC", 79); ("ELIBBAD", 80); ("ELIBSCN", 81);
  ("ELIBMAX", 82); ("ELIBEXEC", 83); ("EILSEQ", 84); ("ERESTART", 85); ("ESTRPIPE", 86);
  ("EUSERS", 87); ("ENOTSOCK", 88); ("EDESTADDRREQ", 89); ("EMSGSIZE", 90); ("EPROTOTYPE", 91);
  ("ENOPROTOOPT", 92); ("EPROTONOSUPPORT", 93); ("ESOCKTNOSUPPORT", 94); ("EOPNOTSUPP", 95);
  ("EPFNOSUPPORT", 96); ("EAFNOSUPPORT", 97); ("EADDRINUSE", 98); ("EADDRNOTAVAIL", 99);
  ("ENETDOWN", 100); ("ENETUNREACH", 101); ("ENETRESET", 102); ("ECONNABORTED", 103);
  ("ECONNRESET", 104); ("ENOBUFS", 105); ("EISCONN", 106); ("ENOTCONN", 107); ("ESHUTDOWN", 108);
  ("ETOOMANYREFS", 109); ("ETIMEDOUT", 110); ("ECONNREFUSED", 111); ("EHOSTDOWN", 112);
  ("EHOSTUNREACH", 113); ("EALREADY", 114); ("EINPROGRESS", 115); ("ESTALE", 116); ("EUCLEAN", 117);
  ("ENOTNAM", 118); ("ENAVAIL", 119); ("EISNAM", 120); ("EREMOTEIO", 121); ("EDQUOT", 122);
  ("ENOMEDIUM", 123); ("EMEDIUMTYPE", 124); ("ECANCELED", 125); ("ENOKEY", 126);
  ("EKEYEXPIRED", 127); ("EKEYREVOKED", 128); ("EKEYREJECTED", 129); ("EOWNERDEAD", 130);
  ("ENOTRECOVERABLE", 131)]%string.
(* src/wasi/errno.h:16-94 with the macros expanded *)
Definition wasi_to_posix : list Z := [
  0; 7; 13; 98; 99; 97; 11; 114; 9; 74; 16; 125; 10; 103; 111; 104; 35; 89; 33; 122; 17; 14; 27; 113;
  43; 84; 115; 4; 22; 5; 106; 21; 40; 24; 31; 90; 72; 36; 100; 102; 101; 23; 105; 19; 2; 8; 37; 67;
  12; 42; 92; 28; 38; 107; 20; 39; 131; 88; 95; 25; 6; 75; 130; 1; 32; 71; 93; 91; 34; 30; 29; 3;
  116; 110; 26; 18; 13].
(** src/wasi/errno.h:99-103, [errno = wasi_to_posix[e]]; e is a uint16_t. *)
Definition wasi_errno (e : Z) : res Z :=
  if e <? 0 then UB else match nth_error wasi_to_posix (Z.to_nat e) with Some x => Ok x | None => UB end.

(** ** Clocks *)
(** The host's answer to __wasi_clock_time_get: an error number or the time in nanoseconds (64 bits). *)
Inductive host_clock := ClockError (e : Z) | ClockTime (now : Z).
(** Result and new errno, if set. *)
(* src/time/time.c:10-23 *)
Definition time_ (h : host_clock) : res (Z * option Z) :=
  match h with
  | ClockError e => do x <- wasi_errno e; Ok (-1, Some x)
  | ClockTime now => Ok (s64 (now / 1000000000), None)
  end.
(* src/time/timespec_get.c:9-21; the result is (return value, stored tv_sec and tv_nsec) *)
Definition timespec_get (h : host_clock) (base : Z) : Z * option (Z * Z) :=
  if negb (base =? 1) then (0, None)
  else match h with
       | ClockError _ => (0, None)
       | ClockTime now => (base, Some (s64 (now / 1000000000), s32 (now mod 1000000000)))
       end.
(* src/time/clock.c:13-26; CLOCKS_PER_SEC is 1000000 *)
Definition clock (h : host_clock) : res Z :=
  match h with
  | ClockError _ => Ok (-1)
  | ClockTime now =>
    let secs := s64 (now / 1000000000) in
    let nsec := s32 (now mod 1000000000) in
    do a <- chk_i64 (secs * 1000000);
    chk_i64 (a + Z.quot nsec (Z.quot 1000000000 1000000))
  end.

(** ** Preopened directories *)
(** The host's answers for one file descriptor: fd_prestat_get fails with an error other than
    BADF, or reports something that is not a directory, or a directory whose name has [len] bytes
    with [name n] the result of fd_prestat_dir_name for a buffer of n bytes (None: an error). *)
Inductive prestat := PFail | POther | PDir (len : Z) (name : Z -> option (list Z)).
Record preopen := mk_preopen { fd : Z; prefix : list Z }.
(** buf with its trailing '/' removed *)
(* src/wasi/preopen.c:56-57 *)
Fixpoint trim_rev (l : list Z) : list Z := match l with 47 :: r => trim_rev r | _ => l end.
Definition trim (l : list Z) : list Z := rev (trim_rev (rev l)).
(** [host] lists the answers for fd = 3, 4, ...; after its end the host answers BADF.
    [n] entries and [used] bytes of the pool are taken. *)
(* src/wasi/preopen.c:31-71 and pool_dup 16-29 *)
Fixpoint init_loop (host : list prestat) (f : Z) (n used : Z) : list preopen :=
  if n <? 16 then
    match host with
    | [] => []
    | h :: host =>
      match h with
      | PFail | POther => init_loop host (f + 1) n used
      | PDir len name =>
        match name (if 256 <? len then 256 else len) with
        | None => init_loop host (f + 1) n used
        | Some buf =>
          let p := trim buf in
          if 1024 <? used + Z.of_nat (length p) + 1 then []
          else mk_preopen f p :: init_loop host (f + 1) (n + 1) (used + Z.of_nat (length p) + 1)
        end
      end
    end
  else [].
Definition ensure_init (host : list prestat) : list preopen := init_loop host 3 0 0.

(** while ( *path == '/') ++path *)
Fixpoint skip_slash (l : list Z) : list Z := match l with 47 :: r => skip_slash r | _ => l end.
(* src/wasi/preopen.c:73-81; paths are the bytes before the NUL *)
Fixpoint strip_dotslash (fuel : nat) (l : list Z) : res (list Z) :=
  match fuel with
  | O => Fuel
  | S k => match l with 46 :: 47 :: r => strip_dotslash k (skip_slash r) | _ => Ok l end
  end.
(** memcmp(a, b, n) == 0 *)
Fixpoint starts_with (b p : list Z) : bool :=
  match b, p with
  | [], _ => true
  | x :: b, y :: p => (x =? y) && starts_with b p
  | _ :: _, [] => false
  end.
Definition first_is (c : Z) (l : list Z) : bool := match l with x :: _ => x =? c | [] => false end.
(* src/wasi/preopen.c:99-136; [best]: the entry and best_len *)
Fixpoint search (entries : list preopen) (absolute : bool) (p : list Z) (best : option (preopen * Z)) : option (preopen * Z) :=
  match entries with
  | [] => best
  | e :: entries =>
    let elen := Z.of_nat (length (prefix e)) in
    let is_universal := match prefix e with [] | [46] | [46; 47] => true | _ => false end in
    if is_universal then
      if absolute then search entries absolute p best
      else search entries absolute p (match best with None => Some (e, 0) | _ => best end)
    else if negb (Bool.eqb absolute (first_is 47 (prefix e))) then search entries absolute p best
    else if Z.of_nat (length p) <? elen then search entries absolute p best
    else if negb (starts_with (prefix e) p) then search entries absolute p best
    else if (elen <? Z.of_nat (length p)) && negb (first_is 47 (skipn (length (prefix e)) p)) then search entries absolute p best
    else search entries absolute p
           (match best with Some (_, bl) => if bl <? elen then Some (e, elen) else best | None => Some (e, elen) end)
  end.
(** None: ENOENT; otherwise the base descriptor and the relative path. *)
(* src/wasi/preopen.c:83-160 *)
Definition preopen_lookup (entries : list preopen) (path : list Z) : res (option (Z * list Z)) :=
  match path with
  | [] => Ok None
  | _ =>
    let absolute := first_is 47 path in
    do p <- (if absolute then Ok path else strip_dotslash (S (length path)) path);
    match search entries absolute p None with
    | None => Ok None
    | Some (e, best_len) =>
      let rel := skip_slash (skipn (Z.to_nat best_len) p) in
      Ok (Some (fd e, match rel with [] => [46] | _ => rel end))
    end
  end.

(** ** File status *)
(* src/wasi/stat_convert.h:7-37; size, times in nanoseconds are uint64, blkcnt_t and off_t are 64-bit signed *)
Definition st_size (size : Z) : Z := s64 size.
Definition st_blocks (size : Z) : Z := s64 (u64 (size + 511) / 512).
Definition st_time (ns : Z) : Z * Z := (s64 (ns / 1000000000), s32 (ns mod 1000000000)).
Definition st_mode (filetype : Z) : Z :=
  if filetype =? 4 then Z.lor 32768 420 else if filetype =? 3 then Z.lor 16384 493 else if filetype =? 7 then Z.lor 40960 511
  else if filetype =? 2 then Z.lor 8192 438 else if filetype =? 1 then Z.lor 24576 438
  else if (filetype =? 5) || (filetype =? 6) then Z.lor 49152 438 else 0.
