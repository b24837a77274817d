(** Model of src/string/strerror.c.  Messages are lists of characters, without the terminator;
    the values of the macros are those of include/errno.h:11-141. *)
From Coq Require Import ZArith List String Ascii.
Import ListNotations.
Open Scope Z_scope.

Definition chars (s : string) : list Z := map (fun c => Z.of_N (N_of_ascii c)) (list_ascii_of_string s).

(* src/string/strerror.c:6-57: the cases of the switch *)
Definition messages : list (Z * list Z) :=
  [ (0, chars "Success");
    (1, chars "Operation not permitted");
    (2, chars "No such file or directory");
    (3, chars "No such process");
    (4, chars "Interrupted system call");
    (5, chars "I/O error");
    (6, chars "No such device or address");
    (7, chars "Argument list too long");
    (8, chars "Exec format error");
    (9, chars "Bad file descriptor");
    (10, chars "No child processes");
    (11, chars "Resource temporarily unavailable");
    (12, chars "Out of memory");
    (13, chars "Permission denied");
    (14, chars "Bad address");
    (16, chars "Device or resource busy");
    (17, chars "File exists");
    (18, chars "Cross-device link");
    (19, chars "No such device");
    (20, chars "Not a directory");
    (21, chars "Is a directory");
    (22, chars "Invalid argument");
    (23, chars "Too many open files in system");
    (24, chars "Too many open files");
    (25, chars "Not a terminal");
    (26, chars "Text file busy");
    (27, chars "File too large");
    (28, chars "No space left on device");
    (29, chars "Illegal seek");
    (30, chars "Read-only file system");
    (31, chars "Too many links");
    (32, chars "Broken pipe");
    (33, chars "Numerical argument out of domain");
    (34, chars "Numerical result out of range");
    (35, chars "Resource deadlock avoided");
    (36, chars "File name too long");
    (37, chars "No locks available");
    (38, chars "Function not implemented");
    (39, chars "Directory not empty");
    (40, chars "Too many levels of symbolic links");
    (84, chars "Invalid or incomplete multibyte sequence");
    (75, chars "Value too large for defined data type");
    (88, chars "Socket operation on non-socket");
    (90, chars "Message too long");
    (107, chars "Transport endpoint is not connected");
    (110, chars "Connection timed out");
    (111, chars "Connection refused");
    (114, chars "Operation already in progress");
    (115, chars "Operation now in progress");
    (125, chars "Operation canceled") ].
(* src/string/strerror.c:58 *)
Definition unknown : list Z := chars "Unknown error".

(* src/string/strerror.c:4-60 *)
Definition strerror (e : Z) : list Z :=
  match find (fun p => fst p =? e) messages with Some p => snd p | None => unknown end.
