(** Specifications for the WASI adaptation layer. *)
From Coq Require Import String.
From Verif Require Import Base Wasi_Model.
Open Scope Z_scope.
Open Scope list_scope.

(** Names of the WASI snapshot_preview1 error numbers 0 .. 76 (witx order). *)
Definition wasi_names : list string := [
  "SUCCESS"; "E2BIG"; "EACCES"; "EADDRINUSE"; "EADDRNOTAVAIL"; "EAFNOSUPPORT"; "EAGAIN"; "EALREADY"; "EBADF"; "EBADMSG";
  "EBUSY"; "ECANCELED"; "ECHILD"; "ECONNABORTED"; "ECONNREFUSED"; "ECONNRESET"; "EDEADLK"; "EDESTADDRREQ"; "EDOM"; "EDQUOT";
  "EEXIST"; "EFAULT"; "EFBIG"; "EHOSTUNREACH"; "EIDRM"; "EILSEQ"; "EINPROGRESS"; "EINTR"; "EINVAL"; "EIO";
  "EISCONN"; "EISDIR"; "ELOOP"; "EMFILE"; "EMLINK"; "EMSGSIZE"; "EMULTIHOP"; "ENAMETOOLONG"; "ENETDOWN"; "ENETRESET";
  "ENETUNREACH"; "ENFILE"; "ENOBUFS"; "ENODEV"; "ENOENT"; "ENOEXEC"; "ENOLCK"; "ENOLINK"; "ENOMEM"; "ENOMSG";
  "ENOPROTOOPT"; "ENOSPC"; "ENOSYS"; "ENOTCONN"; "ENOTDIR"; "ENOTEMPTY"; "ENOTRECOVERABLE"; "ENOTSOCK"; "ENOTSUP"; "ENOTTY";
  "ENXIO"; "EOVERFLOW"; "EOWNERDEAD"; "EPERM"; "EPIPE"; "EPROTO"; "EPROTONOSUPPORT"; "EPROTOTYPE"; "ERANGE"; "EROFS";
  "ESPIPE"; "ESRCH"; "ESTALE"; "ETIMEDOUT"; "ETXTBSY"; "EXDEV"; "ENOTCAPABLE"]%string.
(** The library has no ENOTSUP or ENOTCAPABLE; the nearest names are used. *)
Definition posix_name (n : string) : string :=
  if (n =? "ENOTSUP")%string then "EOPNOTSUPP"%string else if (n =? "ENOTCAPABLE")%string then "EACCES"%string else n.

(** [pre] leads [p] up to a component boundary, leaving [rest]. *)
Definition leads (pre p rest : list Z) : Prop :=
  p = pre ++ rest /\ (rest = [] \/ exists r, rest = 47 :: r).
(** [p] without leading slashes *)
Definition unslashed (p q : list Z) : Prop :=
  exists k, p = repeat 47 k ++ q /\ (forall r, q <> 47 :: r).
(** The path handed to the host: the remainder, or "." when that is empty. *)
Definition relative (rest rel : list Z) : Prop :=
  exists q, unslashed rest q /\ rel = match q with [] => [46] | _ => q end.
(** [q] is [p] after removing any number of leading "./" components. *)
Inductive undotted : list Z -> list Z -> Prop :=
| ud_done p : (forall r, p <> 46 :: 47 :: r) -> undotted p p
| ud_step r q p : unslashed r q -> undotted q p -> undotted (46 :: 47 :: r) p.
Definition is_absolute (p : list Z) : Prop := exists r, p = 47 :: r.
(** A preopened directory standing for the current directory. *)
Definition universal (e : preopen) : Prop := prefix e = [] \/ prefix e = [46] \/ prefix e = [46; 47].
(** A preopened directory, other than those, whose name leads p. *)
Definition named (p : list Z) (e : preopen) : Prop := ~ universal e /\ exists rest, leads (prefix e) p rest.
(** [p] with its trailing slashes removed is [q]. *)
Definition trimmed (p q : list Z) : Prop := exists k, p = q ++ repeat 47 k /\ forall r, q <> r ++ [47].
(** The name the host gives for a directory (up to 256 bytes are asked for). *)
Definition dir_name (h : prestat) : option (list Z) :=
  match h with PDir len name => name (Z.min len 256) | _ => None end.
