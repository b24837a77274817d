(** Model of src/stdio/vasprintf.c and asprintf.c (which only passes its arguments on).
    malloc and free are parameters acting on memory; *out is the returned pointer, None being
    the null pointer.  As in Printf_Model the pieces of a call are formatted before they are
    written to the stream. *)
From Verif Require Import Base Str_Model Printf_Model Printf_Fixed_Model.
Open Scope Z_scope.

(* src/stdio/vasprintf.c:5-32 *)
Definition vasprintf (fuel : nat) (malloc : mem -> Z -> option (Z * mem)) (free : mem -> Z -> mem)
    (m : mem) (format : list Z) (args : list varg) : res (mem * option Z * Z) :=
  do ((m, ps), st) <- printf_ fuel m format args;
  do (m, n) <- vsnprintf m 0 0 ps st;
  if n <? 0 then Ok (m, None, -1) else
  match malloc m (u32 (u32 n + 1)) with
  | None => Ok (m, None, -1)
  | Some (buf, m) =>
    do ((m, ps), st) <- printf_ fuel m format args;
    do (m, k) <- vsnprintf m buf (u32 (u32 n + 1)) ps st;
    if k <? 0 then Ok (free m buf, None, -1) else Ok (m, Some buf, k)
  end.
