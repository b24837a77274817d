(** Model of src/stdio/perror.c.  [err] is the pointer that strerror(errno) returns; the result is
    the memory, the pieces written to stderr and the status of fprintf, which perror ignores. *)
From Coq Require Import ZArith List.
From Verif Require Import Base Str_Model Printf_Model Printf_Fixed_Model.
Import ListNotations.
Open Scope Z_scope.

(* src/stdio/perror.c:5-11; the formats are "%s: %s\n" and "%s\n" *)
Definition perror (fuel : nat) (m : mem) (err msg : Z) : res (mem * pieces * Z) :=
  do c <- (if msg =? 0 then Ok 0 else load m msg);
  if c =? 0 then printf_ fuel m [37; 115; 10] [A32 err]
  else printf_ fuel m [37; 115; 58; 32; 37; 115; 10] [A32 msg; A32 err].
