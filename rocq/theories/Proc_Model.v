(** Model of process control: src/stdlib/{atexit,exit,quick_exit}.c, src/crt/crt1.c,
    src/signal, src/unistd/sbrk.c, src/locale/setlocale.c. *)
From Verif Require Import Base.
Open Scope Z_scope.

(** ** Exit handlers *)
(** What a run of the program does to the outside, as far as these functions are concerned. *)
Inductive event (H : Type) :=
| Registered (h : H)      (* atexit / at_quick_exit returned 0 *)
| Rejected (h : H)        (* it returned nonzero *)
| Ran (h : H)             (* the handler was called *)
| Flushed                 (* fflush(stdout), fflush(stderr) *)
| Terminated (status : Z) (* __wasi_proc_exit *).
Arguments Registered {H} h. Arguments Rejected {H} h. Arguments Ran {H} h.
Arguments Flushed {H}. Arguments Terminated {H} status.

Section Handlers.
Context {H : Type}.
(** The table_ array with count_ entries: the entries in use, last first. *)
Definition table := list H.
(* src/stdlib/atexit.c:9-16, quick_exit.c:12-19 *)
Definition atexit (t : table) (h : H) : table * Z * list (event H) :=
  if 32 <=? Z.of_nat (length t) then (t, 1, [Rejected h]) else (h :: t, 0, [Registered h]).
(** a client: several registrations in a row *)
Fixpoint register (t : table) (hs : list H) : table * list (event H) :=
  match hs with
  | [] => (t, [])
  | h :: hs => let '(t1, _, e1) := atexit t h in let '(t2, e2) := register t1 hs in (t2, e1 ++ e2)
  end.
(** [acts past h]: the functions handler [h] tries to register while it runs, when the events so
    far are [past].  Handlers that call exit or longjmp are not modelled. *)
(* src/stdlib/atexit.c:18-22, quick_exit.c:23-24; returns the events *)
Fixpoint run_handlers (fuel : nat) (acts : list (event H) -> H -> list H) (t : table) (past : list (event H)) : res (list (event H)) :=
  match fuel with
  | O => Fuel
  | S f =>
    match t with
    | [] => Ok past
    | h :: t => let past := past ++ [Ran h] in
                let '(t', es) := register t (acts past h) in
                run_handlers f acts t' (past ++ es)
    end
  end.
(** conversion of the int status to __wasi_exitcode_t (uint32_t) *)
(* src/stdlib/exit.c:13-19 *)
Definition exit_ (fuel : nat) acts (t : table) (past : list (event H)) (rc : Z) : res (list (event H)) :=
  do es <- run_handlers fuel acts t past; Ok (es ++ [Flushed; Terminated (u32 rc)]).
(* src/stdlib/quick_exit.c:21-27 *)
Definition quick_exit (fuel : nat) acts (t : table) (past : list (event H)) (rc : Z) : res (list (event H)) :=
  do es <- run_handlers fuel acts t past; Ok (es ++ [Terminated (u32 rc)]).
(* src/stdlib/exit.c:8-11 *)
Definition Exit_ (past : list (event H)) (rc : Z) : list (event H) := past ++ [Terminated (u32 rc)].
(* src/crt/crt1.c:51-59, after main has returned rc *)
Definition start_return (t : table) (past : list (event H)) (rc : Z) : list (event H) := past ++ [Terminated (u32 rc)].
End Handlers.

(** ** Signals *)
(** A __sighandler_t value: 0, the address of __metallic_sig_ign, SIG_ERR, or a user function. *)
Inductive disp (H : Type) := DFL | IGN | ERR | Fn (h : H).
Arguments DFL {H}. Arguments IGN {H}. Arguments ERR {H}. Arguments Fn {H} h.
Section Signals.
Context {H : Type}.
(** handlers_[0..31] *)
Definition sigs := Z -> disp H.
(* src/signal/signal.c:20-28; returns the result, the new table and errno (never written) *)
Definition signal (s : sigs) (errno : Z) (sig : Z) (d : disp H) : disp H * sigs * Z :=
  if (sig <? 0) || (32 <=? sig) then (ERR, s, errno) else (s sig, fun x => if x =? sig then d else s x, errno).
(* src/signal/signal.c:33-38 *)
Definition sig_handler (s : sigs) (sig : Z) : disp H :=
  if (sig <? 0) || (32 <=? sig) then DFL else s sig.
(** Outcome of raise: it returns r after calling these handlers, or the process has terminated. *)
Inductive outcome := Returned (r : Z) (s : sigs) (calls : list (H * Z)) | Exited (status : Z) (calls : list (H * Z)).
(** [run h sig s]: the effect of calling handler [h] on the table (handlers may call signal).
    Handlers that raise or do not return are not modelled. *)
(* src/signal/raise.c:7-36 and src/stdlib/exit.c:25-29, mutually recursive: abort calls
   raise(SIGABRT), whose default action calls abort.  Calling SIG_ERR is UB. *)
Fixpoint raise (fuel : nat) (run : H -> Z -> sigs -> sigs) (s : sigs) (sig : Z) (calls : list (H * Z)) : res outcome :=
  match fuel with
  | O => Fuel
  | S f =>
    match sig_handler s sig with
    | IGN => Ok (Returned 0 s calls)
    | DFL =>
      if (sig =? 6) || (sig =? 8) || (sig =? 4) || (sig =? 2) || (sig =? 11) || (sig =? 15) then
        do o <- raise f run s 6 calls; (* abort *)
        match o with Returned _ _ cs => Ok (Exited 134 cs) | Exited st cs => Ok (Exited st cs) end
      else Ok (Returned 0 s calls)
    | ERR => UB
    | Fn h => Ok (Returned 0 (run h sig s) (calls ++ [(h, sig)]))
    end
  end.
(* src/stdlib/exit.c:25-29 *)
Definition abort (fuel : nat) (run : H -> Z -> sigs -> sigs) (s : sigs) : res outcome :=
  do o <- raise fuel run s 6 [];
  match o with Returned _ _ cs => Ok (Exited 134 cs) | Exited st cs => Ok (Exited st cs) end.
End Signals.
Arguments outcome : clear implicits.

(** ** sbrk *)
(** Break and number of 64 KiB pages. *)
Record heap := mk_heap { brk : Z; pages : Z }.
(* src/unistd/sbrk.c:5-20.  [grow n] tells whether memory.grow n succeeds (host's choice).
   All arithmetic is on 32-bit uintptr_t.  Result: address, new state; errno is never written. *)
Definition sbrk (h : heap) (grow : Z -> bool) (increment : Z) : Z * heap :=
  let previous := brk h in
  let capacity := u32 (65536 * pages h) in
  if capacity <? u32 (brk h + increment) then
    let excess := u32 (u32 (brk h + increment) - capacity) in
    let n := u32 (65535 + excess) / 65536 in
    if grow n then (previous, mk_heap (u32 (brk h + increment)) (pages h + n))
    else (u32 (-1), h)
  else (previous, mk_heap (u32 (brk h + increment)) (pages h)).
(* src/crt/crt1.c:53: the initial break, from the frame address *)
Definition initial_brk (frame : Z) : Z := u32 (Z.land frame 0xFF + 1).

(** ** setlocale *)
(** [locale] NULL is None; returns the string or None for NULL *)
(* src/locale/setlocale.c:10-23; strcmp on lists of bytes *)
Fixpoint same (a b : list Z) : bool :=
  match a, b with [], [] => true | x :: a, y :: b => (x =? y) && same a b | _, _ => false end.
Definition setlocale (category : Z) (locale : option (list Z)) : option (list Z) :=
  if (category <? 0) || (5 <? category) then None
  else match locale with
       | None => Some [67]
       | Some l => if (match l with [] => true | _ => false end) || same l [67] || same l [80;79;83;73;88]
                   then Some [67] else None
       end.
