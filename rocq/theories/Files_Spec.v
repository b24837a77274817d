(** Specifications for opening, closing, renaming, removing and examining files. *)
From Coq Require Import String.
From Verif Require Import Base Wasi_Model Wasi_Spec Files_Model.
Open Scope Z_scope.
Open Scope list_scope.

(** The library's number for the host's error [e], by name. *)
Definition errno_for (e x : Z) : Prop :=
  exists name, 0 < e /\ nth_error wasi_names (Z.to_nat e) = Some name /\ In (posix_name name, x) errno_h.
(** The call passes on the host's answer [e]: 0, or -1 and errno. *)
Definition reports (e : Z) (w : world) (r : Z) (w' : world) : Prop :=
  (e = 0 /\ r = 0 /\ errno w' = errno w) \/ (e <> 0 /\ r = -1 /\ errno_for e (errno w')).
(** [w'] is [w] after the events [tr] (oldest first) and perhaps a change of errno; FILE objects and heap are untouched. *)
Definition only_asked (w : world) (tr : list event) (w' : world) : Prop :=
  trace w' = rev tr ++ trace w /\ streams w' = streams w /\ heap w' = heap w /\ next w' = next w /\ oom w' = oom w.

(** Descriptors the host has opened and not been asked to close.  A close request ends the
    descriptor whatever its answer. *)
Fixpoint open_fds (tr : list event) : list Z :=
  match tr with
  | [] => []
  | (PathOpen _ _ _ _ _, e, v) :: tr => if e =? 0 then v :: open_fds tr else open_fds tr
  | (Close f, _, _) :: tr => List.remove Z.eq_dec f (open_fds tr)
  | _ :: tr => open_fds tr
  end.
(** Every close request names a descriptor that is open at that time. *)
Fixpoint closes_open (tr : list event) : Prop :=
  match tr with
  | [] => True
  | (Close f, _, _) :: tr => In f (open_fds tr) /\ closes_open tr
  | _ :: tr => closes_open tr
  end.
(** The host answers with WASI error numbers, and hands out descriptors that are nonnegative ints not in use. *)
Definition honest (h : host) : Prop :=
  forall tr c, let '(e, v) := h tr c in 0 <= e <= 76 /\
    match c with PathOpen _ _ _ _ _ => e = 0 -> 0 <= v < 2^31 /\ ~ In v (open_fds tr) | _ => True end.

(** A program's calls.  Stream arguments are streams the program got from fopen or freopen and has not closed. *)
Inductive op := Fopen (path mode : list Z) | Fclose (p : Z) | Freopen (path : option (list Z)) (mode : list Z) (p : Z)
              | Remove (path : list Z) | RenameTo (from to : list Z) | Stat (follow : bool) (path : list Z).
Definition legal (w : world) (o : op) : Prop :=
  match o with Fclose p | Freopen _ _ p => In p (heap w) | _ => True end.
Definition step (h : host) (entries : list preopen) (w : world) (o : op) : res (Z * world) :=
  match o with
  | Fopen path mode => fopen h entries w path mode
  | Fclose p => fclose h w p
  | Freopen path mode p => freopen h entries w path mode p
  | Remove path => remove_ h entries w path
  | RenameTo from to => rename h entries w from to
  | Stat follow path => stat_ follow h entries w path
  end.
(** Memory never runs out: without it fopen misbehaves (C104_fopen_no_memory_refuted). *)
Definition start : world :=
  mk_world [] 0 (fun p => if p =? 1 then Some (mk_stream 0 0) else if p =? 2 then Some (mk_stream 1 0)
                          else if p =? 3 then Some (mk_stream 2 0) else None) [] 4 [].
Inductive reach (h : host) (entries : list preopen) : world -> Prop :=
| reach_start : reach h entries start
| reach_step w o r w' : reach h entries w -> legal w o -> step h entries w o = Ok (r, w') -> reach h entries w'.
(** The descriptors of the open streams. *)
Definition stream_fds (w : world) : list Z :=
  map (fun p => match streams w p with Some s => sfd s | None => -1 end) (heap w).
