(** Specifications for process control. *)
From Verif Require Import Base Proc_Model.

(** The registrations and runs of a history. *)
Inductive act (H : Type) := Reg (h : H) | Run (h : H).
Arguments Reg {H} h. Arguments Run {H} h.
Fixpoint acts_of {H} (es : list (event H)) : list (act H) :=
  match es with
  | [] => []
  | Registered h :: es => Reg h :: acts_of es
  | Ran h :: es => Run h :: acts_of es
  | _ :: es => acts_of es
  end.
(** Well-bracketed: every registration is answered by exactly one run of the same function, and
    what is registered in between has run in between (last registered, first run). *)
Inductive lifo {H} : list (act H) -> Prop :=
| lifo_nil : lifo []
| lifo_pair h a b : lifo a -> lifo b -> lifo (Reg h :: a ++ Run h :: b).
(** Number of registered functions that have not run. *)
Definition pending {H} (es : list (event H)) : Z :=
  fold_left (fun n a => match a with Reg _ => n + 1 | Run _ => n - 1 end) (acts_of es) 0.
(** States a program can be in: the events so far and the table. *)
Inductive reach {H} : list (event H) -> list H -> Prop :=
| reach_start : reach [] []
| reach_register past t h t' r es : reach past t -> atexit t h = (t', r, es) -> reach (past ++ es) t'
| reach_run past t h : reach past (h :: t) -> reach (past ++ [Ran h]) t.
