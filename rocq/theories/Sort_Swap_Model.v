(** Byte-level model of swap_ in src/stdlib/qsort.c, over the memory of Str_Model. *)
From Verif Require Import Base Str_Model.
Open Scope Z_scope.
(* src/stdlib/qsort.c:23-34: SWAP(T) with sizeof(T) = n *)
Fixpoint swap_loop (fuel : nat) (n : nat) (m : mem) (a b i count : Z) : res mem :=
  match fuel with
  | O => Fuel
  | S f => if i <? count then
             do c <- load_n n m (a + Z.of_nat n * i);
             do l <- load_n n m (b + Z.of_nat n * i);
             do m <- store_n m (a + Z.of_nat n * i) l;
             do m <- store_n m (b + Z.of_nat n * i) c;
             swap_loop f n m a b (u32 (i + 1)) count
           else Ok m
  end.
(* src/stdlib/qsort.c:36-51 *)
Definition swap_bytes (fuel : nat) (m : mem) (a b size : Z) : res mem :=
  let low := Z.land size (u32 (- size)) in
  if low =? 1 then swap_loop fuel 1 m a b 0 size
  else if low =? 2 then swap_loop fuel 2 m a b 0 (Z.shiftr size 1)
  else if low =? 4 then swap_loop fuel 4 m a b 0 (Z.shiftr size 2)
  else swap_loop fuel 8 m a b 0 (Z.shiftr size 3).
