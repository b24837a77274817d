(** Model of src/stdlib/qsort.c.
    The array is a map from element indices to element values (type [A]) with bounds [0, N);
    touching an element outside is UB.  Pointers data + size * i are kept as indices i, and their
    32-bit addresses are used where the code compares pointers.  Simplifications: elements move as
    whole values (copy_ is verified at the byte level under C26; swap_ below likewise); the
    comparator is a function of the two element values; comparator calls are the only use made of
    the order.  copy_ and swap_ of an element onto itself (heapsort_ with one element left) are
    taken to leave it unchanged, although the code declares the pointers restrict. *)
From Verif Require Import Base.
Open Scope Z_scope.

Section Sort.
Context {A : Type}.
Context (cmp : A -> A -> Z).
Context (base size N : Z). (* address and element size of the array, number of elements *)

Definition get (a : Z -> A) (i : Z) : res A := if (0 <=? i) && (i <? N) then Ok (a i) else UB.
Definition upd (a : Z -> A) (i : Z) (x : A) : Z -> A := fun k => if k =? i then x else a k.
Definition put (a : Z -> A) (i : Z) (x : A) : res (Z -> A) := if (0 <=? i) && (i <? N) then Ok (upd a i x) else UB.
Definition compare (a : Z -> A) (i j : Z) : res Z := do x <- get a i; do y <- get a j; Ok (cmp x y).
(* src/stdlib/qsort.c:36-51 *)
Definition swap_ (a : Z -> A) (i j : Z) : res (Z -> A) :=
  do x <- get a i; do y <- get a j; do a <- put a i y; put a j x.
(** address of element i *)
Definition addr (i : Z) : Z := u32 (base + size * i).

(** [off] is the index of the first element of the sub-array being sorted (data). *)
(* src/stdlib/qsort.c:16-17, b = element off + k *)
Fixpoint shift_ (fuel : nat) (a : Z -> A) (off k : Z) (c : A) : res ((Z -> A) * Z) :=
  match fuel with
  | O => Fuel
  | S f =>
    if addr off <=? addr (off + k) then
      do y <- get a (off + k);
      if cmp c y <? 0 then do a <- put a (off + k + 1) y; shift_ f a off (k - 1) c
      else Ok (a, k)
    else Ok (a, k)
  end.
(* src/stdlib/qsort.c:9-20 *)
Fixpoint insertion_loop (fuel : nat) (a : Z -> A) (off count i : Z) : res (Z -> A) :=
  match fuel with
  | O => Fuel
  | S f =>
    if i <? count then
      do c <- get a (off + i);
      do (a, k) <- shift_ 10 a off (i - 1) c;
      do a <- put a (off + k + 1) c;
      insertion_loop f a off count (i + 1)
    else Ok a
  end.
Definition insertion_sort_ (a : Z -> A) (off count : Z) : res (Z -> A) := insertion_loop 10 a off count 1.

(* src/stdlib/qsort.c:53-60 *)
Fixpoint leaf_ (fuel : nat) (a : Z -> A) (off i count : Z) : res Z :=
  match fuel with
  | O => Fuel
  | S f =>
    if u32 (2 * i) <? count then
      do c <- compare a (off + u32 (2 * i) - 1) (off + u32 (2 * i));
      leaf_ f a off (Z.lor (u32 (2 * i)) (b2z (c <? 0))) count
    else Ok (u32 (Z.shiftl i (b2z (u32 (2 * i) =? count))))
  end.
(* src/stdlib/qsort.c:68-69 *)
Fixpoint climb (fuel : nat) (a : Z -> A) (off stem offspring : Z) : res Z :=
  match fuel with
  | O => Fuel
  | S f =>
    do c <- compare a (off + offspring - 1) (off + stem - 1);
    if c <? 0 then climb f a off stem (offspring / 2) else Ok offspring
  end.
(* src/stdlib/qsort.c:74-77 *)
Fixpoint rotate (fuel : nat) (a : Z -> A) (off stem offspring : Z) (buffer : A) : res (Z -> A) :=
  match fuel with
  | O => Fuel
  | S f =>
    if stem <? offspring then
      let offspring := offspring / 2 in
      do x <- get a (off + offspring - 1);
      do a <- put a (off + offspring - 1) buffer;
      rotate f a off stem offspring x
    else Ok a
  end.
(* src/stdlib/qsort.c:62-78 *)
Definition siftdown_ (fuel : nat) (a : Z -> A) (off stem count : Z) : res (Z -> A) :=
  do offspring <- leaf_ fuel a off stem count;
  do offspring <- climb fuel a off stem offspring;
  do buffer <- get a (off + offspring - 1);
  do x <- get a (off + stem - 1);
  do a <- put a (off + offspring - 1) x;
  rotate fuel a off stem offspring buffer.
(* src/stdlib/qsort.c:82-83 *)
Fixpoint heapify (fuel : nat) (n : nat) (a : Z -> A) (off count : Z) : res (Z -> A) :=
  match n with
  | O => Ok a
  | S m => do a <- siftdown_ fuel a off (Z.of_nat n) count; heapify fuel m a off count
  end.
(* src/stdlib/qsort.c:85-88 *)
Fixpoint extract (fuel : nat) (n : nat) (a : Z -> A) (off : Z) : res (Z -> A) :=
  match n with
  | O => Ok a
  | S m =>
    do a <- swap_ a off (off + Z.of_nat m);
    do a <- siftdown_ fuel a off 1 (Z.of_nat m);
    extract fuel m a off
  end.
(* src/stdlib/qsort.c:80-89 *)
Definition heapsort_ (fuel : nat) (a : Z -> A) (off count : Z) : res (Z -> A) :=
  do a <- heapify fuel (Z.to_nat (count / 2)) a off count;
  extract fuel (Z.to_nat count) a off.

(* src/stdlib/qsort.c:109 *)
Fixpoint scan_up (fuel : nat) (a : Z -> A) (front pivot : Z) : res Z :=
  match fuel with
  | O => Fuel
  | S f => let front := front + 1 in
           do c <- compare a front pivot; if c <? 0 then scan_up f a front pivot else Ok front
  end.
(* src/stdlib/qsort.c:110 *)
Fixpoint scan_down (fuel : nat) (a : Z -> A) (back pivot : Z) : res Z :=
  match fuel with
  | O => Fuel
  | S f => let back := back - 1 in
           do c <- compare a pivot back; if c <? 0 then scan_down f a back pivot else Ok back
  end.
(* src/stdlib/qsort.c:108-117 *)
Fixpoint partition_loop (F fuel : nat) (a : Z -> A) (front back pivot : Z) : res ((Z -> A) * Z) :=
  match fuel with
  | O => Fuel
  | S f =>
    do front <- scan_up F a front pivot;
    do back <- scan_down F a back pivot;
    if addr back <=? addr front then
      do a <- swap_ a front pivot; Ok (a, front)
    else
      do a <- swap_ a front back; partition_loop F f a front back pivot
  end.
(* src/stdlib/qsort.c:91-118; returns the index of the element the result points to *)
Definition partition_ (fuel : nat) (a : Z -> A) (off count : Z) : res ((Z -> A) * Z) :=
  let front := off in
  let middle := off + count / 2 in
  let back := off + (count - 1) in
  do c <- compare a middle front;
  do a <- (if c <? 0 then swap_ a front middle else Ok a);
  do c <- compare a back front;
  do a <- (if c <? 0 then swap_ a front back else Ok a);
  do c <- compare a middle back;
  do a <- (if c <? 0 then swap_ a middle back else Ok a);
  partition_loop fuel fuel a front back back.
(* src/stdlib/qsort.c:120-133; the pointer difference over size is the difference of indices *)
Fixpoint introsort_ (F fuel : nat) (a : Z -> A) (off count ttl : Z) : res (Z -> A) :=
  match fuel with
  | O => Fuel
  | S f =>
    if count <=? 8 then insertion_sort_ a off count
    else if ttl <? 0 then heapsort_ F a off count
    else
      do (a, pivot) <- partition_ F a off count;
      let index := pivot - off in
      do t <- chk_i32 (ttl - 1);
      do a <- introsort_ F f a off index t;
      introsort_ F f a pivot (count - index) t
  end.
(* src/stdlib/qsort.c:135-140; __builtin_clz(0) is undefined and taken to be some number [clz0] *)
Definition clz32 (clz0 x : Z) : Z := if x =? 0 then clz0 else 31 - Z.log2 x.
Definition qsort (clz0 : Z) (fuel : nat) (a : Z -> A) : res (Z -> A) :=
  introsort_ fuel fuel a 0 N (31 - clz32 clz0 N).
End Sort.
