(** Model of memmem and strstr (src/string/strstr.c), the two-way search. *)
From Verif Require Import Base Str_Model.
Open Scope Z_scope.

(* src/string/strstr.c:39-47 *)
Definition lt_ (a b : Z) : bool := a <? b.
Definition gt_ (a b : Z) : bool := a >? b.
(* src/string/strstr.c:11-33; all variables are size_t; returns index and period *)
Fixpoint split_loop (fuel : nat) (comp : Z -> Z -> bool) (m : mem) (x n i j k p : Z) : res (Z * Z) :=
  match fuel with
  | O => Fuel
  | S f =>
    if u32 (j + k) <? n then
      do a <- load m (x + u32 (j + k));
      do b <- load m (x + u32 (i + k));
      if comp a b then split_loop f comp m x n i (u32 (j + k)) 1 (u32 (u32 (j + k) - i))
      else if a =? b then
        if k =? p then split_loop f comp m x n i (u32 (j + p)) 1 p
        else split_loop f comp m x n i j (u32 (k + 1)) p
      else split_loop f comp m x n j (u32 (j + 1)) 1 1
    else Ok (i, p)
  end.
(* src/string/strstr.c:4-37; i = -1 is SIZE_MAX *)
Definition split_ (fuel : nat) (comp : Z -> Z -> bool) (m : mem) (x n : Z) : res (Z * Z) :=
  split_loop fuel comp m x n SIZE_M1 0 1 1.
(* src/string/strstr.c:49-60; [lt >= gt] compares size_t values *)
Definition factorize_ (fuel : nat) (m : mem) (x n : Z) : res (Z * Z) :=
  do (lt, period) <- split_ fuel lt_ m x n;
  do (gt, p) <- split_ fuel gt_ m x n;
  if lt >=? gt then Ok (lt, period) else Ok (gt, p).

(* src/string/strstr.c:68-69 and 104-105; i is size_t in the former, ptrdiff_t in the
   latter where it is non-negative and converted for the comparison; the result is the final i *)
Fixpoint forward (fuel : nat) (m : mem) (s j x n i : Z) : res Z :=
  match fuel with
  | O => Fuel
  | S f => if i <? n then
             do a <- load m (x + i); do b <- load m (s + u32 (i + j));
             if a =? b then forward f m s j x n (u32 (i + 1)) else Ok i
           else Ok i
  end.
(* src/string/strstr.c:77-78; stops at SIZE_MAX *)
Fixpoint backward (fuel : nat) (m : mem) (s j x i : Z) : res Z :=
  match fuel with
  | O => Fuel
  | S f => if i =? SIZE_M1 then Ok i
           else do a <- load m (x + i); do b <- load m (s + u32 (i + j));
                if a =? b then backward f m s j x (u32 (i - 1)) else Ok i
  end.
(* src/string/strstr.c:114-115; i and memory are ptrdiff_t *)
Fixpoint backward_s (fuel : nat) (m : mem) (s j x i memory : Z) : res Z :=
  match fuel with
  | O => Fuel
  | S f => if i >=? memory then
             do a <- load m (x + i); do b <- load m (s + u32 (i + j));
             if a =? b then backward_s f m s j x (i - 1) memory else Ok i
           else Ok i
  end.
(* src/string/strstr.c:62-88 *)
Fixpoint nonperiodic_ (fuel k : nat) (m : mem) (s excess x n index period j : Z) : res (option Z) :=
  match k with
  | O => Fuel
  | S k =>
    if j <=? excess then
      do i <- forward fuel m s j x n (u32 (index + 1));
      if i <? n then nonperiodic_ fuel k m s excess x n index period (u32 (j + u32 (i - index)))
      else
        do i <- backward fuel m s j x index;
        if i =? SIZE_M1 then Ok (Some (s + j))
        else nonperiodic_ fuel k m s excess x n index period (u32 (j + period))
    else Ok None
  end.
(* src/string/strstr.c:90-93 *)
Definition max_ (a b : Z) : Z := if a <? b then b else a.
(* src/string/strstr.c:95-127; memory and i are ptrdiff_t, converted to and from size_t *)
Fixpoint periodic_ (fuel k : nat) (m : mem) (s excess x n index period memory j : Z) : res (option Z) :=
  match k with
  | O => Fuel
  | S k =>
    if j <=? excess then
      do i <- forward fuel m s j x n (max_ (u32 (index + 1)) (u32 memory));
      if i <? n then periodic_ fuel k m s excess x n index period 0 (u32 (j + u32 (i - index)))
      else
        do i <- backward_s fuel m s j x (s32 index) memory;
        if i <? memory then Ok (Some (s + j))
        else periodic_ fuel k m s excess x n index period (s32 (u32 (n - period))) (u32 (j + period))
    else Ok None
  end.
(* src/string/strstr.c:129-136 *)
Definition search_ (fuel : nat) (m : mem) (s excess x n index period : Z) : res (option Z) :=
  do r <- memcmp fuel m x (x + period) (u32 (index + 1));
  if negb (r =? 0) then nonperiodic_ fuel fuel m s excess x n index period 0
  else periodic_ fuel fuel m s excess x n index period 0 0.
(* src/string/strstr.c:138-147 *)
Definition memmem (fuel : nat) (m : mem) (s length x n : Z) : res (option Z) :=
  if length <? n then Ok None
  else do (index, period) <- factorize_ fuel m x n; search_ fuel m s (u32 (length - n)) x n index period.
(* src/string/strstr.c:149-158; *x is a signed char *)
Definition strstr (fuel : nat) (m : mem) (s x : Z) : res (option Z) :=
  do x0 <- load m x;
  if x0 =? 0 then Ok (Some s)
  else do x1 <- load m (x + 1);
       if x1 =? 0 then strchr fuel m s (s8 x0)
       else do ls <- strlen fuel m s; do lx <- strlen fuel m x; memmem fuel m s ls x lx.
