(** Model of the byte-string functions (src/string).
    Memory is a partial map from addresses (0 .. 2^32-1 on wasm32) to cells;
    reading or writing an unmapped address is undefined behaviour.  Pointers are
    integers and are not wrapped (an address outside the address space is
    unmapped); NULL results are [None].  A [uint64_t] access through a
    may_alias pointer reads/writes its eight bytes little-endian whatever the
    alignment, which is the WebAssembly semantics (C makes a misaligned
    access undefined, copy.h does that on purpose).  [restrict] is not modelled
    here; it appears as a disjointness hypothesis of the theorems. *)
From Verif Require Import Base.
Open Scope Z_scope.

Definition mem := Z -> option Z.
Definition upd (m : mem) (a b : Z) : mem := fun x => if x =? a then Some b else m x.
Definition load (m : mem) (a : Z) : res Z := match m a with Some b => Ok b | None => UB end.
Definition store (m : mem) (a b : Z) : res mem := match m a with Some _ => Ok (upd m a b) | None => UB end.

(** [n] consecutive bytes *)
Fixpoint load_n (n : nat) (m : mem) (a : Z) : res (list Z) :=
  match n with
  | O => Ok []
  | S k => do b <- load m a; do l <- load_n k m (a + 1); Ok (b :: l)
  end.
Fixpoint store_n (m : mem) (a : Z) (l : list Z) : res mem :=
  match l with
  | [] => Ok m
  | b :: l => do m' <- store m a b; store_n m' (a + 1) l
  end.
(** little-endian value *)
Fixpoint le (l : list Z) : Z := match l with [] => 0 | b :: l => b + 256 * le l end.
Definition load64 (m : mem) (a : Z) : res Z := do l <- load_n 8 m a; Ok (le l).

(* src/string/strlen.c:13,16, memchr.c:15,21, strchr.c:18,24 *)
Definition magic : Z := 0x7EFEFEFEFEFEFEFF.
Definition haszero (w : Z) : bool :=
  negb (Z.land (Z.lxor (u64 (w + magic)) (u64 (Z.lnot w))) (u64 (Z.lnot magic)) =? 0).
(** for (int k = 0; k < 8; ++k) with an early return decided by [f address byte] *)
Fixpoint scan {A} (n : nat) (m : mem) (p : Z) (f : Z -> Z -> option A) : res (option A) :=
  match n with
  | O => Ok None
  | S k => do b <- load m p; match f p b with Some r => Ok (Some r) | None => scan k m (p + 1) f end
  end.

(* src/string/strlen.c:9-11; [true] when the terminator was found *)
Fixpoint strlen_pre (fuel : nat) (m : mem) (e : Z) : res (bool * Z) :=
  match fuel with
  | O => Fuel
  | S f => if e mod 8 =? 0 then Ok (false, e)
           else do b <- load m e; if b =? 0 then Ok (true, e) else strlen_pre f m (e + 1)
  end.
(* src/string/strlen.c:15-20 *)
Fixpoint strlen_vec (fuel : nat) (m : mem) (e : Z) : res Z :=
  match fuel with
  | O => Fuel
  | S f => do w <- load64 m e;
           do r <- (if haszero w then scan 8 m e (fun a b => if b =? 0 then Some a else None) else Ok None);
           match r with Some a => Ok a | None => strlen_vec f m (e + 8) end
  end.
(* src/string/strlen.c:5-21 *)
Definition strlen (fuel : nat) (m : mem) (s : Z) : res Z :=
  do (found, e) <- strlen_pre fuel m s;
  if found : bool then Ok (u32 (e - s)) else do e2 <- strlen_vec fuel m e; Ok (u32 (e2 - s)).

(** found, input, length *)
Definition st := (option Z * Z * Z)%type.
(* src/string/memchr.c:10-12; [length--] wraps *)
Fixpoint memchr_pre (fuel : nat) (m : mem) (p c len : Z) : res st :=
  match fuel with
  | O => Fuel
  | S f => if p mod 8 =? 0 then Ok (None, p, len)
           else if len =? 0 then Ok (None, p, u32 (len - 1))
           else do b <- load m p;
                if b =? c then Ok (Some p, p, u32 (len - 1)) else memchr_pre f m (p + 1) c (u32 (len - 1))
  end.
(* src/string/memchr.c:18-27 *)
Fixpoint memchr_vec (fuel : nat) (m : mem) (p c len : Z) : res st :=
  match fuel with
  | O => Fuel
  | S f => if len <? 8 then Ok (None, p, len)
           else do v <- load64 m p;
                do r <- (if haszero (Z.lxor v (u64 (0x0101010101010101 * c)))
                         then scan 8 m p (fun a b => if b =? c then Some a else None) else Ok None);
                match r with Some a => Ok (Some a, p, len) | None => memchr_vec f m (p + 8) c (u32 (len - 8)) end
  end.
(* src/string/memchr.c:29-33 *)
Fixpoint memchr_tail (fuel : nat) (m : mem) (p c len : Z) : res (option Z) :=
  match fuel with
  | O => Fuel
  | S f => if len =? 0 then Ok None
           else do b <- load m p; if b =? c then Ok (Some p) else memchr_tail f m (p + 1) c (u32 (len - 1))
  end.
(* src/string/memchr.c:5-34 *)
Definition memchr (fuel : nat) (m : mem) (p character len : Z) : res (option Z) :=
  let c := u8 character in
  do (r, p1, len1) <- memchr_pre fuel m p c len;
  match r with
  | Some a => Ok (Some a)
  | None =>
    do (r2, p2, len2) <- memchr_vec fuel m p1 c len1;
    match r2 with Some a => Ok (Some a) | None => memchr_tail fuel m p2 c len2 end
  end.

(* src/string/memcmp.c:3-17; a - b are promoted unsigned chars, no overflow *)
Fixpoint memcmp (fuel : nat) (m : mem) (x y len : Z) : res Z :=
  match fuel with
  | O => Fuel
  | S f => if len =? 0 then Ok 0
           else do a <- load m x; do b <- load m y;
                if negb (a =? b) then Ok (a - b) else memcmp f m (x + 1) (y + 1) (u32 (len - 1))
  end.

(* src/string/copy.h:5-16: COPY(T) with sizeof(T) = n *)
Fixpoint copy_loop (fuel : nat) (n : nat) (m : mem) (d s i count : Z) : res mem :=
  match fuel with
  | O => Fuel
  | S f => if i <? count then
             do l <- load_n n m (s + Z.of_nat n * i);
             do m' <- store_n m (d + Z.of_nat n * i) l;
             copy_loop f n m' d s (u32 (i + 1)) count
           else Ok m
  end.
(* src/string/copy.h:18-30, memcpy.c:5-8; size & -size on 32 bits *)
Definition copy_ (fuel : nat) (m : mem) (d s size : Z) : res mem :=
  let low := Z.land size (u32 (- size)) in
  if low =? 1 then copy_loop fuel 1 m d s 0 size
  else if low =? 2 then copy_loop fuel 2 m d s 0 (Z.shiftr size 1)
  else if low =? 4 then copy_loop fuel 4 m d s 0 (Z.shiftr size 2)
  else copy_loop fuel 8 m d s 0 (Z.shiftr size 3).
Definition memcpy (fuel : nat) (m : mem) (d s size : Z) : res (mem * Z) :=
  do m' <- copy_ fuel m d s size; Ok (m', d).

(* src/string/memmove.c:6-17: REVERSE_COPY(T) *)
Fixpoint rcopy_loop (fuel : nat) (n : nat) (m : mem) (d s count : Z) : res mem :=
  match fuel with
  | O => Fuel
  | S f => if count =? 0 then Ok m
           else let i := u32 (count - 1) in
                do l <- load_n n m (s + Z.of_nat n * i);
                do m' <- store_n m (d + Z.of_nat n * i) l;
                rcopy_loop f n m' d s i
  end.
(* src/string/memmove.c:19-31 *)
Definition rcopy_ (fuel : nat) (m : mem) (d s size : Z) : res mem :=
  let low := Z.land size (u32 (- size)) in
  if low =? 1 then rcopy_loop fuel 1 m d s size
  else if low =? 2 then rcopy_loop fuel 2 m d s (Z.shiftr size 1)
  else if low =? 4 then rcopy_loop fuel 4 m d s (Z.shiftr size 2)
  else rcopy_loop fuel 8 m d s (Z.shiftr size 3).
(* src/string/memmove.c:33-39; the 32-bit ptrdiff_t is converted to size_t *)
Definition memmove (fuel : nat) (m : mem) (d s size : Z) : res (mem * Z) :=
  do m' <- (if u32 (d - s) <? size then rcopy_ fuel m d s size else copy_ fuel m d s size); Ok (m', d).

(* src/string/memset.c:11-12; returns memory, output, length *)
Fixpoint memset_pre (fuel : nat) (m : mem) (p c len : Z) : res (mem * Z * Z) :=
  match fuel with
  | O => Fuel
  | S f => if p mod 8 =? 0 then Ok (m, p, len)
           else if len =? 0 then Ok (m, p, u32 (len - 1))
           else do m' <- store m p c; memset_pre f m' (p + 1) c (u32 (len - 1))
  end.
(* src/string/memset.c:14-19; [vector] has eight equal bytes *)
Fixpoint memset_vec (fuel : nat) (m : mem) (p c len : Z) : res (mem * Z * Z) :=
  match fuel with
  | O => Fuel
  | S f => if len <? 8 then Ok (m, p, len)
           else do m' <- store_n m p (repeat c 8); memset_vec f m' (p + 8) c (u32 (len - 8))
  end.
(* src/string/memset.c:21-22 *)
Fixpoint memset_tail (fuel : nat) (m : mem) (p c len : Z) : res mem :=
  match fuel with
  | O => Fuel
  | S f => if len =? 0 then Ok m else do m' <- store m p c; memset_tail f m' (p + 1) c (u32 (len - 1))
  end.
(* src/string/memset.c:5-25 *)
Definition memset (fuel : nat) (m : mem) (p character len : Z) : res (mem * Z) :=
  let c := u8 character in
  do (m1, p1, len1) <- memset_pre fuel m p c len;
  do (m2, p2, len2) <- memset_vec fuel m1 p1 c len1;
  do m3 <- memset_tail fuel m2 p2 c len2;
  Ok (m3, p).

(* src/string/strcpy.c:1-8 *)
Fixpoint strcpy_loop (fuel : nat) (m : mem) (d s : Z) : res mem :=
  match fuel with
  | O => Fuel
  | S f => do b <- load m s; do m' <- store m d b; if b =? 0 then Ok m' else strcpy_loop f m' (d + 1) (s + 1)
  end.
Definition strcpy (fuel : nat) (m : mem) (d s : Z) : res (mem * Z) := do m' <- strcpy_loop fuel m d s; Ok (m', d).
(* src/string/strcat.c:3-8 *)
Definition strcat (fuel : nat) (m : mem) (d s : Z) : res (mem * Z) :=
  do n <- strlen fuel m d; do r <- strcpy fuel m (d + n) s; Ok (fst r, d).

(* src/string/strchr.c:10-16; [Some r] = return r, [None] = fall out of the loop *)
Fixpoint strchr_pre (fuel : nat) (m : mem) (p c : Z) : res (option (option Z) * Z) :=
  match fuel with
  | O => Fuel
  | S f => if p mod 8 =? 0 then Ok (None, p)
           else do b <- load m p;
                if b =? c then Ok (Some (Some p), p) else if b =? 0 then Ok (Some None, p) else strchr_pre f m (p + 1) c
  end.
(* src/string/strchr.c:21-33 *)
Fixpoint strchr_vec (fuel : nat) (m : mem) (p c : Z) : res (option Z) :=
  match fuel with
  | O => Fuel
  | S f => do v <- load64 m p;
           do r <- (if haszero (Z.lxor v (u64 (0x0101010101010101 * c))) || haszero v
                    then scan 8 m p (fun a b => if b =? c then Some (Some a) else if b =? 0 then Some None else None)
                    else Ok None);
           match r with Some x => Ok x | None => strchr_vec f m (p + 8) c end
  end.
(* src/string/strchr.c:5-34 *)
Definition strchr (fuel : nat) (m : mem) (p character : Z) : res (option Z) :=
  let c := u8 character in
  do (r, p1) <- strchr_pre fuel m p c;
  match r with Some x => Ok x | None => strchr_vec fuel m p1 c end.

(* src/string/strcmp.c:1-12, strcoll.c:4-7 *)
Fixpoint strcmp (fuel : nat) (m : mem) (x y : Z) : res Z :=
  match fuel with
  | O => Fuel
  | S f => do a <- load m x; do b <- load m y;
           if (a =? b) && negb (a =? 0) then strcmp f m (x + 1) (y + 1) else Ok (a - b)
  end.
Definition strcoll := strcmp.
(* src/string/strncmp.c:3-17 *)
Fixpoint strncmp (fuel : nat) (m : mem) (x y len : Z) : res Z :=
  match fuel with
  | O => Fuel
  | S f => if len =? 0 then Ok 0
           else do a <- load m x; do b <- load m y;
                if negb (a =? b) || (a =? 0) then Ok (a - b) else strncmp f m (x + 1) (y + 1) (u32 (len - 1))
  end.

(* src/string/strcspn.c:3-11; string[count] is a signed char passed as int *)
Fixpoint strcspn_loop (fuel : nat) (k : nat) (m : mem) (s reject count : Z) : res Z :=
  match k with
  | O => Fuel
  | S k => do b <- load m (s + count); do r <- strchr fuel m reject (s8 b);
           match r with None => strcspn_loop fuel k m s reject (u32 (count + 1)) | Some _ => Ok count end
  end.
Definition strcspn (fuel : nat) (m : mem) (s reject : Z) : res Z := strcspn_loop fuel fuel m s reject 0.
(* src/string/strpbrk.c:3-9 *)
Fixpoint strpbrk_loop (fuel : nat) (k : nat) (m : mem) (s set : Z) : res Z :=
  match k with
  | O => Fuel
  | S k => do b <- load m s; do r <- strchr fuel m set (s8 b);
           match r with None => strpbrk_loop fuel k m (s + 1) set | Some _ => Ok s end
  end.
Definition strpbrk (fuel : nat) (m : mem) (s set : Z) : res (option Z) :=
  do p <- strpbrk_loop fuel fuel m s set; do b <- load m p; Ok (if b =? 0 then None else Some p).
(* src/string/strrchr.c:13-16 *)
Fixpoint strrchr_loop (fuel : nat) (k : nat) (m : mem) (s c : Z) (found : option Z) : res (option Z) :=
  match k with
  | O => Fuel
  | S k => do r <- strchr fuel m s c;
           match r with None => Ok found | Some p => strrchr_loop fuel k m (p + 1) c (Some p) end
  end.
(* src/string/strrchr.c:3-19 *)
Definition strrchr (fuel : nat) (m : mem) (s character : Z) : res (option Z) :=
  if u8 character =? 0 then do n <- strlen fuel m s; Ok (Some (s + n))
  else strrchr_loop fuel fuel m s character None.
(* src/string/strspn.c:3-10; both sides are char, equal iff the bytes are *)
Fixpoint strspn_find (fuel : nat) (m : mem) (s c : Z) : res bool :=
  match fuel with
  | O => Fuel
  | S f => do b <- load m s; if b =? 0 then Ok false else if b =? c then Ok true else strspn_find f m (s + 1) c
  end.
(* src/string/strspn.c:12-20 *)
Fixpoint strspn_loop (fuel : nat) (k : nat) (m : mem) (s accept count : Z) : res Z :=
  match k with
  | O => Fuel
  | S k => do b <- load m (s + count); do r <- strspn_find fuel m accept b;
           if r : bool then strspn_loop fuel k m s accept (u32 (count + 1)) else Ok count
  end.
Definition strspn (fuel : nat) (m : mem) (s accept : Z) : res Z := strspn_loop fuel fuel m s accept 0.

(* src/string/strncat.c:3-10 *)
Fixpoint strncat_loop (fuel : nat) (m : mem) (d s len : Z) : res mem :=
  match fuel with
  | O => Fuel
  | S f => if len =? 0 then Ok m
           else do b <- load m s; do m' <- store m d b;
                if b =? 0 then Ok m' else strncat_loop f m' (d + 1) (s + 1) (u32 (len - 1))
  end.
Definition strncat (fuel : nat) (m : mem) (d s len : Z) : res (mem * Z) :=
  do n <- strlen fuel m d; do m' <- strncat_loop fuel m (d + n) s len; Ok (m', d).
(* src/string/strncpy.c:7-8; returns memory, output, length *)
Fixpoint strncpy_loop (fuel : nat) (m : mem) (d s len : Z) : res (mem * Z * Z) :=
  match fuel with
  | O => Fuel
  | S f => if len =? 0 then Ok (m, d, len)
           else do b <- load m s;
                if b =? 0 then Ok (m, d, len)
                else do m' <- store m d b; strncpy_loop f m' (d + 1) (s + 1) (u32 (len - 1))
  end.
(* src/string/strncpy.c:3-14 *)
Definition strncpy (fuel : nat) (m : mem) (d s len : Z) : res (mem * Z) :=
  do (m1, o, l) <- strncpy_loop fuel m d s len;
  if l =? 0 then Ok (m1, d) else do r <- memset fuel m1 o 0 l; Ok (fst r, d).
(* src/string/strxfrm.c:6-15 *)
Definition strxfrm (fuel : nat) (m : mem) (d s n : Z) : res (mem * Z) :=
  do len <- strlen fuel m s;
  if n =? 0 then Ok (m, len)
  else let copy := if len <? n then len else n - 1 in
       do r <- memcpy fuel m d s copy;
       do m' <- store (fst r) (d + copy) 0; Ok (m', len).
(* src/string/strtok.c:3-19; [string] and the state are pointers or NULL; returns
   memory, state, result *)
Definition strtok_r (fuel : nat) (m : mem) (string : option Z) (sep : Z) (state : option Z) : res (mem * option Z * option Z) :=
  match (match string with Some p => Some p | None => state end) with
  | None => Ok (m, state, None)
  | Some p =>
    do n <- strspn fuel m p sep;
    let p := p + n in
    do b <- load m p;
    if b =? 0 then Ok (m, None, None)
    else do r <- strpbrk fuel m p sep;
         match r with
         | None => Ok (m, None, Some p)
         | Some q => do m' <- store m q 0; Ok (m', Some (q + 1), Some p)
         end
  end.

(** A client, not library code: strtok_r is called until it returns NULL; the
    pointers returned are collected.  [calls] bounds the number of calls. *)
Fixpoint tokenise (calls fuel : nat) (m : mem) (string : option Z) (sep : Z) (state : option Z) : res (mem * list Z) :=
  match calls with
  | O => Fuel
  | S c => do (m1, st1, r) <- strtok_r fuel m string sep state;
           match r with
           | None => Ok (m1, [])
           | Some p => do (m2, l) <- tokenise c fuel m1 None sep st1; Ok (m2, p :: l)
           end
  end.
