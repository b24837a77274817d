(** What a C program may observe of a stream, stated on lists of bytes. *)
From Verif Require Import Base Stdio_Model.
Open Scope Z_scope.

(** An input stream seen by its user: the characters pushed back and not yet read, the rest of the file, and
    the two indicators.  [where_] is the position the user is at. *)
Record view := mk_view { pushed : list Z; rest : list Z; where_ : Z; at_eof : bool; in_error : bool }.
Definition upcoming (v : view) : list Z := pushed v ++ rest v.
Definition seen (F : FILE) (h : host) : view :=
  mk_view (skipn (Z.to_nat (CACHE - avail F)) (cache F)) (skipn (Z.to_nat (pos h)) (data h))
          (pos h - avail F) (feof F) (ferror F).
(** Stream and host states a program can be in *)
Definition sane (F : FILE) (h : host) : Prop :=
  0 <= avail F <= CACHE /\ Z.of_nat (length (cache F)) = CACHE /\ Forall is_byte (cache F) /\
  0 <= pos h /\ Forall is_byte (data h) /\ 0 <= state F.
(** A host that never fails and delivers at least one byte when there is one *)
Definition healthy (h : host) : Prop := Forall (fun a => exists k, a = Grant k /\ 1 <= k) (script h).

(** The line starting the list: up to and including the first [d], at most [n] characters *)
Fixpoint line (d : Z) (n : nat) (l : list Z) : list Z :=
  match n, l with
  | S n, c :: l => c :: (if c =? d then [] else line d n l)
  | _, _ => []
  end.
Definition ends_with (d : Z) (l : list Z) : Prop := exists m, l = m ++ [d].

(** Input operations and their results *)
Inductive op := Getc | Ungetc (c : Z) | Fread (size count : Z) | Fgets (n : Z) | Feof | Ferror | Clearerr.
Inductive result := Int (z : Z) | Items (l : list Z) (n : Z) | Line (l : option (list Z)) | Flag (b : bool) | Unit.
Definition legal (o : op) : Prop :=
  match o with
  | Ungetc c => is_byte c \/ c = EOF
  | Fread size count => 0 < size /\ 0 <= count /\ size * count < 2^32
  | Fgets n => is_i32 n
  | _ => True
  end.
(** Taking [n] characters: pushed-back ones first *)
Definition take (n : nat) (v : view) : list Z * view :=
  (firstn n (upcoming v),
   mk_view (skipn n (pushed v)) (skipn (n - length (pushed v)) (rest v)) (where_ v + Z.of_nat (length (firstn n (upcoming v))))
           (at_eof v || (Z.of_nat (length (upcoming v)) <? Z.of_nat n)) (in_error v)).
(** The reference stream over a regular file, which always delivers what it has *)
Definition reference (o : op) (v : view) : result * view :=
  match o with
  | Getc => let '(l, v) := take 1 v in (Int (match l with c :: _ => c | [] => EOF end), v)
  | Ungetc c => if (c =? EOF) || (CACHE <=? Z.of_nat (length (pushed v))) then (Int EOF, v)
                else (Int c, mk_view (c :: pushed v) (rest v) (where_ v - 1) false (in_error v))
  | Fread size count => let '(l, v) := take (Z.to_nat (size * count)) v in (Items l (Z.of_nat (length l) / size), v)
  | Fgets n => if n <=? 0 then (Line None, v) else
               let l := line 10 (Z.to_nat (n - 1)) (upcoming v) in
               let cut := (length l <? Z.to_nat (n - 1))%nat && negb (last l 0 =? 10) in
               let '(_, v') := take (length l) v in
               (Line (if (n =? 1) || negb (length l =? 0)%nat then Some l else None),
                mk_view (pushed v') (rest v') (where_ v') (at_eof v || cut) (in_error v'))
  | Feof => (Flag (at_eof v), v)
  | Ferror => (Flag (in_error v), v)
  | Clearerr => (Unit, mk_view (pushed v) (rest v) (where_ v) false false)
  end.
Fixpoint reference_run (os : list op) (v : view) : list result * view :=
  match os with
  | [] => ([], v)
  | o :: os => let '(r, v) := reference o v in let '(rs, v) := reference_run os v in (r :: rs, v)
  end.
(** The same calls on the implementation *)
Definition call (o : op) (F : FILE) (h : host) : res (result * FILE * host) :=
  match o with
  | Getc => do (c, F, h) <- getc_ F h; Ok (Int c, F, h)
  | Ungetc c => let '(c, F) := ungetc c F in Ok (Int c, F, h)
  | Fread size count => do (l, n, F, h) <- fread F h size count; Ok (Items l n, F, h)
  | Fgets n => do (l, F, h) <- fgets n F h; Ok (Line l, F, h)
  | Feof => Ok (Flag (feof F), F, h)
  | Ferror => Ok (Flag (ferror F), F, h)
  | Clearerr => Ok (Unit, clearerr F, h)
  end.
Fixpoint run (os : list op) (F : FILE) (h : host) : res (list result * FILE * host) :=
  match os with
  | [] => Ok ([], F, h)
  | o :: os => do (r, F, h) <- call o F h; do (rs, F, h) <- run os F h; Ok (r :: rs, F, h)
  end.
(** The bytes a call delivered to (or, for ungetc, took back from) the program *)
Definition delivered (r : result) : list Z :=
  match r with
  | Int c => if c =? EOF then [] else [c]
  | Items l _ => l
  | Line (Some l) => l
  | _ => []
  end.
(** Whatever the host does: the input not yet delivered, before and after a list of calls *)
Fixpoint accounts (os : list op) (rs : list result) (before after : list Z) : Prop :=
  match os, rs with
  | [], [] => before = after
  | Ungetc _ :: os, r :: rs => accounts os rs (delivered r ++ before) after
  | _ :: os, r :: rs => exists mid, before = delivered r ++ mid /\ accounts os rs mid after
  | _, _ => False
  end.

(** Output operations *)
Inductive wop := Putc (c : Z) | Fputs (s : list Z) | Fwrite (buffer : list Z) (size count : Z) | Puts (s : list Z).
Definition bytes_of (o : wop) : list Z :=
  match o with
  | Putc c => [u8 c]
  | Fputs s => s
  | Fwrite b size count => firstn (Z.to_nat (size * count)) b
  | Puts s => s ++ [10]
  end.
Definition wlegal (o : wop) : Prop :=
  match o with
  | Putc _ => True
  | Fputs s | Puts s => Z.of_nat (length s) < 2^31
  | Fwrite b size count => 0 < size /\ 0 <= count /\ size * count < 2^32 /\ size * count <= Z.of_nat (length b)
  end.
(** The return value meaning success *)
Definition success (o : wop) : Z :=
  match o with Putc c => u8 c | Fputs _ => 0 | Fwrite _ _ count => count | Puts _ => 10 end.
Definition wcall (o : wop) (F : FILE) (h : host) : res (Z * FILE * host) :=
  match o with
  | Putc c => Ok (putc c F h)
  | Fputs s => Ok (fputs s F h)
  | Fwrite b size count => fwrite F h b size count
  | Puts s => Ok (puts s F h)
  end.
Fixpoint wrun (os : list wop) (F : FILE) (h : host) : res (list Z * FILE * host) :=
  match os with
  | [] => Ok ([], F, h)
  | o :: os => do (r, F, h) <- wcall o F h; do (rs, F, h) <- wrun os F h; Ok (r :: rs, F, h)
  end.
(** [d] with the bytes [l] placed from offset [p] on, zeros filling a gap *)
Definition overwritten (d : list Z) (p : nat) (l d' : list Z) : Prop :=
  length d' = Nat.max (length d) (if (length l =? 0)%nat then length d else p + length l) /\
  forall i, (i < length d')%nat ->
    nth i d' 0 = if (p <=? i)%nat && (i <? p + length l)%nat then nth (i - p) l 0 else nth i d 0.

(** Mode strings: C11 7.21.5.3 paragraph 3 *)
Record intent := mk_intent { reading : bool; writing : bool; creating : bool; truncating : bool; appending : bool; exclusive : bool }.
Definition has (c : Z) (l : list Z) : bool := existsb (Z.eqb c) l.
Definition standard_intent (mode : list Z) : option intent :=
  match mode with
  | c :: m =>
      let plus := has 43 m in let x := has 120 m in
      if c =? 114 then Some (mk_intent true plus false false false x)
      else if c =? 119 then Some (mk_intent plus true true true false x)
      else if c =? 97 then Some (mk_intent plus true true false true x)
      else None
  | [] => None
  end.
(** What a path_open request asks for: bit numbers of the WASI rights, oflags and fdflags *)
Definition requested (r : Z * Z * Z) : intent :=
  let '(rights, oflags, fdflags) := r in
  mk_intent (Z.testbit rights 1) (Z.testbit rights 6) (Z.testbit oflags 0) (Z.testbit oflags 3)
            (Z.testbit fdflags 0) (Z.testbit oflags 2).
