(** Model of the calls that open, close, rename, remove and examine files: src/stdio/{fopen,freopen,fclose,_open,_close,
    remove,rename,tmpfile,tmpnam,setvbuf,setbuf,fflush}.c and src/sys/stat.
    The host answers every request with an error number and a value; it may look at all earlier requests and answers.
    FILE objects: 1, 2, 3 are the static stdin, stdout, stderr; malloc gives addresses from 4 up, each once.
    Streams are unbuffered, so flush_ has no effect (see Stdio_Model). *)
From Verif Require Import Base Wasi_Model.
From Verif Require Stdio_Model.
Open Scope Z_scope.

Inductive call :=
| PathOpen (dir : Z) (rel : list Z) (oflags rights fdflags : Z)
| Close (fd : Z)
| SetFlags (fd flags : Z)
| Unlink (dir : Z) (rel : list Z)
| RemoveDir (dir : Z) (rel : list Z)
| Rename (dir : Z) (rel : list Z) (dir' : Z) (rel' : list Z)
| PathStat (dir : Z) (lookup : Z) (rel : list Z)
| FdStat (fd : Z).
(** one request with the error number and the value of its answer *)
Definition event : Type := call * Z * Z.
(** earlier events, newest first *)
Definition host := list event -> call -> Z * Z.
Record stream := mk_stream { sfd : Z; sstate : Z }.
Record world := mk_world {
  trace : list event; errno : Z;
  streams : Z -> option stream;  (** what the FILE objects contain *)
  heap : list Z;  (** live blocks *)
  next : Z; oom : list bool (** which coming malloc calls fail *) }.

Definition ask (h : host) (w : world) (c : call) : Z * Z * world :=
  let '(e, v) := h (trace w) c in
  (e, v, mk_world ((c, e, v) :: trace w) (errno w) (streams w) (heap w) (next w) (oom w)).
Definition set_errno (w : world) (x : Z) : world := mk_world (trace w) x (streams w) (heap w) (next w) (oom w).
(* src/wasi/errno.h:99-103 *)
Definition seterrno (w : world) (e : Z) : res world := do x <- wasi_errno e; Ok (set_errno w x).
(** return e ? wasi_seterrno(e) : 0; *)
Definition outcome (e : Z) (w : world) : res (Z * world) :=
  if e =? 0 then Ok (0, w) else do w <- seterrno w e; Ok (-1, w).

(** 0: NULL *)
Definition malloc (w : world) : Z * world :=
  match oom w with
  | true :: l => (0, mk_world (trace w) (errno w) (streams w) (heap w) (next w) l)
  | l => (next w, mk_world (trace w) (errno w) (streams w) (next w :: heap w) (next w + 1) (tl l))
  end.
(** free of anything but a live block (or NULL, which never occurs here) is undefined *)
Definition free (w : world) (p : Z) : res world :=
  if existsb (Z.eqb p) (heap w)
  then Ok (mk_world (trace w) (errno w) (fun q => if q =? p then None else streams w q) (remove Z.eq_dec p (heap w)) (next w) (oom w))
  else UB.
Definition store (w : world) (p : Z) (s : stream) : res world :=
  if (p =? 1) || (p =? 2) || (p =? 3) || existsb (Z.eqb p) (heap w)
  then Ok (mk_world (trace w) (errno w) (fun q => if q =? p then Some s else streams w q) (heap w) (next w) (oom w))
  else UB.
Definition load (w : world) (p : Z) : res stream := match streams w p with Some s => Ok s | None => UB end.

(* src/stdio/_open.c:27-77; preopen.c:86-89,138-141 for ENOENT *)
Definition open_path_ (h : host) (entries : list preopen) (w : world) (path : list Z) (flags : Z) : res (Z * world) :=
  do r <- preopen_lookup entries path;
  match r with
  | None => Ok (-1, set_errno w 2)
  | Some (dir, rel) =>
    match Stdio_Model.open_flags flags with
    | None => Ok (-1, set_errno w 22)
    | Some (rights, oflags, fdflags) =>
      let '(e, fd, w) := ask h w (PathOpen dir rel oflags rights fdflags) in
      if e =? 0 then Ok (s32 fd, w) else do w <- seterrno w e; Ok (-1, w)
    end
  end.
(* src/stdio/fopen.c:7-18 *)
Definition fopen (h : host) (entries : list preopen) (w : world) (path mode : list Z) : res (Z * world) :=
  let flags := Stdio_Model.modeflags_ mode in
  do (fd, w) <- open_path_ h entries w path flags;
  if fd <? 0 then Ok (0, w)
  else let '(p, w) := malloc w in
       do w <- store w p (mk_stream fd (Stdio_Model.fopen_state flags)); Ok (p, w).
(* src/stdio/_close.c:5-9 *)
Definition stdio_close (h : host) (w : world) (s : stream) : res (Z * world) :=
  let '(e, _, w) := ask h w (Close (sfd s)) in outcome e w.
(* src/stdio/fclose.c:8-20 *)
Definition fclose (h : host) (w : world) (p : Z) : res (Z * world) :=
  do s <- load w p;
  do (status, w) <- stdio_close h w s;
  do w <- free w p;
  if 0 <=? status then Ok (0, w) else do x <- chk_i32 (- status); Ok (-1, set_errno w x).
(* src/stdio/freopen.c:10-44; a null path is None.  modeflags_ never sets O_NONBLOCK, O_DSYNC or O_SYNC. *)
Definition freopen (h : host) (entries : list preopen) (w : world) (path : option (list Z)) (mode : list Z) (p : Z) : res (Z * world) :=
  let flags := Stdio_Model.modeflags_ mode in
  do s <- load w p;
  match path with
  | Some path =>
    do (_, w) <- stdio_close h w s;
    do (fd, w) <- open_path_ h entries w path flags;
    if 0 <=? fd then do w <- store w p (mk_stream fd (Stdio_Model.fopen_state flags)); Ok (p, w)
    else do w <- free w p; Ok (0, w)
  | None =>
    let '(e, _, w) := ask h w (SetFlags (sfd s) (b2z (negb (Z.land flags Stdio_Model.O_APPEND =? 0)))) in
    if e =? 0 then do w <- store w p (mk_stream (sfd s) 0); Ok (p, w)
    else do w <- seterrno w e;
         do (_, w) <- stdio_close h w s;
         do w <- free w p; Ok (0, w)
  end.

(* src/stdio/remove.c:7-23; EISDIR is 21 *)
Definition remove_ (h : host) (entries : list preopen) (w : world) (path : list Z) : res (Z * world) :=
  do r <- preopen_lookup entries path;
  match r with
  | None => Ok (-1, set_errno w 2)
  | Some (dir, rel) =>
    let '(e, _, w) := ask h w (Unlink dir rel) in
    do x <- wasi_errno e;
    if x =? 21 then let '(e, _, w) := ask h w (RemoveDir dir rel) in outcome e w else outcome e w
  end.
(* src/stdio/rename.c:5-20 *)
Definition rename (h : host) (entries : list preopen) (w : world) (from to : list Z) : res (Z * world) :=
  do r <- preopen_lookup entries from;
  match r with
  | None => Ok (-1, set_errno w 2)
  | Some (dir, rel) =>
    do r <- preopen_lookup entries to;
    match r with
    | None => Ok (-1, set_errno w 2)
    | Some (dir', rel') => let '(e, _, w) := ask h w (Rename dir rel dir' rel') in outcome e w
    end
  end.
(* src/sys/stat/stat.c:8-25 (follow) and lstat.c:8-25; filling the result is st_* of Wasi_Model *)
Definition stat_ (follow : bool) (h : host) (entries : list preopen) (w : world) (path : list Z) : res (Z * world) :=
  do r <- preopen_lookup entries path;
  match r with
  | None => Ok (-1, set_errno w 2)
  | Some (dir, rel) => let '(e, _, w) := ask h w (PathStat dir (b2z follow) rel) in outcome e w
  end.
(* src/sys/stat/fstat.c:7-16 *)
Definition fstat (h : host) (w : world) (fd : Z) : res (Z * world) :=
  let '(e, _, w) := ask h w (FdStat (u32 fd)) in outcome e w.
(* src/stdio/tmpfile.c:6-10, tmpnam.c:4-9; ENOSYS is 38 *)
Definition tmpfile (w : world) : Z * world := (0, set_errno w 38).
(* src/stdio/setvbuf.c:6-16; _IONBF 0, _IOLBF 1, _IOFBF 2 *)
Definition setvbuf (mode : Z) : Z := if negb (mode =? 0) && negb (mode =? 1) && negb (mode =? 2) then 1 else 0.
