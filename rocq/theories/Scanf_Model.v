(** Model of src/stdio/vfscanf.c (fscanf, scanf) and vsscanf.c (sscanf).
    A format is the list of its bytes without the terminator; [nargs] is the number of pointer arguments the
    caller passed, fetching more is undefined.  What is stored through them is returned as a list of
    (argument index, object); strtof, strtod and strtold are not called, the text handed to them is the object. *)
From Verif Require Import Base Ctype_Model Stdlib_Model Stdio_Model.
Open Scope Z_scope.

(* src/stdio/vfscanf.c:13-20; [peek] top first *)
Record scanner := mk_sc { sF : FILE; sh : host; count : Z; peek : list Z; seof : bool }.
Inductive stored := Sint (bytes v : Z) | Sbytes (l : list Z) | Sfloat (length : Z) (text : list Z).
Definition BUFSZ : Z := 128.

(* src/stdio/vfscanf.c:22-38; size_t is 32 bits *)
Definition sgetc (s : scanner) : res (Z * scanner) :=
  match peek s with
  | c :: p => Ok (c, mk_sc (sF s) (sh s) (u32 (count s + 1)) p (seof s))
  | [] => if seof s then Ok (EOF, s) else
          do (c, F, h) <- getc_ (sF s) (sh s);
          if c =? EOF then Ok (EOF, mk_sc F h (count s) [] true) else Ok (c, mk_sc F h (u32 (count s + 1)) [] false)
  end.
(* src/stdio/vfscanf.c:40-46; a ninth character is outside the array *)
Definition sungetc (s : scanner) (c : Z) : res scanner :=
  if c =? EOF then Ok s else
  if (8 <=? length (peek s))%nat then UB else Ok (mk_sc (sF s) (sh s) (u32 (count s - 1)) (c :: peek s) (seof s)).
(* src/stdio/vfscanf.c:48-53 *)
Fixpoint skip_ws (fuel : nat) (s : scanner) : res scanner :=
  match fuel with
  | O => Fuel
  | S f => do (c, s) <- sgetc s;
           if c =? EOF then sungetc s c else do b <- isspace c; if b =? 0 then sungetc s c else skip_ws f s
  end.
(* src/stdio/vfscanf.c:55-63 *)
Definition at_ (p : list Z) (i : nat) : Z := s8 (nth i p 0).
Definition length_ (p : list Z) : Z :=
  let c := at_ p 0 in
  if c =? 104 then 104 * 4 + (1 + b2z (at_ p 1 =? 104))
  else if c =? 108 then 108 * 4 + (1 + b2z (at_ p 1 =? 108))
  else if (c =? 106) || (c =? 122) || (c =? 116) || (c =? 76) then c * 4 + 1
  else 0.
(* src/stdio/vfscanf.c:65-91: size and value of the object *)
Definition store_int_ (length : Z) (sign : bool) (u : Z) : stored :=
  let bits := if length =? 0 then 32 else if length =? 104 * 4 + 1 then 16 else if length =? 104 * 4 + 2 then 8
              else if length =? 108 * 4 + 1 then 32 else if (length =? 108 * 4 + 2) || (length =? 106 * 4 + 1) then 64 else 32 in
  Sint (bits / 8) (if sign then sgn bits u else u mod 2^bits).
(* src/stdio/vfscanf.c:106 etc.; [buf] is reversed *)
Definition put (buf : list Z) (c : Z) : list Z := if Z.of_nat (length buf) <? BUFSZ - 1 then c :: buf else buf.
(* src/stdio/vfscanf.c:130-142; returns the last character read *)
Definition digit_of (c : Z) : option Z :=
  if (48 <=? c) && (c <=? 57) then Some (c - 48)
  else if (97 <=? c) && (c <=? 122) then Some (c - 97 + 10)
  else if (65 <=? c) && (c <=? 90) then Some (c - 65 + 10)
  else None.
Fixpoint int_digits (fuel : nat) (base width c : Z) (buf : list Z) (seen : bool) (s : scanner) : res (Z * list Z * bool * scanner) :=
  match fuel with
  | O => Fuel
  | S f =>
    if (0 <? width) && negb (c =? EOF) then
      match digit_of c with
      | Some d => if base <=? d then Ok (c, buf, seen, s)
                  else do (c', s) <- sgetc s; int_digits f base (width - 1) c' (put buf c) true s
      | None => Ok (c, buf, seen, s)
      end
    else Ok (c, buf, seen, s)
  end.
(* src/stdio/vfscanf.c:144-158 *)
Definition int_done (base : Z) (sign : bool) (length : Z) (r : Z * list Z * bool * scanner) : res (Z * option stored * scanner) :=
  let '(c, buf, seen, s) := r in
  do s <- sungetc s c;
  if negb seen then Ok (0, None, s) else
  do v <- (if sign then strtoll (rev buf) base else strtoull (rev buf) base);
  Ok (1, Some (store_int_ length sign (u64 (pval v))), s).
(* src/stdio/vfscanf.c:93-159 *)
Definition scan_int (fuel : nat) (s : scanner) (width base : Z) (sign : bool) (length : Z) : res (Z * option stored * scanner) :=
  do s <- skip_ws fuel s;
  do (c, s) <- sgetc s;
  if c =? EOF then Ok (-1, None, s) else
  let digits c width base buf seen s :=
    let base := if base =? 0 then 10 else base in
    do r <- int_digits fuel base width c buf seen s; int_done base sign length r in
  let zero c width buf s :=
    if (c =? 48) && (0 <? width) then
      let buf := put buf c in
      let width := width - 1 in
      if width =? 0 then int_done base sign length (c, buf, true, s) else
      do (c, s) <- sgetc s;
      if ((c =? 120) || (c =? 88)) && ((base =? 0) || (base =? 16)) then
        let buf := put buf c in
        let width := width - 1 in
        if width =? 0 then int_done 16 sign length (c, buf, false, s) else
        do (c, s) <- sgetc s; digits c width 16 buf false s
      else digits c width (if base =? 0 then 8 else base) buf true s
    else digits c width base buf false s in
  if (c =? 43) || (c =? 45) then
    let buf := put [] c in
    let width := width - 1 in
    if width =? 0 then int_done base sign length (c, buf, false, s) else
    do (c, s) <- sgetc s; zero c width buf s
  else zero c width [] s.
(* src/stdio/vfscanf.c:168-172, 409-416: collect while the test holds *)
Fixpoint collect (fuel : nat) (test : Z -> res bool) (width c : Z) (acc : list Z) (s : scanner) : res (Z * list Z * scanner) :=
  match fuel with
  | O => Fuel
  | S f =>
    if (0 <? width) && negb (c =? EOF) then
      do t <- test c;
      if t then do (c', s) <- sgetc s; collect f test (width - 1) c' (c :: acc) s else Ok (c, acc, s)
    else Ok (c, acc, s)
  end.
(* src/stdio/vfscanf.c:161-177 *)
Definition scan_str (fuel : nat) (s : scanner) (width : Z) : res (Z * option stored * scanner) :=
  do s <- skip_ws fuel s;
  do (c, s) <- sgetc s;
  if c =? EOF then Ok (-1, None, s) else
  do (c, acc, s) <- collect fuel (fun c => do b <- isspace c; Ok (b =? 0)) width c [] s;
  do s <- sungetc s c;
  match acc with [] => Ok (0, None, s) | _ => Ok (1, Some (Sbytes (rev acc ++ [0])), s) end.
(* src/stdio/vfscanf.c:185-190 *)
Fixpoint char_loop (fuel : nat) (width c : Z) (acc : list Z) (s : scanner) : res (list Z * scanner) :=
  match fuel with
  | O => Fuel
  | S f => if (0 <? width) && negb (c =? EOF) then
             if width - 1 <=? 0 then Ok (c :: acc, s) else do (c', s) <- sgetc s; char_loop f (width - 1) c' (c :: acc) s
           else Ok (acc, s)
  end.
(* src/stdio/vfscanf.c:179-193 *)
Definition scan_chars (fuel : nat) (s : scanner) (width : Z) : res (Z * option stored * scanner) :=
  do (c, s) <- sgetc s;
  if c =? EOF then Ok (-1, None, s) else
  do (acc, s) <- char_loop fuel width c [] s;
  match acc with [] => Ok (0, None, s) | _ => Ok (1, Some (Sbytes (rev acc)), s) end.

(* src/stdio/vfscanf.c:196 *)
Definition lower_ (c : Z) : Z := if (65 <=? c) && (c <=? 90) then Z.lor c 32 else c.
(* src/stdio/vfscanf.c:198-213 *)
Fixpoint scan_word_ (word : list Z) (width : Z) (buf : list Z) (matched : Z) (s : scanner) : res (Z * Z * list Z * scanner) :=
  match word with
  | [] => Ok (matched, width, buf, s)
  | w :: word =>
    if 0 <? width then
      do (c, s) <- sgetc s;
      if c =? EOF then Ok (matched, width, buf, s)
      else if lower_ c =? w then scan_word_ word (width - 1) (put buf c) (matched + 1) s
      else do s <- sungetc s c; Ok (matched, width, buf, s)
    else Ok (matched, width, buf, s)
  end.
(* src/stdio/vfscanf.c:227-232 *)
Definition hex_digit_ (c : Z) : bool := ((48 <=? c) && (c <=? 57)) || ((97 <=? c) && (c <=? 102)) || ((65 <=? c) && (c <=? 70)).
Definition dec_digit_ (c : Z) : bool := (48 <=? c) && (c <=? 57).
(* src/stdio/vfscanf.c:308-314, 321-327, 351-356: digits into the buffer; the flag tells whether there was one *)
Fixpoint float_digits (fuel : nat) (test : Z -> bool) (width c : Z) (buf : list Z) (seen : bool) (s : scanner) : res (Z * Z * list Z * bool * scanner) :=
  match fuel with
  | O => Fuel
  | S f => if (0 <? width) && negb (c =? EOF) && test c then
             do (c', s) <- sgetc s; float_digits f test (width - 1) c' (put buf c) true s
           else Ok (c, width, buf, seen, s)
  end.
(* src/stdio/vfscanf.c:295, 301, 320, 341, 347 *)
Definition sgetc_if (width : Z) (s : scanner) : res (Z * scanner) := if 0 <? width then sgetc s else Ok (EOF, s).
(* src/stdio/vfscanf.c:271-277 *)
Fixpoint nan_chars (fuel : nat) (width : Z) (buf : list Z) (s : scanner) : res (list Z * scanner) :=
  match fuel with
  | O => Fuel
  | S f => if 0 <? width then
             do (q, s) <- sgetc s;
             if q =? EOF then Ok (buf, s) else if q =? 41 then Ok (put buf q, s) else nan_chars f (width - 1) (put buf q) s
           else Ok (buf, s)
  end.
Definition pop (buf : list Z) : res (Z * list Z) := match buf with c :: b => Ok (c, b) | [] => UB end.
(* src/stdio/vfscanf.c:234-378 *)
Definition scan_float (fuel : nat) (s : scanner) (width length : Z) : res (Z * option stored * scanner) :=
  do s <- skip_ws fuel s;
  do (c, s) <- sgetc s;
  if c =? EOF then Ok (-1, None, s) else
  let fail (s : scanner) := Ok (0, None, s) in
  let done (buf : list Z) (s : scanner) := Ok (1, Some (Sfloat length (rev buf)), s) in
  let number c width buf s :=
    do (is_hex, si, c, width, buf, s) <-
      (if (c =? 48) && (0 <? width) then
         let buf := put buf c in let width := width - 1 in
         do (next, s) <- sgetc_if width s;
         if (next =? 120) || (next =? 88) then
           let buf := put buf next in let width := width - 1 in
           do (c, s) <- sgetc_if width s; Ok (true, false, c, width, buf, s)
         else Ok (false, true, next, width, buf, s)
       else Ok (false, false, c, width, buf, s));
    let test := if is_hex then hex_digit_ else dec_digit_ in
    do (c, width, buf, si, s) <- float_digits fuel test width c buf si s;
    do (c, width, buf, sf, s) <-
      (if (c =? 46) && (0 <? width) then
         let buf := put buf c in let width := width - 1 in
         do (c, s) <- sgetc_if width s; float_digits fuel test width c buf false s
       else Ok (c, width, buf, false, s));
    if negb si && negb sf then do s <- sungetc s c; fail s else
    let exp_lo := if is_hex then 112 else 101 in
    if ((c =? exp_lo) || (c =? exp_lo - 32)) && (0 <? width) then
      let saved := buf in
      let buf := put buf c in let width := width - 1 in
      do (a, s) <- sgetc_if width s;
      do (sg, a, width, buf, s) <-
        (if ((a =? 43) || (a =? 45)) && (0 <? width) then
           let buf := put buf a in let width := width - 1 in
           do (a, s) <- sgetc_if width s; Ok (true, a, width, buf, s)
         else Ok (false, a, width, buf, s));
      do (last, width, buf, ed, s) <- float_digits fuel dec_digit_ width a buf false s;
      if negb ed then
        do s <- sungetc s last;
        do (buf, s) <- (if sg then do (x, buf) <- pop buf; do s <- sungetc s x; Ok (buf, s) else Ok (buf, s));
        do (x, _) <- pop buf; do s <- sungetc s x; done saved s
      else do s <- sungetc s last; done buf s
    else do s <- sungetc s c; done buf s in
  let body c width buf s :=
    let low := lower_ c in
    if (low =? 105) || (low =? 110) then
      do s <- sungetc s c;
      if low =? 105 then
        do (m, width, buf, s) <- scan_word_ [105; 110; 102] width buf 0 s;
        if negb (m =? 3) then fail s else
        if 0 <? width then do (_, _, buf, s) <- scan_word_ [105; 110; 105; 116; 121] width buf 0 s; done buf s else done buf s
      else
        do (m, width, buf, s) <- scan_word_ [110; 97; 110] width buf 0 s;
        if negb (m =? 3) then fail s else
        if 0 <? width then
          do (p, s) <- sgetc s;
          if p =? 40 then do (buf, s) <- nan_chars fuel (width - 1) (put buf 40) s; done buf s
          else do s <- sungetc s p; done buf s
        else done buf s
    else number c width buf s in
  if (c =? 43) || (c =? 45) then
    let buf := put [] c in
    let width := width - 1 in
    if width =? 0 then fail s else
    do (c, s) <- sgetc s;
    if c =? EOF then fail s else body c width buf s
  else body c width [] s.

(** ** Scan sets *)
(* src/stdio/vfscanf.c:380-401; the map as the list of its members *)
Fixpoint range_ (n : nat) (lo : Z) : list Z := match n with O => [] | S n => lo :: range_ n (lo + 1) end.
Fixpoint scanset_loop (fuel : nat) (first : bool) (p map : list Z) : res (list Z * list Z) :=
  match fuel with
  | O => Fuel
  | S f =>
    match p with
    | [] => Ok (p, map)
    | lo :: q =>
      if first || negb (lo =? 93) then
        match q with
        | 45 :: hi :: r => if hi =? 93 then scanset_loop f false q (lo :: map)
                           else let a := Z.min lo hi in let b := Z.max lo hi in
                                scanset_loop f false r (range_ (Z.to_nat (b - a + 1)) a ++ map)
        | _ => scanset_loop f false q (lo :: map)
        end
      else Ok (p, map)
    end
  end.
Definition parse_scanset_ (p : list Z) : res (list Z * list Z * bool) :=
  let '(negate, p) := match p with 94 :: q => (true, q) | _ => (false, p) end in
  do (p, map) <- scanset_loop (S (length p)) true p [];
  Ok (match p with 93 :: q => q | _ => p end, map, negate).
(* src/stdio/vfscanf.c:403-421 *)
Definition scan_set_ (fuel : nat) (s : scanner) (width : Z) (map : list Z) (negate : bool) : res (Z * option stored * scanner) :=
  do (c, s) <- sgetc s;
  if c =? EOF then Ok (-1, None, s) else
  do (c, acc, s) <- collect fuel (fun c => Ok (negb (Bool.eqb (existsb (Z.eqb (u8 c)) map) negate))) width c [] s;
  do s <- sungetc s c;
  match acc with [] => Ok (0, None, s) | _ => Ok (1, Some (Sbytes (rev acc ++ [0])), s) end.
(* src/stdio/vfscanf.c:423-434 *)
Definition store_n_ (length count : Z) : stored := store_int_ length true count.

(** ** vfscanf *)
(* src/stdio/vfscanf.c:467-470 *)
Fixpoint width_ (w : Z) (p : list Z) : res (Z * list Z) :=
  match p with
  | c :: q => if (48 <=? c) && (c <=? 57) then do w10 <- chk_i32 (w * 10); do w <- chk_i32 (w10 + (c - 48)); width_ w q else Ok (w, p)
  | [] => Ok (w, p)
  end.
(** [Stop r]: return r; [Next r]: value of r after the switch *)
Inductive conv_result := Stop (r : Z) | Next (r : Z).
(* src/stdio/vfscanf.c:480-521: result, stored object, remaining format, scanner *)
Definition convert (fuel : nat) (conv width length : Z) (assigned : Z) (p : list Z) (s : scanner)
  : res (conv_result * option stored * list Z * scanner) :=
  let int base sign length := do (r, o, s) <- scan_int fuel s width base sign length; Ok (Next r, o, p, s) in
  if conv =? 100 then int 10 true length
  else if conv =? 105 then int 0 true length
  else if conv =? 111 then int 8 false length
  else if conv =? 117 then int 10 false length
  else if (conv =? 120) || (conv =? 88) then int 16 false length
  else if conv =? 112 then int 16 false (108 * 4 + 1)
  else if existsb (Z.eqb conv) [102; 70; 101; 69; 103; 71; 97; 65] then do (r, o, s) <- scan_float fuel s width length; Ok (Next r, o, p, s)
  else if conv =? 115 then do (r, o, s) <- scan_str fuel s width; Ok (Next r, o, p, s)
  else if conv =? 99 then do (r, o, s) <- scan_chars fuel s (if width =? INT_MAX then 1 else width); Ok (Next r, o, p, s)
  else if conv =? 91 then
    do (p, map, negate) <- parse_scanset_ p;
    do (r, o, s) <- scan_set_ fuel s width map negate; Ok (Next r, o, p, s)
  else if conv =? 110 then Ok (Next (-2), Some (store_n_ length (count s)), p, s)
  else if conv =? 37 then
    do (c, s) <- sgetc s;
    if c =? EOF then Ok (Stop (if assigned =? 0 then EOF else assigned), None, p, s)
    else if c =? 37 then Ok (Next (-2), None, p, s)
    else do s <- sungetc s c; Ok (Stop assigned, None, p, s)
  else Ok (Stop assigned, None, p, s).
(* src/stdio/vfscanf.c:436-539; [fuel] bounds the input, [ffuel] the format; [arg] is the next argument's index *)
Fixpoint scan_loop (ffuel fuel : nat) (p : list Z) (nargs arg assigned : Z) (out : list (Z * stored)) (s : scanner)
  : res (Z * list (Z * stored) * scanner) :=
  match ffuel with
  | O => Fuel
  | S ff =>
    match p with
    | [] => Ok (assigned, rev out, s)
    | c :: q =>
      do sp <- isspace c;
      if negb (sp =? 0) then do s <- skip_ws fuel s; scan_loop ff fuel q nargs arg assigned out s
      else if negb (c =? 37) then
        do (d, s) <- sgetc s;
        if d =? EOF then Ok (if assigned =? 0 then EOF else assigned, rev out, s)
        else if d =? c then scan_loop ff fuel q nargs arg assigned out s
        else do s <- sungetc s d; Ok (assigned, rev out, s)
      else
        let '(suppress, q) := match q with 42 :: q => (true, q) | _ => (false, q) end in
        do (w, q) <- width_ 0 q;
        let width := if w =? 0 then INT_MAX else w in
        let length := length_ q in
        let q := skipn (Z.to_nat (Z.land length 3)) q in
        let '(conv, q) := match q with [] => (0, []) | c :: q => (s8 c, q) end in
        do arg' <- (if suppress then Ok arg else if nargs <=? arg then UB else Ok (arg + 1));
        do (r, o, q, s) <- convert fuel conv width length assigned q s;
        let out := match o with Some x => if suppress then out else (arg, x) :: out | None => out end in
        match r with
        | Stop r => Ok (r, rev out, s)
        | Next r =>
          if r =? -1 then Ok (if assigned =? 0 then EOF else assigned, rev out, s)
          else if r =? 0 then Ok (assigned, rev out, s)
          else scan_loop ff fuel q nargs arg' (if (r =? 1) && negb suppress then assigned + 1 else assigned) out s
        end
    end
  end.
(** Result, objects stored, and the stream afterwards: what is in [peek] is gone *)
Definition vfscanf (fuel : nat) (F : FILE) (h : host) (format : list Z) (nargs : Z) : res (Z * list (Z * stored) * scanner) :=
  scan_loop (S (length format)) fuel format nargs 0 0 [] (mk_sc F h 0 [] false).
(* src/stdio/vsscanf.c:6-31: a stream that delivers the string; its indicators cannot be observed *)
Definition vsscanf (fuel : nat) (str format : list Z) (nargs : Z) : res (Z * list (Z * stored)) :=
  do (r, out, _) <- vfscanf fuel (new_file 0) (mk_host str 0 false []) format nargs; Ok (r, out).
