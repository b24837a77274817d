(** Model of the UTF-8 codec: src/wchar/{mbrtowc,wcrtomb,mbsinit,btowc,wctob,
    mbsrtowcs,wcsrtombs,mbrlen}.c and src/uchar/*.c.
    A [char] buffer is a list of bytes 0..255; reading past the list is UB.
    An [mbstate_t] is its 32-bit [__code] word (include/bits/types/mbstate.h). *)
From Verif Require Import Base.

(** What one call returns and does. [wc] is the value stored through the output
    pointer (None: nothing stored), [eilseq] tells whether errno := EILSEQ. *)
Record mbr := mk_mbr { ret : Z; wc : option Z; st : Z; eilseq : bool }.

(** [p[k]] *)
Definition getb (s : list Z) (k : nat) : res Z :=
  match nth_error s k with Some b => Ok b | None => UB end.

(* src/wchar/mbrtowc.c:17-21; ps->__code is left as it was *)
Definition mb_fail (saved : Z) : mbr := mk_mbr SIZE_M1 None saved true.

(* src/wchar/mbrtowc.c:89-105, after the loop *)
Definition mb_finish (saved total code : Z) (consumed : nat) : mbr :=
  let bad := if total =? 2 then code <? 0x80
             else if total =? 3 then (code <? 0x800) || ((0xD800 <=? code) && (code <=? 0xDFFF))
             else (code <? 0x10000) || (0x10FFFF <? code) in
  if bad then mb_fail saved
  else mk_mbr (if code =? 0 then 0 else Z.of_nat consumed) (Some (s32 code)) 0 false.

(* src/wchar/mbrtowc.c:72-87; [fuel] bounds total - absorbed, which the packed
   word keeps below 16 *)
Fixpoint mb_loop (fuel : nat) (s : list Z) (n : Z) (saved total absorbed code : Z) (consumed : nat)
  : res mbr :=
  match fuel with
  | O => Fuel
  | S fuel =>
    if absorbed <? total then
      if Z.of_nat consumed =? n then
        Ok (mk_mbr SIZE_M2 None
              (Z.lor (Z.lor (u32 (Z.shiftl total 28)) (u32 (Z.shiftl absorbed 24))) (Z.land code 0xFFFFFF))
              false)
      else
        do byte <- getb s consumed;
        if negb (Z.land byte 0xC0 =? 0x80) then Ok (mb_fail saved)
        else mb_loop fuel s n saved total (absorbed + 1)
               (Z.lor (u32 (Z.shiftl code 6)) (Z.land byte 0x3F)) (S consumed)
    else Ok (mb_finish saved total code consumed)
  end.

(* src/wchar/mbrtowc.c:23-106 with s != NULL.  [n] is the byte limit, [saved]
   the word in *ps. *)
Definition mbrtowc (s : list Z) (n : Z) (saved : Z) : res mbr :=
  if n =? 0 then Ok (mk_mbr SIZE_M2 None saved false)
  else
    let total := Z.shiftr saved 28 in
    let absorbed := Z.land (Z.shiftr saved 24) 0xF in
    let code := Z.land saved 0xFFFFFF in
    if total =? 0 then
      do lead <- getb s 0;
      if lead <? 0x80 then Ok (mk_mbr (if lead =? 0 then 0 else 1) (Some lead) 0 false)
      else if (lead <? 0xC2) || (0xF4 <? lead) then Ok (mb_fail saved)
      else if lead <? 0xE0 then mb_loop 17 s n saved 2 1 (Z.land lead 0x1F) 1
      else if lead <? 0xF0 then mb_loop 17 s n saved 3 1 (Z.land lead 0x0F) 1
      else mb_loop 17 s n saved 4 1 (Z.land lead 0x07) 1
    else mb_loop 17 s n saved total absorbed code 0.

(* src/wchar/mbrtowc.c:29-32, s == NULL *)
Definition mbrtowc_null (saved : Z) : mbr := mk_mbr 0 None 0 false.

(* src/wchar/mbsinit.c:3-6, ps != NULL *)
Definition mbsinit (saved : Z) : bool := saved =? 0.

(** Result of wcrtomb: return value, bytes stored at s, errno := EILSEQ. *)
Record wcr := mk_wcr { wret : Z; wout : list Z; weilseq : bool }.

(* src/wchar/wcrtomb.c:5-40 with s != NULL; the stores into [char] keep the low
   8 bits; code - k is unsigned 32-bit arithmetic *)
Definition wcrtomb (c : Z) : wcr :=
  let code := u32 c in
  if code <? 0x80 then mk_wcr 1 [u8 code] false
  else if code <? 0x800 then
    mk_wcr 2 [u8 (Z.lor 0xC0 (Z.shiftr code 6)); u8 (Z.lor 0x80 (Z.land code 0x3F))] false
  else if (code <? 0xD800) || (u32 (code - 0xE000) <? 0x2000) then
    mk_wcr 3 [u8 (Z.lor 0xE0 (Z.shiftr code 12)); u8 (Z.lor 0x80 (Z.land (Z.shiftr code 6) 0x3F));
              u8 (Z.lor 0x80 (Z.land code 0x3F))] false
  else if u32 (code - 0x10000) <? 0x100000 then
    mk_wcr 4 [u8 (Z.lor 0xF0 (Z.shiftr code 18)); u8 (Z.lor 0x80 (Z.land (Z.shiftr code 12) 0x3F));
              u8 (Z.lor 0x80 (Z.land (Z.shiftr code 6) 0x3F)); u8 (Z.lor 0x80 (Z.land code 0x3F))] false
  else mk_wcr SIZE_M1 [] true.

(* src/wchar/btowc.c:4-7 *)
Definition btowc (c : Z) : Z :=
  if (c =? -1) || (0x80 <=? u32 c) then -1 else u8 c.
(* src/wchar/wctob.c:4-7; wint_t is signed *)
Definition wctob (c : Z) : Z := if c <? 0x80 then c else -1.

(** ** String conversions *)

(** Where [*src] points afterwards. *)
Inductive srcpos := SrcNull | SrcAt (k : nat).

(** Result of a string conversion: return value, elements stored at dst (from
    dst[0] on), final [*src], errno := EILSEQ. *)
Record strr := mk_strr { sret : Z; sout : list Z; spos : srcpos; sst : Z; seilseq : bool }.

(* src/wchar/mbsrtowcs.c:12-36, dst != NULL.  (size_t)-1 / 2 = 2^31 - 1.  If
   mbrtowc answered (size_t)-2 the code would read the uninitialised [wc]: UB.
   [acc] is dst[0..written), so written = length acc. *)
Fixpoint mbsrtowcs_dst (fuel : nat) (s : list Z) (len : Z) (k : nat) (state : Z) (acc : list Z) : res strr :=
  match fuel with
  | O => Fuel
  | S fuel =>
    if Z.of_nat (length acc) <? len then
      do r <- mbrtowc (skipn k s) (2^31 - 1) state;
      if ret r =? SIZE_M1 then Ok (mk_strr SIZE_M1 acc (SrcAt k) (st r) true)
      else match wc r with
           | None => UB
           | Some c =>
             if c =? 0 then Ok (mk_strr (Z.of_nat (length acc)) (acc ++ [c]) SrcNull (st r) false)
             else mbsrtowcs_dst fuel s len (k + Z.to_nat (ret r)) (st r) (acc ++ [c])
           end
    else Ok (mk_strr (Z.of_nat (length acc)) acc (SrcAt k) state false)
  end.

(* src/wchar/mbsrtowcs.c:38-52, dst == NULL; *src is not changed *)
Fixpoint mbsrtowcs_null (fuel : nat) (s : list Z) (k : nat) (state written : Z) : res strr :=
  match fuel with
  | O => Fuel
  | S fuel =>
    do r <- mbrtowc (skipn k s) (2^31 - 1) state;
    if ret r =? SIZE_M1 then Ok (mk_strr SIZE_M1 [] (SrcAt 0) (st r) true)
    else match wc r with
         | None => UB
         | Some c =>
           if c =? 0 then Ok (mk_strr written [] (SrcAt 0) (st r) false)
           else mbsrtowcs_null fuel s (k + Z.to_nat (ret r)) (st r) (u32 (written + 1))
         end
  end.

(* src/wchar/mbsrtowcs.c:3-52 *)
Definition mbsrtowcs (dst : bool) (s : list Z) (len state : Z) : res strr :=
  if dst then mbsrtowcs_dst (S (length s)) s len 0 state []
  else mbsrtowcs_null (S (length s)) s 0 state 0.

(* src/wchar/wcsrtombs.c:13-48, dst != NULL.  The inner test [written >= len] on
   line 21 repeats the loop condition.  written + need is 32-bit. *)
Fixpoint wcsrtombs_dst (fuel : nat) (w : list Z) (len : Z) (k : nat) (acc : list Z) : res strr :=
  match fuel with
  | O => Fuel
  | S fuel =>
    if Z.of_nat (length acc) <? len then
      do c <- getb w k;
      if c =? 0 then Ok (mk_strr (Z.of_nat (length acc)) (acc ++ [0]) SrcNull 0 false)
      else
        let r := wcrtomb c in
        if wret r =? SIZE_M1 then Ok (mk_strr SIZE_M1 acc (SrcAt k) 0 true)
        else if len <? u32 (Z.of_nat (length acc) + wret r) then
          Ok (mk_strr (Z.of_nat (length acc)) acc (SrcAt k) 0 false)
        else wcsrtombs_dst fuel w len (S k) (acc ++ wout r)
    else Ok (mk_strr (Z.of_nat (length acc)) acc (SrcAt k) 0 false)
  end.

(* src/wchar/wcsrtombs.c:50-64, dst == NULL *)
Fixpoint wcsrtombs_null (fuel : nat) (w : list Z) (k : nat) (written : Z) : res strr :=
  match fuel with
  | O => Fuel
  | S fuel =>
    do c <- getb w k;
    if c =? 0 then Ok (mk_strr written [] (SrcAt 0) 0 false)
    else
      let r := wcrtomb c in
      if wret r =? SIZE_M1 then Ok (mk_strr SIZE_M1 [] (SrcAt 0) 0 true)
      else wcsrtombs_null fuel w (S k) (u32 (written + wret r))
  end.

(* src/wchar/wcsrtombs.c:4-65; wcrtomb never touches the state *)
Definition wcsrtombs (dst : bool) (w : list Z) (len : Z) : res strr :=
  if dst then wcsrtombs_dst (S (length w)) w len 0 []
  else wcsrtombs_null (S (length w)) w 0 0.

(* src/stdlib/mbstowcs.c:4-9, src/stdlib/wcstombs.c:4-9 *)
Definition mbstowcs (dst : bool) (s : list Z) (len : Z) : res strr := mbsrtowcs dst s len 0.
Definition wcstombs (dst : bool) (w : list Z) (len : Z) : res strr := wcsrtombs dst w len.

(* src/stdlib/mbtowc.c:4-22, s != NULL; [saved] is the function's static state.
   The int result is the size_t converted to int.  src/stdlib/mblen.c:4-22 is the
   same with pwc == NULL. *)
Definition mbtowc (s : list Z) (n saved : Z) : res mbr :=
  do r <- mbrtowc s n saved;
  if (ret r =? SIZE_M1) || (ret r =? SIZE_M2) then Ok (mk_mbr (-1) (wc r) 0 (eilseq r))
  else Ok (mk_mbr (s32 (ret r)) (wc r) (st r) (eilseq r)).

(* src/stdlib/wctomb.c:4-20, s != NULL *)
Definition wctomb (c : Z) : wcr :=
  let r := wcrtomb c in
  if wret r =? SIZE_M1 then mk_wcr (-1) (wout r) (weilseq r) else mk_wcr (s32 (wret r)) (wout r) (weilseq r).

(** ** UTF-16 *)

(* src/uchar/mbrtoc16.c:11-41 with s != NULL and pc != NULL *)
Definition mbrtoc16 (s : list Z) (n saved : Z) : res mbr :=
  if u32 (saved - 0xDC00) <? 0x400 then Ok (mk_mbr SIZE_M3 (Some (u16 saved)) 0 false)
  else
    do r <- mbrtowc s n saved;
    if (ret r =? SIZE_M1) || (ret r =? SIZE_M2) then Ok (mk_mbr (ret r) None (st r) (eilseq r))
    else match wc r with
         | None => UB
         | Some w =>
           let cp := u32 w in
           if cp <? 0x10000 then Ok (mk_mbr (ret r) (Some (u16 cp)) (st r) false)
           else
             let v := u32 (cp - 0x10000) in
             Ok (mk_mbr (ret r) (Some (u16 (Z.lor 0xD800 (Z.shiftr v 10))))
                   (Z.lor 0xDC00 (Z.land v 0x3FF)) false)
         end.

(* src/uchar/mbrtoc16.c:17-27 and mbrtoc32.c:6-7 with s == NULL: mbrtowc returns
   0 without storing wc, which is then read uninitialised. *)
Definition mbrtoc16_null (saved : Z) : res mbr :=
  if u32 (saved - 0xDC00) <? 0x400 then Ok (mk_mbr SIZE_M3 (Some (u16 saved)) 0 false) else UB.

(** Result of c16rtomb. *)
Record c16r := mk_c16r { cret : Z; cout : list Z; cst : Z; ceilseq : bool }.

Definition c16_of (r : wcr) (st : Z) : c16r := mk_c16r (wret r) (wout r) st (weilseq r).

(* src/uchar/c16rtomb.c:10-39 with s != NULL; c is a char16_t, 0..65535 *)
Definition c16rtomb (c saved : Z) : c16r :=
  if u32 (c - 0xD800) <? 0x400 then mk_c16r 0 [] c false
  else if u32 (c - 0xDC00) <? 0x400 then
    if 0x400 <=? u32 (saved - 0xD800) then mk_c16r SIZE_M1 [] saved true
    else
      let cp := 0x10000 + Z.lor (Z.shiftl (Z.land saved 0x3FF) 10) (Z.land c 0x3FF) in
      c16_of (wcrtomb (s32 cp)) 0
  else if u32 (saved - 0xD800) <? 0x400 then mk_c16r SIZE_M1 [] saved true
  else c16_of (wcrtomb c) saved.

(* src/uchar/mbrtoc32.c:4-13 with s != NULL, pc != NULL *)
Definition mbrtoc32 (s : list Z) (n saved : Z) : res mbr :=
  do r <- mbrtowc s n saved;
  if (ret r =? SIZE_M1) || (ret r =? SIZE_M2) then Ok (mk_mbr (ret r) None (st r) (eilseq r))
  else match wc r with None => UB | Some w => Ok (mk_mbr (ret r) (Some (u32 w)) (st r) (eilseq r)) end.

(* src/uchar/c32rtomb.c:4-7 *)
Definition c32rtomb (c : Z) : wcr := wcrtomb (s32 c).
