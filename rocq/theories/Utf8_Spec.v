(** UTF-8 as defined by the Unicode Standard (chapter 3), written with plain
    arithmetic, independently of the code. *)
From Verif Require Import Base.

(** D76: Unicode scalar value. *)
Definition scalar (c : Z) : Prop := 0 <= c < 0xD800 \/ 0xE000 <= c <= 0x10FFFF.

Definition bt (lo hi b : Z) : Prop := lo <= b <= hi.

(** Table 3-7, well-formed UTF-8 byte sequences, with the code point each one
    denotes (Table 3-6). *)
Inductive utf8_seq : list Z -> Z -> Prop :=
| seq1 b : bt 0x00 0x7F b -> utf8_seq [b] b
| seq2 a b : bt 0xC2 0xDF a -> bt 0x80 0xBF b -> utf8_seq [a; b] ((a - 0xC0) * 64 + (b - 0x80))
| seq3 a b c :
    (a = 0xE0 /\ bt 0xA0 0xBF b \/ bt 0xE1 0xEC a /\ bt 0x80 0xBF b \/
     a = 0xED /\ bt 0x80 0x9F b \/ bt 0xEE 0xEF a /\ bt 0x80 0xBF b) ->
    bt 0x80 0xBF c ->
    utf8_seq [a; b; c] ((a - 0xE0) * 4096 + (b - 0x80) * 64 + (c - 0x80))
| seq4 a b c d :
    (a = 0xF0 /\ bt 0x90 0xBF b \/ bt 0xF1 0xF3 a /\ bt 0x80 0xBF b \/
     a = 0xF4 /\ bt 0x80 0x8F b) ->
    bt 0x80 0xBF c -> bt 0x80 0xBF d ->
    utf8_seq [a; b; c; d]
      ((a - 0xF0) * 262144 + (b - 0x80) * 4096 + (c - 0x80) * 64 + (d - 0x80)).

(** The encoding function of Table 3-6. *)
Definition utf8_enc (c : Z) : list Z :=
  if c <? 0x80 then [c]
  else if c <? 0x800 then [0xC0 + c / 64; 0x80 + c mod 64]
  else if c <? 0x10000 then [0xE0 + c / 4096; 0x80 + (c / 64) mod 64; 0x80 + c mod 64]
  else [0xF0 + c / 262144; 0x80 + (c / 4096) mod 64; 0x80 + (c / 64) mod 64; 0x80 + c mod 64].

Definition bytes (l : list Z) : Prop := Forall is_byte l.

(** A lead byte followed by continuation bytes only, shorter than the lead byte
    announces (what the decoder treats as "incomplete"). *)
Definition announces (lead : Z) : Z :=
  if (0xC2 <=? lead) && (lead <=? 0xDF) then 2
  else if (0xE0 <=? lead) && (lead <=? 0xEF) then 3
  else if (0xF0 <=? lead) && (lead <=? 0xF4) then 4 else 0.

Definition incomplete (l : list Z) : Prop :=
  exists lead tl, l = lead :: tl /\ Forall (bt 0x80 0xBF) tl /\ Z.of_nat (length l) < announces lead.

(** UTF-16 code units of a scalar value (D91). *)
Definition utf16_enc (c : Z) : list Z :=
  if c <? 0x10000 then [c] else [0xD800 + (c - 0x10000) / 1024; 0xDC00 + (c - 0x10000) mod 1024].

Definition utf8_string (w : list Z) : list Z := concat (map utf8_enc w).

Definition nz_scalar (c : Z) : Prop := scalar c /\ c <> 0.

(** How a client decodes one character that arrives in pieces: it feeds the
    pieces, nonempty, one after the other to a restartable decoder [step] until
    the decoder stops asking for more.  [step chunk state] is the decoder. *)
Inductive outcome := ODecoded (c total : Z) | OMore | OInvalid.

(** No prefix of [l] is a well-formed sequence and neither is it an incomplete one. *)
Definition ill_formed (l : list Z) : Prop :=
  (forall p c rest, l = p ++ rest -> ~ utf8_seq p c) /\ l <> [] /\ ~ incomplete l.
