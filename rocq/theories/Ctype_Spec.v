(** What the C locale (ASCII) says about each character: written as tables of
    characters, independently of how the code tests them. *)
From Verif Require Import Base.

Definition range (lo hi : Z) (c : Z) : Prop := lo <= c <= hi.

Definition is_upper_spec  c := range 65 90 c.            (* 'A'..'Z' *)
Definition is_lower_spec  c := range 97 122 c.           (* 'a'..'z' *)
Definition is_digit_spec  c := range 48 57 c.            (* '0'..'9' *)
Definition is_alpha_spec  c := is_upper_spec c \/ is_lower_spec c.
Definition is_alnum_spec  c := is_alpha_spec c \/ is_digit_spec c.
Definition is_xdigit_spec c := is_digit_spec c \/ range 65 70 c \/ range 97 102 c.
Definition is_blank_spec  c := c = 32 \/ c = 9.          (* ' ' '\t' *)
Definition is_space_spec  c := In c [32; 9; 10; 11; 12; 13].
Definition is_cntrl_spec  c := range 0 31 c \/ c = 127.
Definition is_print_spec  c := range 32 126 c.
Definition is_graph_spec  c := is_print_spec c /\ c <> 32.
Definition is_punct_spec  c := is_graph_spec c /\ ~ is_alnum_spec c.

Definition to_lower_spec c := if (65 <=? c) && (c <=? 90) then c + 32 else c.
Definition to_upper_spec c := if (97 <=? c) && (c <=? 122) then c - 32 else c.

(** [decides r P]: the call is defined and its int result is nonzero iff [P]. *)
Definition decides (r : res Z) (P : Prop) : Prop :=
  exists v, r = Ok v /\ (v <> 0 <-> P).
