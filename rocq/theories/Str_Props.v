(** Properties C24-C33: the byte-string functions. *)
From Verif Require Import Base Str_Model Str_Spec Str_Proof Str_Copy_Proof Str_Seq_Proof Str_Tok_Proof
  Strstr_Model Strstr_Proof Strstr_Top_Proof.
Local Ltac Zify.zify_post_hook ::= idtac.
Open Scope Z_scope.

(** Concrete memories for the examples: the bytes of [l] at [base]. *)
Definition image (base : Z) (l : list Z) : mem :=
  fun x => if base <=? x then nth_error l (Z.to_nat (x - base)) else None.
Lemma image_ok base l : 0 <= base -> base + Z.of_nat (length l) <= 2^32 ->
  forallb (fun b => (0 <=? b) && (b <? 256)) l = true -> mem_ok (image base l).
Proof.
  intros H0 H1 Hl x b Hx. unfold image in Hx. destruct (Z.leb_spec base x); [|discriminate].
  assert (H2 := Hx). apply nth_error_In in Hx. rewrite forallb_forall in Hl. apply Hl in Hx.
  assert (Z.to_nat (x - base) < length l)%nat by (apply nth_error_Some; congruence). lia.
Qed.
Lemma image_mapped base l a b : base <= a -> b <= base + Z.of_nat (length l) -> mapped (image base l) a b.
Proof.
  intros Ha Hb x Hx. unfold image. replace (base <=? x) with true by lia.
  apply nth_error_Some. lia.
Qed.
Lemma image_words base l a z : base <= a -> 8 * (z / 8) + 8 <= base + Z.of_nat (length l) -> words (image base l) a z.
Proof.
  intros Ha Hz x Hx Hd. pose proof (Z_div_mod_eq_full x 8). pose proof (Z.mod_pos_bound x 8).
  apply (image_mapped base l a (8 * (z / 8) + 8)); lia.
Qed.
Ltac ct := intros i Hi; cbn [length app] in Hi;
  repeat (destruct i as [|i]; [vm_compute; reflexivity|]); exfalso; lia.
Ltac cs := split; [ct|repeat constructor; lia].
Ltac im := first [apply image_ok | apply image_mapped | apply image_words]; vm_compute; congruence.

(** ** C24 strlen *)
Theorem C24_strlen : forall fuel m a n, mem_ok m -> is_str m a n -> words m a (a + n) ->
  (Z.to_nat n + 8 < fuel)%nat -> strlen fuel m a = Ok n.
Proof. exact strlen_ok. Qed.
Print Assumptions C24_strlen.
(** a misaligned string whose terminator is in the second word; memory ends with that word *)
Definition ex1 : mem := image 3 [104;101;108;108;111;119;111;114;0;7;255;7;7].
Example C24_ex : mem_ok ex1 /\ is_str ex1 3 8 /\ words ex1 3 (3 + 8) /\ strlen 30 ex1 3 = Ok 8 /\ ex1 16 = None.
Proof.
  split; [im|]. split; [apply (cstr_is_str ex1 3 [104;101;108;108;111;119;111;114]); cs|].
  split; [im|]. split; reflexivity.
Qed.

(** ** C25 memchr, strchr, strrchr *)
Theorem C25_strchr : forall fuel m a n ch, mem_ok m -> is_str m a n -> words m a (a + n) -> (Z.to_nat n + 8 < fuel)%nat ->
  (forall z, first_of m a (a + n + 1) (u8 ch) z -> strchr fuel m a ch = Ok (Some z)) /\
  (absent m a (a + n + 1) (u8 ch) -> strchr fuel m a ch = Ok None).
Proof.
  intros fuel m a n ch Hok Hs Hw Hf. split.
  - intros z Hz. apply (strchr_found fuel m a n); try assumption.
    apply (words_weaken m a (a + n)); try assumption; destruct Hz; lia.
  - intros Ha. apply (strchr_absent fuel m a n); assumption.
Qed.
Print Assumptions C25_strchr.
(** nothing past the word of the first occurrence is read *)
Theorem C25_strchr_reads : forall fuel m a n ch z, mem_ok m -> is_str m a n -> first_of m a (a + n + 1) (u8 ch) z ->
  words m a z -> (Z.to_nat n + 8 < fuel)%nat -> strchr fuel m a ch = Ok (Some z).
Proof. exact strchr_found. Qed.
Print Assumptions C25_strchr_reads.
Example C25_ex : is_str ex1 3 8 /\ first_of ex1 3 (3 + 8 + 1) (u8 111) 7 /\ absent ex1 3 (3 + 8 + 1) (u8 255) /\
  strchr 30 ex1 3 111 = Ok (Some 7) /\ strchr 30 ex1 3 (-1) = Ok None /\ strrchr 30 ex1 3 111 = Ok (Some 9).
Proof.
  split; [apply (cstr_is_str ex1 3 [104;101;108;108;111;119;111;114]); cs|].
  split; [split; [lia|]; split; [reflexivity|]; intros x Hx;
    assert (C : x = 3 \/ x = 4 \/ x = 5 \/ x = 6) by lia; destruct C as [->|[->|[->| ->]]]; discriminate|].
  split; [|repeat split; reflexivity].
  intros x Hx. assert (C : x = 3 \/ x = 4 \/ x = 5 \/ x = 6 \/ x = 7 \/ x = 8 \/ x = 9 \/ x = 10 \/ x = 11) by lia.
  destruct C as [->|[->|[->|[->|[->|[->|[->|[->| ->]]]]]]]]; discriminate.
Qed.
Theorem C25_strrchr : forall fuel m a n ch, mem_ok m -> is_str m a n -> words m a (a + n) -> (Z.to_nat n + 8 < fuel)%nat ->
  (forall z, last_of m a (a + n + 1) (u8 ch) z -> strrchr fuel m a ch = Ok (Some z)) /\
  (absent m a (a + n + 1) (u8 ch) -> strrchr fuel m a ch = Ok None).
Proof.
  intros fuel m a n ch Hok Hs Hw Hf. pose proof Hs as (Hn & Hb & H0). unfold strrchr.
  destruct (Z.eqb_spec (u8 ch) 0) as [E|E].
  - rewrite E. rewrite (strlen_ok fuel m a n) by assumption. cbn [bind]. split.
    + intros z (Hz & Hzc & Hl). f_equal. f_equal. destruct (Z.eq_dec z (a + n)) as [->|]; [reflexivity|exfalso].
      destruct (Hb z) as (b & Eb & Nb); [lia|]. congruence.
    + intros Ha. exfalso. apply (Ha (a + n)); [lia|exact H0].
  - assert (Hf2 : (Z.to_nat n < fuel)%nat) by lia.
    destruct (strrchr_loop_ok fuel m ch Hok fuel a n None Hs Hw E Hf Hf2) as [[Ha ->]|(y & Hy & ->)]; split; intros.
    + exfalso. destruct H as (Hz & Hzc & _). apply (Ha z); [|exact Hzc].
      destruct (Z.eq_dec z (a + n)) as [->|]; [congruence|lia].
    + reflexivity.
    + f_equal. f_equal. destruct H as (Hz & Hzc & Hl), Hy as (Hy & Hyc & Hyl).
      destruct (Z.lt_trichotomy y z) as [H|[H|H]]; [|assumption|].
      * exfalso. apply (Hyl z); [|exact Hzc]. destruct (Z.eq_dec z (a + n)) as [->|]; [congruence|lia].
      * exfalso. apply (Hl y); [lia|exact Hyc].
    + exfalso. destruct Hy as (Hy & Hyc & _). apply (H y); [lia|exact Hyc].
Qed.
Print Assumptions C25_strrchr.
(** memchr; missing: lengths shorter than the distance to the next 8-byte boundary, see the refutation *)
Theorem C25_memchr_partial : forall fuel m p ch len, mem_ok m -> 0 <= len < 2^32 -> (Z.to_nat len + 8 < fuel)%nat ->
  (forall z, first_of m p (p + len) (u8 ch) z -> (forall x, p <= x < p + len -> x / 8 <= z / 8 -> m x <> None) ->
     memchr fuel m p ch len = Ok (Some z)) /\
  (absent m p (p + len) (u8 ch) -> mapped m p (p + len) -> (- p) mod 8 <= len -> memchr fuel m p ch len = Ok None).
Proof.
  intros fuel m p ch len Hok Hl Hf. split.
  - intros z Hz Hm. apply memchr_found; assumption.
  - intros Ha Hm Hal. apply memchr_absent; assumption.
Qed.
Print Assumptions C25_memchr_partial.
Example C25_memchr_ex : mem_ok ex1 /\ first_of ex1 3 (3 + 13) (u8 (-1)) 13 /\ mapped ex1 3 (3 + 13) /\ (- 3) mod 8 <= 13 /\
  memchr 30 ex1 3 (-1) 13 = Ok (Some 13) /\ memchr 30 ex1 3 (-1) 10 = Ok None.
Proof.
  split; [im|]. split; [|split; [im|split; [vm_compute; congruence|split; reflexivity]]].
  split; [lia|]. split; [reflexivity|]. intros x Hx.
  assert (C : x = 3 \/ x = 4 \/ x = 5 \/ x = 6 \/ x = 7 \/ x = 8 \/ x = 9 \/ x = 10 \/ x = 11 \/ x = 12) by lia.
  destruct C as [->|[->|[->|[->|[->|[->|[->|[->|[->| ->]]]]]]]]]; discriminate.
Qed.
(** the byte is looked for beyond the given length *)
Theorem C25_memchr_refuted : exists m p ch len z, mem_ok m /\ 0 <= len < 2^32 /\ mapped m p (p + len) /\
  absent m p (p + len) (u8 ch) /\ memchr 30 m p ch len = Ok (Some z).
Proof.
  exists (image 8 (repeat 1 12 ++ [5] ++ repeat 1 12)), 9, 5, 3, 20.
  split; [im|]. split; [lia|]. split; [im|]. split; [|reflexivity].
  intros x Hx. assert (C : x = 9 \/ x = 10 \/ x = 11) by lia. destruct C as [->|[->| ->]]; discriminate.
Qed.
Print Assumptions C25_memchr_refuted.

(** ** C26 memcpy, memmove *)
Theorem C26_memcpy : forall fuel m d s size, 0 <= size < 2^32 -> mapped m s (s + size) -> mapped m d (d + size) ->
  disjoint d s size -> (Z.to_nat size < fuel)%nat ->
  exists m', memcpy fuel m d s size = Ok (m', d) /\ copied m m' d s size.
Proof. exact memcpy_ok. Qed.
Print Assumptions C26_memcpy.
Theorem C26_memmove : forall fuel m d s size, mem_ok m -> 0 <= size < 2^32 -> mapped m s (s + size) -> mapped m d (d + size) ->
  (Z.to_nat size < fuel)%nat ->
  exists m', memmove fuel m d s size = Ok (m', d) /\ copied m m' d s size.
Proof. exact memmove_ok. Qed.
Print Assumptions C26_memmove.
Example C26_ex : mapped ex1 3 (3 + 12) /\ mapped ex1 4 (4 + 12) /\ disjoint 9 3 6 /\
  (exists m', memmove 30 ex1 4 3 12 = Ok (m', 4) /\ m' 15 = ex1 14 /\ m' 3 = ex1 3 /\ m' 9 = ex1 8) /\
  (exists m', memmove 30 ex1 3 5 8 = Ok (m', 3) /\ m' 3 = ex1 5 /\ m' 10 = ex1 12).
Proof.
  split; [im|]. split; [im|]. split; [unfold disjoint; lia|]. split; eexists; repeat split; reflexivity.
Qed.

(** ** C27 memset; missing: lengths shorter than the distance to the next 8-byte boundary *)
Theorem C27_memset_partial : forall fuel m d ch len, 0 <= len < 2^32 -> mapped m d (d + len) -> (- d) mod 8 <= len ->
  (Z.to_nat len + 8 < fuel)%nat ->
  exists m', memset fuel m d ch len = Ok (m', d) /\ filled m m' d (u8 ch) len.
Proof. exact memset_ok. Qed.
Print Assumptions C27_memset_partial.
Example C27_ex : mapped ex1 5 (5 + 11) /\ (- 5) mod 8 <= 11 /\
  exists m', memset 30 ex1 5 (-2) 11 = Ok (m', 5) /\ m' 5 = Some 254 /\ m' 15 = Some 254 /\ m' 4 = ex1 4.
Proof. split; [im|]. split; [vm_compute; congruence|]. eexists; repeat split; reflexivity. Qed.
(** memset(p, c, 3) at p = 1 (mod 8) runs on past its three bytes *)
Theorem C27_memset_refuted : exists m d ch len, mem_ok m /\ 0 <= len < 2^32 /\ mapped m d (d + len) /\
  memset 30 m d ch len = UB.
Proof.
  exists (image 8 (repeat 7 16)), 9, 0, 3. split; [im|]. split; [lia|]. split; [im|]. reflexivity.
Qed.
Print Assumptions C27_memset_refuted.

(** ** C28 comparison *)
Theorem C28_memcmp : forall fuel m x y s t, length s = length t -> Z.of_nat (length s) < 2^32 ->
  contents m x s -> contents m y t -> (length s < fuel)%nat ->
  exists r, memcmp fuel m x y (Z.of_nat (length s)) = Ok r /\ (r ?= 0) = lex s t.
Proof. intros fuel m x y s t. apply memcmp_ok. Qed.
Print Assumptions C28_memcmp.
Theorem C28_strcmp : forall fuel m x y s t, cstr m x s -> cstr m y t -> (length s < fuel)%nat ->
  exists r, strcmp fuel m x y = Ok r /\ (r ?= 0) = lex s t.
Proof. intros fuel m x y s t [H1 H2] [H3 H4] Hf. apply strcmp_ok; assumption. Qed.
Print Assumptions C28_strcmp.
(** strncmp needs only the first [n] bytes (or up to the terminator) to be readable *)
Theorem C28_strncmp : forall fuel m x y n s t, Z.of_nat n < 2^32 -> Forall (fun b => 0 < b) s -> Forall (fun b => 0 < b) t ->
  contents m x (firstn n (s ++ [0])) -> contents m y (firstn n (t ++ [0])) -> (length s < fuel)%nat ->
  exists r, strncmp fuel m x y (Z.of_nat n) = Ok r /\ (r ?= 0) = lex (firstn n s) (firstn n t).
Proof. intros fuel m x y n s t. apply strncmp_ok. Qed.
Print Assumptions C28_strncmp.
(** the order is total, and on unsigned bytes *)
Theorem C28_total_order : forall s t u, (lex s t = Eq <-> s = t) /\ lex t s = CompOpp (lex s t) /\
  (lex s t = Lt -> lex t u = Lt -> lex s u = Lt).
Proof. intros s t u. split; [apply lex_eq|]. split; [apply lex_antisym|apply lex_trans]. Qed.
Print Assumptions C28_total_order.
Example C28_ex : let m := image 1 [97;200;0;97;98;99;0] in cstr m 1 [97;200] /\ cstr m 4 [97;98;99] /\
  strcmp 9 m 1 4 = Ok 102 /\ lex [97;200] [97;98;99] = Gt /\ strncmp 9 m 1 4 1 = Ok 0 /\ memcmp 9 m 4 1 2 = Ok (-102).
Proof. cbv zeta. split; [cs|]. split; [cs|]. repeat split; reflexivity. Qed.

(** ** C29 strcpy, strcat, strncpy, strncat *)
Theorem C29_strcpy : forall fuel m d s n, is_str m s n -> mapped m d (d + n + 1) -> disjoint d s (n + 1) ->
  (Z.to_nat n < fuel)%nat -> exists m', strcpy fuel m d s = Ok (m', d) /\ copied m m' d s (n + 1).
Proof. exact strcpy_ok. Qed.
Print Assumptions C29_strcpy.
Theorem C29_strcat : forall fuel m d k s n, mem_ok m -> is_str m d k -> words m d (d + k) -> is_str m s n ->
  mapped m (d + k) (d + k + n + 1) -> disjoint (d + k) s (n + 1) -> (Z.to_nat k + Z.to_nat n + 8 < fuel)%nat ->
  exists m', strcat fuel m d s = Ok (m', d) /\ copied m m' (d + k) s (n + 1).
Proof. exact strcat_ok. Qed.
Print Assumptions C29_strcat.
(** strncat; missing: a source not shorter than the limit, where no terminator is written *)
Theorem C29_strncat_partial : forall fuel m d k s n len, mem_ok m -> is_str m d k -> words m d (d + k) -> is_str m s n ->
  0 <= len < 2^32 -> disjoint (d + k) s (n + 1) -> (Z.to_nat k + Z.to_nat n + 8 < fuel)%nat ->
  (n < len -> mapped m (d + k) (d + k + n + 1) ->
     exists m', strncat fuel m d s len = Ok (m', d) /\ copied m m' (d + k) s (n + 1)) /\
  (len <= n -> mapped m (d + k) (d + k + len) ->
     exists m', strncat fuel m d s len = Ok (m', d) /\ copied m m' (d + k) s len).
Proof.
  intros fuel m d k s n len Hok Hd Hw Hs Hl Hdis Hf. split; intros H Hm.
  - apply strncat_ok; assumption.
  - apply (strncat_trunc fuel m d k s n len); assumption.
Qed.
Print Assumptions C29_strncat_partial.
(** strncpy; missing: padding shorter than the distance to the next 8-byte boundary *)
Theorem C29_strncpy_partial : forall fuel m d s n len, is_str m s n -> 0 <= len < 2^32 -> mapped m d (d + len) ->
  (d + len <= s \/ s + n + 1 <= d) -> (len <= n \/ (- (d + n)) mod 8 <= len - n) -> (Z.to_nat len + 8 < fuel)%nat ->
  exists m', strncpy fuel m d s len = Ok (m', d) /\
    forall x, m' x = if (d <=? x) && (x <? d + len) then (if x <? d + n then m (s + (x - d)) else Some 0) else m x.
Proof. exact strncpy_ok. Qed.
Print Assumptions C29_strncpy_partial.
Definition ex2 : mem := image 0 ([97;98;0;99;100;101;0;102] ++ repeat 7 16).
Lemma ex2_strs : mem_ok ex2 /\ cstr ex2 0 [97;98] /\ cstr ex2 3 [99;100;101].
Proof. split; [im|]. split; cs. Qed.
Example C29_ex : is_str ex2 3 3 /\ is_str ex2 0 2 /\ mapped ex2 9 (9 + 3 + 1) /\ disjoint 9 3 4 /\
  (- (9 + 3)) mod 8 <= 8 - 3 /\
  (exists m', strcpy 30 ex2 9 3 = Ok (m', 9) /\ m' 12 = Some 0 /\ m' 11 = Some 101 /\ m' 13 = Some 7) /\
  (exists m', strncpy 30 ex2 9 3 8 = Ok (m', 9) /\ m' 11 = Some 101 /\ m' 12 = Some 0 /\ m' 16 = Some 0 /\ m' 17 = Some 7) /\
  (exists m1 m', strcpy 30 ex2 9 0 = Ok (m1, 9) /\ strcat 30 m1 9 3 = Ok (m', 9) /\ m' 9 = Some 97 /\ m' 13 = Some 101 /\ m' 14 = Some 0) /\
  (exists m1 m', strcpy 30 ex2 9 0 = Ok (m1, 9) /\ strncat 30 m1 9 3 4 = Ok (m', 9) /\ m' 13 = Some 101 /\ m' 14 = Some 0).
Proof.
  split; [apply (cstr_is_str ex2 3 [99;100;101]), ex2_strs|]. split; [apply (cstr_is_str ex2 0 [97;98]), ex2_strs|].
  split; [im|]. split; [unfold disjoint; lia|]. split; [vm_compute; congruence|].
  repeat split; repeat eexists.
Qed.
(** "ab" + 2 characters of "cde" is left without a terminator *)
Theorem C29_strncat_refuted : exists m d k s n len m', mem_ok m /\ is_str m d k /\ is_str m s n /\ words m d (d + k) /\
  disjoint (d + k) s (n + 1) /\ mapped m (d + k) (d + k + len + 1) /\
  strncat 30 m d s len = Ok (m', d) /\ m' (d + k + len) <> Some 0.
Proof.
  exists (image 0 ([7;7;7;99;100;101;0;7;97;98;0] ++ repeat 7 13)), 8, 2, 3, 3, 2.
  eexists. split; [im|].
  split; [apply (cstr_is_str _ 8 [97;98]); cs|]. split; [apply (cstr_is_str _ 3 [99;100;101]); cs|].
  split; [im|]. split; [unfold disjoint; lia|]. split; [im|]. split; [reflexivity|]. vm_compute. congruence.
Qed.
Print Assumptions C29_strncat_refuted.
Theorem C29_strncpy_refuted : exists m d s n len, mem_ok m /\ is_str m s n /\ 0 <= len < 2^32 /\ mapped m d (d + len) /\
  (d + len <= s \/ s + n + 1 <= d) /\ strncpy 30 m d s len = UB.
Proof.
  exists ex2, 9, 0, 2, 4. split; [im|]. split; [apply (cstr_is_str ex2 0 [97;98]), ex2_strs|]. split; [lia|].
  split; [im|]. split; [lia|]. reflexivity.
Qed.
Print Assumptions C29_strncpy_refuted.

(** ** C30 strspn, strcspn, strpbrk *)
Theorem C30_strspn : forall fuel m s str a acc, mem_ok m -> cstr m s str -> cstr m a acc ->
  (length acc < fuel)%nat -> (length str < fuel)%nat -> strspn fuel m s a = Ok (prefix_len (elem acc) str).
Proof. exact strspn_ok. Qed.
Print Assumptions C30_strspn.
Theorem C30_strcspn : forall fuel m s str a acc, mem_ok m -> cstr m s str -> cstr m a acc -> words m a (a + Z.of_nat (length acc)) ->
  (length acc + 8 < fuel)%nat -> (length str < fuel)%nat ->
  strcspn fuel m s a = Ok (prefix_len (fun b => negb (elem acc b)) str).
Proof. exact strcspn_ok. Qed.
Print Assumptions C30_strcspn.
Theorem C30_strpbrk : forall fuel m s str a acc, mem_ok m -> cstr m s str -> cstr m a acc -> words m a (a + Z.of_nat (length acc)) ->
  (length acc + 8 < fuel)%nat -> (length str < fuel)%nat ->
  let r := prefix_len (fun b => negb (elem acc b)) str in
  strpbrk fuel m s a = Ok (if r =? Z.of_nat (length str) then None else Some (s + r)).
Proof. exact strpbrk_ok. Qed.
Print Assumptions C30_strpbrk.
(** [prefix_len] is the length of the longest initial segment satisfying the predicate *)
Theorem C30_longest_segment : forall P l, exists l1 l2, l = l1 ++ l2 /\ prefix_len P l = Z.of_nat (length l1) /\
  forallb P l1 = true /\ match l2 with [] => True | b :: _ => P b = false end.
Proof. exact prefix_len_split. Qed.
Print Assumptions C30_longest_segment.
Definition ex3 : mem := image 0 ([44;200;97;44;98;99;44;0] ++ [44;200;0;7;7;7;7;7]).
Lemma ex3_strs : mem_ok ex3 /\ cstr ex3 0 [44;200;97;44;98;99;44] /\ cstr ex3 8 [44;200] /\ words ex3 8 (8 + 2).
Proof. split; [im|]. split; [cs|]. split; [cs|im]. Qed.
Example C30_ex : strspn 30 ex3 0 8 = Ok 2 /\ strcspn 30 ex3 2 8 = Ok 1 /\ strpbrk 30 ex3 4 8 = Ok (Some 6) /\
  strpbrk 30 ex3 7 8 = Ok None.
Proof. repeat split; reflexivity. Qed.

(** ** C31 strtok_r *)
(** One call, with any delimiter set; [p] is the argument or the saved position. *)
Theorem C31_one_call : forall fuel m p str a seps string state, mem_ok m -> cstr m p str -> cstr m a seps ->
  words m a (a + Z.of_nat (length seps)) -> (length seps + 8 < fuel)%nat -> (length str < fuel)%nat ->
  (string = Some p \/ string = None /\ state = Some p) ->
  let i := prefix_len (elem seps) str in
  let rest := skipn (Z.to_nat i) str in
  let j := prefix_len (fun b => negb (elem seps b)) rest in
  strtok_r fuel m string a state =
    if i =? Z.of_nat (length str) then Ok (m, None, None)
    else if i + j =? Z.of_nat (length str) then Ok (m, None, Some (p + i))
    else Ok (upd m (p + i + j) 0, Some (p + i + j + 1), Some (p + i)).
Proof. exact strtok_call. Qed.
Print Assumptions C31_one_call.
(** After NULL, further calls with NULL keep returning NULL and write nothing. *)
Theorem C31_exhausted : forall fuel m a, strtok_r fuel m None a None = Ok (m, None, None).
Proof. reflexivity. Qed.
Print Assumptions C31_exhausted.
(** Calling until NULL. *)
Theorem C31_tokens : forall fuel calls m p str a seps state, mem_ok m -> cstr m p str -> cstr m a seps ->
  words m a (a + Z.of_nat (length seps)) ->
  (a + Z.of_nat (length seps) < p \/ p + Z.of_nat (length str) < a) ->
  (length seps + 8 < fuel)%nat -> (length str < fuel)%nat -> (length str + 1 < calls)%nat ->
  let toks := tokens (elem seps) 0 0 str in
  exists m', tokenise calls fuel m (Some p) a state = Ok (m', map (fun t => p + fst t) toks) /\
    (forall o len, In (o, len) toks -> cstr m' (p + o) (firstn (Z.to_nat len) (skipn (Z.to_nat o) str))) /\
    (forall x, m' x = m x \/
       (exists i, x = p + Z.of_nat i /\ (i < length str)%nat /\ elem seps (nth i str 0) = true /\ m' x = Some 0)).
Proof.
  intros fuel calls m p str a seps state Hok Hs Ha Hw Hdis Hf1 Hf2 Hc toks.
  destruct (tokenise_ok fuel a seps Hf1 calls m p 0 str (Some p) state) as (m' & E & T & U); try assumption; try (rewrite Z.add_0_r; assumption).
  { left. f_equal. lia. }
  exists m'. split; [exact E|]. split.
  - intros o len Hin. destruct (T o len Hin) as (_ & _ & _ & T4). rewrite Z.sub_0_r in T4. exact T4.
  - intros x. destruct (U x) as [Ux|(i & Ex & R)]; [left; exact Ux|right]. exists i. rewrite Z.add_0_r in Ex. auto.
Qed.
Print Assumptions C31_tokens.
Example C31_ex : cstr ex3 0 [44;200;97;44;98;99;44] /\ cstr ex3 8 [44;200] /\ words ex3 8 (8 + 2) /\
  tokens (elem [44;200]) 0 0 [44;200;97;44;98;99;44] = [(2,1);(4,2)] /\
  exists m', tokenise 9 30 ex3 (Some 0) 8 None = Ok (m', [2;4]) /\ m' 3 = Some 0 /\ m' 6 = Some 0 /\ m' 1 = Some 200.
Proof.
  destruct ex3_strs as (_ & H1 & H2 & H3). split; [exact H1|]. split; [exact H2|]. split; [exact H3|].
  split; [reflexivity|]. eexists; repeat split; reflexivity.
Qed.

(** ** C32 strstr, memmem *)
(** A non-NULL result is always an occurrence.  For two-sided needles it is the first one, and
    NULL means there is none; missing: needles that are their own maximal suffix in one of the
    two byte orders, for which occurrences are missed. *)
Theorem C32_strstr_partial : forall fuel m s hs x nd, mem_ok m -> cstr m s hs -> cstr m x nd ->
  words m s (s + Z.of_nat (length hs)) -> words m x (x + Z.of_nat (length nd)) ->
  Z.of_nat (length nd) < 2^31 -> (3 * length nd + length hs + 8 < fuel)%nat ->
  exists r, strstr fuel m s x = Ok r /\
    match r with
    | Some a => exists j, a = s + Z.of_nat j /\ occurs hs nd j /\ (two_sided nd -> forall j', (j' < j)%nat -> ~ occurs hs nd j')
    | None => two_sided nd -> forall j, ~ occurs hs nd j
    end.
Proof. exact strstr_ok. Qed.
Print Assumptions C32_strstr_partial.
Theorem C32_memmem_partial : forall fuel m s hs x nd, contents m s hs -> contents m x nd -> nd <> [] ->
  Z.of_nat (length hs) < 2^32 -> Z.of_nat (length nd) < 2^31 -> (3 * length nd + length hs + 3 < fuel)%nat ->
  exists r, memmem fuel m s (Z.of_nat (length hs)) x (Z.of_nat (length nd)) = Ok r /\
    match r with
    | Some a => exists j, a = s + Z.of_nat j /\ occurs hs nd j /\ (two_sided nd -> forall j', (j' < j)%nat -> ~ occurs hs nd j')
    | None => two_sided nd -> forall j, ~ occurs hs nd j
    end.
Proof. exact memmem_ok. Qed.
Print Assumptions C32_memmem_partial.
(** in "xbacbac", "bac" is two-sided and found at 1 *)
Definition ex4 : mem := image 0 [120;98;97;99;98;97;99;0; 98;97;99;0;7;7;7;7].
Example C32_ex : mem_ok ex4 /\ cstr ex4 0 [120;98;97;99;98;97;99] /\ cstr ex4 8 [98;97;99] /\ two_sided [98;97;99] /\
  words ex4 0 (0 + 7) /\ words ex4 8 (8 + 3) /\ strstr 40 ex4 0 8 = Ok (Some 1) /\ strstr 40 ex4 4 8 = Ok (Some 4) /\ strstr 40 ex4 5 8 = Ok None.
Proof.
  split; [im|]. split; [cs|]. split; [cs|]. split.
  { right. split; [exists [98;97], [99]|exists [98], [97;99]]; split; reflexivity. }
  split; [im|]. split; [im|]. repeat split; reflexivity.
Qed.
(** strstr("aab", "ab") is NULL *)
Theorem C32_strstr_refuted : exists m s hs x nd j, mem_ok m /\ cstr m s hs /\ cstr m x nd /\
  words m s (s + Z.of_nat (length hs)) /\ words m x (x + Z.of_nat (length nd)) /\
  occurs hs nd j /\ strstr 40 m s x = Ok None.
Proof.
  exists (image 0 [97;97;98;0;97;98;0;7]), 0, [97;97;98], 4, [97;98], 1%nat.
  split; [im|]. split; [cs|]. split; [cs|]. split; [im|]. split; [im|].
  split; [exists [97], []; split; reflexivity|]. reflexivity.
Qed.
Print Assumptions C32_strstr_refuted.

(** ** C33 strxfrm *)
Theorem C33_strxfrm : forall fuel m d s n size, mem_ok m -> is_str m s n -> words m s (s + n) -> 0 <= size < 2^32 ->
  mapped m d (d + Z.min size (n + 1)) -> disjoint d s (n + 1) -> (Z.to_nat n + 8 < fuel)%nat ->
  exists m', strxfrm fuel m d s size = Ok (m', n) /\
    forall x, m' x = if (d <=? x) && (x <? d + Z.min size (n + 1))
                     then (if x <? d + Z.min size (n + 1) - 1 then m (s + (x - d)) else Some 0) else m x.
Proof. exact strxfrm_ok. Qed.
Print Assumptions C33_strxfrm.
(** When the result fits, the transformed string compares (strcmp) with any other string as the
    original does under strcoll. *)
Theorem C33_order : forall fuel m d s str size m' r, mem_ok m -> cstr m s str -> words m s (s + Z.of_nat (length str)) ->
  0 <= size < 2^32 -> Z.of_nat (length str) < size -> mapped m d (d + Z.of_nat (length str) + 1) ->
  disjoint d s (Z.of_nat (length str) + 1) -> (length str + 8 < fuel)%nat -> strxfrm fuel m d s size = Ok (m', r) ->
  cstr m' d str /\
  forall y t, cstr m y t -> cstr m' y t -> exists r1 r2, strcmp fuel m' d y = Ok r1 /\ strcoll fuel m s y = Ok r2 /\ (r1 ?= 0) = (r2 ?= 0).
Proof.
  intros fuel m d s str size m' r Hok Hs Hw Hz Hfit Hd Hdis Hf E.
  destruct (strxfrm_ok fuel m d s (Z.of_nat (length str)) size Hok (cstr_is_str _ _ _ Hs) Hw Hz) as (m2 & E2 & H2); try assumption; try lia.
  { intros x Hx. apply Hd. lia. }
  rewrite E in E2. injection E2 as <- ->.
  replace (Z.min size (Z.of_nat (length str) + 1)) with (Z.of_nat (length str) + 1) in H2 by lia.
  assert (C : cstr m' d str).
  { destruct Hs as [Hc Hp]. apply contents_app in Hc as [Hc _]. split; [|exact Hp]. apply contents_app. split.
    - intros i Hi. rewrite H2.
      replace ((d <=? d + Z.of_nat i) && (d + Z.of_nat i <? d + (Z.of_nat (length str) + 1))) with true by lia.
      replace (d + Z.of_nat i <? d + (Z.of_nat (length str) + 1) - 1) with true by lia.
      rewrite <- Hc by exact Hi. f_equal. lia.
    - apply contents_cons. split; [|intros i Hi; cbn in Hi; lia]. rewrite H2.
      replace ((d <=? d + Z.of_nat (length str)) && (d + Z.of_nat (length str) <? d + (Z.of_nat (length str) + 1))) with true by lia.
      replace (d + Z.of_nat (length str) <? d + (Z.of_nat (length str) + 1) - 1) with false by lia. reflexivity. }
  split; [exact C|]. intros y t Hy Hy'.
  destruct (C28_strcmp fuel m' d y str t C Hy' ltac:(lia)) as (r1 & E1 & L1).
  destruct (C28_strcmp fuel m s y str t Hs Hy ltac:(lia)) as (r2 & E2 & L2).
  exists r1, r2. split; [exact E1|]. split; [exact E2|]. congruence.
Qed.
Print Assumptions C33_order.
Example C33_ex : is_str ex2 3 3 /\ words ex2 3 (3 + 3) /\ mapped ex2 9 (9 + 4) /\ disjoint 9 3 4 /\
  (exists m', strxfrm 30 ex2 9 3 3 = Ok (m', 3) /\ m' 10 = Some 100 /\ m' 11 = Some 0 /\ m' 12 = Some 7) /\
  (exists m', strxfrm 30 ex2 9 3 0 = Ok (m', 3) /\ m' 9 = Some 7).
Proof.
  split; [apply (cstr_is_str ex2 3 [99;100;101]), ex2_strs|]. split; [im|]. split; [im|]. split; [unfold disjoint; lia|].
  split; eexists; repeat split; reflexivity.
Qed.
