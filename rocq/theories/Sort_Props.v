(** Property C36. *)
From Verif Require Import Base Str_Model Str_Spec Sort_Model Sort_Spec Sort_Proof Sort_Swap_Model Sort_Swap_Proof.
Open Scope Z_scope.

(** [base], [size], [count]: address, element size and length of the array; [clz0]: whatever
    __builtin_clz(0) gives. *)
Theorem C36_qsort : forall A (cmp : A -> A -> Z) base size count clz0 fuel a, total_preorder cmp ->
  0 < size <= base -> 0 <= count < 2^31 -> base + size * count <= 2^32 -> count < Z.of_nat fuel ->
  exists a', qsort cmp base size count clz0 fuel a = Ok a' /\ sorted_by cmp a' count /\
    Permutation (elements a count) (elements a' count) /\ forall k, ~ 0 <= k < count -> a' k = a k.
Proof. intros A cmp base size count clz0 fuel a H Hs Hc Hfit Hf. apply qsort_ok; assumption || lia. Qed.
Print Assumptions C36_qsort.
(** Twelve elements, so that partitioning happens; and the same with the depth limit exhausted. *)
Definition ex_a (k : Z) : Z := nth (Z.to_nat k) [5;3;9;1;1;8;2;7;7;0;4;6] 0.
Example C36_ex : total_preorder Z.sub /\
  (match qsort Z.sub 4096 4 12 0 13 ex_a with Ok a' => elements a' 12 | _ => [] end) = [0;1;1;2;3;4;5;6;7;7;8;9] /\
  (match introsort_ Z.sub 4096 4 12 13 13 ex_a 0 12 (-1) with Ok a' => elements a' 12 | _ => [] end) = [0;1;1;2;3;4;5;6;7;7;8;9].
Proof.
  split; [split; lia|]. split; vm_compute; reflexivity.
Qed.
(** swap_ at the byte level: it exchanges the two elements (or leaves one and the same alone). *)
Theorem C36_swap_bytes : forall fuel m a b size, 0 <= size < 2^32 -> mapped m a (a + size) -> mapped m b (b + size) ->
  a = b \/ a + size <= b \/ b + size <= a -> (Z.to_nat size < fuel)%nat ->
  exists m', swap_bytes fuel m a b size = Ok m' /\
    forall x, m' x = if (a <=? x) && (x <? a + size) then m (b + (x - a))
                     else if (b <=? x) && (x <? b + size) then m (a + (x - b)) else m x.
Proof. exact swap_bytes_ok. Qed.
Print Assumptions C36_swap_bytes.
Example C36_swap_ex : let m x := if (100 <=? x) && (x <? 124) then Some x else None in
  exists m', swap_bytes 13 m 100 112 12 = Ok m' /\ m' 100 = Some 112 /\ m' 123 = Some 111.
Proof. eexists. split; [reflexivity|]. split; reflexivity. Qed.
(** Why the address of the array must not be below the element size: insertion_sort_ steps one
    element before the array, which wraps around to the top of memory. *)
Theorem C36_low_address : exists base size count (a : Z -> Z), 0 < base < size /\ base + size * count <= 2^32 /\
  forall fuel, (0 < fuel)%nat -> qsort Z.sub base size count 0 fuel a = UB.
Proof.
  exists 16, 24, 2, (fun k => - k). split; [lia|]. split; [lia|]. intros fuel Hf. destruct fuel; [lia|]. reflexivity.
Qed.
Print Assumptions C36_low_address.
