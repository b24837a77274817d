From Verif Require Import Base Sort_Model Sort_Spec.
Open Scope Z_scope.
Local Ltac Zify.zify_post_hook ::= idtac.

Section P.
Context {A : Type} (cmp : A -> A -> Z) (base size N : Z).
Context (Hcmp : total_preorder cmp).
Context (Hsize : 0 < size) (Hbase : size <= base) (HN : 0 <= N) (Hfit : base + size * N <= 2^32) (HN2 : N < 2^31).
Notation get := (get N). Notation put := (put N). Notation swap_ := (swap_ N).
Notation addr := (addr base size). Notation compare := (compare cmp N).
Implicit Types (a b : Z -> A).
Notation le x y := (cmp x y <= 0).

Lemma c_refl x : cmp x x = 0.
Proof. destruct Hcmp as [H _]. specialize (H x x). lia. Qed.
Lemma c_sym x y : cmp x y < 0 <-> 0 < cmp y x.
Proof. apply Hcmp. Qed.
Lemma c_trans x y z : le x y -> le y z -> le x z.
Proof. apply Hcmp. Qed.
Lemma c_ge x y : ~ cmp x y < 0 -> le y x.
Proof. intros H. pose proof (c_sym x y). pose proof (c_sym y x). lia. Qed.
Lemma c_lt x y : cmp x y < 0 -> le x y. Proof. lia. Qed.

Lemma get_ok a i : 0 <= i < N -> get a i = Ok (a i).
Proof. intros H. unfold Sort_Model.get. replace ((0 <=? i) && (i <? N)) with true by lia. reflexivity. Qed.
Lemma put_ok a i x : 0 <= i < N -> put a i x = Ok (upd a i x).
Proof. intros H. unfold Sort_Model.put. replace ((0 <=? i) && (i <? N)) with true by lia. reflexivity. Qed.
Lemma compare_ok a i j : 0 <= i < N -> 0 <= j < N -> compare a i j = Ok (cmp (a i) (a j)).
Proof. intros. unfold Sort_Model.compare. rewrite !get_ok by assumption. reflexivity. Qed.
Lemma upd_eq a i x : upd a i x i = x.
Proof. unfold upd. rewrite Z.eqb_refl. reflexivity. Qed.
Lemma upd_ne a i x k : k <> i -> upd a i x k = a k.
Proof. intros H. unfold upd. destruct (Z.eqb_spec k i); [contradiction|reflexivity]. Qed.
Definition exch a i j : Z -> A := upd (upd a i (a j)) j (a i).
Lemma swap_ok a i j : 0 <= i < N -> 0 <= j < N -> swap_ a i j = Ok (exch a i j).
Proof. intros Hi Hj. unfold Sort_Model.swap_. rewrite !get_ok by assumption. cbn [bind]. rewrite !put_ok by assumption. cbn [bind]. rewrite put_ok by assumption. reflexivity. Qed.
Lemma exch_l a i j : exch a i j i = a j.
Proof. unfold exch. destruct (Z.eqb_spec i j) as [->|H]; [apply upd_eq|]. rewrite upd_ne by assumption. apply upd_eq. Qed.
Lemma exch_r a i j : exch a i j j = a i.
Proof. unfold exch. apply upd_eq. Qed.
Lemma exch_o a i j k : k <> i -> k <> j -> exch a i j k = a k.
Proof. intros. unfold exch. rewrite !upd_ne by assumption. reflexivity. Qed.

(** Rearrangements of the elements lo..hi-1. *)
Inductive swaps (lo hi : Z) : (Z -> A) -> (Z -> A) -> Prop :=
| sw_refl a b : (forall k, b k = a k) -> swaps lo hi a b
| sw_step a b c i j : lo <= i < hi -> lo <= j < hi -> (forall k, b k = exch a i j k) -> swaps lo hi b c -> swaps lo hi a c.
Lemma swaps_refl lo hi a : swaps lo hi a a. Proof. apply sw_refl. reflexivity. Qed.
Lemma swaps_trans lo hi a b c : swaps lo hi a b -> swaps lo hi b c -> swaps lo hi a c.
Proof.
  induction 1 as [a b E|a b d i j Hi Hj E S IH]; intros S2.
  - destruct S2 as [a' b' E'|a' b' c' i j Hi Hj E' S'].
    + apply sw_refl. intros k. rewrite E', E. reflexivity.
    + apply (sw_step _ _ _ b' _ i j Hi Hj); [|exact S']. intros k. rewrite E'. unfold exch, upd. rewrite !E. reflexivity.
  - apply (sw_step _ _ _ b _ i j Hi Hj E). auto.
Qed.
Lemma swaps_one lo hi a b i j : lo <= i < hi -> lo <= j < hi -> (forall k, b k = exch a i j k) -> swaps lo hi a b.
Proof. intros Hi Hj E. apply (sw_step _ _ _ b _ i j Hi Hj E). apply swaps_refl. Qed.
Lemma swaps_mono lo hi lo' hi' a b : lo' <= lo -> hi <= hi' -> swaps lo hi a b -> swaps lo' hi' a b.
Proof. intros Hl Hh. induction 1; [apply sw_refl; assumption|]. eapply (sw_step _ _ _ b _ i j); try lia; assumption. Qed.
Lemma swaps_out lo hi a b k : swaps lo hi a b -> ~ lo <= k < hi -> b k = a k.
Proof.
  induction 1 as [a b E|a b c i j Hi Hj E S IH]; intros H; [apply E|]. rewrite IH, E by assumption. apply exch_o; intros ->; lia.
Qed.
Lemma swaps_all lo hi a b (Q : A -> Prop) : swaps lo hi a b -> (forall k, lo <= k < hi -> Q (a k)) -> forall k, lo <= k < hi -> Q (b k).
Proof.
  induction 1 as [a b E|a b c i j Hi Hj E S IH]; intros H k Hk; [rewrite E; auto|]. apply IH; [|assumption]. intros k' Hk'. rewrite E.
  destruct (Z.eq_dec k' j) as [->|Nj]; [rewrite exch_r; auto|]. destruct (Z.eq_dec k' i) as [->|Ni]; [rewrite exch_l; auto|].
  rewrite exch_o by assumption. auto.
Qed.
Lemma swaps_perm n a b : swaps 0 n a b -> Permutation (elements a n) (elements b n).
Proof.
  induction 1 as [a b E|a b c i j Hi Hj E S IH].
  - unfold elements. erewrite map_ext; [apply Permutation_refl|]. intros k. symmetry. apply E.
  - transitivity (elements b n); [|exact IH]. clear IH S c. unfold elements.
    set (L := seq 0 (Z.to_nat n)).
    apply Permutation_nth_error. split; [rewrite !map_length; reflexivity|].
    set (i' := Z.to_nat i). set (j' := Z.to_nat j).
    exists (fun x => if Nat.eqb x i' then j' else if Nat.eqb x j' then i' else x). split.
    + intros x y. destruct (Nat.eqb_spec x i'), (Nat.eqb_spec x j'), (Nat.eqb_spec y i'), (Nat.eqb_spec y j'); intros; subst; congruence.
    + intros x.
      assert (X : forall (f : nat -> A) y, nth_error (map f L) y = if Nat.ltb y (Z.to_nat n) then Some (f y) else None).
      { intros f y. destruct (Nat.ltb_spec y (Z.to_nat n)) as [Hy|Hy].
        - rewrite (map_nth_error f y L (d := y)); [reflexivity|]. unfold L. rewrite (nth_error_nth' _ 0%nat) by (rewrite seq_length; assumption). rewrite seq_nth by assumption. reflexivity.
        - apply nth_error_None. rewrite map_length. unfold L. rewrite seq_length. assumption. }
      rewrite !X, E. destruct (Nat.eqb_spec x i') as [->|Ni].
      * unfold i', j'. replace (Nat.ltb (Z.to_nat i) (Z.to_nat n)) with true by lia. replace (Nat.ltb (Z.to_nat j) (Z.to_nat n)) with true by lia.
        rewrite !Z2Nat.id by lia. rewrite exch_l. reflexivity.
      * destruct (Nat.eqb_spec x j') as [->|Nj].
        -- unfold i', j'. replace (Nat.ltb (Z.to_nat i) (Z.to_nat n)) with true by lia. replace (Nat.ltb (Z.to_nat j) (Z.to_nat n)) with true by lia.
           rewrite !Z2Nat.id by lia. rewrite exch_r. reflexivity.
        -- rewrite exch_o by (unfold i', j' in *; lia). reflexivity.
Qed.

Definition sorted lo hi a : Prop := forall i j, lo <= i -> i <= j -> j < hi -> le (a i) (a j).

(** ** Insertion sort *)
Lemma addr_ok i : -1 <= i <= N -> i < N -> addr i = base + size * i.
Proof. intros H H'. unfold Sort_Model.addr, u32. apply Z.mod_small. nia. Qed.
Lemma addr_le i j : 0 <= i < N -> -1 <= j < N -> (addr i <=? addr j) = (i <=? j).
Proof. intros Hi Hj. rewrite !addr_ok by lia. destruct (Z.leb_spec i j), (Z.leb_spec (base + size * i) (base + size * j)); nia. Qed.

Lemma shift_ok off c : 0 <= off -> forall fuel k a, -1 <= k -> k < Z.of_nat fuel - 1 -> off + k + 1 < N ->
  exists a' k', shift_ cmp base size N fuel a off k c = Ok (a', k') /\ -1 <= k' <= k /\
    (forall j, k' < j <= k -> cmp c (a (off + j)) < 0 /\ a' (off + j + 1) = a (off + j)) /\
    (forall p, ~ off + k' + 1 < p <= off + k + 1 -> a' p = a p) /\
    (k' = -1 \/ ~ cmp c (a (off + k')) < 0) /\
    swaps off (off + k + 2) (upd a (off + k + 1) c) (upd a' (off + k' + 1) c).
Proof.
  intros Hoff. induction fuel as [|f IH]; intros k a Hk Hf Hn; [lia|]. cbn [shift_].
  rewrite addr_le by lia. destruct (Z.leb_spec off (off + k)) as [L|L].
  - rewrite get_ok by lia. cbn [bind]. destruct (Z.ltb_spec (cmp c (a (off + k))) 0) as [C|C].
    + rewrite put_ok by lia. cbn [bind].
      destruct (IH (k - 1) (upd a (off + k + 1) (a (off + k)))) as (a' & k' & E & B & J & U & W & S); try lia.
      exists a', k'. split; [exact E|]. split; [lia|]. split; [|split; [|split]].
      * intros j Hj. destruct (Z.eq_dec j k) as [->|Nj].
        -- split; [exact C|]. rewrite U by lia. apply upd_eq.
        -- destruct (J j ltac:(lia)) as [J1 J2]. rewrite upd_ne in J1, J2 by lia. auto.
      * intros p Hp. rewrite U by lia. apply upd_ne. lia.
      * rewrite upd_ne in W by lia. exact W.
      * eapply swaps_trans; [|eapply swaps_mono; [| |exact S]; lia].
        apply (swaps_one _ _ _ _ (off + k) (off + k + 1)); try lia. intros p. unfold exch.
        replace (off + (k - 1) + 1) with (off + k) by lia. unfold upd.
        destruct (Z.eqb_spec p (off + k)), (Z.eqb_spec p (off + k + 1)); subst; try lia; rewrite ?Z.eqb_refl; try reflexivity.
        destruct (Z.eqb_spec (off + k) (off + k + 1)); [lia|]. reflexivity.
    + exists a, k. split; [reflexivity|]. split; [lia|]. split; [intros; lia|]. split; [reflexivity|]. split; [right; lia|apply swaps_refl].
  - exists a, k. split; [reflexivity|]. split; [lia|]. split; [intros; lia|]. split; [reflexivity|]. split; [left; lia|apply swaps_refl].
Qed.

Lemma insertion_ok off count : 0 <= off -> off + count <= N -> count <= 8 -> forall fuel a i, 1 <= i -> count - i < Z.of_nat fuel -> 0 < Z.of_nat fuel ->
  sorted off (off + i) a ->
  exists a', insertion_loop cmp base size N fuel a off count i = Ok a' /\ sorted off (off + count) a' /\ swaps off (off + count) a a'.
Proof.
  intros Ho Hn H8. induction fuel as [|f IH]; intros a i Hi Hf Hf0 Hs; cbn [insertion_loop]; [lia|].
  destruct (Z.ltb_spec i count) as [L|L].
  - rewrite get_ok by lia. cbn [bind]. set (c := a (off + i)).
    destruct (shift_ok off c Ho 10 (i - 1) a) as (a' & k & E & B & J & U & W & S); [lia|lia|lia|].
    rewrite E. cbn [bind]. rewrite put_ok by lia. cbn [bind]. set (a2 := upd a' (off + k + 1) c).
    assert (S2 : swaps off (off + i + 1) a a2).
    { replace (off + (i - 1) + 2) with (off + i + 1) in S by lia. replace (off + (i - 1) + 1) with (off + i) in S by lia.
      eapply swaps_trans; [|exact S]. apply sw_refl. intros p. unfold upd. destruct (Z.eqb_spec p (off + i)); [subst; reflexivity|reflexivity]. }
    assert (V1 : forall j, 0 <= j <= k -> a2 (off + j) = a (off + j)).
    { intros j Hj. unfold a2. rewrite upd_ne by lia. apply U. lia. }
    assert (V2 : a2 (off + k + 1) = c) by apply upd_eq.
    assert (V3 : forall j, k + 1 < j <= i -> a2 (off + j) = a (off + j - 1) /\ cmp c (a (off + j - 1)) < 0).
    { intros j Hj. destruct (J (j - 1) ltac:(lia)) as [J1 J2]. unfold a2. rewrite upd_ne by lia.
      replace (off + (j - 1) + 1) with (off + j) in J2 by lia. replace (off + (j - 1)) with (off + j - 1) in * by lia. auto. }
    destruct (IH a2 (i + 1)) as (a3 & E3 & S3 & P3); try lia.
    { intros x y Hx Hxy Hy. replace x with (off + (x - off)) by lia. replace y with (off + (y - off)) by lia.
      set (p := x - off) in *. set (q := y - off) in *. assert (Hp : 0 <= p) by (unfold p; lia). assert (Hpq : p <= q) by (unfold p, q; lia). assert (Hq : q <= i) by (unfold q; lia).
      destruct (Z.eq_dec p q) as [->|Npq]; [rewrite c_refl; lia|].
      destruct (Z.le_gt_cases q k) as [Hqk|Hqk].
      - rewrite !V1 by lia. apply Hs; lia.
      - destruct (Z.eq_dec q (k + 1)) as [->|Nq].
        + replace (off + (k + 1)) with (off + k + 1) by lia. rewrite V2. rewrite V1 by lia.
          destruct W as [W|W]; [lia|]. apply (c_trans _ (a (off + k))); [apply Hs; lia|]. apply c_ge. exact W.
        + destruct (V3 q ltac:(lia)) as [Vq Cq]. rewrite Vq.
          destruct (Z.le_gt_cases p k) as [Hpk|Hpk].
          * rewrite V1 by lia. apply Hs; lia.
          * destruct (Z.eq_dec p (k + 1)) as [->|Np].
            -- replace (off + (k + 1)) with (off + k + 1) by lia. rewrite V2. lia.
            -- destruct (V3 p ltac:(lia)) as [Vp _]. rewrite Vp. apply Hs; lia. }
    exists a3. split; [exact E3|]. split; [exact S3|]. eapply swaps_trans; [|exact P3]. eapply swaps_mono; [| |exact S2]; lia.
  - exists a. split; [reflexivity|]. split; [|apply swaps_refl]. intros x y Hx Hxy Hy. apply Hs; lia.
Qed.
Lemma insertion_sort_ok off count a : 0 <= off -> off + count <= N -> count <= 8 ->
  exists a', insertion_sort_ cmp base size N a off count = Ok a' /\ sorted off (off + count) a' /\ swaps off (off + count) a a'.
Proof.
  intros. apply insertion_ok; try lia. intros x y Hx Hxy Hy. replace y with x by lia. rewrite c_refl. lia.
Qed.

(** ** Heapsort *)
(** [path p q]: node q of the binary heap is p or lies below it. *)
Inductive path (p : Z) : Z -> Prop :=
| path_here : path p p
| path_child q c : path p q -> c = 2 * q \/ c = 2 * q + 1 -> path p c.
Lemma path_le p q : 1 <= p -> path p q -> p <= q.
Proof. intros Hp. induction 1; lia. Qed.
Lemma half_child q c : c = 2 * q \/ c = 2 * q + 1 -> c / 2 = q.
Proof. intros [->| ->]; [rewrite Z.mul_comm; apply Z.div_mul; lia|]. rewrite Z.mul_comm, Z.div_add_l by lia. cbn. lia. Qed.
Lemma half_parent c : c = 2 * (c / 2) \/ c = 2 * (c / 2) + 1.
Proof. pose proof (Z.div_mod c 2). pose proof (Z.mod_pos_bound c 2). lia. Qed.
Lemma path_up p q : path p q -> q = p \/ path p (q / 2).
Proof. intros [|q' c P C]; [auto|]. right. rewrite (half_child _ _ C). exact P. Qed.
Lemma path_up' p q : 1 <= p -> path p q -> q <> p -> path p (q / 2) /\ p <= q / 2 < q.
Proof.
  intros Hp P N0. destruct (path_up _ _ P) as [->|U]; [contradiction|]. split; [exact U|]. pose proof (path_le _ _ Hp U).
  destruct (half_parent q); lia.
Qed.
Lemma path_trans p q r : path p q -> path q r -> path p r.
Proof. intros P. induction 1 as [|q' c P' IH C]; [exact P|]. exact (path_child p q' c IH C). Qed.
Lemma path_down p o : path p o -> o <> p -> exists c, (c = 2 * p \/ c = 2 * p + 1) /\ path c o.
Proof.
  induction 1 as [|q c P IH C]; intros N0; [contradiction|]. destruct (Z.eq_dec q p) as [->|Nq].
  - exists c. split; [exact C|constructor].
  - destruct (IH Nq) as (d & D & Pd). exists d. split; [exact D|]. exact (path_child d q c Pd C).
Qed.
Lemma path_unique o : forall p, 1 <= p -> path (2 * p) o -> path (2 * p + 1) o -> False.
Proof.
  intros p Hp P1. remember (2 * p) as d eqn:Ed. induction P1 as [|q c P IH C]; intros P2.
  - apply path_le in P2; lia.
  - destruct (path_up _ _ P2) as [E|U].
    + pose proof (path_le d q ltac:(lia) P). lia.
    + rewrite (half_child _ _ C) in U. auto.
Qed.
Lemma path_child_unique o p c d : 1 <= p -> c / 2 = p -> d / 2 = p -> path c o -> path d o -> c = d.
Proof.
  intros Hp Hc Hd Pc Pd. pose proof (half_parent c) as C. pose proof (half_parent d) as D. rewrite Hc in C. rewrite Hd in D.
  destruct C as [C|C], D as [D|D]; try lia; exfalso; rewrite C in Pc; rewrite D in Pd; apply (path_unique o p Hp); assumption.
Qed.
Lemma path_antisym p q : 1 <= p -> 1 <= q -> path p q -> path q p -> p = q.
Proof. intros Hp Hq P Q. apply path_le in P, Q; lia. Qed.
(** ancestors of o at or above [off], one level up *)
Lemma path_between off p o : 1 <= off / 2 -> 1 < off -> path off o -> path (off / 2) p -> path p o -> p = off / 2 \/ path off p.
Proof.
  intros H1 H2 Po P1 P2. destruct (Z.eq_dec p (off / 2)) as [|Np]; [auto|]. right.
  destruct (path_down _ _ P1 Np) as (c & C & Pc). assert (c = off); [|subst; exact Pc].
  apply (path_child_unique o (off / 2)); auto; [apply half_child; exact C|]. eapply path_trans; eassumption.
Qed.

Section Heap.
Context (off : Z) (Hoff : 0 <= off).
Notation at_ a i := (a (off + i - 1)).
(** every child of a node >= lo is at most its parent *)
Definition heap lo cnt a : Prop := forall j, 2 <= j <= cnt -> lo <= j / 2 -> le (at_ a j) (at_ a (j / 2)).

Lemma lor_bit x (b : bool) : 0 <= x -> Z.lor (2 * x) (b2z b) = 2 * x + b2z b.
Proof. intros Hx. destruct b; cbn [b2z]; [|rewrite Z.lor_0_r; lia]. destruct x; try reflexivity. lia. Qed.

(** [leaf]: the path of larger children *)
Lemma leaf_ok cnt a : 0 <= cnt -> off + cnt <= N -> forall fuel i stem, 1 <= stem -> path stem i -> i <= Z.max cnt 1 -> cnt < Z.of_nat fuel + i -> 0 < Z.of_nat fuel ->
  (forall c d, c <> stem -> path stem c -> path c i -> d / 2 = c / 2 -> 2 <= d <= cnt -> le (at_ a d) (at_ a c)) ->
  exists o, leaf_ cmp N fuel a off i cnt = Ok o /\ path stem o /\ o <= Z.max cnt 1 /\ cnt < 2 * o /\
  (forall c d, c <> stem -> path stem c -> path c o -> d / 2 = c / 2 -> 2 <= d <= cnt -> le (at_ a d) (at_ a c)).
Proof.
  intros Hc Hn. induction fuel as [|f IH]; intros i stem Hst P Hi Hf Hf0 Hb; cbn [leaf_]; [lia|].
  pose proof (path_le _ _ Hst P) as Hge.
  assert (EU : u32 (2 * i) = 2 * i) by (unfold u32; apply Z.mod_small; lia). rewrite EU.
  destruct (Z.ltb_spec (2 * i) cnt) as [L|L].
  - rewrite compare_ok by lia. cbn [bind]. rewrite lor_bit by lia.
    set (b := cmp (a (off + 2 * i - 1)) (a (off + 2 * i)) <? 0).
    assert (Hc' : 2 * i + b2z b = 2 * i \/ 2 * i + b2z b = 2 * i + 1) by (destruct b; cbn [b2z]; lia).
    assert (Hbest : forall d, d / 2 = i -> le (at_ a d) (at_ a (2 * i + b2z b))).
    { intros d Hd. replace (off + (2 * i + 1) - 1) with (off + 2 * i) by lia.
      unfold b. destruct (Z.ltb_spec (cmp (a (off + 2 * i - 1)) (a (off + 2 * i))) 0) as [C|C]; cbn [b2z]; rewrite ?Z.add_0_r;
      destruct (half_parent d) as [D|D]; rewrite Hd in D; subst d; replace (off + (2 * i + 1) - 1) with (off + 2 * i) by lia;
      try (rewrite c_refl; lia); try lia. apply c_ge. lia. }
    apply IH; try assumption.
    + apply (path_child _ i); [exact P|exact Hc'].
    + lia.
    + lia.
    + lia.
    + intros c d Nc Pc Pci Hd Hdr. destruct (path_up _ _ Pci) as [E|U].
      * subst c. apply Hbest. rewrite Hd. apply half_child. exact Hc'.
      * rewrite (half_child i _ Hc') in U. apply (Hb c d); assumption.
  - destruct (Z.eqb_spec (2 * i) cnt) as [E|NE]; cbn [b2z].
    + rewrite Z.shiftl_mul_pow2 by lia. change (2^1) with 2. rewrite (Z.mul_comm i 2), EU. exists (2 * i). split; [reflexivity|].
      split; [apply (path_child _ i); auto|]. split; [lia|]. split; [lia|].
      intros c d Nc Pc Pci Hd Hdr. destruct (path_up _ _ Pci) as [Ec|U].
      * subst c. rewrite (half_child i (2 * i) (or_introl eq_refl)) in Hd. destruct (half_parent d) as [D|D]; rewrite Hd in D; subst d; [rewrite c_refl; lia|lia].
      * rewrite (half_child i (2 * i) (or_introl eq_refl)) in U. apply (Hb c d); assumption.
    + rewrite Z.shiftl_0_r. exists i. replace (u32 i) with i by (symmetry; unfold u32; apply Z.mod_small; lia).
      split; [reflexivity|]. split; [exact P|]. split; [lia|]. split; [lia|exact Hb].
Qed.

Lemma climb_ok a stem : 1 <= stem -> forall fuel o, path stem o -> o < Z.of_nat fuel + stem -> off + o <= N ->
  exists o', climb cmp N fuel a off stem o = Ok o' /\ path stem o' /\ path o' o /\ le (at_ a stem) (at_ a o') /\
   (forall c, path o' c -> path c o -> c <> o' -> cmp (at_ a c) (at_ a stem) < 0).
Proof.
  intros Hst. induction fuel as [|f IH]; intros o P Hf Hn; cbn [climb]; pose proof (path_le _ _ Hst P); [lia|].
  rewrite compare_ok by lia. cbn [bind]. destruct (Z.ltb_spec (cmp (at_ a o) (at_ a stem)) 0) as [C|C].
  - assert (No : o <> stem) by (intros ->; rewrite c_refl in C; lia).
    destruct (path_up' _ _ Hst P No) as [P' L'].
    destruct (IH (o / 2) P') as (o' & E & P1 & P2 & C1 & C2); [lia|lia|].
    exists o'. split; [exact E|]. split; [exact P1|].
    assert (Po : path (o / 2) o) by (apply (path_child _ (o / 2)); [constructor|apply half_parent]).
    split; [eapply path_trans; eassumption|]. split; [exact C1|].
    intros c Q1 Q2 Nc. destruct (path_up _ _ Q2) as [E2|U]; [subst c; exact C|]. apply C2; assumption.
  - exists o. split; [reflexivity|]. split; [exact P|]. split; [constructor|]. split; [apply c_ge; lia|].
    intros c Q1 Q2 Nc. assert (1 <= o) by lia. pose proof (path_le _ _ H0 Q1). exfalso. apply Nc. apply path_antisym; try assumption; lia.
Qed.

(** the rotation of the path from stem to o *)
Lemma rotate_ok a stem o : 1 <= stem -> path stem o -> stem < o -> off + o <= N ->
  forall fuel x b buffer, path stem x -> path x o -> stem < x -> x - stem < Z.of_nat fuel ->
    buffer = at_ a x -> (forall p, 1 <= p -> ~ (path x p /\ path p o) -> at_ b p = at_ a p) ->
    at_ b o = at_ a stem -> (forall p c, path x p -> path p o -> c / 2 = p -> path c o -> p <> o -> at_ b p = at_ a c) ->
    (forall k, k < off \/ off + o <= k -> b k = a k) ->
    swaps off (off + o) a (upd b (off + stem - 1) buffer) ->
  exists b', rotate N fuel b off stem x buffer = Ok b' /\
    (forall p, 1 <= p -> ~ (path stem p /\ path p o) -> at_ b' p = at_ a p) /\ at_ b' o = at_ a stem /\
    (forall p c, path stem p -> path p o -> c / 2 = p -> path c o -> p <> o -> at_ b' p = at_ a c) /\
    swaps off (off + o) a b'.
Proof.
  intros Hst Pso Hlt Hn. induction fuel as [|f IH]; intros x b buffer Px Pxo Hx Hf Hbuf U O C K S; [lia|].
  cbn [rotate]. replace (stem <? x) with true by lia.
  destruct (path_up' _ _ Hst Px ltac:(lia)) as [P' L']. pose proof (path_le x o ltac:(lia) Pxo) as Hxo.
  rewrite get_ok by lia. cbn [bind]. rewrite put_ok by lia. cbn [bind]. set (y := x / 2) in *.
  assert (Pyx : path y x) by (apply (path_child _ y); [constructor|apply half_parent]).
  assert (Pyo : path y o) by (eapply path_trans; eassumption).
  assert (Hyb : at_ b y = at_ a y).
  { apply U; [lia|]. intros [Q _]. apply path_le in Q; lia. }
  set (b2 := upd b (off + y - 1) buffer).
  assert (U2 : forall p, 1 <= p -> ~ (path y p /\ path p o) -> at_ b2 p = at_ a p).
  { intros p Hp Np. unfold b2. rewrite upd_ne.
    - apply U; [exact Hp|]. intros [Q1 Q2]. apply Np. split; [|exact Q2]. apply (path_trans y x p); assumption.
    - intros E. apply Np. assert (p = y) by lia. subst p. split; [constructor|exact Pyo]. }
  assert (O2 : at_ b2 o = at_ a stem). { unfold b2. rewrite upd_ne by lia. exact O. }
  assert (C2 : forall p c, path y p -> path p o -> c / 2 = p -> path c o -> p <> o -> at_ b2 p = at_ a c).
  { intros p c Q1 Q2 Hc Pc Np. destruct (path_between x p o) as [E|Q]; fold y; try assumption; try lia.
    - fold y in E. subst p. unfold b2. rewrite E, upd_eq. rewrite Hbuf. f_equal. f_equal.
      assert (c = x); [|lia]. apply (path_child_unique o y); try assumption; try lia. 
    - unfold b2. rewrite upd_ne. { apply C; assumption. } apply path_le in Q; lia. }
  destruct (Z.eq_dec y stem) as [Ey|Ny].
  - (* last step *)
    destruct f as [|f]; [lia|]. cbn [rotate]. replace (stem <? y) with false by lia.
    exists b2. split; [reflexivity|]. rewrite Ey in U2, C2. split; [exact U2|]. split; [exact O2|]. split; [exact C2|].
    unfold b2. rewrite Ey. exact S.
  - apply IH; try assumption; try lia.
    + intros k Hk. unfold b2. rewrite upd_ne by lia. apply K. exact Hk.
    + eapply swaps_trans; [exact S|]. apply (swaps_one _ _ _ _ (off + stem - 1) (off + y - 1)); try lia.
      intros k. unfold exch, b2. unfold upd. 
      destruct (Z.eqb_spec k (off + stem - 1)) as [->|N1].
      * destruct (Z.eqb_spec (off + stem - 1) (off + y - 1)); [lia|]. 
        destruct (Z.eqb_spec (off + y - 1) (off + stem - 1)); [lia|]. reflexivity.
      * destruct (Z.eqb_spec k (off + y - 1)) as [->|N2]; [rewrite Z.eqb_refl; reflexivity|reflexivity].
Qed.

Lemma siftdown_ok a stem cnt fuel : 0 <= cnt -> off + Z.max cnt 1 <= N -> 1 <= stem <= Z.max cnt 1 -> Z.max cnt 1 < Z.of_nat fuel ->
  heap (stem + 1) cnt a ->
  exists a', siftdown_ cmp N fuel a off stem cnt = Ok a' /\ heap stem cnt a' /\ swaps off (off + Z.max cnt 1) a a'.
Proof.
  intros Hc Hn Hst Hf HH. unfold siftdown_.
  destruct (leaf_ok cnt a Hc ltac:(lia) fuel stem stem) as (L & EL & PL & HL & HL2 & BL); try lia; [constructor| |].
  { intros c d Nc P1 P2. exfalso. apply Nc. symmetry. apply path_antisym; try assumption; [lia|apply path_le in P1; lia]. }
  rewrite EL. cbn [bind].
  destruct (climb_ok a stem ltac:(lia) fuel L PL) as (o & Eo & Po & PoL & Co & Do); try lia.
  rewrite Eo. cbn [bind]. pose proof (path_le stem o ltac:(lia) Po) as Hso. pose proof (path_le o L ltac:(lia) PoL) as HoL.
  rewrite get_ok by lia. cbn [bind]. rewrite get_ok by lia. cbn [bind]. rewrite put_ok by lia. cbn [bind].
  destruct (Z.eq_dec o stem) as [E|Ns].
  - subst o. destruct fuel as [|f]; [lia|]. cbn [rotate]. rewrite Z.ltb_irrefl. eexists. split; [reflexivity|].
    assert (X : forall k, upd a (off + stem - 1) (at_ a stem) k = a k).
    { intros k. unfold upd. destruct (Z.eqb_spec k (off + stem - 1)); [subst; reflexivity|reflexivity]. }
    split; [|apply sw_refl; exact X].
    intros j Hj Hp. rewrite !X. destruct (Z.eq_dec (j / 2) stem) as [Ej|Nj]; [|apply HH; lia].
    rewrite Ej. assert (Pj : stem <> L).
    { intros <-. pose proof (half_parent j). lia. }
    destruct (path_down stem L PL ltac:(auto)) as (c & Cc & Pc). assert (Ncs : c <> stem) by lia.
    assert (Psc : path stem c) by (apply (path_child _ stem); [constructor|exact Cc]).
    apply (c_trans _ (at_ a c)).
    + apply (BL c j); auto. rewrite (half_child stem c Cc). exact Ej.
    + apply c_lt. apply Do; auto.
  - destruct (rotate_ok a stem o ltac:(lia) Po ltac:(lia) ltac:(lia) fuel o (upd a (off + o - 1) (at_ a stem)) (at_ a o)) as (b & Eb & U & O & C & S).
    all: try assumption; try lia; try reflexivity.
    + constructor.
    + intros p Hp Np. apply upd_ne. intros E. apply Np. assert (p = o) by lia. subst. split; constructor.
    + apply upd_eq.
    + intros p c Q1 Q2 _ _ Np. exfalso. apply Np. symmetry. apply path_antisym; try assumption; [lia|apply path_le in Q1; lia].
    + intros k Hk. apply upd_ne. lia.
    + apply (swaps_one _ _ _ _ (off + o - 1) (off + stem - 1)); try lia. intros k. reflexivity.
    + exists b. split; [exact Eb|]. split; [|eapply swaps_mono; [| |exact S]; lia].
      assert (D1 : forall p, path stem p -> path p L -> 1 <= p). { intros p Q _. apply path_le in Q; lia. }
      intros j Hj Hp. set (p := j / 2) in *.
      assert (Dpo : (path stem p /\ path p o) \/ ~ (path stem p /\ path p o)).
      { (* decidability through classical-free search: path is decidable by descent *)
        assert (dec : forall u v, 1 <= u -> path u v \/ ~ path u v).
        { intros u v Hu. destruct (Z.le_gt_cases u v) as [Huv|Huv]; [|right; intros Q; apply path_le in Q; lia].
          assert (Hv : 0 <= v) by lia. revert Huv. pattern v. apply Z_lt_induction; [|exact Hv]. clear v Hv. intros v IH Huv.
          destruct (Z.eq_dec v u) as [->|Nv]; [left; constructor|].
          destruct (Z.le_gt_cases u (v / 2)) as [H2|H2].
          - pose proof (half_parent v). destruct (IH (v / 2)) as [Q|Q]; try lia.
            + left. apply (path_child _ (v / 2)); [exact Q|apply half_parent].
            + right. intros Q'. destruct (path_up _ _ Q') as [->|Q'']; [contradiction|contradiction].
          - right. intros Q'. destruct (path_up _ _ Q') as [->|Q'']; [contradiction|]. apply path_le in Q''; lia. }
        destruct (dec stem p ltac:(lia)), (dec p o ltac:(lia)); tauto. }
      destruct Dpo as [[P1 P2]|NP].
      * destruct (Z.eq_dec p o) as [Epo|Npo].
        -- (* children of o *)
           rewrite Epo, O. assert (Nj : ~ (path stem j /\ path j o)). { intros [_ Q]. apply path_le in Q; [|lia]. pose proof (half_parent j). fold p in H. lia. }
           rewrite U by (lia || exact Nj).
           assert (NoL : L <> o). { intros ->. pose proof (half_parent j). fold p in H. lia. }
           destruct (path_down o L PoL NoL) as (c & Cc & Pc).
           apply (c_trans _ (at_ a c)).
           ++ assert (Psc : path stem c) by (apply (path_trans _ o); [exact Po|]; apply (path_child _ o); [constructor|exact Cc]).
              assert (Ejc : j / 2 = c / 2) by (fold p; rewrite (half_child o c Cc); exact Epo).
              apply (BL c j); try assumption; lia.
           ++ apply c_lt. apply Do; [apply (path_child _ o); [constructor|exact Cc]|exact Pc|lia].
        -- (* p strictly above o *)
           destruct (path_down p o P2 (not_eq_sym Npo)) as (c & Cc & Pc).
           rewrite (C p c P1 P2 (half_child _ _ Cc) Pc Npo).
           assert (Pspc : path stem c) by (apply (path_trans _ p); [exact P1|]; apply (path_child _ p); [constructor|exact Cc]).
           destruct (Z.eq_dec j c) as [->|Njc].
           ++ destruct (Z.eq_dec c o) as [->|Nco]; [rewrite O; exact Co|].
              destruct (path_down c o Pc (not_eq_sym Nco)) as (d & Dd & Pd).
              rewrite (C c d Pspc Pc (half_child _ _ Dd) Pd Nco).
              pose proof (path_le d o ltac:(lia) Pd).
              replace c with (d / 2) by (apply half_child; exact Dd). apply HH; [lia|]. rewrite (half_child _ _ Dd). lia.
           ++ rewrite U.
              ** apply (BL c j); try assumption; [lia| |rewrite (half_child _ _ Cc); reflexivity]. apply (path_trans _ o); assumption.
              ** lia.
              ** intros [Q1 Q2]. apply Njc. apply (path_child_unique o p); try assumption; [lia|reflexivity|apply half_child; exact Cc].
      * rewrite (U p) by (lia || exact NP). rewrite U.
        -- apply HH; [lia|]. fold p. assert (p <> stem); [|lia]. intros ->. apply NP. split; [constructor|exact Po].
        -- lia.
        -- intros [Q1 Q2]. destruct (Z.eq_dec j stem) as [->|Njs]; [unfold p in Hp; pose proof (half_parent stem); lia|].
           apply NP. destruct (path_up' stem j ltac:(lia) Q1 Njs) as [Q3 _]. split; [exact Q3|].
           apply (path_trans _ j); [|exact Q2]. apply (path_child _ p); [constructor|apply half_parent].
Qed.

Lemma heapify_ok cnt fuel : 1 <= cnt -> off + cnt <= N -> cnt < Z.of_nat fuel -> forall n a, Z.of_nat n <= cnt -> heap (Z.of_nat n + 1) cnt a ->
  exists a', heapify cmp N fuel n a off cnt = Ok a' /\ heap 1 cnt a' /\ swaps off (off + cnt) a a'.
Proof.
  intros Hc Hn Hf. induction n as [|m IH]; intros a Hm HH; cbn [heapify].
  - exists a. split; [reflexivity|]. split; [exact HH|apply swaps_refl].
  - destruct (siftdown_ok a (Z.of_nat (S m)) cnt fuel) as (a1 & E1 & H1 & S1); try lia; [exact HH|].
    rewrite E1. cbn [bind]. destruct (IH a1) as (a2 & E2 & H2 & S2); [lia| |].
    { replace (Z.of_nat m + 1) with (Z.of_nat (S m)) by lia. exact H1. }
    exists a2. split; [exact E2|]. split; [exact H2|]. eapply swaps_trans; [|exact S2]. eapply swaps_mono; [| |exact S1]; lia.
Qed.

Lemma heap_max cnt a : heap 1 cnt a -> forall j, 1 <= j <= cnt -> le (at_ a j) (at_ a 1).
Proof.
  intros HH j Hj. assert (Hj0 : 0 <= j) by lia. revert Hj. pattern j. apply Z_lt_induction; [|exact Hj0].
  clear j Hj0. intros j IH Hj. destruct (Z.eq_dec j 1) as [->|Nj]; [rewrite c_refl; lia|].
  pose proof (half_parent j). apply (c_trans _ (at_ a (j / 2))); [apply HH; lia|]. apply IH; lia.
Qed.

Lemma extract_ok hi fuel : 1 <= hi - off -> hi <= N -> hi - off < Z.of_nat fuel -> forall n a, off + Z.of_nat n <= hi ->
  heap 1 (Z.of_nat n) a -> sorted (off + Z.of_nat n) hi a ->
  (forall i j, off <= i < off + Z.of_nat n -> off + Z.of_nat n <= j < hi -> le (a i) (a j)) ->
  exists a', extract cmp N fuel n a off = Ok a' /\ sorted off hi a' /\ swaps off hi a a'.
Proof.
  intros Hc Hn Hf. induction n as [|m IH]; intros a Hm HH HS HB; cbn [extract].
  - exists a. split; [reflexivity|]. split; [|apply swaps_refl]. intros i j Hi Hij Hj. apply HS; lia.
  - rewrite swap_ok by lia. cbn [bind]. set (b := exch a off (off + Z.of_nat m)).
    assert (Sb : swaps off (off + Z.of_nat (S m)) a b) by (apply (swaps_one _ _ _ _ off (off + Z.of_nat m)); [lia|lia|reflexivity]).
    assert (Mx : forall k, off <= k < off + Z.of_nat (S m) -> le (a k) (a off)).
    { intros k Hk. pose proof (heap_max _ _ HH (k - off + 1) ltac:(lia)) as M.
      replace (off + (k - off + 1) - 1) with k in M by lia. replace (off + 1 - 1) with off in M by lia. exact M. }
    destruct (siftdown_ok b 1 (Z.of_nat m) fuel) as (c & Ec & Hh & Sc); try lia.
    { intros j Hj Hp. unfold b. pose proof (half_parent j). rewrite !exch_o by lia. apply HH; lia. }
    rewrite Ec. cbn [bind].
    (* elements beyond m are untouched by the sift *)
    assert (Sc' : swaps off (off + Z.of_nat m) b c \/ m = O) by (destruct m; [right; reflexivity|left; eapply swaps_mono; [| |exact Sc]; lia]).
    assert (Out : forall k, off + Z.of_nat m <= k -> c k = b k).
    { intros k Hk. destruct Sc' as [Sc'| ->]; [apply (swaps_out _ _ _ _ _ Sc'); lia|].
      destruct (Z.eq_dec k off) as [->|Nk]; [|apply (swaps_out _ _ _ _ _ Sc); lia].
      (* a single element: rearranging it is the identity *)
      apply (swaps_all _ _ _ _ (fun x => x = b off) Sc); [|lia]. intros k Hk'. f_equal. lia. }
    assert (Lst : b (off + Z.of_nat m) = a off) by apply exch_r.
    assert (Oth : forall k, off + Z.of_nat (S m) <= k -> b k = a k) by (intros k Hk; apply exch_o; lia).
    assert (Bm : forall k, off <= k < off + Z.of_nat m -> le (c k) (a off)).
    { destruct Sc' as [Sc'| ->]; [|intros; lia]. apply (swaps_all _ _ _ _ (fun x => le x (a off)) Sc'). intros k Hk.
      apply (swaps_all _ _ _ _ (fun x => le x (a off)) Sb); [exact Mx|lia]. }
    destruct (IH c) as (d & Ed & Sd & Pd); try lia; [exact Hh| | |].
    + intros i j Hi Hij Hj. rewrite !Out by lia. destruct (Z.eq_dec i (off + Z.of_nat m)) as [->|Ni].
      * rewrite Lst. destruct (Z.eq_dec j (off + Z.of_nat m)) as [->|Nj]; [rewrite Lst, c_refl; lia|]. rewrite Oth by lia. apply HB; lia.
      * rewrite !Oth by lia. apply HS; lia.
    + intros i j Hi Hj. rewrite (Out j) by lia. destruct (Z.eq_dec j (off + Z.of_nat m)) as [->|Nj].
      * rewrite Lst. apply Bm. lia.
      * rewrite Oth by lia. apply (c_trans _ (a off)); [apply Bm; lia|]. apply HB; lia.
    + exists d. split; [exact Ed|]. split; [exact Sd|]. eapply swaps_trans; [eapply swaps_mono; [| |exact Sb]; lia|].
      eapply swaps_trans; [eapply swaps_mono; [| |exact Sc]; lia|]. exact Pd.
Qed.

Lemma heapsort_ok count fuel a : 1 <= count -> off + count <= N -> count < Z.of_nat fuel ->
  exists a', heapsort_ cmp N fuel a off count = Ok a' /\ sorted off (off + count) a' /\ swaps off (off + count) a a'.
Proof.
  intros Hc Hn Hf. unfold heapsort_. pose proof (Z.div_mod count 2). pose proof (Z.mod_pos_bound count 2).
  destruct (heapify_ok count fuel Hc Hn Hf (Z.to_nat (count / 2)) a) as (b & Eb & Hb & Sb); [lia| |].
  { intros j Hj Hp. pose proof (half_parent j). rewrite Z2Nat.id in Hp by lia. lia. }
  rewrite Eb. cbn [bind]. destruct (extract_ok (off + count) fuel ltac:(lia) ltac:(lia) ltac:(lia) (Z.to_nat count) b) as (c & Ec & Sc & Pc); try lia.
  - rewrite Z2Nat.id by lia. exact Hb.
  - intros i j Hi Hij Hj. lia.
  - exists c. split; [exact Ec|]. split; [exact Sc|]. eapply swaps_trans; eassumption.
Qed.
End Heap.

(** ** Partition *)
Lemma scan_up_ok a pivot : 0 <= pivot < N -> forall fuel front stop, -1 <= front < stop -> stop < N -> stop - front <= Z.of_nat fuel ->
  ~ cmp (a stop) (a pivot) < 0 ->
  exists r, scan_up cmp N fuel a front pivot = Ok r /\ front < r <= stop /\ ~ cmp (a r) (a pivot) < 0 /\
    (forall k, front < k < r -> cmp (a k) (a pivot) < 0).
Proof.
  intros Hp. induction fuel as [|f IH]; intros front stop Hs Hn Hf Hst; cbn [scan_up]; [lia|].
  rewrite compare_ok by lia. cbn [bind]. destruct (Z.ltb_spec (cmp (a (front + 1)) (a pivot)) 0) as [C|C].
  - destruct (Z.eq_dec (front + 1) stop) as [E|NE]; [rewrite E in C; contradiction|].
    destruct (IH (front + 1) stop) as (r & E & B & C1 & C2); try lia; try assumption.
    exists r. split; [exact E|]. split; [lia|]. split; [exact C1|]. intros k Hk.
    destruct (Z.eq_dec k (front + 1)) as [->|Nk]; [exact C|]. apply C2. lia.
  - exists (front + 1). split; [reflexivity|]. split; [lia|]. split; [lia|]. intros; lia.
Qed.
Lemma scan_down_ok a pivot : 0 <= pivot < N -> forall fuel back stop, stop < back <= N -> 0 <= stop -> back - stop <= Z.of_nat fuel ->
  ~ cmp (a pivot) (a stop) < 0 ->
  exists r, scan_down cmp N fuel a back pivot = Ok r /\ stop <= r < back /\ ~ cmp (a pivot) (a r) < 0 /\
    (forall k, r < k < back -> cmp (a pivot) (a k) < 0).
Proof.
  intros Hp. induction fuel as [|f IH]; intros back stop Hs Hn Hf Hst; cbn [scan_down]; [lia|].
  rewrite compare_ok by lia. cbn [bind]. destruct (Z.ltb_spec (cmp (a pivot) (a (back - 1))) 0) as [C|C].
  - destruct (Z.eq_dec (back - 1) stop) as [E|NE]; [rewrite E in C; contradiction|].
    destruct (IH (back - 1) stop) as (r & E & B & C1 & C2); try lia; try assumption.
    exists r. split; [exact E|]. split; [lia|]. split; [exact C1|]. intros k Hk.
    destruct (Z.eq_dec k (back - 1)) as [->|Nk]; [exact C|]. apply C2. lia.
  - exists (back - 1). split; [reflexivity|]. split; [lia|]. split; [lia|]. intros; lia.
Qed.

Lemma partition_loop_ok F off hi : 0 <= off -> hi <= N -> hi - off < Z.of_nat F ->
  forall fuel a front back u d, off <= front < back -> back <= hi - 1 -> off <= d <= front ->
    front < u < hi - 1 -> u <= back -> d < back -> 
    back - front < Z.of_nat fuel ->
    (forall k, off <= k <= front -> le (a k) (a (hi - 1))) -> (forall k, back <= k < hi -> le (a (hi - 1)) (a k)) ->
    ~ cmp (a u) (a (hi - 1)) < 0 -> ~ cmp (a (hi - 1)) (a d) < 0 ->
  exists a' p, partition_loop cmp base size N F fuel a front back (hi - 1) = Ok (a', p) /\ off < p < hi - 1 /\
    (forall k, off <= k < p -> le (a' k) (a' p)) /\ (forall k, p <= k < hi -> le (a' p) (a' k)) /\ swaps off hi a a'.
Proof.
  intros Ho Hn HF. induction fuel as [|f IH]; intros a front back u d H1 H2 H3 H5 H6 H7 Hf L R Uu Dd; cbn [partition_loop]; [lia|].
  destruct (scan_up_ok a (hi - 1) ltac:(lia) F front u) as (i & Ei & Bi & Ci & Di); try lia; idtac.
  rewrite Ei. cbn [bind].
  destruct (scan_down_ok a (hi - 1) ltac:(lia) F back d) as (j & Ej & Bj & Cj & Dj); try lia; idtac.
  rewrite Ej. cbn [bind]. rewrite addr_le by lia.
  assert (L' : forall k, off <= k < i -> le (a k) (a (hi - 1))).
  { intros k Hk. destruct (Z.le_gt_cases k front); [apply L; lia|]. apply c_lt, Di. lia. }
  assert (R' : forall k, j < k < hi -> le (a (hi - 1)) (a k)).
  { intros k Hk. destruct (Z.le_gt_cases back k); [apply R; lia|]. apply c_lt, Dj. lia. }
  destruct (Z.leb_spec j i) as [C|C].
  - rewrite swap_ok by lia. cbn [bind]. exists (exch a i (hi - 1)), i. split; [reflexivity|]. split; [lia|].
    split; [|split].
    + intros k Hk. rewrite exch_l, exch_o by lia. apply L'. lia.
    + intros k Hk. rewrite exch_l. destruct (Z.eq_dec k i) as [->|Nk]; [rewrite exch_l, c_refl; lia|].
      destruct (Z.eq_dec k (hi - 1)) as [->|Nk2]; [rewrite exch_r; apply c_ge; exact Ci|]. rewrite exch_o by lia. apply R'. lia.
    + apply (swaps_one _ _ _ _ i (hi - 1)); try lia. reflexivity.
  - rewrite swap_ok by lia. cbn [bind]. set (b := exch a i j).
    assert (Bp : b (hi - 1) = a (hi - 1)) by (apply exch_o; lia).
    destruct (IH b i j j i) as (a' & p & E & Bp' & Lp & Rp & Sp); try lia.
    + intros k Hk. rewrite Bp. destruct (Z.eq_dec k i) as [->|Nk]; [unfold b; rewrite exch_l; apply c_ge; exact Cj|].
      unfold b. rewrite exch_o by lia. apply L'. lia.
    + intros k Hk. rewrite Bp. destruct (Z.eq_dec k j) as [->|Nk]; [unfold b; rewrite exch_r; apply c_ge; exact Ci|].
      unfold b. rewrite exch_o by lia. apply R'. lia.
    + rewrite Bp. unfold b. rewrite exch_r. exact Ci.
    + rewrite Bp. unfold b. rewrite exch_l. exact Cj.
    + exists a', p. split; [exact E|]. split; [exact Bp'|]. split; [exact Lp|]. split; [exact Rp|].
      eapply swaps_trans; [|exact Sp]. apply (swaps_one _ _ _ _ i j); try lia. reflexivity.
Qed.

Lemma cond_swap_ok a i j : 0 <= i < N -> 0 <= j < N -> i <> j ->
  exists a', (do c <- compare a j i; if c <? 0 then swap_ a i j else Ok a) = Ok a' /\ (a' = a \/ a' = exch a i j) /\ le (a' i) (a' j).
Proof.
  intros Hi Hj Nij. rewrite compare_ok by assumption. cbn [bind]. destruct (Z.ltb_spec (cmp (a j) (a i)) 0) as [C|C].
  - rewrite swap_ok by assumption. eexists. split; [reflexivity|]. split; [auto|]. rewrite exch_l, exch_r. lia.
  - eexists. split; [reflexivity|]. split; [auto|]. apply c_ge. lia.
Qed.
Lemma partition_ok F off count a : 0 <= off -> off + count <= N -> 9 <= count -> count < Z.of_nat F ->
  exists a' p, partition_ cmp base size N F a off count = Ok (a', p) /\ off < p < off + count - 1 /\
    (forall k, off <= k < p -> le (a' k) (a' p)) /\ (forall k, p <= k < off + count -> le (a' p) (a' k)) /\ swaps off (off + count) a a'.
Proof.
  intros Ho Hn H9 HF. unfold partition_. set (m := off + count / 2). set (e := off + (count - 1)).
  pose proof (Z.div_mod count 2). pose proof (Z.mod_pos_bound count 2).
  assert (Hm : off < m < e) by (unfold m, e; lia). assert (He : e = off + count - 1) by (unfold e; lia).
  assert (Bd : forall T (r : res (Z -> A)) (k : (Z -> A) -> res T) (c : res Z) (x y : res (Z -> A)),
     bind (bind c (fun c => if c <? 0 then x else y)) k = bind c (fun c => bind (if c <? 0 then x else y) k)).
  { intros. destruct c; reflexivity. }
  rewrite <- (Bd _ (Ok a)).
  destruct (cond_swap_ok a off m) as (a1 & E1 & S1 & L1); try lia. rewrite E1. cbn [bind].
  rewrite <- (Bd _ (Ok a)). destruct (cond_swap_ok a1 off e) as (a2 & E2 & S2 & L2); try lia. rewrite E2. cbn [bind].
  rewrite <- (Bd _ (Ok a)).
  assert (L2m : le (a2 off) (a2 m)).
  { destruct S2 as [->| ->]; [exact L1|]. rewrite exch_l in *. rewrite exch_r in L2. rewrite exch_o by lia. eapply c_trans; eassumption. }
  assert (X : exists a3, (do c <- compare a2 m e; if c <? 0 then swap_ a2 m e else Ok a2) = Ok a3 /\ (a3 = a2 \/ a3 = exch a2 m e) /\ le (a3 e) (a3 m)).
  { rewrite compare_ok by lia. cbn [bind]. destruct (Z.ltb_spec (cmp (a2 m) (a2 e)) 0) as [C|C].
    - rewrite swap_ok by lia. eexists. split; [reflexivity|]. split; [auto|]. rewrite exch_l, exch_r. lia.
    - eexists. split; [reflexivity|]. split; [auto|]. apply c_ge. lia. }
  destruct X as (a3 & E3 & S3 & L3). rewrite E3. cbn [bind].
  assert (L3e : le (a3 off) (a3 e)).
  { destruct S3 as [->| ->]; [exact L2|]. rewrite exch_r, exch_o by lia. exact L2m. }
  rewrite He. destruct (partition_loop_ok F off (off + count) Ho Hn ltac:(lia) F a3 off (off + count - 1) m off) as (a' & p & E & B & L & R & S); try lia.
  - intros k Hk. replace k with off by lia. rewrite <- He. exact L3e.
  - intros k Hk. replace k with (off + count - 1) by lia. rewrite c_refl. lia.
  - rewrite <- He. pose proof (c_sym (a3 m) (a3 e)). lia.
  - rewrite <- He. pose proof (c_sym (a3 e) (a3 off)). lia.
  - exists a', p. split; [exact E|]. split; [exact B|]. split; [exact L|]. split; [exact R|].
    assert (St : forall b c i j, off <= i < off + count -> off <= j < off + count -> (c = b \/ c = exch b i j) -> swaps off (off + count) b c).
    { intros b c i j Hi Hj [->| ->]; [apply swaps_refl|]. apply (swaps_one _ _ _ _ i j); auto. }
    eapply swaps_trans; [apply (St a a1 off m); [lia|lia|exact S1]|].
    eapply swaps_trans; [apply (St a1 a2 off e); [lia|lia|exact S2]|].
    eapply swaps_trans; [apply (St a2 a3 m e); [lia|lia|exact S3]|]. exact S.
Qed.

Lemma introsort_ok F : N < Z.of_nat F -> forall fuel a off count ttl, 0 <= off -> off + count <= N -> 0 <= count -> count < Z.of_nat fuel ->
  -1 <= ttl <= INT_MAX \/ count <= 8 ->
  exists a', introsort_ cmp base size N F fuel a off count ttl = Ok a' /\ sorted off (off + count) a' /\ swaps off (off + count) a a'.
Proof.
  intros HF. induction fuel as [|f IH]; intros a off count ttl Ho Hn Hc Hf Ht; [lia|]. cbn [introsort_].
  destruct (Z.leb_spec count 8) as [C8|C8]; [apply insertion_sort_ok; assumption|].
  destruct Ht as [Ht|]; [|lia].
  destruct (Z.ltb_spec ttl 0) as [T|T]; [apply heapsort_ok; lia|].
  destruct (partition_ok F off count a) as (b & p & E & B & L & R & S); try lia. rewrite E. cbn [bind].
  rewrite chk_i32_ok by (unfold INT_MIN, INT_MAX in *; lia). cbn [bind].
  destruct (IH b off (p - off) (ttl - 1)) as (c & Ec & Sc & Pc); try lia. rewrite Ec. cbn [bind].
  destruct (IH c p (count - (p - off)) (ttl - 1)) as (d & Ed & Sd & Pd); try lia.
  exists d. split; [exact Ed|]. replace (off + (p - off)) with p in * by lia. replace (p + (count - (p - off))) with (off + count) in * by lia.
  split; [|eapply swaps_trans; [exact S|]; eapply swaps_trans; [eapply swaps_mono; [| |exact Pc]; lia|eapply swaps_mono; [| |exact Pd]; lia]].
  assert (Lo : forall k, off <= k < p -> le (d k) (b p)).
  { intros k Hk. rewrite (swaps_out _ _ _ _ k Pd) by lia. apply (swaps_all _ _ _ _ (fun x => le x (b p)) Pc); [|lia]. intros k' Hk'. apply L. lia. }
  assert (Hi : forall k, p <= k < off + count -> le (b p) (d k)).
  { apply (swaps_all _ _ _ _ (fun x => le (b p) x) Pd). intros k Hk. rewrite (swaps_out _ _ _ _ k Pc) by lia. apply R. lia. }
  intros i j Hi' Hij Hj. destruct (Z.lt_ge_cases j p) as [Hjp|Hjp].
  - rewrite !(swaps_out _ _ _ _ _ Pd) by lia. apply Sc; lia.
  - destruct (Z.lt_ge_cases i p) as [Hip|Hip]; [|apply Sd; lia]. apply (c_trans _ (b p)); [apply Lo; lia|apply Hi; lia].
Qed.

Lemma qsort_ok clz0 fuel a : N < Z.of_nat fuel ->
  exists a', qsort cmp base size N clz0 fuel a = Ok a' /\ sorted_by cmp a' N /\ Permutation (elements a N) (elements a' N) /\
    forall k, ~ 0 <= k < N -> a' k = a k.
Proof.
  intros HF. unfold qsort. destruct (introsort_ok fuel HF fuel a 0 N (31 - clz32 clz0 N)) as (b & E & Sb & P); try lia.
  - destruct (Z.le_gt_cases N 8); [auto|]. left. unfold clz32. replace (N =? 0) with false by lia.
    pose proof (Z.log2_nonneg N). assert (Z.log2 N < 31) by (apply Z.log2_lt_pow2; lia). unfold INT_MAX. lia.
  - rewrite Z.add_0_l in *. exists b. split; [exact E|]. split; [intros i j Hi Hj; apply Sb; lia|]. split; [apply swaps_perm; exact P|].
    intros k Hk. apply (swaps_out _ _ _ _ _ P Hk).
Qed.
End P.
