From Verif Require Import Base Str_Model Str_Spec Str_Proof Str_Copy_Proof Sort_Swap_Model.
Open Scope Z_scope.
Local Ltac Zify.zify_post_hook ::= idtac.

(** the size bytes at a and at b trade places, everything else stays *)
Definition exchanged (m m' : mem) (a b size : Z) : Prop :=
  forall x, m' x = if (a <=? x) && (x <? a + size) then m (b + (x - a))
                   else if (b <=? x) && (x <? b + size) then m (a + (x - b)) else m x.

Lemma swap_n n m a b : mapped m a (a + Z.of_nat n) -> mapped m b (b + Z.of_nat n) ->
  a = b \/ a + Z.of_nat n <= b \/ b + Z.of_nat n <= a ->
  exists c l m1 m2, load_n n m a = Ok c /\ load_n n m b = Ok l /\ store_n m a l = Ok m1 /\ store_n m1 b c = Ok m2 /\ exchanged m m2 a b (Z.of_nat n).
Proof.
  intros Ha Hb Hd. destruct (load_n_ok n m a Ha) as (c & E1 & L1 & N1). destruct (load_n_ok n m b Hb) as (l & E2 & L2 & N2).
  destruct (store_n_ok l m a) as (m1 & E3 & H3); [rewrite L2; exact Ha|].
  destruct (store_n_ok c m1 b) as (m2 & E4 & H4).
  { rewrite L1. intros x Hx. rewrite H3. destruct ((a <=? x) && (x <? a + Z.of_nat (length l))); [discriminate|apply Hb; exact Hx]. }
  exists c, l, m1, m2. do 4 (split; [assumption|]). intros x. rewrite H4, H3, L1, L2.
  destruct ((b <=? x) && (x <? b + Z.of_nat n)) eqn:Eb; destruct ((a <=? x) && (x <? a + Z.of_nat n)) eqn:Ea.
  - assert (a = b) as <- by lia. symmetry. rewrite N1 by lia. reflexivity.
  - symmetry. rewrite N1 by lia. reflexivity.
  - symmetry. rewrite N2 by lia. reflexivity.
  - reflexivity.
Qed.

Lemma swap_loop_ok N m0 a b count : 0 <= count < 2^32 -> (1 <= N)%nat ->
  let n := Z.of_nat N in
  mapped m0 a (a + n * count) -> mapped m0 b (b + n * count) -> a = b \/ a + n * count <= b \/ b + n * count <= a ->
  forall fuel i m, 0 <= i <= count -> exchanged m0 m a b (n * i) -> (Z.to_nat (count - i) < fuel)%nat ->
  exists m', swap_loop fuel N m a b i count = Ok m' /\ exchanged m0 m' a b (n * count).
Proof.
  intros Hc HN n Ha Hb Hov. induction fuel as [|f IH]; intros i m Hi Hm Hf; [lia|].
  cbn [swap_loop]. destruct (Z.ltb_spec i count) as [L|L].
  2:{ exists m. split; [reflexivity|]. replace count with i by lia. exact Hm. }
  fold n. assert (M : n * i + n <= n * count) by nia. assert (M0 : 0 <= n * i) by nia.
  assert (Hall : forall u, (forall x, u <= x < u + n * count -> m0 x <> None) -> mapped m u (u + n * count)).
  { intros u Hu x Hx. rewrite Hm. destruct ((a <=? x) && (x <? a + n * i)) eqn:E1; [apply Hb; lia|].
    destruct ((b <=? x) && (x <? b + n * i)) eqn:E2; [apply Ha; lia|]. apply Hu. exact Hx. }
  destruct (swap_n N m (a + n * i) (b + n * i)) as (c & l & m1 & m2 & E1 & E2 & E3 & E4 & C).
  { intros x Hx. apply (Hall a Ha). fold n in Hx. lia. }
  { intros x Hx. apply (Hall b Hb). fold n in Hx. lia. }
  { fold n. lia. }
  rewrite E1. cbn [bind]. rewrite E2. cbn [bind]. rewrite E3. cbn [bind]. rewrite E4. cbn [bind].
  unfold u32. rewrite Z.mod_small by lia. apply IH; try lia.
  intros x. rewrite C. fold n. replace (n * (i + 1)) with (n * i + n) by ring.
  destruct ((a + n * i <=? x) && (x <? a + n * i + n)) eqn:F1.
  - replace ((a <=? x) && (x <? a + (n * i + n))) with true by lia. rewrite Hm.
    replace ((a <=? b + n * i + (x - (a + n * i))) && (b + n * i + (x - (a + n * i)) <? a + n * i)) with false by lia.
    replace ((b <=? b + n * i + (x - (a + n * i))) && (b + n * i + (x - (a + n * i)) <? b + n * i)) with false by lia.
    f_equal. lia.
  - destruct ((b + n * i <=? x) && (x <? b + n * i + n)) eqn:F2.
    + replace ((a <=? x) && (x <? a + (n * i + n))) with false by lia.
      replace ((b <=? x) && (x <? b + (n * i + n))) with true by lia. rewrite Hm.
      replace ((a <=? a + n * i + (x - (b + n * i))) && (a + n * i + (x - (b + n * i)) <? a + n * i)) with false by lia.
      replace ((b <=? a + n * i + (x - (b + n * i))) && (a + n * i + (x - (b + n * i)) <? b + n * i)) with false by lia.
      f_equal. lia.
    + rewrite Hm. replace ((a <=? x) && (x <? a + (n * i + n))) with ((a <=? x) && (x <? a + n * i)) by lia.
      replace ((b <=? x) && (x <? b + (n * i + n))) with ((b <=? x) && (x <? b + n * i)) by lia. reflexivity.
Qed.

Lemma swap_bytes_ok fuel m a b size : 0 <= size < 2^32 -> mapped m a (a + size) -> mapped m b (b + size) ->
  a = b \/ a + size <= b \/ b + size <= a -> (Z.to_nat size < fuel)%nat ->
  exists m', swap_bytes fuel m a b size = Ok m' /\ exchanged m m' a b size.
Proof.
  intros Hz Ha Hb Hov Hf. destruct (low_bit size Hz) as (L1 & L2 & L4 & K2 & K4).
  unfold swap_bytes. cbv zeta in *. set (low := Z.land size (u32 (- size))) in *. rewrite !Z.shiftr_div_pow2 by lia.
  change (2^1) with 2. change (2^2) with 4. change (2^3) with 8.
  assert (G : forall N c, (1 <= N)%nat -> 0 <= c -> Z.of_nat N * c = size ->
     exists m', swap_loop fuel N m a b 0 c = Ok m' /\ exchanged m m' a b size).
  { intros N c HN Hc E. rewrite <- E. apply swap_loop_ok; try (rewrite E; assumption); try nia.
    intros x. rewrite Z.mul_0_r. replace ((a <=? x) && (x <? a + 0)) with false by lia. replace ((b <=? x) && (x <? b + 0)) with false by lia. reflexivity. }
  pose proof (Z.div_mod size 2). pose proof (Z.div_mod size 4). pose proof (Z.div_mod size 8).
  pose proof (Z.mod_pos_bound size 2). pose proof (Z.mod_pos_bound size 4). pose proof (Z.mod_pos_bound size 8).
  destruct (low =? 1) eqn:E1; [apply G; lia|].
  destruct (low =? 2) eqn:E2; [apply G; lia|].
  destruct (low =? 4) eqn:E4; [apply G; lia|].
  apply G; try lia.
Qed.
