From Verif Require Import Base Bits Str_Model Str_Spec Str_Proof.
Open Scope Z_scope.

Lemma is_str_suffix m a n k : is_str m a n -> 0 <= k <= n -> is_str m (a + k) (n - k).
Proof.
  intros (Hn & Hs & H0) Hk. split; [lia|]. split.
  - intros x Hx. apply Hs. lia.
  - rewrite <- H0. f_equal. lia.
Qed.
Lemma words_weaken m a z b w : words m a z -> a <= b -> w <= z -> words m b w.
Proof. intros H Hb Hw x Hx Hd. apply H; [lia|]. assert (w / 8 <= z / 8) by (apply Z.div_le_mono; lia). lia. Qed.
Lemma is_str_bound m a n : mem_ok m -> is_str m a n -> 0 <= a /\ 0 <= n < 2^32 /\ a + n < 2^32.
Proof.
  intros Hok (Hn & Hs & H0). destruct (Hok _ _ H0) as [? _].
  destruct (Z.eq_dec n 0) as [->|]; [lia|].
  destruct (Hs a) as (b & Hb & _); [lia|]. destruct (Hok _ _ Hb). lia.
Qed.
Lemma is_str_mapped m a n : is_str m a n -> mapped m a (a + n + 1).
Proof.
  intros (Hn & Hs & H0) x Hx. destruct (Z.eq_dec x (a + n)) as [->|]; [congruence|].
  destruct (Hs x) as (b & -> & _); [lia|]. discriminate.
Qed.

(** ** strrchr *)
Lemma strrchr_loop_ok fuel m c : mem_ok m -> forall k a n found, is_str m a n -> words m a (a + n) ->
  u8 c <> 0 -> (Z.to_nat n + 8 < fuel)%nat -> (Z.to_nat n < k)%nat ->
  (absent m a (a + n) (u8 c) /\ strrchr_loop fuel k m a c found = Ok found) \/
  (exists z, last_of m a (a + n) (u8 c) z /\ strrchr_loop fuel k m a c found = Ok (Some z)).
Proof.
  intros Hok. induction k as [|k IH]; intros a n found Hs Hw Hc Hf Hk; [lia|].
  cbn [strrchr_loop]. pose proof Hs as (Hn & _ & H0).
  destruct (first_or_absent m (u8 c) a (n + 1) ltac:(lia)) as [[z Hz]|Hab].
  - rewrite Z.add_assoc in Hz. rewrite (strchr_found fuel m a n c z Hok Hs Hz); try assumption.
    2:{ apply (words_weaken m a (a + n)); try assumption; destruct Hz; lia. }
    cbn [bind]. destruct Hz as (Hz & Hzc & Hb).
    assert (z <> a + n) by (intros ->; congruence).
    right. destruct (IH (z + 1) (n - (z + 1 - a)) (Some z)) as [[Ha ->]|(y & Hy & ->)]; try assumption; try lia.
    + pose proof (is_str_suffix m a n (z + 1 - a) Hs ltac:(lia)) as S1.
      replace (a + (z + 1 - a)) with (z + 1) in S1 by lia. exact S1.
    + apply (words_weaken m a (a + n)); try assumption; lia.
    + exists z. split; [|reflexivity]. split; [lia|]. split; [exact Hzc|].
      intros x Hx. apply Ha. lia.
    + exists y. split; [|reflexivity]. destruct Hy as (Hy & Hyc & Hyb). split; [lia|]. split; [exact Hyc|].
      intros x Hx. apply Hyb. lia.
  - rewrite Z.add_assoc in Hab. rewrite (strchr_absent fuel m a n c Hok Hs Hab); try assumption.
    cbn [bind]. left. split; [|reflexivity]. intros x Hx. apply Hab. lia.
Qed.

(** ** copying *)
Lemma low_bit size : 0 <= size < 2^32 ->
  let low := Z.land size (u32 (- size)) in
  (size mod 2 = 1 -> low = 1) /\ (size mod 4 = 2 -> low = 2) /\ (size mod 8 = 4 -> low = 4) /\
  (low = 2 -> size mod 2 = 0) /\ (low = 4 -> size mod 4 = 0).
Proof.
  intros Hs. cbv zeta.
  assert (E : Z.land size (u32 (- size)) = Z.land size (Z.lnot (size - 1))).
  { unfold u32. rewrite <- Z.land_ones by lia. rewrite Z.land_assoc.
    replace (Z.lnot (size - 1)) with (- size) by (unfold Z.lnot; lia).
    rewrite Z.land_ones by lia. apply Z.mod_small.
    split; [apply Z.land_nonneg; lia|].
    destruct (Z.eq_dec (Z.land size (- size)) 0) as [->|Hne]; [lia|].
    assert (0 <= Z.land size (-size)) by (apply Z.land_nonneg; lia).
    apply Z.log2_lt_pow2; [lia|].
    assert (0 < size). { destruct (Z.eq_dec size 0); [subst; cbn in Hne; lia|lia]. }
    assert (Z.log2 size < 32) by (apply Z.log2_lt_pow2; lia).
    destruct (Z.ltb_spec (Z.log2 (Z.land size (- size))) 32); [assumption|exfalso].
    pose proof (Z.bit_log2 (Z.land size (- size)) ltac:(lia)) as B.
    rewrite Z.land_spec in B. apply andb_true_iff in B as [B _].
    rewrite (Z.bits_above_log2 size) in B by lia. discriminate. }
  rewrite E. clear E.
  assert (D : forall a b, Z.land (2 * a) (Z.lnot (2 * b + 1)) = 2 * Z.land a (Z.lnot b)).
  { intros a b. apply Z.bits_inj'. intros n Hn. rewrite Z.land_spec, Z.lnot_spec by lia.
    destruct (Z.eq_dec n 0) as [->|].
    - rewrite !Z.testbit_even_0. reflexivity.
    - replace n with (Z.succ (n - 1)) by lia.
      rewrite Z.testbit_odd_succ, !Z.testbit_even_succ by lia.
      rewrite Z.land_spec, Z.lnot_spec by lia. reflexivity. }
  assert (O : forall a, Z.land (2 * a + 1) (Z.lnot (2 * a)) = 1).
  { intros a. apply Z.bits_inj'. intros n Hn. rewrite Z.land_spec, Z.lnot_spec by lia.
    destruct (Z.eq_dec n 0) as [->|].
    - rewrite Z.testbit_odd_0, Z.testbit_even_0. reflexivity.
    - replace n with (Z.succ (n - 1)) by lia.
      rewrite Z.testbit_odd_succ, Z.testbit_even_succ by lia.
      pose proof (Z.testbit_odd_succ 0 (n - 1) ltac:(lia)) as B1. change (2 * 0 + 1) with 1 in B1.
      rewrite B1, Z.bits_0.
      destruct (Z.testbit a (n - 1)); reflexivity. }
  assert (F1 : forall s, s mod 2 = 1 -> Z.land s (Z.lnot (s - 1)) = 1).
  { intros s H. replace s with (2 * (s / 2) + 1) at 1 by lia. replace (s - 1) with (2 * (s / 2)) by lia. apply O. }
  assert (F2 : forall s, s mod 2 = 0 -> Z.land s (Z.lnot (s - 1)) = 2 * Z.land (s / 2) (Z.lnot (s / 2 - 1))).
  { intros s H. replace s with (2 * (s / 2)) at 1 by lia.
    replace (s - 1) with (2 * (s / 2 - 1) + 1) by lia. apply D. }
  split; [apply F1|]. split; [intros H; rewrite F2 by lia; rewrite F1 by lia; lia|].
  split; [intros H; rewrite F2 by lia; rewrite F2 by lia; rewrite F1 by lia; lia|].
  split.
  - intros H. destruct (Z.eq_dec (size mod 2) 1) as [H1|]; [rewrite F1 in H by lia; lia|lia].
  - intros H. destruct (Z.eq_dec (size mod 2) 1) as [H1|]; [rewrite F1 in H by lia; lia|].
    rewrite F2 in H by lia. destruct (Z.eq_dec (size / 2 mod 2) 1) as [H1|]; [rewrite F1 in H by lia; lia|lia].
Qed.

(** Copying [N]-byte elements upwards preserves the not yet read source when [d] is
    not strictly inside the source. *)
Lemma copy_loop_ok N m0 d s count : 0 <= count < 2^32 -> (1 <= N)%nat ->
  let n := Z.of_nat N in
  mapped m0 s (s + n * count) -> mapped m0 d (d + n * count) -> (d <= s \/ s + n * count <= d) ->
  forall fuel i m, 0 <= i <= count -> copied m0 m d s (n * i) -> (Z.to_nat (count - i) < fuel)%nat ->
  exists m', copy_loop fuel N m d s i count = Ok m' /\ copied m0 m' d s (n * count).
Proof.
  intros Hc HN n Hs Hd Hov. induction fuel as [|f IH]; intros i m Hi Hm Hf; [lia|].
  cbn [copy_loop]. destruct (Z.ltb_spec i count).
  2:{ exists m. split; [reflexivity|]. replace count with i by lia. exact Hm. }
  fold n. assert (M : n * i + n <= n * count) by nia. assert (M0 : 0 <= n * i) by nia.
  assert (Hsm : mapped m s (s + n * count)).
  { intros x Hx. rewrite Hm. destruct ((d <=? x) && (x <? d + n * i)) eqn:E; apply Hs; lia. }
  assert (Hdm : mapped m d (d + n * count)).
  { intros x Hx. rewrite Hm. destruct ((d <=? x) && (x <? d + n * i)) eqn:E; [apply Hs; lia|apply Hd; lia]. }
  destruct (move_n N m (d + n * i) (s + n * i)) as (l & m' & -> & E2 & C).
  { intros x Hx. apply Hsm. fold n in Hx. lia. }
  { intros x Hx. apply Hdm. fold n in Hx. lia. }
  cbn [bind]. rewrite E2. cbn [bind].
  unfold u32. rewrite Z.mod_small by lia. apply IH; try lia.
  intros x. rewrite C. fold n. replace (n * (i + 1)) with (n * i + n) by ring.
  destruct ((d + n * i <=? x) && (x <? d + n * i + n)) eqn:E.
  - replace ((d <=? x) && (x <? d + (n * i + n))) with true by lia.
    replace (s + n * i + (x - (d + n * i))) with (s + (x - d)) by lia.
    rewrite Hm. destruct ((d <=? s + (x - d)) && (s + (x - d) <? d + n * i)) eqn:E3; [|reflexivity].
    exfalso. lia.
  - rewrite Hm. replace ((d <=? x) && (x <? d + (n * i + n))) with ((d <=? x) && (x <? d + n * i)) by lia. reflexivity.
Qed.

Lemma copied_0 m d s : copied m m d s 0.
Proof. intros x. replace ((d <=? x) && (x <? d + 0)) with false by lia. reflexivity. Qed.

Theorem copy_ok fuel m d s size : 0 <= size < 2^32 -> mapped m s (s + size) -> mapped m d (d + size) ->
  (d <= s \/ s + size <= d) -> (Z.to_nat size < fuel)%nat ->
  exists m', copy_ fuel m d s size = Ok m' /\ copied m m' d s size.
Proof.
  intros Hz Hs Hd Hov Hf. destruct (low_bit size Hz) as (L1 & L2 & L4 & K2 & K4).
  unfold copy_. cbv zeta in *. set (low := Z.land size (u32 (- size))) in *. rewrite !Z.shiftr_div_pow2 by lia.
  change (2^1) with 2. change (2^2) with 4. change (2^3) with 8.
  assert (G : forall N c, (1 <= N)%nat -> 0 <= c -> Z.of_nat N * c = size ->
     exists m', copy_loop fuel N m d s 0 c = Ok m' /\ copied m m' d s size).
  { intros N c HN Hc E. rewrite <- E. apply copy_loop_ok; try (rewrite E; assumption); try nia.
    rewrite Z.mul_0_r. apply copied_0. }
  destruct (low =? 1) eqn:E1; [apply G; lia|].
  destruct (low =? 2) eqn:E2; [apply G; lia|].
  destruct (low =? 4) eqn:E4; [apply G; lia|]. apply G; lia.
Qed.

Lemma rcopy_loop_ok N m0 d s count0 : 0 <= count0 < 2^32 -> (1 <= N)%nat ->
  let n := Z.of_nat N in
  mapped m0 s (s + n * count0) -> mapped m0 d (d + n * count0) -> (s <= d) ->
  forall fuel count m, 0 <= count <= count0 -> 
  copied m0 m (d + n * count) (s + n * count) (n * count0 - n * count) -> (Z.to_nat count < fuel)%nat ->
  exists m', rcopy_loop fuel N m d s count = Ok m' /\ copied m0 m' d s (n * count0).
Proof.
  intros Hc HN n Hs Hd Hov. induction fuel as [|f IH]; intros count m Hi Hm Hf; [lia|].
  cbn [rcopy_loop]. destruct (count =? 0) eqn:E0.
  { exists m. split; [reflexivity|]. assert (count = 0) as -> by lia.
    replace (d + n * 0) with d in Hm by lia. replace (s + n * 0) with s in Hm by lia.
    replace (n * count0 - n * 0) with (n * count0) in Hm by lia. exact Hm. }
  unfold u32. rewrite Z.mod_small by lia. set (i := count - 1). fold n.
  assert (M0 : 0 <= n * i) by (unfold i; nia). assert (M1 : n * count = n * i + n) by (unfold i; ring).
  assert (M : n * count <= n * count0) by nia.
  assert (Hsm : mapped m s (s + n * count0)).
  { intros x Hx. rewrite Hm. match goal with |- context [if ?b then _ else _] => destruct b eqn:E end; apply Hs; lia. }
  assert (Hdm : mapped m d (d + n * count0)).
  { intros x Hx. rewrite Hm. match goal with |- context [if ?b then _ else _] => destruct b eqn:E end; [apply Hs; lia|apply Hd; lia]. }
  destruct (move_n N m (d + n * i) (s + n * i)) as (l & m' & -> & E2 & C).
  { intros x Hx. apply Hsm. fold n in Hx. lia. }
  { intros x Hx. apply Hdm. fold n in Hx. lia. }
  cbn [bind]. rewrite E2. cbn [bind]. apply IH; try (unfold i; lia).
  intros x. rewrite C. fold n.
  destruct ((d + n * i <=? x) && (x <? d + n * i + n)) eqn:E.
  - replace ((d + n * i <=? x) && (x <? d + n * i + (n * count0 - n * i))) with true by lia.
    rewrite Hm. match goal with |- context [if ?b then _ else _] => destruct b eqn:E3 end; [|reflexivity].
    exfalso. lia.
  - rewrite Hm. destruct ((d + n * count <=? x) && (x <? d + n * count + (n * count0 - n * count))) eqn:E3.
    + replace ((d + n * i <=? x) && (x <? d + n * i + (n * count0 - n * i))) with true by lia. f_equal. lia.
    + replace ((d + n * i <=? x) && (x <? d + n * i + (n * count0 - n * i))) with false by lia. reflexivity.
Qed.

Theorem rcopy_ok fuel m d s size : 0 <= size < 2^32 -> mapped m s (s + size) -> mapped m d (d + size) ->
  s <= d -> (Z.to_nat size < fuel)%nat ->
  exists m', rcopy_ fuel m d s size = Ok m' /\ copied m m' d s size.
Proof.
  intros Hz Hs Hd Hov Hf. destruct (low_bit size Hz) as (L1 & L2 & L4 & K2 & K4).
  unfold rcopy_. cbv zeta in *. set (low := Z.land size (u32 (- size))) in *. rewrite !Z.shiftr_div_pow2 by lia.
  change (2^1) with 2. change (2^2) with 4. change (2^3) with 8.
  assert (G : forall N c, (1 <= N)%nat -> 0 <= c -> Z.of_nat N * c = size ->
     exists m', rcopy_loop fuel N m d s c = Ok m' /\ copied m m' d s size).
  { intros N c HN Hc E. rewrite <- E. apply rcopy_loop_ok; try (rewrite E; assumption); try nia.
    rewrite Z.sub_diag. apply copied_0. }
  destruct (low =? 1) eqn:E1; [apply G; lia|].
  destruct (low =? 2) eqn:E2; [apply G; lia|].
  destruct (low =? 4) eqn:E4; [apply G; lia|]. apply G; lia.
Qed.

Theorem memcpy_ok fuel m d s size : 0 <= size < 2^32 -> mapped m s (s + size) -> mapped m d (d + size) ->
  disjoint d s size -> (Z.to_nat size < fuel)%nat ->
  exists m', memcpy fuel m d s size = Ok (m', d) /\ copied m m' d s size.
Proof.
  intros Hz Hs Hd Hov Hf. destruct (copy_ok fuel m d s size) as (m' & E & C); try assumption.
  { unfold disjoint in Hov. lia. }
  exists m'. unfold memcpy. rewrite E. auto.
Qed.

Theorem memmove_ok fuel m d s size : mem_ok m -> 0 <= size < 2^32 -> mapped m s (s + size) -> mapped m d (d + size) ->
  (Z.to_nat size < fuel)%nat ->
  exists m', memmove fuel m d s size = Ok (m', d) /\ copied m m' d s size.
Proof.
  intros Hok Hz Hs Hd Hf. unfold memmove.
  destruct (Z.eq_dec size 0) as [->|Hne].
  { replace (u32 (d - s) <? 0) with false by (unfold u32; pose proof (Z.mod_pos_bound (d - s) (2^32)); lia).
    destruct (copy_ok fuel m d s 0) as (m' & -> & C); try assumption; [lia|]. exists m'. auto. }
  assert (R : forall a, mapped m a (a + size) -> 0 <= a /\ a + size <= 2^32).
  { intros a Ha. destruct (m a) as [b|] eqn:E; [|exfalso; apply (Ha a); [lia|exact E]].
    destruct (m (a + size - 1)) as [b2|] eqn:E2; [|exfalso; apply (Ha (a + size - 1)); [lia|exact E2]].
    destruct (Hok _ _ E), (Hok _ _ E2). lia. }
  pose proof (R s Hs). pose proof (R d Hd). destruct (u32 (d - s) <? size) eqn:E.
  - destruct (rcopy_ok fuel m d s size) as (m' & -> & C); try assumption.
    { destruct (Z.leb_spec s d); [assumption|]. unfold u32 in E. rewrite mod_neg_small in E by lia. lia. }
    exists m'. auto.
  - destruct (copy_ok fuel m d s size) as (m' & -> & C); try assumption.
    { destruct (Z.leb_spec d s); [left; assumption|]. unfold u32 in E. rewrite Z.mod_small in E by lia. lia. }
    exists m'. auto.
Qed.

(** ** memset *)
Lemma filled_0 m d c : filled m m d c 0.
Proof. intros x. replace ((d <=? x) && (x <? d + 0)) with false by lia. reflexivity. Qed.
Lemma filled_mapped m m' d c n a b : filled m m' d c n -> mapped m a b -> mapped m' a b.
Proof. intros F H x Hx. rewrite F. ifs; [discriminate|apply H; lia]. Qed.
Lemma filled_upd m m' d c n : filled m m' d c n -> 0 <= n -> filled m (upd m' (d + n) c) d c (n + 1).
Proof.
  intros F Hn x. unfold upd. destruct (x =? d + n) eqn:E.
  - replace ((d <=? x) && (x <? d + (n + 1))) with true by lia. reflexivity.
  - rewrite F. replace ((d <=? x) && (x <? d + (n + 1))) with ((d <=? x) && (x <? d + n)) by lia. reflexivity.
Qed.

Section memset.
Variables (m0 : mem) (d c len0 : Z).
Hypothesis Hlen : 0 <= len0 < 2^32.
Hypothesis Hd : mapped m0 d (d + len0).

Lemma memset_store k m : 0 <= k < len0 -> filled m0 m d c k -> store m (d + k) c = Ok (upd m (d + k) c).
Proof.
  intros Hk F. unfold store. assert (M : m (d + k) <> None) by (apply (filled_mapped m0 m d c k d (d + len0)); try assumption; lia).
  destruct (m (d + k)); [reflexivity|congruence].
Qed.
Lemma memset_pre_ok fuel : forall k m, 0 <= k <= len0 -> filled m0 m d c k -> (- (d + k)) mod 8 <= len0 - k ->
  (Z.to_nat ((- (d + k)) mod 8) < fuel)%nat ->
  exists q m', memset_pre fuel m (d + k) c (len0 - k) = Ok (m', d + q, len0 - q) /\ k <= q <= len0 /\ filled m0 m' d c q.
Proof.
  induction fuel as [|f IH]; intros k m Hk F Ha Hf; [lia|].
  cbn [memset_pre]. destruct ((d + k) mod 8 =? 0) eqn:E8.
  { exists k, m. repeat split; try assumption; lia. }
  replace (len0 - k =? 0) with false by lia.
  rewrite (memset_store k) by (assumption || lia). cbn [bind].
  unfold u32. rewrite Z.mod_small by lia. replace (len0 - k - 1) with (len0 - (k + 1)) by lia.
  replace (d + k + 1) with (d + (k + 1)) by lia.
  destruct (IH (k + 1) (upd m (d + k) c)) as (q & m' & -> & Hq & F'); try lia.
  { apply filled_upd; [exact F|lia]. }
  exists q, m'. repeat split; try assumption; lia.
Qed.
Lemma memset_vec_ok fuel : forall k m, 0 <= k <= len0 -> filled m0 m d c k ->
  (Z.to_nat ((len0 - k) / 8) < fuel)%nat ->
  exists q m', memset_vec fuel m (d + k) c (len0 - k) = Ok (m', d + q, len0 - q) /\ k <= q <= len0 /\ filled m0 m' d c q.
Proof.
  induction fuel as [|f IH]; intros k m Hk F Hf; [lia|].
  cbn [memset_vec]. destruct (len0 - k <? 8) eqn:E8.
  { exists k, m. repeat split; try assumption; lia. }
  destruct (store_n_ok (repeat c 8) m (d + k)) as (m' & -> & H).
  { change (Z.of_nat (length (repeat c 8))) with 8. intros x Hx.
    apply (filled_mapped m0 m d c k d (d + len0)); try assumption; lia. }
  change (Z.of_nat (length (repeat c 8))) with 8 in H. cbn [bind].
  unfold u32. rewrite Z.mod_small by lia. replace (len0 - k - 8) with (len0 - (k + 8)) by lia.
  replace (d + k + 8) with (d + (k + 8)) by lia.
  destruct (IH (k + 8) m') as (q & m2 & -> & Hq & F'); try lia.
  { intros x. rewrite H, F. destruct ((d + k <=? x) && (x <? d + k + 8)) eqn:E.
    - replace ((d <=? x) && (x <? d + (k + 8))) with true by lia.
      f_equal. rewrite (nth_indep _ 0 c) by (rewrite repeat_length; lia). apply nth_repeat.
    - replace ((d <=? x) && (x <? d + (k + 8))) with ((d <=? x) && (x <? d + k)) by lia. reflexivity. }
  exists q, m2. repeat split; try assumption; lia.
Qed.
Lemma memset_tail_ok fuel : forall k m, 0 <= k <= len0 -> filled m0 m d c k ->
  (Z.to_nat (len0 - k) < fuel)%nat ->
  exists m', memset_tail fuel m (d + k) c (len0 - k) = Ok m' /\ filled m0 m' d c len0.
Proof.
  induction fuel as [|f IH]; intros k m Hk F Hf; [lia|].
  cbn [memset_tail]. destruct (len0 - k =? 0) eqn:E8.
  { exists m. split; [reflexivity|]. replace len0 with k by lia. exact F. }
  rewrite (memset_store k) by (assumption || lia). cbn [bind].
  unfold u32. rewrite Z.mod_small by lia. replace (len0 - k - 1) with (len0 - (k + 1)) by lia.
  replace (d + k + 1) with (d + (k + 1)) by lia. apply IH; try lia. apply filled_upd; [exact F|lia].
Qed.
End memset.

Theorem memset_ok fuel m d ch len : 0 <= len < 2^32 -> mapped m d (d + len) -> (- d) mod 8 <= len ->
  (Z.to_nat len + 8 < fuel)%nat ->
  exists m', memset fuel m d ch len = Ok (m', d) /\ filled m m' d (u8 ch) len.
Proof.
  intros Hl Hd Ha Hf. unfold memset. set (c := u8 ch).
  destruct (memset_pre_ok m d c len Hl Hd fuel 0 m) as (k & m1 & E1 & Hk & F1); try (rewrite ?Z.add_0_r, ?Z.sub_0_r); try lia.
  { apply filled_0. }
  rewrite Z.add_0_r, Z.sub_0_r in E1. rewrite E1. cbn [bind].
  destruct (memset_vec_ok m d c len Hl Hd fuel k m1) as (k2 & m2 & E2 & Hk2 & F2); try assumption; try lia.
  rewrite E2. cbn [bind].
  destruct (memset_tail_ok m d c len Hl Hd fuel k2 m2) as (m3 & E3 & F3); try assumption; try lia.
  rewrite E3. exists m3. auto.
Qed.
