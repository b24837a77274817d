From Verif Require Import Base Bits Str_Model Str_Spec Str_Proof Str_Copy_Proof.
Open Scope Z_scope.

(** ** Comparison *)
Lemma contents_cons m a b l : contents m a (b :: l) <-> m a = Some b /\ contents m (a + 1) l.
Proof.
  split.
  - intros H. split.
    + specialize (H 0%nat ltac:(cbn; lia)). rewrite Z.add_0_r in H. exact H.
    + intros i Hi. specialize (H (S i) ltac:(cbn; lia)). cbn [nth] in H. rewrite <- H. f_equal. lia.
  - intros [H0 H] i Hi. destruct i as [|i]; [rewrite Z.add_0_r; exact H0|].
    cbn [nth]. rewrite <- H by (cbn in Hi; lia). f_equal. lia.
Qed.
Lemma load_ok m a b : m a = Some b -> load m a = Ok b.
Proof. intros H; unfold load; rewrite H; reflexivity. Qed.
Lemma store_ok m a b z : m a = Some z -> store m a b = Ok (upd m a b).
Proof. intros H; unfold store; rewrite H; reflexivity. Qed.
Lemma sub_cmp a b : (a - b ?= 0) = (a ?= b).
Proof. destruct (Z.compare_spec (a - b) 0), (Z.compare_spec a b); try reflexivity; lia. Qed.

Lemma memcmp_ok m : forall s t x y fuel, length s = length t -> Z.of_nat (length s) < 2^32 ->
  contents m x s -> contents m y t -> (length s < fuel)%nat ->
  exists r, memcmp fuel m x y (Z.of_nat (length s)) = Ok r /\ (r ?= 0) = lex s t.
Proof.
  induction s as [|a s IH]; intros [|b t] x y fuel El Hl Hx Hy Hf; cbn in El; try lia;
    (destruct fuel as [|fuel]; [lia|]).
  - exists 0. split; reflexivity.
  - cbn [memcmp]. replace (Z.of_nat (length (a :: s)) =? 0) with false by (cbn; lia).
    apply contents_cons in Hx as [Hx0 Hx]. apply contents_cons in Hy as [Hy0 Hy].
    rewrite (load_ok _ _ _ Hx0), (load_ok _ _ _ Hy0). cbn [bind lex].
    destruct (a =? b) eqn:E; cbn [negb].
    + assert (a = b) as -> by lia. rewrite Z.compare_refl.
      unfold u32. rewrite Z.mod_small by (cbn [length] in *; lia).
      replace (Z.of_nat (length (b :: s)) - 1) with (Z.of_nat (length s)) by (cbn [length]; lia).
      apply IH; try assumption; cbn in *; lia.
    + exists (a - b). split; [reflexivity|]. rewrite sub_cmp. destruct (Z.compare_spec a b); try reflexivity; lia.
Qed.

Lemma strcmp_ok m : forall s t x y fuel, Forall (fun b => 0 < b) s -> Forall (fun b => 0 < b) t ->
  contents m x (s ++ [0]) -> contents m y (t ++ [0]) -> (length s < fuel)%nat ->
  exists r, strcmp fuel m x y = Ok r /\ (r ?= 0) = lex s t.
Proof.
  induction s as [|a s IH]; intros [|b t] x y fuel Fs Ft Hx Hy Hf; (destruct fuel as [|fuel]; [lia|]);
    cbn [app] in *; apply contents_cons in Hx as [Hx0 Hx]; apply contents_cons in Hy as [Hy0 Hy];
    cbn [strcmp]; rewrite (load_ok _ _ _ Hx0), (load_ok _ _ _ Hy0); cbn [bind lex].
  - exists 0; split; reflexivity.
  - inversion Ft; subst. replace (0 =? b) with false by lia. cbn [andb]. exists (0 - b). split; [reflexivity|].
    rewrite sub_cmp. apply Z.compare_lt_iff. lia.
  - inversion Fs; subst. replace (a =? 0) with false by lia. cbn [andb]. exists (a - 0). split; [reflexivity|].
    rewrite sub_cmp. apply Z.compare_gt_iff. lia.
  - inversion Fs; subst. inversion Ft; subst. destruct (a =? b) eqn:E.
    + assert (a = b) as -> by lia. rewrite Z.compare_refl. replace (b =? 0) with false by lia. cbn [negb andb].
      apply IH; try assumption. cbn in Hf; lia.
    + cbn [andb]. exists (a - b). split; [reflexivity|]. rewrite sub_cmp. destruct (Z.compare_spec a b); try reflexivity; lia.
Qed.

Lemma strncmp_ok m : forall n s t x y fuel, Z.of_nat n < 2^32 -> Forall (fun b => 0 < b) s -> Forall (fun b => 0 < b) t ->
  contents m x (firstn n (s ++ [0])) -> contents m y (firstn n (t ++ [0])) -> (length s < fuel)%nat ->
  exists r, strncmp fuel m x y (Z.of_nat n) = Ok r /\ (r ?= 0) = lex (firstn n s) (firstn n t).
Proof.
  induction n as [|n IH]; intros s t x y fuel Hn Fs Ft Hx Hy Hf; (destruct fuel as [|fuel]; [lia|]).
  - exists 0. split; [reflexivity|]. reflexivity.
  - cbn [strncmp]. replace (Z.of_nat (S n) =? 0) with false by lia.
    unfold u32. rewrite Z.mod_small by lia.
    destruct s as [|a s], t as [|b t]; cbn [app firstn] in *;
    apply contents_cons in Hx as [Hx0 Hx]; apply contents_cons in Hy as [Hy0 Hy];
    rewrite (load_ok _ _ _ Hx0), (load_ok _ _ _ Hy0); cbn [bind lex].
    + exists 0; split; reflexivity.
    + inversion Ft; subst. replace (0 =? b) with false by lia. cbn [negb orb]. exists (0 - b). split; [reflexivity|].
      rewrite sub_cmp. apply Z.compare_lt_iff. lia.
    + inversion Fs; subst. replace (a =? 0) with false by lia. cbn [negb orb]. exists (a - 0). split; [reflexivity|].
      rewrite sub_cmp. apply Z.compare_gt_iff. lia.
    + inversion Fs; subst. inversion Ft; subst. destruct (a =? b) eqn:E.
      * assert (a = b) as -> by lia. rewrite Z.compare_refl. replace (b =? 0) with false by lia. cbn [negb orb].
        replace (Z.of_nat (S n) - 1) with (Z.of_nat n) by lia. apply IH; try assumption; try lia. cbn in Hf; lia.
      * cbn [negb orb]. exists (a - b). split; [reflexivity|]. rewrite sub_cmp. destruct (Z.compare_spec a b); try reflexivity; lia.
Qed.

(** [lex] is a total order *)
Lemma lex_eq s t : lex s t = Eq <-> s = t.
Proof.
  revert t; induction s as [|a s IH]; intros [|b t]; cbn; split; intros H; try discriminate; try reflexivity.
  - destruct (Z.compare_spec a b); try discriminate. subst. f_equal. apply IH; assumption.
  - injection H as -> ->. rewrite Z.compare_refl. apply IH. reflexivity.
Qed.
Lemma lex_antisym s t : lex t s = CompOpp (lex s t).
Proof.
  revert t; induction s as [|a s IH]; intros [|b t]; cbn; try reflexivity.
  rewrite (Z.compare_antisym a b). destruct (a ?= b); cbn; try reflexivity. apply IH.
Qed.
Lemma lex_trans s t u : lex s t = Lt -> lex t u = Lt -> lex s u = Lt.
Proof.
  revert t u; induction s as [|a s IH]; intros [|b t] [|c u] H1 H2; cbn in *; try discriminate; try reflexivity.
  destruct (Z.compare_spec a b), (Z.compare_spec b c); try discriminate; subst.
  - rewrite Z.compare_refl. eapply IH; eassumption.
  - destruct (Z.compare_spec b c); try lia; reflexivity.
  - destruct (Z.compare_spec a c); try lia; reflexivity.
  - destruct (Z.compare_spec a c); try lia; reflexivity.
Qed.

(** ** strcpy, strcat, strncat, strncpy *)
Lemma copied_upd m m' d s k b : copied m m' d s k -> 0 <= k -> m (s + k) = Some b -> copied m (upd m' (d + k) b) d s (k + 1).
Proof.
  intros C Hk Hb x. unfold upd. destruct (x =? d + k) eqn:E.
  - replace ((d <=? x) && (x <? d + (k + 1))) with true by lia. rewrite <- Hb. f_equal. lia.
  - rewrite C. replace ((d <=? x) && (x <? d + (k + 1))) with ((d <=? x) && (x <? d + k)) by lia. reflexivity.
Qed.

Section strcpy.
Variables (m0 : mem) (d s n : Z).
Hypothesis Hs : is_str m0 s n.

(** reading the source while a disjoint destination is being filled *)
Lemma src_load m k : copied m0 m d s k -> 0 <= k -> (d + k <= s \/ s + n + 1 <= d) -> forall i, 0 <= i <= n ->
  m (s + i) = m0 (s + i).
Proof. intros C Hk Hdis i Hi. rewrite C. replace ((d <=? s + i) && (s + i <? d + k)) with false by lia. reflexivity. Qed.

Lemma strcpy_loop_ok fuel : mapped m0 d (d + n + 1) -> disjoint d s (n + 1) -> forall k m, 0 <= k <= n -> copied m0 m d s k -> (Z.to_nat (n - k) < fuel)%nat ->
  exists m', strcpy_loop fuel m (d + k) (s + k) = Ok m' /\ copied m0 m' d s (n + 1).
Proof.
  intros Hd Hdis. unfold disjoint in Hdis. induction fuel as [|f IH]; intros k m Hk C Hf; [lia|].
  cbn [strcpy_loop]. destruct Hs as (Hn & Hb & H0).
  assert (L : m (s + k) = m0 (s + k)) by (apply (src_load m k); try assumption; lia).
  assert (D : exists z, m (d + k) = Some z).
  { rewrite C. replace ((d <=? d + k) && (d + k <? d + k)) with false by lia.
    specialize (Hd (d + k) ltac:(lia)). destruct (m0 (d + k)); [eauto|congruence]. }
  destruct D as (z & D).
  destruct (Z.eq_dec k n) as [->|].
  - rewrite (load_ok _ _ 0) by congruence. cbn [bind]. rewrite (store_ok _ _ _ z) by assumption. cbn [bind].
    exists (upd m (d + n) 0). split; [reflexivity|]. apply copied_upd; try assumption.
  - destruct (Hb (s + k)) as (b & Eb & Nb); [lia|].
    rewrite (load_ok _ _ b) by congruence. cbn [bind]. rewrite (store_ok _ _ _ z) by assumption. cbn [bind].
    replace (b =? 0) with false by lia. rewrite <- !Z.add_assoc. apply IH; try lia. apply copied_upd; try assumption; lia.
Qed.

(** copying at most [len] characters (the loops of strncat and strncpy) *)
Lemma strncat_loop_ok fuel len0 : 0 <= len0 < 2^32 -> n < len0 -> mapped m0 d (d + n + 1) -> disjoint d s (n + 1) ->
  forall k m, 0 <= k <= n -> copied m0 m d s k -> (Z.to_nat (n - k) < fuel)%nat ->
  exists m', strncat_loop fuel m (d + k) (s + k) (len0 - k) = Ok m' /\ copied m0 m' d s (n + 1).
Proof.
  intros Hl Hnl Hd Hdis. unfold disjoint in Hdis. induction fuel as [|f IH]; intros k m Hk C Hf; [lia|].
  cbn [strncat_loop]. destruct Hs as (Hn & Hb & H0).
  replace (len0 - k =? 0) with false by lia.
  assert (L : m (s + k) = m0 (s + k)) by (apply (src_load m k); try assumption; lia).
  assert (D : exists z, m (d + k) = Some z).
  { rewrite C. replace ((d <=? d + k) && (d + k <? d + k)) with false by lia.
    specialize (Hd (d + k) ltac:(lia)). destruct (m0 (d + k)); [eauto|congruence]. }
  destruct D as (z & D).
  destruct (Z.eq_dec k n) as [->|].
  - rewrite (load_ok _ _ 0) by congruence. cbn [bind]. rewrite (store_ok _ _ _ z) by assumption. cbn [bind].
    exists (upd m (d + n) 0). split; [reflexivity|]. apply copied_upd; try assumption.
  - destruct (Hb (s + k)) as (b & Eb & Nb); [lia|].
    rewrite (load_ok _ _ b) by congruence. cbn [bind]. rewrite (store_ok _ _ _ z) by assumption. cbn [bind].
    replace (b =? 0) with false by lia. unfold u32. rewrite Z.mod_small by lia.
    replace (len0 - k - 1) with (len0 - (k + 1)) by lia.
    rewrite <- !Z.add_assoc. apply IH; try lia. apply copied_upd; try assumption; lia.
Qed.
(** what strncat does when the source is not shorter than the limit: no terminator *)
Lemma strncat_loop_trunc fuel len0 : 0 <= len0 < 2^32 -> len0 <= n -> mapped m0 d (d + len0) -> disjoint d s (n + 1) ->
  forall k m, 0 <= k <= len0 -> copied m0 m d s k -> (Z.to_nat (len0 - k) < fuel)%nat ->
  exists m', strncat_loop fuel m (d + k) (s + k) (len0 - k) = Ok m' /\ copied m0 m' d s len0.
Proof.
  intros Hl Hnl Hd Hdis. unfold disjoint in Hdis. induction fuel as [|f IH]; intros k m Hk C Hf; [lia|].
  cbn [strncat_loop]. destruct Hs as (Hn & Hb & H0).
  destruct (len0 - k =? 0) eqn:E0.
  { exists m. split; [reflexivity|]. replace len0 with k by lia. exact C. }
  assert (L : m (s + k) = m0 (s + k)) by (apply (src_load m k); try assumption; lia).
  assert (D : exists z, m (d + k) = Some z).
  { rewrite C. replace ((d <=? d + k) && (d + k <? d + k)) with false by lia.
    specialize (Hd (d + k) ltac:(lia)). destruct (m0 (d + k)); [eauto|congruence]. }
  destruct D as (z & D).
  destruct (Hb (s + k)) as (b & Eb & Nb); [lia|].
  rewrite (load_ok _ _ b) by congruence. cbn [bind]. rewrite (store_ok _ _ _ z) by assumption. cbn [bind].
  replace (b =? 0) with false by lia. unfold u32. rewrite Z.mod_small by lia.
  replace (len0 - k - 1) with (len0 - (k + 1)) by lia.
  rewrite <- !Z.add_assoc. apply IH; try lia. apply copied_upd; try assumption; lia.
Qed.

Lemma strncpy_loop_ok fuel len0 : 0 <= len0 < 2^32 -> mapped m0 d (d + len0) ->
  (d + len0 <= s \/ s + n + 1 <= d) ->
  forall k m, 0 <= k <= Z.min n len0 -> copied m0 m d s k -> (Z.to_nat (Z.min n len0 - k) < fuel)%nat ->
  exists m', strncpy_loop fuel m (d + k) (s + k) (len0 - k) = Ok (m', d + Z.min n len0, len0 - Z.min n len0) /\
    copied m0 m' d s (Z.min n len0).
Proof.
  intros Hl Hd Hdis. induction fuel as [|f IH]; intros k m Hk C Hf; [lia|].
  cbn [strncpy_loop]. destruct Hs as (Hn & Hb & H0).
  destruct (len0 - k =? 0) eqn:E0.
  { exists m. replace (Z.min n len0) with k by lia. split; [reflexivity|exact C]. }
  assert (L : m (s + k) = m0 (s + k)) by (apply (src_load m k); try assumption; lia).
  assert (D : exists z, m (d + k) = Some z).
  { rewrite C. replace ((d <=? d + k) && (d + k <? d + k)) with false by lia.
    specialize (Hd (d + k) ltac:(lia)). destruct (m0 (d + k)); [eauto|congruence]. }
  destruct D as (z & D).
  destruct (Z.eq_dec k n) as [->|].
  - rewrite (load_ok _ _ 0) by congruence. cbn [bind].
    exists m. replace (Z.min n len0) with n by lia. split; [reflexivity|exact C].
  - destruct (Hb (s + k)) as (b & Eb & Nb); [lia|].
    rewrite (load_ok _ _ b) by congruence. cbn [bind]. replace (b =? 0) with false by lia.
    rewrite (store_ok _ _ _ z) by assumption. cbn [bind].
    unfold u32. rewrite Z.mod_small by lia.
    replace (len0 - k - 1) with (len0 - (k + 1)) by lia.
    rewrite <- !Z.add_assoc. apply IH; try lia. apply copied_upd; try assumption; lia.
Qed.
End strcpy.

Theorem strcpy_ok fuel m d s n : is_str m s n -> mapped m d (d + n + 1) -> disjoint d s (n + 1) ->
  (Z.to_nat n < fuel)%nat -> exists m', strcpy fuel m d s = Ok (m', d) /\ copied m m' d s (n + 1).
Proof.
  intros Hs Hd Hdis Hf. destruct (strcpy_loop_ok m d s n Hs fuel Hd Hdis 0 m) as (m' & E & C); try (destruct Hs; lia).
  { apply copied_0. }
  rewrite !Z.add_0_r in E. exists m'. unfold strcpy. rewrite E. auto.
Qed.
Theorem strcat_ok fuel m d k s n : mem_ok m -> is_str m d k -> words m d (d + k) -> is_str m s n ->
  mapped m (d + k) (d + k + n + 1) -> disjoint (d + k) s (n + 1) -> (Z.to_nat k + Z.to_nat n + 8 < fuel)%nat ->
  exists m', strcat fuel m d s = Ok (m', d) /\ copied m m' (d + k) s (n + 1).
Proof.
  intros Hok Hk Hw Hs Hd Hdis Hf. unfold strcat. rewrite (strlen_ok fuel m d k) by (assumption || lia).
  cbn [bind]. destruct (strcpy_ok fuel m (d + k) s n Hs Hd Hdis ltac:(lia)) as (m' & -> & C).
  cbn [bind fst]. exists m'. auto.
Qed.
Theorem strncat_ok fuel m d k s n len : mem_ok m -> is_str m d k -> words m d (d + k) -> is_str m s n ->
  0 <= len < 2^32 -> n < len ->
  mapped m (d + k) (d + k + n + 1) -> disjoint (d + k) s (n + 1) -> (Z.to_nat k + Z.to_nat n + 8 < fuel)%nat ->
  exists m', strncat fuel m d s len = Ok (m', d) /\ copied m m' (d + k) s (n + 1).
Proof.
  intros Hok Hk Hw Hs Hl Hnl Hd Hdis Hf. unfold strncat. rewrite (strlen_ok fuel m d k) by (assumption || lia).
  cbn [bind]. destruct (strncat_loop_ok m (d + k) s n Hs fuel len Hl Hnl Hd Hdis 0 m) as (m' & E & C); try (destruct Hs; lia).
  { apply copied_0. }
  rewrite !Z.add_0_r, Z.sub_0_r in E. rewrite E. cbn [bind]. exists m'. auto.
Qed.
Theorem strncat_trunc fuel m d k s n len : mem_ok m -> is_str m d k -> words m d (d + k) -> is_str m s n ->
  0 <= len < 2^32 -> len <= n ->
  mapped m (d + k) (d + k + len) -> disjoint (d + k) s (n + 1) -> (Z.to_nat k + Z.to_nat n + 8 < fuel)%nat ->
  exists m', strncat fuel m d s len = Ok (m', d) /\ copied m m' (d + k) s len.
Proof.
  intros Hok Hk Hw Hs Hl Hnl Hd Hdis Hf. unfold strncat. rewrite (strlen_ok fuel m d k) by (assumption || lia).
  cbn [bind]. destruct (strncat_loop_trunc m (d + k) s n Hs fuel len Hl Hnl Hd Hdis 0 m) as (m' & E & C); try (destruct Hs; lia).
  { apply copied_0. }
  rewrite !Z.add_0_r, Z.sub_0_r in E. rewrite E. cbn [bind]. exists m'. auto.
Qed.
Theorem strncpy_ok fuel m d s n len : is_str m s n -> 0 <= len < 2^32 -> mapped m d (d + len) ->
  (d + len <= s \/ s + n + 1 <= d) -> (len <= n \/ (- (d + n)) mod 8 <= len - n) -> (Z.to_nat len + 8 < fuel)%nat ->
  exists m', strncpy fuel m d s len = Ok (m', d) /\
    forall x, m' x = if (d <=? x) && (x <? d + len) then (if x <? d + n then m (s + (x - d)) else Some 0) else m x.
Proof.
  intros Hs Hl Hd Hdis Ha Hf. unfold strncpy.
  destruct (strncpy_loop_ok m d s n Hs fuel len Hl Hd Hdis 0 m) as (m1 & E & C); try (destruct Hs; lia).
  { apply copied_0. }
  rewrite !Z.add_0_r, Z.sub_0_r in E. rewrite E. cbn [bind].
  destruct (len - Z.min n len =? 0) eqn:E0.
  - exists m1. split; [reflexivity|]. intros x. rewrite C. replace (Z.min n len) with len by lia.
    destruct ((d <=? x) && (x <? d + len)) eqn:Ex; [|reflexivity]. replace (x <? d + n) with true by lia. reflexivity.
  - assert (Hnl : n < len) by lia. replace (Z.min n len) with n in * by lia.
    destruct (memset_ok fuel m1 (d + n) 0 (len - n)) as (m2 & -> & F); try (destruct Hs; lia).
    { apply (copied_mapped m m1 d s n); try assumption.
      - intros x Hx. apply (is_str_mapped _ _ _ Hs). lia.
      - intros x Hx. apply Hd. destruct Hs. lia. }
    cbn [bind fst]. exists m2. split; [reflexivity|]. intros x. rewrite F, C. change (u8 0) with 0.
    destruct Hs as (Hn & _).
    destruct ((d + n <=? x) && (x <? d + n + (len - n))) eqn:E1.
    + replace ((d <=? x) && (x <? d + len)) with true by lia. replace (x <? d + n) with false by lia. reflexivity.
    + destruct ((d <=? x) && (x <? d + n)) eqn:E2.
      * replace ((d <=? x) && (x <? d + len)) with true by lia. replace (x <? d + n) with true by lia. reflexivity.
      * replace ((d <=? x) && (x <? d + len)) with false by lia. reflexivity.
Qed.

(** ** strxfrm *)
Theorem strxfrm_ok fuel m d s n size : mem_ok m -> is_str m s n -> words m s (s + n) -> 0 <= size < 2^32 ->
  mapped m d (d + Z.min size (n + 1)) -> disjoint d s (n + 1) -> (Z.to_nat n + 8 < fuel)%nat ->
  exists m', strxfrm fuel m d s size = Ok (m', n) /\
    forall x, m' x = if (d <=? x) && (x <? d + Z.min size (n + 1))
                     then (if x <? d + Z.min size (n + 1) - 1 then m (s + (x - d)) else Some 0) else m x.
Proof.
  intros Hok Hs Hw Hz Hd Hdis Hf. unfold strxfrm. rewrite (strlen_ok fuel m s n) by assumption. cbn [bind].
  destruct (is_str_bound m s n Hok Hs) as (? & ? & ?).
  destruct (size =? 0) eqn:E0.
  - exists m. split; [reflexivity|]. intros x. replace ((d <=? x) && (x <? d + Z.min size (n + 1))) with false by lia. reflexivity.
  - cbv zeta. set (k := if n <? size then n else size - 1).
    assert (K : k = Z.min size (n + 1) - 1) by (unfold k; destruct (n <? size) eqn:?; lia).
    destruct (memcpy_ok fuel m d s k) as (m1 & -> & C); try lia.
    { intros x Hx. apply (is_str_mapped _ _ _ Hs). lia. }
    { intros x Hx. apply Hd. lia. }
    { unfold disjoint in *. lia. }
    cbn [bind fst].
    assert (D : exists z, m1 (d + k) = Some z).
    { rewrite C. replace ((d <=? d + k) && (d + k <? d + k)) with false by lia.
      specialize (Hd (d + k) ltac:(lia)). destruct (m (d + k)); [eauto|congruence]. }
    destruct D as (z & D). rewrite (store_ok _ _ _ z) by assumption. cbn [bind].
    exists (upd m1 (d + k) 0). split; [reflexivity|]. intros x. unfold upd.
    destruct (x =? d + k) eqn:Ex.
    + replace ((d <=? x) && (x <? d + Z.min size (n + 1))) with true by lia.
      replace (x <? d + Z.min size (n + 1) - 1) with false by lia. reflexivity.
    + rewrite C. destruct ((d <=? x) && (x <? d + k)) eqn:Ey.
      * replace ((d <=? x) && (x <? d + Z.min size (n + 1))) with true by lia.
        replace (x <? d + Z.min size (n + 1) - 1) with true by lia. reflexivity.
      * replace ((d <=? x) && (x <? d + Z.min size (n + 1))) with false by lia. reflexivity.
Qed.
