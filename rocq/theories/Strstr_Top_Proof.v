From Verif Require Import Base Str_Model Str_Spec Str_Proof Str_Copy_Proof Str_Seq_Proof Str_Tok_Proof Strstr_Model Strstr_Proof.
Local Ltac Zify.zify_post_hook ::= idtac.
Open Scope Z_scope.

Definition fn (l : list Z) : Z -> Z := fun t => nth (Z.to_nat t) l 0.

Lemma contents_fn m a l : contents m a l -> forall t, 0 <= t < Z.of_nat (length l) -> m (a + t) = Some (fn l t).
Proof.
  intros H t Ht. unfold fn. rewrite <- H by lia. f_equal. lia.
Qed.
Lemma skipn_skipn a b (l : list Z) : skipn a (skipn b l) = skipn (b + a) l.
Proof. revert l; induction b as [|b IH]; intros l; [reflexivity|]. destruct l; [rewrite !skipn_nil; reflexivity|apply IH]. Qed.
Lemma occ_occurs hs nd j : 0 <= j -> j + Z.of_nat (length nd) <= Z.of_nat (length hs) ->
  occ (Z.of_nat (length nd)) (fn nd) (fn hs) j <-> occurs hs nd (Z.to_nat j).
Proof.
  intros Hj Hl. split.
  - intros H. exists (firstn (Z.to_nat j) hs), (skipn (Z.to_nat j + length nd) hs). split.
    2:{ rewrite firstn_length. lia. }
    rewrite <- (firstn_skipn (Z.to_nat j) hs) at 1. f_equal.
    rewrite <- (firstn_skipn (length nd) (skipn (Z.to_nat j) hs)). f_equal.
    2:{ rewrite skipn_skipn. reflexivity. }
    apply nth_ext with 0 0.
    + rewrite firstn_length, skipn_length. lia.
    + intros t Ht. rewrite firstn_length, skipn_length in Ht.
      specialize (H (Z.of_nat t) ltac:(lia)). unfold fn in H. rewrite Nat2Z.id in H. rewrite <- H.
      replace (Z.to_nat (j + Z.of_nat t)) with (Z.to_nat j + t)%nat by lia.
      rewrite <- (firstn_skipn (Z.to_nat j) hs) at 2.
      rewrite app_nth2; rewrite firstn_length; [|lia].
      replace (Z.to_nat j + t - Nat.min (Z.to_nat j) (length hs))%nat with t by lia.
      rewrite <- (firstn_skipn (length nd) (skipn (Z.to_nat j) hs)) at 2.
      rewrite app_nth1; [reflexivity|]. rewrite firstn_length, skipn_length. lia.
  - intros (pre & post & E & El) t Ht. unfold fn. rewrite E.
    rewrite app_nth2 by lia. rewrite app_nth1 by lia. f_equal. lia.
Qed.
Lemma occurs_range hs nd j : occurs hs nd j -> (j + length nd <= length hs)%nat.
Proof. intros (pre & post & -> & <-). rewrite !app_length. lia. Qed.

Lemma lex_lt_diff a b : lex a b = Lt -> (length b <= length a)%nat ->
  exists D, (D < length b)%nat /\ (forall d, (d < D)%nat -> nth d a 0 = nth d b 0) /\ nth D a 0 < nth D b 0.
Proof.
  revert b; induction a as [|x a IH]; intros [|y b] H Hl; cbn in *; try discriminate; try lia.
  destruct (Z.compare_spec x y) as [E|E|E]; try discriminate.
  - destruct (IH b H ltac:(lia)) as (D & H1 & H2 & H3). exists (S D). split; [lia|]. split.
    + intros [|d] Hd; [exact E|apply H2; lia].
    + exact H3.
  - exists 0%nat. split; [lia|]. split; [lia|exact E].
Qed.

Lemma suffix_greater nd (f : Z -> Z) p pre suf : nd = pre ++ suf -> lex (map f nd) (map f suf) = Lt ->
  ~ maxsuf (fun t => f (fn nd t)) (Z.of_nat (length nd)) (-1) p.
Proof.
  intros E H M. destruct (lex_lt_diff _ _ H) as (D & H1 & H2 & H3).
  { rewrite !map_length, E, app_length. lia. }
  rewrite !map_length in H1.
  assert (Hf : forall l d, (d < length l)%nat -> nth d (map f l) 0 = f (nth d l 0)).
  { intros l d Hd. rewrite (nth_indep _ 0 (f 0)) by (rewrite map_length; lia). apply map_nth. }
  assert (EL : length nd = (length pre + length suf)%nat) by (rewrite E, app_length; reflexivity).
  assert (Hs : forall d, (d < length suf)%nat -> nth d suf 0 = fn nd (Z.of_nat (length pre) + Z.of_nat d)).
  { intros d Hd. unfold fn. rewrite E, app_nth2 by lia. f_equal. lia. }
  assert (Hn : forall d, nth d nd 0 = fn nd (Z.of_nat d)) by (intros d; unfold fn; rewrite Nat2Z.id; reflexivity).
  assert (HP : (0 < length pre)%nat).
  { destruct pre as [|b pre]; [|cbn; lia]. cbn in E. subst suf. rewrite !Hf in H3 by lia. lia. }
  pose proof (ms_after _ _ _ _ M (Z.of_nat (length pre)) (Z.of_nat D) ltac:(lia) ltac:(lia) ltac:(lia)) as A.
  cbv beta in A. replace (-1 + 1 + Z.of_nat D) with (Z.of_nat D) in A by lia.
  assert (Q : eq_upto (fun t => f (fn nd t)) (Z.of_nat (length pre)) (-1 + 1) (Z.of_nat D)).
  { intros d Hd. cbv beta. specialize (H2 (Z.to_nat d) ltac:(lia)). rewrite !Hf in H2 by lia.
    rewrite Hs, Hn in H2 by lia. replace (Z.of_nat (Z.to_nat d)) with d in H2 by lia.
    replace (-1 + 1 + d) with d by lia. congruence. }
  specialize (A Q). rewrite !Hf in H3 by lia. rewrite Hs, Hn in H3 by lia. lia.
Qed.

Lemma two_sided_aligned nd : two_sided nd -> forall lt p1 gt p2,
  maxsuf (fn nd) (Z.of_nat (length nd)) lt p1 -> maxsuf (fun t => - fn nd t) (Z.of_nat (length nd)) gt p2 -> aligned lt gt.
Proof.
  intros H lt p1 gt p2 M1 M2.
  destruct H as [[b Hb]|[(pre & suf & E & H1) (pre2 & suf2 & E2 & H2)]].
  - assert (U : forall t, 0 <= t < Z.of_nat (length nd) -> fn nd t = b).
    { intros t Ht. rewrite Forall_forall in Hb. symmetry. apply Hb. apply nth_In. lia. }
    pose proof (ms_range _ _ _ _ M1). pose proof (ms_range _ _ _ _ M2).
    assert (lt = -1).
    { destruct (Z.eq_dec lt (-1)); [assumption|]. destruct (ms_before _ _ _ _ M1 0) as (D & HD & H0' & _ & Hl); [lia|].
      cbv beta in Hl. rewrite !U in Hl by lia. lia. }
    assert (gt = -1).
    { destruct (Z.eq_dec gt (-1)); [assumption|]. destruct (ms_before _ _ _ _ M2 0) as (D & HD & H0' & _ & Hl); [lia|].
      cbv beta in Hl. rewrite !U in Hl by lia. lia. }
    unfold aligned. lia.
  - assert (lt <> -1).
    { intros ->. apply (suffix_greater nd (fun a => a) p1 pre suf E); [rewrite !map_id; exact H1|exact M1]. }
    assert (gt <> -1).
    { intros ->. apply (suffix_greater nd Z.opp p2 pre2 suf2 E2 H2 M2). }
    unfold aligned. lia.
Qed.

(** what a search must return *)
Definition found (hs nd : list Z) (s : Z) (r : option Z) : Prop :=
  match r with
  | Some a => exists j, a = s + Z.of_nat j /\ occurs hs nd j /\ (two_sided nd -> forall j', (j' < j)%nat -> ~ occurs hs nd j')
  | None => two_sided nd -> forall j, ~ occurs hs nd j
  end.

Theorem memmem_ok fuel m s hs x nd : contents m s hs -> contents m x nd -> nd <> [] ->
  Z.of_nat (length hs) < 2^32 -> Z.of_nat (length nd) < 2^31 -> (3 * length nd + length hs + 3 < fuel)%nat ->
  exists r, memmem fuel m s (Z.of_nat (length hs)) x (Z.of_nat (length nd)) = Ok r /\ found hs nd s r.
Proof.
  intros Hs Hx Hne HL Hn Hf. unfold memmem.
  assert (Hn0 : (0 < length nd)%nat) by (destruct nd; [congruence|cbn; lia]).
  destruct (Z.ltb_spec (Z.of_nat (length hs)) (Z.of_nat (length nd))).
  { exists None. split; [reflexivity|]. intros _ j Ho. apply occurs_range in Ho. lia. }
  set (n := Z.of_nat (length nd)) in *. set (L := Z.of_nat (length hs)) in *.
  destruct (factorize_ok m x n (fn nd) ltac:(lia) (contents_fn m x nd Hx) fuel ltac:(lia) ltac:(lia)) as (i & p & -> & Hex & Hcr).
  cbn [bind]. rewrite (u32_small (L - n)) by lia.
  destruct (search_ok m x n (fn nd) ltac:(lia) (contents_fn m x nd Hx) s L (fn hs) ltac:(lia) H (contents_fn m s hs Hs) i p Hex fuel ltac:(lia) ltac:(lia)) as (r & -> & Hr).
  exists r. split; [reflexivity|].
  assert (Hc : two_sided nd -> critical n (fn nd) i p).
  { intros Ht. apply Hcr. apply two_sided_aligned. exact Ht. }
  destruct r as [a|]; cbn [result found] in *.
  - destruct Hr as (j & -> & Hj & Ho & Hno). exists (Z.to_nat j). split; [lia|]. split.
    + apply occ_occurs; try (fold n L; lia). exact Ho.
    + intros Ht j' Hj' Ho'. pose proof (occurs_range _ _ _ Ho') as R. apply (Hno (Hc Ht) (Z.of_nat j') ltac:(lia)).
      apply occ_occurs; try lia. rewrite Nat2Z.id. exact Ho'.
  - intros Ht j' Ho'. pose proof (occurs_range _ _ _ Ho') as R. apply (Hr (Hc Ht) (Z.of_nat j') ltac:(lia)).
    apply occ_occurs; try lia. rewrite Nat2Z.id. exact Ho'.
Qed.

Theorem strstr_ok fuel m s hs x nd : mem_ok m -> cstr m s hs -> cstr m x nd ->
  words m s (s + Z.of_nat (length hs)) -> words m x (x + Z.of_nat (length nd)) ->
  Z.of_nat (length nd) < 2^31 -> (3 * length nd + length hs + 8 < fuel)%nat ->
  exists r, strstr fuel m s x = Ok r /\ found hs nd s r.
Proof.
  intros Hok Hs Hx Ws Wx Hn Hf. unfold strstr. destruct nd as [|c nd].
  { rewrite (load_ok _ _ _ (cstr_nil _ _ Hx)). cbn [bind Z.eqb]. exists (Some s). split; [reflexivity|].
    exists 0%nat. split; [lia|]. split; [exists [], hs; split; reflexivity|]. intros _ j' Hj'. lia. }
  pose proof (cstr_cons _ _ _ _ Hx) as (Hx0 & Hc & Hx1). rewrite (load_ok _ _ _ Hx0). cbn [bind].
  replace (c =? 0) with false by lia.
  destruct (Hok _ _ Hx0) as [_ Rc].
  destruct nd as [|c1 nd].
  - rewrite (load_ok _ _ _ (cstr_nil _ _ Hx1)). cbn [bind Z.eqb].
    assert (Hi := cstr_is_str _ _ _ Hs). set (L := Z.of_nat (length hs)) in *.
    destruct (first_or_absent m c s (L + 1) ltac:(lia)) as [[z Hz]|Hab]; rewrite Z.add_assoc in *.
    + exists (Some z). split.
      * apply (strchr_found fuel m s L); try assumption; try (unfold L; lia).
        -- rewrite u8_s8 by lia. exact Hz.
        -- apply (words_weaken m s (s + L)); try assumption; destruct Hz; lia.
      * destruct Hz as (Hz & Hzc & Hb). assert (z <> s + L).
        { intros ->. destruct Hi as (_ & _ & H0). rewrite Hzc in H0. injection H0 as ->. lia. }
        destruct Hs as [Hct _]. apply contents_app in Hct as [Hct _].
        assert (G : forall j, (j < length hs)%nat -> (occurs hs [c] j <-> m (s + Z.of_nat j) = Some c)).
        { intros j Hj. rewrite <- (Nat2Z.id j) at 1. rewrite <- occ_occurs by (cbn [length]; lia). split.
          - intros Ho. specialize (Ho 0 ltac:(cbn [length]; lia)). rewrite Hct by lia. f_equal.
            unfold fn in Ho. cbn in Ho. rewrite <- Ho. f_equal. lia.
          - intros E t Ht. cbn [length] in Ht. assert (t = 0) as -> by lia. rewrite Hct in E by lia. injection E as E.
            unfold fn. cbn [Z.to_nat nth]. rewrite <- E. f_equal. lia. }
        exists (Z.to_nat (z - s)). split; [lia|]. split.
        -- apply G; [unfold L in *; lia|]. rewrite <- Hzc. f_equal. lia.
        -- intros _ j' Hj' Ho. apply G in Ho; [|unfold L in *; lia]. apply (Hb (s + Z.of_nat j')); [lia|exact Ho].
    + exists None. split.
      * apply (strchr_absent fuel m s L); try assumption; try (unfold L; lia). rewrite u8_s8 by lia. exact Hab.
      * intros _ j Ho. pose proof (occurs_range _ _ _ Ho) as R. cbn [length] in R.
        destruct Ho as (pre & post & E & El). destruct Hs as [Hct _]. apply contents_app in Hct as [Hct _].
        apply (Hab (s + Z.of_nat j)); [unfold L; lia|]. rewrite Hct by lia. f_equal.
        rewrite E, app_nth2 by lia. replace (j - length pre)%nat with 0%nat by lia. reflexivity.
  - pose proof (cstr_cons _ _ _ _ Hx1) as (Hx2 & Hc1 & _). rewrite (load_ok _ _ _ Hx2). cbn [bind].
    replace (c1 =? 0) with false by lia.
    rewrite (strlen_ok fuel m s (Z.of_nat (length hs)) Hok (cstr_is_str _ _ _ Hs) Ws ltac:(lia)). cbn [bind].
    rewrite (strlen_ok fuel m x (Z.of_nat (length (c :: c1 :: nd))) Hok (cstr_is_str _ _ _ Hx) Wx ltac:(lia)). cbn [bind].
    pose proof (is_str_bound m s _ Hok (cstr_is_str _ _ _ Hs)).
    apply memmem_ok; try lia.
    + destruct Hs as [Hs _]. apply contents_app in Hs. apply Hs.
    + destruct Hx as [Hx _]. apply contents_app in Hx. apply Hx.
    + discriminate.
Qed.
