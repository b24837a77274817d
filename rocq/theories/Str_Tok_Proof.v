From Verif Require Import Base Bits Str_Model Str_Spec Str_Proof Str_Copy_Proof Str_Seq_Proof.
Open Scope Z_scope.

Lemma contents_app m a l r : contents m a (l ++ r) <-> contents m a l /\ contents m (a + Z.of_nat (length l)) r.
Proof.
  revert a; induction l as [|b l IH]; intros a; cbn [app length].
  - rewrite Z.add_0_r. split; [intros H; split; [intros i Hi; cbn in Hi; lia|exact H]|intros [_ H]; exact H].
  - rewrite !contents_cons, IH. replace (a + 1 + Z.of_nat (length l)) with (a + Z.of_nat (S (length l))) by lia. tauto.
Qed.
Lemma cstr_is_str m a l : cstr m a l -> is_str m a (Z.of_nat (length l)).
Proof.
  intros [H F]. apply contents_app in H as [H H0]. split; [lia|]. split.
  - intros x Hx. specialize (H (Z.to_nat (x - a)) ltac:(lia)). replace (a + Z.of_nat (Z.to_nat (x - a))) with x in H by lia.
    exists (nth (Z.to_nat (x - a)) l 0). split; [exact H|].
    rewrite Forall_forall in F. assert (0 < nth (Z.to_nat (x - a)) l 0); [|lia]. apply F. apply nth_In. lia.
  - apply contents_cons in H0 as [H0 _]. exact H0.
Qed.
Lemma cstr_cons m a b l : cstr m a (b :: l) -> m a = Some b /\ 0 < b /\ cstr m (a + 1) l.
Proof.
  intros [H F]. cbn [app] in H. apply contents_cons in H as [H0 H]. inversion F; subst. repeat split; assumption.
Qed.
Lemma cstr_nil m a : cstr m a [] -> m a = Some 0.
Proof. intros [H _]. apply contents_cons in H as [H _]. exact H. Qed.
Lemma contents_in m a l c : contents m a l -> (In c l <-> exists x, a <= x < a + Z.of_nat (length l) /\ m x = Some c).
Proof.
  intros H. split.
  - intros Hi. apply (In_nth _ _ 0) in Hi as (i & Hi & E). exists (a + Z.of_nat i). split; [lia|]. rewrite H by exact Hi. congruence.
  - intros (x & Hx & E). specialize (H (Z.to_nat (x - a)) ltac:(lia)). replace (a + Z.of_nat (Z.to_nat (x - a))) with x in H by lia.
    rewrite E in H. injection H as ->. apply nth_In. lia.
Qed.
Lemma elem_In set b : elem set b = true <-> In b set.
Proof.
  unfold elem. rewrite existsb_exists. split.
  - intros (x & Hx & E). apply Z.eqb_eq in E. subst. exact Hx.
  - intros H. exists b. split; [exact H|apply Z.eqb_refl].
Qed.
Lemma u8_s8 b : 0 <= b < 256 -> u8 (s8 b) = b.
Proof. intros H. unfold u8, s8. rewrite sgn_mod by lia. apply Z.mod_small. lia. Qed.

(** strchr used as a membership test *)
Lemma strchr_set fuel m a set b : mem_ok m -> cstr m a set -> words m a (a + Z.of_nat (length set)) -> 0 <= b < 256 ->
  (length set + 8 < fuel)%nat ->
  exists r, strchr fuel m a (s8 b) = Ok r /\ (r = None <-> b <> 0 /\ elem set b = false).
Proof.
  intros Hok Hs Hw Hb Hf. pose proof (cstr_is_str _ _ _ Hs) as Hi. set (n := Z.of_nat (length set)) in *.
  pose proof (contents_in m a (set ++ [0]) b (proj1 Hs)) as C.
  rewrite app_length in C. cbn [length] in C. replace (a + Z.of_nat (length set + 1)) with (a + n + 1) in C by (unfold n; lia).
  destruct (first_or_absent m b a (n + 1) ltac:(unfold n; lia)) as [[z Hz]|Hab].
  - rewrite Z.add_assoc in Hz. exists (Some z). split.
    + apply (strchr_found fuel m a n); try assumption.
      * rewrite u8_s8 by assumption. exact Hz.
      * apply (words_weaken m a (a + n)); try assumption; destruct Hz; lia.
      * unfold n; lia.
    + split; [discriminate|]. intros [H0 H1]. exfalso.
      assert (I : In b (set ++ [0])) by (apply C; exists z; split; apply Hz).
      apply in_app_or in I as [I|[I|[]]]; [|lia]. apply elem_In in I. congruence.
  - rewrite Z.add_assoc in Hab. exists None. split.
    + apply (strchr_absent fuel m a n); try assumption; [rewrite u8_s8; assumption|unfold n; lia].
    + split; [|reflexivity]. intros _.
      assert (N : ~ In b (set ++ [0])) by (rewrite C; intros (x & Hx & E); exact (Hab x Hx E)).
      rewrite in_app_iff in N. split; [intros ->; apply N; right; left; reflexivity|].
      destruct (elem set b) eqn:E; [|reflexivity]. apply elem_In in E. tauto.
Qed.

Lemma cstr_bytes m a l : mem_ok m -> cstr m a l -> Forall (fun b => 0 < b < 256) l.
Proof.
  intros Hok. revert a; induction l as [|b l IH]; intros a H; constructor.
  - apply cstr_cons in H as (H0 & Hb & _). destruct (Hok _ _ H0). lia.
  - apply cstr_cons in H as (_ & _ & H). eapply IH; eassumption.
Qed.

Lemma strspn_find_ok m c : forall set a fuel, cstr m a set -> (length set < fuel)%nat ->
  strspn_find fuel m a c = Ok (elem set c).
Proof.
  induction set as [|b set IH]; intros a fuel H Hf; (destruct fuel as [|fuel]; [lia|]); cbn [strspn_find].
  - rewrite (load_ok _ _ _ (cstr_nil _ _ H)). reflexivity.
  - apply cstr_cons in H as (H0 & Hb & H). rewrite (load_ok _ _ _ H0). cbn [bind].
    replace (b =? 0) with false by lia. unfold elem in *. cbn [existsb]. rewrite (Z.eqb_sym c b).
    destruct (b =? c); [reflexivity|]. cbn [orb]. apply IH; [assumption|cbn in Hf; lia].
Qed.
Lemma strspn_loop_ok fuel m acc a : cstr m a acc -> (length acc < fuel)%nat -> forall str s0 count k,
  0 <= count -> count + Z.of_nat (length str) < 2^32 -> cstr m (s0 + count) str -> (length str < k)%nat ->
  strspn_loop fuel k m s0 a count = Ok (count + prefix_len (elem acc) str).
Proof.
  intros Ha Hf. induction str as [|b str IH]; intros s0 count k Hc Hl Hs Hk; (destruct k as [|k]; [lia|]); cbn [strspn_loop prefix_len].
  - rewrite (load_ok _ _ _ (cstr_nil _ _ Hs)). cbn [bind]. rewrite (strspn_find_ok m 0 acc a fuel Ha Hf). cbn [bind].
    replace (elem acc 0) with false; [rewrite Z.add_0_r; reflexivity|].
    symmetry. destruct (elem acc 0) eqn:E; [|reflexivity]. apply elem_In in E. destruct Ha as [_ F].
    rewrite Forall_forall in F. apply F in E. lia.
  - apply cstr_cons in Hs as (H0 & Hb & Hs). rewrite (load_ok _ _ _ H0). cbn [bind].
    rewrite (strspn_find_ok m b acc a fuel Ha Hf). cbn [bind].
    destruct (elem acc b); [|f_equal; lia].
    cbn [length] in *. unfold u32. rewrite Z.mod_small by lia.
    rewrite IH; [f_equal; lia|lia|lia|rewrite Z.add_assoc; exact Hs|lia].
Qed.
Theorem strspn_ok fuel m s str a acc : mem_ok m -> cstr m s str -> cstr m a acc ->
  (length acc < fuel)%nat -> (length str < fuel)%nat -> strspn fuel m s a = Ok (prefix_len (elem acc) str).
Proof.
  intros Hok Hs Ha Hf1 Hf2. unfold strspn.
  pose proof (is_str_bound m s _ Hok (cstr_is_str _ _ _ Hs)).
  rewrite (strspn_loop_ok fuel m acc a Ha Hf1 str s 0); try lia; [reflexivity|rewrite Z.add_0_r; exact Hs].
Qed.

Lemma strcspn_loop_ok fuel m acc a : mem_ok m -> cstr m a acc -> words m a (a + Z.of_nat (length acc)) -> (length acc + 8 < fuel)%nat ->
  forall str s0 count k,
  0 <= count -> count + Z.of_nat (length str) < 2^32 -> cstr m (s0 + count) str -> (length str < k)%nat ->
  strcspn_loop fuel k m s0 a count = Ok (count + prefix_len (fun b => negb (elem acc b)) str).
Proof.
  intros Hok Ha Hw Hf. induction str as [|b str IH]; intros s0 count k Hc Hl Hs Hk; (destruct k as [|k]; [lia|]); cbn [strcspn_loop prefix_len].
  - rewrite (load_ok _ _ _ (cstr_nil _ _ Hs)). cbn [bind].
    destruct (strchr_set fuel m a acc 0 Hok Ha Hw ltac:(lia) Hf) as (r & -> & Hr). cbn [bind].
    destruct r as [p|]; [rewrite Z.add_0_r; reflexivity|]. exfalso. apply (proj1 (proj1 Hr eq_refl)). reflexivity.
  - apply cstr_cons in Hs as (H0 & Hb & Hs). rewrite (load_ok _ _ _ H0). cbn [bind].
    destruct (Hok _ _ H0) as [_ Rb].
    destruct (strchr_set fuel m a acc b Hok Ha Hw ltac:(lia) Hf) as (r & -> & Hr). cbn [bind].
    destruct r as [p|].
    + replace (elem acc b) with true; [cbn [negb]; f_equal; lia|].
      destruct (elem acc b); [reflexivity|]. exfalso. destruct Hr as [_ Hr]. discriminate Hr. split; [lia|reflexivity].
    + destruct (proj1 Hr eq_refl) as [_ ->]. cbn [negb].
      cbn [length] in *. unfold u32. rewrite Z.mod_small by lia.
      rewrite IH; [f_equal; lia|lia|lia|rewrite Z.add_assoc; exact Hs|lia].
Qed.
Theorem strcspn_ok fuel m s str a acc : mem_ok m -> cstr m s str -> cstr m a acc -> words m a (a + Z.of_nat (length acc)) ->
  (length acc + 8 < fuel)%nat -> (length str < fuel)%nat ->
  strcspn fuel m s a = Ok (prefix_len (fun b => negb (elem acc b)) str).
Proof.
  intros Hok Hs Ha Hw Hf1 Hf2. unfold strcspn.
  pose proof (is_str_bound m s _ Hok (cstr_is_str _ _ _ Hs)).
  rewrite (strcspn_loop_ok fuel m acc a Hok Ha Hw Hf1 str s 0); try lia; [reflexivity|rewrite Z.add_0_r; exact Hs].
Qed.

Lemma strpbrk_loop_ok fuel m acc a : mem_ok m -> cstr m a acc -> words m a (a + Z.of_nat (length acc)) -> (length acc + 8 < fuel)%nat ->
  forall str s k, cstr m s str -> (length str < k)%nat ->
  strpbrk_loop fuel k m s a = Ok (s + prefix_len (fun b => negb (elem acc b)) str).
Proof.
  intros Hok Ha Hw Hf. induction str as [|b str IH]; intros s k Hs Hk; (destruct k as [|k]; [lia|]); cbn [strpbrk_loop prefix_len].
  - rewrite (load_ok _ _ _ (cstr_nil _ _ Hs)). cbn [bind].
    destruct (strchr_set fuel m a acc 0 Hok Ha Hw ltac:(lia) Hf) as (r & -> & Hr). cbn [bind].
    destruct r as [p|]; [rewrite Z.add_0_r; reflexivity|]. exfalso. apply (proj1 (proj1 Hr eq_refl)). reflexivity.
  - apply cstr_cons in Hs as (H0 & Hb & Hs). rewrite (load_ok _ _ _ H0). cbn [bind].
    destruct (Hok _ _ H0) as [_ Rb].
    destruct (strchr_set fuel m a acc b Hok Ha Hw ltac:(lia) Hf) as (r & -> & Hr). cbn [bind].
    destruct r as [p|].
    + replace (elem acc b) with true; [cbn [negb]; f_equal; lia|].
      destruct (elem acc b); [reflexivity|]. exfalso. destruct Hr as [_ Hr]. discriminate Hr. split; [lia|reflexivity].
    + destruct (proj1 Hr eq_refl) as [_ ->]. cbn [negb]. cbn [length] in *.
      rewrite IH; [f_equal; lia|exact Hs|lia].
Qed.
Lemma prefix_len_split P l : exists l1 l2, l = l1 ++ l2 /\ prefix_len P l = Z.of_nat (length l1) /\
  forallb P l1 = true /\ match l2 with [] => True | b :: _ => P b = false end.
Proof.
  induction l as [|b l (l1 & l2 & E1 & E2 & E3 & E4)]; [exists [], []; repeat split|].
  cbn [prefix_len]. destruct (P b) eqn:Eb.
  - exists (b :: l1), l2. subst l. repeat split; cbn [length forallb]; [lia|rewrite Eb; exact E3|exact E4].
  - exists [], (b :: l). repeat split. exact Eb.
Qed.
Lemma cstr_app m a l r : cstr m a (l ++ r) -> cstr m (a + Z.of_nat (length l)) r.
Proof.
  intros [H F]. rewrite <- app_assoc in H. apply contents_app in H as [_ H]. apply Forall_app in F as [_ F]. split; assumption.
Qed.
Theorem strpbrk_ok fuel m s str a acc : mem_ok m -> cstr m s str -> cstr m a acc -> words m a (a + Z.of_nat (length acc)) ->
  (length acc + 8 < fuel)%nat -> (length str < fuel)%nat ->
  let r := prefix_len (fun b => negb (elem acc b)) str in
  strpbrk fuel m s a = Ok (if r =? Z.of_nat (length str) then None else Some (s + r)).
Proof.
  intros Hok Hs Ha Hw Hf1 Hf2 r. unfold strpbrk.
  rewrite (strpbrk_loop_ok fuel m acc a Hok Ha Hw Hf1 str s fuel Hs Hf2). cbn [bind]. fold r.
  destruct (prefix_len_split (fun b => negb (elem acc b)) str) as (l1 & l2 & E1 & E2 & _ & _). fold r in E2.
  rewrite E1 in Hs. apply cstr_app in Hs. rewrite <- E2 in Hs. rewrite E1, app_length.
  destruct l2 as [|b l2].
  - rewrite (load_ok _ _ _ (cstr_nil _ _ Hs)). cbn [bind length].
    replace (r =? Z.of_nat (length l1 + 0)) with true by lia. reflexivity.
  - apply cstr_cons in Hs as (H0 & Hb & _). rewrite (load_ok _ _ _ H0). cbn [bind length].
    replace (b =? 0) with false by lia. replace (r =? Z.of_nat (length l1 + S (length l2))) with false by lia. reflexivity.
Qed.

(** ** strtok_r *)
(** What one call does: with [str] the string scanned (the argument, or the saved state). *)
Theorem strtok_call fuel m p str a seps string state : mem_ok m -> cstr m p str -> cstr m a seps ->
  words m a (a + Z.of_nat (length seps)) -> (length seps + 8 < fuel)%nat -> (length str < fuel)%nat ->
  (string = Some p \/ string = None /\ state = Some p) ->
  let i := prefix_len (elem seps) str in
  let rest := skipn (Z.to_nat i) str in
  let j := prefix_len (fun b => negb (elem seps b)) rest in
  strtok_r fuel m string a state =
    if i =? Z.of_nat (length str) then Ok (m, None, None)
    else if i + j =? Z.of_nat (length str) then Ok (m, None, Some (p + i))
    else Ok (upd m (p + i + j) 0, Some (p + i + j + 1), Some (p + i)).
Proof.
  intros Hok Hs Ha Hw Hf1 Hf2 Hst i rest j. unfold strtok_r.
  replace (match string with Some q => Some q | None => state end) with (Some p)
    by (destruct Hst as [-> |[-> ->]]; reflexivity).
  rewrite (strspn_ok fuel m p str a seps) by (assumption || lia). cbn [bind]. fold i.
  destruct (prefix_len_split (elem seps) str) as (l1 & l2 & E1 & E2 & _ & _). fold i in E2.
  assert (Er : rest = l2).
  { unfold rest. rewrite E1, E2, Nat2Z.id, skipn_app, Nat.sub_diag, skipn_all. reflexivity. }
  assert (Hs2 : cstr m (p + i) l2) by (rewrite E2; apply cstr_app; rewrite <- E1; exact Hs).
  assert (EL : Z.of_nat (length str) = i + Z.of_nat (length l2)) by (rewrite E1, app_length; lia).
  rewrite EL. destruct l2 as [|b l2].
  - rewrite (load_ok _ _ _ (cstr_nil _ _ Hs2)). cbn [bind length]. rewrite Z.eqb_refl.
    replace (i =? i + Z.of_nat 0) with true by lia. reflexivity.
  - destruct (cstr_cons _ _ _ _ Hs2) as (H0 & Hb & _). rewrite (load_ok _ _ _ H0). cbn [bind].
    replace (b =? 0) with false by lia.
    replace (i =? i + Z.of_nat (length (b :: l2))) with false by (cbn [length]; lia).
    rewrite (strpbrk_ok fuel m (p + i) (b :: l2) a seps); try assumption; [|cbn [length] in *; lia].
    cbn [bind]. rewrite <- Er. fold j. replace (i + j =? i + Z.of_nat (length rest)) with (j =? Z.of_nat (length rest)) by lia.
    destruct (j =? Z.of_nat (length rest)) eqn:Ej; [reflexivity|].
    destruct (prefix_len_split (fun b => negb (elem seps b)) rest) as (k1 & k2 & F1 & F2 & _ & _). fold j in F2.
    rewrite <- Er, F1 in Hs2. apply cstr_app in Hs2. rewrite <- F2 in Hs2.
    destruct k2 as [|b2 k2]; [rewrite F1, app_length in Ej; cbn [length] in Ej; lia|].
    destruct (cstr_cons _ _ _ _ Hs2) as (H1 & _). rewrite (store_ok _ _ _ _ H1). reflexivity.
Qed.

Lemma tokens_delims P : forall l1 l off, forallb P l1 = true -> tokens P off 0 (l1 ++ l) = tokens P (off + Z.of_nat (length l1)) 0 l.
Proof.
  induction l1 as [|b l1 IH]; intros l off H; cbn [app length]; [f_equal; lia|].
  cbn in H. apply andb_true_iff in H as [Hb H]. cbn [tokens]. rewrite Hb. cbn [app Z.eqb].
  rewrite IH by exact H. f_equal. lia.
Qed.
Lemma tokens_run P : forall tok l off cur, forallb (fun b => negb (P b)) tok = true ->
  tokens P off cur (tok ++ l) = tokens P (off + Z.of_nat (length tok)) (cur + Z.of_nat (length tok)) l.
Proof.
  induction tok as [|b tok IH]; intros l off cur H; cbn [app length]; [f_equal; lia|].
  cbn in H. apply andb_true_iff in H as [Hb H]. apply negb_true_iff in Hb. cbn [tokens]. rewrite Hb.
  rewrite IH by exact H. f_equal; lia.
Qed.

Lemma cstr_ext m m' a l : cstr m a l -> (forall x, a <= x <= a + Z.of_nat (length l) -> m' x = m x) -> cstr m' a l.
Proof.
  intros [H F] E. split; [|exact F]. intros i Hi. rewrite app_length in Hi. cbn in Hi.
  rewrite E by lia. apply H. rewrite app_length; cbn; lia.
Qed.

Theorem tokenise_ok fuel a seps : (length seps + 8 < fuel)%nat -> forall calls m B off str string state,
  mem_ok m -> cstr m (B + off) str -> cstr m a seps -> words m a (a + Z.of_nat (length seps)) ->
  (a + Z.of_nat (length seps) < B + off \/ B + off + Z.of_nat (length str) < a) ->
  (length str < fuel)%nat -> (length str + 1 < calls)%nat ->
  (string = Some (B + off) \/ string = None /\ state = Some (B + off)) ->
  exists m', tokenise calls fuel m string a state = Ok (m', map (fun t => B + fst t) (tokens (elem seps) off 0 str)) /\
    (forall o len, In (o, len) (tokens (elem seps) off 0 str) ->
       off <= o /\ 0 < len /\ o + len <= off + Z.of_nat (length str) /\
       cstr m' (B + o) (firstn (Z.to_nat len) (skipn (Z.to_nat (o - off)) str))) /\
    (forall x, m' x = m x \/
       (exists i, x = B + off + Z.of_nat i /\ (i < length str)%nat /\ elem seps (nth i str 0) = true /\ m' x = Some 0)).
Proof.
  intros Hf1. induction calls as [|calls IH]; intros m B off str string state Hok Hs Ha Hw Hdis Hf2 Hc Hst; [lia|].
  cbn [tokenise]. rewrite (strtok_call fuel m (B + off) str a seps string state) by (assumption || lia).
  destruct (prefix_len_split (elem seps) str) as (l1 & l2 & E1 & E2 & E3 & E4). rewrite E2.
  assert (Er : skipn (Z.to_nat (Z.of_nat (length l1))) str = l2).
  { rewrite E1, Nat2Z.id, skipn_app, Nat.sub_diag, skipn_all. reflexivity. }
  rewrite Er. set (i := Z.of_nat (length l1)) in *.
  destruct (prefix_len_split (fun b => negb (elem seps b)) l2) as (tok & l3 & F1 & F2 & F3 & F4). rewrite F2.
  set (j := Z.of_nat (length tok)) in *.
  assert (EL : Z.of_nat (length str) = i + Z.of_nat (length l2)) by (rewrite E1, app_length; lia).
  assert (EL2 : Z.of_nat (length l2) = j + Z.of_nat (length l3)) by (rewrite F1, app_length; lia).
  assert (ET : tokens (elem seps) off 0 str = tokens (elem seps) (off + i) 0 l2)
    by (rewrite E1; apply tokens_delims; exact E3).
  rewrite ET. rewrite EL. destruct (i =? i + Z.of_nat (length l2)) eqn:Ei.
  { destruct l2; [|cbn [length] in Ei; lia]. cbn [bind tokens Z.eqb map]. exists m. split; [reflexivity|].
    split; [intros o len []|]. intros x; left; reflexivity. }
  assert (Hj : 0 < j).
  { destruct l2 as [|b l2]; [cbn [length] in Ei; lia|]. destruct tok as [|b2 tok]; [|unfold j; cbn [length]; lia].
    cbn [app] in F1. subst l3. rewrite E4 in F4. discriminate. }
  assert (ET2 : tokens (elem seps) (off + i) 0 l2 = tokens (elem seps) (off + i + j) j l3)
    by (rewrite F1; rewrite tokens_run by exact F3; reflexivity).
  rewrite ET2.
  destruct l3 as [|b3 l3].
  - replace (i + j =? i + Z.of_nat (length l2)) with true by (cbn [length] in EL2; lia).
    cbn [bind tokens]. replace (j =? 0) with false by lia.
    destruct calls as [|calls]; [lia|]. cbn [tokenise strtok_r bind map fst].
    exists m. split; [do 3 f_equal; lia|]. split; [|intros x; left; reflexivity].
    intros o len [E|[]]. injection E as <- <-. split; [lia|]. split; [lia|]. split; [cbn [length] in EL2; lia|].
    assert (T : tok = l2) by (rewrite F1, app_nil_r; reflexivity).
    replace (Z.to_nat (off + i + j - j - off)) with (Z.to_nat i) by lia. rewrite Er.
    replace (Z.to_nat j) with (length l2) by (rewrite <- T; unfold j; lia). rewrite firstn_all.
    rewrite E1 in Hs. apply cstr_app in Hs. fold i in Hs. replace (B + (off + i + j - j)) with (B + off + i) by lia. exact Hs.
  - cbn [length] in EL2. replace (i + j =? i + Z.of_nat (length l2)) with false by lia. cbn [bind].
    apply negb_false_iff in F4. cbn [tokens]. rewrite F4. replace (j =? 0) with false by lia.
    set (q := B + off + i + j). set (m1 := upd m q 0).
    assert (M1 : forall x, x <> q -> m1 x = m x).
    { intros x Hx. unfold m1, upd. replace (x =? q) with false by lia. reflexivity. }
    assert (Hq : cstr m q (b3 :: l3)).
    { rewrite E1, F1, app_assoc in Hs. apply cstr_app in Hs. rewrite app_length in Hs. 
      replace (B + off + Z.of_nat (length l1 + length tok)) with q in Hs by (unfold q, i, j; lia). exact Hs. }
    destruct (cstr_cons _ _ _ _ Hq) as (Hq0 & _ & Hq1).
    replace (q + 1) with (B + (off + i + j + 1)) in Hq1 by (unfold q; lia).
    destruct (IH m1 B (off + i + j + 1) l3 None (Some (q + 1))) as (m' & E & T & U); try (unfold q; lia).
    { intros x b Hx. unfold m1, upd in Hx. destruct (x =? q) eqn:Ex.
      - injection Hx as <-. assert (x = q) as -> by lia. destruct (Hok _ _ Hq0). lia.
      - apply (Hok _ _ Hx). }
    { apply (cstr_ext m); [exact Hq1|]. intros x Hx. apply M1. unfold q; lia. }
    { apply (cstr_ext m); [exact Ha|]. intros x Hx. apply M1. unfold q. lia. }
    { intros x Hx Hd. unfold m1, upd. destruct (x =? q); [discriminate|]. apply Hw; assumption. }
    { right. split; [reflexivity|]. f_equal. unfold q; lia. }
    fold q. fold m1. rewrite E. cbn [bind app map fst].
    exists m'. split; [do 3 f_equal; lia|]. split.
    + intros o len [Eq|HIn].
      * injection Eq as <- <-. split; [lia|]. split; [lia|]. split; [lia|].
        replace (Z.to_nat (off + i + j - j - off)) with (Z.to_nat i) by lia. rewrite Er.
        rewrite F1. replace (Z.to_nat j) with (length tok) by (unfold j; lia). rewrite firstn_app, Nat.sub_diag, firstn_all.
        cbn [firstn]. rewrite app_nil_r.
        assert (Ht : cstr m (B + off + i) (tok ++ b3 :: l3)).
        { rewrite E1, F1 in Hs. apply cstr_app in Hs. exact Hs. }
        destruct Ht as [Ht Hp]. rewrite <- app_assoc in Ht. apply contents_app in Ht as [Ht _]. apply Forall_app in Hp as [Hp _].
        assert (U1 : forall x, x <= q -> m' x = m1 x).
        { intros x Hx. destruct (U x) as [Ux|(i' & Ex & _)]; [exact Ux|]. unfold q in Hx. lia. }
        split; [|exact Hp]. apply contents_app. split.
        { intros i' Hi'. fold j in Hi'. rewrite U1 by (unfold q, j; lia). rewrite M1 by (unfold q, j; lia).
          rewrite <- Ht by exact Hi'. f_equal. lia. }
        { apply contents_cons. split; [|intros i' Hi'; cbn in Hi'; lia].
          replace (B + (off + i + j - j) + Z.of_nat (length tok)) with q by (unfold q, j; lia).
          rewrite U1 by lia. unfold m1, upd. rewrite Z.eqb_refl. reflexivity. }
      * destruct (T o len HIn) as (T1 & T2 & T3 & T4). split; [lia|]. split; [lia|]. split; [lia|].
        replace (skipn (Z.to_nat (o - off)) str) with (skipn (Z.to_nat (o - (off + i + j + 1))) l3); [exact T4|].
        rewrite E1, F1. replace (l1 ++ tok ++ b3 :: l3) with ((l1 ++ tok ++ [b3]) ++ l3) by (rewrite <- !app_assoc; reflexivity).
        rewrite skipn_app. rewrite (skipn_all2 (l1 ++ tok ++ [b3])) by (rewrite !app_length; cbn [length]; lia). cbn [app]. f_equal.
        rewrite !app_length. cbn [length]. lia.
    + intros x. destruct (U x) as [Ux|(i' & Ex & Hi' & He & Hx)].
      * rewrite Ux. destruct (Z.eq_dec x q) as [->|Hne]; [|left; apply M1; exact Hne].
        right. exists (length l1 + length tok)%nat. split; [unfold q, i, j; lia|]. split; [lia|]. split.
        { rewrite E1, F1. rewrite app_nth2 by lia. rewrite app_nth2 by lia.
          replace (length l1 + length tok - length l1 - length tok)%nat with 0%nat by lia. exact F4. }
        { unfold m1, upd. rewrite Z.eqb_refl. reflexivity. }
      * right. exists (length l1 + length tok + 1 + i')%nat. split; [unfold i, j in *; lia|]. split; [lia|]. split; [|exact Hx].
        rewrite E1, F1. rewrite app_nth2 by lia. rewrite app_nth2 by lia.
        replace (length l1 + length tok + 1 + i' - length l1 - length tok)%nat with (S i') by lia. exact He.
Qed.
