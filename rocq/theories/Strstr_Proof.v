(** The two-way search: maximal suffixes, critical factorisation, search. *)
From Verif Require Import Base Str_Model Str_Spec Str_Proof Str_Copy_Proof Str_Seq_Proof Strstr_Model.
Local Ltac Zify.zify_post_hook ::= idtac.
Open Scope Z_scope.

(** ** Words as functions *)
Definition eq_upto (X : Z -> Z) (a b D : Z) : Prop := forall d, 0 <= d < D -> X (a + d) = X (b + d).
Definition less_at (X : Z -> Z) (a b D : Z) : Prop := 0 <= D /\ eq_upto X a b D /\ X (a + D) < X (b + D).
Definition period_on (X : Z -> Z) (lo hi p : Z) : Prop := forall t, lo <= t -> t + p < hi -> X t = X (t + p).

Lemma period_mult X lo hi p q t : 0 <= p -> 0 <= q -> period_on X lo hi p -> lo <= t -> t + q * p < hi -> X t = X (t + q * p).
Proof.
  intros Hp Hq H. revert t. pattern q. apply natlike_ind; [intros t _ _; f_equal; lia| |exact Hq].
  clear q Hq. intros q Hq IH t Hlo Hhi. rewrite IH by nia. rewrite H by nia. f_equal. lia.
Qed.

(** [i + 1] starts the maximal suffix of X[0,n), whose smallest period is p. *)
Record maxsuf (X : Z -> Z) (n i p : Z) : Prop := {
  ms_range : -1 <= i /\ 1 <= p /\ i + 1 + p <= n;
  ms_period : period_on X (i + 1) n p;
  ms_before : forall t, 0 <= t < i + 1 -> exists D, i + 1 + D < n /\ less_at X t (i + 1) D;
  ms_after : forall t D, i + 1 < t -> 0 <= D -> t + D < n -> eq_upto X t (i + 1) D -> X (t + D) <= X (i + 1 + D);
  ms_min : forall s, 1 <= s < p -> ~ period_on X (i + 1) n s }.

(** Loop invariant of split_. *)
Record inv (X : Z -> Z) (n i j k p q : Z) : Prop := {
  iv_range : -1 <= i /\ 1 <= k <= p /\ j - i = q * p /\ 1 <= q /\ j + k <= n;
  iv_period : period_on X (i + 1) (j + k) p;
  iv_before : forall t, 0 <= t < i + 1 -> exists D, i + 1 + D < n /\ less_at X t (i + 1) D;
  iv_block : forall s, 1 <= s < p -> exists D, s + D < p /\ less_at X (i + 1 + s) (i + 1) D }.

Lemma inv_init X n : 1 <= n -> inv X n (-1) 0 1 1 1.
Proof. intros H. constructor; try lia. - intros t; lia. Qed.

Lemma inv_shift X n i j k p q : inv X n i j k p q -> X (i + k) = X (j + k - p) /\ forall r, 0 <= r <= q - 1 -> X (i + k) = X (i + k + r * p).
Proof.
  intros [(Hi & Hk & Hj & Hq & Hn) Hp _ _].
  assert (A : forall r, 0 <= r <= q - 1 -> X (i + k) = X (i + k + r * p)).
  { intros r Hr. apply (period_mult X (i + 1) (j + k)); try lia; [exact Hp|nia]. }
  split; [|exact A]. rewrite (A (q - 1)) by lia. f_equal. nia.
Qed.

Lemma inv_match X n i j k p q : inv X n i j k p q -> forall d, 0 <= d < k - 1 -> X (j + 1 + d) = X (i + 1 + d).
Proof.
  intros [(Hi & Hk & Hj & Hq & Hn) Hp _ _] d Hd. symmetry.
  replace (j + 1 + d) with (i + 1 + d + q * p) by lia.
  apply (period_mult X (i + 1) (j + k)); try lia. exact Hp.
Qed.

(** a start in a later block behaves as in the first block *)
Lemma block_of p t : 1 <= p -> 0 <= t -> exists m s, t = m * p + s /\ 0 <= s < p /\ 0 <= m.
Proof.
  intros Hp Ht. exists (t / p), (t mod p). pose proof (Z_div_mod_eq_full t p). pose proof (Z.mod_pos_bound t p).
  split; [lia|]. split; [lia|]. apply Z.div_pos; lia.
Qed.

Lemma inv_lt X n i j k p q : inv X n i j k p q -> j + k < n -> X (j + k) < X (i + k) -> inv X n i (j + k) 1 (j + k - i) 1.
Proof.
  intros H Hlt Hc. pose proof (inv_shift _ _ _ _ _ _ _ H) as [_ Hr]. pose proof (inv_match _ _ _ _ _ _ _ H) as Hm.
  destruct H as [(Hi & Hk & Hj & Hq & Hn) Hp Hb Hl].
  assert (Hqp : p <= q * p) by nia.
  constructor; try assumption; try lia.
  - intros t; lia.
  - intros s Hs. destruct (Z.le_gt_cases (i + 1 + s) j) as [Hle|Hgt].
    + destruct (block_of p s ltac:(lia) ltac:(lia)) as (mm & r & E & Hrr & Hmm).
      assert (P : forall d, 0 <= d -> r + d < p -> X (i + 1 + s + d) = X (i + 1 + r + d)).
      { intros d Hd Hrd. replace (i + 1 + s + d) with (i + 1 + r + d + mm * p) by lia. symmetry.
        apply (period_mult X (i + 1) (j + k)); try lia; [exact Hp|]. assert (mm < q) by nia. nia. }
      destruct (Z.eq_dec r 0) as [->|Hr0].
      * (* multiple of p: first difference at j + k *)
        exists (j + k - (i + 1 + s)). split; [lia|]. split; [lia|]. split.
        { intros d Hd. replace (i + 1 + s + d) with (i + 1 + d + mm * p) by lia. symmetry.
          apply (period_mult X (i + 1) (j + k)); try lia. exact Hp. }
        { replace (i + 1 + s + (j + k - (i + 1 + s))) with (j + k) by lia.
          replace (i + 1 + (j + k - (i + 1 + s))) with (i + k + (q - mm) * p) by (rewrite Z.mul_sub_distr_r; lia).
          rewrite <- (Hr (q - mm)); [exact Hc|]. split; [|nia]. assert (mm <= q) by nia. lia. }
      * destruct (Hl r) as (D & HD & HD0 & He & Hless); [lia|]. assert (Hmq : mm < q) by nia.
        assert (Hmq' : (mm + 1) * p <= q * p) by (apply Z.mul_le_mono_nonneg_r; lia).
        exists D. split; [lia|]. split; [lia|]. split.
        { intros d Hd. rewrite P by lia. apply He. lia. }
        { rewrite P by lia. exact Hless. }
    + (* inside the current block, at offset r from j + 1 *)
      set (r := s - (j - i)) in *.
      assert (P : forall d, 0 <= d -> i + 1 + s + d < j + k -> X (i + 1 + s + d) = X (i + 1 + r + d)).
      { intros d Hd Hdd. replace (i + 1 + s + d) with (j + 1 + (r + d)) by (unfold r; lia).
        rewrite Hm by (unfold r in *; lia). f_equal. lia. }
      set (d1 := j + k - (i + 1 + s)) in *.
      assert (L1 : X (i + 1 + s + d1) < X (i + 1 + r + d1)).
      { replace (i + 1 + s + d1) with (j + k) by (unfold d1; lia).
        replace (i + 1 + r + d1) with (i + k) by (unfold r, d1; lia). exact Hc. }
      destruct (Z.eq_dec r 0) as [R0|Hr0].
      * exists d1. split; [unfold d1; lia|]. split; [unfold d1; lia|]. split.
        { intros d Hd. rewrite P by (unfold d1 in Hd; lia). f_equal. lia. }
        { replace (i + 1 + d1) with (i + 1 + r + d1) by lia. exact L1. }
      * destruct (Hl r) as (D & HD & HD0 & He & Hless); [unfold r in *; lia|].
        destruct (Z.lt_ge_cases D d1) as [Hlt1|Hge].
        { exists D. split; [unfold d1 in Hlt1; lia|]. split; [lia|]. split.
          - intros d Hd. rewrite P by (unfold d1 in Hlt1; lia). apply He; lia.
          - rewrite P by (unfold d1 in Hlt1; lia). exact Hless. }
        { exists d1. split; [unfold d1; lia|]. split; [unfold d1; lia|]. split.
          - intros d Hd. rewrite P by (unfold d1 in Hd; lia). apply He; lia.
          - destruct (Z.eq_dec D d1) as [->|]; [lia|]. rewrite <- (He d1) by (unfold d1; lia). exact L1. }
Qed.

Lemma inv_eq X n i j k p q : inv X n i j k p q -> j + k < n -> X (j + k) = X (i + k) ->
  period_on X (i + 1) (j + k + 1) p.
Proof.
  intros H Hlt Hc t Ht Htp. destruct (Z.eq_dec (t + p) (j + k)) as [E|].
  - rewrite E, Hc. destruct (inv_shift _ _ _ _ _ _ _ H) as [-> _]. f_equal. lia.
  - apply (iv_period _ _ _ _ _ _ _ H); lia.
Qed.
Lemma inv_eq1 X n i j k p q : inv X n i j k p q -> j + k < n -> X (j + k) = X (i + k) -> k <> p ->
  inv X n i j (k + 1) p q.
Proof.
  intros H Hlt Hc Hne. pose proof (inv_eq _ _ _ _ _ _ _ H Hlt Hc) as P.
  destruct H as [(Hi & Hk & Hj & Hq & Hn) Hp Hb Hl].
  constructor; try assumption; try lia. rewrite Z.add_assoc. exact P.
Qed.
Lemma inv_eq2 X n i j k p q : inv X n i j k p q -> j + k < n -> X (j + k) = X (i + k) -> k = p ->
  inv X n i (j + p) 1 p (q + 1).
Proof.
  intros H Hlt Hc ->. pose proof (inv_eq _ _ _ _ _ _ _ H Hlt Hc) as P.
  destruct H as [(Hi & Hk & Hj & Hq & Hn) Hp Hb Hl].
  constructor; try assumption; try lia.
Qed.
Lemma inv_gt X n i j k p q : inv X n i j k p q -> j + k < n -> X (i + k) < X (j + k) -> inv X n j (j + 1) 1 1 1.
Proof.
  intros H Hlt Hc. pose proof (inv_match _ _ _ _ _ _ _ H) as Hm.
  destruct H as [(Hi & Hk & Hj & Hq & Hn) Hp Hb Hl].
  assert (Hqp : p <= q * p) by nia.
  constructor; try lia.
  - intros t; lia.
  - intros t Ht.
    (* [t] is at most [i+1] lexicographically, up to position k - 1 *)
    assert (C : (exists D, less_at X t (i + 1) D) \/ (forall d, 0 <= d <= k - 1 -> X (t + d) = X (i + 1 + d))).
    { destruct (Z.lt_ge_cases t (i + 1)) as [H1|H1].
      - left. destruct (Hb t) as (D & _ & HD); [lia|]. exists D. exact HD.
      - destruct (block_of p (t - (i + 1)) ltac:(lia) ltac:(lia)) as (mm & r & E & Hrr & Hmm).
        assert (Hmq : mm < q) by nia.
        assert (P : forall d, 0 <= d -> i + 1 + r + d + mm * p < j + k -> X (t + d) = X (i + 1 + r + d)).
        { intros d Hd Hrd. replace (t + d) with (i + 1 + r + d + mm * p) by lia. symmetry.
          apply (period_mult X (i + 1) (j + k)); try lia. exact Hp. }
        destruct (Z.eq_dec r 0) as [->|Hr0].
        + right. intros d Hd. rewrite P by nia. f_equal. lia.
        + left. destruct (Hl r) as (D & HD & HD0 & He & Hless); [lia|]. exists D. split; [lia|]. split.
          * intros d Hd. rewrite P by nia. apply He; lia.
          * rewrite P by nia. exact Hless. }
    assert (L1 : X (i + 1 + (k - 1)) < X (j + 1 + (k - 1))).
    { replace (i + 1 + (k - 1)) with (i + k) by lia. replace (j + 1 + (k - 1)) with (j + k) by lia. exact Hc. }
    destruct C as [(D & HD0 & He & Hless)|C].
    + destruct (Z.lt_ge_cases D (k - 1)) as [H2|H2].
      * exists D. split; [lia|]. split; [lia|]. split.
        { intros d Hd. rewrite Hm by lia. apply He; lia. }
        { rewrite Hm by lia. exact Hless. }
      * exists (k - 1). split; [lia|]. split; [lia|]. split.
        { intros d Hd. rewrite Hm by lia. apply He; lia. }
        { destruct (Z.eq_dec D (k - 1)) as [->|]; [lia|]. rewrite He by lia. exact L1. }
    + exists (k - 1). split; [lia|]. split; [lia|]. split.
      { intros d Hd. rewrite Hm by lia. apply C; lia. }
      { rewrite C by lia. exact L1. }
Qed.

Lemma inv_end X n i j k p q : inv X n i j k p q -> j + k = n -> maxsuf X n i p.
Proof.
  intros [(Hi & Hk & Hj & Hq & Hn) Hp Hb Hl] E.
  assert (Hqp : p <= q * p) by nia.
  constructor; try assumption.
  - lia.
  - rewrite <- E. exact Hp.
  - intros t D Ht HD Htn He.
    destruct (block_of p (t - (i + 1)) ltac:(lia) ltac:(lia)) as (mm & r & Et & Hrr & Hmm).
    assert (P : forall d, 0 <= d -> t + d < n -> X (t + d) = X (i + 1 + r + d)).
    { intros d Hd Hrd. replace (t + d) with (i + 1 + r + d + mm * p) by lia. symmetry.
      apply (period_mult X (i + 1) (j + k)); try lia. exact Hp. }
    destruct (Z.eq_dec r 0) as [->|Hr0].
    + rewrite P by lia. replace (i + 1 + 0 + D) with (i + 1 + D) by lia. lia.
    + destruct (Hl r) as (D0 & HD0 & HD1 & He0 & Hless); [lia|].
      destruct (Z.lt_trichotomy D D0) as [H1|[->|H1]].
      * rewrite P by lia. rewrite He0 by lia. lia.
      * rewrite P by lia. lia.
      * exfalso. specialize (He D0 ltac:(lia)). rewrite P in He by lia. lia.
  - intros s Hs Hper. destruct (Hl s Hs) as (D & HD & HD0 & _ & Hless).
    specialize (Hper (i + 1 + D) ltac:(lia) ltac:(lia)).
    replace (i + 1 + D + s) with (i + 1 + s + D) in Hper by lia. lia.
Qed.

(** ** The critical position *)
(** A word of length [s] that is a prefix of the right part and compatible with the end of the left part. *)
Definition repetition (X : Z -> Z) (n i s : Z) : Prop :=
  1 <= s /\ i + 1 + s <= n /\ forall t, 0 <= t -> i + 1 - s <= t < i + 1 -> X t = X (t + s).

Lemma repetition_long X n i p s : maxsuf X n i p -> repetition X n i s -> i + 1 < s.
Proof.
  intros [R P B A M] (H1 & H2 & H3). destruct (Z.lt_ge_cases (i + 1) s) as [|Hge]; [assumption|exfalso].
  destruct (B (i + 1 - s)) as (D & HD & HD0 & He & Hless); [lia|].
  assert (W : forall d, 0 <= d < s -> X (i + 1 - s + d) = X (i + 1 + d)).
  { intros d Hd. rewrite H3 by lia. f_equal. lia. }
  assert (s <= D).
  { destruct (Z.lt_ge_cases D s); [|assumption]. rewrite W in Hless by lia. lia. }
  pose proof (A (i + 1 + s) (D - s) ltac:(lia) ltac:(lia) ltac:(lia)) as C.
  replace (i + 1 + s + (D - s)) with (i + 1 + D) in C by lia.
  replace (i + 1 - s + D) with (i + 1 + (D - s)) in Hless by lia.
  assert (eq_upto X (i + 1 + s) (i + 1) (D - s)); [|specialize (C H0); lia].
  intros d Hd. specialize (He (d + s) ltac:(lia)).
  replace (i + 1 - s + (d + s)) with (i + 1 + d) in He by lia.
  replace (i + 1 + (d + s)) with (i + 1 + s + d) in He by lia. congruence.
Qed.

Lemma repetition_period X n i p i' p' s : maxsuf X n i p -> maxsuf (fun t => - X t) n i' p' -> i' <= i ->
  repetition X n i s -> period_on X 0 n s.
Proof.
  intros H H' Hi Hrep. pose proof (repetition_long _ _ _ _ _ H Hrep) as HL.
  destruct H as [R P B A M], H' as [R' P' B' A' M'], Hrep as (H1 & H2 & H3).
  assert (U : forall t, 0 <= t < i + 1 -> X t = X (t + s)) by (intros t Ht; apply H3; lia).
  assert (V : forall D, 0 <= D -> i + 1 + s + D < n -> forall d, 0 <= d <= D -> X (i + 1 + s + d) = X (i + 1 + d)).
  { intros D HD. pattern D. apply natlike_ind; [| |exact HD].
    - intros Hn d Hd. assert (d = 0) as -> by lia.
      assert (E1 := A (i + 1 + s) 0 ltac:(lia) ltac:(lia) Hn ltac:(intros ?; lia)).
      assert (E2 := A' (i' + 1 + s) (i - i') ltac:(lia) ltac:(lia) ltac:(lia)).
      cbv beta in E2. replace (i' + 1 + s + (i - i')) with (i + 1 + s + 0) in E2 by lia.
      replace (i' + 1 + (i - i')) with (i + 1 + 0) in E2 by lia.
      assert (eq_upto (fun t => - X t) (i' + 1 + s) (i' + 1) (i - i')).
      { intros d Hd'. cbv beta. f_equal. rewrite (U (i' + 1 + d)) by lia. f_equal. lia. }
      specialize (E2 H). lia.
    - clear D HD. intros D HD IH Hn d Hd.
      destruct (Z.eq_dec d (Z.succ D)) as [->|]; [|apply IH; lia].
      assert (EQ : eq_upto X (i + 1 + s) (i + 1) (Z.succ D)) by (intros d' Hd'; apply IH; lia).
      assert (E1 := A (i + 1 + s) (Z.succ D) ltac:(lia) ltac:(lia) Hn EQ).
      assert (E2 := A' (i' + 1 + s) (i - i' + Z.succ D) ltac:(lia) ltac:(lia) ltac:(lia)).
      cbv beta in E2. replace (i' + 1 + s + (i - i' + Z.succ D)) with (i + 1 + s + Z.succ D) in E2 by lia.
      replace (i' + 1 + (i - i' + Z.succ D)) with (i + 1 + Z.succ D) in E2 by lia.
      assert (eq_upto (fun t => - X t) (i' + 1 + s) (i' + 1) (i - i' + Z.succ D)).
      { intros d' Hd'. cbv beta. f_equal. destruct (Z.lt_ge_cases d' (i - i')).
        - rewrite (U (i' + 1 + d')) by lia. f_equal. lia.
        - specialize (EQ (d' - (i - i')) ltac:(lia)).
          replace (i + 1 + s + (d' - (i - i'))) with (i' + 1 + s + d') in EQ by lia.
          replace (i + 1 + (d' - (i - i'))) with (i' + 1 + d') in EQ by lia. exact EQ. }
      specialize (E2 H). lia. }
  intros t Ht Htn. destruct (Z.lt_ge_cases t (i + 1)); [apply U; lia|].
  specialize (V (t - (i + 1)) ltac:(lia) ltac:(lia) (t - (i + 1)) ltac:(lia)).
  replace (i + 1 + s + (t - (i + 1))) with (t + s) in V by lia.
  replace (i + 1 + (t - (i + 1))) with t in V by lia. congruence.
Qed.


(** ** split_ and factorize_ compute the maximal suffixes *)
Lemma u32_small a : 0 <= a < 2^32 -> u32 a = a.
Proof. apply Z.mod_small. Qed.
Lemma u32_add_l a b : u32 (u32 a + b) = u32 (a + b).
Proof. unfold u32. apply Zplus_mod_idemp_l. Qed.
Lemma u32_sub_r a b : u32 (a - u32 b) = u32 (a - b).
Proof. unfold u32. apply Zminus_mod_idemp_r. Qed.

Section needle.
Variables (m : mem) (x n : Z) (X : Z -> Z).
Hypothesis Hn : 0 <= n < 2^32.
Hypothesis HX : forall t, 0 <= t < n -> m (x + t) = Some (X t).

Lemma X_load t : 0 <= t < n -> load m (x + t) = Ok (X t).
Proof. intros H. apply load_ok. apply HX. exact H. Qed.

Lemma split_loop_ok comp f : (forall a b, comp a b = true <-> f a < f b) -> (forall a b : Z, f a = f b <-> a = b) ->
  forall fuel i j k p q, inv (fun t => f (X t)) n i j k p q -> (Z.to_nat (3 * n - (i + j + k)) < fuel)%nat ->
  exists i' p', split_loop fuel comp m x n (u32 i) j k p = Ok (u32 i', p') /\ maxsuf (fun t => f (X t)) n i' p'.
Proof.
  intros Hcomp Hinj. induction fuel as [|fuel IH]; intros i j k p q H Hf; [lia|].
  pose proof (iv_range _ _ _ _ _ _ _ H) as (Hi & Hk & Hj & Hq & Hjk). assert (Hqp : p <= q * p) by nia.
  cbn [split_loop]. rewrite (u32_small (j + k)) by lia.
  destruct (Z.ltb_spec (j + k) n) as [Hlt|Hge].
  2:{ exists i, p. split; [reflexivity|]. apply (inv_end _ _ _ j k p q); [exact H|lia]. }
  rewrite u32_add_l, (u32_small (i + k)) by lia. rewrite !X_load by lia. cbn [bind].
  destruct (comp (X (j + k)) (X (i + k))) eqn:Ec.
  - apply Hcomp in Ec. rewrite u32_sub_r, (u32_small (j + k - i)) by lia.
    apply (IH i (j + k) 1 (j + k - i) 1); [|lia]. eapply inv_lt; eassumption.
  - destruct (X (j + k) =? X (i + k)) eqn:E.
    + apply Z.eqb_eq in E. assert (Ef : f (X (j + k)) = f (X (i + k))) by congruence.
      destruct (Z.eqb_spec k p) as [Ekp|Ekp].
      * rewrite (u32_small (j + p)) by lia. apply (IH i (j + p) 1 p (q + 1)); [|lia]. eapply inv_eq2; eassumption.
      * rewrite (u32_small (k + 1)) by lia. apply (IH i j (k + 1) p q); [|lia]. eapply inv_eq1; eassumption.
    + apply Z.eqb_neq in E.
      assert (G : f (X (i + k)) < f (X (j + k))).
      { destruct (Z.lt_trichotomy (f (X (i + k))) (f (X (j + k)))) as [|[E2|E2]]; [assumption| |].
        - apply (proj1 (Hinj _ _)) in E2. congruence.
        - apply Hcomp in E2. congruence. }
      rewrite (u32_small (j + 1)) by lia. replace (split_loop fuel comp m x n j (j + 1) 1 1) with (split_loop fuel comp m x n (u32 j) (j + 1) 1 1)
        by (rewrite (u32_small j) by lia; reflexivity).
      apply (IH j (j + 1) 1 1 1); [|lia]. eapply inv_gt; eassumption.
Qed.

Lemma split_lt_ok fuel : 1 <= n -> (Z.to_nat (3 * n) < fuel)%nat ->
  exists i p, split_ fuel lt_ m x n = Ok (u32 i, p) /\ maxsuf X n i p.
Proof.
  intros H1 Hf. unfold split_. change SIZE_M1 with (u32 (-1)).
  apply (split_loop_ok lt_ (fun a => a)) with (q := 1).
  - intros a b. unfold lt_. lia.
  - intros a b. reflexivity.
  - apply inv_init. exact H1.
  - lia.
Qed.
Lemma split_gt_ok fuel : 1 <= n -> (Z.to_nat (3 * n) < fuel)%nat ->
  exists i p, split_ fuel gt_ m x n = Ok (u32 i, p) /\ maxsuf (fun t => - X t) n i p.
Proof.
  intros H1 Hf. unfold split_. change SIZE_M1 with (u32 (-1)).
  apply (split_loop_ok gt_ Z.opp) with (q := 1).
  - intros a b. unfold gt_. lia.
  - intros a b. lia.
  - apply inv_init. exact H1.
  - lia.
Qed.

Definition extremal (i p : Z) : Prop := maxsuf X n i p \/ maxsuf (fun t => - X t) n i p.
Definition critical (i p : Z) : Prop := extremal i p /\ forall s, repetition X n i s -> period_on X 0 n s.

Lemma opp_period lo hi s : period_on (fun t => - X t) lo hi s -> period_on X lo hi s.
Proof. intros H t H1 H2. specialize (H t H1 H2). cbv beta in H. lia. Qed.
Lemma maxsuf_opp_opp i p : maxsuf X n i p -> maxsuf (fun t => - (- X t)) n i p.
Proof.
  intros [R P B A M]. constructor.
  - exact R.
  - intros t H1 H2. rewrite (P t H1 H2). reflexivity.
  - intros t Ht. destruct (B t Ht) as (D & HD & H0 & He & Hl). exists D. split; [exact HD|]. split; [exact H0|]. split.
    + intros d Hd. cbv beta. rewrite (He d Hd). reflexivity.
    + cbv beta. lia.
  - intros t D H1 H2 H3 He. cbv beta. rewrite !Z.opp_involutive. apply A; try assumption.
    intros d Hd. specialize (He d Hd). cbv beta in He. lia.
  - intros s Hs Hp. apply (M s Hs). intros t H1 H2. specialize (Hp t H1 H2). cbv beta in Hp. lia.
Qed.

(** The first byte decides whether the SIZE_MAX comparison goes wrong. *)
Definition aligned (lt gt : Z) : Prop := (lt = -1 <-> gt = -1).
Lemma factorize_ok fuel : 1 <= n -> (Z.to_nat (3 * n) < fuel)%nat ->
  exists i p, factorize_ fuel m x n = Ok (u32 i, p) /\ extremal i p /\
    ((forall lt p1 gt p2, maxsuf X n lt p1 -> maxsuf (fun t => - X t) n gt p2 -> aligned lt gt) -> critical i p).
Proof.
  intros H1 Hf. unfold factorize_. destruct (split_lt_ok fuel H1 Hf) as (lt & p1 & -> & M1).
  cbn [bind]. destruct (split_gt_ok fuel H1 Hf) as (gt & p2 & -> & M2). cbn [bind].
  pose proof (ms_range _ _ _ _ M1) as R1. pose proof (ms_range _ _ _ _ M2) as R2.
  assert (U : forall a, -1 <= a < n -> u32 a = if a =? -1 then 2^32 - 1 else a).
  { intros a Ha. destruct (Z.eqb_spec a (-1)) as [->|]; [reflexivity|apply u32_small; lia]. }
  destruct (u32 lt >=? u32 gt) eqn:E.
  - exists lt, p1. split; [reflexivity|]. split; [left; exact M1|]. intros Hal. specialize (Hal _ _ _ _ M1 M2).
    split; [left; exact M1|]. intros s Hs. apply (repetition_period X n lt p1 gt p2 s); try assumption.
    rewrite !U in E by lia. unfold aligned in Hal. destruct (lt =? -1) eqn:?, (gt =? -1) eqn:?; lia.
  - exists gt, p2. split; [reflexivity|]. split; [right; exact M2|]. intros Hal. specialize (Hal _ _ _ _ M1 M2).
    split; [right; exact M2|]. intros s Hs. apply opp_period.
    apply (repetition_period (fun t => - X t) n gt p2 lt p1 s); try assumption.
    + apply maxsuf_opp_opp. exact M1.
    + rewrite !U in E by lia. unfold aligned in Hal. destruct (lt =? -1) eqn:?, (gt =? -1) eqn:?; lia.
    + destruct Hs as (A & B & C). split; [exact A|]. split; [exact B|]. intros t T1 T2. cbv beta. rewrite (C t T1 T2). reflexivity.
Qed.

Lemma extremal_range i p : extremal i p -> -1 <= i /\ 1 <= p /\ i + 1 + p <= n.
Proof. intros [H|H]; apply (ms_range _ _ _ _ H). Qed.
Lemma extremal_period i p : extremal i p -> period_on X (i + 1) n p.
Proof. intros [H|H]; [|apply opp_period]; apply (ms_period _ _ _ _ H). Qed.
Lemma extremal_min i p s : extremal i p -> 1 <= s < p -> ~ period_on X (i + 1) n s.
Proof.
  intros [H|H] Hs Hp; apply (ms_min _ _ _ _ H s Hs); [exact Hp|].
  intros t H1 H2. cbv beta. rewrite (Hp t H1 H2). reflexivity.
Qed.
Lemma extremal_long i p s : extremal i p -> repetition X n i s -> i + 1 < s.
Proof.
  intros [H|H] Hs; [exact (repetition_long _ _ _ _ _ H Hs)|]. apply (repetition_long _ _ _ _ _ H).
  destruct Hs as (A & B & C). split; [exact A|]. split; [exact B|]. intros t T1 T2. cbv beta. rewrite (C t T1 T2). reflexivity.
Qed.

(** ** Searching *)
Variables (s L : Z) (Y : Z -> Z).
Hypothesis HL : 0 <= L < 2^32.
Hypothesis HLn : n <= L.
Hypothesis HY : forall t, 0 <= t < L -> m (s + t) = Some (Y t).
Definition occ (j : Z) : Prop := forall t, 0 <= t < n -> Y (j + t) = X t.

Lemma forward_ok j : 0 <= j <= L - n -> forall fuel i, 0 <= i <= n -> (Z.to_nat (n - i) < fuel)%nat ->
  exists i', forward fuel m s j x n i = Ok i' /\ i <= i' <= n /\ (forall t, i <= t < i' -> Y (j + t) = X t) /\
    (i' < n -> Y (j + i') <> X i').
Proof.
  intros Hj. induction fuel as [|f IH]; intros i Hi Hf; [lia|].
  cbn [forward]. destruct (Z.ltb_spec i n).
  2:{ exists i. split; [reflexivity|]. split; [lia|]. split; [intros t; lia|lia]. }
  rewrite X_load by lia. cbn [bind]. rewrite (u32_small (i + j)) by lia. rewrite (load_ok m _ (Y (i + j))) by (apply HY; lia). cbn [bind].
  destruct (Z.eqb_spec (X i) (Y (i + j))) as [E|E].
  - rewrite (u32_small (i + 1)) by lia. destruct (IH (i + 1)) as (i' & -> & H1 & H2 & H3); try lia.
    exists i'. split; [reflexivity|]. split; [lia|]. split; [|exact H3].
    intros t Ht. destruct (Z.eq_dec t i) as [->|]; [rewrite Z.add_comm; congruence|apply H2; lia].
  - exists i. split; [reflexivity|]. split; [lia|]. split; [intros t; lia|]. intros _. rewrite Z.add_comm. congruence.
Qed.
Lemma backward_ok j : 0 <= j <= L - n -> forall fuel i, -1 <= i < n -> (Z.to_nat (i + 1) < fuel)%nat ->
  exists i', backward fuel m s j x (u32 i) = Ok (u32 i') /\ -1 <= i' <= i /\ (forall t, i' < t <= i -> Y (j + t) = X t) /\
    (0 <= i' -> Y (j + i') <> X i').
Proof.
  intros Hj. induction fuel as [|f IH]; intros i Hi Hf; [lia|].
  cbn [backward]. destruct (Z.eq_dec i (-1)) as [->|].
  { exists (-1). split; [reflexivity|]. split; [lia|]. split; [intros t; lia|lia]. }
  rewrite (u32_small i) by lia. replace (i =? SIZE_M1) with false by (unfold SIZE_M1; lia).
  rewrite X_load by lia. cbn [bind]. rewrite (u32_small (i + j)) by lia. rewrite (load_ok m _ (Y (i + j))) by (apply HY; lia). cbn [bind].
  destruct (Z.eqb_spec (X i) (Y (i + j))) as [E|E].
  - destruct (IH (i - 1)) as (i' & -> & H1 & H2 & H3); try lia.
    exists i'. split; [reflexivity|]. split; [lia|]. split; [|exact H3].
    intros t Ht. destruct (Z.eq_dec t i) as [->|]; [rewrite Z.add_comm; congruence|apply H2; lia].
  - exists i. rewrite u32_small by lia. split; [reflexivity|]. split; [lia|]. split; [intros t; lia|]. intros _. rewrite Z.add_comm. congruence.
Qed.
Lemma backward_s_ok j memory : 0 <= j <= L - n -> 0 <= memory -> forall fuel i, -1 <= i < n -> (Z.to_nat (i + 1) < fuel)%nat ->
  exists i', backward_s fuel m s j x i memory = Ok i' /\ i' <= i /\ (forall t, i' < t <= i -> memory <= t -> Y (j + t) = X t) /\
    (memory <= i' -> Y (j + i') <> X i').
Proof.
  intros Hj Hm. induction fuel as [|f IH]; intros i Hi Hf; [lia|].
  cbn [backward_s]. rewrite Z.geb_leb. destruct (Z.leb_spec memory i).
  2:{ exists i. split; [reflexivity|]. split; [lia|]. split; [intros t; lia|lia]. }
  rewrite X_load by lia. cbn [bind]. rewrite (u32_small (i + j)) by lia. rewrite (load_ok m _ (Y (i + j))) by (apply HY; lia). cbn [bind].
  destruct (Z.eqb_spec (X i) (Y (i + j))) as [E|E].
  - destruct (IH (i - 1)) as (i' & -> & H1 & H2 & H3); try lia.
    exists i'. split; [reflexivity|]. split; [lia|]. split; [|exact H3].
    intros t Ht. destruct (Z.eq_dec t i) as [->|]; [intros _; rewrite Z.add_comm; congruence|apply H2; lia].
  - exists i. split; [reflexivity|]. split; [lia|]. split; [intros t; lia|]. intros _. rewrite Z.add_comm. congruence.
Qed.

Variables (index p : Z).
Hypothesis Hex : extremal index p.

(** No occurrence is skipped by either shift. *)
Lemma shift_right j i : critical index p -> 0 <= j -> index + 1 <= i < n -> (forall t, index + 1 <= t < i -> Y (j + t) = X t) ->
  Y (j + i) <> X i -> forall d, 0 <= d < i - index -> ~ occ (j + d).
Proof.
  intros [_ Hc] Hj Hi Hm Hmis d Hd Ho. pose proof (extremal_range _ _ Hex).
  destruct (Z.eq_dec d 0) as [->|].
  - apply Hmis. rewrite <- Ho by lia. f_equal. lia.
  - assert (Hp : period_on X 0 n d).
    { apply Hc. split; [lia|]. split; [lia|]. intros t T1 T2. rewrite <- (Ho t) by lia.
      rewrite <- Hm by lia. f_equal. lia. }
    apply Hmis. replace (j + i) with (j + d + (i - d)) by lia. rewrite (Ho (i - d)) by lia.
    rewrite (Hp (i - d)) by lia. f_equal. lia.
Qed.
Lemma shift_period j : critical index p -> 0 <= j -> (forall t, index + 1 <= t < n -> Y (j + t) = X t) ->
  forall d, 1 <= d < p -> ~ occ (j + d).
Proof.
  intros [_ Hc] Hj Hm d Hd Ho. pose proof (extremal_range _ _ Hex) as R.
  apply (extremal_min index p d Hex ltac:(lia)).
  assert (Hp : period_on X 0 n d).
  { apply Hc. split; [lia|]. split; [lia|]. intros t T1 T2. rewrite <- (Ho t) by lia.
    rewrite <- Hm by lia. f_equal. lia. }
  intros t T1 T2. apply Hp; lia.
Qed.

Definition result (r : option Z) : Prop :=
  match r with
  | Some a => exists j, a = s + j /\ 0 <= j <= L - n /\ occ j /\ (critical index p -> forall j', 0 <= j' < j -> ~ occ j')
  | None => critical index p -> forall j', 0 <= j' <= L - n -> ~ occ j'
  end.

Lemma nonperiodic_ok fuel : (Z.to_nat n + 1 < fuel)%nat -> forall k j, 0 <= j ->
  (critical index p -> forall j', 0 <= j' < j -> ~ occ j') -> (Z.to_nat (L - n - j + 1) < k)%nat -> j <= L ->
  exists r, nonperiodic_ fuel k m s (L - n) x n (u32 index) p j = Ok r /\ result r.
Proof.
  intros Hf. pose proof (extremal_range _ _ Hex) as R. induction k as [|k IH]; intros j Hj Hno Hk HjL; [lia|].
  cbn [nonperiodic_]. destruct (Z.leb_spec j (L - n)).
  2:{ exists None. split; [reflexivity|]. intros Hc j' Hj'. apply Hno; [exact Hc|lia]. }
  rewrite u32_add_l, (u32_small (index + 1)) by lia.
  destruct (forward_ok j ltac:(lia) fuel (index + 1)) as (i & -> & H1 & H2 & H3); try lia.
  cbn [bind]. destruct (Z.ltb_spec i n).
  - rewrite u32_sub_r, (u32_small (i - index)) by lia. rewrite (u32_small (j + (i - index))) by lia.
    apply IH; try lia. intros Hc j' Hj'. destruct (Z.lt_ge_cases j' j); [apply Hno; [exact Hc|lia]|].
    replace j' with (j + (j' - j)) by lia. apply (shift_right j i); try assumption; try lia; apply H3; lia.
  - assert (i = n) as -> by lia.
    destruct (backward_ok j ltac:(lia) fuel index) as (i' & -> & H4 & H5 & H6); try lia.
    cbn [bind]. destruct (Z.eq_dec i' (-1)) as [->|].
    + replace (u32 (-1) =? SIZE_M1) with true by reflexivity. exists (Some (s + j)). split; [reflexivity|].
      exists j. split; [reflexivity|]. split; [lia|]. split; [|exact (fun Hc j' H' => Hno Hc j' H')].
      intros t Ht. destruct (Z.le_gt_cases t index); [apply H5; lia|apply H2; lia].
    + replace (u32 i' =? SIZE_M1) with false by (rewrite u32_small by lia; unfold SIZE_M1; lia).
      rewrite (u32_small (j + p)) by lia. apply IH; try lia.
      intros Hc j' Hj'. destruct (Z.lt_ge_cases j' j); [apply Hno; [exact Hc|lia]|].
      destruct (Z.eq_dec j' j) as [->|].
      * intros Ho. apply (H6 ltac:(lia)). apply Ho. lia.
      * replace j' with (j + (j' - j)) by lia. apply shift_period; try assumption; lia.
Qed.

(** In the periodic search [p] is a period of the whole needle and [index + 1 <= p]. *)
Lemma periodic_ok fuel : n < 2^31 -> (Z.to_nat n + 1 < fuel)%nat -> period_on X 0 n p -> forall k j memory, 0 <= j ->
  (memory = 0 \/ memory = n - p) -> (forall t, 0 <= t < memory -> j <= L - n -> Y (j + t) = X t) ->
  (critical index p -> forall j', 0 <= j' < j -> ~ occ j') -> (Z.to_nat (L - n - j + 1) < k)%nat -> j <= L ->
  exists r, periodic_ fuel k m s (L - n) x n (u32 index) p memory j = Ok r /\ result r.
Proof.
  intros Hn31 Hf Hper. pose proof (extremal_range _ _ Hex) as R.
  assert (Hip : index + 1 <= p).
  { destruct (Z.le_gt_cases (index + 1) p); [assumption|].
    assert (index + 1 < p); [|lia]. apply (extremal_long index p p Hex). split; [lia|]. split; [lia|].
    intros t T1 T2. apply Hper; lia. }
  induction k as [|k IH]; intros j memory Hj Hmem Hknown Hno Hk HjL; [lia|].
  cbn [periodic_]. destruct (Z.leb_spec j (L - n)).
  2:{ exists None. split; [reflexivity|]. intros Hc j' Hj'. apply Hno; [exact Hc|lia]. }
  rewrite u32_add_l, (u32_small (index + 1)) by lia. rewrite (u32_small memory) by lia.
  assert (Em : max_ (index + 1) memory = Z.max (index + 1) memory).
  { unfold max_. destruct (Z.ltb_spec (index + 1) memory); lia. }
  rewrite Em. assert (Hmr : 0 <= memory < n) by lia. clear Hmem Em.
  destruct (forward_ok j ltac:(lia) fuel (Z.max (index + 1) memory)) as (i & -> & H1 & H2 & H3); try lia.
  assert (H2' : forall t, index + 1 <= t < i -> Y (j + t) = X t).
  { intros t Ht. destruct (Z.lt_ge_cases t memory); [apply Hknown; lia|apply H2; lia]. }
  cbn [bind]. destruct (Z.ltb_spec i n).
  - rewrite u32_sub_r, (u32_small (i - index)) by lia. rewrite (u32_small (j + (i - index))) by lia.
    apply IH; try lia. intros Hc j' Hj'. destruct (Z.lt_ge_cases j' j); [apply Hno; [exact Hc|lia]|].
    replace j' with (j + (j' - j)) by lia. apply (shift_right j i); try assumption; try lia; apply H3; lia.
  - assert (i = n) as -> by lia.
    assert (Es : s32 (u32 index) = index).
    { unfold s32, u32. unfold sgn. rewrite Z.mod_mod by lia. change (sgn 32 index = index). apply sgn_id; lia. }
    rewrite Es.
    destruct (backward_s_ok j memory ltac:(lia) ltac:(lia) fuel index) as (i' & -> & H4 & H5 & H6); try lia.
    cbn [bind]. destruct (Z.ltb_spec i' memory).
    + exists (Some (s + j)). split; [reflexivity|].
      exists j. split; [reflexivity|]. split; [lia|]. split; [|exact (fun Hc j' H' => Hno Hc j' H')].
      intros t Ht. destruct (Z.lt_ge_cases t memory); [apply Hknown; lia|].
      destruct (Z.le_gt_cases t index); [apply H5; lia|apply H2'; lia].
    + rewrite (u32_small (n - p)) by lia. unfold s32. rewrite sgn_id by lia.
      rewrite (u32_small (j + p)) by lia. apply IH; try lia.
      * intros t Ht _. rewrite (Hper t) by lia. replace (j + p + t) with (j + (t + p)) by lia. apply H2'. lia.
      * intros Hc j' Hj'. destruct (Z.lt_ge_cases j' j); [apply Hno; [exact Hc|lia]|].
        destruct (Z.eq_dec j' j) as [->|].
        -- intros Ho. apply (H6 ltac:(lia)). apply Ho. lia.
        -- replace j' with (j + (j' - j)) by lia. apply shift_period; try assumption; lia.
Qed.

Lemma memcmp_zero : forall k a b fuel, 0 <= k < 2^32 -> (Z.to_nat k < fuel)%nat -> 0 <= a -> 0 <= b -> a + k <= n -> b + k <= n ->
  exists r, memcmp fuel m (x + a) (x + b) k = Ok r /\ (r = 0 -> forall t, 0 <= t < k -> X (a + t) = X (b + t)).
Proof.
  intros k a b fuel. revert k a b. induction fuel as [|f IH]; intros k a b Hk Hf Ha Hb Hak Hbk; [lia|].
  cbn [memcmp]. destruct (Z.eqb_spec k 0) as [->|].
  { exists 0. split; [reflexivity|]. intros _ t; lia. }
  rewrite !X_load by lia. cbn [bind]. destruct (Z.eqb_spec (X a) (X b)) as [E|E]; cbn [negb].
  - rewrite (u32_small (k - 1)) by lia. rewrite <- !Z.add_assoc.
    destruct (IH (k - 1) (a + 1) (b + 1)) as (r & -> & Hr); try lia. exists r. split; [reflexivity|].
    intros Hr0 t Ht. destruct (Z.eq_dec t 0) as [->|]; [rewrite !Z.add_0_r; exact E|].
    specialize (Hr Hr0 (t - 1) ltac:(lia)).
    replace (a + 1 + (t - 1)) with (a + t) in Hr by lia. replace (b + 1 + (t - 1)) with (b + t) in Hr by lia. exact Hr.
  - exists (X a - X b). split; [reflexivity|]. intros Hr. lia.
Qed.

Lemma search_ok fuel : n < 2^31 -> (Z.to_nat L + 2 < fuel)%nat ->
  exists r, search_ fuel m s (L - n) x n (u32 index) p = Ok r /\ result r.
Proof.
  intros Hn31 Hf. pose proof (extremal_range _ _ Hex) as R. unfold search_.
  rewrite u32_add_l, (u32_small (index + 1)) by lia.
  destruct (memcmp_zero (index + 1) 0 p fuel) as (r & E & Hr); try lia. rewrite Z.add_0_r in E. rewrite E. cbn [bind].
  destruct (Z.eqb_spec r 0) as [E0|E0]; cbn [negb].
  - apply periodic_ok; try lia.
    intros t T1 T2. destruct (Z.le_gt_cases t index).
    + specialize (Hr E0 t ltac:(lia)). rewrite Z.add_0_l, Z.add_comm in Hr. exact Hr.
    + apply (extremal_period index p Hex); lia.
  - apply nonperiodic_ok; try lia.
Qed.
End needle.
