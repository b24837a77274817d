From Verif Require Import Base Bits Str_Model Str_Spec.
Open Scope Z_scope.

(** ** Words *)
Lemma haszero_gen w k lo hi : 0 <= k < 64 -> w = lo + 2^k * hi -> 0 <= lo -> 0 <= hi ->
  lo + magic mod 2^k < 2^k -> Z.even (magic / 2^k) = true -> Z.testbit (u64 (Z.lnot magic)) k = true ->
  haszero w = true.
Proof.
  intros Hk W Hlo Hhi Hc He Hb. unfold haszero.
  assert (P : 0 < 2^k) by (apply Z.pow_pos_nonneg; lia).
  assert (T : Z.testbit (Z.land (Z.lxor (u64 (w + magic)) (u64 (Z.lnot w))) (u64 (Z.lnot magic))) k = true).
  { rewrite Z.land_spec, Z.lxor_spec, Hb, andb_true_r. unfold u64.
    rewrite !Z.mod_pow2_bits_low by lia. rewrite Z.lnot_spec by lia.
    assert (A : Z.testbit (w + magic) k = Z.testbit w k).
    { rewrite !Z.testbit_odd, !Z.shiftr_div_pow2 by lia.
      replace ((w + magic) / 2^k) with (hi + magic / 2^k).
      - replace (w / 2^k) with hi.
        + rewrite Z.odd_add. rewrite <- (Z.negb_even (magic / 2^k)), He. cbn. apply xorb_false_r.
        + apply Z.div_unique with lo; [left|]; pose proof (Z.mod_pos_bound magic (2^k)); lia.
      - apply Z.div_unique with (lo + magic mod 2^k).
        + left. pose proof (Z.mod_pos_bound magic (2^k)); lia.
        + rewrite W. pose proof (Z_div_mod_eq_full magic (2^k)) as D. rewrite D at 1. ring. }
    rewrite A. destruct (Z.testbit w k); reflexivity. }
  destruct (Z.land _ _ =? 0) eqn:E; [|reflexivity].
  apply Z.eqb_eq in E. rewrite E, Z.bits_0 in T. discriminate.
Qed.

Lemma haszero_byte w i : 0 <= w < 2^64 -> 0 <= i < 8 -> (w / 2^(8*i)) mod 256 = 0 -> haszero w = true.
Proof.
  intros Hw Hi H0.
  assert (C : i = 0 \/ i = 1 \/ i = 2 \/ i = 3 \/ i = 4 \/ i = 5 \/ i = 6 \/ i = 7) by lia.
  assert (G : forall a b k, 2^(8*i) = a -> 256 * a = b -> b = 2^k -> 0 <= k < 64 ->
            a - 1 + magic mod 2^k < 2^k -> Z.even (magic / 2^k) = true ->
            Z.testbit (u64 (Z.lnot magic)) k = true -> haszero w = true).
  { intros a b k Ea Eb Ek Hk H1 H2 H3. rewrite Ea in H0.
    assert (Pa : 0 < a) by (rewrite <- Ea; apply Z.pow_pos_nonneg; lia).
    apply (haszero_gen w k (w mod a) (w / b)); try assumption.
    - rewrite <- Ek, <- Eb. pose proof (Z_div_mod_eq_full w a) as D.
      pose proof (Z_div_mod_eq_full (w / a) 256) as D2. rewrite Zdiv.Zdiv_Zdiv in D2 by lia.
      rewrite (Z.mul_comm a 256) in D2. rewrite H0 in D2. rewrite D at 1. rewrite D2. ring.
    - apply Z.mod_pos_bound; lia.
    - apply Z.div_pos; lia.
    - pose proof (Z.mod_pos_bound w a). lia. }
  destruct C as [->|[->|[->|[->|[->|[->|[->| ->]]]]]]].
  1-7: eapply G; [reflexivity|reflexivity|..];
    match goal with |- 256 * ?a = 2^?k => let v := eval vm_compute in (Z.log2 (256 * a)) in unify k v | _ => idtac end;
    try reflexivity; try lia; vm_compute; reflexivity.
  apply (haszero_gen w 63 w 0); try reflexivity; try lia.
  change (magic mod 2^63) with magic. unfold magic.
  change (2^(8*7)) with (2^56) in H0.
  assert (w / 2^56 < 256) by (apply Z.div_lt_upper_bound; lia).
  assert (0 <= w / 2^56) by (apply Z.div_pos; lia).
  rewrite Z.mod_small in H0 by lia.
  pose proof (Z_div_mod_eq_full w (2^56)). pose proof (Z.mod_pos_bound w (2^56)). lia.
Qed.

Lemma load_n_ok n m a : mapped m a (a + Z.of_nat n) ->
  exists l, load_n n m a = Ok l /\ length l = n /\
            forall j, 0 <= j < Z.of_nat n -> m (a + j) = Some (nth (Z.to_nat j) l 0).
Proof.
  revert a; induction n as [|n IH]; intros a Hm.
  - exists []. repeat split. lia.
  - cbn [load_n]. unfold load at 1.
    destruct (m a) as [b|] eqn:Ea; [|exfalso; apply (Hm a); [lia|exact Ea]].
    cbn [bind]. destruct (IH (a + 1)) as (l & -> & Hl & Hn).
    { intros x Hx. apply Hm. lia. }
    exists (b :: l). cbn. repeat split; [lia|]. intros j Hj.
    destruct (Z.eq_dec j 0) as [->|]; [rewrite Z.add_0_r; exact Ea|].
    replace (Z.to_nat j) with (S (Z.to_nat (j - 1))) by lia.
    replace (a + j) with (a + 1 + (j - 1)) by lia. apply Hn. lia.
Qed.

Lemma store_n_ok l : forall m a, mapped m a (a + Z.of_nat (length l)) ->
  exists m', store_n m a l = Ok m' /\
    forall x, m' x = if (a <=? x) && (x <? a + Z.of_nat (length l)) then Some (nth (Z.to_nat (x - a)) l 0) else m x.
Proof.
  induction l as [|b l IH]; intros m a Hm.
  - exists m. split; [reflexivity|]. intros x. cbn. replace ((a <=? x) && (x <? a + 0)) with false by lia. reflexivity.
  - cbn [store_n]. unfold store. destruct (m a) as [z|] eqn:Ea.
    2:{ exfalso; apply (Hm a); [cbn; lia|exact Ea]. }
    cbn [bind]. destruct (IH (upd m a b) (a + 1)) as (m' & -> & H).
    { intros x Hx. unfold upd. replace (x =? a) with false by lia. apply Hm. cbn. lia. }
    exists m'. split; [reflexivity|]. intros x. rewrite H. cbn [length].
    destruct (Z.eq_dec x a) as [->|Hne].
    + replace ((a + 1 <=? a) && _) with false by lia. unfold upd. rewrite Z.eqb_refl.
      replace ((a <=? a) && (a <? a + Z.of_nat (S (length l)))) with true by lia.
      rewrite Z.sub_diag. reflexivity.
    + unfold upd. replace (x =? a) with false by lia.
      replace ((a <=? x) && (x <? a + Z.of_nat (S (length l))))
        with ((a + 1 <=? x) && (x <? a + 1 + Z.of_nat (length l))) by lia.
      destruct ((a + 1 <=? x) && (x <? a + 1 + Z.of_nat (length l))) eqn:E; [|reflexivity].
      replace (Z.to_nat (x - a)) with (S (Z.to_nat (x - (a + 1)))) by lia. reflexivity.
Qed.

Lemma move_n n m d s : mapped m s (s + Z.of_nat n) -> mapped m d (d + Z.of_nat n) ->
  exists l m', load_n n m s = Ok l /\ store_n m d l = Ok m' /\ copied m m' d s (Z.of_nat n).
Proof.
  intros Hs Hd. destruct (load_n_ok n m s Hs) as (l & E & Hl & Hn).
  destruct (store_n_ok l m d) as (m' & E' & H); [rewrite Hl; exact Hd|].
  exists l, m'. repeat split; try assumption. intros x. rewrite H, Hl.
  destruct ((d <=? x) && (x <? d + Z.of_nat n)) eqn:B; [|reflexivity].
  symmetry. apply Hn. lia.
Qed.

Lemma copied_mapped m m' d s n a b : copied m m' d s n -> mapped m s (s + n) -> mapped m a b -> mapped m' a b.
Proof.
  intros C Hs Ha x Hx. rewrite C. destruct ((d <=? x) && (x <? d + n)) eqn:E; [apply Hs; lia|apply Ha; lia].
Qed.

(** bytes of a little-endian word *)
Lemma le_range l : (forall j, (j < length l)%nat -> 0 <= nth j l 0 < 256) -> 0 <= le l < 2^(8 * Z.of_nat (length l)).
Proof.
  induction l as [|b l IH]; intros H; [cbn; lia|].
  cbn [le length]. pose proof (H 0%nat ltac:(cbn; lia)) as H0. cbn in H0.
  assert (IH' : 0 <= le l < 2^(8 * Z.of_nat (length l))).
  { apply IH. intros j Hj. apply (H (S j)). cbn; lia. }
  replace (8 * Z.of_nat (S (length l))) with (8 + 8 * Z.of_nat (length l)) by lia.
  rewrite Z.pow_add_r by lia. change (2^8) with 256. lia.
Qed.
Lemma le_byte l : (forall j, (j < length l)%nat -> 0 <= nth j l 0 < 256) ->
  forall i, (i < length l)%nat -> (le l / 2^(8 * Z.of_nat i)) mod 256 = nth i l 0.
Proof.
  induction l as [|b l IH]; intros H i Hi; [cbn in Hi; lia|].
  pose proof (H 0%nat ltac:(cbn; lia)) as H0. cbn in H0. cbn [le].
  destruct i as [|i].
  - change (2^(8 * Z.of_nat 0)) with 1. rewrite Z.div_1_r. cbn [nth].
    rewrite Z.mul_comm, Z_mod_plus_full. apply Z.mod_small; lia.
  - replace (8 * Z.of_nat (S i)) with (8 + 8 * Z.of_nat i) by lia.
    rewrite Z.pow_add_r by lia. change (2^8) with 256.
    rewrite <- Zdiv.Zdiv_Zdiv by lia.
    replace ((b + 256 * le l) / 256) with (le l) by (apply Z.div_unique with b; lia).
    cbn [nth]. apply IH; [intros j Hj; apply (H (S j)); cbn; lia|cbn in Hi; lia].
Qed.

Lemma lxor_byte a b i : 0 <= a -> 0 <= b -> 0 <= i ->
  (Z.lxor a b / 2^i) mod 256 = Z.lxor ((a / 2^i) mod 256) ((b / 2^i) mod 256).
Proof.
  intros Ha Hb Hi. rewrite <- !Z.shiftr_div_pow2 by lia. rewrite Z.shiftr_lxor.
  change 256 with (2^8). rewrite <- !Z.land_ones by lia.
  apply Z.bits_inj'. intros n Hn. rewrite Z.land_spec, !Z.lxor_spec, !Z.land_spec.
  destruct (Z.testbit (Z.shiftr a i) n), (Z.testbit (Z.shiftr b i) n), (Z.testbit (Z.ones 8) n); reflexivity.
Qed.

Lemma mask_byte c i : 0 <= c < 256 -> 0 <= i < 8 -> (u64 (0x0101010101010101 * c) / 2^(8*i)) mod 256 = c.
Proof.
  intros Hc Hi.
  assert (u64 (0x0101010101010101 * c) = le [c;c;c;c;c;c;c;c]) as ->.
  { unfold u64. rewrite Z.mod_small by lia. cbn [le]. ring. }
  replace i with (Z.of_nat (Z.to_nat i)) by lia. rewrite le_byte.
  - assert (C : i = 0 \/ i = 1 \/ i = 2 \/ i = 3 \/ i = 4 \/ i = 5 \/ i = 6 \/ i = 7) by lia.
    destruct C as [->|[->|[->|[->|[->|[->|[->| ->]]]]]]]; reflexivity.
  - intros j Hj. cbn in Hj. do 8 (destruct j as [|j]; [cbn; lia|]). lia.
  - cbn; lia.
Qed.

Lemma lxor_range a b n : 0 <= a < 2^n -> 0 <= b < 2^n -> 0 <= n -> 0 <= Z.lxor a b < 2^n.
Proof.
  intros Ha Hb Hn. assert (0 <= Z.lxor a b) by (apply Z.lxor_nonneg; lia). split; [assumption|].
  destruct (Z.eq_dec (Z.lxor a b) 0) as [->|]; [apply Z.pow_pos_nonneg; lia|].
  apply Z.log2_lt_pow2; [lia|].
  assert (0 < a \/ 0 < b) as D.
  { destruct (Z.eq_dec a 0), (Z.eq_dec b 0); subst; try lia. cbn in *. lia. }
  assert (LA : Z.log2 a < n \/ a = 0).
  { destruct (Z.eq_dec a 0); [right; lia|left; apply Z.log2_lt_pow2; lia]. }
  assert (LB : Z.log2 b < n \/ b = 0).
  { destruct (Z.eq_dec b 0); [right; lia|left; apply Z.log2_lt_pow2; lia]. }
  pose proof (Z.log2_lxor a b ltac:(lia) ltac:(lia)).
  change (Z.log2 0) with 0 in *.
  assert (0 < n). { destruct (Z.eq_dec n 0); [subst; change (2^0) with 1 in *; lia|lia]. }
  destruct LA as [LA| ->], LB as [LB| ->]; change (Z.log2 0) with 0 in *; try lia.
Qed.

Lemma word_ok m p : mem_ok m -> mapped m p (p + 8) ->
  exists w, load64 m p = Ok w /\
    (forall i, 0 <= i < 8 -> m (p + i) = Some 0 -> haszero w = true) /\
    (forall c i, 0 <= c < 256 -> 0 <= i < 8 -> m (p + i) = Some c ->
       haszero (Z.lxor w (u64 (0x0101010101010101 * c))) = true).
Proof.
  intros Hok Hm. destruct (load_n_ok 8 m p) as (l & E & Hl & Hn); [exact Hm|].
  unfold load64. rewrite E. cbn [bind]. exists (le l). split; [reflexivity|].
  assert (R : forall j, (j < length l)%nat -> 0 <= nth j l 0 < 256).
  { intros j Hj. specialize (Hn (Z.of_nat j) ltac:(lia)). rewrite Nat2Z.id in Hn.
    apply (Hok _ _ Hn). }
  pose proof (le_range l R) as RW. rewrite Hl in RW. change (2^(8 * Z.of_nat 8)) with (2^64) in RW.
  assert (B : forall i b, 0 <= i < 8 -> m (p + i) = Some b -> (le l / 2^(8 * i)) mod 256 = b).
  { intros i b Hi Hb. pose proof (Hn i ltac:(lia)) as Hx. rewrite Hb in Hx. injection Hx as ->.
    rewrite <- (le_byte l R (Z.to_nat i)) by lia. do 3 f_equal. lia. }
  split.
  - intros i Hi H0. apply (haszero_byte _ i); try lia. apply B; assumption.
  - intros c i Hc Hi H0. apply (haszero_byte _ i); try lia.
    + apply lxor_range; try lia. unfold u64. apply Z.mod_pos_bound. lia.
    + rewrite lxor_byte; try lia; [|unfold u64; apply Z.mod_pos_bound; lia].
      rewrite (B i c Hi H0), mask_byte by lia. apply Z.lxor_nilpotent.
Qed.

Lemma scan_ok {A} n m (f : Z -> Z -> option A) : forall p, mapped m p (p + Z.of_nat n) ->
  (scan n m p f = Ok None /\ forall x b, p <= x < p + Z.of_nat n -> m x = Some b -> f x b = None) \/
  (exists x b r, p <= x < p + Z.of_nat n /\ m x = Some b /\ f x b = Some r /\ scan n m p f = Ok (Some r) /\
     forall y b', p <= y < x -> m y = Some b' -> f y b' = None).
Proof.
  induction n as [|n IH]; intros p Hm.
  - left. split; [reflexivity|]. lia.
  - cbn [scan]. unfold load at 1 2. destruct (m p) as [b|] eqn:Ep; [|exfalso; apply (Hm p); [lia|exact Ep]].
    cbn [bind]. destruct (f p b) as [r|] eqn:Ef.
    + right. exists p, b, r. repeat split; try assumption; try lia.
    + destruct (IH (p + 1)) as [[E N]|(x & b2 & r & Hx & Hb & Hr & E & N)].
      { intros x Hx. apply Hm. lia. }
      * left. split; [exact E|]. intros x b2 Hx Hb. destruct (Z.eq_dec x p) as [->|]; [congruence|].
        apply N; [lia|assumption].
      * right. exists x, b2, r. repeat split; try assumption; try lia.
        intros y b' Hy Hb'. destruct (Z.eq_dec y p) as [->|]; [congruence|]. apply N; [lia|assumption].
Qed.

(** ** strlen *)
Lemma strlen_pre_ok fuel m z : m z = Some 0 -> forall e,
  e <= z -> (forall x, e <= x < z -> exists b, m x = Some b /\ b <> 0) -> (Z.to_nat ((- e) mod 8) < fuel)%nat ->
  strlen_pre fuel m e = Ok (true, z) \/
  exists e', strlen_pre fuel m e = Ok (false, e') /\ e <= e' <= z /\ e' mod 8 = 0.
Proof.
  intros H0. induction fuel as [|f IH]; intros e He Hn Hf; [lia|].
  cbn [strlen_pre]. destruct (e mod 8 =? 0) eqn:E; [right; exists e; repeat split; lia|].
  destruct (Z.eq_dec e z) as [->|].
  - left. unfold load. rewrite H0. reflexivity.
  - destruct (Hn e) as (b & Hb & Hb0); [lia|]. unfold load. rewrite Hb. cbn [bind].
    replace (b =? 0) with false by lia.
    destruct (IH (e + 1)) as [G|(e' & G & ? & ?)]; try lia.
    + intros x Hx. apply Hn. lia.
    + left. exact G.
    + right. exists e'. repeat split; try assumption; lia.
Qed.
Lemma strlen_vec_ok fuel m z : mem_ok m -> m z = Some 0 -> forall e,
  e <= z -> e mod 8 = 0 -> (forall x, e <= x < z -> exists b, m x = Some b /\ b <> 0) -> words m e z ->
  (Z.to_nat ((z - e) / 8) < fuel)%nat -> strlen_vec fuel m e = Ok z.
Proof.
  intros Hok H0. induction fuel as [|f IH]; intros e He Ha Hn Hw Hf; [lia|].
  cbn [strlen_vec].
  assert (Hm : mapped m e (e + 8)) by (intros x Hx; apply Hw; lia).
  destruct (word_ok m e Hok Hm) as (w & -> & T & _). cbn [bind].
  assert (S := scan_ok 8 m (fun a b => if b =? 0 then Some a else None) e Hm). change (Z.of_nat 8) with 8 in S.
  destruct (Z.ltb_spec z (e + 8)).
  - rewrite (T (z - e)); [|lia|rewrite <- H0; f_equal; lia].
    destruct S as [[-> N]|(x & b & r & Hx & Hb & Hr & -> & N)].
    + specialize (N z 0 ltac:(lia) H0). discriminate.
    + destruct (b =? 0) eqn:Eb; [|discriminate]. injection Hr as <-. cbn [bind]. f_equal.
      destruct (Z.eq_dec x z) as [|Hne]; [assumption|exfalso].
      destruct (Z.ltb_spec x z).
      * destruct (Hn x) as (b' & Hb' & Hne'); [lia|]. rewrite Hb in Hb'. injection Hb' as ->. lia.
      * specialize (N z 0 ltac:(lia) H0). discriminate.
  - assert (Z1 : forall x b, e <= x < e + 8 -> m x = Some b -> b =? 0 = false).
    { intros x b Hx Hb. destruct (Hn x) as (b' & Hb' & Hne'); [lia|]. rewrite Hb in Hb'. injection Hb' as ->. lia. }
    destruct S as [[-> N]|(x & b & r & Hx & Hb & Hr & _)].
    2:{ rewrite (Z1 x b Hx Hb) in Hr. discriminate. }
    assert (forall h : bool, bind (if h then Ok (@None Z) else Ok None)
       (fun r => match r with Some a => Ok a | None => strlen_vec f m (e + 8) end) = strlen_vec f m (e + 8)) as ->
      by (intros []; reflexivity).
    apply IH; try lia.
    + intros x Hx. apply Hn. lia.
    + intros x Hx. apply Hw. lia.
Qed.

Theorem strlen_ok fuel m a n : mem_ok m -> is_str m a n -> words m a (a + n) -> (Z.to_nat n + 8 < fuel)%nat ->
  strlen fuel m a = Ok n.
Proof.
  intros Hok (Hn & Hs & H0) Hw Hf. unfold strlen.
  assert (Bn : u32 n = n).
  { unfold u32. apply Z.mod_small. destruct (Hok _ _ H0) as [? _].
    destruct (Z.eq_dec n 0); [lia|]. destruct (Hs a) as (b & Hb & _); [lia|]. destruct (Hok _ _ Hb). lia. }
  destruct (strlen_pre_ok fuel m (a + n) H0 a) as [->|(e & -> & He & Ha)]; try assumption; try lia.
  - cbn [bind]. f_equal. replace (a + n - a) with n by lia. exact Bn.
  - cbn [bind]. rewrite (strlen_vec_ok fuel m (a + n) Hok H0 e); try assumption; try lia.
    + cbn [bind]. f_equal. replace (a + n - a) with n by lia. exact Bn.
    + intros x Hx. apply Hs. lia.
    + intros x Hx. apply Hw. lia.
Qed.

(** ** memchr *)
Section memchr.
Variables (m : mem) (c E : Z).
Hypothesis Hok : mem_ok m.
Hypothesis Hc : 0 <= c < 256.
(** [E] = end of the range; [z] = first occurrence, or [E] *)
Variable z : Z.
Hypothesis Hz : z <= E.
Hypothesis Hzc : z < E -> m z = Some c.

Definition upto (p : Z) : Prop :=
  p <= z /\ (forall x, p <= x < z -> m x <> Some c) /\ (forall x, p <= x < E -> x / 8 <= z / 8 -> m x <> None).

Lemma upto_weaken p q : upto p -> p <= q <= z -> upto q.
Proof.
  intros (H1 & H2 & H3) Hq. split; [lia|]. split.
  - intros x Hx; apply H2; lia.
  - intros x Hx; apply H3; lia.
Qed.
Lemma upto_load p : upto p -> p < E -> exists b, load m p = Ok b /\ m p = Some b /\ (b = c <-> p = z).
Proof.
  intros (H1 & H2 & H3) Hp. destruct (m p) as [b|] eqn:Eb.
  - exists b. unfold load. rewrite Eb. repeat split; try reflexivity.
    + intros ->. destruct (Z.eq_dec p z); [assumption|exfalso; apply (H2 p); [lia|exact Eb]].
    + intros ->. specialize (Hzc ltac:(lia)). congruence.
  - exfalso. apply (H3 p); [lia|lia|exact Eb].
Qed.

Lemma memchr_pre_ok fuel : forall p len, upto p -> len = E - p -> 0 <= len < 2^32 ->
  (Z.to_nat ((- p) mod 8) < fuel)%nat -> ((- p) mod 8 <= len \/ z < E) ->
  (exists l, z < E /\ memchr_pre fuel m p c len = Ok (Some z, z, l)) \/
  (exists q, memchr_pre fuel m p c len = Ok (None, q, E - q) /\ p <= q <= z /\ q mod 8 = 0).
Proof.
  induction fuel as [|f IH]; intros p len Hu Hl Hr Hf Ha; [lia|].
  cbn [memchr_pre]. destruct (p mod 8 =? 0) eqn:Ep.
  { right. exists p. subst len. repeat split; try lia. apply Hu. }
  destruct (len =? 0) eqn:El.
  { exfalso. destruct Hu as (H1 & _). lia. }
  destruct (upto_load p Hu ltac:(lia)) as (b & -> & Hb & Hbz). cbn [bind].
  destruct (b =? c) eqn:Ebc.
  - left. assert (p = z) as <- by (apply Hbz; lia). eexists. split; [lia|reflexivity].
  - assert (p <> z) by (intros E'; apply Hbz in E'; lia).
    assert (Hpz : p < z) by (destruct Hu; lia).
    unfold u32. rewrite Z.mod_small by lia.
    destruct (IH (p + 1) (len - 1)) as [(l & ? & ->)|(q & -> & ? & ?)]; try lia.
    + apply (upto_weaken p); [exact Hu|lia].
    + left. exists l. split; [assumption|reflexivity].
    + right. exists q. repeat split; try assumption; lia.
Qed.

Lemma memchr_vec_ok fuel : forall p len, upto p -> p mod 8 = 0 -> len = E - p -> 0 <= len < 2^32 ->
  (Z.to_nat (len / 8) < fuel)%nat ->
  (exists q l, z < E /\ memchr_vec fuel m p c len = Ok (Some z, q, l)) \/
  (exists q, memchr_vec fuel m p c len = Ok (None, q, E - q) /\ p <= q <= z /\ E - q < 8).
Proof.
  induction fuel as [|f IH]; intros p len Hu Ha Hl Hr Hf; [lia|].
  cbn [memchr_vec]. destruct (len <? 8) eqn:E8.
  { right. exists p. subst len. repeat split; try lia. apply Hu. }
  assert (Hm : mapped m p (p + 8)).
  { intros x Hx. apply Hu; [lia|]. destruct Hu. lia. }
  destruct (word_ok m p Hok Hm) as (w & -> & _ & T). cbn [bind].
  assert (S := scan_ok 8 m (fun a b => if b =? c then Some a else None) p Hm). change (Z.of_nat 8) with 8 in S.
  destruct (Z.ltb_spec z (p + 8)).
  - rewrite (T c (z - p)); [|lia|destruct Hu; lia|rewrite <- Hzc by lia; f_equal; lia].
    assert (Fz : m z = Some c) by (apply Hzc; lia).
    destruct S as [[-> N]|(x & b & r & Hx & Hb & Hrr & -> & N)].
    + specialize (N z c ltac:(destruct Hu; lia) Fz). cbn in N. rewrite Z.eqb_refl in N. discriminate.
    + destruct (b =? c) eqn:Eb; [|discriminate]. injection Hrr as <-. cbn [bind].
      assert (x = z) as ->.
      { assert (b = c) as -> by lia. destruct (Z.ltb_spec x z).
        - destruct Hu as (_ & H2 & _). exfalso. apply (H2 x); [lia|exact Hb].
        - destruct (Z.ltb_spec z x); [|lia].
          specialize (N z c ltac:(destruct Hu; lia) Fz). cbn in N. rewrite Z.eqb_refl in N. discriminate. }
      left. do 2 eexists. split; [lia|reflexivity].
  - assert (Z1 : forall x b, p <= x < p + 8 -> m x = Some b -> b =? c = false).
    { intros x b Hx Hb. destruct (b =? c) eqn:Eb; [|reflexivity]. assert (b = c) as -> by lia.
      destruct Hu as (_ & H2 & _). exfalso. apply (H2 x); [lia|exact Hb]. }
    destruct S as [[-> N]|(x & b & r & Hx & Hb & Hrr & _)].
    2:{ rewrite (Z1 x b Hx Hb) in Hrr. discriminate. }
    assert (G : forall h : bool, bind (if h then Ok (@None Z) else Ok None)
       (fun r => match r with Some a => Ok (Some a, p, len) | None => memchr_vec f m (p + 8) c (u32 (len - 8)) end) = memchr_vec f m (p + 8) c (u32 (len - 8)))
      by (intros []; reflexivity). rewrite G.
    unfold u32. rewrite Z.mod_small by lia.
    destruct (IH (p + 8) (len - 8)) as [(q & l & ? & ->)|(q & -> & ? & ?)]; try lia.
    + apply (upto_weaken p); [exact Hu|lia].
    + left. exists q, l. split; [assumption|reflexivity].
    + right. exists q. repeat split; try assumption; lia.
Qed.

Lemma memchr_tail_ok fuel : forall p len, upto p -> len = E - p -> 0 <= len < 2^32 ->
  (Z.to_nat len < fuel)%nat -> memchr_tail fuel m p c len = Ok (if z <? E then Some z else None).
Proof.
  induction fuel as [|f IH]; intros p len Hu Hl Hr Hf; [lia|].
  cbn [memchr_tail]. destruct (len =? 0) eqn:El.
  { destruct Hu. replace (z <? E) with false by lia. reflexivity. }
  destruct (upto_load p Hu ltac:(lia)) as (b & -> & Hb & Hbz). cbn [bind].
  destruct (b =? c) eqn:Ebc.
  - assert (p = z) as <- by (apply Hbz; lia). replace (p <? E) with true by lia. reflexivity.
  - assert (p <> z) by (intros E'; apply Hbz in E'; lia).
    assert (Hpz : p < z) by (destruct Hu; lia).
    unfold u32. rewrite Z.mod_small by lia. apply IH; try lia. apply (upto_weaken p); [exact Hu|lia].
Qed.

Lemma memchr_gen fuel p ch len : c = u8 ch -> upto p -> len = E - p -> 0 <= len < 2^32 ->
  ((- p) mod 8 <= len \/ z < E) -> (Z.to_nat len + 8 < fuel)%nat ->
  memchr fuel m p ch len = Ok (if z <? E then Some z else None).
Proof.
  intros Ec Hu Hl Hr Ha Hf. unfold memchr. rewrite <- Ec.
  destruct (memchr_pre_ok fuel p len) as [(l & ? & ->)|(q & -> & ? & ?)]; try assumption; try lia.
  { cbn [bind]. replace (z <? E) with true by lia. reflexivity. }
  cbn [bind]. assert (Hu2 : upto q) by (apply (upto_weaken p); assumption).
  destruct (memchr_vec_ok fuel q (E - q)) as [(q2 & l & ? & ->)|(q2 & -> & ? & ?)]; try assumption; try lia.
  { cbn [bind]. replace (z <? E) with true by lia. reflexivity. }
  cbn [bind]. apply memchr_tail_ok; try lia. apply (upto_weaken q); assumption.
Qed.
End memchr.

Theorem memchr_found fuel m p ch len z : mem_ok m -> 0 <= len < 2^32 ->
  first_of m p (p + len) (u8 ch) z -> (forall x, p <= x < p + len -> x / 8 <= z / 8 -> m x <> None) ->
  (Z.to_nat len + 8 < fuel)%nat -> memchr fuel m p ch len = Ok (Some z).
Proof.
  intros Hok Hl (Hz & Hzc & Hb) Hm Hf.
  rewrite (memchr_gen m (u8 ch) (p + len) Hok ltac:(unfold u8; apply Z.mod_pos_bound; lia) z); try lia.
  - replace (z <? p + len) with true by lia. reflexivity.
  - intros _; exact Hzc.
  - split; [lia|]. split; assumption.
Qed.
Theorem memchr_absent fuel m p ch len : mem_ok m -> 0 <= len < 2^32 -> (- p) mod 8 <= len ->
  absent m p (p + len) (u8 ch) -> mapped m p (p + len) ->
  (Z.to_nat len + 8 < fuel)%nat -> memchr fuel m p ch len = Ok None.
Proof.
  intros Hok Hl Ha Hn Hm Hf.
  rewrite (memchr_gen m (u8 ch) (p + len) Hok ltac:(unfold u8; apply Z.mod_pos_bound; lia) (p + len)); try lia.
  - rewrite Z.ltb_irrefl. reflexivity.
  - split; [lia|]. split; [exact Hn|]. intros x Hx _. apply Hm. lia.
Qed.

(** ** strchr *)
Section strchr.
Variables (m : mem) (c e z : Z).
Hypothesis Hok : mem_ok m.
Hypothesis Hc : 0 <= c < 256.
(** [e] the terminator, [z] the first occurrence of [c] or [e] *)
Hypothesis H0 : m e = Some 0.
Hypothesis Hze : z <= e.
Hypothesis Hzc : z < e -> m z = Some c.
Definition good (p : Z) : Prop :=
  p <= z /\ (forall x, p <= x < z -> exists b, m x = Some b /\ b <> 0 /\ b <> c) /\ words m p z.
Definition ans : option Z := if (z <? e) || (c =? 0) then Some z else None.

Lemma good_weaken p q : good p -> p <= q <= z -> good q.
Proof.
  intros (H1 & H2 & H3) Hq. split; [lia|]. split.
  - intros x Hx; apply H2; lia.
  - intros x Hx; apply H3; lia.
Qed.
Lemma at_z : exists b, m z = Some b /\ (if b =? c then Some z else if b =? 0 then None else Some (-1)) = ans
   /\ (b = c \/ b = 0).
Proof.
  unfold ans. destruct (Z.ltb_spec z e).
  - exists c. rewrite Hzc by assumption. rewrite Z.eqb_refl. auto.
  - assert (z = e) as -> by lia. exists 0. rewrite H0. rewrite (Z.eqb_sym 0 c). cbn [orb].
    destruct (c =? 0); auto.
Qed.

Lemma strchr_pre_ok fuel : forall p, good p -> (Z.to_nat ((- p) mod 8) < fuel)%nat ->
  (exists q, strchr_pre fuel m p c = Ok (Some ans, q)) \/
  (exists q, strchr_pre fuel m p c = Ok (None, q) /\ p <= q <= z /\ q mod 8 = 0).
Proof.
  induction fuel as [|f IH]; intros p Hg Hf; [lia|].
  cbn [strchr_pre]. destruct (p mod 8 =? 0) eqn:Ep.
  { right. exists p. repeat split; try lia. apply Hg. }
  destruct (Z.eq_dec p z) as [->|].
  - destruct at_z as (b & Hb & Ha & D). unfold load. rewrite Hb. cbn [bind]. left. exists z.
    destruct (b =? c) eqn:Ebc0; [rewrite Ha; reflexivity|]. destruct (b =? 0) eqn:Eb; [rewrite Ha; reflexivity|lia].
  - assert (Hpz : p < z) by (destruct Hg; lia).
    destruct Hg as (G1 & G2 & G3). destruct (G2 p) as (b & Hb & Hb0 & Hbc); [lia|].
    unfold load. rewrite Hb. cbn [bind]. replace (b =? c) with false by lia. replace (b =? 0) with false by lia.
    destruct (IH (p + 1)) as [(q & ->)|(q & -> & ? & ?)]; try lia.
    + apply (good_weaken p); [split; [|split]; assumption|lia].
    + left. exists q. reflexivity.
    + right. exists q. repeat split; try assumption; lia.
Qed.

Lemma strchr_vec_ok fuel : forall p, good p -> p mod 8 = 0 -> (Z.to_nat ((z - p) / 8) < fuel)%nat ->
  strchr_vec fuel m p c = Ok ans.
Proof.
  induction fuel as [|f IH]; intros p Hg Ha Hf; [lia|].
  cbn [strchr_vec].
  assert (Hm : mapped m p (p + 8)).
  { intros x Hx. apply Hg; [lia|]. destruct Hg. lia. }
  destruct (word_ok m p Hok Hm) as (w & -> & T0 & T). cbn [bind].
  set (F := fun a b => if b =? c then Some (Some a) else if b =? 0 then Some None else None).
  assert (S := scan_ok 8 m F p Hm). change (Z.of_nat 8) with 8 in S.
  destruct (Z.ltb_spec z (p + 8)).
  - destruct at_z as (b & Hb & Hans & D).
    assert (haszero (Z.lxor w (u64 (0x0101010101010101 * c))) || haszero w = true) as ->.
    { apply orb_true_iff. destruct D as [-> | ->].
      - left. apply (T c (z - p)); [lia|destruct Hg; lia|]. rewrite <- Hb. f_equal. lia.
      - right. apply (T0 (z - p)); [destruct Hg; lia|]. rewrite <- Hb. f_equal. lia. }
    assert (Fz : F z b = Some ans).
    { unfold F. destruct (b =? c) eqn:Ebc0; [rewrite Hans; reflexivity|].
      destruct (b =? 0) eqn:Eb; [rewrite Hans; reflexivity|lia]. }
    destruct S as [[-> N]|(x & b2 & r & Hx & Hb2 & Hr & -> & N)].
    + specialize (N z b ltac:(destruct Hg; lia) Hb). congruence.
    + cbn [bind]. f_equal. assert (x = z) as ->.
      { destruct (Z.ltb_spec x z).
        - destruct Hg as (_ & G2 & _). destruct (G2 x) as (b' & Hb' & ? & ?); [lia|].
          rewrite Hb2 in Hb'. injection Hb' as ->. unfold F in Hr.
          replace (b' =? c) with false in Hr by lia. replace (b' =? 0) with false in Hr by lia. discriminate.
        - destruct (Z.ltb_spec z x); [|lia].
          specialize (N z b ltac:(destruct Hg; lia) Hb). congruence. }
      congruence.
  - assert (Z1 : forall x b, p <= x < p + 8 -> m x = Some b -> F x b = None).
    { intros x b Hx Hb. destruct Hg as (_ & G2 & _). destruct (G2 x) as (b' & Hb' & ? & ?); [lia|].
      rewrite Hb in Hb'. injection Hb' as ->. unfold F.
      replace (b' =? c) with false by lia. replace (b' =? 0) with false by lia. reflexivity. }
    destruct S as [[-> N]|(x & b & r & Hx & Hb & Hr & _)].
    2:{ rewrite (Z1 x b Hx Hb) in Hr. discriminate. }
    assert (G : forall h : bool, bind (if h then Ok (@None (option Z)) else Ok None)
       (fun r => match r with Some x => Ok x | None => strchr_vec f m (p + 8) c end) = strchr_vec f m (p + 8) c)
      by (intros []; reflexivity). rewrite G.
    apply IH; try lia. apply (good_weaken p); [exact Hg|lia].
Qed.

Lemma strchr_gen fuel p ch : c = u8 ch -> good p -> (Z.to_nat (z - p) + 8 < fuel)%nat -> strchr fuel m p ch = Ok ans.
Proof.
  intros Ec Hg Hf. unfold strchr. rewrite <- Ec.
  destruct (strchr_pre_ok fuel p) as [(q & ->)|(q & -> & ? & ?)]; try assumption; try lia; [reflexivity|].
  cbn [bind]. apply strchr_vec_ok; try assumption; try lia. apply (good_weaken p); assumption.
Qed.
End strchr.

(** decidable search of the first occurrence *)
Lemma first_or_absent m c a n : 0 <= n -> (exists z, first_of m a (a + n) c z) \/ absent m a (a + n) c.
Proof.
  intros Hn. pattern n. apply natlike_ind; [right; intros x Hx; lia| |exact Hn].
  clear n Hn. intros n Hn [[z (Hz & H1 & H2)]|Hab].
  - left. exists z. repeat split; try assumption; lia.
  - assert (D : m (a + n) = Some c \/ m (a + n) <> Some c).
    { destruct (m (a + n)) as [b|]; [|right; discriminate].
      destruct (Z.eq_dec b c) as [->|]; [left; reflexivity|right; congruence]. }
    destruct D as [D|D].
    + left. exists (a + n). split; [lia|]. split; [exact D|exact Hab].
    + right. intros x Hx. destruct (Z.eq_dec x (a + n)) as [->|]; [exact D|apply Hab; lia].
Qed.

(** The string ends at [a + n]; the searched range includes the terminator. *)
Theorem strchr_found fuel m a n ch z : mem_ok m -> is_str m a n -> first_of m a (a + n + 1) (u8 ch) z ->
  words m a z -> (Z.to_nat n + 8 < fuel)%nat -> strchr fuel m a ch = Ok (Some z).
Proof.
  intros Hok (Hn & Hs & H0) (Hz & Hzc & Hb) Hw Hf.
  assert (R : 0 <= u8 ch < 256) by (unfold u8; apply Z.mod_pos_bound; lia).
  rewrite (strchr_gen m (u8 ch) (a + n) z Hok R H0); try lia; try reflexivity.
  - unfold ans. destruct (Z.ltb_spec z (a + n)); [reflexivity|].
    assert (z = a + n) as -> by lia. rewrite H0 in Hzc. injection Hzc as <-. reflexivity.
  - intros _; exact Hzc.
  - split; [lia|]. split; [|exact Hw]. intros x Hx. destruct (Hs x) as (b & Eb & Nb); [lia|].
    exists b. repeat split; try assumption. intros ->. apply (Hb x); [lia|exact Eb].
Qed.
Theorem strchr_absent fuel m a n ch : mem_ok m -> is_str m a n -> absent m a (a + n + 1) (u8 ch) ->
  words m a (a + n) -> (Z.to_nat n + 8 < fuel)%nat -> strchr fuel m a ch = Ok None.
Proof.
  intros Hok (Hn & Hs & H0) Hb Hw Hf.
  assert (R : 0 <= u8 ch < 256) by (unfold u8; apply Z.mod_pos_bound; lia).
  rewrite (strchr_gen m (u8 ch) (a + n) (a + n) Hok R H0); try lia; try reflexivity.
  - unfold ans. rewrite Z.ltb_irrefl. cbn [orb]. destruct (u8 ch =? 0) eqn:E; [|reflexivity].
    exfalso. apply (Hb (a + n)); [lia|]. rewrite H0. f_equal. lia.
  - split; [lia|]. split; [|exact Hw]. intros x Hx. destruct (Hs x) as (b & Eb & Nb); [lia|].
    exists b. repeat split; try assumption. intros ->. apply (Hb x); [lia|exact Eb].
Qed.
