(** Properties C34, C35, C37, C40, C41, C42. *)
From Verif Require Import Base Ctype_Spec Stdlib_Model Stdlib_Spec Stdlib_Proof.
Open Scope Z_scope.
Ltac bytes := repeat (apply Forall_cons; [unfold is_byte; lia|]); apply Forall_nil.

(** ** C34 strtol, strtoul, strtoll, strtoull *)
(** Every byte string has a reading in every base. *)
Theorem C34_every_string_reads : forall base s, exists neg mag len, reading base s neg mag len.
Proof. exact reading_total. Qed.
Print Assumptions C34_every_string_reads.
(** strtol; the one exception is -2^31 exactly, see the refutation *)
Theorem C34_strtol_partial : forall s base neg mag len, Forall is_byte s -> base = 0 \/ 2 <= base <= 36 ->
  reading base s neg mag len -> ~ (neg = true /\ mag = 2^31) ->
  strtol s base = Ok (let v := if neg then - mag else mag in
    if v <? - 2^31 then mk_parsed (- 2^31) len true
    else if 2^31 - 1 <? v then mk_parsed (2^31 - 1) len true
    else mk_parsed v len false).
Proof.
  intros s base neg mag len Hb Hbase R H. unfold strtol.
  replace (u32 base) with base by (unfold u32; rewrite Z.mod_small; lia).
  rewrite (parseint_ok 32 true s base _ neg mag len) by (assumption || lia).
  pose proof (reading_nonneg base s neg mag len Hbase R) as Hm. change (2^31 - 1) with (2^(32-1) - 1).
  rewrite conclude_signed by lia. change (2^(32-1)) with (2^31). cbv zeta. destruct neg.
  - destruct (Z.eqb_spec mag (2^31)); [tauto|]. destruct (Z.ltb_spec (2^31) mag), (Z.ltb_spec (- mag) (-2^31)); try lia; [reflexivity|].
    destruct (Z.ltb_spec (2^31-1) (- mag)); [lia|reflexivity].
  - destruct (Z.ltb_spec mag (-2^31)); [lia|]. destruct (Z.ltb_spec (2^31-1) mag); reflexivity.
Qed.
Print Assumptions C34_strtol_partial.
Theorem C34_strtoll_partial : forall s base neg mag len, Forall is_byte s -> base = 0 \/ 2 <= base <= 36 ->
  reading base s neg mag len -> ~ (neg = true /\ mag = 2^63) ->
  strtoll s base = Ok (let v := if neg then - mag else mag in
    if v <? - 2^63 then mk_parsed (- 2^63) len true
    else if 2^63 - 1 <? v then mk_parsed (2^63 - 1) len true
    else mk_parsed v len false).
Proof.
  intros s base neg mag len Hb Hbase R H. unfold strtoll.
  replace (u32 base) with base by (unfold u32; rewrite Z.mod_small; lia).
  rewrite (parseint_ok 64 true s base _ neg mag len) by (assumption || lia).
  pose proof (reading_nonneg base s neg mag len Hbase R) as Hm. change (2^63 - 1) with (2^(64-1) - 1).
  rewrite conclude_signed by lia. change (2^(64-1)) with (2^63). cbv zeta. destruct neg.
  - destruct (Z.eqb_spec mag (2^63)); [tauto|]. destruct (Z.ltb_spec (2^63) mag), (Z.ltb_spec (- mag) (-2^63)); try lia; [reflexivity|].
    destruct (Z.ltb_spec (2^63-1) (- mag)); [lia|reflexivity].
  - destruct (Z.ltb_spec mag (-2^63)); [lia|]. destruct (Z.ltb_spec (2^63-1) mag); reflexivity.
Qed.
Print Assumptions C34_strtoll_partial.
Theorem C34_strtoul : forall s base neg mag len, Forall is_byte s -> base = 0 \/ 2 <= base <= 36 ->
  reading base s neg mag len ->
  strtoul s base = Ok (if 2^32 - 1 <? mag then mk_parsed (2^32 - 1) len true
                       else mk_parsed (if neg then (- mag) mod 2^32 else mag) len false).
Proof.
  intros s base neg mag len Hb Hbase R. unfold strtoul.
  replace (u32 base) with base by (unfold u32; rewrite Z.mod_small; lia).
  rewrite (parseint_ok 32 false s base _ neg mag len) by (assumption || lia).
  pose proof (reading_nonneg base s neg mag len Hbase R) as Hm.
  rewrite conclude_unsigned by lia. destruct (2^32 - 1 <? mag); reflexivity.
Qed.
Print Assumptions C34_strtoul.
Theorem C34_strtoull : forall s base neg mag len, Forall is_byte s -> base = 0 \/ 2 <= base <= 36 ->
  reading base s neg mag len ->
  strtoull s base = Ok (if 2^64 - 1 <? mag then mk_parsed (2^64 - 1) len true
                       else mk_parsed (if neg then (- mag) mod 2^64 else mag) len false).
Proof.
  intros s base neg mag len Hb Hbase R. unfold strtoull.
  replace (u32 base) with base by (unfold u32; rewrite Z.mod_small; lia).
  rewrite (parseint_ok 64 false s base _ neg mag len) by (assumption || lia).
  pose proof (reading_nonneg base s neg mag len Hbase R) as Hm.
  rewrite conclude_unsigned by lia. destruct (2^64 - 1 <? mag); reflexivity.
Qed.
Print Assumptions C34_strtoull.
(** " -0x1Fg" in base 0 *)
Example C34_ex : reading 0 [32;45;48;120;49;70;103] true 31 6 /\
  strtol [32;45;48;120;49;70;103] 0 = Ok (mk_parsed (-31) 6 false) /\
  strtoul [32;45;48;120;49;70;103] 16 = Ok (mk_parsed (2^32 - 31) 6 false) /\
  strtol [48;120;103] 16 = Ok (mk_parsed 0 1 false) /\ strtol [43;103] 10 = Ok (mk_parsed 0 0 false).
Proof.
  split; [|repeat split; reflexivity].
  exists [32], [45], [48;120], [49;70], [103], 16. split; [reflexivity|]. split; [repeat constructor|].
  split; [cbn; unfold is_space_spec; cbn; lia|]. split; [left; auto|].
  split; [left; split; [split; [auto|exists 120, 49, [70;103]; split; [reflexivity|split; [auto|exists 1; split; [reflexivity|lia]]]]|auto]|].
  split; [repeat constructor; [exists 1|exists 15]; (split; [reflexivity|lia])|].
  split; [intros (d & E & H); injection E as <-; lia|]. split; reflexivity.
Qed.
(** strtol("-2147483648", 0, 10) multiplies LONG_MIN by -1 *)
Theorem C34_strtol_refuted : exists s neg mag len, Forall is_byte s /\ reading 10 s neg mag len /\
  (if neg then - mag else mag) = - 2^31 /\ strtol s 10 = UB.
Proof.
  exists [45;50;49;52;55;52;56;51;54;52;56], true, (2^31), 11.
  split; [bytes|]. split; [|split; reflexivity].
  exists [], [45], [], [50;49;52;55;52;56;51;54;52;56], [], 10.
  split; [reflexivity|]. split; [constructor|]. split; [cbn; unfold is_space_spec; cbn; lia|]. split; [left; auto|].
  split; [right; split; [intros [[H|H] _]; discriminate|split; [reflexivity|left; split; [lia|reflexivity]]]|].
  split; [repeat constructor; apply dec_digit; lia|]. split; [intros []|]. split; reflexivity.
Qed.
Print Assumptions C34_strtol_refuted.

(** ** C35 atoi, atol, atoll *)
Theorem C35_atoi_partial : forall s neg mag len, Forall is_byte s -> reading 10 s neg mag len ->
  (mag < 2^31 -> atoi s = Ok (if neg then - mag else mag) /\ atol s = Ok (if neg then - mag else mag)) /\
  (mag < 2^63 -> atoll s = Ok (if neg then - mag else mag)).
Proof.
  intros s neg mag len Hb R. split; intros H; [split|]; apply (atoi_ok _ s neg mag len); auto.
Qed.
Print Assumptions C35_atoi_partial.
Example C35_ex : atoi [32;43;52;50;120] = Ok 42 /\ atoll [45;57;57;57;57;57;57;57;57;57;57] = Ok (-9999999999).
Proof. split; reflexivity. Qed.
(** atoi("-2147483648") and atoll("-9223372036854775808") are representable but undefined *)
Theorem C35_atoi_refuted : exists s t neg mag len mag' len', Forall is_byte s /\ reading 10 s neg mag len /\
  (if neg then - mag else mag) = - 2^31 /\ atoi s = UB /\
  Forall is_byte t /\ reading 10 t neg mag' len' /\ (if neg then - mag' else mag') = - 2^63 /\ atoll t = UB.
Proof.
  exists [45;50;49;52;55;52;56;51;54;52;56], [45;57;50;50;51;51;55;50;48;51;54;56;53;52;55;55;53;56;48;56], true, (2^31), 11, (2^63), 20.
  split; [bytes|]. split.
  { exists [], [45], [], [50;49;52;55;52;56;51;54;52;56], [], 10.
    split; [reflexivity|]. split; [constructor|]. split; [cbn; unfold is_space_spec; cbn; lia|]. split; [left; auto|].
    split; [right; split; [intros [[H|H] _]; discriminate|split; [reflexivity|left; split; [lia|reflexivity]]]|].
    split; [repeat constructor; apply dec_digit; lia|]. split; [intros []|]. split; reflexivity. }
  split; [reflexivity|]. split; [reflexivity|]. split; [bytes|]. split; [|split; reflexivity].
  exists [], [45], [], [57;50;50;51;51;55;50;48;51;54;56;53;52;55;55;53;56;48;56], [], 10.
  split; [reflexivity|]. split; [constructor|]. split; [cbn; unfold is_space_spec; cbn; lia|]. split; [left; auto|].
  split; [right; split; [intros [[H|H] _]; discriminate|split; [reflexivity|left; split; [lia|reflexivity]]]|].
  split; [repeat constructor; apply dec_digit; lia|]. split; [intros []|]. split; reflexivity.
Qed.
Print Assumptions C35_atoi_refuted.

(** ** C37 bsearch *)
(** [c i] is compare(key, element i).  Missing: an absent key larger than some element. *)
Theorem C37_bsearch_partial : forall c compare count fuel, 0 <= count -> sorted_for c count ->
  (forall i, compare i = if (0 <=? i) && (i <? count) then Ok (c i) else UB) -> (Z.to_nat count < fuel)%nat ->
  ((exists i, 0 <= i < count /\ c i = 0) ->
     exists r, bsearch fuel compare 0 count = Ok (Some r) /\ 0 <= r < count /\ c r = 0) /\
  ((forall i, 0 <= i < count -> c i < 0) -> bsearch fuel compare 0 count = Ok None).
Proof.
  intros c compare count fuel H0 Hs Hc Hf.
  assert (Hc' : forall i, 0 <= i < count -> compare i = Ok (c i)).
  { intros i Hi. rewrite Hc. replace ((0 <=? i) && (i <? count)) with true by lia. reflexivity. }
  split.
  - intros (i & Hi & E). destruct (bsearch_found c compare count Hs Hc' fuel 0 count i) as (r & E1 & E2 & E3); try assumption; try lia.
    exists r. auto.
  - intros H. apply (bsearch_below c compare count Hc'); try lia. intros x Hx. apply H. lia.
Qed.
Print Assumptions C37_bsearch_partial.
(** In every other case (key absent, not below all elements) the search never returns. *)
Theorem C37_bsearch_never_returns : forall c compare count fuel, 0 < count -> sorted_for c count ->
  (forall i, compare i = if (0 <=? i) && (i <? count) then Ok (c i) else UB) ->
  (forall i, 0 <= i < count -> c i <> 0) -> 0 < c 0 -> bsearch fuel compare 0 count = Fuel.
Proof.
  intros c compare count fuel H0 Hs Hc Hne Hp. apply (bsearch_diverges c compare count); try assumption; try lia.
  intros i Hi. rewrite Hc. replace ((0 <=? i) && (i <? count)) with true by lia. reflexivity.
Qed.
Print Assumptions C37_bsearch_never_returns.
(** key 5 in [1;5;9] and key 6 in [1;5;9] *)
Example C37_ex : let cmp k i := k - nth (Z.to_nat i) [1;5;9] 0 in
  sorted_for (cmp 5) 3 /\ sorted_for (cmp 6) 3 /\ cmp 5 1 = 0 /\ 0 < cmp 6 0 /\ (forall i, 0 <= i < 3 -> cmp 6 i <> 0).
Proof.
  cbv zeta. assert (X : forall i, 0 <= i < 3 -> i = 0 \/ i = 1 \/ i = 2) by lia.
  split; [|split; [|split; [reflexivity|split; [reflexivity|]]]].
  1,2: intros i j Hi Hj; destruct (X i) as [->|[->| ->]]; try lia; destruct (X j) as [->|[->| ->]]; try lia; vm_compute; split; congruence.
  intros i Hi. destruct (X i Hi) as [->|[->| ->]]; discriminate.
Qed.

(** Key 6 in the sorted array [1;5;9]: no fuel is enough. *)
Theorem C37_bsearch_refuted : exists c compare count, 0 < count /\ sorted_for c count /\
  (forall i, compare i = if (0 <=? i) && (i <? count) then Ok (c i) else UB) /\
  forall fuel, bsearch fuel compare 0 count = Fuel.
Proof.
  set (c := fun i => 6 - nth (Z.to_nat i) [1;5;9] 0). destruct C37_ex as (_ & Hs & _ & Hp & Hne).
  exists c, (fun i => if (0 <=? i) && (i <? 3) then Ok (c i) else UB), 3.
  split; [lia|]. split; [exact Hs|]. split; [reflexivity|]. intros fuel.
  apply (C37_bsearch_never_returns c _ 3 fuel); [lia|exact Hs|reflexivity|exact Hne|exact Hp].
Qed.
Print Assumptions C37_bsearch_refuted.

(** ** C40 getenv *)
Definition entry_ok (o : option (list Z)) : Prop :=
  match o with Some e => Forall (fun c => is_byte c /\ c <> 0) e | None => True end.
Theorem C40_getenv : forall env name, Forall entry_ok env -> Forall (fun c => is_byte c /\ c <> 0 /\ c <> 61) name ->
  exists r, getenv (Some env) (Some name) = Ok r /\
    match r with
    | Some (k, v) => exists e, 0 <= k /\ nth_error env (Z.to_nat k) = Some (Some e) /\ defines e name v /\
        forall j e', (j < Z.to_nat k)%nat -> nth_error env j = Some (Some e') -> ~ exists v', defines e' name v'
    | None => forall e v, In (Some e) env -> ~ defines e name v
    end.
Proof.
  intros env name He Hn. destruct (env_find_ok name Hn env 0 He) as (r & E & H). exists r. split; [exact E|].
  destruct r as [[k v]|]; [|exact H]. rewrite Z.sub_0_r in H. exact H.
Qed.
Print Assumptions C40_getenv.
(** A name with '=' is looked up as its part before the '='. *)
Theorem C40_equals_in_name : forall env n z, Forall (fun c => is_byte c /\ c <> 61) n ->
  getenv env (Some (n ++ 61 :: z)) = getenv env (Some n).
Proof.
  intros env n z Hn. unfold getenv. destruct env as [env|]; [|reflexivity].
  assert (M : forall e, env_matches e (n ++ 61 :: z) = env_matches e n).
  { clear env. induction n as [|c n IH]; intros e; [reflexivity|]. cbn [app env_matches].
    destruct (Forall_inv Hn) as [_ Hc]. apply Forall_inv_tail in Hn. destruct (Z.eqb_spec c 61); [contradiction|].
    destruct (negb (cur e =? s8 c)); [reflexivity|]. destruct (next e); cbn [bind]; [apply IH; exact Hn|reflexivity|reflexivity]. }
  generalize 0. induction env as [|o env IH]; intros i; [reflexivity|]. cbn [env_find].
  destruct o as [e|]; [rewrite M|apply IH]. destruct (env_matches e n) as [[|]| |]; cbn [bind]; [reflexivity|apply IH|reflexivity|reflexivity].
Qed.
Print Assumptions C40_equals_in_name.
Theorem C40_no_environment : forall name, getenv None name = Ok None /\ forall env, getenv env None = Ok None.
Proof. intros [n|]; split; try reflexivity; intros [e|]; reflexivity. Qed.
Print Assumptions C40_no_environment.
(** AB=1, A=2, A=3 : getenv("A") is "2" *)
Example C40_ex : Forall entry_ok [Some [65;66;61;49]; None; Some [65;61;50]; Some [65;61;51]] /\
  getenv (Some [Some [65;66;61;49]; None; Some [65;61;50]; Some [65;61;51]]) (Some [65]) = Ok (Some (2, [50])) /\
  getenv (Some [Some [65;66;61;49]; None; Some [65;61;50]; Some [65;61;51]]) (Some [66]) = Ok None.
Proof. split; [|split; reflexivity]. repeat constructor; cbn; unfold is_byte; lia. Qed.

(** ** C41 rand *)
Theorem C41_rand_range : forall n old seed r, 0 <= seed < 2^32 -> In r (rand_seq n (srand old seed)) -> 0 <= r <= 2147483646.
Proof. intros n old seed r. apply rand_range. Qed.
Print Assumptions C41_rand_range.
(** Without a call of srand the state is 1. *)
Theorem C41_unseeded : forall n old, rand_seq n 1 = rand_seq n (srand old 1).
Proof. reflexivity. Qed.
Print Assumptions C41_unseeded.
(** Whatever happened before, the numbers after srand(seed) depend only on the seed. *)
Theorem C41_reproducible : forall n old old' seed, rand_seq n (srand old seed) = rand_seq n (srand old' seed).
Proof. reflexivity. Qed.
Print Assumptions C41_reproducible.
Example C41_ex : rand_seq 3 (srand 77 1) = [48271; 182605794; 1291390782].
Proof. reflexivity. Qed.

(** ** C42 abs, div *)
Theorem C42_abs : forall w a, w = 32 \/ w = 64 -> - 2^(w-1) <= a < 2^(w-1) ->
  abs_ w a = (if a =? - 2^(w-1) then UB else Ok (Z.abs a)).
Proof.
  intros w a Hw Ha. destruct (Z.eqb_spec a (- 2^(w-1))) as [->|N]; [apply abs_min; lia|apply abs_ok; lia].
Qed.
Print Assumptions C42_abs.
Theorem C42_div : forall w n d, w = 32 \/ w = 64 -> - 2^(w-1) <= n < 2^(w-1) -> - 2^(w-1) <= d < 2^(w-1) ->
  (d <> 0 -> ~ (n = - 2^(w-1) /\ d = -1) ->
     exists q r, div_ w n d = Ok (q, r) /\ n = q * d + r /\ Z.abs r < Z.abs d /\ (r = 0 \/ Z.sgn r = Z.sgn n)) /\
  (d = 0 \/ n = - 2^(w-1) /\ d = -1 -> div_ w n d = UB).
Proof.
  intros w n d Hw Hn Hd. split.
  - intros H1 H2. apply div_ok; try assumption; lia.
  - intros [->|[-> ->]]; [reflexivity|]. destruct Hw as [->| ->]; reflexivity.
Qed.
Print Assumptions C42_div.
Example C42_ex : abs_ 32 (-7) = Ok 7 /\ div_ 32 (-7) 2 = Ok (-3, -1) /\ div_ 64 7 (-2) = Ok (-3, 1).
Proof. repeat split; reflexivity. Qed.
