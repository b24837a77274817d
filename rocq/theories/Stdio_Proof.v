(** Proofs about streams. *)
From Verif Require Import Base Stdio_Model Stdio_Spec.
Open Scope Z_scope.
Notation len := List.length.
Arguments CACHE : simpl never.
Arguments Z.sub : simpl never.
Arguments Z.add : simpl never.
Arguments Z.to_nat : simpl never.
Arguments Z.of_nat : simpl never.
Arguments Z.lor : simpl never.
Arguments Z.ldiff : simpl never.
Arguments Z.testbit : simpl never.

(** ** Indicator bits *)
Lemma land_bit s k : 0 <= k -> (Z.land s (2^k) =? 0) = negb (Z.testbit s k).
Proof.
  intros K. destruct (Z.testbit s k) eqn:E; cbn.
  - apply Z.eqb_neq. intros H. assert (Z.testbit (Z.land s (2^k)) k = true) as B.
    { rewrite Z.land_spec, E, Z.pow2_bits_true by lia. reflexivity. }
    rewrite H, Z.bits_0 in B. discriminate.
  - apply Z.eqb_eq. apply Z.bits_inj'. intros j J. rewrite Z.land_spec, Z.bits_0.
    destruct (Z.eq_dec j k) as [->|N]; [now rewrite E|]. rewrite Z.pow2_bits_false by lia. apply andb_false_r.
Qed.
Lemma feof_bit F : feof F = Z.testbit (state F) 4.
Proof. unfold feof, eofbit_. change 0x10 with (2^4). rewrite land_bit by lia. apply negb_involutive. Qed.
Lemma ferror_bit F : ferror F = Z.testbit (state F) 5.
Proof. unfold ferror, errbit_. change 0x20 with (2^5). rewrite land_bit by lia. apply negb_involutive. Qed.
Lemma or_eof s (b : bool) j : 0 <= j -> Z.testbit (Z.lor s (b2z b * eofbit_)) j = Z.testbit s j || (b && (j =? 4)).
Proof.
  intros J. rewrite Z.lor_spec. f_equal. destruct b; unfold b2z; cbn [andb].
  - change (1 * eofbit_) with (2^4). destruct (Z.eqb_spec j 4) as [->|N]; [reflexivity|]. apply Z.pow2_bits_false. lia.
  - change (0 * eofbit_) with 0. apply Z.bits_0.
Qed.
Lemma or_err s (b : bool) j : 0 <= j -> Z.testbit (Z.lor s (b2z b * errbit_)) j = Z.testbit s j || (b && (j =? 5)).
Proof.
  intros J. rewrite Z.lor_spec. f_equal. destruct b; unfold b2z; cbn [andb].
  - change (1 * errbit_) with (2^5). destruct (Z.eqb_spec j 5) as [->|N]; [reflexivity|]. apply Z.pow2_bits_false. lia.
  - change (0 * errbit_) with 0. apply Z.bits_0.
Qed.
Lemma clear_eof s j : 0 <= j -> Z.testbit (Z.ldiff s eofbit_) j = Z.testbit s j && negb (j =? 4).
Proof.
  intros J. rewrite Z.ldiff_spec. f_equal. f_equal. change eofbit_ with (2^4).
  destruct (Z.eqb_spec j 4) as [->|N]; [reflexivity|]. apply Z.pow2_bits_false. lia.
Qed.
Lemma ldiff_nonneg a b : 0 <= a -> 0 <= Z.ldiff a b.
Proof. intros A. apply Z.ldiff_nonneg. auto. Qed.

(** ** Lists *)
Lemma skipn_skipn' {A} n m (l : list A) : skipn n (skipn m l) = skipn (m + n) l.
Proof. revert l. induction m; intros [|x l]; cbn; auto. now rewrite skipn_nil. Qed.
Lemma skipn_drop {A} n (l m : list A) p : l ++ m = skipn p n -> m = skipn (p + len l) n.
Proof. intros E. rewrite <- skipn_skipn', <- E, skipn_app, Nat.sub_diag, skipn_all. reflexivity. Qed.
Lemma Forall_skipn {A} (P : A -> Prop) n l : Forall P l -> Forall P (skipn n l).
Proof. revert l. induction n; intros [|x l] H; cbn; auto. inversion H; auto. Qed.
Lemma Forall_firstn {A} (P : A -> Prop) n l : Forall P l -> Forall P (firstn n l).
Proof. revert l. induction n; intros [|x l] H; cbn; auto. inversion H; auto. Qed.

(** ** Reading from the host *)
Definition keeps (F F' : FILE) := avail F' = avail F /\ cache F' = cache F.
Lemma read_any F h size : sane F h -> 0 <= size ->
  exists l F' h', stdio_read F h size = (l, F', h') /\ sane F' h' /\ keeps F F' /\
    data h' = data h /\ append h' = append h /\ skipn (Z.to_nat (pos h)) (data h) = l ++ skipn (Z.to_nat (pos h')) (data h') /\
    pos h' = pos h + Z.of_nat (len l) /\ Z.of_nat (len l) <= size /\ Forall is_byte l /\
    (forall j, 0 <= j -> j <> 4 -> j <> 5 -> Z.testbit (state F') j = Z.testbit (state F) j).
Proof.
  intros (A & C & B & P & D & S) Z0. unfold stdio_read, host_read, granted.
  destruct (script h) as [|[|k] s] eqn:E; cbn [fst snd].
  - do 3 eexists. split; [reflexivity|]. cbn. unfold sane, keeps, set_state. cbn.
    set (l := firstn (Z.to_nat size) (skipn (Z.to_nat (pos h)) (data h))).
    repeat split; try lia; auto.
    + apply Z.lor_nonneg. split; [exact S|]. unfold eofbit_. destruct (_ <? _); cbn; lia.
    + replace (Z.to_nat (pos h + Z.of_nat (len l))) with (Z.to_nat (pos h) + len l)%nat by lia.
      rewrite <- skipn_skipn'. unfold l. set (t := skipn (Z.to_nat (pos h)) (data h)).
      rewrite firstn_length. destruct (Nat.min_spec (Z.to_nat size) (len t)) as [[_ ->]|[M ->]].
      * now rewrite firstn_skipn.
      * now rewrite firstn_all2, skipn_all, app_nil_r.
    + unfold l. rewrite firstn_length. lia.
    + unfold l. apply Forall_firstn, Forall_skipn, D.
    + intros j J N4 N5. rewrite or_eof by lia. replace (j =? 4) with false by lia. rewrite andb_false_r. apply orb_false_r.
  - do 3 eexists. split; [reflexivity|]. cbn. unfold sane, keeps, set_state. cbn. repeat split; try lia; auto.
    + apply Z.lor_nonneg. split; [exact S|]. unfold errbit_. lia.
    + intros j J N4 N5. change errbit_ with (b2z true * errbit_). rewrite or_err by lia. replace (j =? 5) with false by lia.
      rewrite andb_false_r. apply orb_false_r.
  - do 3 eexists. split; [reflexivity|]. cbn. unfold sane, keeps, set_state. cbn.
    set (l := firstn (Z.to_nat (Z.min k size)) (skipn (Z.to_nat (pos h)) (data h))).
    repeat split; try lia; auto.
    + apply Z.lor_nonneg. split; [exact S|]. unfold eofbit_. destruct (_ <? _); cbn; lia.
    + replace (Z.to_nat (pos h + Z.of_nat (len l))) with (Z.to_nat (pos h) + len l)%nat by lia.
      rewrite <- skipn_skipn'. unfold l. set (t := skipn (Z.to_nat (pos h)) (data h)).
      rewrite firstn_length. destruct (Nat.min_spec (Z.to_nat (Z.min k size)) (len t)) as [[_ ->]|[M ->]].
      * now rewrite firstn_skipn.
      * now rewrite firstn_all2, skipn_all, app_nil_r.
    + unfold l. rewrite firstn_length. lia.
    + unfold l. apply Forall_firstn, Forall_skipn, D.
    + intros j J N4 N5. rewrite or_eof by lia. replace (j =? 4) with false by lia. rewrite andb_false_r. apply orb_false_r.
Qed.
(** A complete host *)
Lemma read_full F h size : script h = [] -> 0 <= size ->
  let l := firstn (Z.to_nat size) (skipn (Z.to_nat (pos h)) (data h)) in
  stdio_read F h size = (l, set_state F (Z.lor (state F) (b2z (Z.of_nat (len l) <? size) * eofbit_)),
                         mk_host (data h) (pos h + Z.of_nat (len l)) (append h) []).
Proof. intros E Z0. unfold stdio_read, host_read, granted. now rewrite E. Qed.
(** One byte from a healthy host *)
Lemma read_one F h : healthy h ->
  exists s, Forall (fun a => exists k, a = Grant k /\ 1 <= k) s /\
  stdio_read F h 1 =
    match skipn (Z.to_nat (pos h)) (data h) with
    | [] => ([], set_state F (Z.lor (state F) eofbit_), mk_host (data h) (pos h) (append h) s)
    | c :: _ => ([c], set_state F (state F), mk_host (data h) (pos h + 1) (append h) s)
    end.
Proof.
  unfold healthy, stdio_read, host_read, granted. intros H. destruct (script h) as [|a s] eqn:E.
  - exists []. split; [constructor|]. change (Z.to_nat 1) with 1%nat. cbn [firstn].
    destruct (skipn (Z.to_nat (pos h)) (data h)); cbn; [now rewrite Z.add_0_r|]. now rewrite Z.lor_0_r.
  - inversion H as [|? ? (k & -> & K) H']; subst. exists s. split; [exact H'|]. replace (Z.min k 1) with 1 by lia.
    change (Z.to_nat 1) with 1%nat. cbn [firstn].
    destruct (skipn (Z.to_nat (pos h)) (data h)); cbn; [now rewrite Z.add_0_r|]. now rewrite Z.lor_0_r.
Qed.

(** ** The cache *)
Lemma cache_head F : 0 < avail F <= CACHE -> Z.of_nat (len (cache F)) = CACHE ->
  skipn (Z.to_nat (CACHE - avail F)) (cache F) =
  nth (Z.to_nat (CACHE - avail F)) (cache F) 0 :: skipn (Z.to_nat (CACHE - (avail F - 1))) (cache F).
Proof.
  intros A C. replace (Z.to_nat (CACHE - (avail F - 1))) with (S (Z.to_nat (CACHE - avail F))) by (unfold CACHE in *; lia).
  assert (Z.to_nat (CACHE - avail F) < len (cache F))%nat as L by (unfold CACHE in *; lia).
  clear A C. revert L. generalize (Z.to_nat (CACHE - avail F)). intros n. generalize (cache F) as l.
  induction n; intros [|x l] L; cbn in *; try lia; auto. rewrite IHn by lia. reflexivity.
Qed.
Lemma pushed_len F h : sane F h -> Z.of_nat (len (pushed (seen F h))) = avail F.
Proof. intros (A & C & _). cbn. rewrite skipn_length. unfold CACHE in *. lia. Qed.

(** ** getc *)
Lemma getc_any F h : sane F h ->
  exists c F' h', getc_ F h = Ok (c, F', h') /\ sane F' h' /\ data h' = data h /\ append h' = append h /\
   (forall j, 0 <= j -> j <> 4 -> j <> 5 -> Z.testbit (state F') j = Z.testbit (state F) j) /\
   (is_byte c /\ upcoming (seen F h) = c :: upcoming (seen F' h') /\ where_ (seen F' h') = where_ (seen F h) + 1 \/
    c = EOF /\ upcoming (seen F h) = upcoming (seen F' h') /\ where_ (seen F' h') = where_ (seen F h)).
Proof.
  intros S. pose proof S as (A & C & B & P & D & N). unfold getc_.
  destruct (Z.eqb_spec (avail F) 0) as [Z0|NZ]; cbn [negb].
  - destruct (read_any F h 1 S ltac:(lia)) as (l & F' & h' & E & S' & (K1 & K2) & HD & HA & HS & HP & HL & HB & ST).
    rewrite E. do 3 eexists. split; [reflexivity|]. repeat (split; [assumption|]). unfold upcoming, seen. cbn.
    rewrite K1, K2, HS. destruct l as [|c [|? ?]]; cbn in HL, HP; try lia.
    + right. split; [reflexivity|]. split; [reflexivity|lia].
    + left. inversion HB; subst. split; [assumption|]. split; [|cbn; lia].
      rewrite Z0. change (Z.to_nat (CACHE - 0)) with 16%nat. rewrite (skipn_all2 (cache F)) by (unfold CACHE in C; lia). reflexivity.
  - replace ((0 <=? CACHE - avail F) && (CACHE - avail F <? CACHE)) with true by (unfold CACHE in *; lia).
    do 3 eexists. split; [reflexivity|]. split; [unfold sane; cbn; repeat split; auto; lia|]. cbn.
    repeat (split; [reflexivity || (intros; reflexivity)|]). left. unfold upcoming, seen. cbn.
    rewrite (cache_head F) by (lia || assumption). cbn. repeat split; [| |lia].
    + assert (is_byte (nth (Z.to_nat (CACHE - avail F)) (cache F) 0)) as X; [|apply X].
      rewrite Forall_forall in B. apply B, nth_In. unfold CACHE in *; lia.
    + assert (is_byte (nth (Z.to_nat (CACHE - avail F)) (cache F) 0)) as X; [|apply X].
      rewrite Forall_forall in B. apply B, nth_In. unfold CACHE in *; lia.
Qed.
Lemma getc_healthy F h : sane F h -> healthy h ->
  exists F' h', sane F' h' /\ healthy h' /\ data h' = data h /\ append h' = append h /\ (script h = [] -> script h' = []) /\
   ferror F' = ferror F /\
   match upcoming (seen F h) with
   | [] => getc_ F h = Ok (EOF, F', h') /\ seen F' h' = mk_view [] [] (where_ (seen F h)) true (ferror F)
   | c :: q => getc_ F h = Ok (c, F', h') /\ is_byte c /\ upcoming (seen F' h') = q /\ feof F' = feof F /\
               where_ (seen F' h') = where_ (seen F h) + 1 /\ pushed (seen F' h') = tl (pushed (seen F h))
   end.
Proof.
  intros S H. pose proof S as (A & C & B & P & D & N). unfold getc_.
  destruct (Z.eqb_spec (avail F) 0) as [Z0|NZ]; cbn [negb].
  - destruct (read_one F h H) as (s & HS & E). rewrite E. unfold upcoming, seen at 1 2. cbn [pushed rest].
    rewrite Z0. change (Z.to_nat (CACHE - 0)) with 16%nat. rewrite (skipn_all2 (cache F)) by (unfold CACHE in C; lia). cbn [app].
    assert (script h = [] -> s = []) as SS.
    { intros H0. unfold stdio_read, host_read, granted in E. rewrite H0 in E.
      destruct (skipn (Z.to_nat (pos h)) (data h)); injection E; intros; congruence. }
    destruct (skipn (Z.to_nat (pos h)) (data h)) as [|c q] eqn:Q.
    + do 2 eexists. split; [|split; [|split; [|split; [|split; [|split; [|split; [reflexivity|]]]]]]]; cbn; auto.
      * unfold sane. cbn. repeat split; auto; try lia. apply Z.lor_nonneg. split; [exact N|]. unfold eofbit_; lia.
      * rewrite !ferror_bit. cbn. change eofbit_ with (b2z true * eofbit_). rewrite or_eof by lia. apply orb_false_r.
      * unfold seen. cbn. rewrite Z0, Q. rewrite (skipn_all2 (cache F)) by (unfold CACHE in C; change (Z.to_nat (CACHE - 0)) with 16%nat; lia).
        rewrite feof_bit, !ferror_bit. cbn. change eofbit_ with (b2z true * eofbit_). rewrite !or_eof by lia.
        cbn. rewrite orb_true_r, orb_false_r. reflexivity.
    + do 2 eexists. split; [|split; [|split; [|split; [|split; [|split; [|split; [reflexivity|]]]]]]]; cbn; auto.
      * unfold sane. cbn. repeat split; auto; lia.
      * rewrite Z0. change (Z.to_nat (CACHE - 0)) with 16%nat. rewrite (skipn_all2 (cache F)) by (unfold CACHE in C; lia).
        cbn. repeat split; try lia.
        -- assert (is_byte c) as X; [|apply X]. apply (Forall_skipn _ (Z.to_nat (pos h))) in D. rewrite Q in D. now inversion D.
        -- assert (is_byte c) as X; [|apply X]. apply (Forall_skipn _ (Z.to_nat (pos h))) in D. rewrite Q in D. now inversion D.
        -- replace (Z.to_nat (pos h + 1)) with (Z.to_nat (pos h) + 1)%nat by lia. now rewrite <- skipn_skipn', Q.
  - replace ((0 <=? CACHE - avail F) && (CACHE - avail F <? CACHE)) with true by (unfold CACHE in *; lia).
    unfold upcoming, seen at 1. cbn [pushed rest]. rewrite (cache_head F) by (lia || assumption). cbn [app].
    do 2 eexists. split; [|split; [|split; [|split; [|split; [|split; [|split; [reflexivity|]]]]]]]; cbn; auto.
    + unfold sane. cbn. repeat split; auto; lia.
    + rewrite (cache_head F) by (lia || assumption). cbn [tl]. repeat split; try lia.
      * assert (is_byte (nth (Z.to_nat (CACHE - avail F)) (cache F) 0)) as X; [|apply X].
        rewrite Forall_forall in B. apply B, nth_In. unfold CACHE in *; lia.
      * assert (is_byte (nth (Z.to_nat (CACHE - avail F)) (cache F) 0)) as X; [|apply X].
        rewrite Forall_forall in B. apply B, nth_In. unfold CACHE in *; lia.
Qed.

(** ** ungetc *)
Lemma ungetc_ok c F h : sane F h -> is_byte c -> avail F < CACHE ->
  exists F', ungetc c F = (c, F') /\ sane F' h /\ pushed (seen F' h) = c :: pushed (seen F h) /\
    rest (seen F' h) = rest (seen F h) /\ where_ (seen F' h) = where_ (seen F h) - 1 /\ feof F' = false /\ ferror F' = ferror F /\
    (forall j, 0 <= j -> j <> 4 -> Z.testbit (state F') j = Z.testbit (state F) j).
Proof.
  intros (A & C & B & P & D & N) Hc L. unfold ungetc. unfold is_byte in Hc.
  replace ((avail F <? CACHE) && negb (c =? EOF)) with true by (unfold EOF; lia).
  assert (u8 c = c) as U by (unfold u8; rewrite Z.mod_small; lia). rewrite U.
  set (i := Z.to_nat (CACHE - (avail F + 1))).
  assert (len (firstn i (cache F)) = i) as LI by (rewrite firstn_length; unfold i, CACHE in *; lia).
  eexists. split; [reflexivity|]. unfold seen, sane. cbn [pushed rest where_ state avail cache].
  split; [|split; [|split; [|split; [|split; [|split]]]]]; cbn [avail cache state]; try reflexivity.
  - repeat split; auto; try lia.
    + rewrite app_length, LI. cbn. rewrite skipn_length. unfold i, CACHE in *. lia.
    + apply Forall_app. split; [now apply Forall_firstn|]. constructor; [exact Hc|]. now apply Forall_skipn.
    + now apply ldiff_nonneg.
  - fold i. rewrite skipn_app, LI, Nat.sub_diag. rewrite (skipn_all2 (firstn i _)) by lia. cbn [app skipn]. f_equal.
    f_equal. unfold i, CACHE in *. lia.
  - lia.
  - rewrite feof_bit. cbn [state]. rewrite clear_eof by lia. apply andb_false_r.
  - rewrite !ferror_bit. cbn [state]. rewrite clear_eof by lia. apply andb_true_r.
  - intros j J N4. rewrite clear_eof by lia. replace (j =? 4) with false by lia. apply andb_true_r.
Qed.

(** ** fread *)
Lemma fread_any F h n : sane F h -> 0 <= n ->
  exists l F' h', fread_wrapper_ F h n = (l, F', h') /\ sane F' h' /\ data h' = data h /\ append h' = append h /\
    upcoming (seen F h) = l ++ upcoming (seen F' h') /\ Z.of_nat (len l) <= n /\ Forall is_byte l /\
    where_ (seen F' h') = where_ (seen F h) + Z.of_nat (len l) /\
    (forall j, 0 <= j -> j <> 4 -> j <> 5 -> Z.testbit (state F') j = Z.testbit (state F) j).
Proof.
  intros S N0. pose proof S as (A & C & B & P & D & N). unfold fread_wrapper_.
  set (hit := if avail F <? n then avail F else n).
  assert (0 <= hit <= avail F /\ hit <= n) as HH by (unfold hit; destruct (avail F <? n) eqn:?; lia).
  set (pu := skipn (Z.to_nat (CACHE - avail F)) (cache F)).
  assert (Z.of_nat (len pu) = avail F) as LP by (unfold pu; rewrite skipn_length; unfold CACHE in *; lia).
  set (F1 := mk_file (state F) (avail F - hit) (cache F)).
  assert (sane F1 h) as S1 by (unfold sane, F1; cbn; repeat split; auto; lia).
  assert (pushed (seen F1 h) = skipn (Z.to_nat hit) pu) as P1.
  { unfold seen, F1, pu. cbn. rewrite skipn_skipn'. f_equal. unfold CACHE in *. lia. }
  assert (len (firstn (Z.to_nat hit) pu) = Z.to_nat hit) as LF by (rewrite firstn_length; lia).
  destruct (Z.eqb_spec (n - hit) 0) as [M|M].
  - do 3 eexists. split; [reflexivity|]. split; [exact S1|]. split; [reflexivity|]. split; [reflexivity|].
    unfold upcoming. rewrite P1, app_assoc, firstn_skipn. split; [reflexivity|].
    split; [lia|]. split; [apply Forall_firstn, Forall_skipn, B|]. split; [cbn; lia|auto].
  - assert (hit = avail F) as HA by (unfold hit in *; destruct (avail F <? n) eqn:?; lia).
    destruct (read_any F1 h (n - hit) S1 ltac:(lia)) as (l & F' & h' & E & S' & (K1 & K2) & HD & HAp & HS & HP & HL & HB & ST).
    rewrite E. do 3 eexists. split; [reflexivity|]. repeat (split; [assumption|]).
    unfold upcoming. assert (pushed (seen F' h') = []) as P2.
    { unfold seen. cbn. rewrite K1, K2. unfold F1. cbn. rewrite HA, Z.sub_diag. rewrite skipn_all2; [reflexivity|]. unfold CACHE in *; lia. }
    rewrite P2. rewrite (firstn_all2 (n := Z.to_nat hit) pu) by lia. cbn [app]. split.
    { change (rest (seen F h)) with (skipn (Z.to_nat (pos h)) (data h)). rewrite HS. cbn [seen rest].
      now rewrite app_assoc. }
    split; [rewrite app_length; lia|]. split; [apply Forall_app; split; [apply Forall_skipn, B|exact HB]|].
    split; [|exact ST]. cbn. rewrite K1, HP, app_length. unfold F1. cbn. lia.
Qed.
Lemma firstn_app' {A} n (a b : list A) : firstn n (a ++ b) = firstn n a ++ firstn (n - len a) b.
Proof. apply firstn_app. Qed.
Lemma fread_full F h n : sane F h -> 0 <= n -> script h = [] ->
  exists F' h', fread_wrapper_ F h n = (firstn (Z.to_nat n) (upcoming (seen F h)), F', h') /\ sane F' h' /\ script h' = [] /\
    data h' = data h /\ append h' = append h /\ seen F' h' = snd (take (Z.to_nat n) (seen F h)).
Proof.
  intros S N0 HS. pose proof S as (A & C & B & P & D & N). unfold fread_wrapper_.
  pose proof (fread_any F h n S N0) as (l0 & F0 & h0 & E0 & S0 & D0 & A0 & U0 & L0 & _ & W0 & _).
  set (hit := if avail F <? n then avail F else n) in *.
  assert (0 <= hit <= avail F /\ hit <= n) as HH by (unfold hit; destruct (avail F <? n) eqn:?; lia).
  unfold fread_wrapper_ in E0. fold hit in E0.
  set (pu := skipn (Z.to_nat (CACHE - avail F)) (cache F)) in *.
  assert (Z.of_nat (len pu) = avail F) as LP by (unfold pu; rewrite skipn_length; unfold CACHE in *; lia).
  set (F1 := mk_file (state F) (avail F - hit) (cache F)) in *.
  set (re := skipn (Z.to_nat (pos h)) (data h)).
  assert (pushed (seen F h) = pu) as PU by reflexivity. assert (rest (seen F h) = re) as RE by reflexivity.
  destruct (Z.eqb_spec (n - hit) 0) as [M|M].
  - assert (hit = n) as HN by lia. exists F1, h. split; [|split; [unfold sane, F1; cbn; repeat split; auto; lia
      |split; [exact HS|split; [reflexivity|split; [reflexivity|]]]]].
    + f_equal. f_equal. unfold upcoming. rewrite PU, firstn_app', HN. replace (Z.to_nat n - len pu)%nat with 0%nat by lia.
      cbn. now rewrite app_nil_r.
    + unfold take, snd. unfold upcoming. rewrite PU, RE. unfold seen at 1, F1. cbn [pushed rest where_ avail cache state].
      rewrite firstn_length, !app_length. f_equal.
      * unfold pu. rewrite skipn_skipn'. f_equal. unfold CACHE in *; lia.
      * replace (Z.to_nat n - len pu)%nat with 0%nat by lia. reflexivity.
      * cbn. lia.
      * unfold feof. cbn [state]. replace (_ <? _) with false by lia. now rewrite orb_false_r.
  - assert (hit = avail F) as HA by (unfold hit in *; destruct (avail F <? n) eqn:?; lia).
    rewrite (read_full F1 h (n - hit) HS ltac:(lia)) in *. fold re in E0 |- *. cbn zeta in *.
    set (l := firstn (Z.to_nat (n - hit)) re) in *.
    injection E0. intros <- <- EL. rewrite <- EL in *.
    assert (pu ++ l = firstn (Z.to_nat n) (upcoming (seen F h))) as FL.
    { unfold upcoming. rewrite PU, RE, firstn_app', (firstn_all2 (n := Z.to_nat n) pu) by lia. f_equal. unfold l. f_equal. lia. }
    do 2 eexists. split; [|split; [exact S0|split; [reflexivity|split; [reflexivity|split; [reflexivity|]]]]].
    + f_equal. f_equal. rewrite (firstn_all2 (n := Z.to_nat hit) pu) by lia. exact FL.
    + unfold take, snd. rewrite <- FL. unfold upcoming. rewrite PU, RE. unfold seen, F1. cbn [pushed rest where_ avail cache state data pos append].
      rewrite app_length. f_equal.
      * rewrite !skipn_all2; [reflexivity| |]; unfold CACHE in *; try lia. unfold set_state, F1. cbn. lia.
      * unfold re. rewrite skipn_skipn'.
        assert (len l = Nat.min (Z.to_nat n - len pu) (len re)) as LL by (unfold l; rewrite firstn_length; lia).
        destruct (Nat.le_ge_cases (Z.to_nat n - len pu) (len re)) as [Q|Q].
        -- f_equal. lia.
        -- assert (len re = len (data h) - Z.to_nat (pos h))%nat as LR by apply skipn_length.
           rewrite !skipn_all2; [reflexivity| |]; lia.
      * cbn. lia.
      * rewrite !feof_bit. cbn [set_state state]. unfold F1. cbn [state]. rewrite or_eof by lia. cbn [Z.eqb andb]. rewrite andb_true_r.
        f_equal. rewrite app_length. unfold l. rewrite firstn_length.
        destruct (Nat.le_ge_cases (Z.to_nat (n - hit)) (len re)) as [Q|Q]; lia.
      * rewrite !ferror_bit. cbn [set_state state]. unfold F1. cbn [state]. rewrite or_eof by lia. cbn. rewrite andb_false_r. apply orb_false_r.
Qed.

(** ** fgets *)
Lemma line_prefix d n l : exists m, l = line d n l ++ m.
Proof.
  revert l. induction n; intros [|c l]; cbn; try (eexists; reflexivity).
  destruct (c =? d); [exists l; reflexivity|]. destruct (IHn l) as [m E]. exists m. cbn. now rewrite <- E.
Qed.
Lemma line_len d n l : (len (line d n l) <= n)%nat.
Proof. revert l. induction n; intros [|c l]; cbn; try lia. destruct (c =? d); cbn; [lia|]. specialize (IHn l). lia. Qed.
Definition cut_off (d : Z) (n : nat) (q : list Z) : bool :=
  let l := line d n q in (len l <? n)%nat && negb (last l (d + 1) =? d).
Lemma cut_off_cons d n c q : cut_off d (S n) (c :: q) = if c =? d then false else cut_off d n q.
Proof.
  unfold cut_off. cbn. destruct (Z.eqb_spec c d) as [->|N]; cbn.
  - rewrite Z.eqb_refl. apply andb_false_r.
  - change (S (len (line d n q)) <? S n)%nat with (len (line d n q) <? n)%nat. f_equal. f_equal.
    destruct (line d n q) as [|x m]; [|reflexivity]. cbn. destruct (Z.eqb_spec c d), (Z.eqb_spec (d + 1) d); lia.
Qed.
Lemma fgets_any left : forall acc F h, sane F h ->
  exists l F' h', fgets_loop left acc F h = Ok (l, F', h') /\ sane F' h' /\ data h' = data h /\ append h' = append h /\
   (forall j, 0 <= j -> j <> 4 -> j <> 5 -> Z.testbit (state F') j = Z.testbit (state F) j) /\
   match l with
   | Some l => exists m, l = rev acc ++ m /\ upcoming (seen F h) = m ++ upcoming (seen F' h')
   | None => acc = [] /\ upcoming (seen F h) = upcoming (seen F' h')
   end.
Proof.
  induction left as [|k IH]; intros acc F h S; cbn [fgets_loop].
  - do 3 eexists. split; [reflexivity|]. repeat (split; [solve [assumption | reflexivity | auto]|]). exists []. now rewrite app_nil_r.
  - destruct (getc_any F h S) as (c & F1 & h1 & E & S1 & D1 & A1 & T1 & H). rewrite E. cbn [bind].
    destruct H as [(B & U & W)|(-> & U & W)].
    + replace (c =? EOF) with false by (unfold is_byte, EOF in *; lia). destruct (Z.eqb_spec c 10) as [->|N].
      * do 3 eexists. split; [reflexivity|]. repeat (split; [assumption || reflexivity|]).
        exists [10]. cbn. split; [reflexivity|exact U].
      * destruct (IH (c :: acc) F1 h1 S1) as (l & F2 & h2 & E2 & S2 & D2 & A2 & T2 & H2). rewrite E2.
        do 3 eexists. split; [reflexivity|]. split; [assumption|]. split; [congruence|]. split; [congruence|].
        split; [intros; rewrite T2, T1; auto|]. destruct l as [l|]; [|destruct H2; discriminate].
        destruct H2 as (m & -> & U2). exists (c :: m). cbn [rev app]. split; [now rewrite <- app_assoc|]. now rewrite U, U2.
    + rewrite Z.eqb_refl. do 3 eexists. split; [reflexivity|]. repeat (split; [assumption|]).
      destruct acc; [auto|]. exists []. now rewrite app_nil_r.
Qed.
Lemma fgets_healthy left : forall acc F h, sane F h -> healthy h ->
  let q := upcoming (seen F h) in let l := line 10 left q in
  exists F' h', fgets_loop left acc F h = Ok (match acc, l, left with [], [], S _ => None | _, _, _ => Some (rev acc ++ l) end, F', h') /\
   sane F' h' /\ healthy h' /\ data h' = data h /\ append h' = append h /\ (script h = [] -> script h' = []) /\
   upcoming (seen F' h') = skipn (len l) q /\ pushed (seen F' h') = skipn (len l) (pushed (seen F h)) /\
   where_ (seen F' h') = where_ (seen F h) + Z.of_nat (len l) /\
   feof F' = feof F || cut_off 10 left q /\ ferror F' = ferror F.
Proof.
  induction left as [|k IH]; intros acc F h S H q l; unfold l; clear l; cbn [fgets_loop].
  - exists F, h. cbn. rewrite app_nil_r. split; [destruct acc; reflexivity|].
    repeat (split; [solve [assumption | reflexivity | auto]|]). split; [lia|].
    split; [now rewrite orb_false_r|reflexivity].
  - destruct (getc_healthy F h S H) as (F1 & h1 & S1 & H1 & D1 & A1 & SC & FE & G). fold q in G.
    destruct q as [|c q'] eqn:Q.
    + destruct G as (E & V). rewrite E. cbn [bind]. rewrite Z.eqb_refl. cbn [line]. exists F1, h1.
      split; [destruct acc; [reflexivity|now rewrite app_nil_r]|]. repeat (split; [assumption|]). rewrite V. cbn.
      assert (pushed (seen F h) = []) as P0.
      { subst q. unfold upcoming in Q. destruct (pushed (seen F h)); [reflexivity|discriminate]. }
      cbn [seen pushed] in P0. rewrite P0. repeat (split; [reflexivity|]). split; [lia|]. split; [|assumption].
      change (feof F1) with (at_eof (seen F1 h1)). rewrite V. cbn. now rewrite orb_true_r.
    + destruct G as (E & B & U & FO & W & PP). rewrite E. cbn [bind].
      replace (c =? EOF) with false by (unfold is_byte, EOF in *; lia). rewrite cut_off_cons. cbn [line].
      destruct (Z.eqb_spec c 10) as [->|N].
      * exists F1, h1. split; [destruct acc; [reflexivity|]; cbn; now rewrite <- !app_assoc|].
        repeat (split; [assumption|]). split; [now rewrite orb_false_r|assumption].
      * destruct (IH (c :: acc) F1 h1 S1 H1) as (F2 & h2 & E2 & S2 & H2 & D2 & A2 & SC2 & U2 & P2 & W2 & FO2 & FE2).
        rewrite E2. exists F2, h2. split.
        { f_equal. f_equal. f_equal. rewrite U. cbn [rev]. destruct acc; cbn; now rewrite <- ?app_assoc. }
        rewrite U in *. repeat (split; [solve [congruence | assumption | intros; auto]|]). split.
        { rewrite P2, PP. cbn [len]. destruct (pushed (seen F h)); cbn; [now rewrite skipn_nil|reflexivity]. }
        split; [rewrite W2, W; cbn [len]; lia|]. split; [now rewrite FO2, FO|congruence].
Qed.
(** The two descriptions of the unread part determine the rest of the file *)
Lemma view_after F h F' h' n : upcoming (seen F' h') = skipn n (upcoming (seen F h)) ->
  pushed (seen F' h') = skipn n (pushed (seen F h)) -> rest (seen F' h') = skipn (n - len (pushed (seen F h))) (rest (seen F h)).
Proof.
  unfold upcoming. intros U P. rewrite P, skipn_app in U. now apply app_inv_head in U.
Qed.

(** ** Sequences of calls *)
Lemma call_ref o F h : sane F h -> script h = [] -> legal o ->
  exists r F' h', call o F h = Ok (r, F', h') /\ sane F' h' /\ script h' = [] /\ data h' = data h /\ append h' = append h /\
    reference o (seen F h) = (r, seen F' h').
Proof.
  intros S H L. assert (healthy h) as HH by (unfold healthy; rewrite H; constructor).
  destruct o as [|c|size count|n| | |]; cbn [call reference legal] in *.
  - destruct (getc_healthy F h S HH) as (F1 & h1 & S1 & H1 & D1 & A1 & SC & FE & G).
    unfold take. destruct (upcoming (seen F h)) as [|c q] eqn:Q.
    + destruct G as (E & V). rewrite E. do 3 eexists. split; [reflexivity|]. repeat (split; [solve [auto]|]). rewrite V.
      unfold upcoming in Q. apply app_eq_nil in Q. destruct Q as [-> ->]. cbn. f_equal. f_equal; [lia|now rewrite orb_true_r].
    + destruct G as (E & B & U & FO & W & PP). rewrite E. do 3 eexists. split; [reflexivity|]. repeat (split; [solve [auto]|]).
      cbn [firstn]. f_equal. rewrite <- (view_after F h F1 h1 1).
      * destruct (seen F1 h1) as [p r w e er] eqn:V. cbn [pushed where_] in PP, W. change (feof F1) with (at_eof (seen F1 h1)) in FO.
        change (ferror F1) with (in_error (seen F1 h1)) in FE. rewrite V in *. cbn [at_eof in_error] in FO, FE. cbn [rest].
        f_equal; auto.
        -- cbn. rewrite FO. replace (_ <? _) with false by lia. apply orb_false_r.
      * rewrite Q, U. reflexivity.
      * rewrite PP. now destruct (pushed (seen F h)).
  - rewrite (pushed_len F h S). destruct L as [B| ->].
    + replace (c =? EOF) with false by (unfold is_byte, EOF in *; lia). cbn [orb]. destruct (Z.leb_spec CACHE (avail F)) as [Q|Q].
      * unfold ungetc. replace (avail F <? CACHE) with false by lia. cbn [andb]. do 3 eexists. split; [reflexivity|]. auto.
      * destruct (ungetc_ok c F h S B Q) as (F1 & E & S1 & P1 & R1 & W1 & FO & FE & T). rewrite E.
        do 3 eexists. split; [reflexivity|]. repeat (split; [solve [auto]|]). f_equal.
        destruct (seen F1 h) as [p r w e er] eqn:V. change (feof F1) with (at_eof (seen F1 h)) in FO.
        change (ferror F1) with (in_error (seen F1 h)) in FE. rewrite V in *. cbn in P1, R1, W1, FO, FE. subst. reflexivity.
    + rewrite Z.eqb_refl. unfold ungetc. rewrite Z.eqb_refl, andb_false_r. do 3 eexists. split; [reflexivity|]. auto.
  - destruct L as (L1 & L2 & L3). unfold fread. assert (u32 (size * count) = size * count) as -> by (unfold u32; apply Z.mod_small; nia).
    destruct (fread_full F h (size * count) S ltac:(nia) H) as (F1 & h1 & E & S1 & SC & D1 & A1 & V).
    rewrite E. replace (size =? 0) with false by lia. do 3 eexists. split; [reflexivity|]. repeat (split; [assumption|]).
    rewrite V. reflexivity.
  - unfold fgets. destruct (n <=? 0) eqn:N0.
    + do 3 eexists. split; [reflexivity|]. auto.
    + destruct (fgets_healthy (Z.to_nat (n - 1)) [] F h S HH) as (F2 & h2 & E2 & S2 & H2 & D2 & A2 & SC2 & U2 & P2 & W2 & FO2 & FE2).
      rewrite E2. do 3 eexists. split; [reflexivity|]. repeat (split; [solve [auto]|]).
      set (q := upcoming (seen F h)) in *. set (l := line 10 (Z.to_nat (n - 1)) q) in *. unfold take. f_equal.
      * f_equal. cbn [rev app]. destruct (Z.eqb_spec n 1) as [->|N1].
        -- change (Z.to_nat (1 - 1)) with 0%nat. destruct l; reflexivity.
        -- destruct (Z.to_nat (n - 1)) eqn:K; [lia|]. destruct l; reflexivity.
      * cbn [pushed rest where_ at_eof in_error]. fold q. rewrite <- (view_after F h F2 h2 (len l)) by assumption.
        destruct (seen F2 h2) as [p r w e er] eqn:V. change (feof F2) with (at_eof (seen F2 h2)) in FO2.
        change (ferror F2) with (in_error (seen F2 h2)) in FE2. rewrite V in *. cbn [pushed where_ at_eof in_error] in P2, W2, FO2, FE2. cbn [rest]. f_equal; auto.
        -- rewrite W2. rewrite firstn_length. destruct (line_prefix 10 (Z.to_nat (n - 1)) q) as [m Em]. fold l in Em.
           assert (len q = (len l + len m)%nat) by (rewrite Em at 1; apply app_length). lia.
        -- rewrite FO2. f_equal. unfold cut_off. fold l. f_equal. f_equal.
           clear. destruct l as [|z l]; [reflexivity|]. f_equal. revert z. induction l as [|y l IH]; intros z; [reflexivity|]. apply (IH y).
  - do 3 eexists. split; [reflexivity|]. auto.
  - do 3 eexists. split; [reflexivity|]. auto.
  - do 3 eexists. split; [reflexivity|]. destruct S as (A & C & B & P & D & N).
    split; [unfold sane; cbn; repeat split; auto; lia|]. repeat (split; [solve [auto]|]). reflexivity.
Qed.
Theorem run_ref os : forall F h, sane F h -> script h = [] -> Forall legal os ->
  exists rs F' h', run os F h = Ok (rs, F', h') /\ sane F' h' /\ script h' = [] /\ data h' = data h /\ append h' = append h /\
    reference_run os (seen F h) = (rs, seen F' h').
Proof.
  induction os as [|o os IH]; intros F h S H L; cbn [run reference_run].
  - do 3 eexists. split; [reflexivity|]. auto.
  - inversion L as [|? ? L1 L2]; subst. destruct (call_ref o F h S H L1) as (r & F1 & h1 & E & S1 & H1 & D1 & A1 & R). rewrite E, R. cbn [bind].
    destruct (IH F1 h1 S1 H1 L2) as (rs & F2 & h2 & E2 & S2 & H2 & D2 & A2 & R2). rewrite E2, R2. cbn [bind].
    do 3 eexists. split; [reflexivity|]. repeat (split; [congruence || assumption|]). reflexivity.
Qed.
(** Conservation, whatever the host does *)
Theorem run_accounts os : forall F h, sane F h -> Forall legal os ->
  exists rs F' h', run os F h = Ok (rs, F', h') /\ sane F' h' /\ data h' = data h /\
    accounts os rs (upcoming (seen F h)) (upcoming (seen F' h')).
Proof.
  induction os as [|o os IH]; intros F h S L; cbn [run].
  - do 3 eexists. split; [reflexivity|]. repeat split; auto; apply S.
  - inversion L as [|? ? L1 L2]; subst.
    assert (exists r F1 h1, call o F h = Ok (r, F1, h1) /\ sane F1 h1 /\ data h1 = data h /\
      match o with Ungetc _ => upcoming (seen F1 h1) = delivered r ++ upcoming (seen F h)
      | _ => upcoming (seen F h) = delivered r ++ upcoming (seen F1 h1) end) as (r & F1 & h1 & E & S1 & D1 & R).
    { destruct o as [|c|size count|n| | |]; cbn [call legal] in *.
      - destruct (getc_any F h S) as (c & F1 & h1 & E & S1 & D1 & A1 & T1 & H). rewrite E. do 3 eexists. split; [reflexivity|].
        split; [assumption|]. split; [assumption|]. destruct H as [(B & U & W)|(-> & U & W)]; cbn [delivered].
        + replace (c =? EOF) with false by (unfold is_byte, EOF in *; lia). exact U.
        + exact U.
      - destruct (Z.ltb_spec (avail F) CACHE) as [Q|Q].
        + destruct L1 as [B| ->].
          * destruct (ungetc_ok c F h S B Q) as (F1 & E & S1 & P1 & R1 & W1 & FO & FE & T). rewrite E.
            do 3 eexists. split; [reflexivity|]. split; [assumption|]. split; [reflexivity|].
            unfold upcoming. rewrite P1, R1. cbn [delivered]. replace (c =? EOF) with false by (unfold is_byte, EOF in *; lia). reflexivity.
          * unfold ungetc. rewrite Z.eqb_refl, andb_false_r. do 3 eexists. split; [reflexivity|]. auto.
        + unfold ungetc. replace (avail F <? CACHE) with false by lia. cbn [andb]. do 3 eexists. split; [reflexivity|]. auto.
      - destruct L1 as (Z1 & Z2 & Z3). unfold fread. assert (u32 (size * count) = size * count) as -> by (unfold u32; apply Z.mod_small; nia).
        destruct (fread_any F h (size * count) S ltac:(nia)) as (l & F1 & h1 & E & S1 & D1 & A1 & U & _).
        rewrite E. replace (size =? 0) with false by lia. do 3 eexists. split; [reflexivity|]. auto.
      - unfold fgets. destruct (n <=? 0) eqn:N0; [do 3 eexists; split; [reflexivity|]; auto|].
        destruct (fgets_any (Z.to_nat (n - 1)) [] F h S) as (l & F2 & h2 & E2 & S2 & D2 & A2 & T2 & H2).
        rewrite E2. do 3 eexists. split; [reflexivity|]. repeat (split; [assumption|]). destruct l as [l|]; cbn [delivered].
        + destruct H2 as (m & -> & U). exact U.
        + apply H2.
      - do 3 eexists. split; [reflexivity|]. auto.
      - do 3 eexists. split; [reflexivity|]. auto.
      - do 3 eexists. split; [reflexivity|]. destruct S as (A & C & B & P & D & N).
        split; [unfold sane; cbn; repeat split; auto; lia|]. auto. }
    rewrite E. cbn [bind]. destruct (IH F1 h1 S1 L2) as (rs & F2 & h2 & E2 & S2 & D2 & R2). rewrite E2. cbn [bind].
    do 3 eexists. split; [reflexivity|]. split; [assumption|]. split; [congruence|].
    destruct o; cbn [accounts]; [eexists; split; [exact R|exact R2]| |eexists; split; [exact R|exact R2] ..].
    now rewrite <- R.
Qed.
