(** Proofs about getdelim, positioning, output and mode strings. *)
From Verif Require Import Base Stdio_Model Stdio_Spec Stdio_Proof.
Open Scope Z_scope.
Notation len := List.length.
Arguments Z.pow : simpl never.
Arguments Z.mul : simpl never.

(** ** getdelim *)
Lemma store_ok buf i c : (i < len buf)%nat -> exists b, store_at buf i c = Ok b /\ len b = len buf /\
  firstn (i + 1) b = firstn i buf ++ [c].
Proof.
  intros L. unfold store_at. replace (i <? len buf)%nat with true by lia. eexists. split; [reflexivity|].
  assert (len (firstn i buf) = i) as LI by (rewrite firstn_length; lia). split.
  - rewrite app_length, LI. cbn. rewrite skipn_length. lia.
  - rewrite firstn_app, LI. rewrite firstn_all2 by lia. replace (i + 1 - i)%nat with 1%nat by lia. reflexivity.
Qed.
Lemma realloc_ok buf n i : Z.of_nat (len buf) <= n -> (i <= len buf)%nat ->
  len (realloc_to buf n) = Z.to_nat n /\ firstn i (realloc_to buf n) = firstn i buf.
Proof.
  intros L I. unfold realloc_to. rewrite (firstn_all2 (n := Z.to_nat n) buf) by lia. rewrite app_length, repeat_length. split; [lia|].
  rewrite firstn_app. replace (i - len buf)%nat with 0%nat by lia. cbn. apply app_nil_r.
Qed.
Lemma getdelim_ok fuel : forall d n buf cap mem F h, sane F h -> healthy h -> Forall (eq true) mem ->
  let q := upcoming (seen F h) in let l := line d (len q) q in
  (len q < fuel)%nat -> Z.of_nat (len buf) = cap -> Z.of_nat n < cap < 2^32 -> Z.of_nat n + Z.of_nat (len q) < 2^31 - 1 ->
  exists buf' cap' F' h',
    getdelim_loop fuel d n buf cap mem F h =
      Ok (if (n + len l =? 0)%nat then -1 else Z.of_nat (n + len l), buf', cap', F', h') /\
    sane F' h' /\ healthy h' /\ data h' = data h /\ cap' = Z.of_nat (len buf') /\ cap <= cap' /\
    (n + len l < len buf')%nat /\ ((n + len l)%nat <> 0%nat -> firstn (n + len l + 1) buf' = firstn n buf ++ l ++ [0]) /\
    upcoming (seen F' h') = skipn (len l) q.
Proof.
  induction fuel as [|fuel IH]; intros d n buf cap mem F h S H M q l FU LB CAP TOT; [lia|]. unfold l; clear l. cbn [getdelim_loop].
  destruct (getc_healthy F h S H) as (F1 & h1 & S1 & H1 & D1 & A1 & SC & FE & G). fold q in G.
  destruct q as [|c q'] eqn:Q.
  - destruct G as (E & V). rewrite E. cbn [bind]. rewrite Z.eqb_refl. cbn [len line]. rewrite Nat.add_0_r.
    destruct (Nat.eqb_spec n 0) as [->|N].
    + do 4 eexists. split; [reflexivity|]. rewrite V. repeat (split; [solve [auto | lia]|]). reflexivity.
    + destruct (store_ok buf n 0 ltac:(lia)) as (b & Eb & Lb & Fb). rewrite Eb. cbn [bind].
      do 4 eexists. split; [reflexivity|]. rewrite V. repeat (split; [solve [auto | lia]|]). reflexivity.
  - destruct G as (E & B & U & FO & W & PP). rewrite E. cbn [bind].
    replace (c =? EOF) with false by (unfold is_byte, EOF in *; lia). cbn [len] in FU, TOT.
    assert (u32 (Z.of_nat n + 1) = Z.of_nat n + 1) as -> by (unfold u32; apply Z.mod_small; lia).
    match goal with |- context [if cap <=? ?a then ?x else ?y] => set (go := if cap <=? a then x else y) end.
    assert (exists buf1 cap1 mem1, len buf1 = Z.to_nat cap1 /\ cap <= cap1 < 2^32 /\ Z.of_nat n + 1 < cap1 /\ firstn n buf1 = firstn n buf /\
      Forall (eq true) mem1 /\
      go = (do buf <- store_at buf1 n c;
        if c =? d then do buf <- store_at buf (n + 1) 0; Ok (Z.of_nat (n + 1), buf, cap1, F1, h1)
        else getdelim_loop fuel d (n + 1) buf cap1 mem1 F1 h1)) as (buf1 & cap1 & mem1 & L1 & C1 & N1 & K1 & M1 & ->).
    { unfold go. destruct (Z.leb_spec cap (Z.of_nat n + 1)) as [Q1|Q1].
      - assert (u32 (cap * 2) = cap * 2) as U2 by (unfold u32; apply Z.mod_small; lia). rewrite U2.
        destruct (realloc_ok buf (cap * 2) n ltac:(lia) ltac:(lia)) as [R1 R2].
        exists (realloc_to buf (cap * 2)), (cap * 2), (tl mem). split; [exact R1|]. split; [lia|]. split; [lia|]. split; [exact R2|].
        destruct M as [|x mem Hx M]; [split; [constructor|reflexivity]|]. subst x. split; [exact M|reflexivity].
      - exists buf, cap, mem. repeat (split; [solve [auto | lia]|]). reflexivity. }
    destruct (store_ok buf1 n c ltac:(lia)) as (b & Eb & Lb & Fb). rewrite Eb. cbn [bind line len].
    destruct (Z.eqb_spec c d) as [->|N].
    + destruct (store_ok b (n + 1) 0 ltac:(lia)) as (b2 & Eb2 & Lb2 & Fb2). rewrite Eb2. cbn [bind len].
      replace (n + 1 =? 0)%nat with false by lia. do 4 eexists. split; [reflexivity|].
      repeat (split; [solve [auto | lia]|]). split; [|exact U]. intros _. rewrite Fb2, Fb, K1. now rewrite <- app_assoc.
    + assert (forall i, i <= n + 1 -> True)%nat as _ by auto.
      destruct (IH d (n + 1)%nat b cap1 mem1 F1 h1 S1 H1 M1) as (buf' & cap' & F' & h' & EE & S' & H' & D' & LC & CC & NL & FF & UU);
        rewrite ?U; try lia.
      rewrite EE. rewrite U in *. cbn [len]. exists buf', cap', F', h'.
      replace (n + Datatypes.S (len (line d (len q') q')))%nat with (n + 1 + len (line d (len q') q'))%nat by lia.
      split; [reflexivity|]. repeat (split; [solve [auto | congruence | lia]|]). split; [|exact UU].
      intros NZ. rewrite FF by exact NZ. rewrite Fb, K1. cbn. now rewrite <- app_assoc.
Qed.

(** ** Positioning *)
Definition at_pos (F : FILE) (h : host) (p : Z) : view := mk_view [] (skipn (Z.to_nat p) (data h)) p false (ferror F).
Lemma seen_empty F h : avail F = 0 -> Z.of_nat (len (cache F)) = CACHE ->
  seen F h = mk_view [] (skipn (Z.to_nat (pos h)) (data h)) (pos h) (feof F) (ferror F).
Proof.
  intros A C. unfold seen. rewrite A. f_equal; [|lia]. apply skipn_all2. unfold CACHE in *. lia.
Qed.
Definition target (F : FILE) (h : host) (offset origin : Z) : Z :=
  offset + (if origin =? 0 then 0 else if origin =? 1 then where_ (seen F h) else Z.of_nat (len (data h))).
Lemma seek_ok F h offset origin : sane F h -> 0 <= origin <= 2 -> 0 <= target F h offset origin < 2^31 ->
  exists F' h', fseeko F h offset origin = (0, F', h') /\ sane F' h' /\ data h' = data h /\ script h' = script h /\ append h' = append h /\
    avail F' = 0 /\ seen F' h' = at_pos F h (target F h offset origin) /\
    (forall j, 0 <= j -> j <> 4 -> Z.testbit (state F') j = Z.testbit (state F) j).
Proof.
  intros (A & C & B & P & D & N) O T. unfold fseeko, stdio_seek, host_seek.
  set (t := target F h offset origin) in *.
  replace ((if origin =? 0 then 0 else if origin =? 1 then pos h else Z.of_nat (len (data h))) + (if origin =? 1 then offset - avail F else offset)) with t.
  2:{ unfold t, target. cbn [where_ seen]. destruct (Z.eqb_spec origin 0), (Z.eqb_spec origin 1); lia. }
  replace ((t <? 0) || negb ((0 <=? origin) && (origin <=? 2))) with false by lia.
  replace (0x7FFFFFFF <? t) with false by lia. cbn [set_state state avail cache].
  do 2 eexists. split; [f_equal; f_equal; replace (t =? -1) with false by lia; reflexivity|].
  split. { unfold sane. cbn. repeat split; auto; try lia; try (unfold CACHE; lia). now apply ldiff_nonneg. }
  repeat (split; [reflexivity|]). split.
  - rewrite seen_empty by (reflexivity || exact C). cbn [pos data]. unfold at_pos. rewrite feof_bit, !ferror_bit. cbn [state].
    cbn [state set_state]. rewrite !clear_eof by lia. f_equal; [apply andb_false_r|apply andb_true_r].
  - intros j J N4. cbn [state set_state]. rewrite clear_eof by lia. replace (j =? 4) with false by lia. apply andb_true_r.
Qed.
Lemma seek_negative F h offset origin : sane F h -> 0 <= origin <= 2 -> target F h offset origin < 0 ->
  fseeko F h offset origin = (1, mk_file (state F) 0 (cache F), h).
Proof.
  intros (A & C & B & P & D & N) O T. unfold fseeko, stdio_seek, host_seek.
  set (t := target F h offset origin) in *.
  replace ((if origin =? 0 then 0 else if origin =? 1 then pos h else Z.of_nat (len (data h))) + (if origin =? 1 then offset - avail F else offset)) with t.
  2:{ unfold t, target. cbn [where_ seen]. destruct (Z.eqb_spec origin 0), (Z.eqb_spec origin 1); lia. }
  replace (t <? 0) with true by lia. reflexivity.
Qed.
Lemma tell_ok F h : sane F h -> Z.testbit (state F) 7 = false -> pos h < 2^31 ->
  exists F', ftello F h = (where_ (seen F h), F', h) /\ sane F' h /\ pushed (seen F' h) = pushed (seen F h) /\
    rest (seen F' h) = rest (seen F h) /\ where_ (seen F' h) = where_ (seen F h) /\ ferror F' = ferror F /\ feof F' = false /\
    (forall j, 0 <= j -> j <> 4 -> Z.testbit (state F') j = Z.testbit (state F) j).
Proof.
  intros (A & C & B & P & D & N) AP PM. unfold ftello, stdio_seek, host_seek.
  change appbit_ with (2^7). rewrite land_bit, AP by lia. cbn [negb]. change (1 =? 0) with false. change (1 =? 1) with true. cbn [orb].
  rewrite Z.add_0_r. replace ((pos h <? 0) || negb ((0 <=? 1) && (1 <=? 2))) with false by lia.
  replace (0x7FFFFFFF <? pos h) with false by lia. replace (pos h =? -1) with false by lia.
  exists (set_state F (Z.ldiff (state F) eofbit_)). split; [destruct h; reflexivity|].
  split. { unfold sane. cbn. repeat split; auto; try lia. now apply ldiff_nonneg. }
  repeat (split; [reflexivity|]). rewrite !ferror_bit, feof_bit. cbn [state set_state]. rewrite !clear_eof by lia.
  split; [apply andb_true_r|]. split; [apply andb_false_r|]. intros j J N4. rewrite clear_eof by lia. replace (j =? 4) with false by lia. apply andb_true_r.
Qed.
(** The append indicator survives every input call except clearerr *)
Lemma run_bits os : forall F h, sane F h -> Forall legal os -> ~ In Clearerr os ->
  forall rs F' h', run os F h = Ok (rs, F', h') -> forall j, 0 <= j -> j <> 4 -> j <> 5 -> Z.testbit (state F') j = Z.testbit (state F) j.
Proof.
  induction os as [|o os IH]; intros F h S L NC rs F' h' R j J N4 N5; cbn [run] in R; [injection R; intros; now subst|].
  inversion L as [|? ? L1 L2]; subst.
  assert (exists r F1 h1, call o F h = Ok (r, F1, h1) /\ sane F1 h1 /\ Z.testbit (state F1) j = Z.testbit (state F) j) as (r & F1 & h1 & E & S1 & T).
  { destruct o as [|c|size count|n| | |]; cbn [call legal] in *.
    - destruct (getc_any F h S) as (c & F1 & h1 & E & S1 & D1 & A1 & T1 & _). rewrite E. do 3 eexists. split; [reflexivity|]. auto.
    - destruct (Z.ltb_spec (avail F) CACHE) as [Q|Q].
      + destruct L1 as [B| ->].
        * destruct (ungetc_ok c F h S B Q) as (F1 & E & S1 & _ & _ & _ & _ & _ & T). rewrite E. do 3 eexists. split; [reflexivity|]. auto.
        * unfold ungetc. rewrite Z.eqb_refl, andb_false_r. do 3 eexists. split; [reflexivity|]. auto.
      + unfold ungetc. replace (avail F <? CACHE) with false by lia. cbn [andb]. do 3 eexists. split; [reflexivity|]. auto.
    - destruct L1 as (Z1 & Z2 & Z3). unfold fread. assert (u32 (size * count) = size * count) as -> by (unfold u32; apply Z.mod_small; nia).
      destruct (fread_any F h (size * count) S ltac:(nia)) as (l & F1 & h1 & E & S1 & D1 & A1 & U & _ & _ & _ & T).
      rewrite E. replace (size =? 0) with false by lia. do 3 eexists. split; [reflexivity|]. auto.
    - unfold fgets. destruct (n <=? 0) eqn:N0; [do 3 eexists; split; [reflexivity|]; auto|].
      destruct (fgets_any (Z.to_nat (n - 1)) [] F h S) as (l & F2 & h2 & E2 & S2 & D2 & A2 & T2 & H2).
      rewrite E2. do 3 eexists. split; [reflexivity|]. auto.
    - do 3 eexists. split; [reflexivity|]. auto.
    - do 3 eexists. split; [reflexivity|]. auto.
    - exfalso. apply NC. now left. }
  rewrite E in R. cbn [bind] in R. destruct (run os F1 h1) as [[[rs1 F2] h2]| |] eqn:E2; cbn [bind] in R; try discriminate.
  injection R; intros <- <- <-. rewrite <- T. eapply (IH F1 h1); eauto. intros I. apply NC. now right.
Qed.

(** ** Output *)
Lemma patch_overwritten d p l : overwritten d p l (patch d p l).
Proof.
  unfold overwritten, patch. destruct (Nat.eqb_spec (len l) 0) as [Z0|NZ].
  - split; [lia|]. intros i I. replace ((p <=? i)%nat && (i <? p + len l)%nat) with false by lia. reflexivity.
  - split.
    + rewrite !app_length, firstn_length, repeat_length, skipn_length. lia.
    + intros i I. destruct (Nat.leb_spec p i) as [Q|Q]; [destruct (Nat.ltb_spec i (p + len l)) as [R|R]|]; cbn [andb].
      * rewrite app_assoc, app_nth2; rewrite ?app_length, ?firstn_length, ?repeat_length; [|lia].
        rewrite app_nth1 by lia. f_equal. lia.
      * rewrite app_assoc, app_nth2; rewrite ?app_length, ?firstn_length, ?repeat_length; [|lia].
        rewrite app_nth2 by lia. replace (Nat.min p (len d) + (p - len d))%nat with p by lia.
        assert (forall k m (x : list Z), nth k (skipn m x) 0 = nth (m + k) x 0) as NS.
        { clear. intros k m. induction m; intros [|y x]; cbn; auto. now destruct k. }
        rewrite NS. f_equal. lia.
      * destruct (Nat.lt_ge_cases i (len d)).
        -- rewrite app_nth1 by (rewrite firstn_length; lia).
           revert i d I Q H. clear. induction p; intros [|i] [|x d] I Q H; cbn in *; try lia; auto.
           apply IHp; lia.
        -- rewrite app_nth2 by (rewrite firstn_length; lia). rewrite app_nth1 by (rewrite firstn_length, repeat_length; lia).
           rewrite nth_repeat, nth_overflow by lia. reflexivity.
Qed.
Lemma overwritten_app d p a b d1 d2 : overwritten d p a d1 -> overwritten d1 (p + len a) b d2 -> overwritten d p (a ++ b) d2.
Proof.
  unfold overwritten. intros (L1 & N1) (L2 & N2). rewrite app_length. split.
  - destruct (Nat.eqb_spec (len a) 0), (Nat.eqb_spec (len b) 0), (Nat.eqb_spec (len a + len b) 0); lia.
  - intros i I. rewrite N2 by exact I.
    assert (nth i d1 0 = if (p <=? i)%nat && (i <? p + len a)%nat then nth (i - p) a 0 else nth i d 0) as E1.
    { destruct (Nat.lt_ge_cases i (len d1)); [now apply N1|]. rewrite nth_overflow by lia.
      destruct (Nat.eqb_spec (len a) 0).
      - replace ((p <=? i)%nat && (i <? p + len a)%nat) with false by lia. rewrite nth_overflow; [reflexivity|lia].
      - replace ((p <=? i)%nat && (i <? p + len a)%nat) with false by lia. rewrite nth_overflow; [reflexivity|lia]. }
    rewrite E1. destruct (Nat.leb_spec p i) as [P1|P1]; cbn [andb].
    + destruct (Nat.ltb_spec i (p + len a)) as [P2|P2].
      * replace (p + len a <=? i)%nat with false by lia. replace (i <? p + (len a + len b))%nat with true by lia. cbn.
        rewrite app_nth1 by lia. reflexivity.
      * replace (p + len a <=? i)%nat with true by lia. cbn [andb].
        replace (i <? p + len a + len b)%nat with (i <? p + (len a + len b))%nat by lia.
        destruct (i <? p + (len a + len b))%nat; [|reflexivity]. rewrite app_nth2 by lia. f_equal. lia.
    + replace (p + len a <=? i)%nat with false by lia. reflexivity.
Qed.
Lemma overwritten_unique d p l a b : overwritten d p l a -> overwritten d p l b -> a = b.
Proof. intros (L1 & N1) (L2 & N2). apply (nth_ext a b 0 0); [congruence|]. intros i I. rewrite N1, N2 by lia. reflexivity. Qed.
(** The place where output goes *)
Definition out_pos (h : host) : nat := if append h then len (data h) else Z.to_nat (pos h).
Lemma write_any F h l : 0 <= pos h ->
  exists k F' h', stdio_write F h l = (Z.of_nat k, F', h') /\ (k <= len l)%nat /\ append h' = append h /\ keeps F F' /\
    data h' = patch (data h) (out_pos h) (firstn k l) /\ 0 <= pos h' /\
    ((k < len l)%nat -> ferror F' = true) /\ (ferror F = true -> ferror F' = true) /\ (script h = [] -> k = len l) /\ (script h = [] -> script h' = []) /\
    (k = len l -> script h = [] -> ferror F' = ferror F /\ out_pos h' = (out_pos h + len l)%nat).
Proof.
  intros P. unfold stdio_write, host_write, granted, out_pos. destruct (script h) as [|[|g] s] eqn:E.
  - set (n := len l). rewrite Nat2Z.id. assert (firstn n l = l) as FA by apply firstn_all. rewrite FA. fold n. rewrite Z.ltb_irrefl.
    exists n. do 2 eexists. split; [reflexivity|]. cbn [append data pos]. split; [lia|]. split; [reflexivity|]. split; [split; reflexivity|].
    replace (Z.to_nat (if append h then Z.of_nat (len (data h)) else pos h)) with (if append h then len (data h) else Z.to_nat (pos h))
      by (destruct (append h); lia).
    rewrite FA. split; [reflexivity|]. split; [destruct (append h); lia|]. split; [lia|].
    assert (ferror (set_state F (Z.lor (state F) (b2z false * errbit_))) = ferror F) as FE.
    { rewrite !ferror_bit. cbn [state set_state]. rewrite or_err by lia. apply orb_false_r. }
    split; [intros; now rewrite FE|]. split; [reflexivity|]. split; [reflexivity|]. intros _ _. split; [exact FE|].
    destruct (append h); [|lia].
    destruct (patch_overwritten (data h) (len (data h)) l) as (L & _). rewrite L. fold n.
    destruct (Nat.eqb_spec n 0); lia.
  - exists 0%nat. do 2 eexists. split; [reflexivity|]. cbn. split; [lia|]. split; [reflexivity|]. split; [split; reflexivity|].
    split; [reflexivity|]. split; [lia|].
    assert (ferror (set_state F (Z.lor (state F) errbit_)) = true) as FE.
    { rewrite ferror_bit. cbn [state set_state]. change errbit_ with (b2z true * errbit_). rewrite or_err by lia. apply orb_true_r. }
    rewrite FE. repeat (split; [auto; discriminate|]). discriminate.
  - set (k := len (firstn (Z.to_nat (Z.min g (Z.of_nat (len l)))) l)).
    exists k. do 2 eexists. split; [reflexivity|]. cbn [append data pos].
    assert (k <= len l)%nat as KL by (unfold k; rewrite firstn_length; lia).
    split; [exact KL|]. split; [reflexivity|]. split; [split; reflexivity|].
    replace (Z.to_nat (if append h then Z.of_nat (len (data h)) else pos h)) with (if append h then len (data h) else Z.to_nat (pos h))
      by (destruct (append h); lia).
    assert (firstn (Z.to_nat (Z.min g (Z.of_nat (len l)))) l = firstn k l) as ->.
    { unfold k. rewrite firstn_length. destruct (Nat.min_spec (Z.to_nat (Z.min g (Z.of_nat (len l)))) (len l)) as [[_ ->]|[M ->]]; [reflexivity|].
      rewrite firstn_all. now apply firstn_all2. }
    split; [reflexivity|]. split; [destruct (append h); lia|]. split.
    { intros K. rewrite ferror_bit. cbn [state set_state]. rewrite or_err by lia. replace (Z.of_nat k <? Z.of_nat (len l)) with true by lia. apply orb_true_r. }
    split. { intros FE. rewrite ferror_bit in *. cbn [state set_state]. rewrite or_err by lia. now rewrite FE. }
    split; [discriminate|]. split; [discriminate|]. intros _ X. discriminate X.
Qed.
(** Each call but puts: what reached the file, and whether the result tells *)
Lemma wcall_any o F h : 0 <= pos h -> wlegal o ->
  match o with Puts _ => False | _ => True end ->
  exists r k F' h', wcall o F h = Ok (r, F', h') /\ (k <= len (bytes_of o))%nat /\ append h' = append h /\ 0 <= pos h' /\
    data h' = patch (data h) (out_pos h) (firstn k (bytes_of o)) /\
    (r = success o <-> k = len (bytes_of o)) /\ ((k < len (bytes_of o))%nat -> ferror F' = true) /\
    (script h = [] -> k = len (bytes_of o) /\ script h' = [] /\ ferror F' = ferror F /\ out_pos h' = (out_pos h + len (bytes_of o))%nat).
Proof.
  intros P L NP. destruct o as [c|s|b size count|s]; [| | |contradiction]; cbn [wcall bytes_of success wlegal] in *.
  - destruct (write_any F h [u8 c] P) as (k & F1 & h1 & E & KL & A1 & _ & D1 & P1 & FE & FK & FS & SS & FX).
    unfold putc. rewrite E. do 4 eexists. split; [reflexivity|]. repeat (split; [eassumption|]).
    cbn [len] in *. split; [|split; [exact FE|intros; specialize (FX (FS H) H); intuition]].
    assert (0 <= u8 c) by (unfold u8; apply Z.mod_pos_bound; lia).
    destruct (Z.eqb_spec (Z.of_nat k) 1); unfold EOF; split; lia.
  - destruct (write_any F h s P) as (k & F1 & h1 & E & KL & A1 & _ & D1 & P1 & FE & FK & FS & SS & FX).
    unfold fputs. rewrite E. do 4 eexists. split; [reflexivity|]. repeat (split; [eassumption|]).
    split; [|split; [exact FE|intros; specialize (FX (FS H) H); intuition]].
    destruct (Z.eqb_spec (Z.of_nat k) (Z.of_nat (len s))); cbn; split; lia.
  - destruct L as (L1 & L2 & L3 & L4). unfold fwrite. assert (u32 (size * count) = size * count) as -> by (unfold u32; apply Z.mod_small; nia).
    replace (Z.of_nat (len b) <? size * count) with false by lia.
    set (l := firstn (Z.to_nat (size * count)) b). assert (Z.of_nat (len l) = size * count) as LL by (unfold l; rewrite firstn_length; nia).
    destruct (write_any F h l P) as (k & F1 & h1 & E & KL & A1 & _ & D1 & P1 & FE & FK & FS & SS & FX).
    rewrite E. replace (size =? 0) with false by lia. do 4 eexists. split; [reflexivity|]. repeat (split; [eassumption|]).
    split; [|split; [exact FE|intros; specialize (FX (FS H) H); intuition]]. split; intros HH.
    + assert (size * count <= Z.of_nat k) by (rewrite <- HH; apply Z.mul_div_le; lia). lia.
    + rewrite HH, LL, Z.mul_comm. apply Z.div_mul. lia.
Qed.
Lemma puts_any s F h : 0 <= pos h ->
  exists r k m F' h', puts s F h = (r, F', h') /\ (k <= len s)%nat /\ (m <= 1)%nat /\ append h' = append h /\ 0 <= pos h' /\
    (exists h1, data h1 = patch (data h) (out_pos h) (firstn k s) /\ data h' = patch (data h1) (out_pos h1) (firstn m [10])
      /\ (k = len s -> script h = [] -> out_pos h1 = (out_pos h + len s)%nat)) /\
    (r = 10 <-> m = 1%nat) /\ ((k < len s)%nat \/ (m < 1)%nat -> ferror F' = true) /\
    (script h = [] -> k = len s /\ m = 1%nat /\ script h' = [] /\ ferror F' = ferror F /\ out_pos h' = (out_pos h + len s + 1)%nat).
Proof.
  intros P. unfold puts. destruct (write_any F h s P) as (k & F1 & h1 & E & KL & A1 & _ & D1 & P1 & FE & FK & FS & SS & FX). rewrite E.
  unfold putc. change (u8 10) with 10.
  destruct (write_any F1 h1 [10] P1) as (m & F2 & h2 & E2 & KL2 & A2 & _ & D2 & P2 & FE2 & FK2 & FS2 & SS2 & FX2). rewrite E2. cbn [len] in *.
  exists (if Z.of_nat m =? 1 then 10 else EOF), k, m, F2, h2. split; [reflexivity|]. split; [exact KL|]. split; [lia|]. split; [congruence|]. split; [exact P2|].
  split. { exists h1. split; [exact D1|]. split; [exact D2|]. intros K S. now apply FX. }
  split; [destruct (Z.eqb_spec (Z.of_nat m) 1); unfold EOF; split; lia|].
  split. { intros [Q|Q]; auto. }
  intros S. destruct (FX (FS S) S) as (X1 & X2). specialize (SS S). destruct (FX2 (FS2 SS) SS) as (Y1 & Y2).
  split; [auto|]. split; [auto|]. split; [auto|]. split; [congruence|lia].
Qed.
Theorem wrun_full os : forall F h, 0 <= pos h -> script h = [] -> Forall wlegal os ->
  exists F' h', wrun os F h = Ok (map success os, F', h') /\ append h' = append h /\ ferror F' = ferror F /\
    overwritten (data h) (out_pos h) (concat (map bytes_of os)) (data h') /\
    out_pos h' = (out_pos h + len (concat (map bytes_of os)))%nat.
Proof.
  induction os as [|o os IH]; intros F h P S L; cbn [wrun map concat].
  - exists F, h. split; [reflexivity|]. split; [reflexivity|]. split; [reflexivity|]. split; [|cbn; lia].
    apply (patch_overwritten (data h) (out_pos h) []).
  - inversion L as [|? ? L1 L2]; subst.
    assert (exists F1 h1, wcall o F h = Ok (success o, F1, h1) /\ append h1 = append h /\ 0 <= pos h1 /\ script h1 = [] /\ ferror F1 = ferror F /\
      overwritten (data h) (out_pos h) (bytes_of o) (data h1) /\ out_pos h1 = (out_pos h + len (bytes_of o))%nat)
      as (F1 & h1 & E & A1 & P1 & S1 & FE & OV & OP).
    { assert ((exists s, o = Puts s) \/ match o with Puts _ => False | _ => True end) as [[s ->]|NP] by (destruct o; eauto).
      - destruct (puts_any s F h P) as (r & k & m & F1 & h1 & E & KL & ML & A1 & P1 & (hm & D1 & D2 & OM) & R & FE & X).
        destruct (X S) as (X1 & X2 & X3 & X4 & X5). exists F1, h1. cbn [wcall success bytes_of]. rewrite E. split; [do 3 f_equal; tauto|].
        repeat (split; [assumption|]). split; [|rewrite app_length; cbn; lia].
        rewrite X1, firstn_all in D1. rewrite X2 in D2. cbn [firstn] in D2. rewrite (OM X1 S) in D2.
        apply overwritten_app with (d1 := data hm); [rewrite D1|rewrite D2]; apply patch_overwritten.
      - destruct (wcall_any o F h P L1 NP) as (r & k & F1 & h1 & E & KL & A1 & P1 & D1 & R & FE & X).
        destruct (X S) as (X1 & X2 & X3 & X4). exists F1, h1. rewrite E. split; [do 3 f_equal; tauto|]. repeat (split; [assumption|]).
        split; [|exact X4]. rewrite D1, X1, firstn_all. apply patch_overwritten. }
    rewrite E. cbn [bind]. destruct (IH F1 h1 P1 S1 L2) as (F2 & h2 & E2 & A2 & FE2 & OV2 & OP2). rewrite E2. cbn [bind].
    exists F2, h2. split; [reflexivity|]. split; [congruence|]. split; [congruence|]. split.
    + apply overwritten_app with (d1 := data h1); [exact OV|]. now rewrite <- OP.
    + rewrite OP2, OP, app_length. lia.
Qed.

(** ** Mode strings *)
Lemma suffix_ok m : forall acc mod_, mode_suffix acc mod_ m =
  Z.lor (if has 43 m then O_RDWR else acc) (Z.lor mod_ (Z.lor (if has 120 m then O_EXCL else 0) (if has 101 m then O_CLOEXEC else 0))).
Proof.
  induction m as [|c m IH]; intros acc mod_; cbn [mode_suffix has existsb]; [now rewrite Z.lor_0_r|]. fold (has 43 m) (has 120 m) (has 101 m).
  rewrite (Z.eqb_sym 43 c), (Z.eqb_sym 120 c), (Z.eqb_sym 101 c).
  destruct (Z.eqb_spec c 43) as [->|N1]; [rewrite IH; cbn [Z.eqb Pos.eqb orb]; now destruct (has 43 m)|].
  destruct (Z.eqb_spec c 120) as [->|N2].
  - rewrite IH. cbn [Z.eqb Pos.eqb orb]. f_equal. destruct (has 120 m), (has 101 m); rewrite <- ?Z.lor_assoc; reflexivity.
  - destruct (Z.eqb_spec c 101) as [->|N3]; rewrite IH; cbn [orb]; [|reflexivity]. f_equal. rewrite <- Z.lor_assoc. f_equal.
    destruct (has 120 m), (has 101 m); reflexivity.
Qed.
Lemma mode_ok mode i : standard_intent mode = Some i ->
  exists r, open_flags (modeflags_ mode) = Some r /\ requested r = i /\
    fopen_state (modeflags_ mode) = (if appending i then appbit_ else 0).
Proof.
  unfold standard_intent, modeflags_. destruct mode as [|c m]; [discriminate|].
  destruct (Z.eqb_spec c 114) as [->|N1]; cbn [Z.eqb Pos.eqb].
  - intros E; injection E; intros <-. rewrite suffix_ok. destruct (has 43 m), (has 120 m), (has 101 m); eexists; repeat split; vm_compute; reflexivity.
  - destruct (Z.eqb_spec c 119) as [->|N2]; cbn [Z.eqb Pos.eqb].
    + intros E; injection E; intros <-. rewrite suffix_ok. destruct (has 43 m), (has 120 m), (has 101 m); eexists; repeat split; vm_compute; reflexivity.
    + destruct (Z.eqb_spec c 97) as [->|N3]; [|discriminate].
      intros E; injection E; intros <-. rewrite suffix_ok. destruct (has 43 m), (has 120 m), (has 101 m); eexists; repeat split; vm_compute; reflexivity.
Qed.
