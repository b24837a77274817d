(** Proofs about wide-oriented streams. *)
From Verif Require Import Base Stdio_Model Stdio_Spec Stdio_Proof Utf8_Spec Utf8_Model Utf8_Proof Utf8_Str_Proof Wstdio_Model Wstdio_Spec.
Open Scope Z_scope.

Lemma getc_both F h : sane F h -> healthy h ->
  exists F' h', sane F' h' /\ healthy h' /\ data h' = data h /\ append h' = append h /\ (script h = [] -> script h' = []) /\ ferror F' = ferror F /\
   Z.testbit (state F') 8 = Z.testbit (state F) 8 /\
   match upcoming (seen F h) with
   | [] => getc_ F h = Ok (EOF, F', h') /\ upcoming (seen F' h') = [] /\ feof F' = true
   | c :: q => getc_ F h = Ok (c, F', h') /\ is_byte c /\ upcoming (seen F' h') = q /\ feof F' = feof F
   end.
Proof.
  intros S H. destruct (getc_healthy F h S H) as (F' & h' & S' & H' & D & A & SC & FE & G). destruct (getc_any F h S) as (c0 & F0 & h0 & E0 & _ & _ & _ & T & _).
  exists F', h'. do 6 (split; [assumption|]). destruct (upcoming (seen F h)) as [|c q].
  - destruct G as (E & V). assert (F0 = F') by congruence. subst F0. split; [apply T; lia|]. split; [exact E|]. rewrite V. split; [reflexivity|]. change (feof F') with (at_eof (seen F' h')). now rewrite V.
  - destruct G as (E & B & U & FO & _). assert (F0 = F') by congruence. subst F0. split; [apply T; lia|]. auto.
Qed.

Lemma set_eof F : feof (set_state F (Z.lor (state F) eofbit_)) = true /\ ferror (set_state F (Z.lor (state F) eofbit_)) = ferror F /\
  Z.testbit (state (set_state F (Z.lor (state F) eofbit_))) 8 = Z.testbit (state F) 8.
Proof.
  rewrite feof_bit, !ferror_bit. cbn [set_state state]. change eofbit_ with (b2z true * eofbit_). rewrite !or_eof by lia. cbn. rewrite orb_true_r, !orb_false_r. auto.
Qed.
Lemma set_err F : feof (set_state F (Z.lor (state F) errbit_)) = feof F /\ ferror (set_state F (Z.lor (state F) errbit_)) = true /\
  Z.testbit (state (set_state F (Z.lor (state F) errbit_))) 8 = Z.testbit (state F) 8.
Proof.
  rewrite !feof_bit, !ferror_bit. cbn [set_state state]. change errbit_ with (b2z true * errbit_). rewrite !or_err by lia. cbn. rewrite orb_true_r, !orb_false_r. auto.
Qed.
Lemma sane_state F h s : sane F h -> 0 <= s -> sane (set_state F s) h.
Proof. unfold sane. cbn. tauto. Qed.
Lemma upcoming_state F h s : upcoming (seen (set_state F s) h) = upcoming (seen F h).
Proof. reflexivity. Qed.
Lemma lor_nonneg a b : 0 <= a -> 0 <= b -> 0 <= Z.lor a b.
Proof. intros. apply Z.lor_nonneg. auto. Qed.

Definition got (l q : list Z) (F F' : FILE) (h' : host) (w : Z) : Prop :=
  (exists p c r, l ++ q = p ++ r /\ utf8_seq p c /\ w = c /\ upcoming (seen F' h') = r /\ feof F' = feof F /\ ferror F' = ferror F) \/
  (ret (dec0 (l ++ q)) = SIZE_M2 /\ w = WEOF /\ upcoming (seen F' h') = [] /\ feof F' = true /\ ferror F' = ferror F) \/
  (dec0 (l ++ q) = mb_fail 0 /\ w = WEOF /\ (exists p, p <> [] /\ q = p ++ upcoming (seen F' h')) /\ feof F' = feof F /\ ferror F' = true).
Lemma loop_spec fuel : forall l F h, sane F h -> healthy h -> bytes l -> ret (dec0 l) = SIZE_M2 -> (4 <= fuel + length l)%nat ->
  exists w F' h', fgetwc_loop fuel (st (dec0 l)) F h = Ok (w, F', h') /\ sane F' h' /\ healthy h' /\ data h' = data h /\ append h' = append h /\ (script h = [] -> script h' = []) /\
    Z.testbit (state F') 8 = Z.testbit (state F) 8 /\ got l (upcoming (seen F h)) F F' h' w.
Proof.
  induction fuel as [|fuel IH]; intros l F h S H B R L.
  { exfalso. destruct (more_short l B R) as [->|(lead & tl & -> & _ & Hl)]; [cbn in L; lia|]. unfold announces in Hl. repeat match type of Hl with context [if ?b then _ else _] => destruct b end; lia. }
  cbn [fgetwc_loop]. destruct (getc_both F h S H) as (F1 & h1 & S1 & H1 & D1 & A1 & SC1 & FE1 & T1 & G). destruct (upcoming (seen F h)) as [|c q] eqn:Q.
  - destruct G as (E & U & FO). rewrite E. cbn [bind]. change (EOF =? EOF) with true. cbv iota. destruct (set_eof F1) as (X1 & X2 & X3).
    do 3 eexists. split; [reflexivity|]. split; [apply sane_state; [assumption|apply lor_nonneg; [apply S1|unfold eofbit_; lia]]|]. split; [assumption|]. split; [assumption|]. split; [assumption|]. split; [assumption|]. split; [rewrite X3; assumption|].
    right. left. rewrite app_nil_r. repeat split; auto. now rewrite X2.
  - destruct G as (E & Bc & U & FO). rewrite E. cbn [bind]. replace (c =? EOF) with false by (unfold is_byte, EOF in *; lia). replace (u8 c) with c by (unfold u8, is_byte in *; rewrite Z.mod_small; lia).
    assert (Bl : bytes (l ++ [c])) by (apply Forall_app; split; [assumption|repeat constructor; apply Bc]).
    destruct (mbrtowc_resume l [c] B ltac:(repeat constructor; apply Bc) R ltac:(discriminate)) as (r & Er & Hr). change (Z.of_nat (length [c])) with 1 in Er. rewrite Er. cbn [bind].
    assert (EQ : l ++ c :: q = (l ++ [c]) ++ q) by (rewrite <- app_assoc; reflexivity). unfold got. rewrite EQ. cbv zeta in Hr.
    destruct Hr as [(Hf & Hr & Hs)|[(Hf & ->)|(c0 & n & Hn & Hf & ->)]].
    + rewrite Hr. change (SIZE_M2 =? SIZE_M1) with false. change (SIZE_M2 =? SIZE_M2) with true. cbv iota. rewrite Hs.
      destruct (IH (l ++ [c]) F1 h1 S1 H1 Bl Hf ltac:(rewrite app_length; cbn; lia)) as (w & F2 & h2 & E2 & S2 & H2 & D2 & A2 & SC2 & T2 & G2).
      exists w, F2, h2. split; [exact E2|]. do 2 (split; [assumption|]). do 2 (split; [congruence|]). split; [auto|]. split; [congruence|]. rewrite U in G2.
      destruct G2 as [(p & c1 & r1 & X1 & X2 & X3 & X4 & X5 & X6)|[(X1 & X2 & X3 & X4 & X5)|(X1 & X2 & (p & X3 & X3') & X4 & X5)]].
      * left. exists p, c1, r1. repeat split; congruence || assumption.
      * right. left. repeat split; congruence || assumption.
      * right. right. do 2 (split; [assumption|]). split; [|split; congruence]. exists (c :: p). split; [discriminate|]. cbn [app]. now rewrite <- X3'.
    + cbn [ret mb_fail]. change (SIZE_M1 =? SIZE_M1) with true. cbv iota. destruct (set_err F1) as (X1 & X2 & X3).
      do 3 eexists. split; [reflexivity|]. split; [apply sane_state; [assumption|apply lor_nonneg; [apply S1|unfold errbit_; lia]]|]. do 4 (split; [assumption|]). split; [rewrite X3; assumption|].
      right. right. rewrite dec0_stable; rewrite Hf; [|cbn; unfold SIZE_M1, SIZE_M2; lia]. split; [reflexivity|]. split; [reflexivity|]. split; [exists [c]; split; [discriminate|cbn [app]; f_equal; symmetry; exact U]|].
      split; [congruence|assumption].
    + destruct (decoded_ret c0 n ltac:(lia)) as (N2 & N1). rewrite N1, N2. cbn [wc decoded]. do 3 eexists. split; [reflexivity|]. do 5 (split; [assumption|]). split; [assumption|]. left.
      destruct (dec0_len (l ++ [c]) Bl) as (p & c' & r & Ep & Sq & Ed).
      { rewrite Hf. destruct (decoded_ret c0 (length l + n)) as (M2 & M1); [|lia].
        destruct (more_short l B R) as [->|(lead & tl & -> & _ & Hl)]; [cbn; lia|]. unfold announces in Hl. repeat match type of Hl with context [if ?b then _ else _] => destruct b end; lia. }
      { rewrite Hf. destruct (decoded_ret c0 (length l + n)) as (M2 & M1); [|lia].
        destruct (more_short l B R) as [->|(lead & tl & -> & _ & Hl)]; [cbn; lia|]. unfold announces in Hl. repeat match type of Hl with context [if ?b then _ else _] => destruct b end; lia. }
      assert (c' = c0) by (rewrite Hf in Ed; unfold decoded in Ed; congruence). subst c'.
      assert (r = []).
      { destruct r as [|x r _] using rev_ind; [reflexivity|]. exfalso. rewrite app_assoc in Ep. apply app_inj_tail in Ep. destruct Ep as (El & _). rewrite El in R. rewrite (dec0_seq _ _ _ Sq) in R.
        assert (length p <= 4)%nat by (inversion Sq; cbn; lia). destruct (decoded_ret c0 (length p) ltac:(lia)) as (M2 & _). lia. }
      subst r. rewrite app_nil_r in Ep. rewrite Ep. exists p, c0, q. repeat split; auto; congruence.
Qed.

(** ** fgetwc on a stream without a pushed-back wide character *)
Lemma bit8 s : (Z.land s wpushbit_ =? 0) = negb (Z.testbit s 8).
Proof. change wpushbit_ with (2^8). apply land_bit. lia. Qed.
Lemma fgetwc_bytes W h : sane (file W) h -> healthy h -> Z.testbit (state (file W)) 8 = false ->
  exists w W' h', fgetwc W h = Ok (w, W', h') /\ sane (file W') h' /\ healthy h' /\ data h' = data h /\ append h' = append h /\ (script h = [] -> script h' = []) /\
    Z.testbit (state (file W')) 8 = false /\ got [] (upcoming (seen (file W) h)) (file W) (file W') h' w.
Proof.
  intros S H T. unfold fgetwc. cbn [widen file]. rewrite bit8, T. cbn [negb].
  destruct (loop_spec 8 [] (file W) h S H ltac:(constructor) eq_refl ltac:(cbn; lia)) as (w & F' & h' & E & S' & H' & D & A & SC & T' & G).
  cbn [dec0 st] in E. rewrite E. cbn [bind]. do 3 eexists. split; [reflexivity|]. cbn [set_file file]. rewrite T' , T. auto 10.
Qed.
Lemma app_same {A} (p : list A) : forall r a b, p ++ r = a ++ b -> length p = length a -> p = a /\ r = b.
Proof. induction p as [|x p IH]; intros r [|y a] b E L; try discriminate; [auto|]. injection E as -> E. destruct (IH r a b E) as (-> & ->); [cbn in L; lia|auto]. Qed.
Lemma got_string w F F' h' r : Forall scalar w -> got [] (utf8_string w) F F' h' r ->
  match w with
  | [] => r = WEOF /\ upcoming (seen F' h') = [] /\ feof F' = true /\ ferror F' = ferror F
  | c :: w' => r = c /\ upcoming (seen F' h') = utf8_string w' /\ feof F' = feof F /\ ferror F' = ferror F
  end.
Proof.
  intros Hw G. unfold got in G. cbn [app] in G. destruct w as [|c w].
  - destruct G as [(p & c & r0 & E & Sq & _)|[(_ & G)|(E & _)]]; [|exact G|discriminate]. exfalso. cbn in E. destruct p; [inversion Sq|discriminate].
  - apply Forall_inv in Hw. rewrite utf8_string_cons in G. pose proof (enc_seq c Hw) as Sc. pose proof (dec0_seq _ _ (utf8_string w) Sc) as Dc.
    destruct (decoded_ret c (length (utf8_enc c))) as (M2 & M1); [inversion Sc; cbn; lia|]. destruct G as [(p & c' & r0 & E & Sq & -> & U & FO & FE)|[(E & _)|(E & _)]].
    + rewrite E in Dc. rewrite (dec0_seq _ _ _ Sq) in Dc. assert (c' = c) by (unfold decoded in Dc; congruence). subst c'.
      assert (LL : length p = length (utf8_enc c)).
      { unfold decoded in Dc. destruct (Z.eqb_spec c 0) as [->|N]; [|injection Dc; lia]. inversion Sq; subst; unfold bt in *; try lia; reflexivity. }
      assert (p = utf8_enc c /\ r0 = utf8_string w) as (-> & ->). { symmetry in E. apply app_same in E; [exact E|exact LL]. }
      auto.
    + rewrite Dc in E. lia.
    + rewrite Dc in E. rewrite E in M1. cbn in M1. discriminate.
Qed.

Lemma fgetwc_ref W h v : sane (file W) h -> healthy h -> shows W h v ->
  exists W' h', fgetwc W h = Ok (match waiting v with c :: _ => c | [] => -1 end, W', h') /\ sane (file W') h' /\ healthy h' /\ data h' = data h /\ append h' = append h /\ (script h = [] -> script h' = []) /\ shows W' h' (wtake v).
Proof.
  intros S H (Hs & U & FO & FE & P). destruct v as [[c|] w fo fe]; cbn [wpushed wrest wat_eof win_error waiting wtake app] in *.
  - destruct P as (T & I & N & PB). unfold fgetwc. cbn [widen file pushback]. rewrite bit8, T. cbn [negb]. cbv iota. do 2 eexists. split; [f_equal; f_equal; f_equal; rewrite PB; unfold s32, sgn, is_i32, INT_MIN, INT_MAX in *; cbn [app]|].
    + change (2^(32 - 1)) with 2147483648. change (2^32) with 4294967296. rewrite Z.mod_mod by lia.  destruct (Z.lt_ge_cases c 0).
      * replace (c mod 4294967296) with (c + 4294967296) by (apply Z.mod_unique with (-1); lia). destruct (Z.ltb_spec (c + 4294967296) 2147483648); lia.
      * rewrite Z.mod_small by lia. destruct (Z.ltb_spec c 2147483648); lia.
    + cbn [set_file file]. split; [apply sane_state; [assumption|apply ldiff_nonneg; apply S]|]. split; [assumption|]. do 2 (split; [reflexivity|]). split; [auto|].
      unfold shows. cbn [wpushed wrest wat_eof win_error file set_file]. split; [assumption|]. split; [exact U|].
      assert (X : forall j, 0 <= j -> Z.testbit (state (set_state (file W) (Z.ldiff (state (file W)) wpushbit_))) j = Z.testbit (state (file W)) j && negb (j =? 8)).
      { intros j J. cbn [set_state state]. rewrite Z.ldiff_spec. f_equal. f_equal. change wpushbit_ with (2^8). destruct (Z.eqb_spec j 8) as [->|NJ]; [reflexivity|]. apply Z.pow2_bits_false. lia. }
      rewrite feof_bit, ferror_bit, !X by lia. rewrite feof_bit in FO. rewrite ferror_bit in FE. rewrite FO, FE. cbn. rewrite !andb_true_r, andb_false_r. auto.
  - destruct (fgetwc_bytes W h S H P) as (r & W' & h' & E & S' & H' & D & A & SC & T & G). rewrite U in G. apply got_string in G; [|assumption].
    exists W', h'. split; [rewrite E; destruct w as [|c w]; destruct G as (-> & _); reflexivity|]. do 5 (split; [assumption|]). unfold shows. cbn [wpushed wrest wat_eof win_error].
    destruct w as [|c w]; destruct G as (_ & U' & FO' & FE'); cbn [tl].
    + rewrite U', FO', FE'. repeat split; auto. now rewrite orb_true_r.
    + rewrite U', FO', FE', orb_false_r. repeat split; auto. now apply Forall_inv_tail in Hs.
Qed.

(** ** fgetws *)
Lemma waiting_take v : waiting (wtake v) = tl (waiting v).
Proof. destruct v as [[c|] w fo fe]; reflexivity. Qed.
Definition wafter (v : wview) (n : nat) (short : bool) : wview := let v := wtakes n v in mk_wview (wpushed v) (wrest v) (wat_eof v || short) (win_error v).
Lemma waiting_char W h v c q : shows W h v -> waiting v = c :: q -> c <> -1.
Proof.
  intros (Hs & _ & _ & _ & P) E. destruct v as [[d|] w fo fe]; cbn in *.
  - injection E as -> _. tauto.
  - subst w. apply Forall_inv in Hs. unfold scalar in Hs. lia.
Qed.
Lemma fgetws_ref left : forall acc W h v, sane (file W) h -> healthy h -> shows W h v ->
  let l := line 10 left (waiting v) in
  exists W' h', fgetws_loop left acc W h = Ok (match acc, l, left with [], [], S _ => None | _, _, _ => Some (rev acc ++ l) end, W', h') /\
    sane (file W') h' /\ healthy h' /\ data h' = data h /\ append h' = append h /\ (script h = [] -> script h' = []) /\ shows W' h' (wafter v (length l) (cut_off 10 left (waiting v))).
Proof.
  induction left as [|k IH]; intros acc W h v S H V l; unfold l; clear l; cbn [fgetws_loop].
  - exists W, h. cbn [line]. rewrite app_nil_r. split; [destruct acc; reflexivity|]. do 2 (split; [assumption|]). do 2 (split; [reflexivity|]). split; [auto|].
    unfold wafter, cut_off. destruct v as [pu w fo fe]. cbn [line length wtakes wpushed wrest wat_eof win_error]. change ((0 <? 0)%nat) with false. cbn [andb]. rewrite orb_false_r. exact V.
  - destruct (fgetwc_ref W h v S H V) as (W1 & h1 & E & S1 & H1 & D1 & A1 & SC1 & V1). rewrite E. cbn [bind].
    destruct (waiting v) as [|c q] eqn:Q.
    + change (-1 =? WEOF) with true. cbv iota. exists W1, h1. split; [cbn [line]; destruct acc; [reflexivity|now rewrite app_nil_r]|]. do 5 (split; [assumption|]).
      unfold wafter. cbn [line length wtakes]. replace (cut_off 10 (Datatypes.S k) []) with true by reflexivity. destruct v as [[d|] w fo fe]; [discriminate|]. cbn in Q. subst w. cbn in *. exact V1.
    + pose proof (waiting_char W h v c q V Q) as Nc. destruct (Z.eqb_spec c WEOF) as [X|_]; [unfold WEOF in X; congruence|]. rewrite cut_off_cons. cbn [line].
      assert (EO : wat_eof (wtake v) = wat_eof v). { destruct v as [[d|] w fo fe]; [reflexivity|]. cbn in *. subst w. now rewrite orb_false_r. }
      destruct (Z.eqb_spec c 10) as [->|N].
      * exists W1, h1. split; [destruct acc; [reflexivity|]; cbn; now rewrite <- !app_assoc|]. do 5 (split; [assumption|]). unfold wafter. cbn [length wtakes]. rewrite orb_false_r. destruct (wtake v). exact V1.
      * destruct (IH (c :: acc) W1 h1 (wtake v) S1 H1 V1) as (W2 & h2 & E2 & S2 & H2 & D2 & A2 & SC2 & V2). rewrite waiting_take, Q in E2, V2. cbn [tl] in E2, V2.
        exists W2, h2. split. { rewrite E2. f_equal. f_equal. f_equal. cbn [rev]. destruct acc; cbn; now rewrite <- ?app_assoc. }
        do 2 (split; [assumption|]). do 2 (split; [congruence|]). split; [auto|]. exact V2.
Qed.

(** ** ungetwc *)
Lemma ungetwc_ref c W h v : sane (file W) h -> is_i32 c -> shows W h v ->
  exists W', ungetwc c W = (match fst (wreference (WUngetc c) v) with WInt z => z | _ => 0 end, W') /\ sane (file W') h /\ shows W' h (snd (wreference (WUngetc c) v)).
Proof.
  intros S I V. pose proof V as (Hs & U & FO & FE & P). unfold ungetwc, wreference, WEOF. rewrite bit8. destruct (Z.eqb_spec c (-1)) as [->|N]; cbn [orb].
  { exists W. auto. }
  destruct v as [[d|] w fo fe]; cbn [wpushed wrest wat_eof win_error fst snd] in *.
  - destruct P as (T & P). rewrite T. cbn [negb]. exists W. auto.
  - rewrite P. cbn [negb]. eexists. split; [reflexivity|]. cbn [widen file]. split.
    { apply sane_state; [assumption|]. apply ldiff_nonneg. apply lor_nonneg; [apply S|unfold wpushbit_; lia]. }
    unfold shows. cbn [wpushed wrest wat_eof win_error file pushback]. split; [assumption|]. split; [exact U|].
    assert (X : forall j, 0 <= j -> Z.testbit (state (set_state (file W) (Z.ldiff (Z.lor (state (file W)) wpushbit_) eofbit_))) j = (Z.testbit (state (file W)) j || (j =? 8)) && negb (j =? 4)).
    { intros j J. cbn [set_state state]. rewrite clear_eof by assumption. f_equal. rewrite Z.lor_spec. f_equal. change wpushbit_ with (2^8). destruct (Z.eqb_spec j 8) as [->|NJ]; [reflexivity|]. apply Z.pow2_bits_false. lia. }
    rewrite feof_bit, ferror_bit, !X by lia. rewrite feof_bit in FO. rewrite ferror_bit in FE. rewrite P, FE. cbn. rewrite ?orb_false_r, ?andb_false_r, ?andb_true_r, ?orb_false_r. repeat split; auto; apply I.
Qed.

Lemma wdo_ref o W h v : sane (file W) h -> healthy h -> wlegal o -> shows W h v ->
  exists W' h', wdo o W h = Ok (fst (wreference o v), W', h') /\ sane (file W') h' /\ healthy h' /\ data h' = data h /\ append h' = append h /\ shows W' h' (snd (wreference o v)).
Proof.
  intros S H L V. destruct o; cbn [wdo].
  - destruct (fgetwc_ref W h v S H V) as (W1 & h1 & E & S1 & H1 & D1 & A1 & _ & V1). rewrite E. cbn [bind]. exists W1, h1. cbn [wreference fst snd]. auto 10.
  - cbn [wlegal] in L. destruct (ungetwc_ref c W h v S L V) as (W1 & E & S1 & V1). rewrite E. exists W1, h. split; [|auto 10].
    cbn [wreference]. destruct (c =? -1); [reflexivity|]. destruct (wpushed v); reflexivity.
  - unfold fgetws. cbn [wreference]. destruct (Z.leb_spec n 0); [exists W, h; cbn; auto 10|].
    destruct (fgetws_ref (Z.to_nat (n - 1)) [] W h v S H V) as (W1 & h1 & E & S1 & H1 & D1 & A1 & _ & V1). rewrite E. cbn [bind]. exists W1, h1. cbn [fst snd].
    split. { f_equal. f_equal. f_equal. f_equal. cbn [rev app]. destruct (line 10 (Z.to_nat (n - 1)) (waiting v)) as [|x l] eqn:EL; [|now rewrite orb_true_r].
      cbn [length Nat.eqb negb]. rewrite orb_false_r. destruct (Z.eqb_spec n 1) as [->|N1]; [reflexivity|]. destruct (Z.to_nat (n - 1)) as [|k] eqn:EK; [lia|reflexivity]. }
    do 4 (split; [assumption|]). unfold wafter, cut_off in V1.
    replace (negb (last (line 10 (Z.to_nat (n - 1)) (waiting v)) 0 =? 10)) with (negb (last (line 10 (Z.to_nat (n - 1)) (waiting v)) (10 + 1) =? 10)); [exact V1|].
    destruct (line 10 (Z.to_nat (n - 1)) (waiting v)) as [|x l]; [reflexivity|]. f_equal. f_equal. clear. revert x. induction l as [|y l IH]; intros x; [reflexivity|]. cbn [last]. apply IH.
  - exists W, h. cbn. split; [destruct V as (_ & _ & FO & _); rewrite FO; reflexivity|]. auto 10.
  - exists W, h. cbn. split; [destruct V as (_ & _ & _ & FE & _); rewrite FE; reflexivity|]. auto 10.
Qed.
Theorem wdo_all_ref os : forall W h v, sane (file W) h -> healthy h -> Forall wlegal os -> shows W h v ->
  exists W' h', wdo_all os W h = Ok (fst (wreference_run os v), W', h') /\ sane (file W') h' /\ healthy h' /\ data h' = data h /\ shows W' h' (snd (wreference_run os v)).
Proof.
  induction os as [|o os IH]; intros W h v S H L V; cbn [wdo_all wreference_run].
  - exists W, h. cbn. auto 10.
  - inversion L as [|? ? Lo Los]; subst. destruct (wdo_ref o W h v S H Lo V) as (W1 & h1 & E & S1 & H1 & D1 & A1 & V1). rewrite E. cbn [bind].
    destruct (wreference o v) as (r & v1). cbn [fst snd] in *. destruct (IH W1 h1 v1 S1 H1 Los V1) as (W2 & h2 & E2 & S2 & H2 & D2 & V2). rewrite E2. cbn [bind].
    destruct (wreference_run os v1) as (rs & v2). cbn [fst snd] in *. exists W2, h2. split; [reflexivity|]. do 2 (split; [assumption|]). split; [congruence|assumption].
Qed.

(** ** any bytes *)
Lemma sane_bytes F h : sane F h -> bytes (upcoming (seen F h)).
Proof. intros (_ & _ & C & _ & D & _). unfold upcoming, seen. cbn [pushed rest]. apply Forall_app. split; apply Forall_skipn; assumption. Qed.
Lemma got_cases q F F' h' w : bytes q -> got [] q F F' h' w ->
  (exists p c r, q = p ++ r /\ utf8_seq p c /\ w = c /\ upcoming (seen F' h') = r /\ feof F' = feof F /\ ferror F' = ferror F) \/
  ((q = [] \/ incomplete q) /\ w = WEOF /\ upcoming (seen F' h') = [] /\ feof F' = true /\ ferror F' = ferror F) \/
  (ill_formed q /\ w = WEOF /\ (exists p, p <> [] /\ q = p ++ upcoming (seen F' h')) /\ feof F' = feof F /\ ferror F' = true).
Proof.
  intros B [G|[(E & G)|(E & G)]]; [left; exact G|right; left; split; [apply more_short; assumption|exact G]|right; right]. cbn [app] in E. split; [|exact G].
  destruct (dec0_verdict q B) as [p c r Eq Sq|s [->|I]|X1 X2 X3 X4]; cbn in E; try discriminate.
  unfold ill_formed. auto.
Qed.

(** ** output *)
From Verif Require Import Stdio_Pos_Proof.
Lemma fputwc_any c W h : 0 <= pos h -> scalar c ->
  exists k W' h', fputwc c W h = ((if (k =? length (utf8_enc c))%nat then c else WEOF), W', h') /\ (k <= length (utf8_enc c))%nat /\ append h' = append h /\ 0 <= pos h' /\
    data h' = patch (data h) (out_pos h) (firstn k (utf8_enc c)) /\ ((k < length (utf8_enc c))%nat -> ferror (file W') = true) /\ orient W' = (if orient W =? 0 then 1 else orient W) /\
    (script h = [] -> k = length (utf8_enc c) /\ script h' = [] /\ ferror (file W') = ferror (file W) /\ out_pos h' = (out_pos h + length (utf8_enc c))%nat).
Proof.
  intros P Sc. unfold fputwc. rewrite wcrtomb_scalar by assumption. cbn [wret wout widen file]. pose proof (enc_len c Sc) as L.
  destruct (Z.eqb_spec (Z.of_nat (length (utf8_enc c))) SIZE_M1) as [X|_]; [unfold SIZE_M1 in X; lia|].
  destruct (write_any (file W) h (utf8_enc c) P) as (k & F1 & h1 & E & KL & A1 & _ & D1 & P1 & FE & FK & FS & SS & FX). rewrite E.
  exists k. destruct (Nat.eqb_spec k (length (utf8_enc c))) as [K|K].
  - rewrite K, Z.eqb_refl. do 2 eexists. split; [reflexivity|]. cbn [set_file file orient]. split; [lia|]. rewrite <- K. do 3 (split; [assumption|]). split; [lia|]. split; [reflexivity|]. intros S. specialize (FX K S). rewrite <- K in FX. intuition.
  - destruct (Z.eqb_spec (Z.of_nat k) (Z.of_nat (length (utf8_enc c)))) as [X|_]; [lia|]. do 2 eexists. split; [reflexivity|]. cbn [set_file file orient]. do 4 (split; [assumption|]).
    split; [intros _; apply set_err|]. split; [reflexivity|]. intros S. specialize (FS S). lia.
Qed.
Lemma fputwc_bad c W h : is_i32 c -> ~ scalar c -> exists W', fputwc c W h = (WEOF, W', h) /\ ferror (file W') = true.
Proof. intros I N. unfold fputwc. rewrite wcrtomb_reject by assumption. cbn [wret]. change (SIZE_M1 =? SIZE_M1) with true. cbv iota. eexists. split; [reflexivity|]. cbn [set_file file]. apply set_err. Qed.
Lemma fputws_app s : forall W h t, 0 <= pos h -> script h = [] -> Forall scalar s ->
  exists W' h', fputws (s ++ t) W h = fputws t W' h' /\ append h' = append h /\ 0 <= pos h' /\ script h' = [] /\ ferror (file W') = ferror (file W) /\
    overwritten (data h) (out_pos h) (utf8_string s) (data h') /\ out_pos h' = (out_pos h + length (utf8_string s))%nat.
Proof.
  induction s as [|c s IH]; intros W h t P S Hs; cbn [app fputws].
  - exists W, h. cbn. repeat (split; [reflexivity || assumption|]). split; [apply (patch_overwritten (data h) (out_pos h) [])|lia].
  - inversion Hs as [|? ? Hc Hs']; subst. destruct (fputwc_any c W h P Hc) as (k & W1 & h1 & E & _ & A1 & P1 & D1 & _ & _ & X). destruct (X S) as (-> & S1 & FE1 & O1). rewrite E, Nat.eqb_refl.
    destruct (Z.eqb_spec c WEOF) as [Y|_]; [unfold scalar, WEOF in *; lia|]. destruct (IH W1 h1 t P1 S1 Hs') as (W2 & h2 & E2 & A2 & P2 & S2 & FE2 & OV2 & O2).
    exists W2, h2. split; [exact E2|]. split; [congruence|]. do 2 (split; [assumption|]). split; [congruence|]. rewrite utf8_string_cons. split.
    + apply overwritten_app with (d1 := data h1); [rewrite D1, firstn_all; apply patch_overwritten|rewrite <- O1; exact OV2].
    + rewrite O2, O1, app_length. lia.
Qed.
