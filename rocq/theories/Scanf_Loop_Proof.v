(** Proofs about scanf: every character read from the stream is accounted for. *)
From Verif Require Import Base Ctype_Model Ctype_Spec Ctype_Proof Stdlib_Model Stdlib_Spec Stdlib_Proof Stdio_Model Stdio_Spec Stdio_Proof Scanf_Model Scanf_Spec Scanf_Proof.
Open Scope Z_scope.

Definition wp {A} (r : res A) (Q : A -> Prop) : Prop := match r with Ok x => Q x | UB => True | Fuel => False end.
Lemma wp_bind {A B} (r : res A) (k : A -> res B) Q : wp r (fun x => wp (k x) Q) -> wp (bind r k) Q.
Proof. destruct r; cbn; auto. Qed.
Lemma wp_mono {A} (r : res A) (Q R : A -> Prop) : wp r Q -> (forall x, Q x -> R x) -> wp r R.
Proof. destruct r; cbn; auto. Qed.

(** The number parsers terminate *)
Lemma isspace_wp c : wp (isspace c) (fun _ => True).
Proof. unfold isspace, sub_lt, chk_i32. repeat match goal with |- context [if ?b then _ else _] => destruct b; cbn end; exact I. Qed.
Lemma skip_space_wp s : forall k, wp (skip_space s k) (fun _ => True).
Proof.
  induction s as [|c s IH]; intros k; cbn [skip_space]; apply wp_bind; (eapply wp_mono; [apply isspace_wp|]); intros b _; destruct (b =? 0); cbn; auto.
Qed.
Lemma parseint_wp w sg s base max : wp (parseint_ w sg s base max) (fun _ => True).
Proof.
  unfold parseint_. apply wp_bind. eapply wp_mono; [apply skip_space_wp|]. intros [s1 k1] _. cbv beta iota zeta. apply wp_bind.
  assert (forall t, wp (next t) (fun _ => True)) as NX by (intros [|? ?]; exact I).
  apply (wp_mono _ (fun _ => True)). { destruct (_ || _); [|exact I]. apply wp_bind. eapply wp_mono; [apply NX|]. intros; exact I. }
  intros [s2 k2] _. apply wp_bind. apply (wp_mono _ (fun _ => True)).
  { destruct (_ =? 48); [|exact I]. apply wp_bind. eapply wp_mono; [apply NX|]. intros t _. destruct (_ && _); [|exact I]. apply wp_bind. eapply wp_mono; [apply NX|]. intros; exact I. }
  intros [[[b e] s3] k3] _. destruct (digit_loop _ _ _ _ _ _ _ _) as [[m o] e']. destruct (_ || _); [exact I|]. apply wp_bind.
  unfold mul_int. destruct sg; [destruct (_ && _)|]; exact I.
Qed.

(** The body of [scan_float] after the sign *)
Definition float_number (fuel : nat) (length : Z) (c width : Z) (buf : list Z) (s : scanner) : res (Z * option stored * scanner) :=
  let fail (s : scanner) := Ok (0, None, s) in
  let done (buf : list Z) (s : scanner) := Ok (1, Some (Sfloat length (rev buf)), s) in
    do (is_hex, si, c, width, buf, s) <-
      (if (c =? 48) && (0 <? width) then
         let buf := put buf c in let width := width - 1 in
         do (next, s) <- sgetc_if width s;
         if (next =? 120) || (next =? 88) then
           let buf := put buf next in let width := width - 1 in
           do (c, s) <- sgetc_if width s; Ok (true, false, c, width, buf, s)
         else Ok (false, true, next, width, buf, s)
       else Ok (false, false, c, width, buf, s));
    let test := if is_hex then hex_digit_ else dec_digit_ in
    do (c, width, buf, si, s) <- float_digits fuel test width c buf si s;
    do (c, width, buf, sf, s) <-
      (if (c =? 46) && (0 <? width) then
         let buf := put buf c in let width := width - 1 in
         do (c, s) <- sgetc_if width s; float_digits fuel test width c buf false s
       else Ok (c, width, buf, false, s));
    if negb si && negb sf then do s <- sungetc s c; fail s else
    let exp_lo := if is_hex then 112 else 101 in
    if ((c =? exp_lo) || (c =? exp_lo - 32)) && (0 <? width) then
      let saved := buf in
      let buf := put buf c in let width := width - 1 in
      do (a, s) <- sgetc_if width s;
      do (sg, a, width, buf, s) <-
        (if ((a =? 43) || (a =? 45)) && (0 <? width) then
           let buf := put buf a in let width := width - 1 in
           do (a, s) <- sgetc_if width s; Ok (true, a, width, buf, s)
         else Ok (false, a, width, buf, s));
      do (last, width, buf, ed, s) <- float_digits fuel dec_digit_ width a buf false s;
      if negb ed then
        do s <- sungetc s last;
        do (buf, s) <- (if sg then do (x, buf) <- pop buf; do s <- sungetc s x; Ok (buf, s) else Ok (buf, s));
        do (x, _) <- pop buf; do s <- sungetc s x; done saved s
      else do s <- sungetc s last; done buf s
    else do s <- sungetc s c; done buf s.
Definition float_body (fuel : nat) (length : Z) (c width : Z) (buf : list Z) (s : scanner) : res (Z * option stored * scanner) :=
  let fail (s : scanner) := Ok (0, None, s) in
  let done (buf : list Z) (s : scanner) := Ok (1, Some (Sfloat length (rev buf)), s) in
    let low := lower_ c in
    if (low =? 105) || (low =? 110) then
      do s <- sungetc s c;
      if low =? 105 then
        do (m, width, buf, s) <- scan_word_ [105; 110; 102] width buf 0 s;
        if negb (m =? 3) then fail s else
        if 0 <? width then do (_, _, buf, s) <- scan_word_ [105; 110; 105; 116; 121] width buf 0 s; done buf s else done buf s
      else
        do (m, width, buf, s) <- scan_word_ [110; 97; 110] width buf 0 s;
        if negb (m =? 3) then fail s else
        if 0 <? width then
          do (p, s) <- sgetc s;
          if p =? 40 then do (buf, s) <- nan_chars fuel (width - 1) (put buf 40) s; done buf s
          else do s <- sungetc s p; done buf s
        else done buf s
    else float_number fuel length c width buf s.
Lemma scan_float_eq fuel s width length : scan_float fuel s width length =
  (do s <- skip_ws fuel s;
   do (c, s) <- sgetc s;
   if c =? EOF then Ok (-1, None, s) else
   if (c =? 43) || (c =? 45) then
     let width := width - 1 in
     if width =? 0 then Ok (0, None, s) else
     do (c', s) <- sgetc s;
     if c' =? EOF then Ok (0, None, s) else float_body fuel length c' width (put [] c) s
   else float_body fuel length c width [] s).
Proof. reflexivity. Qed.

Section Run.
Context (s0 : scanner) (L : nat).
(** At least [g] characters could be pushed back without exceeding three *)
Definition P (g : nat) (s : scanner) : Prop :=
  inv s /\ adv s0 s /\ data (sh s) = data (sh s0) /\ (len (peek s) <= 3 - g)%nat /\ (len (left_of s) + g <= L)%nat.
Definition Good (c : Z) (s : scanner) : Prop := (c = EOF /\ P 0 s) \/ (is_byte c /\ P 1 s).
Lemma P_weak g h s : (h <= g)%nat -> P g s -> P h s.
Proof. intros H (I & A & D & K & M). split; [exact I|]. split; [exact A|]. split; [exact D|]. lia. Qed.
Lemma get_P g s : P g s -> wp (sgetc s) (fun r => (fst r = EOF /\ P g (snd r)) \/ (is_byte (fst r) /\ P (S g) (snd r))).
Proof.
  intros (I & A & D & K & M). destruct (sgetc_ok s I) as (c & s' & E & I' & A' & D' & G). rewrite E. cbn [wp fst snd].
  assert (adv s0 s') as AA by now apply adv_trans with s. destruct (left_of s) as [|d q] eqn:LL.
  - destruct G as (G1 & G2 & G3 & G4). left. split; [exact G1|]. split; [exact I'|]. split; [exact AA|]. split; [congruence|]. rewrite G2, G4. cbn [len] in *. lia.
  - destruct G as (G1 & G2 & G3 & G4 & G5). right. subst c. split; [exact G2|]. split; [exact I'|]. split; [exact AA|]. split; [congruence|].
    rewrite G3, G5. cbn [len] in M. split; [destruct (peek s); cbn [len tl] in *; lia|lia].
Qed.
Lemma get_Good g s : P g s -> wp (sgetc s) (fun r => Good (fst r) (snd r)).
Proof. intros H. eapply wp_mono; [apply (get_P g s H)|]. intros [c s'] [[E Q]|[E Q]]; cbn in *; [left|right]; (split; [exact E|]); eapply P_weak; [|exact Q| |exact Q]; lia. Qed.
Lemma unget_P g s c : P (S g) s -> is_byte c -> (g <= 2)%nat -> exists s', sungetc s c = Ok s' /\ P g s'.
Proof.
  intros (I & A & D & K & M) B G. destruct (sungetc_ok s c I B ltac:(lia)) as (s' & E & I' & A' & D' & L' & C' & P'). exists s'. split; [exact E|].
  split; [exact I'|]. split; [now apply adv_trans with s|]. split; [congruence|]. rewrite L', P'. cbn [len]. lia.
Qed.
Lemma unget_Good s c : Good c s -> exists s', sungetc s c = Ok s' /\ P 0 s'.
Proof.
  intros [[-> H]|[B H]]; [exists s; split; [reflexivity|exact H]|]. apply (unget_P 0 s c H B). lia.
Qed.
Lemma Good_fuel fuel c s : (L < fuel)%nat -> Good c s -> (1 <= fuel)%nat /\ (c <> EOF -> len (left_of s) + 1 < fuel)%nat.
Proof. intros F [[-> H]|[B (_ & _ & _ & _ & M)]]; split; try lia. Qed.
Lemma Good_P0 c s : Good c s -> P 0 s.
Proof. intros [[_ H]|[_ H]]; [exact H|]. eapply P_weak; [|exact H]. lia. Qed.

(** A loop that reads: the next character is Good and there is less to come *)
Lemma get_less f s c : Good c s -> c <> EOF -> (len (left_of s) + 1 < S f)%nat ->
  wp (sgetc s) (fun r => Good (fst r) (snd r) /\ (1 <= f)%nat /\ (fst r <> EOF -> len (left_of (snd r)) + 1 < f)%nat).
Proof.
  intros G N M. destruct G as [[-> _]|[B H]]; [contradiction|]. pose proof H as (I & A & D & K & MM).
  destruct (sgetc_ok s I) as (c' & s' & E & I' & A' & D' & GG). pose proof (get_Good 1 s H) as GP. rewrite E in *. cbn [wp fst snd] in *. split; [exact GP|]. split; [lia|].
  intros NE. destruct (left_of s) as [|d q] eqn:LL; [destruct GG; contradiction|]. destruct GG as (_ & _ & -> & _). cbn [len] in M. lia.
Qed.
Lemma skip_ws_P fuel : forall s, P 0 s -> (len (left_of s) < fuel)%nat -> wp (skip_ws fuel s) (P 0).
Proof.
  induction fuel as [|f IH]; intros s H F; [lia|]. cbn [skip_ws]. apply wp_bind.
  pose proof (get_Good 0 s H) as G. pose proof H as (I & _). destruct (sgetc_ok s I) as (c & s' & E & _ & _ & _ & GG). rewrite E in *. cbn [wp fst snd] in *.
  destruct (Z.eqb_spec c EOF) as [CE|CE].
  - destruct (unget_Good s' c G) as (s'' & -> & Q). exact Q.
  - destruct (left_of s) as [|d q] eqn:LL; [destruct GG; contradiction|]. destruct GG as (-> & B & LQ & _). rewrite isspace_byte by exact B. cbn [bind].
    destruct (b2z (spaceb d) =? 0); [destruct (unget_Good s' d G) as (s'' & -> & Q); exact Q|].
    apply IH; [now apply Good_P0 with d|]. rewrite LQ. cbn [len] in F. lia.
Qed.
Lemma int_digits_P fuel : forall base width c buf sn s, Good c s -> (1 <= fuel)%nat -> (c <> EOF -> len (left_of s) + 1 < fuel)%nat ->
  wp (int_digits fuel base width c buf sn s) (fun r => let '(c', _, _, s') := r in Good c' s').
Proof.
  induction fuel as [|f IH]; intros base width c buf sn s G F1 F2; [lia|]. cbn [int_digits].
  destruct (Z.eqb_spec c EOF) as [CE|CE]; [rewrite andb_false_r; exact G|]. destruct (0 <? width); cbn [andb negb]; [|exact G].
  destruct (digit_of c) as [d|]; [|exact G]. destruct (base <=? d); [exact G|]. apply wp_bind. eapply wp_mono; [apply (get_less f s c G CE (F2 CE))|].
  intros [c' s'] (G' & F1' & F2'). now apply IH.
Qed.
Lemma int_done_P base sign length c buf sn s : Good c s ->
  wp (int_done base sign length (c, buf, sn, s)) (fun r => P 0 (snd r)).
Proof.
  intros G. unfold int_done. destruct (unget_Good s c G) as (s' & -> & Q). cbn [bind]. destruct sn; cbn [negb]; [|exact Q]. apply wp_bind.
  destruct sign; [eapply wp_mono; [apply parseint_wp|]|eapply wp_mono; [apply parseint_wp|]]; intros v _; exact Q.
Qed.

Lemma gets fuel (F : (L < fuel)%nat) g s {B} (k : Z * scanner -> res B) (Q : B -> Prop) : P g s ->
  (forall c s', Good c s' -> (1 <= fuel)%nat -> (c <> EOF -> len (left_of s') + 1 < fuel)%nat -> wp (k (c, s')) Q) -> wp (bind (sgetc s) k) Q.
Proof.
  intros H K. apply wp_bind. eapply wp_mono; [apply (get_Good g s H)|]. intros [c s'] G. destruct (Good_fuel fuel c s' F G). now apply K.
Qed.
Lemma scan_int_P fuel s width base sign length : (L < fuel)%nat -> P 0 s -> wp (scan_int fuel s width base sign length) (fun r => P 0 (snd r)).
Proof.
  intros F H.
  assert (forall c w buf s', Good c s' -> wp (int_rest fuel base sign length c w buf s') (fun r => P 0 (snd r))) as REST.
  { intros c w buf s' G. unfold int_rest.
    assert (forall c w b bf sn s', Good c s' -> wp (do r <- int_digits fuel b w c bf sn s'; int_done b sign length r) (fun r => P 0 (snd r))) as DG.
    { intros c2 w2 b2 bf sn s2 G2. apply wp_bind. destruct (Good_fuel fuel _ _ F G2) as [F1 F2]. eapply wp_mono; [apply int_digits_P; assumption|].
      intros [[[c3 bf3] sn3] s3] G3. now apply int_done_P. }
    destruct (Z.eqb_spec c 48) as [C0|C0]; cbn [andb]; [|now apply DG].
    destruct (0 <? w); [|now apply DG]. destruct (w - 1 =? 0); [now apply int_done_P|].
    apply (gets fuel F 0); [now apply Good_P0 with c|]. intros c1 s1 G1 _ _. cbv beta iota. destruct (_ && _); [|now apply DG].
    destruct (w - 1 - 1 =? 0); [now apply int_done_P|]. apply (gets fuel F 0); [now apply Good_P0 with c1|]. intros c2 s2 G2 _ _. now apply DG. }
  rewrite scan_int_eq. apply wp_bind. eapply wp_mono; [apply skip_ws_P; [exact H|destruct H as (_ & _ & _ & _ & M); lia]|]. intros s1 H1.
  apply (gets fuel F 0); [exact H1|]. intros c s2 G _ _. destruct (c =? EOF); [now apply Good_P0 with c|].
  destruct (_ || _); [|now apply REST]. cbv zeta. destruct (_ =? 0); [now apply int_done_P|].
  apply (gets fuel F 0); [now apply Good_P0 with c|]. intros c3 s3 G3 _ _. now apply REST.
Qed.
Lemma collect_P fuel (test : Z -> res bool) : (forall c, wp (test c) (fun _ => True)) -> forall width c acc s, Good c s -> (1 <= fuel)%nat -> (c <> EOF -> len (left_of s) + 1 < fuel)%nat ->
  wp (collect fuel test width c acc s) (fun r => let '(c', _, s') := r in Good c' s').
Proof.
  intros T. induction fuel as [|f IH]; intros width c acc s G F1 F2; [lia|]. cbn [collect].
  destruct (Z.eqb_spec c EOF) as [CE|CE]; [rewrite andb_false_r; exact G|]. destruct (0 <? width); cbn [andb negb]; [|exact G].
  apply wp_bind. eapply wp_mono; [apply T|]. intros [|] _; [|exact G]. apply wp_bind. eapply wp_mono; [apply (get_less f s c G CE (F2 CE))|].
  intros [c' s'] (G' & F1' & F2'). now apply IH.
Qed.
Lemma scan_str_P fuel s width : (L < fuel)%nat -> P 0 s -> wp (scan_str fuel s width) (fun r => P 0 (snd r)).
Proof.
  intros F H. unfold scan_str. apply wp_bind. eapply wp_mono; [apply skip_ws_P; [exact H|destruct H as (_ & _ & _ & _ & M); lia]|]. intros s1 H1.
  apply (gets fuel F 0); [exact H1|]. intros c s2 G F1 F2. destruct (c =? EOF); [now apply Good_P0 with c|]. apply wp_bind.
  eapply wp_mono; [apply collect_P; [|exact G|exact F1|exact F2]; intros x; apply wp_bind; eapply wp_mono; [apply isspace_wp|]; intros; exact I|].
  intros [[c' acc] s3] G3. destruct (unget_Good s3 c' G3) as (s4 & -> & Q). cbn [bind]. destruct acc; exact Q.
Qed.
Lemma scan_set_P fuel s width map negate : (L < fuel)%nat -> P 0 s -> wp (scan_set_ fuel s width map negate) (fun r => P 0 (snd r)).
Proof.
  intros F H. unfold scan_set_. apply (gets fuel F 0); [exact H|]. intros c s2 G F1 F2. destruct (c =? EOF); [now apply Good_P0 with c|]. apply wp_bind.
  eapply wp_mono; [apply collect_P; [|exact G|exact F1|exact F2]; intros; exact I|].
  intros [[c' acc] s3] G3. destruct (unget_Good s3 c' G3) as (s4 & -> & Q). cbn [bind]. destruct acc; exact Q.
Qed.
Lemma char_loop_P fuel : forall width c acc s, Good c s -> (1 <= fuel)%nat -> (c <> EOF -> len (left_of s) + 1 < fuel)%nat ->
  wp (char_loop fuel width c acc s) (fun r => P 0 (snd r)).
Proof.
  induction fuel as [|f IH]; intros width c acc s G F1 F2; [lia|]. cbn [char_loop].
  destruct (Z.eqb_spec c EOF) as [CE|CE]; [rewrite andb_false_r; now apply Good_P0 with c|]. destruct (0 <? width); cbn [andb negb]; [|now apply Good_P0 with c].
  destruct (width - 1 <=? 0); [now apply Good_P0 with c|]. apply wp_bind. eapply wp_mono; [apply (get_less f s c G CE (F2 CE))|].
  intros [c' s'] (G' & F1' & F2'). now apply IH.
Qed.
Lemma scan_chars_P fuel s width : (L < fuel)%nat -> P 0 s -> wp (scan_chars fuel s width) (fun r => P 0 (snd r)).
Proof.
  intros F H. unfold scan_chars. apply (gets fuel F 0); [exact H|]. intros c s2 G F1 F2. destruct (c =? EOF); [now apply Good_P0 with c|]. apply wp_bind.
  eapply wp_mono; [now apply char_loop_P|]. intros [acc s3] H3. destruct acc; exact H3.
Qed.

(** ** Floating numbers *)
Lemma scan_word_P word : forall g width buf m s, (g <= 2)%nat -> P g s -> wp (scan_word_ word width buf m s) (fun r => P g (snd r)).
Proof.
  induction word as [|w word IH]; intros g width buf m s G H; cbn [scan_word_]; [exact H|]. destruct (0 <? width); [|exact H]. apply wp_bind.
  eapply wp_mono; [apply (get_P g s H)|]. intros [c s'] [[E Q]|[B Q]]; cbn [fst snd] in *.
  - subst c. cbn. exact Q.
  - replace (c =? EOF) with false by (unfold is_byte, EOF in *; lia). destruct (lower_ c =? w).
    + apply IH; [exact G|]. eapply P_weak; [|exact Q]. lia.
    + destruct (unget_P g s' c Q B G) as (s'' & -> & R). exact R.
Qed.
Lemma nan_chars_P fuel : forall width buf s, P 0 s -> (len (left_of s) < fuel)%nat -> wp (nan_chars fuel width buf s) (fun r => P 0 (snd r)).
Proof.
  induction fuel as [|f IH]; intros width buf s H F; [lia|]. cbn [nan_chars]. destruct (0 <? width); [|exact H]. apply wp_bind.
  pose proof (get_Good 0 s H) as G. pose proof H as (I & _). destruct (sgetc_ok s I) as (c & s' & E & _ & _ & _ & GG). rewrite E in *. cbn [wp fst snd] in *.
  destruct (Z.eqb_spec c EOF) as [CE|CE]; [now apply Good_P0 with c|]. destruct (c =? 41); [now apply Good_P0 with c|].
  apply IH; [now apply Good_P0 with c|]. destruct (left_of s) as [|d q] eqn:LL; [destruct GG; contradiction|]. destruct GG as (_ & _ & -> & _). cbn [len] in F. lia.
Qed.
(** [sn] tells whether a digit was seen before the character under consideration *)
Definition Num (sn : bool) (c : Z) (s : scanner) : Prop := (c = EOF \/ is_byte c) /\ P 1 s /\ (sn = true -> c <> EOF -> P 2 s).
Lemma Num_get g sn s : (1 <= g)%nat -> P g s -> wp (sgetc s) (fun r => Num sn (fst r) (snd r)).
Proof.
  intros G H. eapply wp_mono; [apply (get_P g s H)|]. intros [c s'] [[E Q]|[B Q]]; cbn [fst snd] in *.
  - split; [auto|]. split; [eapply P_weak; [|exact Q]; lia|]. intros _ N. contradiction.
  - split; [auto|]. split; [eapply P_weak; [|exact Q]; lia|]. intros _ _. eapply P_weak; [|exact Q]; lia.
Qed.
Lemma Num_get_if w sn s : P 1 s -> wp (sgetc_if w s) (fun r => Num sn (fst r) (snd r)).
Proof.
  intros H. unfold sgetc_if. destruct (0 <? w); [now apply Num_get with 1%nat|]. split; [left; reflexivity|]. split; [exact H|]. intros _ N. cbn in N. contradiction.
Qed.
Lemma Num_fuel fuel sn c s : (L < fuel)%nat -> Num sn c s -> (len (left_of s) + 1 < fuel)%nat.
Proof. intros F (_ & (_ & _ & _ & _ & M) & _). lia. Qed.
Lemma float_digits_P x fuel test : forall width c buf seen s, Num (x || seen) c s -> Forall is_byte buf -> (len (left_of s) + 1 < fuel)%nat ->
  wp (float_digits fuel test width c buf seen s) (fun r => let '(c', _, buf', seen', s') := r in
    Num (x || seen') c' s' /\ Forall is_byte buf' /\ (len buf <= len buf')%nat /\ (seen' = false -> buf' = buf /\ s' = s /\ c' = c) /\ (seen = true -> seen' = true)).
Proof.
  induction fuel as [|f IH]; intros width c buf seen s N B F; [lia|]. cbn [float_digits].
  destruct (Z.eqb_spec c EOF) as [CE|CE]; [rewrite andb_false_r; cbn [andb wp]; repeat (split; [solve [auto]|]); auto|]. destruct (0 <? width); cbn [andb negb]; [|cbn [wp]; repeat (split; [solve [auto]|]); auto].
  destruct (test c); [|cbn [wp]; repeat (split; [solve [auto]|]); auto]. apply wp_bind. pose proof N as ([E|Bc] & P1 & _); [contradiction|]. pose proof P1 as (Is & _).
  destruct (sgetc_ok s Is) as (c' & s' & E & _ & _ & _ & GG). pose proof (Num_get 1 (x || true) s ltac:(lia) P1) as NN. rewrite E in *. cbn [wp fst snd] in *.
  assert (Forall is_byte (put buf c) /\ len buf <= len (put buf c))%nat as [B' LB] by (unfold put; destruct (_ <? _); cbn; split; auto).
  destruct (left_of s) as [|d q] eqn:LL.
  - destruct GG as (-> & LL' & _). destruct f as [|f]; [cbn in F; lia|]. cbn [float_digits]. rewrite andb_false_r. cbn [andb wp]. split; [exact NN|]. split; [exact B'|]. split; [exact LB|]. split; [discriminate|reflexivity].
  - destruct GG as (_ & _ & LL' & _). eapply wp_mono; [apply (IH (width - 1) c' (put buf c) true s' NN B'); rewrite LL'; cbn [len] in F; lia|].
    intros [[[[c2 w2] b2] sn2] s2] (N2 & B2 & LE & SF & ST). split; [exact N2|]. split; [exact B2|]. split; [lia|].
    split; [intros E2; rewrite (ST eq_refl) in E2; discriminate|intros _; now apply ST].
Qed.
Lemma put_facts buf c : is_byte c -> Forall is_byte buf -> Forall is_byte (put buf c) /\ (Nat.min 127 (len buf + 1) <= len (put buf c))%nat.
Proof. intros B F. unfold put, BUFSZ. destruct (Z.ltb_spec (Z.of_nat (len buf)) (128 - 1)); cbn [len]; split; auto; lia. Qed.
Lemma pop_P buf : Forall is_byte buf -> (1 <= len buf)%nat -> exists x b, pop buf = Ok (x, b) /\ is_byte x /\ Forall is_byte b /\ len b = (len buf - 1)%nat.
Proof. destruct buf as [|x b]; cbn [len]; [lia|]. intros F _. inversion F; subst. exists x, b. repeat (split; [solve [auto]|]). lia. Qed.
Lemma float_number_P fuel length c width buf s : (L < fuel)%nat -> is_byte c -> P 1 s -> Forall is_byte buf ->
  wp (float_number fuel length c width buf s) (fun r => P 0 (snd r)).
Proof.
  intros F Bc H Bb. unfold float_number. cbv zeta. apply wp_bind.
  apply (wp_mono _ (fun r => let '(hex, si, c, w, b, s') := r in Num si c s' /\ Forall is_byte b)).
  { destruct ((c =? 48) && (0 <? width)).
    - apply wp_bind. eapply wp_mono; [apply (Num_get_if (width - 1) true s H)|]. intros [n s1] N1. cbn [fst snd] in N1. cbv beta iota.
      destruct (put_facts buf c Bc Bb) as [B1 _]. destruct ((n =? 120) || (n =? 88)) eqn:X; [|cbn [wp]; auto].
      pose proof N1 as ([E|Bn] & P1 & _); [unfold EOF in E; lia|].
      apply wp_bind. eapply wp_mono; [apply (Num_get_if (width - 1 - 1) false s1 P1)|]. intros [c2 s2] N2. cbn [wp fst snd] in *. split; [exact N2|]. now apply put_facts.
    - cbn [wp]. split; [|exact Bb]. split; [auto|]. split; [exact H|discriminate]. }
  intros [[[[[hex si] c1] w1] b1] s1] (N1 & B1). set (test := if hex then hex_digit_ else dec_digit_).
  apply wp_bind. eapply wp_mono; [apply (float_digits_P false fuel test w1 c1 b1 si s1 N1 B1 (Num_fuel fuel si c1 s1 F N1))|].
  intros [[[[c2 w2] b2] si2] s2] (N2 & B2 & _ & _). cbn [orb] in N2. cbv beta iota. apply wp_bind.
  apply (wp_mono _ (fun r => let '(c, w, b, sf, s') := r in Num (si2 || sf) c s' /\ Forall is_byte b)).
  { destruct ((c2 =? 46) && (0 <? w2)) eqn:X; [|cbn [wp]; rewrite orb_false_r; auto].
    pose proof N2 as ([E|Bn] & P1 & _); [unfold EOF in E; lia|]. destruct (put_facts b2 c2 Bn B2) as [B3 _]. apply wp_bind.
    eapply wp_mono; [apply (Num_get_if (w2 - 1) (si2 || false) s2 P1)|]. intros [c3 s3] N3. cbn [fst snd] in N3.
    eapply wp_mono; [apply (float_digits_P si2 fuel test (w2 - 1) c3 (put b2 c2) false s3 N3 B3 (Num_fuel fuel _ c3 s3 F N3))|].
    intros [[[[c4 w4] b4] sf4] s4] (N4 & B4 & _ & _). auto. }
  intros [[[[c3 w3] b3] sf] s3] (N3 & B3). cbv beta iota.
  assert (Good c3 s3) as G3. { destruct N3 as ([E|B] & Q & _); [left|right]; (split; [assumption|]); eapply P_weak; [|exact Q| |exact Q]; lia. }
  destruct (negb si2 && negb sf) eqn:SN; [destruct (unget_Good s3 c3 G3) as (s' & -> & Q); exact Q|].
  destruct (((c3 =? (if hex then 112 else 101)) || (c3 =? (if hex then 112 else 101) - 32)) && (0 <? w3)) eqn:X.
  2:{ destruct (unget_Good s3 c3 G3) as (s' & -> & Q); exact Q. }
  assert (c3 <> EOF) as CE by (unfold EOF; destruct hex; lia). destruct N3 as ([E|B] & _ & P2); [contradiction|].
  specialize (P2 ltac:(destruct si2, sf; cbn in *; congruence) CE). destruct (put_facts b3 c3 B B3) as [B4 L4]. apply wp_bind.
  apply (wp_mono _ (fun r => let '(a, s) := r in (a = EOF /\ P 2 s) \/ (is_byte a /\ P 3 s))).
  { unfold sgetc_if. destruct (0 <? w3 - 1); [|left; auto]. eapply wp_mono; [apply (get_P 2 s3 P2)|]. intros [a s4]. cbn [fst snd]. auto. }
  intros [a s4] A4. apply wp_bind.
  apply (wp_mono _ (fun r => let '(sg, a, w, b, s) := r in Forall is_byte b /\ (Nat.min 127 (if sg : bool then 2 else 1) <= len b)%nat /\
     ((a = EOF /\ P (if sg then 3 else 2) s) \/ (is_byte a /\ P 3 s)))).
  { destruct (((a =? 43) || (a =? 45)) && (0 <? w3 - 1)) eqn:Y.
    - destruct A4 as [[E _]|[Ba P3]]; [unfold EOF in E; lia|]. destruct (put_facts _ a Ba B4) as [B5 L5]. apply wp_bind.
      apply (wp_mono _ (fun r => let '(a, s) := r in (a = EOF /\ P 3 s) \/ (is_byte a /\ P 3 s))).
      { unfold sgetc_if. destruct (0 <? w3 - 1 - 1); [|left; auto]. eapply wp_mono; [apply (get_P 3 s4 P3)|]. intros [a5 s5]. cbn [fst snd]. intros [Q|[Q R]]; [auto|right]. split; [exact Q|]. eapply P_weak; [|exact R]. lia. }
      intros [a5 s5] A5. cbn [wp]. split; [exact B5|]. split; [lia|exact A5].
    - cbn [wp]. split; [exact B4|]. split; [lia|exact A4]. }
  intros [[[[sg a5] w5] b5] s5] (B5 & L5 & A5). cbv beta iota.
  assert (Num true a5 s5) as N5.
  { destruct A5 as [[E Q]|[E Q]]; (split; [auto|]); (split; [eapply P_weak; [|exact Q]; destruct sg; lia|]); [intros _ NN; contradiction|]. intros _ _. eapply P_weak; [|exact Q]; lia. }
  apply wp_bind. pose proof (float_digits_P true fuel dec_digit_ w5 a5 b5 false s5 N5 B5 (Num_fuel fuel _ a5 s5 F N5)) as FD.
  eapply wp_mono; [exact FD|]. intros [[[[last w6] b6] ed] s6] (N6 & B6 & _ & SF & _). destruct ed; cbn [negb].
  - assert (Good last s6) as G6. { destruct N6 as ([E|B'] & Q & _); [left|right]; (split; [assumption|]); eapply P_weak; [|exact Q| |exact Q]; lia. }
    destruct (unget_Good s6 last G6) as (s' & -> & Q); exact Q.
  - destruct (SF eq_refl) as (-> & -> & ->). cbv beta iota.
    assert (exists s7, sungetc s5 a5 = Ok s7 /\ P (if sg then 2 else 1) s7) as (s7 & -> & P7).
    { destruct A5 as [[-> Q]|[Ba Q]].
      - exists s5. split; [reflexivity|]. eapply P_weak; [|exact Q]. destruct sg; lia.
      - destruct (unget_P 2 s5 a5 Q Ba ltac:(lia)) as (s7 & E7 & Q7). exists s7. split; [exact E7|]. eapply P_weak; [|exact Q7]. destruct sg; lia. }
    cbn [bind]. destruct sg.
    + destruct (pop_P b5 B5 ltac:(lia)) as (x & b8 & -> & Bx & B8 & L8). cbn [bind]. destruct (unget_P 1 s7 x P7 Bx ltac:(lia)) as (s8 & -> & P8). cbn [bind].
      destruct (pop_P b8 B8 ltac:(lia)) as (y & b9 & -> & By & _). cbn [bind]. destruct (unget_P 0 s8 y P8 By ltac:(lia)) as (s9 & -> & P9). exact P9.
    + cbn [bind]. destruct (pop_P b5 B5 ltac:(lia)) as (y & b9 & -> & By & _). cbn [bind]. destruct (unget_P 0 s7 y P7 By ltac:(lia)) as (s9 & -> & P9). exact P9.
Qed.
Lemma float_body_P fuel length c width buf s : (L < fuel)%nat -> is_byte c -> P 1 s -> Forall is_byte buf ->
  wp (float_body fuel length c width buf s) (fun r => P 0 (snd r)).
Proof.
  intros F Bc H Bb. unfold float_body. cbv zeta. destruct (_ || _); [|now apply float_number_P].
  destruct (unget_P 0 s c H Bc ltac:(lia)) as (s1 & -> & P1). cbn [bind]. destruct (lower_ c =? 105).
  - apply wp_bind. eapply wp_mono; [apply (scan_word_P _ 0); [lia|exact P1]|]. intros [[[m w] b] s2] Q. cbn [snd] in Q. cbv beta iota. destruct (negb (m =? 3)); [exact Q|].
    destruct (0 <? w); [|exact Q]. apply wp_bind. eapply wp_mono; [apply (scan_word_P _ 0); [lia|exact Q]|]. intros [[[m' w'] b'] s3] R. exact R.
  - apply wp_bind. eapply wp_mono; [apply (scan_word_P _ 0); [lia|exact P1]|]. intros [[[m w] b] s2] Q. cbn [snd] in Q. cbv beta iota. destruct (negb (m =? 3)); [exact Q|].
    destruct (0 <? w); [|exact Q]. apply (gets fuel F 0); [exact Q|]. intros p s3 G _ _. destruct (p =? 40).
    + apply wp_bind. pose proof (Good_P0 p s3 G) as R. eapply wp_mono; [apply nan_chars_P; [exact R|destruct R as (_ & _ & _ & _ & M); lia]|]. intros [b' s4] R4. exact R4.
    + destruct (unget_Good s3 p G) as (s4 & -> & R). exact R.
Qed.
Lemma scan_float_P fuel s width length : (L < fuel)%nat -> P 0 s -> wp (scan_float fuel s width length) (fun r => P 0 (snd r)).
Proof.
  intros F H. rewrite scan_float_eq. apply wp_bind. eapply wp_mono; [apply skip_ws_P; [exact H|destruct H as (_ & _ & _ & _ & M); lia]|]. intros s1 H1.
  apply (gets fuel F 0); [exact H1|]. intros c s2 G _ _. destruct (Z.eqb_spec c EOF); [now apply Good_P0 with c|]. destruct G as [[E _]|[B H2]]; [contradiction|].
  destruct (_ || _); [|now apply float_body_P]. cbv zeta. destruct (_ =? 0); [eapply P_weak; [|exact H2]; lia|].
  apply (gets fuel F 1); [exact H2|]. intros c3 s3 G3 _ _. destruct (Z.eqb_spec c3 EOF); [now apply Good_P0 with c3|]. destruct G3 as [[E _]|[B3 H3]]; [contradiction|].
  apply float_body_P; auto. apply put_facts; auto.
Qed.

(** ** Directives and the whole format *)
Lemma scanset_wp fuel : forall first p map, (len p < fuel)%nat -> wp (scanset_loop fuel first p map) (fun r => (len (fst r) <= len p)%nat).
Proof.
  induction fuel as [|f IH]; intros first p map H; [lia|]. cbn [scanset_loop]. destruct p as [|lo q]; [cbn; lia|]. cbn [len] in H.
  destruct (first || negb (lo =? 93)); [|cbn; lia].
  assert (forall m, wp (scanset_loop f false q m) (fun r => (len (fst r) <= len (lo :: q))%nat)) as D by (intros m; eapply wp_mono; [apply IH; lia|]; cbn; lia).
  destruct q as [|d q']; [apply D|]. destruct d as [|d|d]; try apply D. do 6 (destruct d as [d|d|]; try apply D). destruct q' as [|hi r]; [apply D|]. destruct (hi =? 93); [apply D|].
  eapply wp_mono; [apply IH; cbn [len] in H; lia|]. cbn [len]. lia.
Qed.
Lemma parse_scanset_wp p : wp (parse_scanset_ p) (fun r => let '(q, _, _) := r in (len q <= len p)%nat).
Proof.
  unfold parse_scanset_. set (m := match p with 94 :: q => (true, q) | _ => (false, p) end).
  assert (len (snd m) <= len p)%nat as LM. { unfold m. destruct p as [|c q]; [cbn; lia|]. destruct c as [|c|c]; try (cbn; lia). do 7 (destruct c as [c|c|]; try (cbn; lia)). }
  destruct m as [neg p']. cbn [snd] in LM. apply wp_bind. eapply wp_mono; [apply scanset_wp; lia|]. intros [q map] H. cbn [fst] in H. cbn [wp].
  assert (len (match q with 93%Z :: r => r | _ => q end) <= len q)%nat as LQ. { destruct q as [|c r]; [cbn; lia|]. destruct c as [|c|c]; try (cbn; lia). do 7 (destruct c as [c|c|]; try (cbn; lia)). }
  lia.
Qed.
Lemma convert_P fuel conv width length assigned p s : (L < fuel)%nat -> P 0 s ->
  wp (convert fuel conv width length assigned p s) (fun r => let '(_, _, q, s') := r in (len q <= len p)%nat /\ P 0 s').
Proof.
  intros F H. unfold convert. cbv zeta.
  assert (forall b sg l, wp (do (r, o, s') <- scan_int fuel s width b sg l; Ok (Next r, o, p, s')) (fun r => let '(_, _, q, s') := r in (len q <= len p)%nat /\ P 0 s')) as DI.
  { intros. apply wp_bind. eapply wp_mono; [now apply scan_int_P|]. intros [[r o] s'] Q. cbn [wp]. split; [lia|exact Q]. }
  repeat match goal with |- wp (if ?b then _ else _) _ => lazymatch b with (conv =? 37) => fail | _ => destruct b; [first [apply DI|idtac]|] end end.
  - apply wp_bind. eapply wp_mono; [now apply scan_float_P|]. intros [[r o] s'] Q. cbn [wp]. split; [lia|exact Q].
  - apply wp_bind. eapply wp_mono; [now apply scan_str_P|]. intros [[r o] s'] Q. cbn [wp]. split; [lia|exact Q].
  - apply wp_bind. eapply wp_mono; [now apply scan_chars_P|]. intros [[r o] s'] Q. cbn [wp]. split; [lia|exact Q].
  - apply wp_bind. eapply wp_mono; [apply parse_scanset_wp|]. intros [[q map] neg] LQ. apply wp_bind. eapply wp_mono; [now apply scan_set_P|]. intros [[r o] s'] Q. cbn [wp]. split; [lia|exact Q].
  - cbn [wp]. split; [lia|exact H].
  - destruct (conv =? 37); [|cbn [wp]; split; [lia|exact H]]. apply (gets fuel F 0); [exact H|]. intros c s1 G _ _. pose proof (Good_P0 _ _ G) as Q.
    destruct (c =? EOF); [cbn [wp]; split; [lia|exact Q]|]. destruct (c =? 37); [cbn [wp]; split; [lia|exact Q]|].
    destruct (unget_Good s1 c G) as (s2 & -> & R). cbn [bind wp]. split; [lia|exact R].
Qed.
Lemma width_wp p : forall w, wp (width_ w p) (fun r => (len (snd r) <= len p)%nat).
Proof.
  induction p as [|c p IH]; intros w; cbn [width_]; [cbn; lia|]. destruct (_ && _); [|cbn; lia].
  assert (forall z, wp (chk_i32 z) (fun _ => True)) as CK by (intros z; unfold chk_i32; destruct (_ && _); exact I).
  apply wp_bind. eapply wp_mono; [apply CK|]. intros a _. apply wp_bind. eapply wp_mono; [apply CK|]. intros b _. eapply wp_mono; [apply IH|]. cbn. lia.
Qed.
Lemma scan_loop_P ff : forall fuel p nargs arg assigned out s, (L < fuel)%nat -> (len p < ff)%nat -> P 0 s ->
  wp (scan_loop ff fuel p nargs arg assigned out s) (fun r => P 0 (snd r)).
Proof.
  induction ff as [|ff IH]; intros fuel p nargs arg assigned out s F FF H; [lia|]. cbn [scan_loop]. destruct p as [|c q]; [exact H|]. cbn [len] in FF.
  apply wp_bind. eapply wp_mono; [apply isspace_wp|]. intros sp _. destruct (negb (sp =? 0)).
  { apply wp_bind. eapply wp_mono; [apply skip_ws_P; [exact H|destruct H as (_ & _ & _ & _ & M); lia]|]. intros s1 H1. apply IH; auto. lia. }
  destruct (negb (c =? 37)).
  { apply (gets fuel F 0); [exact H|]. intros d s1 G _ _. pose proof (Good_P0 _ _ G) as Q. destruct (d =? EOF); [exact Q|]. destruct (d =? c); [apply IH; auto; lia|].
    destruct (unget_Good s1 d G) as (s2 & -> & R). exact R. }
  set (m := match q with 42 :: q => (true, q) | _ => (false, q) end).
  assert (len (snd m) <= len q)%nat as LM. { unfold m. destruct q as [|d r]; [cbn; lia|]. destruct d as [|d|d]; try (cbn; lia). do 6 (destruct d as [d|d|]; try (cbn; lia)). }
  destruct m as [sup q1]. cbn [snd] in LM. apply wp_bind. eapply wp_mono; [apply width_wp|]. intros [w q2] L2. cbn [snd] in L2. cbv beta iota zeta.
  set (q3 := skipn _ q2). assert (len q3 <= len q2)%nat as L3 by (unfold q3; rewrite skipn_length; lia).
  set (m := match q3 with [] => (0, []) | c :: q => (s8 c, q) end). assert (len (snd m) <= len q3)%nat as L4 by (unfold m; destruct q3; cbn; lia).
  destruct m as [conv q4]. cbn [snd] in L4. apply wp_bind. apply (wp_mono _ (fun _ => True)). { destruct sup; [exact I|]. destruct (nargs <=? arg); exact I. }
  intros arg' _. apply wp_bind. eapply wp_mono; [now apply convert_P|]. intros [[[r o] q5] s5] (L5 & H5). cbv beta iota.
  destruct r as [r|r]; [exact H5|]. destruct (r =? -1); [exact H5|]. destruct (r =? 0); [exact H5|]. apply IH; auto. lia.
Qed.
End Run.
(** fscanf terminates; everything read is consumed by a directive or among at most three characters looked at *)
Lemma vfscanf_ok fuel F h format nargs : sane F h -> healthy h -> (len (upcoming (seen F h)) < fuel)%nat ->
  wp (vfscanf fuel F h format nargs) (fun r => let s := snd r in
    sane (sF s) (sh s) /\ data (sh s) = data h /\ (len (peek s) <= 3)%nat /\
    exists n, (n <= len (upcoming (seen F h)))%nat /\ (len (peek s) <= n)%nat /\ upcoming (seen (sF s) (sh s)) = skipn n (upcoming (seen F h)) /\
      u32 (count s + Z.of_nat (len (peek s))) = u32 (Z.of_nat n)).
Proof.
  intros S H E. unfold vfscanf. set (s0 := mk_sc F h 0 [] false). eapply wp_mono; [apply (scan_loop_P s0 (len (left_of s0))); [exact E|lia|]|].
  - split; [unfold inv; cbn; repeat (split; [solve [auto]|]); discriminate|]. split; [apply adv_refl|]. split; [reflexivity|]. cbn. lia.
  - intros [[r out] s] ((SA & HE & _) & (n & N1 & N2 & N3) & D & PK & M). cbn [snd]. split; [exact SA|]. split; [exact D|]. split; [exact PK|]. exists n. split; [exact N1|]. split; [|split; [exact N2|exact N3]].
    cbn [snd] in *. unfold left_of in M. change (peek s0) with (@nil Z) in M. rewrite !app_length, N2, skipn_length in M. cbn [len] in M. lia.
Qed.
