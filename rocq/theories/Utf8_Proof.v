From Verif Require Import Base Bits Utf8_Model Utf8_Spec.

(** ** Bit facts *)

Lemma land_c0 b : is_byte b -> (Z.land b 0xC0 =? 0x80) = ((0x80 <=? b) && (b <=? 0xBF)).
Proof.
  unfold is_byte. intros H. change 0xC0 with (2^8 - 2^6). rewrite land_field by lia.
  rewrite (Z.mod_small b (2^8)) by lia. change (2^6) with 64. lia.
Qed.

Lemma land_3f b : Z.land b 0x3F = b mod 64.
Proof. exact (land_ones_mod b 6 ltac:(lia)). Qed.

Lemma append6 code b : 0 <= code < 2^26 ->
  Z.lor (u32 (Z.shiftl code 6)) (Z.land b 0x3F) = code * 64 + b mod 64.
Proof.
  intros H. rewrite land_3f, shiftl_mul by lia. unfold u32. rewrite Z.mod_small by lia.
  apply (lor_mul_low (b mod 64) code 6); change (2^6) with 64; lia.
Qed.

Lemma pack_val total absorbed code : 0 <= total < 16 -> 0 <= absorbed < 16 -> 0 <= code < 2^24 ->
  Z.lor (Z.lor (u32 (Z.shiftl total 28)) (u32 (Z.shiftl absorbed 24))) (Z.land code 0xFFFFFF)
  = total * 2^28 + absorbed * 2^24 + code.
Proof.
  intros. rewrite !shiftl_mul by lia. unfold u32. rewrite !Z.mod_small by lia.
  change 0xFFFFFF with (2^24 - 1). rewrite land_ones_mod, Z.mod_small by lia.
  rewrite (lor_mul_low (absorbed * 2^24) total 28) by lia.
  replace (total * 2^28 + absorbed * 2^24) with ((total * 16 + absorbed) * 2^24) by lia.
  rewrite lor_mul_low by lia. lia.
Qed.

Lemma unpack_total total absorbed code : 0 <= total < 16 -> 0 <= absorbed < 16 -> 0 <= code < 2^24 ->
  Z.shiftr (total * 2^28 + absorbed * 2^24 + code) 28 = total.
Proof. intros. rewrite shiftr_div by lia. lia. Qed.

Lemma unpack_absorbed total absorbed code : 0 <= total < 16 -> 0 <= absorbed < 16 -> 0 <= code < 2^24 ->
  Z.land (Z.shiftr (total * 2^28 + absorbed * 2^24 + code) 24) 0xF = absorbed.
Proof. intros. rewrite shiftr_div by lia. change 0xF with (2^4 - 1). rewrite land_ones_mod by lia. lia. Qed.

Lemma unpack_code total absorbed code : 0 <= total < 16 -> 0 <= absorbed < 16 -> 0 <= code < 2^24 ->
  Z.land (total * 2^28 + absorbed * 2^24 + code) 0xFFFFFF = code.
Proof. intros. change 0xFFFFFF with (2^24 - 1). rewrite land_ones_mod by lia. lia. Qed.

(** ** The decoder as a function of the remaining bytes *)

Definition contb (b : Z) : bool := (0x80 <=? b) && (b <=? 0xBF).

(* recursion on the number of missing bytes *)
Fixpoint dl (miss : nat) (l : list Z) (saved total absorbed code : Z) (consumed : nat) : mbr :=
  match miss with
  | O => mb_finish saved total code consumed
  | S miss => match l with
    | [] => mk_mbr SIZE_M2 None (total * 2^28 + absorbed * 2^24 + code) false
    | b :: l' => if contb b then dl miss l' saved total (absorbed + 1) (code * 64 + (b - 128)) (S consumed)
                 else mb_fail saved
    end
  end.

Lemma dl_loop miss : forall fuel s n saved total absorbed code consumed l,
  (miss < fuel)%nat -> total - absorbed = Z.of_nat miss -> 1 <= absorbed <= 4 -> 2 <= total <= 4 ->
  0 <= code < 2^(6 * absorbed) -> bytes s -> 0 <= n ->
  l = skipn consumed (firstn (Z.to_nat n) s) -> Z.of_nat consumed <= n ->
  (n <= Z.of_nat (length s) \/ ret (dl miss l saved total absorbed code consumed) <> SIZE_M2) ->
  mb_loop fuel s n saved total absorbed code consumed = Ok (dl miss l saved total absorbed code consumed).
Proof.
  induction miss as [|miss IH]; intros fuel s n saved total absorbed code consumed l
    Hf Hm Ha Ht Hc Hs Hn Hl Hcn Hor; (destruct fuel as [|fuel]; [lia|]); cbn [mb_loop dl].
  - replace (absorbed <? total) with false by lia. reflexivity.
  - replace (absorbed <? total) with true by lia.
    assert (Hc24 : 0 <= code < 2^18).
    { split; [lia|]. apply Z.lt_le_trans with (2^(6*absorbed)); [lia|]. apply Z.pow_le_mono_r; lia. }
    destruct (Z.eqb_spec (Z.of_nat consumed) n) as [E|E].
    + assert (l = []) as ->.
      { subst l. apply skipn_all2. rewrite firstn_length. lia. }
      rewrite pack_val by lia. reflexivity.
    + destruct l as [|b l'].
      { exfalso. cbn [dl ret] in Hor. destruct Hor as [Hor|Hor]; [|congruence].
        assert (length (skipn consumed (firstn (Z.to_nat n) s)) = 0%nat) by (rewrite <- Hl; reflexivity).
        rewrite skipn_length, firstn_length in H. lia. }
      assert (Hb : nth_error s consumed = Some b).
      { assert (K : nth_error (skipn consumed (firstn (Z.to_nat n) s)) 0 = Some b) by (rewrite <- Hl; reflexivity).
        clear - K Hcn E. revert s K. generalize (Z.to_nat n). induction consumed as [|k IHk]; intros m s K.
        - destruct m; [discriminate|]. destruct s; [discriminate|]. exact K.
        - destruct m; [discriminate|]. destruct s; [discriminate|]. cbn in K |- *.
          destruct (Z.eq_dec n 0); [lia|].
          revert K. clear. revert m s. induction k; intros m s K; destruct m, s; cbn in *; try discriminate; eauto. }
      unfold getb. rewrite Hb. cbn [bind].
      assert (Hbb : is_byte b).
      { apply nth_error_In in Hb. unfold bytes in Hs. rewrite Forall_forall in Hs. exact (Hs b Hb). }
      rewrite land_c0 by exact Hbb. unfold contb in *.
      destruct ((128 <=? b) && (b <=? 191)) eqn:Eb; cbn [negb]; [|reflexivity].
      rewrite append6 by lia.
      replace (b mod 64) with (b - 128) by (change 191 with (128 + 63) in Eb; lia).
      apply IH; try lia; try assumption.
      * replace (6 * (absorbed + 1)) with (6 * absorbed + 6) by lia.
        rewrite Z.pow_add_r by lia. change (2^6) with 64. lia.
      * clear - Hl. revert Hl. generalize (firstn (Z.to_nat n) s). intros m. revert m.
        induction consumed as [|k IHk]; intros m Hl.
        -- cbn in *. subst m. reflexivity.
        -- destruct m; [discriminate|]. cbn in *. apply IHk. exact Hl.
      * cbn [dl] in Hor. unfold contb in Hor. rewrite Eb in Hor. exact Hor.
Qed.

Lemma dl_loop2 miss fuel s n saved total absorbed code :
  (miss < fuel)%nat -> total = absorbed + Z.of_nat miss -> 1 <= absorbed -> 2 <= total <= 4 ->
  0 <= code < 2^(6 * absorbed) -> bytes s -> n = Z.of_nat (length s) ->
  mb_loop fuel s n saved total absorbed code 0 = Ok (dl miss s saved total absorbed code 0).
Proof.
  intros. apply dl_loop; try lia; try assumption.
  subst n. rewrite Nat2Z.id, firstn_all. reflexivity.
Qed.

(** Pure reading of a call from the initial state. *)
Definition dec0 (l : list Z) : mbr :=
  match l with
  | [] => mk_mbr SIZE_M2 None 0 false
  | lead :: tl =>
    if lead <? 0x80 then mk_mbr (if lead =? 0 then 0 else 1) (Some lead) 0 false
    else if (lead <? 0xC2) || (0xF4 <? lead) then mb_fail 0
    else if lead <? 0xE0 then dl 1 tl 0 2 1 (lead - 0xC0) 1
    else if lead <? 0xF0 then dl 2 tl 0 3 1 (lead - 0xE0) 1
    else dl 3 tl 0 4 1 (lead - 0xF0) 1
  end.

Lemma land_lead a k b : is_byte b -> 0 <= k <= 8 -> a * 2^k <= b < (a + 1) * 2^k ->
  Z.land b (2^k - 1) = b - a * 2^k.
Proof.
  intros Hb Hk H. rewrite land_ones_mod by lia.
  assert (0 < 2^k) by (apply Z.pow_pos_nonneg; lia).
  symmetry. apply Z.mod_unique with (q := a); lia.
Qed.

Lemma mbrtowc_dec0 s n : bytes s -> 0 <= n ->
  (n <= Z.of_nat (length s) \/ ret (dec0 (firstn (Z.to_nat n) s)) <> SIZE_M2) ->
  mbrtowc s n 0 = Ok (dec0 (firstn (Z.to_nat n) s)).
Proof.
  intros Hs Hn Hor. unfold mbrtowc.
  destruct (Z.eqb_spec n 0) as [->|Hn0]; [reflexivity|].
  change (Z.shiftr 0 28 =? 0) with true. cbv beta iota.
  destruct s as [|lead tl].
  { exfalso. rewrite firstn_nil in Hor. cbn [dec0 ret length] in Hor. destruct Hor; [lia|congruence]. }
  unfold getb. cbn [nth_error bind].
  assert (Hlb : is_byte lead) by (inversion Hs; assumption).
  assert (En : exists k, Z.to_nat n = S k) by (exists (Z.to_nat (n - 1)); lia).
  destruct En as [k En]. rewrite En in *. cbn [firstn dec0] in *.
  assert (Hn' : n = Z.of_nat (S k)) by lia.
  destruct (Z.ltb_spec lead 0x80); [reflexivity|].
  destruct ((lead <? 0xC2) || (0xF4 <? lead)) eqn:E; [reflexivity|].
  assert (Hsk : skipn 1 (firstn (Z.to_nat n) (lead :: tl)) = firstn k tl) by (rewrite En; reflexivity).
  destruct (Z.ltb_spec lead 0xE0); [|destruct (Z.ltb_spec lead 0xF0)].
  - change 0x1F with (2^5 - 1). rewrite (land_lead 6 5) by (assumption || lia).
    change (6 * 2^5) with 0xC0. apply dl_loop; try lia; try assumption. rewrite Hsk. reflexivity.
  - change 0x0F with (2^4 - 1). rewrite (land_lead 14 4) by (assumption || lia).
    change (14 * 2^4) with 0xE0. apply dl_loop; try lia; try assumption. rewrite Hsk. reflexivity.
  - change 0x07 with (2^3 - 1). rewrite (land_lead 30 3) by (assumption || lia).
    change (30 * 2^3) with 0xF0. apply dl_loop; try lia; try assumption. rewrite Hsk. reflexivity.
Qed.

(** ** Reading [dec0] against Table 3-7 *)

Lemma s32_small c : 0 <= c < 2^31 -> s32 c = c.
Proof. intros. unfold s32. apply sgn_id; lia. Qed.

Lemma mb_finish_ok saved total code consumed :
  (total = 2 /\ 0x80 <= code < 0x800) \/ (total = 3 /\ 0x800 <= code < 0x10000 /\ ~ (0xD800 <= code <= 0xDFFF)) \/
  (total = 4 /\ 0x10000 <= code <= 0x10FFFF) ->
  mb_finish saved total code consumed = mk_mbr (Z.of_nat consumed) (Some code) 0 false.
Proof.
  intros H. unfold mb_finish.
  match goal with |- (if ?b then _ else _) = _ => replace b with false end.
  - replace (code =? 0) with false by lia. rewrite s32_small by lia. reflexivity.
  - destruct H as [[-> H]|[[-> H]|[-> H]]]; cbn [Z.eqb Pos.eqb]; lia.
Qed.

Lemma mb_finish_bad saved total code consumed : 2 <= total <= 4 ->
  ~ ((total = 2 /\ 0x80 <= code) \/ (total = 3 /\ 0x800 <= code /\ ~ (0xD800 <= code <= 0xDFFF)) \/
  (total = 4 /\ 0x10000 <= code <= 0x10FFFF)) ->
  mb_finish saved total code consumed = mb_fail saved.
Proof.
  intros T H. unfold mb_finish.
  match goal with |- (if ?b then _ else _) = _ => replace b with true end; [reflexivity|].
  assert (total = 2 \/ total = 3 \/ total = 4) as [-> | [-> | ->]] by lia; cbn [Z.eqb Pos.eqb]; lia.
Qed.

Definition decoded (c : Z) (len : nat) : mbr :=
  mk_mbr (if c =? 0 then 0 else Z.of_nat len) (Some c) 0 false.

Lemma seq_scalar p c : utf8_seq p c -> scalar c.
Proof. intros H. unfold scalar. inversion H; subst; unfold bt in *; lia. Qed.

Lemma dec0_seq p c rest : utf8_seq p c -> dec0 (p ++ rest) = decoded c (length p).
Proof.
  intros H. unfold decoded. inversion H; subst; unfold bt in *; cbn [app length].
  - unfold dec0. replace (c <? 128) with true by lia. reflexivity.
  - cbn [dec0]. replace (a <? 128) with false by lia.
    replace ((a <? 194) || (244 <? a)) with false by lia. replace (a <? 224) with true by lia.
    cbn [dl]. unfold contb. replace ((128 <=? b) && (b <=? 191)) with true by lia.
    rewrite mb_finish_ok by lia.
    match goal with |- context [?x =? 0] => replace (x =? 0) with false by lia end. reflexivity.
  - cbn [dec0]. replace (a <? 128) with false by lia.
    replace ((a <? 194) || (244 <? a)) with false by lia. replace (a <? 224) with false by lia.
    replace (a <? 240) with true by lia.
    cbn [dl]. unfold contb. replace ((128 <=? b) && (b <=? 191)) with true by lia.
    replace ((128 <=? c0) && (c0 <=? 191)) with true by lia.
    rewrite mb_finish_ok by lia.
    match goal with |- context [?x =? 0] => replace (x =? 0) with false by lia end.
    f_equal. f_equal. lia.
  - cbn [dec0]. replace (a <? 128) with false by lia.
    replace ((a <? 194) || (244 <? a)) with false by lia. replace (a <? 224) with false by lia.
    replace (a <? 240) with false by lia.
    cbn [dl]. unfold contb. replace ((128 <=? b) && (b <=? 191)) with true by lia.
    replace ((128 <=? c0) && (c0 <=? 191)) with true by lia.
    replace ((128 <=? d) && (d <=? 191)) with true by lia.
    rewrite mb_finish_ok by lia.
    match goal with |- context [?x =? 0] => replace (x =? 0) with false by lia end.
    f_equal. f_equal. lia.
Qed.

(** Every byte list falls in exactly one of three cases. *)
Inductive verdict (l : list Z) : mbr -> Prop :=
| v_ok p c rest : l = p ++ rest -> utf8_seq p c -> verdict l (decoded c (length p))
| v_more s : l = [] \/ incomplete l -> verdict l (mk_mbr SIZE_M2 None s false)
| v_bad : (forall p c rest, l = p ++ rest -> ~ utf8_seq p c) -> l <> [] -> ~ incomplete l ->
    (forall p ext c, p = l ++ ext -> ~ utf8_seq p c) ->
    verdict l (mb_fail 0).

Lemma announces_cases lead : announces lead =
  if (0xC2 <=? lead) && (lead <=? 0xDF) then 2
  else if (0xE0 <=? lead) && (lead <=? 0xEF) then 3
  else if (0xF0 <=? lead) && (lead <=? 0xF4) then 4 else 0.
Proof. reflexivity. Qed.

Ltac kill_seq :=
  match goal with
  | H : utf8_seq _ _ |- False => inversion H; subst; clear H; unfold bt in *;
      repeat match goal with
      | E : _ :: _ = _ ++ _ |- _ => cbn [app] in E; injection E; clear E; intros; subst
      | E : _ ++ _ = _ :: _ |- _ => cbn [app] in E; injection E; clear E; intros; subst
      end; try lia; try discriminate
  end.

Ltac kill_inc :=
  match goal with
  | H : incomplete _ |- False =>
      let ld := fresh "ld" in let t := fresh "t" in let E := fresh "E" in let F := fresh "F" in let L := fresh "L" in
      destruct H as (ld & t & E & F & L); injection E; clear E; intros; subst;
      repeat match goal with F : Forall _ (_ :: _) |- _ => inversion F; subst; clear F end;
      unfold bt in *; cbn [length] in *; rewrite announces_cases in *;
      repeat match goal with H : context [if ?b then _ else _] |- _ => destruct b eqn:? in H end; try lia
  end.

Lemma mk_bad l : l <> [] ->
  (forall p c rest, l = p ++ rest -> utf8_seq p c -> False) -> (incomplete l -> False) ->
  (forall p ext c, p = l ++ ext -> utf8_seq p c -> False) -> verdict l (mb_fail 0).
Proof. intros. apply v_bad; unfold not; eauto. Qed.

Lemma dec0_verdict l : bytes l -> verdict l (dec0 l).
Proof.
  intros Hl. destruct l as [|a tl]; [apply v_more; left; reflexivity|].
  assert (Ha : is_byte a) by (inversion Hl; assumption).
  assert (Htl : bytes tl) by (inversion Hl; assumption).
  destruct (Z.ltb_spec a 128).
  { replace (a :: tl) with ([a] ++ tl) by reflexivity.
    assert (S : utf8_seq [a] a) by (apply seq1; unfold bt, is_byte in *; lia).
    rewrite (dec0_seq _ _ _ S). eapply v_ok; [reflexivity|exact S]. }
  cbn [dec0]. replace (a <? 128) with false by lia.
  destruct ((a <? 194) || (244 <? a)) eqn:Eb.
  { apply mk_bad; [discriminate| | |]; intros; [kill_seq | kill_inc | subst; kill_seq]. }
  assert (INC : forall t, Forall (bt 128 191) t -> Z.of_nat (length (a :: t)) < announces a -> incomplete (a :: t)).
  { intros t F L. exists a, t. auto. }
  pose proof (announces_cases a) as AC.
  destruct (Z.ltb_spec a 224); [|destruct (Z.ltb_spec a 240)].
  - (* two bytes *)
    replace ((194 <=? a) && (a <=? 223)) with true in AC by lia.
    destruct tl as [|b tl]; cbn [dl].
    + apply v_more. right. apply INC; [constructor | cbn [length]; lia].
    + unfold contb. destruct ((128 <=? b) && (b <=? 191)) eqn:E1.
      * rewrite mb_finish_ok by lia.
        assert (S : utf8_seq [a; b] ((a - 192) * 64 + (b - 128))) by (apply seq2; unfold bt; lia).
        replace (mk_mbr (Z.of_nat 2) (Some ((a - 192) * 64 + (b - 128))) 0 false)
          with (decoded ((a - 192) * 64 + (b - 128)) (length [a; b]))
          by (unfold decoded; match goal with |- context [?x =? 0] => replace (x =? 0) with false by lia end; reflexivity).
        eapply v_ok; [|exact S]. reflexivity.
      * apply mk_bad; [discriminate| | |]; intros; [kill_seq | kill_inc | subst; kill_seq].
  - replace ((194 <=? a) && (a <=? 223)) with false in AC by lia.
    replace ((224 <=? a) && (a <=? 239)) with true in AC by lia.
    destruct tl as [|b tl]; cbn [dl].
    { apply v_more. right. apply INC; [constructor | cbn [length]; lia]. }
    unfold contb. destruct ((128 <=? b) && (b <=? 191)) eqn:E1.
    2:{ apply mk_bad; [discriminate| | |]; intros; [kill_seq | kill_inc | subst; kill_seq]. }
    destruct tl as [|c tl].
    { apply v_more. right. apply INC; [repeat constructor; lia | cbn [length]; lia]. }
    destruct ((128 <=? c) && (c <=? 191)) eqn:E2.
    2:{ apply mk_bad; [discriminate| | |]; intros; [kill_seq | kill_inc | subst; kill_seq]. }
    set (v := ((a - 224) * 64 + (b - 128)) * 64 + (c - 128)).
    destruct ((0x800 <=? v) && negb ((0xD800 <=? v) && (v <=? 0xDFFF))) eqn:EV; subst v.
    + rewrite mb_finish_ok by lia.
      assert (S : utf8_seq [a; b; c] ((a - 0xE0) * 4096 + (b - 0x80) * 64 + (c - 0x80)))
        by (apply seq3; unfold bt; lia).
      match goal with |- verdict _ ?m => replace m with (decoded ((a - 0xE0) * 4096 + (b - 0x80) * 64 + (c - 0x80)) (length [a; b; c])) end.
      * eapply v_ok; [|exact S]. reflexivity.
      * unfold decoded. match goal with |- context [?x =? 0] => replace (x =? 0) with false by lia end.
        cbn [length]. f_equal. f_equal. lia.
    + rewrite mb_finish_bad by lia.
      apply mk_bad; [discriminate| | |]; intros; [kill_seq | kill_inc | subst; kill_seq].
  - replace ((194 <=? a) && (a <=? 223)) with false in AC by lia.
    replace ((224 <=? a) && (a <=? 239)) with false in AC by lia.
    replace ((240 <=? a) && (a <=? 244)) with true in AC by lia.
    destruct tl as [|b tl]; cbn [dl].
    { apply v_more. right. apply INC; [constructor | cbn [length]; lia]. }
    unfold contb. destruct ((128 <=? b) && (b <=? 191)) eqn:E1.
    2:{ apply mk_bad; [discriminate| | |]; intros; [kill_seq | kill_inc | subst; kill_seq]. }
    destruct tl as [|c tl].
    { apply v_more. right. apply INC; [repeat constructor; lia | cbn [length]; lia]. }
    destruct ((128 <=? c) && (c <=? 191)) eqn:E2.
    2:{ apply mk_bad; [discriminate| | |]; intros; [kill_seq | kill_inc | subst; kill_seq]. }
    destruct tl as [|d tl].
    { apply v_more. right. apply INC; [repeat constructor; lia | cbn [length]; lia]. }
    destruct ((128 <=? d) && (d <=? 191)) eqn:E3.
    2:{ apply mk_bad; [discriminate| | |]; intros; [kill_seq | kill_inc | subst; kill_seq]. }
    set (v := (((a - 240) * 64 + (b - 128)) * 64 + (c - 128)) * 64 + (d - 128)).
    destruct ((0x10000 <=? v) && (v <=? 0x10FFFF)) eqn:EV; subst v.
    + rewrite mb_finish_ok by lia.
      assert (S : utf8_seq [a; b; c; d] ((a - 0xF0) * 262144 + (b - 0x80) * 4096 + (c - 0x80) * 64 + (d - 0x80)))
        by (apply seq4; unfold bt; lia).
      match goal with |- verdict _ ?m => replace m with
        (decoded ((a - 0xF0) * 262144 + (b - 0x80) * 4096 + (c - 0x80) * 64 + (d - 0x80)) (length [a; b; c; d])) end.
      * eapply v_ok; [|exact S]. reflexivity.
      * unfold decoded. match goal with |- context [?x =? 0] => replace (x =? 0) with false by lia end.
        cbn [length]. f_equal. f_equal. lia.
    + rewrite mb_finish_bad by lia.
      apply mk_bad; [discriminate| | |]; intros; [kill_seq | kill_inc | subst; kill_seq].
Qed.

(** ** Stability of a verdict under more input *)

Lemma dl_stable miss : forall l ext saved total absorbed code k,
  ret (dl miss l saved total absorbed code k) <> SIZE_M2 ->
  dl miss (l ++ ext) saved total absorbed code k = dl miss l saved total absorbed code k.
Proof.
  induction miss as [|miss IH]; intros l ext saved total absorbed code k H; [reflexivity|].
  destruct l as [|b l]; cbn [dl app ret] in *; [congruence|].
  destruct (contb b); [apply IH; exact H | reflexivity].
Qed.

Lemma dec0_stable l ext : ret (dec0 l) <> SIZE_M2 -> dec0 (l ++ ext) = dec0 l.
Proof.
  destruct l as [|a l]; cbn [dec0 app]; intros H; [cbn [ret] in H; congruence|].
  destruct (a <? 128); [reflexivity|].
  destruct ((a <? 194) || (244 <? a)); [reflexivity|].
  destruct (a <? 224); [apply dl_stable; exact H|].
  destruct (a <? 240); apply dl_stable; exact H.
Qed.

(** ** Continuing a partial sequence *)

(** A pending prefix, described by the packed word. *)
Lemma mb_finish_ret saved total code k : (k <= 8)%nat -> ret (mb_finish saved total code k) <> SIZE_M2.
Proof.
  intros Hk. unfold mb_finish. unfold SIZE_M2.
  match goal with |- ret (if ?b then _ else _) <> _ => destruct b end; cbn [ret mb_fail]; unfold SIZE_M1; [lia|].
  destruct (code =? 0); lia.
Qed.

Lemma dl_partial miss : forall l ext saved total absorbed code k,
  ret (dl miss l saved total absorbed code k) = SIZE_M2 -> (k + miss <= 8)%nat ->
  (total = absorbed + Z.of_nat miss) -> 1 <= absorbed -> 2 <= total <= 4 -> 0 <= code < 2^(6*absorbed) ->
  exists miss' absorbed' code',
    st (dl miss l saved total absorbed code k) = total * 2^28 + absorbed' * 2^24 + code' /\
    dl miss (l ++ ext) saved total absorbed code k = dl miss' ext saved total absorbed' code' (k + length l) /\
    total = absorbed' + Z.of_nat miss' /\ 1 <= absorbed' < total /\ 0 <= code' < 2^(6*absorbed') /\
    (k + length l + miss' <= 8)%nat.
Proof.
  induction miss as [|miss IH]; intros l ext saved total absorbed code k H HK HT HA H24 HC.
  { exfalso. cbn [dl] in H. apply mb_finish_ret in H; [exact H|lia]. }
  destruct l as [|b l]; cbn [dl app length] in *.
  - exists (S miss), absorbed, code. cbn [st]. rewrite Nat.add_0_r. repeat split; lia.
  - destruct (contb b) eqn:Eb.
    + assert (HB : 0 <= b - 128 < 64) by (unfold contb in Eb; lia).
      destruct (IH l ext saved total (absorbed + 1) (code * 64 + (b - 128)) (S k)) as (m' & a' & c' & H1 & H2 & H3); try lia; try assumption.
      { replace (6 * (absorbed + 1)) with (6 * absorbed + 6) by lia. rewrite Z.pow_add_r by lia. change (2^6) with 64. lia. }
      exists m', a', c'. rewrite <- plus_n_Sm, <- plus_Sn_m. auto.
    + cbn [ret mb_fail] in H. unfold SIZE_M1, SIZE_M2 in H. lia.
Qed.

(** The two calls see the same verdict, only the byte count is split. *)
Lemma dl_shift miss : forall l saved saved' total absorbed code k j, (k + j + miss <= 8)%nat ->
  1 <= absorbed -> absorbed + Z.of_nat miss <= 4 -> 0 <= code < 2^(6*absorbed) ->
  (ret (dl miss l saved total absorbed code k) = SIZE_M2 /\
   dl miss l saved' total absorbed code (j + k) = dl miss l saved total absorbed code k) \/
  (dl miss l saved total absorbed code k = mb_fail saved /\
   dl miss l saved' total absorbed code (j + k) = mb_fail saved') \/
  (exists c n, (n <= 8)%nat /\ dl miss l saved total absorbed code k = decoded c n /\
   dl miss l saved' total absorbed code (j + k) = decoded c (j + n)).
Proof.
  induction miss as [|miss IH]; intros l saved saved' total absorbed code k j HK HA HM HC; cbn [dl].
  - right. unfold mb_finish.
    match goal with |- context [if ?b then mb_fail _ else _] => destruct b eqn:EB end; [left; auto|right].
    exists code, k. split; [lia|].
    assert (0 <= code < 2^24).
    { split; [lia|]. apply Z.lt_le_trans with (2^(6*absorbed)); [lia|]. apply Z.pow_le_mono_r; lia. }
    rewrite s32_small by lia. unfold decoded. auto.
  - destruct l as [|b l]; [left; auto|].
    destruct (contb b) eqn:Eb; [|right; left; auto].
    assert (HB : 0 <= b - 128 < 64) by (unfold contb in Eb; lia).
    rewrite plus_n_Sm. apply IH; try lia.
    replace (6 * (absorbed + 1)) with (6 * absorbed + 6) by lia. rewrite Z.pow_add_r by lia.
    change (2^6) with 64. lia.
Qed.

(** How the state word looks after an incomplete prefix. *)
Lemma dec0_partial l ext : bytes l -> l <> [] -> ret (dec0 l) = SIZE_M2 ->
  exists miss total absorbed code,
    st (dec0 l) = total * 2^28 + absorbed * 2^24 + code /\
    dec0 (l ++ ext) = dl miss ext 0 total absorbed code (length l) /\
    total = absorbed + Z.of_nat miss /\ 1 <= absorbed < total /\ 2 <= total <= 4 /\
    0 <= code < 2^(6*absorbed) /\ (length l + miss <= 8)%nat.
Proof.
  intros HB HN H. destruct l as [|a l]; [congruence|]. cbn [dec0 app] in *.
  destruct (Z.ltb_spec a 128).
  { cbn [ret] in H. unfold SIZE_M2 in H. destruct (a =? 0); lia. }
  destruct ((a <? 194) || (244 <? a)) eqn:E1.
  { cbn [ret mb_fail] in H. unfold SIZE_M1, SIZE_M2 in H. lia. }
  destruct (Z.ltb_spec a 224); [|destruct (Z.ltb_spec a 240)].
  - destruct (dl_partial 1 l ext 0 2 1 (a - 192) 1) as (m & b & c & ?); try lia; try assumption.
    exists m, 2, b, c. cbn [length]. change (1 + length l)%nat with (S (length l)) in *. intuition lia.
  - destruct (dl_partial 2 l ext 0 3 1 (a - 224) 1) as (m & b & c & ?); try lia; try assumption.
    exists m, 3, b, c. cbn [length]. change (1 + length l)%nat with (S (length l)) in *. intuition lia.
  - destruct (dl_partial 3 l ext 0 4 1 (a - 240) 1) as (m & b & c & ?); try lia; try assumption.
    exists m, 4, b, c. cbn [length]. change (1 + length l)%nat with (S (length l)) in *. intuition lia.
Qed.

(** One more chunk after the pending prefix [l]. *)
Lemma mbrtowc_resume l ch : bytes l -> bytes ch -> ret (dec0 l) = SIZE_M2 -> (ch <> [])%list ->
  let full := dec0 (l ++ ch) in
  exists r, mbrtowc ch (Z.of_nat (length ch)) (st (dec0 l)) = Ok r /\
    ((ret full = SIZE_M2 /\ ret r = SIZE_M2 /\ st r = st full) \/
     (full = mb_fail 0 /\ r = mb_fail (st (dec0 l))) \/
     (exists c n, (n <= 8)%nat /\ full = decoded c (length l + n) /\ r = decoded c n)).
Proof.
  intros Hl Hch Hr Hne full.
  assert (Hn : l = [] \/ l <> []) by (destruct l; [left|right]; congruence).
  destruct Hn as [-> | Hn].
  { cbn [app] in full. cbn [dec0 st].
    exists (dec0 ch). split.
    - rewrite mbrtowc_dec0; [|assumption|lia|left; lia].
      rewrite Nat2Z.id, firstn_all. reflexivity.
    - subst full. destruct (dec0_verdict ch Hch) as [p c rest E S | s HS | ].
      + right; right. exists c, (length p). split; [inversion S; cbn; lia|]. auto.
      + left. auto.
      + right; left. auto. }
  destruct (dec0_partial l ch Hl Hn Hr) as (miss & total & absorbed & code & HS & HD & HT & HA & H24 & HC & HK).
  assert (HC18 : 0 <= code < 2^24).
  { split; [lia|]. apply Z.lt_le_trans with (2^(6*absorbed)); [lia|]. apply Z.pow_le_mono_r; lia. }
  rewrite HS. unfold mbrtowc.
  replace (Z.of_nat (length ch) =? 0) with false by (destruct ch; [congruence|cbn [length]; lia]).
  rewrite unpack_total, unpack_absorbed, unpack_code by lia.
  replace (total =? 0) with false by lia.
  rewrite (dl_loop2 miss 17 ch _ (total * 2^28 + absorbed * 2^24 + code) total absorbed code) by (assumption || lia).
  eexists; split; [reflexivity|].
  subst full. rewrite HD.
  destruct (dl_shift miss ch (total * 2^28 + absorbed * 2^24 + code) 0 total absorbed code 0 (length l))
    as [[A B]|[[A B]|(c & n & N & A & B)]]; try lia.
  - left. rewrite Nat.add_0_r in B. rewrite B. auto.
  - right; left. rewrite Nat.add_0_r in B. auto.
  - right; right. rewrite Nat.add_0_r in B. exists c, n. auto.
Qed.

(** ** Encoder *)

Lemma lor_hi k a x : 0 <= k -> 0 <= x < 2^k -> Z.lor (a * 2^k) x = a * 2^k + x.
Proof. intros. apply lor_mul_low; lia. Qed.

Lemma wcrtomb_scalar c : scalar c -> wcrtomb c = mk_wcr (Z.of_nat (length (utf8_enc c))) (utf8_enc c) false.
Proof.
  unfold scalar. intros H. unfold wcrtomb, utf8_enc, u32, u8.
  rewrite (Z.mod_small c (2^32)) by lia. rewrite !land_3f, !shiftr_div by lia.
  change (2^6) with 64; change (2^12) with 4096; change (2^18) with 262144; change (2^8) with 256.
  destruct (Z.ltb_spec c 0x80).
  { rewrite Z.mod_small by lia. reflexivity. }
  assert (L2 : forall x, 0 <= x < 64 -> (Z.lor 0x80 x) mod 256 = 0x80 + x).
  { intros x Hx. change 0x80 with (2 * 2^6). rewrite lor_hi by (change (2^6) with 64; lia).
    change (2^6) with 64. rewrite Z.mod_small; lia. }
  destruct (Z.ltb_spec c 0x800).
  { rewrite L2 by lia. change 0xC0 with (3 * 2^6). rewrite lor_hi by (change (2^6) with 64; lia).
    change (2^6) with 64. rewrite Z.mod_small by lia. reflexivity. }
  destruct (Z.ltb_spec c 0x10000).
  { replace ((c <? 0xD800) || ((c - 0xE000) mod 2^32 <? 0x2000)) with true.
    2:{ destruct (Z.ltb_spec c 0xD800); [reflexivity|]. rewrite Z.mod_small by lia. lia. }
    rewrite !L2 by lia. change 0xE0 with (7 * 2^5). rewrite lor_hi by (change (2^5) with 32; lia).
    change (2^5) with 32. rewrite (Z.mod_small (7 * 32 + c / 4096)) by lia. reflexivity. }
  replace ((c <? 0xD800) || ((c - 0xE000) mod 2^32 <? 0x2000)) with false.
  2:{ rewrite Z.mod_small by lia. lia. }
  replace ((c - 0x10000) mod 2^32 <? 0x100000) with true by (rewrite Z.mod_small by lia; lia).
  rewrite !L2 by lia. change 0xF0 with (15 * 2^4). rewrite lor_hi by (change (2^4) with 16; lia).
  change (2^4) with 16. rewrite (Z.mod_small (15 * 16 + c / 262144)) by lia. reflexivity.
Qed.

Lemma wcrtomb_reject c : is_i32 c -> ~ scalar c -> wcrtomb c = mk_wcr SIZE_M1 [] true.
Proof.
  unfold is_i32, scalar, INT_MIN, INT_MAX. intros H N. unfold wcrtomb, u32.
  assert (E : (c mod 2^32 = c /\ 0 <= c) \/ (c mod 2^32 = c + 2^32 /\ c < 0)).
  { destruct (Z.ltb_spec c 0); [right; split; [apply mod_neg_small|]; lia | left; split; [apply Z.mod_small|]; lia]. }
  set (d := c mod 2^32) in *. clearbody d.
  replace (d <? 0x80) with false by lia. replace (d <? 0x800) with false by lia.
  replace (d <? 0xD800) with false by lia. cbn [orb].
  assert (E1 : ((d - 0xE000) mod 2^32 <? 0x2000) = false).
  { destruct (Z.ltb_spec d 0xE000); [rewrite mod_neg_small by lia | rewrite Z.mod_small by lia]; lia. }
  assert (E2 : ((d - 0x10000) mod 2^32 <? 0x100000) = false).
  { destruct (Z.ltb_spec d 0x10000); [rewrite mod_neg_small by lia | rewrite Z.mod_small by lia]; lia. }
  rewrite E1, E2. reflexivity.
Qed.

Lemma enc_seq c : scalar c -> utf8_seq (utf8_enc c) c.
Proof.
  unfold scalar, utf8_enc. intros H.
  destruct (Z.ltb_spec c 0x80); [apply seq1; unfold bt; lia|].
  destruct (Z.ltb_spec c 0x800).
  { replace c with ((0xC0 + c / 64 - 0xC0) * 64 + (0x80 + c mod 64 - 0x80)) at 3 by lia.
    apply seq2; unfold bt; lia. }
  destruct (Z.ltb_spec c 0x10000).
  { replace c with ((0xE0 + c / 4096 - 0xE0) * 4096 + (0x80 + (c / 64) mod 64 - 0x80) * 64 + (0x80 + c mod 64 - 0x80)) at 4 by lia.
    apply seq3; unfold bt; lia. }
  replace c with ((0xF0 + c / 262144 - 0xF0) * 262144 + (0x80 + (c / 4096) mod 64 - 0x80) * 4096
     + (0x80 + (c / 64) mod 64 - 0x80) * 64 + (0x80 + c mod 64 - 0x80)) at 5 by lia.
  apply seq4; unfold bt; lia.
Qed.

Lemma seq_enc p c : utf8_seq p c -> p = utf8_enc c.
Proof.
  intros H. unfold utf8_enc. inversion H; subst; unfold bt in *.
  - replace (c <? 0x80) with true by lia. reflexivity.
  - match goal with |- context [?x <? 0x80] => set (v := x) end.
    replace (v <? 0x80) with false by lia. replace (v <? 0x800) with true by lia.
    subst v. repeat f_equal; lia.
  - match goal with |- context [?x <? 0x80] => set (v := x) end.
    replace (v <? 0x80) with false by lia. replace (v <? 0x800) with false by lia.
    replace (v <? 0x10000) with true by lia. subst v. repeat f_equal; lia.
  - match goal with |- context [?x <? 0x80] => set (v := x) end.
    replace (v <? 0x80) with false by lia. replace (v <? 0x800) with false by lia.
    replace (v <? 0x10000) with false by lia. subst v. repeat f_equal; lia.
Qed.

Lemma enc_bytes c : scalar c -> bytes (utf8_enc c).
Proof.
  unfold scalar, utf8_enc, bytes, is_byte. intros H.
  ifs; repeat constructor; lia.
Qed.

Lemma enc_len c : scalar c -> (1 <= length (utf8_enc c) <= 4)%nat.
Proof. intros. unfold utf8_enc. ifs; cbn; lia. Qed.
