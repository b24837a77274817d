From Coq Require Import String.
From Verif Require Import Base Time_Model Time_Spec Time_Proof.
Open Scope Z_scope.
Open Scope list_scope.

(** ** Writing into the buffer *)
Definition write (buf : list Z) (pos : nat) (l : list Z) : list Z := firstn pos buf ++ l ++ skipn (pos + List.length l) buf.
Lemma write_nil buf pos : write buf pos [] = buf.
Proof. unfold write. cbn [List.length app]. rewrite Nat.add_0_r. apply firstn_skipn. Qed.
Lemma write_length buf pos l : (pos + List.length l <= List.length buf)%nat -> List.length (write buf pos l) = List.length buf.
Proof. intros. unfold write. rewrite !app_length, firstn_length, skipn_length. lia. Qed.
Lemma skipn_sub {A} k : forall n (b : list A), (k <= n)%nat -> skipn (n - k) (skipn k b) = skipn n b.
Proof.
  induction k as [|k IH]; intros n b H; [rewrite Nat.sub_0_r; reflexivity|]. destruct n as [|n]; [lia|]. destruct b as [|x b]; [cbn [skipn]; apply skipn_nil|].
  cbn [skipn Nat.sub]. apply IH. lia.
Qed.
Lemma write_skipn buf pos l n : (pos + List.length l <= n)%nat -> (pos + List.length l <= List.length buf)%nat -> skipn n (write buf pos l) = skipn n buf.
Proof.
  intros H1 H2. unfold write. rewrite app_assoc, skipn_app, skipn_all2 by (rewrite app_length, firstn_length; lia). cbn [app].
  rewrite app_length, firstn_length. replace (n - (Nat.min pos (List.length buf) + List.length l))%nat with (n - (pos + List.length l))%nat by lia.
  apply skipn_sub. exact H1.
Qed.
Lemma write_app buf pos l1 l2 : (pos + List.length (l1 ++ l2) <= List.length buf)%nat ->
  write (write buf pos l1) (pos + List.length l1) l2 = write buf pos (l1 ++ l2).
Proof.
  rewrite app_length. intros H. unfold write at 1.
  assert (E : firstn (pos + List.length l1) (write buf pos l1) = firstn pos buf ++ l1).
  { unfold write. rewrite app_assoc. rewrite firstn_app. rewrite app_length, firstn_length. replace (pos + List.length l1 - _)%nat with 0%nat by lia.
    cbn [firstn]. rewrite app_nil_r. apply firstn_all2. rewrite app_length, firstn_length. lia. }
  assert (E2 : skipn (pos + List.length l1 + List.length l2) (write buf pos l1) = skipn (pos + List.length l1 + List.length l2) buf).
  { apply write_skipn; lia. }
  rewrite E, E2. unfold write. rewrite <- !app_assoc, app_length. do 3 f_equal. f_equal. lia.
Qed.
Lemma store_ok buf i c : (i < List.length buf)%nat -> store buf i c = Some (write buf i [c]).
Proof.
  revert i. induction buf as [|x b IH]; intros i H; [cbn in H; lia|]. destruct i as [|i]; [reflexivity|].
  cbn [List.length] in H. cbn [store]. rewrite IH by lia. reflexivity.
Qed.
(** [r] appends [l] to the output of at most [max] characters. *)
Definition appends (max : Z) (r : st -> res out) (l : list Z) : Prop :=
  forall buf pos, 0 <= pos <= max -> max < 2^32 -> max <= Z.of_nat (List.length buf) ->
    if pos + Z.of_nat (List.length l) <=? max
    then r (buf, pos) = Ok (false, (write buf (Z.to_nat pos) l, pos + Z.of_nat (List.length l)))
    else exists b p, r (buf, pos) = Ok (true, (b, p)) /\ List.length b = List.length buf /\ skipn (Z.to_nat max) b = skipn (Z.to_nat max) buf.
Lemma appends_nil max : appends max (fun s => Ok (false, s)) [].
Proof. intros buf pos H1 H2 H3. cbn [List.length]. replace (pos + Z.of_nat 0 <=? max) with true by lia. rewrite write_nil. do 3 f_equal. lia. Qed.
Lemma appends_char max c : appends max (fun s => append_char max s c) [c].
Proof.
  intros buf pos H1 H2 H3. cbn [List.length append_char]. destruct (Z.leb_spec max pos).
  - replace (pos + Z.of_nat 1 <=? max) with false by lia. exists buf, pos. auto.
  - replace (pos + Z.of_nat 1 <=? max) with true by lia. unfold put. replace (pos <? 0) with false by lia.
    rewrite store_ok by lia. cbn [bind]. rewrite u32_id by lia. reflexivity.
Qed.
Lemma appends_then max r1 r2 l1 l2 : appends max r1 l1 -> appends max r2 l2 -> appends max (fun s => then_ (r1 s) r2) (l1 ++ l2).
Proof.
  intros A1 A2 buf pos H1 H2 H3. unfold then_. specialize (A1 buf pos H1 H2 H3). rewrite app_length.
  destruct (Z.leb_spec (pos + Z.of_nat (List.length l1)) max) as [L|L].
  - rewrite A1. cbn [bind]. specialize (A2 (write buf (Z.to_nat pos) l1) (pos + Z.of_nat (List.length l1)) ltac:(lia) H2).
    rewrite write_length in A2 by lia. specialize (A2 H3).
    replace (pos + Z.of_nat (List.length l1 + List.length l2)) with (pos + Z.of_nat (List.length l1) + Z.of_nat (List.length l2)) by lia.
    destruct (Z.leb_spec (pos + Z.of_nat (List.length l1) + Z.of_nat (List.length l2)) max) as [L2|L2].
    + rewrite A2. replace (Z.to_nat (pos + Z.of_nat (List.length l1))) with (Z.to_nat pos + List.length l1)%nat by lia.
      rewrite write_app by (rewrite app_length; lia). reflexivity.
    + destruct A2 as (b & p & E & Lb & S). exists b, p. split; [exact E|]. split; [exact Lb|]. rewrite S. apply write_skipn; lia.
  - destruct A1 as (b & p & E & Lb & S). rewrite E. cbn [bind].
    replace (pos + Z.of_nat (List.length l1 + List.length l2) <=? max) with false by lia. eauto.
Qed.
Lemma appends_str max l : appends max (fun s => append_str max s l) l.
Proof.
  induction l as [|c l IH]; [apply appends_nil|]. change (c :: l) with ([c] ++ l) at 2.
  cbn [append_str]. apply (appends_then max (fun s => append_char max s c) (fun s => append_str max s l)); [apply appends_char|exact IH].
Qed.
Lemma appends_ext max r r' l : (forall s, r s = r' s) -> appends max r' l -> appends max r l.
Proof. intros E A buf pos H1 H2 H3. rewrite E. apply A; assumption. Qed.

(** ** Numbers *)
Lemma dec_aux_fuel f : forall g n acc, 0 <= n -> (Z.to_nat (Z.log2 n) < f)%nat -> (f <= g)%nat -> dec_aux g n acc = dec_aux f n acc.
Proof.
  induction f as [|f IH]; intros g n acc Hn Hf Hg; [lia|]. destruct g as [|g]; [lia|]. cbn [dec_aux]. destruct (Z.ltb_spec n 10); [reflexivity|].
  apply IH; [lia| |lia]. assert (Z.log2 (n / 10) < Z.log2 n); [|pose proof (Z.log2_nonneg (n / 10)); lia].
  apply Z.log2_lt_pow2; [lia|]. pose proof (Z.log2_spec n ltac:(lia)) as P. pose proof (Z.log2_pos n ltac:(lia)).
  rewrite <- (Z.succ_pred (Z.log2 n)) in P at 2. rewrite !Z.pow_succ_r in P by lia.
  rewrite <- (Z.succ_pred (Z.log2 n)). rewrite Z.pow_succ_r by lia. lia.
Qed.
(** fewer than 10^10 needs at most ten divisions *)
Lemma digits10 n : 0 < n < 2^32 -> forall k acc, (k <= 20)%nat -> n < 10 ^ Z.of_nat k -> (List.length acc + k <= 20)%nat ->
  digits (S k) n acc = Ok (dec_aux (S (Z.to_nat (Z.log2 n))) n acc).
Proof.
  intros Hn k. revert n Hn. induction k as [|k IH]; intros n Hn acc Hk Hb Ha; [cbn in Hb; lia|].
  assert (U : digits (S (S k)) n acc = digits (S k) (n / 10) ((48 + n mod 10) :: acc)).
  { cbn [digits]. replace (n >? 0) with true by lia. unfold push. replace (Z.of_nat (List.length acc) <? 20) with true by lia. reflexivity. }
  rewrite U. cbn [dec_aux]. destruct (Z.ltb_spec n 10).
  - rewrite Z.mod_small, Z.div_small by lia. reflexivity.
  - rewrite IH; [|lia|lia| |cbn [List.length]; lia].
    + f_equal. symmetry. apply dec_aux_fuel; [lia|lia|].
      assert (Z.log2 (n / 10) < Z.log2 n); [|pose proof (Z.log2_nonneg (n / 10)); lia].
      apply Z.log2_lt_pow2; [lia|]. pose proof (Z.log2_spec n ltac:(lia)) as P. pose proof (Z.log2_pos n ltac:(lia)).
      rewrite <- (Z.succ_pred (Z.log2 n)) in P at 2. rewrite !Z.pow_succ_r in P by lia.
      rewrite <- (Z.succ_pred (Z.log2 n)). rewrite Z.pow_succ_r by lia. lia.
    + rewrite Nat2Z.inj_succ, Z.pow_succ_r in Hb by lia. lia.
Qed.
Lemma dec_len n k : 0 <= n < 10 ^ Z.of_nat k -> (1 <= k)%nat -> (List.length (dec n) <= k)%nat.
Proof.
  intros H Hk. destruct (dec_aux_ok (S (Z.to_nat (Z.log2 n))) n [] ltac:(lia) ltac:(lia)) as (l & E & D & L & V & S).
  unfold dec. rewrite E, app_nil_r. destruct S as [S|S]; [lia|].
  destruct l as [|c l]; [cbn in L; lia|]. cbn [hd] in S. specialize (V 0). cbn [fold_left] in V.
  assert (G : forall l a, Forall (fun c => 48 <= c <= 57) l -> 0 <= a -> a * 10 ^ Z.of_nat (List.length l) <= fold_left (fun a c => 10 * a + (c - 48)) l a).
  { clear. induction l as [|c l IH]; intros a D Ha; [cbn; lia|]. inversion D; subst. cbn [fold_left List.length]. specialize (IH (10 * a + (c - 48)) ltac:(assumption) ltac:(lia)).
    rewrite Nat2Z.inj_succ, Z.pow_succ_r by lia. pose proof (Z.pow_pos_nonneg 10 (Z.of_nat (List.length l)) ltac:(lia) ltac:(lia)). nia. }
  inversion D; subst. specialize (G l (10 * 0 + (c - 48)) ltac:(assumption) ltac:(lia)). rewrite V in G.
  destruct (le_lt_dec (List.length (c :: l)) k) as [Q|Q]; [exact Q|exfalso]. cbn [List.length] in Q.
  pose proof (Z.pow_le_mono_r 10 (Z.of_nat k) (Z.of_nat (List.length l)) ltac:(lia) ltac:(lia)).
  assert (1 * 10 ^ Z.of_nat (List.length l) <= (10 * 0 + (c - 48)) * 10 ^ Z.of_nat (List.length l)) by (apply Z.mul_le_mono_nonneg_r; lia). lia.
Qed.
Lemma pad_to_ok p w : forall f tmp, (List.length tmp <= 20)%nat -> (w <= 20)%nat -> (w - List.length tmp < f)%nat ->
  pad_to f tmp (Z.of_nat w) p = Ok (repeat p (w - List.length tmp) ++ tmp).
Proof.
  induction f as [|f IH]; intros tmp H1 H2 H3; [lia|]. cbn [pad_to].
  destruct (Z.ltb_spec (Z.of_nat (List.length tmp)) (Z.of_nat w)).
  - unfold push. replace (Z.of_nat (List.length tmp) <? 20) with true by lia. cbn [bind]. rewrite IH by (cbn [List.length]; lia). cbn [List.length].
    replace (w - List.length tmp)%nat with (S (w - S (List.length tmp))) by lia. cbn [repeat]. rewrite repeat_cons, <- app_assoc. reflexivity.
  - replace (w - List.length tmp)%nat with 0%nat by lia. reflexivity.
Qed.
Lemma appends_uint max n w p : 0 <= n < 2^32 -> (w <= 10)%nat -> appends max (fun s => append_uint max s n (Z.of_nat w) p) (padded p w n).
Proof.
  intros Hn Hw. eapply appends_ext; [|apply appends_str]. intros s. unfold append_uint.
  assert (E : (if n =? 0 then push [] 48 else digits 21 n []) = Ok (dec n)).
  { destruct (Z.eqb_spec n 0) as [->|N]; [reflexivity|]. apply digits10; [lia|lia| |cbn; lia]. change (10 ^ Z.of_nat 20) with 100000000000000000000. lia. }
  rewrite E. cbn [bind]. assert (List.length (dec n) <= 10)%nat by (apply dec_len; [change (10 ^ Z.of_nat 10) with 10000000000|]; lia).
  rewrite pad_to_ok by lia. reflexivity.
Qed.

(** ** Conversions *)
(** No int overflow while converting. *)
Definition safe (x : tm) : Prop := is_i32 (tm_year x + 1900) /\ is_i32 (tm_mon x + 1) /\ is_i32 (tm_yday x + 1).
Definition composite (c : Z) : option (list Z) :=
  if c =? 99 then Some [37;97;32;37;98;32;37;101;32;37;72;58;37;77;58;37;83;32;37;89]
  else if c =? 120 then Some [37;109;47;37;100;47;37;121]
  else if c =? 88 then Some [37;72;58;37;77;58;37;83]
  else if c =? 70 then Some [37;89;45;37;109;45;37;100]
  else if c =? 84 then Some [37;72;58;37;77;58;37;83]
  else if c =? 82 then Some [37;72;58;37;77]
  else if c =? 68 then Some [37;109;47;37;100;47;37;121]
  else if c =? 114 then Some [37;73;58;37;77;58;37;83;32;37;112]
  else None.
Definition leaf (x : tm) (c : Z) : list Z :=
  if c =? 89 then padded 48 4 (u32 (tm_year x + 1900))
  else if c =? 121 then padded 48 2 (u32 (Z.rem (tm_year x + 1900) 100))
  else if c =? 67 then padded 48 2 (u32 (Z.quot (tm_year x + 1900) 100))
  else if c =? 109 then padded 48 2 (u32 (tm_mon x + 1))
  else if c =? 100 then padded 48 2 (u32 (tm_mday x))
  else if c =? 101 then padded 32 2 (u32 (tm_mday x))
  else if c =? 72 then padded 48 2 (u32 (tm_hour x))
  else if c =? 73 then padded 48 2 (u32 (if Z.rem (tm_hour x) 12 =? 0 then 12 else Z.rem (tm_hour x) 12))
  else if c =? 77 then padded 48 2 (u32 (tm_min x))
  else if c =? 83 then padded 48 2 (u32 (tm_sec x))
  else if c =? 106 then padded 48 3 (u32 (tm_yday x + 1))
  else if c =? 112 then if tm_hour x <? 12 then [65;77] else [80;77]
  else if c =? 65 then if (tm_wday x <? 0) || (6 <? tm_wday x) then [] else nth (Z.to_nat (tm_wday x)) wday_full []
  else if c =? 97 then if (tm_wday x <? 0) || (6 <? tm_wday x) then [] else nth (Z.to_nat (tm_wday x)) wday_abbr []
  else if c =? 66 then if (tm_mon x <? 0) || (11 <? tm_mon x) then [] else nth (Z.to_nat (tm_mon x)) mon_full []
  else if (c =? 98) || (c =? 104) then if (tm_mon x <? 0) || (11 <? tm_mon x) then [] else nth (Z.to_nat (tm_mon x)) mon_abbr []
  else if c =? 117 then padded 32 0 (u32 (if tm_wday x =? 0 then 7 else tm_wday x))
  else if c =? 119 then padded 32 0 (u32 (tm_wday x))
  else if c =? 90 then []
  else if c =? 110 then [10]
  else if c =? 116 then [9]
  else if c =? 37 then [37]
  else [37] ++ [c].
Lemma u32_rng n : 0 <= u32 n < 2^32.
Proof. unfold u32. lia. Qed.
Lemma idx_nth (l : list (list Z)) i : 0 <= i < Z.of_nat (List.length l) -> idx l i = Ok (nth (Z.to_nat i) l []).
Proof. intros. unfold idx. replace (i <? 0) with false by lia. rewrite (nth_error_nth' l []) by lia. reflexivity. Qed.
Lemma chk_i32' x : is_i32 x -> chk_i32 x = Ok x.
Proof. apply Base.chk_i32_ok. Qed.
Lemma leaf_ok d max x c : safe x -> composite c = None -> appends max (fun s => emit_one d max x s c) (leaf x c).
Proof.
  intros (Sy & Sm & Sd) C.
  assert (N : forall n (w : nat) p, (w <= 10)%nat -> appends max (fun s => append_uint max s (u32 n) (Z.of_nat w) p) (padded p w (u32 n)))
    by (intros; apply appends_uint; [apply u32_rng|assumption]).
  destruct d; cbn [emit_one]; unfold leaf; rewrite ?(chk_i32' _ Sy), ?(chk_i32' _ Sm), ?(chk_i32' _ Sd); cbn [bind].
  all: destruct (c =? 89); [apply (N _ 4%nat); lia|]; destruct (c =? 121); [apply (N _ 2%nat); lia|]; destruct (c =? 67); [apply (N _ 2%nat); lia|];
    destruct (c =? 109); [apply (N _ 2%nat); lia|]; destruct (c =? 100) ; [apply (N _ 2%nat); lia|]; destruct (c =? 101); [apply (N _ 2%nat); lia|];
    destruct (c =? 72); [apply (N _ 2%nat); lia|]; destruct (c =? 73); [apply (N _ 2%nat); lia|]; destruct (c =? 77); [apply (N _ 2%nat); lia|];
    destruct (c =? 83); [apply (N _ 2%nat); lia|]; destruct (c =? 106); [apply (N _ 3%nat); lia|]; destruct (c =? 112); [apply appends_str|].
  all: destruct (c =? 65); [destruct ((tm_wday x <? 0) || (6 <? tm_wday x)) eqn:W; [apply appends_nil|rewrite idx_nth by (cbn; lia); cbn [bind]; apply appends_str]|].
  all: destruct (c =? 97); [destruct ((tm_wday x <? 0) || (6 <? tm_wday x)) eqn:W; [apply appends_nil|rewrite idx_nth by (cbn; lia); cbn [bind]; apply appends_str]|].
  all: destruct (c =? 66); [destruct ((tm_mon x <? 0) || (11 <? tm_mon x)) eqn:W; [apply appends_nil|rewrite idx_nth by (cbn; lia); cbn [bind]; apply appends_str]|].
  all: destruct ((c =? 98) || (c =? 104)); [destruct ((tm_mon x <? 0) || (11 <? tm_mon x)) eqn:W; [apply appends_nil|rewrite idx_nth by (cbn; lia); cbn [bind]; apply appends_str]|].
  all: unfold composite in C; destruct (c =? 99); [discriminate|]; destruct (c =? 120); [discriminate|]; destruct (c =? 88); [discriminate|];
    destruct (c =? 70); [discriminate|]; destruct (c =? 84); [discriminate|]; destruct (c =? 82); [discriminate|];
    destruct (c =? 68); [discriminate|]; destruct (c =? 114); [discriminate|].
  all: destruct (c =? 117); [apply (N _ 0%nat); lia|]; destruct (c =? 119); [apply (N _ 0%nat); lia|]; destruct (c =? 90); [apply appends_nil|];
    destruct (c =? 110); [apply appends_char|]; destruct (c =? 116); [apply appends_char|]; destruct (c =? 37); [apply appends_char|].
  all: apply (appends_then max (fun s => append_char max s 37) (fun s => append_char max s c)); apply appends_char.
Qed.
(** The text of a format when the conversion specifier c gives [f c]. *)
Fixpoint fmt_text (f : Z -> list Z) (fmt : list Z) : list Z :=
  match fmt with
  | [] => []
  | c :: r =>
    if negb (c =? 37) then [c] ++ fmt_text f r
    else
      match r with
      | [] => [37]
      | c1 :: r1 =>
        if (c1 =? 69) || (c1 =? 79) then
          match r1 with
          | [] => [37]
          | c2 :: r2 => f c2 ++ fmt_text f r2
          end
        else f c1 ++ fmt_text f r1
      end
  end.
Lemma format_ok max emit f : forall n fmt, (List.length fmt <= n)%nat -> (forall c, In c fmt -> appends max (fun s => emit s c) (f c)) ->
  appends max (fun s => format_ emit max s fmt) (fmt_text f fmt).
Proof.
  induction n as [|n IH]; intros fmt L H.
  { destruct fmt; [|cbn in L; lia]. apply appends_nil. }
  destruct fmt as [|c r]; [apply appends_nil|]. cbn [format_ fmt_text]. cbn [List.length] in L.
  destruct (negb (c =? 37)).
  { apply (appends_then max (fun s => append_char max s c) (fun s => format_ emit max s r)); [apply appends_char|].
    apply IH; [lia|]. intros; apply H; right; assumption. }
  destruct r as [|c1 r1]; [apply appends_char|]. cbn [List.length] in L. destruct ((c1 =? 69) || (c1 =? 79)).
  - destruct r1 as [|c2 r2]; [apply appends_char|]. cbn [List.length] in L.
    apply (appends_then max (fun s => emit s c2) (fun s => format_ emit max s r2)); [apply H; cbn; auto|].
    apply IH; [lia|]. intros; apply H; cbn; auto.
  - apply (appends_then max (fun s => emit s c1) (fun s => format_ emit max s r1)); [apply H; cbn; auto|].
    apply IH; [lia|]. intros; apply H; cbn; auto.
Qed.
Definition full (x : tm) (c : Z) : list Z := match composite c with Some fmt => fmt_text (leaf x) fmt | None => leaf x c end.
Lemma emit_ok max x c : safe x -> appends max (fun s => emit_one 1 max x s c) (full x c).
Proof.
  intros S. unfold full. destruct (composite c) as [fmt|] eqn:C; [|apply leaf_ok; assumption].
  assert (E : forall s, emit_one 1 max x s c = format_ (emit_one 0 max x) max s fmt /\ forall c, In c fmt -> composite c = None).
  { intros s. unfold composite in C. cbn [emit_one].
    repeat match type of C with (if ?z =? ?k then _ else _) = _ =>
      destruct (Z.eqb_spec z k) as [->|_]; [injection C as <-; split; [reflexivity|apply Forall_forall; repeat constructor]|] end.
    discriminate C. }
  eapply appends_ext; [intros s; apply (E s)|]. apply (format_ok max (emit_one 0 max x) (leaf x) (List.length fmt)); [lia|].
  intros c' I. apply leaf_ok; [exact S|]. apply (E ([], 0)), I.
Qed.
Lemma strftime_ok x fmt buf rest : safe x -> Z.of_nat (List.length buf) < 2^32 ->
  exists r mem, strftime (buf ++ rest) (Z.of_nat (List.length buf)) fmt x = Ok (r, mem) /\ strftime_result (fmt_text (full x) fmt) buf rest r mem.
Proof.
  intros S L. unfold strftime, strftime_result. set (e := fmt_text (full x) fmt). set (n := Z.of_nat (List.length buf)).
  destruct (Z.eqb_spec n 0) as [N|N].
  { replace (_ <? _)%nat with false by lia. exists 0, (buf ++ rest). split; [reflexivity|]. split; [reflexivity|]. exists buf. auto. }
  rewrite (u32_id (n - 1)) by lia.
  pose proof (format_ok (n - 1) (emit_one 1 (n - 1) x) (full x) (List.length fmt) fmt ltac:(lia) (fun c _ => emit_ok (n - 1) x c S) (buf ++ rest) 0
    ltac:(lia) ltac:(lia) ltac:(rewrite app_length; lia)) as F. fold e in F. cbn [Z.add] in F.
  destruct (Z.leb_spec (Z.of_nat (List.length e)) (n - 1)) as [H|H].
  - rewrite F. cbn [bind]. replace (_ <? _)%nat with true by lia. unfold put. replace (_ <? 0) with false by lia.
    rewrite Nat2Z.id, store_ok by (rewrite write_length; rewrite app_length; lia). cbn [bind].
    eexists _, _. split; [reflexivity|]. split; [reflexivity|].
    change (Z.to_nat 0) with 0%nat. change (List.length e) with (0 + List.length e)%nat at 1. rewrite write_app by (rewrite !app_length; cbn [List.length]; lia).
    unfold write. cbn [firstn app Nat.add]. rewrite <- app_assoc. f_equal. cbn [app]. f_equal. rewrite app_length. cbn [List.length].
    rewrite skipn_app. f_equal. replace (List.length e + 1 - List.length buf)%nat with 0%nat by lia. reflexivity.
  - destruct F as (b & p & F & Lb & Sk). rewrite F. cbn [bind]. replace (_ <? _)%nat with false by lia.
    exists 0, b. split; [reflexivity|]. split; [reflexivity|]. exists (firstn (List.length buf) b). rewrite app_length in Lb.
    split; [rewrite firstn_length; lia|]. rewrite <- (firstn_skipn (List.length buf) b) at 1. f_equal.
    rewrite <- (skipn_sub (Z.to_nat (n - 1)) (List.length buf) b) by lia. rewrite Sk, skipn_sub by lia.
    rewrite skipn_app, skipn_all, Nat.sub_diag. reflexivity.
Qed.

(** ** The standard's meaning *)
Lemma weekday_ok x : 0 <= tm_wday x <= 6 ->
  nth (Z.to_nat (tm_wday x)) wday_full [] = weekday_name (tm_wday x) /\ nth (Z.to_nat (tm_wday x)) wday_abbr [] = firstn 3 (weekday_name (tm_wday x)).
Proof.
  intros H. assert (tm_wday x = 0 \/ tm_wday x = 1 \/ tm_wday x = 2 \/ tm_wday x = 3 \/ tm_wday x = 4 \/ tm_wday x = 5 \/ tm_wday x = 6) as C by lia.
  repeat destruct C as [-> | C]; [..|rewrite C]; split; reflexivity.
Qed.
Lemma month_ok x : 0 <= tm_mon x <= 11 ->
  nth (Z.to_nat (tm_mon x)) mon_full [] = month_name (tm_mon x) /\ nth (Z.to_nat (tm_mon x)) mon_abbr [] = firstn 3 (month_name (tm_mon x)).
Proof.
  generalize (tm_mon x). intros m H. assert (m = 0 \/ m = 1 \/ m = 2 \/ m = 3 \/ m = 4 \/ m = 5 \/ m = 6 \/ m = 7 \/ m = 8 \/ m = 9 \/ m = 10 \/ m = 11) as C by lia.
  repeat destruct C as [-> | C]; [..|rewrite C]; split; reflexivity.
Qed.
Lemma in_range_safe x : in_range x -> safe x.
Proof. unfold in_range, safe, is_i32, INT_MIN, INT_MAX. lia. Qed.
Lemma full_standard x c l : in_range x -> unimplemented c = false -> standard x c = Some l -> full x c = l.
Proof.
  intros (R1 & R2 & R3 & R4 & R5 & R6 & R7 & R8) U E. unfold INT_MAX in R6.
  destruct (weekday_ok x R7) as [W1 W2]. destruct (month_ok x R5) as [M1 M2].
  assert (EI : (if Z.rem (tm_hour x) 12 =? 0 then 12 else Z.rem (tm_hour x) 12) = (tm_hour x + 11) mod 12 + 1).
  { rewrite Z.rem_mod_nonneg by lia. destruct (Z.eqb_spec (tm_hour x mod 12) 0); lia. }
  assert (P0 : forall n, padded 32 0 n = dec n) by reflexivity.
  assert (Wc : (tm_wday x <? 0) || (6 <? tm_wday x) = false) by lia.
  assert (Mc : (tm_mon x <? 0) || (11 <? tm_mon x) = false) by lia.
  assert (Hw : u32 (if tm_wday x =? 0 then 7 else tm_wday x) = if tm_wday x =? 0 then 7 else tm_wday x) by (apply u32_id; destruct (tm_wday x =? 0); lia).
  assert (Hy : Z.rem (tm_year x + 1900) 100 = (tm_year x + 1900) mod 100) by (apply Z.rem_mod_nonneg; lia).
  assert (Hq : Z.quot (tm_year x + 1900) 100 = (tm_year x + 1900) / 100) by (apply Z.quot_div_nonneg; lia).
  assert (L : In c [97;65;98;104;66;99;67;100;68;120;101;70;103;71;72;73;106;109;77;110;112;114;82;83;116;84;88;117;85;86;119;87;121;122;89;90;37]).
  { unfold standard in E. cbv zeta in E. clear -E. repeat match type of E with match ?z with _ => _ end = _ => destruct z; try discriminate E end; cbn; tauto. }
  cbn [In] in L. 
  enough (Some (full x c) = Some l) by congruence. rewrite <- E. clear E l.
  repeat destruct L as [<- | L]; try contradiction; try discriminate U; cbv beta iota zeta delta [standard]; f_equal.
  all: match goal with |- full ?x ?c = _ => let f := eval vm_compute in (composite c) in change (full x c) with (match f with Some fmt => fmt_text (leaf x) fmt | None => leaf x c end) end.
  all: cbn [fmt_text negb orb Z.eqb Pos.eqb]. all: unfold leaf; cbn [orb Z.eqb Pos.eqb].
  all: rewrite ?EI, ?Hw, ?Hy, ?Hq, ?Wc, ?Mc, ?W1, ?W2, ?M1, ?M2, ?P0. all: repeat (rewrite u32_id by lia). all: rewrite <- ?app_assoc, ?app_nil_r. all: reflexivity.
Qed.
Lemma fmt_text_meaning x l e : in_range x -> Forall token_ok l -> Forall implemented l -> meaning x l = Some e -> fmt_text (full x) (format_text l) = e.
Proof.
  intros R. revert e. induction l as [|t l IH]; intros e K I M; [injection M as <-; reflexivity|].
  inversion K as [|? ? Kt Kl]; inversion I as [|? ? It Il]; subst. cbn [meaning] in M.
  destruct (token_meaning x t) as [a|] eqn:Ta; [|discriminate]. destruct (meaning x l) as [b|] eqn:Mb; [|discriminate]. injection M as <-.
  specialize (IH b Kl Il eq_refl). change (format_text (t :: l)) with (token_text t ++ format_text l).
  destruct t as [c|[m|] c]; cbn [token_text token_ok token_meaning implemented] in *.
  - injection Ta as <-. cbn [app fmt_text]. replace (c =? 37) with false by lia. cbn [negb app]. rewrite IH. reflexivity.
  - cbn [app fmt_text]. cbn [Z.eqb Pos.eqb negb]. replace ((m =? 69) || (m =? 79)) with true by lia.
    rewrite IH. f_equal. apply full_standard; assumption.
  - cbn [app fmt_text]. cbn [Z.eqb Pos.eqb negb]. replace ((c =? 69) || (c =? 79)) with false by lia.
    rewrite IH. f_equal. apply full_standard; assumption.
Qed.

(** ** asctime *)
Lemma dec_len_ge n k : 10 ^ Z.of_nat k <= n -> (S k <= List.length (dec n))%nat.
Proof.
  intros H. pose proof (Z.pow_pos_nonneg 10 (Z.of_nat k) ltac:(lia) ltac:(lia)).
  destruct (dec_aux_ok (S (Z.to_nat (Z.log2 n))) n [] ltac:(lia) ltac:(lia)) as (l & E & D & L & V & S).
  unfold dec. rewrite E, app_nil_r. specialize (V 0).
  assert (G : forall l a, Forall (fun c => 48 <= c <= 57) l -> 0 <= a -> fold_left (fun a c => 10 * a + (c - 48)) l a < (a + 1) * 10 ^ Z.of_nat (List.length l)).
  { clear. induction l as [|c l IH]; intros a D Ha; [cbn; lia|]. inversion D; subst. cbn [fold_left List.length]. specialize (IH (10 * a + (c - 48)) ltac:(assumption) ltac:(lia)).
    rewrite Nat2Z.inj_succ, Z.pow_succ_r by lia. pose proof (Z.pow_pos_nonneg 10 (Z.of_nat (List.length l)) ltac:(lia) ltac:(lia)). nia. }
  specialize (G l 0 D ltac:(lia)). rewrite V in G. destruct (le_lt_dec (List.length l) k) as [Q|Q]; [exfalso|lia].
  pose proof (Z.pow_le_mono_r 10 (Z.of_nat (List.length l)) (Z.of_nat k) ltac:(lia) ltac:(lia)). lia.
Qed.
Lemma padded_len p w n : 0 <= n < 10 ^ Z.of_nat w -> (1 <= w)%nat -> List.length (padded p w n) = w.
Proof. intros H Hw. unfold padded. pose proof (dec_len n w H Hw). rewrite app_length, repeat_length. lia. Qed.
Lemma asctime_ok x buf : in_range x -> 1000 <= tm_year x + 1900 <= 9999 -> List.length buf = 26%nat ->
  asctime buf x = Ok (asctime_text x ++ [0]) /\ List.length (asctime_text x) = 25%nat.
Proof.
  intros R Y L. set (toks := [Conv None 97; Lit 32; Conv None 98; Lit 32; Conv None 101; Lit 32; Conv None 72; Lit 58; Conv None 77; Lit 58; Conv None 83; Lit 32; Conv None 89; Lit 10]).
  assert (T : asctime_text x = firstn 3 (weekday_name (tm_wday x)) ++ [32] ++ firstn 3 (month_name (tm_mon x)) ++ [32] ++ padded 32 2 (tm_mday x) ++ [32] ++
    padded 48 2 (tm_hour x) ++ [58] ++ padded 48 2 (tm_min x) ++ [58] ++ padded 48 2 (tm_sec x) ++ [32] ++ padded 48 4 (tm_year x + 1900) ++ [10]).
  { unfold asctime_text. destruct R as (R1 & R2 & R3 & R4 & R5 & R6 & R7 & R8).
    assert (D3 : padded 32 3 (tm_mday x) = [32] ++ padded 32 2 (tm_mday x)).
    { unfold padded. pose proof (dec_len (tm_mday x) 2 ltac:(cbn; lia) ltac:(lia)). replace (3 - List.length (dec (tm_mday x)))%nat with (S (2 - List.length (dec (tm_mday x)))) by lia. reflexivity. }
    assert (D4 : padded 48 4 (tm_year x + 1900) = dec (tm_year x + 1900)).
    { unfold padded. pose proof (dec_len_ge (tm_year x + 1900) 3 ltac:(cbn; lia)). replace (4 - _)%nat with 0%nat by lia. reflexivity. }
    rewrite D3, D4, <- !app_assoc. reflexivity. }
  assert (Len : List.length (asctime_text x) = 25%nat).
  { rewrite T. destruct R as (R1 & R2 & R3 & R4 & R5 & R6 & R7 & R8). rewrite !app_length. rewrite !padded_len by (cbn; lia). 
    assert (W : List.length (firstn 3 (weekday_name (tm_wday x))) = 3%nat).
    { generalize dependent (tm_wday x). intros m H. assert (m = 0 \/ m = 1 \/ m = 2 \/ m = 3 \/ m = 4 \/ m = 5 \/ m = 6) as C by lia.
      repeat destruct C as [-> | C]; [..|subst m]; reflexivity. }
    assert (M : List.length (firstn 3 (month_name (tm_mon x))) = 3%nat).
    { generalize dependent (tm_mon x). intros m H. assert (m = 0 \/ m = 1 \/ m = 2 \/ m = 3 \/ m = 4 \/ m = 5 \/ m = 6 \/ m = 7 \/ m = 8 \/ m = 9 \/ m = 10 \/ m = 11) as C by lia.
      repeat destruct C as [-> | C]; [..|subst m]; reflexivity. }
    rewrite W, M. reflexivity. }
  split; [|exact Len]. unfold asctime.
  destruct (strftime_ok x (format_text toks) buf [] (in_range_safe x R) ltac:(lia)) as (r & mem & E & S).
  rewrite app_nil_r, L in E. change (Z.of_nat 26) with 26 in E. change (format_text toks) with [37;97;32;37;98;32;37;101;32;37;72;58;37;77;58;37;83;32;37;89;10] in E.
  rewrite E. cbn [bind]. rewrite (fmt_text_meaning x toks (asctime_text x) R) in S.
  - unfold strftime_result in S. rewrite Len, L in S. cbn [Nat.ltb Nat.leb] in S. destruct S as [_ ->]. rewrite skipn_all2 by (rewrite L; cbn; lia). reflexivity.
  - repeat constructor; cbn; lia.
  - repeat constructor.
  - rewrite T. cbv beta iota zeta delta [meaning token_meaning standard toks]. rewrite ?app_nil_r. reflexivity.
Qed.
