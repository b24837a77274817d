(** %s: bounded string length; vsnprintf and vsprintf: what ends up in memory. *)
From Verif Require Import Base Str_Model Str_Spec Str_Proof Utf8_Model Printf_Model.
Open Scope Z_scope.
Notation len := List.length.

Section strnlen.
Context (m : mem) (E z : Z) (Hok : mem_ok m) (Hz : z <= E) (Hzc : z < E -> m z = Some 0).
Let up := upto m 0 E z.
Lemma strnlen_pre_ok fuel : forall p l, up p -> l = E - p -> 0 <= l < 2^32 ->
  (Z.to_nat ((- p) mod 8) < fuel)%nat -> ((- p) mod 8 <= l \/ z < E) ->
  (exists l', z < E /\ strnlen_pre fuel m p l = Ok (true, z, l')) \/
  (exists q, strnlen_pre fuel m p l = Ok (false, q, E - q) /\ p <= q <= z /\ q mod 8 = 0).
Proof.
  induction fuel as [|f IH]; intros p l Hu Hl Hr Hf Ha; [lia|].
  cbn [strnlen_pre]. destruct (p mod 8 =? 0) eqn:Ep.
  { right. exists p. subst l. repeat split; try lia. apply Hu. }
  destruct (l =? 0) eqn:El.
  { exfalso. destruct Hu as (H1 & _). lia. }
  destruct (upto_load m 0 E z Hzc p Hu ltac:(lia)) as (b & -> & Hb & Hbz). cbn [bind].
  destruct (b =? 0) eqn:Ebc.
  - left. assert (p = z) as <- by (apply Hbz; lia). eexists. split; [lia|reflexivity].
  - assert (p <> z) by (intros E'; apply Hbz in E'; lia).
    assert (Hpz : p < z) by (destruct Hu; lia).
    unfold u32. rewrite Z.mod_small by lia.
    destruct (IH (p + 1) (l - 1)) as [(l' & ? & ->)|(q & -> & ? & ?)]; try lia.
    + apply (upto_weaken m 0 E z p); [exact Hu|lia].
    + left. exists l'. split; [assumption|reflexivity].
    + right. exists q. repeat split; try assumption; lia.
Qed.
Lemma strnlen_vec_ok fuel : forall p l, up p -> p mod 8 = 0 -> l = E - p -> 0 <= l < 2^32 ->
  (Z.to_nat ((z - p) / 8 + 1) < fuel)%nat ->
  (exists l', z < E /\ strnlen_vec fuel m p l = Ok (true, z, l')) \/
  (exists q, strnlen_vec fuel m p l = Ok (false, q, E - q) /\ p <= q <= z /\ E - q < 8).
Proof.
  induction fuel as [|f IH]; intros p l Hu Ha Hl Hr Hf; [lia|].
  cbn [strnlen_vec]. destruct (l <? 8) eqn:E8.
  { right. exists p. subst l. repeat split; try lia. apply Hu. }
  assert (Hm : mapped m p (p + 8)).
  { intros x Hx. apply Hu; [lia|]. destruct Hu. lia. }
  destruct (word_ok m p Hok Hm) as (w & -> & Hw & T). cbn [bind].
  assert (S := scan_ok 8 m (fun a b => if b =? 0 then Some a else None) p Hm). change (Z.of_nat 8) with 8 in S.
  assert (X0 : Z.lxor w (u64 (0x0101010101010101 * 0)) = w) by apply Z.lxor_0_r.
  destruct (Z.ltb_spec z (p + 8)).
  - assert (HZ : haszero w = true).
    { rewrite <- X0. apply (T 0 (z - p)); [lia|destruct Hu; lia|]. rewrite <- Hzc by lia. f_equal; lia. }
    rewrite HZ.
    assert (Fz : m z = Some 0) by (apply Hzc; lia).
    destruct S as [[-> N]|(x & b & r & Hx & Hb & Hrr & -> & N)].
    + specialize (N z 0 ltac:(destruct Hu; lia) Fz). discriminate.
    + destruct (b =? 0) eqn:Eb; [|discriminate]. injection Hrr as <-. cbn [bind].
      assert (x = z) as ->.
      { destruct (Z.lt_trichotomy x z) as [L|[L|L]]; [|assumption|].
        - exfalso. destruct Hu as (_ & H2 & _). apply (H2 x); [lia|]. rewrite Hb. f_equal. lia.
        - exfalso. specialize (N z 0 ltac:(destruct Hu; lia) Fz). discriminate. }
      left. exists l. split; [lia|reflexivity].
  - assert (R : (do r <- (if haszero w then scan 8 m p (fun a b => if b =? 0 then Some a else None) else Ok None);
                 match r with Some a => Ok (true, a, l) | None => strnlen_vec f m (p + 8) (u32 (l - 8)) end)
                = strnlen_vec f m (p + 8) (u32 (l - 8))).
    { destruct (haszero w); [|reflexivity].
      destruct S as [[-> N]|(x & b & r & Hx & Hb & Hrr & -> & N)]; [reflexivity|].
      destruct (b =? 0) eqn:Eb; [|discriminate]. exfalso. destruct Hu as (_ & H2 & _). apply (H2 x); [lia|]. rewrite Hb. f_equal. lia. }
    rewrite R. unfold u32. rewrite Z.mod_small by lia.
    destruct (IH (p + 8) (l - 8)) as [(l' & ? & ->)|(q & -> & ? & ?)]; try lia.
    + apply (upto_weaken m 0 E z p); [exact Hu|lia].
    + left. exists l'. split; [assumption|reflexivity].
    + right. exists q. repeat split; try assumption; lia.
Qed.
Lemma strnlen_tail_ok fuel : forall p l, up p -> l = E - p -> 0 <= l < 2^32 ->
  (Z.to_nat (z - p) < fuel)%nat -> strnlen_tail fuel m p l = Ok z.
Proof.
  induction fuel as [|f IH]; intros p l Hu Hl Hr Hf; [lia|].
  cbn [strnlen_tail]. destruct (l =? 0) eqn:El.
  { destruct Hu. f_equal. lia. }
  destruct (upto_load m 0 E z Hzc p Hu ltac:(lia)) as (b & -> & Hb & Hbz). cbn [bind].
  destruct (b =? 0) eqn:Ebc.
  - f_equal. apply Hbz. lia.
  - assert (p <> z) by (intros E'; apply Hbz in E'; lia).
    assert (Hpz : p < z) by (destruct Hu; lia).
    unfold u32. rewrite Z.mod_small by lia. apply IH; try lia. apply (upto_weaken m 0 E z p); [exact Hu|lia].
Qed.
Lemma strnlen_ok fuel p l : up p -> l = E - p -> 0 <= l < 2^32 -> ((- p) mod 8 <= l \/ z < E) ->
  (Z.to_nat (z - p) + 8 < fuel)%nat -> strnlen_ fuel m p l = Ok (z - p).
Proof.
  intros Hu Hl Hr Ha Hf. unfold strnlen_. assert (Hpz : p <= z) by apply Hu.
  assert (U : u32 (z - p) = z - p) by (unfold u32; apply Z.mod_small; lia).
  destruct (strnlen_pre_ok fuel p l) as [(l' & ? & ->)|(q & -> & ? & ?)]; try assumption; try lia.
  { cbn [bind]. now rewrite U. }
  cbn [bind]. assert (Hu2 : up q) by (apply (upto_weaken m 0 E z p); assumption).
  destruct (strnlen_vec_ok fuel q (E - q)) as [(l' & ? & ->)|(q2 & -> & ? & ?)]; try assumption; try lia.
  { cbn [bind]. now rewrite U. }
  cbn [bind]. rewrite (strnlen_tail_ok fuel q2 (E - q2)); try lia; [cbn [bind]; now rewrite U|].
  apply (upto_weaken m 0 E z q); assumption.
Qed.
End strnlen.

Lemma load_n_contents l : forall m a, contents m a l -> load_n (len l) m a = Ok l.
Proof.
  induction l as [|b l I]; intros m a H; [reflexivity|]. cbn [len load_n].
  assert (H0 : m a = Some b). { specialize (H 0%nat). cbn in H. rewrite Z.add_0_r in H. apply H. lia. }
  unfold load at 1. rewrite H0. cbn [bind]. rewrite I; [reflexivity|].
  intros i Hi. specialize (H (S i)). cbn in H. replace (a + 1 + Z.of_nat i) with (a + Z.pos (Pos.of_succ_nat i)) by lia. apply H. lia.
Qed.

(** %s *)
Lemma convert_s_ok fuel m spec a out rest : mem_ok m -> 0 <= a < 2^32 -> Z.shiftr (modifier spec) 2 <> 108 -> precision spec <= INT_MAX ->
  let prec := if precision spec <? 0 then 2^32 - 1 else precision spec in
  contents m a out -> Forall (fun b => b <> 0) out -> Z.of_nat (len out) < 2^31 ->
  (Z.of_nat (len out) = prec /\ (- a) mod 8 <= prec \/ Z.of_nat (len out) < prec /\ m (a + Z.of_nat (len out)) = Some 0) ->
  (forall x, a <= x < a + prec -> x / 8 <= (a + Z.of_nat (len out)) / 8 -> m x <> None) -> (len out + 8 < fuel)%nat ->
  convert_s_ fuel m spec (A32 a :: rest) = Ok ([out], Z.of_nat (len out), rest).
Proof.
  intros Hok Hsa Hm Hp prec Hc Hn HL H Hmap Hf. unfold convert_s_. cbn [va32]. cbn [bind].
  assert (Ua : u32 a = a) by (unfold u32; apply Z.mod_small; lia). rewrite Ua.
  replace (Z.shiftr (modifier spec) 2 =? 108) with false by lia. fold prec.
  assert (Hpr : 0 <= prec < 2^32). { unfold prec, INT_MAX in *. destruct (precision spec <? 0) eqn:E; lia. }
  rewrite (strnlen_ok m (a + prec) (a + Z.of_nat (len out)) Hok) with (p := a) (l := prec); try lia.
  - replace (a + Z.of_nat (len out) - a) with (Z.of_nat (len out)) by ring. cbn [bind]. rewrite Nat2Z.id, load_n_contents by exact Hc. cbn [bind].
    unfold s32, sgn. rewrite Z.mod_small by lia. change (2^32 / 2) with (2^31). change (2^(32-1)) with (2^31).
    replace (Z.of_nat (len out) <? 2^31) with true by lia. reflexivity.
  - intros L. destruct H as [[? _]|[_ H]]; [lia|exact H].
  - split; [lia|]. split; [|exact Hmap]. intros x Hx He. specialize (Hc (Z.to_nat (x - a)) ltac:(lia)).
    replace (a + Z.of_nat (Z.to_nat (x - a))) with x in Hc by lia. rewrite He in Hc. injection Hc as Hc.
    rewrite Forall_forall in Hn. apply (Hn 0); [|reflexivity]. rewrite Hc. apply nth_In. lia.
Qed.

(** ** vsnprintf *)
(** [m] with the bytes [l] at [a] *)
Definition overlay (m : mem) (a : Z) (l : list Z) (m' : mem) : Prop :=
  forall x, m' x = if (a <=? x) && (x <? a + Z.of_nat (len l)) then Some (nth (Z.to_nat (x - a)) l 0) else m x.
Lemma overlay_app m a l1 m1 l2 m2 : overlay m a l1 m1 -> overlay m1 (a + Z.of_nat (len l1)) l2 m2 -> overlay m a (l1 ++ l2) m2.
Proof.
  intros H1 H2 x. rewrite H2, H1, app_length, Nat2Z.inj_add.
  destruct ((a <=? x) && (x <? a + Z.of_nat (len l1))) eqn:A.
  - replace (a + Z.of_nat (len l1) <=? x) with false by lia. cbn [andb].
    replace ((a <=? x) && (x <? a + (Z.of_nat (len l1) + Z.of_nat (len l2)))) with true by lia. rewrite app_nth1 by lia. reflexivity.
  - destruct ((a + Z.of_nat (len l1) <=? x) && (x <? a + Z.of_nat (len l1) + Z.of_nat (len l2))) eqn:B.
    + replace ((a <=? x) && (x <? a + (Z.of_nat (len l1) + Z.of_nat (len l2)))) with true by lia.
      rewrite app_nth2 by lia. f_equal. f_equal. lia.
    + replace ((a <=? x) && (x <? a + (Z.of_nat (len l1) + Z.of_nat (len l2)))) with false by lia. reflexivity.
Qed.
Lemma overlay_nil m a : overlay m a [] m.
Proof. intros x. cbn. replace ((a <=? x) && (x <? a + 0)) with false by lia. reflexivity. Qed.
Lemma overlay_mapped m a l m' b c : overlay m a l m' -> mapped m b c -> mapped m' b c.
Proof. intros H Hm x Hx. rewrite H. destruct (_ && _); [discriminate|apply Hm; exact Hx]. Qed.

Lemma run_noop m p e ps : run sn_write (mk_sn m p e true) ps = Ok (mk_sn m p e true, true).
Proof. induction ps as [|q ps I]; [reflexivity|]. cbn [run]. unfold sn_write. cbn. rewrite Z.eqb_refl. exact I. Qed.

Lemma run_sn ps : forall m p e, p <= e -> e - p < 2^32 -> mapped m p e ->
  let full := List.concat ps in let out := firstn (Z.to_nat (e - p)) full in
  exists m' noop, run sn_write (mk_sn m p e false) ps = Ok (mk_sn m' (p + Z.of_nat (len out)) e noop, true) /\ overlay m p out m'.
Proof.
  induction ps as [|q ps I]; intros m p e Hpe Hr Hm.
  - exists m, false. cbn. rewrite firstn_nil. cbn. rewrite Z.add_0_r. split; [reflexivity|apply overlay_nil].
  - cbn [List.concat run]. unfold sn_write at 1. cbn [sn_noop sn_end sn_ptr sn_mem].
    unfold u32. rewrite Z.mod_small by lia.
    destruct (Z.of_nat (len q) <? e - p) eqn:L.
    + destruct (store_n_ok q m p) as (m1 & -> & O1).
      { intros x Hx. apply Hm. lia. }
      cbn [bind]. rewrite Z.eqb_refl.
      destruct (I m1 (p + Z.of_nat (len q)) e) as (m' & noop & -> & O2); [lia|lia| |].
      { apply (overlay_mapped m p q m1); [exact O1|]. intros x Hx. apply Hm. lia. }
      exists m', noop. rewrite firstn_app. rewrite (firstn_all2 q) by lia.
      replace (Z.to_nat (e - p) - len q)%nat with (Z.to_nat (e - (p + Z.of_nat (len q)))) by lia. split.
      * rewrite app_length, Nat2Z.inj_add, Z.add_assoc. reflexivity.
      * apply (overlay_app m p q m1); assumption.
    + destruct (store_n_ok (firstn (Z.to_nat (e - p)) q) m p) as (m1 & -> & O1).
      { rewrite firstn_length. intros x Hx. apply Hm. lia. }
      cbn [bind]. rewrite Z.eqb_refl, run_noop. exists m1, true.
      assert (F1 : firstn (Z.to_nat (e - p)) (q ++ List.concat ps) = firstn (Z.to_nat (e - p)) q).
      { rewrite firstn_app. replace (Z.to_nat (e - p) - len q)%nat with 0%nat by lia. apply app_nil_r. }
      rewrite F1. split; [|exact O1]. rewrite firstn_length. f_equal. f_equal. f_equal. lia.
Qed.

Theorem vsnprintf_ok m buf size ps status : 0 <= size < 2^32 -> mapped m buf (buf + size) ->
  let full := List.concat ps in
  exists m', vsnprintf m buf size ps status = Ok (m', status) /\
    overlay m buf (if size =? 0 then [] else firstn (Z.to_nat (size - 1)) full ++ [0]) m'.
Proof.
  intros Hs Hm full. unfold vsnprintf, on_stream. destruct (size =? 0) eqn:E.
  - rewrite run_noop. cbn [bind sn_mem]. exists m. split; [reflexivity|apply overlay_nil].
  - destruct (run_sn ps m buf (buf + (size - 1))) as (m1 & noop & -> & O); [lia|lia| |].
    { intros x Hx. apply Hm. lia. }
    cbn [bind sn_mem sn_ptr]. replace (buf + (size - 1) - buf) with (size - 1) in * by lia. fold full in O |- *.
    set (out := firstn (Z.to_nat (size - 1)) full) in *.
    assert (Ho : Z.of_nat (len out) < size). { unfold out. rewrite firstn_length. lia. }
    destruct (store_n_ok [0] m1 (buf + Z.of_nat (len out))) as (m2 & S2 & O2).
    { apply (overlay_mapped m buf out m1 _ _ O). intros x Hx. apply Hm. cbn in Hx. lia. }
    cbn [store_n] in S2. destruct (store m1 (buf + Z.of_nat (len out)) 0) as [m3| |] eqn:S3; cbn [bind] in S2; try discriminate.
    injection S2 as ->. cbn [bind]. exists m2. split; [reflexivity|]. apply (overlay_app m buf out m1); assumption.
Qed.

Lemma run_s ps : forall m p, mapped m p (p + Z.of_nat (len (List.concat ps))) ->
  exists m', run s_write (m, p) ps = Ok ((m', p + Z.of_nat (len (List.concat ps))), true) /\ overlay m p (List.concat ps) m'.
Proof.
  induction ps as [|q ps I]; intros m p Hm.
  - exists m. cbn. rewrite Z.add_0_r. split; [reflexivity|apply overlay_nil].
  - cbn [List.concat run]. cbn [List.concat] in Hm. rewrite app_length, Nat2Z.inj_add in *. unfold s_write at 1. cbn [fst snd].
    destruct (store_n_ok q m p) as (m1 & -> & O1).
    { intros x Hx. apply Hm. lia. }
    cbn [bind]. rewrite Z.eqb_refl.
    destruct (I m1 (p + Z.of_nat (len q))) as (m' & -> & O2).
    { apply (overlay_mapped m p q m1); [exact O1|]. intros x Hx. apply Hm. lia. }
    exists m'. rewrite Z.add_assoc. split; [reflexivity|]. apply (overlay_app m p q m1); assumption.
Qed.
Theorem vsprintf_ok m s ps status : let full := List.concat ps in mapped m s (s + Z.of_nat (len full) + 1) ->
  exists m', vsprintf m s ps status = Ok (m', status) /\ overlay m s (full ++ [0]) m'.
Proof.
  intros full Hm. unfold vsprintf, on_stream. destruct (run_s ps m s) as (m1 & -> & O).
  { intros x Hx. apply Hm. fold full in Hx. lia. }
  cbn [bind]. fold full in O |- *.
  destruct (store_n_ok [0] m1 (s + Z.of_nat (len full))) as (m2 & S2 & O2).
  { apply (overlay_mapped m s full m1 _ _ O). intros x Hx. apply Hm. cbn in Hx. lia. }
  cbn [store_n] in S2. destruct (store m1 (s + Z.of_nat (len full)) 0) as [m3| |] eqn:S3; cbn [bind] in S2; try discriminate.
  injection S2 as ->. cbn [bind]. exists m2. split; [reflexivity|]. apply (overlay_app m s full m1); assumption.
Qed.
