From Verif Require Import Base Bits Str_Model Str_Spec Str_Proof Str_Copy_Proof Str_Seq_Proof Str_Tok_Proof Wcs_Model Wcs_Spec.
Open Scope Z_scope.

(** ** words in byte memory *)
Lemma wload_ext m m' a : (forall x, a <= x < a + 4 -> m' x = m x) -> wload m' a = wload m a.
Proof.
  intros H. unfold wload. cbn [load_n]. unfold load. rewrite !H by lia. reflexivity.
Qed.
Lemma wload_mapped m a c : wload m a = Ok c -> mapped m a (a + 4).
Proof.
  unfold wload. cbn [load_n]. unfold load. intros H x Hx E.
  destruct (m a) eqn:E0; [|discriminate]. cbn [bind] in H. destruct (m (a + 1)) eqn:E1; [|discriminate]. cbn [bind] in H.
  destruct (m (a + 1 + 1)) eqn:E2; [|discriminate]. cbn [bind] in H. destruct (m (a + 1 + 1 + 1)) eqn:E3; [|discriminate].
  assert (x = a \/ x = a + 1 \/ x = a + 1 + 1 \/ x = a + 1 + 1 + 1) as [-> |[-> |[-> | ->]]] by lia; congruence.
Qed.
Lemma wload_range m a c : wload m a = Ok c -> is_i32 c.
Proof.
  unfold wload. destruct (load_n 4 m a) as [l| |]; try discriminate. cbn [bind]. intros H.
  assert (E : s32 (le l) = c) by (injection H; trivial). clear H. subst c. pose proof (sgn_range 32 (le l) ltac:(lia)).
  unfold is_i32, INT_MIN, INT_MAX, s32. change (2^(32-1)) with 2147483648 in *. lia.
Qed.
Lemma wload_bound m a c : mem_ok m -> wload m a = Ok c -> 0 <= a /\ a + 4 <= 2^32.
Proof.
  intros Hok H. apply wload_mapped in H. split.
  - destruct (m a) eqn:E; [|exfalso; apply (H a); [lia|exact E]]. apply Hok in E. lia.
  - destruct (m (a + 3)) eqn:E; [|exfalso; apply (H (a + 3)); [lia|exact E]]. apply Hok in E. lia.
Qed.

Lemma wbytes_le c : is_i32 c -> s32 (le (wbytes c)) = c.
Proof.
  intros H. unfold is_i32, INT_MIN, INT_MAX in H. unfold wbytes. cbn [le].
  assert (E : u8 c + 256 * (u8 (c / 2^8) + 256 * (u8 (c / 2^16) + 256 * (u8 (c / 2^24) + 256 * 0))) = c mod 2^32).
  { unfold u8. change (2^8) with 256. change (2^16) with (256 * 256). change (2^24) with (256 * 256 * 256). change (2^32) with (256 * (256 * (256 * 256))).
    rewrite <- !Z.div_div by lia. lia. }
  rewrite E. unfold s32.
  rewrite <- (sgn_id 32 c) at 2 by (change (2^(32-1)) with 2147483648; lia).
  unfold sgn. rewrite Z.mod_mod by lia. reflexivity.
Qed.

Lemma wstore_ok m a c : mapped m a (a + 4) -> exists m', wstore m a c = Ok m' /\
  (forall x, x < a \/ a + 4 <= x -> m' x = m x) /\ (is_i32 c -> wload m' a = Ok c) /\
  (forall x, m' x = None <-> m x = None) /\ (mem_ok m -> mem_ok m').
Proof.
  intros H. unfold wstore, wbytes. cbn [store_n]. unfold store.
  destruct (m a) as [b0|] eqn:E0; [|exfalso; apply (H a); [lia|exact E0]]. cbn [bind].
  destruct (m (a + 1)) as [b1|] eqn:E1; [|exfalso; apply (H (a + 1)); [lia|exact E1]].
  destruct (m (a + 1 + 1)) as [b2|] eqn:E2; [|exfalso; apply (H (a + 1 + 1)); [lia|exact E2]].
  destruct (m (a + 1 + 1 + 1)) as [b3|] eqn:E3; [|exfalso; apply (H (a + 1 + 1 + 1)); [lia|exact E3]].
  assert (U : forall m x b y, upd m x b y = if y =? x then Some b else m y) by reflexivity.
  rewrite (U m a (u8 c) (a + 1)). replace (a + 1 =? a) with false by lia. rewrite E1. cbn [bind].
  rewrite !U. replace (a + 1 + 1 =? a + 1) with false by lia. replace (a + 1 + 1 =? a) with false by lia. rewrite E2. cbn [bind].
  rewrite !U. replace (a + 1 + 1 + 1 =? a + 1 + 1) with false by lia. replace (a + 1 + 1 + 1 =? a + 1) with false by lia.
  replace (a + 1 + 1 + 1 =? a) with false by lia. rewrite E3. cbn [bind].
  eexists. split; [reflexivity|]. split; [|split; [|split]].
  - intros x Hx. rewrite !U. replace (x =? a + 1 + 1 + 1) with false by lia. replace (x =? a + 1 + 1) with false by lia.
    replace (x =? a + 1) with false by lia. replace (x =? a) with false by lia. reflexivity.
  - intros Hc. unfold wload. cbn [load_n]. unfold load. rewrite !U.
    replace (a =? a + 1 + 1 + 1) with false by lia. replace (a =? a + 1 + 1) with false by lia. replace (a =? a + 1) with false by lia. rewrite Z.eqb_refl. cbn [bind].
    replace (a + 1 =? a + 1 + 1 + 1) with false by lia. replace (a + 1 =? a + 1 + 1) with false by lia. rewrite Z.eqb_refl. cbn [bind].
    replace (a + 1 + 1 =? a + 1 + 1 + 1) with false by lia. rewrite Z.eqb_refl. cbn [bind]. rewrite Z.eqb_refl. cbn [bind].
    f_equal. apply (wbytes_le c Hc).
  - intros x. rewrite !U. 
    destruct (Z.eqb_spec x (a + 1 + 1 + 1)) as [-> |]; [rewrite E3; split; discriminate|].
    destruct (Z.eqb_spec x (a + 1 + 1)) as [-> |]; [rewrite E2; split; discriminate|].
    destruct (Z.eqb_spec x (a + 1)) as [-> |]; [rewrite E1; split; discriminate|].
    destruct (Z.eqb_spec x a) as [-> |]; [rewrite E0; split; discriminate|]. reflexivity.
  - intros Hok x b. rewrite !U. assert (B : forall z, 0 <= u8 z < 256) by (intros z; unfold u8; apply Z.mod_pos_bound; lia).
    destruct (Z.eqb_spec x (a + 1 + 1 + 1)) as [-> |]; [intros [= <-]; split; [apply (Hok _ _ E3)|apply B]|].
    destruct (Z.eqb_spec x (a + 1 + 1)) as [-> |]; [intros [= <-]; split; [apply (Hok _ _ E2)|apply B]|].
    destruct (Z.eqb_spec x (a + 1)) as [-> |]; [intros [= <-]; split; [apply (Hok _ _ E1)|apply B]|].
    destruct (Z.eqb_spec x a) as [-> |]; [intros [= <-]; split; [apply (Hok _ _ E0)|apply B]|]. apply Hok.
Qed.

Lemma mapped_keep m m' a b : (forall x, m' x = None <-> m x = None) -> mapped m a b -> mapped m' a b.
Proof. intros E H x Hx K. apply (H x Hx). apply E. exact K. Qed.
Lemma mapped_sub m a b a' b' : mapped m a b -> a <= a' -> b' <= b -> mapped m a' b'.
Proof. intros H A B x Hx. apply H. lia. Qed.

(** ** sequences *)
Lemma wcontents_nil m a : wcontents m a [].
Proof. intros i Hi. cbn in Hi. lia. Qed.
Lemma wcontents_cons m a c l : wcontents m a (c :: l) <-> wload m a = Ok c /\ wcontents m (a + 4) l.
Proof.
  split.
  - intros H. split; [specialize (H 0%nat ltac:(cbn; lia)); rewrite Z.add_0_r in H; exact H|].
    intros i Hi. specialize (H (S i) ltac:(cbn; lia)). cbn [nth] in H. rewrite <- H. f_equal. lia.
  - intros [H0 H] [|i] Hi; [rewrite Z.add_0_r; exact H0|]. cbn [nth]. rewrite <- H by (cbn in Hi; lia). f_equal. lia.
Qed.
Lemma wcontents_app m a l r : wcontents m a (l ++ r) <-> wcontents m a l /\ wcontents m (a + 4 * Z.of_nat (length l)) r.
Proof.
  revert a; induction l as [|b l IH]; intros a; cbn [app length].
  - rewrite Z.add_0_r. split; [intros H; split; [apply wcontents_nil|exact H]|intros [_ H]; exact H].
  - rewrite !wcontents_cons, IH. replace (a + 4 + 4 * Z.of_nat (length l)) with (a + 4 * Z.of_nat (S (length l))) by lia. tauto.
Qed.
Lemma wcontents_ext m m' a l : wcontents m a l -> (forall x, a <= x < a + 4 * Z.of_nat (length l) -> m' x = m x) -> wcontents m' a l.
Proof. intros H E i Hi. rewrite (wload_ext m m'); [apply H; exact Hi|]. intros x Hx. apply E. lia. Qed.
Lemma wcontents_range m a l : wcontents m a l -> Forall (fun c => is_i32 c) l.
Proof.
  revert a; induction l as [|c l IH]; intros a H; constructor; apply wcontents_cons in H as [H0 H]; [apply (wload_range _ _ _ H0)|apply (IH _ H)].
Qed.
Lemma wstr_cons m a c l : wstr m a (c :: l) -> wload m a = Ok c /\ c <> 0 /\ wstr m (a + 4) l.
Proof. intros [H F]. cbn [app] in H. apply wcontents_cons in H as [H0 H]. inversion F; subst. repeat split; assumption. Qed.
Lemma wstr_nil m a : wstr m a [] -> wload m a = Ok 0.
Proof. intros [H _]. apply wcontents_cons in H as [H _]. exact H. Qed.
Lemma wstr_app m a l r : wstr m a (l ++ r) -> wstr m (a + 4 * Z.of_nat (length l)) r.
Proof. intros [H F]. rewrite <- app_assoc in H. apply wcontents_app in H as [_ H]. apply Forall_app in F as [_ F]. split; assumption. Qed.
Lemma wstr_ext m m' a l : wstr m a l -> (forall x, a <= x < a + 4 * (Z.of_nat (length l) + 1) -> m' x = m x) -> wstr m' a l.
Proof. intros [H F] E. split; [|exact F]. apply (wcontents_ext m); [exact H|]. intros x Hx. apply E. rewrite app_length in Hx. cbn [length] in Hx. lia. Qed.
Lemma wcontents_len m a l : mem_ok m -> wcontents m a l -> l <> [] -> 0 <= a /\ a + 4 * Z.of_nat (length l) <= 2^32.
Proof.
  intros Hok. revert a; induction l as [|c l IH]; intros a H N; [congruence|]. apply wcontents_cons in H as [H0 H].
  apply wload_bound in H0; [|exact Hok]. cbn [length]. destruct l as [|c' l]; [cbn; lia|]. specialize (IH (a + 4) H ltac:(discriminate)). lia.
Qed.
Lemma wstr_bound m a l : mem_ok m -> wstr m a l -> 0 <= a /\ a + 4 * (Z.of_nat (length l) + 1) <= 2^32.
Proof.
  intros Hok [H _]. apply wcontents_len in H; [|exact Hok|destruct l; discriminate]. rewrite app_length in H. cbn [length] in H. lia.
Qed.
Lemma u32_pred n : 0 < n < 2^32 -> u32 (n - 1) = n - 1.
Proof. intros H. apply Z.mod_small. lia. Qed.

(** ** reading *)
Lemma wcs_end_ok m : forall l a fuel, wstr m a l -> (length l < fuel)%nat -> wcs_end fuel m a = Ok (a + 4 * Z.of_nat (length l)).
Proof.
  induction l as [|c l IH]; intros a fuel H Hf; (destruct fuel as [|fuel]; [lia|]); cbn [wcs_end length].
  - rewrite (wstr_nil _ _ H). cbn [bind Z.eqb]. f_equal. lia.
  - apply wstr_cons in H as (H0 & Hc & H). rewrite H0. cbn [bind]. replace (c =? 0) with false by lia.
    rewrite IH; [f_equal; lia|exact H|cbn in Hf; lia].
Qed.
Theorem wcslen_ok fuel m a l : mem_ok m -> wstr m a l -> (length l < fuel)%nat -> wcslen fuel m a = Ok (Z.of_nat (length l)).
Proof.
  intros Hok H Hf. unfold wcslen. rewrite (wcs_end_ok m l a fuel H Hf). cbn [bind]. pose proof (wstr_bound m a l Hok H).
  replace (a + 4 * Z.of_nat (length l) - a) with (Z.of_nat (length l) * 4) by lia. rewrite Z.div_mul by lia. f_equal. apply Z.mod_small. lia.
Qed.


Lemma order_cons a l b r : order (a :: l) (b :: r) = if a =? b then order l r else if a <? b then -1 else 1.
Proof.
  unfold order. cbn [lex]. destruct (Z.compare_spec a b) as [-> |H|H].
  - rewrite Z.eqb_refl. reflexivity.
  - replace (a =? b) with false by lia. replace (a <? b) with true by lia. reflexivity.
  - replace (a =? b) with false by lia. replace (a <? b) with false by lia. reflexivity.
Qed.
Lemma order_refl l : order l l = 0.
Proof. induction l as [|a l IH]; [reflexivity|]. rewrite order_cons, Z.eqb_refl. exact IH. Qed.

Theorem wcscmp_ok m : forall l r x y fuel, wstr m x l -> wstr m y r -> (length l < fuel)%nat -> wcscmp fuel m x y = Ok (strorder l r).
Proof.
  unfold strorder. induction l as [|a l IH]; intros r x y fuel Hx Hy Hf; (destruct fuel as [|fuel]; [lia|]); cbn [wcscmp].
  - rewrite (wstr_nil _ _ Hx). cbn [bind]. destruct r as [|b r].
    + rewrite (wstr_nil _ _ Hy). reflexivity.
    + apply wstr_cons in Hy as (H0 & Hb & _). rewrite H0. cbn [bind app]. rewrite order_cons. replace (0 =? b) with false by lia. reflexivity.
  - apply wstr_cons in Hx as (H0 & Ha & Hx). rewrite H0. cbn [bind]. destruct r as [|b r].
    + rewrite (wstr_nil _ _ Hy). cbn [bind app]. rewrite order_cons. replace (a =? 0) with false by lia. reflexivity.
    + apply wstr_cons in Hy as (H1 & Hb & Hy). rewrite H1. cbn [bind app]. rewrite order_cons. destruct (Z.eqb_spec a b) as [-> |N].
      * replace (b =? 0) with false by lia. cbn [negb andb]. apply IH; [assumption|assumption|cbn in Hf; lia].
      * reflexivity.
Qed.

Lemma wtext_nil m a n : wtext m a n [] -> n = 0 \/ 0 < n /\ wload m a = Ok 0.
Proof. intros [_ [[H _]|[H C]]]; cbn in H; [left; lia|right; split; [lia|]]. apply wcontents_cons in C. apply C. Qed.
Lemma wtext_cons m a n c l : wtext m a n (c :: l) -> 0 < n /\ wload m a = Ok c /\ c <> 0 /\ wtext m (a + 4) (n - 1) l.
Proof.
  intros [F H]. inversion F as [|? ? Fc Fl]; subst.
  destruct H as [[H C]|[H C]]; cbn [length] in H; cbn [app] in C; apply wcontents_cons in C as [C0 C].
  - split; [lia|]. split; [exact C0|]. split; [exact Fc|]. split; [exact Fl|]. left. split; [lia|exact C].
  - split; [lia|]. split; [exact C0|]. split; [exact Fc|]. split; [exact Fl|]. right. split; [lia|exact C].
Qed.
Lemma wtext_len m a n l : wtext m a n l -> Z.of_nat (length l) <= n.
Proof. intros [_ [[H _]|[H _]]]; lia. Qed.
Theorem wcsncmp_ok m : forall l r x y n fuel, wtext m x n l -> wtext m y n r -> n < 2^32 -> (length l < fuel)%nat -> wcsncmp fuel m x y n = Ok (strorder l r).
Proof.
  unfold strorder. induction l as [|a l IH]; intros r x y n fuel Hx Hy Hn Hf; (destruct fuel as [|fuel]; [lia|]); cbn [wcsncmp].
  - destruct (wtext_nil _ _ _ Hx) as [-> |[P H0]].
    + apply wtext_len in Hy. destruct r; [|cbn [length] in Hy; lia]. reflexivity.
    + replace (n =? 0) with false by lia. rewrite H0. cbn [bind]. destruct r as [|b r].
      * destruct (wtext_nil _ _ _ Hy) as [E|[_ H1]]; [lia|]. rewrite H1. reflexivity.
      * apply wtext_cons in Hy as (_ & H1 & Hb & _). rewrite H1. cbn [bind app]. rewrite order_cons. replace (0 =? b) with false by lia. reflexivity.
  - apply wtext_cons in Hx as (P & H0 & Ha & Hx). replace (n =? 0) with false by lia. rewrite H0. cbn [bind]. destruct r as [|b r].
    + destruct (wtext_nil _ _ _ Hy) as [E|[_ H1]]; [lia|]. rewrite H1. cbn [bind app]. rewrite order_cons. replace (a =? 0) with false by lia. reflexivity.
    + apply wtext_cons in Hy as (_ & H1 & Hb & Hy). rewrite H1. cbn [bind app]. rewrite order_cons. destruct (Z.eqb_spec a b) as [-> |N]; [|reflexivity].
      cbn [negb]. replace (b =? 0) with false by lia. rewrite u32_pred by lia. apply IH; try assumption; [lia|cbn in Hf; lia].
Qed.
Theorem wmemcmp_ok m : forall l r x y fuel, wcontents m x l -> wcontents m y r -> length r = length l -> Z.of_nat (length l) < 2^32 -> (length l < fuel)%nat ->
  wmemcmp fuel m x y (Z.of_nat (length l)) = Ok (order l r).
Proof.
  induction l as [|a l IH]; intros r x y fuel Hx Hy EL Hn Hf; (destruct fuel as [|fuel]; [lia|]); (destruct r as [|b r]; try discriminate); cbn [wmemcmp].
  - reflexivity.
  - cbn [length] in *. replace (Z.of_nat (S (length l)) =? 0) with false by lia.
    apply wcontents_cons in Hx as (H0 & Hx). apply wcontents_cons in Hy as (H1 & Hy). rewrite H0, H1. cbn [bind]. rewrite order_cons.
    destruct (Z.eqb_spec a b) as [-> |N]; [|reflexivity]. cbn [negb]. rewrite u32_pred by lia.
    replace (Z.of_nat (S (length l)) - 1) with (Z.of_nat (length l)) by lia. apply IH; try assumption; lia.
Qed.

Lemma option_shift a o : option_map (fun i => a + 4 * i) (option_map (Z.add 1) o) = option_map (fun i => a + 4 + 4 * i) o.
Proof. destruct o as [i|]; [|reflexivity]. cbn [option_map]. f_equal. lia. Qed.
Theorem wcschr_ok m c : forall l a fuel, wstr m a l -> (length l < fuel)%nat ->
  wcschr fuel m a c = Ok (option_map (fun i => a + 4 * i) (first_index (Z.eqb c) (l ++ [0]))).
Proof.
  induction l as [|b l IH]; intros a fuel H Hf; (destruct fuel as [|fuel]; [lia|]); cbn [wcschr app first_index].
  - rewrite (wstr_nil _ _ H). cbn [bind Z.eqb]. destruct (c =? 0); cbn; [do 2 f_equal; lia|reflexivity].
  - apply wstr_cons in H as (H0 & Hb & H). rewrite H0. cbn [bind]. replace (b =? 0) with false by lia. rewrite (Z.eqb_sym c b).
    destruct (b =? c); [cbn; do 2 f_equal; lia|]. rewrite option_shift. apply IH; [exact H|cbn in Hf; lia].
Qed.
Lemma wcsrchr_loop_ok m c : forall l a fuel found, wstr m a l -> (length l < fuel)%nat ->
  wcsrchr_loop fuel m a c found = Ok (match last_index (Z.eqb c) (l ++ [0]) with Some i => Some (a + 4 * i) | None => found end).
Proof.
  induction l as [|b l IH]; intros a fuel found H Hf; (destruct fuel as [|fuel]; [lia|]); cbn [wcsrchr_loop app last_index].
  - rewrite (wstr_nil _ _ H). cbn [bind Z.eqb]. destruct (c =? 0); cbn; [do 2 f_equal; lia|reflexivity].
  - apply wstr_cons in H as (H0 & Hb & H). rewrite H0. cbn [bind]. replace (b =? 0) with false by lia. rewrite (Z.eqb_sym c b).
    rewrite IH; [|exact H|cbn in Hf; lia]. destruct (last_index (Z.eqb c) (l ++ [0])) as [i|]; [do 2 f_equal; lia|]. destruct (b =? c); [do 2 f_equal; lia|reflexivity].
Qed.
Theorem wcsrchr_ok m c l a fuel : wstr m a l -> (length l < fuel)%nat ->
  wcsrchr fuel m a c = Ok (option_map (fun i => a + 4 * i) (last_index (Z.eqb c) (l ++ [0]))).
Proof. intros H Hf. unfold wcsrchr. rewrite (wcsrchr_loop_ok m c l a fuel None H Hf). destruct (last_index _ _); reflexivity. Qed.
Theorem wmemchr_ok m c : forall l a fuel, wcontents m a l -> Z.of_nat (length l) < 2^32 -> (length l < fuel)%nat ->
  wmemchr fuel m a c (Z.of_nat (length l)) = Ok (option_map (fun i => a + 4 * i) (first_index (Z.eqb c) l)).
Proof.
  induction l as [|b l IH]; intros a fuel H Hn Hf; (destruct fuel as [|fuel]; [lia|]); cbn [wmemchr first_index].
  - reflexivity.
  - cbn [length] in *. replace (Z.of_nat (S (length l)) =? 0) with false by lia. apply wcontents_cons in H as (H0 & H). rewrite H0. cbn [bind].
    rewrite (Z.eqb_sym c b). destruct (b =? c); [cbn; do 2 f_equal; lia|]. rewrite option_shift.
    rewrite u32_pred by lia. replace (Z.of_nat (S (length l)) - 1) with (Z.of_nat (length l)) by lia. apply IH; [exact H|lia|lia].
Qed.

(** wcschr as a membership test *)
Lemma first_index_None P l : first_index P l = None <-> forall x, In x l -> P x = false.
Proof.
  induction l as [|b l IH]; cbn [first_index]; [split; [intros _ x []|reflexivity]|].
  destruct (P b) eqn:E; [split; [discriminate|intros H; rewrite (H b) in E by (left; reflexivity); discriminate]|].
  destruct (first_index P l); cbn [option_map]; split; try discriminate; try reflexivity.
  - intros H. exfalso. assert (K : Some z = None); [|discriminate]. apply IH. intros x Hx. apply H. right. exact Hx.
  - intros _ x [<-|Hx]; [exact E|]. apply (proj1 IH eq_refl x Hx).
Qed.
Lemma wcschr_elem m c set a fuel : wstr m a set -> (length set < fuel)%nat -> c <> 0 ->
  exists r, wcschr fuel m a c = Ok r /\ match r with Some _ => elem set c = true | None => elem set c = false end.
Proof.
  intros H Hf Hc. rewrite (wcschr_ok m c set a fuel H Hf). eexists. split; [reflexivity|].
  destruct (first_index (Z.eqb c) (set ++ [0])) eqn:E; cbn [option_map].
  - destruct (elem set c) eqn:K; [reflexivity|]. exfalso. assert (F : first_index (Z.eqb c) (set ++ [0]) = None); [|congruence].
    apply first_index_None. intros x Hx. apply in_app_or in Hx as [Hx|[<-|[]]]; [|lia].
    destruct (Z.eqb_spec c x) as [<-|]; [|reflexivity]. apply elem_In in Hx. congruence.
  - destruct (elem set c) eqn:K; [|reflexivity]. exfalso. apply elem_In in K. pose proof (proj1 (first_index_None _ _) E c (in_or_app _ _ _ (or_introl K))) as F.
    rewrite Z.eqb_refl in F. discriminate.
Qed.

Lemma wcsspn_loop_ok fuel m acc a : wstr m a acc -> (length acc < fuel)%nat -> forall str s0 count k,
  0 <= count -> count + Z.of_nat (length str) < 2^32 -> wstr m (s0 + 4 * count) str -> (length str < k)%nat ->
  wcsspn_loop fuel k m s0 a count = Ok (count + prefix_len (elem acc) str).
Proof.
  intros Ha Hf. induction str as [|b str IH]; intros s0 count k Hc Hl Hs Hk; (destruct k as [|k]; [lia|]); cbn [wcsspn_loop prefix_len].
  - rewrite (wstr_nil _ _ Hs). cbn [bind Z.eqb]. f_equal. lia.
  - apply wstr_cons in Hs as (H0 & Hb & Hs). rewrite H0. cbn [bind]. replace (b =? 0) with false by lia.
    destruct (wcschr_elem m b acc a fuel Ha Hf Hb) as (r & -> & E). cbn [bind]. destruct r as [p|]; rewrite E.
    + cbn [length] in *. unfold u32. rewrite Z.mod_small by lia.
      rewrite IH; [f_equal; lia|lia|lia| |lia]. replace (s0 + 4 * (count + 1)) with (s0 + 4 * count + 4) by lia. exact Hs.
    + f_equal. lia.
Qed.
Theorem wcsspn_ok fuel m s str a acc : mem_ok m -> wstr m s str -> wstr m a acc ->
  (length acc < fuel)%nat -> (length str < fuel)%nat -> wcsspn fuel m s a = Ok (prefix_len (elem acc) str).
Proof.
  intros Hok Hs Ha Hf1 Hf2. unfold wcsspn. pose proof (wstr_bound m s _ Hok Hs).
  rewrite (wcsspn_loop_ok fuel m acc a Ha Hf1 str s 0); try lia; [reflexivity|rewrite Z.mul_0_r, Z.add_0_r; exact Hs].
Qed.
Lemma wcscspn_loop_ok fuel m acc a : wstr m a acc -> (length acc < fuel)%nat -> forall str s0 count k,
  0 <= count -> count + Z.of_nat (length str) < 2^32 -> wstr m (s0 + 4 * count) str -> (length str < k)%nat ->
  wcscspn_loop fuel k m s0 a count = Ok (count + prefix_len (fun b => negb (elem acc b)) str).
Proof.
  intros Ha Hf. induction str as [|b str IH]; intros s0 count k Hc Hl Hs Hk; (destruct k as [|k]; [lia|]); cbn [wcscspn_loop prefix_len].
  - rewrite (wstr_nil _ _ Hs). cbn [bind Z.eqb]. f_equal. lia.
  - apply wstr_cons in Hs as (H0 & Hb & Hs). rewrite H0. cbn [bind]. replace (b =? 0) with false by lia.
    destruct (wcschr_elem m b acc a fuel Ha Hf Hb) as (r & -> & E). cbn [bind]. destruct r as [p|]; rewrite E; cbn [negb].
    + f_equal. lia.
    + cbn [length] in *. unfold u32. rewrite Z.mod_small by lia.
      rewrite IH; [f_equal; lia|lia|lia| |lia]. replace (s0 + 4 * (count + 1)) with (s0 + 4 * count + 4) by lia. exact Hs.
Qed.
Theorem wcscspn_ok fuel m s str a acc : mem_ok m -> wstr m s str -> wstr m a acc ->
  (length acc < fuel)%nat -> (length str < fuel)%nat -> wcscspn fuel m s a = Ok (prefix_len (fun b => negb (elem acc b)) str).
Proof.
  intros Hok Hs Ha Hf1 Hf2. unfold wcscspn. pose proof (wstr_bound m s _ Hok Hs).
  rewrite (wcscspn_loop_ok fuel m acc a Ha Hf1 str s 0); try lia; [reflexivity|rewrite Z.mul_0_r, Z.add_0_r; exact Hs].
Qed.
Lemma wcspbrk_loop_ok fuel m acc a : wstr m a acc -> (length acc < fuel)%nat -> forall str s k, wstr m s str -> (length str < k)%nat ->
  wcspbrk_loop fuel k m s a = Ok (option_map (fun i => s + 4 * i) (first_index (elem acc) str)).
Proof.
  intros Ha Hf. induction str as [|b str IH]; intros s k Hs Hk; (destruct k as [|k]; [lia|]); cbn [wcspbrk_loop first_index].
  - rewrite (wstr_nil _ _ Hs). reflexivity.
  - apply wstr_cons in Hs as (H0 & Hb & Hs). rewrite H0. cbn [bind]. replace (b =? 0) with false by lia.
    destruct (wcschr_elem m b acc a fuel Ha Hf Hb) as (r & -> & E). cbn [bind]. destruct r as [p|]; rewrite E.
    + cbn. do 2 f_equal. lia.
    + rewrite option_shift. apply IH; [exact Hs|cbn in Hk; lia].
Qed.
Theorem wcspbrk_ok fuel m s str a acc : wstr m s str -> wstr m a acc -> (length acc < fuel)%nat -> (length str < fuel)%nat ->
  wcspbrk fuel m s a = Ok (option_map (fun i => s + 4 * i) (first_index (elem acc) str)).
Proof. intros Hs Ha Hf1 Hf2. apply wcspbrk_loop_ok; assumption. Qed.

(** ** wcsstr *)
Lemma wcsstr_at_ok m : forall nd hs h n fuel, wstr m h hs -> wstr m n nd -> (length nd < fuel)%nat ->
  exists b, wcsstr_at fuel m h n = Ok b /\ (b = true <-> exists post, hs = nd ++ post).
Proof.
  induction nd as [|c nd IH]; intros hs h n fuel Hh Hn Hf; (destruct fuel as [|fuel]; [lia|]); cbn [wcsstr_at].
  - rewrite (wstr_nil _ _ Hn). destruct hs as [|a hs].
    + rewrite (wstr_nil _ _ Hh). cbn. exists true. split; [reflexivity|]. split; [|reflexivity]. intros _. exists []. reflexivity.
    + apply wstr_cons in Hh as (H0 & _). rewrite H0. cbn [bind Z.eqb negb]. rewrite Bool.andb_false_r. cbn [andb].
      exists true. split; [reflexivity|]. split; [|reflexivity]. intros _. exists (a :: hs). reflexivity.
  - apply wstr_cons in Hn as (H1 & Hc & Hn). rewrite H1. destruct hs as [|a hs].
    + rewrite (wstr_nil _ _ Hh). cbn [bind Z.eqb negb andb]. exists (c =? 0). split; [reflexivity|].
      replace (c =? 0) with false by lia. split; [discriminate|]. intros [post E]. discriminate.
    + apply wstr_cons in Hh as (H0 & Ha & Hh). rewrite H0. cbn [bind]. replace (a =? 0) with false by lia. replace (c =? 0) with false by lia. cbn [negb andb].
      destruct (Z.eqb_spec a c) as [-> |N].
      * destruct (IH hs (h + 4) (n + 4) fuel Hh Hn ltac:(cbn in Hf; lia)) as (b & E & Hb). exists b. split; [exact E|]. rewrite Hb.
        split; intros [post P]; exists post; [rewrite P; reflexivity|injection P; trivial].
      * exists false. split; [reflexivity|]. split; [discriminate|]. intros [post P]. injection P as P _. congruence.
Qed.
Lemma wcsstr_loop_ok fuel m nd n : wstr m n nd -> (length nd < fuel)%nat -> nd <> [] -> forall hs h k, wstr m h hs -> (length hs < k)%nat ->
  exists r, wcsstr_loop fuel k m h n = Ok r /\
    match r with
    | Some p => exists j, p = h + 4 * Z.of_nat j /\ occurs hs nd j /\ forall i, (i < j)%nat -> ~ occurs hs nd i
    | None => forall j, ~ occurs hs nd j
    end.
Proof.
  intros Hn Hf N. induction hs as [|a hs IH]; intros h k Hh Hk; (destruct k as [|k]; [lia|]); cbn [wcsstr_loop].
  - rewrite (wstr_nil _ _ Hh). cbn [bind Z.eqb]. exists None. split; [reflexivity|]. intros j (pre & post & E & _).
    destruct pre; [|discriminate]. destruct nd; [congruence|discriminate].
  - destruct (wstr_cons _ _ _ _ Hh) as (H0 & Ha & Hh'). rewrite H0. cbn [bind]. replace (a =? 0) with false by lia.
    destruct (wcsstr_at_ok m nd (a :: hs) h n fuel Hh Hn Hf) as (b & -> & Hb). cbn [bind]. destruct b.
    + exists (Some h). split; [reflexivity|]. exists 0%nat. split; [lia|]. split; [|intros i Hi; lia].
      destruct (proj1 Hb eq_refl) as [post E]. exists [], post. split; [exact E|reflexivity].
    + assert (N0 : ~ occurs (a :: hs) nd 0).
      { intros (pre & post & E & L). destruct pre; [|discriminate]. assert (false = true); [|discriminate]. apply Hb. exists post. exact E. }
      assert (SH : forall i, occurs (a :: hs) nd (S i) <-> occurs hs nd i).
      { intros i. split.
        - intros (pre & post & E & L). destruct pre as [|b pre]; [discriminate|]. injection E as -> E. exists pre, post. split; [exact E|cbn in L; lia].
        - intros (pre & post & E & L). exists (a :: pre), post. split; [rewrite E; reflexivity|cbn; lia]. }
      destruct (IH (h + 4) k Hh' ltac:(cbn in Hk; lia)) as (r & E & Hr). exists r. split; [exact E|]. destruct r as [p|].
      * destruct Hr as (j & Ej & O & F). exists (S j). split; [lia|]. split; [apply SH; exact O|].
        intros [|i] Hi; [exact N0|]. rewrite SH. apply F. lia.
      * intros [|j]; [exact N0|]. rewrite SH. apply Hr.
Qed.
Theorem wcsstr_ok fuel m hs h nd n : wstr m h hs -> wstr m n nd -> (length nd < fuel)%nat -> (length hs < fuel)%nat ->
  exists r, wcsstr fuel m h n = Ok r /\
    match r with
    | Some p => exists j, p = h + 4 * Z.of_nat j /\ occurs hs nd j /\ forall i, (i < j)%nat -> ~ occurs hs nd i
    | None => forall j, ~ occurs hs nd j
    end.
Proof.
  intros Hh Hn Hf1 Hf2. unfold wcsstr. destruct nd as [|c nd].
  - rewrite (wstr_nil _ _ Hn). cbn [bind Z.eqb]. exists (Some h). split; [reflexivity|]. exists 0%nat. split; [lia|]. split; [|intros i Hi; lia].
    exists [], hs. split; reflexivity.
  - destruct (wstr_cons _ _ _ _ Hn) as (H0 & Hc & _). rewrite H0. cbn [bind]. replace (c =? 0) with false by lia.
    apply wcsstr_loop_ok; try assumption. discriminate.
Qed.

(** ** writing *)
Definition same_domain (m m' : mem) : Prop := forall x, m' x = None <-> m x = None.
Lemma wwritten_nil m d : wwritten m m d [].
Proof. split; [apply wcontents_nil|reflexivity]. Qed.
Lemma wwritten_cons m m1 m' d c l : wload m1 d = Ok c -> (forall x, x < d \/ d + 4 <= x -> m1 x = m x) ->
  wwritten m1 m' (d + 4) l -> wwritten m m' d (c :: l).
Proof.
  intros H0 H1 [H2 H3]. split.
  - apply wcontents_cons. split; [|exact H2]. rewrite (wload_ext m1); [exact H0|]. intros x Hx. apply H3. lia.
  - intros x Hx. cbn [length] in Hx. rewrite H3 by lia. apply H1. lia.
Qed.
Lemma wwritten_app m m1 m' d l r : wwritten m m1 d l -> wwritten m1 m' (d + 4 * Z.of_nat (length l)) r -> wwritten m m' d (l ++ r).
Proof.
  intros [A B] [C D]. split.
  - apply wcontents_app. split; [|exact C]. apply (wcontents_ext m1); [exact A|]. intros x Hx. apply D. lia.
  - intros x Hx. rewrite app_length in Hx. rewrite D by lia. apply B. lia.
Qed.

Lemma wcscpy_loop_ok : forall l m d s fuel, wstr m s l -> wroom m d (Z.of_nat (length l) + 1) ->
  wapart d (Z.of_nat (length l) + 1) s (Z.of_nat (length l) + 1) -> (length l < fuel)%nat ->
  exists m', wcscpy_loop fuel m d s = Ok m' /\ wwritten m m' d (l ++ [0]).
Proof.
  induction l as [|c l IH]; intros m d s fuel Hs Hr Ha Hf; (destruct fuel as [|fuel]; [lia|]); cbn [wcscpy_loop app].
  - rewrite (wstr_nil _ _ Hs). cbn [bind Z.eqb]. destruct (wstore_ok m d 0) as (m1 & -> & A & B & _).
    { apply (mapped_sub _ _ _ _ _ Hr); cbn; lia. }
    cbn [bind]. exists m1. split; [reflexivity|]. apply (wwritten_cons m m1 m1); [apply B; unfold is_i32, INT_MIN, INT_MAX; lia|exact A|apply wwritten_nil].
  - cbn [length] in *. destruct (wstr_cons _ _ _ _ Hs) as (H0 & Hc & Hs'). rewrite H0. cbn [bind].
    destruct (wstore_ok m d c) as (m1 & -> & A & B & C & _).
    { apply (mapped_sub _ _ _ _ _ Hr); lia. }
    cbn [bind]. replace (c =? 0) with false by lia.
    destruct (IH m1 (d + 4) (s + 4) fuel) as (m' & E & W).
    + apply (wstr_ext m); [exact Hs'|]. intros x Hx. apply A. unfold wapart in Ha. lia.
    + apply (mapped_keep m); [exact C|]. apply (mapped_sub _ _ _ _ _ Hr); lia.
    + unfold wapart in *. lia.
    + lia.
    + exists m'. split; [exact E|]. apply (wwritten_cons m m1); [apply B, (wload_range _ _ _ H0)|exact A|exact W].
Qed.
Theorem wcscpy_ok fuel l m d s : wstr m s l -> wroom m d (Z.of_nat (length l) + 1) ->
  wapart d (Z.of_nat (length l) + 1) s (Z.of_nat (length l) + 1) -> (length l < fuel)%nat ->
  exists m', wcscpy fuel m d s = Ok (m', d) /\ wwritten m m' d (l ++ [0]).
Proof. intros H1 H2 H3 H4. unfold wcscpy. destruct (wcscpy_loop_ok l m d s fuel H1 H2 H3 H4) as (m' & -> & W). exists m'. split; [reflexivity|exact W]. Qed.
Theorem wcscat_ok fuel l r m d s : mem_ok m -> wstr m d l -> wstr m s r -> let n := Z.of_nat (length l) in let k := Z.of_nat (length r) in
  wroom m (d + 4 * n) (k + 1) -> wapart (d + 4 * n) (k + 1) s (k + 1) -> (length l < fuel)%nat -> (length r < fuel)%nat ->
  exists m', wcscat fuel m d s = Ok (m', d) /\ wwritten m m' (d + 4 * n) (r ++ [0]).
Proof.
  intros Hok Hd Hs n k Hr Ha Hf1 Hf2. unfold wcscat. rewrite (wcslen_ok fuel m d l Hok Hd Hf1). cbn [bind].
  destruct (wcscpy_ok fuel r m (d + 4 * n) s Hs Hr Ha Hf2) as (m' & E & W). fold n. rewrite E. cbn [bind]. exists m'. split; [reflexivity|exact W].
Qed.

Lemma wtext_ext m m' a n l : wtext m a n l -> (forall x, a <= x < a + 4 * Z.min n (Z.of_nat (length l) + 1) -> m' x = m x) -> wtext m' a n l.
Proof.
  intros [F [[H C]|[H C]]] E; (split; [exact F|]); [left|right]; (split; [exact H|]); apply (wcontents_ext m); try exact C;
    intros x Hx; apply E; rewrite ?app_length in Hx; cbn [length] in Hx; lia.
Qed.
Lemma wcsn_loop_ok : forall l m d s n fuel, wtext m s n l -> n < 2^32 -> wroom m d (Z.of_nat (length l)) ->
  wapart d (Z.of_nat (length l)) s (Z.min n (Z.of_nat (length l) + 1)) -> (length l < fuel)%nat ->
  exists m', wcsn_loop fuel m d s n = Ok (m', d + 4 * Z.of_nat (length l), n - Z.of_nat (length l)) /\ wwritten m m' d l /\ same_domain m m'.
Proof.
  induction l as [|c l IH]; intros m d s n fuel Hs Hn Hr Ha Hf; (destruct fuel as [|fuel]; [lia|]); cbn [wcsn_loop].
  - exists m. split; [|split; [apply wwritten_nil|intros x; reflexivity]]. destruct (wtext_nil _ _ _ Hs) as [-> |[P H0]].
    + cbn. do 2 f_equal. f_equal. lia.
    + replace (n =? 0) with false by lia. rewrite H0. cbn [bind Z.eqb length]. rewrite Z.sub_0_r, Z.add_0_r. reflexivity.
  - destruct (wtext_cons _ _ _ _ _ Hs) as (P & H0 & Hc & Hs'). cbn [length] in *. replace (n =? 0) with false by lia. rewrite H0. cbn [bind].
    replace (c =? 0) with false by lia. destruct (wstore_ok m d c) as (m1 & -> & A & B & C & _).
    { apply (mapped_sub _ _ _ _ _ Hr); lia. }
    cbn [bind]. pose proof (wtext_len _ _ _ _ Hs'). rewrite u32_pred by lia.
    destruct (IH m1 (d + 4) (s + 4) (n - 1) fuel) as (m' & E & W & D).
    + apply (wtext_ext m); [exact Hs'|]. intros x Hx. apply A. unfold wapart in Ha. lia.
    + lia.
    + apply (mapped_keep m); [exact C|]. apply (mapped_sub _ _ _ _ _ Hr); lia.
    + unfold wapart in *. lia.
    + lia.
    + exists m'. split; [rewrite E; do 2 f_equal; [f_equal|]; lia|]. split; [apply (wwritten_cons m m1); [apply B, (wload_range _ _ _ H0)|exact A|exact W]|].
      intros x. rewrite (D x). apply C.
Qed.
Lemma wfill_loop_ok c : is_i32 c -> forall n m d fuel, wroom m d (Z.of_nat n) -> Z.of_nat n < 2^32 -> (n < fuel)%nat ->
  exists m', wfill_loop fuel m d c (Z.of_nat n) = Ok m' /\ wwritten m m' d (repeat c n).
Proof.
  intros Hc. induction n as [|n IH]; intros m d fuel Hr Hn Hf; (destruct fuel as [|fuel]; [lia|]); cbn [wfill_loop repeat].
  - exists m. split; [reflexivity|apply wwritten_nil].
  - replace (Z.of_nat (S n) =? 0) with false by lia. destruct (wstore_ok m d c) as (m1 & -> & A & B & C & _).
    { apply (mapped_sub _ _ _ _ _ Hr); lia. }
    cbn [bind]. rewrite u32_pred by lia. replace (Z.of_nat (S n) - 1) with (Z.of_nat n) by lia.
    destruct (IH m1 (d + 4) fuel) as (m' & E & W).
    + apply (mapped_keep m); [exact C|]. apply (mapped_sub _ _ _ _ _ Hr); lia.
    + lia.
    + lia.
    + exists m'. split; [exact E|]. apply (wwritten_cons m m1); [apply B, Hc|exact A|exact W].
Qed.
Theorem wcsncpy_ok fuel l m d s n : wtext m s n l -> n < 2^32 -> wroom m d n ->
  wapart d n s (Z.min n (Z.of_nat (length l) + 1)) -> (Z.to_nat n < fuel)%nat ->
  exists m', wcsncpy fuel m d s n = Ok (m', d) /\ wwritten m m' d (l ++ repeat 0 (Z.to_nat n - length l)).
Proof.
  intros Hs Hn Hr Ha Hf. pose proof (wtext_len _ _ _ _ Hs) as L. unfold wcsncpy.
  destruct (wcsn_loop_ok l m d s n fuel Hs Hn) as (m1 & -> & W & D); [apply (mapped_sub _ _ _ _ _ Hr); lia|unfold wapart in *; lia|lia|].
  cbn [bind]. replace (n - Z.of_nat (length l)) with (Z.of_nat (Z.to_nat n - length l)) by lia.
  destruct (wfill_loop_ok 0 ltac:(unfold is_i32, INT_MIN, INT_MAX; lia) (Z.to_nat n - length l) m1 (d + 4 * Z.of_nat (length l)) fuel) as (m' & -> & W2).
  - apply (mapped_keep m); [exact D|]. apply (mapped_sub _ _ _ _ _ Hr); lia.
  - lia.
  - lia.
  - cbn [bind]. exists m'. split; [reflexivity|]. apply (wwritten_app m m1); assumption.
Qed.
Theorem wcsncat_ok fuel l r m d s n : mem_ok m -> wstr m d l -> wtext m s n r -> 0 <= n < 2^32 -> let k := Z.of_nat (length r) in
  let e := d + 4 * Z.of_nat (length l) in
  wroom m e (k + 1) -> wapart e k s (Z.min n (k + 1)) -> (length l < fuel)%nat -> (length r < fuel)%nat ->
  exists m', wcsncat fuel m d s n = Ok (m', d) /\ wwritten m m' e (r ++ [0]).
Proof.
  intros Hok Hd Hs Hn k e Hr Ha Hf1 Hf2. unfold wcsncat. rewrite (wcslen_ok fuel m d l Hok Hd Hf1). cbn [bind]. fold e.
  destruct (wcsn_loop_ok r m e s n fuel Hs ltac:(lia)) as (m1 & -> & W & D); [apply (mapped_sub _ _ _ _ _ Hr); lia|exact Ha|exact Hf2|].
  cbn [bind]. fold k. destruct (wstore_ok m1 (e + 4 * k) 0) as (m2 & -> & A & B & _).
  { apply (mapped_keep m); [exact D|]. apply (mapped_sub _ _ _ _ _ Hr); lia. }
  cbn [bind]. exists m2. split; [reflexivity|]. apply (wwritten_app m m1); [exact W|]. apply (wwritten_cons m1 m2 m2); [apply B; unfold is_i32, INT_MIN, INT_MAX; lia|exact A|apply wwritten_nil].
Qed.
Theorem wmemset_ok fuel m d c n : is_i32 c -> 0 <= n < 2^32 -> wroom m d n -> (Z.to_nat n < fuel)%nat ->
  exists m', wmemset fuel m d c n = Ok (m', d) /\ wwritten m m' d (repeat c (Z.to_nat n)).
Proof.
  intros Hc Hn Hr Hf. unfold wmemset. destruct (wfill_loop_ok c Hc (Z.to_nat n) m d fuel) as (m' & E & W); [rewrite Z2Nat.id by lia; exact Hr|lia|exact Hf|].
  rewrite Z2Nat.id in E by lia. rewrite E. exists m'. split; [reflexivity|exact W].
Qed.

Lemma copied_written m m' d s l : copied m m' d s (4 * Z.of_nat (length l)) -> wcontents m s l -> wwritten m m' d l.
Proof.
  intros C H. split.
  - intros i Hi. specialize (H i Hi). rewrite <- H. unfold wload. cbn [load_n]. unfold load.
    assert (K : forall x, d + 4 * Z.of_nat i <= x < d + 4 * Z.of_nat i + 4 -> m' x = m (s + (x - d))).
    { intros x Hx. rewrite C. replace (d <=? x) with true by lia. replace (x <? d + 4 * Z.of_nat (length l)) with true by lia. reflexivity. }
    rewrite !K by lia. repeat match goal with |- context [m (s + (?e - d))] => first [replace (s + (e - d)) with (s + 4 * Z.of_nat i) by lia | replace (s + (e - d)) with (s + 4 * Z.of_nat i + 1) by lia
      | replace (s + (e - d)) with (s + 4 * Z.of_nat i + 1 + 1) by lia | replace (s + (e - d)) with (s + 4 * Z.of_nat i + 1 + 1 + 1) by lia] end. reflexivity.
  - intros x Hx. rewrite C. destruct (d <=? x) eqn:E1; [|reflexivity]. replace (x <? d + 4 * Z.of_nat (length l)) with false by lia. reflexivity.
Qed.
Lemma wcontents_mapped m a l : wcontents m a l -> mapped m a (a + 4 * Z.of_nat (length l)).
Proof.
  intros H x Hx. set (i := Z.to_nat ((x - a) / 4)). assert (Hi : (i < length l)%nat) by (unfold i; lia).
  specialize (H i Hi). apply wload_mapped in H. apply H. unfold i. lia.
Qed.

Theorem wmemcpy_ok fuel m d s l : let n := Z.of_nat (length l) in wcontents m s l -> 4 * n < 2^32 -> wroom m d n -> wapart d n s n ->
  (Z.to_nat (4 * n) < fuel)%nat -> exists m', wmemcpy fuel m d s n = Ok (m', d) /\ wwritten m m' d l.
Proof.
  intros n H Hn Hr Ha Hf. unfold wmemcpy. replace (u32 (n * 4)) with (4 * n) by (unfold u32; rewrite Z.mod_small; lia).
  destruct (memcpy_ok fuel m d s (4 * n)) as (m' & -> & C); try assumption; try lia.
  - apply wcontents_mapped. exact H.
  - cbn [bind]. exists m'. split; [reflexivity|]. apply (copied_written m m' d s); assumption.
Qed.
Theorem wmemmove_ok fuel m d s l : let n := Z.of_nat (length l) in mem_ok m -> wcontents m s l -> 4 * n < 2^32 -> wroom m d n ->
  (Z.to_nat (4 * n) < fuel)%nat -> exists m', wmemmove fuel m d s n = Ok (m', d) /\ wwritten m m' d l.
Proof.
  intros n Hok H Hn Hr Hf. unfold wmemmove. replace (u32 (n * 4)) with (4 * n) by (unfold u32; rewrite Z.mod_small; lia).
  destruct (memmove_ok fuel m d s (4 * n)) as (m' & -> & C); try assumption; try lia.
  - apply wcontents_mapped. exact H.
  - cbn [bind]. exists m'. split; [reflexivity|]. apply (copied_written m m' d s); assumption.
Qed.

Lemma wcsxfrm_loop_ok : forall l m d s i fuel, 0 <= i -> i + Z.of_nat (length l) < 2^32 -> wcontents m (s + 4 * i) l ->
  wroom m (d + 4 * i) (Z.of_nat (length l)) -> wapart (d + 4 * i) (Z.of_nat (length l)) (s + 4 * i) (Z.of_nat (length l)) -> (length l < fuel)%nat ->
  exists m', wcsxfrm_loop fuel m d s i (i + Z.of_nat (length l)) = Ok m' /\ wwritten m m' (d + 4 * i) l /\ same_domain m m'.
Proof.
  induction l as [|c l IH]; intros m d s i fuel Hi Hl Hs Hr Ha Hf; (destruct fuel as [|fuel]; [lia|]); cbn [wcsxfrm_loop length] in *.
  - replace (i <? i + Z.of_nat 0) with false by lia. exists m. split; [reflexivity|]. split; [apply wwritten_nil|intros x; reflexivity].
  - replace (i <? i + Z.of_nat (S (length l))) with true by lia. apply wcontents_cons in Hs as [H0 Hs]. rewrite H0. cbn [bind].
    destruct (wstore_ok m (d + 4 * i) c) as (m1 & -> & A & B & C & _).
    { apply (mapped_sub _ _ _ _ _ Hr); lia. }
    cbn [bind]. replace (u32 (i + 1)) with (i + 1) by (unfold u32; rewrite Z.mod_small; lia).
    replace (i + Z.of_nat (S (length l))) with (i + 1 + Z.of_nat (length l)) by lia.
    destruct (IH m1 d s (i + 1) fuel) as (m' & E & W & D); try lia.
    + apply (wcontents_ext m). { replace (s + 4 * (i + 1)) with (s + 4 * i + 4) by lia. exact Hs. }
      intros x Hx. apply A. unfold wapart in Ha. lia.
    + apply (mapped_keep m); [exact C|]. apply (mapped_sub _ _ _ _ _ Hr); lia.
    + unfold wapart in *. lia.
    + exists m'. split; [exact E|]. split.
      * apply (wwritten_cons m m1); [apply B, (wload_range _ _ _ H0)|exact A|]. replace (d + 4 * i + 4) with (d + 4 * (i + 1)) by lia. exact W.
      * intros x. rewrite (D x). apply C.
Qed.
Theorem wcsxfrm_ok fuel m d s l n : mem_ok m -> wstr m s l -> 0 <= n < 2^32 ->
  let k := Z.min (Z.of_nat (length l)) (n - 1) in
  (0 < n -> wroom m d (k + 1) /\ wapart d (k + 1) s (Z.of_nat (length l) + 1)) -> (length l < fuel)%nat ->
  exists m', wcsxfrm fuel m d s n = Ok (m', Z.of_nat (length l)) /\
    wwritten m m' d (if n =? 0 then [] else firstn (Z.to_nat k) l ++ [0]).
Proof.
  intros Hok Hs Hn k Hd Hf. unfold wcsxfrm. rewrite (wcslen_ok fuel m s l Hok Hs Hf). cbn [bind].
  destruct (Z.eqb_spec n 0) as [->|N]; [exists m; split; [reflexivity|apply wwritten_nil]|].
  destruct Hd as [Hr Ha]; [lia|]. rewrite u32_pred by lia.
  replace (if Z.of_nat (length l) <? n then Z.of_nat (length l) else n - 1) with k by (unfold k; destruct (Z.of_nat (length l) <? n) eqn:E; lia).
  cbv zeta. assert (Lk : Z.of_nat (length (firstn (Z.to_nat k) l)) = k) by (rewrite firstn_length; unfold k; lia).
  pose proof (wstr_bound m s _ Hok Hs).
  destruct (wcsxfrm_loop_ok (firstn (Z.to_nat k) l) m d s 0 fuel) as (m1 & E & W & D); try lia.
  - rewrite Z.mul_0_r, Z.add_0_r. destruct Hs as [Hs _]. rewrite <- (firstn_skipn (Z.to_nat k) l), <- app_assoc in Hs. apply wcontents_app in Hs as [Hs _]. exact Hs.
  - rewrite Lk, Z.mul_0_r, Z.add_0_r. apply (mapped_sub _ _ _ _ _ Hr); lia.
  - rewrite Lk. unfold wapart in *. lia.
  - rewrite Lk, Z.add_0_l in E. rewrite E. cbn [bind]. rewrite Z.mul_0_r, Z.add_0_r in W.
    destruct (wstore_ok m1 (d + 4 * k) 0) as (m2 & -> & A & B & _).
    { apply (mapped_keep m); [exact D|]. apply (mapped_sub _ _ _ _ _ Hr); lia. }
    cbn [bind]. exists m2. split; [reflexivity|]. apply (wwritten_app m m1); [exact W|]. rewrite Lk.
    apply (wwritten_cons m1 m2 m2); [apply B; unfold is_i32, INT_MIN, INT_MAX; lia|exact A|apply wwritten_nil].
Qed.

(** ** wcstok *)
Lemma first_index_prefix P l : let r := prefix_len (fun b => negb (P b)) l in
  first_index P l = if r =? Z.of_nat (length l) then None else Some r.
Proof.
  induction l as [|b l IH]; [reflexivity|]. cbn [first_index prefix_len length]. destruct (P b); cbn [negb].
  - reflexivity.
  - cbv zeta in IH. rewrite IH. set (r := prefix_len _ l). destruct (Z.eqb_spec r (Z.of_nat (length l))).
    + replace (1 + r =? Z.of_nat (S (length l))) with true by lia. reflexivity.
    + replace (1 + r =? Z.of_nat (S (length l))) with false by lia. reflexivity.
Qed.
Theorem wcstok_call fuel m p str a seps string state : mem_ok m -> wstr m p str -> wstr m a seps ->
  (length seps < fuel)%nat -> (length str < fuel)%nat ->
  (string = Some p \/ string = None /\ state = Some p) ->
  let i := prefix_len (elem seps) str in
  let rest := skipn (Z.to_nat i) str in
  let j := prefix_len (fun b => negb (elem seps b)) rest in
  wcstok fuel m string a state =
    if i =? Z.of_nat (length str) then Ok (m, None, None)
    else if i + j =? Z.of_nat (length str) then Ok (m, None, Some (p + 4 * i))
    else do m' <- wstore m (p + 4 * (i + j)) 0; Ok (m', Some (p + 4 * (i + j + 1)), Some (p + 4 * i)).
Proof.
  intros Hok Hs Ha Hf1 Hf2 Hst i rest j. unfold wcstok.
  replace (match string with Some q => Some q | None => state end) with (Some p)
    by (destruct Hst as [-> |[-> ->]]; reflexivity).
  rewrite (wcsspn_ok fuel m p str a seps) by (assumption || lia). cbn [bind]. fold i.
  destruct (prefix_len_split (elem seps) str) as (l1 & l2 & E1 & E2 & _ & _). fold i in E2.
  assert (Er : rest = l2).
  { unfold rest. rewrite E1, E2, Nat2Z.id, skipn_app, Nat.sub_diag, skipn_all. reflexivity. }
  assert (Hs2 : wstr m (p + 4 * i) l2) by (rewrite E2; apply wstr_app; rewrite <- E1; exact Hs).
  assert (EL : Z.of_nat (length str) = i + Z.of_nat (length l2)) by (rewrite E1, app_length; lia).
  rewrite EL. destruct l2 as [|b l2].
  - rewrite (wstr_nil _ _ Hs2). cbn [bind length]. rewrite Z.eqb_refl.
    replace (i =? i + Z.of_nat 0) with true by lia. reflexivity.
  - destruct (wstr_cons _ _ _ _ Hs2) as (H0 & Hb & _). rewrite H0. cbn [bind].
    replace (b =? 0) with false by lia.
    replace (i =? i + Z.of_nat (length (b :: l2))) with false by (cbn [length]; lia).
    rewrite (wcspbrk_ok fuel m (p + 4 * i) (b :: l2) a seps); try assumption; [|cbn [length] in *; lia].
    cbn [bind]. rewrite first_index_prefix. rewrite <- Er. fold j. replace (i + j =? i + Z.of_nat (length rest)) with (j =? Z.of_nat (length rest)) by lia.
    destruct (j =? Z.of_nat (length rest)) eqn:Ej; [reflexivity|]. cbn [option_map].
    replace (p + 4 * i + 4 * j) with (p + 4 * (i + j)) by lia. replace (p + 4 * (i + j) + 4) with (p + 4 * (i + j + 1)) by lia. reflexivity.
Qed.

Theorem wtokenise_ok fuel a seps : (length seps < fuel)%nat -> forall calls m B off str string state,
  mem_ok m -> wstr m (B + 4 * off) str -> wstr m a seps ->
  (a + 4 * Z.of_nat (length seps) + 4 <= B + 4 * off \/ B + 4 * (off + Z.of_nat (length str)) + 4 <= a) ->
  (length str < fuel)%nat -> (length str + 1 < calls)%nat ->
  (string = Some (B + 4 * off) \/ string = None /\ state = Some (B + 4 * off)) ->
  exists m', wtokenise calls fuel m string a state = Ok (m', map (fun t => B + 4 * fst t) (tokens (elem seps) off 0 str)) /\
    (forall o len, In (o, len) (tokens (elem seps) off 0 str) ->
       off <= o /\ 0 < len /\ o + len <= off + Z.of_nat (length str) /\
       wstr m' (B + 4 * o) (firstn (Z.to_nat len) (skipn (Z.to_nat (o - off)) str))) /\
    (forall x, m' x = m x \/
       (exists i, B + 4 * (off + Z.of_nat i) <= x < B + 4 * (off + Z.of_nat i) + 4 /\ (i < length str)%nat /\ elem seps (nth i str 0) = true)) /\
    (forall i, (i < length str)%nat -> wload m' (B + 4 * (off + Z.of_nat i)) = Ok (nth i str 0) \/
       elem seps (nth i str 0) = true /\ wload m' (B + 4 * (off + Z.of_nat i)) = Ok 0).
Proof.
  intros Hf1. induction calls as [|calls IH]; intros m B off str string state Hok Hs Ha Hdis Hf2 Hc Hst; [lia|].
  cbn [wtokenise]. rewrite (wcstok_call fuel m (B + 4 * off) str a seps string state) by (assumption || lia).
  destruct (prefix_len_split (elem seps) str) as (l1 & l2 & E1 & E2 & E3 & E4). rewrite E2.
  assert (Er : skipn (Z.to_nat (Z.of_nat (length l1))) str = l2).
  { rewrite E1, Nat2Z.id, skipn_app, Nat.sub_diag, skipn_all. reflexivity. }
  rewrite Er. set (i := Z.of_nat (length l1)) in *.
  destruct (prefix_len_split (fun b => negb (elem seps b)) l2) as (tok & l3 & F1 & F2 & F3 & F4). rewrite F2.
  set (j := Z.of_nat (length tok)) in *.
  assert (EL : Z.of_nat (length str) = i + Z.of_nat (length l2)) by (rewrite E1, app_length; lia).
  assert (EL2 : Z.of_nat (length l2) = j + Z.of_nat (length l3)) by (rewrite F1, app_length; lia).
  assert (ET : tokens (elem seps) off 0 str = tokens (elem seps) (off + i) 0 l2)
    by (rewrite E1; apply tokens_delims; exact E3).
  assert (Same : forall i, (i < length str)%nat -> wload m (B + 4 * (off + Z.of_nat i)) = Ok (nth i str 0)).
  { intros i0 Hi0. destruct Hs as [Hs _]. specialize (Hs i0 ltac:(rewrite app_length; cbn; lia)). rewrite app_nth1 in Hs by exact Hi0.
    rewrite <- Hs. f_equal. lia. }
  rewrite ET. rewrite EL. destruct (i =? i + Z.of_nat (length l2)) eqn:Ei.
  { destruct l2; [|cbn [length] in Ei; lia]. cbn [bind tokens Z.eqb map]. exists m. split; [reflexivity|].
    split; [intros o len []|]. split; [intros x; left; reflexivity|]. intros i0 Hi0. left. apply Same, Hi0. }
  assert (Hj : 0 < j).
  { destruct l2 as [|b l2]; [cbn [length] in Ei; lia|]. destruct tok as [|b2 tok]; [|unfold j; cbn [length]; lia].
    cbn [app] in F1. subst l3. rewrite E4 in F4. discriminate. }
  assert (ET2 : tokens (elem seps) (off + i) 0 l2 = tokens (elem seps) (off + i + j) j l3)
    by (rewrite F1; rewrite tokens_run by exact F3; reflexivity).
  rewrite ET2.
  destruct l3 as [|b3 l3].
  - replace (i + j =? i + Z.of_nat (length l2)) with true by (cbn [length] in EL2; lia).
    cbn [bind tokens]. replace (j =? 0) with false by lia.
    destruct calls as [|calls]; [lia|]. cbn [wtokenise wcstok bind map fst].
    exists m. split; [do 3 f_equal; lia|]. split; [|split; [intros x; left; reflexivity|intros i0 Hi0; left; apply Same, Hi0]].
    intros o len [E|[]]. injection E as <- <-. split; [lia|]. split; [lia|]. split; [cbn [length] in EL2; lia|].
    assert (T : tok = l2) by (rewrite F1, app_nil_r; reflexivity).
    replace (Z.to_nat (off + i + j - j - off)) with (Z.to_nat i) by lia. rewrite Er.
    replace (Z.to_nat j) with (length l2) by (rewrite <- T; unfold j; lia). rewrite firstn_all.
    rewrite E1 in Hs. apply wstr_app in Hs. fold i in Hs. replace (B + 4 * (off + i + j - j)) with (B + 4 * off + 4 * i) by lia. exact Hs.
  - cbn [length] in EL2. replace (i + j =? i + Z.of_nat (length l2)) with false by lia. 
    apply negb_false_iff in F4. cbn [tokens]. rewrite F4. replace (j =? 0) with false by lia.
    set (q := B + 4 * off + 4 * (i + j)).
    assert (Hq : wstr m q (b3 :: l3)).
    { rewrite E1, F1, app_assoc in Hs. apply wstr_app in Hs. rewrite app_length in Hs.
      replace (B + 4 * off + 4 * Z.of_nat (length l1 + length tok)) with q in Hs by (unfold q, i, j; lia). exact Hs. }
    destruct (wstr_cons _ _ _ _ Hq) as (Hq0 & _ & Hq1).
    replace (q + 4) with (B + 4 * (off + i + j + 1)) in Hq1 by (unfold q; lia).
    destruct (wstore_ok m q 0 (wload_mapped _ _ _ Hq0)) as (m1 & E1' & M1 & L1 & _ & Ok1). rewrite E1'. cbn [bind].
    specialize (L1 ltac:(unfold is_i32, INT_MIN, INT_MAX; lia)). specialize (Ok1 Hok).
    destruct (IH m1 B (off + i + j + 1) l3 None (Some (B + 4 * off + 4 * (i + j + 1)))) as (m' & E & T & U & V); try (unfold q; lia).
    { exact Ok1. }
    { apply (wstr_ext m); [exact Hq1|]. intros x Hx. apply M1. unfold q; lia. }
    { apply (wstr_ext m); [exact Ha|]. intros x Hx. apply M1. unfold q. lia. }
    { right. split; [reflexivity|]. f_equal. lia. }
    rewrite E. cbn [bind app map fst].
    assert (U1 : forall x, x < q + 4 -> m' x = m1 x).
    { intros x Hx. destruct (U x) as [Ux|(i' & Ex & _)]; [exact Ux|]. unfold q in Hx. lia. }
    exists m'. split; [do 3 f_equal; lia|]. split; [|split].
    + intros o len [Eq|HIn].
      * injection Eq as <- <-. split; [lia|]. split; [lia|]. split; [lia|].
        replace (Z.to_nat (off + i + j - j - off)) with (Z.to_nat i) by lia. rewrite Er.
        rewrite F1. replace (Z.to_nat j) with (length tok) by (unfold j; lia). rewrite firstn_app, Nat.sub_diag, firstn_all.
        cbn [firstn]. rewrite app_nil_r.
        assert (Ht : wstr m (B + 4 * off + 4 * i) (tok ++ b3 :: l3)).
        { rewrite E1, F1 in Hs. apply wstr_app in Hs. exact Hs. }
        destruct Ht as [Ht Hp]. rewrite <- app_assoc in Ht. apply wcontents_app in Ht as [Ht _]. apply Forall_app in Hp as [Hp _].
        replace (B + 4 * (off + i + j - j)) with (B + 4 * off + 4 * i) by lia.
        split; [|exact Hp]. apply wcontents_app. split.
        { apply (wcontents_ext m); [exact Ht|]. intros x Hx. fold j in Hx. rewrite U1 by (unfold q; lia). apply M1. unfold q; lia. }
        { apply wcontents_cons. split; [|apply wcontents_nil].
          replace (B + 4 * off + 4 * i + 4 * Z.of_nat (length tok)) with q by (unfold q, j; lia).
          rewrite (wload_ext m1); [exact L1|]. intros x Hx. apply U1. lia. }
      * destruct (T o len HIn) as (T1 & T2 & T3 & T4). split; [lia|]. split; [lia|]. split; [lia|].
        replace (skipn (Z.to_nat (o - off)) str) with (skipn (Z.to_nat (o - (off + i + j + 1))) l3); [exact T4|].
        rewrite E1, F1. replace (l1 ++ tok ++ b3 :: l3) with ((l1 ++ tok ++ [b3]) ++ l3) by (rewrite <- !app_assoc; reflexivity).
        rewrite skipn_app. rewrite (skipn_all2 (l1 ++ tok ++ [b3])) by (rewrite !app_length; cbn [length]; lia). cbn [app]. f_equal.
        rewrite !app_length. cbn [length]. lia.
    + intros x. destruct (U x) as [Ux|(i' & Ex & Hi' & He)].
      * rewrite Ux. destruct (Z.leb_spec q x); [destruct (Z.ltb_spec x (q + 4))|]; [|left; apply M1; lia|left; apply M1; lia].
        right. exists (length l1 + length tok)%nat. split; [unfold q, i, j in *; lia|]. split; [lia|].
        rewrite E1, F1. rewrite app_nth2 by lia. rewrite app_nth2 by lia.
        replace (length l1 + length tok - length l1 - length tok)%nat with 0%nat by lia. exact F4.
      * right. exists (length l1 + length tok + 1 + i')%nat. split; [unfold i, j in *; lia|]. split; [lia|].
        rewrite E1, F1. rewrite app_nth2 by lia. rewrite app_nth2 by lia.
        replace (length l1 + length tok + 1 + i' - length l1 - length tok)%nat with (S i') by lia. exact He.
    + intros k Hk. destruct (Nat.lt_total k (length l1 + length tok)) as [K|[K|K]].
      * left. rewrite <- Same by exact Hk. apply wload_ext. intros x Hx. rewrite U1 by (unfold q, i, j; lia). apply M1. unfold q, i, j; lia.
      * right. replace (B + 4 * (off + Z.of_nat k)) with q by (unfold q, i, j; lia). split.
        { rewrite E1, F1, K. rewrite app_nth2 by lia. rewrite app_nth2 by lia.
          replace (length l1 + length tok - length l1 - length tok)%nat with 0%nat by lia. exact F4. }
        { rewrite (wload_ext m1); [exact L1|]. intros x Hx. apply U1. lia. }
      * specialize (V (k - length l1 - length tok - 1)%nat ltac:(lia)).
        replace (B + 4 * (off + i + j + 1 + Z.of_nat (k - length l1 - length tok - 1))) with (B + 4 * (off + Z.of_nat k)) in V by (unfold i, j; lia).
        assert (En : nth k str 0 = nth (k - length l1 - length tok - 1) l3 0).
        { rewrite E1, F1. rewrite app_nth2 by lia. rewrite app_nth2 by lia.
          destruct (k - length l1 - length tok)%nat as [|k'] eqn:Ek; [lia|]. cbn [nth]. f_equal. lia. }
        rewrite En. exact V.
Qed.
