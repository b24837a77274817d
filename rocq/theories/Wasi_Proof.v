From Verif Require Import Base Wasi_Model Wasi_Spec.
Open Scope Z_scope.

Ltac poscase := repeat match goal with q : positive |- _ => destruct q; try reflexivity end.
Ltac poscaseF F := repeat match goal with q : positive |- _ => destruct q; try discriminate F end.
Lemma first_is_ok c l : first_is c l = true <-> exists r, l = c :: r.
Proof.
  destruct l as [|x l]; cbn; split; try discriminate.
  - intros [r E]. discriminate.
  - intros E. apply Z.eqb_eq in E. subst. eauto.
  - intros [r E]. injection E as -> ->. apply Z.eqb_refl.
Qed.
Lemma skip_slash_cons l : skip_slash (47 :: l) = skip_slash l.
Proof. reflexivity. Qed.
Lemma skip_slash_other x l : x <> 47 -> skip_slash (x :: l) = x :: l.
Proof. intros H. cbn [skip_slash]. destruct x as [|p|p]; try reflexivity. poscase; congruence. Qed.
Lemma skip_slash_ok l : unslashed l (skip_slash l).
Proof.
  induction l as [|x l IH].
  - exists 0%nat. split; [reflexivity|]. intros r; discriminate.
  - destruct (Z.eq_dec x 47) as [->|N].
    + rewrite skip_slash_cons. destruct IH as (k & E & F). exists (S k). cbn [repeat app]. rewrite <- E. auto.
    + rewrite skip_slash_other by exact N. exists 0%nat. split; [reflexivity|]. intros r E. injection E as E _. contradiction.
Qed.
Lemma unslashed_len p q : unslashed p q -> (length q <= length p)%nat.
Proof. intros (k & -> & _). rewrite app_length, repeat_length. lia. Qed.
Lemma strip_cases l : (exists r, l = 46 :: 47 :: r /\ forall k, strip_dotslash (S k) l = strip_dotslash k (skip_slash r)) \/
  ((forall r, l <> 46 :: 47 :: r) /\ forall k, strip_dotslash (S k) l = Ok l).
Proof.
  destruct l as [|a l]; [right; split; [discriminate|reflexivity]|].
  destruct (Z.eq_dec a 46) as [->|Na].
  2:{ right. split; [intros r E; injection E; congruence|]. intros k. cbn [strip_dotslash].
      destruct a as [|p|p]; try reflexivity. poscase; congruence. }
  destruct l as [|b l]; [right; split; [discriminate|reflexivity]|].
  destruct (Z.eq_dec b 47) as [->|Nb]; [left; exists l; split; reflexivity|].
  right. split; [intros r E; injection E; congruence|]. intros k. cbn [strip_dotslash].
  destruct b as [|p|p]; try reflexivity. poscase; congruence.
Qed.
Lemma strip_ok f : forall l, (length l < f)%nat -> exists p, strip_dotslash f l = Ok p /\ undotted l p.
Proof.
  induction f as [|f IH]; intros l H; [lia|]. destruct (strip_cases l) as [(r & -> & E)|(N & E)].
  - rewrite E. pose proof (skip_slash_ok r) as U. pose proof (unslashed_len _ _ U). cbn [length] in H.
    destruct (IH (skip_slash r) ltac:(lia)) as (p & E2 & D). exists p. split; [exact E2|]. apply (ud_step r (skip_slash r)); assumption.
  - rewrite E. exists l. split; [reflexivity|]. apply ud_done, N.
Qed.
Lemma undotted_relative l p : undotted l p -> (forall r, l <> 47 :: r) -> forall r, p <> 47 :: r.
Proof.
  induction 1 as [p N|r q p U D IH]; intros A; [exact A|]. apply IH. destruct U as (_ & _ & U). exact U.
Qed.
Lemma undotted_no_dot l p : undotted l p -> forall r, p <> 46 :: 47 :: r.
Proof. induction 1; assumption. Qed.
Lemma undotted_unique l p p' : undotted l p -> undotted l p' -> p = p'.
Proof.
  assert (U1 : forall k k' q q', repeat 47 k ++ q = repeat 47 k' ++ q' -> (forall r, q <> 47 :: r) -> (forall r, q' <> 47 :: r) -> q = q').
  { induction k as [|k IH]; intros [|k'] q q' E A B; cbn [repeat app] in E.
    - exact E.
    - subst q. exfalso. eapply A. reflexivity.
    - subst q'. exfalso. eapply B. reflexivity.
    - injection E as E. exact (IH k' q q' E A B). }
  intros D. revert p'. induction D as [p N|r q p U D IH]; intros p' D'.
  - inversion D'; subst; [reflexivity|]. exfalso. eapply N. reflexivity.
  - inversion D' as [? N|? q' ? U' D'']; subst; [exfalso; eapply N; reflexivity|].
    apply IH. destruct U as (k & -> & A), U' as (k' & E & B). rewrite (U1 k k' q q' E A B). exact D''.
Qed.

Lemma starts_with_ok b : forall p, starts_with b p = true <-> exists r, p = b ++ r.
Proof.
  induction b as [|x b IH]; intros p; [split; [intros; exists p; reflexivity|reflexivity]|].
  destruct p as [|y p]; cbn [starts_with]; [split; [discriminate|intros [r E]; discriminate]|].
  split.
  - intros H. apply andb_prop in H. destruct H as [H1 H2]. apply Z.eqb_eq in H1. subst y. apply IH in H2. destruct H2 as [r ->]. exists r. reflexivity.
  - intros [r E]. injection E as -> E. rewrite Z.eqb_refl. apply IH. eauto.
Qed.

Definition universal_b (e : preopen) : bool := match prefix e with [] | [46] | [46; 47] => true | _ => false end.
Lemma universal_ok e : universal_b e = true <-> universal e.
Proof.
  unfold universal_b, universal. destruct (prefix e) as [|a [|b [|c l]]].
  - tauto.
  - destruct (Z.eq_dec a 46) as [->|N]; [tauto|]. split; [|intros [F|[F|F]]; congruence].
    intros F. destruct a as [|p|p]; try discriminate F. poscaseF F; congruence.
  - destruct (Z.eq_dec a 46) as [->|N]; [destruct (Z.eq_dec b 47) as [->|N]; [tauto|]|]; (split; [|intros [F|[F|F]]; congruence]).
    + intros F. destruct b as [|p|p]; try discriminate F. poscaseF F; congruence.
    + intros F. destruct a as [|p|p]; try discriminate F. poscaseF F; congruence.
  - split; [|intros [F|[F|F]]; congruence]. intros F.
    destruct a as [|p|p]; try discriminate F. poscaseF F.
    destruct b as [|p|p]; try discriminate F. poscaseF F.
Qed.
Definition named_b (absolute : bool) (p : list Z) (e : preopen) : bool :=
  negb (universal_b e) && Bool.eqb absolute (first_is 47 (prefix e)) && negb (Z.of_nat (length p) <? Z.of_nat (length (prefix e))) &&
  starts_with (prefix e) p && negb ((Z.of_nat (length (prefix e)) <? Z.of_nat (length p)) && negb (first_is 47 (skipn (length (prefix e)) p))).
Lemma named_ok absolute p e : absolute = first_is 47 p -> named_b absolute p e = true <-> named p e.
Proof.
  intros A. unfold named_b, named. pose proof (universal_ok e) as U. split.
  - intros H. repeat (apply andb_prop in H; destruct H as [H ?H]). split; [rewrite <- U; destruct (universal_b e); [discriminate|discriminate]|].
    apply starts_with_ok in H1. destruct H1 as [rest ->]. exists rest. split; [reflexivity|].
    rewrite skipn_app, skipn_all, Nat.sub_diag in H0. cbn [app skipn] in H0. rewrite app_length in H0.
    destruct rest as [|c rest]; [left; reflexivity|right]. cbn [length] in H0. apply first_is_ok. destruct (first_is 47 (c :: rest)); [reflexivity|].
    cbn [negb] in H0. rewrite andb_true_r in H0. lia.
  - intros [N (rest & -> & B)]. repeat (apply andb_true_intro; split).
    + destruct (universal_b e); [|reflexivity]. exfalso. apply N, U. reflexivity.
    + subst absolute. destruct (prefix e) as [|a l] eqn:Ep; [exfalso; apply N; left; exact Ep|]. cbn [app first_is]. apply Bool.eqb_reflx.
    + rewrite app_length. lia.
    + apply starts_with_ok. eauto.
    + rewrite skipn_app, skipn_all, Nat.sub_diag. cbn [app skipn]. rewrite app_length. destruct B as [->|[r ->]]; [cbn [length]; lia|].
      cbn [first_is]. rewrite Z.eqb_refl. cbn. rewrite andb_false_r. reflexivity.
Qed.
Lemma search_step e es absolute p best : search (e :: es) absolute p best =
  search es absolute p (if universal_b e then if absolute then best else match best with None => Some (e, 0) | _ => best end
    else if named_b absolute p e then match best with Some (_, bl) => if bl <? Z.of_nat (length (prefix e)) then Some (e, Z.of_nat (length (prefix e))) else best | None => Some (e, Z.of_nat (length (prefix e))) end
    else best).
Proof.
  cbn [search]. fold (universal_b e). unfold named_b. destruct (universal_b e); cbn [negb andb].
  { destruct absolute; reflexivity. }
  destruct (Bool.eqb absolute (first_is 47 (prefix e))); cbn [negb andb]; [|reflexivity].
  destruct (_ <? Z.of_nat (length (prefix e))); cbn [negb andb]; [reflexivity|].
  destruct (starts_with (prefix e) p); cbn [negb andb]; [|reflexivity].
  destruct ((_ <? _) && _); cbn [negb andb]; reflexivity.
Qed.
(** What the accumulator means after the entries [done]. *)
Definition best_of (done : list preopen) (absolute : bool) (p : list Z) (best : option (preopen * Z)) : Prop :=
  match best with
  | None => (forall e, In e done -> ~ named p e) /\ (absolute = false -> forall e, In e done -> ~ universal e)
  | Some (e, l) => In e done /\
      ((universal e /\ absolute = false /\ l = 0 /\ forall e', In e' done -> ~ named p e') \/
       (named p e /\ l = Z.of_nat (length (prefix e)) /\ forall e', In e' done -> named p e' -> (length (prefix e') <= length (prefix e))%nat))
  end.
Lemma search_ok absolute p : absolute = first_is 47 p -> forall es done best, best_of done absolute p best -> best_of (done ++ es) absolute p (search es absolute p best).
Proof.
  intros A. induction es as [|e es IH]; intros done best B; [rewrite app_nil_r; exact B|].
  rewrite search_step. replace (done ++ e :: es) with ((done ++ [e]) ++ es) by (rewrite <- app_assoc; reflexivity). apply IH. clear IH.
  assert (InS : forall e', In e' (done ++ [e]) <-> In e' done \/ e' = e) by (intros; rewrite in_app_iff; cbn; intuition).
  destruct (universal_b e) eqn:U.
  - apply universal_ok in U. assert (Nn : ~ named p e) by (intros [N _]; contradiction).
    destruct absolute.
    + destruct best as [[e0 l]|]; cbn [best_of] in *.
      * destruct B as [I [(Ua & Ab & _) | (Nm & L & M)]]; [discriminate Ab|]. split; [apply InS; auto|]. right. split; [exact Nm|]. split; [exact L|].
        intros e' I' N'. apply InS in I'. destruct I' as [I'| ->]; [auto|contradiction].
      * destruct B as [B1 B2]. split; [|discriminate]. intros e' I'. apply InS in I'. destruct I' as [I'| ->]; [auto|exact Nn].
    + destruct best as [[e0 l]|]; cbn [best_of] in *.
      * destruct B as [I [(Ua & Ab & L & M) | (Nm & L & M)]]; (split; [apply InS; auto|]).
        -- left. repeat split; auto. intros e' I'. apply InS in I'. destruct I' as [I'| ->]; auto.
        -- right. repeat split; auto; try apply Nm. intros e' I' N'. apply InS in I'. destruct I' as [I'| ->]; [auto|contradiction].
      * destruct B as [B1 B2]. split; [apply InS; auto|]. left. repeat split; auto. intros e' I'. apply InS in I'. destruct I' as [I'| ->]; auto.
  - assert (Un : ~ universal e) by (rewrite <- universal_ok; congruence).
    destruct (named_b absolute p e) eqn:Nb.
    + apply (named_ok absolute p e A) in Nb. destruct best as [[e0 l]|]; cbn [best_of] in *.
      * destruct B as [I [(Ua & Ab & L & M) | (Nm & L & M)]].
        -- subst l. assert (0 < Z.of_nat (length (prefix e))). { destruct (prefix e) eqn:Ep; [exfalso; apply Un; left; exact Ep|cbn [length]; lia]. }
           replace (0 <? _) with true by lia. split; [apply InS; auto|]. right. split; [exact Nb|]. split; [reflexivity|].
           intros e' I' N'. apply InS in I'. destruct I' as [I'| ->]; [exfalso; exact (M _ I' N')|lia].
        -- destruct (Z.ltb_spec l (Z.of_nat (length (prefix e)))); (split; [apply InS; auto|]; right); (split; [assumption|split; [auto|]]);
             intros e' I' N'; apply InS in I'; destruct I' as [I'| ->]; try lia; specialize (M e' I' N'); lia.
      * destruct B as [B1 B2]. split; [apply InS; auto|]. right. split; [exact Nb|]. split; [reflexivity|].
        intros e' I' N'. apply InS in I'. destruct I' as [I'| ->]; [exfalso; exact (B1 _ I' N')|lia].
    + assert (Nn : ~ named p e) by (rewrite <- (named_ok absolute p e A); congruence).
      destruct best as [[e0 l]|]; cbn [best_of] in *.
      * destruct B as [I [(Ua & Ab & L & M) | (Nm & L & M)]]; (split; [apply InS; auto|]).
        -- left. repeat split; auto. intros e' I'. apply InS in I'. destruct I' as [I'| ->]; auto.
        -- right. repeat split; auto; try apply Nm. intros e' I' N'. apply InS in I'. destruct I' as [I'| ->]; [auto|contradiction].
      * destruct B as [B1 B2]. split; [|intros Ab]; intros e' I'; apply InS in I'; destruct I' as [I'| ->]; auto.
Qed.
Lemma relative_ok rest : relative rest (match skip_slash rest with [] => [46] | _ => skip_slash rest end).
Proof. exists (skip_slash rest). split; [apply skip_slash_ok|reflexivity]. Qed.

(** ** ensure_init *)
Lemma trim_rev_ok l : exists k, l = repeat 47 k ++ trim_rev l /\ forall r, trim_rev l <> 47 :: r.
Proof. exact (skip_slash_ok l). Qed.
Lemma rev_repeat {A} (x : A) k : rev (repeat x k) = repeat x k.
Proof. induction k as [|k IH]; [reflexivity|]. cbn [repeat rev]. rewrite IH. symmetry. apply repeat_cons. Qed.
Lemma trim_ok l : trimmed l (trim l).
Proof.
  destruct (trim_rev_ok (rev l)) as (k & E & N). exists k. unfold trim. split.
  - rewrite <- (rev_involutive l) at 1. rewrite E at 1. rewrite rev_app_distr, rev_repeat. reflexivity.
  - intros r F. apply (f_equal (@rev Z)) in F. rewrite rev_involutive, rev_app_distr in F. eapply N, F.
Qed.
Lemma init_sound host : forall f n used e, In e (init_loop host f n used) ->
  exists h buf, nth_error host (Z.to_nat (fd e - f)) = Some h /\ f <= fd e /\ dir_name h = Some buf /\ prefix e = trim buf.
Proof.
  induction host as [|h host IH]; intros f n used e I; cbn [init_loop] in I; [destruct (n <? 16); contradiction|].
  destruct (n <? 16); [|contradiction].
  assert (Next : forall n used, In e (init_loop host (f + 1) n used) -> exists h' buf, nth_error (h :: host) (Z.to_nat (fd e - f)) = Some h' /\ f <= fd e /\ dir_name h' = Some buf /\ prefix e = trim buf).
  { intros n' used' I'. destruct (IH _ _ _ _ I') as (h' & buf & E & F & D & P). exists h', buf.
    replace (Z.to_nat (fd e - f)) with (S (Z.to_nat (fd e - (f + 1)))) by lia. cbn [nth_error]. repeat split; try assumption. lia. }
  destruct h as [| |len name]; [eauto|eauto|].
  replace (if 256 <? len then 256 else len) with (Z.min len 256) in I by (destruct (Z.ltb_spec 256 len); lia).
  destruct (name (Z.min len 256)) as [buf|] eqn:En; [|eauto].
  destruct (1024 <? _); [contradiction|]. destruct I as [<-|I]; [|eauto].
  exists (PDir len name), buf. cbn [fd prefix]. rewrite Z.sub_diag. repeat split; [lia|exact En].
Qed.
(** All directories are found when at most sixteen and their names fit in the pool. *)
Fixpoint dirs (host : list prestat) (f : Z) : list preopen :=
  match host with [] => [] | h :: host => match dir_name h with Some buf => mk_preopen f (trim buf) :: dirs host (f + 1) | None => dirs host (f + 1) end end.
Definition pool_need (l : list preopen) : Z := fold_right (fun e a => Z.of_nat (length (prefix e)) + 1 + a) 0 l.
Lemma pool_need_nonneg l : 0 <= pool_need l.
Proof. induction l as [|e l IH]; cbn [pool_need fold_right]; [lia|]. fold (pool_need l). lia. Qed.
Lemma init_complete host : forall f n used, 0 <= n -> n + Z.of_nat (length (dirs host f)) <= 16 -> used + pool_need (dirs host f) <= 1024 -> init_loop host f n used = dirs host f.
Proof.
  induction host as [|h host IH]; intros f n used Hn Hc Hp; cbn [init_loop dirs] in *; [destruct (n <? 16); reflexivity|].
  destruct (Z.ltb_spec n 16) as [L|L].
  - destruct h as [| |len name]; cbn [dir_name] in *; [apply IH; assumption|apply IH; assumption|].
    replace (if 256 <? len then 256 else len) with (Z.min len 256) by (destruct (Z.ltb_spec 256 len); lia).
    destruct (name (Z.min len 256)) as [buf|]; [|apply IH; assumption].
    cbn [length pool_need fold_right] in Hc, Hp. fold (pool_need (dirs host (f + 1))) in Hp. cbn [prefix] in Hp. pose proof (pool_need_nonneg (dirs host (f + 1))).
    replace (1024 <? _) with false by lia. f_equal. apply IH; lia.
  - destruct (match dir_name h with Some buf => mk_preopen f (trim buf) :: dirs host (f + 1) | None => dirs host (f + 1) end) eqn:E; [reflexivity|]. cbn [length] in Hc. lia.
Qed.

(** ** Lookup *)
Lemma lookup_ok entries path : exists r, preopen_lookup entries path = Ok r /\
  exists p, (is_absolute path -> p = path) /\ (~ is_absolute path -> undotted path p) /\
  match r with
  | Some (f, rel) => path <> [] /\ exists e, In e entries /\ fd e = f /\
      ((universal e /\ ~ is_absolute path /\ relative p rel /\ forall e', In e' entries -> ~ named p e') \/
       (exists rest, ~ universal e /\ leads (prefix e) p rest /\ relative rest rel /\
          forall e', In e' entries -> named p e' -> (length (prefix e') <= length (prefix e))%nat))
  | None => path = [] \/ (forall e, In e entries -> ~ named p e) /\ (is_absolute path \/ forall e, In e entries -> ~ universal e)
  end.
Proof.
  destruct path as [|c path0].
  { exists None. split; [reflexivity|]. exists []. split; [reflexivity|]. split; [intros _; apply ud_done; discriminate|]. left. reflexivity. }
  set (path := c :: path0). assert (Np : path <> []) by discriminate. unfold preopen_lookup. fold path. change (match path with [] => Ok None | _ => ?k end) with k.
  set (absolute := first_is 47 path).
  assert (P : exists p, (if absolute then Ok path else strip_dotslash (S (length path)) path) = Ok p /\ (is_absolute path -> p = path) /\ (~ is_absolute path -> undotted path p) /\ absolute = first_is 47 p).
  { destruct absolute eqn:A.
    - exists path. split; [reflexivity|]. split; [reflexivity|]. apply first_is_ok in A. split; [intros N; contradiction|]. symmetry. apply first_is_ok, A.
    - destruct (strip_ok (S (length path)) path ltac:(lia)) as (p & E & D). exists p. rewrite E.
      assert (Na : ~ is_absolute path) by (intros F; apply first_is_ok in F; unfold absolute in A; congruence).
      split; [reflexivity|]. split; [intros F; contradiction|]. split; [intros _; exact D|].
      destruct (first_is 47 p) eqn:Fp; [|reflexivity]. apply first_is_ok in Fp. destruct Fp as [r Er]. exfalso.
      apply (undotted_relative _ _ D) with (r := r); [|exact Er]. intros r' Er'. apply Na. exists r'. exact Er'. }
  destruct P as (p & E & P1 & P2 & A). rewrite E. cbn [bind].
  pose proof (search_ok absolute p A entries [] None ltac:(split; [intros e []|intros _ e []])) as B. cbn [app] in B.
  assert (Ab : absolute = false <-> ~ is_absolute path).
  { unfold absolute, is_absolute. rewrite <- first_is_ok. destruct (first_is 47 path); split; congruence. }
  destruct (search entries absolute p None) as [[e l]|].
  - eexists. split; [reflexivity|]. exists p. split; [exact P1|]. split; [exact P2|]. split; [exact Np|]. exists e. destruct B as [I B]. split; [exact I|]. split; [reflexivity|].
    destruct B as [(U & Af & -> & M) | ([N (rest & L)] & -> & M)].
    + left. cbn [Z.to_nat skipn]. repeat split; try assumption; [apply Ab, Af|apply relative_ok].
    + right. exists rest. split; [exact N|]. split; [exact L|]. split; [|exact M].
      destruct L as [-> _]. rewrite Nat2Z.id, skipn_app, skipn_all, Nat.sub_diag. cbn [app skipn]. apply relative_ok.
  - exists None. split; [reflexivity|]. exists p. split; [exact P1|]. split; [exact P2|]. right. destruct B as [B1 B2]. split; [exact B1|].
    destruct absolute eqn:Ea; [left|right; apply B2; reflexivity]. apply first_is_ok. unfold absolute in Ea. exact Ea.
Qed.
