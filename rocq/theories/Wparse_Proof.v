(** Proofs about the wide-character number parsers. *)
From Verif Require Import Base Ctype_Spec Stdlib_Spec Stdlib_Model Stdlib_Proof Strtod_Spec Wparse_Model.
Open Scope Z_scope.

Definition cut (rest rest' : list Z) : Prop := exists r, rest = rest' ++ r.
Lemma wspace_iff c : wspace c = true <-> is_space_spec c.
Proof. unfold wspace, is_space_spec. cbn [In]. lia. Qed.
Lemma wskip_split ws t : Forall is_space_spec ws -> ~ starts is_space_spec t -> wskip (ws ++ t) = (ws, t).
Proof.
  intros H Ht. induction H as [|c ws Hc _ IH]; cbn [app wskip].
  - destruct t as [|c t]; [reflexivity|]. cbn [wskip]. destruct (wspace c) eqn:E; [|reflexivity]. apply wspace_iff in E. contradiction.
  - apply wspace_iff in Hc. rewrite Hc, IH. reflexivity.
Qed.
Lemma wtokens_split mid : forall room rest, Forall (fun c => wtoken c = true) mid -> (length mid <= room)%nat ->
  exists rest', wtokens room (mid ++ rest) = mid ++ rest' /\ cut rest rest' /\ Forall (fun c => wtoken c = true) rest'.
Proof.
  induction mid as [|c mid IH]; intros room rest H L.
  - clear H L. cbn [app]. revert rest. induction room as [|room IH]; intros rest; [exists []; repeat split; [exists rest; reflexivity|constructor]|].
    destruct rest as [|c rest]; [exists []; repeat split; [exists []; reflexivity|constructor]|]. cbn [wtokens].
    destruct (wtoken c) eqn:E; [|exists []; repeat split; [exists (c :: rest); reflexivity|constructor]].
    destruct (IH rest) as (r & E1 & (q & E2) & F). exists (c :: r). rewrite E1. repeat split; [exists q; cbn; rewrite E2; reflexivity|constructor; assumption].
  - destruct room as [|room]; [cbn in L; lia|]. cbn [app wtokens]. inversion H as [|? ? Hc Hm]; subst. rewrite Hc.
    destruct (IH room rest Hm) as (r & E1 & C & F); [cbn in L; lia|]. exists r. rewrite E1. auto.
Qed.
Lemma copy_split cap ws mid rest : Forall is_space_spec ws -> ~ starts is_space_spec (mid ++ rest) -> Forall (fun c => wtoken c = true) mid ->
  Z.of_nat (length (ws ++ mid)) <= cap - 1 -> exists rest', wparse_copy_ (ws ++ mid ++ rest) cap = ws ++ mid ++ rest' /\ cut rest rest' /\ Forall is_byte (ws ++ mid ++ rest').
Proof.
  intros Hw Hs Hm L. unfold wparse_copy_. rewrite wskip_split by assumption. rewrite app_length in L.
  rewrite firstn_all2 by lia. destruct (wtokens_split mid (Z.to_nat (cap - 1) - length ws) rest Hm ltac:(lia)) as (r & E & C & F).
  exists r. rewrite E. split; [reflexivity|]. split; [exact C|].
  assert (B : forall l, Forall (fun c => wtoken c = true) l -> Forall is_byte l).
  { intros l. apply Forall_impl. intros c. unfold wtoken, is_byte. lia. }
  rewrite !Forall_app. split; [|split; apply B; assumption]. revert Hw. apply Forall_impl. intros c. unfold is_space_spec, is_byte. cbn [In]. lia.
Qed.
Lemma copy_space cap ws t : Forall is_space_spec ws -> ~ starts is_space_spec t -> 0 < cap -> cap - 1 <= Z.of_nat (length ws) ->
  wparse_copy_ (ws ++ t) cap = firstn (Z.to_nat (cap - 1)) ws.
Proof.
  intros Hw Ht Hc L. unfold wparse_copy_. rewrite wskip_split by assumption. rewrite firstn_length, Nat.min_l by lia. rewrite Nat.sub_diag. cbn [wtokens]. apply app_nil_r.
Qed.
Lemma cut_starts P rest rest' : cut rest rest' -> starts P rest' -> starts P rest.
Proof. intros (r & ->) H. destruct rest'; [destruct H|exact H]. Qed.
Lemma cut_app l rest rest' : cut rest rest' -> cut (l ++ rest) (l ++ rest').
Proof. intros (r & ->). exists r. rewrite app_assoc. reflexivity. Qed.
Lemma cut_prefixed base t t' : cut t t' -> prefixed base t' -> prefixed base t.
Proof. intros (r & ->) (H & x & h & q & -> & Hx & Hh). split; [exact H|]. exists x, h, (q ++ r). auto. Qed.
Lemma digit_token b c : b <= 36 -> is_digit b c -> wtoken c = true.
Proof.
  intros Hb (d & E & Hd). unfold digit_value in E. unfold wtoken.
  destruct ((48 <=? c) && (c <=? 57)) eqn:E1; [reflexivity|]. destruct ((97 <=? c) && (c <=? 122)) eqn:E2; [reflexivity|].
  destruct ((65 <=? c) && (c <=? 90)) eqn:E3; [reflexivity|discriminate].
Qed.
Lemma digit_mono b b' c : b <= b' -> is_digit b c -> is_digit b' c.
Proof. intros H (d & E & Hd). exists d. split; [exact E|lia]. Qed.

(** the buffer has the reading of the whole string *)
Lemma copy_reading base s neg mag len : base = 0 \/ 2 <= base <= 36 -> reading base s neg mag len -> len <= 127 ->
  Forall is_byte (wparse_copy_ s 128) /\ (reading base (wparse_copy_ s 128) neg mag len \/ reading base (wparse_copy_ s 128) false 0 0 /\ mag = 0 /\ len = 0).
Proof.
  intros Hbase (ws & sg & pre & ds & rest & b & -> & Hws & Hns & Hsg & Hpre & Hds & Hrest & Hmag & Hlen) L.
  assert (Hb : b <= 36).
  { destruct Hpre as [(_ & _ & ->)|(_ & _ & [(_ & ->)|(_ & [(_ & ->)|(_ & ->)])])]; lia. }
  assert (Tok : Forall (fun c => wtoken c = true) (sg ++ pre ++ ds)).
  { rewrite !Forall_app. split; [|split].
    - destruct Hsg as [(-> & _)|[(-> & _)|(-> & _ & _)]]; repeat constructor.
    - destruct Hpre as [((_ & x & h & r & E & Hx & _) & Lp & _)|(_ & -> & _)]; [|constructor].
      destruct pre as [|p0 [|p1 [|]]]; try discriminate. injection E as -> -> _. repeat constructor. destruct Hx as [->| ->]; reflexivity.
    - revert Hds. apply Forall_impl. intros c. apply digit_token. exact Hb. }
  replace (ws ++ sg ++ pre ++ ds ++ rest) with (ws ++ (sg ++ pre ++ ds) ++ rest) by (rewrite !app_assoc; reflexivity).
  assert (Hns' : ~ starts is_space_spec ((sg ++ pre ++ ds) ++ rest)) by (rewrite <- !app_assoc; exact Hns).
  destruct (Z.le_gt_cases (Z.of_nat (length (ws ++ sg ++ pre ++ ds))) 127) as [S|S].
  - destruct (copy_split 128 ws (sg ++ pre ++ ds) rest Hws Hns' Tok ltac:(lia)) as (rest' & E & C & B). rewrite E. split; [exact B|]. left.
    exists ws, sg, pre, ds, rest', b. split; [rewrite !app_assoc; reflexivity|]. split; [exact Hws|].
    split. { intros H. apply Hns. revert H. apply cut_starts. do 3 apply cut_app. exact C. }
    split. { destruct Hsg as [H|[H|(E0 & E1 & H)]]; [left; exact H|right; left; exact H|]. right. right. split; [exact E0|]. split; [exact E1|]. intros G. apply H. revert G. apply cut_starts. do 2 apply cut_app. exact C. }
    split.
    { destruct Hpre as [(P & Lp & Eb)|(P & Ep & Eb)].
      - left. split; [|auto]. destruct P as (H0 & x & h & r & E1 & Hx & Hh). split; [exact H0|].
        destruct pre as [|p0 [|p1 [|]]]; try discriminate. cbn [app] in E1. injection E1 as -> -> E1. subst b. destruct ds as [|d ds].
        + exfalso. apply Hrest. cbn [app] in E1. rewrite E1. exact Hh.
        + exists x, d, (ds ++ rest'). cbn [app] in E1. injection E1 as -> _. auto.
      - right. split. { intros G. apply P. revert G. apply cut_prefixed. apply cut_app. exact C. }
        split; [exact Ep|]. destruct Eb as [Eb|(E0 & [(G & Eb)|(G & Eb)])]; [left; exact Eb| |]; right; (split; [exact E0|]).
        + left. split; [|exact Eb]. destruct ds as [|d ds]; [|exact G]. exfalso. apply Hrest. cbn [app] in G. destruct rest as [|c rest]; [exact G|]. cbn [starts] in *. subst c b. exists 0. split; [reflexivity|lia].
        + right. split; [|exact Eb]. intros G'. apply G. revert G'. apply cut_starts. apply cut_app. exact C. }
    split; [exact Hds|]. split; [intros G; apply Hrest; revert G; apply cut_starts; exact C|]. auto.
  - assert (Ds : ds = []). { destruct ds as [|d ds]; [reflexivity|]. exfalso. lia. } subst ds.
    assert (pre = []).
    { destruct Hpre as [((H0 & x & h & r & E1 & Hx & Hh) & Lp & Eb)|(_ & E & _)]; [|exact E]. exfalso. destruct pre as [|p0 [|p1 [|]]]; try discriminate. cbn [app] in E1. injection E1 as -> -> E1. subst b. apply Hrest. rewrite E1. exact Hh. }
    subst pre. cbn [app] in *. rewrite !app_nil_r in *. rewrite app_length in S. assert (length sg <= 1)%nat by (destruct Hsg as [(-> & _)|[(-> & _)|(-> & _)]]; cbn [length]; lia).
    rewrite copy_space by (assumption || lia). change (Z.to_nat (128 - 1)) with 127%nat.
    assert (Hf : Forall is_space_spec (firstn 127 ws)) by (apply Forall_forall; intros c Hc; rewrite Forall_forall in Hws; apply Hws; rewrite <- (firstn_skipn 127 ws); apply in_or_app; left; exact Hc).
    split; [revert Hf; apply Forall_impl; intros c; unfold is_space_spec, is_byte; cbn [In]; lia|]. right.
    split; [|split; [exact Hmag|exact Hlen]].
    exists (firstn 127 ws), [], [], [], [], (if base =? 0 then 10 else base). cbn [app]. rewrite app_nil_r. split; [reflexivity|]. split; [exact Hf|]. split; [intros []|].
    split; [right; right; repeat split; intros []|]. split.
    { right. split; [intros (_ & x & h & r & E & _); discriminate|]. split; [reflexivity|]. destruct (Z.eqb_spec base 0); [right; split; [assumption|right; split; [intros []|reflexivity]]|left; split; [assumption|reflexivity]]. }
    repeat split; [constructor|intros []].
Qed.

(** ** floating constants *)
Lemma constant_tokens (digit letter : Z -> Prop) s ip fp x : (forall c, digit c -> wtoken c = true) -> (forall c, letter c -> wtoken c = true) ->
  constant digit letter s ip fp x -> Forall (fun c => wtoken c = true) s /\ s <> [].
Proof.
  intros Hd Hl (dot & ex & -> & Hdot & Hex & Hi & Hf & Hne). split.
  - rewrite !Forall_app. split; [revert Hi; apply Forall_impl; exact Hd|]. split; [destruct Hdot as [(-> & _)| ->]; repeat constructor|].
    split; [revert Hf; apply Forall_impl; exact Hd|]. destruct Hex as [(-> & _)|(c & sg & ds & -> & Hc & Hds & _ & Hsg)]; [constructor|].
    constructor; [apply Hl; exact Hc|]. apply Forall_app. split; [destruct Hsg as [(-> & _)|([->| ->] & _)]; repeat constructor|].
    revert Hds. apply Forall_impl. intros d H. unfold dec_char in H. unfold wtoken. lia.
  - intros E. apply Hne. apply app_eq_nil in E. destruct E as (-> & E). apply app_eq_nil in E. destruct E as (_ & E). apply app_eq_nil in E. destruct E as (-> & _). reflexivity.
Qed.
Lemma decimal_tokens s ip fp x : decimal_text s ip fp x -> Forall (fun c => wtoken c = true) s /\ s <> [].
Proof. apply constant_tokens; intros c H; [unfold dec_char in H; unfold wtoken; lia|destruct H as [->| ->]; reflexivity]. Qed.
Lemma hex_tokens s ip fp x : hex_text s ip fp x -> Forall (fun c => wtoken c = true) s /\ s <> [].
Proof.
  intros (c & t & -> & Hc & H). destruct (constant_tokens _ _ _ _ _ _ (fun c => digit_token 16 c ltac:(lia)) (fun c (H : c = 112 \/ c = 80) => ltac:(destruct H as [->| ->]; reflexivity)) H) as (F & _).
  split; [|discriminate]. constructor; [reflexivity|]. constructor; [destruct Hc as [->| ->]; reflexivity|exact F].
Qed.
Lemma copy_float cap ws sg body rest : Forall is_space_spec ws -> (sg = [45] \/ sg = [43] \/ sg = []) -> Forall (fun c => wtoken c = true) body -> body <> [] ->
  Z.of_nat (length (ws ++ sg ++ body)) <= cap - 1 ->
  exists rest', wparse_copy_ (ws ++ sg ++ body ++ rest) cap = ws ++ sg ++ body ++ rest' /\ cut rest rest' /\ Forall is_byte (ws ++ sg ++ body ++ rest').
Proof.
  intros Hw Hsg Hb Hne L. rewrite (app_assoc sg body rest).
  assert (F : Forall (fun c => wtoken c = true) (sg ++ body)) by (apply Forall_app; split; [destruct Hsg as [->|[->| ->]]; repeat constructor|exact Hb]).
  assert (N : ~ starts is_space_spec ((sg ++ body) ++ rest)).
  { assert (sg ++ body <> []) by (intros E; apply app_eq_nil in E; destruct E; auto). destruct (sg ++ body) as [|c l]; [congruence|]. cbn [app starts]. inversion F as [|? ? Hc]; subst.
    unfold is_space_spec. unfold wtoken in Hc. cbn [In]. lia. }
  destruct (copy_split cap ws (sg ++ body) rest Hw N F L) as (r & E & C & B). exists r. rewrite E, <- !app_assoc. rewrite <- app_assoc in B. auto.
Qed.
Lemma cut_longest P body rest rest' : cut rest rest' -> longest P body rest -> longest P body rest'.
Proof. intros (r & ->) (HP & H). split; [exact HP|]. intros t' q E HT. apply (H t' (q ++ r)); [|exact HT]. rewrite !app_assoc. f_equal. exact E. Qed.
Lemma cut_hex body rest rest' : cut rest rest' -> hex_prefix (body ++ rest') -> hex_prefix (body ++ rest).
Proof. intros (r & ->) (x & t & E & Hx). exists x, (t ++ r). split; [|exact Hx]. rewrite app_assoc, E. reflexivity. Qed.
Lemma sign_three sg t neg : sign_ok sg t neg -> sg = [45] \/ sg = [43] \/ sg = [].
Proof. intros [(-> & _)|[(-> & _)|(-> & _)]]; auto. Qed.
