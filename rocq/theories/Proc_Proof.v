From Verif Require Import Base Proc_Model Proc_Spec.
Open Scope Z_scope.
Local Ltac Zify.zify_post_hook ::= idtac.

Section P.
Context {H : Type}.
Implicit Types (es : list (event H)) (st : list H) (l : list (act H)).

Lemma acts_app es1 es2 : acts_of (es1 ++ es2) = acts_of es1 ++ acts_of es2.
Proof. induction es1 as [|[] es1 IH]; cbn; congruence. Qed.

Lemma lifo_app l1 l2 : lifo l1 -> lifo l2 -> lifo (l1 ++ l2).
Proof.
  induction 1 as [|h a b Ha IHa Hb IHb]; intros H2; [exact H2|]. cbn. rewrite <- app_assoc. cbn.
  constructor; [assumption|]. apply IHb. exact H2.
Qed.

(** [opened l st]: after [l], the functions pending are [st] (last registered first). *)
Inductive opened : list (act H) -> list H -> Prop :=
| op_done l : lifo l -> opened l []
| op_more l h l' st : opened l st -> lifo l' -> opened (l ++ Reg h :: l') (h :: st).

Lemma opened_lifo l st l' : opened l st -> lifo l' -> opened (l ++ l') st.
Proof.
  intros [l0 L|l0 h l1 st0 O L] L'.
  - constructor. apply lifo_app; assumption.
  - rewrite <- app_assoc. cbn. constructor; [assumption|]. apply lifo_app; assumption.
Qed.
Lemma opened_reg l st h : opened l st -> opened (l ++ [Reg h]) (h :: st).
Proof. intros O. apply op_more; [exact O|constructor]. Qed.
Lemma opened_run l st h : opened l (h :: st) -> opened (l ++ [Run h]) st.
Proof.
  intros O. inversion O as [|l0 h' l1 st' O' L]; subst. rewrite <- app_assoc. cbn.
  apply opened_lifo; [assumption|]. constructor; [assumption|constructor].
Qed.
Lemma opened_nil l : opened l [] -> lifo l.
Proof. intros O. inversion O; assumption. Qed.

Lemma pending_fold l : forall n : Z, fold_left (fun n (a : act H) => match a with Reg _ => n + 1 | Run _ => n - 1 end) l n
  = n + fold_left (fun n (a : act H) => match a with Reg _ => n + 1 | Run _ => n - 1 end) l 0.
Proof.
  induction l as [|a l IH]; intros n; cbn [fold_left]; [lia|]. rewrite (IH (match a with Reg _ => n + 1 | Run _ => n - 1 end)).
  rewrite (IH (match a with Reg _ => 0 + 1 | Run _ => 0 - 1 end)). destruct a; lia.
Qed.
Notation cnt := (fun l => fold_left (fun n (a : act H) => match a with Reg _ => n + 1 | Run _ => n - 1 end) l 0).
Lemma cnt_app l1 l2 : cnt (l1 ++ l2) = cnt l1 + cnt l2.
Proof. cbn beta. rewrite fold_left_app. rewrite pending_fold. reflexivity. Qed.
Lemma cnt_cons a l : cnt (a :: l) = (match a with Reg _ => 1 | Run _ => -1 end) + cnt l.
Proof. cbn [fold_left]. rewrite pending_fold. destruct a; lia. Qed.
Lemma cnt_lifo l : lifo l -> cnt l = 0.
Proof. induction 1; [reflexivity|]. rewrite cnt_cons, cnt_app, cnt_cons, IHlifo1, IHlifo2. lia. Qed.
Lemma cnt_opened l st : opened l st -> cnt l = Z.of_nat (length st).
Proof.
  induction 1 as [l L|l h l' st O IH L]; [apply cnt_lifo; exact L|].
  rewrite cnt_app, IH, cnt_cons, (cnt_lifo l' L). cbn [length]. lia.
Qed.

Lemma register_ok hs : forall t past t' es, opened (acts_of past) t -> register t hs = (t', es) ->
  opened (acts_of (past ++ es)) t'.
Proof.
  induction hs as [|h hs IH]; intros t past t' es O E; cbn [register] in E.
  - injection E as <- <-. rewrite app_nil_r. exact O.
  - unfold atexit in E. destruct (32 <=? Z.of_nat (length t)).
    + destruct (register t hs) as [t2 e2] eqn:R. injection E as <- <-.
      change (Rejected h :: e2) with ([Rejected h] ++ e2). rewrite app_assoc. apply (IH t (past ++ [Rejected h])); [|exact R]. rewrite acts_app. cbn. rewrite app_nil_r. exact O.
    + destruct (register (h :: t) hs) as [t2 e2] eqn:R. injection E as <- <-.
      change (Registered h :: e2) with ([Registered h] ++ e2). rewrite app_assoc. apply (IH (h :: t) (past ++ [Registered h])); [|exact R]. rewrite acts_app. cbn. apply opened_reg. exact O.
Qed.
Lemma run_ok acts : forall fuel t past es, opened (acts_of past) t -> run_handlers fuel acts t past = Ok es ->
  lifo (acts_of es) /\ exists more, es = past ++ more.
Proof.
  induction fuel as [|f IH]; intros t past es O E; [discriminate|]. cbn [run_handlers] in E. destruct t as [|h t].
  - injection E as <-. split; [apply opened_nil; exact O|]. exists []. symmetry. apply app_nil_r.
  - destruct (register t (acts (past ++ [Ran h]) h)) as [t' e'] eqn:R.
    destruct (IH t' ((past ++ [Ran h]) ++ e') es) as (L & more & Em); [|exact E|].
    + apply (register_ok (acts (past ++ [Ran h]) h) t (past ++ [Ran h]) t'); [|exact R]. rewrite acts_app. cbn. apply opened_run. exact O.
    + split; [exact L|]. exists ([Ran h] ++ e' ++ more). rewrite Em, <- !app_assoc. reflexivity.
Qed.
(** no new registrations: it ends after as many steps as there are handlers *)
Lemma run_total (acts : list (event H) -> H -> list H) : (forall p h, acts p h = []) -> forall (t : list H) fuel (past : list (event H)), (length t < fuel)%nat ->
  run_handlers fuel acts t past = Ok (past ++ map Ran t).
Proof.
  intros Ha. induction t as [|h t IH]; intros fuel past Hf; (destruct fuel as [|f]; [cbn in Hf; lia|]); cbn [run_handlers].
  - cbn. rewrite app_nil_r. reflexivity.
  - rewrite Ha. cbn [register]. rewrite app_nil_r, IH by (cbn in Hf; lia). rewrite <- app_assoc. reflexivity.
Qed.
Definition quiet (e : event H) : Prop := match e with Terminated _ | Flushed => False | _ => True end.
Lemma register_quiet hs : forall t t' es, register t hs = (t', es) -> Forall quiet es.
Proof.
  induction hs as [|h hs IH]; intros t t' es E; cbn [register] in E; [injection E as <- <-; constructor|].
  unfold atexit in E. destruct (32 <=? Z.of_nat (length t)).
  - destruct (register t hs) as [t2 e2] eqn:R. injection E as <- <-. constructor; [exact I|apply (IH _ _ _ R)].
  - destruct (register (h :: t) hs) as [t2 e2] eqn:R. injection E as <- <-. constructor; [exact I|apply (IH _ _ _ R)].
Qed.
Lemma run_quiet acts : forall fuel t past es, Forall quiet past -> run_handlers fuel acts t past = Ok es -> Forall quiet es.
Proof.
  induction fuel as [|f IH]; intros t past es O E; [discriminate|]. cbn [run_handlers] in E. destruct t as [|h t].
  - injection E as <-. exact O.
  - destruct (register t (acts (past ++ [Ran h]) h)) as [t' e'] eqn:R. apply (IH _ _ _) in E; [exact E|].
    apply Forall_app. split; [apply Forall_app; split; [exact O|constructor; [exact I|constructor]]|apply (register_quiet _ _ _ _ R)].
Qed.
Lemma reach_opened past t : reach past t -> opened (acts_of past) t.
Proof.
  induction 1 as [|past t h t' r es R IH E|past t h R IH].
  - constructor. constructor.
  - unfold atexit in E. destruct (32 <=? Z.of_nat (length t)); injection E as <- <- <-; rewrite acts_app; cbn.
    + rewrite app_nil_r. exact IH.
    + apply opened_reg. exact IH.
  - rewrite acts_app. cbn. apply opened_run. exact IH.
Qed.
(** every unit of fuel runs a handler *)
Lemma run_progress (acts : list (event H) -> H -> list H) : forall fuel t past, run_handlers fuel acts t past <> UB.
Proof.
  induction fuel as [|f IH]; intros t past; [discriminate|]. cbn [run_handlers]. destruct t as [|h t]; [discriminate|].
  destruct (register t _) as [t' e']. apply IH.
Qed.
End P.

(** ** Signals *)
Section S.
Context {H : Type}.
Implicit Types (s : @sigs H).
Lemma abort_default fuel run s : s 6 = DFL -> raise fuel run s 6 [] = Fuel.
Proof.
  intros E. induction fuel as [|f IH]; [reflexivity|]. cbn [raise]. unfold sig_handler. cbn [Z.ltb Z.leb orb].
  change ((6 <? 0) || (32 <=? 6)) with false. cbv iota. rewrite E. cbn [Z.eqb Pos.eqb orb]. rewrite IH. reflexivity.
Qed.
End S.

(** ** sbrk *)
Lemma sbrk_ok h grow inc : 0 <= brk h <= 65536 * pages h -> 65536 * pages h < 2^32 -> 0 <= inc -> brk h + inc + 65535 < 2^32 ->
  let '(p, h') := sbrk h grow inc in
  (p = brk h /\ brk h' = brk h + inc /\ pages h <= pages h' /\ brk h' <= 65536 * pages h' /\ 65536 * pages h' < 2^32) \/
  (p = 2^32 - 1 /\ h' = h /\ 65536 * pages h < brk h + inc).
Proof.
  intros Hb Hp Hi Hs. unfold sbrk, u32. rewrite (Z.mod_small (65536 * pages h)) by lia. rewrite (Z.mod_small (brk h + inc)) by lia.
  destruct (Z.ltb_spec (65536 * pages h) (brk h + inc)) as [L|L].
  - rewrite (Z.mod_small (brk h + inc - 65536 * pages h)) by lia.
    rewrite (Z.mod_small (65535 + _)) by lia.
    set (n := (65535 + (brk h + inc - 65536 * pages h)) / 65536).
    assert (D : 65535 + (brk h + inc - 65536 * pages h) = 65536 * n + (65535 + (brk h + inc - 65536 * pages h)) mod 65536)
      by (apply Z_div_mod_eq_full).
    pose proof (Z.mod_pos_bound (65535 + (brk h + inc - 65536 * pages h)) 65536).
    destruct (grow n); cbn [brk pages].
    + left. repeat split; try lia.
    + right. repeat split; try lia.
  - left. cbn [brk pages]. repeat split; lia.
Qed.
