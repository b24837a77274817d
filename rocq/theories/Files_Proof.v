(** Proofs for opening, closing, renaming, removing and examining files. *)
From Coq Require Import String Permutation.
From Verif Require Import Base Wasi_Model Wasi_Spec Wasi_Proof Files_Model Files_Spec.
From Verif Require Stdio_Model Wasi_Props.
Open Scope Z_scope.
Open Scope list_scope.

Lemma wasi_errno_ok e : 0 <= e <= 76 -> exists x, wasi_errno e = Ok x /\ (e = 0 -> x = 0) /\ (0 < e -> errno_for e x) /\ (x = 21 <-> e = 31).
Proof.
  intros H. assert (L : exists name, nth_error wasi_names (Z.to_nat e) = Some name).
  { destruct (nth_error wasi_names (Z.to_nat e)) eqn:E; [eauto|]. apply nth_error_None in E. cbn [wasi_names List.length] in E. lia. }
  destruct L as [name L]. destruct (Wasi_Props.C61_errno_partial e name ltac:(lia) L) as (x & E & Z0 & P).
  exists x. split; [exact E|]. split; [exact Z0|]. split; [intros; exists name; repeat split; [assumption|exact L|apply P; assumption]|].
  assert (A : forallb (fun e => match wasi_errno e with Ok x => Bool.eqb (x =? 21) (e =? 31) | _ => false end) (map Z.of_nat (seq 0 77)) = true) by (vm_compute; reflexivity).
  rewrite forallb_forall in A. specialize (A e). rewrite E in A.
  assert (I : In e (map Z.of_nat (seq 0 77))) by (apply in_map_iff; exists (Z.to_nat e); split; [lia|apply in_seq; lia]).
  specialize (A I). apply Bool.eqb_prop in A. lia.
Qed.

Lemma outcome_ok e w : 0 <= e <= 76 -> exists r w', outcome e w = Ok (r, w') /\ reports e w r w' /\ only_asked w [] w'.
Proof.
  intros H. unfold outcome. destruct (Z.eqb_spec e 0) as [->|N].
  - exists 0, w. repeat split. left. auto.
  - destruct (wasi_errno_ok e H) as (x & E & _ & P & _). unfold seterrno. rewrite E. cbn.
    exists (-1), (set_errno w x). repeat split. right. split; [exact N|]. split; [reflexivity|]. cbn. apply P. lia.
Qed.

Lemma ask_eq h w c : forall e v, h (trace w) c = (e, v) ->
  ask h w c = (e, v, mk_world ((c, e, v) :: trace w) (errno w) (streams w) (heap w) (next w) (oom w)).
Proof. intros e v E. unfold ask. rewrite E. reflexivity. Qed.

Lemma ask_outcome h w c : honest h -> exists e v r w', h (trace w) c = (e, v) /\
  (let '(e, _, w) := ask h w c in outcome e w) = Ok (r, w') /\ reports e w r w' /\ only_asked w [(c, e, v)] w'.
Proof.
  intros Hh. pose proof (Hh (trace w) c) as B. destruct (h (trace w) c) as [e v] eqn:E. destruct B as [B _].
  rewrite (ask_eq _ _ _ _ _ E).
  destruct (outcome_ok e (mk_world ((c, e, v) :: trace w) (errno w) (streams w) (heap w) (next w) (oom w)) B) as (r & w' & O & R & A).
  exists e, v, r, w'. split; [reflexivity|]. split; [exact O|]. split; [exact R|]. exact A.
Qed.

(** ** Life cycle *)
Definition inv (w : world) : Prop :=
  Permutation (open_fds (trace w)) (stream_fds w) /\ NoDup (open_fds (trace w)) /\ NoDup (heap w) /\
  (forall p, In p (heap w) -> 4 <= p < next w /\ exists s, streams w p = Some s) /\ closes_open (trace w) /\ (4 <= next w /\ oom w = []).

Lemma remove_notin (x : Z) l : ~ In x l -> List.remove Z.eq_dec x l = l.
Proof. apply notin_remove. Qed.
Lemma remove_perm (x : Z) l : NoDup l -> In x l -> Permutation l (x :: List.remove Z.eq_dec x l).
Proof.
  induction l as [|a l IH]; intros N I; [destruct I|]. inversion N; subst. cbn. destruct (Z.eq_dec x a) as [->|Ne].
  - rewrite remove_notin by assumption. reflexivity.
  - destruct I as [->|I]; [congruence|]. etransitivity; [apply perm_skip, (IH H2 I)|]. apply perm_swap.
Qed.
Lemma NoDup_remove_ (x : Z) l : NoDup l -> NoDup (List.remove Z.eq_dec x l).
Proof.
  induction l as [|a l IH]; intros N; [exact N|]. inversion N; subst. cbn. destruct (Z.eq_dec x a); [auto|].
  constructor; [|auto]. intros I. apply in_remove in I. tauto.
Qed.
Lemma existsb_In p l : In p l -> existsb (Z.eqb p) l = true.
Proof. intros I. apply existsb_exists. exists p. split; [exact I|apply Z.eqb_refl]. Qed.
Lemma map_ext_in' {A B} (f g : A -> B) l : (forall a, In a l -> f a = g a) -> map f l = map g l.
Proof. apply map_ext_in. Qed.

Definition fd_of (w : world) (p : Z) : Z := match streams w p with Some s => sfd s | None => -1 end.
(** the part of the invariant that a change of errno or an unrelated request keeps *)
Lemma inv_asked w tr w' : inv w -> only_asked w tr w' -> (forall t, open_fds (rev tr ++ t) = open_fds t) -> (forall t, closes_open t -> closes_open (rev tr ++ t)) -> inv w'.
Proof.
  intros (P & N & NH & S & C & L) (T & E1 & E2 & E3 & E4) O1 O2. unfold inv, stream_fds. rewrite T, E1, E2, E3, E4, O1.
  split; [exact P|]. split; [exact N|]. split; [exact NH|]. split; [exact S|]. split; [apply O2; exact C|exact L].
Qed.

Lemma closed w p s e v : inv w -> In p (heap w) -> streams w p = Some s ->
  Permutation (open_fds ((Close (sfd s), e, v) :: trace w)) (map (fd_of w) (List.remove Z.eq_dec p (heap w))) /\
  NoDup (open_fds ((Close (sfd s), e, v) :: trace w)) /\ closes_open ((Close (sfd s), e, v) :: trace w) /\ In (sfd s) (open_fds (trace w)).
Proof.
  intros (P & N & NH & S & C & L) I E. cbn [open_fds closes_open].
  assert (In (sfd s) (open_fds (trace w))) as J.
  { apply (Permutation_in _ (Permutation_sym P)). unfold stream_fds. apply in_map_iff. exists p. rewrite E. auto. }
  split; [|repeat split; auto using NoDup_remove_].
  apply (Permutation_cons_inv (a := sfd s)). etransitivity; [symmetry; apply remove_perm; assumption|].
  etransitivity; [exact P|]. change (sfd s) with (match Some s with Some s => sfd s | None => -1 end). rewrite <- E.
  change (Permutation (stream_fds w) (map (fd_of w) (p :: List.remove Z.eq_dec p (heap w)))). apply Permutation_map, remove_perm; assumption.
Qed.

Lemma open_path_ok h entries w path flags : honest h -> exists r w', open_path_ h entries w path flags = Ok (r, w') /\
  ((r = -1 /\ (exists tr, only_asked w tr w' /\ (forall t, open_fds (rev tr ++ t) = open_fds t) /\ (forall t, closes_open t -> closes_open (rev tr ++ t)))) \/
   (exists c v, only_asked w [(c, 0, v)] w' /\ r = v /\ 0 <= v < 2^31 /\ ~ In v (open_fds (trace w)) /\ errno w' = errno w /\
     exists d rel o ri f, c = PathOpen d rel o ri f)).
Proof.
  intros Hh. unfold open_path_. destruct (Wasi_Props.C60_lookup_partial entries path) as (r & E & _). rewrite E. cbn [bind].
  destruct r as [[dir rel]|].
  2:{ exists (-1), (set_errno w 2). split; [reflexivity|]. left. split; [reflexivity|]. exists []. repeat split; auto. }
  destruct (Stdio_Model.open_flags flags) as [[[rights oflags] fdflags]|].
  2:{ exists (-1), (set_errno w 22). split; [reflexivity|]. left. split; [reflexivity|]. exists []. repeat split; auto. }
  pose proof (Hh (trace w) (PathOpen dir rel oflags rights fdflags)) as B.
  destruct (h (trace w) (PathOpen dir rel oflags rights fdflags)) as [e v] eqn:A. destruct B as [B B2]. rewrite (ask_eq _ _ _ _ _ A).
  destruct (Z.eqb_spec e 0) as [->|Ne].
  - specialize (B2 eq_refl). destruct B2 as [B2 B3]. rewrite (sgn_id 32) by lia.
    eexists v, _. split; [reflexivity|]. right. exists (PathOpen dir rel oflags rights fdflags), v. repeat split; try assumption; try lia. eauto 10.
  - destruct (wasi_errno_ok e B) as (x & X & _). unfold seterrno. rewrite X. cbn [bind].
    eexists (-1), _. split; [reflexivity|]. left. split; [reflexivity|]. exists [(PathOpen dir rel oflags rights fdflags, e, v)].
    split; [repeat split|]. cbn. replace (e =? 0) with false by lia. split; auto.
Qed.

(** Each call: no undefined behaviour and the invariant is kept. *)
Definition good (h : host) (entries : list preopen) (w : world) (o : op) : Prop :=
  exists r w', step h entries w o = Ok (r, w') /\ inv w'.

Lemma free_ok w p : In p (heap w) -> free w p =
  Ok (mk_world (trace w) (errno w) (fun q => if q =? p then None else streams w q) (List.remove Z.eq_dec p (heap w)) (next w) (oom w)).
Proof. intros I. unfold free. rewrite existsb_In by exact I. reflexivity. Qed.
Lemma store_ok w p s : In p (heap w) -> store w p s =
  Ok (mk_world (trace w) (errno w) (fun q => if q =? p then Some s else streams w q) (heap w) (next w) (oom w)).
Proof. intros I. unfold store. rewrite existsb_In by exact I. rewrite Bool.orb_true_r. reflexivity. Qed.

(** state after the close request of stream p, before its FILE is released *)
Definition closing (w : world) (p : Z) : Prop :=
  Permutation (open_fds (trace w)) (map (fd_of w) (List.remove Z.eq_dec p (heap w))) /\ NoDup (open_fds (trace w)) /\ NoDup (heap w) /\
  (forall p, In p (heap w) -> 4 <= p < next w /\ exists s, streams w p = Some s) /\ closes_open (trace w) /\ (4 <= next w /\ oom w = []) /\ In p (heap w).

Lemma close_ok h w p s : honest h -> inv w -> In p (heap w) -> streams w p = Some s -> exists e v r w', stdio_close h w s = Ok (r, w') /\
  h (trace w) (Close (sfd s)) = (e, v) /\ reports e w r w' /\ only_asked w [(Close (sfd s), e, v)] w' /\ closing w' p.
Proof.
  intros Hh Hi I E. unfold stdio_close. destruct (ask_outcome h w (Close (sfd s)) Hh) as (e & v & r & w' & A & O & R & T).
  exists e, v, r, w'. split; [exact O|]. split; [exact A|]. split; [exact R|]. split; [exact T|].
  destruct (closed w p s e v Hi I E) as (P & N & C & _). destruct Hi as (_ & _ & NH & S & _ & L).
  destruct T as (T1 & T2 & T3 & T4 & T5). cbn [rev List.app] in T1. unfold closing, fd_of. rewrite T1, T2, T3, T4, T5. 
  split; [exact P|]. split; [exact N|]. split; [exact NH|]. split; [exact S|]. split; [exact C|]. split; [exact L|exact I].
Qed.

Lemma closing_free w p : closing w p -> exists w', free w p = Ok w' /\ inv w' /\ trace w' = trace w /\ errno w' = errno w /\
  heap w' = List.remove Z.eq_dec p (heap w) /\ (forall q, q <> p -> streams w' q = streams w q) /\ oom w' = oom w.
Proof.
  intros (P & N & NH & S & C & L & I). rewrite free_ok by exact I. eexists. split; [reflexivity|]. cbn.
  assert (forall q, q <> p -> (if q =? p then None else streams w q) = streams w q) as Q by (intros q Hq; replace (q =? p) with false by lia; reflexivity).
  split; [|repeat split; auto].
  unfold inv, stream_fds. cbn. split.
  { etransitivity; [exact P|]. apply Permutation_refl'. apply map_ext_in. intros q J. apply in_remove in J. rewrite Q by tauto. reflexivity. }
  split; [exact N|]. split; [apply NoDup_remove_, NH|]. split; [|split; [exact C|exact L]].
  intros q J. apply in_remove in J. rewrite Q by tauto. apply S. tauto.
Qed.

(** a fresh descriptor stored in the stream being reopened *)
Lemma closing_reopen w p w1 c v st : closing w p -> only_asked w [(c, 0, v)] w1 -> ~ In v (open_fds (trace w)) ->
  (exists d rel o ri f, c = PathOpen d rel o ri f) -> exists w', store w1 p (mk_stream v st) = Ok w' /\ inv w'.
Proof.
  intros (P & N & NH & S & C & L & I) (T & E1 & E2 & E3 & E4) F (d & rel & o & ri & f & ->). rewrite store_ok by (rewrite E2; exact I).
  eexists. split; [reflexivity|]. unfold inv, stream_fds. cbn. rewrite T, E1, E2, E3, E4. cbn. split.
  - etransitivity; [apply perm_skip, P|]. symmetry. etransitivity; [apply Permutation_map, (remove_perm p (heap w) NH I)|].
    cbn. rewrite Z.eqb_refl. cbn. apply perm_skip. apply Permutation_refl'. apply map_ext_in. intros q J. apply in_remove in J.
    replace (q =? p) with false by lia. reflexivity.
  - split; [constructor; assumption|]. split; [exact NH|]. split; [|split; [exact C|exact L]].
    intros q J. split; [apply S; exact J|]. destruct (q =? p); [eauto|apply S; exact J].
Qed.

Lemma fopen_good h entries w path mode : honest h -> inv w -> good h entries w (Fopen path mode).
Proof.
  intros Hh Hi. pose proof Hi as (_ & _ & _ & _ & _ & _ & Ho). unfold good. cbn [step]. unfold fopen.
  destruct (open_path_ok h entries w path (Stdio_Model.modeflags_ mode) Hh) as (r & w1 & E & [(-> & tr & T & T2 & T3)|(c & v & T & -> & V & F & _ & Hc)]); rewrite E; cbn [bind].
  - exists 0, w1. split; [reflexivity|]. eapply inv_asked; eassumption.
  - replace (v <? 0) with false by lia. destruct T as (T & E1 & E2 & E3 & E4). unfold malloc. rewrite E4, Ho, E3.
    rewrite store_ok by (cbn; auto). cbn [bind]. eexists _, _. split; [reflexivity|].
    destruct Hc as (d & rel & o & ri & f & ->). destruct Hi as (P & N & NH & S & C & L).
    assert (forall q, In q (heap w) -> q =? next w = false) as Q by (intros q J; apply S in J; lia).
    unfold inv, stream_fds. cbn. rewrite T, E1, E2. cbn. rewrite Z.eqb_refl. cbn. split.
    + apply perm_skip. etransitivity; [exact P|]. apply Permutation_refl'. apply map_ext_in. intros q J. rewrite (Q q J). reflexivity.
    + split; [constructor; assumption|]. split; [constructor; [intros J; apply Q in J; lia|exact NH]|]. split; [|split; [exact C|split; [lia|reflexivity]]].
      intros q [<-|J]; [rewrite Z.eqb_refl; split; [lia|eauto]|]. rewrite (Q q J). split; [apply S in J; lia|apply S, J].
Qed.

Lemma fclose_ok h w p s : honest h -> inv w -> In p (heap w) -> streams w p = Some s -> exists e v r w', fclose h w p = Ok (r, w') /\
  h (trace w) (Close (sfd s)) = (e, v) /\ (e = 0 /\ r = 0 /\ errno w' = errno w \/ e <> 0 /\ r = -1 /\ errno w' = 1) /\
  trace w' = (Close (sfd s), e, v) :: trace w /\ heap w' = List.remove Z.eq_dec p (heap w) /\
  (forall q, q <> p -> streams w' q = streams w q) /\ inv w'.
Proof.
  intros Hh Hi I E. unfold fclose, load. rewrite E. cbn [bind].
  destruct (close_ok h w p s Hh Hi I E) as (e & v & r & w1 & C & A & R & (T1 & T2 & T3 & T4 & T5) & Cl). rewrite C. cbn [bind].
  destruct (closing_free w1 p Cl) as (w2 & Fr & I2 & U1 & U2 & U3 & U4 & U5). rewrite Fr. cbn [bind].
  destruct R as [(-> & -> & R)|(N & -> & R)].
  - exists 0, v, 0, w2. cbn [Z.leb Z.compare]. split; [reflexivity|]. split; [exact A|]. split; [left; repeat split; congruence|].
    split; [rewrite U1; exact T1|]. split; [congruence|]. split; [intros; rewrite U4 by assumption; rewrite T2; reflexivity|exact I2].
  - exists e, v, (-1), (set_errno w2 1). split; [reflexivity|]. split; [exact A|]. split; [right; auto|]. 
    split; [cbn; rewrite U1; exact T1|]. split; [cbn; congruence|]. split; [intros; cbn; rewrite U4 by assumption; rewrite T2; reflexivity|exact I2].
Qed.

Lemma freopen_good h entries w path mode p : honest h -> inv w -> In p (heap w) -> good h entries w (Freopen path mode p).
Proof.
  intros Hh Hi I. unfold good. cbn [step]. unfold freopen, load. destruct (Hi) as (_ & _ & _ & S & _). destruct (S p I) as (_ & s & E). rewrite E. cbn [bind].
  destruct path as [path|].
  - destruct (close_ok h w p s Hh Hi I E) as (e & v & r & w1 & C & A & R & T & Cl). rewrite C. cbn [bind].
    destruct (open_path_ok h entries w1 path (Stdio_Model.modeflags_ mode) Hh) as (r2 & w2 & E2 & [(-> & tr & T2 & T3 & T4)|(c & v2 & T2 & -> & V & F & _ & Hc)]); rewrite E2; cbn [bind].
    + cbn [Z.leb Z.compare].
      assert (closing w2 p) as Cl2.
      { destruct Cl as (P & N & NH & S' & CO & L & J). destruct T2 as (U1 & U2 & U3 & U4 & U5). unfold closing, fd_of. rewrite U1, U2, U3, U4, U5, T3.
        split; [exact P|]. split; [exact N|]. split; [exact NH|]. split; [exact S'|]. split; [apply T4, CO|]. split; [exact L|exact J]. }
      destruct (closing_free w2 p Cl2) as (w3 & Fr & I3 & _). rewrite Fr. cbn [bind]. eauto.
    + replace (0 <=? v2) with true by lia. destruct (closing_reopen w1 p w2 c v2 (Stdio_Model.fopen_state (Stdio_Model.modeflags_ mode)) Cl T2 F Hc) as (w3 & St & I3).
      rewrite St. cbn [bind]. eauto.
  - set (c := SetFlags (sfd s) _). pose proof (Hh (trace w) c) as B. destruct (h (trace w) c) as [e v] eqn:A. destruct B as [B _].
    rewrite (ask_eq _ _ _ _ _ A). set (w1 := mk_world _ _ _ _ _ _).
    assert (inv w1) as I1. { apply (inv_asked w [(c, e, v)] w1 Hi); [repeat split|intros; reflexivity|intros t Ht; exact Ht]. }
    destruct (Z.eqb_spec e 0) as [->|Ne].
    + rewrite store_ok by exact I. cbn [bind]. eexists _, _. split; [reflexivity|]. destruct I1 as (P & N & NH & S1 & C & L).
      split; [|split; [exact N|split; [exact NH|split; [|split; [exact C|exact L]]]]].
      * etransitivity; [exact P|]. apply Permutation_refl'. unfold stream_fds. cbn. apply map_ext_in. intros q _. destruct (Z.eqb_spec q p) as [->|]; [rewrite E|]; reflexivity.
      * intros q J. cbn. split; [apply S1, J|]. destruct (q =? p); [eauto|apply S1, J].
    + destruct (wasi_errno_ok e B) as (x & X & _). unfold seterrno. rewrite X. cbn [bind].
      destruct (close_ok h (set_errno w1 x) p s Hh I1 I E) as (e2 & v2 & r & w2 & C & A2 & R & T & Cl). rewrite C. cbn [bind].
      destruct (closing_free w2 p Cl) as (w3 & Fr & I3 & _). rewrite Fr. cbn [bind]. eauto.
Qed.

Lemma remove_ok h entries w path dir rel : honest h -> preopen_lookup entries path = Ok (Some (dir, rel)) ->
  exists e v r w', h (trace w) (Unlink dir rel) = (e, v) /\ remove_ h entries w path = Ok (r, w') /\
  (e <> 31 /\ reports e w r w' /\ only_asked w [(Unlink dir rel, e, v)] w' \/
   e = 31 /\ exists e2 v2, h ((Unlink dir rel, e, v) :: trace w) (RemoveDir dir rel) = (e2, v2) /\
     reports e2 w r w' /\ only_asked w [(Unlink dir rel, e, v); (RemoveDir dir rel, e2, v2)] w').
Proof.
  intros Hh L. unfold remove_. rewrite L. cbn [bind]. pose proof (Hh (trace w) (Unlink dir rel)) as B.
  destruct (h (trace w) (Unlink dir rel)) as [e v] eqn:A. destruct B as [B _]. rewrite (ask_eq _ _ _ _ _ A).
  destruct (wasi_errno_ok e B) as (x & X & _ & _ & D). rewrite X. cbn [bind]. set (w1 := mk_world _ _ _ _ _ _).
  destruct (Z.eqb_spec x 21) as [X1|X1].
  - destruct (ask_outcome h w1 (RemoveDir dir rel) Hh) as (e2 & v2 & r & w' & A2 & O & R & (T1 & T2)). exists e, v, r, w'.
    split; [reflexivity|]. split; [exact O|]. right. split; [tauto|]. exists e2, v2. split; [exact A2|]. split; [exact R|]. split; [exact T1|exact T2].
  - destruct (outcome_ok e w1 B) as (r & w' & O & R & T). exists e, v, r, w'. split; [reflexivity|]. split; [exact O|]. left. split; [tauto|]. split; [exact R|exact T].
Qed.
Lemma lost_path w : reports 44 w (-1) (set_errno w 2) /\ only_asked w [] (set_errno w 2).
Proof. split; [right; split; [discriminate|split; [reflexivity|]]|repeat split]. exists "ENOENT"%string. repeat split; cbn; auto. Qed.

Lemma inv_harmless w tr w' : inv w -> only_asked w tr w' -> Forall (fun x : event => match fst (fst x) with Close _ | PathOpen _ _ _ _ _ => False | _ => True end) tr -> inv w'.
Proof.
  intros Hi T F. apply (inv_asked w tr w' Hi T).
  - intros t. apply Forall_rev in F. induction F as [|[[c e] v] l Hc F IH]; [reflexivity|]. destruct c; try contradiction; exact IH.
  - intros t Ht. apply Forall_rev in F. induction F as [|[[c e] v] l Hc F IH]; [exact Ht|]. destruct c; try contradiction; exact IH.
Qed.

Lemma step_good h entries w o : honest h -> inv w -> legal w o -> good h entries w o.
Proof.
  intros Hh Hi Hl. destruct o as [path mode|p|path mode p|path|from to|follow path].
  - apply fopen_good; assumption.
  - destruct Hi as (A & B & C & S & D). destruct (S p Hl) as (_ & s & E). 
    destruct (fclose_ok h w p s Hh (conj A (conj B (conj C (conj S D)))) Hl E) as (e & v & r & w' & F & _ & _ & _ & _ & _ & I). exists r, w'. split; [exact F|exact I].
  - apply freopen_good; assumption.
  - unfold good. cbn [step]. destruct (Wasi_Props.C60_lookup_partial entries path) as (r & E & _). destruct r as [[dir rel]|].
    + destruct (remove_ok h entries w path dir rel Hh E) as (e & v & r & w' & _ & F & [(_ & _ & T)|(_ & e2 & v2 & _ & _ & T)]); exists r, w'; (split; [exact F|]);
        apply (inv_harmless w _ w' Hi T); repeat constructor.
    + unfold remove_. rewrite E. cbn. eauto.
  - unfold good. cbn [step]. unfold rename. destruct (Wasi_Props.C60_lookup_partial entries from) as (r & E & _). rewrite E. cbn [bind]. destruct r as [[dir rel]|]; [|eauto].
    destruct (Wasi_Props.C60_lookup_partial entries to) as (r & E2 & _). rewrite E2. cbn [bind]. destruct r as [[dir' rel']|]; [|eauto].
    destruct (ask_outcome h w (Rename dir rel dir' rel') Hh) as (e & v & r & w' & _ & O & _ & T). exists r, w'. split; [exact O|]. apply (inv_harmless w _ w' Hi T). repeat constructor.
  - unfold good. cbn [step]. unfold stat_. destruct (Wasi_Props.C60_lookup_partial entries path) as (r & E & _). rewrite E. cbn [bind]. destruct r as [[dir rel]|]; [|eauto].
    destruct (ask_outcome h w (PathStat dir (b2z follow) rel) Hh) as (e & v & r & w' & _ & O & _ & T). exists r, w'. split; [exact O|]. apply (inv_harmless w _ w' Hi T). repeat constructor.
Qed.
Lemma start_inv : inv start.
Proof. repeat split; cbn; try constructor; try lia; contradiction. Qed.
