(** C136: perror. *)
From Coq Require Import ZArith List String Lia Bool.
From Verif Require Import Base Str_Model Str_Spec Printf_Model Printf_Fixed_Model Printf_Spec Printf_Props Strerror_Model Strerror_Props Perror_Model.
Import ListNotations.
Open Scope Z_scope.
Local Notation len := List.length.

(** the string l at a, in memory whose words are readable as wholes *)
Definition readable (m : mem) (a : Z) (l : list Z) : Prop :=
  0 < a < 2^32 /\ cstr m a l /\ forall x, a <= x -> x / 8 <= (a + Z.of_nat (len l)) / 8 -> m x <> None.

Local Definition plain_dir : directive := mk_dir [] Omitted None [].
Lemma prints_s fuel m a l rest : readable m a l -> Z.of_nat (len l) <= INT_MAX -> (len l + 8 < fuel)%nat ->
  prints room_i room_u fuel m (Conv plain_dir 115) (A32 a :: rest) l rest.
Proof.
  intros (A & [C N] & W) HL HF. eapply P_s with (a := a).
  - unfold dir_ok. cbn. split; [constructor|]. tauto.
  - reflexivity.
  - reflexivity.
  - lia.
  - unfold string_arg. cbn [prec]. split; [|split; [|split]].
    + intros i Hi. rewrite (C i) by (rewrite app_length; cbn; lia). rewrite app_nth1 by exact Hi. reflexivity.
    + eapply Forall_impl; [|exact N]. cbn. lia.
    + right. unfold INT_MAX in HL. split; [cbn -[Z.of_nat List.length] ; lia|]. rewrite (C (len l)) by (rewrite app_length; cbn; lia). rewrite app_nth2, Nat.sub_diag by lia. reflexivity.
    + intros x Hx. apply W. exact (proj1 Hx).
  - cbn. lia.
  - exact HF.
Qed.

(** perror writes the message, a colon and a space, then the description of the
    error and a newline; only the latter for a null or empty message. *)
Theorem C136_perror : forall fuel m e err msg s, mem_ok m -> readable m err (strerror e) ->
  (msg = 0 /\ s = [] \/ readable m msg s) -> (len s + len (strerror e) + 8 < fuel)%nat -> Z.of_nat (len s + len (strerror e)) + 3 <= INT_MAX ->
  exists ps st, perror fuel m err msg = Ok (m, ps, st) /\
    List.concat ps = (match s with [] => [] | _ => s ++ chars ": " end) ++ strerror e ++ [10].
Proof.
  intros fuel m e err msg s Hm RE RM HF HL. unfold INT_MAX in HL.
  set (t := strerror e) in *. clearbody t.
  assert (PE : forall a l rest, readable m a l -> (len l <= len s + len t)%nat -> prints room_i room_u fuel m (Conv plain_dir 115) (A32 a :: rest) l rest) by (intros; apply prints_s; [assumption|unfold INT_MAX; lia|lia]).
  assert (EC : exists c, (if msg =? 0 then Ok 0 else load m msg) = Ok c /\ (c = 0 <-> s = [])).
  { destruct RM as [[-> ->]|(A & [C N] & _)]; [exists 0; split; [reflexivity|tauto]|]. replace (msg =? 0) with false by lia. unfold load.
    specialize (C 0%nat). rewrite Z.add_0_r in C. rewrite C by (rewrite app_length; cbn; lia). eexists. split; [reflexivity|].
    destruct s as [|b s]; cbn; [tauto|]. inversion N; subst. split; [lia|discriminate]. }
  destruct EC as (c & EC & HC). unfold perror. rewrite EC. cbn [bind].
  destruct s as [|b s'].
  - replace (c =? 0) with true by (symmetry; apply Z.eqb_eq; apply HC; reflexivity).
    assert (PA : prints_all room_i room_u fuel m [Conv plain_dir 115; Text [10]] [A32 err] (t ++ [10] ++ [])).
    { eapply PA_cons; [apply PE; [exact RE|cbn; lia]|]. eapply PA_cons; [apply P_text; cbn; lia|apply PA_nil]. }
    destruct (C82_formatter_partial fuel m _ _ _ Hm PA ltac:(rewrite app_length; cbn [len app] in *; unfold INT_MAX; lia)) as (ps & E & CC).
    exists ps, (Z.of_nat (len (t ++ [10] ++ []))). split; [exact E|]. rewrite CC. reflexivity.
  - replace (c =? 0) with false by (symmetry; apply Z.eqb_neq; intros Z0; apply HC in Z0; discriminate). set (s := b :: s') in *.
    destruct RM as [[_ K]|RM]; [discriminate|].
    assert (PA : prints_all room_i room_u fuel m [Conv plain_dir 115; Text [58; 32]; Conv plain_dir 115; Text [10]] [A32 msg; A32 err] (s ++ [58; 32] ++ t ++ [10] ++ [])).
    { eapply PA_cons; [apply PE; [exact RM|lia]|]. eapply PA_cons; [apply P_text; cbn; lia|]. eapply PA_cons; [apply PE; [exact RE|lia]|]. eapply PA_cons; [apply P_text; cbn; lia|apply PA_nil]. }
    destruct (C82_formatter_partial fuel m _ _ _ Hm PA ltac:(rewrite !app_length; cbn [len]; unfold INT_MAX; lia)) as (ps & E & CC).
    exists ps, (Z.of_nat (len (s ++ [58; 32] ++ t ++ [10] ++ []))). split; [exact E|]. rewrite CC, <- app_assoc. reflexivity.
Qed.
Print Assumptions C136_perror.

(** perror("ab") after ERANGE: the strings at 104 and 112 *)
Local Definition image : list Z := [97; 98; 0; 0; 0; 0; 0; 0] ++ strerror 34 ++ [0; 0; 0].
Local Definition mem1 : mem := fun x => if x <? 104 then None else nth_error image (Z.to_nat (x - 104)).
Example C136_example : mem_ok mem1 /\ readable mem1 112 (strerror 34) /\ readable mem1 104 [97; 98] /\
  (do (p, st) <- perror 99 mem1 112 104; Ok (List.concat (snd p))) = Ok (chars "ab: Numerical result out of range" ++ [10]).
Proof.
  assert (L : len image = 40%nat) by (vm_compute; reflexivity).
  assert (B : forallb (fun b => (0 <=? b) && (b <? 256)) image = true) by (vm_compute; reflexivity).
  assert (W : forall x, 104 <= x < 144 -> mem1 x <> None) by (intros x Hx; unfold mem1; replace (x <? 104) with false by lia; apply nth_error_Some; rewrite L; lia).
  split; [|split; [|split]].
  - intros x b H. unfold mem1 in H. destruct (x <? 104) eqn:E; [discriminate|]. assert (Z.to_nat (x - 104) < 40)%nat by (rewrite <- L; apply nth_error_Some; congruence).
    apply nth_error_In in H. rewrite forallb_forall in B. apply B in H. lia.
  - assert (S : Z.of_nat (len (strerror 34)) = 29) by (vm_compute; reflexivity).
    split; [lia|]. split; [split|].
    + intros i Hi. rewrite app_length in Hi. change (len (strerror 34)) with 29%nat in Hi. cbn in Hi. do 30 (destruct i as [|i]; [vm_compute; reflexivity|]). lia.
    + apply Forall_forall. intros b Hb. pose proof (proj2 (C135_strerror_text 34) b Hb). lia.
    + intros x Hx Hw. apply W. rewrite S in Hw. change ((112 + 29) / 8) with 17 in Hw. assert (x < 144); [|lia]. pose proof (Z.div_mod x 8 ltac:(lia)). pose proof (Z.mod_pos_bound x 8 ltac:(lia)). lia.
  - split; [lia|]. split; [split|].
    + intros i Hi. cbn in Hi. do 3 (destruct i as [|i]; [vm_compute; reflexivity|]). lia.
    + repeat constructor; lia.
    + intros x Hx Hw. apply W. change ((104 + Z.of_nat (len [97; 98])) / 8) with 13 in Hw. pose proof (Z.div_mod x 8 ltac:(lia)). pose proof (Z.mod_pos_bound x 8 ltac:(lia)). lia.
  - vm_compute. reflexivity.
Qed.
