(** C135: strerror. *)
From Coq Require Import ZArith List String Lia Bool.
From Verif Require Import Strerror_Model.
Import ListNotations.
Open Scope Z_scope.

(** one line of printable ASCII text *)
Definition printable (s : list Z) : Prop := s <> [] /\ forall c, In c s -> 32 <= c <= 126.
(** the codes with a message of their own: 0 and 49 of those of errno.h *)
Definition described (e : Z) : Prop := In e [0; 1; 2; 3; 4; 5; 6; 7; 8; 9; 10; 11; 12; 13; 14; 16; 17; 18; 19; 20; 21; 22; 23; 24; 25; 26; 27; 28; 29; 30; 31; 32; 33; 34; 35; 36; 37; 38; 39; 40; 84; 75; 88; 90; 107; 110; 111; 114; 115; 125].
(** the codes errno.h defines *)
Definition defined (e : Z) : Prop := In e [1; 2; 3; 4; 5; 6; 7; 8; 9; 10; 11; 12; 13; 14; 15; 16; 17; 18; 19; 20; 21; 22; 23; 24; 25; 26; 27; 28; 29; 30; 31; 32; 33; 34; 35; 36; 37; 38; 39; 40; 42; 43; 44; 45; 46; 47; 48; 49; 50; 51; 52; 53; 54; 55; 56; 57; 59; 60; 61; 62; 63; 64; 65; 66; 67; 68; 69; 70; 71; 72; 73; 74; 75; 76; 77; 78; 79; 80; 81; 82; 83; 84; 85; 86; 87; 88; 89; 90; 91; 92; 93; 94; 95; 96; 97; 98; 99; 100; 101; 102; 103; 104; 105; 106; 107; 108; 109; 110; 111; 112; 113; 114; 115; 116; 117; 118; 119; 120; 121; 122; 123; 124; 125; 126; 127; 128; 129; 130; 131].

Lemma find_in e s : strerror e = s -> In (e, s) messages \/ (s = unknown /\ ~ In e (map fst messages)).
Proof.
  unfold strerror. destruct (find (fun p => fst p =? e) messages) as [[k t]|] eqn:F; intros <-.
  - left. apply find_some in F. destruct F as [F1 F2]. apply Z.eqb_eq in F2. cbn in F2. subst k. exact F1.
  - right. split; [reflexivity|]. intros I. apply in_map_iff in I. destruct I as ([k t] & E & I). apply (find_none _ _ F) in I. cbn in *. apply Z.eqb_neq in I. contradiction.
Qed.
Definition leqb := list_eq_dec Z.eq_dec.
Definition differ (l : list (Z * list Z)) : bool := forallb (fun p => forallb (fun q => (fst p =? fst q) || negb (if leqb (snd p) (snd q) then true else false)) l) l.
Lemma differ_ok : differ ((-1, unknown) :: messages) = true. Proof. vm_compute. reflexivity. Qed.
Lemma printable_ok : forallb (fun p => match snd p with [] => false | _ => true end && forallb (fun c => (32 <=? c) && (c <=? 126)) (snd p)) ((-1, unknown) :: messages) = true. Proof. vm_compute. reflexivity. Qed.
Lemma keys : map fst messages = [0; 1; 2; 3; 4; 5; 6; 7; 8; 9; 10; 11; 12; 13; 14; 16; 17; 18; 19; 20; 21; 22; 23; 24; 25; 26; 27; 28; 29; 30; 31; 32; 33; 34; 35; 36; 37; 38; 39; 40; 84; 75; 88; 90; 107; 110; 111; 114; 115; 125]. Proof. reflexivity. Qed.
Lemma differ_use p q : In p ((-1, unknown) :: messages) -> In q ((-1, unknown) :: messages) -> snd p = snd q -> fst p = fst q.
Proof.
  intros I J E. pose proof differ_ok as D. unfold differ in D. rewrite forallb_forall in D. specialize (D p I). cbv beta in D. rewrite forallb_forall in D. specialize (D q J). cbv beta in D.
  destruct (leqb (snd p) (snd q)); [|contradiction]. rewrite orb_false_r in D. apply Z.eqb_eq. exact D.
Qed.

(** Whatever the code, the message is a line of text; described codes have
    messages of their own and all others the same one. *)
Theorem C135_strerror_text : forall e, printable (strerror e).
Proof.
  intros e. assert (I : exists k, In (k, strerror e) ((-1, unknown) :: messages)) by (destruct (find_in e _ eq_refl) as [I|[-> _]]; [exists e; right; exact I|exists (-1); left; reflexivity]).
  destruct I as [k I]. pose proof printable_ok as P. rewrite forallb_forall in P. specialize (P _ I). cbv beta in P. cbn [snd] in P. apply andb_prop in P. destruct P as [P1 P2].
  split; [intros Z0; rewrite Z0 in P1; discriminate|]. intros c Hc. rewrite forallb_forall in P2. specialize (P2 c Hc). lia.
Qed.
Print Assumptions C135_strerror_text.
Theorem C135_strerror_distinct : forall e f, described e -> strerror e = strerror f -> e = f.
Proof.
  intros e f De E. unfold described in De. rewrite <- keys in De.
  destruct (find_in e _ eq_refl) as [I|[_ N]]; [|contradiction].
  destruct (find_in f _ eq_refl) as [J|[U N]].
  - exact (differ_use _ _ (or_intror I) (or_intror J) E).
  - exfalso. rewrite E, U in I. pose proof (differ_use _ (-1, unknown) (or_intror I) (or_introl eq_refl) eq_refl) as X. cbn in X. subst e. rewrite keys in De. cbn in De. lia.
Qed.
Print Assumptions C135_strerror_distinct.
Theorem C135_strerror_unknown : forall e f, ~ described e -> ~ described f -> strerror e = strerror f.
Proof.
  intros e f De Df. unfold described in *. rewrite <- keys in De, Df.
  destruct (find_in e _ eq_refl) as [I|[U _]]; [exfalso; apply De; apply in_map_iff; eexists; split; [|exact I]; reflexivity|].
  destruct (find_in f _ eq_refl) as [J|[V _]]; [exfalso; apply Df; apply in_map_iff; eexists; split; [|exact J]; reflexivity|]. congruence.
Qed.
Print Assumptions C135_strerror_unknown.
(** EDOM, ERANGE and EILSEQ, the codes of ISO C *)
Example C135_example : described 33 /\ described 34 /\ described 84 /\ ~ described (-7) /\
  strerror 34 = chars "Numerical result out of range" /\ strerror (-7) = chars "Unknown error".
Proof. unfold described. cbn. repeat split; try lia; try reflexivity; auto 60. Qed.

(** Not every code of errno.h is described: ENOTBLK and ENOMSG share a message. *)
Theorem C135_strerror_refuted : exists e f, defined e /\ defined f /\ e <> f /\ strerror e = strerror f.
Proof. exists 15, 42. unfold defined. split; [cbn; auto 200|]. split; [cbn; auto 200|]. split; [discriminate|reflexivity]. Qed.
Print Assumptions C135_strerror_refuted.
