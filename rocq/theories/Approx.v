(** Rational polynomials against elementary functions: evaluation, bounds on
    an interval, Taylor remainders for exp and for the inverse hyperbolic
    tangent, and enclosures of ln 2.  Pure real analysis: nothing here is
    about the code. *)
From Coq Require Import Reals Lra Lia QArith Qreals Qabs List.
From Coquelicot Require Import Coquelicot.
Import ListNotations.
Open Scope R_scope.

(** ** Comparing functions by their derivatives *)
Lemma deriv_le (f g f' g' : R -> R) (x : R) : 0 <= x ->
  (forall t, 0 <= t <= x -> is_derive f t (f' t)) -> (forall t, 0 <= t <= x -> is_derive g t (g' t)) ->
  (forall t, 0 <= t <= x -> f' t <= g' t) -> f 0 <= g 0 -> f x <= g x.
Proof.
  intros X Df Dg L Z0.
  destruct (MVT_gen (fun t => g t - f t) 0 x (fun t => g' t - f' t)) as (c & Hc & E).
  - intros t Ht. rewrite Rmin_left, Rmax_right in Ht by lra. apply (is_derive_minus g f t (g' t) (f' t)); [apply Dg|apply Df]; lra.
  - intros t Ht. rewrite Rmin_left, Rmax_right in Ht by lra. apply derivable_continuous_pt.
    apply derivable_pt_minus; eexists; apply is_derive_Reals; [apply Dg|apply Df]; lra.
  - rewrite Rmin_left, Rmax_right in Hc by lra. specialize (L c Hc).
    assert (0 <= (g' c - f' c) * (x - 0)) by (apply Rmult_le_pos; lra). lra.
Qed.

Lemma is_derive_mono C n t : is_derive (fun t => C * t^(S n) / INR (S n)) t (C * t^n).
Proof.
  auto_derive; [exact I|]. pose proof (pos_INR n). replace (match n with O => 1 | S _ => INR n + 1 end) with (INR n + 1) by (destruct n; cbn; ring). field. lra.
Qed.

Lemma small_derivative (f f' : R -> R) C n (x : R) : 0 <= x -> f 0 = 0 ->
  (forall t, 0 <= t <= x -> is_derive f t (f' t)) -> (forall t, 0 <= t <= x -> Rabs (f' t) <= C * t^n) ->
  Rabs (f x) <= C * x^(S n) / INR (S n).
Proof.
  intros X F0 Df B.
  assert (Z0 : C * 0^(S n) / INR (S n) = 0) by (rewrite pow_i by lia; unfold Rdiv; ring).
  apply Rabs_le. split.
  - cut (- f x <= C * x^(S n) / INR (S n)); [lra|].
    apply (deriv_le (fun t => - f t) (fun t => C * t^(S n) / INR (S n)) (fun t => - f' t) (fun t => C * t^n) x X).
    + intros t Ht. apply (is_derive_opp f t (f' t)). apply Df, Ht.
    + intros t _. apply is_derive_mono.
    + intros t Ht. specialize (B t Ht). apply Rabs_le_between in B. lra.
    + rewrite F0, Z0. lra.
  - apply (deriv_le f (fun t => C * t^(S n) / INR (S n)) f' (fun t => C * t^n) x X Df).
    + intros t _. apply is_derive_mono.
    + intros t Ht. specialize (B t Ht). apply Rabs_le_between in B. lra.
    + rewrite F0, Z0. lra.
Qed.

(** two-sided version *)
Lemma small_derivative_abs (f f' : R -> R) C n (x : R) : f 0 = 0 ->
  (forall t, Rabs t <= Rabs x -> is_derive f t (f' t)) -> (forall t, Rabs t <= Rabs x -> Rabs (f' t) <= C * (Rabs t)^n) ->
  Rabs (f x) <= C * (Rabs x)^(S n) / INR (S n).
Proof.
  intros F0 Df B. destruct (Rle_dec 0 x) as [X|X].
  - rewrite (Rabs_pos_eq x X) in *. apply (small_derivative f f' C n x X F0).
    + intros t Ht. apply Df. rewrite Rabs_pos_eq; lra.
    + intros t Ht. rewrite <- (Rabs_pos_eq t) at 2 by lra. apply B. rewrite Rabs_pos_eq; lra.
  - assert (X' : 0 <= - x) by lra. assert (EX : Rabs x = - x) by (apply Rabs_left; lra). rewrite EX in *.
    replace (f x) with ((fun t => f (- t)) (- x)) by (cbv beta; f_equal; ring).
    apply (small_derivative (fun t => f (- t)) (fun t => - f' (- t)) C n (- x) X').
    + rewrite Ropp_0. exact F0.
    + intros t Ht. specialize (Df (- t)). assert (A : Rabs (- t) <= - x) by (rewrite Rabs_Ropp, Rabs_pos_eq; lra). specialize (Df A).
      replace (- f' (- t)) with (scal (-1) (f' (- t))) by (unfold scal; cbn; unfold mult; cbn; ring).
      apply (is_derive_comp f Ropp); [exact Df|]. auto_derive; [exact I|ring].
    + intros t Ht. rewrite Rabs_Ropp. assert (A : Rabs (- t) = t) by (rewrite Rabs_Ropp, Rabs_pos_eq; lra). rewrite <- A at 2. apply B. lra.
Qed.

(** ** Taylor polynomials of exp *)
Fixpoint Texp (n : nat) (x : R) : R := match n with O => 0 | S n => Texp n x + x^n / INR (fact n) end.
Lemma Texp_derive n t : is_derive (Texp (S n)) t (Texp n t).
Proof.
  induction n as [|n IH].
  - assert (E : forall u : R, 1 = Texp 1 u) by (intros u; cbn; field). apply (is_derive_ext (fun _ => 1) _ _ _ E). apply (is_derive_const 1).
  - change (is_derive (fun x => Texp (S n) x + x^(S n) / INR (fact (S n))) t (Texp n t + t^n / INR (fact n))).
    apply (is_derive_plus (Texp (S n)) (fun x => x^(S n) / INR (fact (S n)))); [exact IH|].
    assert (H := is_derive_mono (/ INR (fact n)) n t).
    replace (t^n / INR (fact n)) with (/ INR (fact n) * t^n) by (unfold Rdiv; ring).
    refine (is_derive_ext (fun t => / INR (fact n) * t^(S n) / INR (S n)) _ _ _ _ H). intros u. change (/ INR (fact n) * u^(S n) / INR (S n) = u^(S n) / INR (fact (S n))). rewrite fact_simpl, mult_INR. field. split; (apply INR_fact_neq_0 || (apply not_0_INR; discriminate)).
Qed.
Lemma Texp_0 n : Texp (S n) 0 = 1.
Proof. induction n as [|n IH]; [cbn; field|]. change (Texp (S n) 0 + 0^(S n) / INR (fact (S n)) = 1). rewrite IH, pow_i by lia. unfold Rdiv. ring. Qed.

Lemma exp_taylor n x B : (forall t, Rabs t <= Rabs x -> exp t <= B) -> Rabs (exp x - Texp n x) <= B * (Rabs x)^n / INR (fact n).
Proof.
  revert x. induction n as [|n IH]; intros x HB.
  - cbn. rewrite Rminus_0_r, Rabs_pos_eq by (left; apply exp_pos). specialize (HB x (Rle_refl _)). lra.
  - replace (B * (Rabs x)^(S n) / INR (fact (S n))) with (B / INR (fact n) * (Rabs x)^(S n) / INR (S n)).
    2:{ rewrite fact_simpl, mult_INR. field. split; (apply INR_fact_neq_0 || (apply not_0_INR; discriminate)). }
    apply (small_derivative_abs (fun x => exp x - Texp (S n) x) (fun x => exp x - Texp n x)).
    + rewrite Texp_0, exp_0. ring.
    + intros t _. apply (is_derive_minus exp (Texp (S n))); [|apply Texp_derive]. apply is_derive_Reals, derivable_pt_lim_exp.
    + intros t Ht. replace (B / INR (fact n) * (Rabs t)^n) with (B * (Rabs t)^n / INR (fact n)) by (unfold Rdiv; ring).
      apply IH. intros u Hu. apply HB. lra.
Qed.

(** ** Taylor polynomials of the inverse hyperbolic tangent *)
Definition atanh (x : R) : R := / 2 * (ln (1 + x) - ln (1 - x)).
Fixpoint Tatanh (n : nat) (x : R) : R := match n with O => 0 | S n => Tatanh n x + x^(2 * n + 1) / INR (2 * n + 1) end.
Fixpoint Gsum (n : nat) (x : R) : R := match n with O => 0 | S n => Gsum n x + x^(2 * n) end.
Lemma Tatanh_derive n t : is_derive (Tatanh n) t (Gsum n t).
Proof.
  induction n as [|n IH]; [cbn; apply (is_derive_const 0)|].
  change (is_derive (fun x => Tatanh n x + x^(2 * n + 1) / INR (2 * n + 1)) t (Gsum n t + t^(2 * n))).
  apply (is_derive_plus (Tatanh n)); [exact IH|].
  replace (2 * n + 1)%nat with (S (2 * n)) by lia.
  assert (E : forall u : R, 1 * u^(S (2 * n)) / INR (S (2 * n)) = u^(S (2 * n)) / INR (S (2 * n))) by (intros u; unfold Rdiv; ring).
  apply (is_derive_ext _ _ _ _ E).
  replace (t^(2 * n)) with (1 * t^(2 * n)) by ring. apply is_derive_mono.
Qed.
Lemma Gsum_closed n t : Gsum n t * (1 - t * t) = 1 - t^(2 * n).
Proof.
  induction n as [|n IH]; [cbn; ring|]. cbn [Gsum]. rewrite Rmult_plus_distr_r, IH. replace (2 * S n)%nat with (2 * n + 2)%nat by lia. rewrite pow_add. ring.
Qed.
Lemma atanh_derive t : -1 < t < 1 -> is_derive atanh t (/ (1 - t * t)).
Proof.
  intros H. unfold atanh. auto_derive; [split; [lra|split; [lra|exact I]]|]. field. nra.
Qed.
Lemma atanh_taylor n x r : Rabs x <= r -> r < 1 -> Rabs (atanh x - Tatanh n x) <= / (1 - r * r) * (Rabs x)^(S (2 * n)) / INR (S (2 * n)).
Proof.
  intros HX Hr.
  apply (small_derivative_abs (fun x => atanh x - Tatanh n x) (fun t => / (1 - t * t) - Gsum n t)).
  - unfold atanh. rewrite Rplus_0_r, Rminus_0_r. assert (E : Tatanh n 0 = 0).
    { induction n as [|n IH]; [reflexivity|]. cbn [Tatanh]. rewrite IH, pow_i by lia. unfold Rdiv. ring. } rewrite E. ring.
  - intros t Ht. assert (-1 < t < 1) by (apply Rabs_lt_between; lra). apply (is_derive_minus atanh (Tatanh n)); [apply atanh_derive; assumption|apply Tatanh_derive].
  - intros t Ht. assert (A : -1 < t < 1) by (apply Rabs_lt_between; lra).
    assert (P : 0 < 1 - t * t) by nra.
    replace (/ (1 - t * t) - Gsum n t) with (t^(2 * n) / (1 - t * t)).
    2:{ apply (Rmult_eq_reg_r (1 - t * t)); [|lra]. rewrite Rmult_minus_distr_r, Gsum_closed. field. lra. }
    unfold Rdiv. rewrite Rabs_mult, <- RPow_abs, Rmult_comm, (Rabs_pos_eq (/ _)) by (left; apply Rinv_0_lt_compat; exact P).
    apply Rmult_le_compat_r; [apply pow_le, Rabs_pos|]. apply Rinv_le_contravar; [pose proof (Rabs_pos x); nra|].
    assert (Rabs t * Rabs t = t * t) by (rewrite <- Rabs_mult, Rabs_pos_eq; nra). pose proof (Rabs_pos t). nra.
Qed.

(** ** Polynomials with rational coefficients, constant term first *)
Fixpoint peval (l : list Q) (x : R) : R := match l with [] => 0 | c :: l => Q2R c + x * peval l x end.
Lemma Q2R_red q : Q2R (Qred q) = Q2R q.
Proof. apply Qeq_eqR, Qred_correct. Qed.
Lemma Q2R_0 : Q2R 0 = 0.
Proof. unfold Q2R. cbn. lra. Qed.
Lemma Q2R_1 : Q2R 1 = 1.
Proof. unfold Q2R. cbn. lra. Qed.
Lemma Q2R_abs q : Q2R (Qabs q) = Rabs (Q2R q).
Proof.
  destruct (Qlt_le_dec q 0) as [H|H].
  - rewrite (Qeq_eqR _ _ (Qabs_neg q (Qlt_le_weak _ _ H))), Q2R_opp. apply Qlt_Rlt in H. rewrite Q2R_0 in H. rewrite Rabs_left by exact H. reflexivity.
  - rewrite (Qeq_eqR _ _ (Qabs_pos q H)). apply Qle_Rle in H. rewrite Q2R_0 in H. rewrite Rabs_pos_eq by exact H. reflexivity.
Qed.

(** rounding to the grid 2^-128, up and down, to keep the numbers short *)
Definition rup (q : Q) : Q := (- ((- Qnum q * 2^128) / Zpos (Qden q)))%Z # (2^128).
Definition rdn (q : Q) : Q := ((Qnum q * 2^128) / Zpos (Qden q))%Z # (2^128).
Lemma rdn_ok q : Q2R (rdn q) <= Q2R q.
Proof.
  apply Qle_Rle. unfold Qle, rdn. cbn [Qnum Qden]. rewrite Pos2Z.inj_pow. pose proof (Z.mul_div_le (Qnum q * 2^128) (Zpos (Qden q)) ltac:(lia)). lia.
Qed.
Lemma rup_ok q : Q2R q <= Q2R (rup q).
Proof.
  apply Qle_Rle. unfold Qle, rup. cbn [Qnum Qden]. rewrite Pos2Z.inj_pow. pose proof (Z.mul_div_le (- Qnum q * 2^128) (Zpos (Qden q)) ltac:(lia)). lia.
Qed.
Fixpoint qevU (l : list Q) (x : Q) : Q := match l with [] => 0%Q | c :: l => rup (c + x * qevU l x) end.
Fixpoint qevD (l : list Q) (x : Q) : Q := match l with [] => 0%Q | c :: l => rdn (c + x * qevD l x) end.
Lemma qevU_ok l x : 0 <= Q2R x -> peval l (Q2R x) <= Q2R (qevU l x).
Proof.
  intros H. induction l as [|c l IH]; [cbn; rewrite Q2R_0; apply Rle_refl|]. cbn [qevU peval]. eapply Rle_trans; [|apply rup_ok]. rewrite Q2R_plus, Q2R_mult.
  apply Rplus_le_compat_l, Rmult_le_compat_l; assumption.
Qed.
Lemma qevD_ok l x : 0 <= Q2R x -> Q2R (qevD l x) <= peval l (Q2R x).
Proof.
  intros H. induction l as [|c l IH]; [cbn; rewrite Q2R_0; apply Rle_refl|]. cbn [qevD peval]. eapply Rle_trans; [apply rdn_ok|]. rewrite Q2R_plus, Q2R_mult.
  apply Rplus_le_compat_l, Rmult_le_compat_l; assumption.
Qed.

Fixpoint padd (a b : list Q) : list Q :=
  match a, b with [], _ => b | _, [] => a | x :: a, y :: b => Qred (x + y) :: padd a b end.
Definition pscale (c : Q) (a : list Q) : list Q := map (fun x => Qred (c * x)) a.
Fixpoint pmul (a b : list Q) : list Q :=
  match a with [] => [] | x :: a => padd (pscale x b) (0%Q :: pmul a b) end.
Definition psub (a b : list Q) : list Q := padd a (pscale (-1) b).
Lemma padd_ok a b x : peval (padd a b) x = peval a x + peval b x.
Proof.
  revert b. induction a as [|p a IH]; intros [|q b]; cbn [padd peval]; try ring. rewrite Q2R_red, Q2R_plus, IH. ring.
Qed.
Lemma pscale_ok c a x : peval (pscale c a) x = Q2R c * peval a x.
Proof. induction a as [|p a IH]; cbn [pscale map peval]; [ring|]. unfold pscale in IH. rewrite Q2R_red, Q2R_mult, IH. ring. Qed.
Lemma pmul_ok a b x : peval (pmul a b) x = peval a x * peval b x.
Proof. induction a as [|p a IH]; cbn [pmul peval]; [ring|]. rewrite padd_ok, pscale_ok. cbn [peval]. rewrite IH, Q2R_0. ring. Qed.
Lemma psub_ok a b x : peval (psub a b) x = peval a x - peval b x.
Proof. unfold psub. rewrite padd_ok, pscale_ok. replace (Q2R (-1)) with (-1) by (unfold Q2R; cbn; lra). ring. Qed.

(** bound of a polynomial on [-r, r] *)
Fixpoint pbound (l : list Q) (r : Q) : Q := match l with [] => 0%Q | c :: l => rup (Qabs c + r * pbound l r) end.
Lemma pbound_ok l r x : Rabs x <= Q2R r -> Rabs (peval l x) <= Q2R (pbound l r).
Proof.
  intros H. induction l as [|c l IH]; cbn [peval pbound]; [rewrite Rabs_R0, Q2R_0; lra|].
  eapply Rle_trans; [|apply rup_ok]. rewrite Q2R_plus, Q2R_mult, Q2R_abs. eapply Rle_trans; [apply Rabs_triang|]. apply Rplus_le_compat_l.
  rewrite Rabs_mult. apply Rmult_le_compat; auto using Rabs_pos.
Qed.

(** [1/f; 1/(f k); 1/(f k (k+1)); ...]: exp when f = k = 1 *)
Fixpoint expl (n : nat) (k f : positive) : list Q :=
  match n with O => [] | S n => (1 # f) :: expl n (k + 1) (f * k) end.
Lemma expl_gen n : forall j k f x, INR j + 1 = IZR (Zpos k) -> INR (fact j) = IZR (Zpos f) ->
  x^j * peval (expl n k f) x = Texp (j + n) x - Texp j x.
Proof.
  induction n as [|n IH]; intros j k f x Hk Hf; cbn [expl peval].
  - rewrite Nat.add_0_r. ring.
  - assert (Hk' : INR (S j) + 1 = IZR (Zpos (k + 1))) by (rewrite S_INR, Hk, Pos2Z.inj_add, plus_IZR; reflexivity).
    assert (Hf' : INR (fact (S j)) = IZR (Zpos (f * k))) by (rewrite fact_simpl, mult_INR, Hf, S_INR, Hk, Pos2Z.inj_mul, mult_IZR; ring).
    specialize (IH (S j) _ _ x Hk' Hf'). replace (S j + n)%nat with (j + S n)%nat in IH by lia.
    cbn [Texp] in IH. replace (Q2R (1 # f)) with (/ INR (fact j)) by (rewrite Hf; unfold Q2R; cbn [Qnum Qden]; ring).
    change (x^(S j)) with (x * x^j) in IH. transitivity (x^j / INR (fact j) + x * x^j * peval (expl n (k + 1) (f * k)) x); [unfold Rdiv; ring|]. rewrite IH. unfold Rdiv; ring.
Qed.
Lemma expl_ok n x : peval (expl n 1 1) x = Texp n x.
Proof. pose proof (expl_gen n 0 1 1 x) as H. cbn [Nat.add Texp] in H. specialize (H ltac:(cbn; lra) ltac:(cbn; lra)). rewrite pow_O in H. lra. Qed.

(** [1/k; 1/(k+2); ...] *)
Fixpoint atl (n : nat) (k : positive) : list Q := match n with O => [] | S n => (1 # k) :: atl n (k + 2) end.
Lemma atl_gen n : forall j k x, INR (2 * j + 1) = IZR (Zpos k) -> x^(2 * j + 1) * peval (atl n k) (x * x) = Tatanh (j + n) x - Tatanh j x.
Proof.
  induction n as [|n IH]; intros j k x Hk; cbn [atl peval].
  - rewrite Nat.add_0_r. ring.
  - assert (Hk' : INR (2 * S j + 1) = IZR (Zpos (k + 2))).
    { replace (2 * S j + 1)%nat with (S (S (2 * j + 1))) by lia. rewrite !S_INR, Hk, Pos2Z.inj_add, plus_IZR. ring. }
    specialize (IH (S j) _ x Hk'). replace (S j + n)%nat with (j + S n)%nat in IH by lia.
    cbn [Tatanh] in IH. replace (Q2R (1 # k)) with (/ INR (2 * j + 1)) by (rewrite Hk; unfold Q2R; cbn [Qnum Qden]; ring).
    replace (2 * S j + 1)%nat with (2 + (2 * j + 1))%nat in IH by lia. rewrite pow_add in IH.
    transitivity (x^(2 * j + 1) / INR (2 * j + 1) + x^2 * x^(2 * j + 1) * peval (atl n (k + 2)) (x * x)); [unfold Rdiv; ring|]. rewrite IH. unfold Rdiv; ring.
Qed.
Lemma atl_ok n x : x * peval (atl n 1) (x * x) = Tatanh n x.
Proof. pose proof (atl_gen n 0 1 x) as H. change (2 * 0 + 1)%nat with 1%nat in H. specialize (H ltac:(cbn; lra)). cbn [Nat.add Tatanh] in H. rewrite pow_1 in H. lra. Qed.

(** ** exp of a rational, and ln 2 *)
Lemma exp_le3 t x : Rabs t <= Rabs x -> Rabs x <= 1 -> exp t <= 3.
Proof.
  intros H1 H2. apply Rle_trans with (exp 1); [|apply exp_le_3]. apply Rabs_le_between in H1. assert (K : t <= 1) by lra.
  destruct K as [K| ->]; [left; apply exp_increasing; exact K|right; reflexivity].
Qed.
Fixpoint qpow (x : Q) (n : nat) : Q := match n with O => 1%Q | S n => rup (x * qpow x n) end.
Lemma qpow_ok x n : 0 <= Q2R x -> (Q2R x)^n <= Q2R (qpow x n).
Proof.
  intros H. induction n as [|n IH]; [cbn; rewrite Q2R_1; apply Rle_refl|]. cbn [qpow pow]. eapply Rle_trans; [|apply rup_ok].
  rewrite Q2R_mult. apply Rmult_le_compat_l; assumption.
Qed.
Fixpoint pfact (n : nat) : positive := match n with O => 1%positive | S n => (Pos.of_succ_nat n * pfact n)%positive end.
Lemma pfact_ok n : INR (fact n) = IZR (Zpos (pfact n)).
Proof.
  induction n as [|n IH]; [reflexivity|]. cbn [pfact]. rewrite fact_simpl, mult_INR, IH, Pos2Z.inj_mul, mult_IZR. f_equal.
  rewrite INR_IZR_INZ. f_equal.
Qed.
(** the remainder of the exponential series at x, |x| <= 1 *)
Definition exp_rem (n : nat) (r : Q) : Q := rup (3 * qpow r n * (1 # pfact n)).
Lemma exp_taylor_q n r x : Rabs x <= Q2R r -> (r <= 1)%Q -> Rabs (exp x - peval (expl n 1 1) x) <= Q2R (exp_rem n r).
Proof.
  intros H Hr. rewrite expl_ok. apply Qle_Rle in Hr. rewrite Q2R_1 in Hr.
  eapply Rle_trans; [apply (exp_taylor n x 3); intros t Ht; apply (exp_le3 t x Ht); lra|].
  unfold exp_rem. eapply Rle_trans; [|apply rup_ok]. rewrite !Q2R_mult. replace (Q2R 3) with 3 by (unfold Q2R; cbn; lra).
  replace (Q2R (1 # pfact n)) with (/ INR (fact n)) by (rewrite pfact_ok; unfold Q2R; cbn [Qnum Qden]; ring).
  unfold Rdiv. apply Rmult_le_compat_r; [left; apply Rinv_0_lt_compat, lt_0_INR, lt_O_fact|].
  apply Rmult_le_compat_l; [lra|]. pose proof (Rabs_pos x). eapply Rle_trans; [|apply qpow_ok; lra]. apply pow_incr. split; [apply Rabs_pos|exact H].
Qed.

Definition ln2_lo : Q := 837963523372001241319907 # (2^80).
Definition ln2_hi : Q := 837963523372001241319908 # (2^80).
Lemma Q2R_le a b : Qle_bool a b = true -> Q2R a <= Q2R b.
Proof. intros H. apply Qle_Rle, Qle_bool_iff, H. Qed.
Lemma ln2_bounds : Q2R ln2_lo <= ln 2 <= Q2R ln2_hi.
Proof.
  assert (P : forall q, Qle_bool 0 q = true -> Qle_bool q 1 = true ->
    Q2R (qevD (expl 26 1 1) q) - Q2R (exp_rem 26 q) <= exp (Q2R q) <= Q2R (qevU (expl 26 1 1) q) + Q2R (exp_rem 26 q)).
  { intros q H0 H1. apply Q2R_le in H0. rewrite Q2R_0 in H0. pose proof (qevU_ok (expl 26 1 1) q H0) as U. pose proof (qevD_ok (expl 26 1 1) q H0) as D.
    assert (K : Rabs (exp (Q2R q) - peval (expl 26 1 1) (Q2R q)) <= Q2R (exp_rem 26 q)).
    { apply exp_taylor_q; [|apply Qle_bool_iff, H1]. rewrite Rabs_pos_eq by exact H0. lra. }
    apply Rabs_le_between in K. lra. }
  split.
  - rewrite <- (ln_exp (Q2R ln2_lo)). apply Rcomplements.ln_le; [apply exp_pos|].
    specialize (P ln2_lo eq_refl eq_refl).
    assert (K : Q2R (qevU (expl 26 1 1) ln2_lo + exp_rem 26 ln2_lo) <= Q2R 2) by (apply Q2R_le; vm_compute; reflexivity).
    rewrite Q2R_plus in K. replace (Q2R 2) with 2 in K by (unfold Q2R; cbn; lra). lra.
  - rewrite <- (ln_exp (Q2R ln2_hi)). apply Rcomplements.ln_le; [lra|].
    specialize (P ln2_hi eq_refl eq_refl).
    assert (K : Q2R (2 + exp_rem 26 ln2_hi) <= Q2R (qevD (expl 26 1 1) ln2_hi)) by (apply Q2R_le; vm_compute; reflexivity).
    rewrite Q2R_plus in K. replace (Q2R 2) with 2 in K by (unfold Q2R; cbn; lra). lra.
Qed.
