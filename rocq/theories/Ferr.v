(** Rounding-error analysis of straight-line double computations, by a checked
    interval calculation: every intermediate result is compared with the exact
    real value of the same expression.  Used for the elementary functions. *)
From Coq Require Import Reals Lra Lia QArith Qreals Qabs List.
From Flocq Require Import Core BinarySingleNaN Relative.
From Verif Require Import Base FP FP_Proof HW HW_Proof Midpoint Fmaf_Proof Hypotf_Real Hypotf_Proof Approx.
Import ListNotations.
Open Scope Z_scope.
Local Ltac Zify.zify_post_hook ::= idtac.

(** ** division *)
Lemma hdiv_ok a b : fbits 52 11 a -> fbits 52 11 b -> ffinite 52 11 a = true -> ffinite 52 11 b = true -> fval 52 11 b <> 0%R ->
  rounds_to 52 11 (fval 52 11 a / fval 52 11 b) (xorb (fneg 52 11 a) (fneg 52 11 b)) (div64 a b).
Proof.
  intros Ha Hb Fa Fb NZ. destruct (dec_finite 52 11 eq_refl eq_refl eq_refl a Ha Fa) as (A1 & A2 & A3). destruct (dec_finite 52 11 eq_refl eq_refl eq_refl b Hb Fb) as (B1 & B2 & B3).
  unfold div64, hdiv. apply (enc_rounds 52 11 eq_refl eq_refl eq_refl).
  pose proof (Bdiv_correct 53 1024 (hw_prec 52 eq_refl) (hw_emax 52 11 eq_refl) mode_NE (dec 52 11 eq_refl eq_refl eq_refl a) (dec 52 11 eq_refl eq_refl eq_refl b)) as H.
  change 53 with (52 + 1) in H. change 1024 with (2^(11 - 1)) in H.
  rewrite (round_flocq 52 11), A2, B2, A1, A3, B3 in H. specialize (H NZ).
  destruct (Rlt_bool _ _).
  - destruct H as (H1 & H2 & H3). split; [exact H1|]. split; [exact H2|]. apply H3.
    destruct (Bdiv mode_NE _ _); cbn in *; congruence.
  - exact H.
Qed.
Lemma dbl_div a b x y e : dbl a x -> dbl b y -> y <> 0%R -> (Rabs (x / y) <= bpow radix2 e)%R -> -1074 <= e <= 600 -> dbl (div64 a b) (RN53 (x / y)).
Proof.
  intros (A1 & A2 & A3 & _) (B1 & B2 & B3 & _) NZ H He. pose proof (hdiv_ok a b A1 B1 A2 B2) as R. rewrite A3, B3 in R.
  exact (dbl_rounds _ _ _ e (R NZ) H He).
Qed.

(** ** the error of one rounding *)
Lemma RN53_err x : (Rabs (RN53 x - x) <= bpow radix2 (-53) * Rabs x + bpow radix2 (-1075))%R.
Proof.
  rewrite RN53_eq. destruct (error_N_FLT radix2 (-1074) 53 eq_refl (fun z => negb (Z.even z)) x) as (eps & eta & H1 & H2 & _ & ->).
  replace (x * (1 + eps) + eta - x)%R with (x * eps + eta)%R by ring. eapply Rle_trans; [apply Rabs_triang|]. apply Rplus_le_compat.
  - rewrite Rabs_mult, Rmult_comm. apply Rmult_le_compat_r; [apply Rabs_pos|]. unfold u_ro in H1. eapply Rle_trans; [apply H1|].
    replace (/ 2 * bpow radix2 (- (53) + 1))%R with (bpow radix2 (-53)); [apply Rle_refl|]. change (/ 2)%R with (bpow radix2 (-1)). rewrite <- bpow_plus. reflexivity.
  - eapply Rle_trans; [apply H2|]. change (/ 2)%R with (bpow radix2 (-1)). rewrite <- bpow_plus. apply Rle_refl.
Qed.

(** ** near d V M E: the pattern d is a finite double within E units of V, |V| is at most M units (a unit is 2^-160) *)
Definition U : R := bpow radix2 (-160).
Lemma U_pos : (0 < U)%R. Proof. apply bpow_gt_0. Qed.
Definition near (d : Z) (V : R) (M E : Z) : Prop :=
  exists y, dbl d y /\ (Rabs (y - V) <= IZR E * U)%R /\ (Rabs V <= IZR M * U)%R.

Definition radd (M E : Z) : Z := E + (M + E) / 2^53 + 2.
Definition fits (M E : Z) : bool := (0 <=? M) && (0 <=? E) && (M + E <=? 2^660).

Lemma near_pos d V M E : near d V M E -> (0 <= M /\ 0 <= E)%Z.
Proof.
  intros (y & _ & A & B). pose proof (Rabs_pos (y - V)) as P1. pose proof (Rabs_pos V) as P2. pose proof U_pos.
  split; apply le_IZR; nra.
Qed.

Lemma round_step z V M E : (Rabs (z - V) <= IZR E * U)%R -> (Rabs V <= IZR M * U)%R ->
  (Rabs (RN53 z - V) <= IZR (radd M E) * U)%R.
Proof.
  intros A B. pose proof (RN53_err z) as R. pose proof U_pos as UP.
  assert (Z1 : (Rabs z <= IZR (M + E) * U)%R).
  { rewrite plus_IZR. replace z with ((z - V) + V)%R by ring. eapply Rle_trans; [apply Rabs_triang|]. lra. }
  assert (D : (bpow radix2 (-53) * IZR (M + E) <= IZR ((M + E) / 2^53 + 1))%R).
  { assert (K : (M + E < 2^53 * ((M + E) / 2^53 + 1))%Z) by (pose proof (Z.mul_succ_div_gt (M + E) (2^53) eq_refl); lia).
    apply IZR_lt in K. rewrite mult_IZR in K. change (IZR (2^53)) with (bpow radix2 53) in K.
    apply (Rmult_lt_compat_l (bpow radix2 (-53))) in K; [|apply bpow_gt_0]. rewrite <- Rmult_assoc, <- bpow_plus in K. change (bpow radix2 (-53 + 53)) with 1%R in K. lra. }
  assert (Q : (bpow radix2 (-1075) <= U)%R) by (apply bpow_le; lia).
  replace (RN53 z - V)%R with ((RN53 z - z) + (z - V))%R by ring. eapply Rle_trans; [apply Rabs_triang|].
  unfold radd. replace (E + (M + E) / 2^53 + 2)%Z with (E + ((M + E) / 2^53 + 1) + 1)%Z by ring. rewrite 2!plus_IZR.
  pose proof (bpow_gt_0 radix2 (-53)) as BP.
  assert (Z2 : (bpow radix2 (-53) * Rabs z <= IZR ((M + E) / 2^53 + 1) * U)%R).
  { apply Rle_trans with (bpow radix2 (-53) * (IZR (M + E) * U))%R; [apply Rmult_le_compat_l; [lra|exact Z1]|]. rewrite <- Rmult_assoc. apply Rmult_le_compat_r; lra. }
  lra.
Qed.

Lemma fits_bound z V M E : fits M E = true -> (Rabs (z - V) <= IZR E * U)%R -> (Rabs V <= IZR M * U)%R -> (Rabs z <= bpow radix2 500)%R.
Proof.
  intros F A B. unfold fits in F. apply andb_prop in F. destruct F as [_ F]. apply Z.leb_le in F.
  replace z with ((z - V) + V)%R by ring. eapply Rle_trans; [apply Rabs_triang|].
  apply Rle_trans with (IZR (2^660) * U)%R; [|change (IZR (2^660)) with (bpow radix2 660); unfold U; rewrite <- bpow_plus; apply bpow_le; lia].
  apply IZR_le in F. rewrite plus_IZR in F. pose proof U_pos. nra.
Qed.

Lemma near_add a b A B MA EA MB EB : near a A MA EA -> near b B MB EB -> fits (MA + MB) (EA + EB) = true ->
  near (add64 a b) (A + B) (MA + MB) (radd (MA + MB) (EA + EB)).
Proof.
  intros (x & Dx & X1 & X2) (y & Dy & Y1 & Y2) F.
  assert (H1 : (Rabs (x + y - (A + B)) <= IZR (EA + EB) * U)%R).
  { replace (x + y - (A + B))%R with ((x - A) + (y - B))%R by ring. rewrite plus_IZR. eapply Rle_trans; [apply Rabs_triang|]. lra. }
  assert (H2 : (Rabs (A + B) <= IZR (MA + MB) * U)%R). { rewrite plus_IZR. eapply Rle_trans; [apply Rabs_triang|]. lra. }
  exists (RN53 (x + y)). split; [apply (dbl_add _ _ _ _ 500 Dx Dy); [exact (fits_bound _ _ _ _ F H1 H2)|lia]|]. split; [|exact H2].
  apply round_step; assumption.
Qed.
Lemma near_sub a b A B MA EA MB EB : near a A MA EA -> near b B MB EB -> fits (MA + MB) (EA + EB) = true ->
  near (sub64 a b) (A - B) (MA + MB) (radd (MA + MB) (EA + EB)).
Proof.
  intros (x & Dx & X1 & X2) (y & Dy & Y1 & Y2) F.
  assert (H1 : (Rabs (x - y - (A - B)) <= IZR (EA + EB) * U)%R).
  { replace (x - y - (A - B))%R with ((x - A) + - (y - B))%R by ring. rewrite plus_IZR. eapply Rle_trans; [apply Rabs_triang|]. rewrite Rabs_Ropp. lra. }
  assert (H2 : (Rabs (A - B) <= IZR (MA + MB) * U)%R). { rewrite plus_IZR. unfold Rminus. eapply Rle_trans; [apply Rabs_triang|]. rewrite Rabs_Ropp. lra. }
  exists (RN53 (x - y)). split; [apply (dbl_sub _ _ _ _ 500 Dx Dy); [exact (fits_bound _ _ _ _ F H1 H2)|lia]|]. split; [|exact H2].
  apply round_step; assumption.
Qed.

(** product of two bounds, in units *)
Definition umul (a b : Z) : Z := a * b / 2^160 + 1.
Lemma umul_ok a b : (IZR a * U * (IZR b * U) <= IZR (umul a b) * U)%R.
Proof.
  unfold umul. assert (K : (a * b < 2^160 * (a * b / 2^160 + 1))%Z) by (pose proof (Z.mul_succ_div_gt (a * b) (2^160) eq_refl); lia).
  apply IZR_lt in K. rewrite 2!mult_IZR in K. change (IZR (2^160)) with (bpow radix2 160) in K.
  pose proof U_pos as UP. assert (UU : (bpow radix2 160 * U = 1)%R) by (unfold U; rewrite <- bpow_plus; reflexivity).
  replace (IZR a * U * (IZR b * U))%R with (IZR a * IZR b * U * U)%R by ring. apply Rmult_le_compat_r; [lra|].
  apply (Rmult_lt_compat_r U) in K; [|exact UP]. set (q := IZR (a * b / 2^160 + 1)) in *. replace (bpow radix2 160 * q * U)%R with (bpow radix2 160 * U * q)%R in K by ring. rewrite UU in K. lra.
Qed.
Definition emul (MA EA MB EB : Z) : Z := umul EA MB + umul EB MA + umul EA EB.
Lemma near_mul a b A B MA EA MB EB : near a A MA EA -> near b B MB EB -> fits (umul MA MB) (emul MA EA MB EB) = true ->
  near (mul64 a b) (A * B) (umul MA MB) (radd (umul MA MB) (emul MA EA MB EB)).
Proof.
  intros NA NB F. pose proof (near_pos _ _ _ _ NA) as [PMA PEA]. pose proof (near_pos _ _ _ _ NB) as [PMB PEB].
  destruct NA as (x & Dx & X1 & X2). destruct NB as (y & Dy & Y1 & Y2). pose proof U_pos as UP.
  assert (H2 : (Rabs (A * B) <= IZR (umul MA MB) * U)%R). { eapply Rle_trans; [|apply umul_ok]. rewrite Rabs_mult. apply Rmult_le_compat; auto using Rabs_pos. }
  assert (H1 : (Rabs (x * y - A * B) <= IZR (emul MA EA MB EB) * U)%R).
  { replace (x * y - A * B)%R with ((x - A) * B + ((y - B) * A + (x - A) * (y - B)))%R by ring. unfold emul. rewrite 2!plus_IZR, 2!Rmult_plus_distr_r.
    eapply Rle_trans; [apply Rabs_triang|]. rewrite Rplus_assoc. apply Rplus_le_compat; [|eapply Rle_trans; [apply Rabs_triang|]; apply Rplus_le_compat];
    (eapply Rle_trans; [|apply umul_ok]); rewrite Rabs_mult; apply Rmult_le_compat; auto using Rabs_pos. }
  exists (RN53 (x * y)). split; [apply (dbl_mul _ _ _ _ 500 Dx Dy); [exact (fits_bound _ _ _ _ F H1 H2)|lia]|]. split; [|exact H2].
  apply round_step; assumption.
Qed.

(** ** the value of a constant *)
Definition qmag (k : Z) : Q :=
  let e := k / 2^52 in
  let m := if e =? 0 then k else 2^52 + k mod 2^52 in
  let x := if e =? 0 then -1074 else e - 1075 in
  if 0 <=? x then inject_Z (m * 2^x) else m # Z.to_pos (2^(- x)).
Definition qval (c : Z) : Q := Qred (if fneg 52 11 c then - qmag (fabsb 52 11 c) else qmag (fabsb 52 11 c))%Q.
Lemma qmag_ok k : Q2R (qmag k) = fmag 52 11 k.
Proof.
  unfold qmag, fmag. change (emin 52 11) with (-1074). cbv zeta.
  assert (G : forall m x, Q2R (if 0 <=? x then inject_Z (m * 2^x) else m # Z.to_pos (2^(- x))) = F2R (Float radix2 m x)).
  { intros m x. unfold F2R. cbn [Fnum Fexp]. destruct (Z.leb_spec 0 x) as [H|H].
    - unfold Q2R, inject_Z. cbn [Qnum Qden]. rewrite mult_IZR. rewrite <- (IZR_Zpower radix2 x H). cbn [radix_val radix2]. change (radix_val radix2) with 2. field.
    - unfold Q2R. cbn [Qnum Qden]. rewrite Z2Pos.id by (apply Z.pow_pos_nonneg; lia). replace x with (- - x) at 2 by ring. rewrite bpow_opp. rewrite <- (IZR_Zpower radix2 (- x)) by lia. reflexivity. }
  destruct (k / 2^52 =? 0); rewrite G; [reflexivity|]. f_equal. f_equal. lia.
Qed.
Lemma qval_ok c : Q2R (qval c) = fval 52 11 c.
Proof. unfold qval, fval. rewrite Q2R_red. destruct (fneg 52 11 c); [rewrite Q2R_opp|]; rewrite qmag_ok; reflexivity. Qed.

Definition cbound (q : Q) : Z := Z.abs (Qnum q) * 2^160 / Zpos (Qden q) + 1.
Lemma cbound_ok q : (Rabs (Q2R q) <= IZR (cbound q) * U)%R.
Proof.
  unfold cbound, Q2R, Rdiv. rewrite Rabs_mult, (Rabs_pos_eq (/ _)) by (left; apply Rinv_0_lt_compat, IZR_lt; reflexivity). rewrite <- abs_IZR.
  set (n := Z.abs (Qnum q)). set (d := Zpos (Qden q)). assert (Hd : 0 < d) by reflexivity.
  pose proof (Z.mul_succ_div_gt (n * 2^160) d Hd) as K. apply IZR_lt in K. unfold Z.succ in K. rewrite 2!mult_IZR in K. change (IZR (2^160)) with (bpow radix2 160) in K.
  assert (UU : (bpow radix2 160 * U = 1)%R) by (unfold U; rewrite <- bpow_plus; reflexivity). pose proof U_pos.
  assert (HD : (0 < IZR d)%R) by (apply IZR_lt; exact Hd).
  apply (Rmult_le_reg_r (IZR d)); [exact HD|]. rewrite Rmult_assoc, Rinv_l, Rmult_1_r by lra.
  apply (Rmult_lt_compat_r U) in K; [|assumption]. rewrite Rmult_assoc, UU in K. rewrite plus_IZR in K |- *. lra.
Qed.
Lemma near_const c : fbits 52 11 c -> ffinite 52 11 c = true -> (Z.abs (Qnum (qval c)) <=? Zpos (Qden (qval c)) * 2^500) = true ->
  near c (fval 52 11 c) (cbound (qval c)) 0.
Proof.
  intros H F B. exists (fval 52 11 c). split; [|split].
  - split; [exact H|]. split; [exact F|]. split; [reflexivity|]. rewrite <- qval_ok. unfold Q2R, Rdiv.
    rewrite Rabs_mult, (Rabs_pos_eq (/ _)) by (left; apply Rinv_0_lt_compat, IZR_lt; reflexivity). rewrite <- abs_IZR. apply Z.leb_le, IZR_le in B. rewrite mult_IZR in B.
    change (IZR (2^500)) with (bpow radix2 500) in B. assert (HD : (0 < IZR (Zpos (Qden (qval c))))%R) by (apply IZR_lt; reflexivity).
    apply (Rmult_le_reg_r (IZR (Zpos (Qden (qval c))))); [exact HD|]. rewrite Rmult_assoc, Rinv_l, Rmult_1_r by lra.
    assert (bpow radix2 500 <= bpow radix2 600)%R by (apply bpow_le; lia). nra.
  - rewrite Rminus_diag_eq, Rabs_R0, Rmult_0_l by reflexivity. apply Rle_refl.
  - rewrite <- qval_ok. apply cbound_ok.
Qed.

(** ** expressions *)
Inductive fe := EV (n : nat) | EC (c : Z) | EAdd (a b : fe) | ESub (a b : fe) | EMul (a b : fe).
Fixpoint ebits (env : nat -> Z) (e : fe) : Z :=
  match e with
  | EV n => env n | EC c => c
  | EAdd a b => add64 (ebits env a) (ebits env b)
  | ESub a b => sub64 (ebits env a) (ebits env b)
  | EMul a b => mul64 (ebits env a) (ebits env b)
  end.
Fixpoint ereal (env : nat -> R) (e : fe) : R :=
  match e with
  | EV n => env n | EC c => fval 52 11 c
  | EAdd a b => ereal env a + ereal env b
  | ESub a b => ereal env a - ereal env b
  | EMul a b => ereal env a * ereal env b
  end.
Definition eadd (p q : option (Z * Z)) : option (Z * Z) :=
  match p, q with
  | Some (MA, EA), Some (MB, EB) => if fits (MA + MB) (EA + EB) then Some (MA + MB, radd (MA + MB) (EA + EB)) else None
  | _, _ => None
  end.
Definition emult (p q : option (Z * Z)) : option (Z * Z) :=
  match p, q with
  | Some (MA, EA), Some (MB, EB) => let m := umul MA MB in let e := emul MA EA MB EB in if fits m e then Some (m, radd m e) else None
  | _, _ => None
  end.
Fixpoint ebnd (env : nat -> option (Z * Z)) (e : fe) : option (Z * Z) :=
  match e with
  | EV n => env n
  | EC c => let q := qval c in
    if (0 <=? c) && (c <? 2^64) && ffinite 52 11 c && (Z.abs (Qnum q) <=? Zpos (Qden q) * 2^500) then Some (cbound q, 0) else None
  | EAdd a b => eadd (ebnd env a) (ebnd env b)
  | ESub a b => eadd (ebnd env a) (ebnd env b)
  | EMul a b => emult (ebnd env a) (ebnd env b)
  end.
Lemma ebnd_ok env renv benv e : (forall n M E, benv n = Some (M, E) -> near (env n) (renv n) M E) ->
  forall M E, ebnd benv e = Some (M, E) -> near (ebits env e) (ereal renv e) M E.
Proof.
  intros H. induction e as [n|c|a IHa b IHb|a IHa b IHb|a IHa b IHb]; cbn [ebits ereal ebnd]; intros M E K.
  - auto.
  - destruct (_ && _) eqn:C in K; [|discriminate]. injection K as <- <-.
    apply andb_prop in C. destruct C as [C C4]. apply andb_prop in C. destruct C as [C C3]. apply andb_prop in C. destruct C as [C1 C2].
    apply near_const; [split; [lia|change (2^(52+11+1)) with (2^64); lia]|exact C3|exact C4].
  - destruct (ebnd benv a) as [[MA EA]|]; [|discriminate]. destruct (ebnd benv b) as [[MB EB]|]; [|discriminate]. cbn [eadd] in K.
    destruct (fits _ _) eqn:F; [|discriminate]. injection K as <- <-. apply near_add; auto.
  - destruct (ebnd benv a) as [[MA EA]|]; [|discriminate]. destruct (ebnd benv b) as [[MB EB]|]; [|discriminate]. cbn [eadd] in K.
    destruct (fits _ _) eqn:F; [|discriminate]. injection K as <- <-. apply near_sub; auto.
  - destruct (ebnd benv a) as [[MA EA]|]; [|discriminate]. destruct (ebnd benv b) as [[MB EB]|]; [|discriminate]. cbn [emult] in K. cbv zeta in K.
    destruct (fits _ _) eqn:F; [|discriminate]. injection K as <- <-. apply near_mul; auto.
Qed.

(** the polynomial computed by an expression in variable 0 *)
Fixpoint epoly (e : fe) : option (list Q) :=
  match e with
  | EV O => Some [0%Q; 1%Q]
  | EV _ => None
  | EC c => Some [qval c]
  | EAdd a b => match epoly a, epoly b with Some p, Some q => Some (padd p q) | _, _ => None end
  | ESub a b => match epoly a, epoly b with Some p, Some q => Some (psub p q) | _, _ => None end
  | EMul a b => match epoly a, epoly b with Some p, Some q => Some (pmul p q) | _, _ => None end
  end.
Lemma epoly_ok env e : forall l, epoly e = Some l -> ereal env e = peval l (env O).
Proof.
  induction e as [[|n]|c|a IHa b IHb|a IHa b IHb|a IHa b IHb]; cbn [epoly ereal]; intros l K; try discriminate.
  - injection K as <-. cbn [peval]. rewrite Q2R_0, Q2R_1. ring.
  - injection K as <-. cbn [peval]. rewrite qval_ok. ring.
  - destruct (epoly a); [|discriminate]. destruct (epoly b); [|discriminate]. injection K as <-. rewrite padd_ok. erewrite IHa, IHb by reflexivity. reflexivity.
  - destruct (epoly a); [|discriminate]. destruct (epoly b); [|discriminate]. injection K as <-. rewrite psub_ok. erewrite IHa, IHb by reflexivity. reflexivity.
  - destruct (epoly a); [|discriminate]. destruct (epoly b); [|discriminate]. injection K as <-. rewrite pmul_ok. erewrite IHa, IHb by reflexivity. reflexivity.
Qed.
