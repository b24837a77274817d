(** nextafter, fmin, fmax, fdim, and the round trip of frexp and scalbn. *)
From Coq Require Import Reals Lra.
From Flocq Require Import Core BinarySingleNaN.
From Verif Require Import Base Bits FP FP_Proof HW HW_Proof FPInt FPOps Int128_Model Math_Model Math_Round_Proof Math_Int_Proof Math_Spec Math_Lround_Proof Math_Basic_Proof Math_Scalbn_Proof.
Open Scope Z_scope.
Local Ltac Zify.zify_post_hook ::= idtac.

Section Format.
Set Default Proof Using "All".
Variables mw ew : Z.
Hypothesis Hmw : 0 < mw.
Hypothesis Hew0 : 0 < ew.
Hypothesis Hpe : mw + 1 < 2^(ew - 1).
Hypothesis Hew : 1 < ew.

Notation emin := (emin mw ew).
Notation fval := (fval mw ew).
Notation fabsb := (fabsb mw ew).
Notation fneg := (fneg mw ew).
Notation fbits := (fbits mw ew).
Notation ffinite := (ffinite mw ew).
Notation fisnan := (fisnan mw ew).
Notation fisinf := (fisinf mw ew).
Notation with_sign := (with_sign mw ew).
Notation finf := (finf mw ew).
Notation ford := (ford mw ew).
Notation xval := (xval mw ew).
Notation hsub := (hsub mw ew Hmw Hew0 Hpe).
Notation bias := (2^(ew - 1) - 1).

Lemma xlt_irrefl v : ~ xlt v v.
Proof. destruct v; cbn; try tauto. apply Rlt_irrefl. Qed.

Lemma xval_ford a b : fbits a -> fbits b -> fisnan a = false -> fisnan b = false -> (xval a = xval b -> ford a = ford b).
Proof.
  intros Ha Hb Na Nb E. pose proof (xlt_ford mw ew Hmw Hew0 Hpe Hew a b Ha Hb Na Nb) as L1.
  pose proof (xlt_ford mw ew Hmw Hew0 Hpe Hew b a Hb Ha Nb Na) as L2. rewrite E in L1, L2.
  pose proof (xlt_irrefl (xval b)). assert (~ ford a < ford b) by tauto. assert (~ ford b < ford a) by tauto. lia.
Qed.

Lemma neighbour_ok x y : fbits x -> fbits y -> fisnan x = false -> fisnan y = false ->
  exists r, nextafter mw ew x y = Ok r /\ neighbour mw ew x y r.
Proof.
  intros Hx Hy Nx Ny. destruct (nextafter_ok mw ew Hmw Hew0 Hpe Hew x y Hx Hy Nx Ny) as (A & B & C).
  pose proof (xlt_ford mw ew Hmw Hew0 Hpe Hew) as XF.
  destruct (Z.lt_trichotomy (ford x) (ford y)) as [L|[L|L]].
  - destruct (B L) as (r & E & R1 & R2 & R3). exists r. split; [exact E|]. unfold neighbour.
    split; [split; assumption|]. split; [intros V; apply xval_ford in V; try assumption; lia|]. split.
    + intros _. rewrite XF, XF by assumption. split; [lia|]. split; [lia|]. intros z [Z1 Z2]. rewrite XF, XF by assumption. lia.
    + rewrite XF by assumption. lia.
  - exists y. split; [exact (A L)|]. split; [split; assumption|]. split; [reflexivity|]. split; rewrite XF by assumption; lia.
  - destruct (C L) as (r & E & R1 & R2 & R3). exists r. split; [exact E|]. unfold neighbour.
    split; [split; assumption|]. split; [intros V; apply xval_ford in V; try assumption; lia|]. split.
    + rewrite XF by assumption. lia.
    + intros _. rewrite XF, XF by assumption. split; [lia|]. split; [lia|]. intros z [Z1 Z2]. rewrite XF, XF by assumption. lia.
Qed.

Lemma nextafter_nan x y : fisnan x = true \/ fisnan y = true -> exists r, nextafter mw ew x y = Ok r /\ (r = x \/ r = y) /\ fisnan r = true.
Proof.
  intros H. unfold nextafter. destruct (fisnan y) eqn:Ny.
  - rewrite orb_true_r. exists y. split; [reflexivity|]. split; [right; reflexivity|exact Ny].
  - assert (Nx : fisnan x = true) by (destruct H; [assumption|discriminate]).
    unfold heq. rewrite Nx. cbn [negb andb orb]. exists x. split; [reflexivity|]. split; [left; reflexivity|exact Nx].
Qed.

Lemma fmin_ok x y : fbits x -> fbits y -> is_least xlt mw ew x y (fmin mw ew x y).
Proof.
  intros Hx Hy. pose proof (xlt_ford mw ew Hmw Hew0 Hpe Hew) as XF. unfold fmin, hle. split; [|split; [|split]].
  - intros Nx Ny. rewrite Nx, Ny. cbn [negb andb orb]. rewrite orb_false_r. destruct (Z.leb_spec (ford x) (ford y)).
    + split; [tauto|]. rewrite !XF by assumption. lia.
    + split; [tauto|]. rewrite !XF by assumption. lia.
  - intros Nx Ny. rewrite Nx, Ny. reflexivity.
  - intros Nx Ny. rewrite Nx, Ny. cbn. reflexivity.
  - intros Nx Ny. rewrite Nx, Ny. cbn. exact Nx.
Qed.

Lemma fmax_ok x y : fbits x -> fbits y -> is_least (fun a b => xlt b a) mw ew x y (fmax mw ew x y).
Proof.
  intros Hx Hy. pose proof (xlt_ford mw ew Hmw Hew0 Hpe Hew) as XF. unfold fmax, hle. split; [|split; [|split]].
  - intros Nx Ny. rewrite Nx, Ny. cbn [negb andb orb]. rewrite orb_false_r. destruct (Z.leb_spec (ford y) (ford x)).
    + split; [tauto|]. rewrite !XF by assumption. lia.
    + split; [tauto|]. rewrite !XF by assumption. lia.
  - intros Nx Ny. rewrite Nx, Ny. reflexivity.
  - intros Nx Ny. rewrite Nx, Ny. cbn. reflexivity.
  - intros Nx Ny. rewrite Nx, Ny. cbn. exact Nx.
Qed.

Lemma fdim_ok x y : fbits x -> fbits y -> pos_difference mw ew x y (fdim mw ew Hmw Hew0 Hpe x y).
Proof.
  intros Hx Hy. unfold fdim, pos_difference. pose proof (xlt_ford mw ew Hmw Hew0 Hpe Hew y x Hy Hx) as XF.
  pose proof (finf_pos mw ew Hmw Hew) as FI. destruct (pW mw ew Hmw Hew) as (W1 & W2 & W3).
  assert (H0 : fbits 0) by (unfold FP.fbits; lia).
  destruct (fisnan x) eqn:Nx; [|destruct (fisnan y) eqn:Ny].
  - destruct (hsub_nan mw ew Hmw Hew0 Hpe Hew x y Hx Hy) as [A B]; [rewrite Nx; reflexivity|].
    unfold hle. rewrite Nx. cbn [negb andb]. split; [exact A|]. split; [intros _; exact B|]. discriminate.
  - destruct (hsub_nan mw ew Hmw Hew0 Hpe Hew x y Hx Hy) as [A B]; [rewrite Ny; apply orb_true_r|].
    unfold hle. rewrite Nx, Ny. cbn [negb andb]. split; [exact A|]. split; [intros _; exact B|]. discriminate.
  - specialize (XF eq_refl eq_refl). unfold hle. rewrite Nx, Ny. cbn [negb andb].
    destruct (Z.leb_spec (ford x) (ford y)) as [L|L].
    + split; [exact H0|]. split; [intros [?|?]; discriminate|]. intros _ _. split; [reflexivity|]. split; intros V; apply XF in V; lia.
    + destruct (ffinite x) eqn:Fx; [destruct (ffinite y) eqn:Fy|].
      * pose proof (hsub_ok mw ew Hmw Hew0 Hpe x y Hx Hy Fx Fy) as S.
        assert (V : (fval y < fval x)%R) by (apply (ford_lt mw ew Hmw Hew0 y x Hy Hx); exact L).
        unfold sum_sign in S. rewrite Rcompare_Gt in S by lra.
        split; [exact (proj1 S)|]. split; [intros [?|?]; discriminate|]. intros _ _. split; [intros C; exfalso; apply C, XF; exact L|].
        split; [intros _ _ _; exact S|]. intros _ [?|?]; discriminate.
      * assert (I : fisinf y = true) by (unfold FP.ffinite, FP.fisnan, FP.fisinf in *; lia).
        assert (Sy : fneg y = true).
        { destruct (fneg y) eqn:Sy; [reflexivity|exfalso]. unfold HW.ford in L. rewrite Sy in L. unfold FP.fisinf, FP.ffinite in *.
          pose proof (fabsb_range mw ew Hmw Hew x). destruct (fneg x); lia. }
        assert (E : hsub x y = finf).
        { unfold HW.hsub. rewrite (dec_inf mw ew Hmw Hew0 Hpe y Hy I), Sy. destruct (dec_finite mw ew Hmw Hew0 Hpe x Hx Fx) as (A & _).
          destruct (dec mw ew Hmw Hew0 Hpe x); try discriminate; reflexivity. }
        rewrite E. split; [unfold FP.fbits; lia|]. split; [intros [?|?]; discriminate|]. intros _ _. split; [intros C; exfalso; apply C, XF; exact L|].
        split; [discriminate|]. intros _ _. reflexivity.
      * assert (I : fisinf x = true) by (unfold FP.ffinite, FP.fisnan, FP.fisinf in *; lia).
        assert (Sx : fneg x = false).
        { destruct (fneg x) eqn:Sx; [exfalso|reflexivity]. unfold HW.ford in L. rewrite Sx in L. unfold FP.fisinf, FP.fisnan in *.
          pose proof (fabsb_range mw ew Hmw Hew y). destruct (fneg y); lia. }
        assert (E : hsub x y = finf).
        { unfold HW.hsub. rewrite (dec_inf mw ew Hmw Hew0 Hpe x Hx I), Sx. destruct (ffinite y) eqn:Fy.
          - destruct (dec_finite mw ew Hmw Hew0 Hpe y Hy Fy) as (A & _). destruct (dec mw ew Hmw Hew0 Hpe y); try discriminate; reflexivity.
          - assert (I' : fisinf y = true) by (unfold FP.ffinite, FP.fisnan, FP.fisinf in *; lia).
            rewrite (dec_inf mw ew Hmw Hew0 Hpe y Hy I'). destruct (fneg y) eqn:Sy; [reflexivity|exfalso].
            unfold HW.ford in L. rewrite Sx, Sy in L. unfold FP.fisinf in *. lia. }
        rewrite E. split; [unfold FP.fbits; lia|]. split; [intros [?|?]; discriminate|]. intros _ _. split; [intros C; exfalso; apply C, XF; exact L|].
        split; [discriminate|]. intros _ _. reflexivity.
Qed.

(** scalbn undoes frexp *)
Lemma roundtrip (scal : Z -> Z -> res Z) x : ew < 32 -> mw + bias < 2^31 ->
  (forall m e, is_i32 e -> fbits m -> ffinite m = true -> exists r, scal m e = Ok r /\ rounds_to mw ew (fval m * bpow radix2 e) (fneg m) r) ->
  fbits x -> ffinite x = true -> fabsb x <> 0 -> (do p <- frexp mw ew x; scal (fst p) (snd p)) = Ok x.
Proof.
  intros Ew Mw HS Hx F N. destruct (frexp_ok mw ew Hmw Hew0 Hpe Hew x Hx F N) as (m & e & -> & M1 & M2 & M3 & _ & V & B). cbn [bind fst snd].
  pose proof (emin_bias mw ew) as EB. destruct (HS m e) as (r & -> & R); try assumption.
  { unfold is_i32, INT_MIN, INT_MAX. destruct (pow_ew ew Hew). lia. }
  f_equal. rewrite <- V in R. destruct (rounds_exact mw ew Hmw Hew0 Hpe _ _ r x R Hx F eq_refl) as (A1 & A2 & A3 & A4).
  apply (pattern_eq mw ew Hmw Hew); try assumption. congruence.
Qed.
End Format.
