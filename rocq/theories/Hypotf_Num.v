(** Near the overflow threshold h = 2^128-2^103 no sum of two squares of floats lies in [h^2-2^202, h^2). *)
From Coq Require Import Lia List ZArith.
From Verif Require Import Base.
Import ListNotations.
Open Scope Z_scope.
Local Ltac Zify.zify_post_hook ::= idtac.

Definition gapD (j : Z) : Z := (2 * j - 1) * (2^26 - 2 * j - 1).
Definition gap_ok (j : Z) : bool := let n := 2^22 * gapD j in let y := Z.sqrt (n - 1) in (2^18 <? n - y * y) || ((2^24 <=? y) && Z.odd y).
Definition upto (n : nat) : list Z := map Z.of_nat (seq 0 n).

Lemma in_upto n j : 0 <= j < Z.of_nat n -> In j (upto n).
Proof. intros H. unfold upto. rewrite in_map_iff. exists (Z.to_nat j). split; [lia|]. apply in_seq. lia. Qed.

Lemma gap_check : forallb (fun j => gap_ok (j + 1)) (upto (Z.to_nat 8194)) = true.
Proof. vm_compute. reflexivity. Qed.

Lemma square_mod64 y g : 1 <= g <= 4 -> (y * y + g) mod 64 <> 0.
Proof.
  intros Hg H.
  assert (K : forallb (fun a => forallb (fun g => negb ((a * a + g) mod 64 =? 0)) [1;2;3;4]) (upto 64) = true) by reflexivity.
  rewrite forallb_forall in K. pose proof (Z.mod_pos_bound y 64 ltac:(lia)) as B.
  specialize (K (y mod 64) (in_upto 64 _ B)). rewrite forallb_forall in K.
  assert (I : In g [1;2;3;4]) by (cbn; lia). specialize (K g I). cbv beta in K.
  rewrite (Z.add_mod (y mod 64 * (y mod 64)) g), Z.mul_mod_idemp_l, Z.mul_mod_idemp_r, <- Z.add_mod in K by lia. rewrite H in K. discriminate.
Qed.

Lemma no_near_square n s t : 2^23 <= n < 2^24 -> 0 <= s < 2^24 -> 0 <= t -> 2^23 <= s * 2^t ->
  let D := (2^25 - 1) * (2^25 - 1) - 4 * (n * n) in
  let y := s * 2^t in
  ~ (0 < 2^22 * D - y * y <= 2^18).
Proof.
  intros Hn Hs Ht Hy D y [G1 G2].
  set (j := 2^24 - n). assert (ED : D = gapD j) by (unfold gapD, D, j; ring).
  assert (Hj : 1 <= j <= 2^23) by (unfold j; lia).
  destruct (Z_le_gt_dec 8 t) as [L|L].
  - assert (E : y = 2^8 * (s * 2^(t - 8))). { unfold y. replace t with (8 + (t - 8)) at 1 by lia. rewrite Z.pow_add_r by lia. ring. }
    set (w := s * 2^(t - 8)) in *. rewrite E in G1, G2.
    apply (square_mod64 w (2^6 * D - w * w)); [lia|]. replace (w * w + (2^6 * D - w * w)) with (D * 64) by ring. apply Z.mod_mul. discriminate.
  - assert (Y : 0 <= y < 2^31).
    { unfold y. assert (1 <= 2^t <= 2^7) by (split; [change 1 with (2^0)|]; apply Z.pow_le_mono_r; lia). nia. }
    assert (Y2 : y * y < 2^62) by nia.
    assert (DB : D <= 2^40) by lia.
    assert (J1 : j <= 2^15) by (rewrite ED in DB; unfold gapD in DB; nia).
    assert (J2 : j <= 8194) by (rewrite ED in DB; unfold gapD in DB; nia).
    pose proof gap_check as K. rewrite forallb_forall in K. specialize (K (j - 1) (in_upto (Z.to_nat 8194) (j - 1) ltac:(rewrite Z2Nat.id; lia))).
    cbv beta in K. replace (j - 1 + 1) with j in K by lia. unfold gap_ok in K. rewrite <- ED in K. cbv zeta in K.
    assert (P : 0 <= 2^22 * D - 1) by lia.
    destruct (Z.sqrt_spec (2^22 * D - 1) P) as [S1 S2]. set (z := Z.sqrt (2^22 * D - 1)) in *.
    assert (y = z) as <-.
    { assert (y <= z). { unfold z. rewrite <- (Z.sqrt_square y) by lia. apply Z.sqrt_le_mono. lia. }
      destruct (Z_lt_le_dec y z); [|lia]. assert (HY : 2^23 <= y) by exact Hy. assert ((y + 1) * (y + 1) <= z * z) by (apply Z.mul_le_mono_nonneg; lia). clearbody y z. nia. }
    apply Bool.orb_true_iff in K. destruct K as [K|K]; [lia|]. apply andb_prop in K. destruct K as [K1 K2].
    assert (0 < t). { destruct (Z.eq_dec t 0) as [->|]; [|lia]. unfold y in K1. rewrite Z.pow_0_r in K1. lia. }
    unfold y in K2. replace t with (1 + (t - 1)) in K2 by lia. rewrite Z.pow_add_r in K2 by lia. change (2^1) with 2 in K2.
    rewrite Z.mul_assoc, (Z.mul_comm s 2), <- Z.mul_assoc, Z.odd_mul in K2. discriminate.
Qed.
