(** C108, C109 and C110: the single-precision logarithms logf, log2f and log10f. *)
From Coq Require Import Reals Lra Lia.
From Flocq Require Import Core.
From Verif Require Import Base FP FP_Proof HW HW_Proof Math_Round_Proof Hypotf_Real Hypotf_Proof Elem_Spec Elem_Proof Expf_Model Expf_Proof Logf_Model Logf_Proof.
Open Scope Z_scope.
Local Ltac Zify.zify_post_hook ::= idtac.

(** a faithful result is exact if the value is a float *)
Lemma faithful_exact v b f : faithful v b -> fbits 23 8 f -> ffinite 23 8 f = true -> fval 23 8 f = v -> ffinite 23 8 b = true /\ fval 23 8 b = v.
Proof.
  intros (B & NN & A & I) Hf Ff Ef. destruct (ffinite 23 8 b) eqn:FB.
  - split; [reflexivity|]. destruct (A eq_refl f Hf Ff) as [K1 K2]. rewrite Ef in *. apply Rle_antisym; apply Rnot_lt_le; intros K; [apply K2|apply K1]; lra.
  - exfalso. specialize (I eq_refl f Hf Ff). rewrite Ef in I. lra.
Qed.
Lemma int_float n : -10000 <= n <= 10000 -> exists f, fbits 23 8 f /\ ffinite 23 8 f = true /\ fval 23 8 f = IZR n.
Proof.
  intros Hn. destruct (hofZ_exact 23 8 eq_refl eq_refl eq_refl eq_refl n ltac:(change (2^(23+1)) with 16777216; lia)) as (A & F & V & _). eexists. eauto.
Qed.

(** ** logf *)
(** For every positive finite float x, subnormal or not, the function returns,
    and the result is the float nearest to a real number whose relative
    distance to ln x is below 2^-49. *)
Theorem C108_logf_nearly_rounded x : fbits 23 8 x -> ffinite 23 8 x = true -> (0 < fval 23 8 x)%R ->
  exists b, logf x = Ok b /\ nearly_rounded 49 (ln (fval 23 8 x)) b.
Proof. intros H F P. destruct (pos_pattern' x H F P) as [Hx ->]. exact (logf_pos x Hx). Qed.
Print Assumptions C108_logf_nearly_rounded.

(** No float lies strictly between the result and ln x. *)
Theorem C108_logf_faithful x : fbits 23 8 x -> ffinite 23 8 x = true -> (0 < fval 23 8 x)%R ->
  exists b, logf x = Ok b /\ faithful (ln (fval 23 8 x)) b.
Proof. intros H F P. destruct (C108_logf_nearly_rounded x H F P) as (b & E & N). exists b. split; [exact E|]. apply (nearly_faithful 49); [lia|exact N]. Qed.
Print Assumptions C108_logf_faithful.

(** The result is correctly rounded unless ln x is within 2^-49 of the midpoint
    of two adjacent floats. *)
Theorem C108_logf_correctly_rounded x : fbits 23 8 x -> ffinite 23 8 x = true -> (0 < fval 23 8 x)%R ->
  (forall n, 0 <= n -> (bpow radix2 (- (49)) * Rabs (ln (fval 23 8 x)) < Rabs (Rabs (ln (fval 23 8 x)) - midpoint n))%R) ->
  exists b, logf x = Ok b /\ rounds_to 23 8 (ln (fval 23 8 x)) (Rlt_bool (ln (fval 23 8 x)) 0) b.
Proof. intros H F P M. destruct (C108_logf_nearly_rounded x H F P) as (b & E & N). exists b. split; [exact E|]. apply (nearly_correct 49); [lia|exact N|exact M]. Qed.
Print Assumptions C108_logf_correctly_rounded.

(** The remaining arguments: ln(+0) = ln(-0) = -inf, negative arguments and
    NaNs give a NaN, ln(+inf) = +inf; ln 1 = +0. *)
Theorem C108_logf_special x : fbits 23 8 x -> 
  (fabsb 23 8 x = 0 -> logf x = Ok 0xFF800000) /\
  (fneg 23 8 x = true -> fabsb 23 8 x <> 0 -> exists b, logf x = Ok b /\ fbits 23 8 b /\ fisnan 23 8 b = true) /\
  (fisnan 23 8 x = true -> exists b, logf x = Ok b /\ fbits 23 8 b /\ fisnan 23 8 b = true) /\
  (x = 0x7F800000 -> logf x = Ok x) /\ (x = 0x3F800000 -> logf x = Ok 0).
Proof.
  intros Hx. assert (SG : sgn 32 x = if x <? 0x80000000 then x else x - 0x100000000).
  { unfold sgn. change (2^32) with 0x100000000. change (2^(32-1)) with 0x80000000. unfold fbits in Hx. change (2^(23+8+1)) with 0x100000000 in Hx. rewrite Z.mod_small by lia. reflexivity. }
  unfold fbits in Hx. change (2^(23+8+1)) with 0x100000000 in Hx.
  assert (AB : fabsb 23 8 x = if x <? 0x80000000 then x else x - 0x80000000).
  { unfold fabsb. change (2^(23+8)) with 0x80000000. destruct (Z.ltb_spec x 0x80000000); [apply Z.mod_small; lia|]. symmetry. apply Z.mod_unique with 1; lia. }
  assert (NG : fneg 23 8 x = (0x80000000 <=? x)) by reflexivity.
  assert (Q : forall b, b = NANF -> exists b', Ok b = Ok b' /\ fbits 23 8 b' /\ fisnan 23 8 b' = true) by (intros b ->; exists NANF; split; [reflexivity|]; split; [split; [unfold NANF; lia|reflexivity]|reflexivity]).
  split; [|split; [|split; [|split]]].
  - rewrite AB. intros Z. destruct (Z.ltb_spec x 0x80000000); [assert (x = 0) by lia|assert (x = 0x80000000) by lia]; subst x; vm_compute; reflexivity.
  - rewrite NG, AB. intros N Z. apply Z.leb_le in N. destruct (Z.ltb_spec x 0x80000000); [lia|]. unfold logf. rewrite SG. replace (x <? 0x80000000) with false by lia. replace (x - 0x100000000 <=? 0) with true by lia. apply Q.
    replace (sgn 32 ((x - 4294967296) * 2) =? 0) with false; [reflexivity|]. symmetry. apply Z.eqb_neq. unfold sgn. change (2^32) with 4294967296. change (2^(32-1)) with 2147483648.
    replace (((x - 4294967296) * 2) mod 4294967296) with ((x - 2147483648) * 2) by (apply Z.mod_unique with (-1); lia). destruct ((x - 2147483648) * 2 <? 2147483648) eqn:L; lia.
  - unfold fisnan. rewrite AB. change (finf 23 8) with 0x7F800000. intros N. apply Z.ltb_lt in N. unfold logf. rewrite SG. destruct (Z.ltb_spec x 0x80000000) as [L|L].
    + replace (x <=? 0) with false by lia. replace (0x7F800000 <=? x) with true by lia. exists x. split; [reflexivity|]. split; [split; [lia|change (2^(23+8+1)) with 0x100000000; lia]|]. unfold fisnan. rewrite AB. replace (x <? 2147483648) with true by lia. apply Z.ltb_lt. exact N.
    + replace (x - 0x100000000 <=? 0) with true by lia. apply Q.
      replace (sgn 32 ((x - 4294967296) * 2) =? 0) with false; [reflexivity|]. symmetry. apply Z.eqb_neq. unfold sgn. change (2^32) with 4294967296. change (2^(32-1)) with 2147483648.
      replace (((x - 4294967296) * 2) mod 4294967296) with ((x - 2147483648) * 2) by (apply Z.mod_unique with (-1); lia). destruct ((x - 2147483648) * 2 <? 2147483648) eqn:E; lia.
  - intros ->. vm_compute. reflexivity.
  - intros ->. vm_compute. reflexivity.
Qed.
Print Assumptions C108_logf_special.

(** hypotheses met: x = 2 gives 0x1.62e43p-1; the smallest subnormal float *)
Example C108_ex : logf 0x40000000 = Ok 0x3F317218 /\ logf 1 = Ok 0xC2CE8ED0 /\ fbits 23 8 1 /\ ffinite 23 8 1 = true /\ (0 < fval 23 8 0x40000000)%R.
Proof.
  split; [vm_compute; reflexivity|]. split; [vm_compute; reflexivity|]. split; [split; [lia|reflexivity]|]. split; [reflexivity|].
  destruct (pos_float 0x40000000 ltac:(lia)) as (_ & _ & _ & ->). rewrite <- (fmag_0 23 8 eq_refl). apply (fmag_lt 23 8 eq_refl); lia.
Qed.

(** ** log2f *)
Theorem C109_log2f_nearly_rounded x : fbits 23 8 x -> ffinite 23 8 x = true -> (0 < fval 23 8 x)%R ->
  exists b, log2f x = Ok b /\ nearly_rounded 49 (ln (fval 23 8 x) / ln 2) b.
Proof. intros H F P. destruct (pos_pattern' x H F P) as [Hx ->]. exact (log2f_pos x Hx). Qed.
Print Assumptions C109_log2f_nearly_rounded.

Theorem C109_log2f_faithful x : fbits 23 8 x -> ffinite 23 8 x = true -> (0 < fval 23 8 x)%R ->
  exists b, log2f x = Ok b /\ faithful (ln (fval 23 8 x) / ln 2) b.
Proof. intros H F P. destruct (C109_log2f_nearly_rounded x H F P) as (b & E & N). exists b. split; [exact E|]. apply (nearly_faithful 49); [lia|exact N]. Qed.
Print Assumptions C109_log2f_faithful.

Theorem C109_log2f_correctly_rounded x : fbits 23 8 x -> ffinite 23 8 x = true -> (0 < fval 23 8 x)%R ->
  let v := (ln (fval 23 8 x) / ln 2)%R in
  (forall n, 0 <= n -> (bpow radix2 (- (49)) * Rabs v < Rabs (Rabs v - midpoint n))%R) ->
  exists b, log2f x = Ok b /\ rounds_to 23 8 v (Rlt_bool v 0) b.
Proof. intros H F P v M. destruct (C109_log2f_nearly_rounded x H F P) as (b & E & N). exists b. split; [exact E|]. apply (nearly_correct 49); [lia|exact N|exact M]. Qed.
Print Assumptions C109_log2f_correctly_rounded.

(** log2 of a power of two is exact, for all 277 of them. *)
Theorem C109_log2f_exact_powers x n : fbits 23 8 x -> ffinite 23 8 x = true -> fval 23 8 x = bpow radix2 n -> -149 <= n <= 127 ->
  exists b, log2f x = Ok b /\ ffinite 23 8 b = true /\ fval 23 8 b = IZR n.
Proof.
  intros H F E Hn. destruct (C109_log2f_faithful x H F) as (b & R & FB); [rewrite E; apply bpow_gt_0|]. exists b. split; [exact R|].
  assert (V : (ln (fval 23 8 x) / ln 2 = IZR n)%R). { rewrite E, <- exp_bpow, ln_exp. pose proof ln2_dec. field. lra. }
  rewrite V in FB. destruct (int_float n ltac:(lia)) as (f & Hf & Ff & Ef). exact (faithful_exact _ _ f FB Hf Ff Ef).
Qed.
Print Assumptions C109_log2f_exact_powers.

Theorem C109_log2f_special x : fbits 23 8 x -> 
  (fabsb 23 8 x = 0 -> log2f x = Ok 0xFF800000) /\
  (fneg 23 8 x = true -> fabsb 23 8 x <> 0 -> exists b, log2f x = Ok b /\ fbits 23 8 b /\ fisnan 23 8 b = true) /\
  (fisnan 23 8 x = true -> exists b, log2f x = Ok b /\ fbits 23 8 b /\ fisnan 23 8 b = true) /\
  (x = 0x7F800000 -> log2f x = Ok x) /\ (x = 0x3F800000 -> log2f x = Ok 0).
Proof.
  intros Hx. destruct (C108_logf_special x Hx) as (A & B & C & D & E).
  assert (G : forall i, sgn 32 x = i -> i <= 0 \/ 0x7F800000 <= i -> log2f x = logf x).
  { intros i Ei K. unfold log2f, logf. rewrite Ei. destruct (Z.leb_spec i 0); [reflexivity|]. replace (i <? 0x7F800000) with false by lia. replace (0x7F800000 <=? i) with true by lia. reflexivity. }
  assert (SG : sgn 32 x = if x <? 0x80000000 then x else x - 0x100000000).
  { unfold sgn. change (2^32) with 0x100000000. change (2^(32-1)) with 0x80000000. unfold fbits in Hx. change (2^(23+8+1)) with 0x100000000 in Hx. rewrite Z.mod_small by lia. reflexivity. }
  unfold fbits in Hx. change (2^(23+8+1)) with 0x100000000 in Hx.
  assert (AB : fabsb 23 8 x = if x <? 0x80000000 then x else x - 0x80000000).
  { unfold fabsb. change (2^(23+8)) with 0x80000000. destruct (Z.ltb_spec x 0x80000000); [apply Z.mod_small; lia|]. symmetry. apply Z.mod_unique with 1; lia. }
  split; [|split; [|split; [|split]]].
  - intros Z. rewrite (G _ SG); [exact (A Z)|]. rewrite AB in Z. destruct (x <? 0x80000000) eqn:L; lia.
  - intros N Z. rewrite (G _ SG); [exact (B N Z)|]. assert (NG : fneg 23 8 x = (0x80000000 <=? x)) by reflexivity. rewrite NG in N. replace (x <? 0x80000000) with false by lia. lia.
  - intros N. rewrite (G _ SG); [exact (C N)|]. unfold fisnan in N. rewrite AB in N. change (finf 23 8) with 0x7F800000 in N. destruct (x <? 0x80000000) eqn:L; lia.
  - intros ->. vm_compute. reflexivity.
  - intros ->. vm_compute. reflexivity.
Qed.
Print Assumptions C109_log2f_special.

(** hypotheses met: log2 3 = 0x1.95c01ap+0; log2 of the smallest float is -149 *)
Example C109_ex : log2f 0x40400000 = Ok 0x3FCAE00D /\ log2f 1 = Ok 0xC3150000 /\ fval 23 8 1 = bpow radix2 (-149).
Proof.
  split; [vm_compute; reflexivity|]. split; [vm_compute; reflexivity|].
  destruct (pos_float 1 ltac:(lia)) as (_ & _ & _ & ->). unfold fmag, F2R. cbn. lra.
Qed.

(** ** log10f *)
Theorem C110_log10f_nearly_rounded x : fbits 23 8 x -> ffinite 23 8 x = true -> (0 < fval 23 8 x)%R ->
  exists b, log10f x = Ok b /\ nearly_rounded 48 (ln (fval 23 8 x) / ln 10) b.
Proof. intros H F P. destruct (pos_pattern' x H F P) as [Hx ->]. exact (log10f_pos x Hx). Qed.
Print Assumptions C110_log10f_nearly_rounded.

Theorem C110_log10f_faithful x : fbits 23 8 x -> ffinite 23 8 x = true -> (0 < fval 23 8 x)%R ->
  exists b, log10f x = Ok b /\ faithful (ln (fval 23 8 x) / ln 10) b.
Proof. intros H F P. destruct (C110_log10f_nearly_rounded x H F P) as (b & E & N). exists b. split; [exact E|]. apply (nearly_faithful 48); [lia|exact N]. Qed.
Print Assumptions C110_log10f_faithful.

Theorem C110_log10f_correctly_rounded x : fbits 23 8 x -> ffinite 23 8 x = true -> (0 < fval 23 8 x)%R ->
  let v := (ln (fval 23 8 x) / ln 10)%R in
  (forall n, 0 <= n -> (bpow radix2 (- (48)) * Rabs v < Rabs (Rabs v - midpoint n))%R) ->
  exists b, log10f x = Ok b /\ rounds_to 23 8 v (Rlt_bool v 0) b.
Proof. intros H F P v M. destruct (C110_log10f_nearly_rounded x H F P) as (b & E & N). exists b. split; [exact E|]. apply (nearly_correct 48); [lia|exact N|exact M]. Qed.
Print Assumptions C110_log10f_correctly_rounded.

(** log10 of a power of ten that is a float is exact. *)
Theorem C110_log10f_exact_powers x n : fbits 23 8 x -> ffinite 23 8 x = true -> fval 23 8 x = IZR (10^n) -> 0 <= n -> 
  exists b, log10f x = Ok b /\ ffinite 23 8 b = true /\ fval 23 8 b = IZR n.
Proof.
  intros H F E Hn. assert (PP : (0 < IZR (10^n))%R) by (apply IZR_lt, Z.pow_pos_nonneg; lia).
  destruct (C110_log10f_faithful x H F) as (b & R & FB); [rewrite E; exact PP|]. exists b. split; [exact R|].
  pose proof ln10_dec.
  assert (V : (ln (fval 23 8 x) / ln 10 = IZR n)%R).
  { rewrite E. rewrite <- (Z2Nat.id n Hn). rewrite <- pow_IZR, ln_pow by lra. rewrite INR_IZR_INZ. field. lra. }
  assert (NB : n <= 128).
  { pose proof (fval_bound 23 8 eq_refl eq_refl eq_refl x H F) as B. rewrite E in B. rewrite Rabs_pos_eq in B by lra. change (bpow radix2 (2^(8-1))) with (IZR (2^128)) in B. apply lt_IZR in B.
    destruct (Z_le_gt_dec n 128) as [L|L]; [exact L|]. exfalso. assert (2^n <= 10^n) by (apply Z.pow_le_mono_l; lia). assert (2^128 < 2^n) by (apply Z.pow_lt_mono_r; lia). lia. }
  rewrite V in FB. destruct (int_float n ltac:(lia)) as (f & Hf & Ff & Ef). exact (faithful_exact _ _ f FB Hf Ff Ef).
Qed.
Print Assumptions C110_log10f_exact_powers.

Theorem C110_log10f_special x : fbits 23 8 x -> 
  (fabsb 23 8 x = 0 -> log10f x = Ok 0xFF800000) /\
  (fneg 23 8 x = true -> fabsb 23 8 x <> 0 -> exists b, log10f x = Ok b /\ fbits 23 8 b /\ fisnan 23 8 b = true) /\
  (fisnan 23 8 x = true -> exists b, log10f x = Ok b /\ fbits 23 8 b /\ fisnan 23 8 b = true) /\
  (x = 0x7F800000 -> log10f x = Ok x) /\ (x = 0x3F800000 -> log10f x = Ok 0).
Proof.
  intros Hx. destruct (C108_logf_special x Hx) as (A & B & C & D & E).
  assert (G : forall i, sgn 32 x = i -> i <= 0 \/ 0x7F800000 <= i -> log10f x = logf x).
  { intros i Ei K. unfold log10f, logf. rewrite Ei. destruct (Z.leb_spec i 0); [reflexivity|]. replace (0x7F800000 <=? i) with true by lia. reflexivity. }
  assert (SG : sgn 32 x = if x <? 0x80000000 then x else x - 0x100000000).
  { unfold sgn. change (2^32) with 0x100000000. change (2^(32-1)) with 0x80000000. unfold fbits in Hx. change (2^(23+8+1)) with 0x100000000 in Hx. rewrite Z.mod_small by lia. reflexivity. }
  unfold fbits in Hx. change (2^(23+8+1)) with 0x100000000 in Hx.
  assert (AB : fabsb 23 8 x = if x <? 0x80000000 then x else x - 0x80000000).
  { unfold fabsb. change (2^(23+8)) with 0x80000000. destruct (Z.ltb_spec x 0x80000000); [apply Z.mod_small; lia|]. symmetry. apply Z.mod_unique with 1; lia. }
  split; [|split; [|split; [|split]]].
  - intros Z. rewrite (G _ SG); [exact (A Z)|]. rewrite AB in Z. destruct (x <? 0x80000000) eqn:L; lia.
  - intros N Z. rewrite (G _ SG); [exact (B N Z)|]. assert (NG : fneg 23 8 x = (0x80000000 <=? x)) by reflexivity. rewrite NG in N. replace (x <? 0x80000000) with false by lia. lia.
  - intros N. rewrite (G _ SG); [exact (C N)|]. unfold fisnan in N. rewrite AB in N. change (finf 23 8) with 0x7F800000 in N. destruct (x <? 0x80000000) eqn:L; lia.
  - intros ->. vm_compute. reflexivity.
  - intros ->. vm_compute. reflexivity.
Qed.
Print Assumptions C110_log10f_special.

(** hypotheses met: log10 2 = 0x1.344136p-2; log10 (10^10) = 10 *)
Example C110_ex : log10f 0x40000000 = Ok 0x3E9A209B /\ log10f 0x501502F9 = Ok 0x41200000 /\ fval 23 8 0x501502F9 = IZR (10^10).
Proof.
  split; [vm_compute; reflexivity|]. split; [vm_compute; reflexivity|].
  destruct (pos_float 0x501502F9 ltac:(lia)) as (_ & _ & _ & ->). unfold fmag, F2R. cbn. lra.
Qed.
