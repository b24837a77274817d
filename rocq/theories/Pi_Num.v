(** Pi to 288 binary places, and for every exponent of a float a lower bound for
    the distance of the floats with that exponent to the multiples of pi/2. *)
From Coq Require Import Reals Lra Lia Psatz QArith Qreals Qabs List.
From Flocq Require Import Core BinarySingleNaN Relative Sterbenz.
From Coquelicot Require Import Coquelicot.
From Verif Require Import Base FP FP_Proof HW HW_Proof Tf_Narrow_Proof Midpoint Fmaf_Proof Math_Model Math_Basic_Proof Math_Int_Proof Math_Lconv_Proof Hypotf_Model Hypotf_Real Hypotf_Proof Approx Subdiv Ferr Elem_Spec Elem_Proof Elem_Num Expf_Model Expf_Proof Logf_Model Logf_Kernel Logf_Proof Loginv_Proof Loginv3_Proof Hyperf_Model Hyperf_Proof Hyperf2_Proof Hyperf3_Proof Atan_Num Atanf_Model Atanf_Proof Asinf_Model.
Import ListNotations.
Open Scope Z_scope.
Local Ltac Zify.zify_post_hook ::= idtac.

(** ** the arctangent by its Taylor polynomial *)
Lemma atan_taylor_gen l n x : qeqs (map Qred (pmul [1; 0; 1]%Q (pder l))) (padd [1%Q] (mono n 1%Q)) = true -> peval l 0 = 0%R -> Nat.even n = true -> (Rabs (peval l x - atan x) <= (Rabs x)^(S n))%R.
Proof.
  intros G0 Z EN. assert (PN : forall t, (0 <= t^n)%R). { intros t. apply Nat.even_spec in EN. destruct EN as [m ->]. rewrite pow_mult. apply pow_le. apply pow2_ge_0. }
  assert (H : (Rabs ((fun t => peval l t - atan t) x) <= 1 * (Rabs x)^(S n) / INR (S n))%R).
  { apply (small_derivative_abs (fun t => peval l t - atan t)%R (fun t => peval (pder l) t - / (1 + t * t))%R 1 n).
    - rewrite Z, atan_0. ring.
    - intros t _. apply (is_derive_minus (peval l) atan); [apply pder_ok|apply atan_derive].
    - intros t _. pose proof (qeqs_ok _ t _ G0) as G. rewrite peval_red, pmul_ok, padd_ok, mono_ok in G. cbn [peval] in G. rewrite Approx.Q2R_0, Approx.Q2R_1 in G.
      assert (P : (1 <= 1 + t * t)%R) by (pose proof (Rle_0_sqr t) as K; unfold Rsqr in K; lra).
      replace (peval (pder l) t - / (1 + t * t))%R with (t^n / (1 + t * t))%R.
      + unfold Rdiv. rewrite Rabs_mult, (Rabs_pos_eq (/ _)) by (left; apply Rinv_0_lt_compat; lra). rewrite RPow_abs. assert (/ (1 + t * t) <= 1)%R by (rewrite <- Rinv_1; apply Rinv_le_contravar; lra).
        assert (0 < / (1 + t * t))%R by (apply Rinv_0_lt_compat; lra). pose proof (Rabs_pos (t^n)). rewrite (Rmult_comm 1). apply Rmult_le_compat; lra.
      + replace (peval (pder l) t) with ((1 + t^n) / (1 + t * t))%R; [field; lra|]. apply Rmult_eq_reg_r with (1 + t * t)%R; [|lra]. unfold Rdiv. rewrite Rmult_assoc, Rinv_l by lra. lra. }
  cbv beta in H. eapply Rle_trans; [exact H|]. rewrite Rmult_1_l. pose proof (pow_le (Rabs x) (S n) (Rabs_pos x)). unfold Rdiv. rewrite <- (Rmult_1_r ((Rabs x)^(S n))) at 2. apply Rmult_le_compat_l; [lra|].
  rewrite <- Rinv_1. apply Rinv_le_contravar; [lra|]. rewrite INR_IZR_INZ. apply IZR_le. lia.
Qed.
Definition tan65 : list Q := Eval vm_compute in atnl 65 1.
Lemma tan65_geom : qeqs (map Qred (pmul [1; 0; 1]%Q (pder tan65))) (padd [1%Q] (mono 130 1%Q)) = true.
Proof. vm_compute. reflexivity. Qed.
Lemma tan65_taylor x : (Rabs (peval tan65 x - atan x) <= (Rabs x)^131)%R.
Proof. apply (atan_taylor_gen tan65 130 x tan65_geom); [|reflexivity]. unfold tan65. cbn [peval]. rewrite Approx.Q2R_0. ring. Qed.

(** ** pi/2 between hpi / 2^288 and (hpi + 1) / 2^288 *)
Definition HS : Z := 288.
Definition hpi : Z := 781193512982242847228869909213390578609448169524216669463448508683558695329330556571891.
Definition pi2q : Q := Eval vm_compute in Qred (8 * qpeval tan65 (1 # 5) - 2 * qpeval tan65 (1 # 239)).
Lemma pow_inv_small b n m : 0 < b -> b^(Z.of_nat n) >= m -> 0 < m -> ((/ IZR b)^n <= / IZR m)%R.
Proof.
  intros B L M. rewrite pow_inv. apply Rinv_le_contravar; [apply (IZR_lt 0); exact M|]. rewrite pow_IZR. apply IZR_le. lia.
Qed.
Lemma hpi_real : (IZR hpi * bpow radix2 (- HS) <= PI / 2 <= IZR (hpi + 1) * bpow radix2 (- HS))%R.
Proof.
  assert (E : Q2R pi2q = (8 * peval tan65 (/ 5) - 2 * peval tan65 (/ 239))%R).
  { replace (/ 5)%R with (Q2R (1 # 5)) by (unfold Q2R; cbn [Qnum Qden]; lra). replace (/ 239)%R with (Q2R (1 # 239)) by (unfold Q2R; cbn [Qnum Qden]; lra). rewrite !qpeval_ok.
    replace 8%R with (Q2R 8) by (unfold Q2R; cbn [Qnum Qden]; lra). replace 2%R with (Q2R 2) by (unfold Q2R; cbn [Qnum Qden]; lra). rewrite <- !Q2R_mult, <- Q2R_minus. apply Qeq_eqR. vm_compute. reflexivity. }
  pose proof Machin_4_5_239 as M. pose proof (tan65_taylor (/ 5)) as A. pose proof (tan65_taylor (/ 239)) as B.
  rewrite (Rabs_pos_eq (/ 5)) in A by lra. rewrite (Rabs_pos_eq (/ 239)) in B by lra.
  pose proof (pow_inv_small 5 131 (2^304) ltac:(lia) ltac:(vm_compute; discriminate) ltac:(lia)) as P5.
  pose proof (pow_inv_small 239 131 (2^304) ltac:(lia) ltac:(vm_compute; discriminate) ltac:(lia)) as P239.
  set (eps := (/ IZR (2^304))%R) in *. assert (EE : eps = Q2R (1 # 2^304)) by (unfold eps, Q2R; cbn [Qnum Qden]; rewrite Rmult_1_l; reflexivity).
  assert (K : (Rabs (PI / 2 - Q2R pi2q) <= 10 * eps)%R) by (rewrite E; apply Rabs_le_inv in A, B; apply Rabs_le; lra).
  apply Rabs_le_inv in K. rewrite EE in K. clear - K.
  replace (IZR hpi * bpow radix2 (- HS))%R with (Q2R (hpi # 2^288)) by (unfold Q2R; cbn [Qnum Qden]; reflexivity).
  replace (IZR (hpi + 1) * bpow radix2 (- HS))%R with (Q2R ((hpi + 1) # 2^288)) by (unfold Q2R; cbn [Qnum Qden]; reflexivity).
  replace (10 * Q2R (1 # 2^304))%R with (Q2R (10 # 2^304)) in K by (unfold Q2R; cbn [Qnum Qden]; lra).
  assert (L : (Q2R (hpi # 2^288) <= Q2R (pi2q - (10 # 2^304)))%R) by (apply Approx.Q2R_le; vm_compute; reflexivity).
  assert (U : (Q2R (pi2q + (10 # 2^304)) <= Q2R ((hpi + 1) # 2^288))%R) by (apply Approx.Q2R_le; vm_compute; reflexivity).
  rewrite Q2R_minus in L. rewrite Q2R_plus in U. lra.
Qed.

(** ** lattice argument *)
Section Lattice.
Variables (al be : R) (q p q' p' : Z) (M : Z).
Hypothesis (Q0 : 0 <= q) (Q1 : M <= q') (DET : q * p' - q' * p = 1 \/ q * p' - q' * p = -1).
Let v := (IZR q * al - IZR p * be)%R.
Let v' := (IZR q' * al - IZR p' * be)%R.
Hypothesis OPP : (0 < v /\ v' < 0)%R \/ (v < 0 /\ 0 < v')%R.
Lemma lattice m k : 0 < m < M -> (Rabs v <= Rabs (IZR m * al - IZR k * be))%R.
Proof.
  intros H. set (D := q * p' - q' * p) in *.
  assert (X : exists a b, m = a * q + b * q' /\ k = a * p + b * p').
  { exists (D * (m * p' - k * q')), (D * (k * q - m * p)). assert (DD : D * D = 1) by (destruct DET as [E|E]; rewrite E; reflexivity). split.
    - transitivity (m * (D * D)); [rewrite DD; ring|unfold D; ring].
    - transitivity (k * (D * D)); [rewrite DD; ring|unfold D; ring]. }
  destruct X as (a & b & E1 & E2).
  replace (IZR m * al - IZR k * be)%R with (IZR a * v + IZR b * v')%R by (unfold v, v'; rewrite E1, E2, !plus_IZR, !mult_IZR; ring).
  assert (C : (a <= -1 /\ 0 <= b) \/ (1 <= a /\ b <= 0)).
  { destruct (Z_lt_le_dec 0 b) as [Bp|Bp]; [left; split; [|lia]|right; split; [|lia]].
    - assert (a * q < 0) by nia. nia.
    - assert (0 < a * q) by nia. nia. }
  destruct C as [[C1 C2]|[C1 C2]]; apply IZR_le in C1, C2; destruct OPP as [[V1 V2]|[V1 V2]].
  - rewrite (Rabs_pos_eq v), Rabs_left1 by nra. nra.
  - rewrite (Rabs_left1 v), Rabs_pos_eq by nra. nra.
  - rewrite (Rabs_pos_eq v), Rabs_pos_eq by nra. nra.
  - rewrite (Rabs_left1 v), Rabs_left1 by nra. nra.
Qed.
End Lattice.

(** ** the lower bounds *)
Definition lbe (e : Z) : Z := if e <=? -14 then -28 else if e <=? -9 then e - 16 else if e <=? 1 then e - 25 else if e <=? 5 then e - 29 else -30.
Definition cert (e : Z) (c : Z * Z * Z * Z) : bool :=
  let '(q, p, q', p') := c in
  let lo := q * 2^(e + HS) - p * (hpi + 1) in let hi := q * 2^(e + HS) - p * hpi in
  let lo' := q' * 2^(e + HS) - p' * (hpi + 1) in let hi' := q' * 2^(e + HS) - p' * hpi in
  let L := 2^(lbe e + HS) in
  (0 <=? q) && (0 <=? p) && (0 <=? p') && (2^24 <=? q') && (Z.abs (q * p' - q' * p) =? 1) && (-100 <=? e) && (-100 <=? lbe e) &&
  ((L <=? lo) && (hi' <? 0) || (hi <=? - L) && (0 <? lo')).
Lemma enclose e q p : 0 <= p -> -100 <= e -> (IZR (q * 2^(e + HS) - p * (hpi + 1)) * bpow radix2 (- HS) <= IZR q * bpow radix2 e - IZR p * (PI / 2) <= IZR (q * 2^(e + HS) - p * hpi) * bpow radix2 (- HS))%R.
Proof.
  intros P E. destruct hpi_real as [A B]. apply IZR_le in P. rewrite !minus_IZR, !mult_IZR. replace (IZR (2^(e + HS))) with (bpow radix2 (e + HS)) by (symmetry; apply (IZR_Zpower radix2); unfold HS; lia).
  rewrite !Rmult_minus_distr_r, !Rmult_assoc, <- bpow_plus. replace (e + HS + - HS) with e by ring.
  pose proof (Rmult_le_compat_l _ _ _ P A). pose proof (Rmult_le_compat_l _ _ _ P B). lra.
Qed.
Lemma cert_ok e c m k : cert e c = true -> 0 < m < 2^24 -> (bpow radix2 (lbe e) <= Rabs (IZR m * bpow radix2 e - IZR k * (PI / 2)))%R.
Proof.
  destruct c as [[[q p] q'] p']. unfold cert. cbv zeta. intros H Hm.
  repeat (apply andb_prop in H; destruct H as [H ?]).
  repeat match goal with K : (_ <=? _) = true |- _ => apply Z.leb_le in K | K : (_ =? _) = true |- _ => apply Z.eqb_eq in K end.
  pose proof (enclose e q p ltac:(lia) ltac:(lia)) as E1. pose proof (enclose e q' p' ltac:(lia) ltac:(lia)) as E2. pose proof (bpow_gt_0 radix2 (- HS)) as B0.
  set (lo := q * 2^(e + HS) - p * (hpi + 1)) in *. set (hi := q * 2^(e + HS) - p * hpi) in *. set (lo' := q' * 2^(e + HS) - p' * (hpi + 1)) in *. set (hi' := q' * 2^(e + HS) - p' * hpi) in *.
  assert (EL : bpow radix2 (lbe e) = (IZR (2^(lbe e + HS)) * bpow radix2 (- HS))%R).
  { replace (IZR (2^(lbe e + HS))) with (bpow radix2 (lbe e + HS)) by (symmetry; apply (IZR_Zpower radix2); unfold HS; lia). rewrite <- bpow_plus. f_equal. ring. }
  assert (LP : (0 < bpow radix2 (lbe e))%R) by apply bpow_gt_0.
  match goal with K : (_ || _)%bool = true |- _ => apply orb_prop in K; destruct K as [K|K]; apply andb_prop in K; destruct K as [K1 K2]; apply Z.leb_le in K1; apply Z.ltb_lt in K2 end.
  - apply IZR_le in K1. apply IZR_lt in K2. assert (V : (bpow radix2 (lbe e) <= IZR q * bpow radix2 e - IZR p * (PI / 2))%R) by (rewrite EL; eapply Rle_trans; [apply Rmult_le_compat_r; [lra|exact K1]|lra]).
    assert (V' : (IZR q' * bpow radix2 e - IZR p' * (PI / 2) < 0)%R) by nra.
    eapply Rle_trans; [|apply (lattice (bpow radix2 e) (PI / 2) q p q' p' (2^24)); try lia; left; split; lra]. rewrite Rabs_pos_eq; lra.
  - apply IZR_le in K1. apply IZR_lt in K2. rewrite opp_IZR in K1. assert (V : (IZR q * bpow radix2 e - IZR p * (PI / 2) <= - bpow radix2 (lbe e))%R) by (rewrite EL; eapply Rle_trans; [apply E1|]; nra).
    assert (V' : (0 < IZR q' * bpow radix2 e - IZR p' * (PI / 2))%R) by nra.
    eapply Rle_trans; [|apply (lattice (bpow radix2 e) (PI / 2) q p q' p' (2^24)); try lia; right; split; lra]. rewrite Rabs_left1; lra.
Qed.
Definition certs : list (Z * Z * Z * Z) := [
  (1, 0, 26353589, 1);
  (13176795, 1, 26353589, 2);
  (6588397, 1, 19765192, 3);
  (9882596, 3, 125179549, 38);
  (4941298, 3, 130120847, 79);
  (2470649, 3, 130120847, 158);
  (2470649, 6, 63825099, 155);
  (2470649, 12, 30677225, 149);
  (16573937, 161, 362155965, 3518);
  (16573937, 322, 172791014, 3357);
  (16573937, 644, 86395507, 3357);
  (16573937, 1288, 34910785, 2713);
  (9168424, 1425, 25742361, 4001);
  (4584212, 1425, 25742361, 8002);
  (2292106, 1425, 25742361, 16004);
  (1146053, 1425, 26888414, 33433);
  (13444207, 33433, 95255502, 236881);
  (13444207, 66866, 47627751, 236881);
  (13444207, 133732, 17091772, 170015);
  (8545886, 170015, 39081865, 777509);
  (4272943, 170015, 43354808, 1725033);
  (4272943, 340030, 21677404, 1725033);
  (10838702, 1725033, 80143857, 12755291);
  (5419351, 1725033, 80143857, 25510582);
  (5419351, 3450066, 37362253, 23785549);
  (15971451, 20335483, 21390802, 27235615);
  (10695401, 27235615, 133620862, 340262731);
  (10695401, 54471230, 66810431, 340262731);
  (10695401, 108942460, 28057515, 285791501);
  (8681057, 176849041, 19376458, 394733961);
  (9688229, 394733961, 66810431, 2722101848);
  (9688229, 789467922, 28561101, 2327367887);
  (9436436, 1537899965, 19124665, 3116835809);
  (4718218, 1537899965, 19124665, 6233671618);
  (2359109, 1537899965, 21483774, 14005243201);
  (10741887, 14005243201, 775774973, 1011453310402);
  (10741887, 28010486402, 382516543, 997448067201);
  (10741887, 56020972804, 185887328, 969437580799);
  (10741887, 112041945608, 92943664, 969437580799);
  (10741887, 224083891216, 46471832, 969437580799);
  (10741887, 448167782432, 23235916, 969437580799);
  (11617958, 969437580799, 219865131, 18346212019246);
  (5808979, 969437580799, 225674110, 37661861619291);
  (5808979, 1938875161598, 112837055, 37661861619291);
  (5808979, 3877750323196, 53514038, 35722986457693);
  (5808979, 7755500646392, 26757019, 35722986457693);
  (16282999, 43478487104085, 26757019, 71445972915386);
  (5237010, 27967485811301, 21520009, 114924460019471);
  (2618505, 27967485811301, 21520009, 229848920038942);
  (12069257, 257816405850243, 21520009, 459697840077884);
  (4725376, 201881434227641, 16794633, 717514245928127);
  (2362688, 201881434227641, 16794633, 1435028491856254);
  (1181344, 201881434227641, 16794633, 2870056983712508);
  (590672, 201881434227641, 17385305, 5941995401652657);
  (295336, 201881434227641, 17680641, 12085872237532955);
  (147668, 201881434227641, 17680641, 24171744475065910);
  (73834, 201881434227641, 17754475, 48545370384359461);
  (36917, 201881434227641, 17791392, 97292622202946563);
  (8895696, 97292622202946563, 115680965, 1265207851506760601);
  (4447848, 97292622202946563, 115680965, 2530415703013521202);
  (2223924, 97292622202946563, 117904889, 5158124028229988967);
  (1111962, 97292622202946563, 117904889, 10316248056459977934);
  (555981, 97292622202946563, 117904889, 20632496112919955868);
  (555981, 194585244405893126, 58674454, 20535203490717009305);
  (555981, 389170488811786252, 29337227, 20535203490717009305);
  (14946604, 20924373979528795557, 44283831, 61994780960962814167);
  (7473302, 20924373979528795557, 44283831, 123989561921925628334);
  (3736651, 20924373979528795557, 48020482, 268903497823380052225);
  (3736651, 41848747959057591114, 24010241, 268903497823380052225);
  (13873446, 310752245782437643339, 24010241, 537806995646760104450);
  (6936723, 310752245782437643339, 30946964, 1386366237075957852239);
  (15473482, 1386366237075957852239, 37883687, 3394236965716790991156);
  (7736741, 1386366237075957852239, 37883687, 6788473931433581982312);
  (15073473, 5402107694357624130073, 22810214, 8174840168509539834551);
  (11405107, 8174840168509539834551, 72099008, 51678416231262947432901);
  (11405107, 16349680337019079669102, 36049504, 51678416231262947432901);
  (11405107, 32699360674038159338204, 18024752, 51678416231262947432901);
  (9012376, 51678416231262947432901, 209677379, 1202323878435861162200230);
  (4506188, 51678416231262947432901, 214183567, 2456326173102985271833361);
  (2253094, 51678416231262947432901, 214183567, 4912652346205970543666722);
  (1126547, 51678416231262947432901, 214183567, 9825304692411941087333444);
  (1126547, 103356832462525894865802, 106528510, 9773626276180678139900543);
  (1126547, 206713664925051789731604, 53264255, 9773626276180678139900543);
  (1126547, 413427329850103579463208, 26068854, 9566912611255626350168939);
  (13034427, 9566912611255626350168939, 40229828, 29527592493467086209433233);
  (13034427, 19133825222511252700337878, 20114914, 29527592493467086209433233);
  (10057457, 29527592493467086209433233, 234298481, 687874685301298402008206882);
  (10057457, 59055184986934172418866466, 112120512, 658347092807831315798773649);
  (10057457, 118110369973868344837732932, 56060256, 658347092807831315798773649);
  (10057457, 236220739947736689675465864, 28030128, 658347092807831315798773649);
  (14015064, 658347092807831315798773649, 122177969, 5739218222358123905741120920);
  (7007532, 658347092807831315798773649, 129185501, 12136783537524079127281015489);
  (3503766, 658347092807831315798773649, 129185501, 24273567075048158254562030978);
  (1751883, 658347092807831315798773649, 130937384, 49205481242904147824922835605);
  (1751883, 1316694185615662631597547298, 65468692, 49205481242904147824922835605);
  (1751883, 2633388371231325263195094596, 32734346, 49205481242904147824922835605);
  (16367173, 49205481242904147824922835605, 967415090, 2908390170073807372196837489887);
  (16367173, 98410962485808295649845671210, 483707545, 2908390170073807372196837489887);
  (16367173, 196821924971616591299691342420, 233670186, 2809979207587999076546991818677);
  (16367173, 393643849943233182599382684840, 116835093, 2809979207587999076546991818677);
  (16367173, 787287699886466365198765369680, 50233960, 2416335357644765893947609133837);
  (16367173, 1574575399772932730397530739360, 25116980, 2416335357644765893947609133837);
  (12558490, 2416335357644765893947609133837, 91718113, 17647162945414460824480716281742);
  (6279245, 2416335357644765893947609133837, 91718113, 35294325890828921648961432563484);
  (6279245, 4832670715289531787895218267674, 42719434, 32877990533184155755013823429647);
  (6279245, 9665341430579063575790436535348, 21359717, 32877990533184155755013823429647);
  (13819481, 42543331963763219330804259964995, 35179198, 108299313030131530840831906824289);
  (13819481, 85086663927526438661608519929990, 17589599, 108299313030131530840831906824289);
  (15704540, 193385976957657969502440426754279, 17589599, 216598626060263061681663813648578);
  (7852270, 193385976957657969502440426754279, 17589599, 433197252120526123363327627297156);
  (3926135, 193385976957657969502440426754279, 17589599, 866394504241052246726655254594312);
  (10757867, 1059780481198710216229095681348591, 17589599, 1732789008482104493453310509188624);
  (14173733, 2792569489680814709682406190537215, 145153196, 28598703424091541374048276733212183);
  (14173733, 5585138979361629419364812381074430, 72576598, 28598703424091541374048276733212183);
  (14173733, 11170277958723258838729624762148860, 36288299, 28598703424091541374048276733212183);
  (11057283, 17428425465368282535318651971063323, 25231016, 39768981382814800212777901495361043);
  (12615508, 39768981382814800212777901495361043, 36288299, 114394813696366165496193106932848732);
  (6307754, 39768981382814800212777901495361043, 42596053, 268558608775547131205164115361058507);
  (3153877, 39768981382814800212777901495361043, 42596053, 537117217551094262410328230722117014);
  (3153877, 79537962765629600425555802990722086, 19721088, 497348236168279462197550329226755971);
  (9860544, 497348236168279462197550329226755971, 22874965, 1153772397867818125246212264434956114);
  (4930272, 497348236168279462197550329226755971, 22874965, 2307544795735636250492424528869912228);
  (2465136, 497348236168279462197550329226755971, 22874965, 4615089591471272500984849057739824456);
  (1232568, 497348236168279462197550329226755971, 24107533, 9727527419110824464167248444706404883);
  (616284, 497348236168279462197550329226755971, 24723817, 19952403074389928390532047218639565737);
  (308142, 497348236168279462197550329226755971, 24723817, 39904806148779856781064094437279131474);
  (154071, 497348236168279462197550329226755971, 24877888, 80306960533727993024325739203785018919);
  (12438944, 80306960533727993024325739203785018919, 62348791, 402529499140976524046023796677378606537);
  (6219472, 80306960533727993024325739203785018919, 62348791, 805058998281953048092047593354757213074)].
Fixpoint all_certs (e : Z) (l : list (Z * Z * Z * Z)) : bool := match l with [] => true | c :: l => cert e c && all_certs (e + 1) l end.
Lemma all_certs_ok l : forall e0 e, all_certs e0 l = true -> e0 <= e < e0 + Z.of_nat (length l) -> exists c, cert e c = true.
Proof.
  induction l as [|c l IH]; intros e0 e H B; cbn [all_certs length] in *; [lia|]. apply andb_prop in H. destruct H as [H1 H2]. destruct (Z.eq_dec e e0) as [->|N]; [exists c; exact H1|]. apply (IH (e0 + 1)); [exact H2|lia].
Qed.
(** No float m 2^e is close to a multiple of pi/2. *)
Theorem away e m k : -24 <= e <= 104 -> 0 < m < 2^24 -> (bpow radix2 (lbe e) <= Rabs (IZR m * bpow radix2 e - IZR k * (PI / 2)))%R.
Proof.
  intros E M. destruct (all_certs_ok certs (-24) e) as (c & C); [vm_compute; reflexivity|change (Z.of_nat (length certs)) with 129; lia|]. exact (cert_ok e c m k C M).
Qed.

(** ** 2/pi to 256 binary places *)
Definition B2pi : Z := 0xA2F9836E4E441529FC2757D1F534DDC0DB6295993C439041FE5163ABDEBBC561.
Lemma two_over_pi : (IZR B2pi * (PI / 2) <= bpow radix2 256 < IZR (B2pi + 1) * (PI / 2))%R.
Proof.
  destruct hpi_real as [A B]. assert (S0 := bpow_gt_0 radix2 (- HS)).
  assert (K1 : (IZR (B2pi * (hpi + 1)) <= IZR (2^(256 + HS)))%R) by (apply IZR_le; vm_compute; discriminate).
  assert (K2 : (IZR (2^(256 + HS)) < IZR ((B2pi + 1) * hpi))%R) by (apply IZR_lt; vm_compute; reflexivity).
  rewrite mult_IZR in K1, K2. replace (bpow radix2 256) with (IZR (2^(256 + HS)) * bpow radix2 (- HS))%R by (replace (IZR (2^(256 + HS))) with (bpow radix2 (256 + HS)) by (symmetry; apply (IZR_Zpower radix2); unfold HS; lia); rewrite <- bpow_plus; f_equal).
  assert (P0 : (0 <= IZR B2pi)%R) by (apply IZR_le; vm_compute; discriminate). assert (P1 : (0 <= IZR (B2pi + 1))%R) by (apply IZR_le; vm_compute; discriminate).
  pose proof (Rmult_le_compat_l _ _ _ P0 B) as L1. pose proof (Rmult_le_compat_l _ _ _ P1 A) as L2. split.
  - eapply Rle_trans; [exact L1|]. rewrite <- Rmult_assoc. apply Rmult_le_compat_r; lra.
  - eapply Rlt_le_trans; [|exact L2]. rewrite <- Rmult_assoc. apply Rmult_lt_compat_r; lra.
Qed.
