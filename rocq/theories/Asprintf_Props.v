(** C132: asprintf and vasprintf. *)
From Coq Require Import String.
From Verif Require Import Base Str_Model Str_Spec Printf_Model Printf_Fixed_Model Printf_Str_Proof Printf_Props Asprintf_Model.
Open Scope Z_scope.
Local Notation len := List.length.

(** What malloc promises: a new block of the size asked for, below 2^32; bytes
    that were mapped keep their values and are outside of the block. *)
Definition malloc_ok (malloc : mem -> Z -> option (Z * mem)) : Prop :=
  forall m n buf m', malloc m n = Some (buf, m') ->
    0 < buf /\ buf + n <= 2^32 /\ mapped m' buf (buf + n) /\ (forall x, m x <> None -> m' x = m x /\ ~ (buf <= x < buf + n)).

Lemma sizing m ps st : vsnprintf m 0 0 ps st = Ok (m, st).
Proof. unfold vsnprintf, on_stream. cbn [Z.eqb]. rewrite run_noop. reflexivity. Qed.

(** The block holds exactly the text and its NUL, for every format and argument
    list whose output has at most INT_MAX characters and is not changed by the
    allocation; no byte that was mapped before changes. *)
Theorem C132_asprintf_text : forall fuel malloc free m fmt args ps st,
  malloc_ok malloc -> printf_ fuel m fmt args = Ok (m, ps, st) -> 0 <= st <= INT_MAX ->
  let text := List.concat ps in Z.of_nat (len text) <= INT_MAX ->
  forall buf m1, malloc m (Z.of_nat (len text) + 1) = Some (buf, m1) -> printf_ fuel m1 fmt args = Ok (m1, ps, st) ->
  exists m2, vasprintf fuel malloc free m fmt args = Ok (m2, Some buf, Z.of_nat (len text)) /\
    (forall i, 0 <= i < Z.of_nat (len text) -> m2 (buf + i) = Some (nth (Z.to_nat i) text 0)) /\
    m2 (buf + Z.of_nat (len text)) = Some 0 /\
    (forall x, m x <> None -> m2 x = m x).
Proof.
  intros fuel malloc free m fmt args ps st MO E1 Hst text HL buf m1 EM E2.
  assert (ST : st = Z.of_nat (len text)).
  { destruct (C47_total_length _ _ _ _ _ _ _ E1) as [C|C]; [lia|]. fold text in C. unfold INT_MAX in *. rewrite !Z.mod_small in C by lia. exact C. }
  unfold vasprintf. rewrite E1. cbn [bind]. rewrite sizing. cbn [bind]. replace (st <? 0) with false by lia.
  assert (U : u32 (u32 st + 1) = Z.of_nat (len text) + 1) by (unfold u32, INT_MAX in *; rewrite !Z.mod_small by lia; lia). rewrite U.
  rewrite EM, E2. cbn [bind]. destruct (MO _ _ _ _ EM) as (B0 & B1 & B2 & B3).
  destruct (C47_vsnprintf m1 buf (Z.of_nat (len text) + 1) ps st ltac:(unfold INT_MAX in *; lia) B2) as (m2 & V & O). rewrite V. cbn [bind]. replace (st <? 0) with false by lia.
  exists m2. split; [rewrite ST; reflexivity|]. fold text in O. replace (Z.of_nat (len text) + 1 =? 0) with false in O by lia.
  replace (Z.to_nat (Z.of_nat (len text) + 1 - 1)) with (len text) in O by lia. rewrite firstn_all in O. unfold overlay in O. rewrite app_length in O. cbn [len] in O.
  split; [|split].
  - intros i Hi. rewrite O. replace ((buf <=? buf + i) && (buf + i <? buf + Z.of_nat (len text + 1))) with true by lia. replace (buf + i - buf) with i by lia. rewrite app_nth1 by lia. reflexivity.
  - rewrite O. replace ((buf <=? buf + Z.of_nat (len text)) && (buf + Z.of_nat (len text) <? buf + Z.of_nat (len text + 1))) with true by lia.
    replace (Z.to_nat (buf + Z.of_nat (len text) - buf)) with (len text) by lia. rewrite app_nth2, Nat.sub_diag by lia. reflexivity.
  - intros x Hx. destruct (B3 x Hx) as [B4 B5]. rewrite O. replace ((buf <=? x) && (x <? buf + Z.of_nat (len text + 1))) with false by lia. exact B4.
Qed.
Print Assumptions C132_asprintf_text.

(** Failure: a formatting error or a failed allocation gives -1 and a null
    pointer and writes nothing. *)
Theorem C132_asprintf_failure : forall fuel malloc free m fmt args m0 ps st,
  printf_ fuel m fmt args = Ok (m0, ps, st) -> st <= INT_MAX ->
  (st < 0 \/ malloc m0 (st + 1) = None) -> vasprintf fuel malloc free m fmt args = Ok (m0, None, -1).
Proof.
  intros fuel malloc free m fmt args m0 ps st E H F. unfold vasprintf. rewrite E. cbn [bind]. rewrite sizing. cbn [bind].
  destruct (st <? 0) eqn:N; [reflexivity|]. destruct F as [F|F]; [lia|]. replace (u32 (u32 st + 1)) with (st + 1) by (unfold u32, INT_MAX in *; rewrite !Z.mod_small by lia; lia). rewrite F. reflexivity.
Qed.
Print Assumptions C132_asprintf_failure.

(** Whatever the second formatting gives (%n may have changed
    a string argument), only the block is written, -1 comes with a null
    pointer and with the block being freed, and anything else with the block. *)
Theorem C132_asprintf_safe : forall fuel malloc free m fmt args m0 ps st buf m1 m1' ps' st',
  malloc_ok malloc -> printf_ fuel m fmt args = Ok (m0, ps, st) -> 0 <= st <= INT_MAX -> malloc m0 (st + 1) = Some (buf, m1) ->
  printf_ fuel m1 fmt args = Ok (m1', ps', st') -> mapped m1' buf (buf + (st + 1)) ->
  exists m2, vasprintf fuel malloc free m fmt args = (if st' <? 0 then Ok (free m2 buf, None, -1) else Ok (m2, Some buf, st')) /\
    (forall x, ~ (buf <= x < buf + (st + 1)) -> m2 x = m1' x).
Proof.
  intros fuel malloc free m fmt args m0 ps st buf m1 m1' ps' st' MO E1 H EM E2 MP. unfold vasprintf. rewrite E1. cbn [bind]. rewrite sizing. cbn [bind]. replace (st <? 0) with false by lia.
  replace (u32 (u32 st + 1)) with (st + 1) by (unfold u32, INT_MAX in *; rewrite !Z.mod_small by lia; lia). rewrite EM, E2. cbn [bind].
  destruct (C47_vsnprintf m1' buf (st + 1) ps' st' ltac:(unfold INT_MAX in *; lia) MP) as (m2 & V & O). rewrite V. cbn [bind]. exists m2. split; [reflexivity|].
  intros x Hx. unfold overlay in O. rewrite O. replace (st + 1 =? 0) with false in * by lia. rewrite app_length, firstn_length. cbn [len].
  destruct ((buf <=? x) && (x <? buf + Z.of_nat (Nat.min (Z.to_nat (st + 1 - 1)) (len (List.concat ps')) + 1))) eqn:E; [lia|reflexivity].
Qed.
Print Assumptions C132_asprintf_safe.

(** "a%xb" with 255, the block at 200 *)
Local Definition text (s : string) : list Z := map (fun a => Z.of_nat (Ascii.nat_of_ascii a)) (list_ascii_of_string s).
Local Definition heap (m : mem) (n : Z) : option (Z * mem) :=
  if forallb (fun i => match m (200 + Z.of_nat i) with None => true | Some _ => false end) (seq 0 (Z.to_nat n)) && (n <=? 100) then
    Some (200, fun x => if (200 <=? x) && (x <? 200 + n) then Some 85 else m x) else None.
Example C132_example : malloc_ok heap /\
  exists m2, vasprintf 99 heap (fun m _ => m) (fun _ => None) (text "a%xb"%string) [A32 255] = Ok (m2, Some 200, 4) /\
    map m2 [200; 201; 202; 203; 204; 205] = map Some (text "affb"%string ++ [0]) ++ [None].
Proof.
  split.
  - intros m n buf m' E. unfold heap in E. destruct (forallb _ _) eqn:F; [|discriminate]. destruct (n <=? 100) eqn:N; [|discriminate]. cbn [andb] in E.
    pose proof (f_equal (fun o => match o with Some (b, _) => b | None => 0 end) E) as E1. pose proof (f_equal (fun o => match o with Some (_, f) => f | None => m end) E) as E2. cbv beta iota in E1, E2. subst buf m'. clear E. split; [lia|]. split; [lia|]. split.
    + intros x Hx. cbv beta. replace ((200 <=? x) && (x <? 200 + n)) with true by lia. intros C. discriminate C.
    + intros x Hx. assert (G : ~ (200 <= x < 200 + n)).
      { intros G. rewrite forallb_forall in F. specialize (F (Z.to_nat (x - 200))). replace (200 + Z.of_nat (Z.to_nat (x - 200))) with x in F by lia. destruct (m x); [|congruence].
        discriminate F. apply in_seq. lia. }
      split; [|exact G]. cbv beta. replace ((200 <=? x) && (x <? 200 + n)) with false by lia. reflexivity.
  - eexists. split; vm_compute; reflexivity.
Qed.
