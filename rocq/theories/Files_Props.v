(** C102, C103, C104: opening, closing, renaming, removing and examining files. *)
From Coq Require Import String Permutation.
From Verif Require Import Base Wasi_Model Wasi_Spec Files_Model Files_Spec Files_Proof.
From Verif Require Stdio_Model.
Open Scope Z_scope.
Open Scope list_scope.

(** C102.  [dir] and [rel] are the place of the path among the preopened directories (C60).  A file is unlinked; only when the
    host says that it is a directory, it is removed as one; the last answer is the caller's. *)
Theorem C102_remove : forall h entries w path dir rel, honest h -> preopen_lookup entries path = Ok (Some (dir, rel)) ->
  exists e v r w', h (trace w) (Unlink dir rel) = (e, v) /\ remove_ h entries w path = Ok (r, w') /\
  (e <> 31 /\ reports e w r w' /\ only_asked w [(Unlink dir rel, e, v)] w' \/
   e = 31 /\ exists e2 v2, h ((Unlink dir rel, e, v) :: trace w) (RemoveDir dir rel) = (e2, v2) /\
     reports e2 w r w' /\ only_asked w [(Unlink dir rel, e, v); (RemoveDir dir rel, e2, v2)] w').
Proof. exact remove_ok. Qed.
Print Assumptions C102_remove.
Theorem C102_rename : forall h entries w from to dir rel dir' rel', honest h ->
  preopen_lookup entries from = Ok (Some (dir, rel)) -> preopen_lookup entries to = Ok (Some (dir', rel')) ->
  exists e v r w', h (trace w) (Rename dir rel dir' rel') = (e, v) /\ rename h entries w from to = Ok (r, w') /\
  reports e w r w' /\ only_asked w [(Rename dir rel dir' rel', e, v)] w'.
Proof.
  intros h entries w from to dir rel dir' rel' Hh L1 L2. destruct (ask_outcome h w (Rename dir rel dir' rel') Hh) as (e & v & r & w' & A & O & R & T).
  exists e, v, r, w'. split; [exact A|]. split; [|auto]. unfold rename. rewrite L1. cbn [bind]. rewrite L2. exact O.
Qed.
Print Assumptions C102_rename.
(** stat asks the host to follow a final symbolic link, lstat does not. *)
Theorem C102_stat : forall h entries w path dir rel (follow : bool), honest h -> preopen_lookup entries path = Ok (Some (dir, rel)) ->
  exists e v r w', h (trace w) (PathStat dir (if follow then 1 else 0) rel) = (e, v) /\ stat_ follow h entries w path = Ok (r, w') /\
  reports e w r w' /\ only_asked w [(PathStat dir (if follow then 1 else 0) rel, e, v)] w'.
Proof.
  intros h entries w path dir rel follow Hh L. destruct (ask_outcome h w (PathStat dir (b2z follow) rel) Hh) as (e & v & r & w' & A & O & R & T).
  exists e, v, r, w'. split; [exact A|]. split; [|auto]. unfold stat_. rewrite L. exact O.
Qed.
Print Assumptions C102_stat.
Theorem C102_fstat : forall h w fd, honest h -> 0 <= fd < 2^31 ->
  exists e v r w', h (trace w) (FdStat fd) = (e, v) /\ fstat h w fd = Ok (r, w') /\ reports e w r w' /\ only_asked w [(FdStat fd, e, v)] w'.
Proof.
  intros h w fd Hh B. unfold fstat. replace (u32 fd) with fd by (unfold u32; lia).
  destruct (ask_outcome h w (FdStat fd) Hh) as (e & v & r & w' & A & O & R & T). exists e, v, r, w'. auto.
Qed.
Print Assumptions C102_fstat.
(** A path under no preopened directory: -1 with errno ENOENT (WASI 44), and nothing is asked of the host. *)
Theorem C102_nowhere : forall h entries w path, preopen_lookup entries path = Ok None -> exists w', reports 44 w (-1) w' /\ only_asked w [] w' /\
  remove_ h entries w path = Ok (-1, w') /\ (forall follow, stat_ follow h entries w path = Ok (-1, w')) /\
  (forall to, rename h entries w path to = Ok (-1, w')) /\
  (forall from dir rel, preopen_lookup entries from = Ok (Some (dir, rel)) -> rename h entries w from path = Ok (-1, w')) /\
  (forall mode, fopen h entries w path mode = Ok (0, w')).
Proof.
  intros h entries w path L. exists (set_errno w 2). destruct (lost_path w) as [R T]. split; [exact R|]. split; [exact T|].
  unfold remove_, stat_, rename, fopen, open_path_. rewrite L. cbn. repeat split. intros from dir rel E. rewrite E. reflexivity.
Qed.
Print Assumptions C102_nowhere.
(** A host on which "d" is a nonempty directory and everything else is missing; "/" of the program is descriptor 3. *)
Definition example_host : host := fun _ c =>
  match c with Unlink _ [100] => (31, 0) | RemoveDir _ [100] => (55, 0) | PathOpen _ [102] _ _ _ => (0, 7) | Close _ => (29, 0) | _ => (44, 0) end.
Example C102_example : let entries := [mk_preopen 3 [47;97]] in
  (exists w, remove_ example_host entries start [47;97;47;100] = Ok (-1, w) /\ errno w = 39 /\ List.length (trace w) = 2%nat) /\
  (exists w, remove_ example_host entries start [47;97;47;120] = Ok (-1, w) /\ errno w = 2 /\ List.length (trace w) = 1%nat) /\
  (exists w, rename example_host entries start [47;97;47;120] [47;98] = Ok (-1, w) /\ errno w = 2 /\ trace w = []).
Proof. cbn. repeat split; eexists; repeat split. Qed.

(** C103.  At every moment of every program that opens, closes and reopens files (each stream it passes being one that it
    has open): the descriptors that the host has opened and not been asked to close are those of the open streams,
    each once, and every close request is for a descriptor then open. *)
Theorem C103_no_leak_no_double_close : forall h entries w, honest h -> reach h entries w ->
  Permutation (open_fds (trace w)) (stream_fds w) /\ NoDup (stream_fds w) /\ closes_open (trace w).
Proof.
  intros h entries w Hh R. assert (inv w) as (P & N & _ & _ & C & _).
  { induction R as [|w o r w' R IH L S]; [exact start_inv|]. destruct (step_good h entries w o Hh IH L) as (r2 & w2 & E & I). congruence. }
  split; [exact P|]. split; [|exact C]. eapply Permutation_NoDup; eassumption.
Qed.
Print Assumptions C103_no_leak_no_double_close.
(** ... and no call is undefined. *)
Theorem C103_defined : forall h entries w o, honest h -> reach h entries w -> legal w o -> exists r w', step h entries w o = Ok (r, w').
Proof.
  intros h entries w o Hh R L. assert (inv w) as I.
  { clear L o. induction R as [|w o r w' R IH L S]; [exact start_inv|]. destruct (step_good h entries w o Hh IH L) as (r2 & w2 & E & I). congruence. }
  destruct (step_good h entries w o Hh I L) as (r & w' & E & _). eauto.
Qed.
Print Assumptions C103_defined.
(** A host counting its descriptors up from 4 is honest as long as it has numbers left; the program opens two files,
    reopens the first elsewhere and closes the second. *)
Definition counting : host := fun tr c =>
  match c with PathOpen _ _ _ _ _ => let v := 1 + fold_right Z.max 3 (open_fds tr) in if v <? 2^31 then (0, v) else (41, 0) | _ => (0, 0) end.
Lemma counting_honest : honest counting.
Proof.
  intros tr c. destruct c; try (cbn; split; [lia|exact I]). unfold counting. set (m := fold_right Z.max 3 (open_fds tr)).
  change (let '(e, v) := if 1 + m <? 2^31 then (0, 1 + m) else (41, 0) in 0 <= e <= 76 /\ (e = 0 -> 0 <= v < 2^31 /\ ~ In v (open_fds tr))).
  destruct (1 + m <? 2^31) eqn:E; split; try lia. intros _.
  assert (forall x, In x (open_fds tr) -> x <= m) as M.
  { unfold m. generalize (open_fds tr). induction l as [|a l IH]; cbn; [tauto|]. intros x [->|J]; [lia|]. specialize (IH x J). lia. }
  assert (3 <= m) by (unfold m; generalize (open_fds tr); induction l; cbn; lia).
  split; [lia|]. intros J. apply M in J. lia.
Qed.
Example C103_example : let entries := [mk_preopen 3 []] in exists w, reach counting entries w /\
  stream_fds w = [6] /\ heap w = [4] /\ List.length (trace w) = 5%nat /\ honest counting.
Proof.
  cbn. eexists. split; [|split; [|split; [|split; [|exact counting_honest]]]].
  - eapply (reach_step _ _ _ (Fclose 5)); [eapply (reach_step _ _ _ (Freopen (Some [99]) [119] 4));
      [eapply (reach_step _ _ _ (Fopen [98] [114]));
        [eapply (reach_step _ _ _ (Fopen [97] [114])); [apply reach_start|exact I|vm_compute; reflexivity]|exact I|vm_compute; reflexivity]
      |cbn; auto|vm_compute; reflexivity]|cbn; auto|vm_compute; reflexivity].
  - vm_compute. reflexivity.
  - reflexivity.
  - reflexivity.
Qed.

(** C104.  fopen makes one request; success gives a new stream with the host's descriptor, failure a null pointer and errno. *)
Theorem C104_fopen_partial : forall h entries w path mode dir rel rights oflags fdflags, honest h -> reach h entries w ->
  preopen_lookup entries path = Ok (Some (dir, rel)) -> Stdio_Model.open_flags (Stdio_Model.modeflags_ mode) = Some (rights, oflags, fdflags) ->
  exists e v r w', h (trace w) (PathOpen dir rel oflags rights fdflags) = (e, v) /\ fopen h entries w path mode = Ok (r, w') /\
  trace w' = (PathOpen dir rel oflags rights fdflags, e, v) :: trace w /\
  (e = 0 /\ r <> 0 /\ ~ In r (heap w) /\ heap w' = r :: heap w /\ errno w' = errno w /\
     (exists s, streams w' r = Some s /\ sfd s = v) /\ (forall q, In q (heap w) -> streams w' q = streams w q) \/
   e <> 0 /\ r = 0 /\ errno_for e (errno w') /\ heap w' = heap w /\ streams w' = streams w).
Proof.
  intros h entries w path mode dir rel rights oflags fdflags Hh R L F. assert (inv w) as (P & N & NH & S & C & L4 & Ho).
  { clear L. induction R as [|w o r w' R IH L S]; [exact start_inv|]. destruct (step_good h entries w o Hh IH L) as (r2 & w2 & E & I). congruence. }
  unfold fopen, open_path_. rewrite L, F. cbn [bind]. pose proof (Hh (trace w) (PathOpen dir rel oflags rights fdflags)) as B.
  destruct (h (trace w) (PathOpen dir rel oflags rights fdflags)) as [e v] eqn:A. destruct B as [B B2]. rewrite (ask_eq _ _ _ _ _ A).
  exists e, v. destruct (Z.eqb_spec e 0) as [->|Ne].
  - specialize (B2 eq_refl). rewrite (sgn_id 32) by lia. cbn [bind]. replace (v <? 0) with false by lia. unfold malloc. cbn [oom next heap]. rewrite Ho.
    rewrite store_ok by (cbn; auto). cbn [bind]. eexists _, _. split; [reflexivity|]. split; [reflexivity|]. cbn. split; [reflexivity|]. left.
    split; [reflexivity|]. split; [lia|]. split; [intros J; apply S in J; lia|]. split; [reflexivity|]. split; [reflexivity|].
    rewrite Z.eqb_refl. split; [eexists; split; reflexivity|]. intros q J. apply S in J. replace (q =? next w) with false by lia. reflexivity.
  - destruct (wasi_errno_ok e B) as (x & X & _ & Y & _). unfold seterrno. rewrite X. cbn [bind]. eexists _, _. split; [reflexivity|]. split; [reflexivity|]. split; [reflexivity|].
    right. split; [exact Ne|]. split; [reflexivity|]. split; [apply Y; lia|]. split; reflexivity.
Qed.
Print Assumptions C104_fopen_partial.
(** fclose makes one close request, releases the stream whatever the answer, and returns 0 exactly on success; but see below for errno. *)
Theorem C104_fclose_partial : forall h entries w p s, honest h -> reach h entries w -> In p (heap w) -> streams w p = Some s ->
  exists e v r w', h (trace w) (Close (sfd s)) = (e, v) /\ fclose h w p = Ok (r, w') /\ trace w' = (Close (sfd s), e, v) :: trace w /\
  (r = 0 <-> e = 0) /\ (r <> 0 -> r = -1) /\ ~ In p (heap w') /\ (forall q, q <> p -> streams w' q = streams w q /\ (In q (heap w') <-> In q (heap w))).
Proof.
  intros h entries w p s Hh R I E. assert (inv w) as Hi.
  { clear I E. induction R as [|w o r w' R IH L S]; [exact start_inv|]. destruct (step_good h entries w o Hh IH L) as (r2 & w2 & E & I). congruence. }
  destruct (fclose_ok h w p s Hh Hi I E) as (e & v & r & w' & F & A & Re & T & H & Q & _). exists e, v, r, w'.
  split; [exact A|]. split; [exact F|]. split; [exact T|]. split; [lia|]. split; [lia|]. split; [rewrite H; apply remove_In|].
  intros q Hq. split; [apply Q, Hq|]. rewrite H. split; intros J; [apply in_remove in J; tauto|apply in_in_remove; assumption].
Qed.
Print Assumptions C104_fclose_partial.
(** When the host reports EIO on closing, errno becomes EPERM: the return value -1 of the close function is taken for an error number. *)
Theorem C104_fclose_errno_refuted : exists h entries w p r w', reach h entries w /\ In p (heap w) /\
  (forall tr f, fst (h tr (Close f)) = 29) /\ fclose h w p = Ok (r, w') /\ r = -1 /\ ~ errno_for 29 (errno w') /\ errno w' = 1.
Proof.
  exists example_host, [mk_preopen 3 []]. eexists _, 4, _, _. split.
  { eapply (reach_step _ _ _ (Fopen [102] [114])); [apply reach_start|exact I|vm_compute; reflexivity]. }
  split; [left; reflexivity|]. split; [reflexivity|]. split; [vm_compute; reflexivity|]. split; [reflexivity|]. split; [|reflexivity].
  intros (name & _ & Hn & Hi). injection Hn as <-.
  assert (forallb (fun x => negb ((fst x =? posix_name "EIO")%string && (snd x =? 1))) errno_h = true) as Hf by (vm_compute; reflexivity).
  rewrite forallb_forall in Hf. specialize (Hf _ Hi). cbv beta in Hf. cbn [fst snd] in Hf. rewrite String.eqb_refl in Hf. discriminate Hf.
Qed.
Print Assumptions C104_fclose_errno_refuted.
(** Closing stdout frees an object that malloc did not give, for every host answer that is a WASI error number. *)
Theorem C104_fclose_static_refuted : exists p, streams start p = Some (mk_stream 1 0) /\
  forall h entries, honest h -> reach h entries start /\ fclose h start p = UB.
Proof.
  exists 2. split; [reflexivity|]. intros h entries Hh. split; [apply reach_start|].
  unfold fclose, load. cbn [start streams Z.eqb Pos.eqb bind]. unfold stdio_close.
  destruct (ask_outcome h start (Close 1) Hh) as (e & v & r & w' & _ & O & _ & (_ & _ & T & _)).
  cbn [sfd]. rewrite O. cbn [bind]. unfold free. rewrite T. reflexivity.
Qed.
Print Assumptions C104_fclose_static_refuted.
(** Reopening stdin to a file that cannot be opened likewise. *)
Theorem C104_freopen_static_refuted : exists h entries path mode, reach h entries start /\ freopen h entries start (Some path) mode 1 = UB.
Proof. exists example_host, [mk_preopen 3 []], [120], [114]. split; [apply reach_start|]. vm_compute. reflexivity. Qed.
Print Assumptions C104_freopen_static_refuted.
(** When memory has run out, fopen stores through the null pointer that malloc returned. *)
Theorem C104_fopen_no_memory_refuted : exists h entries w path mode, oom w = [true] /\ w = mk_world (trace start) (errno start) (streams start) (heap start) (next start) [true] /\
  fopen h entries w path mode = UB.
Proof. exists example_host, [mk_preopen 3 []]. eexists _, [102], [114]. split; [|split; [reflexivity|]]; [reflexivity|vm_compute; reflexivity]. Qed.
Print Assumptions C104_fopen_no_memory_refuted.
Example C104_example : exists w, fopen example_host [mk_preopen 3 []] start [102] [97] = Ok (4, w) /\ stream_fds w = [7] /\ open_fds (trace w) = [7] /\
  exists w', fclose example_host w 4 = Ok (-1, w') /\ heap w' = [] /\ open_fds (trace w') = [].
Proof. eexists. split; [vm_compute; reflexivity|]. split; [reflexivity|]. split; [reflexivity|]. eexists. split; [vm_compute; reflexivity|]. split; reflexivity. Qed.

(** C126.  setvbuf succeeds for the three buffering modes of the standard and fails for every other. *)
Theorem C126_setvbuf : forall mode, (setvbuf mode = 0 <-> In mode [0; 1; 2]) /\ (setvbuf mode <> 0 <-> ~ In mode [0; 1; 2]).
Proof.
  intros mode. assert (E : setvbuf mode = 0 <-> In mode [0; 1; 2]).
  { unfold setvbuf. cbn [In]. destruct (mode =? 0) eqn:A, (mode =? 1) eqn:B, (mode =? 2) eqn:C; cbn [negb andb]; lia. }
  split; [exact E|]. rewrite E. reflexivity.
Qed.
Print Assumptions C126_setvbuf.
Example C126_example : setvbuf 2 = 0 /\ setvbuf 3 <> 0.
Proof. split; [reflexivity|discriminate]. Qed.
