(** C60, C61, C80, C81: the WASI adaptation layer. *)
From Coq Require Import String.
From Verif Require Import Base Wasi_Model Wasi_Spec Wasi_Proof Time_Proof.
Open Scope Z_scope.
Open Scope list_scope.

(** C60.  [p] is the path without leading "./".  Missing: a directory named "/" (its recorded prefix
    is empty, so absolute paths never match it) and relative names beginning with "./". *)
Theorem C60_lookup_partial entries path : exists r, preopen_lookup entries path = Ok r /\
  exists p, (is_absolute path -> p = path) /\ (~ is_absolute path -> undotted path p) /\
  match r with
  | Some (f, rel) => path <> [] /\ exists e, In e entries /\ fd e = f /\
      ((universal e /\ ~ is_absolute path /\ relative p rel /\ forall e', In e' entries -> ~ named p e') \/
       (exists rest, ~ universal e /\ leads (prefix e) p rest /\ relative rest rel /\
          forall e', In e' entries -> named p e' -> (List.length (prefix e') <= List.length (prefix e))%nat))
  | None => path = [] \/ (forall e, In e entries -> ~ named p e) /\ (is_absolute path \/ forall e, In e entries -> ~ universal e)
  end.
Proof. exact (lookup_ok entries path). Qed.
Print Assumptions C60_lookup_partial.
(** "/ab" and "/ab/c" preopened as 3 and 4: "/ab/c//d" is "d" in 4, "/ab/cd" is "cd" in 3, "/abc" is nowhere. *)
Example C60_example :
  let entries := [mk_preopen 3 [47;97;98]; mk_preopen 4 [47;97;98;47;99]] in
  preopen_lookup entries [47;97;98;47;99;47;47;100] = Ok (Some (4, [100])) /\
  preopen_lookup entries [47;97;98;47;99;100] = Ok (Some (3, [99;100])) /\
  preopen_lookup entries [47;97;98;99] = Ok None.
Proof. repeat split. Qed.

(** The table holds the preopened directories under their names less trailing slashes ... *)
Theorem C60_table_sound_partial host e : In e (ensure_init host) ->
  exists h buf, nth_error host (Z.to_nat (fd e - 3)) = Some h /\ 3 <= fd e /\ dir_name h = Some buf /\ trimmed buf (prefix e).
Proof. intros I. destruct (init_sound host 3 0 0 e I) as (h & buf & E & F & D & P). exists h, buf. rewrite P. repeat split; try assumption. apply trim_ok. Qed.
Print Assumptions C60_table_sound_partial.
(** ... and all of them when there are at most 16 and the names, each with a terminator, take at most 1024 bytes. *)
Theorem C60_table_complete_partial host : Z.of_nat (List.length (dirs host 3)) <= 16 -> pool_need (dirs host 3) <= 1024 ->
  forall i h buf, nth_error host i = Some h -> dir_name h = Some buf ->
  exists e, In e (ensure_init host) /\ fd e = 3 + Z.of_nat i /\ trimmed buf (prefix e).
Proof.
  intros H1 H2 i h buf E D. unfold ensure_init. rewrite init_complete by (cbn; lia). clear H1 H2.
  revert i E. generalize 3. induction host as [|h0 host IH]; intros f i E; [destruct i; discriminate|].
  destruct i as [|i]; cbn [nth_error dirs] in *.
  - injection E as ->. rewrite D. eexists. split; [left; reflexivity|]. split; [cbn; lia|]. apply trim_ok.
  - destruct (IH (f + 1) i E) as (e & I & F & T). exists e. split; [destruct (dir_name h0); [right|]; exact I|]. split; [lia|exact T].
Qed.
Print Assumptions C60_table_complete_partial.
Example C60_table_example :
  ensure_init [PDir 1 (fun _ => Some [46]); POther; PDir 4 (fun _ => Some [47;97;98;47])] = [mk_preopen 3 [46]; mk_preopen 5 [47;97;98]].
Proof. reflexivity. Qed.

(** With the root directory "/" preopened, "/a" is not found. *)
Theorem C60_root_refuted : exists host path, In (PDir 1 (fun _ => Some [47])) host /\ path = [47] ++ [97] /\ preopen_lookup (ensure_init host) path = Ok None.
Proof. exists [PDir 1 (fun _ => Some [47])], [47; 97]. repeat split. left. reflexivity. Qed.
Print Assumptions C60_root_refuted.
(** With the directory "./a" preopened, "./a/b" is not found. *)
Theorem C60_dot_refuted : exists host path, In (PDir 3 (fun _ => Some [46;47;97])) host /\ leads [46;47;97] path [47;98] /\ preopen_lookup (ensure_init host) path = Ok None.
Proof. exists [PDir 3 (fun _ => Some [46;47;97])], [46;47;97;47;98]. repeat split; [left; reflexivity|right; eauto]. Qed.
Print Assumptions C60_dot_refuted.

(** C61.  Missing: numbers above 76. *)
Theorem C61_errno_partial e name : 0 <= e -> nth_error wasi_names (Z.to_nat e) = Some name ->
  exists v, wasi_errno e = Ok v /\ (e = 0 -> v = 0) /\ (0 < e -> 0 < v /\ In (posix_name name, v) errno_h /\ forall v', In (posix_name name, v') errno_h -> v' = v).
Proof.
  intros H E.
  assert (F : forallb (fun i => match nth_error wasi_names i, nth_error wasi_to_posix i with
    | Some n, Some v => if (i =? 0)%nat then v =? 0 else (0 <? v) && existsb (fun '(a, b) => (a =? posix_name n)%string && (b =? v)) errno_h && forallb (fun '(a, b) => negb (a =? posix_name n)%string || (b =? v)) errno_h
    | _, _ => false end) (seq 0 77) = true) by (vm_compute; reflexivity).
  assert (L : (Z.to_nat e < 77)%nat) by (change 77%nat with (List.length wasi_names); apply nth_error_Some; congruence).
  rewrite forallb_forall in F. specialize (F (Z.to_nat e) ltac:(apply in_seq; lia)). rewrite E in F. unfold wasi_errno. replace (e <? 0) with false by lia.
  destruct (nth_error wasi_to_posix (Z.to_nat e)) as [v|]; [|discriminate]. exists v. split; [reflexivity|].
  destruct (Nat.eqb_spec (Z.to_nat e) 0); [split; lia|]. split; [lia|]. intros _. apply andb_prop in F. destruct F as [F F3]. apply andb_prop in F. destruct F as [F1 F2].
  split; [lia|]. split.
  - apply existsb_exists in F2. destruct F2 as ([a b] & I & F2). apply andb_prop in F2. destruct F2 as [Fa Fb]. apply String.eqb_eq in Fa. apply Z.eqb_eq in Fb. subst. exact I.
  - intros v' I. rewrite forallb_forall in F3. specialize (F3 _ I). cbn in F3. rewrite String.eqb_refl in F3. cbn in F3. lia.
Qed.
Print Assumptions C61_errno_partial.
Example C61_example : nth_error wasi_names 44 = Some "ENOENT"%string /\ wasi_errno 44 = Ok 2.
Proof. split; reflexivity. Qed.
(** A number the library does not know is looked up outside the table. *)
Theorem C61_errno_refuted : exists e, 0 <= e < 2^16 /\ wasi_errno e = UB.
Proof. exists 77. split; [lia|reflexivity]. Qed.
Print Assumptions C61_errno_refuted.

(** C80.  Times of the host clock. *)
Theorem C80_time now : 0 <= now < 2^64 -> exists t, time_ (ClockTime now) = Ok (t, None) /\ 1000000000 * t <= now < 1000000000 * (t + 1).
Proof. intros H. eexists. split; [reflexivity|]. unfold s64, sgn. change (2^(64-1)) with 9223372036854775808. change (2^64) with 18446744073709551616 in *. destruct (_ <? _) eqn:E; lia. Qed.
Print Assumptions C80_time.
Theorem C80_timespec_get now : 0 <= now < 2^64 -> exists s ns, timespec_get (ClockTime now) 1 = (1, Some (s, ns)) /\ now = 1000000000 * s + ns /\ 0 <= ns < 1000000000.
Proof.
  intros H. unfold timespec_get. cbn [Z.eqb Pos.eqb negb]. rewrite s32_id by lia. do 2 eexists. split; [reflexivity|].
  unfold s64, sgn. change (2^(64-1)) with 9223372036854775808. change (2^64) with 18446744073709551616 in *. destruct (_ <? _) eqn:E; lia.
Qed.
Print Assumptions C80_timespec_get.
(** clock() counts microseconds; its computation never overflows. *)
Theorem C80_clock now : 0 <= now < 2^64 -> exists c, clock (ClockTime now) = Ok c /\ 1000 * c <= now < 1000 * (c + 1).
Proof.
  intros H. unfold clock. cbv zeta. replace (s64 (now / 1000000000)) with (now / 1000000000).
  2:{ unfold s64, sgn. change (2^(64-1)) with 9223372036854775808. change (2^64) with 18446744073709551616 in *. destruct (_ <? _) eqn:E; lia. }
  rewrite s32_id by lia. change (Z.quot 1000000000 1000000) with 1000. rewrite Z.quot_div_nonneg by lia.
  rewrite Base.chk_i64_ok by lia. cbn [bind]. rewrite Base.chk_i64_ok by lia. eexists. split; [reflexivity|]. lia.
Qed.
Print Assumptions C80_clock.
(** On failure the results are -1, 0 and -1, and time() sets errno. *)
Theorem C80_failure e name base : 0 < e -> nth_error wasi_names (Z.to_nat e) = Some name ->
  (exists v, time_ (ClockError e) = Ok (-1, Some v) /\ In (posix_name name, v) errno_h) /\ timespec_get (ClockError e) base = (0, None) /\ clock (ClockError e) = Ok (-1).
Proof.
  intros H E. destruct (C61_errno_partial e name ltac:(lia) E) as (v & V & _ & P). split; [|split; [|reflexivity]].
  - exists v. unfold time_. rewrite V. split; [reflexivity|]. apply P, H.
  - unfold timespec_get. destruct (negb _); reflexivity.
Qed.
Print Assumptions C80_failure.
Example C80_example : clock (ClockTime 1234567891234) = Ok 1234567891.
Proof. reflexivity. Qed.

(** C81.  File status: sizes up to 2^63 - 1. *)
Theorem C81_stat_size size : 0 <= size < 2^63 -> st_size size = size /\ 512 * (st_blocks size - 1) < size <= 512 * st_blocks size.
Proof.
  intros H. unfold st_size, st_blocks, s64, u64, sgn. change (2^(64-1)) with 9223372036854775808. change (2^63) with 9223372036854775808 in *. change (2^64) with 18446744073709551616.
  rewrite (Z.mod_small (size + 511)) by lia. rewrite !Z.mod_small by lia. split; [|destruct (_ <? _) eqn:E; lia]. destruct (Z.ltb_spec size 9223372036854775808); lia.
Qed.
Print Assumptions C81_stat_size.
Theorem C81_stat_time ns : 0 <= ns < 2^64 -> let '(s, n) := st_time ns in ns = 1000000000 * s + n /\ 0 <= n < 1000000000.
Proof.
  intros H. unfold st_time. rewrite s32_id by lia.
  unfold s64, sgn. change (2^(64-1)) with 9223372036854775808. change (2^64) with 18446744073709551616 in *. destruct (_ <? _) eqn:E; lia.
Qed.
Print Assumptions C81_stat_time.
(** WASI filetypes 1 .. 7 (block device, character device, directory, regular file, datagram and
    stream socket, symbolic link) get the S_IFMT bits of their kind; the permissions stay below. *)
Definition s_ifmt : Z := 61440. (* 0170000 *)
Theorem C81_stat_mode : forall t fmt, In (t, fmt) [(1, 24576); (2, 8192); (3, 16384); (4, 32768); (5, 49152); (6, 49152); (7, 40960)] ->
  Z.land (st_mode t) s_ifmt = fmt /\ 0 <= st_mode t < 65536.
Proof. intros t fmt I. repeat (destruct I as [I|I]; [injection I as <- <-; vm_compute; intuition discriminate|]). destruct I. Qed.
Print Assumptions C81_stat_mode.
Example C81_example : st_blocks 1025 = 3 /\ st_mode 3 = 16877.
Proof. split; reflexivity. Qed.
