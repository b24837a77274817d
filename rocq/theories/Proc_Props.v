(** Properties C38, C39, C62-C65. *)
From Verif Require Import Base Proc_Model Proc_Spec Proc_Proof.
Open Scope Z_scope.

(** ** C38 exit handlers *)
(** [before]: the functions the program tried to register before calling exit; [acts]: what
    handlers register while running. *)
Theorem C38_exit : forall H (acts : list (event H) -> H -> list H) before t e0 fuel rc es,
  register [] before = (t, e0) -> exit_ fuel acts t e0 rc = Ok es ->
  exists more, es = e0 ++ more ++ [Flushed; Terminated (u32 rc)] /\
    lifo (acts_of es) /\ Forall (fun e => match e with Terminated _ | Flushed => False | _ => True end) (e0 ++ more).
Proof.
  intros H acts before t e0 fuel rc es R E. unfold exit_ in E.
  destruct (run_handlers fuel acts t e0) as [es'| |] eqn:Er; try discriminate. cbn [bind] in E. injection E as <-.
  destruct (run_ok acts fuel t e0 es') as (L & more & Em); [|exact Er|].
  { apply (register_ok before [] [] t e0); [constructor; constructor|exact R]. }
  exists more. split; [rewrite Em, <- app_assoc; reflexivity|]. split.
  - rewrite acts_app. cbn. rewrite app_nil_r. exact L.
  - rewrite <- Em. apply (run_quiet acts fuel t e0); [|exact Er]. apply (register_quiet before [] t e0 R).
Qed.
Print Assumptions C38_exit.
Theorem C38_quick_exit : forall H (acts : list (event H) -> H -> list H) before t e0 fuel rc es,
  register [] before = (t, e0) -> quick_exit fuel acts t e0 rc = Ok es ->
  exists more, es = e0 ++ more ++ [Terminated (u32 rc)] /\
    lifo (acts_of es) /\ Forall (fun e => match e with Terminated _ | Flushed => False | _ => True end) (e0 ++ more).
Proof.
  intros H acts before t e0 fuel rc es R E. unfold quick_exit in E.
  destruct (run_handlers fuel acts t e0) as [es'| |] eqn:Er; try discriminate. cbn [bind] in E. injection E as <-.
  destruct (run_ok acts fuel t e0 es') as (L & more & Em); [|exact Er|].
  { apply (register_ok before [] [] t e0); [constructor; constructor|exact R]. }
  exists more. split; [rewrite Em, <- app_assoc; reflexivity|]. split.
  - rewrite acts_app. cbn. rewrite app_nil_r. exact L.
  - rewrite <- Em. apply (run_quiet acts fuel t e0); [|exact Er]. apply (register_quiet before [] t e0 R).
Qed.
Print Assumptions C38_quick_exit.
(** Registration fails exactly when 32 registered functions have not run yet. *)
Theorem C38_registration : forall H (past : list (event H)) t h, reach past t ->
  exists t' r es, atexit t h = (t', r, es) /\
    (pending past < 32 /\ r = 0 /\ es = [Registered h] \/ 32 <= pending past /\ r <> 0 /\ es = [Rejected h] /\ t' = t).
Proof.
  intros H past t h R. pose proof (cnt_opened _ _ (reach_opened _ _ R)) as C. cbn beta in C. unfold pending. rewrite C.
  unfold atexit. destruct (Z.leb_spec 32 (Z.of_nat (length t))); do 3 eexists; (split; [reflexivity|]); [right|left]; repeat split; lia.
Qed.
Print Assumptions C38_registration.
(** Handlers that register nothing: exit does terminate. *)
Theorem C38_terminates : forall H (t : list H) past rc, (length t <= 32)%nat ->
  exit_ 33 (fun _ _ => []) t past rc = Ok (past ++ map Ran t ++ [Flushed; Terminated (u32 rc)]).
Proof.
  intros H t past rc Ht. unfold exit_. rewrite run_total by (try reflexivity; lia). cbn [bind]. rewrite <- app_assoc. reflexivity.
Qed.
Print Assumptions C38_terminates.
(** functions 1, 2 registered; 2 registers 3 while it runs *)
Example C38_ex : exists t e0, register [] [1; 2] = (t, e0) /\
  exit_ 9 (fun _ h => if h =? 2 then [3] else []) t e0 (-1) =
    Ok [Registered 1; Registered 2; Ran 2; Registered 3; Ran 3; Ran 1; Flushed; Terminated (2^32 - 1)].
Proof. do 2 eexists. split; reflexivity. Qed.

(** ** C39 returning from main *)
(** Missing: programs with registered handlers, which are not run. *)
Theorem C39_no_handlers_partial : forall H acts (past : list (event H)) rc fuel es, exit_ (S fuel) acts [] past rc = Ok es ->
  filter (fun e => match e with Flushed => false | _ => true end) es =
  filter (fun e => match e with Flushed => false | _ => true end) (start_return [] past rc).
Proof. intros H acts past rc fuel es E. cbn in E. injection E as <-. unfold start_return. rewrite !filter_app. reflexivity. Qed.
Print Assumptions C39_no_handlers_partial.
Example C39_ex : exit_ 1 (fun _ _ => []) [] [Registered 7; Ran 7] 3 = Ok [Registered 7; Ran 7; Flushed; Terminated 3].
Proof. reflexivity. Qed.
Theorem C39_handlers_not_run_refuted : exists (t : list Z) past rc h es, reach past t /\ In h t /\
  exit_ 9 (fun _ _ => []) t past rc = Ok es /\ In (Ran h) es /\ ~ In (Ran h) (start_return t past rc).
Proof.
  exists [5], [Registered 5], 0, 5. eexists. split.
  { change [Registered 5] with ([] ++ [@Registered Z 5]). eapply (reach_register [] [] 5 [5] 0); [constructor|reflexivity]. }
  split; [left; reflexivity|]. split; [reflexivity|]. split; [cbn; auto|]. cbn. intros [E|[E|[]]]; discriminate.
Qed.
Print Assumptions C39_handlers_not_run_refuted.

(** ** C62 signal, raise *)
Theorem C62_signal : forall H (s : @sigs H) errno sig d,
  (0 <= sig < 32 -> exists s', signal s errno sig d = (s sig, s', errno) /\ s' sig = d /\ forall x, x <> sig -> s' x = s x) /\
  (~ 0 <= sig < 32 -> signal s errno sig d = (ERR, s, errno)).
Proof.
  intros H s errno sig d. unfold signal. split; intros Hs.
  - replace ((sig <? 0) || (32 <=? sig)) with false by lia. eexists. split; [reflexivity|]. split.
    + cbn. rewrite Z.eqb_refl. reflexivity.
    + intros x Hx. cbn. destruct (Z.eqb_spec x sig); [contradiction|reflexivity].
  - replace ((sig <? 0) || (32 <=? sig)) with true by lia. reflexivity.
Qed.
Print Assumptions C62_signal.
(** raise; missing: the failure of invalid numbers (errno and a nonzero result), and default
    actions, which are C63 *)
Theorem C62_raise_partial : forall H fuel run (s : @sigs H) sig, 0 <= sig < 32 ->
  (forall h, s sig = Fn h -> raise (S fuel) run s sig [] = Ok (Returned 0 (run h sig s) [(h, sig)])) /\
  (s sig = IGN -> raise (S fuel) run s sig [] = Ok (Returned 0 s [])) /\
  (s sig = DFL -> ~ In sig [2; 4; 6; 8; 11; 15] -> raise (S fuel) run s sig [] = Ok (Returned 0 s [])).
Proof.
  intros H fuel run s sig Hs. cbn [raise]. unfold sig_handler. replace ((sig <? 0) || (32 <=? sig)) with false by lia.
  split; [|split]; intros; rewrite ?H0; try reflexivity.
  destruct ((sig =? 6) || (sig =? 8) || (sig =? 4) || (sig =? 2) || (sig =? 11) || (sig =? 15)) eqn:E; [|reflexivity].
  exfalso. apply H1. cbn [In]. lia.
Qed.
Print Assumptions C62_raise_partial.
Example C62_ex : let s := fun x => if x =? 10 then Fn 77 else DFL in
  raise 1 (fun _ _ s => s) s 10 [] = Ok (Returned 0 s [(77, 10)]) /\ fst (fst (signal s 0 10 IGN)) = Fn 77.
Proof. split; reflexivity. Qed.
(** raise(99) reports success; signal(99, ...) leaves errno alone *)
Theorem C62_invalid_refuted : exists sig, ~ 0 <= sig < 32 /\
  (forall H run (s : @sigs H), raise 1 run s sig [] = Ok (Returned 0 s [])) /\
  (forall H (s : @sigs H) d, snd (signal s 0 sig d) = 0).
Proof. exists 99. split; [lia|]. split; reflexivity. Qed.
Print Assumptions C62_invalid_refuted.

(** ** C63 abort *)
(** With SIGABRT ignored or caught, abort ends the process with status 134 (after calling the
    handler once); missing: the default disposition. *)
Theorem C63_abort_partial : forall H fuel run (s : @sigs H),
  (s 6 = IGN -> abort (S fuel) run s = Ok (Exited 134 [])) /\
  (forall h, s 6 = Fn h -> abort (S fuel) run s = Ok (Exited 134 [(h, 6)])) /\
  (forall sig, In sig [2; 4; 8; 11; 15] -> s sig = DFL ->
     (s 6 = IGN -> raise (S (S fuel)) run s sig [] = Ok (Exited 134 [])) /\
     (forall h, s 6 = Fn h -> raise (S (S fuel)) run s sig [] = Ok (Exited 134 [(h, 6)]))).
Proof.
  intros H fuel run s. unfold abort. split; [|split].
  - intros E. cbn. unfold sig_handler. cbn. rewrite E. reflexivity.
  - intros h E. cbn. unfold sig_handler. cbn. rewrite E. reflexivity.
  - intros sig Hin Hd. split; [intros E|intros h E]; cbn in Hin;
      destruct Hin as [<-|[<-|[<-|[<-|[<-|[]]]]]]; cbn; unfold sig_handler; cbn; rewrite Hd, E; reflexivity.
Qed.
Print Assumptions C63_abort_partial.
Example C63_ex : abort 1 (fun _ _ s => s) (fun x => if x =? 6 then Fn 1 else DFL) = Ok (Exited 134 [(1, 6)]).
Proof. reflexivity. Qed.
(** With the initial dispositions abort never terminates: it and raise call each other forever. *)
Theorem C63_abort_refuted : exists s : @sigs Z, (forall x, s x = DFL) /\ forall fuel run, abort fuel run s = Fuel.
Proof.
  exists (fun _ => DFL). split; [reflexivity|]. intros fuel run. unfold abort. rewrite abort_default; reflexivity.
Qed.
Print Assumptions C63_abort_refuted.

(** ** C64 sbrk *)
(** As long as the break does not come within a page of 2^32; missing: larger requests, the
    initial break, ENOMEM. *)
Theorem C64_sbrk_partial : forall h grow inc, 0 <= brk h <= 65536 * pages h -> 65536 * pages h < 2^32 ->
  0 <= inc -> brk h + inc + 65535 < 2^32 ->
  let '(p, h') := sbrk h grow inc in
  (p = brk h /\ brk h' = brk h + inc /\ pages h <= pages h' /\ brk h' <= 65536 * pages h' /\ 65536 * pages h' < 2^32) \/
  (p = 2^32 - 1 /\ h' = h /\ 65536 * pages h < brk h + inc).
Proof. exact sbrk_ok. Qed.
Print Assumptions C64_sbrk_partial.
Example C64_ex : sbrk (mk_heap 65000 1) (fun _ => true) 70000 = (65000, mk_heap 135000 3) /\
  sbrk (mk_heap 65000 1) (fun _ => false) 70000 = (2^32 - 1, mk_heap 65000 1).
Proof. split; reflexivity. Qed.
(** Successive regions handed out are consecutive, hence disjoint. *)
Theorem C64_disjoint_partial : forall h grow1 grow2 a b p1 h1 p2 h2,
  0 <= brk h <= 65536 * pages h -> 65536 * pages h < 2^32 -> 0 <= a -> 0 <= b -> brk h + a + b + 65535 < 2^32 ->
  sbrk h grow1 a = (p1, h1) -> sbrk h1 grow2 b = (p2, h2) -> p1 <> 2^32 - 1 -> p2 <> 2^32 - 1 ->
  p1 + a = p2 /\ p2 + b <= 65536 * pages h2.
Proof.
  intros h g1 g2 a b p1 h1 p2 h2 Hb Hp Ha Hb' Hs E1 E2 N1 N2.
  pose proof (sbrk_ok h g1 a Hb Hp Ha ltac:(lia)) as S1. rewrite E1 in S1.
  destruct S1 as [(-> & B1 & P1 & Q1 & R1)|(-> & _)]; [|congruence].
  pose proof (sbrk_ok h1 g2 b ltac:(lia) R1 Hb' ltac:(lia)) as S2. rewrite E2 in S2.
  destruct S2 as [(-> & B2 & P2 & Q2 & R2)|(-> & _)]; [lia|congruence].
Qed.
Print Assumptions C64_disjoint_partial.
(** The heap starts inside the first 256 bytes of memory, whatever the layout of static data and stack *)
Theorem C64_initial_break_refuted : exists bound, bound = 256 /\ forall frame, 0 <= frame < 2^32 -> 1 <= initial_brk frame <= bound.
Proof.
  exists 256. split; [reflexivity|]. intros frame Hf. unfold initial_brk, u32. change 0xFF with (2^8 - 1).
  replace (Z.land frame (2^8 - 1)) with (frame mod 2^8) by (symmetry; apply (Z.land_ones frame 8); lia).
  pose proof (Z.mod_pos_bound frame (2^8)). rewrite Z.mod_small; lia.
Qed.
Print Assumptions C64_initial_break_refuted.
(** An oversized request succeeds: the sum wraps and the break moves backwards *)
Theorem C64_overflow_refuted : exists h inc p h', 0 <= brk h <= 65536 * pages h /\ 0 <= inc < 2^31 /\
  (forall grow, sbrk h grow inc = (p, h')) /\ p = brk h /\ brk h' < brk h.
Proof.
  exists (mk_heap (2^31 + 4096) 32769), (2^31 - 1). do 2 eexists. split; [cbn; lia|]. split; [lia|].
  split; [intros grow; vm_compute; reflexivity|]. split; [reflexivity|]. cbn. lia.
Qed.
Print Assumptions C64_overflow_refuted.

(** ** C65 setlocale *)
Theorem C65_setlocale : forall category locale,
  (setlocale category locale <> None <-> 0 <= category <= 5 /\
     match locale with None => True | Some l => l = [] \/ l = [67] \/ l = [80;79;83;73;88] end) /\
  (forall r, setlocale category locale = Some r -> r = [67] /\ setlocale category (Some r) = Some r).
Proof.
  intros category locale.
  assert (S : forall a b, same a b = true <-> a = b).
  { induction a as [|x a IH]; intros [|y b]; cbn; split; intros E; try discriminate; try reflexivity.
    - apply andb_prop in E as [E1 E2]. apply Z.eqb_eq in E1. apply IH in E2. congruence.
    - injection E as -> ->. rewrite Z.eqb_refl. apply (proj2 (IH b)). reflexivity. }
  unfold setlocale. destruct ((category <? 0) || (5 <? category)) eqn:C.
  - split; [split; [congruence|lia]|discriminate].
  - assert (Hc : 0 <= category <= 5) by lia. split.
    + destruct locale as [l|]; [|split; [auto|discriminate]].
      destruct ((match l with [] => true | _ => false end) || same l [67] || same l [80;79;83;73;88]) eqn:E.
      * split; [|discriminate]. intros _. split; [exact Hc|].
        apply orb_true_iff in E as [E|E]; [apply orb_true_iff in E as [E|E]|]; [destruct l; [auto|discriminate]|apply S in E; auto|apply S in E; auto].
      * split; [congruence|]. intros [_ [->|[->| ->]]]; discriminate E.
    + intros r E. assert (r = [67]) as ->.
      { repeat match type of E with context [if ?b then _ else _] => destruct b | context [match ?l with Some _ => _ | None => _ end] => destruct l end; congruence. }
      split; reflexivity.
Qed.
Print Assumptions C65_setlocale.
Example C65_ex : setlocale 0 None = Some [67] /\ setlocale 2 (Some [100;101]) = None /\ setlocale 6 None = None.
Proof. repeat split; reflexivity. Qed.
