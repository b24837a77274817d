(** Properties C95-C97: the wide-string functions. *)
From Verif Require Import Base Str_Model Str_Spec Str_Props Wcs_Model Wcs_Spec Wcs_Proof.
Local Ltac Zify.zify_post_hook ::= idtac.
Open Scope Z_scope.

(** Concrete memories: the wide characters of [l] at [base]. *)
Definition wimage (base : Z) (l : list Z) : mem := image base (flat_map wbytes l).
Ltac wct := intros i Hi; cbn [length app] in Hi;
  repeat (destruct i as [|i]; [vm_compute; reflexivity|]); exfalso; lia.
Ltac wcs := split; [wct|repeat constructor; lia].

(** ** C95: length, comparison and searching *)
Theorem C95_wcslen : forall fuel m a l, mem_ok m -> wstr m a l -> (length l < fuel)%nat ->
  wcslen fuel m a = Ok (Z.of_nat (length l)).
Proof. exact wcslen_ok. Qed.
Print Assumptions C95_wcslen.
(** the order is that of signed wide characters, the terminator counting as 0 *)
Theorem C95_wcscmp : forall m l r x y fuel, wstr m x l -> wstr m y r -> (length l < fuel)%nat ->
  wcscmp fuel m x y = Ok (strorder l r) /\ wcscoll fuel m x y = Ok (strorder l r) /\ (strorder l r = 0 <-> l = r).
Proof.
  intros m l r x y fuel Hx Hy Hf. assert (E := wcscmp_ok m l r x y fuel Hx Hy Hf). split; [exact E|]. split; [exact E|].
  unfold strorder, order. clear. revert r. induction l as [|a l IH]; intros [|b r]; cbn [app lex].
  - split; reflexivity.
  - destruct (Z.compare_spec 0 b) as [<- | |]; [|split; discriminate|split; discriminate].
    destruct r; cbn [app lex]; split; discriminate.
  - destruct (Z.compare_spec a 0) as [-> | |]; [|split; discriminate|split; discriminate].
    destruct l; cbn [app lex]; split; discriminate.
  - destruct (Z.compare_spec a b) as [<- | |]; [|split; [discriminate|congruence || (intros [= -> _]; lia)]..].
    rewrite IH. split; [intros ->; reflexivity|intros [= ->]; reflexivity].
Qed.
Print Assumptions C95_wcscmp.
(** at most [n] characters count, and nothing after a terminator *)
Theorem C95_wcsncmp : forall m l r x y n fuel, wtext m x n l -> wtext m y n r -> n < 2^32 -> (length l < fuel)%nat ->
  wcsncmp fuel m x y n = Ok (strorder l r).
Proof. exact wcsncmp_ok. Qed.
Print Assumptions C95_wcsncmp.
Theorem C95_wmemcmp : forall m l r x y fuel, wcontents m x l -> wcontents m y r -> length r = length l ->
  Z.of_nat (length l) < 2^32 -> (length l < fuel)%nat -> wmemcmp fuel m x y (Z.of_nat (length l)) = Ok (order l r).
Proof. exact wmemcmp_ok. Qed.
Print Assumptions C95_wmemcmp.
Theorem C95_wcschr : forall m c l a fuel, wstr m a l -> (length l < fuel)%nat ->
  wcschr fuel m a c = Ok (option_map (fun i => a + 4 * i) (first_index (Z.eqb c) (l ++ [0]))).
Proof. exact wcschr_ok. Qed.
Print Assumptions C95_wcschr.
Theorem C95_wcsrchr : forall m c l a fuel, wstr m a l -> (length l < fuel)%nat ->
  wcsrchr fuel m a c = Ok (option_map (fun i => a + 4 * i) (last_index (Z.eqb c) (l ++ [0]))).
Proof. exact wcsrchr_ok. Qed.
Print Assumptions C95_wcsrchr.
Theorem C95_wmemchr : forall m c l a fuel, wcontents m a l -> Z.of_nat (length l) < 2^32 -> (length l < fuel)%nat ->
  wmemchr fuel m a c (Z.of_nat (length l)) = Ok (option_map (fun i => a + 4 * i) (first_index (Z.eqb c) l)).
Proof. exact wmemchr_ok. Qed.
Print Assumptions C95_wmemchr.
Theorem C95_wcsspn : forall fuel m s str a acc, mem_ok m -> wstr m s str -> wstr m a acc ->
  (length acc < fuel)%nat -> (length str < fuel)%nat ->
  wcsspn fuel m s a = Ok (prefix_len (elem acc) str) /\
  wcscspn fuel m s a = Ok (prefix_len (fun b => negb (elem acc b)) str) /\
  wcspbrk fuel m s a = Ok (option_map (fun i => s + 4 * i) (first_index (elem acc) str)).
Proof.
  intros fuel m s str a acc Hok Hs Ha Hf1 Hf2. split; [apply wcsspn_ok; assumption|].
  split; [apply wcscspn_ok; assumption|apply wcspbrk_ok; assumption].
Qed.
Print Assumptions C95_wcsspn.
Theorem C95_wcsstr : forall fuel m hs h nd n, wstr m h hs -> wstr m n nd -> (length nd < fuel)%nat -> (length hs < fuel)%nat ->
  exists r, wcsstr fuel m h n = Ok r /\
    match r with
    | Some p => exists j, p = h + 4 * Z.of_nat j /\ occurs hs nd j /\ forall i, (i < j)%nat -> ~ occurs hs nd i
    | None => forall j, ~ occurs hs nd j
    end.
Proof. exact wcsstr_ok. Qed.
Print Assumptions C95_wcsstr.
(** a string with a negative and a non-Latin character, and the memory ends right after the second string *)
Definition wex : mem := wimage 16 [104; -7; 8364; 104; 8364; 0; 8364; 104; 0].
Example C95_ex : mem_ok wex /\ wstr wex 16 [104; -7; 8364; 104; 8364] /\ wstr wex 40 [8364; 104] /\ wex 52 = None /\
  wcslen 9 wex 16 = Ok 5 /\ wcscmp 9 wex 16 40 = Ok (-1) /\ wcsstr 9 wex 16 40 = Ok (Some 24) /\
  wcsrchr 9 wex 16 104 = Ok (Some 28) /\ wcsspn 9 wex 16 40 = Ok 1 /\ wcspbrk 9 wex 20 40 = Ok (Some 24) /\
  wcscmp 9 wex 20 36 = Ok (-1) /\ wcsncmp 9 wex 24 40 2 = Ok 0 /\ wtext wex 24 2 [8364; 104].
Proof. split; [im|]. split; [wcs|]. split; [wcs|]. do 9 (split; [reflexivity|]). split; [repeat constructor; lia|]. left. split; [reflexivity|wct]. Qed.

(** ** C96: copying *)
Theorem C96_wcscpy : forall fuel l m d s, wstr m s l -> wroom m d (Z.of_nat (length l) + 1) ->
  wapart d (Z.of_nat (length l) + 1) s (Z.of_nat (length l) + 1) -> (length l < fuel)%nat ->
  exists m', wcscpy fuel m d s = Ok (m', d) /\ wwritten m m' d (l ++ [0]).
Proof. exact wcscpy_ok. Qed.
Print Assumptions C96_wcscpy.
Theorem C96_wcscat : forall fuel l r m d s, mem_ok m -> wstr m d l -> wstr m s r ->
  let n := Z.of_nat (length l) in let k := Z.of_nat (length r) in
  wroom m (d + 4 * n) (k + 1) -> wapart (d + 4 * n) (k + 1) s (k + 1) -> (length l < fuel)%nat -> (length r < fuel)%nat ->
  exists m', wcscat fuel m d s = Ok (m', d) /\ wwritten m m' (d + 4 * n) (r ++ [0]).
Proof. exact wcscat_ok. Qed.
Print Assumptions C96_wcscat.
Theorem C96_wcsncpy : forall fuel l m d s n, wtext m s n l -> n < 2^32 -> wroom m d n ->
  wapart d n s (Z.min n (Z.of_nat (length l) + 1)) -> (Z.to_nat n < fuel)%nat ->
  exists m', wcsncpy fuel m d s n = Ok (m', d) /\ wwritten m m' d (l ++ repeat 0 (Z.to_nat n - length l)).
Proof. exact wcsncpy_ok. Qed.
Print Assumptions C96_wcsncpy.
Theorem C96_wcsncat : forall fuel l r m d s n, mem_ok m -> wstr m d l -> wtext m s n r -> 0 <= n < 2^32 ->
  let k := Z.of_nat (length r) in let e := d + 4 * Z.of_nat (length l) in
  wroom m e (k + 1) -> wapart e k s (Z.min n (k + 1)) -> (length l < fuel)%nat -> (length r < fuel)%nat ->
  exists m', wcsncat fuel m d s n = Ok (m', d) /\ wwritten m m' e (r ++ [0]).
Proof. exact wcsncat_ok. Qed.
Print Assumptions C96_wcsncat.
Theorem C96_wmemset : forall fuel m d c n, is_i32 c -> 0 <= n < 2^32 -> wroom m d n -> (Z.to_nat n < fuel)%nat ->
  exists m', wmemset fuel m d c n = Ok (m', d) /\ wwritten m m' d (repeat c (Z.to_nat n)).
Proof. exact wmemset_ok. Qed.
Print Assumptions C96_wmemset.
Theorem C96_wmemcpy : forall fuel m d s l, let n := Z.of_nat (length l) in
  wcontents m s l -> 4 * n < 2^32 -> wroom m d n -> wapart d n s n ->
  (Z.to_nat (4 * n) < fuel)%nat -> exists m', wmemcpy fuel m d s n = Ok (m', d) /\ wwritten m m' d l.
Proof. exact wmemcpy_ok. Qed.
Print Assumptions C96_wmemcpy.
(** the ranges may overlap *)
Theorem C96_wmemmove : forall fuel m d s l, let n := Z.of_nat (length l) in
  mem_ok m -> wcontents m s l -> 4 * n < 2^32 -> wroom m d n ->
  (Z.to_nat (4 * n) < fuel)%nat -> exists m', wmemmove fuel m d s n = Ok (m', d) /\ wwritten m m' d l.
Proof. exact wmemmove_ok. Qed.
Print Assumptions C96_wmemmove.
(** the whole length is returned whatever fits; nothing is written when [n] is 0 *)
Theorem C96_wcsxfrm : forall fuel m d s l n, mem_ok m -> wstr m s l -> 0 <= n < 2^32 ->
  let k := Z.min (Z.of_nat (length l)) (n - 1) in
  (0 < n -> wroom m d (k + 1) /\ wapart d (k + 1) s (Z.of_nat (length l) + 1)) -> (length l < fuel)%nat ->
  exists m', wcsxfrm fuel m d s n = Ok (m', Z.of_nat (length l)) /\
    wwritten m m' d (if n =? 0 then [] else firstn (Z.to_nat k) l ++ [0]).
Proof. exact wcsxfrm_ok. Qed.
Print Assumptions C96_wcsxfrm.
Definition wload' (r : res (mem * Z)) (a : Z) : res Z := do (m, _) <- r; wload m a.
Definition wcp : mem := wimage 16 [104; -7; 0; 8364; 104; 0; 5; 5].
Example C96_ex : mem_ok wcp /\ wstr wcp 16 [104; -7] /\ wstr wcp 28 [8364; 104] /\ wroom wcp 28 3 /\ wapart 28 3 16 3 /\
  wload' (wcscpy 9 wcp 28 16) 32 = Ok (-7) /\ wload' (wcscpy 9 wcp 28 16) 40 = Ok 5 /\
  wload' (wmemmove 20 wcp 20 16 3) 28 = Ok 0 /\ wload' (wmemmove 20 wcp 20 16 3) 24 = Ok (-7) /\
  wload' (wcsncpy 9 wcp 28 16 4) 40 = Ok 0 /\ wload' (wcsxfrm 9 wcp 28 16 2) 32 = Ok 0 /\
  wtext wcp 16 4 [104; -7].
Proof.
  split; [im|]. split; [wcs|]. split; [wcs|]. split; [im|]. split; [right; lia|]. do 6 (split; [reflexivity|]).
  split; [repeat constructor; lia|]. right. split; [reflexivity|wct].
Qed.

(** ** C97: wcstok *)
(** One call: the token starts after the leading separators and ends at the next separator,
    which is overwritten; the saved pointer is then after it, or null at the end of the string. *)
Theorem C97_call : forall fuel m p str a seps string state, mem_ok m -> wstr m p str -> wstr m a seps ->
  (length seps < fuel)%nat -> (length str < fuel)%nat ->
  (string = Some p \/ string = None /\ state = Some p) ->
  let i := prefix_len (elem seps) str in
  let j := prefix_len (fun b => negb (elem seps b)) (skipn (Z.to_nat i) str) in
  (i = Z.of_nat (length str) -> wcstok fuel m string a state = Ok (m, None, None)) /\
  (i <> Z.of_nat (length str) -> i + j = Z.of_nat (length str) -> wcstok fuel m string a state = Ok (m, None, Some (p + 4 * i))) /\
  (i + j < Z.of_nat (length str) -> exists m', wwritten m m' (p + 4 * (i + j)) [0] /\
     wcstok fuel m string a state = Ok (m', Some (p + 4 * (i + j + 1)), Some (p + 4 * i))).
Proof.
  intros fuel m p str a seps string state Hok Hs Ha Hf1 Hf2 Hst i j.
  pose proof (wcstok_call fuel m p str a seps string state Hok Hs Ha Hf1 Hf2 Hst) as E. cbv zeta in E. fold i in E. fold j in E.
  assert (Pl : forall P l, 0 <= prefix_len P l) by (intros P l; induction l as [|b l IH]; cbn [prefix_len]; [lia|destruct (P b); lia]).
  pose proof (Pl (elem seps) str) as P1. fold i in P1.
  pose proof (Pl (fun b => negb (elem seps b)) (skipn (Z.to_nat i) str)) as P2. fold j in P2.
  rewrite E. split; [|split].
  - intros ->. rewrite Z.eqb_refl. reflexivity.
  - intros N ->. rewrite Z.eqb_refl. replace (i =? Z.of_nat (length str)) with false by lia. reflexivity.
  - intros L. replace (i =? Z.of_nat (length str)) with false by lia. replace (i + j =? Z.of_nat (length str)) with false by lia.
    destruct Hs as [Hs _]. specialize (Hs (Z.to_nat (i + j)) ltac:(rewrite app_length; cbn; lia)). rewrite Z2Nat.id in Hs by lia.
    destruct (wstore_ok m (p + 4 * (i + j)) 0 (wload_mapped _ _ _ Hs)) as (m' & -> & A & B & _).
    cbn [bind]. exists m'. split; [|reflexivity]. split.
    + apply wcontents_cons. split; [apply B; unfold is_i32, INT_MIN, INT_MAX; lia|apply wcontents_nil].
    + intros x Hx. apply A. cbn [length] in Hx. lia.
Qed.
Print Assumptions C97_call.
(** A loop calling wcstok until it returns a null pointer gets exactly the maximal runs of
    non-separators, in order, each a terminated string; only separators are overwritten, with 0. *)
Theorem C97_tokens : forall fuel a seps calls m B str, (length seps < fuel)%nat ->
  mem_ok m -> wstr m B str -> wstr m a seps ->
  wapart a (Z.of_nat (length seps) + 1) B (Z.of_nat (length str) + 1) ->
  (length str < fuel)%nat -> (length str + 1 < calls)%nat ->
  exists m', (forall state, wtokenise calls fuel m (Some B) a state = Ok (m', map (fun t => B + 4 * fst t) (tokens (elem seps) 0 0 str))) /\
    (forall o len, In (o, len) (tokens (elem seps) 0 0 str) ->
       0 <= o /\ 0 < len /\ o + len <= Z.of_nat (length str) /\
       wstr m' (B + 4 * o) (firstn (Z.to_nat len) (skipn (Z.to_nat o) str))) /\
    (forall x, x < B \/ B + 4 * Z.of_nat (length str) <= x -> m' x = m x) /\
    (forall i, (i < length str)%nat -> wload m' (B + 4 * Z.of_nat i) = Ok (nth i str 0) \/
       elem seps (nth i str 0) = true /\ wload m' (B + 4 * Z.of_nat i) = Ok 0).
Proof.
  intros fuel a seps calls m B str Hf1 Hok Hs Ha Hap Hf2 Hc.
  assert (G := wtokenise_ok fuel a seps Hf1 calls m B 0 str). rewrite Z.mul_0_r, Z.add_0_r in G.
  unfold wapart in Hap.
  destruct (G (Some B) None Hok Hs Ha ltac:(lia) Hf2 Hc ltac:(left; reflexivity)) as (m' & E & T & U & V).
  exists m'. split; [|split; [|split]].
  - intros st. destruct (G (Some B) st Hok Hs Ha ltac:(lia) Hf2 Hc ltac:(left; reflexivity)) as (m2 & E2 & _).
    rewrite <- E. destruct calls; [lia|]. reflexivity.
  - intros o len Hi. destruct (T o len Hi) as (T1 & T2 & T3 & T4). rewrite Z.sub_0_r in T4. repeat split; try lia; apply T4.
  - intros x Hx. destruct (U x) as [Ux|(i & Hi & Li & _)]; [exact Ux|lia].
  - intros i Hi. specialize (V i Hi). rewrite Z.add_0_l in V. exact V.
Qed.
Print Assumptions C97_tokens.
Definition wtk : mem := wimage 16 [44; 8364; 104; 59; 44; -7; 0; 59; 44; 0].
Example C97_ex : mem_ok wtk /\ wstr wtk 16 [44; 8364; 104; 59; 44; -7] /\ wstr wtk 44 [59; 44] /\
  wapart 44 3 16 7 /\ tokens (elem [59; 44]) 0 0 [44; 8364; 104; 59; 44; -7] = [(1, 2); (5, 1)] /\
  match wtokenise 9 9 wtk (Some 16) 44 None with Ok (_, l) => l = [20; 36] | _ => False end.
Proof. split; [im|]. split; [wcs|]. split; [wcs|]. split; [right; lia|]. split; vm_compute; reflexivity. Qed.
