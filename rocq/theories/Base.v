(** Shared vocabulary of the model: outcomes and 32/64-bit machine integers. *)
From Coq Require Export ZArith List Bool Lia.
From Coq Require Export ZifyBool ZifyNat.
Export ListNotations.
Open Scope Z_scope.

Ltac Zify.zify_post_hook ::= Z.div_mod_to_equations.

(** Outcome of running a piece of C: a value, undefined behaviour, or the
    model's fuel ran out (never a normal-looking value). *)
Inductive res (A : Type) : Type :=
| Ok (a : A)
| UB
| Fuel.
Arguments Ok {A} a.
Arguments UB {A}.
Arguments Fuel {A}.

Definition bind {A B} (r : res A) (f : A -> res B) : res B :=
  match r with Ok a => f a | UB => UB | Fuel => Fuel end.

Notation "'do' x <- r ; k" := (bind r (fun x => k))
  (at level 200, x pattern, r at level 100, k at level 200, right associativity).

(** Unsigned wrap-around of N-bit arithmetic. *)
Definition u8  (x : Z) : Z := x mod 2^8.
Definition u16 (x : Z) : Z := x mod 2^16.
Definition u32 (x : Z) : Z := x mod 2^32.
Definition u64 (x : Z) : Z := x mod 2^64.
Definition u128 (x : Z) : Z := x mod 2^128.

(** Reading an N-bit pattern as a two's complement number. *)
Definition sgn (n x : Z) : Z :=
  let y := x mod 2^n in if y <? 2^(n-1) then y else y - 2^n.
Definition s8  (x : Z) : Z := sgn 8 x.
Definition s32 (x : Z) : Z := sgn 32 x.
Definition s64 (x : Z) : Z := sgn 64 x.
Definition s128 (x : Z) : Z := sgn 128 x.

Definition INT_MIN := - 2^31.
Definition INT_MAX := 2^31 - 1.
Definition is_i32 (x : Z) : Prop := INT_MIN <= x <= INT_MAX.
Definition is_u32 (x : Z) : Prop := 0 <= x < 2^32.
Definition is_u64 (x : Z) : Prop := 0 <= x < 2^64.
Definition is_u128 (x : Z) : Prop := 0 <= x < 2^128.
Definition is_byte (x : Z) : Prop := 0 <= x < 256.

(** Signed [int] arithmetic: overflow is undefined (C11 6.5p5). *)
Definition chk_i32 (x : Z) : res Z :=
  if (INT_MIN <=? x) && (x <=? INT_MAX) then Ok x else UB.
Definition chk_i64 (x : Z) : res Z :=
  if (- 2^63 <=? x) && (x <=? 2^63 - 1) then Ok x else UB.

Definition b2z (b : bool) : Z := if b then 1 else 0.

(** SIZE_MAX + 1 values returned as error codes by size_t functions. *)
Definition SIZE_M1 := 2^32 - 1.
Definition SIZE_M2 := 2^32 - 2.
Definition SIZE_M3 := 2^32 - 3.

Lemma bind_ok {A B} (r : res A) (f : A -> res B) b :
  bind r f = Ok b -> exists a, r = Ok a /\ f a = Ok b.
Proof. destruct r; cbn; intros H; try discriminate; eauto. Qed.

Lemma chk_i32_ok x : INT_MIN <= x <= INT_MAX -> chk_i32 x = Ok x.
Proof. unfold chk_i32; intros H.
  replace ((INT_MIN <=? x) && (x <=? INT_MAX)) with true by lia. reflexivity. Qed.

Lemma chk_i32_ub x : ~ (INT_MIN <= x <= INT_MAX) -> chk_i32 x = UB.
Proof. unfold chk_i32; intros H.
  replace ((INT_MIN <=? x) && (x <=? INT_MAX)) with false by lia. reflexivity. Qed.

Lemma chk_i64_ok x : - 2^63 <= x <= 2^63 - 1 -> chk_i64 x = Ok x.
Proof. unfold chk_i64; intros H.
  replace ((- 2^63 <=? x) && (x <=? 2^63 - 1)) with true by lia. reflexivity. Qed.

Lemma mod_neg_small x m : - m <= x < 0 -> x mod m = x + m.
Proof. intros H. rewrite <- (Z.mod_add x 1 m) by lia. rewrite Z.mod_small; lia. Qed.

Lemma sgn_range n x : 0 < n -> - 2^(n-1) <= sgn n x < 2^(n-1).
Proof.
  intros Hn. unfold sgn.
  assert (E : 2^n = 2 * 2^(n-1)) by (rewrite <- Z.pow_succ_r by lia; f_equal; lia).
  assert (0 < 2^(n-1)) by (apply Z.pow_pos_nonneg; lia).
  pose proof (Z.mod_pos_bound x (2^n)). destruct (Z.ltb_spec (x mod 2^n) (2^(n-1))); lia.
Qed.

Lemma sgn_id n x : 0 < n -> - 2^(n-1) <= x < 2^(n-1) -> sgn n x = x.
Proof.
  intros Hn Hx. unfold sgn.
  assert (E : 2^n = 2 * 2^(n-1)) by (rewrite <- Z.pow_succ_r by lia; f_equal; lia).
  assert (0 < 2^(n-1)) by (apply Z.pow_pos_nonneg; lia).
  destruct (Z.ltb_spec x 0).
  - rewrite mod_neg_small by lia.
    destruct (Z.ltb_spec (x + 2^n) (2^(n-1))); lia.
  - rewrite Z.mod_small by lia. destruct (Z.ltb_spec x (2^(n-1))); lia.
Qed.

Lemma sgn_mod n x : 0 < n -> (sgn n x) mod 2^n = x mod 2^n.
Proof.
  intros Hn. unfold sgn.
  assert (0 < 2^n) by (apply Z.pow_pos_nonneg; lia).
  destruct (Z.ltb_spec (x mod 2^n) (2^(n-1))).
  - apply Z.mod_mod; lia.
  - rewrite <- (Z.mod_add _ 1 (2^n)) by lia.
    replace (x mod 2^n - 2^n + 1 * 2^n) with (x mod 2^n) by lia. apply Z.mod_mod; lia.
Qed.

(** Split every [if] on a boolean in the goal, then finish arithmetic. *)
Ltac ifs := repeat match goal with |- context [if ?b then _ else _] => destruct b eqn:? end.
