(** The principal square root of X + iY (the one with real part >= 0): its parts. *)
From Coq Require Import Reals Lra Psatz.
Open Scope R_scope.

Definition modulus (X Y : R) : R := sqrt (X * X + Y * Y).
Definition root_re (X Y : R) : R := sqrt ((modulus X Y + X) / 2).
(** the magnitude of the imaginary part, whose sign is that of Y *)
Definition root_im (X Y : R) : R := sqrt ((modulus X Y - X) / 2).

(** it is the square root: both parts are >= 0 and (re + i im)^2 = X + i|Y| *)
Lemma root_square X Y : 0 <= root_re X Y /\ 0 <= root_im X Y /\
  root_re X Y * root_re X Y - root_im X Y * root_im X Y = X /\ 2 * root_re X Y * root_im X Y = Rabs Y.
Proof.
  assert (Q : modulus X Y * modulus X Y = X * X + Y * Y) by (apply sqrt_sqrt; nra).
  assert (P : 0 <= modulus X Y) by apply sqrt_pos.
  assert (L : - modulus X Y <= X <= modulus X Y) by nra.
  split; [apply sqrt_pos|]. split; [apply sqrt_pos|]. split.
  - unfold root_re, root_im. rewrite !sqrt_sqrt by lra. lra.
  - unfold root_re, root_im. rewrite Rmult_assoc, <- sqrt_mult by lra.
    replace ((modulus X Y + X) / 2 * ((modulus X Y - X) / 2)) with (Rabs Y / 2 * (Rabs Y / 2)).
    + rewrite sqrt_square; [lra|]. pose proof (Rabs_pos Y). lra.
    + assert (Rabs Y * Rabs Y = Y * Y) by (rewrite <- Rabs_mult; apply Rabs_pos_eq; nra). nra.
Qed.
