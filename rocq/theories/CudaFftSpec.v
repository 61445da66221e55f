(** * What the Fourier transforms of the GPU are for: products of polynomials *)
From Coq Require Import Arith List.
Local Open Scope nat_scope.

Section Spec.
Context {R : Type} (rO rI : R) (radd rmul : R -> R -> R) (ropp : R -> R).
(** The coefficient [e] of the product of two polynomials of [N] coefficients modulo X^N + 1 *)
Fixpoint rsum (n : nat) (f : nat -> R) : R := match n with O => rO | S n => radd (rsum n f) (f n) end.
Definition nega_coeff (N : nat) (a b : nat -> R) (e : nat) : R :=
  rsum N (fun i => if i <=? e then rmul (a i) (b (e - i)) else ropp (rmul (a i) (b (e + N - i)))).
(** A polynomial with 2 [H] real coefficients is stored as [H] complex numbers *)
Definition packed (H : nat) (a : nat -> R) (i : nat) : R * R := (a i, a (i + H)).
Definition times (x y : R * R) : R * R := (radd (rmul (fst x) (fst y)) (ropp (rmul (snd x) (snd y))), radd (rmul (fst x) (snd y)) (rmul (snd x) (fst y))).
Definition neg (x : R * R) : R * R := (ropp (fst x), ropp (snd x)).
(** The table of constants: entry 1 is a square root of i, entry 2k one of entry k, entry 2k + 1 one of the opposite of entry k; all have
    modulus 1. *)
Definition twiddle_table (H : nat) (w : nat -> R * R) : Prop :=
  times (w 1) (w 1) = (rO, rI) /\
  (forall k, 1 <= k -> 2 * k < H -> times (w (2 * k)) (w (2 * k)) = w k) /\
  (forall k, 1 <= k -> 2 * k + 1 < H -> times (w (2 * k + 1)) (w (2 * k + 1)) = neg (w k)) /\
  (forall k, 1 <= k < H -> radd (rmul (fst (w k)) (fst (w k))) (rmul (snd (w k)) (snd (w k))) = rI).
(** The polynomial with complex coefficients [A] at the point [x] *)
Fixpoint power (x : R * R) (n : nat) : R * R := match n with O => (rI, rO) | S n => times (power x n) x end.
Fixpoint polyval (n : nat) (A : nat -> R * R) (x : R * R) : R * R :=
  match n with
  | O => (rO, rO)
  | S n => (radd (fst (polyval n A x)) (fst (times (A n) (power x n))), radd (snd (polyval n A x)) (snd (times (A n) (power x n))))
  end.
Fixpoint copies (n : nat) (x : R) : R := match n with O => rO | S n => radd (copies n x) x end.
End Spec.
