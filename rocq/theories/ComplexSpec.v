(** * Complex numbers, roots of unity and the exact negacyclic transform, over the real numbers *)
From Coq Require Import Reals.
From Coq Require Export ZArith List.
Import ListNotations.
Open Scope R_scope.

Definition complex : Type := R * R.
Definition c0 : complex := (0, 0).
Definition c1 : complex := (1, 0).
Definition cadd (a b : complex) : complex := (fst a + fst b, snd a + snd b).
Definition csub (a b : complex) : complex := (fst a - fst b, snd a - snd b).
Definition copp (a : complex) : complex := (- fst a, - snd a).
Definition ctimes (a b : complex) : complex := (fst a * fst b - snd a * snd b, fst a * snd b + snd a * fst b).
Definition conj (a : complex) : complex := (fst a, - snd a).
Definition creal (x : R) : complex := (x, 0).
(** The modulus *)
Definition cmod (a : complex) : R := sqrt (fst a * fst a + snd a * snd a).
(** e^(i t) *)
Definition cis (t : R) : complex := (cos t, sin t).

(** Sums of the terms 0 .. n-1 *)
Fixpoint csum (n : nat) (f : nat -> complex) : complex :=
  match n with O => c0 | S n' => cadd (csum n' f) (f n') end.
Fixpoint rsumr (n : nat) (f : nat -> R) : R :=
  match n with O => 0 | S n' => rsumr n' f + f n' end.

(** The discrete Fourier transform of [x] at frequency [k], and the inverse one without its factor 1/n *)
Definition dft (n : nat) (x : nat -> complex) (k : nat) : complex :=
  csum n (fun j => ctimes (x j) (cis (- (2 * PI * INR j * INR k / INR n)))).
Definition idft (n : nat) (y : nat -> complex) (order : nat -> nat) (j : nat) : complex :=
  csum n (fun k => ctimes (y k) (cis (2 * PI * INR j * INR (order k) / INR n))).
(** The twisting factor of position [j] *)
Definition twist (n j : nat) : complex := cis (PI * INR j / (2 * INR n)).
(** [s] permutes 0 .. n-1. *)
Definition permutes (n : nat) (s : nat -> nat) : Prop :=
  (forall k, (k < n)%nat -> (s k < n)%nat) /\ (forall k k', (k < n)%nat -> (k' < n)%nat -> s k = s k' -> k = k').
