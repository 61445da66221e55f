(** * Specification: accurate transforms and twisting factors, and the error they lead to *)
From Coq Require Import QArith Qreals Reals.
From Verif Require Import Base FloatFacts FourierConvModel FourierConvTheorems FourierBackendModel ComplexSpec.
Open Scope R_scope.

(** The complex number two doubles denote; element [j] of a vector of them; the sum of the moduli *)
Definition to_c (z : Q * Q) : complex := (Q2R (fst z), Q2R (snd z)).
Definition entry (l : list (Q * Q)) (j : nat) : complex := to_c (nth j l (0, 0)%Q).
Definition total (n : nat) (l : list (Q * Q)) : R := rsumr n (fun j => cmod (entry l j)).

(** The two transforms of a plan of size [n] map doubles to doubles and are within [phi], relative to the sum of the
    moduli of their input, of the exact ones; the frequencies may come in any fixed order. *)
Definition accurate_plan (n : nat) (phi : R) (pl : plan) : Prop :=
  exists order, permutes n order /\
    (forall x, length x = n -> Forall is_c64 x -> length (plan_fwd pl x) = n /\ Forall is_c64 (plan_fwd pl x) /\
       forall k, (k < n)%nat -> cmod (csub (entry (plan_fwd pl x) k) (dft n (entry x) (order k))) <= phi * total n x) /\
    (forall y, length y = n -> Forall is_c64 y -> length (plan_inv pl y) = n /\ Forall is_c64 (plan_inv pl y) /\
       forall j, (j < n)%nat -> cmod (csub (entry (plan_inv pl y) j) (idft n (entry y) order j)) <= phi * total n y).

(** The twisting factors are doubles within [tau] of cos and sin of pi j / (2 n). *)
Definition accurate_twisties (n : nat) (tau : R) (tw : twisties) : Prop :=
  length (tw_re tw) = n /\ length (tw_im tw) = n /\ Forall fits53 (tw_re tw) /\ Forall fits53 (tw_im tw) /\
  forall j, (j < n)%nat ->
    Rabs (Q2R (nth j (tw_re tw) 0%Q) - cos (PI * INR j / (2 * INR n))) <= tau /\
    Rabs (Q2R (nth j (tw_im tw) 0%Q) - sin (PI * INR j / (2 * INR n))) <= tau.

(** The sine and cosine of a double between 0 and 2 are doubles within [sigma] of the exact ones. *)
Definition accurate_sin_cos (sigma : R) (sin_cos : Q -> Q * Q) : Prop :=
  forall x, fits53 x -> 0 <= Q2R x <= 2 ->
    fits53 (fst (sin_cos x)) /\ fits53 (snd (sin_cos x)) /\
    Rabs (Q2R (fst (sin_cos x)) - sin (Q2R x)) <= sigma /\ Rabs (Q2R (snd (sin_cos x)) - cos (Q2R x)) <= sigma.

(** The error on a word of [w] bits after the accumulation of [T] products of polynomials of [2 n] coefficients, the
    second ones of absolute value at most [2^(b-1)]: *)
Definition fft_error (w : Z) (n : nat) (b : Z) (T : nat) (phi tau : R) : R :=
  3 / 2 + IZR (2 ^ w) * (INR T * (2 * INR n * INR n * IZR (2 ^ (b - 1)))) * (7 * phi + 9 * tau + 104 * INR T / IZR (2 ^ 53)).
