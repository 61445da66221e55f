(** * Finite probability
    The vocabulary of the theorems on noise estimates.  A finite distribution is the list of its equally likely outcomes (an outcome may occur
    several times: every distribution with rational probabilities is such a list).  Nothing here models code. *)
From Coq Require Import Reals List ZArith.
Import ListNotations.
Local Open Scope R_scope.

Fixpoint rsum {A} (l : list A) (f : A -> R) : R := match l with [] => 0 | a :: l => f a + rsum l f end.
(** Expectation and variance of [X], when the outcomes in [D] are equally likely *)
Definition mean {A} (D : list A) (X : A -> R) : R := rsum D X / INR (length D).
Definition variance {A} (D : list A) (X : A -> R) : R := mean D (fun o => (X o - mean D X) ^ 2).
(** The same for a distribution of integers *)
Definition zmean (D : list Z) : R := mean D IZR.
Definition zvariance (D : list Z) : R := variance D IZR.
(** [n] independent draws from [D]: every list of [n] outcomes.  [list_prod D D'] is a draw from [D] and an independent one from [D']. *)
Fixpoint samples {A} (n : nat) (D : list A) : list (list A) :=
  match n with O => [[]] | S n => map (fun o => fst o :: snd o) (list_prod D (samples n D)) end.
(** One independent draw from each of several distributions *)
Fixpoint draws {A} (Ds : list (list A)) : list (list A) :=
  match Ds with [] => [[]] | D :: Ds => map (fun o => fst o :: snd o) (list_prod D (draws Ds)) end.
(** The sum of n_i * e_i *)
Fixpoint combination (ns es : list Z) : Z :=
  match ns, es with n :: ns, e :: es => (n * e + combination ns es)%Z | _, _ => 0%Z end.
(** All the words of [w] bits *)
Definition words (w : Z) : list Z := map Z.of_nat (seq 0 (Z.to_nat (2 ^ w))).
