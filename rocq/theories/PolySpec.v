(** * Specification of polynomial products *)
From Verif Require Import Base Word NegaRing.

(** Coefficient of degree [k] of a list polynomial: 0 outside the list. *)
Definition zc (p : list Z) (k : Z) : Z := if 0 <=? k then nth (Z.to_nat k) p 0 else 0.

(** Coefficient of degree [k] of the ordinary product: the sum of a_i b_j over i + j = k. *)
Definition full (a b : list Z) (k : Z) : Z := sumz (length a) (fun i => zc a i * zc b (k - i)).

(** Coefficient of degree [k] < N of the product modulo X^N + 1: the sum of a_i b_j over
    i + j = k minus the sum over i + j = k + N. *)
Definition nega_coef (N : nat) (a b : list Z) (k : Z) : Z := full a b k - full a b (k + Z.of_nat N).

(** The product polynomial, with coefficients reduced modulo 2^w. *)
Definition nega (w : Z) (a b : list Z) : list Z :=
  map (fun k => nega_coef (length a) a b k mod 2 ^ w) (zseq 0 (length a)).

(** A polynomial of N coefficients over w-bit words. *)
Definition poly_wf (w : Z) (N : nat) (a : list Z) : Prop := length a = N /\ Forall (is_word w) a.

(** sum of c_i * b_i in the ring *)
Fixpoint rdot (N : nat) (cs bs : list (list Z)) : rp N :=
  match cs, bs with
  | c :: cs', b :: bs' => radd (rmul (R N c) (R N b)) (rdot N cs' bs')
  | _, _ => rzero N
  end.
