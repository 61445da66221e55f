(** * Specification of the number theoretic transform *)
From Verif Require Import Base Word NegaRing PolySpec.

(** The [L] low bits of [k] in reverse order. *)
Fixpoint bitrev (L : nat) (k : Z) : Z :=
  match L with O => 0 | S L' => (k mod 2) * 2 ^ Z.of_nat L' + bitrev L' (k / 2) end.

(** Value at [v] of the polynomial with coefficients [l], constant coefficient first. *)
Fixpoint peval (l : list Z) (v : Z) : Z := match l with [] => 0 | c :: l' => c + v * peval l' v end.

Definition residue (q x : Z) : Prop := 0 <= x < q.
(** [n] residues modulo [q] *)
Definition residues (q : Z) (n : nat) (l : list Z) : Prop := length l = n /\ Forall (residue q) l.

(** The tables of a transform of size 2^L modulo q: the powers of [psi], a square root of order 2^(L+1)
    of unity, in bit-reversed order; their inverses; the inverse of 2^L. *)
Definition table_ok (q : Z) (L : nat) (psi : Z) (roots roots_inv : list Z) (n_inv : Z) : Prop :=
  residues q (2 ^ L) roots /\ residues q (2 ^ L) roots_inv /\ residue q n_inv /\
  eqm q (psi ^ 2 ^ Z.of_nat L) (-1) /\
  (forall k, 0 <= k < 2 ^ Z.of_nat L ->
     eqm q (coef roots k) (psi ^ bitrev L k) /\ eqm q (coef roots k * coef roots_inv k) 1) /\
  eqm q (n_inv * 2 ^ Z.of_nat L) 1.

(** Debug builds accept only the six sizes that have a shipped table. *)
Definition size_ok (p : profile) (L : nat) : Prop := p = Release \/ (7 <= L <= 12)%nat.
(** Values of the type of [W] bits hold the products of two residues. *)
Definition modulus_ok (W q : Z) : Prop := 1 < q /\ q * q <= 2 ^ W.
