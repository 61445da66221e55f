(** * Specification of GLWE decryption: body - sum of mask_i * key_i in Z/2^w[X]/(X^N+1). *)
From Verif Require Import Base Word NegaRing PolySpec.

(** A ciphertext is the list of its k mask polynomials followed by its body; a key is the list of
    its k polynomials. *)
Definition gphase (N : nat) (s : list (list Z)) (c : list (list Z)) : rp N :=
  rsub (R N (last c [])) (rdot N (removelast c) s).

(** A ciphertext of dimension k and polynomial size N over w-bit words. *)
Definition glwe_wf (w : Z) (k N : nat) (c : list (list Z)) : Prop := length c = S k /\ Forall (poly_wf w N) c.

(** Coefficientwise sum modulo 2^w. *)
Definition padd (w : Z) (a b : list Z) : list Z := map2 (fun x y => (x + y) mod 2 ^ w) a b.
