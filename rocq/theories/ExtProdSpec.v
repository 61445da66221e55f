(** * Specification of the external product *)
From Verif Require Import Base Word NegaRing PolySpec RingSum GlweSpec GgswSpec ExtProdModel.

(** What a backend computes on the pairs (GGSW polynomial, digit polynomial) that are accumulated in one
    output polynomial. *)
Definition bk_run (B : backend) (out : list Z) (pairs : list (list Z * list Z)) : list Z :=
  match pairs with
  | [] => out
  | (g, d) :: rest =>
      bk_add_back B out
        (fold_left (fun o '(g, d) => bk_mac B o (bk_key B g) (bk_digit B d)) rest
           (bk_mul B (bk_key B g) (bk_digit B d)))
  end.

(** [f out pairs] is [out] plus the sum of the negacyclic products g * d, the digits taken as signed
    integers, up to an error of at most [E] on every coefficient, for at most [T] pairs and digits of
    absolute value at most 2^(b-1). *)
Definition mul_add_ok (w : Z) (N : nat) (b : Z) (T : nat) (E : Z) (f : list Z -> list (list Z * list Z) -> list Z) : Prop :=
  forall out pairs, poly_wf w N out -> (length pairs <= T)%nat ->
    Forall (fun '(g, d) => poly_wf w N g /\ poly_wf w N d /\ Forall (fun x => Z.abs (sgn w x) <= 2 ^ (b - 1)) d) pairs ->
    poly_wf w N (f out pairs) /\
    exists err, length err = N /\ Forall (fun e => Z.abs e <= E) err /\
      req (2 ^ w) (R N (f out pairs))
        (radd (radd (R N out) (rsuml pairs (fun '(g, d) => rmul (R N g) (R N (map (sgn w) d))))) (R N err)).

Definition backend_ok (w : Z) (N : nat) (b : Z) (T : nat) (E : Z) (B : backend) : Prop :=
  mul_add_ok w N b T E (bk_run B).

(** k + 1 polynomials of N integers of absolute value at most [E]. *)
Definition small_glwe (k N : nat) (E : Z) (err : list (list Z)) : Prop :=
  length err = S k /\ Forall (fun e => length e = N /\ Forall (fun x => Z.abs x <= E) e) err.

(** The digits of a GLWE ciphertext [c']: [D j i] is the digit polynomial of level j+1 of polynomial i. *)
Definition is_gadget_decomposition (w b : Z) (k N l : nat) (D : nat -> nat -> list Z) (c' : list (list Z)) : Prop :=
  (forall j i, (j < l)%nat -> (i <= k)%nat -> length (D j i) = N /\ Forall (fun x => Z.abs x <= 2 ^ (b - 1)) (D j i)) /\
  (forall i, (i <= k)%nat ->
     req (2 ^ w) (rsum l (fun j => rscal (2 ^ (w - b * Z.of_nat (S j))) (R N (D j i)))) (R N (nth i c' []))).

(** sum over the levels and rows of digit * noise *)
Definition digit_noise (N k l : nat) (D : nat -> nat -> list Z) (noise : nat -> nat -> list Z) : rp N :=
  rsum l (fun j => rsum (S k) (fun i => rmul (R N (D j i)) (R N (noise (S j) i)))).
