(** * Specification of the keyswitches *)
From Verif Require Import Base Word NegaRing PolySpec LweSpec GlweSpec RingSum.

(** f 0 + ... + f (n-1) *)
Definition zsum (n : nat) (f : nat -> Z) : Z := sumz n (fun i => f (Z.to_nat i)).

(** [D 0], ..., [D (l-1)] are balanced digits in base 2^b of [c], which is [x] rounded to the
    b*l most significant bits. *)
Definition gadget_digits (w b : Z) (l : nat) (x c : Z) (D : nat -> Z) : Prop :=
  (forall j, (j < l)%nat -> Z.abs (D j) <= 2 ^ (b - 1)) /\
  eqm (2 ^ w) (zsum l (fun j => D j * 2 ^ (w - b * (Z.of_nat j + 1)))) c /\
  (exists e, Z.abs e <= 2 ^ (w - b * Z.of_nat l - 1) /\ eqm (2 ^ w) c (x + e)).

(** The rows of block [i] encrypt, under [key], the coefficient [s_i] at the scales 2^(w-b), 2^(w-2b),
    ..., 2^(w-bl), with the given noises. *)
Definition ksk_encrypts (w b : Z) (l : nat) (key s : list Z) (noise : nat -> nat -> Z) (ksk : list (list (list Z))) : Prop :=
  length ksk = length s /\
  forall i block, nth_error ksk i = Some block -> length block = l /\
    forall j row, nth_error block j = Some row ->
      lwe_wf w (length key) row /\
      phase w key row = (nth i s 0 * 2 ^ (w - b * (Z.of_nat j + 1)) + noise i j) mod 2 ^ w.

(** The same for GLWE rows, which encrypt [s_i] times the polynomial [P]. *)
Definition gksk_encrypts (w b : Z) (l N : nat) (key : list (list Z)) (s : list Z) (P : rp N) (noise : nat -> nat -> rp N)
    (ksk : list (list (list (list Z)))) : Prop :=
  length ksk = length s /\
  forall i block, nth_error ksk i = Some block -> length block = l /\
    forall j row, nth_error block j = Some row ->
      glwe_wf w (length key) N row /\
      req (2 ^ w) (gphase N key row) (radd (rscal (nth i s 0 * 2 ^ (w - b * (Z.of_nat j + 1))) P) (noise i j)).
