(** * Specification of the boolean gates of the CUDA backend *)
From Verif Require Import Base Word LweSpec BootstrapSpec.

Inductive binary_gate := And | Nand | Nor | Or | Xor | Xnor.
Definition truth (g : binary_gate) (a b : bool) : bool :=
  match g with
  | And => a && b
  | Nand => negb (a && b)
  | Nor => negb (a || b)
  | Or => a || b
  | Xor => xorb a b
  | Xnor => negb (xorb a b)
  end.

(** A bit is an eighth of the torus, with its sign. *)
Definition message (b : bool) : Z := if b then 2 ^ 29 else - 2 ^ 29.
(** [c] encrypts the bit [b] under the key [s], with a noise of at most [eta]. *)
Definition encrypts_bool (s : list Z) (eta : Z) (b : bool) (c : list Z) : Prop :=
  lwe_wf 32 (length s) c /\ exists e, Z.abs e <= eta /\ phase 32 s c = (message b + e) mod 2 ^ 32.
(** Vectors, bit by bit *)
Definition encrypt_bools (s : list Z) (eta : Z) : list bool -> list (list Z) -> Prop := Forall2 (encrypts_bool s eta).

(** The linear combination that a gate bootstraps: a (x + y) + c *)
Definition factor (g : binary_gate) : Z := match g with And | Or => 1 | Nand | Nor => -1 | Xor => 2 | Xnor => -2 end.
Definition constant (g : binary_gate) : Z := match g with And | Nor => - 2 ^ 29 | Nand | Or => 2 ^ 29 | Xor => 2 ^ 30 | Xnor => - 2 ^ 30 end.
Definition combination (a c : Z) (x y : list Z) : list Z :=
  map2 (fun u v => (a * (u + v)) mod 2 ^ 32) (removelast x) (removelast y) ++ [(a * (last x 0 + last y 0) + c) mod 2 ^ 32].

(** The switch of the ciphertext [c] to the modulus 2N moves its decryption by at most d/2 steps. *)
Definition switch_within (N : nat) (s : list Z) (d : Z) (c : list Z) : Prop :=
  exists t, 2 * Z.abs (2 ^ 32 * (rot_exponent 32 N s c + 2 * Z.of_nat N * t) - 2 * Z.of_nat N * phase 32 s c) <= 2 ^ 32 * d.

(** A circuit on vectors of bits *)
Inductive circuit := Input (i : nat) | Not (c : circuit) | Gate (g : binary_gate) (c1 c2 : circuit).
Fixpoint value (inputs : list (list bool)) (c : circuit) : list bool :=
  match c with
  | Input i => nth i inputs []
  | Not c => map negb (value inputs c)
  | Gate g c1 c2 => map2 (truth g) (value inputs c1) (value inputs c2)
  end.
