(** * Specification of LWE decryption: <body> - <mask, key> modulo 2^w. *)
From Verif Require Import Base Word.

Fixpoint dot (a s : list Z) : Z :=
  match a, s with x :: a', y :: s' => x * y + dot a' s' | _, _ => 0 end.

Definition phase (w : Z) (s c : list Z) : Z := (last c 0 - dot (removelast c) s) mod 2 ^ w.

(** A ciphertext of dimension n over w-bit words. *)
Definition lwe_wf (w : Z) (n : nat) (c : list Z) : Prop := length c = S n /\ Forall (is_word w) c.

(** sum of w_i * x_i *)
Fixpoint wsum (ws xs : list Z) : Z :=
  match ws, xs with a :: ws', x :: xs' => a * x + wsum ws' xs' | _, _ => 0 end.
