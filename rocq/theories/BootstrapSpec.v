(** * Specification of the programmable bootstrap *)
From Verif Require Import Base Word NegaRing LweSpec GlweSpec GgswSpec RingSum.

(** a / b rounded to the nearest integer, half up. *)
Definition round_div (a b : Z) : Z := (2 * a + b) / (2 * b).

(** The word [x], as a fraction of 2^w, moved to a fraction of 2N and rounded to a multiple of 2^L. *)
Definition switched (w N L x : Z) : Z := 2 ^ L * round_div (x * (2 * N)) (2 ^ L * 2 ^ w).

(** The exponent by which the LUT is rotated: the decryption of the switched ciphertext. *)
Definition rot_exponent (w : Z) (N : nat) (s lwe : list Z) : Z :=
  switched w (Z.of_nat N) 0 (last lwe 0) - dot (map (switched w (Z.of_nat N) 0) (removelast lwe)) s.

(** [bsk] is a bootstrap key for the bits [s] under the GLWE key [key], every row noise being at most [beta]. *)
Definition bsk_encrypts (w b : Z) (N l : nat) (key : list (list Z)) (beta : Z) (bsk : list (list (list (list (list Z))))) (s : list Z) : Prop :=
  Forall2 (fun G si => ggsw_wf w (length key) N l G /\
    exists noise, ggsw_encrypts w b N key si noise G /\
      forall j i, (j < l)%nat -> (i <= length key)%nat -> rbound (2 ^ w) beta (R N (noise (S j) i))) bsk s.

(** number of mask elements that are not zero *)
Definition nonzeros (l : list Z) : nat := length (filter (fun a => negb (a =? 0)) l).

(** Reading a LUT polynomial [v] (N words) at any integer position j, with v(j + N) = - v(j). *)
Definition lut_at (N : nat) (v : list Z) (j : Z) : Z :=
  if Z.even (j / Z.of_nat N) then coef v (j mod Z.of_nat N) else - coef v (j mod Z.of_nat N).
