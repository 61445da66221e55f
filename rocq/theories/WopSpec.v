(** * Specification of the cmux tree, of bit extraction and of circuit bootstrap *)
From Verif Require Import Base Word NegaRing RingSum KeyswitchSpec.

(** The complete binary selection tree over 2^r leaves: the first selector, the most significant bit of the
    index, chooses between the two halves.  [sel a b g] is the choice between [a] and [b] by [g]. *)
Fixpoint select_tree {A K} (sel : A -> A -> K -> outcome A) (selectors : list K) (leaves : list A) : outcome A :=
  match selectors with
  | [] => match leaves with [x] => Ret x | _ => Panic end
  | g :: gs =>
      let half := (2 ^ length gs)%nat in
      let! a := select_tree sel gs (firstn half leaves) in
      let! b := select_tree sel gs (skipn half leaves) in
      sel a b g
  end.

(** The number written by a list of bits, most significant first. *)
Definition bits_value (bits : list Z) : Z := fold_left (fun acc b => 2 * acc + b) bits 0.

(** Noise of the [i]-th extracted bit (from the least significant one): the noise [e0] of the input and that of the [i]
    bootstraps done before, shifted to the top together with the bit, and the noise [e_ks] of the keyswitch. *)
Definition extract_error (w delta e0 e_bs e_ks i : Z) : Z := (e0 + i * e_bs) * 2 ^ (w - delta - i - 1) + e_ks.

(** Worst-case noise added by a keyswitch from [n] coefficients in base 2^b with [l] levels and a key of noise at most [beta]. *)
Definition keyswitch_error (w b : Z) (n l : nat) (beta : Z) : Z :=
  Z.of_nat n * 2 ^ (w - b * Z.of_nat l - 1) + Z.of_nat n * Z.of_nat l * 2 ^ (b - 1) * beta.

(** The functional keyswitch keys of a circuit bootstrap: key [u < k] multiplies the message of an LWE ciphertext under [s] by
    minus the [u]-th polynomial of the GLWE key, the last one by 1; all their noises are at most [beta]. *)
Definition cbs_keys_encrypt (w b : Z) (l N : nat) (key : list (list Z)) (s : list Z) (beta : Z) (keys : list (list (list (list (list Z))))) : Prop :=
  length keys = S (length key) /\
  forall u ksk, nth_error keys u = Some ksk -> exists noise,
    gksk_encrypts w b l N key (s ++ [-1]) (if Nat.ltb u (length key) then ropp (R N (nth u key [])) else rone N) noise ksk /\
    forall i j, (i <= length s)%nat -> (j < l)%nat -> rbound (2 ^ w) beta (noise i j).

(** Worst-case noise of a GGSW ciphertext made by circuit bootstrap: the noise [e_bs] of the bootstrap, the rounding and
    the noise of the functional keyswitch from [n] coefficients (the body is decomposed too). *)
Definition cbs_error (w b : Z) (n l : nat) (beta e_bs : Z) : Z :=
  e_bs + (Z.of_nat (S n) * 2 ^ (w - b * Z.of_nat l - 1) + Z.of_nat (S n) * (Z.of_nat l * (2 ^ (b - 1) * beta))).
