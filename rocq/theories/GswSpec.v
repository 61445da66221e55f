(** * Specification of GSW ciphertexts over LWE.
    A GSW ciphertext is the list of its levels (level 1 first); a level is the list of its n + 1 rows; a
    row is an LWE ciphertext of dimension n. *)
From Verif Require Import Base Word LweSpec.

Definition gsw_wf (w : Z) (n l : nat) (G : list (list (list Z))) : Prop :=
  length G = l /\ Forall (fun lev => length lev = S n /\ Forall (lwe_wf w n) lev) G.

(** Row [i] of level [j] of a GSW encryption of the integer [m] with decomposition base 2^b encrypts
    -m * s_i * 2^(w - b*j) for i < n and m * 2^(w - b*j) for the last row. *)
Definition gsw_row_value (w b : Z) (key : list Z) (m : Z) (j i : nat) : Z :=
  let scale := 2 ^ (w - b * Z.of_nat j) in
  match nth_error key i with
  | Some s => - (m * scale * s)
  | None => m * scale
  end.

Definition gsw_encrypts (w b : Z) (key : list Z) (m : Z) (noise : nat -> nat -> Z) (G : list (list (list Z))) : Prop :=
  forall j lev i row, nth_error G j = Some lev -> nth_error lev i = Some row ->
    phase w key row = (gsw_row_value w b key m (S j) i + noise (S j) i) mod 2 ^ w.

(** The byte counts fit a usize: l levels of n + 1 rows of n mask words and one noise sample, for which
    768 bytes are reserved. *)
Definition gsw_bytes_small (w : Z) (l n : nat) : Prop :=
  Z.of_nat l * ((Z.of_nat n + 1) * (Z.of_nat n * (w / 8))) < 2 ^ 64 /\
  Z.of_nat l * ((Z.of_nat n + 1) * 768) < 2 ^ 64.

(** Row [i] of level [j] is row number (j-1)*(n+1)+i of the ciphertext. *)
Definition gsw_row_number (n j i : nat) : nat := ((j - 1) * (n + 1) + i)%nat.
