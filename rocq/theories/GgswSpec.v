(** * Specification of GGSW ciphertexts.
    A GGSW ciphertext is the list of its levels (level 1 first); a level is the list of its k + 1
    rows; a row is a GLWE ciphertext. *)
From Verif Require Import Base Word NegaRing PolySpec GlweSpec.

(** [l] levels of [k + 1] rows of dimension [k] and polynomial size [N]. *)
Definition ggsw_wf (w : Z) (k N l : nat) (G : list (list (list (list Z)))) : Prop :=
  length G = l /\ Forall (fun lev => length lev = S k /\ Forall (glwe_wf w k N) lev) G.

(** What row [i] of level [j] of a GGSW encryption of the integer [m] with decomposition base 2^b
    encrypts: -m * s_i * 2^(w - b*j) for i < k and m * 2^(w - b*j) for the last row. *)
Definition ggsw_row_value (w b : Z) (N : nat) (key : list (list Z)) (m : Z) (j i : nat) : rp N :=
  let scale := 2 ^ (w - b * Z.of_nat j) in
  match nth_error key i with
  | Some s => rscal (- (m * scale)) (R N s)
  | None => rconst N (m * scale)
  end.

(** Every row of [G] has that phase, up to the noise polynomial of the row. *)
Definition ggsw_encrypts (w b : Z) (N : nat) (key : list (list Z)) (m : Z) (noise : nat -> nat -> list Z)
    (G : list (list (list (list Z)))) : Prop :=
  forall j lev i row, nth_error G j = Some lev -> nth_error lev i = Some row ->
    req (2 ^ w) (gphase N key row) (radd (ggsw_row_value w b N key m (S j) i) (R N (noise (S j) i))).

(** The byte counts of an encryption fit a usize: l levels of k + 1 rows of k*N mask words and N noise
    samples (256 bytes reserved for each). *)
Definition ggsw_bytes_small (w : Z) (l k N : nat) : Prop :=
  Z.of_nat l * ((Z.of_nat k + 1) * (Z.of_nat k * (Z.of_nat N * (w / 8)))) < 2 ^ 64 /\
  Z.of_nat l * ((Z.of_nat k + 1) * (Z.of_nat N * 256)) < 2 ^ 64.
