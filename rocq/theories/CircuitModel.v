(** * Model of a client that evaluates a circuit on encrypted wires, by calls of the library
    For every gate the client calls, in concrete-core/src/backends:
    - default/implementation/engines/default_engine/lwe_ciphertext_vector_discarding_affine_transformation.rs:158-168
      (LweModel.discard_affine) into a ciphertext of zeros;
    - default/implementation/engines/default_engine/lwe_ciphertext_discarding_keyswitch.rs:138-146 (KeyswitchModel.keyswitch_ciphertext);
    - default/implementation/engines/default_engine/glwe_ciphertext_trivial_encryption.rs:96-104 for the table
      (GlweModel.glwe_new_trivial_encryption);
    - fft/implementation/engines/fft_engine/lwe_ciphertext_discarding_bootstrap.rs:194-230 (BootstrapModel.fft_bootstrap), or the
      bootstrap of the NTT backend (NttApi.ntt_bootstrap).
    The lines of the functions these call are cited at their definitions.  The client itself is not part of /repo. *)
From Verif Require Import Base Word DecompModel RandomModel LweModel GlweModel KeyswitchModel ExtProdModel BootstrapModel NttModel NttApi CircuitSpec.

Section Client.
Context (p : profile) (w t : Z).
(** Dimensions: of the small LWE key, of the GLWE key, and the polynomial size; keyswitch decomposition; keyswitch key *)
Context (n k N : nat) (kb : Z) (kl : nat) (ksk : list (list (list Z))).
(** The bootstrap; [St] is the memory (buffers) it works with. *)
Context {St : Type} (boot : St -> list Z -> list (list Z) -> outcome (list Z * St)).

(** Index of a wire; out of range, the client panics. *)
Definition wire (wires : list (list Z)) (i : nat) : outcome (list Z) :=
  match nth_error wires i with Some c => Ret c | None => Panic end.
(** One gate: weighted sum, keyswitch, lookup by the bootstrap (calls listed above) *)
Definition run_gate (wires : list (list Z)) (st : St) (g : gate) : outcome (list Z * St) :=
  let! inputs := omap (wire wires) (g_inputs g) in
  let! c := discard_affine p w (repeat 0 (S (k * N))) inputs (map (fun x => x mod 2 ^ w) (g_weights g)) (encode w t (g_bias g)) in
  let! c := keyswitch_ciphertext p w kb kl n ksk (repeat 0 (S n)) c in
  let! acc := glwe_new_trivial_encryption p (S k) (accumulator w N t (g_table g)) in
  boot st c acc.
(** The gates in order; each appends a wire. *)
Fixpoint run_circuit (circuit : list gate) (wires : list (list Z)) (st : St) : outcome (list (list Z) * St) :=
  match circuit with
  | [] => Ret (wires, st)
  | g :: rest => let! (c, st) := run_gate wires st g in run_circuit rest (wires ++ [c]) st
  end.
End Client.

(** The bootstrap with a Fourier (or other approximate) backend, into a ciphertext of zeros *)
Definition boot_fft (p : profile) (w : Z) (B : backend) (k N : nat) (b : Z) (bsk : list (list (list (list (bk_dom B))))) (_ : unit) (c : list Z) (acc : list (list Z))
    : outcome (list Z * unit) :=
  let! out := fft_bootstrap p w B N b bsk (repeat 0 (S (k * N))) c acc in Ret (out, tt).
(** The bootstrap of the NTT backend; its buffers are reused from call to call. *)
Definition boot_ntt (p : profile) (w q : Z) (k N : nat) (b : Z) (bsk : list (list (list (list (list Z))))) (st : list (list Z) * nbufs) (c : list Z) (acc : list (list Z))
    : outcome (list Z * (list (list Z) * nbufs)) :=
  let! (out, lut, bufs) := ntt_bootstrap p (2 * w) q w N (S k) b bsk (repeat 0 (S (k * N))) c acc (fst st) (snd st) in Ret (out, (lut, bufs)).

(** The client encodes and encrypts its inputs, and decrypts and decodes the wires: default_engine/lwe_ciphertext_vector_encryption.rs:129-143
    and lwe_ciphertext_vector_decryption.rs:123-131 (LweModel.encrypt_lwe_list, decrypt_lwe_list). *)
Definition encrypt_inputs (p : profile) (w t : Z) (gauss : list Z -> option (Z * Z)) (key : list Z) (messages : list Z) (g : egen) : outcome (list (list Z) * egen) :=
  encrypt_lwe_list p w gauss key (repeat (repeat 0 (S (length key))) (length messages)) (map (encode w t) messages) g.
Definition decrypt_wires (p : profile) (w t : Z) (key : list Z) (wires : list (list Z)) : outcome (list Z) :=
  let! xs := decrypt_lwe_list p w key wires in Ret (map (decode w t) xs).
