(** * Model of the programmable bootstrap
    /repo/concrete-core/src/backends/fft/private/crypto/bootstrap.rs and
    /repo/concrete-core/src/backends/ntt/private/crypto/bootstrap/ntt/mod.rs (same algorithm). *)
From Verif Require Import Base Word PolyModel GlweModel ExtProdModel.

(** specification/parameters.rs:124-126 PolynomialSize::log2: the ceiling of the base-2 logarithm,
    computed with a float logarithm in the code, with integers here. *)
Definition poly_size_log2 (N : Z) : Z := Z.log2_up N.

(** fft bootstrap.rs:281-298 and ntt bootstrap/ntt/mod.rs:519-539 pbs_modulus_switch.
    Shifts, additions and subtractions are the plain operators: they panic on overflow in a debug
    build.  The final cast of a word of at most 64 bits to usize is the identity. *)
Definition pbs_modulus_switch (p : profile) (w input N offset lut_count_log : Z) : outcome Z :=
  let! output := shl_ p w input offset in
  let! s1 := plain p usize_bits (w - poly_size_log2 N) in
  let! s2 := plain p usize_bits (s1 - 2) in
  let! s := plain p usize_bits (s2 + lut_count_log) in
  let! output := shr_ p w output s in
  let! output := plain p w (output + Z.land output 1) in
  let! output := shr_ p w output 1 in
  shl_ p w output lut_count_log.

Section Rotate.
Context {K : Type} (p : profile) (w : Z) (cm : list (list Z) -> list (list Z) -> K -> outcome (list (list Z) * list (list Z))).

(** The loop of blind_rotate: fft bootstrap.rs:214-249, ntt mod.rs:484-510.  [cm] is the cmux of the
    backend.  (The FFT code recomputes the modulus switch for every polynomial of ct1 and copies ct0
    only when the mask element is not zero: same values.) *)
Fixpoint rotate_loop (N : nat) (steps : list (Z * K)) (ct0 : list (list Z)) : outcome (list (list Z)) :=
  match steps with
  | [] => Ret ct0
  | (a, ggsw) :: steps' =>
      if a =? 0 then rotate_loop N steps' ct0
      else
        let! d := pbs_modulus_switch p w a (Z.of_nat N) 0 0 in
        let ct1 := list_monic_monomial_mul w ct0 (Z.to_nat d) in
        let! (ct0, _) := cm ct0 ct1 ggsw in
        rotate_loop N steps' ct0
  end.

(** fft bootstrap.rs:188-250 and ntt mod.rs:454-511 blind_rotate: the LUT is rotated in place. *)
Definition blind_rotate (N : nat) (bsk : list K) (lut : list (list Z)) (lwe : list Z) : outcome (list (list Z)) :=
  match lwe with
  | [] => Panic
  | _ =>
      let! d := pbs_modulus_switch p w (last lwe 0) (Z.of_nat N) 0 0 in
      rotate_loop N (combine (removelast lwe) bsk) (list_monic_monomial_div w lut (Z.to_nat d))
  end.

(** fft bootstrap.rs:252-273 and ntt mod.rs:654-681 bootstrap: the accumulator is copied, rotated, and
    its coefficient 0 is extracted into the output. *)
Definition bootstrap (N : nat) (bsk : list K) (lwe_out lwe_in : list Z) (accumulator : list (list Z)) : outcome (list Z) :=
  let! acc := blind_rotate N bsk accumulator lwe_in in
  fill_lwe_with_sample_extraction w N acc lwe_out 0.
End Rotate.

(** fft bootstrap.rs:152-163 fill_with_forward_fourier: one GGSW ciphertext after the other. *)
Definition bsk_forward_fourier (B : backend) (bsk : list (list (list (list (list Z))))) : list (list (list (list (bk_dom B)))) :=
  map (fill_with_forward_fourier B) bsk.

Definition fft_blind_rotate (p : profile) (w : Z) (B : backend) (N : nat) (base_log : Z) :=
  blind_rotate p w (cmux p w B N base_log) N.
Definition fft_bootstrap (p : profile) (w : Z) (B : backend) (N : nat) (base_log : Z) :=
  bootstrap p w (cmux p w B N base_log) N.
