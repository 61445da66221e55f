(** * Model of the noise dispersions and of the noise estimates
    /repo/concrete-core/src/specification/dispersion.rs, /repo/concrete-npe/src/key_dispersion.rs, operators.rs and tools.rs.
    Simplification: [f64] is the real line.  The rounding of the floating point operations is not modelled, nor are overflow to infinity and
    NaN; log2(0) is -infinity and 2^(-infinity) is 0, which [get_modular_variance] and [get_modular_standard_dev] treat as a case. *)
From Verif Require Import Base Word.
From Coq Require Import Reals.
Local Open Scope R_scope.

(** f64::log2, 2_f64.powf, 2_f64.powi *)
Definition log2 (x : R) : R := ln x / ln 2.
Definition powf2 (x : R) : R := Rpower 2 x.
Definition powi2 (n : Z) : R := powerRZ 2 n.
(** tools.rs:26-31 *)
Definition square (x : R) : R := x * x.

(** ** dispersion.rs: lines 63, 115 and 166, the three types that implement DispersionParameter *)
Inductive dispersion := LogStandardDev (x : R) | StandardDev (x : R) | Variance (x : R).
(** 71-73 *)
Definition from_modular_log_standard_dev (log_std : R) (log2_modulus : Z) : dispersion := LogStandardDev (log_std - IZR log2_modulus).
(** 123-125 *)
Definition from_modular_standard_dev (std : R) (log2_modulus : Z) : dispersion := StandardDev (std / powf2 (IZR log2_modulus)).
(** 174-176 *)
Definition from_modular_variance (var : R) (log2_modulus : Z) : dispersion := Variance (var / powf2 (IZR log2_modulus * 2)).
(** 77-79, 129-131, 180-182 *)
Definition get_standard_dev (d : dispersion) : R := match d with LogStandardDev x => powf2 x | StandardDev x => x | Variance x => sqrt x end.
(** 80-82, 132-134, 183-185 *)
Definition get_variance (d : dispersion) : R := match d with LogStandardDev x => powf2 (x * 2) | StandardDev x => x ^ 2 | Variance x => x end.
(** 83-85, 135-137, 186-188 *)
Definition get_log_standard_dev (d : dispersion) : R := match d with LogStandardDev x => x | StandardDev x => log2 x | Variance x => log2 (sqrt x) end.
(** 86-88, 138-140, 189-191 *)
Definition get_modular_standard_dev (d : dispersion) (log2_modulus : Z) : R :=
  match d with
  | LogStandardDev x => powf2 (IZR log2_modulus + x)
  | StandardDev x => if Req_EM_T x 0 then 0 else powf2 (IZR log2_modulus + log2 x)
  | Variance x => if Req_EM_T x 0 then 0 else powf2 (IZR log2_modulus + log2 (sqrt x))
  end.
(** 89-91, 141-143, 192-194 *)
Definition get_modular_variance (d : dispersion) (log2_modulus : Z) : R :=
  match d with
  | LogStandardDev x => powf2 ((IZR log2_modulus + x) * 2)
  | StandardDev x => if Req_EM_T x 0 then 0 else powf2 (2 * (IZR log2_modulus + log2 x))
  | Variance x => if Req_EM_T x 0 then 0 else powf2 (2 * (IZR log2_modulus + log2 (sqrt x)))
  end.
(** 92-94, 144-146, 195-197 *)
Definition get_modular_log_standard_dev (d : dispersion) (log2_modulus : Z) : R :=
  match d with
  | LogStandardDev x => IZR log2_modulus + x
  | StandardDev x => IZR log2_modulus + log2 x
  | Variance x => IZR log2_modulus + log2 (sqrt x)
  end.

(** ** key_dispersion.rs: the four implementations of KeyDispersion (lines 175, 237, 299 and 390) *)
Inductive key_kind := BinaryKeyKind | TernaryKeyKind | GaussianKeyKind | ZeroKeyKind.
(** 8 *)
Definition GAUSSIAN_MODULAR_STDEV : R := 32 / 10.
Section KeyDispersion.
Context (K : key_kind).
(** 176-178, 238-240, 300-302, 391-393 *)
Definition variance_key_coefficient (log2_modulus : Z) : dispersion :=
  from_modular_variance (match K with BinaryKeyKind => 1 / 4 | TernaryKeyKind => 2 / 3 | GaussianKeyKind => square GAUSSIAN_MODULAR_STDEV | ZeroKeyKind => 0 end) log2_modulus.
(** 179-181, 241-243, 303-305, 394-396 *)
Definition expectation_key_coefficient : R := match K with BinaryKeyKind => 1 / 2 | _ => 0 end.
(** 182-184, 244-246, 306-314, 397-399 *)
Definition variance_key_coefficient_squared (log2_modulus : Z) : dispersion :=
  from_modular_variance
    match K with
    | BinaryKeyKind => 1 / 4
    | TernaryKeyKind => 2 / 9
    | GaussianKeyKind => 2 * square (get_modular_variance (variance_key_coefficient log2_modulus) log2_modulus)
    | ZeroKeyKind => 0
    end log2_modulus.
(** 185-187, 247-249, 315-320, 400-402 *)
Definition expectation_key_coefficient_squared (log2_modulus : Z) : R :=
  match K with
  | BinaryKeyKind => 1 / 2
  | TernaryKeyKind => 2 / 3
  | GaussianKeyKind => get_modular_variance (variance_key_coefficient log2_modulus) log2_modulus
  | ZeroKeyKind => 0
  end.
Context (poly_size : nat).
(** 188-197, 250-259, 321-337, 403-408 *)
Definition variance_odd_coefficient_in_polynomial_key_squared (log2_modulus : Z) : dispersion :=
  match K with
  | ZeroKeyKind => Variance 0
  | _ =>
      if Nat.eqb poly_size 1 then from_modular_variance 0 log2_modulus
      else from_modular_variance
        match K with
        | BinaryKeyKind => 3 * INR poly_size / 8
        | TernaryKeyKind => 8 * INR poly_size / 9
        | _ => 2 * INR poly_size * square (get_modular_variance (variance_key_coefficient log2_modulus) log2_modulus)
        end log2_modulus
  end.
(** 198-213, 260-275, 338-360, 409-414 *)
Definition variance_even_coefficient_in_polynomial_key_squared (log2_modulus : Z) : dispersion :=
  match K with
  | ZeroKeyKind => Variance 0
  | _ =>
      if Nat.eqb poly_size 1 then from_modular_variance (2 * get_modular_variance (variance_key_coefficient_squared log2_modulus) log2_modulus) log2_modulus
      else from_modular_variance
        match K with
        | BinaryKeyKind => INR (3 * poly_size - 2) / 8
        | TernaryKeyKind => 4 * INR (2 * poly_size - 3) / 9
        | _ => 2 * INR poly_size * square (get_modular_variance (variance_key_coefficient log2_modulus) log2_modulus)
        end log2_modulus
  end.
(** 214-225, 276-287, 361-372, 415-420 *)
Definition squared_expectation_mean_in_polynomial_key_squared (log2_modulus : Z) : R :=
  match K with
  | ZeroKeyKind => 0
  | _ =>
      if Nat.eqb poly_size 1 then square (expectation_key_coefficient_squared log2_modulus)
      else match K with BinaryKeyKind => (square (INR poly_size) + 2) / 48 | _ => 0 end
  end.
(** 226-231, 288-293, 373-384, 421-426 *)
Definition variance_coefficient_in_polynomial_key_times_key (log2_modulus : Z) : dispersion :=
  match K with
  | BinaryKeyKind => from_modular_variance (3 * INR poly_size / 16) log2_modulus
  | TernaryKeyKind => from_modular_variance (4 * INR poly_size / 9) log2_modulus
  | GaussianKeyKind => from_modular_variance (square (get_modular_variance (variance_key_coefficient log2_modulus) log2_modulus) * INR poly_size) log2_modulus
  | ZeroKeyKind => Variance 0
  end.
(** 232-234, 294-296, 385-387, 427-429 *)
Definition square_expectation_mean_in_polynomial_key_times_key : R :=
  match K with BinaryKeyKind => (square (INR poly_size) + 2) / 48 | _ => 0 end.
End KeyDispersion.

(** ** operators.rs *)
(** 25-38 *)
Definition estimate_addition_noise (dispersion_ct1 dispersion_ct2 : dispersion) (log2_modulus : Z) : dispersion :=
  from_modular_variance (get_modular_variance dispersion_ct1 log2_modulus + get_modular_variance dispersion_ct2 log2_modulus) log2_modulus.
(** 55-65 *)
Definition estimate_several_additions_noise (dispersion_cts : list dispersion) (log2_modulus : Z) : dispersion :=
  from_modular_variance (fold_left (fun var_res d => var_res + get_modular_variance d log2_modulus) dispersion_cts 0) log2_modulus.

Section Integers.
(** [w] is the width of the unsigned type T; a product of its signed companion is checked in debug builds and wraps in release builds. *)
Context (p : profile) (w : Z).
Definition signed_square (sn : Z) : outcome Z :=
  let x := (sn * sn)%Z in
  if ((- 2 ^ (w - 1) <=? x) && (x <? 2 ^ (w - 1)))%Z then Ret x else match p with Debug => Panic | Release => Ret (sgn w (x mod 2 ^ w)) end.
(** 78-86: into_signed reinterprets the word *)
Definition estimate_integer_plaintext_multiplication_noise (variance : dispersion) (n : Z) : outcome dispersion :=
  let! product := signed_square (sgn w n) in Ret (Variance (get_variance variance * IZR product)).
(** 99-110 *)
Fixpoint weighted_sum_loop (dispersion_list : list dispersion) (weights : list Z) (var_res : R) : outcome R :=
  match dispersion_list, weights with
  | d :: dispersion_list, n :: weights =>
      let! term := estimate_integer_plaintext_multiplication_noise d n in
      weighted_sum_loop dispersion_list weights (var_res + get_variance term)
  | _, _ => Ret var_res
  end.
Definition estimate_weighted_sum_noise (dispersion_list : list dispersion) (weights : list Z) : outcome dispersion :=
  let! var_res := weighted_sum_loop dispersion_list weights 0 in Ret (Variance var_res).
(** 126-138 *)
Definition estimate_polynomial_plaintext_multiplication_noise (d : dispersion) (scalar_polynomial : list Z) : outcome dispersion :=
  estimate_weighted_sum_noise (repeat d (length scalar_polynomial)) scalar_polynomial.
End Integers.

(** 288-338 *)
Definition estimate_relinearization_noise (K : key_kind) (poly_size glwe_dimension : nat) (dispersion_rlk : dispersion) (base_log : Z) (level : nat) (log2_modulus : Z) : dispersion :=
  let big_n := INR poly_size in let k := INR glwe_dimension in
  let base := powi2 base_log in let b2l := powi2 (2 * Z.of_nat level) in let q_square := powi2 (2 * log2_modulus) in
  let modular d := get_modular_variance d log2_modulus in
  let key_times_key := modular (variance_coefficient_in_polynomial_key_times_key K poly_size log2_modulus) in
  let odd := modular (variance_odd_coefficient_in_polynomial_key_squared K poly_size log2_modulus) in
  let even := modular (variance_even_coefficient_in_polynomial_key_squared K poly_size log2_modulus) in
  let expectation := square_expectation_mean_in_polynomial_key_times_key K poly_size in
  let res_1 := k * INR level * big_n * modular dispersion_rlk * (k + 1) / 2 * (square base + 2) / 12 in
  let res_2 := k * big_n / 2 * (q_square / (12 * b2l) - 1 / 12) * ((k - 1) * (key_times_key + expectation) + odd + even + 2 * expectation) in
  let res_3 := k * big_n / 8 * ((k - 1) * key_times_key + odd + even) in
  from_modular_variance (res_1 + res_2 + res_3) log2_modulus.

(** 440-458 *)
Definition estimate_modulus_switching_noise_with_binary_key (lwe_mask_size : nat) (nb_msb : Z) (var_in : dispersion) (log2_modulus : Z) : dispersion :=
  let w := powi2 nb_msb in let n := INR lwe_mask_size in let q_square := powi2 (2 * log2_modulus) in
  from_modular_variance
    (get_modular_variance var_in log2_modulus + 1 / 12 * q_square / square w - 1 / 12 + n / 24 * q_square / square w + n / 48) log2_modulus.

(** 482-521 *)
Definition estimate_keyswitch_noise_lwe_to_glwe_with_constant_terms (K : key_kind) (lwe_mask_size : nat) (dispersion_lwe dispersion_ksk : dispersion)
    (base_log : Z) (level : nat) (log2_modulus : Z) : dispersion :=
  let n := INR lwe_mask_size in
  let base := powi2 base_log in let b2l := powi2 (base_log * 2 * Z.of_nat level) in let q_square := powi2 (2 * log2_modulus) in
  let var_key := get_modular_variance (variance_key_coefficient K log2_modulus) log2_modulus in
  let res_1 := get_modular_variance dispersion_lwe log2_modulus in
  let res_2 := n * (q_square / (12 * b2l) - 1 / 12) * (var_key + square (expectation_key_coefficient K)) in
  let res_3 := n / 4 * var_key in
  let res_4 := n * INR level * get_modular_variance dispersion_ksk log2_modulus * (square base + 2) / 12 in
  from_modular_variance (res_1 + res_2 + res_3 + res_4) log2_modulus.

(** 551-596 *)
Definition estimate_private_functional_keyswitch_noise_lwe_to_glwe_with_constant_terms (K : key_kind) (lwe_mask_size : nat) (dispersion_lwe dispersion_ksk : dispersion)
    (base_log : Z) (level : nat) (function_lipschitz_bound : R) (log2_modulus : Z) : dispersion :=
  let n := INR lwe_mask_size in
  let base := powi2 base_log in let b2l := powi2 (base_log * 2 * Z.of_nat level) in let q_square := powi2 (2 * log2_modulus) in
  let r2 := square function_lipschitz_bound in
  let var_key := get_modular_variance (variance_key_coefficient K log2_modulus) log2_modulus in
  let res_1 := r2 * get_modular_variance dispersion_lwe log2_modulus in
  let res_2 := r2 * n * (q_square / (12 * b2l) - 1 / 12) * (var_key + square (expectation_key_coefficient K)) in
  let res_3 := r2 * n / 4 * var_key in
  let res_4 := r2 * (q_square / (12 * b2l) - 1 / 12) in
  let res_5 := (n + 1) * INR level * get_modular_variance dispersion_ksk log2_modulus * (square base + 2) / 12 in
  from_modular_variance (res_1 + res_2 + res_3 + res_4 + res_5) log2_modulus.

(** 618-637 *)
Definition estimate_keyswitch_noise_lwe_to_glwe_with_non_constant_terms (lwe_mask_size : nat) (dispersion_ksk : dispersion) (base_log : Z) (level : nat) (log2_modulus : Z) : dispersion :=
  let n := INR lwe_mask_size in let square_base := powi2 (2 * base_log) in
  from_modular_variance (n * INR level * get_modular_variance dispersion_ksk log2_modulus * (square_base + 2) / 12) log2_modulus.

(** 694-727: the noise of an external product, with a GGSW ciphertext of a bit *)
Definition estimate_external_product_noise_with_binary_ggsw (K : key_kind) (poly_size rlwe_mask_size : nat) (var_glwe var_ggsw : dispersion)
    (base_log : Z) (level : nat) (log2_modulus : Z) : dispersion :=
  let l := INR level in let k := INR rlwe_mask_size in let big_n := INR poly_size in
  let b := powi2 base_log in let b2l := powi2 (base_log * 2 * Z.of_nat level) in let q_square := powi2 (2 * log2_modulus) in
  let var_key := get_modular_variance (variance_key_coefficient K log2_modulus) log2_modulus in
  let res_1 := l * (k + 1) * big_n * get_modular_variance var_ggsw log2_modulus * (square b + 2) / 12 in
  let res_2 := get_modular_variance var_glwe log2_modulus / 2 in
  let res_3 := (q_square - b2l) / (24 * b2l) * (1 + k * big_n * (var_key + square (expectation_key_coefficient K))) in
  let res_4 := k * big_n / 8 * var_key in
  let res_5 := 1 / 16 * square (1 - k * big_n * expectation_key_coefficient K) in
  from_modular_variance (res_1 + res_2 + res_3 + res_4 + res_5) log2_modulus.

(** 757-783 *)
Definition estimate_cmux_noise_with_binary_ggsw (K : key_kind) (dimension polynomial_size : nat) (base_log : Z) (l_gadget : nat)
    (dispersion_rlwe_0 dispersion_rlwe_1 dispersion_rgsw : dispersion) (log2_modulus : Z) : dispersion :=
  let var_external_product := estimate_external_product_noise_with_binary_ggsw K polynomial_size dimension
    (estimate_addition_noise dispersion_rlwe_0 dispersion_rlwe_1 log2_modulus) dispersion_rgsw base_log l_gadget log2_modulus in
  estimate_addition_noise var_external_product dispersion_rlwe_0 log2_modulus.
