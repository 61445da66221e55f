(** * Model of the safe engine entry points
    /repo/concrete-core/src/specification/engines/*.rs (perform_generic_checks) and the safe methods of
    /repo/concrete-core/src/backends/default/implementation/engines/default_engine/*.rs and
    /repo/concrete-core/src/backends/fft/implementation/engines/{fft_engine,fft_parallel_engine}/*.rs.

    A safe method runs its checks in order, returns the error of the first one that fails, and otherwise runs the
    unchecked method, modelled in the other files.  The result [Err e] leaves every argument as it was: no engine
    writes before its checks.  All the error enumerations are merged in one: each engine uses the constructors
    that its own enumeration has, with the same names. *)
From Verif Require Import Base Word PolyModel DecompModel RandomModel LweModel GlweModel GgswModel ExtProdModel BootstrapModel KeyswitchModel WopModel.

Inductive engine_error : Type :=
| LweDimensionMismatch | CiphertextCountMismatch | PlaintextCountMismatch | CleartextCountMismatch
| SizeMismatch | MonomialIndexTooLarge
| InputLweDimensionMismatch | OutputLweDimensionMismatch | OutputGlweDimensionMismatch | OutputPolynomialSizeMismatch
| GlweDimensionMismatch | PolynomialSizeMismatch | MismatchedPolynomialSizeAndPlaintextVectorCount
| NullDecompositionBaseLog | NullDecompositionLevelCount | DecompositionTooLarge
| NullLweDimension | NullGlweDimension | NullPolynomialSize | SizeOnePolynomial | IncompatibleLweDimension
| NullCiphertextCount | EmptyContainer | InvalidContainerSize
| UnsupportedPolynomialSize
| AccumulatorPolynomialSizeMismatch | AccumulatorGlweDimensionMismatch | AccumulatorCountMismatch
| InputKeyswitchKeyLweDimensionMismatch | ExtractedBitsCountMismatch | KeyDimensionMismatch | NotEnoughBitsToExtract
| KeysDimensionMismatched | MismatchedPolynomialSize | MismatchedGlweDimension | MismatchedPFPKSKCount | MismatchedInputLweDimension
| KeysLweDimensionMismatch | MalformedLookUpTables | InvalidSmallLookUpTableSize
| UnorderedInputRange | UnorderedOutputRange | OutOfVectorInputRange | OutOfVectorOutputRange | RangeSizeMismatch.

(** The [Result] returned by a safe method. *)
Inductive result (A : Type) : Type := Ok (a : A) | Err (e : engine_error).
Arguments Ok {A} a.
Arguments Err {A} e.

(** [if bad { return Err(e) }], then the rest. *)
Definition refuse {A} (bad : bool) (e : engine_error) (rest : outcome (result A)) : outcome (result A) :=
  if bad then Ret (Err e) else rest.
(** [Ok(unsafe { unchecked })] *)
Definition run {A} (o : outcome A) : outcome (result A) := let! a := o in Ret (Ok a).
Definition neq (a b : nat) : bool := negb (Nat.eqb a b).

(** ** Entities
    An entity is its container and the sizes stored beside it.  The containers are cut in chunks as in the other files. *)

(** LweCiphertextEntity: lwe_dimension (crypto/lwe/ciphertext.rs:120-150: length - 1) *)
Definition lwe_dim (c : list Z) : nat := length c - 1.
(** LweCiphertextVectorEntity: crypto/lwe/list.rs:20-30, 186-246: the LWE size is stored, the count is length / size. *)
Record lwe_vec := LweVec { lv_size : nat; lv_cts : list (list Z) }.
Definition lv_dim (v : lwe_vec) : nat := lv_size v - 1.
Definition lv_count (v : lwe_vec) : nat := length (lv_cts v).
(** GlweCiphertextEntity: crypto/glwe/ciphertext.rs:22-30, 128-180: the polynomial size is stored. *)
Record glwe_ct := GlweCt { g_N : nat; g_polys : list (list Z) }.
Definition g_dim (c : glwe_ct) : nat := length (g_polys c) - 1.
(** GlweSecretKeyEntity: crypto/secret/glwe.rs:33-40, 373-400: the polynomial size is stored. *)
Record glwe_key := GlweKey { gk_N : nat; gk_polys : list (list Z) }.
Definition gk_dim (k : glwe_key) : nat := length (gk_polys k).
(** GlweCiphertextVectorEntity: crypto/glwe/list.rs:18-30: the GLWE size and the polynomial size are stored. *)
Record glwe_vec := GlweVec { gv_N : nat; gv_size : nat; gv_cts : list (list (list Z)) }.
Definition gv_dim (v : glwe_vec) : nat := gv_size v - 1.
Definition gv_count (v : glwe_vec) : nat := length (gv_cts v).
(** LweKeyswitchKeyEntity: crypto/lwe/keyswitch.rs:27-40, 174-300: input dimension = number of blocks. *)
Record ks_key := KsKey { kk_b : Z; kk_l : nat; kk_out : nat; kk_blocks : list (list (list Z)) }.
Definition kk_in (k : ks_key) : nat := length (kk_blocks k).
(** LwePackingKeyswitchKeyEntity and LwePrivateFunctionalPackingKeyswitchKeyEntity: crypto/glwe/keyswitch.rs; the
    input dimension is the number of blocks for the former and one less for the latter (1100-1240). *)
Record pks_key := PksKey { pk_b : Z; pk_l : nat; pk_k : nat; pk_N : nat; pk_blocks : list (list (list (list Z))) }.
(** A list of private functional packing keyswitch keys, all of the same sizes. *)
Record cbs_pfpks := CbsPfpks { cp_b : Z; cp_l : nat; cp_k : nat; cp_N : nat; cp_in : nat; cp_keys : list (list (list (list (list Z)))) }.
(** GgswCiphertextEntity, standard and Fourier: base, level count, polynomial size and GLWE dimension are stored. *)
Record ggsw_ct := GgswCt { gg_b : Z; gg_l : nat; gg_N : nat; gg_k : nat; gg_levels : list (list (list (list Z))) }.
Section FourierEntities.
Context (B : backend).
Record fggsw := FGgsw { fg_b : Z; fg_l : nat; fg_N : nat; fg_k : nat; fg_levels : list (list (list (bk_dom B))) }.
(** FftFourierLweBootstrapKeyEntity: the input dimension is the number of GGSW ciphertexts. *)
Record fbsk := FBsk { fb_b : Z; fb_l : nat; fb_N : nat; fb_k : nat; fb_ggsws : list (list (list (list (bk_dom B)))) }.
End FourierEntities.
Arguments FGgsw {B}. Arguments fg_b {B}. Arguments fg_l {B}. Arguments fg_N {B}. Arguments fg_k {B}. Arguments fg_levels {B}.
Arguments FBsk {B}. Arguments fb_b {B}. Arguments fb_l {B}. Arguments fb_N {B}. Arguments fb_k {B}. Arguments fb_ggsws {B}.

Section Engines.
Context (p : profile) (w : Z).

(** ** LWE ciphertexts *)
(** specification lwe_ciphertext_discarding_addition.rs:12-27, default_engine 47-56; subtraction 12-27, 44-53 *)
Definition safe_discard_add (output c1 c2 : list Z) : outcome (result (list Z)) :=
  refuse (neq (lwe_dim output) (lwe_dim c1) || neq (lwe_dim output) (lwe_dim c2)) LweDimensionMismatch
    (run (discard_add p w output c1 c2)).
Definition safe_discard_sub (output c1 c2 : list Z) : outcome (result (list Z)) :=
  refuse (neq (lwe_dim output) (lwe_dim c1) || neq (lwe_dim output) (lwe_dim c2)) LweDimensionMismatch
    (run (discard_sub p w output c1 c2)).
(** lwe_ciphertext_discarding_opposite.rs:12-25, 44-52 *)
Definition safe_discard_opp (output c : list Z) : outcome (result (list Z)) :=
  refuse (neq (lwe_dim c) (lwe_dim output)) LweDimensionMismatch (run (discard_opp w output c)).
(** lwe_ciphertext_cleartext_discarding_multiplication.rs:14-26, 53-64 *)
Definition safe_discard_mul_cleartext (output c : list Z) (s : Z) : outcome (result (list Z)) :=
  refuse (neq (lwe_dim output) (lwe_dim c)) LweDimensionMismatch (run (discard_mul_cleartext p w output c s)).
(** lwe_ciphertext_plaintext_discarding_addition.rs:12-24, 46-55; subtraction 12-24, 47-56 *)
Definition safe_discard_add_plaintext (output c : list Z) (m : Z) : outcome (result (list Z)) :=
  refuse (neq (lwe_dim c) (lwe_dim output)) LweDimensionMismatch (run (discard_add_plaintext w output c m)).
Definition safe_discard_sub_plaintext (output c : list Z) (m : Z) : outcome (result (list Z)) :=
  refuse (neq (lwe_dim c) (lwe_dim output)) LweDimensionMismatch (run (discard_sub_plaintext w output c m)).
(** lwe_ciphertext_fusing_addition.rs:12-24, 42-50, 52-58; subtraction likewise *)
Definition safe_fuse_add (output c : list Z) : outcome (result (list Z)) :=
  refuse (neq (lwe_dim output) (lwe_dim c)) LweDimensionMismatch (run (lwe_update_add p w output c)).
Definition safe_fuse_sub (output c : list Z) : outcome (result (list Z)) :=
  refuse (neq (lwe_dim output) (lwe_dim c)) LweDimensionMismatch (run (lwe_update_sub p w output c)).

(** ** LWE ciphertext vectors: the result is the new list of ciphertexts of the output *)
(** lwe_ciphertext_vector_discarding_addition.rs:13-33, 50-61; subtraction likewise *)
Definition safe_discard_add_vector (output v1 v2 : lwe_vec) : outcome (result (list (list Z))) :=
  refuse (neq (lv_dim output) (lv_dim v1) || neq (lv_dim output) (lv_dim v2)) LweDimensionMismatch
  (refuse (neq (lv_count output) (lv_count v1) || neq (lv_count output) (lv_count v2)) CiphertextCountMismatch
    (run (discard_add_vector p w (lv_cts output) (lv_cts v1) (lv_cts v2)))).
Definition safe_discard_sub_vector (output v1 v2 : lwe_vec) : outcome (result (list (list Z))) :=
  refuse (neq (lv_dim output) (lv_dim v1) || neq (lv_dim output) (lv_dim v2)) LweDimensionMismatch
  (refuse (neq (lv_count output) (lv_count v1) || neq (lv_count output) (lv_count v2)) CiphertextCountMismatch
    (run (discard_sub_vector p w (lv_cts output) (lv_cts v1) (lv_cts v2)))).
(** lwe_ciphertext_vector_fusing_addition.rs:13-29, 45-53; subtraction likewise *)
Definition safe_fuse_add_vector (output v : lwe_vec) : outcome (result (list (list Z))) :=
  refuse (neq (lv_dim v) (lv_dim output)) LweDimensionMismatch
  (refuse (neq (lv_count v) (lv_count output)) CiphertextCountMismatch (run (fuse_add_vector p w (lv_cts output) (lv_cts v)))).
Definition safe_fuse_sub_vector (output v : lwe_vec) : outcome (result (list (list Z))) :=
  refuse (neq (lv_dim v) (lv_dim output)) LweDimensionMismatch
  (refuse (neq (lv_count v) (lv_count output)) CiphertextCountMismatch (run (fuse_sub_vector p w (lv_cts output) (lv_cts v)))).
(** lwe_ciphertext_vector_plaintext_vector_discarding_addition.rs:18-42, 21-37 *)
Definition safe_discard_add_plaintext_vector (output v : lwe_vec) (ms : list Z) : outcome (result (list (list Z))) :=
  refuse (neq (lv_dim output) (lv_dim v)) LweDimensionMismatch
  (refuse (neq (lv_count output) (lv_count v)) CiphertextCountMismatch
  (refuse (neq (lv_count v) (length ms)) PlaintextCountMismatch
    (run (discard_add_plaintext_vector w (lv_cts output) (lv_cts v) ms)))).
(** lwe_ciphertext_vector_cleartext_vector_discarding_multiplication.rs:16-33, 20-38 *)
Definition safe_discard_mul_cleartext_vector (output v : lwe_vec) (ss : list Z) : outcome (result (list (list Z))) :=
  refuse (neq (lv_dim output) (lv_dim v)) LweDimensionMismatch
  (refuse (neq (lv_count v) (length ss)) CleartextCountMismatch
    (run (discard_mul_cleartext_vector p w (lv_cts output) (lv_cts v) ss))).
(** lwe_ciphertext_vector_discarding_affine_transformation.rs:16-33, 60-76 *)
Definition safe_discard_affine (output : list Z) (v : lwe_vec) (weights : list Z) (bias : Z) : outcome (result (list Z)) :=
  refuse (neq (lwe_dim output) (lv_dim v)) LweDimensionMismatch
  (refuse (neq (lv_count v) (length weights)) CleartextCountMismatch
    (run (discard_affine p w output (lv_cts v) weights bias))).

(** ** LWE encryption and decryption *)
Context (gauss : list Z -> option (Z * Z)).
(** lwe_ciphertext_discarding_encryption.rs:14-26, 46-56 *)
Definition safe_discard_encrypt (key output : list Z) (m : Z) (g : egen) : outcome (result (list Z * egen)) :=
  refuse (neq (length key) (lwe_dim output)) LweDimensionMismatch (run (encrypt_lwe p w gauss key output m g)).
(** lwe_ciphertext_vector_discarding_encryption.rs:17-35, 63-73 *)
Definition safe_discard_encrypt_vector (key : list Z) (output : lwe_vec) (ms : list Z) (g : egen) : outcome (result (list (list Z) * egen)) :=
  refuse (neq (length key) (lv_dim output)) LweDimensionMismatch
  (refuse (neq (length ms) (lv_count output)) PlaintextCountMismatch
    (run (encrypt_lwe_list p w gauss key (lv_cts output) ms g))).
(** lwe_ciphertext_discarding_decryption.rs:13-25, 43-52 *)
Definition safe_discard_decrypt (key c : list Z) : outcome (result Z) :=
  refuse (neq (length key) (lwe_dim c)) LweDimensionMismatch (run (decrypt_lwe p w key c)).
(** lwe_ciphertext_decryption.rs:39-45: no check. *)
Definition safe_decrypt (key c : list Z) : outcome (result Z) := run (decrypt_lwe p w key c).
(** lwe_ciphertext_vector_decryption.rs:14-26, 54-61 *)
Definition safe_decrypt_vector (key : list Z) (v : lwe_vec) : outcome (result (list Z)) :=
  refuse (neq (length key) (lv_dim v)) LweDimensionMismatch (run (decrypt_lwe_list p w key (lv_cts v))).
(** lwe_ciphertext_vector_discarding_decryption.rs:16-34, 53-62, 64-71; [output] is the plaintext vector before the call
    (secret/lwe.rs:720-739 decrypt_lwe_list: the lengths are compared in checked builds, then zipped). *)
Definition safe_discard_decrypt_vector (key : list Z) (output : list Z) (v : lwe_vec) : outcome (result (list Z)) :=
  refuse (neq (length key) (lv_dim v)) LweDimensionMismatch
  (refuse (neq (lv_count v) (length output)) PlaintextCountMismatch
    (run (let! _ := ck_dim_eq p (length output) (length (lv_cts v)) in
          ozip_update (fun _ c => decrypt_lwe p w key c) output (lv_cts v)))).
(** lwe_ciphertext_discarding_public_key_encryption.rs:12-24, 58-69; the public key is a vector of encryptions of zero. *)
Definition safe_discard_encrypt_public (pk : lwe_vec) (output : list Z) (m : Z) (sg : bgen) : outcome (result (list Z * bgen)) :=
  refuse (neq (lv_dim pk) (lwe_dim output)) LweDimensionMismatch (run (discard_encrypt_public p w (lv_cts pk) output m sg)).

(** ** Extraction and keyswitches *)
(** lwe_ciphertext_discarding_extraction.rs:15-33, 62-71 *)
Definition safe_discard_extract (output : list Z) (c : glwe_ct) (n : nat) : outcome (result (list Z)) :=
  refuse (neq (lwe_dim output) (g_N c * g_dim c)) SizeMismatch
  (refuse (Nat.leb (g_N c) n) MonomialIndexTooLarge
    (run (fill_lwe_with_sample_extraction w (g_N c) (g_polys c) output n))).
(** lwe_ciphertext_discarding_keyswitch.rs:16-33, 58-67 *)
Definition safe_discard_keyswitch (output c : list Z) (k : ks_key) : outcome (result (list Z)) :=
  refuse (neq (lwe_dim c) (kk_in k)) InputLweDimensionMismatch
  (refuse (neq (lwe_dim output) (kk_out k)) OutputLweDimensionMismatch
    (run (keyswitch_ciphertext p w (kk_b k) (kk_l k) (kk_out k) (kk_blocks k) output c))).
(** lwe_ciphertext_vector_glwe_ciphertext_discarding_packing_keyswitch.rs:23-49, 70-86; private functional 24-54, 76-97 *)
Definition safe_discard_packing_keyswitch (output : glwe_ct) (v : lwe_vec) (k : pks_key) : outcome (result (list (list Z))) :=
  refuse (neq (lv_dim v) (length (pk_blocks k))) InputLweDimensionMismatch
  (refuse (neq (g_dim output) (pk_k k)) OutputGlweDimensionMismatch
  (refuse (neq (g_N output) (pk_N k)) OutputPolynomialSizeMismatch
  (refuse (Nat.ltb (g_N output) (lv_count v)) CiphertextCountMismatch
    (run (packing_keyswitch p w (pk_b k) (pk_l k) (pk_k k) (pk_blocks k) (g_polys output) (lv_cts v)))))).
Definition safe_discard_private_functional_packing_keyswitch (output : glwe_ct) (v : lwe_vec) (k : pks_key) : outcome (result (list (list Z))) :=
  refuse (neq (lv_dim v) (length (pk_blocks k) - 1)) InputLweDimensionMismatch
  (refuse (neq (g_dim output) (pk_k k)) OutputGlweDimensionMismatch
  (refuse (neq (g_N output) (pk_N k)) OutputPolynomialSizeMismatch
  (refuse (Nat.ltb (g_N output) (lv_count v)) CiphertextCountMismatch
    (run (private_functional_packing_keyswitch p w (pk_b k) (pk_l k) (pk_k k) (pk_blocks k) (g_polys output) (lv_cts v)))))).

(** ** GLWE ciphertexts *)
(** glwe_ciphertext_decryption.rs:15-30, 54-61 *)
Definition safe_decrypt_glwe (key : glwe_key) (c : glwe_ct) : outcome (result (list Z)) :=
  refuse (neq (g_dim c) (gk_dim key)) GlweDimensionMismatch
  (refuse (neq (g_N c) (gk_N key)) PolynomialSizeMismatch
    (run (decrypt_glwe p w (gk_polys key) (gk_N key) (g_polys c)))).
(** glwe_ciphertext_discarding_decryption.rs:17-37, 46-55 *)
Definition safe_discard_decrypt_glwe (key : glwe_key) (output : list Z) (c : glwe_ct) : outcome (result (list Z)) :=
  refuse (neq (gk_N key) (g_N c)) PolynomialSizeMismatch
  (refuse (neq (gk_dim key) (g_dim c)) GlweDimensionMismatch
  (refuse (neq (g_N c) (length output)) PlaintextCountMismatch
    (run (discard_decrypt_glwe p w (gk_polys key) output (g_polys c))))).
(** glwe_ciphertext_discarding_encryption.rs:18-38, 54-64 *)
Definition safe_discard_encrypt_glwe (key : glwe_key) (output : glwe_ct) (m : list Z) (g : egen) : outcome (result (list (list Z) * egen)) :=
  refuse (neq (gk_N key) (g_N output)) PolynomialSizeMismatch
  (refuse (neq (gk_dim key) (g_dim output)) GlweDimensionMismatch
  (refuse (neq (gk_N key) (length m)) PlaintextCountMismatch
    (run (encrypt_glwe p w gauss (gk_polys key) (g_polys output) m g)))).
(** glwe_ciphertext_encryption.rs:16-28, 51-59, 61-79 *)
Definition safe_encrypt_glwe (key : glwe_key) (m : list Z) (g : egen) : outcome (result (list (list Z) * egen)) :=
  refuse (neq (gk_N key) (length m)) PlaintextCountMismatch
    (run (encrypt_glwe p w gauss (gk_polys key) (glwe_allocate (S (gk_dim key)) (gk_N key)) m g)).
(** [a % b], which panics when b = 0 *)
Definition usize_rem (a b : nat) : outcome nat := if Nat.eqb b 0 then Panic else Ret (a mod b)%nat.
(** glwe_ciphertext_vector_encryption.rs:16-28, 57-66, 68-87 *)
Definition safe_encrypt_glwe_vector (key : glwe_key) (ms : list Z) (g : egen) : outcome (result (list (list (list Z)) * egen)) :=
  let! r := usize_rem (length ms) (gk_N key) in
  refuse (neq r 0) PlaintextCountMismatch
    (run (encrypt_glwe_list p w gauss (gk_polys key) (gk_N key)
            (repeat (glwe_allocate (S (gk_dim key)) (gk_N key)) (length ms / gk_N key)) ms g)).
(** glwe_ciphertext_vector_decryption.rs:16-31, 57-64 *)
Definition safe_decrypt_glwe_vector (key : glwe_key) (v : glwe_vec) : outcome (result (list Z)) :=
  refuse (neq (gk_dim key) (gv_dim v)) GlweDimensionMismatch
  (refuse (neq (gk_N key) (gv_N v)) PolynomialSizeMismatch
    (run (decrypt_glwe_list p w (gk_polys key) (gk_N key) (gv_cts v)))).
(** glwe_ciphertext_discarding_trivial_encryption.rs:15-23, 44-52 *)
Definition safe_discard_trivially_encrypt_glwe (output : glwe_ct) (m : list Z) : outcome (result (list (list Z))) :=
  refuse (neq (g_N output) (length m)) MismatchedPolynomialSizeAndPlaintextVectorCount
    (run (glwe_fill_with_trivial_encryption p (g_polys output) m)).
(** glwe_ciphertext_vector_trivial_encryption.rs:15-26, 49-67, 69-83; [glwe_size - 1 + 1] is to_glwe_dimension then allocate *)
Definition safe_trivially_encrypt_glwe_vector (glwe_size count : nat) (ms : list Z) : outcome (result (list (list (list Z)))) :=
  let! r := usize_rem (length ms) count in
  refuse (neq r 0) PlaintextCountMismatch
    (run (let N := (length ms / count)%nat in
          glwe_list_fill_with_trivial_encryption p N (repeat (glwe_allocate glwe_size N) count) ms)).

(** ** Key generation *)
(** lwe_secret_key_generation.rs:12-17, 32-38 *)
Definition safe_generate_lwe_secret_key (n : nat) (g : bgen) : outcome (result (list Z * bgen)) :=
  refuse (Nat.eqb n 0) NullLweDimension (run (generate_new_lwe_secret_key n g)).
(** glwe_secret_key_generation.rs:16-33, 36-43 *)
Definition safe_generate_glwe_secret_key (k N : nat) (g : bgen) : outcome (result (list (list Z) * bgen)) :=
  refuse (Nat.eqb k 0) NullGlweDimension
  (refuse (Nat.eqb N 0) NullPolynomialSize
  (refuse (Nat.eqb N 1) SizeOnePolynomial (run (generate_new_glwe_secret_key k N g)))).
(** lwe_to_glwe_secret_key_transformation.rs:17-34, 39-54 *)
Definition safe_transform_lwe_key_to_glwe_key (key : list Z) (N : nat) : outcome (result (list (list Z))) :=
  refuse (Nat.eqb N 0) NullPolynomialSize
  (refuse (Nat.eqb N 1) SizeOnePolynomial
  (refuse (neq (length key mod N) 0) IncompatibleLweDimension (run (Ret (lwe_key_to_glwe_key key N))))).
(** The three decomposition checks of lwe_keyswitch_key_generation.rs:17-35, lwe_bootstrap_key_generation.rs:17-32 and of
    the creations: the product of the two parameters is a plain usize product. *)
Definition refuse_decomposition {A} (b : Z) (l : nat) (rest : outcome (result A)) : outcome (result A) :=
  refuse (b =? 0) NullDecompositionBaseLog
  (refuse (Nat.eqb l 0) NullDecompositionLevelCount
  (let! bl := plain p usize_bits (b * Z.of_nat l) in
   refuse (w <? bl) DecompositionTooLarge rest)).
(** lwe_keyswitch_key_generation.rs:66-88, 90-112 *)
Definition safe_generate_keyswitch_key (b : Z) (l : nat) (input_key output_key : list Z) (g : egen) : outcome (result (list (list (list Z)) * egen)) :=
  refuse_decomposition b l (run (generate_new_lwe_keyswitch_key p w gauss b l input_key output_key g)).
(** lwe_bootstrap_key_generation.rs:54-76, 78-101: the key is allocated with zeroes. *)
Definition safe_generate_bootstrap_key (b : Z) (l : nat) (input_key : list Z) (output_key : glwe_key) (g : egen)
    : outcome (result (list (list (list (list (list Z)))) * egen)) :=
  refuse_decomposition b l
    (run (fill_with_new_bootstrap_key p w gauss (gk_polys output_key) (gk_N output_key) l b
            (repeat (ggsw_allocate (gk_N output_key) (S (gk_dim output_key)) l) (length input_key)) input_key g)).

(** ** Creation from a container *)
(** [ck_dim_div!] (math/tensor/mod.rs:146-163), in checked builds only; the remainder itself panics on 0. *)
Definition ck_dim_div (a b : nat) : outcome unit :=
  match p with Release => Ret tt | Debug => let! r := usize_rem a b in assert_ (Nat.eqb r 0) end.
(** lwe_ciphertext_vector_creation.rs:13-18, 40-57 and crypto/lwe/list.rs:132-139, 246-297 (the chunks of a container
    that lwe_size does not divide are cut by chunks_exact through subtensor_iter, tensor.rs:350-359). *)
Definition safe_create_lwe_vector (container : list Z) (lwe_size : nat) : outcome (result (list Z * nat)) :=
  refuse (Nat.eqb (length container) 0) EmptyContainer
    (run (let! _ := ck_dim_div (length container) lwe_size in Ret (container, lwe_size))).
(** glwe_ciphertext_creation.rs:18-30, 38-59 *)
Definition safe_create_glwe (container : list Z) (N : nat) : outcome (result glwe_ct) :=
  refuse (Nat.eqb (length container) 0) EmptyContainer
  (let! r := usize_rem (length container) N in
   refuse (neq r 0) InvalidContainerSize (run (Ret (GlweCt N (chunks N container))))).
(** glwe_ciphertext_vector_creation.rs:18-31, 48-79; the product is a plain usize product *)
Definition safe_create_glwe_vector (container : list Z) (k N : nat) : outcome (result glwe_vec) :=
  refuse (Nat.eqb (length container) 0) EmptyContainer
  (let! size := plain p usize_bits (Z.of_nat N * Z.of_nat (S k)) in
   let! r := usize_rem (length container) (Z.to_nat size) in
   refuse (neq r 0) InvalidContainerSize
     (run (let! _ := ck_dim_div (length container) (S k) in
           let! _ := ck_dim_div (length container) N in
           Ret (GlweVec N (S k) (map (chunks N) (chunks (Z.to_nat size) container)))))).
(** lwe_keyswitch_key_creation.rs:18-40, 57-95 *)
Definition safe_create_keyswitch_key (container : list Z) (n_out : nat) (b : Z) (l : nat) : outcome (result ks_key) :=
  refuse_decomposition b l
  (let! size := plain p usize_bits (Z.of_nat l * Z.of_nat (S n_out)) in
   let! r := usize_rem (length container) (Z.to_nat size) in
   refuse (neq r 0) InvalidContainerSize
     (run (let! _ := ck_dim_div (length container) (S n_out) in
           let! _ := ck_dim_div (length container) l in
           Ret (KsKey b l n_out (map (chunks (S n_out)) (chunks (Z.to_nat size) container)))))).

(** ** Ranges *)
(** specification/parameters.rs:41-43 *)
Definition is_ordered (r : Z * Z) : bool := snd r <=? fst r.
(** specification lwe_ciphertext_vector_discarding_loading.rs:18-55: the checks; no engine of the repository
    implements the trait. *)
Definition loading_checks (output input : lwe_vec) (output_range input_range : Z * Z) : outcome (result unit) :=
  refuse (neq (lv_dim input) (lv_dim output)) LweDimensionMismatch
  (refuse (negb (is_ordered input_range)) UnorderedInputRange
  (refuse (negb (is_ordered output_range)) UnorderedOutputRange
  (refuse (Z.of_nat (lv_count output) <=? snd output_range) OutOfVectorOutputRange
  (refuse (Z.of_nat (lv_count input) <=? snd input_range) OutOfVectorInputRange
  (let! input_size := plain p usize_bits (snd input_range - fst input_range) in
   let! output_size := plain p usize_bits (snd output_range - fst output_range) in
   refuse (negb (input_size =? output_size)) RangeSizeMismatch (Ret (Ok tt))))))).

(** ** FFT engine *)
Context (B : backend).
(** fft_engine/mod.rs:29-35 perform_fft_checks and usize::is_power_of_two *)
Definition is_power_of_two (n : nat) : bool := negb (Nat.eqb n 0) && (2 ^ Z.log2 (Z.of_nat n) =? Z.of_nat n).
Definition fft_supported (N : nat) : bool := is_power_of_two N && Nat.leb 32 N.

(** lwe_ciphertext_discarding_bootstrap.rs spec 23-43, fft_engine 81-92, 94-115: Fft::new(acc.polynomial_size()) *)
Definition safe_discard_bootstrap (output input : list Z) (acc : glwe_ct) (k : fbsk B) : outcome (result (list Z)) :=
  refuse (negb (fft_supported (g_N acc))) UnsupportedPolynomialSize
  (refuse (neq (lwe_dim input) (length (fb_ggsws k))) InputLweDimensionMismatch
  (refuse (neq (g_N acc) (fb_N k)) AccumulatorPolynomialSizeMismatch
  (refuse (neq (g_dim acc) (fb_k k)) AccumulatorGlweDimensionMismatch
  (refuse (neq (lwe_dim output) (fb_k k * fb_N k)) OutputLweDimensionMismatch
    (run (fft_bootstrap p w B (fb_N k) (fb_b k) (fb_ggsws k) output input (g_polys acc))))))).

(** fft_parallel_engine/lwe_ciphertext_vector_discarding_bootstrap.rs:25-38, 40-62: the ciphertexts are bootstrapped in
    parallel by the safe method above, whose error makes the task panic; the tasks share no data, so that the result
    does not depend on the schedule (C35). *)
Definition unwrap {A} (o : outcome (result A)) : outcome A := let! r := o in match r with Ok a => Ret a | Err _ => Panic end.
Definition safe_discard_bootstrap_vector (output input : lwe_vec) (acc : glwe_vec) (k : fbsk B) : outcome (result (list (list Z))) :=
  refuse (neq (length (fb_ggsws k)) (lv_dim input)) InputLweDimensionMismatch
  (refuse (neq (fb_k k * fb_N k) (lv_dim output)) OutputLweDimensionMismatch
  (refuse (neq (fb_k k) (gv_dim acc)) AccumulatorGlweDimensionMismatch
  (refuse (neq (fb_N k) (gv_N acc)) AccumulatorPolynomialSizeMismatch
  (refuse (neq (gv_count acc) (lv_count input)) AccumulatorCountMismatch
  (refuse (neq (lv_count input) (lv_count output)) CiphertextCountMismatch
  (refuse (negb (fft_supported (gv_N acc))) UnsupportedPolynomialSize
    (run (ozip_update (fun o '(c, a) => unwrap (safe_discard_bootstrap o c (GlweCt (gv_N acc) a) k))
            (lv_cts output) (combine (lv_cts input) (gv_cts acc)))))))))).

(** glwe_ciphertext_ggsw_ciphertext_discarding_external_product.rs spec 14-37, fft_engine 83-100 *)
Definition safe_discard_external_product (c : glwe_ct) (G : fggsw B) (output : glwe_ct) : outcome (result (list (list Z))) :=
  refuse (negb (fft_supported (g_N c))) UnsupportedPolynomialSize
  (refuse (neq (g_N c) (fg_N G) || neq (g_N c) (g_N output)) PolynomialSizeMismatch
  (refuse (neq (g_dim c) (fg_k G) || neq (g_dim c) (g_dim output)) PolynomialSizeMismatch
    (run (discard_external_product p w B (fg_N G) (fg_b G) (g_polys output) (fg_levels G) (g_polys c))))).

(** glwe_ciphertexts_ggsw_ciphertext_fusing_cmux.rs spec 17-38, fft_engine 84-104 *)
Definition safe_cmux (output input : glwe_ct) (G : fggsw B) : outcome (result (list (list Z) * list (list Z))) :=
  refuse (negb (fft_supported (g_N output))) UnsupportedPolynomialSize
  (refuse (neq (g_N input) (g_N output) || neq (g_N output) (fg_N G)) PolynomialSizeMismatch
  (refuse (neq (g_dim input) (g_dim output) || neq (g_dim output) (fg_k G)) GlweDimensionMismatch
    (run (cmux p w B (fg_N G) (fg_b G) (g_polys output) (g_polys input) (fg_levels G))))).

(** lwe_bootstrap_key_conversion.rs 60-67 and lwe_ciphertext... : the whole key is transformed (C29). *)
Definition safe_convert_bootstrap_key (b : Z) (l N k : nat) (bsk : list (list (list (list (list Z))))) : outcome (result (fbsk B)) :=
  refuse (negb (fft_supported N)) UnsupportedPolynomialSize (run (Ret (FBsk b l N k (bsk_forward_fourier B bsk)))).

(** lwe_ciphertext_discarding_bit_extraction.rs spec 30-66, fft_engine 103-133, 135-167 *)
Definition safe_extract_bits (output : lwe_vec) (input : list Z) (k : fbsk B) (ks : ks_key) (count delta_log : Z) : outcome (result (list (list Z))) :=
  refuse (negb (fft_supported (fb_N k))) UnsupportedPolynomialSize
  (refuse (neq (lwe_dim input) (fb_k k * fb_N k)) InputLweDimensionMismatch
  (refuse (neq (lwe_dim input) (kk_in ks)) InputKeyswitchKeyLweDimensionMismatch
  (refuse (neq (lv_dim output) (kk_out ks)) OutputLweDimensionMismatch
  (refuse (negb (Z.of_nat (lv_count output) =? count)) ExtractedBitsCountMismatch
  (refuse (neq (kk_out ks) (length (fb_ggsws k))) KeyDimensionMismatch
  (let! bits := plain p usize_bits (count + delta_log) in
   refuse (w <? bits) NotEnoughBitsToExtract
    (run (fft_extract_bits p w B (fb_N k) (fb_b k) (S (fb_k k)) (kk_b ks) (kk_l ks) (kk_out ks) (fb_ggsws k) (kk_blocks ks)
            delta_log count (lv_cts output) input)))))))).

(** lwe_ciphertext_vector_discarding_circuit_bootstrap_boolean.rs spec 29-72, fft_engine
    lwe_ciphertext_discarding_circuit_bootstrap_boolean.rs:123-141, 143-173; the println! of the checks is not modelled. *)
Definition safe_circuit_bootstrap (output : ggsw_ct) (input : list Z) (delta_log : Z) (k : fbsk B) (pf : cbs_pfpks)
    : outcome (result (list (list (list (list Z))))) :=
  refuse (negb (fft_supported (fb_N k))) UnsupportedPolynomialSize
  (refuse (neq (cp_in pf) (fb_k k * fb_N k)) KeysDimensionMismatched
  (refuse (neq (cp_N pf) (gg_N output)) MismatchedPolynomialSize
  (refuse (neq (cp_k pf) (gg_k output)) MismatchedGlweDimension
  (refuse (neq (length (cp_keys pf)) (gg_l output * S (gg_k output))) MismatchedPFPKSKCount
  (refuse (neq (lwe_dim input) (length (fb_ggsws k))) MismatchedInputLweDimension
    (run (fft_circuit_bootstrap_boolean p w B (fb_N k) (fb_b k) (S (fb_k k)) (fb_ggsws k) (cp_b pf) (cp_l pf) (cp_in pf) (cp_N pf) (cp_k pf)
            (gg_N output) (S (gg_k output)) input (gg_levels output) (gg_b output) delta_log (cp_keys pf)))))))).

(** lwe_ciphertext_vector_discarding_circuit_bootstrap_boolean_vertical_packing.rs spec 41-89, fft_engine 198-235, 237-278:
    the tables are cut in polynomials of the size of the bootstrap key. *)
Definition safe_circuit_bootstrap_vertical_packing (output input : lwe_vec) (k : fbsk B) (luts : list Z) (cbs_l : nat) (cbs_b : Z) (pf : cbs_pfpks)
    : outcome (result (list (list Z))) :=
  refuse (negb (fft_supported (fb_N k))) UnsupportedPolynomialSize
  (refuse (neq (fb_k k * fb_N k) (cp_in pf)) KeysLweDimensionMismatch
  (refuse (neq (lv_dim input) (length (fb_ggsws k))) InputLweDimensionMismatch
  (refuse (neq (lv_dim output) (cp_k pf * cp_N pf)) OutputLweDimensionMismatch
  (let! r := usize_rem (length luts) (cp_N pf * lv_count output) in
   refuse (neq r 0) MalformedLookUpTables
  (refuse (Nat.ltb (length luts / lv_count output) (cp_N pf)) InvalidSmallLookUpTableSize
  (refuse (Nat.eqb cbs_l 0) NullDecompositionBaseLog
  (refuse (Nat.eqb cbs_l 0) NullDecompositionLevelCount
  (let! bl := plain p usize_bits (cbs_b * Z.of_nat cbs_l) in
   refuse (w <? bl) DecompositionTooLarge
    (run (fft_circuit_bootstrap_boolean_vertical_packing p w B (fb_N k) (fb_b k) (S (fb_k k)) (fb_ggsws k)
            (cp_b pf) (cp_l pf) (cp_in pf) (cp_N pf) (cp_k pf) (chunks (fb_N k) luts) (lv_cts output) (lv_cts input) (cp_keys pf) cbs_l cbs_b)))))))))).
End Engines.
