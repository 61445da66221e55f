{
 "claims": [
  {
   "property": "C01",
   "status": "proved",
   "theorems": [
    "C01_construction",
    "C01_stream_is_aes_table",
    "C01_stream_of_reachable"
   ],
   "note": "All starts, bounds, lengths and histories. In builds with overflow checks the run must stay out of the last 112 bytes of the 2^132-byte table, where the code panics."
  },
  {
   "property": "C02",
   "status": "proved",
   "theorems": [
    "C02_bound_is_exact"
   ],
   "note": "Stated for release builds (in checked builds: same via C01, away from the last 112 bytes)."
  },
  {
   "property": "C03",
   "status": "proved",
   "theorems": [
    "C03_fork_concatenation"
   ],
   "note": "For every reachable generator and fork whose product fits a usize and whose end index stays in the table."
  },
  {
   "property": "C04",
   "status": "proved",
   "theorems": [
    "C04_no_keystream_reuse",
    "C04_release_overflow_refuted",
    "C04_end_of_table_refuted"
   ],
   "note": "All histories of at most 2^67 operations. Without overflow checks the fork product must fit a usize: otherwise the property is false (C04_release_overflow_refuted); a generator started near the end of the table wraps (C04_end_of_table_refuted)."
  },
  {
   "property": "C05",
   "status": "proved",
   "theorems": [
    "C05_remaining_bytes",
    "C05_remaining_bytes_ranges",
    "C05_remaining_decreases",
    "C05_documented_formula_refuted"
   ],
   "note": "Exact value for every reachable generator. The documented saturation value is refuted."
  },
  {
   "property": "C06",
   "status": "proved",
   "theorems": [
    "C06_fork_admission",
    "C06_overflow_panics_with_checks",
    "C06_release_overflow_refuted",
    "C06_fork_consumes"
   ],
   "note": "Hypotheses: product fits a usize, end index in the table. Outside them the code accepts too large forks in release builds (refuted theorem)."
  },
  {
   "property": "C07",
   "status": "proved",
   "theorems": [
    "C07_par_fork_is_fork",
    "C07_schedule_independence"
   ],
   "note": "The rayon scheduler is modelled as an arbitrary interleaving of next calls on the children."
  },
  {
   "property": "C08",
   "status": "proved",
   "theorems": [
    "C08_increase",
    "C08_decrease",
    "C08_position_is_faithful",
    "C08_increase_decrease_cancel",
    "C08_increase_additive",
    "C08_order",
    "C08_distance",
    "C08_documented_saturation_refuted",
    "C08_distance_below_saturation_refuted",
    "C08_default_state_panics"
   ],
   "note": "The documented saturation of distance is refuted."
  },
  {
   "property": "C09",
   "status": "proved",
   "theorems": [
    "C09_byte_generator_refinement",
    "C09_uniform_tensor",
    "C09_binary_tensor",
    "C09_ternary",
    "C09_ternary_terminates",
    "C09_lsb_msb",
    "C09_zero_lsb_refuted",
    "C09_gaussian_pair"
   ],
   "note": "Uniform, binary, ternary, n-bit and gaussian draws as functions of the byte stream, on the byte window that C09_byte_generator_refinement proves the AES-CTR generator implements. The floating-point part of a gaussian draw is a parameter. n = 0 bits is refuted. The draws with a probability of zeros (f32 comparison) are not modelled."
  },
  {
   "property": "C10",
   "status": "proved",
   "theorems": [
    "C10_fork_partitions_masks",
    "C10_lwe_list",
    "C10_gsw_level",
    "C10_gsw",
    "C10_ggsw_level",
    "C10_ggsw",
    "C10_bootstrap_key",
    "C10_pfpksk_chunks",
    "C10_cbs_pfpksk_list",
    "C10_refused_fork_loses_masks_refuted",
    "C10_zero_dimension_refused"
   ],
   "note": "All eight fork entry points. Byte counts must fit a usize. A refused fork that loses mask bytes is exhibited (refuted)."
  },
  {
   "property": "C11",
   "status": "proved",
   "theorems": [
    "C11_closest_representable",
    "C11_representable_fixed",
    "C11_ties_round_up",
    "C11_full_width_panics_with_checks",
    "C11_full_width_refuted"
   ],
   "note": "For b*l < w. With b*l = w, which the constructor accepts, checked builds panic and release builds return a wrong value (refuted)."
  },
  {
   "property": "C12",
   "status": "proved",
   "theorems": [
    "C12_recompose_decompose",
    "C12_recompose_advanced"
   ],
   "note": ""
  },
  {
   "property": "C13",
   "status": "proved",
   "theorems": [
    "C13_digits",
    "C13_documented_range_refuted"
   ],
   "note": "The half-open digit range of the documentation is refuted; the closed range is proved."
  },
  {
   "property": "C14",
   "status": "proved",
   "theorems": [
    "C14_tensor_is_elementwise",
    "C14_tensor_recompose",
    "C14_fft_copy_agrees"
   ],
   "note": "Both the tensor iterator of the commons module and the lending iterator of the FFT backend."
  },
  {
   "property": "C15",
   "status": "proved",
   "theorems": [
    "C15_wrapping_mul",
    "C15_add_mul",
    "C15_sub_mul",
    "C15_binary_no_overflow",
    "C15_checked_ternary_refuted",
    "C15_add_multisum",
    "C15_sub_multisum",
    "C15_product_in_quotient_ring"
   ],
   "note": "Checked builds: the accumulating products multiply coefficients with a plain *; they are correct when no product overflows (e.g. binary keys) and panic otherwise (refuted for ternary keys)."
  },
  {
   "property": "C16",
   "status": "proved",
   "theorems": [
    "C16_karatsuba_is_schoolbook",
    "C16_small_sizes_refuted"
   ],
   "note": "All N = 64*2^m. For powers of two below 64 the recursion never ends: proved (C16_small_sizes_refuted)."
  },
  {
   "property": "C17",
   "status": "proved",
   "theorems": [
    "C17_monomial_mul",
    "C17_monomial_div",
    "C17_inverse",
    "C17_full_turns",
    "C17_signed_permutation"
   ],
   "note": ""
  },
  {
   "property": "C18",
   "status": "proved",
   "theorems": [
    "C18_decryption_is_phase",
    "C18_encrypt_decrypt",
    "C18_encryption_succeeds",
    "C18_decoding",
    "C18_trivial",
    "C18_checked_ternary_refuted",
    "C18_generated_keys_are_safe"
   ],
   "note": "Release builds: every key. Checked builds: binary keys (what the engines generate); for ternary keys the plain product panics (refuted)."
  },
  {
   "property": "C19",
   "status": "proved",
   "theorems": [
    "C19_addition",
    "C19_subtraction",
    "C19_opposite",
    "C19_cleartext_multiplication",
    "C19_plaintext_addition",
    "C19_affine"
   ],
   "note": "All operations, all ciphertexts and keys, both builds."
  },
  {
   "property": "C20",
   "status": "proved",
   "theorems": [
    "C20_discarding_operations",
    "C20_discarding_values",
    "C20_affine_accumulates",
    "C20_affine_refuted",
    "C20_discarding_vectors",
    "C20_discarding_plaintext_vector",
    "C20_discarding_cleartext_vector"
   ],
   "note": "LWE and LWE-vector operations. False for the discarding affine transformation (refuted), for which the accumulation is characterised."
  },
  {
   "property": "C21",
   "status": "proved",
   "theorems": [
    "C21_vector_encryption",
    "C21_parallel_vector_encryption",
    "C21_parallel_same_masks",
    "C21_parallel_same_bodies_refuted"
   ],
   "note": "The claim that parallel and sequential encryption give the same bodies would be false (refuted): they read the noise generator at different places."
  },
  {
   "property": "C22",
   "status": "proved",
   "theorems": [
    "C22_public_encryption",
    "C22_generated_public_key"
   ],
   "note": ""
  },
  {
   "property": "C23",
   "status": "proved",
   "theorems": [
    "C23_decryption_is_phase",
    "C23_encrypt_decrypt",
    "C23_encryption_succeeds",
    "C23_zero_encryption",
    "C23_trivial",
    "C23_vector_encryption",
    "C23_vector_trivial",
    "C23_generated_keys_are_safe",
    "C23_checked_ternary_refuted"
   ],
   "note": "GLWE vectors and single ciphertexts, zero and trivial encryptions; the Gaussian sampler is an oracle returning words. Checked builds need binary keys (C23_checked_ternary_refuted)."
  },
  {
   "property": "C24",
   "status": "proved",
   "theorems": [
    "C24_extraction_phase",
    "C24_extraction_decrypts",
    "C24_key_transformations_inverse",
    "C24_key_transformations_inverse"
   ],
   "note": "Also the two key transformations are inverse."
  },
  {
   "property": "C25",
   "status": "proved",
   "theorems": [
    "C25_rows",
    "C25_succeeds",
    "C25_trivial_fill",
    "C25_trivial",
    "C25_trivial_fill_keeps_bodies_refuted",
    "C25_noisy_trivial",
    "C25_bootstrap_key"
   ],
   "note": "Real, trivial and noisy trivial encryptions and bootstrap keys; each row's mask and noise come from its own generator slice. Writing a trivial encryption over a used ciphertext keeps the old bodies (refuted theorem)."
  },
  {
   "property": "C26",
   "status": "proved",
   "theorems": [
    "C26_external_product",
    "C26_error_bound",
    "C26_discarding_ignores_output",
    "C26_discarding",
    "C26_exact_backend_ok",
    "C26_ntt_external_product"
   ],
   "note": "Stated for every FFT backend that computes the sum of products up to a per-coefficient error E (the float FFT itself is a parameter); an exact backend is shown to meet the hypothesis with E = 0. The NTT backend is modelled in full (no parameter): the C..._ntt_ theorems give the same guarantees with an explicit error, for bases whose digits survive the modulus switch (up to 2^14 / 2^47 for the shipped moduli)."
  },
  {
   "property": "C27",
   "status": "proved",
   "theorems": [
    "C27_cmux",
    "C27_ntt_cmux"
   ],
   "note": "Same backend parameter as C26; the bound is the C26 bound at m = 0 or m = 1. The NTT backend is modelled in full (no parameter): the C..._ntt_ theorems give the same guarantees with an explicit error, for bases whose digits survive the modulus switch (up to 2^14 / 2^47 for the shipped moduli)."
  },
  {
   "property": "C28",
   "status": "proved",
   "theorems": [
    "C28_modulus_switch",
    "C28_rounding",
    "C28_too_many_luts",
    "C28_exponent"
   ],
   "note": "Exact rounding, range, padding, offset and the composed exponent; PolynomialSize::log2 is modelled by the integer ceiling of the logarithm (the code uses f64 log2)."
  },
  {
   "property": "C29",
   "status": "proved",
   "theorems": [
    "C29_blind_rotation",
    "C29_bootstrap",
    "C29_lookup",
    "C29_generated_key",
    "C29_ntt_blind_rotation",
    "C29_ntt_bootstrap",
    "C29_ntt_lookup",
    "C29_ntt_shipped"
   ],
   "note": "For every backend meeting the C26 error hypothesis; key generation is shown to produce keys meeting the hypotheses. The NTT backend is modelled in full (no parameter): the C..._ntt_ theorems give the same guarantees with an explicit error, for bases whose digits survive the modulus switch (up to 2^14 / 2^47 for the shipped moduli)."
  },
  {
   "property": "C30",
   "status": "proved",
   "theorems": [
    "C30_keyswitch",
    "C30_error_bound",
    "C30_ignores_output",
    "C30_vector",
    "C30_generated_key",
    "C30_end_to_end"
   ],
   "note": "Phase of the key switch output is the input phase with the mask rounded to the gadget grid, minus digit-weighted key noise; bounds, generated keys and vectors included."
  },
  {
   "property": "C31",
   "status": "proved",
   "theorems": [
    "C31_keyswitch",
    "C31_packing",
    "C31_error_bound",
    "C31_ignores_output",
    "C31_generated_key",
    "C31_end_to_end"
   ],
   "note": "Exact phase of the packed ciphertext, per-coefficient bounds, generated keys, end to end, independence of the previous output."
  },
  {
   "property": "C32",
   "status": "proved",
   "theorems": [
    "C32_keyswitch",
    "C32_packing",
    "C32_error_bound",
    "C32_ignores_output",
    "C32_generated_key",
    "C32_circuit_bootstrap_keys",
    "C32_keyswitch_error_bound"
   ],
   "note": "Exact phase, bound, generated keys (each block from its own fork child) and the circuit-bootstrap key list."
  },
  {
   "property": "C33",
   "status": "proved",
   "theorems": [
    "C33_lwe",
    "C33_lwe_list",
    "C33_keyswitch_key",
    "C33_glwe",
    "C33_glwe_list",
    "C33_ggsw",
    "C33_bootstrap_key"
   ],
   "note": "Seeded then expanded equals the ordinary encryption, as outcomes, for LWE ciphertexts, lists, keyswitching keys, GLWE ciphertexts, lists, GGSW ciphertexts and bootstrap keys."
  },
  {
   "property": "C34",
   "status": "proved",
   "theorems": [
    "C34_ggsw",
    "C34_bootstrap_key",
    "C34_seeded_bootstrap_key",
    "C34_pfpks_key",
    "C34_circuit_bootstrap_keys",
    "C34_lwe_vector",
    "C34_vector_bootstrap"
   ],
   "note": "rayon tasks as an interleaving semantics (forks of nodes and row tasks in any order, panic of any task ends the run); every schedule terminates with the sequential result, for all inputs, well-formed or not; also LWE vector encryption and vector bootstrap"
  },
  {
   "property": "C35",
   "status": "proved",
   "theorems": [
    "C35_backward_undoes_forward",
    "C35_forward_undoes_backward",
    "C35_history_independent"
   ],
   "note": "forward and backward are inverse of each other on every list of residues, for every table of powers of a root psi with psi^N = -1 (C37: the shipped tables are such), whatever the buffers held before"
  },
  {
   "property": "C36",
   "status": "proved",
   "theorems": [
    "C36_forward_evaluates",
    "C36_sum_of_products"
   ],
   "note": "forward evaluates at the odd powers of psi; backward of accumulated pointwise products is the sum of the negacyclic products"
  },
  {
   "property": "C37",
   "status": "proved",
   "theorems": [
    "C37_shipped_tables",
    "C37_shipped_transforms",
    "C37_shipped_products"
   ],
   "note": "all twelve shipped tables, transcribed by tools/gen_ntt_tables.py and checked by a verified checker: powers of a primitive 2N-th root in bit-reversed order, inverses, inverse of N"
  },
  {
   "property": "C38",
   "status": "proved",
   "theorems": [
    "C38_into",
    "C38_from",
    "C38_residue_round_trip",
    "C38_word_round_trip",
    "C38_word_round_trip_refuted",
    "C38_small_exact",
    "C38_shipped_small"
   ],
   "note": "identity of the word round trip is refuted; the exact behaviour (at most one unit) is proved"
  },
  {
   "property": "C39",
   "status": "proved",
   "theorems": [
    "C39_tree",
    "C39_cmux_tree"
   ],
   "note": "The memory-optimised tree equals the plain recursive selection tree for every shape-preserving external product (C39_tree); with GGSW encryptions of the selector bits the FFT tree returns an encryption of the selected table with error at most r external product errors (C39_cmux_tree)."
  },
  {
   "property": "C40",
   "status": "proved",
   "theorems": [
    "C40_vertical_packing",
    "C40_table_lookup",
    "C40_narrow_scalars_refuted"
   ],
   "note": "Vertical packing with 64-bit scalars for every number of tables 2^r and every number of remaining bits; with narrower scalars the table count underflows, so that checked builds panic and optimised builds only support one polynomial (C40_narrow_scalars_refuted)."
  },
  {
   "property": "C41",
   "status": "proved",
   "theorems": [
    "C41_extract_bits",
    "C41_decoded",
    "C41_delta_zero_refuted",
    "C41_generated_key"
   ],
   "note": "Bit extraction through the whole FFT pipeline, for every backend meeting its error bound, with explicit noise; delta_log = 0 with several bits panics in checked builds (C41_delta_zero_refuted)."
  },
  {
   "property": "C42",
   "status": "proved",
   "theorems": [
    "C42_homomorphic_shift",
    "C42_circuit_bootstrap",
    "C42_circuit_bootstrap_vertical_packing",
    "C42_generated_keys",
    "C42_full_decomposition_refuted"
   ],
   "note": "Circuit bootstrap to GGSW and circuit bootstrap + vertical packing, with explicit noise; base_log * level = word size panics in checked builds (C42_full_decomposition_refuted)."
  },
  {
   "property": "C43",
   "status": "proved",
   "theorems": [
    "C43_bootstrap_checks",
    "C43_vector_bootstrap_checks",
    "C43_external_product_checks",
    "C43_cmux_checks",
    "C43_bit_extraction_checks",
    "C43_circuit_bootstrap_checks",
    "C43_vertical_packing_checks",
    "C43_external_product",
    "C43_cmux",
    "C43_bootstrap",
    "C43_vector_bootstrap",
    "C43_bit_extraction",
    "C43_circuit_bootstrap",
    "C43_vertical_packing",
    "C43_circuit_bootstrap_count_refuted",
    "C43_vertical_packing_checks_refuted",
    "C43_lowest_bit_refuted",
    "C43_external_product_error_refuted",
    "C43_extraction",
    "C43_keyswitch",
    "C43_packing_keyswitch",
    "C43_private_functional_packing_keyswitch",
    "C43_glwe_decryption",
    "C43_glwe_vector_decryption",
    "C43_glwe_encryption",
    "C43_glwe_vector_encryption",
    "C43_glwe_trivial_encryption",
    "C43_glwe_vector_trivial_encryption",
    "C43_secret_key_generation",
    "C43_key_transformation",
    "C43_evaluation_key_generation",
    "C43_generated_keyswitch",
    "C43_glwe_creation",
    "C43_glwe_vector_creation",
    "C43_keyswitch_key_creation",
    "C43_full_decomposition_refuted",
    "C43_decomposition_product_refuted",
    "C43_null_sizes_refuted",
    "C43_range_order_refuted",
    "C43_addition",
    "C43_subtraction",
    "C43_unary",
    "C43_vector_addition",
    "C43_vector_fusing",
    "C43_plaintext_vector_addition",
    "C43_cleartext_vector_multiplication",
    "C43_affine",
    "C43_decryption",
    "C43_vector_decryption",
    "C43_encryption",
    "C43_vector_encryption",
    "C43_public_key_encryption",
    "C43_decryption_dimension_refuted",
    "C43_cleartext_vector_count_refuted"
   ],
   "note": "Every safe entry point modelled in EngineModel.v either refuses with an error whose documented meaning holds or returns the specified result, without panicking, on well-formed entities. Where the checks are missing or wrong the full statement is false of the code: see the _refuted theorems (unchecked LWE decryption, cleartext vector output count, b*l = word size, product overflow, null sizes, reversed range order, circuit bootstrap key count, vertical packing checks, lowest bit extraction, external product error name)."
  },
  {
   "property": "C44",
   "status": "proved",
   "theorems": [
    "C44_addition",
    "C44_negation",
    "C44_cleartext_multiplication",
    "C44_plaintext_addition_effect",
    "C44_plaintext_addition_refuted"
   ],
   "note": "Addition, negation and cleartext multiplication proved for every memory with the frame condition; plaintext addition is refuted with its exact effect and the exact condition under which it is right."
  },
  {
   "property": "C45",
   "status": "proved",
   "theorems": [
    "C45_valid_parameters_refuted",
    "C45_checked_builds_refuted",
    "C45_writes_only_output"
   ],
   "note": "The claim is false of the code: proved that every parameter set with number_of_bits + delta_log <= 64 is refused in both builds and that checked builds never succeed."
  },
  {
   "property": "C46",
   "status": "proved",
   "theorems": [
    "C46_unix_formula",
    "C46_unix_distinct",
    "C46_unix_device_bijective",
    "C46_unix_secret_bijective",
    "C46_unix_total",
    "C46_rdseed",
    "C46_rdseed_injective",
    "C46_deterministic_seeder",
    "C46_engine_creation",
    "C46_parallel_engine_creation",
    "C46_same_seed_engines_refuted"
   ],
   "note": "UNIX seeder (formula, distinctness, bijectivity in device bytes and secret), rdseed seeder, deterministic seeder and creation of both default engines; two engines made from one seed share a stream (C46_same_seed_engines_refuted)."
  },
  {
   "property": "C47",
   "status": "proved",
   "theorems": [
    "C47_default_round_trip",
    "C47_default_tables",
    "C47_fft_round_trip",
    "C47_version_checked",
    "C47_unsupported_version",
    "C47_no_panic",
    "C47_accepted_bytes",
    "C47_truncated",
    "C47_kind_unchecked_refuted",
    "C47_width_unchecked_refuted",
    "C47_shape_unchecked_refuted",
    "C47_fft_panics_refuted"
   ],
   "note": "bincode's fixed-width little-endian encoding and concrete-fft's Fourier polynomial encoding are modelled from their documented formats. Proved: round trip of all 66+4 entities, version check, refusal of truncated bytes, no panic and canonical acceptance (default engine). Not protected, shown by refutations: kind, word size and shape of the entity are not checked, and the FFT engine panics on some bytes."
  },
  {
   "property": "C48",
   "status": "proved",
   "theorems": [
    "C48_keyswitch",
    "C48_key_conversion",
    "C48_bootstrap"
   ],
   "note": "FFT as a backend parameter with an error bound; memory is a function from word addresses."
  },
  {
   "property": "C49",
   "status": "proved",
   "theorems": [
    "C49_checked_builds_refuted",
    "C49_last_key_unread_refuted",
    "C49_vertical_packing"
   ],
   "note": "Refuted for the key count the operation needs (two theorems); correctness proved for the calls whose slice covers the keys (one mask polynomial, count four)."
  },
  {
   "property": "C50",
   "status": "proved",
   "theorems": [
    "C50_round_trip",
    "C50_decode_in_interval",
    "C50_rounding_encoder",
    "C50_creation",
    "C50_creation_center",
    "C50_small_radius_refuted",
    "C50_outside_refused",
    "C50_above_max_refuted",
    "C50_sizes_unchecked_refuted",
    "C50_vector_creation",
    "C50_vector_creation_center",
    "C50_vector_encoding",
    "C50_vector_decoding",
    "C50_decoding_count_unchecked_refuted",
    "C50_real_round_trip"
   ],
   "note": "Doubles modelled as rationals rounded to 53 bits with unbounded exponent. Four refuted corner cases are theorems with suffix _refuted."
  },
  {
   "property": "C51",
   "status": "proved",
   "theorems": [
    "C51_aesni_is_aes",
    "C51_neon_is_aes",
    "C51_software_is_aes",
    "C51_round_keys",
    "C51_blocks_distinct",
    "C51_generator_stream"
   ],
   "note": "Processor instructions modelled after the Intel and ARM manuals; the aes crate of the software cipher is taken to be FIPS 197."
  },
  {
   "property": "C52",
   "status": "proved",
   "theorems": [
    "C52_external_product",
    "C52_bootstrap",
    "C52_bit_extraction",
    "C52_circuit_bootstrap",
    "C52_vertical_packing",
    "C52_conversions",
    "C52_buffers",
    "C52_vertical_packing_sizes_refuted"
   ],
   "note": "Proved for all sizes, data and addresses; refuted when the packing keys have a larger GLWE size than the bootstrap key, which the engine checks accept (C52_vertical_packing_sizes_refuted)."
  },
  {
   "property": "C53",
   "status": "proved",
   "theorems": [
    "C53_rows",
    "C53_succeeds",
    "C53_checked_large_message_panics",
    "C53_parallel",
    "C53_trivial",
    "C53_external_product",
    "C53_error_bound",
    "C53_cmux",
    "C53_end_to_end"
   ],
   "note": "Includes the finding that GSW encryption panics in checked builds for messages of 2^base_log and more (plain product with the level scale)."
  },
  {
   "property": "C54",
   "status": "proved",
   "theorems": [
    "C54_f64_to_i64",
    "C54_f64_to_i64_large",
    "C54_i64_to_f64",
    "C54_avx512_f64_to_i64_refuted",
    "C54_forward",
    "C54_forward_torus",
    "C54_backward_add",
    "C54_avx512_backward_refuted",
    "C54_backward",
    "C54_same_on_every_machine",
    "C54_small_sizes_refuted"
   ],
   "note": "all loops and both casts; AVX-512 f64->i64 and sizes below four coefficients refuted"
  },
  {
   "property": "C55",
   "status": "proved",
   "theorems": [
    "C55_backend",
    "C55_products",
    "C55_external_product",
    "C55_bootstrap",
    "C55_twisties"
   ],
   "note": "The accuracy of the transform of the crate concrete-fft and of f64::sin_cos are parameters of the theorems; doubles have an unbounded exponent range."
  },
  {
   "property": "C56",
   "status": "proved",
   "theorems": [
    "C56_same_plan",
    "C56_created_once",
    "C56_no_other_panic",
    "C56_served",
    "C56_no_deadlock",
    "C56_termination",
    "C56_completes"
   ],
   "note": "All interleavings of any number of threads; the semantics of RwLock and OnceCell are assumed as documented."
  },
  {
   "property": "C57",
   "status": "proved",
   "theorems": [
    "C57_fft_circuit",
    "C57_circuit",
    "C57_ntt_circuit"
   ],
   "note": "Any circuit; any backend of bounded error, the NTT backend and the FFT backend. Worst-case noise bounds. C57_fft_circuit uses the Reals axioms (as C55)."
  },
  {
   "property": "C58",
   "status": "proved",
   "theorems": [
    "C58_upload",
    "C58_upload_any_count_refuted",
    "C58_round_trip",
    "C58_round_trip_any_count_refuted",
    "C58_fewer_samples_than_gpus_refuted",
    "C58_opposite",
    "C58_addition",
    "C58_plaintext_addition",
    "C58_cleartext_multiplication",
    "C58_opposite_as_cpu",
    "C58_addition_as_cpu",
    "C58_plaintext_addition_as_cpu",
    "C58_cleartext_multiplication_as_cpu"
   ],
   "note": "host splitting, upload, download and the four linear operations on any number of GPUs, for every thread order; three refutations for counts the number of GPUs does not divide"
  },
  {
   "property": "C59",
   "status": "proved",
   "theorems": [
    "C59_block",
    "C59_block_multiple_of_128",
    "C59_block_any_dimension_refuted",
    "C59_vector"
   ],
   "note": "The vector theorem and the block theorems give the full statement, including the exact wrong body; C59_block_any_dimension_refuted shows the race."
  },
  {
   "property": "C60",
   "status": "proved",
   "theorems": [
    "C60_real_product",
    "C60_table",
    "C60_direct",
    "C60_product",
    "C60_batch",
    "C60_without_barriers_refuted"
   ],
   "note": "Block of threads with an interleaved scheduler; doubles are elements of a commutative ring (exact arithmetic), rounding is not modelled; the constants are instantiated over the reals and the table of the program is shown close to them."
  },
  {
   "property": "C61",
   "status": "proved",
   "theorems": [
    "C61_backend",
    "C61_ciphertext_rounding",
    "C61_words_modulus",
    "C61_modulus_switch_refuted",
    "C61_lookup",
    "C61_amortized"
   ],
   "note": "The kernel of one block under every schedule; the arithmetic on doubles is exact (any ring for C61_amortized, the reals for C61_lookup), conversions of integers to double are rounded as in the program."
  },
  {
   "property": "C62",
   "status": "proved",
   "theorems": [
    "C62_lookup",
    "C62_low_latency",
    "C62_levels_refuted"
   ],
   "note": "one level of decomposition: any number of ciphertexts, every schedule of blocks and threads; over the reals C62_lookup gives the decryption with explicit error; C62_levels_refuted exhibits the race between levels"
  },
  {
   "property": "C63",
   "status": "proved",
   "theorems": [
    "C63_amortized_layout",
    "C63_low_latency_layout",
    "C63_join_buffer",
    "C63_partial_overlap_refuted"
   ],
   "note": "three modes of the amortized kernel, two of the low latency kernel, exchange buffer; C63_partial_overlap_refuted: in PARTIALSM mode the last block's rotated accumulator overlaps the exchange buffer for all parameters"
  },
  {
   "property": "C64",
   "status": "proved",
   "theorems": [
    "C64_fresh_seeds",
    "C64_history",
    "C64_decodes",
    "C64_progress"
   ],
   "note": "39 engine calls; vectors of LWE and GLWE ciphertexts, bootstraps and GGSW ciphertexts are not among the commands (see C20-C31, C57)"
  },
  {
   "property": "C65",
   "status": "proved",
   "theorems": [
    "C65_key_coefficient",
    "C65_key_times_key",
    "C65_key_squared",
    "C65_key_squared_mean",
    "C65_relinearization_base_refuted",
    "C65_dispersion",
    "C65_modular",
    "C65_addition",
    "C65_several_additions",
    "C65_weighted_sum",
    "C65_multiplication",
    "C65_polynomial_multiplication",
    "C65_multiplication_overflow_refuted"
   ],
   "note": "f64 is the real line; the relinearization claim and the claim for large integers are false of the code and stated as refutations"
  },
  {
   "property": "C66",
   "status": "proved",
   "theorems": [
    "C66_keyswitch",
    "C66_keyswitch_tail",
    "C66_modulus_switch",
    "C66_packing",
    "C66_private_functional"
   ],
   "note": "Against the integer code: estimates bound (keyswitch, exact for one level) or equal (modulus switch, binary key) the variance over all masks, keys and noises. f64 read as reals; uniform independent masks are hypotheses."
  },
  {
   "property": "C67",
   "status": "proved",
   "theorems": [
    "C67_external_product",
    "C67_external_product_refuted",
    "C67_cmux"
   ],
   "note": "Estimates of the external product and cmux compared, coefficient by coefficient, with the exact variance of the noise the modelled code adds; too low for binary keys with k = 1 (refutation)."
  },
  {
   "property": "C68",
   "status": "proved",
   "theorems": [
    "C68_not",
    "C68_decrypts",
    "C68_worst_case",
    "C68_gate",
    "C68_gate_any_dimension_refuted",
    "C68_gate_wrong_refuted",
    "C68_circuit"
   ],
   "note": "every schedule, array length and circuit depth when the LWE dimension is a multiple of 128; refuted otherwise"
  },
  {
   "property": "C69",
   "status": "proved",
   "theorems": [
    "C69_any_dimension_refuted",
    "C69_delta_zero_refuted",
    "C69_extract_bits",
    "C69_decrypts"
   ],
   "note": "words of 32 and 64 bits, one level of decomposition, every schedule; the output dimension is a multiple of 128 (refuted otherwise)"
  },
  {
   "property": "C70",
   "status": "proved",
   "theorems": [
    "C70_kernel",
    "C70_one_ciphertext",
    "C70_any_size_refuted",
    "C70_vector_refuted",
    "C70_fewer_than_gpus_refuted",
    "C70_other_gpus_refuted"
   ],
   "note": "The positive part is proved for one ciphertext on one GPU and for the kernel; the calls for which the property fails are refuted."
  },
  {
   "property": "C71",
   "status": "proved",
   "theorems": [
    "C71_as_cpu",
    "C71_many_inputs_refuted",
    "C71_circuit_bootstrap"
   ],
   "note": "C71_as_cpu: the words written are those of the CPU circuit bootstrap for every order and buffer content; C71_circuit_bootstrap: they are GGSW ciphertexts of the low bits with bounded noise; C71_many_inputs_refuted: above 65535 rows of blocks nothing is written. C71_case meets the hypotheses with 64-bit words, polynomials of 256 coefficients and two inputs."
  }
 ]
}