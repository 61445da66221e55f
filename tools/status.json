{
 "C01": {
  "status": "proved",
  "note": "All starts, bounds, lengths and histories. In builds with overflow checks the run must stay out of the last 112 bytes of the 2^132-byte table, where the code panics."
 },
 "C02": {
  "status": "proved",
  "note": "Stated for release builds (in checked builds: same via C01, away from the last 112 bytes)."
 },
 "C03": {
  "status": "proved",
  "note": "For every reachable generator and fork whose product fits a usize and whose end index stays in the table."
 },
 "C04": {
  "status": "proved",
  "note": "All histories of at most 2^67 operations. Without overflow checks the fork product must fit a usize: otherwise the property is false (C04_release_overflow_refuted); a generator started near the end of the table wraps (C04_end_of_table_refuted)."
 },
 "C05": {
  "status": "proved",
  "note": "Exact value for every reachable generator. The documented saturation value is refuted."
 },
 "C06": {
  "status": "proved",
  "note": "Hypotheses: product fits a usize, end index in the table. Outside them the code accepts too large forks in release builds (refuted theorem)."
 },
 "C07": {
  "status": "proved",
  "note": "The rayon scheduler is modelled as an arbitrary interleaving of next calls on the children."
 },
 "C08": {
  "status": "proved",
  "note": "The documented saturation of distance is refuted."
 },
 "C09": {
  "status": "proved",
  "note": "Uniform, binary, ternary, n-bit and gaussian draws as functions of the byte stream, on the byte window that C09_byte_generator_refinement proves the AES-CTR generator implements. The floating-point part of a gaussian draw is a parameter. n = 0 bits is refuted. The draws with a probability of zeros (f32 comparison) are not modelled."
 },
 "C10": {
  "status": "proved",
  "note": "All eight fork entry points. Byte counts must fit a usize. A refused fork that loses mask bytes is exhibited (refuted)."
 },
 "C11": {
  "status": "proved",
  "note": "For b*l < w. With b*l = w, which the constructor accepts, checked builds panic and release builds return a wrong value (refuted)."
 },
 "C12": {
  "status": "proved",
  "note": ""
 },
 "C13": {
  "status": "proved",
  "note": "The half-open digit range of the documentation is refuted; the closed range is proved."
 },
 "C14": {
  "status": "proved",
  "note": "Both the tensor iterator of the commons module and the lending iterator of the FFT backend."
 },
 "C15": {
  "status": "proved",
  "note": "Checked builds: the accumulating products multiply coefficients with a plain *; they are correct when no product overflows (e.g. binary keys) and panic otherwise (refuted for ternary keys)."
 },
 "C16": {
  "status": "proved",
  "note": "All N = 64*2^m. For powers of two below 64 the recursion never ends: proved (C16_small_sizes_refuted)."
 },
 "C17": {
  "status": "proved",
  "note": ""
 },
 "C18": {
  "status": "proved",
  "note": "Release builds: every key. Checked builds: binary keys (what the engines generate); for ternary keys the plain product panics (refuted)."
 },
 "C19": {
  "status": "proved",
  "note": "All operations, all ciphertexts and keys, both builds."
 },
 "C20": {
  "status": "proved",
  "note": "LWE and LWE-vector operations. False for the discarding affine transformation (refuted), for which the accumulation is characterised."
 },
 "C21": {
  "status": "proved",
  "note": "The claim that parallel and sequential encryption give the same bodies would be false (refuted): they read the noise generator at different places."
 },
 "C22": {
  "status": "proved",
  "note": ""
 },
 "C23": {
  "status": "proved",
  "note": "GLWE vectors and single ciphertexts, zero and trivial encryptions; the Gaussian sampler is an oracle returning words. Checked builds need binary keys (C23_checked_ternary_refuted)."
 },
 "C24": {
  "status": "proved",
  "note": "Also the two key transformations are inverse."
 },
 "C25": {
  "status": "proved",
  "note": "Real, trivial and noisy trivial encryptions and bootstrap keys; each row's mask and noise come from its own generator slice. Writing a trivial encryption over a used ciphertext keeps the old bodies (refuted theorem)."
 },
 "C26": {
  "status": "proved",
  "note": "Stated for every FFT backend that computes the sum of products up to a per-coefficient error E (the float FFT itself is a parameter); an exact backend is shown to meet the hypothesis with E = 0. The NTT backend is modelled in full (no parameter): the C..._ntt_ theorems give the same guarantees with an explicit error, for bases whose digits survive the modulus switch (up to 2^14 / 2^47 for the shipped moduli)."
 },
 "C27": {
  "status": "proved",
  "note": "Same backend parameter as C26; the bound is the C26 bound at m = 0 or m = 1. The NTT backend is modelled in full (no parameter): the C..._ntt_ theorems give the same guarantees with an explicit error, for bases whose digits survive the modulus switch (up to 2^14 / 2^47 for the shipped moduli)."
 },
 "C28": {
  "status": "proved",
  "note": "Exact rounding, range, padding, offset and the composed exponent; PolynomialSize::log2 is modelled by the integer ceiling of the logarithm (the code uses f64 log2)."
 },
 "C29": {
  "status": "proved",
  "note": "For every backend meeting the C26 error hypothesis; key generation is shown to produce keys meeting the hypotheses. The NTT backend is modelled in full (no parameter): the C..._ntt_ theorems give the same guarantees with an explicit error, for bases whose digits survive the modulus switch (up to 2^14 / 2^47 for the shipped moduli)."
 },
 "C30": {
  "status": "proved",
  "note": "Phase of the key switch output is the input phase with the mask rounded to the gadget grid, minus digit-weighted key noise; bounds, generated keys and vectors included."
 },
 "C31": {
  "status": "proved",
  "note": "Exact phase of the packed ciphertext, per-coefficient bounds, generated keys, end to end, independence of the previous output."
 },
 "C32": {
  "status": "proved",
  "note": "Exact phase, bound, generated keys (each block from its own fork child) and the circuit-bootstrap key list."
 },
 "C33": {
  "status": "proved",
  "note": "Seeded then expanded equals the ordinary encryption, as outcomes, for LWE ciphertexts, lists, keyswitching keys, GLWE ciphertexts, lists, GGSW ciphertexts and bootstrap keys."
 },
 "C34": {
  "status": "proved",
  "note": "rayon tasks as an interleaving semantics (forks of nodes and row tasks in any order, panic of any task ends the run); every schedule terminates with the sequential result, for all inputs, well-formed or not; also LWE vector encryption and vector bootstrap"
 },
 "C35": {
  "status": "proved",
  "note": "forward and backward are inverse of each other on every list of residues, for every table of powers of a root psi with psi^N = -1 (C37: the shipped tables are such), whatever the buffers held before"
 },
 "C36": {
  "status": "proved",
  "note": "forward evaluates at the odd powers of psi; backward of accumulated pointwise products is the sum of the negacyclic products"
 },
 "C37": {
  "status": "proved",
  "note": "all twelve shipped tables, transcribed by tools/gen_ntt_tables.py and checked by a verified checker: powers of a primitive 2N-th root in bit-reversed order, inverses, inverse of N"
 },
 "C38": {
  "status": "proved",
  "note": "identity of the word round trip is refuted; the exact behaviour (at most one unit) is proved"
 },
 "C39": {
  "status": "proved",
  "note": "The memory-optimised tree equals the plain recursive selection tree for every shape-preserving external product (C39_tree); with GGSW encryptions of the selector bits the FFT tree returns an encryption of the selected table with error at most r external product errors (C39_cmux_tree)."
 },
 "C40": {
  "status": "proved",
  "note": "Vertical packing with 64-bit scalars for every number of tables 2^r and every number of remaining bits; with narrower scalars the table count underflows, so that checked builds panic and optimised builds only support one polynomial (C40_narrow_scalars_refuted)."
 },
 "C41": {
  "status": "proved",
  "note": "Bit extraction through the whole FFT pipeline, for every backend meeting its error bound, with explicit noise; delta_log = 0 with several bits panics in checked builds (C41_delta_zero_refuted)."
 },
 "C42": {
  "status": "proved",
  "note": "Circuit bootstrap to GGSW and circuit bootstrap + vertical packing, with explicit noise; base_log * level = word size panics in checked builds (C42_full_decomposition_refuted)."
 },
 "C43": {
  "status": "proved",
  "note": "Every safe entry point modelled in EngineModel.v either refuses with an error whose documented meaning holds or returns the specified result, without panicking, on well-formed entities. Where the checks are missing or wrong the full statement is false of the code: see the _refuted theorems (unchecked LWE decryption, cleartext vector output count, b*l = word size, product overflow, null sizes, reversed range order, circuit bootstrap key count, vertical packing checks, lowest bit extraction, external product error name)."
 },
 "C44": {
  "status": "proved",
  "note": "Addition, negation and cleartext multiplication proved for every memory with the frame condition; plaintext addition is refuted with its exact effect and the exact condition under which it is right."
 },
 "C45": {
  "status": "proved",
  "note": "The claim is false of the code: proved that every parameter set with number_of_bits + delta_log <= 64 is refused in both builds and that checked builds never succeed."
 },
 "C46": {
  "status": "proved",
  "note": "UNIX seeder (formula, distinctness, bijectivity in device bytes and secret), rdseed seeder, deterministic seeder and creation of both default engines; two engines made from one seed share a stream (C46_same_seed_engines_refuted)."
 },
 "C47": {
  "status": "proved",
  "note": "bincode's fixed-width little-endian encoding and concrete-fft's Fourier polynomial encoding are modelled from their documented formats. Proved: round trip of all 66+4 entities, version check, refusal of truncated bytes, no panic and canonical acceptance (default engine). Not protected, shown by refutations: kind, word size and shape of the entity are not checked, and the FFT engine panics on some bytes."
 },
 "C48": {
  "status": "proved",
  "note": "FFT as a backend parameter with an error bound; memory is a function from word addresses."
 },
 "C49": {
  "status": "proved",
  "note": "Refuted for the key count the operation needs (two theorems); correctness proved for the calls whose slice covers the keys (one mask polynomial, count four)."
 },
 "C50": {
  "status": "proved",
  "note": "Doubles modelled as rationals rounded to 53 bits with unbounded exponent. Four refuted corner cases are theorems with suffix _refuted."
 },
 "C51": {
  "status": "proved",
  "note": "Processor instructions modelled after the Intel and ARM manuals; the aes crate of the software cipher is taken to be FIPS 197."
 },
 "C52": {
  "status": "proved",
  "note": "Proved for all sizes, data and addresses; refuted when the packing keys have a larger GLWE size than the bootstrap key, which the engine checks accept (C52_vertical_packing_sizes_refuted)."
 },
 "C53": {
  "status": "proved",
  "note": "Includes the finding that GSW encryption panics in checked builds for messages of 2^base_log and more (plain product with the level scale)."
 },
 "C54": {
  "status": "proved",
  "note": "all loops and both casts; AVX-512 f64->i64 and sizes below four coefficients refuted"
 },
 "C55": {
  "status": "proved",
  "note": "The accuracy of the transform of the crate concrete-fft and of f64::sin_cos are parameters of the theorems; doubles have an unbounded exponent range."
 },
 "C56": {
  "status": "proved",
  "note": "All interleavings of any number of threads; the semantics of RwLock and OnceCell are assumed as documented."
 },
 "C57": {
  "status": "proved",
  "note": "Any circuit; any backend of bounded error, the NTT backend and the FFT backend. Worst-case noise bounds. C57_fft_circuit uses the Reals axioms (as C55)."
 },
 "C58": {
  "status": "proved",
  "note": "host splitting, upload, download and the four linear operations on any number of GPUs, for every thread order; three refutations for counts the number of GPUs does not divide"
 },
 "C59": {
  "status": "proved",
  "note": "The vector theorem and the block theorems give the full statement, including the exact wrong body; C59_block_any_dimension_refuted shows the race."
 },
 "C60": {
  "status": "proved",
  "note": "Block of threads with an interleaved scheduler; doubles are elements of a commutative ring (exact arithmetic), rounding is not modelled; the constants are instantiated over the reals and the table of the program is shown close to them."
 },
 "C61": {
  "status": "proved",
  "note": "The kernel of one block under every schedule; the arithmetic on doubles is exact (any ring for C61_amortized, the reals for C61_lookup), conversions of integers to double are rounded as in the program."
 },
 "C62": {
  "status": "proved",
  "note": "one level of decomposition: any number of ciphertexts, every schedule of blocks and threads; over the reals C62_lookup gives the decryption with explicit error; C62_levels_refuted exhibits the race between levels"
 },
 "C63": {
  "status": "proved",
  "note": "three modes of the amortized kernel, two of the low latency kernel, exchange buffer; C63_partial_overlap_refuted: in PARTIALSM mode the last block's rotated accumulator overlaps the exchange buffer for all parameters"
 },
 "C64": {
  "status": "proved",
  "note": "39 engine calls; vectors of LWE and GLWE ciphertexts, bootstraps and GGSW ciphertexts are not among the commands (see C20-C31, C57)"
 },
 "C65": {
  "status": "proved",
  "note": "f64 is the real line; the relinearization claim and the claim for large integers are false of the code and stated as refutations"
 },
 "C66": {
  "status": "proved",
  "note": "Against the integer code: estimates bound (keyswitch, exact for one level) or equal (modulus switch, binary key) the variance over all masks, keys and noises. f64 read as reals; uniform independent masks are hypotheses."
 },
 "C67": {
  "status": "proved",
  "note": "Estimates of the external product and cmux compared, coefficient by coefficient, with the exact variance of the noise the modelled code adds; too low for binary keys with k = 1 (refutation)."
 },
 "C68": {
  "status": "proved",
  "note": "every schedule, array length and circuit depth when the LWE dimension is a multiple of 128; refuted otherwise"
 },
 "C69": {
  "status": "proved",
  "note": "words of 32 and 64 bits, one level of decomposition, every schedule; the output dimension is a multiple of 128 (refuted otherwise)"
 },
 "C70": {
  "status": "proved",
  "note": "The positive part is proved for one ciphertext on one GPU and for the kernel; the calls for which the property fails are refuted."
 },
 "C71": {
  "status": "proved",
  "note": "C71_as_cpu: the words written are those of the CPU circuit bootstrap for every order and buffer content; C71_circuit_bootstrap: they are GGSW ciphertexts of the low bits with bounded noise; C71_many_inputs_refuted: above 65535 rows of blocks nothing is written. C71_case meets the hypotheses with 64-bit words, polynomials of 256 coefficients and two inputs."
 }
}