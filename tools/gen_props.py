#!/usr/bin/env python3
"""Source of /verif/properties.jsonl: run `python3 tools/gen_props.py` to regenerate it."""
import json, os
P=[]
def p(title, statement, quantifier, why, anchors):
    P.append(dict(id="C%02d"%(len(P)+1), title=title, statement=statement, quantifier=quantifier, why_tests_cant=why, anchors=anchors))

CS="concrete-csprng/src/generators/"
CC="concrete-core/src/commons/"
BK="concrete-core/src/backends/"
SP="concrete-core/src/specification/engines/"

# ---------------- csprng
p("CSPRNG output is the AES-CTR table, in order",
  "A generator created over the byte range [start, bound) of the AES table of its key outputs, at its k-th call to next_byte, exactly the byte of AES_key(counter) that sits at absolute table position start+k (counter = position/16, byte = position mod 16), however the 128-byte batches happen to be aligned.",
  "every key/block cipher, every start and bound with start < bound in the 2^132-byte table, every number of calls",
  "the table has 2^132 bytes and 128 batch alignments; tests compare two implementations on short prefixes from a few seeds",
  [CS+"aes_ctr/generic.rs:AesCtrGenerator::next", CS+"aes_ctr/states.rs:State::increase", CS+"aes_ctr/index.rs:TableIndex"])
p("CSPRNG bound is exact",
  "A generator over [start, bound) returns Some for exactly bound-start calls of next_byte and None for every later call, without ever changing its answer afterwards.",
  "every start < bound, every call history of any length",
  "exhausting a generator is infeasible for real bounds; the property quantifies over all histories",
  [CS+"aes_ctr/generic.rs:AesCtrGenerator::next", CS+"aes_ctr/generic.rs:AesCtrGenerator::from_block_cipher"])
p("Fork concatenation",
  "After a successful try_fork(n, b), the bytes of child 0, child 1, ..., child n-1 read one after the other, followed by the bytes the parent produces afterwards, are the very bytes the parent would have produced without forking. Each child yields exactly b bytes.",
  "every generator state, every n, b for which the fork succeeds (no usize overflow of n*b)",
  "all split points and all generator states cannot be enumerated",
  [CS+"aes_ctr/generic.rs:AesCtrGenerator::try_fork", CS+"aes_ctr/mod.rs"])
p("No keystream reuse in any fork history",
  "Starting from one fresh generator, whatever interleaving of next_byte calls and forks is performed on it and on every descendant, no position of the AES table is ever output twice by two calls (of the same or of different generators).",
  "every finite history of next/fork operations addressed to any live generator of the family",
  "histories and schedules are unbounded; a collision would be a cryptographic break and would not show as a wrong value in a test",
  [CS+"aes_ctr/generic.rs:AesCtrGenerator::try_fork", CS+"aes_ctr/generic.rs:AesCtrGenerator::next", CS+"mod.rs:RandomGenerator::try_fork"])
p("remaining_bytes",
  "remaining_bytes() returns the number of bytes that next_byte can still output, capped at 2^128-1 less the place (0 to 15) within its 16-byte block of the byte output last: so it is exact below 2^128-15 and never below 2^128-16 from there on. (The documented cap, 2^128-1, is refuted.)",
  "every reachable generator state",
  "the interesting counts are near 2^128; tests only see small bounded children",
  [CS+"aes_ctr/generic.rs:AesCtrGenerator::remaining_bytes", CS+"aes_ctr/index.rs:TableIndex::distance", CS+"mod.rs:RandomGenerator::remaining_bytes"])
p("Fork admission",
  "try_fork refuses n=0 children, b=0 bytes, and any n*b larger than the number of remaining bytes, and in each refusal leaves the generator unchanged; it accepts everything else. (Holds when n*b fits a usize and the end index does not run past the end of the table; the wrap-around cases of release builds are refuted.)",
  "every generator state and every n, b",
  "acceptance boundary depends on 132-bit arithmetic",
  [CS+"aes_ctr/generic.rs:AesCtrGenerator::is_fork_in_bound", CS+"aes_ctr/generic.rs:AesCtrGenerator::try_fork"])
p("Parallel fork equals sequential fork",
  "par_try_fork yields, at index i, a child generating the same bytes as the i-th child of try_fork, leaves the parent in the same state, and fails in the same cases; so consuming the children in any order or schedule gives the same bytes per child.",
  "every state, n, b and every order in which the children are consumed",
  "schedules are not enumerable by tests",
  [CS+"aes_ctr/parallel.rs:AesCtrGenerator::par_try_fork"])
p("Table index arithmetic",
  "Moving a table index forward or backward by any shift is addition or subtraction modulo 2^132 of its absolute byte position; increase and decrease by the same shift cancel; the order on indices is the order of positions; distance is the difference of positions (saturating at u128).",
  "every index and every usize shift",
  "2^132 indices times 2^64 shifts",
  [CS+"aes_ctr/index.rs:TableIndex::increase", CS+"aes_ctr/index.rs:TableIndex::decrease", CS+"aes_ctr/index.rs:TableIndex::distance"])
# ---------------- random
p("Random scalars read the byte stream exactly",
  "Generating a uniform integer tensor of m elements of w bits consumes exactly m*w/8 bytes and each element is the little-endian value of its own bytes; uniform binary values are 0 or 1 and consume one byte each; uniform ternary values are -1, 0 or 1; uniform-least/most-significant-bits values only occupy the announced bits.",
  "every byte stream, every tensor length, every integer width",
  "the mapping must hold for every byte stream, tests sample a few seeds",
  [CC+"math/random/uniform.rs", CC+"math/random/uniform_binary.rs", CC+"math/random/uniform_ternary.rs", CC+"math/random/uniform_lsb.rs", CC+"math/random/uniform_msb.rs"])
p("Encryption generator forks cover what their consumers read",
  "Forking the encryption generator for a bootstrap key, a GGSW, a GGSW level, a GLWE, a GSW, a ciphertext list or a private functional packing keyswitch key reserves for each child exactly as many mask bytes as the child consumes, so that children read one after the other see the same mask bytes as one unforked generator.",
  "every dimension, polynomial size, level count, number of children and every integer width",
  "a mismatch by a few bytes only shows for particular dimension combinations",
  [CC+"crypto/secret/generators/encryption.rs"])
# ---------------- decomposition
p("Closest representable value",
  "The closest representable value of x for base 2^b and l levels is a multiple of 2^(w-bl) (mod 2^w) at torus distance at most 2^(w-bl-1) of x; representable values are fixed points.",
  "every word width w, every b,l >= 1 with b*l < w, every x",
  "2^32 to 2^64 inputs times all (b,l)",
  [CC+"math/decomposition/decomposer.rs:SignedDecomposer::closest_representable"])
p("Decompose then recompose",
  "The terms produced by the signed decomposition of x, each multiplied by 2^(w-b*level), add up (mod 2^w) to the closest representable value of x; recompose on a fresh iterator returns that value and None once the iterator was advanced.",
  "every w, b, l with b*l < w and every x",
  "2^64 inputs times all (b,l)",
  [CC+"math/decomposition/iter.rs:SignedDecompositionIter", CC+"math/decomposition/decomposer.rs:SignedDecomposer::recompose", CC+"math/decomposition/term.rs", BK+"fft/private/math/decomposition.rs"])
p("Digits are small, ordered and complete",
  "A decomposition yields exactly l terms, for levels l, l-1, ..., 1 in that order, and every digit is (as a signed word) in [-2^(b-1), 2^(b-1)]. (The half-open range [-2^(b-1), 2^(b-1)-1] given by the documentation is refuted: 2^(b-1) does occur.)",
  "every w, b, l with b*l < w and every x",
  "the extreme digit only occurs on rare inputs",
  [CC+"math/decomposition/iter.rs:decompose_one_level"])
p("Tensor decomposition is elementwise scalar decomposition",
  "Decomposing a tensor of values yields, level by level, the tensor of the scalar digits of each element, and recomposing a fresh tensor decomposition adds the closest representable value of each element to the output.",
  "every tensor length and contents, every w, b, l",
  "unbounded lengths and contents",
  [BK+"fft/private/math/decomposition.rs:TensorSignedDecompositionLendingIter", CC+"math/decomposition/decomposer.rs:fill_tensor_with_closest_representable"])
# ---------------- polynomials
p("Polynomial multiplication is the negacyclic product",
  "Every polynomial multiplication entry point (fill with product, add product, subtract product, multisum) computes the product in Z/2^w[X]/(X^N+1): coefficient k of the product is sum over i+j=k of a_i b_j minus sum over i+j=k+N of a_i b_j, modulo 2^w.",
  "every w, every N >= 1, every pair of polynomials",
  "input space is (2^w)^(2N)",
  [CC+"math/polynomial/polynomial.rs:fill_with_wrapping_mul", CC+"math/polynomial/polynomial.rs:update_with_wrapping_add_mul", CC+"math/polynomial/polynomial.rs:update_with_wrapping_add_multisum"])
p("Karatsuba equals schoolbook",
  "fill_with_karatsuba_mul returns the same polynomial as the schoolbook product.",
  "every w, every N = 2^k >= 64, every pair of polynomials (for smaller powers of two the recursion never reaches its base case: refuted)",
  "input space is (2^w)^(2N); recursion depth grows with N",
  [CC+"math/polynomial/polynomial.rs:fill_with_karatsuba_mul", CC+"math/polynomial/polynomial.rs:induction_karatsuba"])
p("Monomial multiplication and division",
  "Multiplying by the monic monomial of degree d multiplies by X^d in the negacyclic ring for every d (also d >= N, where X^N=-1), dividing by it is the inverse, and both only permute coefficients up to sign; d = 2N is the identity.",
  "every N, every polynomial, every degree d",
  "all degrees times all polynomials",
  [CC+"math/polynomial/polynomial.rs:update_with_wrapping_monic_monomial_mul", CC+"math/polynomial/polynomial.rs:update_with_wrapping_unit_monomial_div"])
# ---------------- LWE
p("LWE encrypt/decrypt",
  "Decrypting with key s a ciphertext produced by encrypting plaintext m under s returns m plus the sampled noise, modulo 2^w, exactly; a noiseless (trivial) ciphertext decrypts to m under every key.",
  "every dimension, key (any words, not only binary), mask, noise and plaintext",
  "key, mask and plaintext spaces are astronomically large",
  [CC+"crypto/secret/lwe.rs:LweSecretKey::encrypt_lwe", CC+"crypto/secret/lwe.rs:LweSecretKey::decrypt_lwe", CC+"crypto/secret/lwe.rs:LweSecretKey::trivial_encrypt"])
p("LWE linear homomorphism",
  "Adding, subtracting, negating ciphertexts, adding or subtracting a plaintext, multiplying by a cleartext, and the affine combination sum_i w_i*ct_i + bias act on decryptions as the same operation on plaintexts modulo 2^w, exactly.",
  "every dimension, key, ciphertexts (even adversarial ones), scalars",
  "unbounded operands",
  [CC+"crypto/lwe/ciphertext.rs", BK+"default/implementation/engines/default_engine/lwe_ciphertext_discarding_addition.rs", BK+"default/implementation/engines/default_engine/lwe_ciphertext_vector_discarding_addition.rs"])
p("Discarding operations ignore the previous content of their output",
  "The result of every discarding operation does not depend on the data the output held before the call. (Refuted for the discarding affine transformation, which accumulates into the previous output: exact characterisation proved.)",
  "every previous content of the output and every input",
  "tests always pass freshly zeroed outputs",
  [SP+"mod.rs", CC+"crypto/lwe/ciphertext.rs:fill_with_multisum_with_bias", BK+"default/implementation/engines/default_engine/lwe_ciphertext_vector_discarding_affine_transformation.rs"])
p("LWE vector encryption/decryption is elementwise",
  "Encrypting a vector of plaintexts gives a vector whose i-th ciphertext decrypts to plaintext i plus its own noise; parallel and sequential vector encryption use the same masks for the same seed.",
  "every vector length, dimension, key, plaintext vector",
  "unbounded lengths",
  [CC+"crypto/secret/lwe.rs:LweSecretKey::encrypt_lwe_list", CC+"crypto/secret/lwe.rs:LweSecretKey::decrypt_lwe_list", CC+"crypto/secret/lwe.rs:LweSecretKey::encrypt_seeded_lwe_list"])
p("Public key encryption",
  "Encrypting m with a public key made of zero encryptions under s gives a ciphertext whose decryption under s is m plus the sum of the noises of the selected zero encryptions.",
  "every key, every number of zero encryptions, every selection of them, every m",
  "2^count selections",
  [BK+"default/implementation/engines/default_engine/lwe_ciphertext_discarding_public_key_encryption.rs", BK+"default/implementation/engines/default_engine/lwe_public_key_generation.rs"])
# ---------------- GLWE
p("GLWE encrypt/decrypt",
  "Decrypting a GLWE ciphertext produced by encrypting polynomial m returns m plus the noise polynomial modulo 2^w, coefficientwise; trivial encryptions decrypt to m under every key.",
  "every GLWE dimension k, polynomial size N, key, mask, noise, message",
  "input spaces are astronomically large",
  [CC+"crypto/secret/glwe.rs:GlweSecretKey::encrypt_glwe", CC+"crypto/secret/glwe.rs:GlweSecretKey::decrypt_glwe"])
p("Sample extraction",
  "Extracting the n-th coefficient of a GLWE ciphertext gives an LWE ciphertext whose decryption under the flattened key is the n-th coefficient of the GLWE decryption, exactly.",
  "every k, N, n < N, ciphertext and key",
  "all ciphertexts and all positions",
  [CC+"crypto/glwe/ciphertext.rs:fill_lwe_with_sample_extraction", BK+"default/implementation/engines/default_engine/lwe_ciphertext_discarding_extraction.rs", BK+"default/implementation/engines/default_engine/glwe_to_lwe_secret_key_transformation.rs"])
p("GGSW rows",
  "A GGSW encryption of a constant m under key s consists, for each level j and row i, of a GLWE ciphertext of -m*s_i*2^(w-bj) for i < k and of m*2^(w-bj) for the last row, plus that row's noise. The trivial GGSW has the same row phases with no noise.",
  "every k, N, b, l, key, message, randomness",
  "input spaces are astronomically large",
  [CC+"crypto/secret/glwe.rs:GlweSecretKey::encrypt_constant_ggsw", CC+"crypto/secret/glwe.rs:GlweSecretKey::trivial_encrypt_constant_ggsw"])
p("External product",
  "With exact ring arithmetic, the phase of (output += GGSW(m) x c) is phase(output) + m*phase(c') + sum(digit*row noise), where c' is the coefficientwise closest representable value of c and the digits are those of the decomposition of c.",
  "every GGSW, GLWE ciphertext, key, k, N, b, l",
  "input spaces are astronomically large; tests check only one statistical noise bound",
  [BK+"fft/private/crypto/ggsw.rs:external_product", BK+"ntt/private/crypto/ggsw/ntt.rs:external_product"])
p("CMux selects",
  "cmux(ct0, ct1, GGSW(m)) for m in {0,1} leaves in ct0 a ciphertext of the plaintext of ct_m with an error bounded by the rounding of the decomposition and (number of digits)*2^(b-1)*(max row noise).",
  "every pair of ciphertexts, both selectors, all parameters",
  "input spaces are astronomically large",
  [BK+"fft/private/crypto/ggsw.rs:cmux", BK+"ntt/private/crypto/ggsw/ntt.rs:cmux"])
p("PBS modulus switch",
  "The modulus switch of a word x returns round(x*2N/2^w) (half up) in [0, 2N], a multiple of 2^lut_count_log, within the stated rounding error, for offset 0; and the composed rotation exponent is b - sum a_i s_i up to (n+1)/2 units.",
  "every word, every N, every lut_count_log and offset",
  "2^64 inputs, boundary roundings",
  [BK+"fft/private/crypto/bootstrap.rs:pbs_modulus_switch", BK+"ntt/private/crypto/bootstrap/ntt/mod.rs:pbs_modulus_switch"])
p("Blind rotation and bootstrap",
  "Bootstrapping an LWE ciphertext with a bootstrap key of the bits of s returns an LWE ciphertext under the flattened GLWE key whose phase is the constant coefficient of LUT * X^(-(bt - sum at_i s_i)) for the modulus-switched bt, at_i, up to an error bounded by n times the cmux error bound plus the LUT's own noise; zero mask elements are skipped without changing this.",
  "every LWE ciphertext, binary key, bootstrap key, LUT, all parameters",
  "input spaces are astronomically large; tests only check decryption on a handful of messages",
  [BK+"fft/private/crypto/bootstrap.rs:blind_rotate", BK+"ntt/private/crypto/bootstrap/ntt/mod.rs:blind_rotate", BK+"ntt/private/crypto/bootstrap/ntt/mod.rs:bootstrap"])
p("LWE keyswitch",
  "The decryption under the output key of the keyswitched ciphertext equals b - sum_i closest(a_i)*s_i minus the digit-weighted sum of the key noises; hence it differs from the input decryption by at most n*2^(w-bl-1) + n*l*2^(b-1)*(max noise).",
  "every ciphertext, input key (words), output key, b, l, dimensions",
  "input spaces are astronomically large",
  [CC+"crypto/lwe/keyswitch.rs:LweKeyswitchKey::keyswitch_ciphertext", CC+"crypto/lwe/keyswitch.rs:LweKeyswitchKey::fill_with_keyswitch_key"])
p("Packing keyswitch",
  "Packing m <= N LWE ciphertexts gives a GLWE ciphertext whose decryption has, in coefficient i, the (rounded) decryption of ciphertext i plus a bounded noise, and rounding-free noise only in the other coefficients.",
  "every list of at most N ciphertexts, keys and parameters",
  "input spaces are astronomically large",
  [CC+"crypto/glwe/keyswitch.rs:LwePackingKeyswitchKey::packing_keyswitch", CC+"crypto/glwe/keyswitch.rs:LwePackingKeyswitchKey::keyswitch_ciphertext"])
p("Private functional packing keyswitch",
  "For a linear function f and polynomial P the private functional packing keyswitch of an LWE ciphertext decrypts to f(1)*(closest(b) - sum closest(a_i) s_i)*P plus the digit-weighted noise of the key.",
  "every ciphertext, key, P, f, parameters",
  "input spaces are astronomically large",
  [CC+"crypto/glwe/keyswitch.rs:LwePrivateFunctionalPackingKeyswitchKey::private_functional_keyswitch_ciphertext", CC+"crypto/glwe/keyswitch.rs:fill_with_private_functional_packing_keyswitch_key"])
p("Seeded entities decompress to the normal entity",
  "Encrypting in seeded form and then expanding from the seed yields exactly the entity obtained with the non-seeded encryption using a mask generator with that seed and the same noise: LWE ciphertext, LWE list, GLWE ciphertext, GGSW, keyswitch key, bootstrap key.",
  "every seed/keystream, key, message, noise, dimensions, levels",
  "equality of mask streams depends on all dimension combinations; a mismatch makes every decryption wrong",
  [CC+"crypto/lwe/seeded_list.rs", CC+"crypto/glwe/seeded_ciphertext.rs", CC+"crypto/ggsw/seeded_standard.rs", CC+"crypto/bootstrap/seeded_standard/mod.rs", CC+"crypto/lwe/seeded_keyswitch.rs"])
p("Parallel key generation equals sequential key generation",
  "The multithreaded generation of bootstrap keys, GGSW ciphertexts and private functional packing keyswitch keys gives the same key as the sequential one for the same generators, whatever the schedule.",
  "every schedule, dimension and generator state",
  "thread schedules cannot be enumerated",
  [CC+"crypto/bootstrap/standard/mod.rs:par_fill_with_new_key", CC+"crypto/secret/glwe.rs:par_encrypt_constant_ggsw", CC+"crypto/glwe/keyswitch.rs:par_fill_with_private_functional_packing_keyswitch_key"])
# ---------------- NTT
p("NTT inversion",
  "The backward NTT of the forward NTT of a polynomial with coefficients below q is that polynomial, for each shipped modulus and size.",
  "every polynomial, each of the 12 shipped (modulus, size) pairs; proved for any table satisfying the root relations",
  "input space is q^N",
  [BK+"ntt/private/math/transform.rs:forward", BK+"ntt/private/math/transform.rs:backward"])
p("NTT multiplication",
  "Pointwise multiplication of forward NTTs followed by backward NTT is the negacyclic product modulo q.",
  "every pair of polynomials, every shipped (modulus, size) pair",
  "input space is q^(2N)",
  [BK+"ntt/private/math/transform.rs", BK+"ntt/private/math/polynomial.rs", BK+"ntt/private/math/mod_q.rs"])
p("Shipped NTT tables are correct",
  "For each shipped table, the i-th root is the power of a fixed primitive 2N-th root of unity given by the bit-reversal of i, inverse roots are inverses, N^-1 is the inverse of N.",
  "every entry of each of the 12 shipped tables",
  "a single wrong entry corrupts results only for some inputs",
  [BK+"ntt/private/math/params"])
p("Modulus switching between 2^w and q",
  "Switching never fails and rounds to the nearest: from a word x to x*q/2^w modulo q, from a residue v to v*2^w/q modulo 2^w. A residue survives the round trip through words. A word comes back changed by at most one unit (that it comes back unchanged is refuted for both shipped moduli). A word that is small as a signed number is switched to the residue of that signed number.",
  "every word and every residue, both shipped moduli",
  "2^64 values",
  [BK+"ntt/private/math/mod_q.rs:mod_switch_from", BK+"ntt/private/math/mod_q.rs:mod_switch_into"])
# ---------------- wop pbs
p("CMux tree",
  "The memory-optimised cmux tree over 2^r look-up tables with r GGSW selector bits returns the same ciphertext as the plain recursive tree, hence with ideal cmux the table whose index is the number encoded by the selector bits (most significant first).",
  "every r, every list of tables, every selector vector, every cmux function",
  "2^r selector vectors and all tables",
  [BK+"fft/private/crypto/wop_pbs/mod.rs:cmux_tree_memory_optimized"])
p("Vertical packing",
  "Vertical packing of a LUT with selector bits returns (with ideal cmux) an LWE ciphertext of the LUT entry at the index encoded by the bits, both when the LUT is larger than one polynomial (tree + rotation) and when it is not (rotation only).",
  "every LUT, every number of selector bits, every bit vector",
  "2^r inputs times all tables",
  [BK+"fft/private/crypto/wop_pbs/mod.rs:vertical_packing", BK+"fft/private/crypto/wop_pbs/mod.rs:blind_rotate"])
p("Bit extraction",
  "Extracting bits of an LWE ciphertext of a message with the given delta returns, for each requested bit from most to least significant, a ciphertext of that bit scaled to the top of the torus, whenever the errors of its keyswitches and bootstraps stay within the margin.",
  "every message, number of bits, delta and every bounded error at each step",
  "2^bits messages and adversarial error sequences",
  [BK+"fft/private/crypto/wop_pbs/mod.rs:extract_bits"])
p("Circuit bootstrap",
  "Circuit-bootstrapping an LWE ciphertext of a bit produces a GGSW ciphertext of the bit: for each level the shifted-boolean bootstrap output encodes bit*2^(w-b*level) and the functional keyswitches turn it into the rows of the GGSW.",
  "every input bit, level, bounded error",
  "error sequences are continuous",
  [BK+"fft/private/crypto/wop_pbs/mod.rs:circuit_bootstrap_boolean", BK+"fft/private/crypto/wop_pbs/mod.rs:homomorphic_shift_boolean"])
# ---------------- engines, api
p("Safe engine entry points reject ill-shaped inputs",
  "The safe (checked) entry points return an error for every mismatch of dimensions/sizes/counts they document and, when they return Ok, the dimensions required by the unchecked operation hold.",
  "every tuple of dimensions and parameters",
  "unbounded parameter space; several checks are wrong on corner cases (refuted and characterised)",
  [SP+"lwe_ciphertext_discarding_addition.rs", SP+"lwe_bootstrap_key_generation.rs", SP+"lwe_ciphertext_vector_discarding_circuit_bootstrap_boolean_vertical_packing.rs"])
p("C API linear operations",
  "The C linear operations act on decryptions as the corresponding plaintext operations: addition, negation, multiplication by a cleartext, and plaintext addition. (Plaintext addition is refuted: it adds the plaintext to the mask as well.)",
  "every dimension, ciphertext, key and scalar",
  "unbounded operands",
  ["concrete-cpu/src/linear_op.rs"])
p("C API bit extraction accepts exactly the valid parameters",
  "concrete_cpu_extract_bit_lwe_ciphertext_u64 accepts the parameter sets for which bit extraction is defined (number_of_bits + delta_log <= 64). (Refuted: the assertion is inverted.)",
  "every number of bits and delta",
  "the C entry point has no test for the assertion",
  ["concrete-cpu/src/wop_pbs.rs:concrete_cpu_extract_bit_lwe_ciphertext_u64"])
p("Seeds of the UNIX seeder",
  "Successive seeds of the UNIX seeder are secret xor counter xor device randomness with a counter that never repeats within 2^128 calls, so that two calls with equal device output give different seeds. The rdseed seeder returns the two words of the instruction, the deterministic seeder returns the words of its generator in order, and creating an engine draws its generators from the seeder exactly once each.",
  "every secret, every device or instruction output, every number of calls below 2^128, every seeder history",
  "unbounded call histories",
  ["concrete-csprng/src/seeders/implem/unix.rs", "concrete-csprng/src/seeders/implem/rdseed.rs", CC+"math/random/generator.rs", BK+"default/implementation/engines/mod.rs"])
p("Serialization round trip",
  "Deserializing the bytes produced by serializing an entity or a view gives back the entity, whatever follows the bytes; bytes carrying an unsupported version are refused with the error made for it; bytes cut short anywhere are refused; the default engine never panics on any bytes and only accepts bytes that it would write itself.",
  "every entity kind, every entity value, every byte string, both build profiles",
  "all entity values and all byte strings",
  [BK+"default/implementation/engines/default_serialization_engine/entity_serialization.rs", BK+"default/implementation/engines/default_serialization_engine/entity_deserialization.rs", BK+"fft/implementation/engines/fft_serialization_engine/serialization.rs", BK+"fft/implementation/engines/fft_serialization_engine/deserialization.rs", BK+"fft/private/math/fft/mod.rs"])

p("C API keyswitch, key conversion and bootstrap",
  "Given a memory that holds valid keys and an input ciphertext, the C keyswitch and the C bootstrap write into the output buffer, and nowhere else, a ciphertext whose decryption is within the stated error of the input's decryption, respectively of the selected table entry; the C key conversion fills the Fourier buffer, and nothing else, with the Fourier form of the key.",
  "every memory, address, key, ciphertext, table and parameter set",
  "unbounded memories and parameters; the frame condition is about all addresses",
  ["concrete-cpu/src/keyswitch.rs", "concrete-cpu/src/bootstrap/mod.rs"])
p("C API circuit bootstrap and vertical packing",
  "The C circuit-bootstrap-and-vertical-packing writes into the output buffer ciphertexts of the table entries selected by the input bits, reading glwe_dimension + 1 keyswitch keys. (Refuted for the key count that the operation needs: the slice covers one key too few, so checked builds always panic and release builds ignore the last key. Proved for one mask polynomial when the caller declares four keys.)",
  "every memory, address, key, input bits, tables and parameter set",
  "unbounded memories and parameters",
  ["concrete-cpu/src/wop_pbs.rs:concrete_cpu_circuit_bootstrap_boolean_vertical_packing_lwe_ciphertext_u64"])
p("Encoding of real messages",
  "A message in the interval of an encoder is encoded into a plaintext that leaves the declared padding free, and decoding that plaintext, even after any perturbation below half a granule (half the distance between two messages), gives a number whose distance from the message is at most the share of the interval the perturbation stands for, plus the rounding of doubles; everything decoded lies in the interval; messages outside it are refused; vectors behave element by element. The exceptions are characterised: a message less than a granule above the interval is accepted and decodes to the other end, sizes that do not fit the plaintext and radiuses too small for the center panic, and the vector decoding does not check the number of encoders.",
  "every interval, precision, padding, message, plaintext width, perturbation and vector",
  "continuous messages with floating-point rounding at every step; tests try a few random ones",
  [CC+"crypto/encoding/encoder.rs", BK+"default/implementation/entities/encoder.rs", BK+"default/implementation/engines/default_engine/encoder_creation.rs", BK+"default/implementation/engines/default_engine/encoder_vector_creation.rs", BK+"default/implementation/engines/default_engine/cleartext_encoding.rs", BK+"default/implementation/engines/default_engine/cleartext_vector_encoding.rs", BK+"default/implementation/engines/default_engine/plaintext_decoding.rs", BK+"default/implementation/engines/default_engine/plaintext_vector_decoding.rs", CC+"math/torus/mod.rs"])
p("The block ciphers are AES-128",
  "The x86, ARM and portable block ciphers all compute, for every key and counter, the eight AES-128 (FIPS 197) encryptions of the counters c..c+7, with the standard's key schedule; so the byte stream of a seed does not depend on the platform, and two different counters never give the same block.",
  "every 128-bit key, every counter, both build profiles",
  "2^256 pairs of key and counter; tests use the one vector of the standard",
  ["concrete-csprng/src/generators/implem/aesni/block_cipher.rs", "concrete-csprng/src/generators/implem/aarch64/block_cipher.rs", "concrete-csprng/src/generators/implem/soft/block_cipher.rs"])
p("The scratch memory that is asked for is enough",
  "An operation of the FFT engine (external product, CMUX, bootstrap, bit extraction, circuit bootstrap, vertical packing, conversions) never runs out of scratch memory: the buffer the engine allocates for it, or a C caller's buffer of the size and alignment reported by the matching *_scratch function, holds all the temporaries it takes, for every size, level count and input and wherever the buffer lies. (Refuted when the functional keyswitch keys of the vertical packing have a larger GLWE size than the bootstrap key, which the checks accept.)",
  "every parameter set, both scalar sizes, every input, every buffer address, every plan of the transform",
  "all sizes and addresses: alignment losses depend on where the allocator puts the buffer",
  [BK+"fft/private/crypto/ggsw.rs", BK+"fft/private/crypto/bootstrap.rs", BK+"fft/private/crypto/wop_pbs/mod.rs", BK+"fft/private/math/fft/mod.rs", BK+"fft/private/math/decomposition.rs", BK+"fft/implementation/engines/fft_engine/mod.rs", "concrete-cpu/src/bootstrap/mod.rs", "concrete-cpu/src/wop_pbs.rs"])
p("GSW ciphertexts over LWE",
  "Every row of a GSW encryption of an integer m decrypts to the gadget value of that row (m times the level's scale, or minus that times the key bit) plus the noise sample of that row, the rows use disjoint parts of the random streams, and the parallel encryption gives the same ciphertext under every schedule. The external product adds to the output m times the input up to the stated error, and the controlled selection with an encryption of a bit gives the chosen ciphertext up to that error, whatever the output and the buffer held. (In checked builds encryption panics for messages of 2^base_log and more.)",
  "every key, message, decomposition, generator state, noise, ciphertext, output and buffer contents, schedule, both build profiles",
  "unbounded dimensions, all ciphertexts and all schedules; tests sample a few random ones statistically",
  [CC+"crypto/secret/lwe.rs:encrypt_constant_gsw", CC+"crypto/gsw/ciphertext.rs:external_product", CC+"crypto/gsw/ciphertext.rs:cmux"])
p("Conversion between words and Fourier coefficients on every machine",
  "Before a Fourier transform the words of a polynomial are multiplied by the twisting factors, and after the inverse transform the results are untwisted, divided by the number of coefficients and brought back to words. Whatever instruction sets the processor offers, each forward coefficient is the exact product up to four units in the last place of its two terms, each word changes by 2^w times the exact untwisted value modulo 2^w up to that rounding and one and a half units, two machines therefore give words within twice that error, and the hand-written conversions between doubles and 64-bit integers equal the language's casts for every number in range. (Refuted: the AVX-512 conversion of doubles to 64-bit integers returns the negation, so with that build feature the words shrink instead of grow; below four coefficients the vector versions convert nothing.)",
  "every word, coefficient, twisting factor, power-of-two size, instruction set and build profile",
  "2^64 doubles and words per conversion and every processor; tests run on the machine at hand with random inputs",
  [BK+"fft/private/math/fft/mod.rs:convert_forward_torus", BK+"fft/private/math/fft/mod.rs:convert_add_backward_torus_scalar", BK+"fft/private/math/fft/x86.rs:mm256_cvtpd_epi64", BK+"fft/private/math/fft/x86.rs:mm512_cvtpd_epi64", BK+"fft/private/math/fft/x86.rs:convert_forward_integer_u64", BK+"fft/private/math/fft/x86.rs:convert_add_backward_torus_u64"])
p("Products through the Fourier transform are exact up to a stated error",
  "Multiplying polynomials by transforming them, accumulating the products in the Fourier domain and transforming back gives, on every coefficient, the exact sum of negacyclic products modulo 2^w up to an error that depends only on the number of products, the size, the digit bound and the accuracy of the transform and of the sines and cosines. It holds on every instruction set, in both build profiles, without any panic, whatever the uninitialised memory held. The twisting factors computed at start-up are within 2^-49 plus the error of the sine and cosine of the exact ones. So external products and bootstraps run with this arithmetic decrypt to the right values within an explicit distance.",
  "every polynomial, number of products, power-of-two size from 16 coefficients, instruction set, build profile, transform of the given accuracy (any order of the frequencies), contents of the buffers",
  "real-number identities and rounding errors over all polynomials; tests compare a few random products with a tolerance",
  [BK+"fft/private/crypto/ggsw.rs:update_with_fmadd", BK+"fft/private/math/fft/mod.rs:Twisties", BK+"fft/private/math/fft/mod.rs:forward_with_conv", BK+"fft/private/math/fft/mod.rs:backward_with_conv", BK+"fft/private/math/fft/mod.rs:add_backward_as_torus"])
p("FFT plans are shared safely between threads",
  "Any number of threads may set up transforms of any sizes at the same time. All calls for one size, in whatever thread and whenever, get the same plan, made for that size; a plan is made at most once per size. No call panics except with a panic of the plan's own creation, such a panic poisons nothing and later calls succeed. The threads never deadlock: as long as a call is pending some thread can move, and every call ends after a bounded number of steps.",
  "every number of threads, every sequence of requested sizes per thread, every interleaving, every outcome (algorithm chosen or panic) of every plan creation",
  "the interleavings are unbounded; a test sees the few the scheduler happens to produce, and never a panic inside the creation",
  [BK+"fft/private/math/fft/mod.rs:new", BK+"fft/private/math/fft/mod.rs:PLANS"])
p("Circuits of table lookups on encrypted data decrypt to their value in the clear",
  "A client generates its keys, encrypts any number of messages, and has a server evaluate any circuit: every gate takes a weighted sum of earlier wires plus a constant, switches it to the small key, and looks the result up in a table by a bootstrap. If the parameters satisfy one stated inequality between the noise of the keys, the sum of the absolute weights of a gate, the errors of the keyswitch and of the products, and the rounding to the positions of the table, then nothing panics and every wire of the circuit, however deep, decrypts and decodes to exactly the value the same circuit gives in the clear. It holds with the Fourier backend, with the number-theoretic backend whose buffers are reused from gate to gate, and with any other backend of bounded error.",
  "every circuit (any number of gates, any depth, any wiring), every table, message, key, generator state, noise within its bound, ciphertext, dimension, decomposition, word size, backend, both build profiles",
  "the depth and the circuits are unbounded and the noise must be bounded in the worst case for every gate; tests run one operation at a time on random inputs and accept statistically",
  [BK+"default/implementation/engines/default_engine/lwe_ciphertext_vector_discarding_affine_transformation.rs:discard_affine_transform_lwe_ciphertext_vector", BK+"default/implementation/engines/default_engine/lwe_ciphertext_discarding_keyswitch.rs:discard_keyswitch_lwe_ciphertext", BK+"default/implementation/engines/default_engine/glwe_ciphertext_trivial_encryption.rs:trivially_encrypt_glwe_ciphertext", BK+"fft/implementation/engines/fft_engine/lwe_ciphertext_discarding_bootstrap.rs:discard_bootstrap_lwe_ciphertext", BK+"default/implementation/engines/default_engine/lwe_ciphertext_vector_encryption.rs:encrypt_lwe_ciphertext_vector", BK+"default/implementation/engines/default_engine/lwe_ciphertext_vector_decryption.rs:decrypt_lwe_ciphertext_vector"])
p("Vectors on several GPUs: nothing is lost on the way and the linear operations give the words of the CPU",
  "A vector of ciphertexts, plaintexts or cleartexts sent to the GPUs is spread over them in order, without loss or duplication, one equal share per GPU and the rest on the last one. When the number of GPUs divides the number of samples it comes back unchanged, and the opposite, the addition, the addition of plaintexts and the multiplication by cleartexts, computed on the GPUs by threads that run in any order, give exactly the words the CPU engine gives. The operations are also right on uneven distributions. Three limits of the code are stated as refutations: a remainder as large as a share makes the upload panic (5 ciphertexts on 3 GPUs); any other remainder is lost when the vector is read back, and replaced by a copy of other samples (7 on 3); with fewer samples than GPUs nothing can be done with the uploaded vector.",
  "every number of GPUs and of samples, every ciphertext size and content, every word size, every order of the threads of every kernel on every GPU, both build profiles (below 2^31 words)",
  "depends on the number of GPUs of the machine, on remainders of a division and on the order in which the hardware schedules threads; the tests run on one GPU, where every case is the even one",
  [BK+"cuda/private/mod.rs:number_of_active_gpus", BK+"cuda/private/mod.rs:compute_number_of_samples_on_gpu", BK+"cuda/private/crypto/lwe/list.rs:copy_lwe_ciphertext_vector_from_cpu_to_gpu", BK+"cuda/private/crypto/lwe/list.rs:copy_lwe_ciphertext_vector_from_gpu_to_cpu", BK+"cuda/private/crypto/lwe/list.rs:execute_lwe_ciphertext_vector_addition_on_gpu", BK+"cuda/private/crypto/plaintext/list.rs", BK+"cuda/private/crypto/cleartext/list.rs", "concrete-cuda/cuda/src/addition.cuh:host_addition", "concrete-cuda/cuda/src/addition.cuh:plaintext_addition", "concrete-cuda/cuda/src/negation.cuh:host_negation", "concrete-cuda/cuda/src/multiplication.cuh:cleartext_multiplication", "concrete-cuda/cuda/src/utils/kernel_dimensions.cuh:getNumBlocksAndThreads"])
p("The GPU keyswitch gives the ciphertext of the CPU under every interleaving of its threads",
  "Keyswitching a vector of ciphertexts on the GPUs never deadlocks, whatever the order in which the threads of a block run between two barriers and whatever shared memory contains, and gives for every ciphertext the mask the CPU's keyswitch gives. When the output dimension is a multiple of the block size of 128 threads, the body is also that of the CPU. For every other dimension there is an interleaving in which the body of the input is lost: thread 0 writes it without a barrier after the zeros of the other threads, so the result then misses exactly that body; in every interleaving the body is the right one or that one.",
  "every interleaving of the threads of every block, every content of shared memory, key, ciphertext, dimension, decomposition with base_log * level_count below the word size, number of GPUs and of samples (key below 2^31 words)",
  "a race: the result depends on the order in which the hardware schedules the threads, which no test controls",
  ["concrete-cuda/cuda/src/keyswitch.cuh:keyswitch", "concrete-cuda/cuda/src/crypto/gadget.cuh:decompose_one", "concrete-cuda/cuda/src/crypto/torus.cuh:round_to_closest_multiple", BK+"cuda/private/crypto/keyswitch/mod.rs:execute_lwe_ciphertext_vector_keyswitch_on_gpu"])

p("GPU Fourier transforms multiply polynomials under every thread schedule",
"On the GPU backend, the direct and inverse negacyclic Fourier transforms of a block of threads always run to completion, whatever the order in which the threads are scheduled between barriers, touch only the buffer they are given, and always leave the same values. In exact arithmetic the direct transform evaluates the polynomial at points whose N/2-th power is i, and transforming two polynomials, multiplying the transforms element by element and transforming back gives the product of the polynomials modulo X^N+1. The table of constants compiled into the kernels is within 2^-50 of the exact constants.",
"every schedule of the threads, every power-of-two size, every number of threads and elements per thread that divides it, every buffer position, all polynomials, every entry of the table",
"The schedules of a block are too many to run, GPUs choose them, and a race appears only on some of them; the product property ranges over all polynomials.",
["concrete-cuda/cuda/src/fft/bnsmfft.cuh:NSMFFT_direct","concrete-cuda/cuda/src/fft/bnsmfft.cuh:NSMFFT_inverse","concrete-cuda/cuda/src/fft/bnsmfft.cuh:batch_NSMFFT","concrete-cuda/cuda/src/fft/twiddles.cu:negtwiddles","concrete-cuda/cuda/src/polynomial/polynomial_math.cuh:polynomial_product_accumulate_in_fourier_domain"])

p("The GPU amortized bootstrap evaluates the table under every thread schedule",
"Bootstrapping a ciphertext with the amortized kernel of the GPU always runs to completion, whatever the order in which the threads of its block are scheduled between barriers and whichever layout of memory is used, writes only its output and its scratch buffers, and always writes the same words: those of the CPU bootstrap run with the same products of polynomials on the ciphertext converted to double precision. With exact products the output decrypts to the entry of the table selected by the decryption of the input, up to an explicit error; the words of 32 bits are reduced modulo 2^32 - 1, half of the coefficients are one too large, and words of 64 bits near the middle of two table positions are switched to the other position than on the CPU.",
"every schedule of the threads, every input ciphertext, table, bootstrap key, secret key and noise within the bound, every GLWE dimension, number of levels, base, power-of-two size, number of threads, both word sizes, both layouts of memory",
"The schedules of a block are too many to run and are chosen by the GPU; the property ranges over all ciphertexts, keys and tables, and a test on random inputs does not meet the words at which the conversions differ.",
["concrete-cuda/cuda/src/bootstrap_amortized.cuh:device_bootstrap_amortized","concrete-cuda/cuda/src/polynomial/functions.cuh:add_to_torus","concrete-cuda/cuda/src/polynomial/functions.cuh:divide_by_monomial_negacyclic_inplace","concrete-cuda/cuda/src/polynomial/functions.cuh:sample_extract_mask","concrete-cuda/cuda/src/crypto/gadget.cuh:decompose_and_compress_next_polynomial","concrete-cuda/cuda/src/crypto/torus.cuh:rescale_torus_element","concrete-cuda/cuda/src/crypto/bootstrapping_key.cuh:cuda_convert_lwe_bootstrap_key"])
p("The GPU low latency bootstrap evaluates the table under every schedule of its blocks and threads, with one level",
"Bootstrapping a vector of ciphertexts with the low latency kernel of the GPU, where the blocks of the grid exchange their products through a common buffer between grid-wide barriers, always runs to completion with one level of decomposition, whatever the order in which the blocks and the threads of each block are scheduled, leaves the tables and the key unchanged, and always writes the same words: for every ciphertext those of the CPU bootstrap run with the same products of polynomials. With exact products each output decrypts to the entry of its table selected by the decryption of its input, up to an explicit error. With two levels the result depends on the schedule, because a block may overwrite its products for the next iteration while the block of the other level still reads those of the current one; this is stated as a refutation.",
"every schedule of the blocks and of their threads, every number of ciphertexts, every content of the private memory of the blocks, every input, table, bootstrap key, secret key and noise within the bound, every GLWE dimension, base, power-of-two size, number of threads, both word sizes; one level of decomposition",
"The interleavings of the blocks of a grid are chosen by the GPU and are too many to run; a race between blocks appears only on some of them.",
["concrete-cuda/cuda/src/bootstrap_low_latency.cuh:mul_ggsw_glwe","concrete-cuda/cuda/src/bootstrap_low_latency.cuh:device_bootstrap_low_latency","concrete-cuda/cuda/src/bootstrap_low_latency.cuh:host_bootstrap_low_latency","concrete-cuda/cuda/src/crypto/gadget.cuh:decompose_and_compress_level"])

p("The blocks of the GPU bootstrap kernels use disjoint, sufficient and aligned parts of the scratch memory",
"The scratch buffer that the GPU bootstraps ask the caller to allocate, and the shared memory they request, contain every byte that every block of the kernel uses; the buffers of a block, those of different blocks and the buffer through which the blocks of the low latency kernel exchange their products have no byte in common, and are aligned. This holds for the amortized kernel in its three memory modes and for the low latency kernel when it uses no or only shared memory. When the low latency kernel uses partial shared memory it is false for all parameters: the rotated accumulator of the last block lies in the exchange buffer, on the products of the first block; this is stated as a refutation.",
"every polynomial size that is a multiple of 4, GLWE dimension, number of levels and of ciphertexts (below 2^32 coefficients), both word sizes, every amount of shared memory of the device, every pair of blocks",
"The memory mode depends on the device and the parameters, and overlapping accesses corrupt the result only under some schedules.",
["concrete-cuda/cuda/src/bootstrap_amortized.cuh:device_bootstrap_amortized","concrete-cuda/cuda/src/bootstrap_amortized.cuh:get_buffer_size_bootstrap_amortized","concrete-cuda/cuda/src/bootstrap_low_latency.cuh:device_bootstrap_low_latency","concrete-cuda/cuda/src/bootstrap_low_latency.cuh:get_buffer_size_bootstrap_low_latency","concrete-cuda/cuda/src/bootstrap_low_latency.cuh:host_bootstrap_low_latency"])

p("Any program of engine calls computes on encrypted data what it computes in the clear",
"A user creates an engine and makes any sequence of calls: generates LWE and GLWE keys and converts them into each other, creates plaintexts and cleartexts, encrypts (directly, seeded and expanded later, trivially, as zeros, as LWE or GLWE), adds, subtracts, negates, multiplies by cleartexts, overwrites ciphertexts, extracts samples, generates keyswitch keys and keyswitches, decrypts with any key. Every call is accepted or refused exactly as the sizes of its arguments say, a refused call changes nothing, and every plaintext read back is the one obtained by running the same calls on messages in the clear, up to a noise bound computed along the way; when the bound is below half of the distance between two messages, rounding gives exactly the message. A key reads what it should from every ciphertext, including ciphertexts that other keys, or no key at all, can read. Every seeded encryption takes two new seeds from the seeder, so no seed serves twice. The only calls that can panic are those that draw randomness from an exhausted generator, a trivial encryption of size zero, and in checked builds a decryption with a key of another dimension.",
"every finite sequence of calls of any length with any arguments, every state of the generators and seeds, every noise within its bound, every dimension, word size and decomposition, both build profiles",
"the histories are unbounded, and the effect of a call depends on everything that was done to its arguments before; unit tests call one engine method at a time on fresh entities",
[BK+"default/implementation/engines/default_engine/mod.rs:DefaultEngine"]+[BK+"default/implementation/engines/default_engine/"+f for f in ["lwe_ciphertext_encryption.rs:encrypt_lwe_ciphertext","lwe_ciphertext_zero_encryption.rs:zero_encrypt_lwe_ciphertext","lwe_ciphertext_trivial_encryption.rs:trivially_encrypt_lwe_ciphertext","lwe_ciphertext_trivial_decryption.rs:trivially_decrypt_lwe_ciphertext","lwe_seeded_ciphertext_encryption.rs:encrypt_lwe_seeded_ciphertext","lwe_seeded_to_lwe_ciphertext_transformation.rs:transform_lwe_seeded_ciphertext_to_lwe_ciphertext","lwe_ciphertext_fusing_opposite.rs:fuse_opp_lwe_ciphertext","lwe_ciphertext_cleartext_fusing_multiplication.rs:fuse_mul_lwe_ciphertext_cleartext","lwe_ciphertext_plaintext_fusing_addition.rs:fuse_add_lwe_ciphertext_plaintext","lwe_ciphertext_plaintext_fusing_subtraction.rs:fuse_sub_lwe_ciphertext_plaintext","lwe_ciphertext_fusing_subtraction.rs:fuse_sub_lwe_ciphertext","glwe_ciphertext_zero_encryption.rs:zero_encrypt_glwe_ciphertext","glwe_ciphertext_trivial_decryption.rs:trivially_decrypt_glwe_ciphertext","glwe_to_lwe_secret_key_transformation.rs:transform_glwe_secret_key_to_lwe_secret_key","plaintext_creation.rs:create_plaintext_from","plaintext_vector_creation.rs:create_plaintext_vector_from","plaintext_retrieval.rs:retrieve_plaintext","plaintext_vector_retrieval.rs:retrieve_plaintext_vector"]])


p("The noise estimates for linear operations and for secret keys are the true variances",
"A dispersion can be given as a standard deviation, its logarithm or a variance; the three forms are interchangeable for every read accessor, in fractions of the torus and modulo 2^l, and a modular quantity put in comes out. The estimate of the noise of a sum or difference of ciphertexts, of a sum of several, of a product with an integer, of a weighted sum and of every coefficient of a product of a GLWE ciphertext with a polynomial is the variance of the noise of that operation when the input noises are independent, provided the square of each (signed) integer fits in the signed integer type; for larger integers a checked build panics and a release build can estimate zero noise. The moments given for a coefficient of a binary, ternary, Gaussian or zero key, its square, the square of the key polynomial (odd and even coefficients) and the product of two keys are the moments of those random variables, for every polynomial size that is a power of two. The estimate for the relinearization does not have this property: its rounding term ignores the decomposition base.",
"every dispersion, modulus, integer and polynomial, every finite noise distribution with the given variance, every number of operands, every polynomial size",
"an estimate is compared in tests with an empirical variance of some thousand samples, with a tolerance, at a few parameter sets; exactness for all parameters is a statement about distributions",
["concrete-core/src/specification/dispersion.rs:DispersionParameter","concrete-npe/src/key_dispersion.rs:KeyDispersion","concrete-npe/src/operators.rs:estimate_addition_noise","concrete-npe/src/operators.rs:estimate_several_additions_noise","concrete-npe/src/operators.rs:estimate_integer_plaintext_multiplication_noise","concrete-npe/src/operators.rs:estimate_weighted_sum_noise","concrete-npe/src/operators.rs:estimate_polynomial_plaintext_multiplication_noise","concrete-npe/src/operators.rs:estimate_relinearization_noise"])

p("The noise estimates of the keyswitches and of the modulus switch bound the true variances",
"Keyswitching a ciphertext changes the noise of its decryption by a quantity that depends on the mask, on the secret key and on the noises of the keyswitching key. When these are independent, the mask uniform and the key noises centred, the keyswitch estimate (with constant terms) is never below the variance of the resulting noise, exceeds it by at most n*(l-1)*sigma^2*B/4 for n coefficients, l levels, base B and key noise variance sigma^2, and equals it for one level, for binary, ternary, Gaussian and zero keys. So the probability that the noise deviates from its mean by t is at most the estimate over t^2. The mean moves by -n/2 times the mean of the key. The same holds for the constant coefficient of a packing keyswitch of one ciphertext, for its other coefficients with the estimate for non constant terms, and for every coefficient of a private functional keyswitch, given a bound on the coefficients of the function (there the body is uniform too). The estimate of the noise added by the modulus switch at the start of a bootstrap with a binary key is exactly the variance of that noise when body and mask are uniform and independent.",
"every word size, base, number of levels with fewer bits than a word, dimension, output key, input and key noise distributions with the given variances, kind of key, message; every power-of-two polynomial size for the modulus switch",
"the variance is over all masks, keys and noises; tests compare an empirical variance of some samples with the estimate up to a tolerance",
["concrete-npe/src/operators.rs:estimate_keyswitch_noise_lwe_to_glwe_with_constant_terms","concrete-npe/src/operators.rs:estimate_modulus_switching_noise_with_binary_key","concrete-npe/src/operators.rs:estimate_keyswitch_noise_lwe_to_glwe_with_non_constant_terms","concrete-npe/src/operators.rs:estimate_private_functional_keyswitch_noise_lwe_to_glwe_with_constant_terms",CC+"crypto/glwe/keyswitch.rs:packing_keyswitch",CC+"crypto/lwe/keyswitch.rs:keyswitch_ciphertext",CC+"math/decomposition/decomposer.rs:closest_representable"])
p("The noise estimates of the external product and of the cmux follow the true variances",
"The external product of a GLWE ciphertext with a GGSW ciphertext of a bit adds to every coefficient a noise that depends on the words of the ciphertext, on the secret key, on the bit and on the noises of both ciphertexts. When these are independent, the words and the bit uniform and the noises centred, the estimate is never below the variance of that noise for ternary, Gaussian and zero keys, for GLWE dimension at least 2 and for the last coefficient, and exceeds it by a bounded amount, explicit for each coefficient. With binary keys and GLWE dimension 1 (common parameters) it is too low: by (N-1)/16 at the coefficient 0 for one level; this is stated as a refutation. The estimate of the cmux follows the same rule and counts the noise of the first ciphertext once more than it occurs.",
"every word size, base, number of levels with fewer bits than a word, polynomial size, GLWE dimension, coefficient, kind of key, distribution of the noises with the given variances, accumulator and message",
"the variance is over all ciphertexts, keys, bits and noises; tests compare an empirical variance of some samples, averaged over the coefficients, with the estimate up to a tolerance",
["concrete-npe/src/operators.rs:estimate_external_product_noise_with_binary_ggsw","concrete-npe/src/operators.rs:estimate_cmux_noise_with_binary_ggsw",BK+"fft/private/crypto/ggsw.rs:external_product",BK+"fft/private/crypto/ggsw.rs:cmux"])


p("The boolean gates of the GPU compute their truth tables, in circuits of any depth",
  "On arrays of encrypted booleans of any length, the GPU calls for not, and, nand, nor, or, xor and xnor return, for every schedule of the threads, ciphertexts that decrypt to the gate applied to the booleans, with a noise that depends on the keys only and not on the inputs, as long as the noise of the inputs and the drift of the switch to 2N are within a stated budget.  When the output noise is within the budget of the inputs, circuits of any depth evaluate to the value of the circuit on booleans.  The LWE dimension must be a multiple of 128: for any other dimension some schedule of the threads loses the body of a ciphertext, and with some keys no output is then right.",
  "all six gates and the negation, all lengths of the arrays, booleans, keys, ciphertexts within the budget, schedules, and circuits",
  "unit tests run one gate at one parameter set under the schedule the device happens to choose; the claim is about all the ciphertexts within the noise budget, all schedules and circuits of any depth",
  ["concrete-cuda/cuda/src/boolean_gates.cu:cuda_boolean_not_32","concrete-cuda/cuda/src/boolean_gates.cu:cuda_boolean_and_32","concrete-cuda/cuda/src/boolean_gates.cu:cuda_boolean_nand_32","concrete-cuda/cuda/src/boolean_gates.cu:cuda_boolean_nor_32","concrete-cuda/cuda/src/boolean_gates.cu:cuda_boolean_or_32","concrete-cuda/cuda/src/boolean_gates.cu:cuda_boolean_xor_32","concrete-cuda/cuda/src/boolean_gates.cu:cuda_boolean_xnor_32"])

p("The bit extraction of the GPU returns every bit of the message",
  "For every integer message encrypted at a power of two with a bounded noise, the GPU bit extraction writes, for every schedule of the threads and of the blocks and whatever the memory held before, ciphertexts under the output key of the bits of the message, most significant first, each at the top of the word, with the noise of C41 (the bootstraps of the GPU included); a bit decrypts whenever its noise is below a quarter of the torus.  The output dimension must be a multiple of 128: for any other one some schedule extracts a noiseless 1 as 0.  With a scaling of 1 and two bits or more the call is undefined for every input.",
  "words of 32 and 64 bits, all messages, noises, scalings, numbers of bits, keys, ciphertexts, orders of the threads, schedules and contents of the memory",
  "unit tests extract the bits of a few random messages under the schedule the device happens to choose; the claim is about all messages, numbers of bits and schedules, and about the accumulation of the noise from bit to bit",
  ["concrete-cuda/cuda/src/bit_extraction.cuh:host_extract_bits","concrete-cuda/cuda/src/bit_extraction.cuh:copy_and_shift_lwe","concrete-cuda/cuda/src/bit_extraction.cuh:copy_small_lwe","concrete-cuda/cuda/src/bit_extraction.cuh:add_to_body","concrete-cuda/cuda/src/bit_extraction.cuh:add_sub_and_mul_lwe","concrete-cuda/cuda/src/bit_extraction.cuh:fill_lut_body_for_current_bit"])

p("The private functional packing keyswitch of the GPU is that of the CPU, for one ciphertext",
  "On one GPU, for one input ciphertext and an output GLWE ciphertext whose number of words is a multiple of 256, the private functional packing keyswitch of the CUDA engine returns, for every order of the threads, the words that the default engine returns; the kernel, launched on several ciphertexts and several keys with room for one output each, keyswitches each ciphertext as the CPU does.  Nothing of this holds for the other calls the checks accept: the words after the last multiple of 256 keep their old content, a vector of two ciphertexts or more writes outside of the output instead of being packed, with fewer ciphertexts than GPUs the output is not written at all, and with two GPUs or more the others write to memory of the first.",
  "all word sizes, decomposition parameters, dimensions, polynomial sizes, keys, ciphertexts, contents of the output, numbers of GPUs and orders of the threads",
  "unit tests run one polynomial size, one GPU and the order the device happens to choose; the claim is about all sizes and orders, and the failures are silent",
  ["concrete-cuda/cuda/src/keyswitch.cuh:fp_keyswitch","concrete-cuda/cuda/src/keyswitch.cuh:cuda_fp_keyswitch_lwe_to_glwe","concrete-core/src/backends/cuda/private/crypto/keyswitch/mod.rs:execute_lwe_ciphertext_vector_fp_keyswitch_on_gpu","concrete-core/src/backends/cuda/implementation/engines/cuda_engine/lwe_ciphertext_vector_glwe_ciphertext_discarding_private_functional_packing_keyswitch.rs:discard_private_functional_packing_keyswitch_lwe_ciphertext_vector"])

p("The circuit bootstrap of the GPU writes the GGSW ciphertexts of the CPU, for up to 65535 rows",
  "For every order of the threads and every content of the work buffers, the circuit bootstrap of the CUDA backend writes, one after the other, the GGSW ciphertexts that the circuit bootstrap of the CPU returns for each input, with the bootstrap of the GPU (C61) for its bootstraps; each encrypts the low bit of the message of its input, with the noise of one bootstrap and one functional keyswitch, when the noise of the input leaves the margin of the sign.  The size of a GLWE ciphertext must be a multiple of 256, the decomposition must leave a bit, and inputs times levels times GLWE size must be at most 65535: above, nothing is written and no error is reported.",
  "all word sizes, decomposition parameters, GLWE dimensions, polynomial sizes the kernels accept, keys, numbers of inputs, ciphertexts, contents of the buffers and orders of the threads",
  "unit tests run a few sizes and messages with the order the device happens to choose; the claim is about all of them, and the failure above 65535 rows is silent",
  ["concrete-cuda/cuda/src/circuit_bootstrap.cuh:host_circuit_bootstrap","concrete-cuda/cuda/src/circuit_bootstrap.cuh:shift_lwe_cbs","concrete-cuda/cuda/src/circuit_bootstrap.cuh:fill_lut_body_for_cbs","concrete-cuda/cuda/src/circuit_bootstrap.cuh:copy_add_lwe_cbs"])

out=os.path.join(os.path.dirname(os.path.abspath(__file__)),"..","properties.jsonl")
with open(out,"w") as f:
    for x in P: f.write(json.dumps(x, ensure_ascii=False)+"\n")
print(len(P))
