# Formal model of zama-ai/concrete-core in Rocq (Coq 8.16.1)

This file is the design and the trusted base.  The list of properties is in
`properties.jsonl`, the status of each in `MANIFEST.json`, the mutation log in
`seeded/LOG.jsonl`.

## 1. Conventions of the model

* A machine word of `w` bits (`u32`, `u64`, `u128`) is a `Z` in `[0, 2^w)`.  The width is a
  parameter; theorems hold for every `w >= 1` (or the stated bound), so for 32 and 64.
  Every wrapping operation writes its `mod 2^w` explicitly.
* Rust `+`/`*`/`-`/`<<` that are *not* the `wrapping_` form panic in overflow-checked builds and
  wrap in release builds.  Where a property depends on that, the model function returns an `option`
  / result with the panic as an explicit value, or both profiles are modelled.
* `assert!` failures are explicit error values.  `debug_assert!` / `ck_dim_*!` are hypotheses of the
  theorems or explicit errors, as said at each definition.
* A function mutating through `&mut` becomes a function returning the new value.  Containers
  (tensors, lists, polynomials) are Coq lists; a polynomial of size N is the list of its N
  coefficients, constant coefficient first.
* Iterators zipped together become `combine`/`map2`, loops become structural recursion or folds.
* External parts are Section variables, which become universally quantified arguments of the
  theorems: the AES block cipher (any function from counters to 16-byte blocks), noise samples
  (any words), byte streams of seeds.
* Every definition cites file and lines of `/repo`.

Layering: `*Model.v` files hold definitions only, `*Proofs.v` the lemmas, `*Spec.v` small
independent specifications, `*Theorems.v` only the property theorems with `Print Assumptions`
and the non-vacuity examples.

## 2. What is modelled and how each property is proved

| Id | What is modelled | Proof |
|----|------------------|-------|
| C01-C08 | `concrete-csprng` table index, state, generator, fork | abstraction of an index to its position in Z mod 2^132; refinement to "bytes of a table over an interval"; C04 by invariant over histories of a whole fork family |
| C09-C10 | scalar sampling from byte streams; encryption generator byte counts and forks | algebraic laws over all streams; sums of byte counts |
| C11-C14 | signed decomposer and its iterators (bit operations) | bit operations characterised by div/mod; induction over levels |
| C15-C17 | polynomial operations | refinement to the quotient ring Z[X]/(X^N+1), Horner-form product; induction |
| C18-C22 | LWE encryption, decryption, linear ops, public key | algebra modulo 2^w |
| C23-C25 | GLWE/GGSW encryption, sample extraction | algebra in the negacyclic ring |
| C26-C29 | external product, cmux, modulus switch, blind rotation, bootstrap, exact arithmetic | exact phase identity, then norm bounds by induction over the LWE dimension |
| C30-C32 | keyswitch, packing and private functional packing keyswitch | exact phase identity and bounds |
| C33-C34 | seeded encryption/expansion, parallel generation | fork concatenation on mask streams |
| C35-C38 | NTT transforms, mod-q arithmetic, the 12 shipped tables | butterfly = CRT splitting of X^(2t)-s^2; table relations checked by `vm_compute` over every entry |
| C39-C42 | cmux tree, vertical packing, bit extraction, circuit bootstrap | equality with the recursive tree; error-margin induction |
| C43 | `EngineModel.v`: the checks of the safe entry points with the unchecked operation behind them | case analysis; refutations where a check is wrong or missing |
| C44, C45, C48, C49 | `CpuModel.v`: the C interface over an address-indexed memory | frame conditions plus the theorems of the Rust operations it calls; refutations |
| C46 | `SeederModel.v`: the three seeders and engine creation | injectivity of the counter xor; exact words drawn |
| C47 | `SerialModel.v`: bincode layout of every entity kind, the two serialization engines | codec round trip, prefix and canonicity lemmas by induction on the layout |
| C50 | `FloatModel.v`, `EncoderModel.v`: doubles rounded to 53 bits, encoders | relative-error calculus on rationals, closest-multiple lemma of the decomposer |
| C51 | `AesModel.v`: the three block ciphers over the processor instructions, against `AesSpec.v` (FIPS 197) | symbolic equality of the schedules and rounds; MixColumns and S-box invertibility by exhaustion over a byte |
| C52 | `ScratchModel.v`: the `*_scratch` requirements and the sequence of blocks every FFT operation takes from its buffer | a requirement bounds the address reached after its blocks (`taken`), composed along the structure of each operation; counterexample for larger packing keys |
| C53 | `GswModel.v`: GSW encryption (sequential, parallel, trivial), external product and cmux over LWE | row by row from the LWE encryption theorems; the external product by the gadget identity of the digits; the parallel version by the schedule theorem of C34 |
| C54 | `FourierConvModel.v`: twisting and untwisting conversions around the Fourier transforms, scalar and for every x86 instruction set, on the bits of doubles | each vector loop equals its elementwise formula (shuffles computed, blocks by induction); exact integer arithmetic on bit patterns for the casts; rounding-error analysis of the two products |
| C55 | `FourierBackendModel.v`: the accumulated products in the Fourier domain on every instruction set, the transforms around the plan, `Twisties::new`; the plan is a parameter within `phi` of the exact transform | `ComplexFacts.v`: the twisted transform evaluates a polynomial at the roots of X^N + 1, pointwise products there are negacyclic products (over Coq's reals); rounding errors are carried through each step; pi to 17 digits by a Machin formula; `C55_backend` is the hypothesis `backend_ok` of C26-C31; cases with a transform that is shown to exist, including a whole bootstrap |
| C56 | `PlanCacheModel.v`: `Fft::new` as a transition system, any number of threads, one step per operation on the lock, the map or a cell; creation of a plan picks any algorithm or panics | An invariant of all reachable states (the map only grows, distinct sizes have distinct cells, a busy cell has exactly one creator, a write guard excludes all guards); deadlock freedom by cases on what a waiting thread waits for; termination by a measure of nine units per call |
| C57 | `CircuitSpec.v`: circuits of gates (weighted sum, constant, negacyclic table) and their value in the clear; `CircuitModel.v`: a client that generates keys, encrypts, evaluates every gate by the modelled affine transformation, keyswitch, trivial encryption and bootstrap, and decrypts | Induction on the circuit with the invariant that every wire carries its clear value with an error of at most `eps`; the gate step composes C15, C30 and C29 (`C57_circuit`: any backend of bounded error; `C57_ntt_circuit`; `C57_fft_circuit` by C55). All bounds are worst case: with the FFT the worst-case error of C55 limits the polynomial size for which the inequality holds (`C57_fft_budget`: N = 128); with an error of 2^34 it holds for N = 4096 (`C57_realistic_budget`) |
| C58 | `CudaSpec.v`: what it means for a vector to be distributed over GPUs; `CudaModel.v`: the host code that splits, uploads and downloads vectors, the loop over GPUs, the grid computation in C ints, the four linear kernels thread by thread | Chunks of a concatenation are the chunks; threads that write distinct cells commute (for every permutation of the threads); the grid covers all entries; end-to-end equality with the CPU engine when the GPUs divide the count; exact wrong result otherwise (`_refuted`) |
| C59 | `CudaKsModel.v`: the keyswitch kernel as one program per thread over shared memory with barriers, a block that interleaves 128 of them under a scheduler's choices, the host loop | Each cell belongs to one thread; invariant: what the owner of a cell will write to the output, run alone from here, is the expected value; equal numbers of barriers give deadlock freedom; the number of instructions left gives termination; digits and rounding equal to the CPU's; for the body a second invariant under the schedule that always runs the first thread (`_refuted`) |
| C60 | `CudaBlockModel.v`: a block of threads that interleave one access at a time, with barriers; `CudaFftModel.v`: the direct and inverse transforms, the batch kernel and the product of transforms, over any commutative ring; `CudaFftTable.v`: the table of constants | Between two barriers every cell belongs to one thread, or is only read: then every interleaving ends with the same memory (`launch_ok`); each level of a transform reduces the polynomials modulo X^s - r for the nodes of a tree of square roots (`CudaFftAlgebra.v`); the inverse undoes it level by level; packing turns products modulo X^(N/2) - i into products modulo X^N + 1; the table by induction on the tree, from an integer check of each entry against its parent |
| C61 | `CudaPbsModel.v`: the amortized bootstrap kernel of one block of threads, every access to memory a step; `CudaPbsRealModel.v`: its conversions between words and doubles, over the real numbers | A logic of Hoare triples over all schedules (`CudaHoare.v`), built on the ownership argument of C60; a triple for each phase (`CudaPbsPhases.v`), composed along the iterations (`CudaPbsKernel.v`); the value computed is that of the CPU model of C29 with the GPU's arithmetic as backend (`CudaPbsLink.v`); with real numbers the backend has an explicit error (`CudaPbsRealBackend.v`), so C29 gives the decryption |
| C62 | `CudaGridModel.v`: a grid of blocks with private and global memory and grid-wide barriers, every access to memory a step of one thread of one block; `CudaLowLatModel.v`: the low latency bootstrap kernel and its launch | Between two grid barriers every global cell has one owner block, so each block runs as if alone (`CudaGridProofs.v`) and the Hoare triples of C61 apply to it; one invariant for each grid barrier says which partial sums the join buffer holds (`CudaLowLatPhases.v`, `CudaLowLatKernel.v`); with two levels the ownership fails, and two schedules with different results are exhibited |
| C63 | `CudaScratchModel.v`: the sizes computed by the host functions and the pointer arithmetic of the kernels, in bytes with the wrap-around of `uint32_t` and `uint64_t` | Linear arithmetic on the offsets; blocks are consecutive intervals of a fixed length; the exchange buffer is indexed injectively by (ciphertext, level, polynomial) |
| C64 | `SessionModel.v`: the engine (secret generator, encryption generator, seeder), a store of the entities a session has created, and one command per safe method, which runs the method's model (`EngineModel.v` and the models below it) on entities of the store | Simulation by an ideal session (`SessionSpec.v`) in which a ciphertext is only the messages that each key reads, with a noise bound. Invariant: for every key number, the phase of the ciphertext under the secret of that number, or under any secret of the right length if it has not been drawn yet, is the message up to the bound. One lemma per command, then induction on the sequence; `C64_fresh_seeds` counts the draws of the seeder |
| C65 | `NoiseModel.v`: `dispersion.rs`, `key_dispersion.rs` and the linear operations and relinearization of concrete-npe's `operators.rs`, with `f64` read as the real line. `NoiseSpec.v`: a distribution is a finite list of equally likely outcomes; mean and variance of a random variable on it, independent draws as products of lists. | Algebra of means and variances of independent draws (`NoiseFacts.v`); a coefficient of a product of polynomials is a sum over index pairs, whose variance follows from the first four moments of a coefficient (`NoiseKeyFacts.v`); `C65_dispersion`, `C65_modular`, `C65_addition`, `C65_several_additions`, `C65_weighted_sum`, `C65_multiplication`, `C65_polynomial_multiplication`, `C65_key_coefficient`, `C65_key_times_key`, `C65_key_squared`, `C65_key_squared_mean`; false claims: `C65_multiplication_overflow_refuted`, `C65_relinearization_base_refuted`. |
| C66 | `NoiseModel.v` also holds the keyswitch estimates (constant and non constant terms, private functional) and the modulus switch estimate. The theorems are stated against the integer code: for every outcome of the input noise, mask, key and key noises, `keyswitch_ciphertext` decrypts to message + noise(outcome), and the variance of that noise over all outcomes is bounded by (equal to, for one level) the estimate. `NoiseDigitFacts.v`/`NoiseKsFacts.v`: exact distribution of the rounding error and of the balanced digits of a uniform word, by counting the carries; then independence over the columns. `NoisePackTheorems.v` does the same for each coefficient of the packing keyswitch of one ciphertext and of the private functional keyswitch. The modulus switch is exact, through C28's description of `pbs_modulus_switch`. |
| C67 | `NoiseModel.v`: the estimates of the external product and of the cmux. `NoiseEpTheorems.v`: for every outcome (bit, input noise, words, key, noises of the GGSW rows), the modelled `external_product` and `cmux` change each coefficient of the phase by message + noise(outcome) (`external_product_adds`, `cmux_adds`, with an exact product of polynomials); the variance of that noise is computed by conditioning on the bit and summing independent columns, and compared with the estimate coefficient by coefficient. `C67_external_product_refuted`: the estimate is too low for binary keys, k = 1, coefficient 0. |
| C68 | `CudaGatesModel.v`: the calls of `boolean_gates.cu`, with the kernels of C58, the bootstrap of C61 (one block per ciphertext, each on its own memory) and the keyswitch of C59 as modelled there, each run under an arbitrary schedule. `CudaGatesSpec.v`: truth tables, +-1/8 encoding, circuits. `CudaGatesTheorems.v`: linear part of each gate lands in the right half with margin, C61 rotates to it, C59 switches the key; induction on the circuit for `C68_circuit`. `C68_gate_any_dimension_refuted`, `C68_gate_wrong_refuted`: dimensions that are not multiples of 128. |
| C69 | `CudaBitsModel.v`: the kernels of `bit_extraction.cuh` as lists of element operations run in any order, the loop over the bits with the keyswitch of C59 and the low latency bootstrap of C62. `CudaBitsProofs.v`: every kernel writes each of its cells once. `CudaBitsTheorems.v`: what the kernels write; the keyswitch and the bootstrap as instances of the interface of C41 (the bootstrap with the margin that the rounding of 64-bit words to doubles needs); induction on the bits, `C69_extract_bits` and `C69_decrypts`. `C69_any_dimension_refuted`, `C69_delta_zero_refuted`. |
| C70 | `CudaFpksModel.v`: the kernel `fp_keyswitch` thread by thread, its launch, the loop over the GPUs, the engine call with its checks. `CudaFpksProofs.v`: the value a thread writes and the value of the CPU are the same sum, cell by cell; the threads write distinct cells, so any order gives the same output. `CudaFpksTheorems.v`: `C70_kernel`, `C70_one_ciphertext`; refuted: `C70_any_size_refuted` (a number of words that is not a multiple of 256), `C70_vector_refuted` (two ciphertexts or more), `C70_fewer_than_gpus_refuted`, `C70_other_gpus_refuted`. |
| C71 | `CudaCbsModel.v`: the kernels `shift_lwe_cbs`, `fill_lut_body_for_cbs` and `copy_add_lwe_cbs` write by write, the bootstraps of the shifted ciphertexts on GPU memory (C61), the functional keyswitch launch (C70), as `host_circuit_bootstrap` chains them. `CudaCbsProofs.v`: each kernel writes distinct cells, so any order gives the same rows. `CudaCbsTheorems.v`: `C71_as_cpu` (the words are those of the circuit bootstrap of the CPU), `C71_circuit_bootstrap` (they encrypt the low bits); refuted: `C71_many_inputs_refuted` (more than 65535 rows: nothing is written). |

Cannot be expressed: the accuracy of the transform itself, which is in the crate `concrete-fft` outside this repository
(its error is a bounded parameter; the conversions around it are in C54), gaussian quality of the noise, security,
timing, and memory safety of `unsafe` blocks.

## 3. Trusted base

### 3.1 Kernel and axioms

* Coq 8.16.1's kernel, including `vm_compute` (used for the NTT tables and the examples).
* `Print Assumptions` follows every property theorem in the `*Theorems*.v` files.  For every one of them except those of C55, C65, C66, C67,
  `C57_fft_circuit`, `C60_real_product`, `C60_table`, `C61_backend`, `C61_lookup`, `C61_words_modulus`, `C62_lookup`, `C68_gate`, `C68_gate_any_dimension_refuted`, `C68_gate_wrong_refuted`, `C68_circuit` and the theorems of C69 and C71 it prints "Closed under the global context": no axiom, not even of the standard library.
* The theorems of C55, C65, C66, C67, `C57_fft_circuit`, `C60_real_product`, `C60_table`, `C61_backend`, `C61_lookup`, `C61_words_modulus`, `C62_lookup`, `C68_gate`, `C68_gate_any_dimension_refuted`, `C68_gate_wrong_refuted`, `C68_circuit` and the theorems of C69 and C71 speak of real numbers (sines, cosines, square roots).  `Print Assumptions` lists for them the axioms of Coq's
  standard library of reals: `ClassicalDedekindReals.sig_forall_dec`, `ClassicalDedekindReals.sig_not_dec`,
  `FunctionalExtensionality.functional_extensionality_dep`, and, for `C55_twisties` (the Machin formula for pi) and the theorems of C65, C66 and C67,
  `Classical_Prop.classic`.
* Loading `Coq.ssr` (through the standard library) brings the module-type fields of `Coq.ssr.ssrunder.Under_rel` into the
  global environment; tools that list every axiom of the loaded libraries show these seven.  No theorem uses them.
* No axiom, `Variable` or `Hypothesis` outside a closed section, `Admitted`, functor, module type or plugin is used.  All libraries
  are from Coq's standard library.

### 3.2 What the model assumes about the code

* The reading of the Rust source recorded in the comments above the definitions.
* The crate `dyn-stack` (C52): `and` and `or` of two requirements round both sizes up to the common alignment; taking a block
  moves to the next aligned address and panics if the block does not fit.  A transform of `concrete-fft` needs no more than its
  plan's `fft_scratch`.  Byte counts are unbounded integers.
* `std::sync::RwLock` and `once_cell::sync::OnceCell` (C56): a write guard excludes all other guards, the lock is poisoned by a panic
  under a write guard only; `get_or_init` runs one closure at a time and leaves the cell empty when the closure panics.
* The AES block cipher is an arbitrary function from counters to blocks of 16 bytes in C01-C10; theorems quantify over it.  C51
  shows that the shipped ciphers are instances; there the processor instructions are modelled after their manuals.
* The device `/dev/random` and `rdseed` are arbitrary sequences of answers.
* Noise samples are arbitrary words (a stream); the box-muller computation on doubles is a parameter of the sampling model.
* The FFT: C26-C31 take the operations on polynomials as a parameter, with the error of a sum of products bounded by a parameter.
  C54 and C55 model these operations on doubles and derive the bound from the accuracy of the transform proper, `plan.fwd` and
  `plan.inv` of the crate `concrete-fft`, and of `f64::sin_cos`.  That the shipped crate and the platform's mathematical library have
  a given accuracy is not proved.  Doubles have an unbounded exponent range (no overflow, no subnormal numbers).
* `rayon`: parallel iterators run the tasks in any order; a task is atomic (tasks write to disjoint slices, which the
  borrow checker enforces).
* `bincode` 1.3 default options: fixed-width little-endian integers, `u64` lengths.  The serialization of `concrete-fft`'s
  Fourier polynomials is a parameter with a round-trip law.
* Doubles (C50, C54): a finite `f64` is the rational it denotes, operations round to 53 bits, ties to even; the exponent is
  unbounded (no infinity, NaN or subnormal), except where C54 works on the 64 bits of a double.  Vector instructions follow
  Intel's manual.
* The generated NTT tables were transcribed mechanically into `NttTables32.v` and `NttTables64.v`.
* CUDA (C58): the threads of a linear kernel run in any order and each writes at most one cell (inputs and outputs are different
  buffers, as the Rust types enforce); calls on a stream run in order; an empty grid is a launch error, which ends the process.
* CUDA (C59): the threads of a block interleave one memory access at a time between two barriers (the warps of older devices, whose
  32 threads move together, allow only some of these interleavings); blocks do not share memory they write.
* CUDA (C61): one block of threads, that is one ciphertext; the blocks of the grid use disjoint parts of memory (C63).  The parts of one allocation are separate buffers.
  `sample_extract_body`, where all the threads write the same word, is modelled by the write of thread 0.  The host function (choice of the sizes, allocation, copy of the indexes of the tables)
  is not modelled.  Arithmetic on doubles is exact: the roundings of integers to doubles are modelled, those of sums and products are not, so the error of C61_lookup leaves them out.
* CUDA (C62): a block runs between two grid barriers with a private memory (shared memory or its part of the scratch buffer) and the global memory; a grid barrier is reached when every block has reached it.  The positive theorems are for one level of
  decomposition, and for the layouts FULLSM and NOSM (see C63 for PARTIALSM).  `C62_levels_refuted` shows for two levels that two schedules give different words.  The occupancy limits of a cooperative launch are not modelled.
* CUDA (C60): the same, and memory is sequentially consistent, which the theorems justify: they show that the kernels have no races.
  Doubles are elements of a commutative ring: rounding is not modelled.  The decimal constants of `twiddles.cu` were rounded to
  doubles and transcribed by `tools/gen_twiddles.py`.
* Sessions (C64): a consumed entity stays usable, as if the caller had cloned it; a call may name its output among its inputs, which Rust forbids; the errors of refused calls are those of C43.
  One word size per session (the 32-bit and 64-bit methods of the engine are instances).  The seeds of seeded ciphertexts are an arbitrary stream.
* The C interface: memory is a map from addresses to words; pointers are addresses; alignment and lifetimes are not modelled.
* Noise estimates (C65): `f64` is the real line, without rounding, infinities or NaN; a noise distribution is a finite list of equally likely
  integers, so the Gaussian key is any such distribution with its second and fourth moments.  The estimates of `operators.rs` for products of
  ciphertexts, bootstraps and circuit bootstraps are not modelled (external products and cmux: C67).
* Keyswitch and modulus switch estimates (C66): same reading of `f64`. The words of the mask (and the body, for the modulus switch) are assumed uniform and independent of the key and of the noises, and the noises of the keyswitching key centred; these are hypotheses of the statements (the space of outcomes), not proved of the generator. Packing several ciphertexts at once, where the noises of the key are shared, and the estimates for the bootstraps are not covered.
* External product and cmux estimates (C67): same reading of `f64`; the products of polynomials are exact (`backend_ok` with error 0, met by the exact backend), so the noise of the floating point FFT is outside, as it is outside the estimate. The columns of an outcome name the words, key coefficients and noises that meet in one coefficient; all the words of the ciphertext (the difference, for the cmux), the key and the noises are assumed independent and the bit uniform. The body words are taken uniform and independent, the message being what remains.
* GPU boolean gates (C68): the calls of one stream run in sequence; each block of the bootstrap runs on its own copy of the memory (C63 shows the parts are disjoint); arithmetic on doubles is exact, as in C61; the memory freed at the end and the array of cleartexts that xor and xnor leak are not modelled; one GPU. The worst-case drift of the switch to 2N, n+1, exceeds the budget for the usual boolean parameters, so `C68_gate` is stated with the actual drift d of the ciphertexts and only `C68_circuit` takes the worst case.
* GPU bit extraction (C69): one input, as the engine always passes; the parts of `bit_extract_buffer` are separate buffers; the element operations of the small kernels run in any order, which covers their threads; the kernels of one stream run in sequence; one level of decomposition for the bootstrap key (C62); `(Torus)(-1ll << s)` is read as the opposite of `1ll << s`, and a shift by 64 or more is undefined (`Panic`); exact doubles, as in C61; the memory of the bootstrap, other than the table and the key, is arbitrary at every launch.
* GPU functional keyswitch (C70): the sizes are naturals, only the number of words of the output is cut to an int; a launch with an empty grid, or with more than 65535 rows of blocks, runs no thread (the host code does not check the error); a write by a GPU to the memory of another one is undefined (`Panic`), no peer access is ever enabled in the code.
* GPU circuit bootstrap (C71): the blocks of the amortized bootstrap are run one after the other, each on its own memory, where the launch runs them together (they share only what they read); the sizes are naturals; a decomposition that uses all the bits of the word is outside the theorems (its last shift count is negative).  The rest of the WoP-PBS on the GPU (vertical packing) is not modelled.

### 3.3 What is modelled

* concrete-csprng: `generators/aes_ctr` (index, states, generic, parallel), `seeders`.  The AES-NI, NEON and software block
  ciphers are modelled at the level of processor instructions (C51); the `aes` crate used by the software one is taken to be AES-128.
* concrete-core `commons`: `math/decomposition`, `math/polynomial`, `math/random`, `math/torus`, `crypto/{lwe,glwe,ggsw,gsw,secret,
  bootstrap,encoding}`, numeric conversions used by them.
* concrete-core `backends/fft`: external product, cmux, blind rotation, bootstrap, WoP-PBS, key conversion, serialization, scratch-memory
  requirements, the x86 and scalar conversions around the transforms.
* concrete-core `backends/ntt`: transforms, modular arithmetic, tables, external product, modulus switches.
* concrete-core `backends/default`: engines listed in `EngineModel.v`, `SerialModel.v`, `EncoderModel.v`, `SeederModel.v`.
* concrete-cpu: the functions listed in `CpuModel.v`.
* concrete-npe and `specification/dispersion.rs`: the functions listed in `NoiseModel.v`.
* concrete-core `backends/cuda/private` and concrete-cuda: vectors and linear kernels (`CudaModel.v`), the keyswitch kernel
  (`CudaKsModel.v`), the Fourier transforms (`CudaFftModel.v`), the bootstraps (`CudaPbsModel.v`, `CudaPbsRealModel.v`, C62 and C63), the boolean gates (`CudaGatesModel.v`), the bit extraction (`CudaBitsModel.v`), the private functional packing keyswitch (`CudaFpksModel.v`).
* concrete-core-ffi: the functions listed in the models of C44, C45, C48 and C49.

### 3.4 What is not modelled

* The rest of `backends/cuda`, concrete-cuda and concrete-core-ffi; concrete-core-wasm, concrete-core-fixture and the test and bench crates.
* `unsafe` memory handling (uninitialised buffers, raw slices), other than the address arithmetic of the scratch stacks (C52) and of
  the C interface (C44, C45, C48, C49).
* `println!`, `Display` and `Debug` output, and the contents of error messages.
* Overflow of `usize` in sizes unless a theorem says otherwise.
