(** * ScratchModel: how much scratch memory the FFT backend asks for, and how it takes it.
    Every operation of the FFT backend works in a byte buffer (a [DynStack]): a [*_scratch] function says how large the buffer
    must be ([StackReq]), and the operation then cuts its temporaries out of it.  Cutting more than there is panics.  The model
    keeps, for each operation, exactly the sequence of cuts it makes; what is computed in the temporaries is in the other model
    files.
    Simplifications, for the whole file: sizes are unbounded integers (on the machine the byte counts are [usize]; a request that
    does not fit returns [SizeOverflow], which the engines unwrap, i.e. panic, before doing anything); the crate [dyn-stack] and
    the transforms of [concrete-fft] are not in /repo: the former is modelled from its documentation, and a transform is assumed
    to run in any buffer that can hold what its plan's [fft_scratch] asks for ([plan], an arbitrary parameter). *)
From Verif Require Import Base WopModel.

(** ** dyn_stack: requirements *)

(** StackReq: a size in bytes and an alignment, a power of two (kept as its logarithm). *)
Record req := Req { rq_log : nat; rq_size : Z }.
Definition rq_align (r : req) : Z := 2 ^ Z.of_nat (rq_log r).

(** The least multiple of [al] that is at least [a]. *)
Definition round_up (a al : Z) : Z := (a + al - 1) / al * al.

(** StackReq::try_new_aligned::<T>(n, 2^al), [sz] the size of a [T] in bytes *)
Definition new_aligned (sz : Z) (n : nat) (al : nat) : req := Req al (sz * Z.of_nat n).
(** StackReq::empty() *)
Definition req_empty : req := Req 0 0.
(** StackReq::try_and: both at the same time, in either order *)
Definition req_and (a b : req) : req :=
  let al := Nat.max (rq_log a) (rq_log b) in
  Req al (round_up (rq_size a) (2 ^ Z.of_nat al) + round_up (rq_size b) (2 ^ Z.of_nat al)).
(** StackReq::try_or: either of them, one at a time *)
Definition req_or (a b : req) : req :=
  let al := Nat.max (rq_log a) (rq_log b) in
  Req al (Z.max (round_up (rq_size a) (2 ^ Z.of_nat al)) (round_up (rq_size b) (2 ^ Z.of_nat al))).
(** StackReq::try_all_of *)
Definition all_of (rs : list req) : req := fold_left req_and rs req_empty.
(** StackReq::try_any_of *)
Definition any_of (rs : list req) : req := fold_left req_or rs req_empty.
(** StackReq::unaligned_bytes_required *)
Definition unaligned_bytes_required (r : req) : Z := rq_size r + (rq_align r - 1).

(** ** dyn_stack: buffers *)

(** DynStack: the bytes that are still free, from address [st_addr], [st_len] of them *)
Record stack := Stack { st_addr : Z; st_len : Z }.

(** make_aligned_with, make_aligned_uninit, collect_aligned: skip to the next aligned address, take [sz * n] bytes from there;
    panics if the buffer is not large enough *)
Definition make_aligned (sz : Z) (n : nat) (al : nat) (s : stack) : outcome stack :=
  let start := round_up (st_addr s) (2 ^ Z.of_nat al) in
  let rest := start + sz * Z.of_nat n in
  if rest <=? st_addr s + st_len s then Ret (Stack rest (st_addr s + st_len s - rest)) else Panic.

(** DynStack::can_hold *)
Definition can_hold (s : stack) (r : req) : bool :=
  round_up (st_addr s) (rq_align r) + rq_size r <=? st_addr s + st_len s.

(** [n] iterations of a loop body that gives all its temporaries back ([stack.rb_mut()]) *)
Fixpoint times (n : nat) (body : outcome unit) : outcome unit :=
  match n with O => Ret tt | S n' => let! _ := body in times n' body end.

(** The same with a different body at each iteration *)
Fixpoint each {A} (l : list A) (body : A -> outcome unit) : outcome unit :=
  match l with [] => Ret tt | a :: l' => let! _ := body a in each l' body end.

(** aligned_vec::CACHELINE_ALIGN = 64 bytes on the 64-bit platforms *)
Definition CACHELINE : nat := 6.
(** size_of::<c64>() *)
Definition C64 : Z := 16.

Section Backend.
(** What the plan of the transform asks for: concrete_fft's [fft_scratch()] *)
Variable plan : req.
(** Build profile, and the size of a scalar in bytes (4 or 8) *)
Variables (p : profile) (sz : Z).

(** plan.fwd, plan.inv: run if the buffer can hold what the plan asks for (assumption on concrete-fft) *)
Definition run_plan (s : stack) : outcome unit := assert_ (can_hold s plan).

(** ** Transforms: concrete-core/src/backends/fft/private/math/fft/mod.rs *)

(** forward_scratch, 370-372 *)
Definition forward_scratch : req := plan.
(** backward_scratch, 375-382 *)
Definition backward_scratch (N : nat) : req := req_and plan (new_aligned C64 (N / 2) CACHELINE).
(** forward_as_torus, forward_as_integer, forward_with_conv, 395-424, 476-496 *)
Definition forward (s : stack) : outcome unit := run_plan s.
(** backward_as_torus, add_backward_as_torus, backward_with_conv, 436-471, 501-522: copies the transform first *)
Definition backward (N : nat) (s : stack) : outcome unit :=
  let! s := make_aligned C64 (N / 2) CACHELINE s in run_plan s.

(** ** GGSW ciphertexts: concrete-core/src/backends/fft/private/crypto/ggsw.rs *)

(** fill_with_forward_fourier, 262-284: one transform per polynomial ([polys] of them) *)
Definition ggsw_fill_forward (polys : nat) (s : stack) : outcome unit := times polys (forward s).
(** fill_with_backward_fourier, 295-320 *)
Definition ggsw_fill_backward (N polys : nat) (s : stack) : outcome unit := times polys (backward N s).

(** external_product_scratch, 323-343 *)
Definition external_product_scratch (g N : nat) : req :=
  let standard_scratch := new_aligned sz (g * N) CACHELINE in
  let fourier_scratch := new_aligned C64 (g * N / 2) CACHELINE in
  let fourier_scratch_single := new_aligned C64 (N / 2) CACHELINE in
  let substack3 := forward_scratch in
  let substack2 := req_and substack3 fourier_scratch_single in
  let substack1 := req_and substack2 standard_scratch in
  let substack0 := any_of [req_and substack1 standard_scratch; backward_scratch N] in
  req_and substack0 fourier_scratch.

(** external_product, 347-470, collect_next_term, 473-485, and TensorSignedDecompositionLendingIter::new
    (private/math/decomposition.rs 27-46): the output in the Fourier domain, the states of the decomposition, then for each of
    the [l] levels the decomposed ciphertext and for each of its [g] polynomials a transform; then the transforms back *)
Definition external_product (g N l : nat) (s : stack) : outcome unit :=
  let! substack0 := make_aligned C64 (N / 2 * g) CACHELINE s in
  let! substack1 := make_aligned sz (g * N) CACHELINE substack0 in
  let! _ := times l
    (let! substack2 := make_aligned sz (g * N) CACHELINE substack1 in
     times g
       (let! substack3 := make_aligned C64 (N / 2) CACHELINE substack2 in
        forward substack3)) in
  if (Nat.eqb l 0 || Nat.eqb g 0)%bool then Ret tt else times g (backward N substack0).

(** cmux_scratch, 684-690 *)
Definition cmux_scratch (g N : nat) : req := external_product_scratch g N.
(** cmux, 693-708: works in place, then the external product *)
Definition cmux (g N l : nat) (s : stack) : outcome unit := external_product g N l s.

(** ** Bootstrap: concrete-core/src/backends/fft/private/crypto/bootstrap.rs *)

(** fill_with_forward_fourier_scratch, 145-147 (and ggsw.rs 255-257) *)
Definition fill_with_forward_fourier_scratch : req := forward_scratch.
(** fill_with_forward_fourier, 152-163: every GGSW ciphertext of the key *)
Definition bsk_fill_forward (n polys : nat) (s : stack) : outcome unit := times n (ggsw_fill_forward polys s).

(** blind_rotate_scratch, 167-174 *)
Definition blind_rotate_scratch (g N : nat) : req :=
  req_and (new_aligned sz (g * N) CACHELINE) (cmux_scratch g N).
(** bootstrap_scratch, 177-185 *)
Definition bootstrap_scratch (g N : nat) : req :=
  req_and (blind_rotate_scratch g N) (new_aligned sz (g * N) CACHELINE).

(** blind_rotate, 188-250: for each non-zero element of the mask a copy of the accumulator and a CMUX *)
Definition blind_rotate (g N l : nat) (mask : list Z) (s : stack) : outcome unit :=
  each mask (fun a =>
    if a =? 0 then Ret tt
    else let! s := make_aligned sz (g * N) CACHELINE s in cmux g N l s).

(** bootstrap, 252-273: a copy of the accumulator, then the blind rotation *)
Definition bootstrap (g N l : nat) (mask : list Z) (s : stack) : outcome unit :=
  let! s := make_aligned sz (g * N) CACHELINE s in blind_rotate g N l mask s.

(** ** Without padding: concrete-core/src/backends/fft/private/crypto/wop_pbs/mod.rs *)

(** extract_bits_scratch, 29-58; [n] the dimension of the input, [ks] the dimension after the keyswitch *)
Definition extract_bits_scratch (n ks g N : nat) : req :=
  let lwe_in_buffer := new_aligned sz (n + 1) CACHELINE in
  let lwe_out_ks_buffer := new_aligned sz (ks + 1) CACHELINE in
  let pbs_accumulator := new_aligned sz (g * N) CACHELINE in
  let lwe_out_pbs_buffer := new_aligned sz ((g - 1) * N + 1) CACHELINE in
  let lwe_bit_left_shift_buffer := lwe_in_buffer in
  req_and (req_and (req_and (req_and lwe_in_buffer lwe_out_ks_buffer) pbs_accumulator) lwe_out_pbs_buffer)
    (any_of [lwe_bit_left_shift_buffer; bootstrap_scratch g N]).

(** extract_bits, 66-205; [count] ciphertexts in the output, [bits] bits to extract, [mask i] what the keyswitch of bit [i]
    returned *)
Definition extract_bits (n ks g N l count bits : nat) (mask : nat -> list Z) (s : stack) : outcome unit :=
  let! s := make_aligned sz (n + 1) CACHELINE s in
  let! s := make_aligned sz (ks + 1) CACHELINE s in
  let! s := make_aligned sz (g * N) CACHELINE s in
  let! s := make_aligned sz ((g - 1) * N + 1) CACHELINE s in
  (fix go (is : list nat) :=
     match is with
     | [] => Ret tt
     | i :: is' =>
         let! _ := make_aligned sz (n + 1) CACHELINE s in
         if Z.of_nat i =? Z.of_nat bits - 1 then Ret tt
         else let! _ := bootstrap g N l (mask i) s in go is'
     end) (seq 0 count).

(** homomorphic_shift_boolean_scratch, 316-333 *)
Definition homomorphic_shift_boolean_scratch (lwe_in_size N g : nat) : req :=
  req_and (req_and (new_aligned sz lwe_in_size CACHELINE) (new_aligned sz (N * g) CACHELINE)) (bootstrap_scratch g N).
(** homomorphic_shift_boolean, 339-404 *)
Definition homomorphic_shift_boolean (lwe_in_size g N l : nat) (mask : list Z) (s : stack) : outcome unit :=
  let! s := make_aligned sz lwe_in_size CACHELINE s in
  let! s := make_aligned sz (N * g) CACHELINE s in
  bootstrap g N l mask s.

(** circuit_bootstrap_boolean_scratch, 207-217 *)
Definition circuit_bootstrap_boolean_scratch (lwe_in_size bsk_output_lwe_size N g : nat) : req :=
  req_and (new_aligned sz bsk_output_lwe_size CACHELINE) (homomorphic_shift_boolean_scratch lwe_in_size N g).
(** circuit_bootstrap_boolean, 223-314; [levels] the level count of the result (the functional keyswitches take no scratch) *)
Definition circuit_bootstrap_boolean (lwe_in_size g N l levels : nat) (mask : list Z) (s : stack) : outcome unit :=
  let! s := make_aligned sz ((g - 1) * N + 1) CACHELINE s in
  times levels (homomorphic_shift_boolean lwe_in_size g N l mask s).

(** cmux_tree_memory_optimized_scratch, 624-642 *)
Definition cmux_tree_scratch (N g nb_layer : nat) : req :=
  let t_scratch := new_aligned sz (N * g * nb_layer) CACHELINE in
  all_of [t_scratch; t_scratch; new_aligned 8 nb_layer 3; t_scratch; external_product_scratch g N].

(** cmux_tree_memory_optimized, 646-774, with its debug_assert on the size of the buffer (660-663).
    Simplification: [products] external products are run one after the other, any number of them. *)
Definition cmux_tree (N g l nb_layer products : nat) (s : stack) : outcome unit :=
  if Nat.ltb 0 nb_layer then
    let! _ := match p with Debug => assert_ (can_hold s (cmux_tree_scratch N g nb_layer)) | Release => Ret tt end in
    let! s := make_aligned sz (N * g * nb_layer) CACHELINE s in
    let! s := make_aligned sz (N * g * nb_layer) CACHELINE s in
    let! s := make_aligned 8 nb_layer 3 s in
    times products (let! s := make_aligned sz (g * N) CACHELINE s in external_product g N l s)
  else Ret tt.

(** blind_rotate_scratch, 1021-1030 *)
Definition vp_blind_rotate_scratch (g N : nat) : req :=
  all_of [new_aligned sz (N * g) CACHELINE; cmux_scratch g N].
(** blind_rotate, 1032-1052, on [count] GGSW ciphertexts *)
Definition vp_blind_rotate (g N l count : nat) (s : stack) : outcome unit :=
  times count (let! s := make_aligned sz (g * N) CACHELINE s in cmux g N l s).

(** The number of layers of the CMUX tree, 931-943 and 981-990: the same computation in the requirement and in the operation *)
Definition tree_layers (lut_polynomial_count ggsw_count : nat) : outcome nat :=
  let! log_lut_number := plain p usize_bits (sz * 8 - 1 - leading_zeros (Z.of_nat lut_polynomial_count)) in
  Ret (if Z.of_nat ggsw_count <? log_lut_number then 0%nat else Z.to_nat log_lut_number).

(** vertical_packing_scratch, 924-958 *)
Definition vertical_packing_scratch (g N lut_polynomial_count ggsw_count : nat) : outcome req :=
  let! layers := tree_layers lut_polynomial_count ggsw_count in
  Ret (all_of [new_aligned sz (N * g) CACHELINE;
               any_of [vp_blind_rotate_scratch g N; cmux_tree_scratch N g layers]]).

(** vertical_packing, 961-1019; [l] the level count of the GGSW ciphertexts *)
Definition vertical_packing (g N l lut_polynomial_count ggsw_count products : nat) (s : stack) : outcome unit :=
  let! layers := tree_layers lut_polynomial_count ggsw_count in
  let! s := make_aligned sz (N * g) CACHELINE s in
  let! _ := cmux_tree N g l layers products s in
  vp_blind_rotate g N l (ggsw_count - layers) s.

(** circuit_bootstrap_boolean_vertical_packing_scratch, 776-821 *)
Definition cbs_vp_scratch (in_count out_count lwe_in_size big_lut_count bsk_output_lwe_size N g level_cbs : nat) : outcome req :=
  if Nat.eqb out_count 0 then Panic (* division by zero *)
  else
    let! vp := vertical_packing_scratch g N (big_lut_count / out_count) in_count in
    Ret (all_of [new_aligned C64 (in_count * N / 2 * g * g * level_cbs) CACHELINE;
                 new_aligned sz (N * g * g * level_cbs) CACHELINE;
                 any_of [circuit_bootstrap_boolean_scratch lwe_in_size bsk_output_lwe_size N g;
                         fill_with_forward_fourier_scratch;
                         vp]]).

(** circuit_bootstrap_boolean_vertical_packing, 829-922.  The bootstrap key has GLWE size [g], polynomial size [N] and level
    count [l]; the functional keyswitch keys produce ciphertexts of GLWE size [g'] and polynomial size [N'].  [masks]: the
    input ciphertexts.  The other debug_asserts are in [WopModel.circuit_bootstrap_vertical_packing]. *)
Definition cbs_vp (masks : list (list Z)) (out_count lwe_in_size big_lut_count g N l g' N' level_cbs products : nat) (s : stack)
    : outcome unit :=
  let in_count := length masks in
  let! _ := match p with
            | Debug =>
                let! r := cbs_vp_scratch in_count out_count lwe_in_size big_lut_count ((g - 1) * N + 1) N' g level_cbs in
                assert_ (can_hold s r)
            | Release => Ret tt
            end in
  let! s := make_aligned C64 (in_count * N' / 2 * g' * g' * level_cbs) CACHELINE s in
  let! s := make_aligned sz (N' * g' * g' * level_cbs) CACHELINE s in
  let! _ := each masks (fun mask =>
    let! _ := circuit_bootstrap_boolean lwe_in_size g N l level_cbs mask s in
    ggsw_fill_forward (g' * g' * level_cbs) s) in
  if Nat.eqb out_count 0 then Panic
  else times out_count (vertical_packing g' N' level_cbs (big_lut_count / out_count) in_count products s).

End Backend.

(** ** Buffers *)

(** FftEngine::resize then FftEngine::stack, concrete-core/src/backends/fft/implementation/engines/fft_engine/mod.rs 44-50: the
    engine's vector is resized to [unaligned_bytes_required] bytes, wherever the allocator puts it *)
Definition engine_stack (addr : Z) (r : req) : stack := Stack addr (unaligned_bytes_required r).

(** concrete-cpu/src/bootstrap/mod.rs 36-38, 119-120 and 183, wop_pbs.rs 56-57, 151, 209-210: the caller is told the size and the
    alignment, and passes a buffer of that size and alignment *)
Definition c_stack (addr : Z) (r : req) : stack := Stack addr (rq_size r).
