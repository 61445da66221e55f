(** * Model of the private functional packing keyswitch of the CUDA backend
    /repo/concrete-cuda/cuda/src/keyswitch.cuh (fp_keyswitch), .../keyswitch.cu,
    /repo/concrete-core/src/backends/cuda/private/crypto/keyswitch/mod.rs and the engine entry point
    .../cuda_engine/lwe_ciphertext_vector_glwe_ciphertext_discarding_private_functional_packing_keyswitch.rs.

    A thread has one cell of shared memory, which no other thread accesses, reads the inputs, which no thread writes, and writes one
    word of the output: it is a [kernel] of CudaModel.v.  The sizes are uint32_t in the launch; they are naturals here. *)
From Verif Require Import Base Word CudaModel CudaKsModel EngineModel.

Section Fpks.
Context (w : Z).

(** keyswitch.cuh:217 *)
Definition fp_threads : nat := 256.

Section Thread.
Context (b : Z) (l n_in k N : nat) (fp_ksk_array : list Z).
(** keyswitch.cuh:36, 39: coefficients of one key and of the block of one coefficient of the input *)
Definition fp_ksk_size : nat := S n_in * l * S k * N.
Definition fp_ksk_block_size : nat := S k * N * l.
(** keyswitch.cuh:78-84; [cell] is chunk_id * coef_per_block + tid, the levels of the key are taken from the last to the first. *)
Fixpoint fp_levels (ksk_block cell : nat) (js : list nat) (state acc : Z) : outcome Z :=
  match js with
  | [] => Ret acc
  | j :: js' =>
      let ksk_glwe := (ksk_block + (l - j - 1) * (S k * N))%nat in
      let '(decomposed, state) := gpu_decompose_one w b state in
      let! x := get fp_ksk_array (ksk_glwe + cell) in
      fp_levels ksk_block cell js' state (wsub w acc (wmul w decomposed x))
  end.
(** keyswitch.cuh:67-85; every coefficient of the input, its body included. *)
Fixpoint fp_loop (lwe_array_in : list Z) (cur_input cur_ksk cell : nat) (is : list nat) (acc : Z) : outcome Z :=
  match is with
  | [] => Ret acc
  | i :: is' =>
      let! a := get lwe_array_in (cur_input + i) in
      let a_i := gpu_round w b l a in
      let state := shr a_i (w - b * Z.of_nat l) in
      let! acc := fp_levels (cur_ksk + i * fp_ksk_block_size) cell (seq 0 l) state acc in
      fp_loop lwe_array_in cur_input cur_ksk cell is' acc
  end.
(** keyswitch.cuh:24-87: the thread [t] of a grid of [chunks] blocks by one row of blocks per ciphertext. *)
Definition fp_keyswitch (chunks keys : nat) (lwe_array_in : list Z) : kernel := fun t =>
  let tid := (t mod fp_threads)%nat in
  let chunk_id := ((t / fp_threads) mod chunks)%nat in
  let ciphertext_id := ((t / fp_threads) / chunks)%nat in
  let! _ := assert_ (Nat.ltb 0 keys) in
  let ksk_id := (ciphertext_id mod keys)%nat in
  let cell := (chunk_id * fp_threads + tid)%nat in
  let! v := fp_loop lwe_array_in (ciphertext_id * S n_in) (ksk_id * fp_ksk_size) cell (seq 0 (S n_in)) 0 in
  Ret (Some ((ciphertext_id * (S k * N) + cell)%nat, v)).
End Thread.

(** keyswitch.cuh:209-228.  The number of chunks is rounded down.  The launch is not followed by check_cuda_error: a grid that is
    empty, or that has more than 65535 rows of blocks, runs no thread and the call returns. *)
Definition host_fp_keyswitch (sched : nat -> list nat) (out lwe_in fp_ksk : list Z) (n_in k N : nat) (b : Z) (l : nat) (samples : Z) (keys : nat)
    : outcome (list Z) :=
  let glwe_accumulator_size := i32 (Z.of_nat (S k) * Z.of_nat N) in
  let chunks := Z.quot glwe_accumulator_size (Z.of_nat fp_threads) in
  if (1 <=? chunks) && (1 <=? samples) && (samples <=? 65535)
  then run_threads (fp_keyswitch b l n_in k N fp_ksk (Z.to_nat chunks) keys lwe_in)
         (sched (Z.to_nat samples * Z.to_nat chunks * fp_threads)%nat) out
  else Ret out.

(** keyswitch/mod.rs:90-122: the GPUs in turn, with the samples of an equal share.  The output is one vector, on GPU 0
    (glwe/ciphertext.rs:5-17): no other GPU has access to it, a thread that writes it from there faults. *)
Fixpoint fp_on_every_gpu (sched : nat -> nat -> list nat) (available count n_in k N : nat) (b : Z) (l keys : nat) (ins ksks : list (list Z))
    (indexes : list nat) (out : list Z) : outcome (list Z) :=
  match indexes with
  | [] => Ret out
  | i :: rest =>
      let! samples := compute_number_of_samples_on_gpu available count i in
      let! a := get ins i in
      let! ksk := get ksks i in
      let call o := host_fp_keyswitch (sched i) o a ksk n_in k N b l (u32 (Z.of_nat samples)) keys in
      let! out := if Nat.eqb i 0 then call out else let! _ := call [] in Ret out in
      fp_on_every_gpu sched available count n_in k N b l keys ins ksks rest out
  end.
Definition execute_fp_keyswitch sched available count n_in k N b l keys ins ksks out : outcome (list Z) :=
  fp_on_every_gpu sched available count n_in k N b l keys ins ksks (seq 0 (number_of_active_gpus available count)) out.

(** The entities on the GPUs: the data and the sizes stored beside it (glwe/ciphertext.rs:10-17, lwe/list.rs CudaLweList,
    keyswitch/mod.rs:63-80). *)
Record cuda_glwe := CudaGlwe { dg_k : nat; dg_N : nat; dg_vec : list Z }.
Record cuda_lwe_vec := CudaLweVec { dl_dim : nat; dl_count : nat; dl_vecs : list (list Z) }.
Record cuda_pfpks := CudaPfpks { dp_in : nat; dp_k : nat; dp_N : nat; dp_b : Z; dp_l : nat; dp_count : nat; dp_vecs : list (list Z) }.
(** The engine entry point, 23-63 and 72-112, with the checks of the specification's file of the same name, 27-60. *)
Definition cuda_discard_private_functional_packing_keyswitch (sched : nat -> nat -> list nat) (available : nat)
    (output : cuda_glwe) (input : cuda_lwe_vec) (pfpksk : cuda_pfpks) : outcome (result (list Z)) :=
  refuse (neq (dl_dim input) (dp_in pfpksk)) InputLweDimensionMismatch
  (refuse (neq (dg_k output) (dp_k pfpksk)) OutputGlweDimensionMismatch
  (refuse (neq (dg_N output) (dp_N pfpksk)) OutputPolynomialSizeMismatch
  (refuse (Nat.ltb (dg_N output) (dl_count input)) CiphertextCountMismatch
    (run (execute_fp_keyswitch sched available (dl_count input) (dl_dim input) (dg_k output) (dg_N output) (dp_b pfpksk) (dp_l pfpksk) (dp_count pfpksk)
            (dl_vecs input) (dp_vecs pfpksk) (dg_vec output)))))).
(** lwe_private_functional_packing_keyswitch_key_conversion.rs:52-80: every GPU has the container of the key, one key. *)
Definition convert_pfpks (available : nat) (key : pks_key) : cuda_pfpks :=
  CudaPfpks (length (pk_blocks key) - 1) (pk_k key) (pk_N key) (pk_b key) (pk_l key) 1 (repeat (concat (concat (concat (pk_blocks key)))) available).
(** glwe_ciphertext_conversion.rs:65-82: the container, on GPU 0. *)
Definition convert_glwe (c : glwe_ct) : cuda_glwe := CudaGlwe (g_dim c) (g_N c) (concat (g_polys c)).
End Fpks.
