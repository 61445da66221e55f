(** * Model of the scratch memory of the bootstrap kernels of the CUDA backend: its size, and the pointers of the kernels into it
    /repo/concrete-cuda/cuda/src/bootstrap_amortized.cuh and bootstrap_low_latency.cuh.  Addresses are bytes, counted from the start of pbs_buffer
    or of the shared memory of a block.  [sizeof] is sizeof(Torus), 16 is sizeof(double2). *)
From Verif Require Import Base.
Local Open Scope Z_scope.

(** The template parameter SMD (crypto headers, sharedMemDegree) *)
Inductive smd := NOSM | PARTIALSM | FULLSM.
Definition smd_eqb (x y : smd) : bool := match x, y with NOSM, NOSM | PARTIALSM, PARTIALSM | FULLSM, FULLSM => true | _, _ => false end.
(** The branches of bootstrap_amortized.cuh:324-346 and bootstrap_low_latency.cuh:379-396 *)
Definition choose_smd (max_shared_memory partial_sm full_sm : Z) : smd :=
  if max_shared_memory <? partial_sm then NOSM else if max_shared_memory <? full_sm then PARTIALSM else FULLSM.
(** Arithmetic of uint32_t and of uint64_t *)
Definition u32 (x : Z) : Z := x mod 2 ^ 32.
Definition u64 (x : Z) : Z := x mod 2 ^ 64.

(** A pointer into the shared memory of a block or into pbs_buffer, and the bytes that the kernel uses from there *)
Inductive place := Shared (block : Z) | Device.
Record region := Region { at_ : place; start : Z; bytes : Z }.
Definition shift (p : place * Z) (x : Z) : place * Z := (fst p, snd p + x).
Definition used (p : place * Z) (n : Z) : region := Region (fst p) (snd p) n.

Section Scratch.
Context (sizeof : Z) (glwe_dimension polynomial_size : Z).
Notation k := glwe_dimension.
Notation N := polynomial_size.

(** bootstrap_amortized.cuh:212-223 *)
Definition amortized_full_sm : Z := u64 (u64 (u64 (sizeof * N * (k + 1)) + u64 (sizeof * N * (k + 1))) + u64 (16 * N) / 2 + u64 (u64 (16 * N) / 2 * (k + 1))).
(** 225-229 *)
Definition amortized_partial_sm : Z := u64 (16 * N) / 2.
(** 231-249 *)
Definition amortized_buffer_size (count max_shared_memory : Z) : Z :=
  let full_sm := amortized_full_sm in let partial_sm := amortized_partial_sm in
  let partial_dm := u64 (full_sm - partial_sm) in let full_dm := full_sm in
  let device_mem := if max_shared_memory <? partial_sm then u64 (full_dm * count) else if max_shared_memory <? full_sm then u64 (partial_dm * count) else 0 in
  u64 (device_mem + device_mem mod 16).
(** 324-346: the shared memory of a block and device_memory_size_per_sample *)
Definition amortized_shared (m : smd) : Z := match m with NOSM => 0 | PARTIALSM => amortized_partial_sm | FULLSM => amortized_full_sm end.
Definition amortized_per_sample (m : smd) : Z := match m with NOSM => amortized_full_sm | PARTIALSM => u64 (amortized_full_sm - amortized_partial_sm) | FULLSM => 0 end.
(** 62-82 for block [i]: accumulator, accumulator_rotated, res_fft, accumulator_fft *)
Definition amortized_regions (m : smd) (i : Z) : list region :=
  let selected_memory := if smd_eqb m FULLSM then (Shared i, 0) else (Device, u64 (i * amortized_per_sample m)) in
  let accumulator := selected_memory in
  let accumulator_rotated := shift accumulator (sizeof * u32 ((k + 1) * N)) in
  let res_fft := shift accumulator_rotated (16 * (u32 ((k + 1) * N) / (16 / sizeof))) in
  let accumulator_fft := if smd_eqb m PARTIALSM then (Shared i, 0) else shift res_fft (16 * (u32 ((k + 1) * N) / 2)) in
  [used accumulator (sizeof * ((k + 1) * N)); used accumulator_rotated (sizeof * ((k + 1) * N)); used res_fft (16 * ((k + 1) * (N / 2))); used accumulator_fft (16 * (N / 2))].

Context (level_count : Z).
Notation l := level_count.
(** bootstrap_low_latency.cuh:248-254 *)
Definition low_latency_full_sm : Z := u64 (u64 (sizeof * N) + u64 (sizeof * N) + u64 (16 * N) / 2).
(** 256-260 *)
Definition low_latency_partial_sm : Z := u64 (16 * N) / 2.
(** The number of complex numbers of the join buffer, lines 281-283 and 360-361 *)
Definition join_length (count : Z) : Z := u32 (u32 (u32 ((k + 1) * l) * count) * N) / 2.
(** 262-285 *)
Definition low_latency_buffer_size (count max_shared_memory : Z) : Z :=
  let full_sm := low_latency_full_sm in let partial_sm := low_latency_partial_sm in
  let partial_dm := u64 (full_sm - partial_sm) in let full_dm := full_sm in
  let device_mem := if max_shared_memory <? partial_sm then u64 (full_dm * count * l * (k + 1)) else if max_shared_memory <? full_sm then u64 (partial_dm * count * l * (k + 1)) else 0 in
  let buffer_size := u64 (device_mem + join_length count * 16) in
  u64 (buffer_size + buffer_size mod 16).
(** 353-361: buffer_fft, the join buffer *)
Definition join_start (count max_shared_memory : Z) : Z := 16 * (low_latency_buffer_size count max_shared_memory / 16 - join_length count).
(** 379-396 *)
Definition low_latency_shared (m : smd) : Z := match m with NOSM => 0 | PARTIALSM => low_latency_partial_sm | FULLSM => low_latency_full_sm end.
Definition low_latency_per_block (m : smd) : Z := match m with NOSM => low_latency_full_sm | PARTIALSM => u64 (low_latency_full_sm - low_latency_partial_sm) | FULLSM => 0 end.
(** 145-167 for the block whose block_index is [i]: accumulator_fft, accumulator, accumulator_rotated *)
Definition low_latency_regions (m : smd) (i : Z) : list region :=
  let selected_memory := if smd_eqb m FULLSM then (Shared i, 0) else (Device, u64 (i * low_latency_per_block m)) in
  let accumulator_fft := selected_memory in
  let accumulator := shift accumulator_fft (sizeof * (u64 (16 * N) / 2 / sizeof)) in
  let accumulator_rotated := shift accumulator (sizeof * N) in
  let accumulator_fft := if smd_eqb m PARTIALSM then (Shared i, 0) else accumulator_fft in
  [used accumulator_fft (16 * (N / 2)); used accumulator (sizeof * N); used accumulator_rotated (sizeof * N)].
(** 48-49, 56, 86, 176-178: polynomial [p] of level [level] in the join buffer of ciphertext [z] *)
Definition join_region (count max_shared_memory z level p : Z) : region :=
  Region Device (join_start count max_shared_memory + 16 * (u32 (u32 (u32 (z * l) * (k + 1)) * N) / 2 + u32 (u32 (level * (k + 1)) * N) / 2 + u32 (p * N) / 2)) (16 * (N / 2)).
End Scratch.
