(** * Model of the circuit bootstrap of the CUDA backend
    /repo/concrete-cuda/cuda/src/circuit_bootstrap.cuh (host_circuit_bootstrap and its kernels), with the amortized bootstrap of CudaPbsModel and
    the functional packing keyswitch of CudaFpksModel; the indexes of the tables are those of wop_bootstrap.cuh:83-84.  The parts of cbs_buffer
    are separate buffers; the sizes, which are uint32_t, are naturals. *)
From Coq Require Import Reals.
From Verif Require Import Base Word CudaBlockModel CudaFftModel CudaFftRealTheorems CudaPbsModel CudaPbsRealModel CudaKsModel CudaGatesModel CudaBitsModel CudaFpksModel.
From Verif Require CudaModel.
Local Open Scope Z_scope.

(** A kernel without barriers that reads buffers no thread writes: write number [j] of all its threads, a cell and what computes its value.  The
    writes are run in any order, which covers every interleaving of the threads. *)
Fixpoint run_writes (ops : list (nat * outcome Z)) (order : list nat) (buf : list Z) : outcome (list Z) :=
  match order with
  | [] => Ret buf
  | j :: rest =>
      let! (cell, value) := CudaModel.get ops j in
      let! v := value in
      let! buf := set_cell buf cell v in
      run_writes ops rest buf
  end.
Definition write_kernel (sched : nat -> list nat) (ops : list (nat * outcome Z)) (buf : list Z) : outcome (list Z) :=
  run_writes ops (sched (length ops)) buf.

(** What the program does not choose: the orders of the five kernels, the schedule and the memory of the bootstrap of every ciphertext, what the
    buffers contain. *)
Record cbs_hardware := CbsHardware {
  y_order : nat -> nat -> list nat;
  y_pbs : nat -> list nat;
  y_memory : nat -> mem addr (val R);
  y_shifted : list Z;
  y_fp_input : list Z
}.

Section CbsKernels.
Context (w : Z) (H T opt k level : nat).
Notation degree := (2 * H)%nat.
Notation popt := (2 * opt)%nat.
Notation lwe_out := (k * degree + 1)%nat.

(** 18-37; blockIdx.y is the input, blockIdx.x the level, 256 threads.  rem is lwe_size & 255. *)
Definition shift_ops (inputs lwe_size : nat) (src : list Z) (value : Z) : list (nat * outcome Z) :=
  flat_map (fun y => flat_map (fun x =>
    map (fun c => (((y * level + x) * lwe_size + c)%nat, let! v := CudaModel.get src (y * lwe_size + c) in Ret (wmul w v value))) (small_cells lwe_size))
    (seq 0 level)) (seq 0 inputs).
(** bit_extraction.cuh:72-75, one thread per ciphertext *)
Definition add_to_bodies (sched : nat -> list nat) (count lwe_dimension : nat) (value : Z) (lwe : list Z) : outcome (list Z) :=
  cell_kernel sched (fun _ old => Ret (wadd w old value)) (map (fun block => block * (lwe_dimension + 1) + lwe_dimension)%nat (seq 0 count)) lwe.
(** 47-62; blockIdx.x is the table, the count of the shift is a uint32_t. *)
Definition fill_ops (base_log_cbs : Z) : list (nat * outcome Z) :=
  flat_map (fun block => flat_map (fun t => map (fun c =>
    (((block * (k + 1) + k) * degree + c)%nat,
     let! alpha := one_shl w (CudaModel.u32 (w - 1 - base_log_cbs * Z.of_nat (block + 1))) in Ret (wneg w alpha))) (strided T popt t)) (seq 0 T)) (seq 0 level).
(** 77-102; blockIdx.x is the destination, blockIdx.y the slice (the blocks and threads of [shift_cells]), the count of the shift is a size_t. *)
Definition copy_ops (base_log_cbs : Z) (pbs_count : nat) (lwe_src : list Z) : list (nat * outcome Z) :=
  flat_map (fun dst_lwe_id =>
    let src_lwe_id := (dst_lwe_id / (k + 1))%nat in
    let cur_cbs_level := (src_lwe_id mod level + 1)%nat in
    map (fun c => ((dst_lwe_id * lwe_out + c)%nat,
      let! v := CudaModel.get lwe_src (src_lwe_id * lwe_out + c) in
      if Nat.eqb c (k * degree)
      then let! val := one_shl w ((w - 1 - base_log_cbs * Z.of_nat cur_cbs_level) mod 2 ^ 64) in Ret (wadd w v val)
      else Ret v)) (shift_cells H T opt k)) (seq 0 (pbs_count * (k + 1))).
End CbsKernels.

Section Cbs.
Context (w : Z) (y : cbs_hardware) (ok : addr -> bool) (H T opt k : nat) (partial : bool) (base_log_bsk : Z) (level_bsk lwe_dimension level_cbs : nat) (base_log_cbs : Z).
Notation degree := (2 * H)%nat.
Notation lwe_out := (k * degree + 1)%nat.

(** bootstrap_amortized.cuh:52-230 for the block [j], on the ciphertext [lwe] and the table number [index] of [lut]: what it writes *)
Definition cbs_pbs (lut : list Z) (j : nat) (lwe : list Z) (index : nat) : outcome (list Z) :=
  let! m := launch addr_eqb ok T (device_bootstrap_amortized w 0%R Rplus Rmult Rminus degree (2 * opt) (torus_first w) (torus_second w) IZR exact_twiddle (/ sqrt 2)%R (/ INR H)%R
    base_log_bsk k level_bsk partial lwe_dimension lwe (index * degree * (k + 1)) 0) (y_pbs y j) (copied_words LUT lut (y_memory y j)) in
  Ret (map (fun i => wd (m (Word OUT i))) (seq 0 lwe_out)).
(** The blocks of host_bootstrap_amortized: a block writes its own ciphertext and its own scratch memory (C63). *)
Fixpoint cbs_pbs_blocks (lut shifted : list Z) (lut_vector_indexes : list nat) (blocks : list nat) : outcome (list Z) :=
  match blocks with
  | [] => Ret []
  | j :: rest =>
      let! index := CudaModel.get lut_vector_indexes j in
      let! done := cbs_pbs lut j (firstn (lwe_dimension + 1) (skipn (j * (lwe_dimension + 1)) shifted)) index in
      let! others := cbs_pbs_blocks lut shifted lut_vector_indexes rest in
      Ret (done ++ others)
  end.
(** 156-237 host_circuit_bootstrap *)
Definition host_circuit_bootstrap (ggsw_out lwe_array_in fp_ksk_array : list Z) (lut_vector_indexes : list nat) (delta_log : Z)
    (level_pksk : nat) (base_log_pksk : Z) (number_of_inputs : nat) : outcome (list Z) :=
  let pbs_count := (number_of_inputs * level_cbs)%nat in
  let! factor := one_shl w (CudaModel.u32 (w - delta_log - 1)) in
  let! shifted := write_kernel (y_order y 0) (shift_ops w level_cbs number_of_inputs (lwe_dimension + 1) lwe_array_in factor) (y_shifted y) in
  let! quarter := one_shl w (w - 2) in
  let! shifted := add_to_bodies w (y_order y 1) pbs_count lwe_dimension quarter shifted in
  let! lut := write_kernel (y_order y 2) (fill_ops w H T opt k level_cbs base_log_cbs) (repeat 0 (level_cbs * (k + 1) * degree)) in
  let! lwe_array_out_pbs := cbs_pbs_blocks lut shifted lut_vector_indexes (seq 0 pbs_count) in
  let! lwe_array_in_fp_ks := write_kernel (y_order y 3) (copy_ops w H T opt k level_cbs base_log_cbs pbs_count lwe_array_out_pbs) (y_fp_input y) in
  host_fp_keyswitch w (y_order y 4) ggsw_out lwe_array_in_fp_ks fp_ksk_array (k * degree) k degree base_log_pksk level_pksk
    (Z.of_nat (pbs_count * (k + 1))) (k + 1).
(** wop_bootstrap.cuh:83-84 *)
Definition cbs_lut_indexes (number_of_inputs : nat) : list nat := map (fun index => index mod level_cbs)%nat (seq 0 (number_of_inputs * level_cbs)).
End Cbs.
