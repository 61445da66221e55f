(** * Model of the boolean gates of the CUDA backend
    /repo/concrete-cuda/cuda/src/boolean_gates.cu, on one GPU.  The calls are in one stream: each starts when the previous one has
    finished.  The linear kernels are those of CudaModel, the bootstrap that of CudaPbsModel with the conversions of CudaPbsRealModel and
    exact arithmetic on the doubles, the keyswitch that of CudaKsModel.  The memory that is freed, and the cleartext_array that xor and
    xnor do not free (480-498, 608-626), are not modelled. *)
From Coq Require Import Reals.
From Verif Require Import Base Word CudaBlockModel CudaFftModel CudaFftRealTheorems CudaPbsModel CudaPbsRealModel CudaKsModel CudaGatesSpec.
From Verif Require CudaModel.
Local Open Scope Z_scope.

(** 9-10; the int 7 << 29 is negative, and is stored in a uint32_t. *)
Definition PLAINTEXT_TRUE : Z := CudaModel.u32 (CudaModel.i32 (1 * 2 ^ (32 - 3))).
Definition PLAINTEXT_FALSE : Z := CudaModel.u32 (CudaModel.i32 (7 * 2 ^ (32 - 3))).

(** What the program does not choose: the order of the threads of the linear kernels, what the allocated buffers contain, the schedule
    of every block of the bootstrap and its memory, the schedule of every block of the keyswitch and its shared memory. *)
Record hardware := Hardware {
  h_order : nat -> nat -> list nat;
  h_buffer : nat -> list Z;
  h_pbs : nat -> list nat;
  h_memory : nat -> mem addr (val R);
  h_keyswitch : nat -> list nat;
  h_shared : nat -> list Z
}.

Section Gates.
Context (h : hardware) (n count : nat).
Notation dim := (CudaModel.u32 (Z.of_nat n)).
Notation samples := (CudaModel.u32 (Z.of_nat count)).
Notation add j := (CudaModel.host_addition 32 (h_order h j) (h_buffer h j)).
Notation negate j := (CudaModel.host_negation 32 (h_order h j) (h_buffer h j)).
Notation add_plaintexts j := (CudaModel.host_addition_plaintext 32 (h_order h j) (h_buffer h j)).
Notation mult_cleartexts j := (CudaModel.host_cleartext_multiplication 32 (h_order h j) (h_buffer h j)).
(** 40-51 and the same lines of the other gates: an array with the same value for every ciphertext, copied to the GPU *)
Definition same_value (v : Z) : list Z := repeat v count.

(** 12-20 *)
Definition boolean_not (out lwe_in : list Z) : outcome (list Z) := CudaModel.host_negation 32 (h_order h 0) out lwe_in dim samples.

(** What the gates compute before the bootstrap: and 32-57, nand 132-165, nor 240-273, or 348-373, xor 448-497, xnor 569-625 *)
Definition linear_part (g : binary_gate) (lwe_in_1 lwe_in_2 : list Z) : outcome (list Z) :=
  let! lwe_buffer_1 := add 1%nat lwe_in_1 lwe_in_2 dim samples in
  match g with
  | And => add_plaintexts 2%nat lwe_buffer_1 (same_value PLAINTEXT_FALSE) dim samples
  | Nand =>
      let! lwe_buffer_2 := negate 2%nat lwe_buffer_1 dim samples in
      add_plaintexts 3%nat lwe_buffer_2 (same_value PLAINTEXT_TRUE) dim samples
  | Nor =>
      let! lwe_buffer_2 := negate 2%nat lwe_buffer_1 dim samples in
      add_plaintexts 3%nat lwe_buffer_2 (same_value PLAINTEXT_FALSE) dim samples
  | Or => add_plaintexts 2%nat lwe_buffer_1 (same_value PLAINTEXT_TRUE) dim samples
  | Xor =>
      let! lwe_buffer_2 := add_plaintexts 2%nat lwe_buffer_1 (same_value PLAINTEXT_TRUE) dim samples in
      mult_cleartexts 3%nat lwe_buffer_2 (same_value 2) dim samples
  | Xnor =>
      let! lwe_buffer_2 := add_plaintexts 2%nat lwe_buffer_1 (same_value PLAINTEXT_TRUE) dim samples in
      let! lwe_buffer_3 := negate 3%nat lwe_buffer_2 dim samples in
      mult_cleartexts 4%nat lwe_buffer_3 (same_value 2) dim samples
  end.

(** The block of 2H / opt threads of every ciphertext; the cells [ok] exist; the polynomials have 2 [H] coefficients. *)
Context (ok : addr -> bool) (H T opt k : nat) (pbs_base_log : Z) (pbs_level_count : nat) (partial : bool).
Notation N := (2 * H)%nat.
(** 64-70 (and the same lines of the other gates): zeros for the masks, true for every coefficient of the body *)
Definition h_pbs_lut : list Z := map (fun index => if Nat.ltb index (k * N) then 0 else PLAINTEXT_TRUE) (seq 0 ((k + 1) * N)).
(** cuda_memcpy_async_to_gpu (74-77) *)
Definition copied_words (buf : nat) (l : list Z) (m : mem addr (val R)) : mem addr (val R) := fun c =>
  match c with
  | Word b i => if Nat.eqb b buf && Nat.ltb i (length l) then Wd (nth i l 0) else m c
  | _ => m c
  end.
(** 79-83 *)
Definition h_pbs_lut_indexes : list Z := repeat 0 count.
(** bootstrap_amortized.cuh:84-87, 201-202 and 316: the block [s] reads and writes the ciphertext [s]; lwe_idx is 0.  The blocks
    share no memory that is written (C63): they are run one after the other, each on its own copy of the memory. *)
Definition bootstrap_block (lwe_array_in : list Z) (s : nat) : outcome (list Z) :=
  let! index := CudaModel.get h_pbs_lut_indexes (0 + s) in
  let block_lwe_array_in := firstn (S n) (skipn (s * (n + 1)) lwe_array_in) in
  let block_lut_vector := (Z.to_nat index * N * (k + 1))%nat in
  let block_lwe_array_out := (s * (k * N + 1))%nat in
  let! m := launch addr_eqb ok T
    (device_bootstrap_amortized 32 0%R Rplus Rmult Rminus N (2 * opt) (torus_first 32) (torus_second 32) IZR exact_twiddle (/ sqrt 2)%R (/ INR H)%R
      pbs_base_log k pbs_level_count partial n block_lwe_array_in block_lut_vector block_lwe_array_out)
    (h_pbs h s) (copied_words LUT h_pbs_lut (h_memory h s)) in
  Ret (map (fun i => wd (m (Word OUT (block_lwe_array_out + i)))) (seq 0 (k * N + 1))).
Definition bootstrap_part (lwe_array_in : list Z) : outcome (list Z) :=
  let! blocks := omap (bootstrap_block lwe_array_in) (seq 0 count) in Ret (concat blocks).

Context (max_shared : Z) (ks_base_log : Z) (ks_level_count : nat).
(** and 22-120, nand 122-228, nor 230-336, or 338-436, xor 438-557, xnor 559-685: the keyswitch is from the dimension k N to the
    dimension of the inputs. *)
Definition boolean_gate (g : binary_gate) (ksk out lwe_in_1 lwe_in_2 : list Z) : outcome (list Z) :=
  let! combined := linear_part g lwe_in_1 lwe_in_2 in
  let! lwe_pbs_buffer := bootstrap_part combined in
  host_keyswitch 32 max_shared (h_keyswitch h) (h_shared h) out lwe_pbs_buffer ksk (k * N) n ks_base_log ks_level_count count.
End Gates.
