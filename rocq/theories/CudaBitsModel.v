(** * Model of the bit extraction of the CUDA backend
    /repo/concrete-cuda/cuda/src/bit_extraction.cuh, for one input (the engine passes LweCiphertextCount(1),
    lwe_ciphertext_discarding_bit_extraction.rs:88 and 161), with the keyswitch of CudaKsModel and the low latency bootstrap of
    CudaLowLatModel.  The parts of bit_extract_buffer are separate buffers. *)
From Coq Require Import Reals.
From Verif Require Import Base Word CudaBlockModel CudaFftModel CudaFftRealTheorems CudaPbsModel CudaPbsRealModel CudaKsModel CudaLowLatModel CudaGatesModel.
From Verif Require CudaModel.
Local Open Scope Z_scope.

(** A kernel without barriers in which every element operation reads and writes its own cell: operation number [j] is on the cell
    [nth j cells].  The operations are run in any order, which covers every interleaving of the threads. *)
Definition set_cell {A} (l : list A) (i : nat) (v : A) : outcome (list A) :=
  if Nat.ltb i (length l) then Ret (firstn i l ++ v :: skipn (S i) l) else Panic.
Fixpoint run_cells {A} (f : nat -> A -> outcome A) (cells order : list nat) (buf : list A) : outcome (list A) :=
  match order with
  | [] => Ret buf
  | j :: rest =>
      let! c := CudaModel.get cells j in
      let! old := CudaModel.get buf c in
      let! v := f c old in
      let! buf := set_cell buf c v in
      run_cells f cells rest buf
  end.
Definition cell_kernel {A} (sched : nat -> list nat) (f : nat -> A -> outcome A) (cells : list nat) (buf : list A) : outcome (list A) :=
  run_cells f cells (sched (length cells)) buf.
(** tid, tid + threads, ...: the cells of thread [t] *)
Definition strided (threads count t : nat) : list nat := map (fun i => t + i * threads)%nat (seq 0 count).

(** What the program does not choose, for every bit: the orders of the four small kernels (and of the first one, at bit 0), the schedules and
    the memories of the keyswitch and of the bootstrap. *)
Record bits_hardware := BitsHardware {
  x_first : nat -> list nat;
  x_order : nat -> nat -> nat -> list nat;
  x_keyswitch : nat -> nat -> list nat;
  x_shared : nat -> nat -> list Z;
  x_pbs : nat -> list (nat * nat);
  x_private : nat -> nat -> mem addr (val R);
  x_memory : nat -> mem addr (val R)
}.

Section Bits.
Context (w : Z) (x : bits_hardware) (H T opt k : nat).
(** params::degree, params::opt; degree / opt is the number of threads *)
Notation degree := (2 * H)%nat.
Notation popt := (2 * opt)%nat.

(** (Torus)(1ll << s): a shift of 64 bits or more is undefined. *)
Definition one_shl (s : Z) : outcome Z := if s <? 64 then Ret (2 ^ s mod 2 ^ w) else Panic.

(** 20-36; the block 0 also has the body. *)
Definition shift_cells : list nat :=
  flat_map (fun block => flat_map (fun t => map (fun c => block * degree + c)%nat (strided T popt t) ++ (if Nat.eqb t 0 && Nat.eqb block 0 then [k * degree]%nat else [])) (seq 0 T)) (seq 0 k).
Definition copy_and_shift_lwe (dst_shift src : list Z) (value : Z) : outcome (list Z) :=
  cell_kernel (x_first x) (fun c _ => let! v := CudaModel.get src c in Ret (wmul w v value)) shift_cells dst_shift.
(** 43-63, with one block of 256 threads; [dst] starts at the ciphertext [lwe_id]. *)
Definition small_cells (size : nat) : list nat :=
  flat_map (fun t => strided 256 (size / 256) t ++ (if Nat.ltb t (size mod 256) then [t + size / 256 * 256]%nat else [])) (seq 0 256).
Definition copy_small_lwe (bit : nat) (dst src : list Z) (small_lwe_size lwe_id : nat) : outcome (list Z) :=
  let start := (lwe_id * small_lwe_size)%nat in
  let! cur_dst := cell_kernel (x_order x bit 0) (fun c _ => CudaModel.get src c) (small_cells small_lwe_size) (skipn start dst) in
  Ret (firstn start dst ++ cur_dst).
(** 72-75: one thread *)
Definition gpu_add_to_body (lwe : list Z) (lwe_dimension : nat) (value : Z) : outcome (list Z) :=
  cell_kernel (fun _ => [0%nat]) (fun _ old => Ret (wadd w old value)) [lwe_dimension] lwe.
(** 86-112; a cell is that of the state and that of the shifted ciphertext. *)
Definition sub_cells : list nat :=
  flat_map (fun t => strided T (k * popt) t ++ (if Nat.eqb t 0 then [k * degree]%nat else [])) (seq 0 T).
Definition add_sub_and_mul_lwe (bit : nat) (shifted_lwe state_lwe pbs_lwe_array_out : list Z) (add_value mul_value : Z) : outcome (list Z * list Z) :=
  let! both := cell_kernel (x_order x bit 2)
    (fun c old => let! v := CudaModel.get pbs_lwe_array_out c in
       let state := wsub w (snd old) (if Nat.eqb c (k * degree) then wadd w v add_value else v) in
       Ret (wmul w state mul_value, state)) sub_cells (combine shifted_lwe state_lwe) in
  Ret (map fst both, map snd both).
(** 119-131, with one block *)
Definition fill_lut_body_for_current_bit (bit : nat) (lut : list Z) (value : Z) : outcome (list Z) :=
  cell_kernel (x_order x bit 1) (fun _ _ => Ret value) (flat_map (fun t => map (fun c => k * degree + c)%nat (strided T popt t)) (seq 0 T)) lut.

Context (ok : addr -> bool) (base_log_bsk : Z) (level_count_bsk : nat) (max_shared base_log_ksk : Z) (level_count_ksk : nat).
Context (ksk : list Z) (lwe_dimension_in lwe_dimension_out number_of_bits : nat) (delta_log : Z).
(** The bootstrap of one ciphertext with the table [lut]; what is written to lwe_array_out_pbs_buffer *)
Definition pbs_of_bit (bit : nat) (lwe lut : list Z) : outcome (list Z) :=
  let! m := host_bootstrap_low_latency w 0%R Rplus Rmult Rminus degree popt (torus_first w) (torus_second w) IZR exact_twiddle (/ sqrt 2)%R (/ INR H)%R
    base_log_bsk k level_count_bsk ok lwe_dimension_out [lwe] [0%nat] (x_pbs x bit) (x_private x bit) (copied_words LUT lut (x_memory x bit)) in
  Ret (map (fun i => wd (m (Word OUT i))) (seq 0 (k * degree + 1))).
(** 234-280; uint32_t arithmetic in the counts of the shifts *)
Fixpoint bits_loop (todo bit_idx : nat) (list_lwe_array_out state shifted ks_buffer lut : list Z) : outcome (list Z) :=
  match todo with
  | O => Ret list_lwe_array_out
  | S todo' =>
      let! ks_buffer := host_keyswitch w max_shared (x_keyswitch x bit_idx) (x_shared x bit_idx) ks_buffer shifted ksk lwe_dimension_in lwe_dimension_out base_log_ksk level_count_ksk 1 in
      let! list_lwe_array_out := copy_small_lwe bit_idx list_lwe_array_out ks_buffer (lwe_dimension_out + 1) (number_of_bits - bit_idx - 1) in
      if Nat.eqb bit_idx (number_of_bits - 1) then Ret list_lwe_array_out
      else
        let! quarter := one_shl (w - 2) in
        let! ks_buffer := gpu_add_to_body ks_buffer lwe_dimension_out quarter in
        let! alpha := one_shl (CudaModel.u32 (delta_log - 1 + Z.of_nat bit_idx)) in
        let! lut := fill_lut_body_for_current_bit bit_idx lut (wneg w alpha) in
        let! pbs_buffer := pbs_of_bit bit_idx ks_buffer lut in
        let! mul_value := one_shl (CudaModel.u32 (w - delta_log - Z.of_nat bit_idx - 2)) in
        let! (shifted, state) := add_sub_and_mul_lwe bit_idx shifted state pbs_buffer alpha mul_value in
        bits_loop todo' (S bit_idx) list_lwe_array_out state shifted ks_buffer lut
  end.
(** 189-281 host_extract_bits, after scratch_extract_bits (151-182) filled the buffers with zeros *)
Definition host_extract_bits (list_lwe_array_out lwe_array_in : list Z) : outcome (list Z) :=
  let zeros := repeat 0 (k * degree + 1) in
  let! value := one_shl (CudaModel.u32 (w - delta_log - 1)) in
  let! state := (let! _ := assert_ (Nat.leb (k * degree + 1) (length lwe_array_in)) in Ret (firstn (k * degree + 1) lwe_array_in)) in
  let! shifted := copy_and_shift_lwe zeros lwe_array_in value in
  bits_loop number_of_bits 0 list_lwe_array_out state shifted (repeat 0 (lwe_dimension_out + 1)) (repeat 0 ((k + 1) * degree)).
End Bits.
