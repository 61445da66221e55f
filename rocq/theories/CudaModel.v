(** * Model of the vectors of the CUDA backend and of its linear kernels
    /repo/concrete-core/src/backends/cuda/private/mod.rs, .../private/device.rs, .../private/crypto/{lwe,plaintext,cleartext}/list.rs (host,
    in Rust) and /repo/concrete-cuda/cuda/src/{addition,negation,multiplication}.cuh, .../src/utils/kernel_dimensions.cuh (host and
    device, in CUDA C++).

    A vector on the GPUs is the list of its buffers, one per GPU, each the list of its words.  [Panic] also stands for the end of
    the process (check_cuda_error calls exit, /repo/concrete-cuda/cuda/include/device.h:47-57) and for an access outside of a buffer.
    usize products (sizes in words) are not wrapped: the containers exist in memory. *)
From Verif Require Import Base Word.

(** ** Distribution of a vector over the GPUs *)

(** private/mod.rs:11-21 *)
Definition number_of_active_gpus (total count : nat) : nat :=
  if Nat.ltb count total then Nat.min count total else total.
(** private/mod.rs:23-35; the division panics when there is no GPU. *)
Definition compute_number_of_samples_on_gpu (gpus count index : nat) : outcome nat :=
  if Nat.eqb gpus 0 then Panic else
  Ret (count / gpus + (if Nat.eqb index (gpus - 1) then count mod gpus else 0))%nat.

(** [slice.chunks_exact(c)] and its remainder; panics on [c = 0]. *)
Fixpoint chunks_exact_fuel {A} (fuel c : nat) (l : list A) : list (list A) * list A :=
  match fuel with
  | S fuel' => if Nat.leb c (length l) then let '(cs, r) := chunks_exact_fuel fuel' c (skipn c l) in (firstn c l :: cs, r) else ([], l)
  | O => ([], l)
  end.
Definition chunks_exact {A} (c : nat) (l : list A) : outcome (list (list A) * list A) :=
  if Nat.eqb c 0 then Panic else Ret (chunks_exact_fuel (length l) c l).

(** device.rs:62-77 malloc and 124-131 copy_to_gpu: the number of words is cast to u32 for the allocation, not for the copy. *)
Definition to_device (l : list Z) : outcome (list Z) := if Z.of_nat (length l) <? 2 ^ 32 then Ret l else Panic.
(** device.rs:161-168 copy_to_cpu: as many words as the destination has, from the start of the buffer *)
Definition from_device (n : nat) (buffer : list Z) : outcome (list Z) := if Nat.leb n (length buffer) then Ret (firstn n buffer) else Panic.
(** [vec.get(i).unwrap()] and [slice[i]] *)
Definition get {A} (l : list A) (i : nat) : outcome A := match nth_error l i with Some x => Ret x | None => Panic end.

(** lwe/list.rs:37-69, plaintext/list.rs:17-59 and cleartext/list.rs:17-51 (the two latter with [size] = 1).  There is one stream
    per available GPU. *)
Fixpoint upload_loop (streams gpus : nat) (remainder : list Z) (index : nat) (chunks : list (list Z)) : outcome (list (list Z)) :=
  match chunks with
  | [] => Ret []
  | chunk :: rest =>
      if Nat.ltb index streams then
        let! v := to_device (if Nat.eqb index (gpus - 1) then chunk ++ remainder else chunk) in
        let! vs := upload_loop streams gpus remainder (S index) rest in Ret (v :: vs)
      else Panic
  end.
Definition copy_to_gpus (available size : nat) (input : list Z) : outcome (list (list Z)) :=
  let count := (length input / size)%nat in
  let gpus := number_of_active_gpus available count in
  let! samples := compute_number_of_samples_on_gpu gpus count 0 in
  let! (chunks, remainder) := chunks_exact (samples * size) input in
  upload_loop available gpus remainder 0 chunks.

(** lwe/list.rs:97-128 (plaintext/list.rs:87-118, cleartext/list.rs:79-110): into an existing container *)
Fixpoint download_loop (streams : nat) (d_vecs : list (list Z)) (index : nat) (chunks : list (list Z)) : outcome (list (list Z)) :=
  match chunks with
  | [] => Ret []
  | chunk :: rest =>
      if Nat.ltb index streams then
        let! d_vec := get d_vecs index in
        let! c := from_device (length chunk) d_vec in
        let! cs := download_loop streams d_vecs (S index) rest in Ret (c :: cs)
      else Panic
  end.
Definition discard_copy_from_gpus (available size count : nat) (d_vecs : list (list Z)) (output : list Z) : outcome (list Z) :=
  let! samples := compute_number_of_samples_on_gpu available count 0 in
  let! (chunks, remainder) := chunks_exact (samples * size) output in
  let! chunks := download_loop available d_vecs 0 chunks in
  let! remainder :=
    if Nat.ltb (samples * available) count then
      let! d_vec := get d_vecs (length d_vecs - 1) in from_device (length remainder) d_vec
    else Ret remainder in
  Ret (concat chunks ++ remainder).
(** lwe/list.rs:71-95 (plaintext/list.rs:61-84, cleartext/list.rs:53-76): into a new container of zeros.  The samples are counted
    before the allocation, which changes nothing. *)
Definition copy_from_gpus (available size count : nat) (d_vecs : list (list Z)) : outcome (list Z) :=
  discard_copy_from_gpus available size count d_vecs (repeat 0 (size * count)).

(** ** Kernels *)

(** C's conversions to uint32_t and int *)
Definition u32 (x : Z) : Z := x mod 2 ^ 32.
Definition i32 (x : Z) : Z := let y := x mod 2 ^ 32 in if y <? 2 ^ 31 then y else y - 2 ^ 32.

(** kernel_dimensions.cuh:4-12 *)
Definition nextPow2 (x : Z) : Z :=
  let x := i32 (x - 1) in
  let x := Z.lor x (Z.shiftr x 1) in
  let x := Z.lor x (Z.shiftr x 2) in
  let x := Z.lor x (Z.shiftr x 4) in
  let x := Z.lor x (Z.shiftr x 8) in
  let x := Z.lor x (Z.shiftr x 16) in
  i32 (x + 1).
(** kernel_dimensions.cuh:14-19; division of ints truncates. *)
Definition get_num_blocks_and_threads (n max_block_size : Z) : Z * Z :=
  let threads := if n <? max_block_size * 2 then Z.max 128 (nextPow2 (Z.quot (i32 (n + 1)) 2)) else max_block_size in
  (Z.quot (i32 (n + threads - 1)) threads, threads).

(** A thread of a linear kernel reads the inputs, which no thread writes, and writes at most one word of the output.  A kernel is,
    for every thread (blockIdx * blockDim + threadIdx), that write.  The hardware runs the threads in any order: [order]. *)
Definition kernel := nat -> outcome (option (nat * Z)).
Definition set_word (l : list Z) (i : nat) (v : Z) : outcome (list Z) :=
  if Nat.ltb i (length l) then Ret (firstn i l ++ v :: skipn (S i) l) else Panic.
Fixpoint run_threads (k : kernel) (order : list nat) (output : list Z) : outcome (list Z) :=
  match order with
  | [] => Ret output
  | i :: rest =>
      let! write := k i in
      let! output := match write with Some (j, v) => set_word output j v | None => Ret output end in
      run_threads k rest output
  end.
(** A launch [k<<<blocks, threads>>>] followed by check_cuda_error: an empty or too large grid is an error.  [sched] gives the order
    in which a number of threads are run. *)
Definition launch (sched : nat -> list nat) (blocks threads : Z) (k : kernel) (output : list Z) : outcome (list Z) :=
  if (1 <=? blocks) && (blocks <? 2 ^ 31) && (1 <=? threads) && (threads <=? 1024)
  then run_threads k (sched (Z.to_nat (blocks * threads))) output
  else Panic.

Section Kernels.
Context (w : Z).

(** negation.cuh:14-22 *)
Definition negation (input : list Z) (num_entries : Z) : kernel := fun i =>
  let index := i32 (Z.of_nat i) in
  if u32 index <? u32 num_entries then
    let! x := get input (Z.to_nat index) in Ret (Some (Z.to_nat index, wneg w x))
  else Ret None.
(** addition.cuh:14-24 *)
Definition addition (input_1 input_2 : list Z) (num_entries : Z) : kernel := fun i =>
  let index := i32 (Z.of_nat i) in
  if u32 index <? u32 num_entries then
    let! x := get input_1 (Z.to_nat index) in let! y := get input_2 (Z.to_nat index) in Ret (Some (Z.to_nat index, wadd w x y))
  else Ret None.
(** addition.cuh:26-39 *)
Definition plaintext_addition (lwe_input plaintext_input : list Z) (dimension num_entries : Z) : kernel := fun i =>
  let plaintext_index := i32 (Z.of_nat i) in
  if u32 plaintext_index <? u32 num_entries then
    let index := i32 (plaintext_index * (dimension + 1) + dimension) in
    let! x := get lwe_input (Z.to_nat index) in let! y := get plaintext_input (Z.to_nat plaintext_index) in Ret (Some (Z.to_nat index, wadd w x y))
  else Ret None.
(** multiplication.cuh:13-25 *)
Definition cleartext_multiplication (lwe_input cleartext_input : list Z) (dimension num_entries : Z) : kernel := fun i =>
  let index := i32 (Z.of_nat i) in
  if u32 index <? u32 num_entries then
    let cleartext_index := i32 (u32 index / u32 (dimension + 1)) in
    let! x := get lwe_input (Z.to_nat index) in let! y := get cleartext_input (Z.to_nat cleartext_index) in Ret (Some (Z.to_nat index, wmul w x y))
  else Ret None.

(** negation.cuh:24-43, addition.cuh:41-61, multiplication.cuh:27-49: one thread per word; addition.cuh:63-86: one thread per
    ciphertext, after a copy of the input to the output.  [dimension] and [count] are uint32_t. *)
Definition grid_of (sched : nat -> list nat) (num_entries : Z) (k : kernel) (output : list Z) : outcome (list Z) :=
  let '(blocks, threads) := get_num_blocks_and_threads num_entries 512 in launch sched blocks threads k output.
Definition host_negation sched (output input : list Z) (dimension count : Z) : outcome (list Z) :=
  let num_entries := i32 (count * i32 (dimension + 1)) in grid_of sched num_entries (negation input num_entries) output.
Definition host_addition sched (output input_1 input_2 : list Z) (dimension count : Z) : outcome (list Z) :=
  let num_entries := i32 (count * i32 (dimension + 1)) in grid_of sched num_entries (addition input_1 input_2 num_entries) output.
Definition host_cleartext_multiplication sched (output lwe_input cleartext_input : list Z) (dimension count : Z) : outcome (list Z) :=
  let num_entries := i32 (count * i32 (dimension + 1)) in
  grid_of sched num_entries (cleartext_multiplication lwe_input cleartext_input dimension num_entries) output.
Definition host_addition_plaintext sched (output lwe_input plaintext_input : list Z) (dimension count : Z) : outcome (list Z) :=
  let num_entries := i32 count in
  let copied := Z.to_nat (u32 (u32 (dimension + 1) * count)) in
  let! words := from_device copied lwe_input in
  let! output := if Nat.leb copied (length output) then Ret (words ++ skipn copied output) else Panic in
  grid_of sched num_entries (plaintext_addition lwe_input plaintext_input dimension num_entries) output.

(** ** The operations on all GPUs *)

(** The loop of lwe/list.rs:130-249: [body] is the call on one GPU, of a number of samples, on the output of that GPU.  The calls
    synchronise before they return (device.rs:535, 567, 600, 633). *)
Fixpoint on_every_gpu (available count : nat) (body : nat -> Z -> list Z -> outcome (list Z)) (indexes : list nat) (outs : list (list Z)) : outcome (list (list Z)) :=
  match indexes with
  | [] => Ret outs
  | i :: rest =>
      let! samples := compute_number_of_samples_on_gpu available count i in
      let! out := get outs i in
      let! out := body i (u32 (Z.of_nat samples)) out in
      on_every_gpu available count body rest (firstn i outs ++ out :: skipn (S i) outs)
  end.
(** The order of the threads on every GPU is [sched]. *)
Context (sched : nat -> nat -> list nat) (available dimension count : nat).
Notation dim := (u32 (Z.of_nat dimension)).
Notation run body outs := (on_every_gpu available count body (seq 0 (number_of_active_gpus available count)) outs).
(** lwe/list.rs:130-156 *)
Definition execute_opposite (outs ins : list (list Z)) : outcome (list (list Z)) :=
  run (fun i samples out => let! a := get ins i in host_negation (sched i) out a dim samples) outs.
(** lwe/list.rs:157-185 *)
Definition execute_addition (outs ins_1 ins_2 : list (list Z)) : outcome (list (list Z)) :=
  run (fun i samples out => let! a := get ins_1 i in let! b := get ins_2 i in host_addition (sched i) out a b dim samples) outs.
(** lwe/list.rs:187-217 *)
Definition execute_plaintext_addition (outs ins plaintexts : list (list Z)) : outcome (list (list Z)) :=
  run (fun i samples out => let! a := get ins i in let! b := get plaintexts i in host_addition_plaintext (sched i) out a b dim samples) outs.
(** lwe/list.rs:219-249 *)
Definition execute_cleartext_multiplication (outs ins cleartexts : list (list Z)) : outcome (list (list Z)) :=
  run (fun i samples out => let! a := get ins i in let! b := get cleartexts i in host_cleartext_multiplication (sched i) out a b dim samples) outs.
End Kernels.
