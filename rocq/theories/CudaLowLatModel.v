(** * Model of the low latency bootstrap kernel of the CUDA backend
    /repo/concrete-cuda/cuda/src/bootstrap_low_latency.cuh and .../crypto/gadget.cuh.  The grid has one block for every level (x), every
    polynomial of the GLWE ciphertext (y) and every ciphertext to bootstrap (z).

    As in CudaPbsModel.v the ciphertexts and the indexes of the test vectors are parameters.  accumulator_fft, accumulator and
    accumulator_rotated are memory of the block: shared memory (FULLSM), or a part of a device buffer that no other block uses (NOSM).  C63
    proves this of the pointers of lines 149-167; of PARTIALSM it is false, C63_partial_overlap_refuted, and PARTIALSM is not covered here. *)
From Verif Require Import Base Word CudaKsModel CudaBlockModel CudaFftModel CudaPbsModel CudaGridModel.

(** The buffers that all blocks use: test vectors, key, join buffer, output *)
Definition JOIN : nat := 5.
Definition in_global (c : addr) : bool :=
  match c with Word b _ | Dbl b _ _ => (b =? LUT)%nat || (b =? BSK)%nat || (b =? JOIN)%nat || (b =? OUT)%nat | Loc _ _ => false end.

Section LowLat.
Context (w : Z) {R : Type} (rO : R) (radd rmul rsub : R -> R -> R).
Notation seg := (seg addr (val R)).
Notation gseg := (gseg addr (val R)).
Context (degree opt : nat).
Notation threads := (degree / opt)%nat.
Notation load := (load rO).
Notation store2 := (store2 rO).
Notation arg := (arg rO).
Context (torus1 torus2 : R -> Z) (of_int : Z -> R) (negtwiddles : nat -> R * R) (rsqrt2 inv_degree : R).
Notation direct buf off := (NSMFFT_direct rO radd rmul rsub negtwiddles rsqrt2 buf off (degree / 2) (opt / 2)).
Notation inverse buf off := (NSMFFT_inverse rO radd rmul rsub negtwiddles inv_degree buf off (degree / 2) (opt / 2)).
Context (b : Z) (glwe_dimension level_count : nat).

(** 58-62: buffer_slice[tid] = fft[tid] * bsk_poly[tid] *)
Definition product_init (rb ro fb fo sb so : nat) : seg :=
  Par (strided threads (opt / 2) (fun t tid =>
    [load t 0 (X fb fo tid); load t 1 (Y fb fo tid); load t 2 (X sb so tid); load t 3 (Y sb so tid);
     GOp [Loc t 0; Loc t 1; Loc t 2; Loc t 3] (X rb ro tid) (fun v => Db (rsub (rmul (arg v 0) (arg v 2)) (rmul (arg v 1) (arg v 3))));
     GOp [Loc t 0; Loc t 1; Loc t 2; Loc t 3] (Y rb ro tid) (fun v => Db (radd (rmul (arg v 0) (arg v 3)) (rmul (arg v 1) (arg v 2))))])).
(** 99-103: fft[tid] += cur_src_acc[tid] *)
Definition accumulate (rb ro sb so : nat) : seg :=
  Par (strided threads (opt / 2) (fun t tid =>
    [load t 0 (X sb so tid); load t 1 (Y sb so tid);
     load t 2 (X rb ro tid); store2 t (X rb ro tid) 2 0 radd;
     load t 2 (Y rb ro tid); store2 t (Y rb ro tid) 2 1 radd])).

(** blockIdx.x, .y, .z *)
Section Block.
Context (x y z : nat).
(** 48-49, 56, 86, 176-178: block_join_buffer, and the polynomial number [p] of level [level] in it *)
Definition join_slot (level p : nat) : nat := (z * level_count * (glwe_dimension + 1) * degree / 2 + level * (glwe_dimension + 1) * degree / 2 + p * degree / 2)%nat.
(** 27-116 mul_ggsw_glwe: before the first grid barrier, between two, after the last.  The products of lines 74-78 are those of
    polynomial_product_accumulate_in_fourier_domain (polynomial_math.cuh). *)
Definition bsk_slice (iteration : nat) : nat := mask_kth_block degree iteration y x glwe_dimension level_count.
Definition mul_first (iteration : nat) : list seg :=
  direct AFFT 0 ++ [Bar; product_init JOIN (join_slot x y) AFFT 0 BSK (bsk_slice iteration + y * degree / 2)].
Definition mul_next (iteration j : nat) : list seg :=
  let idx := ((j + y) mod (glwe_dimension + 1))%nat in
  [product_accumulate rO radd rmul rsub degree opt JOIN (join_slot x idx) AFFT 0 BSK (bsk_slice iteration + idx * degree / 2)].
Definition mul_last : list seg :=
  copy rO degree opt AFFT 0 JOIN (join_slot 0 y) :: Bar ::
  map (fun level => accumulate AFFT 0 JOIN (join_slot level y)) (seq 1 (level_count - 1)) ++
  [Bar] ++ inverse AFFT 0 ++ [Bar; add_to_torus w rO degree opt torus1 torus2 AFFT 0 ACC 0; Bar].
(** 194-224: one iteration until mul_ggsw_glwe.  decompose_and_compress_level of gadget.cuh:85-88 decomposes level_count - level times. *)
Definition prepare (a_hat : nat) : list seg :=
  [Bar; multiply_by_monomial_and_sub w rO degree opt ACC 0 ROT 0 a_hat 0; round_to_closest_multiple w rO degree opt b level_count ROT 0 0; Bar] ++
  gadget_new w rO degree opt b level_count 1 ROT 0 ++
  flat_map (fun _ => decompose_next_polynomial w rO degree opt of_int b ROT 0 AFFT 0 0) (seq 0 (level_count - x)) ++ [Bar].
(** 193-232 *)
Definition low_latency_iteration (iteration a_hat : nat) : list gseg :=
  map Blk (prepare a_hat ++ mul_first iteration) ++ [GridSync] ++
  flat_map (fun j => map Blk (mul_next iteration j) ++ [GridSync]) (seq 1 glwe_dimension) ++
  map Blk (mul_last ++ [Bar]).
(** 238-245; [out] is the offset of block_lwe_array_out. *)
Definition extract (out : nat) : list seg :=
  if (Nat.eqb x 0 && Nat.ltb y glwe_dimension)%bool then sample_extract_mask w rO degree opt OUT out ACC 0 0
  else if (Nat.eqb x 0 && Nat.eqb y glwe_dimension)%bool then [sample_extract_body rO degree opt OUT out ACC 0 0]
  else [].
(** 133-246 device_bootstrap_low_latency; [lwe_in] is block_lwe_array_in, [lut] the offset of block_lut_vector. *)
Definition device_bootstrap_low_latency (lwe_dimension : nat) (lwe_in : list Z) (lut : nat) : list gseg :=
  map Blk [divide_by_monomial w rO degree opt ACC 0 LUT (lut + y * degree) (rescale_torus_element w (2 * degree) (nth lwe_dimension lwe_in 0)) 0] ++
  flat_map (fun iteration => low_latency_iteration iteration (rescale_torus_element w (2 * degree) (nth iteration lwe_in 0))) (seq 0 lwe_dimension) ++
  map Blk (extract (z * (glwe_dimension * degree + 1) + y * degree)).
End Block.

(** 364: dim3 grid(level_count, glwe_dimension + 1, input_lwe_ciphertext_count).  Block number [i] is the one whose block_index (lines 152-153)
    is [i]. *)
Definition block_x (i : nat) : nat := (i mod level_count)%nat.
Definition block_y (i : nat) : nat := (i / level_count mod (glwe_dimension + 1))%nat.
Definition block_z (i : nat) : nat := (i / level_count / (glwe_dimension + 1))%nat.
(** 330-399 host_bootstrap_low_latency: the launch for the ciphertexts [lwes], the test vectors of which are at the offsets [luts]. *)
Definition low_latency_kernel (lwe_dimension : nat) (lwes : list (list Z)) (luts : list nat) (i : nat) : list gseg :=
  device_bootstrap_low_latency (block_x i) (block_y i) (block_z i) lwe_dimension (nth (block_z i) lwes []) (nth (block_z i) luts 0%nat).
Definition host_bootstrap_low_latency (ok : addr -> bool) (lwe_dimension : nat) (lwes : list (list Z)) (luts : list nat) (choices : list (nat * nat))
    (private : nat -> mem addr (val R)) (gm : mem addr (val R)) : outcome (mem addr (val R)) :=
  grid_launch addr_eqb ok in_global (level_count * (glwe_dimension + 1) * length lwes) threads (low_latency_kernel lwe_dimension lwes luts) choices private gm.
End LowLat.
