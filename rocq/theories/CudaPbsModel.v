(** * Model of the amortized bootstrap kernel of the CUDA backend
    /repo/concrete-cuda/cuda/src/bootstrap_amortized.cuh, .../polynomial/functions.cuh, .../crypto/gadget.cuh, .../crypto/torus.cuh,
    .../crypto/bootstrapping_key.cuh, for one block of threads (one ciphertext).

    The ciphertext to bootstrap and the index of the test vector are only read: they are parameters.  Every other access to memory is
    a step of a thread.  As in CudaFftModel.v, floating-point numbers are elements of a ring. *)
From Verif Require Import Base Word CudaKsModel CudaBlockModel CudaFftModel.

(** ** crypto/torus.cuh:41-67 rescale_torus_element *)
(** __ull2double_rn, __uint2double_rn: the nearest number with 53 significant bits, ties to even *)
Definition to_double (x : Z) : Z :=
  if x <? 2 ^ 53 then x
  else
    let s := Z.log2 x - 52 in
    let q := x / 2 ^ s in
    let r := x mod 2 ^ s in
    let q := if (2 ^ (s - 1) <? r) || ((r =? 2 ^ (s - 1)) && Z.odd q) then q + 1 else q in
    q * 2 ^ s.
(** round(element / 2^w * log_shift), where max + 1.0 is 2^w for both word sizes; [log_shift] is 2 * degree, a power of two: the
    division and the product are exact.  round() rounds halves away from zero.  The result is stored in a Torus, and passed as a uint32_t. *)
Definition rescale_torus_element (w : Z) (log_shift : nat) (element : Z) : nat :=
  Z.to_nat (((2 * to_double element * Z.of_nat log_shift + 2 ^ w) / (2 * 2 ^ w)) mod 2 ^ w mod 2 ^ 32).

Section Pbs.
Context (w : Z) {R : Type} (rO : R) (radd rmul rsub : R -> R -> R).
Notation gop := (gop addr (val R)).
Notation seg := (seg addr (val R)).
(** params::degree, params::opt; the number of threads of the block is degree / opt (bootstrap_amortized.cuh, host function). *)
Context (degree opt : nat).
Notation threads := (degree / opt)%nat.

Definition warg (vs : list (val R)) (n : nat) : Z := wd (nth n vs (Db rO)).
Notation load := (load rO).
(** "c = f(r1)", "c = f(r1, r2)" on words *)
Definition put1 (t : nat) (c : addr) (r1 : nat) (f : Z -> Z) : gop := GOp [Loc t r1] c (fun vs => Wd (f (warg vs 0))).
Definition put2 (t : nat) (c : addr) (r1 r2 : nat) (f : Z -> Z -> Z) : gop := GOp [Loc t r1; Loc t r2] c (fun vs => Wd (f (warg vs 0) (warg vs 1))).

(** ** polynomial/functions.cuh *)
(** 67-103 divide_by_monomial_negacyclic_inplace, zeroAcc = false, polynomial z.  [tid - degree + j] is computed on uint32_t. *)
Definition divide_by_monomial (ab ao ib io j z : nat) : seg :=
  Par (strided threads opt (fun t tid =>
    let acc := Word ab (ao + z * degree + tid)%nat in
    let input i := Word ib (io + z * degree + i)%nat in
    if Nat.ltb j degree then
      if Nat.ltb tid (degree - j) then [load t 0 (input (tid + j)%nat); put1 t acc 0 (fun x => x)]
      else [load t 0 (input (tid + j - degree)%nat); put1 t acc 0 (wneg w)]
    else
      let jj := (j - degree)%nat in
      if Nat.ltb tid (degree - jj) then [load t 0 (input (tid + jj)%nat); put1 t acc 0 (wneg w)]
      else [load t 0 (input (tid + jj - degree)%nat); put1 t acc 0 (fun x => x)])).
(** 113-140 multiply_by_monomial_negacyclic_and_sub_polynomial, polynomial z *)
Definition multiply_by_monomial_and_sub (ab ao rb ro j z : nat) : seg :=
  Par (strided threads opt (fun t tid =>
    let acc i := Word ab (ao + z * degree + i)%nat in
    let result := Word rb (ro + z * degree + tid)%nat in
    if Nat.ltb j degree then
      if Nat.ltb tid j then [load t 0 (acc (tid + degree - j)%nat); load t 1 (acc tid); put2 t result 0 1 (fun x y => wsub w (wneg w x) y)]
      else [load t 0 (acc (tid - j)%nat); load t 1 (acc tid); put2 t result 0 1 (wsub w)]
    else
      let jj := (j - degree)%nat in
      if Nat.ltb tid jj then [load t 0 (acc (tid + degree - jj)%nat); load t 1 (acc tid); put2 t result 0 1 (wsub w)]
      else [load t 0 (acc (tid - jj)%nat); load t 1 (acc tid); put2 t result 0 1 (fun x y => wsub w (wneg w x) y)])).
(** 148-168 round_to_closest_multiple_inplace, polynomial z; the expression is that of torus.cuh:29-39. *)
Definition round_to_closest_multiple (b : Z) (l : nat) (rb ro z : nat) : seg :=
  Par (strided threads opt (fun t tid => let c := Word rb (ro + z * degree + tid)%nat in [load t 0 c; put1 t c 0 (gpu_round w b l)])).
(** 170-199 add_to_torus: [torus1], [torus2] are the words V1, V2 computed from the two components v1, v2. *)
Context (torus1 torus2 : R -> Z).
Definition add_to_torus (mb mo rb ro : nat) : seg :=
  Par (strided threads (opt / 2) (fun t tid =>
    [load t 0 (X mb mo tid); load t 1 (Y mb mo tid);
     load t 2 (Word rb (ro + tid)%nat); GOp [Loc t 2; Loc t 0] (Word rb (ro + tid)%nat) (fun vs => Wd (wadd w (warg vs 0) (torus1 (arg rO vs 1))));
     load t 2 (Word rb (ro + tid + degree / 2)%nat);
     GOp [Loc t 2; Loc t 1] (Word rb (ro + tid + degree / 2)%nat) (fun vs => Wd (wadd w (warg vs 0) (torus2 (arg rO vs 1))))])).
(** 212-282 sample_extract_mask, polynomial z.  result[i] is the local variable 10 + i. *)
Definition sample_extract_mask (ob oo ab ao z : nat) : list seg :=
  let acc i := Word ab (ao + z * degree + i)%nat in
  [Par (strided threads opt (fun t tid => [load t 0 (acc tid); put1 t (acc tid) 0 (wneg w)])); Bar;
   Par (strided threads opt (fun t tid => [load t (10 + tid / threads) (acc (degree - tid - 1)%nat)])); Bar;
   Par (strided threads opt (fun t tid => [put1 t (acc tid) (10 + tid / threads) (fun x => x)])); Bar;
   Par (strided threads opt (fun t tid =>
     if Nat.ltb 1 degree then
       if Nat.ltb tid 1 then [load t 0 (acc (tid + degree - 1)%nat); put1 t (Loc t (10 + tid / threads)) 0 (wneg w)]
       else [load t (10 + tid / threads) (acc (tid - 1)%nat)]
     else (* the degree is at least 256 *) [])); Bar;
   Par (strided threads opt (fun t tid => [put1 t (acc tid) (10 + tid / threads) (fun x => x)])); Bar;
   Par (strided threads opt (fun t tid => [load t 0 (acc tid); put1 t (Word ob (oo + z * degree + tid)%nat) 0 (fun x => x)]))].
(** 204-209 sample_extract_body.  All the threads write the same word to the same cell; here only thread 0 does. *)
Definition sample_extract_body (ob oo ab ao k : nat) : seg :=
  Par (strided threads 1 (fun t tid => if Nat.eqb tid 0 then [load t 0 (Word ab (ao + k * degree)%nat); put1 t (Word ob (oo + k * degree)%nat) 0 (fun x => x)] else [])).

(** ** crypto/gadget.cuh *)
Context (of_int : Z -> R).
(** (int32_t)res, res a word *)
Definition int32 (x : Z) : Z := sgn 32 (x mod 2 ^ 32).
(** 31-44: the constructor *)
Definition gadget_new (b : Z) (l num_poly sb so : nat) : list seg :=
  [Par (strided threads (num_poly * opt) (fun t tid => let c := Word sb (so + tid)%nat in [load t 0 c; put1 t c 0 (fun x => shr x (w - b * Z.of_nat l))])); Bar].
(** 55-83 decompose_and_compress_next_polynomial.  Local variables: 1, 2: res_re, res_im; 3, 4: carry_re, carry_im. *)
Definition carry_of (b res state : Z) : Z := shr (Z.land (Z.lor (wsub w res 1) state) res) (b - 1).
Definition decompose_next_polynomial (b : Z) (sb so rb ro j : nat) : list seg :=
  let mask_mod_b := (2 ^ b - 1) mod 2 ^ w in
  [Par (strided threads (opt / 2) (fun t tid =>
     let re := Word sb (so + j * degree + tid)%nat in
     let im := Word sb (so + j * degree + tid + degree / 2)%nat in
     [load t 0 re; put1 t (Loc t 1) 0 (fun x => Z.land x mask_mod_b);
      load t 0 im; put1 t (Loc t 2) 0 (fun x => Z.land x mask_mod_b);
      load t 0 re; put1 t re 0 (fun x => shr x b);
      load t 0 im; put1 t im 0 (fun x => shr x b);
      load t 0 re; put2 t (Loc t 3) 1 0 (carry_of b);
      load t 0 im; put2 t (Loc t 4) 2 0 (carry_of b);
      load t 0 re; put2 t re 0 3 (wadd w);
      load t 0 im; put2 t im 0 4 (wadd w);
      GOp [Loc t 1; Loc t 3] (X rb ro tid) (fun vs => Db (of_int (int32 (wsub w (warg vs 0) (shl w (warg vs 1) b)))));
      GOp [Loc t 2; Loc t 4] (Y rb ro tid) (fun vs => Db (of_int (int32 (wsub w (warg vs 0) (shl w (warg vs 1) b)))))])); Bar].

(** ** crypto/bootstrapping_key.cuh:10-27: get_start_ith_ggsw and get_ith_mask_kth_block, computed on uint32_t *)
Definition u32 (x : Z) : Z := x mod 2 ^ 32.
Definition mask_kth_block (i k level glwe_dimension level_count : nat) : nat :=
  let N := Z.of_nat degree in
  let g := Z.of_nat glwe_dimension + 1 in
  let start := u32 (u32 (u32 (u32 (Z.of_nat i * N) / 2 * g) * g) * Z.of_nat level_count) in
  Z.to_nat (u32 (start + u32 (u32 (u32 (Z.of_nat level * N) / 2 * g) * g) + u32 (u32 (Z.of_nat k * N) / 2 * g))).

(** ** bootstrap_amortized.cuh:53-212 *)
(** The buffers: test vectors, bootstrapping key, accumulator, accumulator_rotated, res_fft, accumulator_fft, output.  In the program
    the four in the middle are parts of one allocation. *)
Definition LUT : nat := 1. Definition BSK : nat := 2. Definition ACC : nat := 3. Definition ROT : nat := 4.
Definition RES : nat := 5. Definition AFFT : nat := 6. Definition OUT : nat := 7.
Context (negtwiddles : nat -> R * R) (rsqrt2 inv_degree : R).
Notation direct buf off := (NSMFFT_direct rO radd rmul rsub negtwiddles rsqrt2 buf off (degree / 2) (opt / 2)).
Notation inverse buf off := (NSMFFT_inverse rO radd rmul rsub negtwiddles inv_degree buf off (degree / 2) (opt / 2)).

Section Kernel.
Context (b : Z) (glwe_dimension level_count : nat).
Notation polys := (seq 0 (glwe_dimension + 1)).
(** 126-132 *)
Definition clear_res_fft : seg :=
  Par (strided threads ((glwe_dimension + 1) * (opt / 2)) (fun t pos => [GOp [] (X RES 0 pos) (fun _ => Db rO); GOp [] (Y RES 0 pos) (fun _ => Db rO)])).
(** 140-160: one polynomial of one level *)
Definition one_product (iteration level i : nat) : list seg :=
  decompose_next_polynomial b ROT 0 AFFT 0 i ++ direct AFFT 0 ++
  map (fun j => product_accumulate rO radd rmul rsub degree opt RES (j * degree / 2) AFFT 0 BSK (mask_kth_block iteration i level glwe_dimension level_count + j * degree / 2)) polys.
(** 164-198; [partial] is SMD == PARTIALSM, where accumulator_fft is in shared memory and the rest in global memory. *)
Definition back_to_torus (partial : bool) : list seg :=
  if partial then
    flat_map (fun i => copy rO degree opt AFFT 0 RES (i * degree / 2) :: Bar :: inverse AFFT 0 ++ [Bar; add_to_torus AFFT 0 ACC (i * degree)]) polys ++ [Bar]
  else
    [Bar] ++ flat_map (fun i => inverse RES (i * degree / 2)) polys ++ [Bar] ++
    map (fun i => add_to_torus RES (i * degree / 2) ACC (i * degree)) polys ++ [Bar].
(** 102-199: one iteration, for the mask element number [iteration], rescaled to [a_hat] *)
Definition pbs_iteration (partial : bool) (iteration a_hat : nat) : list seg :=
  [Bar] ++ map (multiply_by_monomial_and_sub ACC 0 ROT 0 a_hat) polys ++ [Bar] ++
  map (round_to_closest_multiple b level_count ROT 0) polys ++ [clear_res_fft] ++
  gadget_new b level_count (glwe_dimension + 1) ROT 0 ++
  flat_map (fun level => flat_map (one_product iteration level) polys ++ [Bar]) (rev (seq 0 level_count)) ++
  back_to_torus partial.
(** [lwe_in] is block_lwe_array_in, [lut] the offset of block_lut_vector, [out] that of block_lwe_array_out. *)
Definition device_bootstrap_amortized (partial : bool) (lwe_dimension : nat) (lwe_in : list Z) (lut out : nat) : list seg :=
  map (divide_by_monomial ACC 0 LUT lut (rescale_torus_element w (2 * degree) (nth lwe_dimension lwe_in 0))) polys ++
  flat_map (fun iteration => pbs_iteration partial iteration (rescale_torus_element w (2 * degree) (nth iteration lwe_in 0))) (seq 0 lwe_dimension) ++
  flat_map (sample_extract_mask OUT out ACC 0) (seq 0 glwe_dimension) ++ [sample_extract_body OUT out ACC 0 glwe_dimension].
End Kernel.
End Pbs.
