(** * Model of the C interface
    /repo/concrete-cpu/src/{linear_op,keyswitch,wop_pbs}.rs and bootstrap/mod.rs.

    The functions take raw pointers.  The memory of 64-bit words is a map from addresses (counted in words) to
    words; [slice::from_raw_parts(ptr, n)] is the list of the n words from ptr.  Fourier keys live in a second
    memory whose cells are Fourier polynomials (N/2 complex numbers each).  Not modelled: alignment, the scratch stack
    (the [stack] argument, [DynStack]), pulp::Arch::dispatch (which runs the closure), the [parallelism] argument (unused by the
    code), overflows of products of sizes (the buffers would not fit in memory).  The functions of lib.rs:28-163 are all
    [todo!()]: they panic. *)
From Verif Require Import Base Word DecompModel PolyModel RandomModel LweModel GlweModel GgswModel ExtProdModel BootstrapModel
  SeededModel KeyswitchModel WopModel EngineModel.

Section Memory.
Context {A : Type}.
(** slice::from_raw_parts *)
Definition load (m : Z -> A) (ptr : Z) (n : nat) : list A := map (fun i => m (ptr + Z.of_nat i)) (seq 0 n).
(** one assignment through a slice *)
Definition write (m : Z -> A) (a : Z) (x : A) : Z -> A := fun a' => if a' =? a then x else m a'.
(** the assignments of a whole slice, first element first *)
Fixpoint store (m : Z -> A) (ptr : Z) (l : list A) : Z -> A :=
  match l with [] => m | x :: l' => store (write m ptr x) (ptr + 1) l' end.
End Memory.

(** ** linear_op.rs *)
(** [for (out, ..) in ct_out.iter_mut().zip(..) { *out = .. }]: the elements are read and written one after the other. *)
Fixpoint word_loop (step : (Z -> Z) -> Z -> Z -> Z) (n : nat) (i : Z) (out : Z) (m : Z -> Z) : Z -> Z :=
  match n with O => m | S n' => word_loop step n' (i + 1) out (write m (out + i) (step m out i)) end.
(** linear_op.rs:10-31 *)
Definition concrete_cpu_add (m : Z -> Z) (ct_out ct_in0 ct_in1 : Z) (lwe_dimension : nat) : Z -> Z :=
  word_loop (fun m _ i => wadd 64 (m (ct_in0 + i)) (m (ct_in1 + i))) (S lwe_dimension) 0 ct_out m.
(** linear_op.rs:38-59: the plaintext is added to every word. *)
Definition concrete_cpu_add_plaintext (m : Z -> Z) (ct_out ct_in : Z) (plaintext : Z) (lwe_dimension : nat) : Z -> Z :=
  word_loop (fun m _ i => wadd 64 (m (ct_in + i)) plaintext) (S lwe_dimension) 0 ct_out m.
(** linear_op.rs:66-87 *)
Definition concrete_cpu_mul_cleartext (m : Z -> Z) (ct_out ct_in : Z) (cleartext : Z) (lwe_dimension : nat) : Z -> Z :=
  word_loop (fun m _ i => wmul 64 (m (ct_in + i)) cleartext) (S lwe_dimension) 0 ct_out m.
(** linear_op.rs:94-114 *)
Definition concrete_cpu_negate (m : Z -> Z) (ct_out ct_in : Z) (lwe_dimension : nat) : Z -> Z :=
  word_loop (fun m _ i => wneg 64 (m (ct_in + i))) (S lwe_dimension) 0 ct_out m.

Section Cpu.
Context (p : profile).

(** ** Keys in memory *)
(** lwe/keyswitch.rs:132-149 from_container and 429-441 bit_decomp_iter, 679-697 ciphertext_iter: blocks of l rows of n_out + 1 words *)
Definition cut_ksk (l n_out : nat) (cont : list Z) : outcome (list (list (list Z))) :=
  let! _ := ck_dim_div p (length cont) (S n_out) in
  let! _ := ck_dim_div p (length cont) l in
  Ret (map (chunks (S n_out)) (chunks (l * S n_out) cont)).
(** bootstrap/standard/mod.rs:114-137 from_container, 553-575 ggsw_iter; ggsw/standard.rs:374-400 level_matrix_iter, ggsw/levels.rs:141-160 row_iter: GGSW ciphertexts of l levels of g
    rows of g polynomials of N words *)
Definition cut_ggsw (g N : nat) (cont : list Z) : list (list (list (list Z))) :=
  map (fun lev => map (chunks N) (chunks (g * N) lev)) (chunks (g * (g * N)) cont).
Definition cut_bsk (l g N : nat) (cont : list Z) : outcome (list (list (list (list (list Z))))) :=
  let! _ := ck_dim_div p (length cont) l in
  let! _ := ck_dim_div p (length cont) (g * g) in
  let! _ := ck_dim_div p (length cont) N in
  Ret (map (cut_ggsw g N) (chunks (l * (g * (g * N))) cont)).

Section Fourier.
Context (B : backend).
(** fft/private/crypto/bootstrap.rs:68-84 into_ggsw_iter, ggsw.rs:237-251 into_levels, 166-178 into_rows; a cell of the
    container is here a Fourier polynomial *)
Definition cut_fourier_bsk (l g : nat) (cont : list (bk_dom B)) : list (list (list (list (bk_dom B)))) :=
  map (fun G => map (chunks g) (chunks (g * g) G)) (chunks (l * (g * g)) cont).
(** the polynomials of a Fourier bootstrap key in the order of its container *)
Definition flat_fourier_bsk (bsk : list (list (list (list (bk_dom B))))) : list (bk_dom B) :=
  concat (map (fun G => concat (map (@concat (bk_dom B)) G)) bsk).
(** bootstrap.rs:39-65: [assert_eq!(polynomial_size % 2, 0)]; the length of the container is then that of the slice built by
    the callers here. *)
Definition load_fourier_bsk (fm : Z -> bk_dom B) (ptr : Z) (n l g N : nat) : outcome (list (list (list (list (bk_dom B))))) :=
  let! _ := assert_ (Nat.even N) in Ret (cut_fourier_bsk l g (load fm ptr (n * (l * (g * g))))).

(** bootstrap/mod.rs:45-94 *)
Definition concrete_cpu_bootstrap_key_convert (m : Z -> Z) (fm : Z -> bk_dom B) (standard_bsk fourier_bsk : Z)
    (level_count glwe_dimension polynomial_size input_lwe_dimension : nat) : outcome (Z -> bk_dom B) :=
  let g := S glwe_dimension in
  let! standard := cut_bsk level_count g polynomial_size
    (load m standard_bsk (input_lwe_dimension * (level_count * (g * (g * polynomial_size))))) in
  let! _ := assert_ (Nat.even polynomial_size) in
  Ret (store fm fourier_bsk (flat_fourier_bsk (bsk_forward_fourier B standard))).

(** bootstrap/mod.rs:126-185 *)
Definition concrete_cpu_bootstrap (m : Z -> Z) (fm : Z -> bk_dom B) (ct_out ct_in accumulator fourier_bsk : Z)
    (level_count : nat) (base_log : Z) (glwe_dimension polynomial_size input_lwe_dimension : nat) : outcome (Z -> Z) :=
  let g := S glwe_dimension in
  let! fourier := load_fourier_bsk fm fourier_bsk input_lwe_dimension level_count g polynomial_size in
  let lwe_in := load m ct_in (S input_lwe_dimension) in
  let lwe_out := load m ct_out (S (glwe_dimension * polynomial_size)) in
  let acc := chunks polynomial_size (load m accumulator (polynomial_size * g)) in
  let! out := fft_bootstrap p 64 B polynomial_size base_log fourier lwe_out lwe_in acc in
  Ret (store m ct_out out).

(** keyswitch.rs:31-67 *)
Definition concrete_cpu_keyswitch (m : Z -> Z) (ct_out ct_in keyswitch_key : Z) (level_count : nat) (base_log : Z)
    (input_dimension output_dimension : nat) : outcome (Z -> Z) :=
  let out := load m ct_out (S output_dimension) in
  let ct := load m ct_in (S input_dimension) in
  let! ksk := cut_ksk level_count output_dimension (load m keyswitch_key (level_count * S output_dimension * input_dimension)) in
  let! out := keyswitch_ciphertext p 64 base_log level_count output_dimension ksk out ct in
  Ret (store m ct_out out).

(** wop_pbs.rs:65-153; the counts and logs are machine integers. *)
Definition concrete_cpu_extract_bit (m : Z -> Z) (fm : Z -> bk_dom B) (ct_vec_out ct_in fourier_bsk ksk : Z)
    (ct_out_dimension : nat) (ct_out_count : nat) (ct_in_dimension : nat) (number_of_bits delta_log : Z)
    (bsk_level_count : nat) (bsk_base_log : Z) (bsk_glwe_dimension bsk_polynomial_size bsk_input_lwe_dimension : nat)
    (ksk_level_count : nat) (ksk_base_log : Z) (ksk_input_dimension ksk_output_dimension : nat) : outcome (Z -> Z) :=
  let! _ := assert_ (Nat.eqb ct_in_dimension (bsk_glwe_dimension * bsk_polynomial_size)) in
  let! _ := assert_ (Nat.eqb ct_in_dimension ksk_input_dimension) in
  let! _ := assert_ (Nat.eqb ct_out_dimension ksk_output_dimension) in
  let! _ := assert_ (Z.of_nat ct_out_count =? number_of_bits) in
  let! _ := assert_ (Nat.eqb ksk_output_dimension bsk_input_lwe_dimension) in
  let! sum := plain p usize_bits (number_of_bits + delta_log) in
  let! _ := assert_ (64 <? sum) in
  let! _ := ck_dim_div p (S ct_out_dimension * ct_out_count) (S ct_out_dimension) in
  let outs := chunks (S ct_out_dimension) (load m ct_vec_out (S ct_out_dimension * ct_out_count)) in
  let lwe_in := load m ct_in (S ct_in_dimension) in
  let! ksk := cut_ksk ksk_level_count ksk_output_dimension (load m ksk (ksk_level_count * S ksk_output_dimension * ksk_input_dimension)) in
  let! bsk := load_fourier_bsk fm fourier_bsk bsk_input_lwe_dimension bsk_level_count (S bsk_glwe_dimension) bsk_polynomial_size in
  let! res := fft_extract_bits p 64 B bsk_polynomial_size bsk_base_log (S bsk_glwe_dimension) ksk_base_log ksk_level_count ksk_output_dimension
                bsk ksk delta_log number_of_bits outs lwe_in in
  Ret (store m ct_vec_out (concat res)).

(** glwe/keyswitch.rs:1826-1852 from_container, 1929-1953 fpksk_iter (the remainder is checked again by subtensor_iter),
    757-785 from_container of one key, 1242-1258 bit_decomp_iter *)
Definition cut_pfpksk_list (l n_in k N count : nat) (cont : list Z) : outcome (list (list (list (list (list Z))))) :=
  let! _ := ck_dim_div p (length cont) (S k * N) in
  let! _ := ck_dim_div p (length cont) l in
  let! _ := ck_dim_div p (length cont) (S n_in) in
  let! _ := ck_dim_div p (length cont) count in
  let single := (S k * N * l * S n_in)%nat in
  let! _ := ck_dim_div p (length cont) single in
  Ret (map (fun key => map (fun block => map (chunks N) (chunks (S k * N) block)) (chunks (l * (S k * N)) key)) (chunks single cont)).

(** wop_pbs.rs:218-335 *)
Definition concrete_cpu_circuit_bootstrap_boolean_vertical_packing (m : Z -> Z) (fm : Z -> bk_dom B)
    (ct_out_vec ct_in_vec lut fourier_bsk fpksk : Z)
    (ct_out_dimension ct_out_count ct_in_dimension ct_in_count small_lut_count small_lut_size : nat)
    (bsk_level_count : nat) (bsk_base_log : Z) (bsk_glwe_dimension bsk_polynomial_size bsk_input_lwe_dimension : nat)
    (fpksk_level_count : nat) (fpksk_base_log : Z) (fpksk_input_dimension fpksk_output_glwe_dimension fpksk_output_polynomial_size fpksk_count : nat)
    (cbs_level_count : nat) (cbs_base_log : Z) : outcome (Z -> Z) :=
  let! _ := assert_ (Nat.eqb (bsk_glwe_dimension * bsk_polynomial_size) fpksk_input_dimension) in
  let! _ := assert_ (Nat.eqb ct_in_dimension bsk_input_lwe_dimension) in
  let! _ := assert_ (Nat.eqb ct_out_dimension (fpksk_output_glwe_dimension * fpksk_output_polynomial_size)) in
  let! _ := assert_ (Nat.eqb small_lut_size fpksk_output_polynomial_size) in
  let! _ := assert_ (Nat.leb fpksk_output_polynomial_size small_lut_size) in
  let! _ := assert_ (negb (cbs_base_log =? 0)) in
  let! _ := assert_ (negb (Nat.eqb cbs_level_count 0)) in
  let! bl := plain p usize_bits (Z.of_nat cbs_level_count * cbs_base_log) in
  let! _ := assert_ (bl <=? 64) in
  let! _ := ck_dim_div p (small_lut_size * small_lut_count) small_lut_size in
  let luts := chunks small_lut_size (load m lut (small_lut_size * small_lut_count)) in
  let! bsk := load_fourier_bsk fm fourier_bsk bsk_input_lwe_dimension bsk_level_count (S bsk_glwe_dimension) bsk_polynomial_size in
  let! _ := ck_dim_div p (ct_out_count * S ct_out_dimension) (S ct_out_dimension) in
  let outs := chunks (S ct_out_dimension) (load m ct_out_vec (ct_out_count * S ct_out_dimension)) in
  let! _ := ck_dim_div p (ct_in_count * S ct_in_dimension) (S ct_in_dimension) in
  let ins := chunks (S ct_in_dimension) (load m ct_in_vec (ct_in_count * S ct_in_dimension)) in
  let! keys := cut_pfpksk_list fpksk_level_count fpksk_input_dimension fpksk_output_glwe_dimension fpksk_output_polynomial_size fpksk_count
    (load m fpksk (fpksk_level_count * fpksk_output_glwe_dimension * fpksk_output_polynomial_size * S fpksk_input_dimension * fpksk_count)) in
  let! res := fft_circuit_bootstrap_boolean_vertical_packing p 64 B bsk_polynomial_size bsk_base_log (S bsk_glwe_dimension) bsk
    fpksk_base_log fpksk_level_count fpksk_input_dimension fpksk_output_polynomial_size fpksk_output_glwe_dimension luts outs ins keys cbs_level_count cbs_base_log in
  Ret (store m ct_out_vec (concat res)).
End Fourier.
End Cpu.
