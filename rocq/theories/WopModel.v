(** * Model of the WoP-PBS (bootstrap without padding bit)
    /repo/concrete-core/src/backends/fft/private/crypto/wop_pbs/mod.rs: bit extraction, circuit bootstrap, cmux
    tree and vertical packing.

    GLWE ciphertexts are lists of polynomials, the body last; a GGSW ciphertext in the Fourier domain is
    an element of [K].  The external product, the cmux and the bootstrap are arguments: they are the
    functions of ExtProdModel and BootstrapModel for the FFT backend (see the instances at the end).
    Not modelled: the scratch memory ([stack], [align] and the [can_hold] assertions); the buffers taken
    from it are filled with zeroes by [make_aligned_with]. *)
From Verif Require Import Base Word DecompModel PolyModel LweModel GlweModel SeededModel ExtProdModel BootstrapModel KeyswitchModel.

(** tensor.rs:771-779 fill_with_copy, and [copy_from_slice]: both panic in every build when the lengths
    differ. *)
Definition copy_slice {A} (dst src : list A) : outcome (list A) :=
  let! _ := assert_ (Nat.eqb (length dst) (length src)) in Ret src.

Fixpoint upd {A} (l : list A) (i : nat) (x : A) : list A :=
  match l, i with
  | [], _ => []
  | _ :: l', O => x :: l'
  | a :: l', S i' => a :: upd l' i' x
  end.

(** An indexed read [l[i]], which panics out of bounds; also [iter.next().unwrap()]. *)
Definition at_ {A} (l : list A) (i : nat) : outcome A := match nth_error l i with Some x => Ret x | None => Panic end.

Section Wop.
Context (p : profile) (w : Z) {K : Type}.
(** external_product(out, ggsw, glwe) and cmux(ct0, ct1, ggsw) *)
Context (ep : list (list Z) -> K -> list (list Z) -> outcome (list (list Z))).
Context (cm : list (list Z) -> list (list Z) -> K -> outcome (list (list Z) * list (list Z))).

(** [copy_from_slice] between the containers of two GLWE ciphertexts *)
Definition copy_glwe (dst src : list (list Z)) : outcome (list (list Z)) :=
  let! _ := assert_ (Nat.eqb (length (concat dst)) (length (concat src))) in Ret src.
(** wop_pbs/mod.rs:705-711: get_mut_body().as_mut_tensor().fill_with_copy(lut) *)
Definition set_body (ct : list (list Z)) (poly : list Z) : outcome (list (list Z)) :=
  let! (mask, body) := glwe_split ct in let! body := copy_slice body poly in Ret (mask ++ [body]).

(** ** Cmux tree *)
(** The accumulators of the layers, the number of filled accumulators of each layer, and the output. *)
Record tree_state := Tree { t_0 : list (list (list Z)); t_1 : list (list (list Z)); t_fill : list nat; t_out : list (list Z) }.

(** wop_pbs/mod.rs:715-762: the loop over the layers.  [t_iter] always yields the accumulators of the layer
    j, so that the assertions on j_counter hold by construction. *)
Fixpoint tree_layers (nb_layer j : nat) (ggsws : list K) (st : tree_state) : outcome tree_state :=
  match ggsws with
  | [] => Ret st
  | ggsw :: ggsws' =>
      let! fill := at_ (t_fill st) j in
      if Nat.eqb fill 2 then
        let! t0_j := at_ (t_0 st) j in
        let! t1_j := at_ (t_1 st) j in
        let diff := zip_update (zip_update (wsub w)) t1_j t0_j in
        if negb (Nat.eqb j (nb_layer - 1)) then
          let! t_0_next := at_ (t_0 st) (S j) in
          let! t_1_next := at_ (t_1 st) (S j) in
          let! fill_next := at_ (t_fill st) (S j) in
          let! output := copy_glwe (if Nat.eqb fill_next 0 then t_0_next else t_1_next) t0_j in
          let! output := ep output ggsw diff in
          tree_layers nb_layer (S j) ggsws'
            (Tree (if Nat.eqb fill_next 0 then upd (t_0 st) (S j) output else t_0 st)
                  (if Nat.eqb fill_next 0 then t_1 st else upd (t_1 st) (S j) output)
                  (upd (upd (t_fill st) (S j) (S fill_next)) j 0%nat) (t_out st))
        else
          let! output := copy_glwe (t_out st) t0_j in
          let! output := ep output ggsw diff in
          tree_layers nb_layer (S j) ggsws' (Tree (t_0 st) (t_1 st) (t_fill st) output)
      else Ret st
  end.

(** wop_pbs/mod.rs:688-763: the loop over the pairs of look-up tables; a last odd table is ignored. *)
Fixpoint tree_loop (nb_layer : nat) (ggsws_rev : list K) (luts : list (list Z)) (st : tree_state) : outcome tree_state :=
  match luts with
  | even :: odd :: luts' =>
      let! t0_0 := at_ (t_0 st) 0 in
      let! t1_0 := at_ (t_1 st) 0 in
      let! t0_0 := set_body t0_0 even in
      let! t1_0 := set_body t1_0 odd in
      let! st := tree_layers nb_layer 0 ggsws_rev (Tree (upd (t_0 st) 0 t0_0) (upd (t_1 st) 0 t1_0) (upd (t_fill st) 0 2%nat) (t_out st)) in
      tree_loop nb_layer ggsws_rev luts' st
  | _ => Ret st
  end.

(** wop_pbs/mod.rs:646-774 cmux_tree_memory_optimized; [N] is the polynomial size of the GGSW list. *)
Definition cmux_tree (N : nat) (output_glwe : list (list Z)) (luts : list (list Z)) (ggsws : list K) : outcome (list (list Z)) :=
  let! _ := debug_assert p (Z.of_nat (length luts) =? 2 ^ Z.of_nat (length ggsws)) in
  match ggsws with
  | [] =>
      let! (mask, body) := glwe_split output_glwe in
      let! body := copy_slice body (concat luts) in
      Ret (map (map (fun _ => 0)) mask ++ [body])
  | _ =>
      let nb_layer := length ggsws in
      let t := repeat (repeat (repeat 0 N) (length output_glwe)) nb_layer in
      let! st := tree_loop nb_layer (rev ggsws) luts (Tree t t (repeat 0%nat nb_layer) output_glwe) in
      Ret (t_out st)
  end.

(** ** Vertical packing *)
(** wop_pbs/mod.rs:1032-1052 blind_rotate; the list is taken in reverse, [degree] is a usize. *)
Fixpoint vp_rotate_loop (ggsws_rev : list K) (degree : Z) (lut : list (list Z)) : outcome (list (list Z)) :=
  match ggsws_rev with
  | [] => Ret lut
  | ggsw :: ggsws' =>
      let ct_1 := list_monic_monomial_div w lut (Z.to_nat degree) in
      let! (lut, _) := cm lut ct_1 ggsw in
      vp_rotate_loop ggsws' (shl usize_bits degree 1) lut
  end.
Definition vp_blind_rotate (lut : list (list Z)) (ggsws : list K) : outcome (list (list Z)) := vp_rotate_loop (rev ggsws) 1 lut.

(** usize::leading_zeros *)
Definition leading_zeros (x : Z) : Z := if x =? 0 then usize_bits else usize_bits - 1 - Z.log2 x.

(** wop_pbs/mod.rs:961-1019 vertical_packing; [N] and [glwe_size] are those of the GGSW list; 503 and 591-621:
    splitting the list asserts that N is even. *)
Definition vertical_packing (N glwe_size : nat) (luts : list (list Z)) (lwe_out : list Z) (ggsws : list K) : outcome (list Z) :=
  let! _ := debug_assert p (Nat.eqb (length lwe_out - 1) (N * (glwe_size - 1))) in
  let! log_lut_number := plain p usize_bits (w - 1 - leading_zeros (Z.of_nat (length luts))) in
  let log_tree := if Z.of_nat (length ggsws) <? log_lut_number then 0%nat else Z.to_nat log_lut_number in
  let! _ := assert_ (Nat.even N) in
  let! res := cmux_tree N (repeat (repeat 0 N) glwe_size) luts (firstn log_tree ggsws) in
  let! res := vp_blind_rotate res (skipn log_tree ggsws) in
  fill_lwe_with_sample_extraction w N res lwe_out 0.

(** ** Bit extraction *)
(** bootstrap(lwe_out, lwe_in, accumulator) *)
Context (pbs : list Z -> list Z -> list (list Z) -> outcome (list Z)).
(** keyswitch_ciphertext(after, before) *)
Context (ks : list Z -> list Z -> outcome (list Z)).

(** get_mut_body().0 = body.wrapping_add(x) *)
Definition add_to_body (ct : list Z) (x : Z) : outcome (list Z) :=
  let! (mask, body) := split_last ct in Ret (mask ++ [wadd w body x]).

(** A trivial ciphertext whose body is filled with [x]: the accumulators of mod.rs:127-130, 175-182, 369-386 *)
Definition const_accumulator (N glwe_size : nat) (x : Z) : list (list Z) := repeat (repeat 0 N) (glwe_size - 1) ++ [repeat x N].

(** wop_pbs/mod.rs:138-204: the loop over the outputs, last one first; [i] is bit_idx. *)
Fixpoint extract_loop (N glwe_size : nat) (delta_log count : Z) (outs_rev : list (list Z)) (i : Z) (lwe_in ks_buffer pbs_buffer : list Z)
    : outcome (list (list Z)) :=
  match outs_rev with
  | [] => Ret []
  | out :: outs' =>
      let! s := plain p usize_bits (w - delta_log) in
      let! s := plain p usize_bits (s - i) in
      let! s := plain p usize_bits (s - 1) in
      let! shifted := omap (fun x => shl_ p w x s) lwe_in in
      let! ks_buffer := ks ks_buffer shifted in
      let! out := copy_slice out ks_buffer in
      let! stop := plain p usize_bits (count - 1) in
      if i =? stop then Ret (out :: outs')
      else
        let! quarter := shl_ p w 1 (w - 2) in
        let! ks_buffer := add_to_body ks_buffer quarter in
        let! s1 := plain p usize_bits (delta_log - 1) in
        let! s1 := plain p usize_bits (s1 + i) in
        let! alpha := shl_ p w 1 s1 in
        let! pbs_buffer := pbs pbs_buffer ks_buffer (const_accumulator N glwe_size (wsub w 0 alpha)) in
        let! s2 := plain p usize_bits (delta_log + i) in
        let! s2 := plain p usize_bits (s2 - 1) in
        let! alpha := shl_ p w 1 s2 in
        let! pbs_buffer := add_to_body pbs_buffer alpha in
        let lwe_in := zip_update (wsub w) lwe_in pbs_buffer in
        let! outs' := extract_loop N glwe_size delta_log count outs' (i + 1) lwe_in ks_buffer pbs_buffer in
        Ret (out :: outs')
  end.

(** wop_pbs/mod.rs:66-205 extract_bits; [n_ks] is the output dimension of the keyswitch, [n_bsk] the size of the
    bootstrap key; the size of the outputs is that of each of them. *)
Definition extract_bits (N glwe_size n_ks n_bsk : nat) (delta_log : Z) (count : Z) (outs : list (list Z)) (lwe_in : list Z) : outcome (list (list Z)) :=
  let! _ := debug_assert p (count + delta_log <=? w) in
  let! _ := debug_assert p (forallb (fun o => Nat.eqb (length o - 1) n_ks) outs) in
  let! _ := debug_assert p (Z.of_nat (length outs) =? count) in
  let! _ := debug_assert p (Nat.eqb (length lwe_in) (S ((glwe_size - 1) * N))) in
  let! _ := debug_assert p (Nat.eqb n_ks n_bsk) in
  let! outs := extract_loop N glwe_size delta_log count (rev outs) 0 lwe_in (repeat 0 (S n_ks)) (repeat 0 (S ((glwe_size - 1) * N))) in
  Ret (rev outs).

(** ** Circuit bootstrap *)
(** wop_pbs/mod.rs:339-404 homomorphic_shift_boolean; lwe/ciphertext.rs:317-328 fill_with_scalar_mul *)
Definition homomorphic_shift_boolean (N glwe_size : nat) (lwe_out lwe_in : list Z) (level base_log delta_log : Z) : outcome (list Z) :=
  let! s := plain p usize_bits (w - delta_log) in
  let! s := plain p usize_bits (s - 1) in
  let! factor := shl_ p w 1 s in
  let shifted := map (fun x => wmul w x factor) lwe_in in
  let! quarter := shl_ p w 1 (w - 2) in
  let! shifted := add_to_body shifted quarter in
  let! e := plain p usize_bits (base_log * level) in
  let! e := plain p usize_bits (w - 1 - e) in
  let! alpha := shl_ p w 1 e in
  let! lwe_out := pbs lwe_out shifted (const_accumulator N glwe_size (wsub w 0 alpha)) in
  add_to_body lwe_out alpha.

(** pfksk.private_functional_keyswitch_ciphertext(glwe_out, lwe) for each key of the list *)
Context {PF : Type} (pfks : PF -> list (list Z) -> list Z -> outcome (list (list Z))).

(** wop_pbs/mod.rs:309-312: [outs] are the GLWE ciphertexts of the GGSW not yet written *)
Fixpoint cbs_keys (keys : list PF) (outs : list (list (list Z))) (lwe : list Z) : outcome (list (list (list Z)) * list (list (list Z))) :=
  match keys with
  | [] => Ret ([], outs)
  | key :: keys' =>
      match outs with
      | [] => Panic
      | out :: outs' =>
          let! out := pfks key out lwe in
          let! (done, outs') := cbs_keys keys' outs' lwe in
          Ret (out :: done, outs')
      end
  end.
(** wop_pbs/mod.rs:297-313: the levels [level], ..., [level + count - 1] *)
Fixpoint cbs_levels (N glwe_size : nat) (lwe_in : list Z) (base_log delta_log : Z) (keys : list PF) (count : nat) (level : Z)
    (outs : list (list (list Z))) (lwe_buffer : list Z) : outcome (list (list (list Z))) :=
  match count with
  | O => Ret outs
  | S count' =>
      let! lwe_buffer := homomorphic_shift_boolean N glwe_size lwe_buffer lwe_in level base_log delta_log in
      let! (done, outs) := cbs_keys keys outs lwe_buffer in
      let! rest := cbs_levels N glwe_size lwe_in base_log delta_log keys count' (level + 1) outs lwe_buffer in
      Ret (done ++ rest)
  end.
(** wop_pbs/mod.rs:223-314 circuit_bootstrap_boolean; N and glwe_size are those of the bootstrap key, N_out and
    glwe_size_out those of the GGSW ciphertext, which is given as the list of its levels; [pf_in], [pf_N] and [pf_k]
    are the sizes stored in the list of keys. *)
Definition circuit_bootstrap_boolean (N glwe_size N_out glwe_size_out pf_in pf_N pf_k : nat) (lwe_in : list Z)
    (ggsw_out : list (list (list (list Z)))) (base_log delta_log : Z) (keys : list PF) : outcome (list (list (list (list Z)))) :=
  let! _ := debug_assert p (Nat.leb 1 (length ggsw_out)) in
  let! _ := debug_assert p (1 <=? base_log) in
  let! _ := debug_assert p (Nat.eqb pf_in ((glwe_size - 1) * N)) in
  let! _ := debug_assert p (Nat.eqb N_out pf_N) in
  let! _ := debug_assert p (Nat.eqb (glwe_size_out - 1) pf_k) in
  let! _ := debug_assert p (Nat.eqb glwe_size_out (length keys)) in
  let! outs := cbs_levels N glwe_size lwe_in base_log delta_log keys (length ggsw_out) 1 (concat ggsw_out) (repeat 0 (S ((glwe_size - 1) * N))) in
  Ret (chunks glwe_size_out outs).

(** ** Circuit bootstrap followed by vertical packing *)
(** ggsw.fill_with_forward_fourier(ggsw_res) *)
Context (forward : list (list (list (list Z))) -> K).

(** wop_pbs/mod.rs:893-908 *)
Fixpoint cbs_vp_ggsws (N glwe_size pf_in pf_N pf_k : nat) (base_log : Z) (keys : list PF) (ggsw_res : list (list (list (list Z)))) (lwes : list (list Z))
    : outcome (list K) :=
  match lwes with
  | [] => Ret []
  | lwe :: lwes' =>
      let! ggsw_res := circuit_bootstrap_boolean N glwe_size pf_N (S pf_k) pf_in pf_N pf_k lwe ggsw_res base_log (w - 1) keys in
      let! rest := cbs_vp_ggsws N glwe_size pf_in pf_N pf_k base_log keys ggsw_res lwes' in
      Ret (forward ggsw_res :: rest)
  end.
(** wop_pbs/mod.rs:829-922 circuit_bootstrap_boolean_vertical_packing; polynomial/list.rs:282-294 sublist_iter and
    tensor.rs:350-359 subtensor_iter: chunks of 0 elements panic, uneven chunks panic in checked builds. *)
Definition circuit_bootstrap_boolean_vertical_packing (N glwe_size pf_in pf_N pf_k : nat) (big_lut : list (list Z)) (outs : list (list Z)) (lwes : list (list Z))
    (keys : list PF) (level_count : nat) (base_log : Z) : outcome (list (list Z)) :=
  let! _ := debug_assert p (negb (Nat.eqb (length lwes) 0)) in
  let! _ := debug_assert p (forallb (fun o => Nat.eqb (length o - 1) ((glwe_size - 1) * N)) outs) in
  let! _ := assert_ (Nat.even pf_N) in
  let! ggsws := cbs_vp_ggsws N glwe_size pf_in pf_N pf_k base_log keys (repeat (repeat (repeat (repeat 0 pf_N) (S pf_k)) (S pf_k)) level_count) lwes in
  let! _ := assert_ (negb (Nat.eqb (length outs) 0)) in
  let small := (length big_lut / length outs)%nat in
  let! _ := assert_ (negb (Nat.eqb small 0)) in
  let! _ := debug_assert p (Nat.eqb (length big_lut mod small) 0) in
  ozip_update (fun out lut => vertical_packing pf_N (S pf_k) lut out ggsws) outs (chunks small big_lut).
End Wop.

(** ** The FFT backend *)
Section Instances.
Context (p : profile) (w : Z) (B : backend).
Definition fft_cmux_tree (N : nat) (b : Z) := cmux_tree p w (external_product p w B N b) N.
Definition fft_vertical_packing (N : nat) (b : Z) (glwe_size : nat) := vertical_packing p w (external_product p w B N b) (cmux p w B N b) N glwe_size.
(** [ksk] has base 2^b_ks and l_ks levels, [bsk] is a Fourier bootstrap key in base 2^b. *)
Definition fft_extract_bits (N : nat) (b : Z) (glwe_size : nat) (b_ks : Z) (l_ks n_ks : nat) (bsk : list (list (list (list (bk_dom B))))) (ksk : list (list (list Z))) :=
  extract_bits p w (fft_bootstrap p w B N b bsk) (keyswitch_ciphertext p w b_ks l_ks n_ks ksk) N glwe_size n_ks (length bsk).
Definition fft_homomorphic_shift_boolean (N : nat) (b : Z) (glwe_size : nat) (bsk : list (list (list (list (bk_dom B))))) :=
  homomorphic_shift_boolean p w (fft_bootstrap p w B N b bsk) N glwe_size.
(** The functional keyswitch keys have base 2^b_pf and l_pf levels, n_pf input coefficients, and go to polynomials of size N_pf
    in dimension k_pf. *)
Definition fft_circuit_bootstrap_boolean (N : nat) (b : Z) (glwe_size : nat) (bsk : list (list (list (list (bk_dom B))))) (b_pf : Z) (l_pf n_pf N_pf k_pf : nat)
    (N_out glwe_size_out : nat) :=
  circuit_bootstrap_boolean p w (fft_bootstrap p w B N b bsk)
    (private_functional_keyswitch_ciphertext p w b_pf l_pf k_pf) N glwe_size N_out glwe_size_out n_pf N_pf k_pf.
(** [cbs_b] is the base of the GGSW ciphertexts of the circuit bootstrap. *)
Definition fft_circuit_bootstrap_boolean_vertical_packing (N : nat) (b : Z) (glwe_size : nat) (bsk : list (list (list (list (bk_dom B)))))
    (b_pf : Z) (l_pf n_pf N_pf k_pf : nat) (big_lut outs lwes : list (list Z)) (keys : list (list (list (list (list Z))))) (cbs_l : nat) (cbs_b : Z) :=
  circuit_bootstrap_boolean_vertical_packing p w (external_product p w B N_pf cbs_b) (cmux p w B N_pf cbs_b) (fft_bootstrap p w B N b bsk)
    (private_functional_keyswitch_ciphertext p w b_pf l_pf k_pf) (fill_with_forward_fourier B) N glwe_size n_pf N_pf k_pf big_lut outs lwes keys cbs_l cbs_b.
End Instances.
