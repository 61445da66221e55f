(** * Model of the random generators of concrete-core
    /repo/concrete-core/src/commons/math/random/*.rs and
    /repo/concrete-core/src/commons/crypto/secret/generators/{encryption,secret}.rs.

    The byte generator of concrete-csprng is represented by what theorems C01, C02, C03, C06 prove
    of it: a window [bg_pos, bg_end) of a table of bytes.  [RandomTheorems.C09_byte_generator_refinement]
    proves that the model of the AES-CTR generator refines this representation. *)
From Verif Require Import Base Word.

Record bgen := BG { bg_table : Z -> Z; bg_pos : Z; bg_end : Z }.

Definition bg_advance (g : bgen) (n : Z) : bgen := BG (bg_table g) (bg_pos g + n) (bg_end g).
Definition bg_window (g : bgen) (off len : Z) : bgen := BG (bg_table g) (bg_pos g + off) (bg_pos g + off + len).

(** generator.rs:80-83 generate_next: [next_byte().unwrap()]. *)
Definition generate_next (g : bgen) : outcome (Z * bgen) :=
  if bg_pos g <? bg_end g then Ret (bg_table g (bg_pos g), bg_advance g 1) else Panic.

(** generator.rs:129-137 try_fork (and 664-672 par_try_fork, which C07 shows to be the same):
    [None] is a [ForkError].  [n * b] is a plain usize product. *)
Definition bg_fork (p : profile) (g : bgen) (n b : Z) : outcome (option (list bgen * bgen)) :=
  if (n =? 0) || (b =? 0) then Ret None
  else
    let! nb := plain p usize_bits (n * b) in
    if nb <=? bg_end g - bg_pos g
    then Ret (Some (map (fun i => bg_window g (i * b) b) (zseq 0 (Z.to_nat n)), bg_advance g nb))
    else Ret None.

(** generator.rs:112-114 remaining_bytes: the u128 count converted to usize, [None] when it does
    not fit. *)
Definition bg_remaining_bytes (g : bgen) : option Z :=
  let r := bg_end g - bg_pos g in if r <? 2 ^ usize_bits then Some r else None.

(** [k] bytes, in order. *)
Fixpoint read_bytes (k : nat) (g : bgen) : outcome (list Z * bgen) :=
  match k with
  | O => Ret ([], g)
  | S k' => let! (a, g) := generate_next g in
            let! (l, g) := read_bytes k' g in Ret (a :: l, g)
  end.

(** [from_le_bytes] *)
Fixpoint le_value (l : list Z) : Z :=
  match l with [] => 0 | a :: l' => a + 256 * le_value l' end.

Section Scalars.
Context (p : profile) (w : Z).

(** uniform.rs:12-21 *)
Definition uniform_one (g : bgen) : outcome (Z * bgen) :=
  let! (buf, g) := read_bytes (Z.to_nat (w / 8)) g in Ret (le_value buf, g).

(** uniform_binary.rs:11-20 *)
Definition uniform_binary_one (g : bgen) : outcome (Z * bgen) :=
  let! (a, g) := generate_next g in
  Ret (if Z.land a 1 =? 1 then 1 else 0, g).

(** uniform_ternary.rs:11-23.  The loop reads one byte per turn, so that it is left (with a value
    or with the panic of [generate_next]) after at most one turn more than the remaining bytes. *)
Fixpoint ternary_loop (fuel : nat) (g : bgen) : outcome (Z * bgen) :=
  match fuel with
  | O => Panic
  | S fuel =>
      let! (a, g) := generate_next g in
      let m := Z.land a 3 in
      if m =? 0 then Ret (0, g)
      else if m =? 1 then Ret (1, g)
      else if m =? 2 then Ret (wsub w 0 1, g)
      else ternary_loop fuel g
  end.
Definition uniform_ternary_one (g : bgen) : outcome (Z * bgen) :=
  ternary_loop (S (Z.to_nat (bg_end g - bg_pos g))) g.

(** uniform_lsb.rs:14-19 and uniform_msb.rs:15-20: the shift amount is a plain usize subtraction. *)
Definition uniform_lsb_one (n : Z) (g : bgen) : outcome (Z * bgen) :=
  let! (x, g) := uniform_one g in
  let! s := plain p usize_bits (w - n) in
  let! y := shr_ p w x s in Ret (y, g).
Definition uniform_msb_one (n : Z) (g : bgen) : outcome (Z * bgen) :=
  let! (x, g) := uniform_one g in
  let! s := plain p usize_bits (w - n) in
  let! y := shl_ p w x s in Ret (y, g).

(** mod.rs:48-67 generate_tensor and fill_tensor: the elements are generated one after the other. *)
Fixpoint generate_tensor (one : bgen -> outcome (Z * bgen)) (size : nat) (g : bgen) : outcome (list Z * bgen) :=
  match size with
  | O => Ret ([], g)
  | S n => let! (a, g) := one g in
           let! (l, g) := generate_tensor one n g in Ret (a :: l, g)
  end.

(** gaussian.rs:19-47 and 55-82.  One turn of the rejection loop reads 16 bytes; [gauss] stands for
    the floating-point computation on them (lines 34-43 and the conversion to the torus): [None] is
    a rejection. *)
Context (gauss : list Z -> option (Z * Z)).
Fixpoint gaussian_loop (fuel : nat) (g : bgen) : outcome (Z * Z * bgen) :=
  match fuel with
  | O => Panic
  | S fuel =>
      let! (u, g) := read_bytes 8 g in
      let! (v, g) := read_bytes 8 g in
      match gauss (u ++ v) with
      | Some (s1, s2) => Ret (s1, s2, g)
      | None => gaussian_loop fuel g
      end
  end.
Definition gaussian_pair (g : bgen) : outcome (Z * Z * bgen) :=
  gaussian_loop (S (Z.to_nat (bg_end g - bg_pos g))) g.
(** gaussian.rs:71-82: the second sample is dropped. *)
Definition gaussian_one (g : bgen) : outcome (Z * bgen) :=
  let! (s1, _, g) := gaussian_pair g in Ret (s1, g).
(** generator.rs:586-609: by chunks of two; an odd last element uses a pair and drops one. *)
Fixpoint gaussian_tensor (size : nat) (g : bgen) : outcome (list Z * bgen) :=
  match size with
  | O => Ret ([], g)
  | S O => let! (a, _, g) := gaussian_pair g in Ret ([a], g)
  | S (S n) => let! (a, b, g) := gaussian_pair g in
               let! (l, g) := gaussian_tensor n g in Ret (a :: b :: l, g)
  end.
End Scalars.

(** ** The encryption generator: encryption.rs:18-23 *)
Record egen := EG { eg_mask : bgen; eg_noise : bgen }.

Section Egen.
Context (p : profile) (w : Z) (gauss : list Z -> option (Z * Z)).

(** encryption.rs:161-169 fill_tensor_with_random_mask *)
Definition random_mask (size : nat) (g : egen) : outcome (list Z * egen) :=
  let! (l, m) := generate_tensor (uniform_one w) size (eg_mask g) in Ret (l, EG m (eg_noise g)).

(** encryption.rs:172-183 random_noise *)
Definition random_noise (g : egen) : outcome (Z * egen) :=
  let! (e, n) := gaussian_one gauss (eg_noise g) in Ret (e, EG (eg_mask g) n).

(** encryption.rs:186-196 fill_tensor_with_random_noise *)
Definition random_noises (size : nat) (g : egen) : outcome (list Z * egen) :=
  let! (l, n) := gaussian_tensor gauss size (eg_noise g) in Ret (l, EG (eg_mask g) n).

(** encryption.rs:144-158 try_fork and 298-312 par_try_fork: the mask generator is forked first; a
    failure of the noise fork leaves it advanced.  Returns the children (or [None] for an error)
    and the generator after the call. *)
Definition eg_fork (g : egen) (n mask_bytes noise_bytes : Z) : outcome (option (list egen) * egen) :=
  let! fm := bg_fork p (eg_mask g) n mask_bytes in
  match fm with
  | None => Ret (None, g)
  | Some (ms, mask) =>
      let! fn := bg_fork p (eg_noise g) n noise_bytes in
      match fn with
      | None => Ret (None, EG mask (eg_noise g))
      | Some (ns, noise) => Ret (Some (map2 EG ms ns), EG mask noise)
      end
  end.

(** encryption.rs:315-417: byte counts (plain usize products). *)
Definition umul (a b : Z) : outcome Z := plain p usize_bits (a * b).
Definition mask_bytes_per_coef : Z := w / 8.
Definition mask_bytes_per_polynomial (N : Z) := umul N mask_bytes_per_coef.
Definition mask_bytes_per_glwe (k N : Z) := let! b := mask_bytes_per_polynomial N in umul k b.
Definition mask_bytes_per_ggsw_level (glwe_size N : Z) :=
  let! b := mask_bytes_per_glwe (glwe_size - 1) N in umul glwe_size b.
Definition mask_bytes_per_lwe (n : Z) := umul n mask_bytes_per_coef.
Definition mask_bytes_per_gsw_level (lwe_size : Z) :=
  let! b := mask_bytes_per_lwe (lwe_size - 1) in umul lwe_size b.
Definition mask_bytes_per_ggsw (level glwe_size N : Z) :=
  let! b := mask_bytes_per_ggsw_level glwe_size N in umul level b.
Definition mask_bytes_per_pfpksk_chunk (level glwe_size N : Z) :=
  let! b := mask_bytes_per_glwe (glwe_size - 1) N in umul level b.
Definition mask_bytes_per_pfpksk (level glwe_size N lwe_size : Z) :=
  let! b := mask_bytes_per_pfpksk_chunk level glwe_size N in umul lwe_size b.
Definition noise_bytes_per_coef : Z := 256.
Definition noise_bytes_per_polynomial (N : Z) := umul N noise_bytes_per_coef.
Definition noise_bytes_per_glwe (N : Z) := noise_bytes_per_polynomial N.
Definition noise_bytes_per_ggsw_level (glwe_size N : Z) := let! b := noise_bytes_per_glwe N in umul glwe_size b.
Definition noise_bytes_per_lwe : outcome Z := umul noise_bytes_per_coef 3.
Definition noise_bytes_per_gsw_level (lwe_size : Z) := let! b := noise_bytes_per_lwe in umul lwe_size b.
Definition noise_bytes_per_ggsw (level glwe_size N : Z) :=
  let! b := noise_bytes_per_ggsw_level glwe_size N in umul level b.
Definition noise_bytes_per_pfpksk_chunk (level N : Z) := let! b := noise_bytes_per_glwe N in umul level b.
Definition noise_bytes_per_pfpksk (level N lwe_size : Z) :=
  let! b := noise_bytes_per_pfpksk_chunk level N in umul lwe_size b.

(** encryption.rs:49-141 (and the par_ versions 202-295). *)
Definition fork_bsk_to_ggsw (g : egen) (lwe_dimension level glwe_size N : Z) :=
  let! mb := mask_bytes_per_ggsw level glwe_size N in
  let! nb := noise_bytes_per_ggsw level glwe_size N in eg_fork g lwe_dimension mb nb.
Definition fork_ggsw_to_ggsw_levels (g : egen) (level glwe_size N : Z) :=
  let! mb := mask_bytes_per_ggsw_level glwe_size N in
  let! nb := noise_bytes_per_ggsw_level glwe_size N in eg_fork g level mb nb.
Definition fork_ggsw_level_to_glwe (g : egen) (glwe_size N : Z) :=
  let! mb := mask_bytes_per_glwe (glwe_size - 1) N in
  let! nb := noise_bytes_per_glwe N in eg_fork g glwe_size mb nb.
Definition fork_gsw_to_gsw_levels (g : egen) (level lwe_size : Z) :=
  let! mb := mask_bytes_per_gsw_level lwe_size in
  let! nb := noise_bytes_per_gsw_level lwe_size in eg_fork g level mb nb.
Definition fork_gsw_level_to_lwe (g : egen) (lwe_size : Z) :=
  let! mb := mask_bytes_per_lwe (lwe_size - 1) in
  let! nb := noise_bytes_per_lwe in eg_fork g lwe_size mb nb.
Definition fork_lwe_list_to_lwe (g : egen) (lwe_count lwe_size : Z) :=
  let! mb := mask_bytes_per_lwe (lwe_size - 1) in
  let! nb := noise_bytes_per_lwe in eg_fork g lwe_count mb nb.
Definition fork_cbs_pfpksk_to_pfpksk (g : egen) (level glwe_size N lwe_size count : Z) :=
  let! mb := mask_bytes_per_pfpksk level glwe_size N lwe_size in
  let! nb := noise_bytes_per_pfpksk level N lwe_size in eg_fork g count mb nb.
Definition fork_pfpksk_to_pfpksk_chunks (g : egen) (level glwe_size N lwe_size : Z) :=
  let! mb := mask_bytes_per_pfpksk_chunk level glwe_size N in
  let! nb := noise_bytes_per_pfpksk_chunk level N in eg_fork g lwe_size mb nb.
End Egen.
