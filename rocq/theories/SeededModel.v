(** * Model of the seeded (compressed) entities
    /repo/concrete-core/src/commons/crypto/lwe/seeded_{ciphertext,list,keyswitch}.rs,
    .../glwe/seeded_{ciphertext,list}.rs, .../ggsw/seeded_standard.rs,
    .../bootstrap/seeded_standard/mod.rs and the encrypt_seeded functions of .../secret/{lwe,glwe}.rs.

    A seeded entity keeps its compression seed and the bodies of its ciphertexts, nested as the
    ciphertexts are (the code stores the bodies one after the other in one container).  The sizes stored
    beside them are arguments where the code reads them.

    [rng seed] is [RandomGenerator::new(seed)] (generator.rs:60-66), the state of a fresh byte generator;
    [nseed] is the seed returned by the noise seeder. *)
From Verif Require Import Base Word PolyModel RandomModel LweModel GlweModel GgswModel DecompModel KeyswitchModel.

Record seeded (A : Type) := Seeded { sd_seed : Z; sd_bodies : A }.
Arguments Seeded {A}. Arguments sd_seed {A}. Arguments sd_bodies {A}.

(** [for (o, b) in output.iter_mut().zip(bodies)] threading the generator: outputs without a body are
    left as they are. *)
Fixpoint expand_zip {A B} (f : A -> B -> bgen -> outcome (A * bgen)) (output : list A) (bodies : list B) (g : bgen) : outcome (list A * bgen) :=
  match output, bodies with
  | o :: output', b :: bodies' =>
      let! (c, g) := f o b g in
      let! (cs, g) := expand_zip f output' bodies' g in Ret (c :: cs, g)
  | _, _ => Ret (output, g)
  end.
Definition debug_assert (p : profile) (b : bool) : outcome unit := match p with Debug => assert_ b | Release => Ret tt end.

Section Seeded.
Context (p : profile) (w : Z) (gauss : list Z -> option (Z * Z)) (rng : Z -> bgen).

(** encryption.rs:28-33 EncryptionRandomGenerator::new *)
Definition new_egen (seed nseed : Z) : egen := EG (rng seed) (rng nseed).

(** ** LWE *)
(** secret/lwe.rs:442-478 encrypt_seeded_lwe; [dim] is the dimension stored in the output. *)
Definition encrypt_seeded_lwe (key : list Z) (dim : nat) (output : seeded Z) (m nseed : Z) : outcome (seeded Z) :=
  let! _ := debug_assert p (Nat.eqb dim (length key)) in
  let! (_, body, _) := fill_mask_and_body p w gauss key (length key) m (new_egen (sd_seed output) nseed) in
  Ret (Seeded (sd_seed output) body).

(** One step of the loop of lwe/seeded_list.rs:253-259 (also lwe/seeded_ciphertext.rs:171-176). *)
Definition expand_one_lwe (output : list Z) (body : Z) (g : bgen) : outcome (list Z * bgen) :=
  let! (mask0, _) := split_last output in
  let! (mask, g) := generate_tensor (uniform_one w) (length mask0) g in
  Ret (mask ++ [body], g).
(** lwe/seeded_ciphertext.rs:165-178 expand_into *)
Definition expand_lwe (s : seeded Z) (output : list Z) : outcome (list Z) :=
  let! (c, _) := expand_one_lwe output (sd_bodies s) (rng (sd_seed s)) in Ret c.

(** secret/lwe.rs:586-621 encrypt_seeded_lwe_list_with_existing_generator *)
Fixpoint encrypt_seeded_lwe_zip (key : list Z) (bodies ms : list Z) (g : egen) : outcome (list Z * egen) :=
  match bodies, ms with
  | _ :: bodies', m :: ms' =>
      let! (_, body, g) := fill_mask_and_body p w gauss key (length key) m g in
      let! (rest, g) := encrypt_seeded_lwe_zip key bodies' ms' g in Ret (body :: rest, g)
  | _, _ => Ret (bodies, g)
  end.
(** secret/lwe.rs:662-696 encrypt_seeded_lwe_list *)
Definition encrypt_seeded_lwe_list (key : list Z) (output : seeded (list Z)) (ms : list Z) (nseed : Z) : outcome (seeded (list Z)) :=
  let! (bodies, _) := encrypt_seeded_lwe_zip key (sd_bodies output) ms (new_egen (sd_seed output) nseed) in
  Ret (Seeded (sd_seed output) bodies).
(** lwe/seeded_list.rs:243-260 and 281-291 *)
Definition expand_lwe_list (s : seeded (list Z)) (output : list (list Z)) : outcome (list (list Z)) :=
  let! (cs, _) := expand_zip expand_one_lwe output (sd_bodies s) (rng (sd_seed s)) in Ret cs.

(** lwe/seeded_keyswitch.rs:280-345 fill_with_seeded_keyswitch_key *)
Fixpoint seeded_ksk_loop (b : Z) (l : nat) (after_key before_key : list Z) (ksk : list (list Z)) (g : egen)
    : outcome (list (list Z) * egen) :=
  match before_key, ksk with
  | bit :: before_key', block :: ksk' =>
      let! messages := ks_messages p w b l bit in
      let! (block, g) := encrypt_seeded_lwe_zip after_key block messages g in
      let! (rest, g) := seeded_ksk_loop b l after_key before_key' ksk' g in Ret (block :: rest, g)
  | _, _ => Ret (ksk, g)
  end.
Definition fill_with_seeded_keyswitch_key (b : Z) (l : nat) (after_key before_key : list Z) (ksk : seeded (list (list Z))) (nseed : Z)
    : outcome (seeded (list (list Z))) :=
  let! (blocks, _) := seeded_ksk_loop b l after_key before_key (sd_bodies ksk) (new_egen (sd_seed ksk) nseed) in
  Ret (Seeded (sd_seed ksk) blocks).
(** lwe_seeded_keyswitch_key_generation.rs with lwe/seeded_keyswitch.rs:81-98 allocate *)
Definition generate_new_lwe_seeded_keyswitch_key (b : Z) (l : nat) (input_key output_key : list Z) (seed nseed : Z) :=
  fill_with_seeded_keyswitch_key b l output_key input_key (Seeded seed (repeat (repeat 0 l) (length input_key))) nseed.
(** lwe/seeded_keyswitch.rs:456-476 expand_into: the output is cut in blocks of l ciphertexts. *)
Definition expand_keyswitch_key (s : seeded (list (list Z))) (output : list (list (list Z))) : outcome (list (list (list Z))) :=
  let! (blocks, _) := expand_zip (expand_zip expand_one_lwe) output (sd_bodies s) (rng (sd_seed s)) in Ret blocks.

(** ** GLWE *)
(** secret/glwe.rs:563-590 encrypt_seeded_glwe_with_existing_generator: the mask buffer has the size of
    the key ([N] its polynomial size) and is cut by the polynomial size of the output; the filling is
    463-491 fill_glwe_mask_and_body_for_encryption. *)
Definition encrypt_seeded_glwe_with (key : list (list Z)) (N : nat) (body0 : list Z) (m : list Z) (g : egen) : outcome (list Z * egen) :=
  let! (body, g) := random_noises gauss (length body0) g in
  let! (mask, g) := random_mask w (N * length key) g in
  let! body := update_with_wrapping_add_multisum_ p w body (chunks (length body0) mask) key in
  let! body := update_with_wrapping_add_ p w body m in
  Ret (body, g).
(** secret/glwe.rs:646-672 encrypt_seeded_glwe; [dim] is the GLWE dimension stored in the output. *)
Definition encrypt_seeded_glwe (key : list (list Z)) (N dim : nat) (output : seeded (list Z)) (m : list Z) (nseed : Z) : outcome (seeded (list Z)) :=
  let! _ := ck_dim_eq p dim (length key) in
  let! (body, _) := encrypt_seeded_glwe_with key N (sd_bodies output) m (new_egen (sd_seed output) nseed) in
  Ret (Seeded (sd_seed output) body).
(** secret/glwe.rs:861-902 encrypt_seeded_glwe_list; [N_out] and [dim] are stored in the output. *)
Fixpoint encrypt_seeded_glwe_zip (key : list (list Z)) (N : nat) (bodies ms : list (list Z)) (g : egen) : outcome (list (list Z) * egen) :=
  match bodies, ms with
  | b :: bodies', m :: ms' =>
      let! (body, g) := encrypt_seeded_glwe_with key N b m g in
      let! (rest, g) := encrypt_seeded_glwe_zip key N bodies' ms' g in Ret (body :: rest, g)
  | _, _ => Ret (bodies, g)
  end.
Definition encrypt_seeded_glwe_list (key : list (list Z)) (N N_out dim : nat) (output : seeded (list (list Z))) (ms : list Z) (nseed : Z)
    : outcome (seeded (list (list Z))) :=
  let! _ := ck_dim_eq p (length (sd_bodies output) * N_out) (length ms) in
  let! _ := ck_dim_eq p dim (length key) in
  let! (bodies, _) := encrypt_seeded_glwe_zip key N (sd_bodies output) (chunks N_out ms) (new_egen (sd_seed output) nseed) in
  Ret (Seeded (sd_seed output) bodies).

(** glwe/seeded_ciphertext.rs:301-320 expand_into_with_existing_generator: [clone_from_slice] panics when
    the lengths differ. *)
Definition expand_one_glwe (output : list (list Z)) (body : list Z) (g : bgen) : outcome (list (list Z) * bgen) :=
  let! (masks0, body0) := glwe_split output in
  let! (mask, g) := generate_tensor (uniform_one w) (length masks0 * length body0) g in
  let! _ := assert_ (Nat.eqb (length body0) (length body)) in
  Ret (chunks (length body0) mask ++ [body], g).
(** glwe/seeded_ciphertext.rs:356-366 expand_into *)
Definition expand_glwe (s : seeded (list Z)) (output : list (list Z)) : outcome (list (list Z)) :=
  let! (c, _) := expand_one_glwe output (sd_bodies s) (rng (sd_seed s)) in Ret c.
(** glwe/seeded_list.rs:367-381 expand_into: fill_with_copy (tensor.rs:771-779) ends in copy_from_slice,
    which panics like clone_from_slice when the lengths differ. *)
Definition expand_glwe_list (s : seeded (list (list Z))) (output : list (list (list Z))) : outcome (list (list (list Z))) :=
  let! (cs, _) := expand_zip expand_one_glwe output (sd_bodies s) (rng (sd_seed s)) in Ret cs.

(** ** GGSW *)
(** secret/glwe.rs:1139-1187 encrypt_constant_seeded_ggsw_row *)
Definition encrypt_constant_seeded_ggsw_row (key : list (list Z)) (N row_index last_row_index : nat) (factor : Z)
    (body0 : list Z) (g : egen) : outcome (list Z) :=
  let! m := ggsw_row_message w key N row_index last_row_index factor in
  let! (body, _) := encrypt_seeded_glwe_with key N body0 m g in Ret body.
(** secret/glwe.rs:1223-1246: one level; [glwe_size] is the size stored in the ciphertext. *)
Definition encrypt_seeded_ggsw_level (key : list (list Z)) (N : nat) (base_log m : Z) (glwe_size : nat) (index : nat)
    (matrix : list (list Z)) (g : egen) : outcome (list (list Z)) :=
  let! scale := level_scale p w base_log (S index) in
  let factor := wmul w (wneg w m) scale in
  let! (gens, _) := expect_fork (fork_ggsw_level_to_glwe p w g (Z.of_nat (length key) + 1) (Z.of_nat N)) in
  let! last_row_index := plain p usize_bits (Z.of_nat glwe_size - 1) in
  with_children (fun i => encrypt_constant_seeded_ggsw_row key N i (Z.to_nat last_row_index) factor) 0 matrix gens.
(** secret/glwe.rs:1191-1247 encrypt_constant_seeded_ggsw_with_existing_generator *)
Definition encrypt_seeded_ggsw_with (key : list (list Z)) (N : nat) (base_log : Z) (N_out glwe_size : nat) (output : list (list (list Z)))
    (m : Z) (g : egen) : outcome (list (list (list Z)) * egen) :=
  let! _ := ck_dim_eq p N N_out in
  let! _ := ck_dim_eq p (length key) (glwe_size - 1) in
  let! (gens, g) := expect_fork (fork_ggsw_to_ggsw_levels p w g (Z.of_nat (length output)) (Z.of_nat (length key) + 1) (Z.of_nat N)) in
  let! res := with_children (encrypt_seeded_ggsw_level key N base_log m glwe_size) 0 output gens in Ret (res, g).
(** secret/glwe.rs:1288-1312 encrypt_constant_seeded_ggsw *)
Definition encrypt_constant_seeded_ggsw (key : list (list Z)) (N : nat) (base_log : Z) (N_out glwe_size : nat) (output : seeded (list (list (list Z))))
    (m nseed : Z) : outcome (seeded (list (list (list Z)))) :=
  let! (G, _) := encrypt_seeded_ggsw_with key N base_log N_out glwe_size (sd_bodies output) m (new_egen (sd_seed output) nseed) in
  Ret (Seeded (sd_seed output) G).
(** ggsw/seeded_standard.rs:507-529 and 575-585: levels, then rows, with one generator *)
Definition expand_ggsw_with : list (list (list (list Z))) -> list (list (list Z)) -> bgen -> outcome (list (list (list (list Z))) * bgen) :=
  expand_zip (expand_zip expand_one_glwe).
Definition expand_ggsw (s : seeded (list (list (list Z)))) (output : list (list (list (list Z)))) : outcome (list (list (list (list Z)))) :=
  let! (G, _) := expand_ggsw_with output (sd_bodies s) (rng (sd_seed s)) in Ret G.

(** ** Bootstrap keys *)
(** bootstrap/seeded_standard/mod.rs:198-242 fill_with_new_key *)
Fixpoint seeded_bsk_loop (key : list (list Z)) (N : nat) (base_log : Z) (N_out glwe_size : nat) (out : list (list (list (list Z)))) (lwe_key : list Z)
    (gens : list egen) : outcome (list (list (list (list Z)))) :=
  match out, lwe_key, gens with
  | G :: out', s :: lwe_key', g :: gens' =>
      let! (x, _) := encrypt_seeded_ggsw_with key N base_log N_out glwe_size G s g in
      let! xs := seeded_bsk_loop key N base_log N_out glwe_size out' lwe_key' gens' in Ret (x :: xs)
  | _, _, _ => Ret out
  end.
Definition fill_with_new_seeded_bootstrap_key (key : list (list Z)) (N level : nat) (base_log : Z) (N_out glwe_size : nat)
    (output : seeded (list (list (list (list Z))))) (lwe_key : list Z) (nseed : Z) : outcome (seeded (list (list (list (list Z))))) :=
  let! _ := ck_dim_eq p (length (sd_bodies output)) (length lwe_key) in
  let! (gens, _) := expect_fork (fork_bsk_to_ggsw p w (new_egen (sd_seed output) nseed) (Z.of_nat (length lwe_key)) (Z.of_nat level)
                                   (Z.of_nat (length key) + 1) (Z.of_nat N_out)) in
  let! res := seeded_bsk_loop key N base_log N_out glwe_size (map (map (map (map (fun _ : Z => 0)))) (sd_bodies output)) lwe_key gens in
  Ret (Seeded (sd_seed output) res).
(** bootstrap/seeded_standard/mod.rs:703-718 expand_into *)
Definition expand_bootstrap_key (s : seeded (list (list (list (list Z))))) (output : list (list (list (list (list Z)))))
    : outcome (list (list (list (list (list Z))))) :=
  let! (bsk, _) := expand_zip expand_ggsw_with output (sd_bodies s) (rng (sd_seed s)) in Ret bsk.
End Seeded.
