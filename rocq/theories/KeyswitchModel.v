(** * Model of the LWE keyswitch and of the packing keyswitches
    /repo/concrete-core/src/commons/crypto/lwe/keyswitch.rs and .../glwe/keyswitch.rs.

    A keyswitching key is the list of its blocks (one per coefficient of the input key), a block the
    list of its rows, level 1 first: the code stores them one after the other in one container and
    cuts it in chunks (lwe/keyswitch.rs:429-441 bit_decomp_iter, glwe/keyswitch.rs:432-447 and
    1243-1258).  The base log [b], the level count [l] and the sizes of the output are stored beside
    the container and are arguments here. *)
From Verif Require Import Base Word DecompModel PolyModel RandomModel LweModel GlweModel.

Section Keyswitch.
Context (p : profile) (w : Z).

(** math/tensor/tensor.rs:1190-1202 update_with_wrapping_sub_element_mul, on an LWE ciphertext and on
    a GLWE ciphertext (the latter is one tensor: the lengths compared are those of the containers;
    polynomials of equal length are zipped one by one). *)
Definition sub_element_mul (out row : list Z) (x : Z) : outcome (list Z) :=
  let! _ := ck_dim_eq p (length out) (length row) in
  Ret (zip_update (fun o c => wsub w o (wmul w c x)) out row).
Definition glwe_sub_element_mul (out row : list (list Z)) (x : Z) : outcome (list (list Z)) :=
  let! _ := ck_dim_eq p (length (concat out)) (length (concat row)) in
  Ret (zip_update (zip_update (fun o c => wsub w o (wmul w c x))) out row).

(** The inner loop [for (row, decomposed) in block.rev().zip(decomp)], common to
    lwe/keyswitch.rs:563-573, glwe/keyswitch.rs:585-595 and 1418-1428. *)
Fixpoint ks_levels {A} (sub_mul : A -> A -> Z -> outcome A) (rows : list A) (it : sdi) (out : A) : outcome A :=
  match rows with
  | [] => Ret out
  | row :: rows' =>
      let! (t, it) := sdi_next p w it in
      match t with
      | None => Ret out
      | Some t => let! out := sub_mul out row (t_value t) in ks_levels sub_mul rows' it out
      end
  end.

(** The outer loop [for (block, x) in bit_decomp_iter().zip(coefficients)] of lwe/keyswitch.rs:556-574,
    glwe/keyswitch.rs:574-596 and 1410-1429: the coefficient is rounded, then decomposed. *)
Fixpoint ks_blocks {A} (sub_mul : A -> A -> Z -> outcome A) (d : decomposer) (blocks : list (list A)) (xs : list Z) (out : A)
    : outcome A :=
  match blocks, xs with
  | block :: blocks', x :: xs' =>
      let! rounded := closest_representable_ p w d x in
      let! it := decompose_ p w d rounded in
      let! out := ks_levels sub_mul (rev block) it out in
      ks_blocks sub_mul d blocks' xs' out
  | _, _ => Ret out
  end.

(** lwe/keyswitch.rs:537-576 keyswitch_ciphertext; [n_out] is the stored output dimension and [after] the
    output before the call. *)
Definition keyswitch_ciphertext (b : Z) (l : nat) (n_out : nat) (ksk : list (list (list Z))) (after before : list Z)
    : outcome (list Z) :=
  let! (mask, body) := split_last before in
  let! (mask0, _) := split_last after in
  let! _ := ck_dim_eq p (length ksk) (length mask) in
  let! _ := ck_dim_eq p n_out (length mask0) in
  let after := map (fun _ => 0) mask0 ++ [body] in
  let! d := dec_new p w b l in
  ks_blocks sub_element_mul d ksk mask after.

(** lwe/keyswitch.rs:578-595 keyswitch_list *)
Definition keyswitch_list (b : Z) (l : nat) (n_out : nat) (ksk : list (list (list Z))) (output input : list (list Z))
    : outcome (list (list Z)) :=
  let! _ := ck_dim_eq p (length input) (length output) in
  ozip_update (keyswitch_ciphertext b l n_out ksk) output input.

(** [*tensor.first_mut() = x] (tensor.rs:511-530): panics on an empty tensor. *)
Definition set_first (l : list Z) (x : Z) : outcome (list Z) :=
  match l with [] => Panic | _ :: t => Ret (x :: t) end.

(** glwe/keyswitch.rs:552-597 keyswitch_ciphertext (packing key); [k_out] is the stored GLWE dimension. *)
Definition packing_keyswitch_ciphertext (b : Z) (l : nat) (k_out : nat) (pksk : list (list (list (list Z))))
    (after : list (list Z)) (before : list Z) : outcome (list (list Z)) :=
  let! (mask, body) := split_last before in
  let! (masks0, body0) := glwe_split after in
  let! _ := ck_dim_eq p (length pksk) (length mask) in
  let! _ := ck_dim_eq p k_out (length masks0) in
  let! gbody := set_first (map (fun _ => 0) body0) body in
  let after := map (map (fun _ => 0)) masks0 ++ [gbody] in
  let! d := dec_new p w b l in
  ks_blocks glwe_sub_element_mul d pksk mask after.

(** glwe/keyswitch.rs:1393-1430 private_functional_keyswitch_ciphertext: every coefficient of the
    input, its body included, is decomposed. *)
Definition private_functional_keyswitch_ciphertext (b : Z) (l : nat) (k_out : nat) (pfpksk : list (list (list (list Z))))
    (after : list (list Z)) (before : list Z) : outcome (list (list Z)) :=
  let! _ := ck_dim_eq p (length pfpksk - 1) (length before - 1) in
  let! _ := ck_dim_eq p k_out (length after - 1) in
  let after := map (map (fun _ => 0)) after in
  let! d := dec_new p w b l in
  ks_blocks glwe_sub_element_mul d pfpksk before after.

(** The common body of glwe/keyswitch.rs:603-630 packing_keyswitch and 1500-1527
    private_functional_packing_keyswitch; [ks] is the keyswitch of one ciphertext into the buffer.
    update_with_wrapping_monic_monomial_mul is polynomial.rs:701-722; the addition is
    update_with_wrapping_add on the containers. *)
Fixpoint pack_loop (ks : list (list Z) -> list Z -> outcome (list (list Z))) (output buffer : list (list Z)) (degree : nat)
    (input : list (list Z)) : outcome (list (list Z)) :=
  match input with
  | [] => Ret output
  | c :: input' =>
      let! buffer := ks buffer c in
      let buffer := list_monic_monomial_mul w buffer degree in
      let! _ := ck_dim_eq p (length (concat output)) (length (concat buffer)) in
      pack_loop ks (zip_update (zip_update (wadd w)) output buffer) buffer (S degree) input'
  end.
Definition pack (ks : list (list Z) -> list Z -> outcome (list (list Z))) (output : list (list Z)) (input : list (list Z))
    : outcome (list (list Z)) :=
  let! (_, body) := glwe_split output in
  let! _ := match p with Debug => assert_ (Nat.leb (length input) (length body)) | Release => Ret tt end in
  let output := map (map (fun _ => 0)) output in
  pack_loop ks output output 0 input.

Definition packing_keyswitch (b : Z) (l k_out : nat) pksk output input :=
  pack (packing_keyswitch_ciphertext b l k_out pksk) output input.
Definition private_functional_packing_keyswitch (b : Z) (l k_out : nat) pfpksk output input :=
  pack (private_functional_keyswitch_ciphertext b l k_out pfpksk) output input.

(** ** Key generation *)
Context (gauss : list Z -> option (Z * Z)).

(** lwe/keyswitch.rs:386-395: the message of level j = 1, ..., l *)
Definition ks_messages (b : Z) (l : nat) (bit : Z) : outcome (list Z) :=
  omap (fun level => summand p w (Term level b bit)) (seq 1 l).

(** lwe/keyswitch.rs:351-404 fill_with_keyswitch_key *)
Fixpoint fill_with_keyswitch_key (b : Z) (l : nat) (after_key before_key : list Z) (ksk : list (list (list Z))) (g : egen)
    : outcome (list (list (list Z)) * egen) :=
  match before_key, ksk with
  | bit :: before_key', block :: ksk' =>
      let! messages := ks_messages b l bit in
      let! (block, g) := encrypt_lwe_list p w gauss after_key block messages g in
      let! (rest, g) := fill_with_keyswitch_key b l after_key before_key' ksk' g in Ret (block :: rest, g)
  | _, _ => Ret (ksk, g)
  end.
(** lwe_keyswitch_key_generation.rs:90-112 with lwe/keyswitch.rs:78-94 allocate *)
Definition generate_new_lwe_keyswitch_key (b : Z) (l : nat) (input_key output_key : list Z) (g : egen)
    : outcome (list (list (list Z)) * egen) :=
  fill_with_keyswitch_key b l output_key input_key
    (repeat (repeat (repeat 0 (S (length output_key))) l) (length input_key)) g.

(** glwe/keyswitch.rs:389-397: the first coefficient of the message of each level *)
Definition pks_messages (b : Z) (l N : nat) (bit : Z) : outcome (list (list Z)) :=
  omap (fun level => let! m := summand p w (Term level b bit) in set_first (repeat 0 N) m) (seq 1 l).

(** glwe/keyswitch.rs:353-407 fill_with_packing_keyswitch_key *)
Fixpoint fill_with_packing_keyswitch_key (b : Z) (l N : nat) (output_key : list (list Z)) (input_key : list Z)
    (pksk : list (list (list (list Z)))) (g : egen) : outcome (list (list (list (list Z))) * egen) :=
  match input_key, pksk with
  | bit :: input_key', block :: pksk' =>
      let! messages := pks_messages b l N bit in
      let! (block, g) := encrypt_glwe_list p w gauss output_key N block (concat messages) g in
      let! (rest, g) := fill_with_packing_keyswitch_key b l N output_key input_key' pksk' g in Ret (block :: rest, g)
  | _, _ => Ret (pksk, g)
  end.
(** lwe_packing_keyswitch_key_generation.rs:100-123 with glwe/keyswitch.rs:80-101 allocate *)
Definition generate_new_lwe_packing_keyswitch_key (b : Z) (l N : nat) (input_key : list Z) (output_key : list (list Z)) (g : egen)
    : outcome (list (list (list (list Z))) * egen) :=
  fill_with_packing_keyswitch_key b l N output_key input_key
    (repeat (repeat (glwe_allocate (S (length output_key)) N) l) (length input_key)) g.

(** math/tensor/tensor.rs:1216-1228 update_with_wrapping_add_element_mul *)
Definition add_element_mul (out other : list Z) (x : Z) : outcome (list Z) :=
  let! _ := ck_dim_eq p (length out) (length other) in
  Ret (zip_update (fun o c => wadd w o (wmul w c x)) out other).

(** glwe/keyswitch.rs:1031-1050: the message of each level; [f] is the user's function, only its value
    at one is used. *)
Definition pfpks_messages (b : Z) (l N : nat) (f : Z -> Z) (polynomial : list Z) (bit : Z) : outcome (list (list Z)) :=
  omap (fun level => let! m := summand p w (Term level b (wmul w (f 1) bit)) in add_element_mul (repeat 0 N) polynomial m)
    (seq 1 l).

(** glwe/keyswitch.rs:1022-1062: one iteration of the loop over the blocks, with its own generator *)
Definition fill_pfpks_block (b : Z) (l N : nat) (output_key : list (list Z)) (f : Z -> Z) (polynomial : list Z)
    (bit : Z) (block : list (list (list Z))) (g : egen) : outcome (list (list (list Z))) :=
  let! messages := pfpks_messages b l N f polynomial bit in
  let! (block, _) := encrypt_glwe_list p w gauss output_key N block (concat messages) g in Ret block.
Fixpoint fill_pfpks_blocks (b : Z) (l N : nat) (output_key : list (list Z)) (f : Z -> Z) (polynomial : list Z)
    (bits : list Z) (blocks : list (list (list (list Z)))) (gs : list egen) : outcome (list (list (list (list Z)))) :=
  match bits, blocks, gs with
  | bit :: bits', block :: blocks', g :: gs' =>
      let! block := fill_pfpks_block b l N output_key f polynomial bit block g in
      let! rest := fill_pfpks_blocks b l N output_key f polynomial bits' blocks' gs' in Ret (block :: rest)
  | _, _, _ => Ret blocks
  end.
(** glwe/keyswitch.rs:974-1063 fill_with_private_functional_packing_keyswitch_key: the key coefficients
    are followed by Scalar::MAX; the generator is forked in one child per block. *)
Definition fill_with_pfpks_key (b : Z) (l N : nat) (output_key : list (list Z)) (f : Z -> Z) (polynomial : list Z)
    (input_key : list Z) (blocks : list (list (list (list Z)))) (g : egen)
    : outcome (list (list (list (list Z))) * egen) :=
  let! (children, g) := fork_pfpksk_to_pfpksk_chunks p w g (Z.of_nat l) (Z.of_nat (S (length output_key))) (Z.of_nat N)
                          (Z.of_nat (S (length input_key))) in
  match children with
  | None => Panic
  | Some gs =>
      let! blocks := fill_pfpks_blocks b l N output_key f polynomial (input_key ++ [2 ^ w - 1]) blocks gs in
      Ret (blocks, g)
  end.
(** lwe_private_functional_packing_keyswitch_key_generation.rs:123-152 with glwe/keyswitch.rs:688-709
    allocate *)
Definition pfpks_allocate (l N k n : nat) : list (list (list (list Z))) :=
  repeat (repeat (glwe_allocate (S k) N) l) (S n).
Definition generate_new_pfpks_key (b : Z) (l N : nat) (input_key : list Z) (output_key : list (list Z)) (f : Z -> Z)
    (polynomial : list Z) (g : egen) : outcome (list (list (list (list Z))) * egen) :=
  fill_with_pfpks_key b l N output_key f polynomial input_key (pfpks_allocate l N (length output_key) (length input_key)) g.

(** glwe/keyswitch.rs:2023-2088 fill_with_fpksk_for_circuit_bootstrap: one key per polynomial of the output
    key and one for the constant polynomial -1, all with f(x) = -x. *)
Fixpoint fill_fpksks (b : Z) (l N : nat) (output_key : list (list Z)) (input_key : list Z)
    (keys : list (list (list (list (list Z))))) (polys : list (list Z)) (gs : list egen)
    : outcome (list (list (list (list (list Z))))) :=
  match keys, polys, gs with
  | key :: keys', poly :: polys', g :: gs' =>
      let! (key, _) := fill_with_pfpks_key b l N output_key (fun x => wsub w 0 x) poly input_key key g in
      let! rest := fill_fpksks b l N output_key input_key keys' polys' gs' in Ret (key :: rest)
  | _, _, _ => Ret keys
  end.
Definition fill_with_fpksk_for_circuit_bootstrap (b : Z) (l N : nat) (output_key : list (list Z)) (input_key : list Z)
    (keys : list (list (list (list (list Z))))) (g : egen) : outcome (list (list (list (list (list Z)))) * egen) :=
  let! _ := match p with Debug => assert_ (Nat.eqb (length keys) (S (length output_key))) | Release => Ret tt end in
  let! (children, g) := fork_cbs_pfpksk_to_pfpksk p w g (Z.of_nat l) (Z.of_nat (S (length output_key))) (Z.of_nat N)
                          (Z.of_nat (S (length input_key))) (Z.of_nat (length keys)) in
  match children with
  | None => Panic
  | Some gs =>
      let! last_polynomial := set_first (repeat 0 N) (2 ^ w - 1) in
      let! keys := fill_fpksks b l N output_key input_key keys (output_key ++ [last_polynomial]) gs in Ret (keys, g)
  end.
(** lwe_circuit_bootstrap_private_functional_packing_keyswitch_keys_generation.rs:100-126 with
    glwe/keyswitch.rs:1751-1775 allocate *)
Definition generate_new_cbs_pfpks_keys (b : Z) (l N : nat) (input_key : list Z) (output_key : list (list Z)) (g : egen)
    : outcome (list (list (list (list (list Z)))) * egen) :=
  fill_with_fpksk_for_circuit_bootstrap b l N output_key input_key
    (repeat (pfpks_allocate l N (length output_key) (length input_key)) (S (length output_key))) g.

End Keyswitch.
