(** * Model of the GSW ciphertexts over LWE
    /repo/concrete-core/src/commons/crypto/gsw/{ciphertext,levels}.rs and
    /repo/concrete-core/src/commons/crypto/secret/lwe.rs:778-1013.

    The tensor of a GSW ciphertext is represented by its levels (level_matrix_iter,
    gsw/ciphertext.rs:247-265, numbered from 1), the levels by their rows (row_iter,
    gsw/levels.rs:96-103), a row by its words.  The size of the LWE ciphertexts and the base log are
    stored beside the tensor and are arguments here. *)
From Verif Require Import Base Word DecompModel PolyModel RandomModel LweModel GlweModel GgswModel SeededModel ParModel.

Section Gsw.
Context (p : profile) (w : Z) (gauss : list Z -> option (Z * Z)).

(** [encoded.0 * (ONE << (BITS - base_log * level))]: the product is a plain one (lwe.rs:799-802,
    899-902, 996-999). *)
Definition gsw_factor (base_log m : Z) (level : nat) : outcome Z :=
  let! scale := level_scale p w base_log level in plain p w (m * scale).

(** lwe.rs:821-829: [get_mut(index).unwrap()] and the wrapping addition. *)
Definition add_at (index : nat) (d : Z) (row : list Z) : outcome (list Z) :=
  update_nth (fun c => Ret (wadd w c d)) index row.

(** lwe.rs:808-830: one row; its generator is dropped. *)
Definition encrypt_gsw_row (key : list Z) (d : Z) (index : nat) (row : list Z) (g : egen) : outcome (list Z) :=
  let! (c, _) := encrypt_lwe p w gauss key row 0 g in add_at index d c.

(** lwe.rs:798-831: one level; [index] is its position, the level is [index + 1]. *)
Definition encrypt_gsw_level (key : list Z) (base_log m : Z) (index : nat) (matrix : list (list Z)) (g : egen) : outcome (list (list Z)) :=
  let! d := gsw_factor base_log m (S index) in
  let! (gens, _) := expect_fork (fork_gsw_level_to_lwe p w g (Z.of_nat (length key) + 1)) in
  with_children (encrypt_gsw_row key d) 0 matrix gens.

(** lwe.rs:778-832 encrypt_constant_gsw *)
Definition encrypt_constant_gsw (key : list Z) (lwe_size : nat) (base_log : Z) (output : list (list (list Z))) (m : Z) (g : egen)
    : outcome (list (list (list Z)) * egen) :=
  let! _ := ck_dim_eq p (length key) (lwe_size - 1) in
  let! (gens, g) := expect_fork (fork_gsw_to_gsw_levels p w g (Z.of_nat (length output)) (Z.of_nat (length key) + 1)) in
  let! res := with_children (encrypt_gsw_level key base_log m) 0 output gens in Ret (res, g).

(** lwe.rs:875-933 par_encrypt_constant_gsw, in the terms of ParModel: one task per level, which
    starts one task per row. *)
Definition par_gsw_level (key : list Z) (base_log m : Z) (base index : nat) (matrix : list (list Z)) (g : egen) : work (list Z) :=
  node_of (
    let! d := gsw_factor base_log m (S index) in
    let! (gens, _) := expect_fork (fork_gsw_level_to_lwe p w g (Z.of_nat (length key) + 1)) in
    Ret (par_children (fun _ => 1%nat) (fun b i (_ : list Z) g => Leaf b (fun row => encrypt_gsw_row key d i row g)) base 0 matrix gens)).
Definition par_encrypt_constant_gsw (key : list Z) (lwe_size : nat) (base_log : Z) (output : list (list (list Z))) (m : Z) (g : egen)
    : outcome (list (work (list Z)) * egen) :=
  let! _ := ck_dim_eq p (length key) (lwe_size - 1) in
  let! (gens, g) := expect_fork (fork_gsw_to_gsw_levels p w g (Z.of_nat (length output)) (Z.of_nat (length key) + 1)) in
  Ret (par_children (@length _) (par_gsw_level key base_log m) 0 0 output gens, g).

(** lwe.rs:987-991: zero masks, noise for bodies, in sequence over the rows of all the levels. *)
Definition gsw_zero_row (c : list Z) (g : egen) : outcome (list Z * egen) :=
  let! (mask, _) := split_last c in
  let! (e, g) := random_noise gauss g in Ret (map (fun _ => 0) mask ++ [e], g).
(** lwe.rs:993-1012: the decomposition on the diagonals *)
Fixpoint gsw_diagonal (d : Z) (index : nat) (matrix : list (list Z)) : outcome (list (list Z)) :=
  match matrix with
  | [] => Ret []
  | row :: matrix' =>
      let! r := add_at index d row in
      let! rs := gsw_diagonal d (S index) matrix' in Ret (r :: rs)
  end.
Fixpoint gsw_add_gadget (base_log m : Z) (index : nat) (G : list (list (list Z))) : outcome (list (list (list Z))) :=
  match G with
  | [] => Ret []
  | matrix :: G' =>
      let! d := gsw_factor base_log m (S index) in
      let! r := gsw_diagonal d 0 matrix in
      let! rs := gsw_add_gadget base_log m (S index) G' in Ret (r :: rs)
  end.
(** lwe.rs:973-1013 trivial_encrypt_constant_gsw *)
Definition trivial_encrypt_constant_gsw (key : list Z) (lwe_size : nat) (base_log : Z) (output : list (list (list Z))) (m : Z) (g : egen)
    : outcome (list (list (list Z)) * egen) :=
  let! _ := ck_dim_eq p (length key) (lwe_size - 1) in
  let! (out, g) := map_gen (map_gen gsw_zero_row) output g in
  let! out := gsw_add_gadget base_log m 0 out in Ret (out, g).

(** ** External product *)

(** gsw/ciphertext.rs:462-473: [update_with_one] for each row and digit *)
Fixpoint gsw_ep_rows (rows : list (list Z)) (digits : list Z) (out : list Z) : outcome (list Z) :=
  match rows, digits with
  | row :: rows', x :: digits' =>
      let! _ := ck_dim_eq p (length out) (length row) in
      gsw_ep_rows rows' digits' (zip_update (fun o c => wadd w o (wmul w c x)) out row)
  | _, _ => Ret out
  end.
(** gsw/ciphertext.rs:440-474: the levels, already reversed *)
Fixpoint gsw_ep_levels (levels : list (list (list Z))) (it : tsdi) (out : list Z) : outcome (list Z) :=
  match levels with
  | [] => Ret out
  | rows :: levels' =>
      let! (t, it) := tsdi_next p w it in
      match t with
      | None => Panic
      | Some t =>
          let! _ := debug_assert p (Nat.eqb (length levels) (tt_level t)) in
          let! out := gsw_ep_rows rows (tt_values t) out in
          gsw_ep_levels levels' it out
      end
  end.
(** gsw/ciphertext.rs:415-475 external_product.  [rounded] is the buffer of the ciphertext
    (rounded_buffer), returned as the operation leaves it. *)
Definition gsw_external_product (lwe_size : nat) (base_log : Z) (G : list (list (list Z))) (out lwe rounded : list Z)
    : outcome (list Z * list Z) :=
  let! _ := ck_dim_eq p lwe_size (length lwe) in
  let! _ := ck_dim_eq p lwe_size (length out) in
  let! d := dec_new p w base_log (length G) in
  let! _ := ck_dim_eq p (length rounded) (length lwe) in
  let! rounded := ozip_update (fun _ x => closest_representable_ p w d x) rounded lwe in
  let! it := decompose_tensor_ p w d rounded in
  let! out := gsw_ep_levels (rev G) it out in Ret (out, rounded).

(** gsw/ciphertext.rs:536-562 cmux; clone_from_slice (558-560) panics in every build when the lengths
    differ. *)
Definition gsw_cmux (lwe_size : nat) (base_log : Z) (G : list (list (list Z))) (out ct0 ct1 rounded : list Z)
    : outcome (list Z * list Z) :=
  let! _ := assert_ (Nat.eqb (length out) (length ct0)) in
  let! _ := ck_dim_eq p (length ct1) (length ct0) in
  let buffer := zip_update (wsub w) ct1 ct0 in
  gsw_external_product lwe_size base_log G ct0 buffer rounded.
End Gsw.
