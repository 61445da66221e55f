(** * Model of GGSW encryption and of bootstrap key generation
    /repo/concrete-core/src/commons/crypto/secret/glwe.rs:1011-1635,
    /repo/concrete-core/src/commons/crypto/ggsw/{standard,levels}.rs,
    /repo/concrete-core/src/commons/crypto/bootstrap/standard/mod.rs.

    The tensor of a GGSW ciphertext is represented by its levels (level_matrix_iter, standard.rs:374-447,
    numbered from 1), the levels by their rows (row_iter, levels.rs:141-185), the rows by their
    polynomials.  The sizes stored beside the tensor are those of the lists; the [ck_dim_eq!] on them
    (glwe.rs:1101-1102, 1369-1370, 1607-1608) become the shape hypotheses of the theorems. *)
From Verif Require Import Base Word PolyModel RandomModel LweModel GlweModel.

(** [for (x, mut generator) in outputs.zip(children)], with the index of [x]; each child generator is
    dropped after its turn. *)
Fixpoint with_children {A} (f : nat -> A -> egen -> outcome A) (i : nat) (out : list A) (gens : list egen) : outcome (list A) :=
  match out, gens with
  | a :: out', g :: gens' =>
      let! x := f i a g in
      let! xs := with_children f (S i) out' gens' in Ret (x :: xs)
  | _, _ => Ret out
  end.

(** [.expect(..)] of a fork *)
Definition expect_fork (x : outcome (option (list egen) * egen)) : outcome (list egen * egen) :=
  let! (r, g) := x in match r with Some ch => Ret (ch, g) | None => Panic end.

Section Ggsw.
Context (p : profile) (w : Z) (gauss : list Z -> option (Z * Z)).

(** [Scalar::ONE << (Scalar::BITS - base_log * level)] (glwe.rs:1116-1118 and others) *)
Definition level_scale (base_log : Z) (level : nat) : outcome Z :=
  let! bl := umul p base_log (Z.of_nat level) in
  let! s := plain p usize_bits (w - bl) in shl_ p w 1 s.

(** The message of a row: glwe.rs:1026-1047 encrypt_constant_ggsw_row (and 1155-1186 for the seeded
    version).  [N] is the polynomial size of the key. *)
Definition ggsw_row_message (key : list (list Z)) (N row_index last_row_index : nat) (factor : Z) : outcome (list Z) :=
  if Nat.ltb row_index last_row_index then
    match nth_error key row_index with
    | Some sk_poly => Ret (map (fun x => wmul w x factor) sk_poly)
    | None => Panic
    end
  else
    match repeat 0 N with
    | first :: rest => Ret (wadd w first (wneg w factor) :: rest)
    | [] => Panic
    end.

(** glwe.rs:1011-1048 encrypt_constant_ggsw_row *)
Definition encrypt_constant_ggsw_row (key : list (list Z)) (N row_index last_row_index : nat) (factor : Z)
    (row : list (list Z)) (g : egen) : outcome (list (list Z)) :=
  let! m := ggsw_row_message key N row_index last_row_index factor in
  let! (c, _) := encrypt_glwe p w gauss key row m g in Ret c.

(** glwe.rs:1114-1136: one level; [index] is its position, the level is [index + 1]. *)
Definition encrypt_ggsw_level (key : list (list Z)) (N : nat) (base_log m : Z) (index : nat)
    (matrix : list (list (list Z))) (g : egen) : outcome (list (list (list Z))) :=
  let! scale := level_scale base_log (S index) in
  let factor := wmul w (wneg w m) scale in
  let! (gens, _) := expect_fork (fork_ggsw_level_to_glwe p w g (Z.of_nat (length key) + 1) (Z.of_nat N)) in
  match matrix with
  | [] => Panic   (* glwe_size().0 - 1 underflows *)
  | _ => with_children (fun i => encrypt_constant_ggsw_row key N i (length matrix - 1) factor) 0 matrix gens
  end.

(** glwe.rs:1087-1137 encrypt_constant_ggsw *)
Definition encrypt_constant_ggsw (key : list (list Z)) (N : nat) (base_log : Z) (output : list (list (list (list Z))))
    (m : Z) (g : egen) : outcome (list (list (list (list Z))) * egen) :=
  let! (gens, g) := expect_fork (fork_ggsw_to_ggsw_levels p w g (Z.of_nat (length output)) (Z.of_nat (length key) + 1) (Z.of_nat N)) in
  let! res := with_children (encrypt_ggsw_level key N base_log m) 0 output gens in Ret (res, g).

(** ** Trivial encryptions *)

(** [for (index, row) in matrix.row_iter_mut().enumerate()]: the first coefficient of the polynomial
    [index] of row [index] (standard.rs:522-532, glwe.rs:1622-1632). *)
Definition add_first (d : Z) (poly : list Z) : outcome (list Z) :=
  match poly with [] => Panic | c :: r => Ret (wadd w c d :: r) end.
Fixpoint update_nth {A} (f : A -> outcome A) (n : nat) (l : list A) : outcome (list A) :=
  match l, n with
  | [], _ => Panic
  | a :: l', O => let! b := f a in Ret (b :: l')
  | a :: l', S n' => let! r := update_nth f n' l' in Ret (a :: r)
  end.
Fixpoint add_diagonal (d : Z) (index : nat) (matrix : list (list (list Z))) : outcome (list (list (list Z))) :=
  match matrix with
  | [] => Ret []
  | row :: matrix' =>
      let! r := update_nth (add_first d) index row in
      let! rs := add_diagonal d (S index) matrix' in Ret (r :: rs)
  end.
Fixpoint add_gadget (base_log m : Z) (index : nat) (G : list (list (list (list Z)))) : outcome (list (list (list (list Z)))) :=
  match G with
  | [] => Ret []
  | matrix :: G' =>
      let! scale := level_scale base_log (S index) in
      let! r := add_diagonal (wmul w m scale) 0 matrix in
      let! rs := add_gadget base_log m (S index) G' in Ret (r :: rs)
  end.

(** Zero the masks of a GLWE ciphertext (standard.rs:510-513): the body is not touched. *)
Definition zero_mask (c : list (list Z)) : outcome (list (list Z)) :=
  let! (masks, body) := glwe_split c in Ret (map (map (fun _ => 0)) masks ++ [body]).

(** standard.rs:504-534 fill_with_trivial_encryption *)
Definition ggsw_fill_with_trivial_encryption (base_log : Z) (output : list (list (list (list Z)))) (m : Z)
    : outcome (list (list (list (list Z)))) :=
  let! out := omap (omap zero_mask) output in add_gadget base_log m 0 out.
(** standard.rs:54-99 allocate, new_trivial_encryption *)
Definition ggsw_allocate (N glwe_size level : nat) : list (list (list (list Z))) :=
  repeat (repeat (repeat (repeat 0 N) glwe_size) glwe_size) level.
Definition ggsw_new_trivial_encryption (N glwe_size level : nat) (base_log m : Z) :=
  ggsw_fill_with_trivial_encryption base_log (ggsw_allocate N glwe_size level) m.

(** glwe.rs:1609-1614: masks zero, body noise, in sequence over the rows of all levels. *)
Definition zero_mask_noise_body (c : list (list Z)) (g : egen) : outcome (list (list Z) * egen) :=
  let! (masks, body) := glwe_split c in
  let! (es, g) := random_noises gauss (length body) g in Ret (map (map (fun _ => 0)) masks ++ [es], g).
Fixpoint map_gen {A} (f : A -> egen -> outcome (A * egen)) (l : list A) (g : egen) : outcome (list A * egen) :=
  match l with
  | [] => Ret ([], g)
  | a :: l' => let! (x, g) := f a g in let! (xs, g) := map_gen f l' g in Ret (x :: xs, g)
  end.
(** glwe.rs:1594-1635 trivial_encrypt_constant_ggsw *)
Definition trivial_encrypt_constant_ggsw (base_log : Z) (output : list (list (list (list Z)))) (m : Z) (g : egen)
    : outcome (list (list (list (list Z))) * egen) :=
  let! (out, g) := map_gen (map_gen zero_mask_noise_body) output g in
  let! out := add_gadget base_log m 0 out in Ret (out, g).

(** ** Bootstrap keys: bootstrap/standard/mod.rs:210-249 fill_with_new_key.  The zeroing of the output
    (line 224) is kept: [map] over the four levels of nesting. *)
Definition zero_ggsw (G : list (list (list (list Z)))) := map (map (map (map (fun _ : Z => 0)))) G.
Fixpoint bsk_loop (key : list (list Z)) (N : nat) (base_log : Z) (out : list (list (list (list (list Z))))) (lwe_key : list Z) (gens : list egen)
    : outcome (list (list (list (list (list Z))))) :=
  match out, lwe_key, gens with
  | G :: out', s :: lwe_key', g :: gens' =>
      let! (x, _) := encrypt_constant_ggsw key N base_log G s g in
      let! xs := bsk_loop key N base_log out' lwe_key' gens' in Ret (x :: xs)
  | _, _, _ => Ret out
  end.
Definition fill_with_new_bootstrap_key (key : list (list Z)) (N level : nat) (base_log : Z)
    (out : list (list (list (list (list Z))))) (lwe_key : list Z) (g : egen) : outcome (list (list (list (list (list Z)))) * egen) :=
  let! _ := ck_dim_eq p (length out) (length lwe_key) in
  let! (gens, g) := expect_fork (fork_bsk_to_ggsw p w g (Z.of_nat (length lwe_key)) (Z.of_nat level) (Z.of_nat (length key) + 1) (Z.of_nat N)) in
  let! res := bsk_loop key N base_log (map zero_ggsw out) lwe_key gens in Ret (res, g).
End Ggsw.
