(** * Model of LWE ciphertexts and of the operations on them
    /repo/concrete-core/src/commons/crypto/lwe/{ciphertext,list}.rs,
    /repo/concrete-core/src/commons/crypto/secret/lwe.rs and the engines of
    /repo/concrete-core/src/backends/default/implementation/engines/default_engine/lwe_*.rs.

    A ciphertext of LWE size n+1 is the list of its n+1 words, the body last (ciphertext.rs:15,
    155-200).  A [LweList] is modelled by the list of its ciphertexts: the code stores them one after
    the other in one container and cuts it in chunks of lwe_size (list.rs:246-297). *)
From Verif Require Import Base Word PolyModel RandomModel.

(** ciphertext.rs:155-200 get_body, get_mask: [split_last().unwrap()]. *)
Definition split_last (c : list Z) : outcome (list Z * Z) :=
  match c with [] => Panic | _ => Ret (removelast c, last c 0) end.

(** tensor.rs:771-779 fill_with_copy: [copy_from_slice] panics when the lengths differ. *)
Definition fill_with_copy {A} (self other : list A) : outcome (list A) :=
  if Nat.eqb (length self) (length other) then Ret other else Panic.

Section Lwe.
Context (p : profile) (w : Z).

(** ciphertext.rs:801-813 compute_multisum: the product is a plain multiplication, the sum wraps.
    fold_with_one (tensor.rs:1242-1260) checks the dimensions in debug builds. *)
Fixpoint multisum_fold (acc : Z) (mask key : list Z) : outcome Z :=
  match mask, key with
  | a :: mask', s :: key' =>
      let! m := plain p w (a * s) in multisum_fold (wadd w acc m) mask' key'
  | _, _ => Ret acc
  end.
Definition compute_multisum_ (mask key : list Z) : outcome Z :=
  let! _ := ck_dim_eq p (length mask) (length key) in multisum_fold 0 mask key.

(** ciphertext.rs:683-698 fill_with_trivial_encryption and 84-88 new_trivial_encryption *)
Definition fill_with_trivial_encryption (self : list Z) (m : Z) : outcome (list Z) :=
  let! (mask, _) := split_last self in Ret (map (fun _ => 0) mask ++ [m]).
Definition new_trivial_encryption (lwe_size : nat) (m : Z) : outcome (list Z) :=
  fill_with_trivial_encryption (repeat 0 lwe_size) m.

(** ciphertext.rs:455-463, 510-518: tensor.update_with_wrapping_{add,sub} (tensor.rs:1112-1113). *)
Definition lwe_update_add (self other : list Z) : outcome (list Z) := update_with_wrapping_add_ p w self other.
Definition lwe_update_sub (self other : list Z) : outcome (list Z) := update_with_wrapping_sub_ p w self other.
(** ciphertext.rs:560-566 *)
Definition lwe_update_neg (self : list Z) : list Z := map (wneg w) self.
(** ciphertext.rs:608-615 *)
Definition lwe_update_scalar_mul (self : list Z) (s : Z) : list Z := map (fun a => wmul w a s) self.
(** ciphertext.rs:317-328; fill_with_one (tensor.rs:867-883) zips. *)
Definition lwe_fill_scalar_mul (self input : list Z) (s : Z) : outcome (list Z) :=
  let! _ := ck_dim_eq p (length self) (length input) in
  Ret (zip_update (fun _ c => wmul w c s) self input).
(** [*get_mut_body() = get_body().wrapping_add(m)] *)
Definition lwe_body_add (self : list Z) (m : Z) : outcome (list Z) :=
  let! (mask, body) := split_last self in Ret (mask ++ [wadd w body m]).
Definition lwe_body_sub (self : list Z) (m : Z) : outcome (list Z) :=
  let! (mask, body) := split_last self in Ret (mask ++ [wsub w body m]).

(** ciphertext.rs:386-408 fill_with_multisum_with_bias: despite its name it accumulates in [self]. *)
Fixpoint multisum_loop (self : list Z) (inputs : list (list Z)) (weights : list Z) : outcome (list Z) :=
  match inputs, weights with
  | c :: inputs', s :: weights' =>
      let! _ := ck_dim_eq p (length self) (length c) in
      multisum_loop (zip_update (fun o c => wadd w o (wmul w c s)) self c) inputs' weights'
  | _, _ => Ret self
  end.
Definition fill_with_multisum_with_bias (self : list Z) (inputs : list (list Z)) (weights : list Z) (bias : Z) : outcome (list Z) :=
  let! self := multisum_loop self inputs weights in lwe_body_add self bias.

(** ** Discarding engines: the first argument is the output before the call *)

(** lwe_ciphertext_discarding_addition.rs:58-69 *)
Definition discard_add (output c1 c2 : list Z) : outcome (list Z) :=
  let! o := fill_with_copy output c1 in lwe_update_add o c2.
(** lwe_ciphertext_discarding_subtraction.rs:55-66 *)
Definition discard_sub (output c1 c2 : list Z) : outcome (list Z) :=
  let! o := fill_with_copy output c1 in lwe_update_sub o c2.
(** lwe_ciphertext_discarding_opposite.rs:54-61 *)
Definition discard_opp (output c : list Z) : outcome (list Z) :=
  let! o := fill_with_copy output c in Ret (lwe_update_neg o).
(** lwe_ciphertext_cleartext_discarding_multiplication.rs:66-73 *)
Definition discard_mul_cleartext (output c : list Z) (s : Z) : outcome (list Z) := lwe_fill_scalar_mul output c s.
(** lwe_ciphertext_plaintext_discarding_addition.rs:57-68 *)
Definition discard_add_plaintext (output c : list Z) (m : Z) : outcome (list Z) :=
  let! o := fill_with_copy output c in lwe_body_add o m.
(** lwe_ciphertext_plaintext_discarding_subtraction.rs:58-69 *)
Definition discard_sub_plaintext (output c : list Z) (m : Z) : outcome (list Z) :=
  let! o := fill_with_copy output c in lwe_body_sub o m.
(** lwe_ciphertext_vector_discarding_affine_transformation.rs:78-88 *)
Definition discard_affine (output : list Z) (inputs : list (list Z)) (weights : list Z) (bias : Z) : outcome (list Z) :=
  fill_with_multisum_with_bias output inputs weights bias.

(** lwe_ciphertext_vector_discarding_addition.rs:63-77, ..._subtraction.rs:63-77:
    [output.zip(input_1.zip(input_2))]. *)
Definition discard_add_vector (output v1 v2 : list (list Z)) : outcome (list (list Z)) :=
  ozip_update (fun o '(a, b) => discard_add o a b) output (combine v1 v2).
Definition discard_sub_vector (output v1 v2 : list (list Z)) : outcome (list (list Z)) :=
  ozip_update (fun o '(a, b) => discard_sub o a b) output (combine v1 v2).
(** lwe_ciphertext_vector_fusing_addition.rs:55-67 and lwe_ciphertext_vector_fusing_subtraction.rs *)
Definition fuse_add_vector (output v : list (list Z)) : outcome (list (list Z)) := ozip_update lwe_update_add output v.
Definition fuse_sub_vector (output v : list (list Z)) : outcome (list (list Z)) := ozip_update lwe_update_sub output v.
(** lwe_ciphertext_vector_plaintext_vector_discarding_addition.rs:39-59 *)
Definition discard_add_plaintext_vector (output v : list (list Z)) (ms : list Z) : outcome (list (list Z)) :=
  let! o := ozip_update fill_with_copy output v in ozip_update lwe_body_add o ms.
(** lwe_ciphertext_vector_cleartext_vector_discarding_multiplication.rs:40-54: [inp2.next().unwrap()]
    panics when the cleartext vector is too short. *)
Fixpoint discard_mul_cleartext_vector (output v : list (list Z)) (ss : list Z) : outcome (list (list Z)) :=
  match output, v with
  | o :: output', c :: v' =>
      match ss with
      | [] => Panic
      | s :: ss' =>
          let! x := lwe_fill_scalar_mul o c s in
          let! xs := discard_mul_cleartext_vector output' v' ss' in Ret (x :: xs)
      end
  | _, _ => Ret output
  end.

(** ** Encryption *)
Context (gauss : list Z -> option (Z * Z)).

(** secret/lwe.rs:307-333: mask, then noise, then the multisum and the encoded message.  The
    length [n] is that of the output's mask. *)
Definition fill_mask_and_body (key : list Z) (n : nat) (m : Z) (g : egen) : outcome (list Z * Z * egen) :=
  let! (mask, g) := random_mask w n g in
  let! (e, g) := random_noise gauss g in
  let! s := compute_multisum_ mask key in
  Ret (mask, wadd w (wadd w e s) m, g).

(** secret/lwe.rs:372-393 encrypt_lwe *)
Definition encrypt_lwe (key : list Z) (output : list Z) (m : Z) (g : egen) : outcome (list Z * egen) :=
  let! (mask0, _) := split_last output in
  let! (mask, body, g) := fill_mask_and_body key (length mask0) m g in
  Ret (mask ++ [body], g).

(** secret/lwe.rs:701-715 decrypt_lwe *)
Definition decrypt_lwe (key c : list Z) : outcome Z :=
  let! (mask, body) := split_last c in
  let! s := compute_multisum_ mask key in Ret (wsub w body s).

(** secret/lwe.rs:530-550 encrypt_lwe_list (zip; dimensions debug-checked) *)
Fixpoint encrypt_lwe_zip (key : list Z) (output : list (list Z)) (ms : list Z) (g : egen) : outcome (list (list Z) * egen) :=
  match output, ms with
  | o :: output', m :: ms' =>
      let! (c, g) := encrypt_lwe key o m g in
      let! (cs, g) := encrypt_lwe_zip key output' ms' g in Ret (c :: cs, g)
  | _, _ => Ret (output, g)
  end.
Definition encrypt_lwe_list (key : list Z) (output : list (list Z)) (ms : list Z) (g : egen) : outcome (list (list Z) * egen) :=
  let! _ := ck_dim_eq p (length output) (length ms) in encrypt_lwe_zip key output ms g.

(** secret/lwe.rs:553-584 par_encrypt_lwe_list: each ciphertext is encrypted with its own child
    generator; the ciphertexts do not share data, so that the result does not depend on the
    schedule.  [lwe_size] is the size stored in the list. *)
Fixpoint encrypt_lwe_zip3 (key : list Z) (output : list (list Z)) (ms : list Z) (gs : list egen) : outcome (list (list Z)) :=
  match output, ms, gs with
  | o :: output', m :: ms', g :: gs' =>
      let! (c, _) := encrypt_lwe key o m g in
      let! cs := encrypt_lwe_zip3 key output' ms' gs' in Ret (c :: cs)
  | _, _, _ => Ret output
  end.
Definition par_encrypt_lwe_list (key : list Z) (lwe_size : nat) (output : list (list Z)) (ms : list Z) (g : egen) : outcome (list (list Z) * egen) :=
  let! _ := ck_dim_eq p (length output) (length ms) in
  let! (children, g) := fork_lwe_list_to_lwe p w g (Z.of_nat (length output)) (Z.of_nat lwe_size) in
  match children with
  | None => Panic
  | Some gs => let! cs := encrypt_lwe_zip3 key output ms gs in Ret (cs, g)
  end.

(** secret/lwe.rs:720-739 decrypt_lwe_list, the output having the length of the input
    (lwe_ciphertext_vector_decryption.rs:63-72) *)
Definition decrypt_lwe_list (key : list Z) (cs : list (list Z)) : outcome (list Z) := omap (decrypt_lwe key) cs.

(** ** Key generation and public keys *)

(** lwe_secret_key_generation.rs:40-48, secret/lwe.rs:61-77, secret.rs:30-40 *)
Definition generate_new_lwe_secret_key (n : nat) (g : bgen) : outcome (list Z * bgen) :=
  generate_tensor uniform_binary_one n g.

(** lwe_public_key_generation.rs:64-76 with lwe_ciphertext_vector_zero_encryption.rs:58-77 *)
Definition zero_encrypt_vector (key : list Z) (count : nat) (g : egen) : outcome (list (list Z) * egen) :=
  encrypt_lwe_list key (repeat (repeat 0 (S (length key))) count) (repeat 0 count) g.
Definition generate_new_lwe_public_key (key : list Z) (count : nat) (g : egen) : outcome (list (list Z) * egen) :=
  zero_encrypt_vector key count g.

(** lwe_ciphertext_discarding_public_key_encryption.rs:71-91; [sg] is the secret generator. *)
Fixpoint add_chosen (output : list Z) (choice : list Z) (zeros : list (list Z)) : outcome (list Z) :=
  match choice, zeros with
  | b :: choice', z :: zeros' =>
      let! o := if b =? 1 then lwe_update_add output z else Ret output in
      add_chosen o choice' zeros'
  | _, _ => Ret output
  end.
Definition discard_encrypt_public (pk : list (list Z)) (output : list Z) (m : Z) (sg : bgen) : outcome (list Z * bgen) :=
  let! o := fill_with_trivial_encryption output m in
  let! (choice, sg) := generate_tensor uniform_binary_one (length pk) sg in
  let! o := add_chosen o choice pk in Ret (o, sg).
End Lwe.
