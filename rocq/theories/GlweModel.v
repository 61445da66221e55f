(** * Model of GLWE ciphertexts
    /repo/concrete-core/src/commons/crypto/glwe/{ciphertext,list,mask,body}.rs,
    /repo/concrete-core/src/commons/crypto/secret/glwe.rs.

    A ciphertext of GLWE size k+1 and polynomial size N is the list of its k+1 polynomials, the body
    last; the code stores them one after the other in one container of (k+1)*N words and cuts it in
    chunks of N (ciphertext.rs:128-149, 276-337).  A key is the list of its k polynomials
    (secret/glwe.rs:33-40, 373-378, 424-429).  A GlweList is the list of its ciphertexts. *)
From Verif Require Import Base Word PolyModel RandomModel.

(** [slice.chunks(n)] *)
Fixpoint chunks_fuel {A} (fuel n : nat) (l : list A) : list (list A) :=
  match fuel, l with
  | S fuel', _ :: _ => firstn n l :: chunks_fuel fuel' n (skipn n l)
  | _, _ => []
  end.
Definition chunks {A} (n : nat) (l : list A) : list (list A) := chunks_fuel (length l) n l.

(** ciphertext.rs:276-296, 315-337 get_body_and_mask: [size() - 1] underflows on an empty ciphertext. *)
Definition glwe_split (c : list (list Z)) : outcome (list (list Z) * list Z) :=
  match c with [] => Panic | _ => Ret (removelast c, last c []) end.

Section Glwe.
Context (p : profile) (w : Z).

(** ciphertext.rs:506-533 fill_with_trivial_encryption: masks zeroed, body coefficients zipped with the
    plaintexts. *)
Definition glwe_fill_with_trivial_encryption (self : list (list Z)) (m : list Z) : outcome (list (list Z)) :=
  let! (masks, body) := glwe_split self in
  let! _ := ck_dim_eq p (length m) (length body) in
  Ret (map (map (fun _ => 0)) masks ++ [zip_update (fun _ x => x) body m]).
(** ciphertext.rs:54-65 new_trivial_encryption with 37-47 allocate *)
Definition glwe_allocate (glwe_size N : nat) : list (list Z) := repeat (repeat 0 N) glwe_size.
Definition glwe_new_trivial_encryption (glwe_size : nat) (m : list Z) : outcome (list (list Z)) :=
  glwe_fill_with_trivial_encryption (glwe_allocate glwe_size (length m)) m.
(** list.rs:272-292 *)
Definition glwe_list_fill_with_trivial_encryption (N : nat) (self : list (list (list Z))) (ms : list Z) : outcome (list (list (list Z))) :=
  let! _ := ck_dim_eq p (length ms) (N * length self) in
  ozip_update glwe_fill_with_trivial_encryption self (chunks N ms).

(** glwe_ciphertext_trivial_decryption.rs:43-50 *)
Definition glwe_trivial_decrypt (c : list (list Z)) : outcome (list Z) :=
  let! (_, body) := glwe_split c in Ret body.

(** ** Sample extraction: ciphertext.rs:462-504.  [lwe] is the output before the call (length k*N + 1),
    cut in chunks of N; a degree n >= N makes get_monomial panic (polynomial.rs get_element). *)
Definition extract_poly (opposite_count : nat) (a : list Z) : list Z :=
  rotate_left (neg_first w (rev a) opposite_count) opposite_count.
Definition fill_lwe_with_sample_extraction (N : nat) (glwe : list (list Z)) (lwe : list Z) (n : nat) : outcome (list Z) :=
  match lwe with
  | [] => Panic
  | _ =>
      let! (masks, body) := glwe_split glwe in
      match nth_error body n with
      | None => Panic
      | Some b =>
          if Nat.eqb (length (removelast lwe)) (length (concat masks)) then
            Ret (concat (map (extract_poly (N - n - 1)) (chunks N (concat masks))) ++ [b])
          else Panic
      end
  end.

(** secret/glwe.rs:340-345 into_lwe_secret_key and 208-218 binary_from_container *)
Definition glwe_key_into_lwe_key (key : list (list Z)) : list Z := concat key.
Definition lwe_key_to_glwe_key (key : list Z) (N : nat) : list (list Z) := chunks N key.

(** ** Encryption *)
Context (gauss : list Z -> option (Z * Z)).

(** secret/glwe.rs:63-73 generate_binary *)
Definition generate_new_glwe_secret_key (k N : nat) (g : bgen) : outcome (list (list Z) * bgen) :=
  let! (l, g) := generate_tensor uniform_binary_one (N * k) g in Ret (chunks N l, g).

(** secret/glwe.rs:463-491 fill_glwe_mask_and_body_for_encryption: N noise samples in the body, then
    k*N mask words, then the multisum and the encoded message. *)
Definition glwe_fill_mask_and_body (key : list (list Z)) (k N : nat) (m : list Z) (g : egen)
    : outcome (list (list Z) * list Z * egen) :=
  let! (body, g) := random_noises gauss N g in
  let! (mask, g) := random_mask w (k * N) g in
  let masks := chunks N mask in
  let! body := update_with_wrapping_add_multisum_ p w body masks key in
  let! body := update_with_wrapping_add_ p w body m in
  Ret (masks, body, g).

(** secret/glwe.rs:536-561 encrypt_glwe *)
Definition encrypt_glwe (key : list (list Z)) (output : list (list Z)) (m : list Z) (g : egen) : outcome (list (list Z) * egen) :=
  let! (masks0, body0) := glwe_split output in
  let! _ := ck_dim_eq p (length m) (length body0) in
  let! _ := ck_dim_eq p (length masks0) (length key) in
  let! (masks, body, g) := glwe_fill_mask_and_body key (length masks0) (length body0) m g in
  Ret (masks ++ [body], g).

(** secret/glwe.rs:710-729 encrypt_zero_glwe *)
Definition encrypt_zero_glwe (key : list (list Z)) (output : list (list Z)) (g : egen) : outcome (list (list Z) * egen) :=
  let! (masks0, body0) := glwe_split output in
  let! _ := ck_dim_eq p (length masks0) (length key) in
  let! (body, g) := random_noises gauss (length body0) g in
  let! (mask, g) := random_mask w (length masks0 * length body0) g in
  let masks := chunks (length body0) mask in
  let! body := update_with_wrapping_add_multisum_ p w body masks key in
  Ret (masks ++ [body], g).

(** secret/glwe.rs:778-802 encrypt_glwe_list *)
Fixpoint encrypt_glwe_zip (key : list (list Z)) (output : list (list (list Z))) (ms : list (list Z)) (g : egen)
    : outcome (list (list (list Z)) * egen) :=
  match output, ms with
  | o :: output', m :: ms' =>
      let! (c, g) := encrypt_glwe key o m g in
      let! (cs, g) := encrypt_glwe_zip key output' ms' g in Ret (c :: cs, g)
  | _, _ => Ret (output, g)
  end.
Definition encrypt_glwe_list (key : list (list Z)) (N : nat) (output : list (list (list Z))) (ms : list Z) (g : egen)
    : outcome (list (list (list Z)) * egen) :=
  let! _ := ck_dim_eq p (length output * N) (length ms) in encrypt_glwe_zip key output (chunks N ms) g.

(** secret/glwe.rs:945-959 encrypt_zero_glwe_list *)
Fixpoint encrypt_zero_glwe_list (key : list (list Z)) (output : list (list (list Z))) (g : egen) : outcome (list (list (list Z)) * egen) :=
  match output with
  | o :: output' =>
      let! (c, g) := encrypt_zero_glwe key o g in
      let! (cs, g) := encrypt_zero_glwe_list key output' g in Ret (c :: cs, g)
  | [] => Ret ([], g)
  end.

(** secret/glwe.rs:964-985 decrypt_glwe; [encoded] is the output before the call.  fill_with_one
    (tensor.rs:867-883) copies the body. *)
Definition discard_decrypt_glwe (key : list (list Z)) (encoded : list Z) (c : list (list Z)) : outcome (list Z) :=
  let! (masks, body) := glwe_split c in
  let! _ := ck_dim_eq p (length encoded) (length body) in
  update_with_wrapping_sub_multisum_ p w (zip_update (fun _ x => x) encoded body) masks key.
(** glwe_ciphertext_decryption.rs:63-72: the output is allocated with the key's polynomial size. *)
Definition decrypt_glwe (key : list (list Z)) (N : nat) (c : list (list Z)) : outcome (list Z) :=
  discard_decrypt_glwe key (repeat 0 N) c.
(** secret/glwe.rs:990-1009 decrypt_glwe_list, the output allocated by
    glwe_ciphertext_vector_decryption.rs. *)
Definition decrypt_glwe_list (key : list (list Z)) (N : nat) (cs : list (list (list Z))) : outcome (list Z) :=
  let! ds := omap (decrypt_glwe key N) cs in Ret (concat ds).
End Glwe.
