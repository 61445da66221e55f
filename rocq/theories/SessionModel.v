(** * Model of a session with the default engine
    A session is a sequence of calls of the safe methods of DefaultEngine
    (/repo/concrete-core/src/backends/default/implementation/engines/default_engine/*.rs, mod.rs:51-64 for the engine
    itself) on entities that the session itself creates.  The entities are kept in a store, in creation order, and a call
    names its arguments by their positions there; Rust variables are such positions.

    Simplifications: a call that consumes an entity (the key transformations, the expansion of a seeded ciphertext) leaves
    it in the store, as if the caller had cloned it; a position that does not exist, which Rust cannot express, gives the
    reply [NoSuchEntity].  The borrow checker forbids a call whose output is also one of its inputs; the store does not. *)
From Verif Require Import Base Word RandomModel LweModel GlweModel KeyswitchModel SeededModel EngineModel.

(** mod.rs:51-64: the secret generator, the encryption generator and the seeder.  The seeder is a stream of 128-bit seeds
    (C08, C47), of which the engine keeps the number it took. *)
Record engine := Engine { en_secret : bgen; en_enc : egen; en_taken : nat }.

Record store := Store {
  st_lwe_keys : list (list Z);
  st_glwe_keys : list glwe_key;
  st_plaintexts : list Z;
  st_plaintext_vectors : list (list Z);
  st_cleartexts : list Z;
  st_lwe : list (list Z);
  st_seeded : list (nat * seeded Z);   (* the LWE dimension is stored beside the seed and the body *)
  st_glwe : list glwe_ct;
  st_ks_keys : list ks_key }.
Definition empty_store : store := Store [] [] [] [] [] [] [] [] [].

Definition add_lwe_key st x := Store (st_lwe_keys st ++ [x]) (st_glwe_keys st) (st_plaintexts st) (st_plaintext_vectors st) (st_cleartexts st) (st_lwe st) (st_seeded st) (st_glwe st) (st_ks_keys st).
Definition add_glwe_key st x := Store (st_lwe_keys st) (st_glwe_keys st ++ [x]) (st_plaintexts st) (st_plaintext_vectors st) (st_cleartexts st) (st_lwe st) (st_seeded st) (st_glwe st) (st_ks_keys st).
Definition set_plaintexts st x := Store (st_lwe_keys st) (st_glwe_keys st) x (st_plaintext_vectors st) (st_cleartexts st) (st_lwe st) (st_seeded st) (st_glwe st) (st_ks_keys st).
Definition set_plaintext_vectors st x := Store (st_lwe_keys st) (st_glwe_keys st) (st_plaintexts st) x (st_cleartexts st) (st_lwe st) (st_seeded st) (st_glwe st) (st_ks_keys st).
Definition add_cleartext st x := Store (st_lwe_keys st) (st_glwe_keys st) (st_plaintexts st) (st_plaintext_vectors st) (st_cleartexts st ++ [x]) (st_lwe st) (st_seeded st) (st_glwe st) (st_ks_keys st).
Definition set_lwe st x := Store (st_lwe_keys st) (st_glwe_keys st) (st_plaintexts st) (st_plaintext_vectors st) (st_cleartexts st) x (st_seeded st) (st_glwe st) (st_ks_keys st).
Definition add_seeded st x := Store (st_lwe_keys st) (st_glwe_keys st) (st_plaintexts st) (st_plaintext_vectors st) (st_cleartexts st) (st_lwe st) (st_seeded st ++ [x]) (st_glwe st) (st_ks_keys st).
Definition set_glwe st x := Store (st_lwe_keys st) (st_glwe_keys st) (st_plaintexts st) (st_plaintext_vectors st) (st_cleartexts st) (st_lwe st) (st_seeded st) x (st_ks_keys st).
Definition add_ks_key st x := Store (st_lwe_keys st) (st_glwe_keys st) (st_plaintexts st) (st_plaintext_vectors st) (st_cleartexts st) (st_lwe st) (st_seeded st) (st_glwe st) (st_ks_keys st ++ [x]).

(** [entity = value] for the entity at position [i] *)
Fixpoint put {A} (i : nat) (a : A) (l : list A) : list A :=
  match l, i with
  | [], _ => []
  | _ :: l', O => a :: l'
  | b :: l', S i' => b :: put i' a l'
  end.

(** The calls.  [v] names a variance; [o] is the position of an output that is overwritten. *)
Inductive command : Type :=
(* keys *)
| GenerateLweKey (n : nat)
| GenerateGlweKey (k N : nat)
| GlweKeyToLweKey (g : nat)
| LweKeyToGlweKey (s N : nat)
| GenerateKeyswitchKey (s_in s_out : nat) (b : Z) (l : nat) (v : Z)
(* plaintexts and cleartexts *)
| CreatePlaintext (m : Z)
| CreatePlaintextVector (ms : list Z)
| CreateCleartext (a : Z)
| RetrievePlaintext (i : nat)
| RetrievePlaintextVector (i : nat)
(* LWE ciphertexts *)
| TriviallyEncrypt (size i : nat)
| TriviallyDecrypt (c : nat)
| Encrypt (s i : nat) (v : Z)
| DiscardEncrypt (s o i : nat) (v : Z)
| ZeroEncrypt (s : nat) (v : Z)
| EncryptSeeded (s i : nat) (v : Z)
| ExpandSeeded (d : nat)
| Decrypt (s c : nat)
| DiscardDecrypt (s o c : nat)
| DiscardAdd (o a b : nat)
| DiscardSub (o a b : nat)
| DiscardOpposite (o a : nat)
| DiscardMulCleartext (o a s : nat)
| DiscardAddPlaintext (o a i : nat)
| DiscardSubPlaintext (o a i : nat)
| FuseAdd (o a : nat)
| FuseSub (o a : nat)
| FuseOpposite (o : nat)
| FuseMulCleartext (o s : nat)
| FuseAddPlaintext (o i : nat)
| FuseSubPlaintext (o i : nat)
| DiscardKeyswitch (o a k : nat)
(* GLWE ciphertexts *)
| TriviallyEncryptGlwe (size i : nat)
| TriviallyDecryptGlwe (c : nat)
| EncryptGlwe (g i : nat) (v : Z)
| ZeroEncryptGlwe (g : nat) (v : Z)
| DecryptGlwe (g c : nat)
| DiscardDecryptGlwe (g o c : nat)
| DiscardExtract (o c n : nat).

Inductive reply : Type := Done | Refused (e : engine_error) | Value (x : Z) | Values (x : list Z) | NoSuchEntity.

Section Session.
(** The noise sampler of each variance, the generator made from a seed, and the seeds of the seeder. *)
Context (p : profile) (w : Z) (gauss : Z -> list Z -> option (Z * Z)) (rng : Z -> bgen) (seeds : nat -> Z).

Section Step.
Context (en : engine) (st : store).
Notation reaction := (outcome (reply * engine * store)).

(** An argument. *)
Definition arg {A} (l : list A) (i : nat) (k : A -> reaction) : reaction :=
  match nth_error l i with Some a => k a | None => Ret (NoSuchEntity, en, st) end.
(** The [Result] of the safe method: on an error nothing has changed. *)
Definition answer {A} (o : outcome (result A)) (k : A -> engine * store) : reaction :=
  let! r := o in
  match r with
  | Ok a => let (en', st') := k a in Ret (Done, en', st')
  | Err e => Ret (Refused e, en, st)
  end.

Definition with_secret (g : bgen) : engine := Engine g (en_enc en) (en_taken en).
Definition with_enc (g : egen) : engine := Engine (en_secret en) g (en_taken en).
Definition new_plaintext (m : Z) : store := set_plaintexts st (st_plaintexts st ++ [m]).
Definition new_plaintext_vector (ms : list Z) : store := set_plaintext_vectors st (st_plaintext_vectors st ++ [ms]).
Definition new_lwe (c : list Z) : store := set_lwe st (st_lwe st ++ [c]).
Definition write_lwe (o : nat) (c : list Z) : store := set_lwe st (put o c (st_lwe st)).
Definition new_glwe (c : glwe_ct) : store := set_glwe st (st_glwe st ++ [c]).

(** plaintext_vector_creation.rs:30-44 (specification 12-17) *)
Definition safe_create_plaintext_vector (ms : list Z) : outcome (result (list Z)) :=
  refuse (Nat.eqb (length ms) 0) EmptyContainer (run (Ret ms)).

Definition exec (c : command) : reaction :=
  match c with
  (* lwe_secret_key_generation.rs:32-48 *)
  | GenerateLweKey n =>
      answer (safe_generate_lwe_secret_key n (en_secret en)) (fun '(s, g) => (with_secret g, add_lwe_key st s))
  (* glwe_secret_key_generation.rs:36-57 *)
  | GenerateGlweKey k N =>
      answer (safe_generate_glwe_secret_key k N (en_secret en)) (fun '(s, g) => (with_secret g, add_glwe_key st (GlweKey N s)))
  (* glwe_to_lwe_secret_key_transformation.rs:36-48, secret/glwe.rs:340-345 *)
  | GlweKeyToLweKey g =>
      arg (st_glwe_keys st) g (fun k =>
      answer (run (Ret (glwe_key_into_lwe_key (gk_polys k)))) (fun s => (en, add_lwe_key st s)))
  (* lwe_to_glwe_secret_key_transformation.rs:39-68 *)
  | LweKeyToGlweKey s N =>
      arg (st_lwe_keys st) s (fun k =>
      answer (safe_transform_lwe_key_to_glwe_key k N) (fun polys => (en, add_glwe_key st (GlweKey N polys))))
  (* lwe_keyswitch_key_generation.rs:66-112 *)
  | GenerateKeyswitchKey s_in s_out b l v =>
      arg (st_lwe_keys st) s_in (fun kin => arg (st_lwe_keys st) s_out (fun kout =>
      answer (safe_generate_keyswitch_key p w (gauss v) b l kin kout (en_enc en))
        (fun '(blocks, g) => (with_enc g, add_ks_key st (KsKey b l (length kout) blocks)))))
  (* plaintext_creation.rs:27-42 *)
  | CreatePlaintext m => answer (run (Ret m)) (fun m => (en, new_plaintext m))
  (* plaintext_vector_creation.rs:30-44 *)
  | CreatePlaintextVector ms => answer (safe_create_plaintext_vector ms) (fun ms => (en, new_plaintext_vector ms))
  (* cleartext_creation.rs:27-42 *)
  | CreateCleartext a => answer (run (Ret a)) (fun a => (en, add_cleartext st a))
  (* plaintext_retrieval.rs:29-43; plaintext_discarding_retrieval.rs:33-48 writes the same value *)
  | RetrievePlaintext i => arg (st_plaintexts st) i (fun m => Ret (Value m, en, st))
  (* plaintext_vector_retrieval.rs:33-45 *)
  | RetrievePlaintextVector i => arg (st_plaintext_vectors st) i (fun ms => Ret (Values ms, en, st))
  (* lwe_ciphertext_trivial_encryption.rs:36-51 *)
  | TriviallyEncrypt size i =>
      arg (st_plaintexts st) i (fun m => answer (run (new_trivial_encryption size m)) (fun c => (en, new_lwe c)))
  (* lwe_ciphertext_trivial_decryption.rs:34-46 *)
  | TriviallyDecrypt c =>
      arg (st_lwe st) c (fun c => answer (run (let! (_, body) := split_last c in Ret body)) (fun m => (en, new_plaintext m)))
  (* lwe_ciphertext_encryption.rs:42-65 *)
  | Encrypt s i v =>
      arg (st_lwe_keys st) s (fun key => arg (st_plaintexts st) i (fun m =>
      answer (run (encrypt_lwe p w (gauss v) key (repeat 0 (S (length key))) m (en_enc en))) (fun '(c, g) => (with_enc g, new_lwe c))))
  (* lwe_ciphertext_discarding_encryption.rs:46-66 *)
  | DiscardEncrypt s o i v =>
      arg (st_lwe_keys st) s (fun key => arg (st_lwe st) o (fun out => arg (st_plaintexts st) i (fun m =>
      answer (safe_discard_encrypt p w (gauss v) key out m (en_enc en)) (fun '(c, g) => (with_enc g, write_lwe o c)))))
  (* lwe_ciphertext_zero_encryption.rs:42-63 *)
  | ZeroEncrypt s v =>
      arg (st_lwe_keys st) s (fun key =>
      answer (run (encrypt_lwe p w (gauss v) key (repeat 0 (S (length key))) 0 (en_enc en))) (fun '(c, g) => (with_enc g, new_lwe c)))
  (* lwe_seeded_ciphertext_encryption.rs:48-78: a seed for the mask, then encrypt_seeded_lwe takes one for the noise *)
  | EncryptSeeded s i v =>
      arg (st_lwe_keys st) s (fun key => arg (st_plaintexts st) i (fun m =>
      answer (run (encrypt_seeded_lwe p w (gauss v) rng key (length key) (Seeded (seeds (en_taken en)) 0) m (seeds (S (en_taken en)))))
        (fun c => (Engine (en_secret en) (en_enc en) (S (S (en_taken en))), add_seeded st (length key, c)))))
  (* lwe_seeded_to_lwe_ciphertext_transformation.rs:47-70 *)
  | ExpandSeeded d =>
      arg (st_seeded st) d (fun '(n, c) => answer (run (expand_lwe w rng c (repeat 0 (S n)))) (fun c => (en, new_lwe c)))
  (* lwe_ciphertext_decryption.rs:39-57: no check *)
  | Decrypt s c =>
      arg (st_lwe_keys st) s (fun key => arg (st_lwe st) c (fun c =>
      answer (safe_decrypt p w key c) (fun m => (en, new_plaintext m))))
  (* lwe_ciphertext_discarding_decryption.rs:43-62 *)
  | DiscardDecrypt s o c =>
      arg (st_lwe_keys st) s (fun key => arg (st_plaintexts st) o (fun _ => arg (st_lwe st) c (fun c =>
      answer (safe_discard_decrypt p w key c) (fun m => (en, set_plaintexts st (put o m (st_plaintexts st)))))))
  (* the discarding and the fusing operations: EngineModel.v *)
  | DiscardAdd o a b =>
      arg (st_lwe st) o (fun out => arg (st_lwe st) a (fun c1 => arg (st_lwe st) b (fun c2 =>
      answer (safe_discard_add p w out c1 c2) (fun c => (en, write_lwe o c)))))
  | DiscardSub o a b =>
      arg (st_lwe st) o (fun out => arg (st_lwe st) a (fun c1 => arg (st_lwe st) b (fun c2 =>
      answer (safe_discard_sub p w out c1 c2) (fun c => (en, write_lwe o c)))))
  | DiscardOpposite o a =>
      arg (st_lwe st) o (fun out => arg (st_lwe st) a (fun c1 => answer (safe_discard_opp w out c1) (fun c => (en, write_lwe o c))))
  | DiscardMulCleartext o a s =>
      arg (st_lwe st) o (fun out => arg (st_lwe st) a (fun c1 => arg (st_cleartexts st) s (fun x =>
      answer (safe_discard_mul_cleartext p w out c1 x) (fun c => (en, write_lwe o c)))))
  | DiscardAddPlaintext o a i =>
      arg (st_lwe st) o (fun out => arg (st_lwe st) a (fun c1 => arg (st_plaintexts st) i (fun m =>
      answer (safe_discard_add_plaintext w out c1 m) (fun c => (en, write_lwe o c)))))
  | DiscardSubPlaintext o a i =>
      arg (st_lwe st) o (fun out => arg (st_lwe st) a (fun c1 => arg (st_plaintexts st) i (fun m =>
      answer (safe_discard_sub_plaintext w out c1 m) (fun c => (en, write_lwe o c)))))
  | FuseAdd o a =>
      arg (st_lwe st) o (fun out => arg (st_lwe st) a (fun c1 => answer (safe_fuse_add p w out c1) (fun c => (en, write_lwe o c))))
  (* lwe_ciphertext_fusing_subtraction.rs:42-58 *)
  | FuseSub o a =>
      arg (st_lwe st) o (fun out => arg (st_lwe st) a (fun c1 => answer (safe_fuse_sub p w out c1) (fun c => (en, write_lwe o c))))
  (* lwe_ciphertext_fusing_opposite.rs:39-49 *)
  | FuseOpposite o => arg (st_lwe st) o (fun out => answer (run (Ret (lwe_update_neg w out))) (fun c => (en, write_lwe o c)))
  (* lwe_ciphertext_cleartext_fusing_multiplication.rs:46-61 *)
  | FuseMulCleartext o s =>
      arg (st_lwe st) o (fun out => arg (st_cleartexts st) s (fun x =>
      answer (run (Ret (lwe_update_scalar_mul w out x))) (fun c => (en, write_lwe o c))))
  (* lwe_ciphertext_plaintext_fusing_addition.rs:43-58 *)
  | FuseAddPlaintext o i =>
      arg (st_lwe st) o (fun out => arg (st_plaintexts st) i (fun m => answer (run (lwe_body_add w out m)) (fun c => (en, write_lwe o c))))
  (* lwe_ciphertext_plaintext_fusing_subtraction.rs:43-58 *)
  | FuseSubPlaintext o i =>
      arg (st_lwe st) o (fun out => arg (st_plaintexts st) i (fun m => answer (run (lwe_body_sub w out m)) (fun c => (en, write_lwe o c))))
  (* lwe_ciphertext_discarding_keyswitch.rs:58-80 *)
  | DiscardKeyswitch o a k =>
      arg (st_lwe st) o (fun out => arg (st_lwe st) a (fun c1 => arg (st_ks_keys st) k (fun key =>
      answer (safe_discard_keyswitch p w out c1 key) (fun c => (en, write_lwe o c)))))
  (* glwe_ciphertext_trivial_encryption.rs:41-57 *)
  | TriviallyEncryptGlwe size i =>
      arg (st_plaintext_vectors st) i (fun ms =>
      answer (run (glwe_new_trivial_encryption p size ms)) (fun c => (en, new_glwe (GlweCt (length ms) c))))
  (* glwe_ciphertext_trivial_decryption.rs:36-50 *)
  | TriviallyDecryptGlwe c =>
      arg (st_glwe st) c (fun c => answer (run (glwe_trivial_decrypt (g_polys c))) (fun ms => (en, new_plaintext_vector ms)))
  (* glwe_ciphertext_encryption.rs:51-79 *)
  | EncryptGlwe g i v =>
      arg (st_glwe_keys st) g (fun key => arg (st_plaintext_vectors st) i (fun ms =>
      answer (safe_encrypt_glwe p w (gauss v) key ms (en_enc en)) (fun '(c, g) => (with_enc g, new_glwe (GlweCt (gk_N key) c)))))
  (* glwe_ciphertext_zero_encryption.rs:44-65 *)
  | ZeroEncryptGlwe g v =>
      arg (st_glwe_keys st) g (fun key =>
      answer (run (encrypt_zero_glwe p w (gauss v) (gk_polys key) (glwe_allocate (S (gk_dim key)) (gk_N key)) (en_enc en)))
        (fun '(c, g) => (with_enc g, new_glwe (GlweCt (gk_N key) c))))
  (* glwe_ciphertext_decryption.rs:54-76 *)
  | DecryptGlwe g c =>
      arg (st_glwe_keys st) g (fun key => arg (st_glwe st) c (fun c =>
      answer (safe_decrypt_glwe p w key c) (fun ms => (en, new_plaintext_vector ms))))
  (* glwe_ciphertext_discarding_decryption.rs:46-65 *)
  | DiscardDecryptGlwe g o c =>
      arg (st_glwe_keys st) g (fun key => arg (st_plaintext_vectors st) o (fun out => arg (st_glwe st) c (fun c =>
      answer (safe_discard_decrypt_glwe p w key out c)
        (fun ms => (en, set_plaintext_vectors st (put o ms (st_plaintext_vectors st)))))))
  (* lwe_ciphertext_discarding_extraction.rs:62-80 *)
  | DiscardExtract o c n =>
      arg (st_lwe st) o (fun out => arg (st_glwe st) c (fun c =>
      answer (safe_discard_extract w out c n) (fun c => (en, write_lwe o c))))
  end.
End Step.

(** A session: the calls one after the other, and what each of them answered. *)
Fixpoint session (en : engine) (st : store) (cs : list command) : outcome (list reply * engine * store) :=
  match cs with
  | [] => Ret ([], en, st)
  | c :: cs =>
      let! (r, en, st) := exec en st c in
      let! (rs, en, st) := session en st cs in Ret (r :: rs, en, st)
  end.
End Session.
