(** * Model of the serialization engines
    /repo/concrete-core/src/backends/default/implementation/engines/default_serialization_engine/*.rs,
    /repo/concrete-core/src/backends/fft/implementation/engines/fft_serialization_engine/*.rs,
    /repo/concrete-core/src/backends/fft/private/math/fft/mod.rs:531-650 (Fourier polynomials).

    The entities derive [Serialize] and [Deserialize]; the bytes are those of [bincode::serialize] and [bincode::deserialize]
    (bincode 1.3, not part of the repository: modelled after its documentation: fixed size little endian integers, usize on 8 bytes,
    a sequence is its length on 8 bytes and its elements, a structure is its fields in order, a unit enum variant is its index on 4 bytes,
    [deserialize] accepts bytes after the value).  A layout describes a type to (de)serialize; f64 values are their 64 bits. *)
From Coq Require Import String.
From Verif Require Import Base Word RandomModel GlweModel.
Local Open Scope list_scope.

Inductive layout :=
| LWord (bytes : nat)          (* unsigned integers, and f64 as its bits *)
| LBool
| LUnit                        (* PhantomData, and the end of a structure *)
| LVec (l : layout)            (* Vec<T>, &[T], &mut [T] *)
| LPair (a b : layout)         (* two consecutive fields *)
| LFourier.                    (* FourierPolynomialList *)
(** Newtype structures (Tensor, PolynomialSize, Seed, ...) have the layout of their field. *)
Definition LStruct (fields : list layout) : layout := fold_right LPair LUnit fields.

(** The values of a layout.  A list of Fourier polynomials (math/fft/mod.rs:525-529) is its polynomial size and the values of
    all its polynomials, each the bits of its real and imaginary parts; within a polynomial the values are taken in the order in which
    the plan of concrete-fft writes them. *)
Fixpoint val (l : layout) : Type :=
  match l with
  | LWord _ => Z | LBool => bool | LUnit => unit
  | LVec l => list (val l) | LPair a b => (val a * val b)%type
  | LFourier => (Z * list (Z * Z))%type
  end.

(** *** Writing *)
(** [to_le_bytes] on k bytes *)
Fixpoint le_bytes (k : nat) (v : Z) : list Z :=
  match k with O => [] | S k' => v mod 256 :: le_bytes k' (v / 256) end.
Definition put_len (n : nat) : list Z := le_bytes 8 (Z.of_nat n).
Definition put_c64 (c : Z * Z) : list Z := le_bytes 8 (fst c) ++ le_bytes 8 (snd c).
(** concrete-fft, Plan::serialize_fourier_buffer (not part of the repository): a sequence of fft_size complex numbers *)
Definition put_poly (buf : list (Z * Z)) : list Z := put_len (length buf) ++ concat (map put_c64 buf).
(** math/fft/mod.rs:532-578.  [polynomial_size.0 / 2] is null for the size 1: the division panics. *)
Definition put_fourier (N : Z) (data : list (Z * Z)) : outcome (list Z) :=
  let! count := if N =? 0 then Ret O else
                if N / 2 =? 0 then Panic else Ret (Nat.div (length data) (Z.to_nat (N / 2))) in
  let head := put_len (2 + count) ++ le_bytes 8 N ++ le_bytes 8 (Z.of_nat count) in
  if Nat.eqb count 0 then Ret head
  else Ret (head ++ concat (map put_poly (firstn count (chunks (Nat.div (length data) count) data)))).

Fixpoint encode (l : layout) : val l -> outcome (list Z) :=
  match l return val l -> outcome (list Z) with
  | LWord k => fun v => Ret (le_bytes k v)
  | LBool => fun b => Ret [if b then 1 else 0]
  | LUnit => fun _ => Ret []
  | LVec l => fun vs => let! es := omap (encode l) vs in Ret (put_len (length vs) ++ concat es)
  | LPair a b => fun v => let! x := encode a (fst v) in let! y := encode b (snd v) in Ret (x ++ y)
  | LFourier => fun v => put_fourier (fst v) (snd v)
  end.

(** *** Reading: [Ret None] is an error of bincode *)
Definition reader (A : Type) := list Z -> outcome (option (A * list Z)).
Definition rret {A} (a : A) : reader A := fun bs => Ret (Some (a, bs)).
Definition rfail {A} : reader A := fun _ => Ret None.
Definition rpanic {A} : reader A := fun _ => Panic.
Definition rbind {A B} (r : reader A) (f : A -> reader B) : reader B :=
  fun bs => let! x := r bs in match x with None => Ret None | Some (a, bs) => f a bs end.

Fixpoint take_bytes (k : nat) : reader (list Z) :=
  match k with
  | O => rret []
  | S k' => fun bs => match bs with
                      | [] => Ret None
                      | b :: bs' => rbind (take_bytes k') (fun l => rret (b :: l)) bs'
                      end
  end.
Definition get_word (k : nat) : reader Z := rbind (take_bytes k) (fun l => rret (le_value l)).
Definition get_bool : reader bool :=
  rbind (get_word 1) (fun b => if b =? 0 then rret false else if b =? 1 then rret true else rfail).
Fixpoint get_many {A} (get : reader A) (n : nat) : reader (list A) :=
  match n with
  | O => rret []
  | S n' => rbind get (fun a => rbind (get_many get n') (fun l => rret (a :: l)))
  end.
Definition get_vec {A} (get : reader A) : reader (list A) := rbind (get_word 8) (fun n => get_many get (Z.to_nat n)).
Definition get_c64 : reader (Z * Z) := rbind (get_word 8) (fun re => rbind (get_word 8) (fun im => rret (re, im))).

(** concrete-fft, Plan::deserialize_fourier_buffer: a sequence that must have the size of the plan, which must be the size of the buffer *)
Definition get_poly (fft_size buf_size : Z) : reader (list (Z * Z)) :=
  if negb (buf_size =? fft_size) then rpanic
  else rbind (get_vec get_c64) (fun l => if Z.of_nat (length l) =? fft_size then rret l else rfail).
Definition is_power_of_two (n : Z) : bool := (0 <? n) && (n =? 2 ^ Z.log2 n).
(** math/fft/mod.rs:63-64, 151-165: [Fft::new(n)] makes twisties and a plan of size n / 2, which must be a power of two. *)
Definition fft_new (N : Z) : outcome unit := if is_power_of_two (N / 2) then Ret tt else Panic.
(** math/fft/mod.rs:623-637: the polynomials; [left] is the number of elements of the sequence that are not yet read *)
Fixpoint get_polys (fft_size buf_size : Z) (count : nat) (left : Z) : reader (list (list (Z * Z))) :=
  match count with
  | O => rret []
  | S count' => if left <=? 0 then rfail
                else rbind (get_poly fft_size buf_size) (fun q => rbind (get_polys fft_size buf_size count' (left - 1)) (fun l => rret (q :: l)))
  end.
Section Profile.
Context (p : profile).
(** math/fft/mod.rs:581-650.  [polynomial_size.0 / 2 * chunk_count] is a plain product; [chunks_exact_mut(0)] panics. *)
Definition get_fourier : reader (Z * list (Z * Z)) :=
  rbind (get_word 8) (fun len =>
  if len <=? 0 then rfail else
  rbind (get_word 8) (fun N =>
  if len <=? 1 then rfail else
  rbind (get_word 8) (fun count bs =>
  let! size := plain p usize_bits (N / 2 * count) in
  if count =? 0 then Ret (Some ((N, []), bs))
  else
    let! _ := fft_new N in
    if size / count =? 0 then Panic
    else rbind (get_polys (N / 2) (size / count) (Z.to_nat count) (len - 2)) (fun l => rret (N, concat l)) bs))).

Fixpoint decode (l : layout) : reader (val l) :=
  match l return reader (val l) with
  | LWord k => get_word k
  | LBool => get_bool
  | LUnit => rret tt
  | LVec l => get_vec (decode l)
  | LPair a b => rbind (decode a) (fun x => rbind (decode b) (fun y => rret (x, y)))
  | LFourier => get_fourier
  end.

(** *** The engines *)
Inductive serialization_error := Deserialization | UnsupportedVersion.
(** entity_serialization.rs (every implementation has this shape; the first is lines 97-115): {version: V0, inner} *)
Definition serialize (l : layout) (entity : val l) : outcome (list Z) :=
  let! inner := encode l entity in Ret (le_bytes 4 0 ++ inner).
(** entity_deserialization.rs (every implementation has this shape; the first is lines 92-116).  The version is V0 for the variant 0 and
    Unsupported for every other one ([serde(other)]); the inner value is read in both cases. *)
Definition deserialize (l : layout) (bs : list Z) : outcome (val l + serialization_error) :=
  let! r := rbind (get_word 4) (fun version => rbind (decode l) (fun inner => rret (version, inner))) bs in
  match r with
  | None => Ret (inr Deserialization)
  | Some ((version, inner), _) => if version =? 0 then Ret (inl inner) else Ret (inr UnsupportedVersion)
  end.
End Profile.

(** *** The layouts of the entities: their structures, field by field *)
Definition usize : layout := LWord 8.
(** math/random/generator.rs:28-41 CompressionSeed *)
Definition seed_layout : layout := LWord 16.
(** encoding/cleartext.rs:8-10, encoding/plaintext.rs:13-16 *)
Definition scalar_layout (w : Z) : layout := LWord (Z.to_nat (w / 8)).
(** math/tensor/tensor.rs:30-33 *)
Definition tensor_layout (w : Z) : layout := LVec (scalar_layout w).
(** encoding/cleartext.rs:13-17 CleartextList, encoding/plaintext.rs:19-23 PlaintextList, lwe/ciphertext.rs:13-17 LweCiphertext *)
Definition list_layout (w : Z) : layout := LStruct [tensor_layout w].
Definition lwe_ciphertext_layout := list_layout.
(** secret/lwe.rs:30-38: tensor, kind *)
Definition lwe_secret_key_layout (w : Z) : layout := LStruct [tensor_layout w; LUnit].
(** secret/glwe.rs:31-40: tensor, poly_size, kind *)
Definition glwe_secret_key_layout (w : Z) : layout := LStruct [tensor_layout w; usize; LUnit].
(** glwe/ciphertext.rs:15-20: tensor, poly_size *)
Definition glwe_ciphertext_layout (w : Z) : layout := LStruct [tensor_layout w; usize].
(** glwe/list.rs:14-20: tensor, rlwe_size, poly_size *)
Definition glwe_list_layout (w : Z) : layout := LStruct [tensor_layout w; usize; usize].
(** glwe/seeded_ciphertext.rs:16-22: tensor, glwe_dimension, compression_seed *)
Definition glwe_seeded_ciphertext_layout (w : Z) : layout := LStruct [tensor_layout w; usize; seed_layout].
(** glwe/seeded_list.rs:15-22: tensor, glwe_dimension, poly_size, compression_seed *)
Definition glwe_seeded_list_layout (w : Z) : layout := LStruct [tensor_layout w; usize; usize; seed_layout].
(** ggsw/standard.rs:21-28: tensor, poly_size, rlwe_size, decomp_base_log *)
Definition ggsw_layout (w : Z) : layout := LStruct [tensor_layout w; usize; usize; usize].
(** ggsw/seeded_standard.rs:17-25: tensor, poly_size, glwe_size, decomp_base_log, compression_seed *)
Definition ggsw_seeded_layout (w : Z) : layout := LStruct [tensor_layout w; usize; usize; usize; seed_layout].
(** bootstrap/standard/mod.rs:25-33: tensor, poly_size, rlwe_size, decomp_level, decomp_base_log *)
Definition bootstrap_key_layout (w : Z) : layout := LStruct [tensor_layout w; usize; usize; usize; usize].
(** bootstrap/seeded_standard/mod.rs:27-36: the same and compression_seed *)
Definition seeded_bootstrap_key_layout (w : Z) : layout := LStruct [tensor_layout w; usize; usize; usize; usize; seed_layout].
(** lwe/list.rs:15-20: tensor, lwe_size *)
Definition lwe_list_layout (w : Z) : layout := LStruct [tensor_layout w; usize].
(** lwe/seeded_ciphertext.rs:15-21: body, lwe_dimension, compression_seed *)
Definition lwe_seeded_ciphertext_layout (w : Z) : layout := LStruct [scalar_layout w; usize; seed_layout].
(** lwe/seeded_list.rs:21-27: tensor, lwe_dimension, compression_seed *)
Definition lwe_seeded_list_layout (w : Z) : layout := LStruct [tensor_layout w; usize; seed_layout].
(** lwe/keyswitch.rs:31-38: tensor, decomp_base_log, decomp_level_count, lwe_size *)
Definition keyswitch_key_layout (w : Z) : layout := LStruct [tensor_layout w; usize; usize; usize].
(** lwe/seeded_keyswitch.rs:28-37: the same and compression_seed *)
Definition seeded_keyswitch_key_layout (w : Z) : layout := LStruct [tensor_layout w; usize; usize; usize; seed_layout].
(** glwe/keyswitch.rs:31-39: tensor, decomp_base_log, decomp_level_count, output_glwe_size, output_polynomial_size *)
Definition packing_keyswitch_key_layout (w : Z) : layout := LStruct [tensor_layout w; usize; usize; usize; usize].
(** glwe/keyswitch.rs:1695-1704: tensor, decomp_base_log, decomp_level_count, input_lwe_size, output_glwe_size, output_polynomial_size *)
Definition pfpksk_list_layout (w : Z) : layout := LStruct [tensor_layout w; usize; usize; usize; usize; usize].
(** encoding/encoder.rs:118-127: o, delta, nb_bit_precision, nb_bit_padding, round *)
Definition float_encoder_layout : layout := LStruct [LWord 8; LWord 8; usize; usize; LBool].
(** backends/fft/private/crypto/ggsw.rs:29-39: fourier, glwe_size, decomposition_base_log, decomposition_level_count *)
Definition fourier_ggsw_layout : layout := LStruct [LFourier; usize; usize; usize].
(** backends/fft/private/crypto/bootstrap.rs:21-33: fourier, key_size, glwe_size, decomposition_base_log, decomposition_level_count *)
Definition fourier_bootstrap_key_layout : layout := LStruct [LFourier; usize; usize; usize; usize].

(** *** The tables of the engines, in the order of the source: the entity and the type of the field [inner] *)
Local Open Scope string_scope.
(** default_serialization_engine/entity_serialization.rs, the implementations at lines 75-3969 *)
Definition default_serialized : list (string * layout) := [
  ("Cleartext32", scalar_layout 32);
  ("Cleartext64", scalar_layout 64);
  ("CleartextF64", scalar_layout 64);
  ("CleartextVector32", list_layout 32);
  ("CleartextVector64", list_layout 64);
  ("CleartextVectorF64", list_layout 64);
  ("GgswCiphertext32", ggsw_layout 32);
  ("GgswCiphertext64", ggsw_layout 64);
  ("GgswSeededCiphertext32", ggsw_seeded_layout 32);
  ("GgswSeededCiphertext64", ggsw_seeded_layout 64);
  ("GlweCiphertext32", glwe_ciphertext_layout 32);
  ("GlweCiphertext64", glwe_ciphertext_layout 64);
  ("GlweCiphertextView32", glwe_ciphertext_layout 32);
  ("GlweCiphertextView64", glwe_ciphertext_layout 64);
  ("GlweCiphertextMutView32", glwe_ciphertext_layout 32);
  ("GlweCiphertextMutView64", glwe_ciphertext_layout 64);
  ("GlweCiphertextVector32", glwe_list_layout 32);
  ("GlweCiphertextVector64", glwe_list_layout 64);
  ("GlweCiphertextVectorView32", glwe_list_layout 32);
  ("GlweCiphertextVectorView64", glwe_list_layout 64);
  ("GlweCiphertextVectorMutView32", glwe_list_layout 32);
  ("GlweCiphertextVectorMutView64", glwe_list_layout 64);
  ("GlweSecretKey32", glwe_secret_key_layout 32);
  ("GlweSecretKey64", glwe_secret_key_layout 64);
  ("GlweSeededCiphertext32", glwe_seeded_ciphertext_layout 32);
  ("GlweSeededCiphertext64", glwe_seeded_ciphertext_layout 64);
  ("GlweSeededCiphertextVector32", glwe_seeded_list_layout 32);
  ("GlweSeededCiphertextVector64", glwe_seeded_list_layout 64);
  ("LweBootstrapKey32", bootstrap_key_layout 32);
  ("LweBootstrapKey64", bootstrap_key_layout 64);
  ("LweCiphertext32", lwe_ciphertext_layout 32);
  ("LweCiphertext64", lwe_ciphertext_layout 64);
  ("LweCiphertextView32", lwe_ciphertext_layout 32);
  ("LweCiphertextView64", lwe_ciphertext_layout 64);
  ("LweCiphertextMutView32", lwe_ciphertext_layout 32);
  ("LweCiphertextMutView64", lwe_ciphertext_layout 64);
  ("LweCircuitBootstrapPrivateFunctionalPackingKeyswitchKeys32", pfpksk_list_layout 32);
  ("LweCircuitBootstrapPrivateFunctionalPackingKeyswitchKeys64", pfpksk_list_layout 64);
  ("LweCiphertextVector32", lwe_list_layout 32);
  ("LweCiphertextVector64", lwe_list_layout 64);
  ("LweCiphertextVectorView32", lwe_list_layout 32);
  ("LweCiphertextVectorView64", lwe_list_layout 64);
  ("LweCiphertextVectorMutView32", lwe_list_layout 32);
  ("LweCiphertextVectorMutView64", lwe_list_layout 64);
  ("LweKeyswitchKey32", keyswitch_key_layout 32);
  ("LweKeyswitchKey64", keyswitch_key_layout 64);
  ("LweSecretKey32", lwe_secret_key_layout 32);
  ("LweSecretKey64", lwe_secret_key_layout 64);
  ("LweSeededBootstrapKey32", seeded_bootstrap_key_layout 32);
  ("LweSeededBootstrapKey64", seeded_bootstrap_key_layout 64);
  ("LweSeededCiphertext32", lwe_seeded_ciphertext_layout 32);
  ("LweSeededCiphertext64", lwe_seeded_ciphertext_layout 64);
  ("LweSeededCiphertextVector32", lwe_seeded_list_layout 32);
  ("LweSeededCiphertextVector64", lwe_seeded_list_layout 64);
  ("LweSeededKeyswitchKey32", seeded_keyswitch_key_layout 32);
  ("LweSeededKeyswitchKey64", seeded_keyswitch_key_layout 64);
  ("LwePackingKeyswitchKey32", packing_keyswitch_key_layout 32);
  ("LwePackingKeyswitchKey64", packing_keyswitch_key_layout 64);
  ("LwePublicKey32", lwe_list_layout 32);
  ("LwePublicKey64", lwe_list_layout 64);
  ("Plaintext32", scalar_layout 32);
  ("Plaintext64", scalar_layout 64);
  ("PlaintextVector32", list_layout 32);
  ("PlaintextVector64", list_layout 64);
  ("FloatEncoder", float_encoder_layout);
  ("FloatEncoderVector", LVec float_encoder_layout)
].
(** default_serialization_engine/entity_deserialization.rs, the implementations at lines 70-3284 *)
Definition default_deserialized : list (string * layout) := [
  ("Cleartext32", scalar_layout 32);
  ("Cleartext64", scalar_layout 64);
  ("CleartextF64", scalar_layout 64);
  ("CleartextVector32", list_layout 32);
  ("CleartextVector64", list_layout 64);
  ("CleartextVectorF64", list_layout 64);
  ("GgswCiphertext32", ggsw_layout 32);
  ("GgswCiphertext64", ggsw_layout 64);
  ("GgswSeededCiphertext32", ggsw_seeded_layout 32);
  ("GgswSeededCiphertext64", ggsw_seeded_layout 64);
  ("GlweCiphertext32", glwe_ciphertext_layout 32);
  ("GlweCiphertext64", glwe_ciphertext_layout 64);
  ("GlweCiphertextVector32", glwe_list_layout 32);
  ("GlweCiphertextVector64", glwe_list_layout 64);
  ("GlweSecretKey32", glwe_secret_key_layout 32);
  ("GlweSecretKey64", glwe_secret_key_layout 64);
  ("GlweSeededCiphertext32", glwe_seeded_ciphertext_layout 32);
  ("GlweSeededCiphertext64", glwe_seeded_ciphertext_layout 64);
  ("GlweSeededCiphertextVector32", glwe_seeded_list_layout 32);
  ("GlweSeededCiphertextVector64", glwe_seeded_list_layout 64);
  ("LweBootstrapKey32", bootstrap_key_layout 32);
  ("LweBootstrapKey64", bootstrap_key_layout 64);
  ("LweCiphertext32", lwe_ciphertext_layout 32);
  ("LweCiphertext64", lwe_ciphertext_layout 64);
  ("LweCiphertextVector32", lwe_list_layout 32);
  ("LweCiphertextVector64", lwe_list_layout 64);
  ("LweCircuitBootstrapPrivateFunctionalPackingKeyswitchKeys32", pfpksk_list_layout 32);
  ("LweCircuitBootstrapPrivateFunctionalPackingKeyswitchKeys64", pfpksk_list_layout 64);
  ("LweKeyswitchKey32", keyswitch_key_layout 32);
  ("LweKeyswitchKey64", keyswitch_key_layout 64);
  ("LweSecretKey32", lwe_secret_key_layout 32);
  ("LweSecretKey64", lwe_secret_key_layout 64);
  ("LweSeededBootstrapKey32", seeded_bootstrap_key_layout 32);
  ("LweSeededBootstrapKey64", seeded_bootstrap_key_layout 64);
  ("LweSeededCiphertext32", lwe_seeded_ciphertext_layout 32);
  ("LweSeededCiphertext64", lwe_seeded_ciphertext_layout 64);
  ("LweSeededCiphertextVector32", lwe_seeded_list_layout 32);
  ("LweSeededCiphertextVector64", lwe_seeded_list_layout 64);
  ("LweSeededKeyswitchKey32", seeded_keyswitch_key_layout 32);
  ("LweSeededKeyswitchKey64", seeded_keyswitch_key_layout 64);
  ("LwePackingKeyswitchKey32", packing_keyswitch_key_layout 32);
  ("LwePackingKeyswitchKey64", packing_keyswitch_key_layout 64);
  ("LwePublicKey32", lwe_list_layout 32);
  ("LwePublicKey64", lwe_list_layout 64);
  ("Plaintext32", scalar_layout 32);
  ("Plaintext64", scalar_layout 64);
  ("PlaintextVector32", list_layout 32);
  ("PlaintextVector64", list_layout 64);
  ("FloatEncoder", float_encoder_layout);
  ("FloatEncoderVector", LVec float_encoder_layout)
].
(** fft_serialization_engine/serialization.rs, the implementations at lines 18, 90, 162, 226 *)
Definition fft_serialized : list (string * layout) := [
  ("FftFourierGgswCiphertext32", fourier_ggsw_layout);
  ("FftFourierGgswCiphertext64", fourier_ggsw_layout);
  ("FftFourierLweBootstrapKey32", fourier_bootstrap_key_layout);
  ("FftFourierLweBootstrapKey64", fourier_bootstrap_key_layout)
].
(** fft_serialization_engine/deserialization.rs, the implementations at lines 20, 98, 177, 249 *)
Definition fft_deserialized : list (string * layout) := [
  ("FftFourierGgswCiphertext32", fourier_ggsw_layout);
  ("FftFourierGgswCiphertext64", fourier_ggsw_layout);
  ("FftFourierLweBootstrapKey32", fourier_bootstrap_key_layout);
  ("FftFourierLweBootstrapKey64", fourier_bootstrap_key_layout)
].
