(** * What a session with the engine promises, without ciphertexts, keys or generators
    The same calls as in SessionModel.v are run on an ideal store.  Secret keys are only numbers, in the order in which the
    secrets were drawn; a ciphertext is the message that each key reads from it, with a bound on the noise.  A value is a
    message [m] and a bound [E]: the real word is [m + e] modulo 2^w with [|e| <= E]; or nothing is promised about it. *)
From Verif Require Import Base Word SessionModel.

Definition value : Type := option (Z * Z).
Definition vadd (x y : value) : value := match x, y with Some (m, E), Some (m', E') => Some (m + m', E + E') | _, _ => None end.
Definition vsub (x y : value) : value := match x, y with Some (m, E), Some (m', E') => Some (m - m', E + E') | _, _ => None end.
Definition vopp (x : value) : value := match x with Some (m, E) => Some (- m, E) | None => None end.
Definition vmul (a : Z) (x : value) : value := match x with Some (m, E) => Some (a * m, Z.abs a * E) | None => None end.
Definition vwiden (B : Z) (x : value) : value := match x with Some (m, E) => Some (m, E + B) | None => None end.

(** A list of messages and a common bound *)
Definition values : Type := option (list Z * Z).
Definition nth_value (n : nat) (x : values) : value := match x with Some (ms, E) => Some (nth n ms 0, E) | None => None end.

(** A word, seen as a signed integer: the factor of a multiplication by a cleartext *)
Definition signed (w x : Z) : Z := if x <? 2 ^ (w - 1) then x else x - 2 ^ w.

(** What is read from an LWE ciphertext of dimension [c_dim] with the key of the secret number [i] ([Some i]), or without
    a key, by the trivial decryption ([None]). *)
Record cipher := Cipher { c_dim : nat; c_reads : option nat -> value }.
Definition only (i : nat) (x : value) (who : option nat) : value :=
  match who with Some j => if Nat.eqb i j then x else None | None => None end.
(** The same for a GLWE ciphertext: [gc_dim] masks of [gc_size] coefficients *)
Record gcipher := GCipher { gc_dim : nat; gc_size : nat; gc_reads : option nat -> values }.
Definition gonly (i : nat) (x : values) (who : option nat) : values :=
  match who with Some j => if Nat.eqb i j then x else None | None => None end.

Record ideal_lwe_key := ILweKey { il_dim : nat; il_secret : nat }.
Record ideal_glwe_key := IGlweKey { ig_dim : nat; ig_size : nat; ig_secret : nat }.
(** A keyswitch key from one secret to another, and the noise that its use adds *)
Record ideal_ks_key := IKsKey { ik_in : nat; ik_out : nat; ik_from : nat; ik_to : nat; ik_noise : Z }.

Record ideal := Ideal {
  i_secrets : nat;
  i_lwe_keys : list ideal_lwe_key;
  i_glwe_keys : list ideal_glwe_key;
  i_plaintexts : list value;
  i_vectors : list (nat * values);
  i_cleartexts : list Z;
  i_lwe : list cipher;
  i_seeded : list cipher;
  i_glwe : list gcipher;
  i_ks_keys : list ideal_ks_key }.
Definition nothing : ideal := Ideal 0 [] [] [] [] [] [] [] [] [].

Inductive ideal_reply : Type := IDone | IRefused | IValue (x : value) | IValues (n : nat) (x : values) | INoSuchEntity.

Section Ideal.
Context (w : Z) (beta : Z -> Z).   (* the word size, and the bound on the noise of each variance *)

Section Step.
Context (s : ideal).
Definition iarg {A} (l : list A) (i : nat) (k : A -> ideal_reply * ideal) : ideal_reply * ideal :=
  match nth_error l i with Some a => k a | None => (INoSuchEntity, s) end.
(** The call is accepted exactly when [ok] *)
Definition when (ok : bool) (s' : ideal) : ideal_reply * ideal := if ok then (IDone, s') else (IRefused, s).

Definition new_secret_lwe (n : nat) : ideal :=
  Ideal (S (i_secrets s)) (i_lwe_keys s ++ [ILweKey n (i_secrets s)]) (i_glwe_keys s) (i_plaintexts s) (i_vectors s) (i_cleartexts s) (i_lwe s) (i_seeded s) (i_glwe s) (i_ks_keys s).
Definition new_secret_glwe (k N : nat) : ideal :=
  Ideal (S (i_secrets s)) (i_lwe_keys s) (i_glwe_keys s ++ [IGlweKey k N (i_secrets s)]) (i_plaintexts s) (i_vectors s) (i_cleartexts s) (i_lwe s) (i_seeded s) (i_glwe s) (i_ks_keys s).
Definition i_set_keys lk gk : ideal := Ideal (i_secrets s) lk gk (i_plaintexts s) (i_vectors s) (i_cleartexts s) (i_lwe s) (i_seeded s) (i_glwe s) (i_ks_keys s).
Definition i_set_plain pl vs cl : ideal := Ideal (i_secrets s) (i_lwe_keys s) (i_glwe_keys s) pl vs cl (i_lwe s) (i_seeded s) (i_glwe s) (i_ks_keys s).
Definition i_set_ct l sd g ks : ideal := Ideal (i_secrets s) (i_lwe_keys s) (i_glwe_keys s) (i_plaintexts s) (i_vectors s) (i_cleartexts s) l sd g ks.

Definition i_new_plaintext (x : value) : ideal := i_set_plain (i_plaintexts s ++ [x]) (i_vectors s) (i_cleartexts s).
Definition i_new_vector (n : nat) (x : values) : ideal := i_set_plain (i_plaintexts s) (i_vectors s ++ [(n, x)]) (i_cleartexts s).
Definition i_new_lwe (c : cipher) : ideal := i_set_ct (i_lwe s ++ [c]) (i_seeded s) (i_glwe s) (i_ks_keys s).
Definition i_write_lwe (o : nat) (c : cipher) : ideal := i_set_ct (put o c (i_lwe s)) (i_seeded s) (i_glwe s) (i_ks_keys s).
Definition i_new_glwe (c : gcipher) : ideal := i_set_ct (i_lwe s) (i_seeded s) (i_glwe s ++ [c]) (i_ks_keys s).

(** What a key reads: nothing is promised if the dimensions differ *)
Definition read_lwe (k : ideal_lwe_key) (c : cipher) : value :=
  if Nat.eqb (il_dim k) (c_dim c) then c_reads c (Some (il_secret k)) else None.
Definition fits (k : ideal_glwe_key) (c : gcipher) : bool := Nat.eqb (ig_dim k) (gc_dim c) && Nat.eqb (ig_size k) (gc_size c).
Definition fresh (k : ideal_lwe_key) (x : value) (v : Z) : cipher := Cipher (il_dim k) (only (il_secret k) (vwiden (beta v) x)).
(** A ciphertext operation acts on what every key reads *)
Definition both (o a b : nat) (f : value -> value -> value) : ideal_reply * ideal :=
  iarg (i_lwe s) o (fun co => iarg (i_lwe s) a (fun ca => iarg (i_lwe s) b (fun cb =>
    when (Nat.eqb (c_dim co) (c_dim ca) && Nat.eqb (c_dim co) (c_dim cb))
      (i_write_lwe o (Cipher (c_dim co) (fun who => f (c_reads ca who) (c_reads cb who))))))).
Definition each (o a : nat) (f : value -> value) : ideal_reply * ideal :=
  iarg (i_lwe s) o (fun co => iarg (i_lwe s) a (fun ca =>
    when (Nat.eqb (c_dim co) (c_dim ca)) (i_write_lwe o (Cipher (c_dim co) (fun who => f (c_reads ca who)))))).

Definition ideal_step (c : command) : ideal_reply * ideal :=
  match c with
  | GenerateLweKey n => when (Nat.ltb 0 n) (new_secret_lwe n)
  | GenerateGlweKey k N => when (Nat.ltb 0 k && Nat.leb 2 N) (new_secret_glwe k N)
  | GlweKeyToLweKey g =>
      iarg (i_glwe_keys s) g (fun k => when true (i_set_keys (i_lwe_keys s ++ [ILweKey (ig_dim k * ig_size k) (ig_secret k)]) (i_glwe_keys s)))
  | LweKeyToGlweKey k N =>
      iarg (i_lwe_keys s) k (fun k =>
        when (Nat.leb 2 N && Nat.eqb (il_dim k mod N) 0)
          (i_set_keys (i_lwe_keys s) (i_glwe_keys s ++ [IGlweKey (il_dim k / N) N (il_secret k)])))
  | GenerateKeyswitchKey k1 k2 b l v =>
      iarg (i_lwe_keys s) k1 (fun k1 => iarg (i_lwe_keys s) k2 (fun k2 =>
        when (negb (b =? 0) && Nat.ltb 0 l && (b * Z.of_nat l <=? w))
          (i_set_ct (i_lwe s) (i_seeded s) (i_glwe s)
             (i_ks_keys s ++ [IKsKey (il_dim k1) (il_dim k2) (il_secret k1) (il_secret k2)
                (Z.of_nat (il_dim k1) * 2 ^ (w - b * Z.of_nat l - 1) + Z.of_nat (il_dim k1) * Z.of_nat l * 2 ^ (b - 1) * beta v)]))))
  | CreatePlaintext m => when true (i_new_plaintext (Some (m, 0)))
  | CreatePlaintextVector ms => when (Nat.ltb 0 (length ms)) (i_new_vector (length ms) (Some (ms, 0)))
  | CreateCleartext a => when true (i_set_plain (i_plaintexts s) (i_vectors s) (i_cleartexts s ++ [a]))
  | RetrievePlaintext i => iarg (i_plaintexts s) i (fun x => (IValue x, s))
  | RetrievePlaintextVector i => iarg (i_vectors s) i (fun '(n, x) => (IValues n x, s))
  (* everybody reads the message of a trivial encryption *)
  | TriviallyEncrypt size i => iarg (i_plaintexts s) i (fun x => when true (i_new_lwe (Cipher (size - 1) (fun _ => x))))
  | TriviallyDecrypt c => iarg (i_lwe s) c (fun c => when true (i_new_plaintext (c_reads c None)))
  | Encrypt k i v => iarg (i_lwe_keys s) k (fun k => iarg (i_plaintexts s) i (fun x => when true (i_new_lwe (fresh k x v))))
  | DiscardEncrypt k o i v =>
      iarg (i_lwe_keys s) k (fun k => iarg (i_lwe s) o (fun co => iarg (i_plaintexts s) i (fun x =>
        when (Nat.eqb (il_dim k) (c_dim co)) (i_write_lwe o (fresh k x v)))))
  | ZeroEncrypt k v => iarg (i_lwe_keys s) k (fun k => when true (i_new_lwe (fresh k (Some (0, 0)) v)))
  | EncryptSeeded k i v =>
      iarg (i_lwe_keys s) k (fun k => iarg (i_plaintexts s) i (fun x =>
        when true (i_set_ct (i_lwe s) (i_seeded s ++ [fresh k x v]) (i_glwe s) (i_ks_keys s))))
  | ExpandSeeded d => iarg (i_seeded s) d (fun c => when true (i_new_lwe c))
  | Decrypt k c => iarg (i_lwe_keys s) k (fun k => iarg (i_lwe s) c (fun c => when true (i_new_plaintext (read_lwe k c))))
  | DiscardDecrypt k o c =>
      iarg (i_lwe_keys s) k (fun k => iarg (i_plaintexts s) o (fun _ => iarg (i_lwe s) c (fun c =>
        when (Nat.eqb (il_dim k) (c_dim c)) (i_set_plain (put o (read_lwe k c) (i_plaintexts s)) (i_vectors s) (i_cleartexts s)))))
  | DiscardAdd o a b => both o a b vadd
  | DiscardSub o a b => both o a b vsub
  | DiscardOpposite o a => each o a vopp
  | DiscardMulCleartext o a x =>
      iarg (i_lwe s) o (fun _ => iarg (i_lwe s) a (fun _ => iarg (i_cleartexts s) x (fun x => each o a (vmul (signed w x)))))
  | DiscardAddPlaintext o a i =>
      iarg (i_lwe s) o (fun _ => iarg (i_lwe s) a (fun _ => iarg (i_plaintexts s) i (fun x => each o a (fun y => vadd y x))))
  | DiscardSubPlaintext o a i =>
      iarg (i_lwe s) o (fun _ => iarg (i_lwe s) a (fun _ => iarg (i_plaintexts s) i (fun x => each o a (fun y => vsub y x))))
  | FuseAdd o a => both o o a vadd
  | FuseSub o a => both o o a vsub
  | FuseOpposite o => each o o vopp
  | FuseMulCleartext o x => iarg (i_lwe s) o (fun _ => iarg (i_cleartexts s) x (fun x => each o o (vmul (signed w x))))
  | FuseAddPlaintext o i => iarg (i_lwe s) o (fun _ => iarg (i_plaintexts s) i (fun x => each o o (fun y => vadd y x)))
  | FuseSubPlaintext o i => iarg (i_lwe s) o (fun _ => iarg (i_plaintexts s) i (fun x => each o o (fun y => vsub y x)))
  | DiscardKeyswitch o a k =>
      iarg (i_lwe s) o (fun co => iarg (i_lwe s) a (fun ca => iarg (i_ks_keys s) k (fun k =>
        when (Nat.eqb (ik_in k) (c_dim ca) && Nat.eqb (ik_out k) (c_dim co))
          (i_write_lwe o (Cipher (ik_out k) (only (ik_to k) (vwiden (ik_noise k) (c_reads ca (Some (ik_from k)))))))))) 
  | TriviallyEncryptGlwe size i =>
      iarg (i_vectors s) i (fun '(n, x) => when true (i_new_glwe (GCipher (size - 1) n (fun _ => x))))
  | TriviallyDecryptGlwe c => iarg (i_glwe s) c (fun c => when true (i_new_vector (gc_size c) (gc_reads c None)))
  | EncryptGlwe g i v =>
      iarg (i_glwe_keys s) g (fun k => iarg (i_vectors s) i (fun '(n, x) =>
        when (Nat.eqb (ig_size k) n)
          (i_new_glwe (GCipher (ig_dim k) (ig_size k) (gonly (ig_secret k) (match x with Some (ms, E) => Some (ms, E + beta v) | None => None end))))))
  | ZeroEncryptGlwe g v =>
      iarg (i_glwe_keys s) g (fun k =>
        when true (i_new_glwe (GCipher (ig_dim k) (ig_size k) (gonly (ig_secret k) (Some (repeat 0 (ig_size k), beta v))))))
  | DecryptGlwe g c =>
      iarg (i_glwe_keys s) g (fun k => iarg (i_glwe s) c (fun c =>
        when (fits k c) (i_new_vector (gc_size c) (gc_reads c (Some (ig_secret k))))))
  | DiscardDecryptGlwe g o c =>
      iarg (i_glwe_keys s) g (fun k => iarg (i_vectors s) o (fun '(n, _) => iarg (i_glwe s) c (fun c =>
        when (fits k c && Nat.eqb n (gc_size c))
          (i_set_plain (i_plaintexts s) (put o (gc_size c, gc_reads c (Some (ig_secret k))) (i_vectors s)) (i_cleartexts s)))))
  (* the extracted ciphertext is read with the key of the same secret *)
  | DiscardExtract o c n =>
      iarg (i_lwe s) o (fun co => iarg (i_glwe s) c (fun c =>
        when (Nat.eqb (c_dim co) (gc_dim c * gc_size c) && Nat.ltb n (gc_size c))
          (i_write_lwe o (Cipher (c_dim co)
             (fun who => match who with Some i => nth_value n (gc_reads c (Some i)) | None => None end)))))
  end.
End Step.

Fixpoint ideal_session (s : ideal) (cs : list command) : list ideal_reply * ideal :=
  match cs with
  | [] => ([], s)
  | c :: cs => let (r, s) := ideal_step s c in let (rs, s) := ideal_session s cs in (r :: rs, s)
  end.
End Ideal.

(** A word [x] keeps the promise. *)
Definition near (w x : Z) (v : value) : Prop :=
  match v with Some (m, E) => exists e, Z.abs e <= E /\ eqm (2 ^ w) x (m + e) | None => True end.
Definition agrees (w : Z) (r : reply) (i : ideal_reply) : Prop :=
  match r, i with
  | Done, IDone | NoSuchEntity, INoSuchEntity => True
  | Refused _, IRefused => True
  | Value x, IValue v => is_word w x /\ near w x v
  | Values xs, IValues n v => length xs = n /\ Forall (is_word w) xs /\ forall i, (i < n)%nat -> near w (nth i xs 0) (nth_value i v)
  | _, _ => False
  end.

(** The arguments of the calls are words of the right type, and a keyswitch key does not use all the bits of a word: the
    decomposition of b*l = w bits panics or overflows (C01). *)
Definition sensible (w : Z) (c : command) : Prop :=
  match c with
  | CreatePlaintext m => is_word w m
  | CreatePlaintextVector ms => Forall (is_word w) ms
  | CreateCleartext a => is_word w a
  | GenerateKeyswitchKey _ _ b l _ => 0 <= b /\ b * Z.of_nat l < 2 ^ 64 /\ b * Z.of_nat l <> w
  | _ => True
  end.

(** The calls that may panic: the ones that draw from a generator, which may be exhausted, a trivial encryption without a
    body, and in checked builds the decryption with a key of another dimension, which no check refuses. *)
Definition may_panic (p : profile) (s : ideal) (c : command) : Prop :=
  match c with
  | GenerateLweKey _ | GenerateGlweKey _ _ | GenerateKeyswitchKey _ _ _ _ _ | Encrypt _ _ _ | DiscardEncrypt _ _ _ _
  | ZeroEncrypt _ _ | EncryptSeeded _ _ _ | EncryptGlwe _ _ _ | ZeroEncryptGlwe _ _ => True
  | TriviallyEncrypt size _ | TriviallyEncryptGlwe size _ => size = O
  | Decrypt k c =>
      p = Debug /\ exists ik ic, nth_error (i_lwe_keys s) k = Some ik /\ nth_error (i_lwe s) c = Some ic /\ il_dim ik <> c_dim ic
  | _ => False
  end.
