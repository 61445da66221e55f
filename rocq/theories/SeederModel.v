(** * Model of the seeders and of the creation of the default engines
    /repo/concrete-csprng/src/seeders/implem/{unix,rdseed}.rs,
    /repo/concrete-core/src/commons/crypto/secret/generators/seeder.rs,
    /repo/concrete-core/src/backends/default/implementation/engines/{default_engine,default_parallel_engine}/mod.rs.
    What the operating system and the processor answer is an input of the model: the 16 bytes read from /dev/random
    ([None]: the read fails), the results of the rdseed instruction.  Bytes are in the little endian order of the host. *)
From Verif Require Import Base Word RandomModel.

(** unix.rs:6-10.  The file is left out: its answers are arguments. *)
Record unix_seeder := UnixSeeder { us_counter : Z; us_secret : Z }.
(** unix.rs:55-61 dev_random: [read_exact(..).expect(..)] then [u128::from_ne_bytes]. *)
Definition dev_random (answer : option (list Z)) : outcome Z :=
  match answer with Some buf => Ret (le_value buf) | None => Panic end.
(** unix.rs:29-40 new; [nanos] is the time since the UNIX epoch, in nanoseconds. *)
Definition unix_new (secret nanos : Z) : unix_seeder := UnixSeeder nanos secret.
(** unix.rs:44-48 seed *)
Definition unix_seed (s : unix_seeder) (answer : option (list Z)) : outcome (Z * unix_seeder) :=
  let! dev := dev_random answer in
  let output := Z.lxor (Z.lxor (us_secret s) (us_counter s)) dev in
  Ret (output, UnixSeeder (wadd 128 (us_counter s) 1) (us_secret s)).
(** A history of calls, with the answers of the device to each of them. *)
Fixpoint unix_seeds (s : unix_seeder) (answers : list (option (list Z))) : outcome (list Z * unix_seeder) :=
  match answers with
  | [] => Ret ([], s)
  | a :: answers' => let! (x, s) := unix_seed s a in let! (xs, s) := unix_seeds s answers' in Ret (x :: xs, s)
  end.

(** rdseed.rs:25-29 (and 30-34): the instruction is repeated until it succeeds; [results] are its answers, a status and a
    value.  [None] when the answers run out: the loop goes on. *)
Fixpoint rdseed_until (results : list (bool * Z)) : option (Z * list (bool * Z)) :=
  match results with
  | [] => None
  | (ok, v) :: results' => if ok then Some (v, results') else rdseed_until results'
  end.
(** rdseed.rs:20-39 rdseed_random_m128 *)
Definition rdseed_random_m128 (results : list (bool * Z)) : option (Z * list (bool * Z)) :=
  match rdseed_until results with
  | None => None
  | Some (rand1, results) => match rdseed_until results with
                             | None => None
                             | Some (rand2, results) => Some (rand1 + 2 ^ 64 * rand2, results)
                             end
  end.

Section Deterministic.
(** [rng seed] is [RandomGenerator::new(seed)] (generator.rs:60-66). *)
Context (rng : Z -> bgen).
(** seeder.rs:33-43: the seeder is its generator. *)
Definition deterministic_seeder_new (seed : Z) : bgen := rng seed.
(** seeder.rs:46-48: [u128::generate_one(&mut self.generator, Uniform)] *)
Definition deterministic_seed (g : bgen) : outcome (Z * bgen) := uniform_one 128 g.
Fixpoint deterministic_seeds (n : nat) (g : bgen) : outcome (list Z * bgen) :=
  match n with
  | O => Ret ([], g)
  | S n' => let! (x, g) := deterministic_seed g in let! (xs, g) := deterministic_seeds n' g in Ret (x :: xs, g)
  end.

(** default_engine/mod.rs:51-64 and default_parallel_engine/mod.rs:30-41 *)
Record engine := Engine { en_secret : bgen; en_encryption : egen; en_seeder : bgen }.
(** default_engine/mod.rs:72-88.  The fields are evaluated in their order; the mask seed is an argument of
    [EncryptionRandomGenerator::new], which asks the seeder for the noise seed (encryption.rs:28-33). *)
Definition default_engine_new (seed : Z) : outcome engine :=
  let seeder := deterministic_seeder_new seed in
  let! (secret_seed, seeder) := deterministic_seed seeder in
  let! (mask_seed, seeder) := deterministic_seed seeder in
  let! (noise_seed, seeder) := deterministic_seed seeder in
  Ret (Engine (rng secret_seed) (EG (rng mask_seed) (rng noise_seed)) seeder).
(** default_parallel_engine/mod.rs:50-61: it has no secret generator. *)
Definition default_parallel_engine_new (seed : Z) : outcome (egen * bgen) :=
  let seeder := deterministic_seeder_new seed in
  let! (mask_seed, seeder) := deterministic_seed seeder in
  let! (noise_seed, seeder) := deterministic_seed seeder in
  Ret (EG (rng mask_seed) (rng noise_seed), seeder).
End Deterministic.
