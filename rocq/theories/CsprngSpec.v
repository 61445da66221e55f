(** * Specification vocabulary for concrete-csprng.
    The AES table of a key is the sequence of 2^132 bytes obtained by encrypting the
    counters 0, 1, 2, ... and concatenating the 16-byte blocks. *)
From Verif Require Import Base CsprngModel.

(** Number of bytes of the table. *)
Definition table_size : Z := 2 ^ 132.

(** Absolute position of an index in the table. *)
Definition pos (t : table_index) : Z := 16 * aes_index t + byte_index t.

(** Indices a Rust value can hold (u128, and a byte index below 16). *)
Definition ti_wf (t : table_index) : Prop :=
  0 <= aes_index t < 2 ^ 128 /\ 0 <= byte_index t < 16.

Section Table.
  Context {B : Type}.

  (** A block cipher always returns 16 bytes. *)
  Definition cipher_wf (enc : Z -> list B) : Prop := forall c, length (enc c) = 16%nat.

  (** The byte of the table at position [q]. *)
  Definition table_byte (enc : Z -> list B) (q : Z) : option B :=
    nth_error (enc (q / 16)) (Z.to_nat (q mod 16)).

  (** The [k] answers of a generator over the positions [lo, hi): the table bytes, then
      [None] for ever. *)
  Definition stream (enc : Z -> list B) (lo hi : Z) (k : nat) : list (option B) :=
    map (fun q => if q <? hi then table_byte enc q else None) (zseq lo k).
End Table.

(** With overflow checks, computing a batch of 8 blocks panics in the last 7 blocks of the
    table: positions from here on cannot be produced. *)
Definition debug_limit : Z := table_size - 112.

(** [reach p q]: positions below [q] can be produced in profile [p]. *)
Definition reach (p : profile) (q : Z) : Prop := p = Release \/ q <= debug_limit.

(** ** Reachable generators
    Generators obtained by construction, by [next_byte] and by forking, as long as the fork
    sizes fit a [usize] and the end of the fork stays inside the table. *)
Inductive reachable {B} (p : profile) (enc : Z -> list B) : generator B -> Prop :=
| R_new start bound g : ti_wf start -> ti_wf bound ->
    from_block_cipher enc start bound = Ret g -> reachable p enc g
| R_next g b g' : reachable p enc g -> gen_next p g = Ret (b, g') -> reachable p enc g'
| R_parent g n nb child count parent : reachable p enc g ->
    0 <= n -> 0 <= nb -> n * nb < 2 ^ 64 -> pos (gen_table_index g) + n * nb < table_size ->
    try_fork p g n nb = Ret (ForkOk child count parent) -> reachable p enc parent
| R_child g n nb child count parent i c : reachable p enc g ->
    0 <= n -> 0 <= nb -> n * nb < 2 ^ 64 -> pos (gen_table_index g) + n * nb < table_size ->
    try_fork p g n nb = Ret (ForkOk child count parent) ->
    0 <= i < n -> child i = Ret c -> reachable p enc c.

(** Position of the next byte of a generator, and its bound (first position it may not
    output); the table index held by a generator is that of the previous byte. *)
Definition next_pos {B} (g : generator B) : Z := pos (gen_table_index g) + 1.
Definition bound_pos {B} (g : generator B) : Z := pos (last g) + 1.

(** Number of bytes a generator can still output. *)
Definition remaining {B} (g : generator B) : Z := bound_pos g - next_pos g.
