(** * Model of concrete-csprng: AES-CTR generators.
    Files modelled: concrete-csprng/src/generators/aes_ctr/{mod,index,states,generic,parallel}.rs,
    concrete-csprng/src/generators/implem/{soft,aesni}/block_cipher.rs,
    concrete-csprng/src/generators/implem/soft/generator.rs.

    The AES permutation itself is not modelled: a block cipher is any function from 128-bit
    counters to blocks of 16 bytes.  The type of bytes is a parameter [B]; [u8] is the
    instance used by the code, other instances are used to observe which table entry a
    byte comes from. *)
From Verif Require Import Base.

(** aes_ctr/mod.rs:199-201 *)
Definition bytes_per_aes_call : Z := 16.
Definition aes_calls_per_batch : Z := 8.
Definition bytes_per_batch : Z := 128.

(** ** Table indices, aes_ctr/index.rs *)

(** index.rs:13-18 *)
Record table_index := TI { aes_index : Z; byte_index : Z }.

(** index.rs:21-37 *)
Definition TI_FIRST := TI 0 0.
Definition TI_SECOND := TI 0 1.
Definition TI_LAST := TI (2 ^ 128 - 1) (bytes_per_aes_call - 1).

(** index.rs:39-47 [TableIndex::new] *)
Definition ti_new (a b : Z) : outcome table_index :=
  let! _ := assert_ (b <? bytes_per_aes_call) in Ret (TI a b).

(** index.rs:49-63 [increase].  [full_aes_shifts as u128] and the byte additions cannot
    overflow. *)
Definition ti_increase (t : table_index) (shift : Z) : table_index :=
  let full := shift / bytes_per_aes_call in
  let remainder := shift mod bytes_per_aes_call in
  let new_byte := byte_index t + remainder in
  let full := full + new_byte / bytes_per_aes_call in
  TI ((aes_index t + full) mod 2 ^ 128) (new_byte mod bytes_per_aes_call).

(** index.rs:65-81 [decrease] *)
Definition ti_decrease (t : table_index) (shift : Z) : table_index :=
  let remainder := shift mod bytes_per_aes_call in
  if remainder <=? byte_index t then
    TI ((aes_index t - shift / bytes_per_aes_call) mod 2 ^ 128) (byte_index t - remainder)
  else
    TI ((aes_index t - (shift / bytes_per_aes_call + 1)) mod 2 ^ 128)
       (byte_index t + (bytes_per_aes_call - remainder)).

(** index.rs:83-116 *)
Definition ti_incremented (t : table_index) : table_index := ti_increase t 1.
Definition ti_decremented (t : table_index) : table_index := ti_decrease t 1.

(** index.rs:151-164 [partial_cmp]/[cmp]: lexicographic order *)
Definition ti_cmp (a b : table_index) : comparison :=
  match Z.compare (aes_index a) (aes_index b) with
  | Eq => Z.compare (byte_index a) (byte_index b)
  | c => c
  end.
(** derived operators [==], [<], [<=], [>=] (index.rs:143-164) *)
Definition ti_eqb a b := match ti_cmp a b with Eq => true | _ => false end.
Definition ti_ltb a b := match ti_cmp a b with Lt => true | _ => false end.
Definition ti_leb a b := match ti_cmp a b with Gt => false | _ => true end.
Definition ti_geb a b := match ti_cmp a b with Lt => false | _ => true end.

(** u128 saturating operations used by [distance] (index.rs:134-136) *)
Definition u128_saturating_mul (a b : Z) := Z.min (a * b) (2 ^ 128 - 1).
Definition u128_saturating_add (a b : Z) := Z.min (a + b) (2 ^ 128 - 1).
Definition u128_saturating_sub (a b : Z) := Z.max (a - b) 0.

(** index.rs:118-140 [distance] *)
Definition ti_distance (larger smaller : table_index) : option Z :=
  match ti_cmp larger smaller with
  | Lt => None
  | Eq => Some 0
  | Gt =>
      let result := aes_index larger - aes_index smaller in
      let result := u128_saturating_mul result bytes_per_aes_call in
      let result := u128_saturating_add result (byte_index larger) in
      Some (u128_saturating_sub result (byte_index smaller))
  end.

(** ** Generator states, aes_ctr/states.rs *)

(** states.rs:8-13 *)
Record state := St { table_idx : table_index; buffer_pointer : Z }.

(** states.rs:15-23 *)
Inductive shift_action :=
| OutputByte (ptr : Z)
| RefreshBatchAndOutputByte (aes : Z) (ptr : Z).

(** states.rs:34-47 [State::new] *)
Definition st_new (t : table_index) : outcome state :=
  let! _ := assert_ (negb (ti_eqb t TI_FIRST)) in
  Ret (St (ti_decremented t) (bytes_per_batch - 1)).

(** states.rs:49-60 [State::increase] *)
Definition st_increase (p : profile) (s : state) (shift : Z) : outcome (state * shift_action) :=
  let t := ti_increase (table_idx s) shift in
  let! total := plain p usize_bits (buffer_pointer s + shift) in
  if bytes_per_batch - 1 <? total then
    Ret (St t (byte_index t), RefreshBatchAndOutputByte (aes_index t) (byte_index t))
  else
    Ret (St t total, OutputByte total).

(** states.rs:62-65 *)
Definition st_increment p s := st_increase p s 1.

(** states.rs:73-77 [State::default] *)
Definition st_default : outcome state := st_new TI_FIRST.

(** ** Block cipher batches *)

Section Generator.
  Context {B : Type}.

  (** implem/soft/block_cipher.rs:22-34 and implem/aesni/block_cipher.rs:32-44
      [generate_batch]: the eight blocks of counters c, c+1, ..., c+7, with plain additions
      on u128.  [enc] stands for the AES block cipher of one key. *)
  Definition generate_batch (p : profile) (enc : Z -> list B) (c : Z) : outcome (list B) :=
    let! counters := omap (fun j => plain p 128 (c + j)) (zseq 0 8) in
    Ret (flat_map enc counters).

  (** aes_ctr/generic.rs:25-36.  The buffer of a fresh generator is zeroed in the code; the
      model starts it empty, so that reading a byte before the first refresh is a panic of
      the model instead of a zero byte. *)
  Record generator := Gen {
    block_cipher : Z -> list B;
    gstate : state;
    last : table_index;
    buffer : list B }.

  (** generic.rs:67-83 [from_block_cipher] *)
  Definition from_block_cipher (enc : Z -> list B) (start bound : table_index)
    : outcome generator :=
    let! _ := assert_ (ti_ltb start bound) in
    let last := ti_decremented bound in
    let! st := st_new start in
    Ret (Gen enc st last []).

  (** generic.rs:55-65 [AesCtrGenerator::new]; the key is abstracted by [enc] *)
  Definition gen_new (enc : Z -> list B) (start bound : option table_index)
    : outcome generator :=
    from_block_cipher enc
      (match start with Some t => t | None => TI_SECOND end)
      (match bound with Some t => t | None => TI_LAST end).

  (** implem/soft/generator.rs:24-26 [RandomGenerator::new] *)
  Definition random_generator_new (enc : Z -> list B) : outcome generator :=
    gen_new enc None None.

  (** generic.rs:85-100 *)
  Definition gen_table_index (g : generator) := table_idx (gstate g).
  Definition gen_get_bound (g : generator) := ti_incremented (last g).
  Definition gen_is_bounded (g : generator) := negb (ti_eqb (gen_get_bound g) TI_LAST).

  (** generic.rs:110-112 [remaining_bytes]; [unwrap] panics on [None] *)
  Definition gen_remaining_bytes (g : generator) : outcome Z :=
    match ti_distance (last g) (gen_table_index g) with
    | Some n => Ret n
    | None => Panic
    end.

  (** [self.buffer[ptr]]: an out-of-range index panics *)
  Definition index_buffer (b : list B) (ptr : Z) : outcome B :=
    if ptr <? 0 then Panic else
    match nth_error b (Z.to_nat ptr) with Some x => Ret x | None => Panic end.

  (** generic.rs:185-197 [Iterator::next] *)
  Definition gen_next (p : profile) (g : generator) : outcome (option B * generator) :=
    if ti_geb (gen_table_index g) (last g) then Ret (None, g)
    else
      let! (st, action) := st_increment p (gstate g) in
      match action with
      | OutputByte ptr =>
          let! b := index_buffer (buffer g) ptr in
          Ret (Some b, Gen (block_cipher g) st (last g) (buffer g))
      | RefreshBatchAndOutputByte aes ptr =>
          let! buf := generate_batch p (block_cipher g) aes in
          let! b := index_buffer buf ptr in
          Ret (Some b, Gen (block_cipher g) st (last g) buf)
      end.

  (** generators/mod.rs:20-26 *)
  Inductive fork_error := ForkTooLarge | ZeroChildrenCount | ZeroBytesPerChild.

  (** generic.rs:171-179 [is_fork_in_bound] *)
  Definition is_fork_in_bound (p : profile) (g : generator) (n_child child_bytes : Z)
    : outcome bool :=
    let! n := plain p usize_bits (n_child * child_bytes) in
    Ret (ti_leb (ti_increase (gen_table_index g) n) (last g)).

  (** The closure of generic.rs:147-162 building the [i]-th child. *)
  Definition fork_child (p : profile) (enc : Z -> list B) (first : table_index)
    (n_bytes i : Z) : outcome generator :=
    let! s := plain p usize_bits (n_bytes * i) in
    let! i1 := plain p usize_bits (i + 1) in
    let! e := plain p usize_bits (n_bytes * i1) in
    from_block_cipher enc (ti_increase first s) (ti_increase first e).

  Inductive fork_result :=
  | ForkErr (e : fork_error)
  (** the lazy children iterator (as the function giving the i-th child), the number of
      children, and the new parent *)
  | ForkOk (child : Z -> outcome generator) (count : Z) (parent : generator).

  (** generic.rs:122-169 [try_fork] *)
  Definition try_fork (p : profile) (g : generator) (n_children n_bytes : Z)
    : outcome fork_result :=
    if n_children =? 0 then Ret (ForkErr ZeroChildrenCount)
    else if n_bytes =? 0 then Ret (ForkErr ZeroBytesPerChild)
    else
      let! ok := is_fork_in_bound p g n_children n_bytes in
      if negb ok then Ret (ForkErr ForkTooLarge)
      else
        let first := ti_incremented (gen_table_index g) in
        let! sh := plain p usize_bits (n_bytes * n_children) in
        let! st := st_new (ti_increase first sh) in
        Ret (ForkOk (fork_child p (block_cipher g) first n_bytes) n_children
                    (Gen (block_cipher g) st (last g) (buffer g))).

  (** aes_ctr/parallel.rs:21-73 [par_try_fork]: same checks; the children are the images of
      an indexed parallel iterator over [0..n_children], i.e. the child of index [i] is
      computed by the worker that owns index [i], independently of the others. *)
  Definition par_try_fork (p : profile) (g : generator) (n_children n_bytes : Z)
    : outcome fork_result :=
    if n_children =? 0 then Ret (ForkErr ZeroChildrenCount)
    else if n_bytes =? 0 then Ret (ForkErr ZeroBytesPerChild)
    else
      let! ok := is_fork_in_bound p g n_children n_bytes in
      if negb ok then Ret (ForkErr ForkTooLarge)
      else
        let first := ti_incremented (gen_table_index g) in
        let child := fun i =>
          let! s := plain p usize_bits (n_bytes * i) in
          let! i1 := plain p usize_bits (i + 1) in
          let! e := plain p usize_bits (n_bytes * i1) in
          from_block_cipher (block_cipher g) (ti_increase first s) (ti_increase first e) in
        let! sh := plain p usize_bits (n_bytes * n_children) in
        let! st := st_new (ti_increase first sh) in
        Ret (ForkOk child n_children (Gen (block_cipher g) st (last g) (buffer g))).

  (** Driving a generator: [k] calls of [next_byte] (generators/mod.rs:81-83), collecting
      the answers. *)
  Fixpoint gen_take (p : profile) (g : generator) (k : nat)
    : outcome (list (option B) * generator) :=
    match k with
    | O => Ret ([], g)
    | S k' =>
        let! (b, g) := gen_next p g in
        let! (bs, g) := gen_take p g k' in
        Ret (b :: bs, g)
    end.

  (** All the children of a fork, in order. *)
  Definition fork_children (child : Z -> outcome generator) (count : Z)
    : outcome (list generator) :=
    omap child (zseq 0 (Z.to_nat count)).
End Generator.
Arguments generator : clear implicits.
Arguments fork_result : clear implicits.

(** ** Families of generators
    A program holds a family of generators all descending from one fresh generator and
    calls [next_byte] and [try_fork] on any of them, in any order. *)
Section Family.
  Context {B : Type}.

  Inductive fam_op :=
  | FNext (i : nat)
  | FFork (i : nat) (n_children n_bytes : Z).

  Definition set_nth {A} (l : list A) (i : nat) (x : A) : list A :=
    firstn i l ++ x :: skipn (S i) l.

  (** One operation.  The output is the byte returned by [next_byte], if any.  An operation
      on a generator that does not exist does nothing.  All the children of a fork join the
      family (dropping one amounts to never using it). *)
  Definition fam_step (p : profile) (fam : list (generator B)) (o : fam_op)
    : outcome (list B * list (generator B)) :=
    match o with
    | FNext i =>
        match nth_error fam i with
        | None => Ret ([], fam)
        | Some g =>
            let! (b, g') := gen_next p g in
            Ret (match b with Some x => [x] | None => [] end, set_nth fam i g')
        end
    | FFork i n nb =>
        match nth_error fam i with
        | None => Ret ([], fam)
        | Some g =>
            let! r := try_fork p g n nb in
            match r with
            | ForkErr _ => Ret ([], fam)
            | ForkOk child count parent =>
                let! cs := fork_children child count in
                Ret ([], set_nth fam i parent ++ cs)
            end
        end
    end.

  (** A whole history: the bytes output, in order, up to the end or to the first panic. *)
  Fixpoint fam_run (p : profile) (fam : list (generator B)) (ops : list fam_op) : list B :=
    match ops with
    | [] => []
    | o :: ops' =>
        match fam_step p fam o with
        | Panic => []
        | Ret (out, fam') => out ++ fam_run p fam' ops'
        end
    end.
End Family.

(** ** Parallel consumption of the children of a fork
    Each worker owns some children; an execution is an interleaving of their calls, given by
    the list of the indices of the children called.  The result tags every answer with the
    index of the child that produced it. *)
Section Schedule.
  Context {B : Type}.
  Fixpoint sched_run (p : profile) (gens : list (generator B)) (sched : list nat)
    : outcome (list (nat * option B) * list (generator B)) :=
    match sched with
    | [] => Ret ([], gens)
    | i :: sched' =>
        match nth_error gens i with
        | None => sched_run p gens sched'
        | Some g =>
            let! (b, g') := gen_next p g in
            let! (outs, gens') := sched_run p (set_nth gens i g') sched' in
            Ret ((i, b) :: outs, gens')
        end
    end.
End Schedule.
