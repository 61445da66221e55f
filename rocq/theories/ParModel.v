(** * Parallel loops (rayon) and the parallel key generations
    A parallel iterator over disjoint mutable chunks of one container followed by [for_each] puts one
    task per chunk in a pool; a task either works on its own chunk with data of its own (captured by
    value or shared immutably), or is itself a parallel loop over sub-chunks of its chunk.  The chunks
    of the innermost loops are the slots of the memory below.  The tasks are executed in any order and
    may interleave; a task on a slot is atomic here, for nobody else can see its slot (Rust's [&mut]).
    A panic in a task makes the whole parallel call panic (rayon propagates it to the caller). *)
From Verif Require Import Base Word PolyModel RandomModel LweModel GlweModel GgswModel DecompModel KeyswitchModel SeededModel.

Inductive work (A : Type) : Type :=
| Leaf (slot : nat) (f : A -> outcome A)
| Node (children : option (list (work A))).   (* [None]: the task panics before its parallel loop *)
Arguments Leaf {A}. Arguments Node {A}.

Fixpoint replace_nth {A} (n : nat) (x : A) (l : list A) : list A :=
  match l, n with
  | [], _ => []
  | _ :: l', O => x :: l'
  | a :: l', S n' => a :: replace_nth n' x l'
  end.
Definition write_slot {A} (s : nat) (f : A -> outcome A) (mem : list A) : outcome (list A) :=
  match nth_error mem s with
  | None => Panic
  | Some a => let! x := f a in Ret (replace_nth s x mem)
  end.

(** The states of a parallel execution, and its steps: any task of the pool may be the next one. *)
Inductive pstate (A : Type) : Type := Running (pool : list (work A)) (mem : list A) | Panicked.
Arguments Running {A}. Arguments Panicked {A}.
Inductive pstep {A} : pstate A -> pstate A -> Prop :=
| step_leaf before s f after mem mem' : write_slot s f mem = Ret mem' ->
    pstep (Running (before ++ Leaf s f :: after) mem) (Running (before ++ after) mem')
| step_leaf_panics before s f after mem : write_slot s f mem = Panic ->
    pstep (Running (before ++ Leaf s f :: after) mem) Panicked
| step_node before children after mem :
    pstep (Running (before ++ Node (Some children) :: after) mem) (Running (before ++ children ++ after) mem)
| step_node_panics before after mem : pstep (Running (before ++ Node None :: after) mem) Panicked.

(** ** The parallel functions.  Each returns the pool of its outermost loop and the caller's generator
    after the fork; par_try_fork is try_fork (C07).  [base] is the slot of the first row of the part
    of the container the loop works on. *)
Section Par.
Context (p : profile) (w : Z) (gauss : list Z -> option (Z * Z)).

(** [for ((index, chunk), generator) in chunks.enumerate().zip(generators)], in parallel: [mk] is the
    task of one chunk, made of [size chunk] slots. *)
Fixpoint par_children {C A} (size : C -> nat) (mk : nat -> nat -> C -> egen -> work A) (base index : nat) (chunks : list C) (gens : list egen)
    : list (work A) :=
  match chunks, gens with
  | c :: chunks', g :: gens' => mk base index c g :: par_children size mk (base + size c) (S index) chunks' gens'
  | _, _ => []
  end.
Definition node_of {A} (o : outcome (list (work A))) : work A := Node (match o with Ret l => Some l | Panic => None end).

(** glwe.rs:1379-1413: one level *)
Definition par_ggsw_level (key : list (list Z)) (N : nat) (base_log m : Z) (base index : nat) (matrix : list (list (list Z))) (g : egen)
    : work (list (list Z)) :=
  node_of (
    let! scale := level_scale p w base_log (S index) in
    let factor := wmul w (wneg w m) scale in
    let! (gens, _) := expect_fork (fork_ggsw_level_to_glwe p w g (Z.of_nat (length key) + 1) (Z.of_nat N)) in
    match matrix with
    | [] => Panic   (* glwe_size().0 - 1 underflows *)
    | _ => Ret (par_children (fun _ => 1%nat) (fun b i (_ : list (list Z)) g =>
             Leaf b (fun row => encrypt_constant_ggsw_row p w gauss key N i (length matrix - 1) factor row g)) base 0 matrix gens)
    end).
(** glwe.rs:1355-1414 par_encrypt_constant_ggsw (the two dimension checks it shares with
    encrypt_constant_ggsw are left out of both) *)
Definition par_encrypt_constant_ggsw (key : list (list Z)) (N : nat) (base_log : Z) (base : nat) (output : list (list (list (list Z)))) (m : Z) (g : egen)
    : outcome (list (work (list (list Z))) * egen) :=
  let! (gens, g) := expect_fork (fork_ggsw_to_ggsw_levels p w g (Z.of_nat (length output)) (Z.of_nat (length key) + 1) (Z.of_nat N)) in
  Ret (par_children (@length _) (par_ggsw_level key N base_log m) base 0 output gens, g).
(** bootstrap/standard/mod.rs:299-336 par_fill_with_new_key (after the zero fill) *)
Fixpoint par_bsk_loop (key : list (list Z)) (N : nat) (base_log : Z) (base : nat) (out : list (list (list (list (list Z))))) (lwe_key : list Z) (gens : list egen)
    : list (work (list (list Z))) :=
  match out, lwe_key, gens with
  | G :: out', s :: lwe_key', g :: gens' =>
      node_of (let! (ws, _) := par_encrypt_constant_ggsw key N base_log base G s g in Ret ws)
      :: par_bsk_loop key N base_log (base + length (concat G)) out' lwe_key' gens'
  | _, _, _ => []
  end.
Definition par_fill_with_new_bootstrap_key (key : list (list Z)) (N level : nat) (base_log : Z)
    (out : list (list (list (list (list Z))))) (lwe_key : list Z) (g : egen) : outcome (list (work (list (list Z))) * egen) :=
  let! _ := ck_dim_eq p (length out) (length lwe_key) in
  let! (gens, g) := expect_fork (fork_bsk_to_ggsw p w g (Z.of_nat (length lwe_key)) (Z.of_nat level) (Z.of_nat (length key) + 1) (Z.of_nat N)) in
  Ret (par_bsk_loop key N base_log 0 (map zero_ggsw out) lwe_key gens, g).

(** glwe.rs:1459-1484: one level of the seeded version *)
Definition par_seeded_ggsw_level (key : list (list Z)) (N : nat) (base_log m : Z) (glwe_size : nat) (base index : nat) (matrix : list (list Z)) (g : egen)
    : work (list Z) :=
  node_of (
    let! scale := level_scale p w base_log (S index) in
    let factor := wmul w (wneg w m) scale in
    let! (gens, _) := expect_fork (fork_ggsw_level_to_glwe p w g (Z.of_nat (length key) + 1) (Z.of_nat N)) in
    let! last_row_index := plain p usize_bits (Z.of_nat glwe_size - 1) in
    Ret (par_children (fun _ => 1%nat) (fun b i (_ : list Z) g =>
           Leaf b (fun body => encrypt_constant_seeded_ggsw_row p w gauss key N i (Z.to_nat last_row_index) factor body g)) base 0 matrix gens)).
(** glwe.rs:1419-1486 par_encrypt_constant_seeded_ggsw_with_existing_generator *)
Definition par_encrypt_seeded_ggsw_with (key : list (list Z)) (N : nat) (base_log : Z) (N_out glwe_size : nat) (base : nat) (output : list (list (list Z))) (m : Z) (g : egen)
    : outcome (list (work (list Z)) * egen) :=
  let! _ := ck_dim_eq p N N_out in
  let! _ := ck_dim_eq p (length key) (glwe_size - 1) in
  let! (gens, g) := expect_fork (fork_ggsw_to_ggsw_levels p w g (Z.of_nat (length output)) (Z.of_nat (length key) + 1) (Z.of_nat N)) in
  Ret (par_children (@length _) (par_seeded_ggsw_level key N base_log m glwe_size) base 0 output gens, g).
(** bootstrap/seeded_standard/mod.rs:289-334 par_fill_with_new_key (after the zero fill) *)
Fixpoint par_seeded_bsk_loop (key : list (list Z)) (N : nat) (base_log : Z) (N_out glwe_size : nat) (base : nat) (out : list (list (list (list Z))))
    (lwe_key : list Z) (gens : list egen) : list (work (list Z)) :=
  match out, lwe_key, gens with
  | G :: out', s :: lwe_key', g :: gens' =>
      node_of (let! (ws, _) := par_encrypt_seeded_ggsw_with key N base_log N_out glwe_size base G s g in Ret ws)
      :: par_seeded_bsk_loop key N base_log N_out glwe_size (base + length (concat G)) out' lwe_key' gens'
  | _, _, _ => []
  end.
Definition par_fill_with_new_seeded_bootstrap_key (rng : Z -> bgen) (key : list (list Z)) (N level : nat) (base_log : Z) (N_out glwe_size : nat)
    (output : seeded (list (list (list (list Z))))) (lwe_key : list Z) (nseed : Z) : outcome (list (work (list Z))) :=
  let! _ := ck_dim_eq p (length (sd_bodies output)) (length lwe_key) in
  let! (gens, _) := expect_fork (fork_bsk_to_ggsw p w (new_egen rng (sd_seed output) nseed) (Z.of_nat (length lwe_key)) (Z.of_nat level)
                                   (Z.of_nat (length key) + 1) (Z.of_nat N_out)) in
  Ret (par_seeded_bsk_loop key N base_log N_out glwe_size 0 (map (map (map (map (fun _ : Z => 0)))) (sd_bodies output)) lwe_key gens).

(** glwe/keyswitch.rs:1122-1214 par_fill_with_private_functional_packing_keyswitch_key: a slot is a block
    of the key. *)
Fixpoint par_pfpks_blocks (b : Z) (l N : nat) (output_key : list (list Z)) (f : Z -> Z) (polynomial : list Z) (base : nat)
    (bits : list Z) (blocks : list (list (list (list Z)))) (gs : list egen) : list (work (list (list (list Z)))) :=
  match bits, blocks, gs with
  | bit :: bits', _ :: blocks', g :: gs' =>
      Leaf base (fun block => fill_pfpks_block p w gauss b l N output_key f polynomial bit block g)
      :: par_pfpks_blocks b l N output_key f polynomial (S base) bits' blocks' gs'
  | _, _, _ => []
  end.
Definition par_fill_with_pfpks_key (b : Z) (l N : nat) (output_key : list (list Z)) (f : Z -> Z) (polynomial : list Z)
    (input_key : list Z) (base : nat) (blocks : list (list (list (list Z)))) (g : egen)
    : outcome (list (work (list (list (list Z)))) * egen) :=
  let! (children, g) := fork_pfpksk_to_pfpksk_chunks p w g (Z.of_nat l) (Z.of_nat (S (length output_key))) (Z.of_nat N)
                          (Z.of_nat (S (length input_key))) in
  match children with
  | None => Panic
  | Some gs => Ret (par_pfpks_blocks b l N output_key f polynomial base (input_key ++ [2 ^ w - 1]) blocks gs, g)
  end.
(** glwe/keyswitch.rs:2091-2160 par_fill_with_fpksk_for_circuit_bootstrap *)
Fixpoint par_fpksks (b : Z) (l N : nat) (output_key : list (list Z)) (input_key : list Z) (base : nat)
    (keys : list (list (list (list (list Z))))) (polys : list (list Z)) (gs : list egen) : list (work (list (list (list Z)))) :=
  match keys, polys, gs with
  | key :: keys', poly :: polys', g :: gs' =>
      node_of (let! (ws, _) := par_fill_with_pfpks_key b l N output_key (fun x => wsub w 0 x) poly input_key base key g in Ret ws)
      :: par_fpksks b l N output_key input_key (base + length key) keys' polys' gs'
  | _, _, _ => []
  end.
Definition par_fill_with_fpksk_for_circuit_bootstrap (b : Z) (l N : nat) (output_key : list (list Z)) (input_key : list Z)
    (keys : list (list (list (list (list Z))))) (g : egen) : outcome (list (work (list (list (list Z)))) * egen) :=
  let! _ := debug_assert p (Nat.eqb (length keys) (S (length output_key))) in
  let! (children, g) := fork_cbs_pfpksk_to_pfpksk p w g (Z.of_nat l) (Z.of_nat (S (length output_key))) (Z.of_nat N)
                          (Z.of_nat (S (length input_key))) (Z.of_nat (length keys)) in
  match children with
  | None => Panic
  | Some gs =>
      let! last_polynomial := set_first (repeat 0 N) (2 ^ w - 1) in
      Ret (par_fpksks b l N output_key input_key 0 keys (output_key ++ [last_polynomial]) gs, g)
  end.

(** secret/lwe.rs:553-584 par_encrypt_lwe_list: a slot is a ciphertext. *)
Fixpoint par_lwe_zip (key : list Z) (base : nat) (output : list (list Z)) (ms : list Z) (gs : list egen) : list (work (list Z)) :=
  match output, ms, gs with
  | _ :: output', m :: ms', g :: gs' =>
      Leaf base (fun o => let! (c, _) := encrypt_lwe p w gauss key o m g in Ret c) :: par_lwe_zip key (S base) output' ms' gs'
  | _, _, _ => []
  end.
Definition par_encrypt_lwe_list_pool (key : list Z) (lwe_size : nat) (output : list (list Z)) (ms : list Z) (g : egen)
    : outcome (list (work (list Z)) * egen) :=
  let! _ := ck_dim_eq p (length output) (length ms) in
  let! (children, g) := fork_lwe_list_to_lwe p w g (Z.of_nat (length output)) (Z.of_nat lwe_size) in
  match children with None => Panic | Some gs => Ret (par_lwe_zip key 0 output ms gs, g) end.

(** fft_parallel_engine/lwe_ciphertext_vector_discarding_bootstrap.rs:40-62: [boot acc c o] is the
    bootstrap of one ciphertext into [o] by the engine of the thread. *)
Fixpoint par_bootstrap_pool (boot : list (list Z) -> list Z -> list Z -> outcome (list Z)) (base : nat) (input output : list (list Z)) (accs : list (list (list Z)))
    : list (work (list Z)) :=
  match input, output, accs with
  | c :: input', _ :: output', a :: accs' => Leaf base (boot a c) :: par_bootstrap_pool boot (S base) input' output' accs'
  | _, _, _ => []
  end.
End Par.
