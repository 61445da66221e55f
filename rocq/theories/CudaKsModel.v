(** * Model of the keyswitch kernel of the CUDA backend
    /repo/concrete-cuda/cuda/src/keyswitch.cuh, .../crypto/gadget.cuh, .../crypto/torus.cuh and
    /repo/concrete-core/src/backends/cuda/private/crypto/keyswitch/mod.rs.

    A block of 128 threads computes one ciphertext in shared memory.  The control flow of a thread does not depend on shared memory,
    so a thread is the list of its accesses to shared and to global output memory and of its barriers; the input and the key are only
    read.  The accesses of the threads interleave in any order between two barriers. *)
From Verif Require Import Base Word CudaModel.

Section Ks.
Context (w : Z).

(** torus.cuh:29-39 round_to_closest_multiple *)
Definition gpu_round (b : Z) (l : nat) (x : Z) : Z :=
  let shift := w - Z.of_nat l * b in
  let mask := shl w 1 (shift - 1) in
  let bit := shr (Z.land x mask) (shift - 1) in
  let res := shr x shift in
  shl w (wadd w res bit) shift.
(** gadget.cuh:120-129 decompose_one: the digit and the new state.  [res - 1ll] is computed on 64 bits; the conjunction with [res]
    keeps only bits of a [w]-bit word. *)
Definition gpu_decompose_one (b state : Z) : Z * Z :=
  let mask_mod_b := (2 ^ b - 1) mod 2 ^ w in
  let res := Z.land state mask_mod_b in
  let state := shr state b in
  let carry := Z.land (Z.lor (wsub w res 1) state) res in
  let carry := shr carry (b - 1) in
  (wsub w res (shl w carry b), wadd w state carry).

(** Accesses: [Load] reads shared memory into the register of the thread; [Store] writes a value, [StoreSub idx x] the register minus
    [x], to shared memory; [StoreOut] writes the register to the output; [Sync] is __syncthreads. *)
Inductive instr := Sync | Load (idx : nat) | Store (idx : nat) (v : Z) | StoreSub (idx : nat) (x : Z) | StoreOut (idx : nat).

(** keyswitch.cuh:174 *)
Definition ideal_threads : nat := 128.
(** keyswitch.cuh:176-188: (lwe_lower, lwe_upper, cutoff) *)
Definition ks_split (lwe_dim : nat) : nat * nat * nat :=
  if Nat.eqb (lwe_dim mod ideal_threads) 0 then (lwe_dim / ideal_threads, lwe_dim / ideal_threads, 0)%nat
  else
    let ceil := ((lwe_dim + ideal_threads - 1) / ideal_threads)%nat in
    let y := (ceil * ideal_threads - lwe_dim)%nat in
    (lwe_dim / ideal_threads, ceil, ideal_threads - y)%nat.
(** keyswitch.cuh:120-125 and the index [tid + k * blockDim.x] of the loops *)
Definition ks_cells (lwe_dim tid : nat) : list nat :=
  let '(lower, upper, cutoff) := ks_split lwe_dim in
  map (fun k => tid + k * ideal_threads)%nat (seq 0 (if Nat.ltb tid cutoff then upper else lower)).

(** keyswitch.cuh:10-18 get_ith_block: the offset of a row of the key, a uint32_t converted to int *)
Definition ith_block (i level n_out l : nat) : Z :=
  i32 (Z.of_nat i * Z.of_nat l * (Z.of_nat n_out + 1) + Z.of_nat level * (Z.of_nat n_out + 1)).

Section Thread.
Context (b : Z) (l n_in n_out : nat) (ksk lwe_in : list Z) (tid : nat).
Notation cells := (ks_cells (S n_out) tid).
(** keyswitch.cuh:152-155 *)
Definition ks_row (i level : nat) (decomposed : Z) : outcome (list (list instr)) :=
  omap (fun idx => let! x := get ksk (Z.to_nat (ith_block i level n_out l + Z.of_nat idx)) in
                   Ret [Load idx; StoreSub idx (wmul w x decomposed)]) cells.
(** keyswitch.cuh:148-156; the levels of the key are taken from the last to the first. *)
Fixpoint ks_gpu_levels (i : nat) (js : list nat) (state : Z) : outcome (list instr) :=
  match js with
  | [] => Ret []
  | j :: js' =>
      let '(decomposed, state) := gpu_decompose_one b state in
      let! row := ks_row i (l - j - 1) decomposed in
      let! rest := ks_gpu_levels i js' state in
      Ret (concat row ++ rest)
  end.
(** keyswitch.cuh:138-157 *)
Definition ks_gpu_step (i : nat) : outcome (list instr) :=
  let! a := get lwe_in i in
  let a_i := gpu_round b l a in
  let state := shr a_i (w - b * Z.of_nat l) in
  let! code := ks_gpu_levels i (seq 0 l) state in
  Ret (Sync :: code).
(** keyswitch.cuh:102-163: there is no barrier between the zeros and the body, which thread 0 writes. *)
Definition ks_thread : outcome (list instr) :=
  let! set_body := if Nat.eqb tid 0 then let! body := get lwe_in n_in in Ret [Store n_out body] else Ret [] in
  let! loop := omap ks_gpu_step (seq 0 n_in) in
  Ret ([Sync] ++ map (fun idx => Store idx 0) cells ++ set_body ++ concat loop ++ flat_map (fun idx => [Load idx; StoreOut idx]) cells).
End Thread.

(** ** A block of threads: what is left of every thread, its register, the shared memory, the output *)
Record block := Block { b_threads : list (list instr * Z); b_shared : list Z; b_out : list Z }.
Definition exec (i : instr) (r : Z) (s o : list Z) : outcome (Z * list Z * list Z) :=
  match i with
  | Sync => Panic
  | Load idx => let! v := get s idx in Ret (v, s, o)
  | Store idx v => let! s := set_word s idx v in Ret (r, s, o)
  | StoreSub idx x => let! s := set_word s idx (wsub w r x) in Ret (r, s, o)
  | StoreOut idx => let! o := set_word o idx r in Ret (r, s, o)
  end.
Definition runnable (t : list instr * Z) : bool := match fst t with [] | Sync :: _ => false | _ => true end.
Definition finished (t : list instr * Z) : bool := match fst t with [] => true | _ => false end.
Definition waiting (t : list instr * Z) : bool := match fst t with Sync :: _ => true | _ => false end.
Definition set_thread (ts : list (list instr * Z)) (t : nat) (x : list instr * Z) := firstn t ts ++ x :: skipn (S t) ts.
(** One step: one of the threads that can run, the [choice]-th, does its next access.  When none can, all are at a barrier and pass
    it, or all have finished ([None]); anything else is a deadlock. *)
Definition block_step (choice : nat) (k : block) : outcome (option block) :=
  let ready := filter (fun t => runnable (nth t (b_threads k) ([], 0))) (seq 0 (length (b_threads k))) in
  match ready with
  | [] =>
      if forallb finished (b_threads k) then Ret None
      else if forallb waiting (b_threads k) then
        Ret (Some (Block (map (fun t => (tl (fst t), snd t)) (b_threads k)) (b_shared k) (b_out k)))
      else Panic
  | _ =>
      let t := nth (choice mod length ready) ready 0%nat in
      match nth t (b_threads k) ([], 0) with
      | (i :: rest, r) =>
          let! (r, s, o) := exec i r (b_shared k) (b_out k) in
          Ret (Some (Block (set_thread (b_threads k) t (rest, r)) s o))
      | ([], _) => Panic
      end
  end.
(** Until the end; the scheduler makes the choices given, then always the first.  [fuel] bounds the number of steps. *)
Fixpoint block_run (fuel : nat) (choices : list nat) (k : block) : outcome block :=
  match fuel with
  | O => Panic
  | S fuel =>
      let! next := block_step (hd 0%nat choices) k in
      match next with None => Ret k | Some k => block_run fuel (tl choices) k end
  end.
Definition instr_count (ts : list (list instr * Z)) : nat := list_sum (map (fun t => length (fst t)) ts).

(** The block of one ciphertext; [shared] is what shared memory happens to contain. *)
Definition ks_block (b : Z) (l n_in n_out : nat) (ksk lwe_in : list Z) (choices : list nat) (shared out : list Z) : outcome (list Z) :=
  let! programs := omap (ks_thread b l n_in n_out ksk lwe_in) (seq 0 ideal_threads) in
  let ts := map (fun c => (c, 0)) programs in
  let! k := block_run (S (instr_count ts)) choices (Block ts shared out) in
  Ret (b_out k).

(** keyswitch.cuh:166-207: one block per ciphertext, after the output was filled with zeros.  The blocks share no memory that is
    written: they are run one after the other.  [max_shared] is the shared memory of the device in bytes. *)
Definition host_keyswitch (max_shared : Z) (choices : nat -> list nat) (garbage : nat -> list Z) (out lwe_in ksk : list Z) (n_in n_out : nat) (b : Z) (l samples : nat)
    : outcome (list Z) :=
  let shared_mem := w / 8 * Z.of_nat (S n_out) in
  let! _ := assert_ ((1 <=? Z.of_nat samples) && (Z.of_nat samples <? 2 ^ 31) && (shared_mem <=? max_shared)) in
  let! _ := assert_ (Nat.leb (samples * S n_out) (length out) && Nat.leb (samples * S n_in) (length lwe_in)) in
  let! blocks := omap (fun s => ks_block b l n_in n_out ksk (firstn (S n_in) (skipn (s * S n_in) lwe_in)) (choices s) (garbage s) (repeat 0 (S n_out))) (seq 0 samples) in
  Ret (concat blocks ++ skipn (samples * S n_out) out).

(** keyswitch/mod.rs:30-61: on every GPU; each has a copy of the key. *)
Definition execute_keyswitch (max_shared : Z) (choices : nat -> nat -> list nat) (garbage : nat -> nat -> list Z) (available count n_in n_out : nat) (b : Z) (l : nat)
    (outs ins ksks : list (list Z)) : outcome (list (list Z)) :=
  on_every_gpu available count (fun i samples out =>
      let! a := get ins i in let! ksk := get ksks i in
      host_keyswitch max_shared (choices i) (garbage i) out a ksk n_in n_out b l (Z.to_nat samples))
    (seq 0 (number_of_active_gpus available count)) outs.
End Ks.
