(** * Cooperative grids of GPU blocks
    The execution model of the kernels of /repo/concrete-cuda/cuda/src that use cooperative groups (bootstrap_low_latency.cuh): the blocks
    run at the same time; registers and shared memory belong to a block, global memory is common to all; [__syncthreads] is a barrier for
    the threads of a block and [grid.sync()] (cooperative_groups.h) is one for all the threads of all the blocks. *)
From Verif Require Import Base CudaBlockModel.

Section Grid.
Context {A V : Type} (eqb : A -> A -> bool) (ok : A -> bool).
(** The cells of global memory; the other cells exist once for every block. *)
Context (global : A -> bool).
(** Blocks, and threads of a block *)
Context (blocks threads : nat).
Notation mem := (mem A V).
Notation seg := (seg A V).
Notation gop := (gop A V).

(** A kernel: what a block does, and the grid barriers *)
Inductive gseg := GridSync | Blk (s : seg).
(** The parts of a kernel between its grid barriers *)
Fixpoint parts (k : list gseg) : list (list seg) :=
  match k with
  | [] => [[]]
  | GridSync :: k => [] :: parts k
  | Blk s :: k => match parts k with p :: ps => (s :: p) :: ps | [] => [[s]] end
  end.

(** What is left of the threads of every block until the next grid barrier, the parts that follow, the memory of every block and global memory *)
Record grid := Grid { gr_code : nat -> list (list gop); gr_later : nat -> list (list seg); gr_private : nat -> mem; gr_global : mem }.
Definition block_view (private : nat -> mem) (gm : mem) (i : nat) : mem := fun c => if global c then gm c else private i c.
Definition set_at {B} (f : nat -> B) (i : nat) (x : B) : nat -> B := fun j => if Nat.eqb j i then x else f j.
Definition nil {B} (l : list B) : bool := match l with [] => true | _ => false end.
(** One step: one of the blocks that have not reached the grid barrier, and in it one of the threads, as in [gblock_step].  When all have
    reached it they pass it, or all have finished ([None]); anything else is a deadlock. *)
Definition grid_step (choice : nat * nat) (g : grid) : outcome (option grid) :=
  let ready := filter (fun i => negb (forallb g_finished (gr_code g i))) (seq 0 blocks) in
  match ready with
  | [] =>
      if forallb (fun i => nil (gr_later g i)) (seq 0 blocks) then Ret None
      else if forallb (fun i => negb (nil (gr_later g i))) (seq 0 blocks) then
        Ret (Some (Grid (fun i => map (thread_code (hd [] (gr_later g i))) (seq 0 threads)) (fun i => tl (gr_later g i)) (gr_private g) (gr_global g)))
      else Panic
  | _ =>
      let i := nth (fst choice mod length ready) ready 0%nat in
      let! next := gblock_step eqb ok (snd choice) (GBlock (gr_code g i) (block_view (gr_private g) (gr_global g) i)) in
      match next with
      | None => Panic
      | Some k => Ret (Some (Grid (set_at (gr_code g) i (g_threads k)) (gr_later g) (set_at (gr_private g) i (g_mem k)) (fun c => if global c then g_mem k c else gr_global g c)))
      end
  end.
(** Until the end; the scheduler makes the choices given, then always the first.  [fuel] bounds the number of steps. *)
Fixpoint grid_run (fuel : nat) (choices : list (nat * nat)) (g : grid) : outcome mem :=
  match fuel with
  | O => Panic
  | S fuel =>
      let! next := grid_step (hd (0, 0)%nat choices) g in
      match next with None => Ret (gr_global g) | Some g => grid_run fuel (tl choices) g end
  end.
Definition part_count (p : list seg) : nat := gop_count (map (thread_code p) (seq 0 threads)).
Definition work (ps : nat -> list (list seg)) : nat := list_sum (map (fun i => list_sum (map (fun p => S (part_count p)) (ps i))) (seq 0 blocks)).
(** A launch: [kernel i] is the program of block [i]; [private i] is what its memory happens to contain. *)
Definition grid_launch (kernel : nat -> list gseg) (choices : list (nat * nat)) (private : nat -> mem) (gm : mem) : outcome mem :=
  let ps := fun i => parts (kernel i) in
  grid_run (S (work ps)) choices (Grid (fun i => map (thread_code (hd [] (ps i))) (seq 0 threads)) (fun i => tl (ps i)) private gm).
End Grid.
Arguments gseg : clear implicits.
Arguments grid : clear implicits.
