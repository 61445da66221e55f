(** * Specification: vectors distributed over GPUs *)
From Coq Require Import Permutation.
From Verif Require Import Base.

(** The threads of a kernel, numbered from 0, are run in some order. *)
Definition any_order (sched : nat -> list nat) : Prop := forall threads, Permutation (sched threads) (seq 0 threads).

(** The number of samples the GPU [i] of [gpus] has: an equal share, and the last one also has the samples that are left. *)
Definition share (gpus count i : nat) : nat :=
  (count / gpus + if Nat.eqb i (gpus - 1) then count mod gpus else 0)%nat.
(** [count] samples of [size] words are on [gpus] GPUs: one buffer each, of the size of its share, and the buffers, one after the
    other, are the vector. *)
Definition distributed (gpus count size : nat) (buffers : list (list Z)) (vector : list Z) : Prop :=
  length buffers = gpus /\ (forall i b, nth_error buffers i = Some b -> length b = (share gpus count i * size)%nat) /\ concat buffers = vector.
