(** * Blocks of GPU threads
    The execution model of the kernels of /repo/concrete-cuda/cuda/src: the threads of a block share memory, every access is one
    step, the steps of different threads interleave in any order, and [__syncthreads] (synchronize_threads_in_block, device.h) is a
    barrier for all the threads of the block.

    The kernels modelled on this machine have a control flow that does not depend on the memory the threads share: a thread is the
    list of its accesses and barriers.  A local variable of a thread is a cell that only this thread uses; an access touches at most
    one cell that is not local.  Memory is sequentially consistent: the theorems on these kernels show that no two threads use a cell
    without a barrier between them if one writes it, and then weaker memory models have the same executions. *)
From Verif Require Import Base.

Section Machine.
Context {A V : Type} (eqb : A -> A -> bool).

(** [GOp rs c f]: read the cells [rs], write the value computed from them to the cell [c]. *)
Inductive gop := GSync | GOp (rs : list A) (c : A) (f : list V -> V).
Definition mem := A -> V.
Definition upd (m : mem) (c : A) (v : V) : mem := fun d => if eqb d c then v else m d.

(** Cells that are allocated; an access outside is an error. *)
Context (ok : A -> bool).
Definition gexec (o : gop) (m : mem) : outcome mem :=
  match o with
  | GSync => Panic
  | GOp rs c f => let! _ := assert_ (forallb ok (c :: rs)) in Ret (upd m c (f (map m rs)))
  end.

(** What is left of every thread, and the memory *)
Record gblock := GBlock { g_threads : list (list gop); g_mem : mem }.
Definition g_runnable (t : list gop) : bool := match t with [] | GSync :: _ => false | _ => true end.
Definition g_finished (t : list gop) : bool := match t with [] => true | _ => false end.
Definition g_waiting (t : list gop) : bool := match t with GSync :: _ => true | _ => false end.
(** One step: the [choice]-th of the threads that can run does its next access.  When none can, all are at a barrier and pass it, or
    all have finished ([None]); anything else is a deadlock. *)
Definition gblock_step (choice : nat) (k : gblock) : outcome (option gblock) :=
  let ready := filter (fun t => g_runnable (nth t (g_threads k) [])) (seq 0 (length (g_threads k))) in
  match ready with
  | [] =>
      if forallb g_finished (g_threads k) then Ret None
      else if forallb g_waiting (g_threads k) then Ret (Some (GBlock (map (@tl _) (g_threads k)) (g_mem k)))
      else Panic
  | _ =>
      let t := nth (choice mod length ready) ready 0%nat in
      match nth t (g_threads k) [] with
      | o :: rest =>
          let! m := gexec o (g_mem k) in
          Ret (Some (GBlock (firstn t (g_threads k) ++ rest :: skipn (S t) (g_threads k)) m))
      | [] => Panic
      end
  end.
(** Until the end; the scheduler makes the choices given, then always the first.  [fuel] bounds the number of steps. *)
Fixpoint gblock_run (fuel : nat) (choices : list nat) (k : gblock) : outcome mem :=
  match fuel with
  | O => Panic
  | S fuel =>
      let! next := gblock_step (hd 0%nat choices) k in
      match next with None => Ret (g_mem k) | Some k => gblock_run fuel (tl choices) k end
  end.
Definition gop_count (ts : list (list gop)) : nat := list_sum (map (@length _) ts).

(** A kernel is the same for all threads: barriers, and between them the accesses of each thread, given by its number. *)
Inductive seg := Bar | Par (f : nat -> list gop).
Definition thread_code (k : list seg) (t : nat) : list gop := flat_map (fun s => match s with Bar => [GSync] | Par f => f t end) k.
(** A launch of [threads] threads *)
Definition launch (threads : nat) (k : list seg) (choices : list nat) (m : mem) : outcome mem :=
  let ts := map (thread_code k) (seq 0 threads) in
  gblock_run (S (gop_count ts)) choices (GBlock ts m).
(** for (i = 0, tid = threadIdx.x; i < count; i++, tid += threads) *)
Definition strided (threads count : nat) (f : nat -> nat -> list gop) (t : nat) : list gop :=
  flat_map (fun i => f t (t + i * threads)%nat) (seq 0 count).
End Machine.
Arguments gop : clear implicits.
Arguments mem : clear implicits.
Arguments seg : clear implicits.
