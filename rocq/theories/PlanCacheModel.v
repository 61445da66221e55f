(** * Model of the cache of FFT plans under concurrent use
    Models /repo/concrete-core/src/backends/fft/private/math/fft/mod.rs:101-107 and 149-183 (Fft::new): a global map from
    sizes to cells, under a read-write lock; a cell holds the twisting factors and the plan of one size and is filled
    by the first caller that needs it.
    A thread makes any number of calls, one after the other; the steps of the threads interleave in any way.  A step is one
    operation on the lock, on the map or on a cell.
    - The lock (std::sync::RwLock) is described by the guards the threads hold: a write guard excludes all others; it is
      poisoned when a thread panics while it holds a write guard; [unwrap] of a poisoned lock panics.
    - The cell (once_cell::sync::OnceCell): get_or_init runs the closure in one thread, the others wait; if the closure
      panics, the cell is empty again and a waiting thread runs its own closure.
    - Making a plan (Plan::new with Method::Measure) times several algorithms: which one it settles on is arbitrary, and it
      may panic.  A panic ends the call; the thread may go on with other calls (catch_unwind).
    Simplification: the global map is created by the first call to [plans()]; here it is there from the start. *)
From Verif Require Import Base.

(** [Arc<(Twisties, Plan)>]: the size it was made for, the algorithm, and the identity of the allocation *)
Record fft_plan := FftPlan { fp_size : nat; fp_algorithm : nat; fp_serial : nat }.
Inductive cell := Empty | Busy | Ready (v : fft_plan).
Inductive guard := NoGuard | ReadGuard | WriteGuard.
(** How a call ended *)
Inductive result := Got (v : fft_plan) | PoisonedLock | NoSuchEntry | CreationPanicked.
(** Where a thread is inside Fft::new; the number is the size it was called with. *)
Inductive point :=
  | Idle
  | WantWrite (n : nat)                    (* 172 global_plans.write() *)
  | HasWrite (n : nat)                     (* 173-175 *)
  | Inserted (n : nat)                     (* 177 drop(plans) *)
  | WantRead (n : nat)                     (* 156 global_plans.read() *)
  | HasRead (n : nat)                      (* 157 plans.get(&n).cloned() *)
  | Looked (n : nat) (entry : option nat)  (* 158 drop(plans), and the [None] case of 160 and 180 *)
  | GetOrInit (n : nat) (c : nat)          (* 161 *)
  | Creating (n : nat) (c : nat).          (* 162-165 *)
Record thread := Thread { calls : list nat; at_point : point; holds : guard; results : list (nat * result) }.
(** The shared memory: the map (size to cell), the cells, whether the lock is poisoned, and the plans made so far *)
Record shared := Shared { entries : nat -> option nat; cells : list cell; poisoned : bool; created : list (nat * fft_plan) }.

Definition go (t : thread) (q : point) (g : guard) : thread := Thread (calls t) q g (results t).
Definition finish (t : thread) (n : nat) (r : result) : thread := Thread (calls t) Idle NoGuard (results t ++ [(n, r)]).
Definition set_cell (s : shared) (c : nat) (v : cell) : shared :=
  Shared (entries s) (firstn c (cells s) ++ v :: skipn (S c) (cells s)) (poisoned s) (created s).
Definition is_write (g : guard) : bool := match g with WriteGuard => true | _ => false end.
Definition is_none (g : guard) : bool := match g with NoGuard => true | _ => false end.
(** The unwinding of a panic drops the guard of the thread. *)
Definition unwind (s : shared) (g : guard) : shared :=
  Shared (entries s) (cells s) (poisoned s || is_write g) (created s).

(** One step of a thread; [others] are the guards of the other threads; [choice] is the algorithm, or [None] for a panic.
    [None]: the thread has to wait, or has finished. *)
Definition thread_step (others : list guard) (choice : option nat) (s : shared) (t : thread) : option (shared * thread) :=
  match at_point t with
  | Idle =>
      match calls t with
      | [] => None
      | n :: rest => Some (s, Thread rest (WantWrite n) (holds t) (results t))
      end
  | WantWrite n =>
      if forallb is_none others then
        if poisoned s then Some (s, finish t n PoisonedLock) else Some (s, go t (HasWrite n) WriteGuard)
      else None
  | HasWrite n =>
      match entries s n with
      | Some _ => Some (s, go t (Inserted n) (holds t))
      | None =>
          Some (Shared (fun m => if Nat.eqb m n then Some (length (cells s)) else entries s m) (cells s ++ [Empty]) (poisoned s) (created s),
                go t (Inserted n) (holds t))
      end
  | Inserted n => Some (s, go t (WantRead n) NoGuard)
  | WantRead n =>
      if existsb is_write others then None
      else if poisoned s then Some (s, finish t n PoisonedLock) else Some (s, go t (HasRead n) ReadGuard)
  | HasRead n => Some (s, go t (Looked n (entries s n)) (holds t))
  | Looked n None => Some (s, finish t n NoSuchEntry)
  | Looked n (Some c) => Some (s, go t (GetOrInit n c) NoGuard)
  | GetOrInit n c =>
      match nth c (cells s) Busy with
      | Ready v => Some (s, finish t n (Got v))
      | Busy => None
      | Empty => Some (set_cell s c Busy, go t (Creating n c) (holds t))
      end
  | Creating n c =>
      match choice with
      | Some a =>
          let v := FftPlan (n / 2) a (length (created s)) in
          let s := set_cell s c (Ready v) in
          Some (Shared (entries s) (cells s) (poisoned s) (created s ++ [(n, v)]), finish t n (Got v))
      | None => Some (unwind (set_cell s c Empty) (holds t), finish t n CreationPanicked)
      end
  end.

(** The whole system: thread [i] takes a step. *)
Record system := System { memory : shared; threads : list thread }.
Definition system_step (i : nat) (choice : option nat) (S : system) : option system :=
  match nth_error (threads S) i with
  | None => None
  | Some t =>
      match thread_step (map holds (firstn i (threads S) ++ skipn (i + 1) (threads S))) choice (memory S) t with
      | None => None
      | Some (s, t') => Some (System s (firstn i (threads S) ++ t' :: skipn (i + 1) (threads S)))
      end
  end.
(** All threads before their first call, each with the sizes it will ask for *)
Definition start (programs : list (list nat)) : system :=
  System (Shared (fun _ => None) [] false []) (map (fun cs => Thread cs Idle NoGuard []) programs).
(** A schedule: which thread moves and what plan creation does; steps of waiting threads are skipped. *)
Fixpoint run (schedule : list (nat * option nat)) (S : system) : system :=
  match schedule with
  | [] => S
  | (i, c) :: rest => run rest (match system_step i c S with Some S' => S' | None => S end)
  end.
