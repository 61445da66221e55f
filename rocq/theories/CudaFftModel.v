(** * Model of the Fourier transforms of the CUDA backend
    /repo/concrete-cuda/cuda/src/fft/bnsmfft.cuh and .../polynomial/polynomial_math.cuh, for a block of threads.

    Floating-point numbers are elements of a commutative ring given with its operations: rounding is not modelled. *)
From Verif Require Import Base CudaBlockModel.

(** Cells: word [i] of a buffer; component x or y of double2 [i] of a buffer; a local variable of a thread. *)
Inductive addr := Word (buf i : nat) | Dbl (buf i : nat) (im : bool) | Loc (t r : nat).
Definition addr_eqb (a b : addr) : bool :=
  match a, b with
  | Word b1 i1, Word b2 i2 => Nat.eqb b1 b2 && Nat.eqb i1 i2
  | Dbl b1 i1 m1, Dbl b2 i2 m2 => Nat.eqb b1 b2 && Nat.eqb i1 i2 && Bool.eqb m1 m2
  | Loc t1 r1, Loc t2 r2 => Nat.eqb t1 t2 && Nat.eqb r1 r2
  | _, _ => false
  end.

Section Fft.
Context {R : Type} (rO : R) (radd rmul rsub : R -> R -> R).
(** The content of a cell *)
Inductive val := Wd (z : Z) | Db (x : R).
Definition db (v : val) : R := match v with Db x => x | Wd _ => rO end.
Definition wd (v : val) : Z := match v with Wd z => z | Db _ => 0 end.
Notation gop := (gop addr val).
Notation seg := (seg addr val).

(** Accesses of thread [t]: [load r c] is "r = c", [store c r] is "c = r", [comp r rs f] computes on local variables. *)
Definition arg (vs : list val) (n : nat) : R := db (nth n vs (Db rO)).
Definition load (t r : nat) (c : addr) : gop := GOp [c] (Loc t r) (fun vs => nth 0 vs (Db rO)).
Definition store2 (t : nat) (c : addr) (r1 r2 : nat) (f : R -> R -> R) : gop := GOp [Loc t r1; Loc t r2] c (fun vs => Db (f (arg vs 0) (arg vs 1))).
Definition comp2 (t r : nat) (r1 r2 : nat) (f : R -> R -> R) : gop := store2 t (Loc t r) r1 r2 f.

(** complex/operations.cuh: the product of two double2; __constant__ double2 negtwiddles[4096] of fft/twiddles.cu *)
Context (negtwiddles : nat -> R * R).
(** The constant 0.707106781186547461715008466854 *)
Context (rsqrt2 : R).
(** 1. / params::degree *)
Context (inv_degree : R).

Section Buffer.
Context (buf off : nat).
(** A[i].x, A[i].y where A points to element [off] of [buf] *)
Definition X (i : nat) : addr := Dbl buf (off + i) false.
Definition Y (i : nat) : addr := Dbl buf (off + i) true.

(** bnsmfft.cuh:46-55.  Local variables: u.x, u.y, v.x, v.y, and two for the values read. *)
Definition butterfly1 (t i1 i2 : nat) : list gop :=
  [load t 0 (X i1); load t 1 (Y i1);
   load t 4 (X i2); load t 5 (Y i2); comp2 t 2 4 5 (fun x y => rmul (rsub x y) rsqrt2);
   load t 4 (X i2); load t 5 (Y i2); comp2 t 3 4 5 (fun x y => rmul (radd x y) rsqrt2);
   load t 4 (X i1); store2 t (X i1) 4 2 radd;
   load t 4 (Y i1); store2 t (Y i1) 4 3 radd;
   store2 t (X i2) 0 2 rsub; store2 t (Y i2) 1 3 rsub].
(** bnsmfft.cuh:75-82 *)
Definition butterfly (w : R * R) (t i1 i2 : nat) : list gop :=
  [load t 0 (X i1); load t 1 (Y i1);
   load t 4 (X i2); load t 5 (Y i2); comp2 t 2 4 5 (fun x y => rsub (rmul x (fst w)) (rmul y (snd w)));
   load t 4 (Y i2); load t 5 (X i2); comp2 t 3 4 5 (fun y x => radd (rmul y (fst w)) (rmul x (snd w)));
   load t 4 (X i1); store2 t (X i1) 4 2 radd;
   load t 4 (Y i1); store2 t (Y i1) 4 3 radd;
   store2 t (X i2) 0 2 rsub; store2 t (Y i2) 1 3 rsub].
(** bnsmfft.cuh:127-134 *)
Definition butterfly_inverse (w : R * R) (t i1 i2 : nat) : list gop :=
  [load t 4 (X i1); load t 5 (X i2); comp2 t 0 4 5 rsub;
   load t 4 (Y i1); load t 5 (Y i2); comp2 t 1 4 5 rsub;
   load t 4 (X i1); load t 5 (X i2); store2 t (X i1) 4 5 radd;
   load t 4 (Y i1); load t 5 (Y i2); store2 t (Y i1) 4 5 radd;
   store2 t (X i2) 0 1 (fun ux uy => radd (rmul ux (fst w)) (rmul uy (snd w)));
   store2 t (Y i2) 1 0 (fun uy ux => rsub (rmul uy (fst w)) (rmul ux (snd w)))].

Section Degree.
(** params::degree, params::opt *)
Context (degree opt : nat).
Notation threads := (degree / opt)%nat.
(** bnsmfft.cuh:72-74, 124-126 *)
Definition first_index (s tid : nat) : nat := (2 * s * (tid / s) + Nat.land tid (s - 1))%nat.
(** bnsmfft.cuh:44-58 *)
Definition direct_first : list seg :=
  [Par (strided threads (opt / 2) (fun t tid => butterfly1 t tid (tid + degree / 2)%nat)); Bar].
(** bnsmfft.cuh:71-85: one iteration of the while loop, where the variables t and m are [s] and [m] *)
Definition direct_level (s m : nat) : list seg :=
  [Par (strided threads (opt / 2) (fun t tid => butterfly (negtwiddles (tid / s + m)%nat) t (first_index s tid) (first_index s tid + s)%nat)); Bar].
(** bnsmfft.cuh:65-86.  [fuel] bounds the iterations; the degree is enough, as t is halved each time. *)
Fixpoint direct_loop (fuel s m : nat) : list seg :=
  match fuel with
  | O => []
  | S fuel => if Nat.ltb 1 s then direct_level (s / 2) (m * 2) ++ direct_loop fuel (s / 2) (m * 2) else []
  end.
(** bnsmfft.cuh:25-87 *)
Definition NSMFFT_direct : list seg := direct_first ++ direct_loop degree (degree / 2) 1.

(** bnsmfft.cuh:108-114 *)
Definition inverse_scale : list seg :=
  [Par (strided threads opt (fun t tid =>
     [load t 4 (X tid); store2 t (X tid) 4 4 (fun x _ => rmul x inv_degree);
      load t 4 (Y tid); store2 t (Y tid) 4 4 (fun x _ => rmul x inv_degree)])); Bar].
(** bnsmfft.cuh:123-138 *)
Definition inverse_level (s m : nat) : list seg :=
  [Par (strided threads (opt / 2) (fun t tid => butterfly_inverse (negtwiddles (tid / s + m)%nat) t (first_index s tid) (first_index s tid + s)%nat)); Bar].
(** bnsmfft.cuh:119-139 *)
Fixpoint inverse_loop (fuel s m : nat) : list seg :=
  match fuel with
  | O => []
  | S fuel => if Nat.ltb 1 m then inverse_level s (m / 2) ++ inverse_loop fuel (s * 2) (m / 2) else []
  end.
(** bnsmfft.cuh:92-140 *)
Definition NSMFFT_inverse : list seg := inverse_scale ++ inverse_loop degree 1 degree.
End Degree.
End Buffer.

(** polynomial_math.cuh:32-41: result[tid] += first[tid] * second[tid], on double2 (complex/operations.cuh).  [degree] is the one of
    the real polynomials; [opt / 2] and [degree / opt] are those of the half-size transform. *)
Definition product_accumulate (degree opt rb ro fb fo sb so : nat) : seg :=
  Par (strided (degree / opt) (opt / 2) (fun t tid =>
    [load t 0 (X fb fo tid); load t 1 (Y fb fo tid); load t 2 (X sb so tid); load t 3 (Y sb so tid);
     GOp [Loc t 0; Loc t 1; Loc t 2; Loc t 3] (Loc t 4) (fun v => Db (rsub (rmul (arg v 0) (arg v 2)) (rmul (arg v 1) (arg v 3))));
     GOp [Loc t 0; Loc t 1; Loc t 2; Loc t 3] (Loc t 5) (fun v => Db (radd (rmul (arg v 0) (arg v 3)) (rmul (arg v 1) (arg v 2))));
     load t 6 (X rb ro tid); store2 t (X rb ro tid) 6 4 radd;
     load t 6 (Y rb ro tid); store2 t (Y rb ro tid) 6 5 radd])).

(** fft[tid] = d_input[...]: one double2 after the other *)
Definition copy (degree opt rb ro sb so : nat) : seg :=
  Par (strided (degree / opt) (opt / 2) (fun t tid =>
    [load t 0 (X sb so tid); load t 1 (Y sb so tid);
     store2 t (X rb ro tid) 0 0 (fun x _ => x); store2 t (Y rb ro tid) 1 1 (fun y _ => y)])).
(** bnsmfft.cuh:149-173: block [block] of batch_NSMFFT, with the input, the working memory (shared memory of the block, or a part of a
    device buffer) and the output in the buffers [ib], [fb] from element [fo], and [ob].  NSMFFT_direct is called for half the degree. *)
Definition batch_NSMFFT (degree opt block ib fb fo ob : nat) : list seg :=
  copy degree opt fb fo ib (block * (degree / 2)) :: Bar ::
  NSMFFT_direct fb fo (degree / 2) (opt / 2) ++ [Bar; copy degree opt ob (block * (degree / 2)) fb fo].
(** polynomial/parameters.cuh:6-15 *)
Definition choose_opt (degree : nat) : nat :=
  if Nat.leb degree 1024 then 4 else if Nat.eqb degree 2048 then 8 else if Nat.eqb degree 4096 then 16 else 32.
End Fft.
Arguments val : clear implicits.
