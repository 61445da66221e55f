(** * Model of the operations of the FFT backend on polynomials
    Models /repo/concrete-core/src/backends/fft/private/crypto/ggsw.rs:488-681 (products accumulated in the
    Fourier domain) and /repo/concrete-core/src/backends/fft/private/math/fft/mod.rs:46-72, 358-522.
    The transform itself, [plan.fwd] and [plan.inv] of the crate concrete-fft, is a parameter: two
    functions on vectors of complex doubles.  Conversions are in [FourierConvModel], whose conventions for
    doubles, registers and pointers apply here. *)
From Coq Require Import QArith.
From Verif Require Import Base Word FloatModel SeededModel FourierConvModel ExtProdModel.
Open Scope Q_scope.
Open Scope Z_scope.

(** ** Instructions *)
(** _mm256_unpacklo_pd, _mm512_unpacklo_pd, ..._unpackhi_pd: in every 128-bit lane, the low (high) doubles of [a] and [b] *)
Fixpoint vunpacklo (a b : list Q) : list Q :=
  match a, b with a0 :: _ :: a, b0 :: _ :: b => a0 :: b0 :: vunpacklo a b | _, _ => [] end.
Fixpoint vunpackhi (a b : list Q) : list Q :=
  match a, b with _ :: a1 :: a, _ :: b1 :: b => a1 :: b1 :: vunpackhi a b | _, _ => [] end.
(** _mm256_permute_pd, _mm512_permute_pd: bit [i] of the immediate chooses the low or the high double of the
    128-bit lane that position [i] is in. *)
Definition permute_pd (imm : Z) (v : list Q) : list Q :=
  map (fun i => nth (2 * (i / 2) + if Z.testbit imm (Z.of_nat i) then 1 else 0)%nat v 0%Q) (seq 0 (length v)).
(** _mm256_fmaddsub_pd, _mm512_fmaddsub_pd: [a * b - c] in the even positions, [a * b + c] in the odd ones *)
Fixpoint fmaddsub (a b c : list Q) : list Q :=
  match a, b, c with
  | a0 :: a1 :: a, b0 :: b1 :: b, c0 :: c1 :: c => fmsub a0 b0 c0 :: fmadd a1 b1 c1 :: fmaddsub a b c
  | _, _, _ => []
  end.

(** ** Products accumulated in the Fourier domain *)
(** ggsw.rs:508-510 and 570-572: the lengths checked in debug builds *)
Definition fmadd_lengths (p : profile) (n : nat) (lhs rhs : list (Q * Q)) : outcome unit :=
  let! _ := debug_assert p (Nat.eqb n (length lhs)) in
  let! _ := debug_assert p (Nat.eqb n (length rhs)) in
  debug_assert p (Nat.eqb (n mod 4) 0).
(** The loops of ggsw.rs:518-548 and 580-610: [per] complex numbers per register; [imm] is the immediate of the
    permutation; the output is read only when it is initialised. *)
Definition fmadd_loop (per : nat) (imm : Z) (n : nat) (out lhs rhs : list Q) (is_output_uninit : bool) : list Q :=
  fold_left (fun out i =>
      let i := (per * i)%nat in
      let ab := load_at (2 * i) (2 * per) lhs in
      let xy := load_at (2 * i) (2 * per) rhs in
      let aa := vunpacklo ab ab in
      let bb := vunpackhi ab ab in
      let yx := permute_pd imm xy in
      store_at (2 * i)
        (if is_output_uninit then fmaddsub aa xy (map2 fmul bb yx)
         else fmaddsub aa xy (fmaddsub bb yx (load_at (2 * i) (2 * per) out))) out)
    (seq 0 (n / per)) out.
(** ggsw.rs:500-549 update_with_fmadd_avx512 *)
Definition update_with_fmadd_avx512 (p : profile) (out lhs rhs : list (Q * Q)) (is_output_uninit : bool) : outcome (list (Q * Q)) :=
  let n := length out in
  let! _ := fmadd_lengths p n lhs rhs in
  Ret (pair_up (fmadd_loop 4 85 n (flat out) (flat lhs) (flat rhs) is_output_uninit)).
(** ggsw.rs:561-610 update_with_fmadd_fma *)
Definition update_with_fmadd_fma (p : profile) (out lhs rhs : list (Q * Q)) (is_output_uninit : bool) : outcome (list (Q * Q)) :=
  let n := length out in
  let! _ := fmadd_lengths p n lhs rhs in
  Ret (pair_up (fmadd_loop 2 5 n (flat out) (flat lhs) (flat rhs) is_output_uninit)).
(** [c64 += c64] (crate num-complex) *)
Definition cplus (a b : Q * Q) : Q * Q := (fadd (fst a) (fst b), fadd (snd a) (snd b)).
(** ggsw.rs:619-638 update_with_fmadd_scalar *)
Definition update_with_fmadd_scalar (out lhs rhs : list (Q * Q)) (is_output_uninit : bool) : list (Q * Q) :=
  if is_output_uninit then overwrite out (map2 cmul lhs rhs)
  else zip_update cplus out (map2 cmul lhs rhs).
(** ggsw.rs:648-681 update_with_fmadd, for one polynomial of the output *)
Definition update_fourier (p : profile) (f : features) (out lhs rhs : list (Q * Q)) (is_output_uninit : bool) : outcome (list (Q * Q)) :=
  if nightly_avx512 f && has_avx512f f then update_with_fmadd_avx512 p out lhs rhs is_output_uninit
  else if has_fma f then update_with_fmadd_fma p out lhs rhs is_output_uninit
  else Ret (update_with_fmadd_scalar out lhs rhs is_output_uninit).

(** ** Twisting factors *)
(** core::f64::consts::PI *)
Definition pi64 : Q := 884279719003555 # 281474976710656.
(** mod.rs:57-72 Twisties::new; the parameter [sin_cos] is f64::sin_cos of the Rust standard library: (sine, cosine) *)
Definition twisties_new (p : profile) (sin_cos : Q -> Q * Q) (n : nat) : outcome twisties :=
  let! _ := debug_assert p (Nat.eqb n (Nat.pow 2 (Nat.log2 n))) in
  let unit := fdiv pi64 (fmul 2%Q (of_int (Z.of_nat n))) in
  let pairs := map (fun i => sin_cos (fmul (of_int (Z.of_nat i)) unit)) (seq 0 n) in
  Ret {| tw_re := map snd pairs; tw_im := map fst pairs |}.

(** ** Transforms *)
(** [concrete_fft::Plan]: the transforms work in place *)
Record plan := Plan { plan_fwd : list (Q * Q) -> list (Q * Q); plan_inv : list (Q * Q) -> list (Q * Q) }.

(** mod.rs:476-496 forward_with_conv; [fourier] is the uninitialised output *)
Definition forward_with_conv (p : profile) (pl : plan)
    (conv : list (Q * Q) -> list Z -> list Z -> outcome (list (Q * Q))) (fourier : list (Q * Q)) (standard : list Z) : outcome (list (Q * Q)) :=
  let n := length standard in
  let! _ := debug_assert p (Nat.eqb n (2 * length fourier)) in
  let! fourier := conv fourier (firstn (n / 2) standard) (skipn (n / 2) standard) in
  Ret (plan_fwd pl fourier).
(** mod.rs:501-522 backward_with_conv *)
Definition backward_with_conv (p : profile) (pl : plan)
    (conv : list Z -> list Z -> list (Q * Q) -> outcome (list Z * list Z)) (standard : list Z) (fourier : list (Q * Q)) : outcome (list Z) :=
  let n := length standard in
  let! _ := debug_assert p (Nat.eqb n (2 * length fourier)) in
  let tmp := plan_inv pl fourier in
  let! (re, im) := conv (firstn (n / 2) standard) (skipn (n / 2) standard) tmp in
  Ret (re ++ im).
(** mod.rs:395-403 forward_as_torus, 416-424 forward_as_integer *)
Definition forward_as_torus (p : profile) (w : Z) (pl : plan) (tw : twisties) (fourier : list (Q * Q)) (standard : list Z) : outcome (list (Q * Q)) :=
  forward_with_conv p pl (fun out re im => Ret (convert_forward_torus w out re im tw)) fourier standard.
Definition forward_as_integer (p : profile) (f : features) (w : Z) (pl : plan) (tw : twisties) (fourier : list (Q * Q)) (standard : list Z) : outcome (list (Q * Q)) :=
  forward_with_conv p pl (fun out re im => convert_forward_integer p f w out re im tw) fourier standard.
(** mod.rs:436-444 backward_as_torus, 456-471 add_backward_as_torus *)
Definition backward_as_torus (p : profile) (w : Z) (pl : plan) (tw : twisties) (standard : list Z) (fourier : list (Q * Q)) : outcome (list Z) :=
  backward_with_conv p pl (fun re im inp => Ret (convert_backward_torus w re im inp tw)) standard fourier.
Definition add_backward_as_torus (p : profile) (f : features) (w : Z) (pl : plan) (tw : twisties) (standard : list Z) (fourier : list (Q * Q)) : outcome (list Z) :=
  backward_with_conv p pl (fun re im inp => convert_add_backward_torus p f w re im inp tw) standard fourier.

(** ** The operations the external product calls; [buffer] is what uninitialised memory holds.
    A panic would give [buffer] (or leave the output): the theorems show that there is none. *)
Definition or_else {A} (o : outcome A) (d : A) : A := match o with Ret x => x | Panic => d end.
Definition fft_backend (p : profile) (f : features) (w : Z) (pl : plan) (tw : twisties) (buffer : list (Q * Q)) : backend :=
  {| bk_dom := list (Q * Q);
     bk_key := fun g => or_else (forward_as_torus p w pl tw buffer g) buffer;
     bk_digit := fun d => or_else (forward_as_integer p f w pl tw buffer d) buffer;
     bk_mul := fun lhs rhs => or_else (update_fourier p f buffer lhs rhs true) buffer;
     bk_mac := fun out lhs rhs => or_else (update_fourier p f out lhs rhs false) buffer;
     bk_add_back := fun out fourier => or_else (add_backward_as_torus p f w pl tw out fourier) out |}.
