(** * Model of the double precision operations the encoders use
    A finite [f64] is represented by the rational number it denotes.  [+], [-], [*], [/] and the conversions from
    integers round the exact result to the nearest multiple of a power of two with a 53-bit significand, ties to even,
    as IEEE 754 binary64 does.
    Simplifications: the exponent is unbounded, so overflow to infinity, underflow to subnormal numbers and NaN do not
    occur; signed zero is not represented. *)
From Coq Require Import QArith Qabs Qround.
From Verif Require Import Base Word.
Open Scope Q_scope.
Open Scope Z_scope.

(** Nearest integer, ties to even. *)
Definition round_even (q : Q) : Z :=
  let f := Qfloor q in
  match (q - inject_Z f ?= 1 # 2)%Q with
  | Lt => f
  | Gt => f + 1
  | Eq => if Z.even f then f else f + 1
  end.

(** Exponent of the last bit of the significand: the [e] with [2^52 * 2^e <= |x| < 2^53 * 2^e]. *)
Definition ulp_exp (x : Q) : Z :=
  let e0 := Z.log2 (Z.abs (Qnum x)) - Z.log2 (Zpos (Qden x)) - 53 in
  if Qle_bool (2 ^ (e0 + 53))%Q (Qabs x) then e0 + 1 else e0.

(** Rounding of an exact result to binary64. *)
Definition rnd (x : Q) : Q :=
  if Qnum x =? 0 then 0%Q
  else (inject_Z (round_even (x / 2 ^ ulp_exp x)) * 2 ^ ulp_exp x)%Q.

(** The operators of [f64], used through the trait of
    /repo/concrete-core/src/commons/numeric/float.rs:7-56. *)
Definition fadd (x y : Q) : Q := rnd (x + y).
Definition fsub (x y : Q) : Q := rnd (x - y).
Definition fmul (x y : Q) : Q := rnd (x * y).
Definition fdiv (x y : Q) : Q := rnd (x / y).
(** float.rs:69-71 powi, of 2: a power of two is exact. *)
Definition fpow2 (e : Z) : Q := (2 ^ e)%Q.
(** float.rs:73-75 round: to the nearest integer, ties away from zero (always exact). *)
Definition fround (x : Q) : Z :=
  if Qle_bool 0 x then Qfloor (x + (1 # 2)) else - Qfloor (- x + (1 # 2)).
(** [i as f64] (commons/numeric/mod.rs:70-80) *)
Definition of_int (v : Z) : Q := rnd (inject_Z v).
(** [x as iN] of an integral [x]: saturates (commons/numeric/mod.rs:70-80). *)
Definition to_signed (w : Z) (v : Z) : Z := Z.max (- 2 ^ (w - 1)) (Z.min (2 ^ (w - 1) - 1) v).
Definition flt (x y : Q) : bool := negb (Qle_bool y x).

(** /repo/concrete-core/src/commons/math/torus/mod.rs:52-55 into_torus *)
Definition into_torus (w v : Z) : Q := fmul (of_int v) (fpow2 (- w)).

(** math/torus/mod.rs:63-69 from_torus *)
Definition from_torus (w : Z) (input : Q) : Z :=
  let fract := fsub input (inject_Z (fround input)) in
  let fract := fmul fract (fpow2 w) in
  to_signed w (fround fract) mod 2 ^ w.
