(** * Machine words: unsigned integers of [w] bits, represented by Z in [0, 2^w).
    Models the operators of /repo/concrete-core/src/commons/numeric/unsigned.rs (which forward
    to the operators of the Rust primitive types u8..u128). *)
From Verif Require Import Base.

Definition is_word (w x : Z) : Prop := 0 <= x < 2 ^ w.

(** commons/numeric/unsigned.rs:99-117: wrapping_add, wrapping_sub, wrapping_mul, wrapping_neg. *)
Definition wadd (w a b : Z) : Z := (a + b) mod 2 ^ w.
Definition wsub (w a b : Z) : Z := (a - b) mod 2 ^ w.
Definition wmul (w a b : Z) : Z := (a * b) mod 2 ^ w.
Definition wneg (w a : Z) : Z := (- a) mod 2 ^ w.

(** [<<] and [>>] by an amount smaller than the width. *)
Definition shl (w a s : Z) : Z := (a * 2 ^ s) mod 2 ^ w.
Definition shr (a s : Z) : Z := a / 2 ^ s.

(** [<<] and [>>] by any amount: an amount of at least the width panics when overflow checks
    are on; when they are off it is reduced modulo the width (all widths are powers of two). *)
Definition shl_ (p : profile) (w a s : Z) : outcome Z :=
  if s <? w then Ret (shl w a s)
  else match p with Debug => Panic | Release => Ret (shl w a (s mod w)) end.
Definition shr_ (p : profile) (w a s : Z) : outcome Z :=
  if s <? w then Ret (shr a s)
  else match p with Debug => Panic | Release => Ret (shr a (s mod w)) end.

(** The signed value of a word: [into_signed] of numeric/unsigned.rs. *)
Definition sgn (w x : Z) : Z := if x <? 2 ^ (w - 1) then x else x - 2 ^ w.

(** ** Specification: congruence modulo q *)
Definition eqm (q a b : Z) : Prop := a mod q = b mod q.

(** Distance on the torus: the smallest |a - b + k 2^w|. *)
Definition torus_dist (w a b : Z) : Z := Z.min ((a - b) mod 2 ^ w) ((b - a) mod 2 ^ w).
