(** * Specification of binary64 bit patterns and of the conversions around the Fourier transforms *)
From Coq Require Import QArith Qabs Qround.
From Verif Require Import Base Word.
Open Scope Q_scope.
Open Scope Z_scope.

(** ** IEEE 754 binary64: sign (1 bit), biased exponent (11 bits), fraction (52 bits) *)
Definition f64_sign (bits : Z) : bool := 2 ^ 63 <=? bits.
Definition f64_exponent (bits : Z) : Z := (bits / 2 ^ 52) mod 2 ^ 11.
Definition f64_fraction (bits : Z) : Z := bits mod 2 ^ 52.
Definition f64_finite (bits : Z) : Prop := is_word 64 bits /\ f64_exponent bits < 2047.
(** The number denoted by a finite pattern. *)
Definition f64_value (bits : Z) : Q :=
  let magnitude :=
    if f64_exponent bits =? 0 then (inject_Z (f64_fraction bits) * 2 ^ (-1074))%Q
    else (inject_Z (2 ^ 52 + f64_fraction bits) * 2 ^ (f64_exponent bits - 1075))%Q in
  if f64_sign bits then (- magnitude)%Q else magnitude.

(** Rounding towards zero. *)
Definition truncate (x : Q) : Z := if Qle_bool 0 x then Qfloor x else - Qfloor (- x).

(** ** The exact values the conversions approximate *)
(** The product of [re + i im] with [w_re + i w_im]. *)
Definition product_re (re im w_re w_im : Q) : Q := (re * w_re - im * w_im)%Q.
Definition product_im (re im w_re w_im : Q) : Q := (re * w_im + im * w_re)%Q.
(** The sum of the absolute values of the two terms: errors are relative to it. *)
Definition magnitude (a b c d : Q) : Q := (Qabs (a * b) + Qabs (c * d))%Q.
(** [x] approximates [y] with an error of at most [4 units in the last place] of [s]. *)
Definition approximates (x y s : Q) : Prop := (Qabs (x - y) <= 4 * (1 # 9007199254740992) * s)%Q.
(** The word [new] is the word [old] plus [2^w * target], modulo [2^w], up to [err]. *)
Definition adds (w : Z) (old new : Z) (target err : Q) : Prop :=
  is_word w new /\ exists k, (Qabs (inject_Z (new - old + k * 2 ^ w) - 2 ^ w * target) <= err)%Q.
