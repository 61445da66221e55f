(** * The conversions between words and numbers of the amortized bootstrap, over the real numbers
    /repo/concrete-cuda/cuda/src/polynomial/functions.cuh, .../crypto/torus.cuh, .../types/int128.cuh, .../crypto/bootstrapping_key.cuh.
    The roundings of integers to double are those of the program; the arithmetic on doubles is exact. *)
From Coq Require Import Reals.
From Verif Require Import Base Word CudaPbsModel.
Local Open Scope R_scope.

(** (double)std::numeric_limits<Torus>::max(), and mx converted to double: 2^32 - 1 is a double, 2^64 - 1 is rounded to 2^64. *)
Definition max_word (w : Z) : R := IZR (to_double (2 ^ w - 1)).
(** floor *)
Definition floor (v : R) : Z := Int_part v.
(** The nearest integer, ties to even *)
Definition nearest (x : R) : Z :=
  let n := floor x in
  if Rlt_dec (x - IZR n) (1 / 2) then n else if Rlt_dec (1 / 2) (x - IZR n) then (n + 1)%Z else if Z.even n then n else (n + 1)%Z.
(** torus.cuh:12-28 typecast_double_to_torus.  __double2uint_rn saturates; make_uint128_from_float(x).lo_ (int128.cuh:33-41) is the integer part
    modulo 2^64 for x >= 0. *)
Definition typecast_double_to_torus (w : Z) (x : R) : Z :=
  if Z.eqb w 32 then Z.min (2 ^ 32 - 1) (Z.max 0 (nearest x)) else (floor x mod 2 ^ 64)%Z.
(** frac += (carry >= 0.5) *)
Definition round_carry (frac carry : R) : R := frac + (if Rle_dec (1 / 2) carry then 1 else 0).
(** functions.cuh:176-199 add_to_torus: V1, and V2 whose carry is computed with floor(v2) instead of floor(frac) *)
Definition torus_first (w : Z) (v : R) : Z :=
  let frac := (v - IZR (floor v)) * max_word w in
  typecast_double_to_torus w (round_carry frac (frac - IZR (floor frac))).
Definition torus_second (w : Z) (v : R) : Z :=
  let frac := (v - IZR (floor v)) * max_word w in
  typecast_double_to_torus w (round_carry frac (frac - IZR (floor v))).
(** bootstrapping_key.cuh:64-79: the signed word is converted to double, then divided by the largest word converted to double. *)
Definition signed_to_double (x : Z) : Z := if Z.ltb x 0 then (- to_double (- x))%Z else to_double x.
Definition key_to_double (w x : Z) : R := IZR (signed_to_double x) / max_word w.
