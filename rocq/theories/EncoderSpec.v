(** * Specification of the encoders: what a user of the encoding engines relies on *)
From Coq Require Import QArith Qabs.
From Verif Require Import Base.
Open Scope Q_scope.

(** A finite double: 53 significant bits. *)
Definition is_double (x : Q) : Prop := exists m e : Z, (Z.abs m <= 2 ^ 53)%Z /\ x == inject_Z m * 2 ^ e.

(** The distance between two messages that an encoder of [prec] bits on [min, max] tells apart: [2^prec] messages,
    the first at [min] and the last at [max]. *)
Definition granule (min max : Q) (prec : Z) : Q := (max - min) / (2 ^ prec - 1).

(** Precisions and paddings a [w]-bit plaintext has room for, and that doubles can represent with some margin. *)
Definition usable (w prec pad : Z) : Prop :=
  (1 <= prec <= 46 /\ 0 <= pad /\ prec + pad < w /\ prec + 1 < w /\ w < 2 ^ 64)%Z.

(** The largest noise, in absolute value, a plaintext tolerates: less than half a granule, up to the rounding of the
    encoding itself. *)
Definition tolerated (w prec pad e : Z) : Prop :=
  inject_Z (Z.abs e + 1) * 2 ^ pad + 2 ^ (w - 47) < 2 ^ (w - prec - 1).

(** How far from the message the decoded value may be: the part of the interval that the noise and the truncation of the
    padding stand for, and the rounding errors of the doubles. *)
Definition decode_error (w prec pad : Z) (min max : Q) (e : Z) : Q :=
  (max - min + granule min max prec) * (inject_Z (Z.abs e + 1) / 2 ^ (w - pad) + (1 # 70368744177664)) + Qabs min * (1 # 9007199254740992).
