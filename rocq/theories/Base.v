(** * Base: conventions shared by every model file.
    No Rust function is modelled here; this file only fixes how Rust's partiality is
    represented.  *)
From Coq Require Export ZArith List Lia Bool.
From Coq Require Export ZifyBool ZifyNat.
Export ListNotations.
Open Scope Z_scope.

Ltac Zify.zify_post_hook ::= Z.div_mod_to_equations.

(** ** Panics
    A Rust function that may panic returns an [outcome]. *)
Inductive outcome (A : Type) : Type :=
| Ret (a : A)
| Panic.
Arguments Ret {A} a.
Arguments Panic {A}.

Definition obind {A B} (x : outcome A) (f : A -> outcome B) : outcome B :=
  match x with Ret a => f a | Panic => Panic end.

Notation "'let!' x ':=' e 'in' f" := (obind e (fun x => f))
  (at level 61, x pattern, e at next level, right associativity).

(** [map] of a function that may panic: the first panic aborts. *)
Fixpoint omap {A B} (f : A -> outcome B) (l : list A) : outcome (list B) :=
  match l with
  | [] => Ret []
  | a :: l' => let! b := f a in let! bs := omap f l' in Ret (b :: bs)
  end.

(** [assert!(b)] *)
Definition assert_ (b : bool) : outcome unit := if b then Ret tt else Panic.

(** ** Build profiles
    Plain [+], [-], [*] on machine integers panic on overflow when overflow checks are on
    (Rust's debug profile) and wrap silently when they are off (release profile). *)
Inductive profile := Debug | Release.

(** Result of a plain arithmetic operator on a [w]-bit unsigned integer whose exact result
    is [v]. *)
Definition plain (p : profile) (w v : Z) : outcome Z :=
  if (0 <=? v) && (v <? 2 ^ w) then Ret v
  else match p with Debug => Panic | Release => Ret (v mod 2 ^ w) end.

(** [usize] is 64 bits wide (the only platforms the crates build for). *)
Definition usize_bits : Z := 64.

(** Pointwise combination of two lists, stopping with the shorter one, as
    [iter().zip(..)] does. *)
Fixpoint map2 {A B C} (f : A -> B -> C) (l : list A) (m : list B) : list C :=
  match l, m with
  | a :: l', b :: m' => f a b :: map2 f l' m'
  | _, _ => []
  end.

(** The integers [a, a+1, ..., a+n-1], i.e. the Rust range [a..a+n]. *)
Fixpoint zseq (a : Z) (n : nat) : list Z :=
  match n with O => [] | S n' => a :: zseq (a + 1) n' end.

(** [ck_dim_eq!] (/repo/concrete-core/src/commons/math/tensor/mod.rs:126-143) is a
    [debug_assert!]: it is checked in debug builds only. *)
Definition ck_dim_eq (p : profile) (a b : nat) : outcome unit :=
  match p with Debug => assert_ (Nat.eqb a b) | Release => Ret tt end.

(** [for (out, x) in out.iter_mut().zip(other) { *out = f(out, x) }]: elements of [out] beyond
    the length of [other] are left untouched. *)
Fixpoint zip_update {A B} (f : A -> B -> A) (out : list A) (other : list B) : list A :=
  match out, other with
  | a :: out', b :: other' => f a b :: zip_update f out' other'
  | _, _ => out
  end.

(** The same when [f] may panic. *)
Fixpoint ozip_update {A B} (f : A -> B -> outcome A) (out : list A) (other : list B) : outcome (list A) :=
  match out, other with
  | a :: out', b :: other' =>
      let! x := f a b in let! xs := ozip_update f out' other' in Ret (x :: xs)
  | _, _ => Ret out
  end.
