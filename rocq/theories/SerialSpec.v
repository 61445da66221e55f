(** * Specification of the serialization engines *)
From Coq Require Import String.
From Verif Require Import Base Word SerialModel.
Local Open Scope list_scope.

Definition byte (b : Z) : Prop := 0 <= b < 256.

(** The values that an entity can have: integers of their size, vectors shorter than 2^64; Fourier polynomials of an even size, of a power of two when
    there is at least one of them, and in memory (fewer than 2^60 values of 16 bytes). *)
Fixpoint valid (l : layout) : val l -> Prop :=
  match l return val l -> Prop with
  | LWord k => fun v => 0 <= v < 256 ^ Z.of_nat k
  | LBool | LUnit => fun _ => True
  | LVec l => fun vs => Z.of_nat (length vs) < 2 ^ 64 /\ Forall (valid l) vs
  | LPair a b => fun v => valid a (fst v) /\ valid b (snd v)
  | LFourier => fun v => let (N, data) := v in
      0 <= N < 2 ^ 64 /\ N mod 2 = 0 /\ Forall (fun c => is_word 64 (fst c) /\ is_word 64 (snd c)) data /\ Z.of_nat (length data) < 2 ^ 60 /\
      exists count, Z.of_nat (length data) = Z.of_nat count * (N / 2) /\ (count = O \/ exists a, 0 <= a /\ N = 2 ^ (a + 1))
  end.

(** The layouts without Fourier polynomials: those of the default engine *)
Fixpoint no_fourier (l : layout) : Prop :=
  match l with
  | LWord _ | LBool | LUnit => True
  | LVec l => no_fourier l
  | LPair a b => no_fourier a /\ no_fourier b
  | LFourier => False
  end.

Fixpoint lookup {A} (name : string) (table : list (string * A)) : option A :=
  match table with
  | [] => None
  | (n, x) :: table' => if String.eqb n name then Some x else lookup name table'
  end.

Local Open Scope string_scope.
(** A view is read back as the entity that owns its data. *)
Definition views : list (string * string) := [
  ("GlweCiphertextView32", "GlweCiphertext32"); ("GlweCiphertextView64", "GlweCiphertext64");
  ("GlweCiphertextMutView32", "GlweCiphertext32"); ("GlweCiphertextMutView64", "GlweCiphertext64");
  ("GlweCiphertextVectorView32", "GlweCiphertextVector32"); ("GlweCiphertextVectorView64", "GlweCiphertextVector64");
  ("GlweCiphertextVectorMutView32", "GlweCiphertextVector32"); ("GlweCiphertextVectorMutView64", "GlweCiphertextVector64");
  ("LweCiphertextView32", "LweCiphertext32"); ("LweCiphertextView64", "LweCiphertext64");
  ("LweCiphertextMutView32", "LweCiphertext32"); ("LweCiphertextMutView64", "LweCiphertext64");
  ("LweCiphertextVectorView32", "LweCiphertextVector32"); ("LweCiphertextVectorView64", "LweCiphertextVector64");
  ("LweCiphertextVectorMutView32", "LweCiphertextVector32"); ("LweCiphertextVectorMutView64", "LweCiphertextVector64")].
Definition owned (name : string) : string := match lookup name views with Some n => n | None => name end.
