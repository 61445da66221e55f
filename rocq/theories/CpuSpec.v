(** * Specification of the C interface: buffers in memory *)
From Verif Require Import Base Word.

(** The address is one of the n cells from ptr. *)
Definition inside (ptr : Z) (n : nat) (a : Z) : Prop := ptr <= a < ptr + Z.of_nat n.
(** Two buffers have no cell in common. *)
Definition disjoint (p1 : Z) (n1 : nat) (p2 : Z) (n2 : nat) : Prop := forall a, inside p1 n1 a -> inside p2 n2 a -> False.
(** Only the buffer at ptr may have changed. *)
Definition only_changes {A} (ptr : Z) (n : nat) (m m' : Z -> A) : Prop := forall a, ~ inside ptr n a -> m' a = m a.
(** The buffer at ptr holds the list l. *)
Definition holds {A} (m : Z -> A) (ptr : Z) (l : list A) : Prop :=
  forall i x, nth_error l i = Some x -> m (ptr + Z.of_nat i) = x.
(** A standard bootstrap key in the order of its container *)
Definition flat_bsk (bsk : list (list (list (list (list Z))))) : list Z := concat (map (fun G => concat (map (fun lev => concat (map (@concat Z) lev)) G)) bsk).
(** A list of private functional keyswitch keys in the order of their container *)
Definition flat_pfpksk (keys : list (list (list (list (list Z))))) : list Z :=
  concat (map (fun key => concat (map (fun block => concat (map (@concat Z) block)) key)) keys).
