(** * The table of constants: every entry is close to a square root of its parent, or of the opposite *)
From Coq Require Import ZArith List Bool Lia.
From Verif Require Import CudaFftTable.
Import ListNotations.
Local Open Scope Z_scope.

(** [c], scaled by 2^64, is close to a square root of [p] *)
Definition near_root (p c : Z * Z) : bool :=
  let (a, b) := c in let dx := a * a - b * b - fst p * 2 ^ 64 in let dy := 2 * (a * b) - snd p * 2 ^ 64 in dx * dx + dy * dy <=? 2 ^ 152.
Definition long_enough (c : Z * Z) : bool := 96 * 2 ^ 128 <=? 100 * (fst c * fst c + snd c * snd c).
(** The second child is the first one times i *)
Definition children_ok (p c d : Z * Z) : bool :=
  near_root p c && (0 <? fst c) && (0 <? snd c) && long_enough c && (fst d =? - snd c) && (snd d =? fst c).
Fixpoint check (ps cs : list (Z * Z)) : bool :=
  match cs, ps with
  | [], _ => true
  | c :: d :: cs, p :: ps => children_ok p c d && check ps cs
  | _, _ => false
  end.
Lemma check_nth : forall ps cs, check ps cs = true -> forall j, (2 * j + 1 < length cs)%nat -> children_ok (nth j ps (0, 0)) (nth (2 * j) cs (0, 0)) (nth (2 * j + 1) cs (0, 0)) = true.
Proof.
  induction ps as [|p ps IH]; intros [|c [|d cs]] Hc j Hj; cbn [length] in Hj; try lia; try discriminate.
  cbn [check] in Hc. apply andb_true_iff in Hc. destruct Hc as [H1 H2]. destruct j as [|j]; [exact H1|].
  replace (2 * S j)%nat with (S (S (2 * j))) by lia. replace (S (S (2 * j)) + 1)%nat with (S (S (2 * j + 1))) by lia. cbn [nth]. apply IH; [exact H2|lia].
Qed.
Lemma table_checked : (match negtwiddles_scaled with
  | z :: w1 :: rest => near_root (0, 2 ^ 64) w1 && (0 <? fst w1) && (0 <? snd w1) && long_enough w1 && check (w1 :: rest) rest && (Z.of_nat (length rest) =? 4094)
  | _ => false end) = true.
Proof. vm_compute. reflexivity. Qed.
Definition entry (k : nat) : Z * Z := nth k negtwiddles_scaled (0, 0).
Lemma entry_root : near_root (0, 2 ^ 64) (entry 1) = true /\ 0 < fst (entry 1) /\ 0 < snd (entry 1) /\ long_enough (entry 1) = true.
Proof.
  pose proof table_checked as T. unfold entry. destruct negtwiddles_scaled as [|z [|w1 rest]]; try discriminate. rewrite !andb_true_iff in T. destruct T as [[[[[T1 T2] T3] T4] _] _].
  change (nth 1 (z :: w1 :: rest) (0, 0)) with w1. rewrite Z.ltb_lt in T2, T3. auto.
Qed.
Lemma entry_children k : (1 <= k)%nat -> (2 * k + 1 < 4096)%nat -> children_ok (entry k) (entry (2 * k)) (entry (2 * k + 1)) = true.
Proof.
  intros Hk Hl. pose proof table_checked as T. unfold entry. destruct negtwiddles_scaled as [|z [|w1 rest]]; try discriminate. rewrite !andb_true_iff in T. destruct T as [[_ T5] T6]. apply Z.eqb_eq in T6.
  destruct k as [|j]; [lia|]. pose proof (check_nth _ _ T5 j ltac:(lia)) as C. replace (2 * S j)%nat with (S (S (2 * j))) by lia. replace (S (S (2 * j)) + 1)%nat with (S (S (2 * j + 1))) by lia. exact C.
Qed.
Lemma entries : length negtwiddles_scaled = 4096%nat.
Proof.
  pose proof table_checked as T. destruct negtwiddles_scaled as [|z [|w1 rest]]; try discriminate. rewrite !andb_true_iff in T. destruct T as [_ T6]. apply Z.eqb_eq in T6. cbn [length]. lia.
Qed.
