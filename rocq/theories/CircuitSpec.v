(** * Specification: circuits of table lookups, in the clear *)
From Verif Require Import Base Word LweSpec.

(** A gate looks up [g_table] at a linear combination, with integer weights and a bias, of earlier wires. *)
Record gate := Gate { g_inputs : list nat; g_weights : list Z; g_bias : Z; g_table : list Z }.

(** Messages are integers modulo 2^(t+1).  A table has 2^t entries and is read negacyclically: the entry at x + 2^t is minus
    the entry at x. *)
Definition lookup (t : Z) (table : list Z) (x : Z) : Z :=
  let y := x mod 2 ^ (t + 1) in
  if y <? 2 ^ t then nth (Z.to_nat y) table 0 else - nth (Z.to_nat (y - 2 ^ t)) table 0.
Definition gate_value (t : Z) (values : list Z) (g : gate) : Z :=
  lookup t (g_table g) (wsum (g_weights g) (map (fun i => nth i values 0) (g_inputs g)) + g_bias g) mod 2 ^ (t + 1).
(** Every gate adds a wire. *)
Fixpoint clear_run (t : Z) (circuit : list gate) (values : list Z) : list Z :=
  match circuit with [] => values | g :: rest => clear_run t rest (values ++ [gate_value t values g]) end.

(** Gates refer to earlier wires ([m] of them before the first gate) and the absolute values of the weights of a gate sum up to
    at most [W]. *)
Fixpoint norm (ws : list Z) : Z := match ws with [] => 0 | x :: ws' => Z.abs x + norm ws' end.
Fixpoint circuit_wf (W : Z) (m : nat) (circuit : list gate) : Prop :=
  match circuit with
  | [] => True
  | g :: rest => Forall (fun i => (i < m)%nat) (g_inputs g) /\ length (g_weights g) = length (g_inputs g) /\ norm (g_weights g) <= W /\
      circuit_wf W (S m) rest
  end.

(** A message is encoded in the top t+1 bits of a word, and decoded by rounding. *)
Definition encode (w t x : Z) : Z := (2 ^ (w - 1 - t) * x) mod 2 ^ w.
Definition decode (w t x : Z) : Z := ((x + 2 ^ (w - t - 2)) mod 2 ^ w) / 2 ^ (w - 1 - t).
(** The polynomial the user puts in the accumulator of a bootstrap to look up [table]: every entry is repeated N / 2^t times,
    centred on its position. *)
Definition accumulator (w : Z) (N : nat) (t : Z) (table : list Z) : list Z :=
  let box := Z.of_nat N / 2 ^ t in
  map (fun i => encode w t (lookup t table ((Z.of_nat i + box / 2) / box))) (seq 0 N).
