(** * Specification: the ring Z/q[X]/(X^N + 1)
    A polynomial of the ring is represented by its coefficient function extended to all integer
    degrees by X^N = -1, i.e. a function f : Z -> Z with f (k + N) = - f k ("antiperiodic").
    f k is the coefficient of X^k for 0 <= k < N.  In this representation the product with X^d is
    the shift k |-> f (k - d), for every integer d, and the product of f and g has coefficient
    sum_{0 <= i < N} f i * g (k - i). Two elements are equal when all their coefficients are
    congruent modulo q.  Nothing here models code: it is the vocabulary of the theorems. *)
From Verif Require Import Base Word WordFacts.
From Coq Require Import Ring.

(** ** Finite sums over Z *)
Fixpoint sumz (n : nat) (f : Z -> Z) : Z :=
  match n with O => 0 | S n' => sumz n' f + f (Z.of_nat n') end.

Lemma sumz_ext n f g : (forall i, 0 <= i < Z.of_nat n -> f i = g i) -> sumz n f = sumz n g.
Proof.
  induction n as [|n IH]; intros H; [reflexivity|].
  cbn [sumz]. rewrite IH by (intros; apply H; lia). rewrite H by lia. reflexivity.
Qed.

Lemma sumz_eqm q n f g : (forall i, 0 <= i < Z.of_nat n -> eqm q (f i) (g i)) -> eqm q (sumz n f) (sumz n g).
Proof.
  induction n as [|n IH]; intros H; [reflexivity|].
  cbn [sumz]. rewrite IH by (intros; apply H; lia). rewrite H by lia. reflexivity.
Qed.

Lemma sumz_0 n : sumz n (fun _ => 0) = 0.
Proof. induction n as [|n IH]; [reflexivity|]. cbn [sumz]. lia. Qed.

Lemma sumz_zero n f : (forall i, 0 <= i < Z.of_nat n -> f i = 0) -> sumz n f = 0.
Proof. intros H. rewrite (sumz_ext n f (fun _ => 0)) by assumption. apply sumz_0. Qed.

Lemma sumz_add n f g : sumz n (fun i => f i + g i) = sumz n f + sumz n g.
Proof. induction n as [|n IH]; [reflexivity|]. cbn [sumz]. lia. Qed.

Lemma sumz_sub n f g : sumz n (fun i => f i - g i) = sumz n f - sumz n g.
Proof. induction n as [|n IH]; [reflexivity|]. cbn [sumz]. lia. Qed.

Lemma sumz_opp n f : sumz n (fun i => - f i) = - sumz n f.
Proof. induction n as [|n IH]; [reflexivity|]. cbn [sumz]. lia. Qed.

Lemma sumz_mul_l n c f : sumz n (fun i => c * f i) = c * sumz n f.
Proof. induction n as [|n IH]; [cbn; lia|]. cbn [sumz]. lia. Qed.

Lemma sumz_mul_r n c f : sumz n (fun i => f i * c) = sumz n f * c.
Proof. induction n as [|n IH]; [cbn; lia|]. cbn [sumz]. lia. Qed.

Lemma sumz_swap n m f : sumz n (fun i => sumz m (fun j => f i j)) = sumz m (fun j => sumz n (fun i => f i j)).
Proof.
  induction n as [|n IH]; cbn [sumz]; [rewrite sumz_0; reflexivity|].
  rewrite IH. rewrite <- sumz_add. reflexivity.
Qed.

Lemma sumz_S_l n f : sumz (S n) f = f 0 + sumz n (fun i => f (i + 1)).
Proof.
  induction n as [|n IH]; [cbn; lia|].
  cbn [sumz] in *. rewrite IH. replace (Z.of_nat (S n)) with (Z.of_nat n + 1) by lia. lia.
Qed.

Lemma sumz_rev n f : sumz n (fun i => f (Z.of_nat n - 1 - i)) = sumz n f.
Proof.
  induction n as [|n IH]; [reflexivity|].
  rewrite sumz_S_l. cbn [sumz]. rewrite <- IH.
  replace (Z.of_nat (S n) - 1 - 0) with (Z.of_nat n) by lia.
  rewrite (sumz_ext n (fun i => f (Z.of_nat (S n) - 1 - (i + 1))) (fun i => f (Z.of_nat n - 1 - i)));
    [lia|]. intros i Hi. f_equal. lia.
Qed.

Lemma sumz_app n m f : sumz (n + m) f = sumz n f + sumz m (fun i => f (Z.of_nat n + i)).
Proof.
  induction m as [|m IH]; [cbn; rewrite Nat.add_0_r; lia|].
  rewrite Nat.add_succ_r. cbn [sumz]. rewrite IH.
  replace (Z.of_nat (n + m)) with (Z.of_nat n + Z.of_nat m) by lia. lia.
Qed.

(** Exactly one non-zero term. *)
Lemma sumz_single n f j : 0 <= j < Z.of_nat n ->
  (forall i, 0 <= i < Z.of_nat n -> i <> j -> f i = 0) -> sumz n f = f j.
Proof.
  intros Hj H. induction n as [|n IH]; [lia|]. cbn [sumz].
  destruct (Z.eq_dec j (Z.of_nat n)) as [->|Hne].
  - rewrite sumz_zero; [lia|]. intros i Hi. apply H; lia.
  - rewrite IH, (H (Z.of_nat n)) by (try (intros; apply H); lia). lia.
Qed.

Lemma sumz_abs n f g : (forall i, 0 <= i < Z.of_nat n -> Z.abs (f i) <= g i) ->
  Z.abs (sumz n f) <= sumz n g.
Proof.
  induction n as [|n IH]; intros H; [reflexivity|]. cbn [sumz].
  pose proof (IH ltac:(intros; apply H; lia)). pose proof (H (Z.of_nat n) ltac:(lia)). lia.
Qed.

Lemma sumz_le n f g : (forall i, 0 <= i < Z.of_nat n -> f i <= g i) -> sumz n f <= sumz n g.
Proof.
  induction n as [|n IH]; intros H; [reflexivity|]. cbn [sumz].
  pose proof (IH ltac:(intros; apply H; lia)). pose proof (H (Z.of_nat n) ltac:(lia)). lia.
Qed.

Lemma sumz_const n c : sumz n (fun _ => c) = Z.of_nat n * c.
Proof. induction n as [|n IH]; [reflexivity|]. cbn [sumz]. lia. Qed.

(** A full period can be summed from anywhere. *)
Lemma sumz_window_step n f a : (forall k, f (k + Z.of_nat n) = f k) ->
  sumz n (fun i => f (a + 1 + i)) = sumz n (fun i => f (a + i)).
Proof.
  intros Hp. destruct n as [|n]; [reflexivity|].
  rewrite (sumz_S_l n (fun i => f (a + i))). cbn [sumz].
  replace (a + 1 + Z.of_nat n) with (a + Z.of_nat (S n)) by lia.
  rewrite Hp. rewrite (sumz_ext n (fun i => f (a + 1 + i)) (fun i => f (a + (i + 1)))).
  - replace (a + 0) with a by lia. lia.
  - intros. f_equal. lia.
Qed.

Lemma sumz_window n f a : (forall k, f (k + Z.of_nat n) = f k) ->
  sumz n (fun i => f (a + i)) = sumz n f.
Proof.
  intros Hp.
  assert (Hpos : forall m b, sumz n (fun i => f (b + Z.of_nat m + i)) = sumz n (fun i => f (b + i))).
  { induction m as [|m IH]; intros b.
    - apply sumz_ext. intros. f_equal. lia.
    - rewrite <- (IH b), <- (sumz_window_step n f (b + Z.of_nat m)) by assumption.
      apply sumz_ext. intros. f_equal. lia. }
  destruct (Z.le_ge_cases 0 a) as [H|H].
  - pose proof (Hpos (Z.to_nat a) 0) as E.
    rewrite (sumz_ext n (fun i => f (a + i)) (fun i => f (0 + Z.of_nat (Z.to_nat a) + i)))
      by (intros; f_equal; lia). rewrite E. apply sumz_ext. intros. f_equal.
  - pose proof (Hpos (Z.to_nat (- a)) a) as E. rewrite <- E.
    apply sumz_ext. intros. f_equal. lia.
Qed.

(** ** Ring elements *)
Definition anti (N : nat) (f : Z -> Z) : Prop := forall k, f (k + Z.of_nat N) = - f k.

Definition rp (N : nat) : Type := { f : Z -> Z | anti N f }.
Definition rcoef {N} (x : rp N) (k : Z) : Z := proj1_sig x k.

(** Equality modulo q. *)
Definition req {N} (q : Z) (x y : rp N) : Prop := forall k, eqm q (rcoef x k) (rcoef y k).

Program Definition rzero N : rp N := fun _ => 0.
Next Obligation. intros k. reflexivity. Qed.
Program Definition radd {N} (x y : rp N) : rp N := fun k => rcoef x k + rcoef y k.
Next Obligation. intros k. destruct x as [f Hf], y as [g Hg]. cbn. rewrite Hf, Hg. lia. Qed.
Program Definition rsub {N} (x y : rp N) : rp N := fun k => rcoef x k - rcoef y k.
Next Obligation. intros k. destruct x as [f Hf], y as [g Hg]. cbn. rewrite Hf, Hg. lia. Qed.
Program Definition ropp {N} (x : rp N) : rp N := fun k => - rcoef x k.
Next Obligation. intros k. destruct x as [f Hf]. cbn. rewrite Hf. lia. Qed.
Program Definition rscal {N} (c : Z) (x : rp N) : rp N := fun k => c * rcoef x k.
Next Obligation. intros k. destruct x as [f Hf]. cbn. rewrite Hf. lia. Qed.
(** Negacyclic product *)
Program Definition rmul {N} (x y : rp N) : rp N := fun k => sumz N (fun i => rcoef x i * rcoef y (k - i)).
Next Obligation.
  intros k. destruct x as [f Hf], y as [g Hg]. cbn. rewrite <- sumz_opp. apply sumz_ext. intros i _.
  replace (k + Z.of_nat N - i) with (k - i + Z.of_nat N) by lia. rewrite Hg. lia.
Qed.
(** Product with X^d, d any integer. *)
Program Definition rshift {N} (d : Z) (x : rp N) : rp N := fun k => rcoef x (k - d).
Next Obligation.
  intros k. destruct x as [f Hf]. cbn. replace (k + Z.of_nat N - d) with (k - d + Z.of_nat N) by lia. apply Hf.
Qed.

(** ** Polynomials given by their list of coefficients *)
Definition coef (p : list Z) (i : Z) : Z := nth (Z.to_nat i) p 0.

(** The coefficient function extended by X^N = -1. *)
Definition ext (N : nat) (p : list Z) (k : Z) : Z :=
  match N with
  | O => 0
  | _ => if Z.even (k / Z.of_nat N) then coef p (k mod Z.of_nat N) else - coef p (k mod Z.of_nat N)
  end.

Lemma ext_anti N p : anti N (ext N p).
Proof.
  intros k. unfold ext. destruct N as [|N]; [reflexivity|].
  replace (k + Z.of_nat (S N)) with (k + 1 * Z.of_nat (S N)) by lia.
  rewrite Z.div_add, Z_mod_plus_full by lia. rewrite Z.even_add. cbn [Z.even].
  destruct (Z.even (k / Z.of_nat (S N))); cbn; lia.
Qed.

Definition R (N : nat) (p : list Z) : rp N := exist _ (ext N p) (ext_anti N p).

Lemma ext_small N p k : 0 <= k < Z.of_nat N -> ext N p k = coef p k.
Proof.
  intros H. unfold ext. destruct N; [lia|]. rewrite Z.div_small, Z.mod_small by lia. reflexivity.
Qed.

Lemma rcoef_R N p k : 0 <= k < Z.of_nat N -> rcoef (R N p) k = coef p k.
Proof. apply ext_small. Qed.

Definition rconst N (c : Z) : rp N := R N [c].
Definition rone N : rp N := rconst N 1.
Definition rmono N (d : Z) : rp N := rshift d (rone N).

Lemma rcoef_anti {N} (x : rp N) k : rcoef x (k + Z.of_nat N) = - rcoef x k.
Proof. destruct x as [f Hf]. apply Hf. Qed.

Lemma rcoef_periods {N} (x : rp N) m k :
  rcoef x (k + m * Z.of_nat N) = if Z.even m then rcoef x k else - rcoef x k.
Proof.
  assert (H : forall m k, rcoef x (k + Z.of_nat m * Z.of_nat N) = if Z.even (Z.of_nat m) then rcoef x k else - rcoef x k).
  { induction m0 as [|m0 IH]; intros k0; [cbn; f_equal; lia|].
    replace (k0 + Z.of_nat (S m0) * Z.of_nat N) with (k0 + Z.of_nat m0 * Z.of_nat N + Z.of_nat N) by lia.
    rewrite rcoef_anti, IH. rewrite Nat2Z.inj_succ, Z.even_succ, <- Z.negb_even.
    destruct (Z.even (Z.of_nat m0)); cbn; lia. }
  destruct (Z.le_ge_cases 0 m).
  - pose proof (H (Z.to_nat m) k) as E. rewrite Z2Nat.id in E by lia. exact E.
  - pose proof (H (Z.to_nat (- m)) (k + m * Z.of_nat N)) as E.
    replace (k + m * Z.of_nat N + Z.of_nat (Z.to_nat (- m)) * Z.of_nat N) with k in E by lia.
    rewrite Z2Nat.id, Z.even_opp in E by lia. destruct (Z.even m); lia.
Qed.

(** Equality is decided by the coefficients of degree 0..N-1. *)
Lemma req_coefs {N} q (x y : rp N) :
  (forall k, 0 <= k < Z.of_nat N -> eqm q (rcoef x k) (rcoef y k)) -> req q x y.
Proof.
  intros H k. destruct N as [|N].
  - assert (forall z : rp 0, rcoef z k = 0) as Hz.
    { intros z. pose proof (rcoef_anti z k) as E. replace (k + Z.of_nat 0) with k in E by lia. lia. }
    rewrite !Hz. reflexivity.
  - rewrite (Z.div_mod k (Z.of_nat (S N))) by lia.
    rewrite Z.add_comm, Z.mul_comm, !rcoef_periods.
    assert (H0 : eqm q (rcoef x (k mod Z.of_nat (S N))) (rcoef y (k mod Z.of_nat (S N)))).
    { apply H. apply Z.mod_pos_bound. lia. }
    destruct (Z.even _); rewrite H0; reflexivity.
Qed.

(** [ext] is the only extension. *)
Lemma R_coefs {N} (x : rp N) p q :
  (forall k, 0 <= k < Z.of_nat N -> eqm q (rcoef x k) (coef p k)) -> req q x (R N p).
Proof. intros H. apply req_coefs. intros k Hk. rewrite rcoef_R by assumption. auto. Qed.

(** ** Ring laws *)
Global Instance req_equiv N q : Equivalence (@req N q).
Proof.
  split.
  - intros x k. reflexivity.
  - intros x y H k. symmetry. apply H.
  - intros x y z H1 H2 k. transitivity (rcoef y k); auto.
Qed.

Global Instance radd_proper N q : Proper (req q ==> req q ==> req q) (@radd N).
Proof. intros x x' Hx y y' Hy k. cbn. rewrite (Hx k), (Hy k). reflexivity. Qed.
Global Instance rsub_proper N q : Proper (req q ==> req q ==> req q) (@rsub N).
Proof. intros x x' Hx y y' Hy k. cbn. rewrite (Hx k), (Hy k). reflexivity. Qed.
Global Instance ropp_proper N q : Proper (req q ==> req q) (@ropp N).
Proof. intros x x' Hx k. cbn. rewrite (Hx k). reflexivity. Qed.
Global Instance rmul_proper N q : Proper (req q ==> req q ==> req q) (@rmul N).
Proof.
  intros x x' Hx y y' Hy k. cbn. apply sumz_eqm. intros i _. rewrite (Hx i), (Hy (k - i)). reflexivity.
Qed.
Global Instance rscal_proper N q : Proper (eqm q ==> req q ==> req q) (@rscal N).
Proof. intros c c' Hc x x' Hx k. cbn. rewrite Hc, (Hx k). reflexivity. Qed.
Global Instance rshift_proper N q d : Proper (req q ==> req q) (@rshift N d).
Proof. intros x x' Hx k. cbn. apply (Hx (k - d)). Qed.

Section Laws.
Context {N : nat} (q : Z).
Implicit Types x y z : rp N.

Lemma radd_comm x y : req q (radd x y) (radd y x).
Proof. intros k. cbn. apply eqm_eq. lia. Qed.
Lemma radd_assoc x y z : req q (radd x (radd y z)) (radd (radd x y) z).
Proof. intros k. cbn. apply eqm_eq. lia. Qed.
Lemma radd_0_l x : req q (radd (rzero N) x) x.
Proof. intros k. cbn. apply eqm_eq. reflexivity. Qed.
Lemma radd_opp_r x : req q (radd x (ropp x)) (rzero N).
Proof. intros k. cbn. apply eqm_eq. lia. Qed.
Lemma rsub_def x y : req q (rsub x y) (radd x (ropp y)).
Proof. intros k. cbn. apply eqm_eq. lia. Qed.

Lemma rmul_comm x y : req q (rmul x y) (rmul y x).
Proof.
  intros k. cbn. apply eqm_eq.
  set (h := fun i => rcoef x i * rcoef y (k - i)).
  assert (Hp : forall i, h (i + Z.of_nat N) = h i).
  { intros i. unfold h. rewrite rcoef_anti.
    pose proof (rcoef_anti y (k - (i + Z.of_nat N))) as E.
    replace (k - (i + Z.of_nat N) + Z.of_nat N) with (k - i) in E by lia. rewrite E. lia. }
  rewrite (sumz_ext N (fun i => rcoef y i * rcoef x (k - i)) (fun i => h (k - i))).
  2: { intros i _. unfold h. replace (k - (k - i)) with i by lia. lia. }
  rewrite <- (sumz_rev N (fun i => h (k - i))).
  rewrite (sumz_ext N (fun i => h (k - (Z.of_nat N - 1 - i))) (fun i => h (k - Z.of_nat N + 1 + i))).
  2: { intros i _. f_equal. lia. }
  rewrite sumz_window by exact Hp. reflexivity.
Qed.

Lemma rmul_assoc x y z : req q (rmul x (rmul y z)) (rmul (rmul x y) z).
Proof.
  intros k. cbn. apply eqm_eq. symmetry.
  rewrite (sumz_ext N _ (fun i => sumz N (fun j => rcoef x j * (rcoef y (i - j) * rcoef z (k - i))))).
  2: { intros i _. rewrite <- sumz_mul_r. apply sumz_ext. intros. lia. }
  rewrite sumz_swap. apply sumz_ext. intros j _. rewrite sumz_mul_l. f_equal.
  set (h := fun i => rcoef y (i - j) * rcoef z (k - i)).
  assert (Hp : forall i, h (i + Z.of_nat N) = h i).
  { intros i. unfold h. replace (i + Z.of_nat N - j) with (i - j + Z.of_nat N) by lia. rewrite rcoef_anti.
    pose proof (rcoef_anti z (k - (i + Z.of_nat N))) as E.
    replace (k - (i + Z.of_nat N) + Z.of_nat N) with (k - i) in E by lia. rewrite E. lia. }
  change (sumz N h = sumz N (fun i => rcoef y i * rcoef z (k - j - i))).
  rewrite <- (sumz_window N h j Hp). apply sumz_ext. intros i _. unfold h. f_equal; f_equal; lia.
Qed.

Lemma rmul_add_l x y z : req q (rmul (radd x y) z) (radd (rmul x z) (rmul y z)).
Proof.
  intros k. cbn. apply eqm_eq. rewrite <- sumz_add. apply sumz_ext. intros. ring.
Qed.

Lemma rcoef_rconst c k : 0 <= k < Z.of_nat N -> rcoef (rconst N c) k = if k =? 0 then c else 0.
Proof.
  intros Hk. unfold rconst. rewrite rcoef_R by assumption. unfold coef.
  destruct (Z.eqb_spec k 0) as [->|Hne]; [reflexivity|].
  destruct (Z.to_nat k) as [|[|n]] eqn:E; [lia|reflexivity|reflexivity].
Qed.

Lemma rmul_const c x : req q (rmul (rconst N c) x) (rscal c x).
Proof.
  apply req_coefs. intros k Hk. cbn [rmul rscal rcoef proj1_sig]. apply eqm_eq.
  rewrite (sumz_single N _ 0).
  - change (rcoef (rconst N c) 0 * rcoef x (k - 0) = c * rcoef x k).
    rewrite rcoef_rconst by lia. rewrite Z.sub_0_r. reflexivity.
  - lia.
  - intros i Hi Hne. rewrite rcoef_rconst by assumption.
    destruct (Z.eqb_spec i 0); [lia|]. reflexivity.
Qed.

Lemma rmul_1_l x : req q (rmul (rone N) x) x.
Proof. unfold rone. rewrite rmul_const. intros k. apply eqm_eq. apply Z.mul_1_l. Qed.

Lemma rp_ring_theory : ring_theory (rzero N) (rone N) radd rmul rsub ropp (req q).
Proof.
  constructor.
  - apply radd_0_l.
  - apply radd_comm.
  - apply radd_assoc.
  - apply rmul_1_l.
  - apply rmul_comm.
  - apply rmul_assoc.
  - apply rmul_add_l.
  - apply rsub_def.
  - apply radd_opp_r.
Qed.

Lemma rp_ring_ext : ring_eq_ext radd rmul ropp (req (N := N) q).
Proof. constructor; [apply radd_proper|apply rmul_proper|apply ropp_proper]. Qed.

(** Scalars *)
Lemma rscal_add_l c d x : req q (rscal (c + d) x) (radd (rscal c x) (rscal d x)).
Proof. intros k. cbn. apply eqm_eq. ring. Qed.
Lemma rscal_add_r c x y : req q (rscal c (radd x y)) (radd (rscal c x) (rscal c y)).
Proof. intros k. cbn. apply eqm_eq. ring. Qed.
Lemma rscal_sub_r c x y : req q (rscal c (rsub x y)) (rsub (rscal c x) (rscal c y)).
Proof. intros k. cbn. apply eqm_eq. ring. Qed.
Lemma rscal_mul c d x : req q (rscal c (rscal d x)) (rscal (c * d) x).
Proof. intros k. cbn. apply eqm_eq. ring. Qed.
Lemma rscal_rmul_l c x y : req q (rmul (rscal c x) y) (rscal c (rmul x y)).
Proof. intros k. cbn. apply eqm_eq. rewrite <- sumz_mul_l. apply sumz_ext. intros. ring. Qed.
Lemma rscal_rmul_r c x y : req q (rmul x (rscal c y)) (rscal c (rmul x y)).
Proof. intros k. cbn. apply eqm_eq. rewrite <- sumz_mul_l. apply sumz_ext. intros. ring. Qed.
Lemma rscal_1 x : req q (rscal 1 x) x.
Proof. intros k. apply eqm_eq. apply Z.mul_1_l. Qed.
Lemma rscal_0 x : req q (rscal 0 x) (rzero N).
Proof. intros k. cbn. reflexivity. Qed.
Lemma rscal_opp c x : req q (rscal (- c) x) (ropp (rscal c x)).
Proof. intros k. cbn. apply eqm_eq. ring. Qed.

(** Monomials *)
Lemma rshift_0 x : req q (rshift 0 x) x.
Proof. intros k. cbn. apply eqm_eq. f_equal. lia. Qed.
Lemma rshift_add d e x : req q (rshift d (rshift e x)) (rshift (d + e) x).
Proof. intros k. cbn. apply eqm_eq. f_equal. lia. Qed.
Lemma rshift_N x : req q (rshift (Z.of_nat N) x) (ropp x).
Proof.
  intros k. cbn. apply eqm_eq. pose proof (rcoef_anti x (k - Z.of_nat N)) as E.
  replace (k - Z.of_nat N + Z.of_nat N) with k in E by lia. lia.
Qed.
Lemma rshift_radd d x y : req q (rshift d (radd x y)) (radd (rshift d x) (rshift d y)).
Proof. intros k. reflexivity. Qed.
Lemma rshift_rsub d x y : req q (rshift d (rsub x y)) (rsub (rshift d x) (rshift d y)).
Proof. intros k. reflexivity. Qed.
Lemma rshift_rmul_r d x y : req q (rmul x (rshift d y)) (rshift d (rmul x y)).
Proof. intros k. cbn. apply eqm_eq. apply sumz_ext. intros. do 2 f_equal. lia. Qed.
Lemma rshift_rmul_l d x y : req q (rmul (rshift d x) y) (rshift d (rmul x y)).
Proof. rewrite rmul_comm, rshift_rmul_r, (rmul_comm y x). reflexivity. Qed.
Lemma rshift_periods d m x : req q (rshift (d + 2 * Z.of_nat N * m) x) (rshift d x).
Proof.
  intros k. apply eqm_eq. change (rcoef x (k - (d + 2 * Z.of_nat N * m)) = rcoef x (k - d)).
  replace (k - (d + 2 * Z.of_nat N * m)) with (k - d + (- (2 * m)) * Z.of_nat N) by lia.
  rewrite rcoef_periods. rewrite Z.even_opp, Z.even_mul. reflexivity.
Qed.
Lemma rshift_mod d e x : d mod (2 * Z.of_nat N) = e mod (2 * Z.of_nat N) -> req q (rshift d x) (rshift e x).
Proof.
  intros H. change (eqm (2 * Z.of_nat N) d e) in H. apply eqm_divide in H. destruct H as [m Hm].
  replace d with (e + 2 * Z.of_nat N * m) by lia. apply rshift_periods.
Qed.
Lemma rmono_mul d x : req q (rmul (rmono N d) x) (rshift d x).
Proof. unfold rmono. rewrite rshift_rmul_l, rmul_1_l. reflexivity. Qed.
End Laws.

(** ** List operations seen in the ring *)
Lemma coef_map2 f p r k : f 0 0 = 0 -> length p = length r ->
  coef (map2 f p r) k = f (coef p k) (coef r k).
Proof.
  intros H0 Hl. unfold coef. revert r Hl. generalize (Z.to_nat k) as n. clear k.
  induction n as [|n IH] in p |- *; intros [|b r] Hl; destruct p as [|a p]; try discriminate; cbn; auto.
Qed.

Lemma coef_map f p k : f 0 = 0 -> coef (map f p) k = f (coef p k).
Proof.
  intros H0. unfold coef. rewrite <- H0 at 1. rewrite map_nth. reflexivity.
Qed.

Lemma R_add N q f p r : length p = length r -> f 0 0 = 0 -> (forall a b, eqm q (f a b) (a + b)) ->
  req q (R N (map2 f p r)) (radd (R N p) (R N r)).
Proof.
  intros Hl H0 Hf. apply req_coefs. intros k Hk. cbn [radd rcoef proj1_sig].
  change (eqm q (rcoef (R N (map2 f p r)) k) (rcoef (R N p) k + rcoef (R N r) k)).
  rewrite !rcoef_R by assumption. rewrite coef_map2 by assumption. apply Hf.
Qed.

Lemma R_sub N q f p r : length p = length r -> f 0 0 = 0 -> (forall a b, eqm q (f a b) (a - b)) ->
  req q (R N (map2 f p r)) (rsub (R N p) (R N r)).
Proof.
  intros Hl H0 Hf. apply req_coefs. intros k Hk.
  change (eqm q (rcoef (R N (map2 f p r)) k) (rcoef (R N p) k - rcoef (R N r) k)).
  rewrite !rcoef_R by assumption. rewrite coef_map2 by assumption. apply Hf.
Qed.

Lemma R_opp N q f p : f 0 = 0 -> (forall a, eqm q (f a) (- a)) ->
  req q (R N (map f p)) (ropp (R N p)).
Proof.
  intros H0 Hf. apply req_coefs. intros k Hk.
  change (eqm q (rcoef (R N (map f p)) k) (- rcoef (R N p) k)).
  rewrite !rcoef_R by assumption. rewrite coef_map by assumption. apply Hf.
Qed.

Lemma R_scal N q f c p : f 0 = 0 -> (forall a, eqm q (f a) (c * a)) ->
  req q (R N (map f p)) (rscal c (R N p)).
Proof.
  intros H0 Hf. apply req_coefs. intros k Hk.
  change (eqm q (rcoef (R N (map f p)) k) (c * rcoef (R N p) k)).
  rewrite !rcoef_R by assumption. rewrite coef_map by assumption. apply Hf.
Qed.

Lemma coef_repeat0 n k : coef (repeat 0 n) k = 0.
Proof. unfold coef. generalize (Z.to_nat k). induction n as [|n IH]; intros [|m]; cbn; auto. Qed.

Lemma R_zero N q n : req q (R N (repeat 0 n)) (rzero N).
Proof.
  apply req_coefs. intros k Hk. rewrite rcoef_R by assumption. rewrite coef_repeat0. reflexivity.
Qed.

Lemma coef_ext_list p r n : length p = n -> length r = n ->
  (forall k, 0 <= k < Z.of_nat n -> coef p k = coef r k) -> p = r.
Proof.
  intros Hp Hr H. apply nth_ext with (d := 0) (d' := 0); [congruence|].
  intros i Hi. specialize (H (Z.of_nat i)). unfold coef in H. rewrite Nat2Z.id in H. apply H. lia.
Qed.

Lemma coef_in p k : 0 <= k < Z.of_nat (length p) -> In (coef p k) p.
Proof. intros H. unfold coef. apply nth_In. lia. Qed.

(** Word-valued lists with congruent images are equal. *)
Lemma R_inj N w p r : length p = N -> length r = N -> Forall (is_word w) p -> Forall (is_word w) r ->
  req (2 ^ w) (R N p) (R N r) -> p = r.
Proof.
  intros Hp Hr Wp Wr H. apply (coef_ext_list p r N); auto. intros k Hk.
  specialize (H k). rewrite !rcoef_R in H by assumption. rewrite Forall_forall in Wp, Wr.
  apply eqm_small in H; auto.
  - apply Wp, coef_in. lia.
  - apply Wr, coef_in. lia.
Qed.
