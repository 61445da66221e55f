(** * Dispersions, linear combinations and products of keys *)
From Verif Require Import Base NegaRing PolySpec NoiseSpec NoiseFacts NoiseModel.
From Coq Require Import Reals Lra Lia.
Local Open Scope R_scope.

(** ** Dispersions *)
Lemma ln2_pos : 0 < ln 2.
Proof. rewrite <- ln_1. apply ln_increasing; lra. Qed.
Lemma powf2_log2 x : 0 < x -> powf2 (log2 x) = x.
Proof.
  intros H. unfold powf2, log2, Rpower. replace (ln x / ln 2 * ln 2) with (ln x) by (field; pose proof ln2_pos; lra). apply exp_ln. assumption.
Qed.
Lemma log2_powf2 x : log2 (powf2 x) = x.
Proof. unfold powf2, log2, Rpower. rewrite ln_exp. field. pose proof ln2_pos. lra. Qed.
Lemma powf2_plus x y : powf2 (x + y) = powf2 x * powf2 y.
Proof. apply Rpower_plus. Qed.
Lemma powf2_pos x : 0 < powf2 x.
Proof. apply exp_pos. Qed.
Lemma powf2_twice x : powf2 (2 * x) = powf2 x ^ 2.
Proof. replace (2 * x) with (x + x) by ring. rewrite powf2_plus. ring. Qed.
Lemma powf2_IZR z : powf2 (IZR z) = powi2 z.
Proof. unfold powf2, powi2. symmetry. apply powerRZ_Rpower. lra. Qed.
Lemma powi2_pos z : 0 < powi2 z.
Proof. apply powerRZ_lt. lra. Qed.
Lemma powi2_twice z : powi2 (2 * z) = powi2 z ^ 2.
Proof. rewrite <- !powf2_IZR, mult_IZR. apply powf2_twice. Qed.
Lemma powi2_plus y z : powi2 (y + z) = powi2 y * powi2 z.
Proof. apply powerRZ_add. lra. Qed.
Lemma powi2_Z z : (0 <= z)%Z -> powi2 z = IZR (2 ^ z).
Proof.
  intros H. unfold powi2. rewrite <- (Z2Nat.id z H). generalize (Z.to_nat z). intros n. rewrite <- pow_powerRZ. rewrite pow_IZR. reflexivity.
Qed.

(** A dispersion that is one: a negative number is no variance and no standard deviation. *)
Definition valid (d : dispersion) : Prop := match d with LogStandardDev _ => True | StandardDev x | Variance x => 0 <= x end.
Lemma modular_variance_eq d l : valid d -> get_modular_variance d l = get_variance d * powi2 l ^ 2.
Proof.
  rewrite <- powf2_IZR. destruct d as [x|x|x]; cbn [valid get_modular_variance get_variance]; intros H.
  - replace ((IZR l + x) * 2) with (2 * IZR l + x * 2) by ring. rewrite powf2_plus, powf2_twice. ring.
  - destruct (Req_EM_T x 0) as [->|Hx]; [ring|]. rewrite powf2_twice, powf2_plus, powf2_log2 by lra. ring.
  - destruct (Req_EM_T x 0) as [->|Hx]; [ring|]. rewrite powf2_twice, powf2_plus, powf2_log2 by (apply sqrt_lt_R0; lra).
    rewrite Rpow_mult_distr, pow2_sqrt by assumption. ring.
Qed.
Lemma from_modular_variance_eq v l : from_modular_variance v l = Variance (v / powi2 l ^ 2).
Proof. unfold from_modular_variance. rewrite Rmult_comm, powf2_twice, powf2_IZR. reflexivity. Qed.
Lemma valid_from v l : 0 <= v -> valid (from_modular_variance v l).
Proof. intros H. rewrite from_modular_variance_eq. cbn [valid]. pose proof (powi2_pos l). apply Rmult_le_pos; [assumption|]. left. apply Rinv_0_lt_compat, pow_lt. assumption. Qed.
Lemma modular_from v l : 0 <= v -> get_modular_variance (from_modular_variance v l) l = v.
Proof.
  intros H. rewrite modular_variance_eq by (apply valid_from; assumption). rewrite from_modular_variance_eq. cbn [get_variance].
  pose proof (powi2_pos l). field. lra.
Qed.
Lemma valid_modular_nonneg d l : valid d -> 0 <= get_modular_variance d l.
Proof.
  intros H. rewrite modular_variance_eq by assumption. apply Rmult_le_pos; [|apply pow2_ge_0].
  destruct d; cbn in *; [left; apply powf2_pos|apply pow2_ge_0|assumption].
Qed.

(** ** Moments of a distribution of integers *)
Definition moment (e : nat) (D : list Z) : R := mean D (fun x => IZR x ^ e).
Lemma moment_0 D : D <> [] -> moment 0 D = 1.
Proof. intros H. unfold moment. cbn [pow]. apply mean_const. assumption. Qed.
Lemma zvariance_moments D : D <> [] -> zvariance D = moment 2 D - zmean D ^ 2.
Proof. intros H. unfold zvariance. rewrite variance_moments by assumption. reflexivity. Qed.
Lemma moment_1 D : moment 1 D = zmean D.
Proof. unfold moment, zmean. apply mean_ext. intros. ring. Qed.

Definition coord (s : list Z) (i : nat) : R := IZR (nth i s 0%Z).
Lemma mean_mono D n c : mean (samples n D) (fun s => rprod n (fun i => coord s i ^ c i)) = rprod n (fun i => moment (c i) D).
Proof. apply (mean_rprod D 0%Z n (fun i x => IZR x ^ c i)). Qed.
Definition delta (i t : nat) : nat := if Nat.eqb t i then 1%nat else 0%nat.
Lemma delta_same i : delta i i = 1%nat.
Proof. unfold delta. rewrite Nat.eqb_refl. reflexivity. Qed.
Lemma delta_other i t : t <> i -> delta i t = 0%nat.
Proof. intros H. unfold delta. apply Nat.eqb_neq in H. rewrite H. reflexivity. Qed.
Lemma rprod_delta n (x : nat -> R) i : (i < n)%nat -> rprod n (fun t => x t ^ delta i t) = x i.
Proof.
  intros H. rewrite (rprod_single n _ i H); [rewrite delta_same; ring|]. intros t _ Ht. rewrite delta_other by assumption. reflexivity.
Qed.
Lemma mono2 n (x : nat -> R) i j : (i < n)%nat -> (j < n)%nat -> x i * x j = rprod n (fun t => x t ^ (delta i t + delta j t)).
Proof.
  intros Hi Hj. rewrite <- (rprod_delta n x i Hi), <- (rprod_delta n x j Hj) at 1. rewrite <- rprod_mul. apply rprod_ext. intros t _. rewrite pow_add. reflexivity.
Qed.
Lemma mono4 n (x : nat -> R) i j k l : (i < n)%nat -> (j < n)%nat -> (k < n)%nat -> (l < n)%nat ->
  x i * x j * (x k * x l) = rprod n (fun t => x t ^ (delta i t + delta j t + (delta k t + delta l t))).
Proof.
  intros. rewrite (mono2 n x i j), (mono2 n x k l) by assumption. rewrite <- rprod_mul. apply rprod_ext. intros t _. symmetry. apply pow_add.
Qed.

Section Moments.
Context (D : list Z) (HD : D <> []) (n : nat).
Notation m e := (moment e D).
Lemma E1 i : (i < n)%nat -> mean (samples n D) (fun s => coord s i) = m 1.
Proof.
  intros Hi. rewrite (mean_ext _ _ (fun s => rprod n (fun t => coord s t ^ delta i t))) by (intros; symmetry; apply rprod_delta; assumption).
  rewrite mean_mono. rewrite (rprod_single n _ i Hi); [rewrite delta_same; reflexivity|]. intros t _ Ht. rewrite delta_other by assumption. apply moment_0. assumption.
Qed.
Lemma E2 i j : (i < n)%nat -> (j < n)%nat -> mean (samples n D) (fun s => coord s i * coord s j) = if Nat.eqb i j then m 2 else m 1 ^ 2.
Proof.
  intros Hi Hj. rewrite (mean_ext _ _ (fun s => rprod n (fun t => coord s t ^ (delta i t + delta j t)))) by (intros; apply mono2; assumption).
  rewrite mean_mono. destruct (Nat.eqb_spec i j) as [<-|Hij].
  - rewrite (rprod_single n _ i Hi); [rewrite delta_same; reflexivity|]. intros t _ Ht. rewrite delta_other by assumption. apply moment_0. assumption.
  - rewrite (rprod_ext n _ (fun t => m (delta i t) * m (delta j t))).
    + rewrite rprod_mul. rewrite (rprod_single n (fun t => m (delta i t)) i Hi), (rprod_single n (fun t => m (delta j t)) j Hj);
        [rewrite !delta_same; ring| |]; intros t _ Ht; rewrite delta_other by assumption; apply moment_0; assumption.
    + intros t _. destruct (Nat.eq_dec t i) as [->|Hti].
      * rewrite (delta_other j i) by assumption. rewrite Nat.add_0_r, moment_0 by assumption. ring.
      * rewrite (delta_other i t) by assumption. rewrite moment_0 by assumption. cbn [Nat.add]. ring.
Qed.
(** Two products of two coordinates without a common coordinate are independent. *)
Lemma E4_disjoint i j k l : (i < n)%nat -> (j < n)%nat -> (k < n)%nat -> (l < n)%nat -> i <> k -> i <> l -> j <> k -> j <> l ->
  mean (samples n D) (fun s => coord s i * coord s j * (coord s k * coord s l))
  = mean (samples n D) (fun s => coord s i * coord s j) * mean (samples n D) (fun s => coord s k * coord s l).
Proof.
  intros Hi Hj Hk Hl H1 H2 H3 H4.
  rewrite (mean_ext _ _ (fun s => rprod n (fun t => coord s t ^ (delta i t + delta j t + (delta k t + delta l t))))) by (intros; apply mono4; assumption).
  rewrite (mean_ext _ (fun s => coord s i * coord s j) (fun s => rprod n (fun t => coord s t ^ (delta i t + delta j t)))) by (intros; apply mono2; assumption).
  rewrite (mean_ext _ (fun s => coord s k * coord s l) (fun s => rprod n (fun t => coord s t ^ (delta k t + delta l t)))) by (intros; apply mono2; assumption).
  rewrite !mean_mono, <- rprod_mul. apply rprod_ext. intros t _.
  destruct (Nat.eq_dec t i) as [->|Hti]; [|destruct (Nat.eq_dec t j) as [->|Htj]].
  - rewrite (delta_other k i), (delta_other l i) by assumption. change (0 + 0)%nat with 0%nat. rewrite Nat.add_0_r, (moment_0 D HD). ring.
  - rewrite (delta_other k j), (delta_other l j) by assumption. change (0 + 0)%nat with 0%nat. rewrite Nat.add_0_r, (moment_0 D HD). ring.
  - rewrite (delta_other i t), (delta_other j t) by assumption. change (0 + 0)%nat with 0%nat. rewrite (moment_0 D HD). cbn [Nat.add]. ring.
Qed.
Lemma E4_square i j : (i < n)%nat -> (j < n)%nat ->
  mean (samples n D) (fun s => coord s i * coord s j * (coord s i * coord s j)) = if Nat.eqb i j then m 4 else m 2 ^ 2.
Proof.
  intros Hi Hj. rewrite (mean_ext _ _ (fun s => rprod n (fun t => coord s t ^ (delta i t + delta j t + (delta i t + delta j t))))) by (intros; apply mono4; assumption).
  rewrite mean_mono. destruct (Nat.eqb_spec i j) as [<-|Hij].
  - rewrite (rprod_single n _ i Hi); [rewrite delta_same; reflexivity|]. intros t _ Ht. rewrite delta_other by assumption. apply moment_0. assumption.
  - rewrite (rprod_ext n _ (fun t => m (delta i t + delta i t) * m (delta j t + delta j t))).
    + rewrite rprod_mul. rewrite (rprod_single n (fun t => m (delta i t + delta i t)) i Hi), (rprod_single n (fun t => m (delta j t + delta j t)) j Hj);
        [rewrite !delta_same; cbn [Nat.add]; ring| |]; intros t _ Ht; rewrite delta_other by assumption; apply moment_0; assumption.
    + intros t _. destruct (Nat.eq_dec t i) as [->|Hti].
      * rewrite (delta_other j i) by assumption. change (0 + 0)%nat with 0%nat. rewrite !Nat.add_0_r, moment_0 by assumption. ring.
      * rewrite (delta_other i t) by assumption. change (0 + 0)%nat with 0%nat. rewrite moment_0 by assumption. cbn [Nat.add]. ring.
Qed.

(** ** A linear combination of distinct coordinates *)
Lemma linear_combination N (c : nat -> R) (pi : nat -> nat) : (forall i, (i < N)%nat -> (pi i < n)%nat) ->
  (forall i j, (i < N)%nat -> (j < N)%nat -> pi i = pi j -> i = j) ->
  mean (samples n D) (fun s => nsum N (fun i => c i * coord s (pi i))) = m 1 * nsum N c /\
  variance (samples n D) (fun s => nsum N (fun i => c i * coord s (pi i))) = (m 2 - m 1 ^ 2) * nsum N (fun i => c i ^ 2).
Proof.
  intros Hr Hinj. assert (Em : mean (samples n D) (fun s => nsum N (fun i => c i * coord s (pi i))) = m 1 * nsum N c).
  { unfold nsum. rewrite mean_sum. rewrite <- rsum_scal. apply rsum_ext. intros i Hi. apply in_seq in Hi. rewrite mean_scal, E1 by (apply Hr; lia). ring. }
  split; [exact Em|]. rewrite variance_moments by (apply samples_nil; assumption). rewrite Em.
  rewrite (mean_ext _ _ (fun s => nsum N (fun i => nsum N (fun j => c i * c j * (coord s (pi i) * coord s (pi j))))))
    by (intros; rewrite nsum_sq; apply nsum_ext; intros; apply nsum_ext; intros; ring).
  unfold nsum at 1. rewrite mean_sum.
  rewrite (rsum_ext _ _ (fun i => c i ^ 2 * (m 2 - m 1 ^ 2) + m 1 ^ 2 * nsum N c * c i)).
  - rewrite rsum_add, rsum_scal. fold (nsum N c).
    rewrite (rsum_ext _ (fun a => c a ^ 2 * (m 2 - m 1 ^ 2)) (fun a => (m 2 - m 1 ^ 2) * c a ^ 2)) by (intros; ring). rewrite rsum_scal. unfold nsum. ring.
  - intros i Hi. apply in_seq in Hi. unfold nsum at 1. rewrite mean_sum.
    rewrite (rsum_ext _ _ (fun j => m 1 ^ 2 * c i * c j + (if Nat.eqb i j then c i ^ 2 * (m 2 - m 1 ^ 2) else 0))).
    + rewrite rsum_add, rsum_scal. fold (nsum N c). change (rsum (seq 0 N) (fun j => if Nat.eqb i j then c i ^ 2 * (m 2 - m 1 ^ 2) else 0))
        with (nsum N (fun j => if Nat.eqb i j then c i ^ 2 * (m 2 - m 1 ^ 2) else 0)).
      rewrite (nsum_single N (fun j => if Nat.eqb i j then c i ^ 2 * (m 2 - m 1 ^ 2) else 0) i) by (try lia; intros j _ Hj; cbv beta; apply not_eq_sym, Nat.eqb_neq in Hj; rewrite Hj; reflexivity). rewrite Nat.eqb_refl. ring.
    + intros j Hj. apply in_seq in Hj. rewrite mean_scal, E2 by (apply Hr; lia). destruct (Nat.eqb_spec i j) as [<-|Hij].
      * rewrite Nat.eqb_refl. ring.
      * destruct (Nat.eqb_spec (pi i) (pi j)) as [He|_]; [apply Hinj in He; [contradiction|lia|lia]|]. ring.
Qed.
End Moments.

(** ** Coefficients of negacyclic products *)
Definition partner (N k i : nat) : nat := if Nat.leb i k then (k - i)%nat else (k + N - i)%nat.
Definition sign (k i : nat) : R := if Nat.leb i k then 1 else -1.
Lemma partner_lt N k i : (k < N)%nat -> (i < N)%nat -> (partner N k i < N)%nat.
Proof. intros. unfold partner. destruct (Nat.leb_spec i k); lia. Qed.
Lemma partner_partner N k i : (k < N)%nat -> (i < N)%nat -> partner N k (partner N k i) = i.
Proof. intros. unfold partner. destruct (Nat.leb_spec i k); [destruct (Nat.leb_spec (k - i) k); lia|]. destruct (Nat.leb_spec (k + N - i) k); lia. Qed.
Lemma partner_inj N k i j : (k < N)%nat -> (i < N)%nat -> (j < N)%nat -> partner N k i = partner N k j -> i = j.
Proof. intros Hk Hi Hj E. rewrite <- (partner_partner N k i), E by assumption. apply partner_partner; assumption. Qed.
Lemma sign_partner N k i : (k < N)%nat -> (i < N)%nat -> sign k (partner N k i) = sign k i.
Proof.
  intros. unfold sign, partner. destruct (Nat.leb_spec i k).
  - destruct (Nat.leb_spec (k - i) k); [reflexivity|lia].
  - destruct (Nat.leb_spec (k + N - i) k); [lia|reflexivity].
Qed.
Lemma sign_sq k i : sign k i * sign k i = 1.
Proof. unfold sign. destruct (Nat.leb i k); ring. Qed.

Lemma IZR_sumz n f : IZR (sumz n f) = nsum n (fun i => IZR (f (Z.of_nat i))).
Proof. induction n as [|n IH]; [reflexivity|]. cbn [sumz]. rewrite plus_IZR, IH, nsum_S. reflexivity. Qed.
Lemma nega_coef_sum N a b k : length a = N -> length b = N -> (k < N)%nat ->
  IZR (nega_coef N a b (Z.of_nat k)) = nsum N (fun i => sign k i * (coord a i * coord b (partner N k i))).
Proof.
  intros Ha Hb Hk. unfold nega_coef, full. rewrite minus_IZR, !IZR_sumz, Ha.
  replace (nsum N (fun i => IZR (zc a (Z.of_nat i) * zc b (Z.of_nat k - Z.of_nat i))) - nsum N (fun i => IZR (zc a (Z.of_nat i) * zc b (Z.of_nat k + Z.of_nat N - Z.of_nat i))))
    with (nsum N (fun i => IZR (zc a (Z.of_nat i) * zc b (Z.of_nat k - Z.of_nat i)) + -1 * IZR (zc a (Z.of_nat i) * zc b (Z.of_nat k + Z.of_nat N - Z.of_nat i))))
    by (rewrite nsum_add, nsum_scal; ring).
  apply nsum_ext. intros i Hi. unfold zc, sign, partner, coord.
  destruct (Z.leb_spec 0 (Z.of_nat i)) as [_|]; [|lia]. rewrite Nat2Z.id. rewrite !mult_IZR.
  destruct (Nat.leb_spec i k) as [Hik|Hik].
  - destruct (Z.leb_spec 0 (Z.of_nat k - Z.of_nat i)) as [_|]; [|lia]. destruct (Z.leb_spec 0 (Z.of_nat k + Z.of_nat N - Z.of_nat i)) as [_|]; [|lia].
    replace (Z.to_nat (Z.of_nat k - Z.of_nat i)) with (k - i)%nat by lia. replace (nth (Z.to_nat (Z.of_nat k + Z.of_nat N - Z.of_nat i)) b 0%Z) with 0%Z by (symmetry; apply nth_overflow; lia). ring.
  - destruct (Z.leb_spec 0 (Z.of_nat k - Z.of_nat i)) as [|_]; [lia|]. destruct (Z.leb_spec 0 (Z.of_nat k + Z.of_nat N - Z.of_nat i)) as [_|]; [|lia].
    replace (Z.to_nat (Z.of_nat k + Z.of_nat N - Z.of_nat i)) with (k + N - i)%nat by lia. ring.
Qed.
Lemma nsum_sign N k : (k < N)%nat -> nsum N (sign k) = 2 * INR k + 2 - INR N.
Proof.
  intros H. assert (E : forall n, nsum n (sign k) = if Nat.leb n (S k) then INR n else 2 * INR k + 2 - INR n).
  { induction n as [|n IH]; [reflexivity|]. rewrite nsum_S, IH. unfold sign.
    destruct (Nat.leb_spec n (S k)), (Nat.leb_spec n k), (Nat.leb_spec (S n) (S k)); try lia; rewrite ?S_INR; try lra.
    assert (n = S k) as -> by lia. rewrite S_INR. lra. }
  rewrite E. destruct (Nat.leb_spec N (S k)); [|reflexivity]. assert (N = S k) as -> by lia. rewrite S_INR. lra.
Qed.
Lemma nsum_squares N : nsum N (fun k => (2 * INR k + 2 - INR N) ^ 2) = INR N * (INR N ^ 2 + 2) / 3.
Proof.
  assert (E : forall n c, nsum n (fun k => (2 * INR k + 2 - c) ^ 2) = INR n * (2 * (INR n + 1) * (2 * INR n + 1) / 3 - 2 * c * (INR n + 1) + c ^ 2)).
  { intros n c. induction n as [|n IH]; [unfold nsum; cbn; lra|]. rewrite nsum_S, IH, S_INR. field. }
  rewrite E. field.
Qed.

Section Products.
Context (D : list Z) (HD : D <> []) (N k : nat) (Hk : (k < N)%nat).
Notation m e := (moment e D).
Notation space := (samples N D).

(** Two independent keys *)
Lemma product_stats :
  mean (list_prod space space) (fun o => IZR (nega_coef N (fst o) (snd o) (Z.of_nat k))) = m 1 ^ 2 * (2 * INR k + 2 - INR N) /\
  variance (list_prod space space) (fun o => IZR (nega_coef N (fst o) (snd o) (Z.of_nat k))) = INR N * (m 2 ^ 2 - m 1 ^ 4).
Proof.
  pose (X := fun o : list Z * list Z => nsum N (fun i => sign k i * (coord (fst o) i * coord (snd o) (partner N k i)))).
  assert (EX : forall o, In o (list_prod space space) -> IZR (nega_coef N (fst o) (snd o) (Z.of_nat k)) = X o).
  { intros [s t] Ho. apply in_prod_iff in Ho. destruct Ho as [Hs Ht]. apply samples_length in Hs, Ht. apply nega_coef_sum; assumption. }
  rewrite (mean_ext _ _ X EX), (variance_ext _ _ X EX).
  assert (Em : mean (list_prod space space) X = m 1 ^ 2 * (2 * INR k + 2 - INR N)).
  { unfold X, nsum. rewrite mean_sum. rewrite <- (nsum_sign N k Hk). unfold nsum. rewrite <- rsum_scal. apply rsum_ext. intros i Hi. apply in_seq in Hi.
    rewrite mean_scal, (mean_indep space space (fun s => coord s i) (fun s => coord s (partner N k i))).
    rewrite !E1 by (try assumption; try apply partner_lt; lia). ring. }
  split; [exact Em|]. rewrite variance_moments by (apply list_prod_nil; apply samples_nil; assumption). rewrite Em.
  unfold X. rewrite (mean_ext _ _ (fun o => nsum N (fun i => nsum N (fun j => sign k i * sign k j * ((coord (fst o) i * coord (fst o) j) * (coord (snd o) (partner N k i) * coord (snd o) (partner N k j)))))))
    by (intros; rewrite nsum_sq; apply nsum_ext; intros; apply nsum_ext; intros; ring).
  unfold nsum at 1. rewrite mean_sum.
  rewrite (rsum_ext _ _ (fun i => (m 2 ^ 2 - m 1 ^ 4) + m 1 ^ 4 * nsum N (sign k) * sign k i)).
  - rewrite rsum_add, rsum_const, rsum_scal, seq_length. fold (nsum N (sign k)). rewrite (nsum_sign N k Hk). ring.
  - intros i Hi. apply in_seq in Hi. unfold nsum at 1. rewrite mean_sum.
    rewrite (rsum_ext _ _ (fun j => m 1 ^ 4 * sign k i * sign k j + (if Nat.eqb i j then m 2 ^ 2 - m 1 ^ 4 else 0))).
    + rewrite rsum_add, rsum_scal. fold (nsum N (sign k)).
      change (rsum (seq 0 N) (fun j => if Nat.eqb i j then m 2 ^ 2 - m 1 ^ 4 else 0)) with (nsum N (fun j => if Nat.eqb i j then m 2 ^ 2 - m 1 ^ 4 else 0)).
      rewrite (nsum_single N (fun j => if Nat.eqb i j then m 2 ^ 2 - m 1 ^ 4 else 0) i)
        by (try lia; intros j _ Hj; cbv beta; apply not_eq_sym, Nat.eqb_neq in Hj; rewrite Hj; reflexivity). rewrite Nat.eqb_refl. ring.
    + intros j Hj. apply in_seq in Hj.
      rewrite mean_scal, (mean_indep space space (fun s => coord s i * coord s j) (fun s => coord s (partner N k i) * coord s (partner N k j))).
      rewrite !E2 by (try assumption; try apply partner_lt; lia). destruct (Nat.eqb_spec i j) as [<-|Hij].
      * rewrite Nat.eqb_refl. replace (sign k i * sign k i * (m 2 * m 2)) with ((sign k i * sign k i) * m 2 ^ 2) by ring.
        replace (m 1 ^ 4 * sign k i * sign k i) with ((sign k i * sign k i) * m 1 ^ 4) by ring. rewrite sign_sq. ring.
      * destruct (Nat.eqb_spec (partner N k i) (partner N k j)) as [He|_]; [apply partner_inj in He; [contradiction|lia|lia|lia]|]. ring.
Qed.

(** The square of a key *)
Definition fixed (i : nat) : R := if Nat.eqb i (partner N k i) then 1 else 0.
Lemma fixed_count : Nat.Even N -> nsum N fixed = if Nat.even k then 2 else 0.
Proof.
  intros [h Hh]. destruct (Nat.even k) eqn:Ek.
  - apply Nat.even_spec in Ek. destruct Ek as [c Hc]. 
    assert (Hz : forall i, (i < N)%nat -> i <> c -> i <> (c + h)%nat -> fixed i = 0).
    { intros i Hi H1 H2. unfold fixed, partner. destruct (Nat.leb_spec i k); [destruct (Nat.eqb_spec i (k - i)); [lia|reflexivity]|destruct (Nat.eqb_spec i (k + N - i)); [lia|reflexivity]]. }
    rewrite (nsum_two N fixed c (c + h)) by (assumption || lia).
    unfold fixed, partner. destruct (Nat.leb_spec c k); [|lia]. destruct (Nat.leb_spec (c + h) k); [lia|].
    destruct (Nat.eqb_spec c (k - c)); [|lia]. destruct (Nat.eqb_spec (c + h) (k + N - (c + h))); [lra|lia].
  - apply nsum_zero. intros i Hi. unfold fixed, partner. assert (Ho : Nat.odd k = true) by (rewrite <- Nat.negb_even, Ek; reflexivity).
    apply Nat.odd_spec in Ho. destruct Ho as [c Hc]. destruct (Nat.leb_spec i k); [destruct (Nat.eqb_spec i (k - i)); [lia|reflexivity]|destruct (Nat.eqb_spec i (k + N - i)); [lia|reflexivity]].
Qed.
Lemma fixed_signed : Nat.Even N -> nsum N (fun i => sign k i * fixed i) = 0.
Proof.
  intros [h Hh]. destruct (Nat.even k) eqn:Ek.
  - apply Nat.even_spec in Ek. destruct Ek as [c Hc]. 
    assert (Hz : forall i, (i < N)%nat -> i <> c -> i <> (c + h)%nat -> sign k i * fixed i = 0).
    { intros i Hi H1 H2. unfold fixed, partner. destruct (Nat.leb_spec i k); [destruct (Nat.eqb_spec i (k - i)); [lia|ring]|destruct (Nat.eqb_spec i (k + N - i)); [lia|ring]]. }
    rewrite (nsum_two N (fun i => sign k i * fixed i) c (c + h)) by (assumption || lia).
    unfold fixed, partner, sign. destruct (Nat.leb_spec c k); [|lia]. destruct (Nat.leb_spec (c + h) k); [lia|].
    destruct (Nat.eqb_spec c (k - c)); [|lia]. destruct (Nat.eqb_spec (c + h) (k + N - (c + h))); [lra|lia].
  - apply nsum_zero. intros i Hi. unfold fixed, partner. assert (Ho : Nat.odd k = true) by (rewrite <- Nat.negb_even, Ek; reflexivity).
    apply Nat.odd_spec in Ho. destruct Ho as [c Hc]. destruct (Nat.leb_spec i k); [destruct (Nat.eqb_spec i (k - i)); [lia|ring]|destruct (Nat.eqb_spec i (k + N - i)); [lia|ring]].
Qed.
Lemma square_stats : Nat.Even N ->
  mean space (fun s => IZR (nega_coef N s s (Z.of_nat k))) = m 1 ^ 2 * (2 * INR k + 2 - INR N) /\
  variance space (fun s => IZR (nega_coef N s s (Z.of_nat k)))
  = if Nat.even k then 2 * (m 4 - m 2 ^ 2) + (2 * INR N - 4) * (m 2 ^ 2 - m 1 ^ 4) else 2 * INR N * (m 2 ^ 2 - m 1 ^ 4).
Proof.
  intros HN.
  pose (X := fun s : list Z => nsum N (fun i => sign k i * (coord s i * coord s (partner N k i)))).
  assert (EX : forall s, In s space -> IZR (nega_coef N s s (Z.of_nat k)) = X s).
  { intros s Hs. apply samples_length in Hs. apply nega_coef_sum; assumption. }
  rewrite (mean_ext _ _ X EX), (variance_ext _ _ X EX).
  pose (c := fun i => mean space (fun s => coord s i * coord s (partner N k i))).
  assert (Ec : forall i, (i < N)%nat -> c i = m 1 ^ 2 + (m 2 - m 1 ^ 2) * fixed i).
  { intros i Hi. unfold c. rewrite E2 by (try assumption; apply partner_lt; lia). unfold fixed. destruct (Nat.eqb i (partner N k i)); ring. }
  assert (EXm : mean space X = nsum N (fun i => sign k i * c i)).
  { unfold X, nsum. rewrite mean_sum. apply rsum_ext. intros i Hi. rewrite mean_scal. reflexivity. }
  assert (Em : mean space X = m 1 ^ 2 * (2 * INR k + 2 - INR N)).
  { rewrite EXm. rewrite (nsum_ext N _ (fun i => m 1 ^ 2 * sign k i + (m 2 - m 1 ^ 2) * (sign k i * fixed i))) by (intros i Hi; rewrite Ec by assumption; ring).
    rewrite nsum_add, !nsum_scal, (nsum_sign N k Hk), (fixed_signed HN). ring. }
  split; [exact Em|]. rewrite variance_moments by (apply samples_nil; assumption). rewrite EXm, nsum_sq.
  unfold X. rewrite (mean_ext _ _ (fun s => nsum N (fun i => nsum N (fun j => sign k i * sign k j * ((coord s i * coord s (partner N k i)) * (coord s j * coord s (partner N k j)))))))
    by (intros; rewrite nsum_sq; apply nsum_ext; intros; apply nsum_ext; intros; ring).
  enough (E : forall i, (i < N)%nat -> mean space (fun a => nsum N (fun j => sign k i * sign k j * ((coord a i * coord a (partner N k i)) * (coord a j * coord a (partner N k j)))))
     = nsum N (fun j => sign k i * c i * (sign k j * c j)) + (2 * (m 2 ^ 2 - m 1 ^ 4) + (m 4 - m 2 ^ 2 - 2 * (m 2 ^ 2 - m 1 ^ 4)) * fixed i)).
  { unfold nsum at 1. rewrite mean_sum.
    rewrite (rsum_ext (seq 0 N) _ (fun i => nsum N (fun j => sign k i * c i * (sign k j * c j)) + (2 * (m 2 ^ 2 - m 1 ^ 4) + (m 4 - m 2 ^ 2 - 2 * (m 2 ^ 2 - m 1 ^ 4)) * fixed i)))
      by (intros i Hi; apply in_seq in Hi; apply E; lia).
    rewrite rsum_add. fold (nsum N (fun i => nsum N (fun j => sign k i * c i * (sign k j * c j)))).
    fold (nsum N (fun i => 2 * (m 2 ^ 2 - m 1 ^ 4) + (m 4 - m 2 ^ 2 - 2 * (m 2 ^ 2 - m 1 ^ 4)) * fixed i)).
    rewrite nsum_add, nsum_const, nsum_scal, (fixed_count HN). destruct (Nat.even k); ring. }
  intros i Hi. unfold nsum at 1. rewrite mean_sum.
  pose proof (partner_lt N k i Hk Hi) as Hpi.
  rewrite (rsum_ext _ _ (fun j => sign k i * c i * (sign k j * c j)
    + (if (Nat.eqb j i || Nat.eqb j (partner N k i))%bool then mean space (fun s => coord s i * coord s (partner N k i) * (coord s i * coord s (partner N k i))) - c i ^ 2 else 0))).
  - rewrite rsum_add. unfold nsum at 1. f_equal.
    set (V := mean space _ - c i ^ 2).
    assert (EV : V = if Nat.eqb i (partner N k i) then m 4 - m 2 ^ 2 else m 2 ^ 2 - m 1 ^ 4).
    { unfold V. rewrite E4_square, Ec by assumption. unfold fixed. destruct (Nat.eqb i (partner N k i)); ring. }
    change (rsum (seq 0 N) (fun j => if (Nat.eqb j i || Nat.eqb j (partner N k i))%bool then V else 0)) with (nsum N (fun j => if (Nat.eqb j i || Nat.eqb j (partner N k i))%bool then V else 0)).
    clearbody V. unfold fixed. destruct (Nat.eqb_spec i (partner N k i)) as [He|He].
    + rewrite (nsum_single N _ i Hi); [rewrite Nat.eqb_refl; cbn [orb]; lra|].
      intros j _ Hj. rewrite <- He. apply Nat.eqb_neq in Hj. rewrite Hj. reflexivity.
    + rewrite (nsum_two N _ i (partner N k i) Hi Hpi He).
      * rewrite !Nat.eqb_refl, orb_true_r. cbn [orb]. lra.
      * intros j _ H1 H2. apply Nat.eqb_neq in H1, H2. rewrite H1, H2. reflexivity.
  - intros j Hj. apply in_seq in Hj. rewrite mean_scal.
    destruct (Nat.eqb_spec j i) as [->|Hji]; cbn [orb].
    + replace (sign k i * sign k i) with 1 by (symmetry; apply sign_sq). replace (sign k i * c i * (sign k i * c i)) with (sign k i * sign k i * c i ^ 2) by ring. rewrite sign_sq. ring.
    + destruct (Nat.eqb_spec j (partner N k i)) as [->|Hjp].
      * rewrite (partner_partner N k i Hk Hi), (sign_partner N k i Hk Hi), sign_sq.
        replace (c (partner N k i)) with (c i) by (unfold c; rewrite (partner_partner N k i Hk Hi); apply mean_ext; intros; ring).
        replace (sign k i * c i * (sign k i * c i)) with (sign k i * sign k i * c i ^ 2) by ring. rewrite sign_sq.
        rewrite (mean_ext _ (fun s => coord s i * coord s (partner N k i) * (coord s (partner N k i) * coord s i)) (fun s => coord s i * coord s (partner N k i) * (coord s i * coord s (partner N k i)))) by (intros; ring). ring.
      * assert (Hpj : (partner N k j < N)%nat) by (apply partner_lt; lia).
        rewrite (E4_disjoint D HD N i (partner N k i) j (partner N k j)).
        -- fold (c i) (c j). ring.
        -- assumption.
        -- assumption.
        -- lia.
        -- assumption.
        -- auto.
        -- intros He. apply Hjp. rewrite He, partner_partner by lia. reflexivity.
        -- auto.
        -- intros He. apply partner_inj in He; [auto|assumption|assumption|lia].
Qed.
End Products.
