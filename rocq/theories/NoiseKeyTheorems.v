(** * C65: the moments the noise estimates take for the keys *)
From Verif Require Import Base Word WordFacts NegaRing PolySpec NoiseSpec NoiseFacts NoiseModel NoiseKeyFacts NoiseTheorems.
From Coq Require Import Reals Lra Lia.
Local Open Scope R_scope.

(** [D] is a distribution of the coefficients of a key: uniform on {0, 1} or {-1, 0, 1}, constantly 0, or with the second and fourth moments of
    a centred Gaussian of standard deviation 3.2. *)
Definition key_distribution (K : key_kind) (D : list Z) : Prop :=
  match K with
  | BinaryKeyKind => D = [0; 1]%Z
  | TernaryKeyKind => D = [-1; 0; 1]%Z
  | ZeroKeyKind => D = [0]%Z
  | GaussianKeyKind => D <> [] /\ mean D (fun x => IZR x) = 0 /\ mean D (fun x => IZR x ^ 2) = (32 / 10) ^ 2 /\ mean D (fun x => IZR x ^ 4) = 3 * (32 / 10) ^ 4
  end.
Definition moments (K : key_kind) : R * R * R :=
  match K with
  | BinaryKeyKind => (1 / 2, 1 / 2, 1 / 2)
  | TernaryKeyKind => (0, 2 / 3, 2 / 3)
  | ZeroKeyKind => (0, 0, 0)
  | GaussianKeyKind => (0, (32 / 10) ^ 2, 3 * (32 / 10) ^ 4)
  end.
Lemma key_moments K D : key_distribution K D -> D <> [] /\ (moment 1 D, moment 2 D, moment 4 D) = moments K.
Proof.
  destruct K; cbn [key_distribution moments].
  - intros ->. split; [discriminate|]. unfold moment, mean. cbn. f_equal; [f_equal|]; lra.
  - intros ->. split; [discriminate|]. unfold moment, mean. cbn. f_equal; [f_equal|]; lra.
  - intros (H & H1 & H2 & H4). split; [assumption|]. unfold moment. rewrite H2, H4, <- H1. do 2 f_equal. apply mean_ext. intros. ring.
  - intros ->. split; [discriminate|]. unfold moment, mean. cbn. f_equal; [f_equal|]; lra.
Qed.
Lemma moment_2_nonneg_square D : D <> [] -> variance D (fun x => IZR x ^ 2) = moment 4 D - moment 2 D ^ 2.
Proof.
  intros HD. rewrite variance_moments by assumption. unfold moment. f_equal. apply mean_ext. intros. ring.
Qed.
Ltac key_from := repeat match goal with |- context [get_modular_variance (from_modular_variance ?x ?l) ?l] => rewrite (modular_from x l) end.

(** One coefficient of the key, and its square *)
Theorem C65_key_coefficient : forall K D l, key_distribution K D ->
  expectation_key_coefficient K = zmean D /\
  get_modular_variance (variance_key_coefficient K l) l = zvariance D /\
  expectation_key_coefficient_squared K l = mean D (fun s => IZR (s * s)) /\
  get_modular_variance (variance_key_coefficient_squared K l) l = variance D (fun s => IZR (s * s)).
Proof.
  intros K D l HK. destruct (key_moments K D HK) as [HD HM].
  rewrite (mean_ext D (fun s => IZR (s * s)) (fun s => IZR s ^ 2)) by (intros; rewrite mult_IZR; ring).
  rewrite (variance_ext D (fun s => IZR (s * s)) (fun s => IZR s ^ 2)) by (intros; rewrite mult_IZR; ring).
  rewrite moment_2_nonneg_square by assumption. rewrite zvariance_moments by assumption. fold (moment 2 D). rewrite <- (moment_1 D). 
  unfold expectation_key_coefficient, expectation_key_coefficient_squared, variance_key_coefficient_squared, variance_key_coefficient, square, GAUSSIAN_MODULAR_STDEV.
  destruct K; cbn [moments] in HM; injection HM as -> -> ->; key_from; try lra; repeat split; lra.
Qed.
Print Assumptions C65_key_coefficient.

(** A coefficient of the product of two keys, and the mean over all the coefficients of its squared expectation *)
Theorem C65_key_times_key : forall K D l N k, key_distribution K D -> (k < N)%nat ->
  get_modular_variance (variance_coefficient_in_polynomial_key_times_key K N l) l =
    variance (list_prod (samples N D) (samples N D)) (fun o => IZR (nega_coef N (fst o) (snd o) (Z.of_nat k))) /\
  square_expectation_mean_in_polynomial_key_times_key K N =
    mean (seq 0 N) (fun k => mean (list_prod (samples N D) (samples N D)) (fun o => IZR (nega_coef N (fst o) (snd o) (Z.of_nat k))) ^ 2).
Proof.
  intros K D l N k HK Hk. destruct (key_moments K D HK) as [HD HM]. assert (HN : 0 < INR N) by (apply lt_0_INR; lia). split.
  - rewrite (proj2 (product_stats D HD N k Hk)).
    unfold variance_coefficient_in_polynomial_key_times_key, variance_key_coefficient, square, GAUSSIAN_MODULAR_STDEV.
    destruct K; cbn [moments] in HM; injection HM as -> -> _; cbn [get_modular_variance]; key_from; try lra; try nra.
    destruct (Req_EM_T 0 0); lra.
  - rewrite (mean_ext (seq 0 N) _ (fun k => moment 1 D ^ 4 * (2 * INR k + 2 - INR N) ^ 2)).
    2:{ intros j Hj. apply in_seq in Hj. rewrite (proj1 (product_stats D HD N j ltac:(lia))). ring. }
    rewrite mean_scal. unfold mean. fold (nsum N (fun k => (2 * INR k + 2 - INR N) ^ 2)). rewrite nsum_squares, seq_length.
    unfold square_expectation_mean_in_polynomial_key_times_key, square.
    destruct K; cbn [moments] in HM; injection HM as -> _ _; field; lra.
Qed.
Print Assumptions C65_key_times_key.

Lemma single_key D k : D <> [] -> (k < 1)%nat ->
  mean (samples 1 D) (fun s => IZR (nega_coef 1 s s (Z.of_nat k))) = moment 2 D /\
  variance (samples 1 D) (fun s => IZR (nega_coef 1 s s (Z.of_nat k))) = moment 4 D - moment 2 D ^ 2.
Proof.
  intros HD Hk. replace k with 0%nat by lia.
  assert (E : forall s, In s (samples 1 D) -> IZR (nega_coef 1 s s (Z.of_nat 0)) = rsum s (fun x => IZR x ^ 2)).
  { intros s Hs. apply samples_length in Hs. destruct s as [|x [|y s]]; cbn in Hs; try discriminate. rewrite nega_coef_sum by (cbn; lia). cbn. unfold coord. cbn [nth]. ring. }
  rewrite (mean_ext _ _ _ E), (variance_ext _ _ _ E). destruct (samples_sum 1 D (fun x => IZR x ^ 2) HD) as [-> ->].
  rewrite moment_2_nonneg_square by assumption. fold (moment 2 D). cbn [INR]. split; [unfold moment|]; ring.
Qed.

(** A coefficient of the square of a key of even size: the odd and the even coefficients differ. *)
Theorem C65_key_squared : forall K D l N k, key_distribution K D -> Nat.Even N -> (k < N)%nat ->
  get_modular_variance (if Nat.even k then variance_even_coefficient_in_polynomial_key_squared K N l else variance_odd_coefficient_in_polynomial_key_squared K N l) l =
    variance (samples N D) (fun s => IZR (nega_coef N s s (Z.of_nat k))).
Proof.
  intros K D l N k HK He Hk. destruct (key_moments K D HK) as [HD HM]. assert (HN : 2 <= INR N).
  { destruct He as [m ->]. change 2 with (INR 2). apply le_INR. lia. }
  assert (H1 : Nat.eqb N 1 = false) by (apply Nat.eqb_neq; destruct He; lia).
  rewrite (proj2 (square_stats D HD N k Hk He)).
  unfold variance_even_coefficient_in_polynomial_key_squared, variance_odd_coefficient_in_polynomial_key_squared, variance_key_coefficient, square, GAUSSIAN_MODULAR_STDEV.
  rewrite H1.
  assert (N3 : INR (3 * N - 2) = 3 * INR N - 2) by (rewrite minus_INR, mult_INR by (destruct He; lia); cbn; ring).
  assert (N2 : INR (2 * N - 3) = 2 * INR N - 3) by (rewrite minus_INR, mult_INR by (destruct He; lia); cbn; ring).
  destruct K; cbn [moments] in HM; injection HM as -> -> ->; destruct (Nat.even k); cbn [get_modular_variance]; rewrite ?N3, ?N2; key_from; try lra;
    destruct (Req_EM_T 0 0); lra.
Qed.
Print Assumptions C65_key_squared.

(** Every power-of-two size, 1 included: the half-sum of the two answers is the mean variance of the coefficients, and the third answer is the mean of their squared
    expectations. *)
Theorem C65_key_squared_mean : forall K D l N, key_distribution K D -> (exists e, N = Nat.pow 2 e) ->
  (get_modular_variance (variance_odd_coefficient_in_polynomial_key_squared K N l) l + get_modular_variance (variance_even_coefficient_in_polynomial_key_squared K N l) l) / 2 =
    mean (seq 0 N) (fun k => variance (samples N D) (fun s => IZR (nega_coef N s s (Z.of_nat k)))) /\
  squared_expectation_mean_in_polynomial_key_squared K N l =
    mean (seq 0 N) (fun k => mean (samples N D) (fun s => IZR (nega_coef N s s (Z.of_nat k))) ^ 2).
Proof.
  intros K D l N HK (e & HN). destruct (key_moments K D HK) as [HD HM]. destruct e as [|e].
  - cbn in HN. subst N. cbn [seq].
    assert (Hone : forall f : nat -> R, mean [0%nat] f = f 0%nat) by (intros f; unfold mean; cbn; field). rewrite !Hone.
    destruct (single_key D 0 HD ltac:(lia)) as [-> ->].
    destruct (C65_key_coefficient K D l HK) as (_ & _ & E2 & V2). 
    rewrite (mean_ext D (fun s => IZR (s * s)) (fun s => IZR s ^ 2)) in E2 by (intros; rewrite mult_IZR; ring).
    rewrite (variance_ext D (fun s => IZR (s * s)) (fun s => IZR s ^ 2)) in V2 by (intros; rewrite mult_IZR; ring).
    rewrite moment_2_nonneg_square in V2 by assumption. fold (moment 2 D) in E2.
    assert (Hnn : 0 <= moment 4 D - moment 2 D ^ 2) by (rewrite <- moment_2_nonneg_square by assumption; apply variance_nonneg).
    unfold variance_odd_coefficient_in_polynomial_key_squared, variance_even_coefficient_in_polynomial_key_squared, squared_expectation_mean_in_polynomial_key_squared, square.
    rewrite V2, E2. cbn [Nat.eqb INR].
    destruct K; cbn [get_modular_variance]; key_from; try lra; split; try field;
      cbn [moments] in HM; injection HM as H1 H2 H4; rewrite ?H2, ?H4; try destruct (Req_EM_T 0 0); lra.
  - assert (He : Nat.Even N) by (exists (Nat.pow 2 e); subst N; cbn; lia). assert (Hp : (0 < N)%nat) by (subst N; clear; pose proof (Nat.pow_nonzero 2 (S e)); lia).
    assert (HN0 : 0 < INR N) by (apply lt_0_INR; lia). clear HN. split.
    + assert (Hk : forall k, (k < N)%nat -> variance (samples N D) (fun s => IZR (nega_coef N s s (Z.of_nat k))) =
        get_modular_variance (variance_odd_coefficient_in_polynomial_key_squared K N l) l +
        (if Nat.even k then 1 else 0) * (get_modular_variance (variance_even_coefficient_in_polynomial_key_squared K N l) l - get_modular_variance (variance_odd_coefficient_in_polynomial_key_squared K N l) l)).
      { intros k Hk. rewrite <- (C65_key_squared K D l N k HK He Hk). destruct (Nat.even k); ring. }
      rewrite (mean_ext (seq 0 N) _ _ (fun k Hk' => Hk k (proj2 (proj1 (in_seq N 0 k) Hk')))).
      generalize (get_modular_variance (variance_odd_coefficient_in_polynomial_key_squared K N l) l) (get_modular_variance (variance_even_coefficient_in_polynomial_key_squared K N l) l).
      intros x y. unfold mean. rewrite seq_length.
      assert (Es : rsum (seq 0 N) (fun k => x + (if Nat.even k then 1 else 0) * (y - x)) = INR N / 2 * (x + y)).
      { fold (nsum N (fun k => x + (if Nat.even k then 1 else 0) * (y - x))). destruct He as [m ->]. clear. induction m as [|m IH]; [cbn; field|].
        replace (2 * S m)%nat with (S (S (2 * m))) by lia. rewrite !nsum_S, IH.
        rewrite Nat.even_succ, <- Nat.negb_even, Nat.even_mul. cbn [Nat.even orb negb]. rewrite !S_INR. field. }
      rewrite Es. field. lra.
    + rewrite (mean_ext (seq 0 N) _ (fun k => moment 1 D ^ 4 * (2 * INR k + 2 - INR N) ^ 2)).
      2:{ intros j Hj. apply in_seq in Hj. rewrite (proj1 (square_stats D HD N j ltac:(lia) He)). ring. }
      rewrite mean_scal. unfold mean. fold (nsum N (fun k => (2 * INR k + 2 - INR N) ^ 2)). rewrite nsum_squares, seq_length.
      assert (H1 : Nat.eqb N 1 = false) by (apply Nat.eqb_neq; destruct He; lia).
      unfold squared_expectation_mean_in_polynomial_key_squared, square. rewrite H1.
      destruct K; cbn [moments] in HM; injection HM as -> _ _; field; lra.
Qed.
Print Assumptions C65_key_squared_mean.

(** ** Relinearization: the decomposition base is missing from the rounding term *)
(** With a relinearization key without noise all that is left is the rounding error of the decomposition, which falls with the number b * l of bits
    the decomposition keeps.  The estimate does not depend on the base at all. *)
Theorem C65_relinearization_base_refuted : forall K N k b b' level l,
  estimate_relinearization_noise K N k (Variance 0) b level l = estimate_relinearization_noise K N k (Variance 0) b' level l.
Proof.
  intros. unfold estimate_relinearization_noise. cbn zeta.
  assert (E : get_modular_variance (Variance 0) l = 0) by (cbn; destruct (Req_EM_T 0 0); lra). rewrite E. f_equal. f_equal. f_equal. unfold Rdiv. ring.
Qed.
Print Assumptions C65_relinearization_base_refuted.

(** ** The hypotheses are met *)
Example C65_describes_example : describes 32 (from_modular_variance 2 32) [-2; 0; 0; 2]%Z.
Proof.
  split; [discriminate|]. split; [apply valid_from; lra|]. rewrite modular_from by lra. unfold zvariance, variance, mean. cbn. lra.
Qed.
Example C65_addition_example :
  get_modular_variance (estimate_addition_noise (from_modular_variance 2 32) (from_modular_variance 2 32) 32) 32 = 4 /\
  variance (list_prod [-2; 0; 0; 2]%Z [-2; 0; 0; 2]%Z) (fun o => IZR (fst o + snd o)) = 4.
Proof.
  assert (E : get_modular_variance (estimate_addition_noise (from_modular_variance 2 32) (from_modular_variance 2 32) 32) 32 = 4).
  { unfold estimate_addition_noise. rewrite !modular_from; rewrite ?modular_from; lra. }
  split; [exact E|]. rewrite <- E. symmetry. exact (proj1 (C65_addition 32 _ _ _ _ C65_describes_example C65_describes_example)).
Qed.
(** -3 and 5 as 32-bit words *)
Example C65_small_example : Forall (small 32) [4294967293; 5]%Z /\ map (sgn 32) [4294967293; 5]%Z = [-3; 5]%Z.
Proof. split; [|reflexivity]. repeat constructor; try (vm_compute; discriminate); vm_compute; reflexivity. Qed.
Example C65_polynomial_example :
  exists d', estimate_polynomial_plaintext_multiplication_noise Debug 32 (from_modular_variance 2 32) [4294967293; 5]%Z = Ret d' /\ get_modular_variance d' 32 = 68 /\
  variance (samples 2 [-2; 0; 0; 2]%Z) (fun es => IZR (nega_coef 2 [-3; 5]%Z es 1)) = 68.
Proof.
  destruct (C65_polynomial_multiplication Debug 32 eq_refl 2 _ _ [4294967293; 5]%Z 1 C65_describes_example (proj1 C65_small_example) eq_refl ltac:(lia)) as (d' & E & V).
  exists d'. split; [exact E|]. change (map (sgn 32) [4294967293; 5]%Z) with [-3; 5]%Z in V. change (Z.of_nat 1) with 1%Z in V. rewrite V.
  assert (X : variance (samples 2 [-2; 0; 0; 2]%Z) (fun es => IZR (nega_coef 2 [-3; 5]%Z es 1)) = 68).
  { rewrite <- (variance_map (fun es => nega_coef 2 [-3; 5]%Z es 1) (samples 2 [-2; 0; 0; 2]%Z) IZR). set (L := map _ _). vm_compute in L. subst L. unfold variance, mean. cbn. lra. }
  split; assumption.
Qed.
Lemma rsum_repeat {A} (f : A -> R) x n : rsum (repeat x n) f = INR n * f x.
Proof. induction n as [|n IH]; [cbn; ring|]. cbn [repeat rsum]. rewrite IH, S_INR. ring. Qed.
(** Integers with the mean, the second and the fourth moment of a Gaussian of standard deviation 3.2 *)
Definition five_values : list Z := repeat 0%Z 951 ++ repeat 4%Z 416 ++ repeat (-4)%Z 416 ++ repeat 8%Z 46 ++ repeat (-8)%Z 46.
Example C65_gaussian_example : key_distribution GaussianKeyKind five_values.
Proof.
  assert (E : forall f, mean five_values f = (951 * f 0%Z + 416 * f 4%Z + 416 * f (-4)%Z + 46 * f 8%Z + 46 * f (-8)%Z) / 1875).
  { intros f. unfold mean, five_values. rewrite !rsum_app, !rsum_repeat, !app_length, !repeat_length. rewrite !plus_INR, !INR_IZR_INZ.
    repeat match goal with |- context [Z.of_nat ?n] => let z := eval vm_compute in (Z.of_nat n) in change (Z.of_nat n) with z end. field. }
  cbn [key_distribution]. rewrite !E. split; [discriminate|]. repeat split; field.
Qed.
Example C65_key_example : key_distribution BinaryKeyKind [0; 1]%Z /\
  get_modular_variance (variance_even_coefficient_in_polynomial_key_squared BinaryKeyKind 2 32) 32 = 1 / 2 /\
  variance (samples 2 [0; 1]%Z) (fun s => IZR (nega_coef 2 s s 0)) = 1 / 2.
Proof.
  split; [reflexivity|]. pose proof (C65_key_squared BinaryKeyKind [0; 1]%Z 32 2 0 eq_refl ltac:(exists 1%nat; reflexivity) ltac:(lia)) as E.
  cbn [Nat.even] in E. change (Z.of_nat 0) with 0%Z in E. assert (X : variance (samples 2 [0; 1]%Z) (fun s => IZR (nega_coef 2 s s 0)) = 1 / 2).
  { rewrite <- (variance_map (fun s => nega_coef 2 s s 0) (samples 2 [0; 1]%Z) IZR). set (L := map _ _). vm_compute in L. subst L. unfold variance, mean. cbn. lra. }
  split; [rewrite E|]; assumption.
Qed.
