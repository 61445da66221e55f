(** * C65: the noise estimates are the variances of the operations *)
From Verif Require Import Base Word WordFacts NegaRing PolySpec NoiseSpec NoiseFacts NoiseModel NoiseKeyFacts.
From Coq Require Import Reals Lra Lia.
Local Open Scope R_scope.

(** ** The three ways to give a dispersion *)
Theorem C65_dispersion : forall sigma l d, 0 < sigma ->
  d = LogStandardDev (log2 sigma) \/ d = StandardDev sigma \/ d = Variance (sigma ^ 2) ->
  get_standard_dev d = sigma /\ get_variance d = sigma ^ 2 /\ get_log_standard_dev d = log2 sigma /\
  get_modular_standard_dev d l = sigma * powi2 l /\ get_modular_variance d l = (sigma * powi2 l) ^ 2 /\
  get_modular_log_standard_dev d l = log2 (sigma * powi2 l).
Proof.
  intros sigma l d Hs Hd.
  assert (Hsq : sqrt (sigma ^ 2) = sigma) by (apply sqrt_pow2; lra).
  assert (Hp : sigma ^ 2 <> 0) by (apply pow_nonzero; lra).
  assert (El : log2 (sigma * powi2 l) = IZR l + log2 sigma).
  { rewrite <- powf2_IZR. rewrite <- (powf2_log2 sigma Hs) at 1. rewrite <- powf2_plus, log2_powf2. ring. }
  assert (Ed : get_variance d = sigma ^ 2).
  { destruct Hd as [->|[->| ->]]; cbn [get_variance]; try reflexivity. rewrite Rmult_comm, powf2_twice, powf2_log2 by assumption. reflexivity. }
  assert (Hv : valid d) by (destruct Hd as [->|[->| ->]]; cbn [valid]; [exact I|lra|apply pow2_ge_0]).
  rewrite (modular_variance_eq d l Hv), Ed, El.
  destruct Hd as [->|[->| ->]]; cbn [get_standard_dev get_log_standard_dev get_modular_standard_dev get_modular_log_standard_dev]; rewrite ?Hsq.
  - rewrite powf2_plus, powf2_log2, powf2_IZR by assumption. repeat split; ring.
  - destruct (Req_EM_T sigma 0); [lra|]. rewrite powf2_plus, powf2_log2, powf2_IZR by assumption. repeat split; ring.
  - destruct (Req_EM_T (sigma ^ 2) 0); [contradiction|]. rewrite powf2_plus, powf2_log2, powf2_IZR by assumption. repeat split; ring.
Qed.
Print Assumptions C65_dispersion.

(** What is put in as a modular quantity comes out. *)
Theorem C65_modular : forall x l,
  (0 <= x -> get_modular_variance (from_modular_variance x l) l = x) /\
  (0 <= x -> get_modular_standard_dev (from_modular_standard_dev x l) l = x) /\
  get_modular_log_standard_dev (from_modular_log_standard_dev x l) l = x.
Proof.
  intros x l. split; [apply modular_from|]. split.
  - intros Hx. unfold from_modular_standard_dev. cbn [get_modular_standard_dev]. pose proof (powf2_pos (IZR l)) as Hp.
    destruct (Req_EM_T (x / powf2 (IZR l)) 0) as [E|E].
    + apply Rmult_integral in E. destruct E as [->|E]; [reflexivity|]. apply Rinv_neq_0_compat in E; [contradiction|lra].
    + rewrite powf2_plus, powf2_log2; [field; lra|]. apply Rmult_lt_0_compat; [|apply Rinv_0_lt_compat; assumption].
      destruct Hx as [Hx|<-]; [assumption|]. exfalso. apply E. unfold Rdiv. ring.
  - cbn. ring.
Qed.
Print Assumptions C65_modular.

(** ** Linear operations *)
Lemma draws_nil {A} (Ds : list (list A)) : Forall (fun D => D <> []) Ds -> draws Ds <> [].
Proof.
  induction 1 as [|D Ds HD _ IH]; [discriminate|]. cbn. pose proof (list_prod_nil D (draws Ds) HD IH) as Hp. destruct (list_prod D (draws Ds)); [congruence|]. discriminate.
Qed.
Lemma combination_variance ns Ds : Forall (fun D => D <> []) Ds ->
  variance (draws Ds) (fun es => IZR (combination ns es)) = rsum (combine ns Ds) (fun o => IZR (fst o) ^ 2 * zvariance (snd o)).
Proof.
  intros H. revert ns. induction H as [|D Ds HD HDs IH]; intros ns.
  - unfold variance, mean. destruct ns; cbn; unfold Rdiv; rewrite Rinv_1; ring.
  - pose proof (draws_nil Ds HDs) as Hn. destruct ns as [|n ns].
    + rewrite (variance_ext _ _ (fun _ => 0 * 1)) by (intros; cbn [combination]; ring).
      rewrite (variance_scal _ 0 (fun _ => 1)). cbn [combine rsum]. ring.
    + cbn [draws combine rsum]. rewrite variance_map. cbn [combination fst snd].
      rewrite (variance_ext _ _ (fun o => IZR n * IZR (fst o) + IZR (combination ns (snd o)))) by (intros; rewrite plus_IZR, mult_IZR; reflexivity).
      rewrite (variance_indep D (draws Ds) (fun e => IZR n * IZR e) (fun es => IZR (combination ns es)) HD Hn). rewrite variance_scal, IH. reflexivity.
Qed.

(** [d] describes the noise distribution [D] of ciphertexts modulo 2^l. *)
Definition describes (l : Z) (d : dispersion) (D : list Z) : Prop := D <> [] /\ valid d /\ get_modular_variance d l = zvariance D.

Theorem C65_addition : forall l d1 d2 D1 D2, describes l d1 D1 -> describes l d2 D2 ->
  get_modular_variance (estimate_addition_noise d1 d2 l) l = variance (list_prod D1 D2) (fun o => IZR (fst o + snd o)) /\
  get_modular_variance (estimate_addition_noise d1 d2 l) l = variance (list_prod D1 D2) (fun o => IZR (fst o - snd o)).
Proof.
  intros l d1 d2 D1 D2 (H1 & V1 & E1) (H2 & V2 & E2). unfold estimate_addition_noise.
  rewrite modular_from by (apply Rplus_le_le_0_compat; apply valid_modular_nonneg; assumption). rewrite E1, E2. unfold zvariance. split.
  - rewrite (variance_ext _ (fun o => IZR (fst o + snd o)) (fun o => IZR (fst o) + IZR (snd o))) by (intros; apply plus_IZR).
    symmetry. apply variance_indep; assumption.
  - rewrite (variance_ext _ (fun o => IZR (fst o - snd o)) (fun o => IZR (fst o) + -1 * IZR (snd o))) by (intros; rewrite minus_IZR; ring).
    rewrite (variance_indep D1 D2 IZR (fun e => -1 * IZR e)) by assumption. rewrite variance_scal. ring.
Qed.
Print Assumptions C65_addition.

Theorem C65_several_additions : forall l ds Ds, Forall2 (describes l) ds Ds ->
  get_modular_variance (estimate_several_additions_noise ds l) l = variance (draws Ds) (fun es => IZR (combination (map (fun _ => 1%Z) Ds) es)).
Proof.
  intros l ds Ds H. unfold estimate_several_additions_noise.
  assert (Hn : Forall (fun D => D <> []) Ds) by (induction H as [|d D ds Ds (Hd & _) _ IH]; constructor; assumption).
  rewrite combination_variance by assumption.
  assert (E : forall acc, fold_left (fun v d => v + get_modular_variance d l) ds acc = acc + rsum (combine (map (fun _ => 1%Z) Ds) Ds) (fun o => IZR (fst o) ^ 2 * zvariance (snd o))).
  { clear Hn. induction H as [|d D ds Ds (_ & _ & E) _ IH]; intros acc; cbn [fold_left map combine rsum fst snd]; [ring|]. rewrite IH, E. ring. }
  rewrite E, Rplus_0_l. apply modular_from. rewrite <- combination_variance by assumption. apply variance_nonneg.
Qed.
Print Assumptions C65_several_additions.

Section Integers.
Context (p : profile) (w : Z) (Hw : (0 < w)%Z).
(** The integers the square of which is representable *)
Definition small (n : Z) : Prop := is_word w n /\ (sgn w n * sgn w n < 2 ^ (w - 1))%Z.
Lemma signed_square_small n : small n -> signed_square p w (sgn w n) = Ret (sgn w n * sgn w n)%Z.
Proof.
  intros [_ H]. unfold signed_square. destruct (Z.leb_spec (- 2 ^ (w - 1)) (sgn w n * sgn w n)) as [_|H']; [|pose proof (pow2_pos (w - 1)); nia].
  destruct (Z.ltb_spec (sgn w n * sgn w n) (2 ^ (w - 1))); [reflexivity|lia].
Qed.
Lemma weighted_loop ds Ds ns acc : Forall2 (describes w) ds Ds -> Forall small ns ->
  exists v, weighted_sum_loop p w ds ns acc = Ret v /\
    (v - acc) * powi2 w ^ 2 = rsum (combine (map (sgn w) ns) Ds) (fun o => IZR (fst o) ^ 2 * zvariance (snd o)).
Proof.
  intros H. revert ns acc. induction H as [|d D ds Ds (HD & Hv & E) HDs IH]; intros ns acc Hns.
  - exists acc. split; [destruct ns; reflexivity|]. rewrite combine_nil. cbn. ring.
  - destruct Hns as [|n ns Hn Hns]; [exists acc; split; [reflexivity|cbn; ring]|].
    cbn [weighted_sum_loop]. unfold estimate_integer_plaintext_multiplication_noise. rewrite signed_square_small by assumption. cbn [obind get_variance].
    destruct (IH ns (acc + get_variance d * IZR (sgn w n * sgn w n)) Hns) as (v & Ev & Hv2). exists v. split; [exact Ev|].
    cbn [map combine rsum fst snd]. rewrite <- Hv2. rewrite <- E, (modular_variance_eq d w Hv), mult_IZR. ring.
Qed.

(** The estimate for a sum of ciphertexts with integer weights: [ns] are words, and count as signed integers. *)
Theorem C65_weighted_sum : forall ds Ds ns, Forall2 (describes w) ds Ds -> Forall small ns ->
  exists d, estimate_weighted_sum_noise p w ds ns = Ret d /\
    get_modular_variance d w = variance (draws Ds) (fun es => IZR (combination (map (sgn w) ns) es)).
Proof.
  intros ds Ds ns H Hns. destruct (weighted_loop ds Ds ns 0 H Hns) as (v & Ev & E). unfold estimate_weighted_sum_noise. rewrite Ev. cbn [obind].
  eexists. split; [reflexivity|].
  assert (Hn : Forall (fun D => D <> []) Ds) by (clear Ev E; induction H as [|d D ds Ds (Hd & _) _ IH]; constructor; assumption).
  rewrite combination_variance by assumption. rewrite <- E. rewrite modular_variance_eq; [cbn [get_variance]; ring|]. cbn [valid].
  assert (Hp : 0 <= v * powi2 w ^ 2) by (rewrite <- (Rminus_0_r v), E, <- combination_variance by assumption; apply variance_nonneg).
  pose proof (pow_lt _ 2 (powi2_pos w)) as Hq. destruct (Rle_or_lt 0 v) as [|Hneg]; [assumption|].
  exfalso. pose proof (Rmult_lt_compat_r _ _ _ Hq Hneg). lra.
Qed.

(** One ciphertext times an integer *)
Theorem C65_multiplication : forall d D n, describes w d D -> small n ->
  exists d', estimate_integer_plaintext_multiplication_noise p w d n = Ret d' /\
    get_modular_variance d' w = variance D (fun e => IZR (sgn w n * e)).
Proof.
  intros d D n (HD & Hv & E) Hn. unfold estimate_integer_plaintext_multiplication_noise. rewrite signed_square_small by assumption. cbn [obind].
  eexists. split; [reflexivity|]. rewrite (variance_ext _ _ (fun e => IZR (sgn w n) * IZR e)) by (intros; apply mult_IZR).
  rewrite variance_scal. fold (zvariance D). rewrite <- E, (modular_variance_eq d w Hv).
  rewrite modular_variance_eq; [cbn [get_variance]; rewrite mult_IZR; ring|]. cbn [valid].
  apply Rmult_le_pos; [destruct d; cbn in *; [left; apply powf2_pos|nra|assumption]|]. apply IZR_le. nia.
Qed.

(** A GLWE ciphertext, the N noise coefficients of which are independent, times a polynomial: every coefficient of the product *)
Theorem C65_polynomial_multiplication : forall N d D ns k, describes w d D -> Forall small ns -> length ns = N -> (k < N)%nat ->
  exists d', estimate_polynomial_plaintext_multiplication_noise p w d ns = Ret d' /\
    get_modular_variance d' w = variance (samples N D) (fun es => IZR (nega_coef N (map (sgn w) ns) es (Z.of_nat k))).
Proof.
  intros N d D ns k Hd Hns Hl Hk. unfold estimate_polynomial_plaintext_multiplication_noise.
  assert (Hf : Forall2 (describes w) (repeat d (length ns)) (repeat D (length ns))) by (clear - Hd; induction (length ns); constructor; assumption).
  destruct (C65_weighted_sum (repeat d (length ns)) (repeat D (length ns)) ns Hf Hns) as (d' & E' & V'). exists d'. split; [exact E'|].
  destruct Hd as (HD & _). rewrite V'.
  rewrite combination_variance by (clear - HD; induction (length ns); constructor; assumption).
  rewrite (variance_ext (samples N D) _ (fun s => nsum N (fun i => (sign k i * coord (map (sgn w) ns) i) * coord s (partner N k i)))).
  2:{ intros s Hs. apply samples_length in Hs. rewrite nega_coef_sum by (rewrite ?map_length; assumption). apply nsum_ext. intros. ring. }
  rewrite (proj2 (linear_combination D HD N N (fun i => sign k i * coord (map (sgn w) ns) i) (partner N k)
     ltac:(intros; apply partner_lt; assumption) ltac:(intros i j Hi Hj He; apply (partner_inj N k); assumption))).
  rewrite (moment_1 D), <- (zvariance_moments D HD).
  rewrite (nsum_ext N _ (fun i => coord (map (sgn w) ns) i ^ 2)).
  2:{ intros i Hi. rewrite Rpow_mult_distr. replace (sign k i ^ 2) with (sign k i * sign k i) by ring. rewrite sign_sq. ring. }
  clear - Hl. subst N. unfold nsum. induction ns as [|n ns IH]; [cbn; ring|].
  cbn [length repeat map combine rsum fst snd seq]. rewrite IH. rewrite <- seq_shift, rsum_map. unfold coord at 2. cbn [nth].
  rewrite (rsum_ext (seq 0 (length ns)) (fun a => coord (sgn w n :: map (sgn w) ns) (S a) ^ 2) (fun a => coord (map (sgn w) ns) a ^ 2)) by (intros; reflexivity). ring.
Qed.
End Integers.
Print Assumptions C65_weighted_sum.
Print Assumptions C65_multiplication.
Print Assumptions C65_polynomial_multiplication.

(** Larger integers: a debug build panics, and a release build can answer that there is no noise at all.  65536 * 65536 does not fit in an i32. *)
Theorem C65_multiplication_overflow_refuted :
  (forall d, estimate_integer_plaintext_multiplication_noise Debug 32 d 65536 = Panic) /\
  (forall d, estimate_integer_plaintext_multiplication_noise Release 32 d 65536 = Ret (Variance (get_variance d * 0))) /\
  exists d D, describes 32 d D /\ is_word 32 65536 /\ variance D (fun e => IZR (sgn 32 65536 * e)) = 4294967296.
Proof.
  split; [intros; reflexivity|]. split; [intros; reflexivity|].
  exists (from_modular_variance 1 32), [-1; 1]%Z. split; [|split; [unfold is_word; lia|]].
  - split; [discriminate|]. split; [apply valid_from; lra|]. rewrite modular_from by lra. unfold zvariance, variance, mean. cbn. lra.
  - replace (sgn 32 65536) with 65536%Z by reflexivity. unfold variance, mean. cbn. lra.
Qed.
Print Assumptions C65_multiplication_overflow_refuted.
