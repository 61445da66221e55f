(** * Facts about complex numbers and the negacyclic transform *)
From Coq Require Import Reals Lra Lia Permutation.
From Verif Require Import ComplexSpec.
Open Scope R_scope.

Lemma ceq (a b : complex) : fst a = fst b -> snd a = snd b -> a = b.
Proof. destruct a, b. cbn. intros -> ->. reflexivity. Qed.
Lemma c_ring : ring_theory c0 c1 cadd ctimes csub copp (@eq complex).
Proof. constructor; intros; apply ceq; cbn; ring. Qed.
Add Ring complex_ring : c_ring.

Lemma csum_ext n f g : (forall k, (k < n)%nat -> f k = g k) -> csum n f = csum n g.
Proof. induction n as [|n IH]; intros H; cbn; [reflexivity|]. rewrite IH, H by (intros; try apply H; lia). reflexivity. Qed.
Lemma csum_add n f g : csum n (fun k => cadd (f k) (g k)) = cadd (csum n f) (csum n g).
Proof. induction n as [|n IH]; cbn [csum]; [ring|]. rewrite IH. ring. Qed.
Lemma csum_mul_l n c f : csum n (fun k => ctimes c (f k)) = ctimes c (csum n f).
Proof. induction n as [|n IH]; cbn [csum]; [ring|]. rewrite IH. ring. Qed.
Lemma csum_mul_r n c f : csum n (fun k => ctimes (f k) c) = ctimes (csum n f) c.
Proof. induction n as [|n IH]; cbn [csum]; [ring|]. rewrite IH. ring. Qed.
Lemma csum_zero n f : (forall k, (k < n)%nat -> f k = c0) -> csum n f = c0.
Proof. induction n as [|n IH]; intros H; cbn; [reflexivity|]. rewrite IH, H by (intros; try apply H; lia). ring. Qed.
Lemma csum_swap n m f : csum n (fun i => csum m (fun j => f i j)) = csum m (fun j => csum n (fun i => f i j)).
Proof.
  induction n as [|n IH]; cbn [csum]; [symmetry; apply csum_zero; reflexivity|]. rewrite IH, csum_add. reflexivity.
Qed.
Lemma csum_app n m f : csum (n + m) f = cadd (csum n f) (csum m (fun k => f (n + k)%nat)).
Proof. induction m as [|m IH]; cbn [csum]; [rewrite Nat.add_0_r; ring|]. rewrite Nat.add_succ_r. cbn [csum]. rewrite IH. ring. Qed.
Lemma csum_S_l n f : csum (S n) f = cadd (f O) (csum n (fun k => f (S k))).
Proof. change (S n) with (1 + n)%nat. rewrite csum_app. cbn. ring. Qed.
Lemma csum_single n f j : (j < n)%nat -> (forall k, (k < n)%nat -> k <> j -> f k = c0) -> csum n f = f j.
Proof.
  induction n as [|n IH]; intros Hj H; [lia|]. cbn [csum]. destruct (Nat.eq_dec j n) as [->|Hn].
  - rewrite csum_zero by (intros; apply H; lia). ring.
  - rewrite IH by (try lia; intros; apply H; lia). rewrite (H n) by lia. ring.
Qed.
Lemma csum_const n c : csum n (fun _ => c) = ctimes (creal (INR n)) c.
Proof. induction n as [|n IH]; [apply ceq; cbn; ring|]. cbn [csum]. rewrite IH, S_INR. apply ceq; cbn; ring. Qed.

(** Sums do not depend on the order of their terms. *)
Definition csuml (l : list nat) (f : nat -> complex) : complex := fold_right (fun k s => cadd (f k) s) c0 l.
Lemma csum_csuml n f : csum n f = csuml (seq 0 n) f.
Proof.
  assert (G : forall a, csum n (fun k => f (a + k)%nat) = csuml (seq a n) f); [|rewrite <- G; apply csum_ext; reflexivity].
  induction n as [|n IH]; intros a; [reflexivity|]. rewrite csum_S_l. cbn [seq csuml fold_right]. fold (csuml (seq (S a) n) f). rewrite <- IH.
  rewrite Nat.add_0_r. f_equal. apply csum_ext. intros k _. f_equal. lia.
Qed.
Lemma csuml_perm l l' f : Permutation l l' -> csuml l f = csuml l' f.
Proof. unfold csuml. induction 1; cbn [fold_right]; [reflexivity|rewrite IHPermutation; reflexivity|ring|congruence]. Qed.
Lemma csum_reindex n s f : permutes n s -> csum n (fun k => f (s k)) = csum n f.
Proof.
  intros [H1 H2]. rewrite !csum_csuml.
  transitivity (csuml (map s (seq 0 n)) f).
  - generalize (seq 0 n). unfold csuml. induction l as [|k l IH]; [reflexivity|]. cbn [map fold_right]. rewrite IH. reflexivity.
  - apply csuml_perm. apply NoDup_Permutation_bis.
    + assert (G : forall l, NoDup l -> (forall k, In k l -> (k < n)%nat) -> NoDup (map s l)).
      { induction l as [|k l IH]; intros Hn Hl; [constructor|]. inversion Hn; subst. cbn. constructor.
        - rewrite in_map_iff. intros (k' & E & Hk'). apply H2 in E; [subst; contradiction|apply Hl; right; exact Hk'|apply Hl; left; reflexivity].
        - apply IH; [assumption|]. intros k' Hk'. apply Hl. right. exact Hk'. }
      apply G; [apply seq_NoDup|]. intros k Hk. apply in_seq in Hk. lia.
    + rewrite map_length. lia.
    + intros k Hk. apply in_map_iff in Hk. destruct Hk as (k' & <- & Hk). apply in_seq in Hk. apply in_seq. specialize (H1 k'). lia.
Qed.

(** ** e^(i t) *)
Lemma cis_add a b : cis (a + b) = ctimes (cis a) (cis b).
Proof. apply ceq; cbn; [rewrite cos_plus; ring|rewrite sin_plus; ring]. Qed.
Lemma cis_0 : cis 0 = c1. Proof. apply ceq; cbn; [apply cos_0|apply sin_0]. Qed.
Lemma cis_conj a : conj (cis a) = cis (- a).
Proof. apply ceq; cbn; [symmetry; apply cos_neg|symmetry; apply sin_neg]. Qed.
Lemma cis_2PI k : cis (2 * PI * IZR k) = c1.
Proof.
  assert (G : forall k, cis (2 * INR k * PI) = c1).
  { intros m. replace (2 * INR m * PI) with (0 + 2 * INR m * PI) by ring. apply ceq; cbn; [rewrite cos_period; apply cos_0|rewrite sin_period; apply sin_0]. }
  destruct k as [|q|q].
  - replace (2 * PI * 0) with 0 by ring. apply cis_0.
  - rewrite <- (G (Pos.to_nat q)). f_equal. rewrite INR_IZR_INZ, positive_nat_Z. ring.
  - pose proof (G (Pos.to_nat q)) as H. rewrite INR_IZR_INZ, positive_nat_Z in H.
    change (IZR (Z.neg q)) with (- IZR (Z.pos q)). replace (2 * PI * - IZR (Z.pos q)) with (- (2 * IZR (Z.pos q) * PI)) by ring.
    rewrite <- cis_conj, H. apply ceq; cbn; ring.
Qed.
Lemma cis_period a k : cis (a + 2 * PI * IZR k) = cis a.
Proof. rewrite cis_add, cis_2PI. ring. Qed.
Lemma cis_half : cis (PI / 2) = (0, 1). Proof. apply ceq; cbn; [apply cos_PI2|apply sin_PI2]. Qed.
Lemma cis_nhalf : cis (- (PI / 2)) = (0, -1). Proof. rewrite <- cis_conj, cis_half. reflexivity. Qed.

(** The sum of the n-th roots of unity to a power that is not a multiple of n *)
Fixpoint cpow (z : complex) (k : nat) : complex := match k with O => c1 | S k' => ctimes (cpow z k') z end.
Lemma geometric z n : ctimes (csub z c1) (csum n (cpow z)) = csub (cpow z n) c1.
Proof. induction n as [|n IH]; cbn [csum cpow]; [ring|]. replace (ctimes (csub z c1) (cadd (csum n (cpow z)) (cpow z n))) with (cadd (ctimes (csub z c1) (csum n (cpow z))) (ctimes (csub z c1) (cpow z n))) by ring. rewrite IH. ring. Qed.
Lemma cis_pow t k : cpow (cis t) k = cis (INR k * t).
Proof. induction k as [|k IH]; [cbn [cpow INR]; rewrite Rmult_0_l; symmetry; apply cis_0|]. cbn [cpow]. rewrite IH, <- cis_add, S_INR. f_equal. ring. Qed.
Lemma c_integral a b : ctimes a b = c0 -> a = c0 \/ b = c0.
Proof.
  intros H. injection H as H1 H2. destruct a as [x y], b as [u v]. cbn in *.
  assert (A : (x * x + y * y) * (u * u + v * v) = 0).
  { replace ((x * x + y * y) * (u * u + v * v)) with ((x * u - y * v) * (x * u - y * v) + (x * v + y * u) * (x * v + y * u)) by ring. rewrite H1, H2. ring. }
  apply Rmult_integral in A. destruct A as [A|A]; [left|right]; apply ceq; cbn; nra.
Qed.
Lemma root_not_one n s : (0 < s < n)%nat -> cis (2 * PI * INR s / INR n) <> c1.
Proof.
  intros Hs E. apply (f_equal fst) in E. cbn in E.
  assert (Hn : 0 < INR n) by (apply lt_0_INR; lia). assert (H0 : 0 < INR s) by (apply lt_0_INR; lia). assert (H1 : INR s < INR n) by (apply lt_INR; lia).
  replace (2 * PI * INR s / INR n) with (2 * (PI * (INR s / INR n))) in E by (field; lra). rewrite cos_2a_sin in E.
  assert (Hq : 0 < INR s / INR n < 1).
  { split; [apply Rdiv_lt_0_compat; assumption|]. apply (Rmult_lt_reg_r (INR n)); [assumption|]. unfold Rdiv. rewrite Rmult_assoc, Rinv_l by lra. lra. }
  pose proof PI_RGT_0 as Hp. assert (0 < sin (PI * (INR s / INR n))) by (apply sin_gt_0; nra). nra.
Qed.
Lemma root_sum n s : (0 < s < n)%nat -> csum n (fun k => cis (- (2 * PI * INR s * INR k / INR n))) = c0.
Proof.
  intros Hs. set (z := cis (- (2 * PI * INR s / INR n))). assert (Hn : 0 < INR n) by (apply lt_0_INR; lia).
  assert (E : csum n (fun k => cis (- (2 * PI * INR s * INR k / INR n))) = csum n (cpow z)).
  { apply csum_ext. intros k _. unfold z. rewrite cis_pow. f_equal. field. lra. }
  rewrite E. pose proof (geometric z n) as G. assert (P : cpow z n = c1).
  { unfold z. rewrite cis_pow. replace (INR n * - (2 * PI * INR s / INR n)) with (2 * PI * IZR (- Z.of_nat s)); [apply cis_2PI|]. rewrite opp_IZR, <- INR_IZR_INZ. field. lra. }
  rewrite P in G. replace (csub c1 c1) with c0 in G by ring. apply c_integral in G. destruct G as [G|G]; [|exact G]. exfalso.
  apply (root_not_one n s Hs). assert (Z1 : z = c1) by (replace z with (cadd (csub z c1) c1) by ring; rewrite G; ring).
  unfold z in Z1. rewrite <- cis_conj in Z1. apply (f_equal conj) in Z1. replace (conj (conj (cis (2 * PI * INR s / INR n)))) with (cis (2 * PI * INR s / INR n)) in Z1 by (apply ceq; cbn; ring).
  rewrite Z1. apply ceq; cbn; ring.
Qed.

(** ** The evaluation points of the negacyclic transform *)
Definition angle (n : nat) (order : nat -> nat) (k : nat) : R := PI / (2 * INR n) - 2 * PI * INR (order k) / INR n.
Section transform.
Context (n : nat) (order : nat -> nat) (Hn : (0 < n)%nat) (Ho : permutes n order).
Lemma n_pos : 0 < INR n. Proof. apply lt_0_INR. exact Hn. Qed.
Lemma angle_n k q : cis (IZR q * INR n * angle n order k) = cis (IZR q * (PI / 2)).
Proof.
  pose proof n_pos. rewrite <- (cis_period (IZR q * (PI / 2)) (- q * Z.of_nat (order k))). f_equal.
  unfold angle. rewrite mult_IZR, opp_IZR, <- INR_IZR_INZ. field. lra.
Qed.
(** Sums of powers of the evaluation points *)
Lemma power_sum m : csum n (fun k => cis (IZR m * angle n order k)) =
  if (m mod Z.of_nat n =? 0)%Z then ctimes (creal (INR n)) (cis (IZR (m / Z.of_nat n) * (PI / 2))) else c0.
Proof.
  pose proof n_pos as Hp. set (q := (m / Z.of_nat n)%Z). set (s := (m mod Z.of_nat n)%Z).
  assert (Em : (m = q * Z.of_nat n + s)%Z) by (unfold q, s; pose proof (Z.div_mod m (Z.of_nat n) ltac:(lia)); lia).
  assert (Hs : (0 <= s < Z.of_nat n)%Z) by (apply Z.mod_pos_bound; lia).
  assert (E : forall k, cis (IZR m * angle n order k) = ctimes (cis (IZR q * (PI / 2))) (cis (IZR s * angle n order k))).
  { intros k. rewrite <- (angle_n k q), <- cis_add. f_equal. rewrite Em, plus_IZR, mult_IZR, <- INR_IZR_INZ. ring. }
  rewrite (csum_ext _ _ _ (fun k _ => E k)), csum_mul_l. clear E. destruct (Z.eqb_spec s 0) as [->|H0].
  - rewrite (csum_ext _ _ (fun _ => c1)) by (intros; rewrite Rmult_0_l; apply cis_0). rewrite csum_const. ring.
  - set (s' := Z.to_nat s). assert (Es : IZR s = INR s') by (unfold s'; rewrite INR_IZR_INZ, Z2Nat.id by lia; reflexivity).
    rewrite (csum_ext _ _ (fun k => ctimes (cis (IZR s * (PI / (2 * INR n)))) (cis (- (2 * PI * INR s' * INR (order k) / INR n))))).
    + rewrite csum_mul_l, (csum_reindex n order (fun k => cis (- (2 * PI * INR s' * INR k / INR n))) Ho), root_sum by (unfold s'; lia). ring.
    + intros k _. rewrite <- cis_add. f_equal. unfold angle. rewrite Es. field. lra.
Qed.

(** Values of a polynomial (of 2n real coefficients) at the evaluation points *)
Definition values (f : Z -> R) (k : nat) : complex := csum (2 * n) (fun j => ctimes (creal (f (Z.of_nat j))) (cis (INR j * angle n order k))).
(** Interpolation: for every integer m *)
Lemma interpolation (f : Z -> R) m : (forall k, f (k + 2 * Z.of_nat n)%Z = - f k) ->
  csum n (fun k => ctimes (cis (- (IZR m * angle n order k))) (values f k)) = ctimes (creal (INR n)) (f m, f (m + Z.of_nat n)%Z).
Proof.
  intros Hf. pose proof n_pos as Hp.
  assert (P : forall m, csum n (fun k => ctimes (cis (- (IZR (m + 2 * Z.of_nat n) * angle n order k))) (values f k)) = copp (csum n (fun k => ctimes (cis (- (IZR m * angle n order k))) (values f k)))).
  { intros x. transitivity (csum n (fun k => ctimes (copp c1) (ctimes (cis (- (IZR x * angle n order k))) (values f k)))); [|rewrite csum_mul_l; ring].
    apply csum_ext. intros k _. replace (- (IZR (x + 2 * Z.of_nat n) * angle n order k)) with (- (IZR x * angle n order k) + IZR (-2) * INR n * angle n order k) by (rewrite plus_IZR, mult_IZR, <- INR_IZR_INZ; change (IZR (-2)) with (- (2)); ring).
    rewrite cis_add, angle_n. replace (IZR (-2) * (PI / 2)) with (- PI) by field. rewrite <- (cis_conj PI). replace (conj (cis PI)) with (copp c1) by (apply ceq; cbn; [rewrite cos_PI; ring|rewrite sin_PI; ring]). ring. }
  assert (P2 : forall m, csum n (fun k => ctimes (cis (- (IZR m * angle n order k))) (values f k)) = ctimes (creal (INR n)) (f m, f (m + Z.of_nat n)%Z) <->
      csum n (fun k => ctimes (cis (- (IZR (m + 2 * Z.of_nat n) * angle n order k))) (values f k)) = ctimes (creal (INR n)) (f (m + 2 * Z.of_nat n)%Z, f (m + 2 * Z.of_nat n + Z.of_nat n)%Z)).
  { intros x. rewrite P. replace (x + 2 * Z.of_nat n + Z.of_nat n)%Z with (x + Z.of_nat n + 2 * Z.of_nat n)%Z by lia. rewrite !Hf.
    replace (ctimes (creal (INR n)) (- f x, - f (x + Z.of_nat n)%Z)) with (copp (ctimes (creal (INR n)) (f x, f (x + Z.of_nat n)%Z))) by (apply ceq; cbn; ring).
    split; intros H; [rewrite H; reflexivity|]. apply (f_equal copp) in H. assert (CC : forall a, copp (copp a) = a) by (intros; ring). rewrite !CC in H. exact H. }
  assert (B : forall m, (0 <= m < 2 * Z.of_nat n)%Z -> csum n (fun k => ctimes (cis (- (IZR m * angle n order k))) (values f k)) = ctimes (creal (INR n)) (f m, f (m + Z.of_nat n)%Z)).
  { clear m P P2. intros m Hm.
    rewrite (csum_ext _ _ (fun k => csum (2 * n) (fun j => ctimes (creal (f (Z.of_nat j))) (cis (IZR (Z.of_nat j - m) * angle n order k))))).
    2:{ intros k _. unfold values. rewrite <- csum_mul_l. apply csum_ext. intros j _. rewrite minus_IZR, <- INR_IZR_INZ.
        replace ((INR j - IZR m) * angle n order k) with (- (IZR m * angle n order k) + INR j * angle n order k) by ring. rewrite cis_add. ring. }
    rewrite csum_swap. rewrite (csum_ext _ _ (fun j => ctimes (creal (f (Z.of_nat j))) (csum n (fun k => cis (IZR (Z.of_nat j - m) * angle n order k))))) by (intros; apply csum_mul_l).
    set (d := fun j : nat => if (Z.of_nat j =? m)%Z then ctimes (creal (INR n)) c1 else if (Z.of_nat j =? m + Z.of_nat n)%Z then ctimes (creal (INR n)) (0, 1) else if (Z.of_nat j =? m - Z.of_nat n)%Z then ctimes (creal (INR n)) (0, -1) else c0).
    rewrite (csum_ext _ _ (fun j => ctimes (creal (f (Z.of_nat j))) (d j))).
    2:{ intros j Hj. f_equal. rewrite power_sum. unfold d. destruct (Z.eqb_spec (Z.of_nat j) m) as [->|H1].
        - rewrite Z.sub_diag, Z.mod_0_l, Z.div_0_l by lia. cbn [Z.eqb]. rewrite Rmult_0_l, cis_0. reflexivity.
        - destruct (Z.eqb_spec (Z.of_nat j) (m + Z.of_nat n)) as [->|H2].
          + replace (m + Z.of_nat n - m)%Z with (Z.of_nat n) by lia. rewrite Z.mod_same, Z.div_same by lia. cbn [Z.eqb]. rewrite Rmult_1_l, cis_half. reflexivity.
          + destruct (Z.eqb_spec (Z.of_nat j) (m - Z.of_nat n)) as [->|H3].
            * replace (m - Z.of_nat n - m)%Z with (-1 * Z.of_nat n)%Z by lia. rewrite Z.mod_mul, Z.div_mul by lia. cbn [Z.eqb]. replace (-1 * (PI / 2)) with (- (PI / 2)) by ring. rewrite cis_nhalf. reflexivity.
            * destruct (Z.eqb_spec ((Z.of_nat j - m) mod Z.of_nat n) 0) as [H4|H4]; [exfalso|reflexivity].
              apply Z.mod_divide in H4; [|lia]. destruct H4 as [c Hc]. assert (c = -1 \/ c = 0 \/ c = 1)%Z by nia. nia. }
    destruct (Z.lt_ge_cases m (Z.of_nat n)) as [Hmn|Hmn].
    - assert (S2 : csum (2 * n) (fun j => ctimes (creal (f (Z.of_nat j))) (d j)) = cadd (ctimes (creal (f m)) (ctimes (creal (INR n)) c1)) (ctimes (creal (f (m + Z.of_nat n)%Z)) (ctimes (creal (INR n)) (0, 1)))).
      { replace (2 * n)%nat with (n + n)%nat by lia. rewrite csum_app. f_equal.
        - rewrite (csum_single n _ (Z.to_nat m)); [unfold d; rewrite Z2Nat.id by lia; rewrite Z.eqb_refl; reflexivity|lia|].
          intros k Hk Hne. unfold d. destruct (Z.eqb_spec (Z.of_nat k) m); [lia|]. destruct (Z.eqb_spec (Z.of_nat k) (m + Z.of_nat n)); [lia|]. destruct (Z.eqb_spec (Z.of_nat k) (m - Z.of_nat n)); [lia|]. ring.
        - rewrite (csum_single n _ (Z.to_nat m)).
          + unfold d. replace (Z.of_nat (n + Z.to_nat m)) with (m + Z.of_nat n)%Z by lia. destruct (Z.eqb_spec (m + Z.of_nat n) m); [lia|]. rewrite Z.eqb_refl. reflexivity.
          + lia.
          + intros k Hk Hne. unfold d. destruct (Z.eqb_spec (Z.of_nat (n + k)) m); [lia|]. destruct (Z.eqb_spec (Z.of_nat (n + k)) (m + Z.of_nat n)); [lia|]. destruct (Z.eqb_spec (Z.of_nat (n + k)) (m - Z.of_nat n)); [lia|]. ring. }
      rewrite S2. apply ceq; cbn; ring.
    - assert (S2 : csum (2 * n) (fun j => ctimes (creal (f (Z.of_nat j))) (d j)) = cadd (ctimes (creal (f (m - Z.of_nat n)%Z)) (ctimes (creal (INR n)) (0, -1))) (ctimes (creal (f m)) (ctimes (creal (INR n)) c1))).
      { replace (2 * n)%nat with (n + n)%nat by lia. rewrite csum_app. f_equal.
        - rewrite (csum_single n _ (Z.to_nat (m - Z.of_nat n))).
          + unfold d. rewrite Z2Nat.id by lia. destruct (Z.eqb_spec (m - Z.of_nat n) m); [lia|]. destruct (Z.eqb_spec (m - Z.of_nat n) (m + Z.of_nat n)); [lia|]. rewrite Z.eqb_refl. reflexivity.
          + lia.
          + intros k Hk Hne. unfold d. destruct (Z.eqb_spec (Z.of_nat k) m); [lia|]. destruct (Z.eqb_spec (Z.of_nat k) (m + Z.of_nat n)); [lia|]. destruct (Z.eqb_spec (Z.of_nat k) (m - Z.of_nat n)); [lia|]. ring.
        - rewrite (csum_single n _ (Z.to_nat (m - Z.of_nat n))).
          + unfold d. replace (Z.of_nat (n + Z.to_nat (m - Z.of_nat n))) with m by lia. rewrite Z.eqb_refl. reflexivity.
          + lia.
          + intros k Hk Hne. unfold d. destruct (Z.eqb_spec (Z.of_nat (n + k)) m); [lia|]. destruct (Z.eqb_spec (Z.of_nat (n + k)) (m + Z.of_nat n)); [lia|]. destruct (Z.eqb_spec (Z.of_nat (n + k)) (m - Z.of_nat n)); [lia|]. ring. }
      rewrite S2. replace (m + Z.of_nat n)%Z with (m - Z.of_nat n + 2 * Z.of_nat n)%Z by lia. rewrite Hf. apply ceq; cbn; ring. }
  (* every m is some number of periods away from one in range *)
  set (Prop_at := fun m => csum n (fun k => ctimes (cis (- (IZR m * angle n order k))) (values f k)) = ctimes (creal (INR n)) (f m, f (m + Z.of_nat n)%Z)).
  assert (G : forall (c : nat) x, (0 <= x < 2 * Z.of_nat n)%Z -> Prop_at (x + 2 * Z.of_nat n * Z.of_nat c)%Z /\ Prop_at (x - 2 * Z.of_nat n * Z.of_nat c)%Z).
  { induction c as [|c IH]; intros x Hx.
    - rewrite Z.mul_0_r, Z.add_0_r, Z.sub_0_r. split; apply B; exact Hx.
    - destruct (IH x Hx) as [A1 A2]. split.
      + replace (x + 2 * Z.of_nat n * Z.of_nat (S c))%Z with (x + 2 * Z.of_nat n * Z.of_nat c + 2 * Z.of_nat n)%Z by lia. exact (proj1 (P2 _) A1).
      + apply (proj2 (P2 _)). replace (x - 2 * Z.of_nat n * Z.of_nat (S c) + 2 * Z.of_nat n)%Z with (x - 2 * Z.of_nat n * Z.of_nat c)%Z by lia. exact A2. }
  pose proof (Z.div_mod m (2 * Z.of_nat n) ltac:(lia)) as Em. pose proof (Z.mod_pos_bound m (2 * Z.of_nat n) ltac:(lia)) as Bm.
  change (Prop_at m). destruct (Z.le_ge_cases 0 (m / (2 * Z.of_nat n))) as [H|H].
  - destruct (G (Z.to_nat (m / (2 * Z.of_nat n))) _ Bm) as [A _]. rewrite Z2Nat.id in A by lia. replace m with (m mod (2 * Z.of_nat n) + 2 * Z.of_nat n * (m / (2 * Z.of_nat n)))%Z by lia. exact A.
  - destruct (G (Z.to_nat (- (m / (2 * Z.of_nat n)))) _ Bm) as [_ A]. rewrite Z2Nat.id in A by lia.
    replace m with (m mod (2 * Z.of_nat n) - 2 * Z.of_nat n * - (m / (2 * Z.of_nat n)))%Z by lia. exact A.
Qed.
(** The product of the values at every point belongs to the negacyclic product. *)
Definition nega_product (f g : Z -> R) (m : Z) : R := rsumr (2 * n) (fun i => f (Z.of_nat i) * g (m - Z.of_nat i)%Z).
Lemma csum_pair N (f g : nat -> R) : csum N (fun i => (f i, g i)) = (rsumr N f, rsumr N g).
Proof. induction N as [|N IH]; [reflexivity|]. cbn [csum rsumr]. rewrite IH. reflexivity. Qed.
Lemma convolution (f g : Z -> R) m : (forall k, g (k + 2 * Z.of_nat n)%Z = - g k) ->
  csum n (fun k => ctimes (cis (- (IZR m * angle n order k))) (ctimes (values f k) (values g k))) =
  ctimes (creal (INR n)) (nega_product f g m, nega_product f g (m + Z.of_nat n)%Z).
Proof.
  intros Hg.
  rewrite (csum_ext _ _ (fun k => csum (2 * n) (fun i => ctimes (creal (f (Z.of_nat i))) (ctimes (cis (- (IZR (m - Z.of_nat i) * angle n order k))) (values g k))))).
  2:{ intros k _. transitivity (ctimes (values f k) (ctimes (cis (- (IZR m * angle n order k))) (values g k))); [ring|]. unfold values at 1. rewrite <- csum_mul_r. apply csum_ext. intros i _.
      rewrite minus_IZR, <- INR_IZR_INZ. replace (- ((IZR m - INR i) * angle n order k)) with (INR i * angle n order k + - (IZR m * angle n order k)) by ring. rewrite cis_add. ring. }
  rewrite csum_swap. rewrite (csum_ext _ _ (fun i => ctimes (creal (INR n)) (f (Z.of_nat i) * g (m - Z.of_nat i)%Z, f (Z.of_nat i) * g (m + Z.of_nat n - Z.of_nat i)%Z))).
  - rewrite csum_mul_l, csum_pair. reflexivity.
  - intros i _. rewrite csum_mul_l, interpolation by exact Hg. replace (m + Z.of_nat n - Z.of_nat i)%Z with (m - Z.of_nat i + Z.of_nat n)%Z by lia. apply ceq; cbn; ring.
Qed.
(** The values are the Fourier transform of the twisted half-size complex vector. *)
Lemma values_dft (f : Z -> R) k : values f k = dft n (fun j => ctimes (f (Z.of_nat j), f (Z.of_nat j + Z.of_nat n)%Z) (twist n j)) (order k).
Proof.
  pose proof n_pos as Hp. unfold values, dft. replace (2 * n)%nat with (n + n)%nat by lia. rewrite csum_app, <- csum_add. apply csum_ext. intros j _.
  assert (E : cis (INR (n + j) * angle n order k) = ctimes (0, 1) (cis (INR j * angle n order k))).
  { rewrite plus_INR. replace ((INR n + INR j) * angle n order k) with (IZR 1 * INR n * angle n order k + INR j * angle n order k) by ring. rewrite cis_add, angle_n, Rmult_1_l, cis_half. reflexivity. }
  rewrite E. assert (E2 : cis (INR j * angle n order k) = ctimes (twist n j) (cis (- (2 * PI * INR j * INR (order k) / INR n)))).
  { unfold twist. rewrite <- cis_add. f_equal. unfold angle. field. lra. }
  rewrite <- E2 || idtac. replace (Z.of_nat (n + j)) with (Z.of_nat j + Z.of_nat n)%Z by lia. rewrite E2. apply ceq; cbn; ring.
Qed.
End transform.

(** ** Moduli *)
Lemma cmod_pos a : 0 <= cmod a. Proof. apply sqrt_pos. Qed.
Lemma cmod_sq a : cmod a * cmod a = fst a * fst a + snd a * snd a.
Proof. unfold cmod. apply sqrt_sqrt. nra. Qed.
Lemma cmod_le a r : 0 <= r -> fst a * fst a + snd a * snd a <= r * r -> cmod a <= r.
Proof. intros Hr H. rewrite <- cmod_sq in H. pose proof (cmod_pos a). nra. Qed.
Lemma cmod_unique a r : 0 <= r -> fst a * fst a + snd a * snd a = r * r -> cmod a = r.
Proof. intros Hr H. rewrite <- cmod_sq in H. pose proof (cmod_pos a). nra. Qed.
Lemma cmod_times a b : cmod (ctimes a b) = cmod a * cmod b.
Proof.
  apply cmod_unique; [pose proof (cmod_pos a); pose proof (cmod_pos b); nra|].
  replace (cmod a * cmod b * (cmod a * cmod b)) with ((cmod a * cmod a) * (cmod b * cmod b)) by ring. rewrite !cmod_sq. cbn. ring.
Qed.
Lemma cmod_add a b : cmod (cadd a b) <= cmod a + cmod b.
Proof.
  pose proof (cmod_pos a). pose proof (cmod_pos b). apply cmod_le; [lra|]. pose proof (cmod_sq a) as Ha. pose proof (cmod_sq b) as Hb.
  assert (C : fst a * fst b + snd a * snd b <= cmod a * cmod b).
  { apply Rsqr_incr_0_var; [|apply Rmult_le_pos; assumption]. unfold Rsqr.
    replace (cmod a * cmod b * (cmod a * cmod b)) with ((cmod a * cmod a) * (cmod b * cmod b)) by ring. rewrite Ha, Hb.
    pose proof (Rle_0_sqr (fst a * snd b - snd a * fst b)) as P. unfold Rsqr in P.
    replace ((fst a * fst a + snd a * snd a) * (fst b * fst b + snd b * snd b)) with
      ((fst a * fst b + snd a * snd b) * (fst a * fst b + snd a * snd b) + (fst a * snd b - snd a * fst b) * (fst a * snd b - snd a * fst b)) by ring. lra. }
  cbn [fst snd cadd].
  replace ((fst a + fst b) * (fst a + fst b) + (snd a + snd b) * (snd a + snd b)) with
    ((fst a * fst a + snd a * snd a) + (fst b * fst b + snd b * snd b) + 2 * (fst a * fst b + snd a * snd b)) by ring.
  rewrite <- Ha, <- Hb. replace ((cmod a + cmod b) * (cmod a + cmod b)) with (cmod a * cmod a + cmod b * cmod b + 2 * (cmod a * cmod b)) by ring. lra.
Qed.
Lemma cmod_0 : cmod c0 = 0. Proof. apply cmod_unique; cbn; lra. Qed.
Lemma cmod_opp a : cmod (copp a) = cmod a. Proof. unfold cmod. cbn. f_equal. ring. Qed.
Lemma cmod_sub_sym a b : cmod (csub a b) = cmod (csub b a). Proof. unfold cmod. cbn. f_equal. ring. Qed.
Lemma cmod_sub a b : cmod (csub a b) <= cmod a + cmod b.
Proof. replace (csub a b) with (cadd a (copp b)) by ring. rewrite <- (cmod_opp b). apply cmod_add. Qed.
Lemma cmod_tri a b c : cmod (csub a c) <= cmod (csub a b) + cmod (csub b c).
Proof. replace (csub a c) with (cadd (csub a b) (csub b c)) by ring. apply cmod_add. Qed.
Lemma cmod_cis t : cmod (cis t) = 1.
Proof. apply cmod_unique; [lra|]. cbn. pose proof (sin2_cos2 t) as H. unfold Rsqr in H. lra. Qed.
Lemma cmod_real x : cmod (creal x) = Rabs x.
Proof. apply cmod_unique; [apply Rabs_pos|]. cbn. unfold Rabs. destruct (Rcase_abs x); ring. Qed.
Lemma cmod_fst a : Rabs (fst a) <= cmod a.
Proof. rewrite <- (Rabs_pos_eq (cmod a) (cmod_pos a)). apply Rsqr_le_abs_0. unfold Rsqr. rewrite cmod_sq. nra. Qed.
Lemma cmod_snd a : Rabs (snd a) <= cmod a.
Proof. rewrite <- (Rabs_pos_eq (cmod a) (cmod_pos a)). apply Rsqr_le_abs_0. unfold Rsqr. rewrite cmod_sq. nra. Qed.
Lemma cmod_parts a : cmod a <= Rabs (fst a) + Rabs (snd a).
Proof.
  pose proof (Rabs_pos (fst a)). pose proof (Rabs_pos (snd a)). apply cmod_le; [lra|].
  pose proof (Rsqr_abs (fst a)) as A. pose proof (Rsqr_abs (snd a)) as B. unfold Rsqr in *. nra.
Qed.
Lemma rsumr_ext n f g : (forall k, (k < n)%nat -> f k = g k) -> rsumr n f = rsumr n g.
Proof. induction n as [|n IH]; intros H; cbn; [reflexivity|]. rewrite IH, H by (intros; try apply H; lia). reflexivity. Qed.
Lemma rsumr_le n f g : (forall k, (k < n)%nat -> f k <= g k) -> rsumr n f <= rsumr n g.
Proof. induction n as [|n IH]; intros H; cbn; [lra|]. apply Rplus_le_compat; [apply IH; intros; apply H; lia|apply H; lia]. Qed.
Lemma rsumr_pos n f : (forall k, (k < n)%nat -> 0 <= f k) -> 0 <= rsumr n f.
Proof. induction n as [|n IH]; intros H; cbn; [lra|]. apply Rplus_le_le_0_compat; [apply IH; intros; apply H; lia|apply H; lia]. Qed.
Lemma rsumr_mul n c f : rsumr n (fun k => c * f k) = c * rsumr n f.
Proof. induction n as [|n IH]; cbn; [ring|]. rewrite IH. ring. Qed.
Lemma rsumr_add n f g : rsumr n (fun k => f k + g k) = rsumr n f + rsumr n g.
Proof. induction n as [|n IH]; cbn; [ring|]. rewrite IH. ring. Qed.
Lemma rsumr_const n c : rsumr n (fun _ => c) = INR n * c.
Proof. induction n as [|n IH]; [cbn; ring|]. cbn [rsumr]. rewrite IH, S_INR. ring. Qed.
Lemma rsumr_app n m f : rsumr (n + m) f = rsumr n f + rsumr m (fun k => f (n + k)%nat).
Proof. induction m as [|m IH]; cbn [rsumr]; [rewrite Nat.add_0_r; ring|]. rewrite Nat.add_succ_r. cbn [rsumr]. rewrite IH. ring. Qed.
Lemma cmod_csum n f : cmod (csum n f) <= rsumr n (fun k => cmod (f k)).
Proof.
  induction n as [|n IH]; cbn [csum rsumr]; [rewrite cmod_0; lra|]. eapply Rle_trans; [apply cmod_add|]. lra.
Qed.
Lemma csum_sub n f g : csum n (fun k => csub (f k) (g k)) = csub (csum n f) (csum n g).
Proof. induction n as [|n IH]; cbn [csum]; [ring|]. rewrite IH. ring. Qed.
(** Transforms are continuous: each value moves by at most the sum of the moves of the inputs. *)
Lemma dft_le n x k : cmod (dft n x k) <= rsumr n (fun j => cmod (x j)).
Proof. unfold dft. eapply Rle_trans; [apply cmod_csum|]. apply rsumr_le. intros j _. rewrite cmod_times, cmod_cis. lra. Qed.
Lemma dft_sub n x y k : csub (dft n x k) (dft n y k) = dft n (fun j => csub (x j) (y j)) k.
Proof. unfold dft. rewrite <- csum_sub. apply csum_ext. intros. ring. Qed.
Lemma idft_le n y o j : cmod (idft n y o j) <= rsumr n (fun k => cmod (y k)).
Proof. unfold idft. eapply Rle_trans; [apply cmod_csum|]. apply rsumr_le. intros k _. rewrite cmod_times, cmod_cis. lra. Qed.
Lemma idft_sub n x y o j : csub (idft n x o j) (idft n y o j) = idft n (fun k => csub (x k) (y k)) o j.
Proof. unfold idft. rewrite <- csum_sub. apply csum_ext. intros. ring. Qed.
