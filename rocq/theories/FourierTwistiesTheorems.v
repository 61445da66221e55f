(** * C55: the twisting factors are accurate *)
From Coq Require Import QArith Qreals Qabs Lia.
From Verif Require Import Base Word SeededModel FloatModel FloatFacts FourierConvSpec FourierConvModel FourierConvProofs FourierConvTheorems FourierBackendModel.
From Coq Require Import Reals Lra Machin.
From Verif Require Import ComplexSpec ComplexFacts FourierBackendSpec FourierBackendProofs.
Open Scope R_scope.

(** pi to 17 digits *)
Lemma pi64_close : Rabs (Q2R pi64 - PI) <= 2 * u.
Proof.
  pose proof (PI_2_3_7_ineq 9) as [A B]. unfold tg_alt, PI_2_3_7_tg, Ratan_seq in A, B. cbn [Nat.mul Nat.add sum_f_R0 pow INR] in A, B.
  replace (Q2R pi64) with (884279719003555 / 281474976710656) by (unfold Q2R, pi64; cbn; lra). unfold u.
  apply Rabs_le. split; lra.
Qed.
Lemma sin_abs_le x : Rabs (sin x) <= Rabs x.
Proof.
  assert (H : forall y, 0 < y -> Rabs (sin y) <= y).
  { intros y Hy. destruct (Rle_lt_dec y 1) as [L|L].
    - assert (0 <= sin y) by (apply sin_ge_0; pose proof PI2_3_2; pose proof PI2_1; lra). rewrite Rabs_pos_eq by assumption. left. apply sin_lt_x, Hy.
    - apply Rabs_le. pose proof (SIN_bound y). lra. }
  destruct (Rtotal_order x 0) as [L|[->|L]].
  - rewrite (Rabs_left x) by lra. rewrite <- Rabs_Ropp, <- sin_neg. apply H. lra.
  - rewrite sin_0. lra.
  - rewrite (Rabs_pos_eq x) by lra. apply H, L.
Qed.
Lemma abs_one x y : Rabs x <= 1 -> Rabs (2 * x * sin (y / 2)) <= Rabs y.
Proof.
  intros Hx. pose proof (sin_abs_le (y / 2)) as S. rewrite !Rabs_mult. rewrite (Rabs_pos_eq 2) by lra. unfold Rdiv in S. rewrite Rabs_mult, (Rabs_pos_eq (/ 2)) in S by lra. fold (y / 2) in S.
  pose proof (Rabs_pos x). pose proof (Rabs_pos (sin (y / 2))). assert (Rabs x * Rabs (sin (y / 2)) <= 1 * Rabs (sin (y / 2))) by (apply Rmult_le_compat_r; assumption). lra.
Qed.
Lemma sin_lip a b : Rabs (sin a - sin b) <= Rabs (a - b).
Proof. rewrite form4. apply abs_one. apply Rabs_le. pose proof (COS_bound ((a + b) / 2)). lra. Qed.
Lemma cos_lip a b : Rabs (cos a - cos b) <= Rabs (a - b).
Proof.
  rewrite form2. replace (-2 * sin ((a - b) / 2) * sin ((a + b) / 2)) with (2 * (- sin ((a + b) / 2)) * sin ((a - b) / 2)) by ring. apply abs_one. rewrite Rabs_Ropp. apply Rabs_le. pose proof (SIN_bound ((a + b) / 2)). lra.
Qed.
Lemma rnd_R x : Rabs (Q2R (rnd x) - Q2R x) <= u * Rabs (Q2R x).
Proof. pose proof (rnd_err x) as H. apply Qle_Rle in H. rewrite Q2R_mult, !Q2R_abs, Q2R_minus in H. replace (Q2R unit_roundoff) with u in H by (unfold Q2R, u; cbn; lra). exact H. Qed.

Lemma abs_between x e : Rabs x <= e -> - e <= x <= e.
Proof. intros H. pose proof (Rle_abs x). pose proof (Rle_abs (- x)) as H'. rewrite Rabs_Ropp in H'. lra. Qed.
(** One more rounding *)
Lemma rounded x X t : 0 <= X -> Rabs (x - X) <= t * u * X -> 0 <= t <= 9 -> forall y, Rabs (y - x) <= u * Rabs x -> Rabs (y - X) <= (t + 2) * u * X.
Proof.
  intros HX Hx Ht y Hy. pose proof u_pos as U. pose proof u_small as US. assert (Ax : Rabs x <= 2 * X).
  { replace x with ((x - X) + X) by ring. eapply Rle_trans; [apply Rabs_triang|]. rewrite (Rabs_pos_eq X) by assumption. assert (t * u * X <= 1 * X) by (apply Rmult_le_compat_r; [assumption|]; nra). lra. }
  replace (y - X) with ((y - x) + (x - X)) by ring. eapply Rle_trans; [apply Rabs_triang|]. assert (u * Rabs x <= u * (2 * X)) by (apply Rmult_le_compat_l; lra). lra.
Qed.
Lemma fits_int z : (Z.abs z <= 2 ^ 53)%Z -> fits53 (inject_Z z).
Proof. intros H. exists z, 0%Z. split; [exact H|]. symmetry. apply Qmult_1_r. Qed.
Lemma exact_int_R z : (0 <= z <= 2 ^ 53)%Z -> Q2R (of_int z) = IZR z.
Proof. intros H. unfold of_int. rewrite (Qeq_eqR _ _ (rnd_exact (inject_Z z) (fits_int z ltac:(lia)))). apply Q2R_inject. Qed.

Lemma unit_close n : (0 < n)%nat -> (Z.of_nat n <= 2 ^ 52)%Z ->
  Rabs (Q2R (fdiv pi64 (fmul 2%Q (of_int (Z.of_nat n)))) - PI / (2 * INR n)) <= 4 * u * (PI / (2 * INR n)).
Proof.
  intros Hn Hb. pose proof (n_pos n Hn) as NR. pose proof PI2_3_2 as P3. pose proof PI2_1 as P1. assert (PI3 : 3 < PI) by lra.
  assert (E : Q2R (fmul 2%Q (of_int (Z.of_nat n))) = 2 * INR n).
  { unfold fmul. rewrite INR_IZR_INZ, <- mult_IZR.
    assert (Q : (of_int (Z.of_nat n) == inject_Z (Z.of_nat n))%Q) by (unfold of_int; apply rnd_exact, fits_int; lia).
    assert (Q' : (2 * of_int (Z.of_nat n) == inject_Z (2 * Z.of_nat n))%Q) by (rewrite Q, inject_Z_mult; reflexivity).
    rewrite (rnd_compat _ _ Q'). rewrite (Qeq_eqR _ _ (rnd_exact (inject_Z (2 * Z.of_nat n)) (fits_int (2 * Z.of_nat n) ltac:(lia)))). apply Q2R_inject. }
  set (d := fmul 2%Q (of_int (Z.of_nat n))) in *. assert (Dn : ~ (d == 0)%Q) by (intros C; apply Qeq_eqR in C; rewrite E, RMicromega.Q2R_0 in C; lra).
  unfold fdiv. set (X := PI / (2 * INR n)). assert (XP : 0 <= X) by (left; unfold X; apply Rdiv_lt_0_compat; lra).
  replace (4 * u * X) with ((2 + 2) * u * X) by ring. apply (rounded (Q2R (pi64 / d)) X 2 XP); [|lra|apply rnd_R].
  rewrite Q2R_div by assumption. rewrite E. unfold X. replace (Q2R pi64 / (2 * INR n) - PI / (2 * INR n)) with ((Q2R pi64 - PI) * / (2 * INR n)) by (field; lra).
  assert (I : 0 < / (2 * INR n)) by (apply Rinv_0_lt_compat; lra). rewrite Rabs_mult, (Rabs_pos_eq (/ (2 * INR n))) by lra. unfold Rdiv. rewrite <- Rmult_assoc. apply Rmult_le_compat_r; [lra|].
  pose proof pi64_close. pose proof u_pos. eapply Rle_trans; [eassumption|]. rewrite <- (Rmult_1_r (2 * u)) at 1. apply Rmult_le_compat_l; lra.
Qed.

Theorem C55_twisties : forall p sin_cos sigma k n,
  n = Nat.pow 2 k -> (k <= 52)%nat -> accurate_sin_cos sigma sin_cos ->
  exists tw, twisties_new p sin_cos n = Ret tw /\ accurate_twisties n (sigma + 1 / IZR (2 ^ 49)) tw.
Proof.
  intros p sc sigma k n En Hk Hs. assert (Hn : (0 < n)%nat) by (rewrite En; apply Nat.neq_0_lt_0, Nat.pow_nonzero; lia).
  assert (Hb : (Z.of_nat n <= 2 ^ 52)%Z) by (rewrite En, Nat2Z.inj_pow; apply Z.pow_le_mono_r; lia).
  unfold twisties_new. replace (Nat.eqb n (Nat.pow 2 (Nat.log2 n))) with true by (symmetry; apply Nat.eqb_eq; rewrite En, Nat.log2_pow2 by lia; reflexivity).
  assert (D : debug_assert p true = Ret tt) by (destruct p; reflexivity). rewrite D. cbn [obind]. eexists. split; [reflexivity|].
  set (unit := fdiv pi64 (fmul 2%Q (of_int (Z.of_nat n)))). pose proof (unit_close n Hn Hb) as HU. fold unit in HU. clearbody unit.
  pose proof (n_pos n Hn) as NR. pose proof u_pos as U. pose proof u_small as US. pose proof PI_4 as P4. pose proof PI_RGT_0 as P0.
  assert (ANG : forall j, (j < n)%nat -> let x := fmul (of_int (Z.of_nat j)) unit in 0 <= Q2R x <= 2 /\ Rabs (Q2R x - PI * INR j / (2 * INR n)) <= 1 / IZR (2 ^ 49)).
  { intros j Hj. cbv zeta. unfold fmul. set (X := PI * INR j / (2 * INR n)). pose proof (pos_INR j) as J0. pose proof (lt_INR _ _ Hj) as J1.
    assert (XE : X = INR j * (PI / (2 * INR n))) by (unfold X; field; lra).
    assert (X2 : X <= PI / 2).
    { unfold X. apply (Rmult_le_reg_r (2 * INR n)); [lra|]. unfold Rdiv. rewrite Rmult_assoc, Rinv_l by lra. assert (PI * INR j <= PI * INR n) by (apply Rmult_le_compat_l; lra). lra. }
    assert (XP : 0 <= X) by (rewrite XE; apply Rmult_le_pos; [assumption|]; left; apply Rdiv_lt_0_compat; lra).
    assert (Y : Rabs (Q2R (rnd (of_int (Z.of_nat j) * unit)) - X) <= (4 + 2) * u * X).
    { apply (rounded (Q2R (of_int (Z.of_nat j) * unit)) X 4 XP); [|lra|apply rnd_R]. rewrite Q2R_mult, exact_int_R by lia. rewrite <- INR_IZR_INZ, XE, <- Rmult_minus_distr_l, Rabs_mult, (Rabs_pos_eq (INR j)) by assumption.
      replace (4 * u * (INR j * (PI / (2 * INR n)))) with (INR j * (4 * u * (PI / (2 * INR n)))) by ring. apply Rmult_le_compat_l; assumption. }
    assert (Z : (4 + 2) * u * X <= 12 * u) by (assert (X <= 2) by lra; assert (6 * u * X <= 6 * u * 2) by (apply Rmult_le_compat_l; lra); lra).
    assert (Pb : PI / 2 <= 1.6). { pose proof pi64_close as C. unfold pi64, Q2R in C. cbn in C. apply abs_between in C. lra. }
    split; [|eapply Rle_trans; [exact Y|]; eapply Rle_trans; [exact Z|]; unfold u; cbn; lra].
    apply abs_between in Y. split; [|lra].
    assert (6 * u * X <= 1 * X) by (apply Rmult_le_compat_r; lra). lra. }
  assert (NT : forall (f : Q * Q -> Q) j, (j < n)%nat -> nth j (map f (map (fun i => sc (fmul (of_int (Z.of_nat i)) unit)) (seq 0 n))) 0%Q = f (sc (fmul (of_int (Z.of_nat j)) unit))).
  { intros f j Hj. rewrite map_map. rewrite (nth_indep _ 0%Q (f (sc (fmul (of_int (Z.of_nat 0)) unit)))) by (rewrite map_length, seq_length; exact Hj).
    rewrite (map_nth (fun i => f (sc (fmul (of_int (Z.of_nat i)) unit)))). rewrite seq_nth by exact Hj. reflexivity. }
  assert (SC : forall j, (j < n)%nat -> let x := fmul (of_int (Z.of_nat j)) unit in fits53 (fst (sc x)) /\ fits53 (snd (sc x)) /\ Rabs (Q2R (fst (sc x)) - sin (Q2R x)) <= sigma /\ Rabs (Q2R (snd (sc x)) - cos (Q2R x)) <= sigma).
  { intros j Hj. cbv zeta. apply Hs; [apply rnd_fits|]. apply (ANG j Hj). }
  assert (FA : forall f : Q * Q -> Q, (forall j, (j < n)%nat -> fits53 (f (sc (fmul (of_int (Z.of_nat j)) unit)))) -> Forall fits53 (map f (map (fun i => sc (fmul (of_int (Z.of_nat i)) unit)) (seq 0 n)))).
  { intros f Hf. rewrite map_map. apply Forall_forall. intros x Hx. apply in_map_iff in Hx. destruct Hx as (j & <- & Hj). apply in_seq in Hj. apply Hf. lia. }
  unfold accurate_twisties. cbn [tw_re tw_im]. rewrite !map_length, !seq_length. split; [reflexivity|]. split; [reflexivity|].
  split; [apply FA; intros j Hj; apply (SC j Hj)|]. split; [apply FA; intros j Hj; apply (SC j Hj)|].
  intros j Hj. rewrite !NT by exact Hj. destruct (ANG j Hj) as [_ A]. destruct (SC j Hj) as (_ & _ & S1 & S2). cbv zeta in A, S1, S2. set (x := fmul (of_int (Z.of_nat j)) unit) in *. set (X := PI * INR j / (2 * INR n)) in *.
  split.
  - replace (Q2R (snd (sc x)) - cos X) with ((Q2R (snd (sc x)) - cos (Q2R x)) + (cos (Q2R x) - cos X)) by ring. eapply Rle_trans; [apply Rabs_triang|]. pose proof (cos_lip (Q2R x) X). lra.
  - replace (Q2R (fst (sc x)) - sin X) with ((Q2R (fst (sc x)) - sin (Q2R x)) + (sin (Q2R x) - sin X)) by ring. eapply Rle_trans; [apply Rabs_triang|]. pose proof (sin_lip (Q2R x) X). lra.
Qed.
Print Assumptions C55_twisties.
