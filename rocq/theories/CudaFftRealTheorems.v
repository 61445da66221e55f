(** * C60, over the real numbers: the exact constants, and how close the table is to them *)
From Coq Require Import Reals Lra.
From Verif Require Import ComplexSpec ComplexFacts CudaFftTable CudaFftTableFacts.
From Verif Require Import Base CudaBlockModel CudaBlockProofs CudaFftModel CudaFftSpec CudaFftAlgebra CudaFftProofs CudaFftFacts CudaFftTheorems.
Local Open Scope R_scope.

(** Entry 1 of the table is e^(i pi/4); the angle of entry 2k is half of that of entry k; entry 2k + 1 is entry 2k times i. *)
Fixpoint tree_angle (k : positive) : R := match k with xH => PI / 4 | xO k => tree_angle k / 2 | xI k => tree_angle k / 2 + PI / 2 end.
Definition exact_twiddle (k : nat) : R * R := cis (tree_angle (Pos.of_nat k)).

Lemma twice k : (1 <= k)%nat -> Pos.of_nat (2 * k) = xO (Pos.of_nat k).
Proof. intros Hk. apply Pos2Nat.inj. rewrite Pos2Nat.inj_xO, !Nat2Pos.id by lia. reflexivity. Qed.
Lemma twice1 k : (1 <= k)%nat -> Pos.of_nat (2 * k + 1) = xI (Pos.of_nat k).
Proof. intros Hk. apply Pos2Nat.inj. rewrite Pos2Nat.inj_xI, !Nat2Pos.id by lia. lia. Qed.
Lemma exact_even k : (1 <= k)%nat -> exact_twiddle (2 * k) = cis (tree_angle (Pos.of_nat k) / 2).
Proof. intros Hk. unfold exact_twiddle. rewrite twice by exact Hk. reflexivity. Qed.
Lemma exact_odd k : (1 <= k)%nat -> exact_twiddle (2 * k + 1) = cis (tree_angle (Pos.of_nat k) / 2 + PI / 2).
Proof. intros Hk. unfold exact_twiddle. rewrite twice1 by exact Hk. reflexivity. Qed.
Lemma times_ctimes x y : CudaFftSpec.times Rplus Rmult Ropp x y = ctimes x y.
Proof. apply ceq; cbn; ring. Qed.
Lemma exact_table H : twiddle_table 0 1 Rplus Rmult Ropp H exact_twiddle.
Proof.
  unfold twiddle_table. repeat split.
  - rewrite times_ctimes. unfold exact_twiddle. cbn [Pos.of_nat tree_angle]. rewrite <- cis_add. replace (PI / 4 + PI / 4) with (PI / 2) by field. apply cis_half.
  - intros k Hk _. rewrite times_ctimes, exact_even by exact Hk. rewrite <- cis_add. unfold exact_twiddle. f_equal. field.
  - intros k Hk _. rewrite times_ctimes, exact_odd by exact Hk. rewrite <- cis_add. unfold exact_twiddle. set (a := tree_angle (Pos.of_nat k)). replace (a / 2 + PI / 2 + (a / 2 + PI / 2)) with (a + PI) by field.
    apply ceq; cbn; [apply neg_cos|apply neg_sin].
  - intros k _. unfold exact_twiddle, cis. cbn [fst snd]. pose proof (sin2_cos2 (tree_angle (Pos.of_nat k))) as E. unfold Rsqr in E. lra.
Qed.
Lemma exact_first : exact_twiddle 1 = (/ sqrt 2, / sqrt 2).
Proof. unfold exact_twiddle, cis. cbn [Pos.of_nat tree_angle]. rewrite cos_PI4, sin_PI4. f_equal; unfold Rdiv; ring. Qed.
Lemma copies_inv H : (1 <= H)%nat -> copies 0 Rplus H (/ INR H) = 1.
Proof.
  intros HH. assert (E : forall k, copies 0 Rplus k (/ INR H) = INR k * / INR H). { induction k as [|k IH]; [cbn; ring|]. cbn [copies]. rewrite IH, S_INR. ring. }
  rewrite E. apply Rinv_r, not_0_INR. lia.
Qed.
Lemma R_ring : ring_theory 0 1 Rplus Rmult Rminus Ropp (@eq R).
Proof. constructor; intros; ring. Qed.

(** With the exact constants, for every size and every schedule: products of real polynomials. *)
Theorem C60_real_product : forall ok H T opt, shape H T opt -> has_variables ok ->
  forall a b fb fo sb so rb ro c1 c2 c3 c4 m, fb <> sb -> fb <> rb -> sb <> rb ->
  usable ok H fb fo -> usable ok H sb so -> usable ok H rb ro ->
  (forall i, (i < H)%nat -> element 0 m fb fo i = packed H a i) -> (forall i, (i < H)%nat -> element 0 m sb so i = packed H b i) -> (forall i, (i < H)%nat -> element 0 m rb ro i = (0, 0)) ->
  exists m1 m2 m3 m4,
    launch addr_eqb ok T (NSMFFT_direct 0 Rplus Rmult Rminus exact_twiddle (/ sqrt 2) fb fo H opt) c1 m = Ret m1 /\
    launch addr_eqb ok T (NSMFFT_direct 0 Rplus Rmult Rminus exact_twiddle (/ sqrt 2) sb so H opt) c2 m1 = Ret m2 /\
    launch addr_eqb ok T [product_accumulate 0 Rplus Rmult Rminus (2 * H) (2 * opt) rb ro fb fo sb so] c3 m2 = Ret m3 /\
    launch addr_eqb ok T (NSMFFT_inverse 0 Rplus Rmult Rminus exact_twiddle (/ INR H) rb ro H opt) c4 m3 = Ret m4 /\
    forall i, (i < H)%nat -> element 0 m4 rb ro i = packed H (nega_coeff 0 Rplus Rmult Ropp (2 * H) a b) i.
Proof.
  intros ok H T opt Hs Hv. assert (HH : (1 <= H)%nat). { destruct Hs as (_ & _ & _ & n & _ & ->). pose proof (Nat.pow_nonzero 2 n). lia. }
  exact (C60_product 0 1 Rplus Rmult Rminus Ropp R_ring ok H T opt exact_twiddle (/ sqrt 2) (/ INR H) Hs Hv (exact_table H) exact_first (copies_inv H HH)).
Qed.

(** ** The table *)
Definition table_entry (k : nat) : R * R := (IZR (fst (entry k)) / 2 ^ 64, IZR (snd (entry k)) / 2 ^ 64).
Lemma tree_angle_range k : 0 < tree_angle k < PI.
Proof. pose proof PI_RGT_0. induction k as [k IH|k IH|]; cbn [tree_angle]; lra. Qed.
Definition close_to (e : R) (x y : R * R) : Prop := (fst x - fst y) ^ 2 + (snd x - snd y) ^ 2 <= e ^ 2.
(** Half of an angle below pi is in the first quadrant *)
Lemma half_quadrant a : 0 < a < PI -> 0 < cos (a / 2) /\ 0 < sin (a / 2).
Proof. intros Ha. pose proof PI_RGT_0. split; [apply cos_gt_0; lra|apply sin_gt_0; lra]. Qed.
Lemma norm_add x y e f : 0 <= e -> 0 <= f -> fst x ^ 2 + snd x ^ 2 <= e ^ 2 -> fst y ^ 2 + snd y ^ 2 <= f ^ 2 -> (fst x + fst y) ^ 2 + (snd x + snd y) ^ 2 <= (e + f) ^ 2.
Proof.
  intros He Hf Hx Hy. assert (Mx : cmod x <= e) by (apply cmod_le; [exact He|lra]). assert (My : cmod y <= f) by (apply cmod_le; [exact Hf|lra]).
  pose proof (cmod_add x y) as M. pose proof (cmod_pos (ComplexSpec.cadd x y)) as P. pose proof (cmod_sq (ComplexSpec.cadd x y)) as S. cbn [ComplexSpec.cadd fst snd] in S.
  replace ((fst x + fst y) ^ 2 + (snd x + snd y) ^ 2) with (cmod (ComplexSpec.cadd x y) * cmod (ComplexSpec.cadd x y)) by (rewrite S; ring).
  replace ((e + f) ^ 2) with ((e + f) * (e + f)) by ring. apply Rmult_le_compat; lra.
Qed.
(** The step: [w] near a square root of [p], [p] near [P = W^2], both [w] and [W] in the first quadrant *)
Lemma root_step w W p e d : 0 <= e -> 0 <= d -> 0 < fst w -> 0 < snd w -> 0 < fst W -> 0 < snd W -> fst W ^ 2 + snd W ^ 2 = 1 -> 96 / 100 <= fst w ^ 2 + snd w ^ 2 ->
  (fst w ^ 2 - snd w ^ 2 - fst p) ^ 2 + (2 * (fst w * snd w) - snd p) ^ 2 <= d ^ 2 -> close_to e p (ctimes W W) -> (e + d) ^ 2 <= (14 / 10 * e) ^ 2 -> close_to e w W.
Proof.
  unfold close_to. destruct w as [x y], W as [X Y], p as [u v]. cbn [fst snd ctimes]. intros He Hd Hx Hy HX HY HW Hw Hd2 He2 Hf.
  assert (N : (x ^ 2 - y ^ 2 - u + (u - (X * X - Y * Y))) ^ 2 + (2 * (x * y) - v + (v - (X * Y + Y * X))) ^ 2 <= (d + e) ^ 2).
  { apply (norm_add (x ^ 2 - y ^ 2 - u, 2 * (x * y) - v) (u - (X * X - Y * Y), v - (X * Y + Y * X)) d e Hd He); assumption. }
  assert (E : (x ^ 2 - y ^ 2 - u + (u - (X * X - Y * Y))) ^ 2 + (2 * (x * y) - v + (v - (X * Y + Y * X))) ^ 2 = ((x - X) ^ 2 + (y - Y) ^ 2) * ((x + X) ^ 2 + (y + Y) ^ 2)) by ring.
  rewrite E in N. clear E. set (D := (x - X) ^ 2 + (y - Y) ^ 2) in *. assert (HD : 0 <= D) by (unfold D; pose proof (pow2_ge_0 (x - X)); pose proof (pow2_ge_0 (y - Y)); lra).
  assert (HS : (14 / 10) ^ 2 <= (x + X) ^ 2 + (y + Y) ^ 2). { assert (0 <= x * X + y * Y) by (pose proof (Rmult_lt_0_compat _ _ Hx HX); pose proof (Rmult_lt_0_compat _ _ Hy HY); lra). replace ((x + X) ^ 2 + (y + Y) ^ 2) with (x ^ 2 + y ^ 2 + (X ^ 2 + Y ^ 2) + 2 * (x * X + y * Y)) by ring. rewrite HW. lra. }
  assert (M : D * (14 / 10) ^ 2 <= D * ((x + X) ^ 2 + (y + Y) ^ 2)) by (apply Rmult_le_compat_l; assumption).
  replace (d + e) with (e + d) in N by ring. replace ((14 / 10 * e) ^ 2) with (e ^ 2 * (14 / 10) ^ 2) in Hf by ring. clear - M N Hf. lra.
Qed.
Definition eps : R := / 2 ^ 50.
Definition delta : R := / 2 ^ 52.
Lemma pow64 : (0 < 2 ^ 64)%R. Proof. apply pow_lt. lra. Qed.
Lemma scaled_near p c : near_root p c = true ->
  ((IZR (fst c) / 2 ^ 64) ^ 2 - (IZR (snd c) / 2 ^ 64) ^ 2 - IZR (fst p) / 2 ^ 64) ^ 2 + (2 * (IZR (fst c) / 2 ^ 64 * (IZR (snd c) / 2 ^ 64)) - IZR (snd p) / 2 ^ 64) ^ 2 <= delta ^ 2.
Proof.
  destruct c as [a b]. unfold near_root. intros Hn. apply Z.leb_le in Hn. apply IZR_le in Hn. cbn [fst snd].
  rewrite plus_IZR, !mult_IZR, !minus_IZR, !mult_IZR in Hn. change (IZR (2 ^ 152)) with (IZR (Z.pow_pos 2 152)) in Hn. rewrite (Zpower_pos_powerRZ 2 152) in Hn.
  change (2 ^ 64)%Z with (Z.pow_pos 2 64) in Hn. rewrite (Zpower_pos_powerRZ 2 64) in Hn. cbn [powerRZ] in Hn.
  change (Pos.to_nat 64) with 64%nat in Hn. change (Pos.to_nat 152) with 152%nat in Hn.
  generalize dependent (IZR a). generalize dependent (IZR b). generalize (IZR (fst p)), (IZR (snd p)). clear. intros u v y x Hn.
  unfold delta. set (t := 2 ^ 64) in *. assert (Ht : t <> 0) by (unfold t; apply pow_nonzero; lra).
  assert (E : ((x / t) ^ 2 - (y / t) ^ 2 - u / t) ^ 2 + (2 * (x / t * (y / t)) - v / t) ^ 2 =
    ((x * x - y * y - u * t) * (x * x - y * y - u * t) + (2 * (x * y) - v * t) * (2 * (x * y) - v * t)) / (t * t * t * t)) by (field; exact Ht).
  rewrite E. apply Rle_trans with (2 ^ 152 / (t * t * t * t)).
  - apply Rmult_le_compat_r; [|exact Hn]. apply Rlt_le, Rinv_0_lt_compat. assert (Hp : 0 < t) by (unfold t; apply pow_lt; lra). clearbody t. repeat apply Rmult_lt_0_compat; exact Hp.
  - apply Req_le. unfold t. rewrite <- !pow_add. cbn [Nat.add]. replace (2 ^ 256) with (2 ^ 152 * (2 ^ 52 * 2 ^ 52)) by (rewrite <- !pow_add; reflexivity). field.
Qed.
Lemma scaled_long c : long_enough c = true -> 96 / 100 <= (IZR (fst c) / 2 ^ 64) ^ 2 + (IZR (snd c) / 2 ^ 64) ^ 2.
Proof.
  unfold long_enough. intros Hn. apply Z.leb_le in Hn. apply IZR_le in Hn. rewrite !mult_IZR, plus_IZR, !mult_IZR in Hn. change (2 ^ 128)%Z with (Z.pow_pos 2 128) in Hn. rewrite (Zpower_pos_powerRZ 2 128) in Hn. cbn [powerRZ] in Hn.
  change (Pos.to_nat 128) with 128%nat in Hn. replace (2 ^ 128) with (2 ^ 64 * 2 ^ 64) in Hn by (rewrite <- pow_add; reflexivity).
  generalize dependent (IZR (fst c)). generalize dependent (IZR (snd c)). clear. intros y x Hn. pose proof pow64 as Ht. set (t := 2 ^ 64) in *. clearbody t.
  replace ((x / t) ^ 2 + (y / t) ^ 2) with ((x * x + y * y) / (t * t)) by (field; lra). apply Rmult_le_reg_r with (100 * (t * t)); [nra|]. replace ((x * x + y * y) / (t * t) * (100 * (t * t))) with (100 * (x * x + y * y)) by (field; lra). lra.
Qed.
Lemma eps_step : (eps + delta) ^ 2 <= (14 / 10 * eps) ^ 2 /\ 0 <= eps /\ 0 <= delta.
Proof.
  assert (E : eps = 4 * delta). { unfold eps, delta. replace (2 ^ 52) with (4 * 2 ^ 50) by (cbn [pow]; ring). field. }
  assert (D : 0 < delta) by (apply Rinv_0_lt_compat, pow_lt; lra). rewrite E. split; [|lra]. nra.
Qed.
Lemma positive_scaled z : (0 < z)%Z -> 0 < IZR z / 2 ^ 64.
Proof. intros Hz. apply Rdiv_lt_0_compat; [apply IZR_lt, Hz|apply pow64]. Qed.

(** Every entry of the table of the program is within 2^-50 of the exact constant. *)
Theorem C60_table : length negtwiddles_scaled = 4096%nat /\ forall k, (1 <= k < 4096)%nat -> close_to (/ 2 ^ 50) (table_entry k) (exact_twiddle k).
Proof.
  split; [exact entries|]. fold eps. destruct eps_step as (Es & E0 & D0).
  intros k. induction k as [k IH] using (well_founded_induction lt_wf). intros Hk.
  destruct (Nat.eq_dec k 1) as [->|H1].
  - destruct entry_root as (R1 & R2 & R3 & R4). apply (root_step _ _ (0, 1) eps delta E0 D0).
    + apply positive_scaled, R2.
    + apply positive_scaled, R3.
    + unfold exact_twiddle. cbn. rewrite cos_PI4. apply Rdiv_lt_0_compat; [lra|apply sqrt_lt_R0; lra].
    + unfold exact_twiddle. cbn. rewrite sin_PI4. apply Rdiv_lt_0_compat; [lra|apply sqrt_lt_R0; lra].
    + unfold exact_twiddle, cis. cbn [fst snd]. pose proof (sin2_cos2 (tree_angle (Pos.of_nat 1))) as E. unfold Rsqr in E. lra.
    + apply scaled_long, R4.
    + pose proof (scaled_near _ _ R1) as N. cbn [fst snd] in N |- *. replace (IZR (2 ^ 64) / 2 ^ 64) with 1 in N. { replace (0 / 2 ^ 64) with 0 in N by (unfold Rdiv; ring). exact N. }
      change (2 ^ 64)%Z with (Z.pow_pos 2 64). rewrite (Zpower_pos_powerRZ 2 64). cbn [powerRZ]. change (Pos.to_nat 64) with 64%nat. field.
    + destruct (exact_table 2) as (T1 & _). rewrite times_ctimes in T1. rewrite T1. unfold close_to. cbn [fst snd]. nra.
    + exact Es.
  - assert (Hc : forall j, (1 <= j)%nat -> (2 * j + 1 < 4096)%nat -> (j < k)%nat -> close_to eps (table_entry (2 * j)) (exact_twiddle (2 * j))).
    { intros j Hj Hj2 Hjk. specialize (IH j Hjk ltac:(lia)). pose proof (entry_children j Hj Hj2) as C. unfold children_ok in C. rewrite !andb_true_iff in C. destruct C as [[[[[C1 C2] C3] C4] _] _]. apply Z.ltb_lt in C2, C3.
      destruct (half_quadrant _ (tree_angle_range (Pos.of_nat j))) as [Q1 Q2].
      apply (root_step _ _ (table_entry j) eps delta E0 D0).
      - apply positive_scaled, C2.
      - apply positive_scaled, C3.
      - rewrite exact_even by exact Hj. exact Q1.
      - rewrite exact_even by exact Hj. exact Q2.
      - unfold exact_twiddle, cis. cbn [fst snd]. pose proof (sin2_cos2 (tree_angle (Pos.of_nat (2 * j)))) as E. unfold Rsqr in E. lra.
      - apply scaled_long, C4.
      - exact (scaled_near _ _ C1).
      - destruct (exact_table (2 * j + 1)) as (_ & T2 & _). specialize (T2 j Hj ltac:(lia)). rewrite times_ctimes in T2. rewrite T2. exact IH.
      - exact Es. }
    destruct (Nat.Even_or_Odd k) as [[j ->]|[j ->]].
    + apply Hc; lia.
    + specialize (Hc j ltac:(lia) ltac:(lia) ltac:(lia)). pose proof (entry_children j ltac:(lia) ltac:(lia)) as C. unfold children_ok in C. rewrite !andb_true_iff in C. destruct C as [[_ C5] C6]. apply Z.eqb_eq in C5, C6.
      unfold close_to, table_entry in *. rewrite C5, C6. rewrite exact_odd by lia. rewrite exact_even in Hc by lia. set (a := tree_angle (Pos.of_nat j) / 2) in *. unfold cis in *. cbn [fst snd] in *.
      rewrite cos_plus, sin_plus, cos_PI2, sin_PI2. rewrite opp_IZR. replace (cos a * 0 - sin a * 1) with (- sin a) by ring. replace (sin a * 0 + cos a * 1) with (cos a) by ring.
      replace ((- IZR (snd (entry (2 * j))) / 2 ^ 64 - - sin a) ^ 2) with ((IZR (snd (entry (2 * j))) / 2 ^ 64 - sin a) ^ 2) by (unfold Rdiv; ring). lra.
Qed.
Print Assumptions C60_real_product.
Print Assumptions C60_table.
