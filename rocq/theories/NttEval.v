(** * The transform evaluates polynomials; products *)
From Verif Require Import Base Word WordFacts NegaRing PolySpec DecompModel PolyModel GlweModel SeededModel BootstrapModel NttModel NttSpec NttProofs.

(** ** Bit reversal *)
Lemma bitrev_double L : forall k, 0 <= k < 2 ^ Z.of_nat L -> bitrev (S L) k = 2 * bitrev L k.
Proof.
  induction L as [|L IH]; intros k Hk.
  - change (2 ^ Z.of_nat 0) with 1 in Hk. assert (k = 0) by lia. subst. reflexivity.
  - rewrite Nat2Z.inj_succ, Z.pow_succ_r in Hk by lia.
    change (bitrev (S (S L)) k) with ((k mod 2) * 2 ^ Z.of_nat (S L) + bitrev (S L) (k / 2)).
    rewrite IH by lia. change (bitrev (S L) k) with ((k mod 2) * 2 ^ Z.of_nat L + bitrev L (k / 2)).
    rewrite Nat2Z.inj_succ, Z.pow_succ_r by lia. ring.
Qed.
Lemma bitrev_high L : forall k, 0 <= k < 2 ^ Z.of_nat L -> bitrev (S L) (2 ^ Z.of_nat L + k) = 2 * bitrev L k + 1.
Proof.
  induction L as [|L IH]; intros k Hk.
  - change (2 ^ Z.of_nat 0) with 1 in *. assert (k = 0) by lia. subst. reflexivity.
  - rewrite Nat2Z.inj_succ, Z.pow_succ_r in * by lia.
    set (m := 2 ^ Z.of_nat L) in *.
    change (bitrev (S (S L)) (2 * m + k)) with (((2 * m + k) mod 2) * 2 ^ Z.of_nat (S L) + bitrev (S L) ((2 * m + k) / 2)).
    replace ((2 * m + k) / 2) with (m + k / 2) by lia. replace ((2 * m + k) mod 2) with (k mod 2) by lia.
    unfold m at 1. rewrite IH by lia. change (bitrev (S L) k) with ((k mod 2) * 2 ^ Z.of_nat L + bitrev L (k / 2)).
    rewrite Nat2Z.inj_succ, Z.pow_succ_r by lia. ring.
Qed.
Lemma bitrev_range L : forall k, 0 <= bitrev L k < 2 ^ Z.of_nat L.
Proof.
  induction L as [|L IH]; intros k; [cbn; lia|].
  change (bitrev (S L) k) with ((k mod 2) * 2 ^ Z.of_nat L + bitrev L (k / 2)).
  rewrite Nat2Z.inj_succ, Z.pow_succ_r by lia. pose proof (IH (k / 2)). assert (k mod 2 = 0 \/ k mod 2 = 1) as [-> | ->] by lia; lia.
Qed.

(** ** Evaluation of a list *)
Global Instance eqm_pow q n : Proper (eqm q ==> eqm q) (fun x => x ^ n).
Proof.
  intros a b H. destruct (Z.neg_nonneg_cases n) as [Hn|Hn]; [rewrite !Z.pow_neg_r by lia; reflexivity|].
  rewrite <- (Z2Nat.id n Hn). generalize (Z.to_nat n). clear n Hn. induction n as [|n IH]; [reflexivity|].
  rewrite Nat2Z.inj_succ, !Z.pow_succ_r by lia. apply eqm_mul; assumption.
Qed.
Lemma pow_eqm q a b n : eqm q a b -> eqm q (a ^ n) (b ^ n).
Proof. intros H. exact (eqm_pow q n a b H). Qed.

Lemma peval_app a b v : peval (a ++ b) v = peval a v + v ^ Z.of_nat (length a) * peval b v.
Proof.
  induction a as [|c a IH]; cbn [app peval length]; [change (Z.of_nat 0) with 0; rewrite Z.pow_0_r; ring|].
  rewrite IH, Nat2Z.inj_succ, Z.pow_succ_r by lia. ring.
Qed.
Global Instance peval_proper q : Proper (Forall2 (eqm q) ==> eqm q ==> eqm q) peval.
Proof.
  intros a b H x y Hxy. induction H as [|u v a b Huv _ IH]; [reflexivity|]. cbn [peval]. rewrite Huv, IH, Hxy. reflexivity.
Qed.
Lemma peval_map2 q (h : Z -> Z -> Z) c v : (forall x y, eqm q (h x y) (x + c * y)) -> forall a b, length a = length b ->
  eqm q (peval (map2 h a b) v) (peval a v + c * peval b v).
Proof.
  intros Hh. induction a as [|x a IH]; intros [|y b] Hl; try discriminate; [apply eqm_eq; cbn; ring|].
  cbn [map2 peval]. rewrite Hh, IH by (cbn in Hl; lia). apply eqm_eq. ring.
Qed.

Section Eval.
Context (q : Z).
Hypothesis Hq : 1 < q.

(** [r]: the value every node of the tree is reduced by. *)
Definition tree (roots : list Z) (n : nat) (r : nat -> Z) : Prop :=
  forall k, (1 <= k < n)%nat ->
  eqm q (r (2 * k)%nat) (nth k roots 0) /\ eqm q (r (2 * k + 1)%nat) (- nth k roots 0) /\ eqm q (nth k roots 0 * nth k roots 0) (r k).

Lemma tree_pow roots n r : tree roots n r -> forall d k i, (1 <= k)%nat -> ((k + 1) * 2 ^ d <= 2 * n)%nat -> (i < 2 ^ d)%nat ->
  eqm q (r (k * 2 ^ d + i)%nat ^ 2 ^ Z.of_nat d) (r k).
Proof.
  intros HT. induction d as [|d IH]; intros k i H1 Hk Hi.
  - cbn [Nat.pow] in *. replace (k * 1 + i)%nat with k by lia. change (2 ^ Z.of_nat 0) with 1. rewrite Z.pow_1_r. reflexivity.
  - cbn [Nat.pow] in *. assert (Hkn : (k < n)%nat) by (apply (node_lt k d n); exact Hk).
    destruct (HT k ltac:(lia)) as (T1 & T2 & T3).
    rewrite Nat2Z.inj_succ, Z.pow_succ_r by lia. rewrite (Z.mul_comm 2), Z.pow_mul_r by (try apply Z.pow_nonneg; lia).
    destruct (le_lt_dec (2 ^ d) i) as [Hge|Hlt].
    + replace (k * (2 * 2 ^ d) + i)%nat with ((2 * k + 1) * 2 ^ d + (i - 2 ^ d))%nat by lia.
      rewrite (pow_eqm q _ _ 2 (IH (2 * k + 1)%nat (i - 2 ^ d)%nat ltac:(lia) ltac:(lia) ltac:(lia))).
      rewrite (pow_eqm q _ _ 2 T2). rewrite <- T3. apply eqm_eq. ring.
    + replace (k * (2 * 2 ^ d) + i)%nat with ((2 * k) * 2 ^ d + i)%nat by lia.
      rewrite (pow_eqm q _ _ 2 (IH (2 * k)%nat i ltac:(lia) ltac:(lia) ltac:(lia))).
      rewrite (pow_eqm q _ _ 2 T1). rewrite <- T3. apply eqm_eq. ring.
Qed.

Lemma fwd_eval roots n r : tree roots n r -> forall d k l i, residues q (2 ^ d) l -> (1 <= k)%nat -> ((k + 1) * 2 ^ d <= 2 * n)%nat -> (i < 2 ^ d)%nat ->
  eqm q (nth i (fwd q roots d k l) 0) (peval l (r (k * 2 ^ d + i)%nat)).
Proof.
  intros HT. induction d as [|d IH]; intros k l i Hl H1 Hk Hi.
  - cbn [fwd Nat.pow] in *. destruct Hl as [Hl _]. destruct l as [|x [|y l]]; try discriminate. replace i with O by lia. apply eqm_eq. cbn. ring.
  - destruct (halves_of q d l Hl) as (a & b & -> & Ha & Hb). cbn [fwd].
    pose proof (fblk_residues q Hq roots (2 ^ d) k (a ++ b) ltac:(apply Hl)) as Hr. apply firstn_residues in Hr. destruct Hr as [Hr1 Hr2].
    assert (Hla : length a = (2 ^ d)%nat) by apply Ha. assert (Hlb : length b = (2 ^ d)%nat) by apply Hb.
    revert Hr1 Hr2. rewrite (blk_app (ff q) (fg q)) by apply Ha.
    rewrite firstn_app_exact, skipn_app_exact by (rewrite map2_length; lia). intros Hr1 Hr2.
    cbn [Nat.pow] in *. assert (Hkn : (k < n)%nat) by (apply (node_lt k d n); exact Hk).
    destruct (HT k ltac:(lia)) as (T1 & T2 & T3). set (s := nth k roots 0) in *.
    pose proof (fwd_residues q Hq roots d (2 * k) _ Hr1) as [Hf1 _].
    rewrite peval_app, Hla. rewrite Nat2Z.inj_pow. change (Z.of_nat 2) with 2.
    destruct (le_lt_dec (2 ^ d) i) as [Hge|Hlt].
    + rewrite app_nth2 by lia. rewrite Hf1. rewrite (IH (2 * k + 1)%nat _ (i - 2 ^ d)%nat Hr2) by lia.
      replace ((2 * k + 1) * 2 ^ d + (i - 2 ^ d))%nat with (k * (2 * 2 ^ d) + i)%nat by lia.
      rewrite (peval_map2 q _ (- s)) by (try lia; intros; unfold fg; rewrite eqm_mod; apply eqm_eq; ring).
      replace (k * (2 * 2 ^ d) + i)%nat with ((2 * k + 1) * 2 ^ d + (i - 2 ^ d))%nat by lia.
      rewrite (tree_pow roots n r HT d (2 * k + 1)%nat (i - 2 ^ d)%nat) by lia. rewrite T2. reflexivity.
    + rewrite app_nth1 by lia. rewrite (IH (2 * k)%nat _ i Hr1) by lia.
      replace ((2 * k) * 2 ^ d + i)%nat with (k * (2 * 2 ^ d) + i)%nat by lia.
      rewrite (peval_map2 q _ s) by (try lia; intros; unfold ff; rewrite eqm_mod; apply eqm_eq; ring).
      replace (k * (2 * 2 ^ d) + i)%nat with ((2 * k) * 2 ^ d + i)%nat by lia.
      rewrite (tree_pow roots n r HT d (2 * k)%nat i) by lia. rewrite T1. reflexivity.
Qed.

Lemma tree_of_table L psi roots roots_inv n_inv : table_ok q L psi roots roots_inv n_inv ->
  tree roots (2 ^ L) (fun k => psi ^ bitrev (S L) (Z.of_nat k)).
Proof.
  intros (Hr & _ & _ & Hpsi & Hk & _) k Hlt.
  assert (Hz : 0 <= Z.of_nat k < 2 ^ Z.of_nat L) by (rewrite <- (Nat2Z.inj_pow 2); lia).
  destruct (Hk _ Hz) as [E _]. unfold coef in E. rewrite Nat2Z.id in E.
  pose proof (bitrev_range L (Z.of_nat k)) as Hb.
  split; [|split].
  - change (bitrev (S L) (Z.of_nat (2 * k))) with ((Z.of_nat (2 * k) mod 2) * 2 ^ Z.of_nat L + bitrev L (Z.of_nat (2 * k) / 2)).
    replace (Z.of_nat (2 * k) / 2) with (Z.of_nat k) by lia. replace (Z.of_nat (2 * k) mod 2) with 0 by lia. rewrite E. reflexivity.
  - change (bitrev (S L) (Z.of_nat (2 * k + 1))) with ((Z.of_nat (2 * k + 1) mod 2) * 2 ^ Z.of_nat L + bitrev L (Z.of_nat (2 * k + 1) / 2)).
    replace (Z.of_nat (2 * k + 1) / 2) with (Z.of_nat k) by lia. replace (Z.of_nat (2 * k + 1) mod 2) with 1 by lia.
    rewrite E, Z.mul_1_l, Z.pow_add_r, Hpsi by lia. apply eqm_eq. ring.
  - rewrite E, bitrev_double by exact Hz. apply eqm_eq. rewrite (Z.mul_comm 2), Z.pow_mul_r by lia. ring.
Qed.

(** The roots of X^N + 1 *)
Definition leaf (L : nat) (psi i : Z) : Z := psi ^ (2 * bitrev L i + 1).

Lemma leaf_pow L psi i : eqm q (psi ^ 2 ^ Z.of_nat L) (-1) -> eqm q (leaf L psi i ^ 2 ^ Z.of_nat L) (-1).
Proof.
  intros H. unfold leaf. pose proof (bitrev_range L i). pose proof (pow2_pos (Z.of_nat L)).
  rewrite <- Z.pow_mul_r, Z.mul_comm, Z.pow_mul_r by lia. rewrite (pow_eqm q _ _ _ H).
  rewrite Z.pow_add_r, Z.pow_mul_r, Z.pow_1_r by lia. change ((-1) ^ 2) with 1. rewrite Z.pow_1_l by lia. reflexivity.
Qed.

Lemma fwd_values L psi roots roots_inv n_inv l i : table_ok q L psi roots roots_inv n_inv -> residues q (2 ^ L) l -> (i < 2 ^ L)%nat ->
  nth i (fwd q roots L 1 l) 0 = peval l (leaf L psi (Z.of_nat i)) mod q.
Proof.
  intros HT Hl Hi. pose proof (fwd_residues q Hq roots L 1 l Hl) as [Hlen Hres].
  assert (Hz : 0 <= Z.of_nat i < 2 ^ Z.of_nat L) by (rewrite <- (Nat2Z.inj_pow 2); lia).
  apply (eqm_small q); [rewrite Forall_forall in Hres; apply Hres, nth_In; lia|apply Z.mod_pos_bound; lia|].
  rewrite eqm_mod. rewrite (fwd_eval _ _ _ (tree_of_table _ _ _ _ _ HT) L 1 l i Hl) by lia.
  apply eqm_eq. f_equal. unfold leaf. f_equal. rewrite <- bitrev_high by exact Hz. f_equal. rewrite Nat2Z.inj_add, Nat.mul_1_l, Nat2Z.inj_pow. reflexivity.
Qed.

(** ** Evaluation in the ring modulo X^N + 1 *)
Section RingEval.
Context (N : nat) (v : Z).
Hypothesis (HN : (0 < N)%nat) (Hv : eqm q (v ^ Z.of_nat N) (-1)).

Definition pw (k : Z) : Z := v ^ (k mod (2 * Z.of_nat N)).
Lemma pw_small k : 0 <= k < 2 * Z.of_nat N -> pw k = v ^ k.
Proof. intros H. unfold pw. rewrite Z.mod_small by lia. reflexivity. Qed.
Lemma pw_nonneg k : 0 <= k -> eqm q (v ^ k) (pw k).
Proof.
  intros H. unfold pw. pose proof (Z.mod_pos_bound k (2 * Z.of_nat N) ltac:(lia)) as Hr.
  pose proof (Z.div_mod k (2 * Z.of_nat N) ltac:(lia)) as E. assert (He : 0 <= k / (2 * Z.of_nat N)) by (apply Z.div_pos; lia).
  set (e := k / (2 * Z.of_nat N)) in *. set (r := k mod (2 * Z.of_nat N)) in *. clearbody e r.
  replace k with (Z.of_nat N * 2 * e + r) by lia.
  rewrite Z.pow_add_r by nia. rewrite !Z.pow_mul_r by nia.
  transitivity (((-1) ^ 2) ^ e * v ^ r); [apply eqm_mul; [|reflexivity]; apply pow_eqm, pow_eqm; exact Hv|].
  change ((-1) ^ 2) with 1. rewrite Z.pow_1_l by lia. apply eqm_eq. ring.
Qed.
Lemma pw_add a b : eqm q (pw (a + b)) (pw a * pw b).
Proof.
  unfold pw at 2 3. pose proof (Z.mod_pos_bound a (2 * Z.of_nat N) ltac:(lia)). pose proof (Z.mod_pos_bound b (2 * Z.of_nat N) ltac:(lia)).
  rewrite <- Z.pow_add_r by lia. rewrite pw_nonneg by lia. apply eqm_eq. unfold pw. f_equal. symmetry. rewrite <- Z.add_mod by lia. reflexivity.
Qed.
Lemma pw_N : eqm q (pw (Z.of_nat N)) (-1).
Proof. rewrite pw_small by lia. exact Hv. Qed.

Definition reval (x : rp N) : Z := sumz N (fun i => rcoef x i * pw i).

Global Instance reval_proper : Proper (req q ==> eqm q) reval.
Proof. intros x y H. apply sumz_eqm. intros i _. rewrite (H i). reflexivity. Qed.
Lemma reval_add x y : reval (radd x y) = reval x + reval y.
Proof. unfold reval. rewrite <- sumz_add. apply sumz_ext. intros. cbn. ring. Qed.
Lemma reval_zero : reval (rzero N) = 0.
Proof. unfold reval. apply sumz_zero. intros. cbn. ring. Qed.

Lemma reval_mul x y : eqm q (reval (rmul x y)) (reval x * reval y).
Proof.
  unfold reval at 1 2.
  transitivity (sumz N (fun k => sumz N (fun i => rcoef x i * pw i * ((rcoef y (k - i) * pw (k - i)) mod q)))).
  { apply sumz_eqm. intros k _. cbn [rmul rcoef proj1_sig]. rewrite <- sumz_mul_r. apply sumz_eqm. intros i _. rewrite eqm_mod.
    replace (pw k) with (pw (i + (k - i))) by (f_equal; lia). rewrite pw_add. apply eqm_eq. cbn. ring. }
  rewrite sumz_swap, <- sumz_mul_r. apply sumz_eqm. intros i _. rewrite sumz_mul_l. apply eqm_mul; [reflexivity|].
  rewrite (sumz_ext N _ (fun k => (fun j => (rcoef y j * pw j) mod q) (- i + k))) by (intros k1 _; cbv beta; replace (- i + k1) with (k1 - i) by lia; reflexivity).
  rewrite (sumz_window N (fun j => (rcoef y j * pw j) mod q) (- i)).
  - apply sumz_eqm. intros. apply eqm_mod.
  - intros k. cbv beta. apply eqm_mod_eq2. rewrite rcoef_anti, pw_add, pw_N. apply eqm_eq. ring.
Qed.

Lemma peval_sum l : peval l v = sumz (length l) (fun i => coef l i * v ^ i).
Proof.
  induction l as [|c l IH]; [reflexivity|]. cbn [peval length]. rewrite sumz_S_l, IH, <- sumz_mul_l. change (coef (c :: l) 0) with c. rewrite Z.pow_0_r.
  f_equal; [ring|]. apply sumz_ext. intros i Hi. unfold coef. replace (Z.to_nat (i + 1)) with (S (Z.to_nat i)) by lia.
  cbn [nth]. rewrite Z.pow_add_r, Z.pow_1_r by lia. ring.
Qed.
Lemma peval_R l : length l = N -> eqm q (peval l v) (reval (R N l)).
Proof. intros Hl. rewrite peval_sum, Hl. apply eqm_eq. apply sumz_ext. intros i Hi. rewrite rcoef_R, pw_small by lia. reflexivity. Qed.
End RingEval.
End Eval.
