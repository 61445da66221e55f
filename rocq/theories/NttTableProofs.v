(** * Checking the tables of the transform *)
From Verif Require Import Base Word WordFacts NegaRing NttSpec NttProofs NttEval.

Fixpoint all2 (f : Z -> Z -> bool) (a b : list Z) : bool :=
  match a, b with [], [] => true | x :: a', y :: b' => f x y && all2 f a' b' | _, _ => false end.

(** [done] holds the powers of some psi in bit-reversed order, with psi = sq; the next element c of [rest]
    is a square root of psi and the elements from there on are the products by c of [done]. *)
Fixpoint check_roots (q : Z) (n : nat) (sq : Z) (done rest : list Z) : bool :=
  match n with
  | O => match rest with [] => true | _ => false end
  | S n' =>
      match rest with
      | [] => false
      | c :: _ =>
          let next := map (fun x => (c * x) mod q) done in
          ((c * c) mod q =? sq) && all2 Z.eqb (firstn (length done) rest) next
          && check_roots q n' c (done ++ next) (skipn (length done) rest)
      end
  end.
Definition check_inverses (q : Z) (roots roots_inv : list Z) : bool := all2 (fun a b => (a * b) mod q =? 1) roots roots_inv.
Definition check_residues (q : Z) (l : list Z) : bool := forallb (fun x => (0 <=? x) && (x <? q)) l.

Lemma all2_eq a b : all2 Z.eqb a b = true -> a = b.
Proof.
  revert b. induction a as [|x a IH]; intros [|y b] H; cbn in H; try discriminate; [reflexivity|].
  apply andb_true_iff in H. destruct H as [H1 H2]. apply Z.eqb_eq in H1. apply IH in H2. congruence.
Qed.
Lemma all2_nth f a b k : all2 f a b = true -> (k < length a)%nat -> f (nth k a 0) (nth k b 0) = true.
Proof.
  revert b k. induction a as [|x a IH]; intros [|y b] k H Hk; cbn in *; try discriminate; try lia.
  apply andb_true_iff in H. destruct H as [H1 H2]. destruct k as [|k]; [exact H1|]. apply IH; [exact H2|lia].
Qed.
Lemma all2_length f a b : all2 f a b = true -> length a = length b.
Proof.
  revert b. induction a as [|x a IH]; intros [|y b] H; cbn in *; try discriminate; [reflexivity|].
  apply andb_true_iff in H. destruct H as [_ H]. f_equal. apply IH. exact H.
Qed.

(** The powers of psi, in bit-reversed order *)
Definition powers_of (q : Z) (s : nat) (psi : Z) (l : list Z) : Prop :=
  length l = (2 ^ s)%nat /\ eqm q (psi ^ 2 ^ Z.of_nat s) (-1) /\
  forall k, 0 <= k < 2 ^ Z.of_nat s -> eqm q (coef l k) (psi ^ bitrev s k).

Lemma pow2_nat s : Z.of_nat (2 ^ s) = 2 ^ Z.of_nat s.
Proof. rewrite Nat2Z.inj_pow. reflexivity. Qed.

Lemma powers_step q s psi c l : 1 < q -> powers_of q s psi l -> eqm q (c * c) psi ->
  powers_of q (S s) c (l ++ map (fun x => (c * x) mod q) l).
Proof.
  intros Hq (Hl & Hpsi & Hk) Hc. pose proof (pow2_pos (Z.of_nat s)) as Hp.
  assert (E2 : forall e, 0 <= e -> eqm q (c ^ (2 * e)) (psi ^ e)).
  { intros e He. rewrite Z.pow_mul_r by lia. apply pow_eqm. rewrite Z.pow_2_r. exact Hc. }
  split; [|split].
  - rewrite app_length, map_length, Hl. cbn. lia.
  - rewrite Nat2Z.inj_succ, Z.pow_succ_r by lia. rewrite E2 by lia. exact Hpsi.
  - intros k Hk2. rewrite Nat2Z.inj_succ, Z.pow_succ_r in Hk2 by lia. pose proof (pow2_nat s) as En. destruct (Z.lt_ge_cases k (2 ^ Z.of_nat s)) as [Hlt|Hge].
    + unfold coef. rewrite app_nth1 by lia. fold (coef l k). rewrite Hk by lia. rewrite bitrev_double by lia.
      rewrite E2; [reflexivity|]. apply bitrev_range.
    + set (i := k - 2 ^ Z.of_nat s). assert (Hi : 0 <= i < 2 ^ Z.of_nat s) by lia. replace k with (2 ^ Z.of_nat s + i) at 2 by lia.
      rewrite bitrev_high by exact Hi. unfold coef. rewrite app_nth2 by lia.
      replace (Z.to_nat k - length l)%nat with (Z.to_nat i) by lia.
      rewrite (nth_indep _ 0 ((fun x => (c * x) mod q) 0)) by (rewrite map_length; lia). rewrite (map_nth (fun x => (c * x) mod q)).
      fold (coef l i). rewrite eqm_mod. pose proof (bitrev_range s i). rewrite Z.pow_add_r, Z.pow_1_r, (E2 (bitrev s i)), (Hk i Hi) by lia. apply eqm_eq. ring.
Qed.

Lemma check_roots_ok q : 1 < q -> forall n s psi sq done rest, check_roots q n sq done rest = true ->
  powers_of q s psi done -> eqm q sq psi -> forall m, (s <= m <= s + n)%nat ->
  exists psi', powers_of q m psi' (firstn (2 ^ m) (done ++ rest)).
Proof.
  intros Hq. induction n as [|n IH]; intros s psi sq done rest H Hd Hsq m Hm.
  - cbn in H. destruct rest; [|discriminate]. assert (m = s) by lia. subst m. exists psi. rewrite app_nil_r, <- (proj1 Hd), firstn_all. exact Hd.
  - cbn [check_roots] in H. destruct rest as [|c rest']; [discriminate|]. set (rest := c :: rest') in *.
    apply andb_true_iff in H. destruct H as [H H3]. apply andb_true_iff in H. destruct H as [H1 H2].
    apply Z.eqb_eq in H1. apply all2_eq in H2.
    assert (E : done ++ rest = (done ++ map (fun x => (c * x) mod q) done) ++ skipn (length done) rest).
    { rewrite <- app_assoc, <- H2, firstn_skipn. reflexivity. }
    destruct (Nat.eq_dec m s) as [->|Hne].
    + exists psi. rewrite firstn_app_exact by apply Hd. exact Hd.
    + rewrite E. apply (IH (S s) c c); [exact H3| |reflexivity|lia].
      apply (powers_step q s psi c); [exact Hq|exact Hd|]. rewrite <- Hsq, <- H1, eqm_mod. reflexivity.
Qed.

Lemma powers_start q : 1 < q -> powers_of q 0 (-1) [1].
Proof.
  intros _. split; [reflexivity|]. split; [reflexivity|]. intros k Hk. change (2 ^ Z.of_nat 0) with 1 in Hk. assert (k = 0) by lia. subst. reflexivity.
Qed.

Definition check_table (q : Z) (n : nat) (roots roots_inv : list Z) : bool :=
  match roots with
  | x :: rest => (x =? 1) && check_roots q n (q - 1) [1] rest && check_inverses q roots roots_inv && check_residues q roots && check_residues q roots_inv
  | [] => false
  end.

Lemma check_residues_ok q l : check_residues q l = true -> Forall (residue q) l.
Proof.
  unfold check_residues. intros H. rewrite forallb_forall in H. apply Forall_forall. intros x Hx. specialize (H x Hx).
  apply andb_true_iff in H. unfold residue. lia.
Qed.
Lemma Forall_firstn {A} (P : A -> Prop) n l : Forall P l -> Forall P (firstn n l).
Proof. intros H. revert n. induction H; intros [|n]; cbn; constructor; auto. Qed.
Lemma nth_firstn_lt (l : list Z) n k : (k < n)%nat -> nth k (firstn n l) 0 = nth k l 0.
Proof. revert n k. induction l as [|x l IH]; intros [|n] [|k] H; cbn; try lia; try reflexivity. apply IH. lia. Qed.

(** Every prefix of length 2^m of checked tables is a table for size 2^m. *)
Lemma check_table_ok q n roots roots_inv m n_inv : 1 < q -> check_table q n roots roots_inv = true -> (m <= n)%nat ->
  residue q n_inv -> (n_inv * 2 ^ Z.of_nat m) mod q = 1 ->
  exists psi, table_ok q m psi (firstn (2 ^ m) roots) (firstn (2 ^ m) roots_inv) n_inv.
Proof.
  intros Hq H Hm Hn1 Hn2. destruct roots as [|x rest]; [discriminate|]. unfold check_table in H.
  rewrite !andb_true_iff in H. destruct H as ((((Hx & H1) & H2) & H3) & H4). apply Z.eqb_eq in Hx. subst x.
  destruct (check_roots_ok q Hq n 0 (-1) (q - 1) [1] rest H1 (powers_start q Hq)) with (m := m) as (psi & Hp1 & Hp2 & Hp3).
  { apply (eqm_k q _ _ 1). ring. } { lia. }
  change ([1] ++ rest) with (1 :: rest) in Hp1, Hp3. exists psi.
  apply check_residues_ok in H3. apply check_residues_ok in H4. pose proof (all2_length _ _ _ H2) as Hlen.
  assert (Hl : (2 ^ m <= S (length rest))%nat).
  { rewrite firstn_length in Hp1. cbn [length] in Hp1. lia. }
  cbn [length] in Hlen.
  split; [split; [exact Hp1|apply Forall_firstn; exact H3]|].
  split; [split; [rewrite firstn_length; lia|apply Forall_firstn; exact H4]|].
  split; [exact Hn1|]. split; [exact Hp2|]. split.
  - intros k Hk. split; [apply Hp3; exact Hk|]. pose proof (pow2_nat m) as En. unfold coef. rewrite !nth_firstn_lt by lia.
    pose proof (all2_nth _ _ _ (Z.to_nat k) H2 ltac:(cbn [length]; lia)) as E. cbv beta in E. apply Z.eqb_eq in E.
    unfold eqm. rewrite E. symmetry. apply Z.mod_small. lia.
  - unfold eqm. rewrite Hn2. symmetry. apply Z.mod_small. lia.
Qed.

(** psi has order exactly 2N *)
Lemma order_exact q L psi : 2 < q -> eqm q (psi ^ 2 ^ Z.of_nat L) (-1) -> forall j, 0 < j < 2 * 2 ^ Z.of_nat L -> ~ eqm q (psi ^ j) 1.
Proof.
  intros Hq Hpsi. assert (Hone : ~ eqm q 1 (-1)).
  { rewrite eqm_divide. intros [z Hz]. assert (z = 0 \/ z = 1 \/ z >= 2 \/ z < 0) as [-> | [-> | [H|H]]] by lia; nia. }
  assert (Hodd : forall m, 0 <= m -> Z.odd m = true -> eqm q ((-1) ^ m) (-1)).
  { intros m Hm Ho. rewrite (Z.div_mod m 2) by lia. rewrite Zmod_odd, Ho, Z.pow_add_r, Z.pow_mul_r by (try apply Z.mul_nonneg_nonneg; try apply Z.div_pos; lia).
    change ((-1) ^ 2) with 1. rewrite Z.pow_1_l by (apply Z.div_pos; lia). reflexivity. }
  (* j = 2^a m with m odd *)
  assert (Hfac : forall s j, 0 < j < 2 ^ Z.of_nat s -> exists a m, (a < s)%nat /\ 0 < m /\ Z.odd m = true /\ j = 2 ^ Z.of_nat a * m).
  { induction s as [|s IH]; intros j Hj; [cbn in Hj; lia|]. rewrite Nat2Z.inj_succ, Z.pow_succ_r in Hj by lia.
    destruct (Z.odd j) eqn:Eo; [exists O, j; split; [lia|]; split; [lia|]; split; [exact Eo|]; change (2 ^ Z.of_nat 0) with 1; lia|].
    pose proof (Zmod_odd j) as Em. rewrite Eo in Em. destruct (IH (j / 2)) as (a & m & Ha & Hm & Hmo & Ej); [lia|].
    exists (S a), m. split; [lia|]. split; [exact Hm|]. split; [exact Hmo|]. rewrite Nat2Z.inj_succ, Z.pow_succ_r by lia. lia. }
  intros j Hj E. destruct (Hfac (S L) j) as (a & m & Ha & Hm & Hmo & Ej).
  { rewrite Nat2Z.inj_succ, Z.pow_succ_r by lia. exact Hj. }
  apply Hone. transitivity ((psi ^ j) ^ 2 ^ (Z.of_nat L - Z.of_nat a)).
  - symmetry. rewrite (pow_eqm q _ _ _ E). rewrite Z.pow_1_l by (apply Z.pow_nonneg; lia). reflexivity.
  - rewrite <- Z.pow_mul_r by (try apply Z.pow_nonneg; lia). rewrite Ej.
    replace (2 ^ Z.of_nat a * m * 2 ^ (Z.of_nat L - Z.of_nat a)) with (2 ^ Z.of_nat L * m).
    2:{ rewrite <- Z.mul_assoc, (Z.mul_comm m), Z.mul_assoc, <- Z.pow_add_r by lia. do 2 f_equal. lia. }
    rewrite Z.pow_mul_r by (try apply Z.pow_nonneg; lia). rewrite (pow_eqm q _ _ _ Hpsi). apply Hodd; [lia|exact Hmo].
Qed.
