(** * Facts on finite expectations and variances *)
From Verif Require Import Base NoiseSpec.
From Coq Require Import Reals Lra Lia.
Local Open Scope R_scope.

Lemma rsum_ext {A} (l : list A) f g : (forall a, In a l -> f a = g a) -> rsum l f = rsum l g.
Proof. induction l as [|a l IH]; intros H; [reflexivity|]. cbn. rewrite H by (left; reflexivity). rewrite IH; [reflexivity|]. intros; apply H; right; assumption. Qed.
Lemma rsum_add {A} (l : list A) f g : rsum l (fun a => f a + g a) = rsum l f + rsum l g.
Proof. induction l as [|a l IH]; cbn; [lra|]. rewrite IH. lra. Qed.
Lemma rsum_scal {A} (l : list A) c f : rsum l (fun a => c * f a) = c * rsum l f.
Proof. induction l as [|a l IH]; cbn; [lra|]. rewrite IH. lra. Qed.
Lemma rsum_const {A} (l : list A) c : rsum l (fun _ => c) = INR (length l) * c.
Proof. induction l as [|a l IH]; cbn [rsum length]; [cbn; lra|]. rewrite IH, S_INR. lra. Qed.
Lemma rsum_app {A} (l m : list A) f : rsum (l ++ m) f = rsum l f + rsum m f.
Proof. induction l as [|a l IH]; cbn; [lra|]. rewrite IH. lra. Qed.
Lemma rsum_map {A B} (g : A -> B) l f : rsum (map g l) f = rsum l (fun a => f (g a)).
Proof. induction l as [|a l IH]; cbn; [reflexivity|]. rewrite IH. reflexivity. Qed.
Lemma rsum_le {A} (l : list A) f g : (forall a, In a l -> f a <= g a) -> rsum l f <= rsum l g.
Proof. induction l as [|a l IH]; intros H; cbn; [lra|]. pose proof (H a (or_introl eq_refl)). specialize (IH (fun x Hx => H x (or_intror Hx))). lra. Qed.
Lemma rsum_prod {A B} (l : list A) (m : list B) f : rsum (list_prod l m) f = rsum l (fun a => rsum m (fun b => f (a, b))).
Proof. induction l as [|a l IH]; cbn; [reflexivity|]. rewrite rsum_app, rsum_map, IH. reflexivity. Qed.
Lemma rsum_swap {A B} (l : list A) (m : list B) f : rsum l (fun a => rsum m (fun b => f a b)) = rsum m (fun b => rsum l (fun a => f a b)).
Proof.
  induction l as [|a l IH]; cbn; [rewrite rsum_const; lra|]. rewrite IH, <- rsum_add. reflexivity.
Qed.

Lemma mean_ext {A} (D : list A) f g : (forall a, In a D -> f a = g a) -> mean D f = mean D g.
Proof. intros H. unfold mean. rewrite (rsum_ext D f g H). reflexivity. Qed.
Lemma mean_add {A} (D : list A) f g : mean D (fun a => f a + g a) = mean D f + mean D g.
Proof. unfold mean. rewrite rsum_add. unfold Rdiv. ring. Qed.
Lemma mean_scal {A} (D : list A) c f : mean D (fun a => c * f a) = c * mean D f.
Proof. unfold mean. rewrite rsum_scal. unfold Rdiv. ring. Qed.
Lemma len_pos {A} (D : list A) : D <> [] -> 0 < INR (length D).
Proof. destruct D; [congruence|]. intros _. apply lt_0_INR. cbn. lia. Qed.
Lemma mean_const {A} (D : list A) c : D <> [] -> mean D (fun _ => c) = c.
Proof. intros H. unfold mean. rewrite rsum_const. pose proof (len_pos D H). field. lra. Qed.
Lemma mean_le {A} (D : list A) f g : (forall a, In a D -> f a <= g a) -> mean D f <= mean D g.
Proof.
  intros H. destruct D as [|a D]; [unfold mean; cbn; lra|]. unfold mean, Rdiv. apply Rmult_le_compat_r; [|apply rsum_le; assumption].
  left. apply Rinv_0_lt_compat. apply (len_pos (a :: D)). discriminate.
Qed.
Lemma mean_map {A B} (g : A -> B) D f : mean (map g D) f = mean D (fun a => f (g a)).
Proof. unfold mean. rewrite rsum_map, map_length. reflexivity. Qed.
Lemma mean_prod {A B} (D : list A) (E : list B) f : mean (list_prod D E) f = mean D (fun a => mean E (fun b => f (a, b))).
Proof.
  unfold mean. rewrite rsum_prod, prod_length, mult_INR. unfold Rdiv. rewrite Rinv_mult.
  rewrite (rsum_ext D (fun a => rsum E (fun b => f (a, b)) * / INR (length E)) (fun a => / INR (length E) * rsum E (fun b => f (a, b)))) by (intros; ring).
  rewrite rsum_scal. ring.
Qed.
Lemma mean_swap {A B} (D : list A) (E : list B) f : mean D (fun a => mean E (fun b => f a b)) = mean E (fun b => mean D (fun a => f a b)).
Proof.
  unfold mean at 1 3. unfold mean, Rdiv.
  rewrite (rsum_ext D _ (fun a => / INR (length E) * rsum E (fun b => f a b))) by (intros; ring).
  rewrite (rsum_ext E (fun b => rsum D (fun a => f a b) * / INR (length D)) (fun b => / INR (length D) * rsum D (fun a => f a b))) by (intros; ring).
  rewrite !rsum_scal, (rsum_swap D E). ring.
Qed.
Lemma mean_sum {A B} (D : list A) (l : list B) f : mean D (fun a => rsum l (fun b => f a b)) = rsum l (fun b => mean D (fun a => f a b)).
Proof.
  induction l as [|b l IH]; cbn; [unfold mean; rewrite rsum_const; unfold Rdiv; ring|]. rewrite mean_add, IH. reflexivity.
Qed.
Lemma mean_indep {A B} (D : list A) (E : list B) f g : mean (list_prod D E) (fun o => f (fst o) * g (snd o)) = mean D f * mean E g.
Proof.
  rewrite mean_prod. cbn [fst snd]. rewrite (mean_ext D _ (fun a => mean E g * f a)) by (intros; rewrite mean_scal; ring). rewrite mean_scal. ring.
Qed.

Lemma list_prod_nil {A B} (D : list A) (E : list B) : D <> [] -> E <> [] -> list_prod D E <> [].
Proof. destruct D as [|a D], E as [|b E]; try congruence. intros. cbn. discriminate. Qed.
Lemma samples_nil {A} n (D : list A) : D <> [] -> samples n D <> [].
Proof.
  intros H. induction n as [|n IH]; [discriminate|]. cbn. pose proof (list_prod_nil D (samples n D) H IH) as Hp. destruct (list_prod D (samples n D)); [congruence|]. discriminate.
Qed.
Lemma samples_length {A} n (D : list A) s : In s (samples n D) -> length s = n.
Proof.
  revert s. induction n as [|n IH]; intros s H; cbn in H; [destruct H as [<-|[]]; reflexivity|].
  apply in_map_iff in H. destruct H as ([a t] & <- & H). apply in_prod_iff in H. cbn. f_equal. apply IH. apply H.
Qed.
Lemma samples_in {A} n (D : list A) s : In s (samples n D) -> Forall (fun a => In a D) s.
Proof.
  revert s. induction n as [|n IH]; intros s H; cbn in H; [destruct H as [<-|[]]; constructor|].
  apply in_map_iff in H. destruct H as ([a t] & <- & H). apply in_prod_iff in H. cbn. constructor; [apply H|apply IH; apply H].
Qed.

(** ** Variances *)
Lemma variance_moments {A} (D : list A) X : D <> [] -> variance D X = mean D (fun o => X o ^ 2) - mean D X ^ 2.
Proof.
  intros H. unfold variance. set (m := mean D X).
  rewrite (mean_ext D _ (fun o => X o ^ 2 + (- 2 * m * X o + m ^ 2))) by (intros; ring).
  rewrite !mean_add, mean_scal, mean_const by assumption. fold m. ring.
Qed.
Lemma variance_ext {A} (D : list A) f g : (forall a, In a D -> f a = g a) -> variance D f = variance D g.
Proof. intros H. unfold variance. rewrite (mean_ext D f g H). apply mean_ext. intros a Ha. rewrite H by assumption. reflexivity. Qed.
Lemma variance_nonneg {A} (D : list A) X : 0 <= variance D X.
Proof.
  unfold variance. rewrite <- (Rmult_0_l 0). replace (0 * 0) with (mean D (fun _ => 0)) by (unfold mean; rewrite rsum_const; unfold Rdiv; ring).
  apply mean_le. intros. apply pow2_ge_0.
Qed.
Lemma variance_scal {A} (D : list A) c X : variance D (fun o => c * X o) = c ^ 2 * variance D X.
Proof.
  unfold variance. rewrite <- (mean_scal D (c ^ 2)). apply mean_ext. intros. rewrite mean_scal. ring.
Qed.
Lemma variance_shift {A} (D : list A) c X : D <> [] -> variance D (fun o => X o + c) = variance D X.
Proof.
  intros H. unfold variance. rewrite mean_add, mean_const by assumption. apply mean_ext. intros. ring.
Qed.
Lemma variance_map {A B} (g : A -> B) D X : variance (map g D) X = variance D (fun a => X (g a)).
Proof. unfold variance. rewrite !mean_map. reflexivity. Qed.
(** Independent sums *)
Lemma variance_indep {A B} (D : list A) (E : list B) X Y : D <> [] -> E <> [] ->
  variance (list_prod D E) (fun o => X (fst o) + Y (snd o)) = variance D X + variance E Y.
Proof.
  intros HD HE. pose proof (list_prod_nil D E HD HE) as HP. rewrite !variance_moments by assumption.
  rewrite (mean_ext (list_prod D E) (fun o => (X (fst o) + Y (snd o)) ^ 2)
    (fun o => X (fst o) ^ 2 * 1 + (2 * (X (fst o) * Y (snd o)) + 1 * Y (snd o) ^ 2))) by (intros; ring).
  rewrite !mean_add, mean_scal, (mean_indep D E X Y).
  rewrite (mean_indep D E (fun a => X a ^ 2) (fun _ => 1)), (mean_indep D E (fun _ => 1) (fun a => Y a ^ 2)).
  rewrite (mean_ext (list_prod D E) (fun o => X (fst o)) (fun o => X (fst o) * 1)) by (intros; ring).
  rewrite (mean_ext (list_prod D E) (fun o => Y (snd o)) (fun o => 1 * Y (snd o))) by (intros; ring).
  rewrite (mean_indep D E X (fun _ => 1)), (mean_indep D E (fun _ => 1) Y). rewrite !mean_const by assumption. ring.
Qed.
Lemma mean_indep_add {A B} (D : list A) (E : list B) X Y : D <> [] -> E <> [] ->
  mean (list_prod D E) (fun o => X (fst o) + Y (snd o)) = mean D X + mean E Y.
Proof.
  intros HD HE. rewrite mean_prod. cbn [fst snd]. rewrite (mean_ext D _ (fun a => X a + mean E Y)) by (intros; rewrite mean_add, mean_const by assumption; reflexivity).
  rewrite mean_add, mean_const by assumption. reflexivity.
Qed.
(** The sum of [n] independent values *)
Lemma samples_sum {A} n (D : list A) X : D <> [] ->
  mean (samples n D) (fun s => rsum s X) = INR n * mean D X /\ variance (samples n D) (fun s => rsum s X) = INR n * variance D X.
Proof.
  intros H. induction n as [|n [IH1 IH2]].
  - cbn [samples]. unfold variance, mean. cbn. unfold Rdiv. rewrite Rinv_1. split; ring.
  - pose proof (samples_nil n D H) as Hn. cbn [samples]. rewrite mean_map, variance_map. cbn [rsum].
    rewrite (mean_indep_add D (samples n D) X (fun s => rsum s X)), (variance_indep D (samples n D) X (fun s => rsum s X)) by assumption. rewrite IH1, IH2, S_INR. split; ring.
Qed.

(** ** Products of coordinates *)
Fixpoint rprod (n : nat) (f : nat -> R) : R := match n with O => 1 | S n => f 0%nat * rprod n (fun i => f (S i)) end.
Lemma rprod_ext n : forall f g, (forall i, (i < n)%nat -> f i = g i) -> rprod n f = rprod n g.
Proof. induction n as [|n IH]; intros f g H; [reflexivity|]. cbn. rewrite H by lia. f_equal. apply IH. intros. apply H. lia. Qed.
Lemma rprod_mul n : forall f g, rprod n (fun i => f i * g i) = rprod n f * rprod n g.
Proof. induction n as [|n IH]; intros f g; cbn; [lra|]. rewrite IH. ring. Qed.
Lemma rprod_one n : rprod n (fun _ => 1) = 1.
Proof. induction n as [|n IH]; cbn; [reflexivity|]. rewrite IH. ring. Qed.
Lemma rprod_single n : forall f j, (j < n)%nat -> (forall i, (i < n)%nat -> i <> j -> f i = 1) -> rprod n f = f j.
Proof.
  induction n as [|n IH]; intros f j Hj H; [lia|]. cbn. destruct j as [|j].
  - rewrite (rprod_ext n _ (fun _ => 1)) by (intros; apply H; lia). rewrite rprod_one. ring.
  - rewrite H by lia. rewrite (IH (fun i => f (S i)) j) by (try lia; intros; apply H; lia). ring.
Qed.
Lemma mean_rprod {A} (D : list A) d n : forall (f : nat -> A -> R),
  mean (samples n D) (fun s => rprod n (fun i => f i (nth i s d))) = rprod n (fun i => mean D (f i)).
Proof.
  induction n as [|n IH]; intros f; [unfold mean, Rdiv; cbn; rewrite Rinv_1; ring|].
  cbn [samples rprod]. rewrite mean_map. cbn [nth fst snd].
  rewrite (mean_indep D (samples n D) (f 0%nat) (fun s => rprod n (fun i => f (S i) (nth i s d)))). rewrite (IH (fun i => f (S i))). reflexivity.
Qed.

(** ** Sums over [0, n) *)
Definition nsum (n : nat) (f : nat -> R) : R := rsum (seq 0 n) f.
Lemma nsum_ext n f g : (forall i, (i < n)%nat -> f i = g i) -> nsum n f = nsum n g.
Proof. intros H. apply rsum_ext. intros i Hi. apply in_seq in Hi. apply H. lia. Qed.
Lemma nsum_S n f : nsum (S n) f = nsum n f + f n.
Proof. unfold nsum. rewrite seq_S, rsum_app. cbn. ring. Qed.
Lemma nsum_zero n f : (forall i, (i < n)%nat -> f i = 0) -> nsum n f = 0.
Proof. intros H. rewrite (nsum_ext n f (fun _ => 0)) by assumption. unfold nsum. rewrite rsum_const. ring. Qed.
Lemma nsum_const n c : nsum n (fun _ => c) = INR n * c.
Proof. unfold nsum. rewrite rsum_const, seq_length. reflexivity. Qed.
Lemma nsum_add n f g : nsum n (fun i => f i + g i) = nsum n f + nsum n g.
Proof. apply rsum_add. Qed.
Lemma nsum_scal n c f : nsum n (fun i => c * f i) = c * nsum n f.
Proof. apply rsum_scal. Qed.
Lemma nsum_single n f j : (j < n)%nat -> (forall i, (i < n)%nat -> i <> j -> f i = 0) -> nsum n f = f j.
Proof.
  induction n as [|n IH]; intros Hj H; [lia|]. rewrite nsum_S. destruct (Nat.eq_dec j n) as [->|Hn].
  - rewrite nsum_zero; [lra|]. intros i Hi. apply H; lia.
  - rewrite IH; [|lia|intros; apply H; lia]. rewrite (H n) by lia. lra.
Qed.
Lemma nsum_two n f j k : (j < n)%nat -> (k < n)%nat -> j <> k -> (forall i, (i < n)%nat -> i <> j -> i <> k -> f i = 0) -> nsum n f = f j + f k.
Proof.
  intros Hj Hk Hjk H.
  rewrite (nsum_ext n f (fun i => (if Nat.eqb i j then f i else 0) + (if Nat.eqb i k then f i else 0))).
  - rewrite nsum_add, (nsum_single n _ j), (nsum_single n _ k); try lia; rewrite ?Nat.eqb_refl; [reflexivity| |];
      intros i Hi Hne; apply Nat.eqb_neq in Hne; rewrite Hne; reflexivity.
  - intros i Hi. destruct (Nat.eqb_spec i j), (Nat.eqb_spec i k); subst; try lia; rewrite ?Rplus_0_l, ?Rplus_0_r; try reflexivity. apply H; assumption.
Qed.
Lemma nsum_sq n f : nsum n f ^ 2 = nsum n (fun i => nsum n (fun j => f i * f j)).
Proof.
  rewrite (nsum_ext n (fun i => nsum n (fun j => f i * f j)) (fun i => nsum n f * f i)) by (intros; rewrite nsum_scal; ring).
  rewrite nsum_scal. ring.
Qed.
