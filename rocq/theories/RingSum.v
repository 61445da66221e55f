(** * Finite sums and coefficient bounds in Z[X]/(X^N+1)
    Specification vocabulary; no Rust code is modelled here. *)
From Verif Require Import Base Word WordFacts NegaRing PolySpec.

(** f 0 + f 1 + ... + f (n-1) *)
Fixpoint rsum {N} (n : nat) (f : nat -> rp N) : rp N :=
  match n with O => rzero N | S n' => radd (rsum n' f) (f n') end.

(** sum of [f a] over a list *)
Fixpoint rsuml {A N} (l : list A) (f : A -> rp N) : rp N :=
  match l with [] => rzero N | a :: l' => radd (f a) (rsuml l' f) end.

(** Every coefficient of [x] is congruent modulo [q] to an integer of absolute value at most [B]. *)
Definition rbound {N} (q B : Z) (x : rp N) : Prop :=
  forall k, 0 <= k < Z.of_nat N -> exists e, eqm q (rcoef x k) e /\ Z.abs e <= B.

Section Sums.
Context {N : nat} (q : Z).
Implicit Types f g : nat -> rp N.

Add Ring rpN : (rp_ring_theory (N := N) q) (setoid (req_equiv N q) (rp_ring_ext (N := N) q)).

Lemma rsum_ext n f g : (forall i, (i < n)%nat -> req q (f i) (g i)) -> req q (rsum n f) (rsum n g).
Proof.
  induction n as [|n IH]; intros H; [reflexivity|]. cbn [rsum].
  rewrite IH by (intros; apply H; lia). rewrite (H n) by lia. reflexivity.
Qed.

Lemma rsum_add n f g : req q (rsum n (fun i => radd (f i) (g i))) (radd (rsum n f) (rsum n g)).
Proof. induction n as [|n IH]; cbn [rsum]; [ring|]. rewrite IH. ring. Qed.

Lemma rsum_sub n f g : req q (rsum n (fun i => rsub (f i) (g i))) (rsub (rsum n f) (rsum n g)).
Proof. induction n as [|n IH]; cbn [rsum]; [ring|]. rewrite IH. ring. Qed.

Lemma rsum_mul_l n c f : req q (rsum n (fun i => rmul c (f i))) (rmul c (rsum n f)).
Proof. induction n as [|n IH]; cbn [rsum]; [ring|]. rewrite IH. ring. Qed.

Lemma rsum_mul_r n c f : req q (rsum n (fun i => rmul (f i) c)) (rmul (rsum n f) c).
Proof. induction n as [|n IH]; cbn [rsum]; [ring|]. rewrite IH. ring. Qed.

Lemma rsum_scal n c f : req q (rsum n (fun i => rscal c (f i))) (rscal c (rsum n f)).
Proof.
  induction n as [|n IH]; cbn [rsum]; [intros k; cbn; apply eqm_eq; lia|]. rewrite IH, rscal_add_r. reflexivity.
Qed.

Lemma rsum_zero n : req q (rsum n (fun _ => rzero N)) (rzero N).
Proof. induction n as [|n IH]; cbn [rsum]; [ring|]. rewrite IH. ring. Qed.

Lemma rsum_swap n m (f : nat -> nat -> rp N) :
  req q (rsum n (fun i => rsum m (fun j => f i j))) (rsum m (fun j => rsum n (fun i => f i j))).
Proof.
  induction n as [|n IH]; cbn [rsum]; [rewrite rsum_zero; reflexivity|]. rewrite IH, rsum_add. reflexivity.
Qed.

Lemma rsum_S_l n f : req q (rsum (S n) f) (radd (f O) (rsum n (fun i => f (S i)))).
Proof. induction n as [|n IH]; [cbn [rsum]; ring|]. cbn [rsum] in *. rewrite IH. ring. Qed.

Lemma rsum_rev n f : req q (rsum n (fun i => f (n - 1 - i)%nat)) (rsum n f).
Proof.
  induction n as [|n IH]; [reflexivity|]. rewrite rsum_S_l. cbn [rsum].
  rewrite <- IH. replace (S n - 1 - 0)%nat with n by lia.
  rewrite (rsum_ext n (fun i => f (S n - 1 - S i)%nat) (fun i => f (n - 1 - i)%nat)).
  - ring.
  - intros i Hi. replace (S n - 1 - S i)%nat with (n - 1 - i)%nat by lia. reflexivity.
Qed.

Lemma rsuml_app {A} (l m : list A) (f : A -> rp N) : req q (rsuml (l ++ m) f) (radd (rsuml l f) (rsuml m f)).
Proof. induction l as [|a l IH]; cbn [app rsuml]; [ring|]. rewrite IH. ring. Qed.

Lemma rsuml_ext {A} (l : list A) (f g : A -> rp N) : (forall a, In a l -> req q (f a) (g a)) -> req q (rsuml l f) (rsuml l g).
Proof.
  induction l as [|a l IH]; intros H; [reflexivity|]. cbn [rsuml].
  rewrite (H a) by (left; reflexivity). rewrite IH; [reflexivity|]. intros b Hb. apply H. right. assumption.
Qed.

Lemma rsuml_map {A B} (h : A -> B) (l : list A) (f : B -> rp N) : rsuml (map h l) f = rsuml l (fun a => f (h a)).
Proof. induction l as [|a l IH]; [reflexivity|]. cbn [map rsuml]. rewrite IH. reflexivity. Qed.

Lemma rsuml_flat_map {A B} (h : A -> list B) (l : list A) (f : B -> rp N) :
  req q (rsuml (flat_map h l) f) (rsuml l (fun a => rsuml (h a) f)).
Proof. induction l as [|a l IH]; [reflexivity|]. cbn [flat_map rsuml]. rewrite rsuml_app, IH. reflexivity. Qed.

Lemma rsuml_seq n f a : req q (rsuml (seq a n) f) (rsum n (fun i => f (a + i)%nat)).
Proof.
  revert a. induction n as [|n IH]; intros a; [reflexivity|]. cbn [seq rsuml]. rewrite IH, rsum_S_l.
  rewrite Nat.add_0_r. rewrite (rsum_ext n (fun i => f (S a + i)%nat) (fun i => f (a + S i)%nat)); [reflexivity|].
  intros i _. replace (a + S i)%nat with (S a + i)%nat by lia. reflexivity.
Qed.

Lemma rsuml_rsum {A} (l : list A) n (f : A -> nat -> rp N) :
  req q (rsuml l (fun a => rsum n (f a))) (rsum n (fun i => rsuml l (fun a => f a i))).
Proof.
  induction l as [|a l IH]; cbn [rsuml]; [rewrite rsum_zero; reflexivity|]. rewrite IH, rsum_add. reflexivity.
Qed.
Lemma rsuml_mul_r {A} (l : list A) c (f : A -> rp N) : req q (rsuml l (fun a => rmul (f a) c)) (rmul (rsuml l f) c).
Proof. induction l as [|a l IH]; cbn [rsuml]; [ring|]. rewrite IH. ring. Qed.
Lemma rsuml_sub {A} (l : list A) (f g : A -> rp N) : req q (rsuml l (fun a => rsub (f a) (g a))) (rsub (rsuml l f) (rsuml l g)).
Proof. induction l as [|a l IH]; cbn [rsuml]; [ring|]. rewrite IH. ring. Qed.

Lemma R_nil_zero : req q (R N []) (rzero N).
Proof. apply (R_zero N q 0). Qed.

(** [rdot] as an indexed sum *)
Lemma rdot_rsum n cs bs : length cs = n -> length bs = n ->
  req q (rdot N cs bs) (rsum n (fun u => rmul (R N (nth u cs [])) (R N (nth u bs [])))).
Proof.
  revert cs bs. induction n as [|n IH]; intros [|c cs] [|b bs] Hc Hb; try discriminate; [reflexivity|].
  cbn [rdot]. rewrite rsum_S_l. cbn [nth]. rewrite IH by (cbn in *; lia). reflexivity.
Qed.

(** ** Bounds *)
Lemma rbound_req B (x y : rp N) : req q x y -> rbound q B x -> rbound q B y.
Proof. intros H Hx k Hk. destruct (Hx k Hk) as (e & He & Hb). exists e. split; [|assumption]. rewrite <- (H k). assumption. Qed.

Lemma rbound_le B C (x : rp N) : B <= C -> rbound q B x -> rbound q C x.
Proof. intros H Hx k Hk. destruct (Hx k Hk) as (e & He & Hb). exists e. split; [assumption|lia]. Qed.

Lemma rbound_zero : rbound (N := N) q 0 (rzero N).
Proof. intros k Hk. exists 0. split; [reflexivity|reflexivity]. Qed.

Lemma rbound_add B C x y : rbound (N := N) q B x -> rbound q C y -> rbound q (B + C) (radd x y).
Proof.
  intros Hx Hy k Hk. destruct (Hx k Hk) as (e & He & Hb). destruct (Hy k Hk) as (e' & He' & Hb').
  exists (e + e'). split; [|lia]. change (rcoef (radd x y) k) with (rcoef x k + rcoef y k). rewrite He, He'. reflexivity.
Qed.
Lemma rbound_opp B x : rbound (N := N) q B x -> rbound q B (ropp x).
Proof.
  intros Hx k Hk. destruct (Hx k Hk) as (e & He & Hb). exists (- e). split; [|lia].
  change (rcoef (ropp x) k) with (- rcoef x k). rewrite He. reflexivity.
Qed.
Lemma rbound_sub B C x y : rbound (N := N) q B x -> rbound q C y -> rbound q (B + C) (rsub x y).
Proof. intros Hx Hy. eapply rbound_req; [symmetry; apply rsub_def|]. apply rbound_add; [assumption|]. apply rbound_opp; assumption. Qed.
Lemma rbound_scal B c x : rbound (N := N) q B x -> rbound q (Z.abs c * B) (rscal c x).
Proof.
  intros Hx k Hk. destruct (Hx k Hk) as (e & He & Hb). exists (c * e). split; [|nia].
  change (rcoef (rscal c x) k) with (c * rcoef x k). rewrite He. reflexivity.
Qed.
Lemma rbound_rsum B n f : 0 <= B -> (forall i, (i < n)%nat -> rbound q B (f i)) -> rbound q (Z.of_nat n * B) (rsum n f).
Proof.
  intros HB. induction n as [|n IH]; intros H; [apply rbound_zero|]. cbn [rsum].
  eapply (rbound_le (Z.of_nat n * B + B)); [nia|]. apply rbound_add; [apply IH; intros; apply H; lia|apply H; lia].
Qed.


Lemma rbound_shift B d (x : rp N) : rbound q B x -> rbound q B (rshift d x).
Proof.
  intros Hx k Hk. change (rcoef (rshift d x) k) with (rcoef x (k - d)).
  pose proof (Z.div_mod (k - d) (Z.of_nat N) ltac:(lia)) as E.
  pose proof (Z.mod_pos_bound (k - d) (Z.of_nat N) ltac:(lia)) as Hm.
  destruct (Hx ((k - d) mod Z.of_nat N) Hm) as (e & He & Hb).
  rewrite E, Z.add_comm, (Z.mul_comm (Z.of_nat N)), rcoef_periods.
  destruct (Z.even _); [exists e; auto|]. exists (- e). rewrite He. split; [reflexivity|lia].
Qed.

(** Product with a polynomial of coefficients bounded by [c] as integers. *)
Lemma rbound_mul B c d (x : rp N) : 0 <= B -> 0 <= c -> length d = N -> Forall (fun v => Z.abs v <= c) d ->
  rbound q B x -> rbound q (Z.of_nat N * (c * B)) (rmul (R N d) x).
Proof.
  intros HB Hc Hl Hd Hx k Hk.
  assert (G : forall n, (n <= N)%nat -> exists e, eqm q (sumz n (fun i => rcoef (R N d) i * rcoef x (k - i))) e /\ Z.abs e <= Z.of_nat n * (c * B)).
  { induction n as [|n IH]; intros Hn; [exists 0; split; [reflexivity|cbn; lia]|].
    destruct IH as (e & He & Hb); [lia|].
    assert (Hs : rbound q B (rshift (Z.of_nat n) x)) by (apply rbound_shift; assumption).
    destruct (Hs k Hk) as (e' & He' & Hb'). change (rcoef (rshift (Z.of_nat n) x) k) with (rcoef x (k - Z.of_nat n)) in He'.
    exists (e + coef d (Z.of_nat n) * e'). split.
    - cbn [sumz]. rewrite He, He'. rewrite rcoef_R by lia. reflexivity.
    - assert (Z.abs (coef d (Z.of_nat n)) <= c).
      { rewrite Forall_forall in Hd. apply Hd. apply coef_in. lia. }
      rewrite Nat2Z.inj_succ. nia. }
  destruct (G N (le_n N)) as (e & He & Hb). exists e. split; [|assumption].
  change (rcoef (rmul (R N d) x) k) with (sumz N (fun i => rcoef (R N d) i * rcoef x (k - i))). assumption.
Qed.

Lemma rbound_R B p : length p = N -> Forall (fun v => exists e, eqm q v e /\ Z.abs e <= B) p -> rbound q B (R N p).
Proof.
  intros Hl Hp k Hk. rewrite rcoef_R by assumption. rewrite Forall_forall in Hp. apply Hp. apply coef_in. lia.
Qed.
End Sums.
