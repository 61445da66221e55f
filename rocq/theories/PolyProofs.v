(** * Proofs about polynomial arithmetic. *)
From Verif Require Import Base Word WordFacts NegaRing PolySpec PolyModel.

(** ** Coefficients *)
Lemma zc_nil k : zc [] k = 0.
Proof. unfold zc. destruct (0 <=? k); [|reflexivity]. destruct (Z.to_nat k); reflexivity. Qed.

Lemma zc_cons b r m : zc (b :: r) m = (if m =? 0 then b else 0) + zc r (m - 1).
Proof.
  unfold zc. destruct (Z.eqb_spec m 0) as [->|Hm].
  - cbn. lia.
  - destruct (Z.leb_spec 0 m), (Z.leb_spec 0 (m - 1)); try lia.
    replace (Z.to_nat m) with (S (Z.to_nat (m - 1))) by lia. reflexivity.
Qed.

Lemma zc_out p k : k < 0 \/ Z.of_nat (length p) <= k -> zc p k = 0.
Proof.
  intros H. unfold zc. destruct (Z.leb_spec 0 k); [|reflexivity].
  apply nth_overflow. lia.
Qed.

Lemma zc_coef p k : 0 <= k -> zc p k = coef p k.
Proof. intros H. unfold zc, coef. destruct (Z.leb_spec 0 k); [reflexivity|lia]. Qed.

Lemma zc_app p r k : zc (p ++ r) k = zc p k + zc r (k - Z.of_nat (length p)).
Proof.
  revert k. induction p as [|a p IH]; intros k.
  - cbn [app length]. rewrite zc_nil. replace (k - Z.of_nat 0) with k by lia. lia.
  - cbn [app length]. rewrite !zc_cons, IH. replace (k - 1 - Z.of_nat (length p)) with (k - Z.of_nat (S (length p))) by lia. lia.
Qed.

Lemma zc_firstn p n k : zc (firstn n p) k = if k <? Z.of_nat n then zc p k else 0.
Proof.
  revert n k. induction p as [|a p IH]; intros n k.
  - rewrite firstn_nil, zc_nil. destruct (_ <? _); reflexivity.
  - destruct n as [|n].
    + cbn [firstn]. rewrite zc_nil. destruct (Z.ltb_spec k (Z.of_nat 0)); [|reflexivity].
      symmetry. apply zc_out. lia.
    + cbn [firstn]. rewrite !zc_cons, IH.
      destruct (Z.eqb_spec k 0), (Z.ltb_spec k (Z.of_nat (S n))), (Z.ltb_spec (k - 1) (Z.of_nat n)); try lia.
Qed.

Lemma zc_skipn p n k : 0 <= k -> zc (skipn n p) k = zc p (k + Z.of_nat n).
Proof.
  intros Hk. revert p. induction n as [|n IH]; intros p.
  - cbn [skipn]. f_equal. lia.
  - destruct p as [|a p]; cbn [skipn]; [rewrite !zc_nil; reflexivity|].
    rewrite IH, zc_cons. destruct (Z.eqb_spec (k + Z.of_nat (S n)) 0); [lia|].
    rewrite Z.add_0_l. f_equal. lia.
Qed.

Lemma zc_map2 f p r k : f 0 0 = 0 -> length p = length r -> zc (map2 f p r) k = f (zc p k) (zc r k).
Proof.
  intros H0 Hl. unfold zc. destruct (0 <=? k); [|auto].
  apply coef_map2; assumption.
Qed.

Lemma zc_map f p k : f 0 = 0 -> zc (map f p) k = f (zc p k).
Proof. intros H0. unfold zc. destruct (0 <=? k); [|auto]. rewrite <- H0 at 1. apply map_nth. Qed.

Lemma zc_repeat0 n k : zc (repeat 0 n) k = 0.
Proof. unfold zc. destruct (0 <=? k); [|reflexivity]. apply (coef_repeat0 n k). Qed.

Lemma zc_ext_list p r n : length p = n -> length r = n ->
  (forall k, 0 <= k < Z.of_nat n -> zc p k = zc r k) -> p = r.
Proof.
  intros Hp Hr H. apply (coef_ext_list p r n); auto. intros k Hk.
  rewrite <- !zc_coef by lia. auto.
Qed.

Lemma zseq_len a n : length (zseq a n) = n.
Proof. revert a. induction n as [|n IH]; intros a; cbn; auto. Qed.

Lemma zc_map_zseq f n k : 0 <= k < Z.of_nat n -> zc (map f (zseq 0 n)) k = f k.
Proof.
  assert (H : forall n a k, 0 <= k < Z.of_nat n -> zc (map f (zseq a n)) k = f (a + k)).
  { clear n k. induction n as [|n IH]; intros a k Hk; [lia|].
    cbn [zseq map]. rewrite zc_cons. destruct (Z.eqb_spec k 0) as [->|Hne].
    - rewrite zc_out by lia. rewrite !Z.add_0_r. reflexivity.
    - rewrite IH by lia. rewrite Z.add_0_l. f_equal. lia. }
  intros Hk. rewrite H by assumption. f_equal.
Qed.

Lemma zc_word w p k : Forall (is_word w) p -> 0 <= k < Z.of_nat (length p) -> is_word w (zc p k).
Proof.
  intros Hp Hk. rewrite Forall_forall in Hp. apply Hp. unfold zc.
  destruct (Z.leb_spec 0 k); [|lia]. apply nth_In. lia.
Qed.

Lemma wadd_00 w : 0 <= w -> wadd w 0 0 = 0.
Proof. intros. unfold wadd. apply Z.mod_small. pose proof (pow2_pos w). lia. Qed.
Lemma wsub_00 w : 0 <= w -> wsub w 0 0 = 0.
Proof. intros. unfold wsub. apply Z.mod_small. pose proof (pow2_pos w). lia. Qed.
Lemma wneg_0 w : 0 <= w -> wneg w 0 = 0.
Proof. intros. unfold wneg. apply Z.mod_small. pose proof (pow2_pos w). lia. Qed.

(** ** Full products *)
Lemma full_nil b k : full [] b k = 0.
Proof. reflexivity. Qed.

Lemma full_cons a l b k : full (a :: l) b k = a * zc b k + full l b (k - 1).
Proof.
  unfold full. cbn [length]. rewrite sumz_S_l. f_equal.
  - rewrite zc_cons. rewrite (zc_out l) by lia. rewrite Z.sub_0_r. cbn [Z.eqb]. ring.
  - apply sumz_ext. intros i Hi. rewrite zc_cons. destruct (Z.eqb_spec (i + 1) 0); [lia|].
    rewrite Z.add_0_l. replace (i + 1 - 1) with i by lia. f_equal. f_equal. lia.
Qed.

Lemma full_app a1 a2 b k : full (a1 ++ a2) b k = full a1 b k + full a2 b (k - Z.of_nat (length a1)).
Proof.
  revert k. induction a1 as [|a a1 IH]; intros k.
  - cbn [app length]. rewrite full_nil. replace (k - Z.of_nat 0) with k by lia. lia.
  - cbn [app length]. rewrite !full_cons, IH.
    replace (k - 1 - Z.of_nat (length a1)) with (k - Z.of_nat (S (length a1))) by lia. lia.
Qed.

Lemma full_app_r a b1 b2 k : full a (b1 ++ b2) k = full a b1 k + full a b2 (k - Z.of_nat (length b1)).
Proof.
  revert k. induction a as [|x a IH]; intros k; [reflexivity|].
  rewrite !full_cons, IH, zc_app.
  replace (k - 1 - Z.of_nat (length b1)) with (k - Z.of_nat (length b1) - 1) by lia. lia.
Qed.

Lemma full_out a b k : k < 0 \/ Z.of_nat (length a + length b) <= k + 1 -> full a b k = 0.
Proof.
  intros H. unfold full. apply sumz_zero. intros i Hi.
  rewrite (zc_out b); [lia|]. lia.
Qed.

Lemma full_add_l q a a' c b k : length a = length a' ->
  (forall k, eqm q (zc c k) (zc a k + zc a' k)) -> length c = length a ->
  eqm q (full c b k) (full a b k + full a' b k).
Proof.
  intros Hl H Hc. unfold full. rewrite Hc, <- Hl, <- sumz_add. apply sumz_eqm. intros i Hi.
  rewrite H. apply eqm_eq. ring.
Qed.

Lemma full_add_r q a b b' c k : (forall k, eqm q (zc c k) (zc b k + zc b' k)) ->
  eqm q (full a c k) (full a b k + full a b' k).
Proof.
  intros H. unfold full. rewrite <- sumz_add. apply sumz_eqm. intros i Hi.
  rewrite H. apply eqm_eq. ring.
Qed.

(** ** upd *)
Lemma upd_ok l n f : (n < length l)%nat ->
  exists l', upd l n f = Ret l' /\ length l' = length l /\
    (forall k, zc l' k = if k =? Z.of_nat n then f (zc l k) else zc l k) /\
    (forall P : Z -> Prop, Forall P l -> (forall e, P (f e)) -> Forall P l').
Proof.
  revert n. induction l as [|a l IH]; intros n Hn; [cbn in Hn; lia|].
  destruct n as [|n].
  - exists (f a :: l). split; [reflexivity|]. split; [reflexivity|]. split.
    + intros k. rewrite !zc_cons. change (Z.of_nat 0) with 0. destruct (Z.eqb_spec k 0) as [->|]; [|reflexivity].
      rewrite zc_out by lia. rewrite !Z.add_0_r. reflexivity.
    + intros P HF Hf. inversion HF; subst. constructor; auto.
  - cbn [length] in Hn. destruct (IH n ltac:(lia)) as (l' & E & Hl & Hz & HP).
    exists (a :: l'). cbn [upd]. rewrite E. split; [reflexivity|]. split; [cbn; lia|]. split.
    + intros k. rewrite !zc_cons, Hz.
      destruct (Z.eqb_spec k 0) as [->|].
      * destruct (Z.eqb_spec (0 - 1) (Z.of_nat n)), (Z.eqb_spec 0 (Z.of_nat (S n))); try lia.
      * destruct (Z.eqb_spec (k - 1) (Z.of_nat n)), (Z.eqb_spec k (Z.of_nat (S n))); try lia. rewrite !Z.add_0_l. reflexivity.
    + intros P HF Hf. inversion HF; subst. constructor; auto.
Qed.

(** ** The double loop *)
Section Loop.
Context (w : Z) (Hw : 0 <= w).
Context (term : Z -> Z -> outcome Z) (inside outside : Z -> Z -> Z) (s : Z).
Hypothesis Hin : forall e t, eqm (2 ^ w) (inside e t) (e + s * t) /\ is_word w (inside e t).
Hypothesis Hout : forall e t, eqm (2 ^ w) (outside e t) (e - s * t) /\ is_word w (outside e t).
Context (degree : nat).
Let N := S degree.

Lemma row_loop_ok i a : (i < N)%nat -> forall rhs j acc,
  (forall b, In b rhs -> exists t, term a b = Ret t /\ eqm (2 ^ w) t (a * b)) ->
  (j + length rhs <= N)%nat -> length acc = N -> Forall (is_word w) acc ->
  exists acc', row_loop term inside outside degree i a acc j rhs = Ret acc' /\ length acc' = N /\
    Forall (is_word w) acc' /\
    forall k, 0 <= k < Z.of_nat N ->
      eqm (2 ^ w) (zc acc' k)
        (zc acc k + s * (a * (zc rhs (k - Z.of_nat i - Z.of_nat j) - zc rhs (k + Z.of_nat N - Z.of_nat i - Z.of_nat j)))).
Proof.
  intros Hi. induction rhs as [|b rhs IH]; intros j acc Ht Hj Hl Hwd.
  - exists acc. cbn [row_loop]. repeat split; auto. intros k Hk. rewrite !zc_nil. apply eqm_eq. ring.
  - cbn [length] in Hj. cbn [row_loop].
    destruct (Ht b (or_introl eq_refl)) as (t & -> & Et). cbn [obind].
    assert (Hacc : exists acc1,
      (if Nat.leb (i + j) degree then upd acc (i + j) (fun e => inside e t)
       else upd acc (Nat.modulo (i + j) (degree + 1)) (fun e => outside e t)) = Ret acc1 /\
      length acc1 = N /\ Forall (is_word w) acc1 /\
      forall k, 0 <= k < Z.of_nat N -> eqm (2 ^ w) (zc acc1 k)
        (zc acc k + s * (a * ((if k - Z.of_nat i - Z.of_nat j =? 0 then b else 0)
                            - (if k + Z.of_nat N - Z.of_nat i - Z.of_nat j =? 0 then b else 0))))).
    { destruct (Nat.leb_spec (i + j) degree) as [Hd|Hd].
      - destruct (upd_ok acc (i + j) (fun e => inside e t)) as (acc1 & E & Hl1 & Hz & HP); [lia|].
        exists acc1. split; [exact E|]. split; [lia|]. split; [apply HP; [assumption|intros; apply Hin]|].
        intros k Hk. rewrite Hz.
        destruct (Z.eqb_spec k (Z.of_nat (i + j))), (Z.eqb_spec (k - Z.of_nat i - Z.of_nat j) 0),
          (Z.eqb_spec (k + Z.of_nat N - Z.of_nat i - Z.of_nat j) 0); try lia.
        + rewrite (proj1 (Hin _ _)), Et. apply eqm_eq. ring.
        + apply eqm_eq. ring.
      - assert (Em : Nat.modulo (i + j) (degree + 1) = (i + j - N)%nat).
        { symmetry. apply Nat.mod_unique with (q := 1%nat); lia. }
        rewrite Em.
        destruct (upd_ok acc (i + j - N) (fun e => outside e t)) as (acc1 & E & Hl1 & Hz & HP); [lia|].
        exists acc1. split; [exact E|]. split; [lia|]. split; [apply HP; [assumption|intros; apply Hout]|].
        intros k Hk. rewrite Hz.
        destruct (Z.eqb_spec k (Z.of_nat (i + j - N))), (Z.eqb_spec (k - Z.of_nat i - Z.of_nat j) 0),
          (Z.eqb_spec (k + Z.of_nat N - Z.of_nat i - Z.of_nat j) 0); try lia.
        + rewrite (proj1 (Hout _ _)), Et. apply eqm_eq. ring.
        + apply eqm_eq. ring. }
    destruct Hacc as (acc1 & -> & Hl1 & Hw1 & Hz1). cbn [obind].
    destruct (IH (S j) acc1) as (acc2 & E2 & Hl2 & Hw2 & Hz2); auto.
    + intros b' Hb'. apply Ht. right. assumption.
    + lia.
    + exists acc2. repeat split; auto. intros k Hk. rewrite Hz2 by assumption. rewrite Hz1 by assumption.
      rewrite !zc_cons. apply eqm_eq.
      replace (k - Z.of_nat i - Z.of_nat j - 1) with (k - Z.of_nat i - Z.of_nat (S j)) by lia.
      replace (k + Z.of_nat N - Z.of_nat i - Z.of_nat j - 1) with (k + Z.of_nat N - Z.of_nat i - Z.of_nat (S j)) by lia.
      ring.
Qed.

Lemma mul_loop_ok rhs : length rhs = N -> forall lhs i acc,
  (forall a b, In a lhs -> In b rhs -> exists t, term a b = Ret t /\ eqm (2 ^ w) t (a * b)) ->
  (i + length lhs <= N)%nat -> length acc = N -> Forall (is_word w) acc ->
  exists acc', mul_loop term inside outside degree acc i lhs rhs = Ret acc' /\ length acc' = N /\
    Forall (is_word w) acc' /\
    forall k, 0 <= k < Z.of_nat N ->
      eqm (2 ^ w) (zc acc' k)
        (zc acc k + s * (full lhs rhs (k - Z.of_nat i) - full lhs rhs (k + Z.of_nat N - Z.of_nat i))).
Proof.
  intros Hr. induction lhs as [|a lhs IH]; intros i acc Ht Hi Hl Hwd.
  - exists acc. cbn [mul_loop]. repeat split; auto. intros k Hk. rewrite !full_nil. apply eqm_eq. ring.
  - cbn [length] in Hi. cbn [mul_loop].
    destruct (row_loop_ok i a ltac:(lia) rhs 0%nat acc) as (acc1 & -> & Hl1 & Hw1 & Hz1); auto.
    { intros b Hb. apply Ht; [left; reflexivity|assumption]. }
    { lia. }
    cbn [obind].
    destruct (IH (S i) acc1) as (acc2 & E2 & Hl2 & Hw2 & Hz2); auto.
    { intros a' b Ha Hb. apply Ht; [right; assumption|assumption]. }
    { lia. }
    exists acc2. repeat split; auto. intros k Hk. rewrite Hz2 by assumption. rewrite Hz1 by assumption.
    rewrite !full_cons. change (Z.of_nat 0) with 0. rewrite !Z.sub_0_r. apply eqm_eq.
    replace (k - Z.of_nat i - 1) with (k - Z.of_nat (S i)) by lia.
    replace (k + Z.of_nat N - Z.of_nat i - 1) with (k + Z.of_nat N - Z.of_nat (S i)) by lia.
    ring.
Qed.
End Loop.

(** ** The three products *)
Lemma words_zseq w f n : 0 <= w -> Forall (is_word w) (map (fun k => f k mod 2 ^ w) (zseq 0 n)).
Proof.
  intros Hw. apply Forall_forall. intros x Hx. rewrite in_map_iff in Hx. destruct Hx as (k & <- & _).
  apply Z.mod_pos_bound, pow2_pos. assumption.
Qed.

Lemma canonical w p f n : 0 <= w -> length p = n -> Forall (is_word w) p ->
  (forall k, 0 <= k < Z.of_nat n -> eqm (2 ^ w) (zc p k) (f k)) ->
  p = map (fun k => f k mod 2 ^ w) (zseq 0 n).
Proof.
  intros Hw Hl Hp H. apply (zc_ext_list _ _ n); auto.
  - rewrite map_length, zseq_len. reflexivity.
  - intros k Hk. rewrite (zc_map_zseq (fun k => f k mod 2 ^ w)) by assumption.
    specialize (H k Hk). unfold eqm in H. rewrite <- H.
    symmetry. apply Z.mod_small. apply (zc_word w); [assumption|lia].
Qed.

Section Products.
Context (p : profile) (w : Z) (Hw : 0 <= w).

Lemma fill_with_wrapping_mul_ok self a b :
  (0 < length a)%nat -> length b = length a -> length self = length a ->
  fill_with_wrapping_mul_ p w self a b = Ret (nega w a b).
Proof.
  intros Ha Hb Hs. unfold fill_with_wrapping_mul_.
  rewrite !ck_dim_eq_ok by congruence. cbn [obind].
  destruct (length a) as [|degree] eqn:El; [lia|].
  destruct (mul_loop_ok w Hw (fun a b => Ret (wmul w a b)) (wadd w) (wsub w) 1) with
    (degree := degree) (rhs := b) (lhs := a) (i := 0%nat) (acc := map (fun _ : Z => 0) self) as (acc & E & Hl & Hwd & Hz).
  - intros e t. split; [|apply wadd_word; assumption]. rewrite wadd_eqm. apply eqm_eq. ring.
  - intros e t. split; [|apply wsub_word; assumption]. rewrite wsub_eqm. apply eqm_eq. ring.
  - assumption.
  - intros x y _ _. eexists. split; [reflexivity|]. apply wmul_eqm.
  - lia.
  - rewrite map_length. assumption.
  - apply Forall_forall. intros x Hx. rewrite in_map_iff in Hx. destruct Hx as (? & <- & _).
    split; [lia|apply pow2_pos; assumption].
  - rewrite E. f_equal. unfold nega. rewrite El. apply canonical; auto.
    intros k Hk. rewrite Hz by assumption.
    assert (Hz0 : zc (map (fun _ : Z => 0) self) k = 0) by (rewrite zc_map; reflexivity).
    rewrite Hz0. unfold nega_coef. apply eqm_eq. rewrite Z.sub_0_r.
    change (Z.of_nat 0) with 0. rewrite Z.sub_0_r. ring.
Qed.

Definition no_overflow (a b : list Z) : Prop :=
  forall x y, In x a -> In y b -> 0 <= x * y < 2 ^ w.

Lemma plain_term a b : p = Release \/ no_overflow a b -> forall x y, In x a -> In y b ->
  exists t, plain p w (x * y) = Ret t /\ eqm (2 ^ w) t (x * y).
Proof.
  intros H x y Hx Hy. unfold plain. destruct ((0 <=? x * y) && (x * y <? 2 ^ w)) eqn:E.
  - exists (x * y). split; reflexivity.
  - destruct H as [-> | H].
    + eexists. split; [reflexivity|]. apply eqm_mod.
    + specialize (H x y Hx Hy). lia.
Qed.

Lemma add_mul_ok self a b :
  (0 < length a)%nat -> length b = length a -> length self = length a -> Forall (is_word w) self ->
  p = Release \/ no_overflow a b ->
  update_with_wrapping_add_mul_ p w self a b
  = Ret (map (fun k => (zc self k + nega_coef (length a) a b k) mod 2 ^ w) (zseq 0 (length a))).
Proof.
  intros Ha Hb Hs Hwd Hp. unfold update_with_wrapping_add_mul_.
  rewrite !ck_dim_eq_ok by congruence. cbn [obind].
  destruct (length a) as [|degree] eqn:El; [lia|].
  destruct (mul_loop_ok w Hw (fun a b => plain p w (a * b)) (wadd w) (wsub w) 1) with
    (degree := degree) (rhs := b) (lhs := a) (i := 0%nat) (acc := self) as (acc & E & Hl & Hwd2 & Hz); auto.
  - intros e t. split; [|apply wadd_word; assumption]. rewrite wadd_eqm. apply eqm_eq. ring.
  - intros e t. split; [|apply wsub_word; assumption]. rewrite wsub_eqm. apply eqm_eq. ring.
  - apply plain_term. assumption.
  - lia.
  - rewrite E. f_equal. apply (canonical w acc (fun k => zc self k + nega_coef (S degree) a b k)); auto.
    intros k Hk. rewrite Hz by assumption. unfold nega_coef. apply eqm_eq.
    change (Z.of_nat 0) with 0. rewrite !Z.sub_0_r. ring.
Qed.

Lemma sub_mul_ok self a b :
  (0 < length a)%nat -> length b = length a -> length self = length a -> Forall (is_word w) self ->
  p = Release \/ no_overflow a b ->
  update_with_wrapping_sub_mul_ p w self a b
  = Ret (map (fun k => (zc self k - nega_coef (length a) a b k) mod 2 ^ w) (zseq 0 (length a))).
Proof.
  intros Ha Hb Hs Hwd Hp. unfold update_with_wrapping_sub_mul_.
  rewrite !ck_dim_eq_ok by congruence. cbn [obind].
  destruct (length a) as [|degree] eqn:El; [lia|].
  destruct (mul_loop_ok w Hw (fun a b => plain p w (a * b)) (wsub w) (wadd w) (-1)) with
    (degree := degree) (rhs := b) (lhs := a) (i := 0%nat) (acc := self) as (acc & E & Hl & Hwd2 & Hz); auto.
  - intros e t. split; [|apply wsub_word; assumption]. rewrite wsub_eqm. apply eqm_eq. ring.
  - intros e t. split; [|apply wadd_word; assumption]. rewrite wadd_eqm. apply eqm_eq. ring.
  - apply plain_term. assumption.
  - lia.
  - rewrite E. f_equal. apply (canonical w acc (fun k => zc self k - nega_coef (S degree) a b k)); auto.
    intros k Hk. rewrite Hz by assumption. unfold nega_coef. apply eqm_eq.
    change (Z.of_nat 0) with 0. rewrite !Z.sub_0_r. ring.
Qed.
End Products.

(** ** In the ring *)
Lemma ext_zc N b m : length b = N -> - Z.of_nat N < m < Z.of_nat N ->
  ext N b m = zc b m - zc b (m + Z.of_nat N).
Proof.
  intros Hb Hm. destruct (Z.lt_ge_cases m 0) as [H|H].
  - pose proof (ext_anti N b m) as E. rewrite ext_small in E by lia.
    rewrite (zc_out b m), (zc_coef b (m + Z.of_nat N)) by lia. lia.
  - rewrite ext_small by lia. rewrite (zc_out b (m + Z.of_nat N)), zc_coef by lia. lia.
Qed.

Lemma rmul_coef N a b k : length a = N -> length b = N -> 0 <= k < Z.of_nat N ->
  rcoef (rmul (R N a) (R N b)) k = nega_coef N a b k.
Proof.
  intros Ha Hb Hk. unfold nega_coef, full. rewrite Ha, <- sumz_sub.
  change (rcoef (rmul (R N a) (R N b)) k) with (sumz N (fun i => ext N a i * ext N b (k - i))).
  apply sumz_ext. intros i Hi. rewrite (ext_small N a i) by assumption. rewrite zc_coef by lia.
  rewrite ext_zc by (auto; lia). replace (k - i + Z.of_nat N) with (k + Z.of_nat N - i) by lia. ring.
Qed.

Lemma R_nega N w a b : length a = N -> length b = N -> req (2 ^ w) (R N (nega w a b)) (rmul (R N a) (R N b)).
Proof.
  intros Ha Hb. apply req_coefs. intros k Hk. rewrite rmul_coef by assumption.
  rewrite rcoef_R, <- zc_coef by lia. unfold nega. rewrite Ha.
  rewrite (zc_map_zseq (fun k => nega_coef N a b k mod 2 ^ w)) by lia. apply eqm_mod.
Qed.

Section ReleaseOps.
Context (w : Z) (Hw : 0 <= w).

Lemma poly_add_wf N a b : poly_wf w N a -> poly_wf w N b -> poly_wf w N (poly_add w a b).
Proof.
  intros [Ha Wa] [Hb Wb]. split; [unfold poly_add; rewrite map2_length; lia|].
  apply Forall_forall. intros x Hx. apply In_nth_error in Hx. destruct Hx as [i Hi].
  unfold poly_add in Hi. rewrite nth_error_map2 in Hi.
  destruct (nth_error a i), (nth_error b i); try discriminate. injection Hi as <-. apply wadd_word. assumption.
Qed.

Lemma poly_sub_wf N a b : poly_wf w N a -> poly_wf w N b -> poly_wf w N (poly_sub w a b).
Proof.
  intros [Ha Wa] [Hb Wb]. split; [unfold poly_sub; rewrite map2_length; lia|].
  apply Forall_forall. intros x Hx. apply In_nth_error in Hx. destruct Hx as [i Hi].
  unfold poly_sub in Hi. rewrite nth_error_map2 in Hi.
  destruct (nth_error a i), (nth_error b i); try discriminate. injection Hi as <-. apply wsub_word. assumption.
Qed.

Lemma R_poly_add N a b : length a = length b ->
  req (2 ^ w) (R N (poly_add w a b)) (radd (R N a) (R N b)).
Proof. intros H. apply R_add; [assumption|apply wadd_00; assumption|apply wadd_eqm]. Qed.

Lemma R_poly_sub N a b : length a = length b ->
  req (2 ^ w) (R N (poly_sub w a b)) (rsub (R N a) (R N b)).
Proof. intros H. apply R_sub; [assumption|apply wsub_00; assumption|apply wsub_eqm]. Qed.

Lemma poly_mul_nega a b : (0 < length a)%nat -> length b = length a -> poly_mul w a b = nega w a b.
Proof. intros Ha Hb. unfold poly_mul. rewrite fill_with_wrapping_mul_ok by auto. reflexivity. Qed.

Lemma poly_add_mul_spec N out a b : (0 < N)%nat -> length a = N -> length b = N -> poly_wf w N out ->
  poly_wf w N (poly_add_mul w out a b) /\
  req (2 ^ w) (R N (poly_add_mul w out a b)) (radd (R N out) (rmul (R N a) (R N b))).
Proof.
  intros HN Ha Hb [Hl Hwd]. unfold poly_add_mul. rewrite add_mul_ok by (auto; lia). cbn [get_or]. rewrite Ha. split.
  - split; [rewrite map_length, zseq_len; reflexivity|apply words_zseq; assumption].
  - apply req_coefs. intros k Hk. rewrite rcoef_R, <- zc_coef by lia.
    rewrite (zc_map_zseq (fun k => (zc out k + nega_coef N a b k) mod 2 ^ w)) by lia. rewrite eqm_mod.
    change (eqm (2 ^ w) (zc out k + nega_coef N a b k) (rcoef (R N out) k + rcoef (rmul (R N a) (R N b)) k)).
    rewrite rmul_coef, rcoef_R, <- zc_coef by lia. reflexivity.
Qed.

Lemma poly_sub_mul_spec N out a b : (0 < N)%nat -> length a = N -> length b = N -> poly_wf w N out ->
  poly_wf w N (poly_sub_mul w out a b) /\
  req (2 ^ w) (R N (poly_sub_mul w out a b)) (rsub (R N out) (rmul (R N a) (R N b))).
Proof.
  intros HN Ha Hb [Hl Hwd]. unfold poly_sub_mul. rewrite sub_mul_ok by (auto; lia). cbn [get_or]. rewrite Ha. split.
  - split; [rewrite map_length, zseq_len; reflexivity|apply words_zseq; assumption].
  - apply req_coefs. intros k Hk. rewrite rcoef_R, <- zc_coef by lia.
    rewrite (zc_map_zseq (fun k => (zc out k - nega_coef N a b k) mod 2 ^ w)) by lia. rewrite eqm_mod.
    change (eqm (2 ^ w) (zc out k - nega_coef N a b k) (rcoef (R N out) k - rcoef (rmul (R N a) (R N b)) k)).
    rewrite rmul_coef, rcoef_R, <- zc_coef by lia. reflexivity.
Qed.

(** Sum of products *)
Lemma add_multisum_spec p N out cs bs : (0 < N)%nat ->
  Forall (fun c => length c = N) cs -> Forall (fun b => length b = N) bs -> poly_wf w N out ->
  p = Release \/ Forall (fun c => Forall (no_overflow w c) bs) cs ->
  exists out', update_with_wrapping_add_multisum_ p w out cs bs = Ret out' /\ poly_wf w N out' /\
    req (2 ^ w) (R N out') (radd (R N out) (rdot N cs bs)).
Proof.
  intros HN. revert bs out. induction cs as [|c cs IH]; intros [|b bs] out Hc Hb Ho Hp;
    try (exists out; split; [reflexivity|]; split; [assumption|]; cbn [rdot]; intros k; cbn; apply eqm_eq; lia).
  inversion_clear Hc. inversion_clear Hb.
  cbn [update_with_wrapping_add_multisum_].
  assert (Hno : p = Release \/ no_overflow w c b).
  { destruct Hp as [?|Hp]; [auto|right]. inversion_clear Hp. inversion_clear H3. assumption. }
  destruct Ho as [Hol How].
  rewrite add_mul_ok by (auto; lia). cbn [obind].
  pose proof (poly_add_mul_spec N out c b HN H H1 (conj Hol How)) as [Hwf Hr].
  unfold poly_add_mul in Hwf, Hr. rewrite add_mul_ok in Hwf, Hr by (auto; lia). cbn [get_or] in Hwf, Hr.
  destruct (IH bs _ H0 H2 Hwf) as (out' & E & Hwf' & Hr').
  { destruct Hp as [?|Hp]; [auto|right]. inversion_clear Hp.
    eapply Forall_impl; [|exact H4]. intros x Hx. inversion_clear Hx. assumption. }
  exists out'. split; [exact E|]. split; [assumption|]. rewrite Hr', Hr. cbn [rdot].
  intros k. cbn. apply eqm_eq. lia.
Qed.

Lemma sub_multisum_spec p N out cs bs : (0 < N)%nat ->
  Forall (fun c => length c = N) cs -> Forall (fun b => length b = N) bs -> poly_wf w N out ->
  p = Release \/ Forall (fun c => Forall (no_overflow w c) bs) cs ->
  exists out', update_with_wrapping_sub_multisum_ p w out cs bs = Ret out' /\ poly_wf w N out' /\
    req (2 ^ w) (R N out') (rsub (R N out) (rdot N cs bs)).
Proof.
  intros HN. revert bs out. induction cs as [|c cs IH]; intros [|b bs] out Hc Hb Ho Hp;
    try (exists out; split; [reflexivity|]; split; [assumption|]; cbn [rdot]; intros k; cbn; apply eqm_eq; lia).
  inversion_clear Hc. inversion_clear Hb.
  cbn [update_with_wrapping_sub_multisum_].
  assert (Hno : p = Release \/ no_overflow w c b).
  { destruct Hp as [?|Hp]; [auto|right]. inversion_clear Hp. inversion_clear H3. assumption. }
  destruct Ho as [Hol How].
  rewrite sub_mul_ok by (auto; lia). cbn [obind].
  pose proof (poly_sub_mul_spec N out c b HN H H1 (conj Hol How)) as [Hwf Hr].
  unfold poly_sub_mul in Hwf, Hr. rewrite sub_mul_ok in Hwf, Hr by (auto; lia). cbn [get_or] in Hwf, Hr.
  destruct (IH bs _ H0 H2 Hwf) as (out' & E & Hwf' & Hr').
  { destruct Hp as [?|Hp]; [auto|right]. inversion_clear Hp.
    eapply Forall_impl; [|exact H4]. intros x Hx. inversion_clear Hx. assumption. }
  exists out'. split; [exact E|]. split; [assumption|]. rewrite Hr', Hr. cbn [rdot].
  intros k. cbn. apply eqm_eq. lia.
Qed.
End ReleaseOps.

(** ** Monomials *)
Section Mono.
Context (w : Z) (Hw : 0 <= w).

Lemma neg_first_ok l d : (d <= length l)%nat ->
  length (neg_first w l d) = length l /\
  forall k, eqm (2 ^ w) (zc (neg_first w l d) k) (if k <? Z.of_nat d then - zc l k else zc l k).
Proof.
  intros Hd. unfold neg_first. split.
  { rewrite app_length, map_length, firstn_length, skipn_length. lia. }
  intros k. rewrite zc_app, zc_map by (apply wneg_0; assumption).
  rewrite zc_firstn, map_length, firstn_length, Nat.min_l by lia.
  destruct (Z.ltb_spec k (Z.of_nat d)).
  - rewrite (zc_out _ (k - Z.of_nat d)) by lia. rewrite Z.add_0_r. apply wneg_eqm.
  - rewrite zc_skipn by lia. rewrite wneg_0 by assumption. apply eqm_eq. cbn. f_equal. lia.
Qed.

Lemma neg_last_ok l d : (d <= length l)%nat ->
  length (neg_last w l d) = length l /\
  forall k, eqm (2 ^ w) (zc (neg_last w l d) k) (if k <? Z.of_nat (length l - d) then zc l k else - zc l k).
Proof.
  intros Hd. unfold neg_last. split.
  { rewrite app_length, map_length, firstn_length, skipn_length. lia. }
  intros k. rewrite zc_app, zc_map by (apply wneg_0; assumption).
  rewrite zc_firstn, firstn_length, Nat.min_l by lia.
  destruct (Z.ltb_spec k (Z.of_nat (length l - d))).
  - rewrite (zc_out _ (k - Z.of_nat (length l - d))) by lia. rewrite wneg_0 by assumption. apply eqm_eq. lia.
  - rewrite zc_skipn by lia. rewrite Z.add_0_l. rewrite wneg_eqm. apply eqm_eq. do 2 f_equal. lia.
Qed.

Lemma rotate_right_zc l d k : (d <= length l)%nat -> 0 <= k < Z.of_nat (length l) ->
  zc (rotate_right l d) k = if k <? Z.of_nat d then zc l (k + Z.of_nat (length l - d)) else zc l (k - Z.of_nat d).
Proof.
  intros Hd Hk. unfold rotate_right. rewrite zc_app, zc_skipn, zc_firstn, skipn_length by lia.
  replace (length l - (length l - d))%nat with d by lia.
  destruct (Z.ltb_spec k (Z.of_nat d)).
  - destruct (Z.ltb_spec (k - Z.of_nat d) (Z.of_nat (length l - d))); [|lia].
    rewrite (zc_out l (k - Z.of_nat d)) by lia. lia.
  - destruct (Z.ltb_spec (k - Z.of_nat d) (Z.of_nat (length l - d))); [|lia].
    rewrite (zc_out l (k + Z.of_nat (length l - d))) by lia. lia.
Qed.

Lemma rotate_left_zc l d k : (d <= length l)%nat -> 0 <= k < Z.of_nat (length l) ->
  zc (rotate_left l d) k = if k <? Z.of_nat (length l - d) then zc l (k + Z.of_nat d) else zc l (k - Z.of_nat (length l - d)).
Proof.
  intros Hd Hk. unfold rotate_left. rewrite zc_app, zc_skipn, zc_firstn, skipn_length by lia.
  destruct (Z.ltb_spec k (Z.of_nat (length l - d))).
  - rewrite (zc_out l (k - Z.of_nat (length l - d))) by lia.
    destruct (_ <? _); lia.
  - destruct (Z.ltb_spec (k - Z.of_nat (length l - d)) (Z.of_nat d)); [|lia].
    rewrite (zc_out l (k + Z.of_nat d)) by lia. lia.
Qed.

Lemma rotate_right_length {A} (l : list A) d : length (rotate_right l d) = length l.
Proof. unfold rotate_right. rewrite app_length, skipn_length, firstn_length. lia. Qed.
Lemma rotate_left_length {A} (l : list A) d : length (rotate_left l d) = length l.
Proof. unfold rotate_left. rewrite app_length, skipn_length, firstn_length. lia. Qed.

Lemma Forall_firstn {A} (P : A -> Prop) n l : Forall P l -> Forall P (firstn n l).
Proof. intros H. rewrite <- (firstn_skipn n l) in H. apply Forall_app in H. apply H. Qed.
Lemma Forall_skipn {A} (P : A -> Prop) n l : Forall P l -> Forall P (skipn n l).
Proof. intros H. rewrite <- (firstn_skipn n l) in H. apply Forall_app in H. apply H. Qed.

Lemma map_wneg_words l : Forall (is_word w) (map (wneg w) l).
Proof. apply Forall_forall. intros x Hx. rewrite in_map_iff in Hx. destruct Hx as (? & <- & _). apply wneg_word. assumption. Qed.

Lemma monic_monomial_mul_ok N l d : (0 < N)%nat -> poly_wf w N l ->
  poly_wf w N (monic_monomial_mul w l d) /\
  req (2 ^ w) (R N (monic_monomial_mul w l d)) (rshift (Z.of_nat d) (R N l)).
Proof.
  intros HN [Hl Hwd]. unfold monic_monomial_mul. rewrite Hl.
  set (l1 := if Nat.eqb _ _ then l else map (wneg w) l).
  assert (H1 : length l1 = N /\ Forall (is_word w) l1 /\
     forall k, eqm (2 ^ w) (zc l1 k) (if Z.even (Z.of_nat (d / N)) then zc l k else - zc l k)).
  { unfold l1. destruct (Nat.eqb_spec ((d / N) mod 2) 0) as [E|E].
    - assert (Z.even (Z.of_nat (d / N)) = true) as ->.
      { rewrite Zeven_mod. apply Zeq_is_eq_bool. zify. lia. }
      repeat split; auto.
    - assert (Z.even (Z.of_nat (d / N)) = false) as ->.
      { rewrite Zeven_mod. destruct (Zeq_bool _ 0) eqn:E2; [|reflexivity]. apply Zeq_bool_eq in E2. zify. lia. }
      split; [rewrite map_length; assumption|]. split; [apply map_wneg_words|].
      intros k. rewrite zc_map by (apply wneg_0; assumption). apply wneg_eqm. }
  clearbody l1. destruct H1 as (Hl1 & Hw1 & Hz1). rewrite Hl1.
  pose proof (Nat.mod_upper_bound d N ltac:(lia)) as Hrem.
  set (rem := (d mod N)%nat) in *.
  destruct (neg_first_ok (rotate_right l1 rem) rem) as [Hlen Hz].
  { rewrite rotate_right_length. lia. }
  rewrite rotate_right_length, Hl1 in Hlen. split.
  - split; [assumption|]. unfold neg_first. apply Forall_app. split; [apply map_wneg_words|].
    apply Forall_skipn. unfold rotate_right. apply Forall_app. split; [apply Forall_skipn|apply Forall_firstn]; assumption.
  - apply req_coefs. intros k Hk. rewrite rcoef_R, <- zc_coef by (assumption || lia). rewrite Hz.
    rewrite rotate_right_zc by lia. rewrite Hl1.
    change (rcoef (rshift (Z.of_nat d) (R N l)) k) with (rcoef (R N l) (k - Z.of_nat d)).
    assert (Ed : Z.of_nat d = Z.of_nat (d / N) * Z.of_nat N + Z.of_nat rem).
    { unfold rem. rewrite <- Nat2Z.inj_mul, <- Nat2Z.inj_add. f_equal. rewrite (Nat.div_mod d N) at 1 by lia. lia. }
    replace (k - Z.of_nat d) with (k - Z.of_nat rem + (- Z.of_nat (d / N)) * Z.of_nat N) by lia.
    rewrite rcoef_periods, Z.even_opp.
    change (rcoef (R N l) (k - Z.of_nat rem)) with (ext N l (k - Z.of_nat rem)).
    rewrite ext_zc by (auto; lia).
    destruct (Z.ltb_spec k (Z.of_nat rem)).
    + rewrite Hz1. rewrite (zc_out l (k - Z.of_nat rem)) by lia.
      replace (k - Z.of_nat rem + Z.of_nat N) with (k + Z.of_nat (N - rem)) by lia.
      destruct (Z.even _); apply eqm_eq; lia.
    + rewrite Hz1. rewrite (zc_out l (k - Z.of_nat rem + Z.of_nat N)) by lia.
      destruct (Z.even _); apply eqm_eq; lia.
Qed.

Lemma unit_monomial_div_ok N l d : (0 < N)%nat -> poly_wf w N l ->
  poly_wf w N (unit_monomial_div w l d) /\
  req (2 ^ w) (R N (unit_monomial_div w l d)) (rshift (- Z.of_nat d) (R N l)).
Proof.
  intros HN [Hl Hwd]. unfold unit_monomial_div. rewrite Hl.
  set (l1 := if Nat.eqb _ _ then l else map (wneg w) l).
  assert (H1 : length l1 = N /\ Forall (is_word w) l1 /\
     forall k, eqm (2 ^ w) (zc l1 k) (if Z.even (Z.of_nat (d / N)) then zc l k else - zc l k)).
  { unfold l1. destruct (Nat.eqb_spec ((d / N) mod 2) 0) as [E|E].
    - assert (Z.even (Z.of_nat (d / N)) = true) as ->.
      { rewrite Zeven_mod. apply Zeq_is_eq_bool. zify. lia. }
      repeat split; auto.
    - assert (Z.even (Z.of_nat (d / N)) = false) as ->.
      { rewrite Zeven_mod. destruct (Zeq_bool _ 0) eqn:E2; [|reflexivity]. apply Zeq_bool_eq in E2. zify. lia. }
      split; [rewrite map_length; assumption|]. split; [apply map_wneg_words|].
      intros k. rewrite zc_map by (apply wneg_0; assumption). apply wneg_eqm. }
  clearbody l1. destruct H1 as (Hl1 & Hw1 & Hz1). rewrite Hl1.
  pose proof (Nat.mod_upper_bound d N ltac:(lia)) as Hrem.
  set (rem := (d mod N)%nat) in *.
  destruct (neg_last_ok (rotate_left l1 rem) rem) as [Hlen Hz].
  { rewrite rotate_left_length. lia. }
  rewrite rotate_left_length, Hl1 in Hlen, Hz. split.
  - split; [assumption|]. unfold neg_last. apply Forall_app. split; [|apply map_wneg_words].
    apply Forall_firstn. unfold rotate_left. apply Forall_app. split; [apply Forall_skipn|apply Forall_firstn]; assumption.
  - apply req_coefs. intros k Hk. rewrite rcoef_R, <- zc_coef by (assumption || lia). rewrite Hz.
    rewrite rotate_left_zc by lia. rewrite Hl1.
    change (rcoef (rshift (- Z.of_nat d) (R N l)) k) with (rcoef (R N l) (k - - Z.of_nat d)).
    assert (Ed : Z.of_nat d = Z.of_nat (d / N) * Z.of_nat N + Z.of_nat rem).
    { unfold rem. rewrite <- Nat2Z.inj_mul, <- Nat2Z.inj_add. f_equal. rewrite (Nat.div_mod d N) at 1 by lia. lia. }
    destruct (Z.ltb_spec k (Z.of_nat (N - rem))).
    + replace (k - - Z.of_nat d) with (k + Z.of_nat rem + Z.of_nat (d / N) * Z.of_nat N) by lia.
      rewrite rcoef_periods, rcoef_R, <- zc_coef by lia. rewrite Hz1. reflexivity.
    + replace (k - - Z.of_nat d) with (k - Z.of_nat (N - rem) + (Z.of_nat (d / N) + 1) * Z.of_nat N) by lia.
      rewrite rcoef_periods, rcoef_R, <- zc_coef by lia. rewrite Hz1.
      rewrite Z.even_add. cbn [Z.even]. destruct (Z.even _); cbn; apply eqm_eq; lia.
Qed.
End Mono.
