(** * C43, first part: the safe LWE operations of the default engine *)
From Verif Require Import Base Word WordFacts PolyModel PolyProofs RandomModel RandomProofs LweSpec LweModel LweProofs LweTheorems LweVectorTheorems EngineModel EngineSpec.

Lemma neq_false a b : neq a b = false <-> a = b.
Proof. unfold neq. destruct (Nat.eqb_spec a b); cbn; split; congruence. Qed.
Lemma neq_true a b : neq a b = true <-> a <> b.
Proof. unfold neq. destruct (Nat.eqb_spec a b); cbn; split; congruence. Qed.

Lemma lwe_dim_eq c d : c <> [] -> d <> [] -> lwe_dim c = lwe_dim d <-> length c = length d.
Proof. unfold lwe_dim. destruct c, d; try congruence. cbn. lia. Qed.
Lemma nonempty_len {A} (c : list A) : c <> [] -> exists n, length c = S n.
Proof. destruct c as [|x c]; [congruence|]. intros _. exists (length c). reflexivity. Qed.

Lemma refuse_true {A} e (r : outcome (result A)) : refuse true e r = Ret (Err e).
Proof. reflexivity. Qed.
Lemma refuse_false {A} e (r : outcome (result A)) : refuse false e r = r.
Proof. reflexivity. Qed.

(** Splits a chain of checks: one error case per check, then the run. *)
Ltac checks := repeat match goal with
  | |- context [refuse ?b _ _] => let H := fresh "Bad" in destruct b eqn:H; rewrite ?refuse_true, ?refuse_false; [|]
  end.
Ltac check_facts := repeat match goal with
  | H : (_ || _) = true |- _ => apply Bool.orb_true_iff in H
  | H : (_ || _) = false |- _ => apply Bool.orb_false_iff in H; destruct H
  | H : neq _ _ = true |- _ => apply neq_true in H
  | H : neq _ _ = false |- _ => apply neq_false in H
  | H : neq _ _ = true \/ neq _ _ = true |- _ => rewrite !neq_true in H
  end.

Section Lwe.
Context (p : profile) (w : Z) (Hw : 0 <= w).

(** An operation that yields, for every key, a ciphertext with the expected phase. *)
Lemma run_good n (o : outcome (list Z)) (val : list Z -> Z) (valid : Prop) means : valid ->
  (forall s, exists d, o = Ret d /\ length d = S n /\ phase w s d = val s) ->
  engine_spec valid (fun d => length d = S n /\ forall s, phase w s d = val s) means (run o).
Proof.
  intros V H. destruct (H []) as (d & E & L & _). unfold run. rewrite E. cbn [obind engine_spec]. split; [exact V|]. split; [exact L|].
  intros s. destruct (H s) as (d' & E' & _ & P). rewrite E in E'. injection E' as <-. exact P.
Qed.
Lemma spec_good_weaken {A} (valid : Prop) (good good' : A -> Prop) means o : (forall a, valid -> good a -> good' a) ->
  engine_spec valid good means o -> engine_spec valid good' means o.
Proof. intros H. unfold engine_spec. destruct o as [[a|e]|]; auto. intros [V G]. auto. Qed.

Theorem C43_addition : forall output c1 c2, output <> [] -> c1 <> [] -> c2 <> [] ->
  engine_spec (length c1 = length output /\ length c2 = length output)
    (fun d => length d = length output /\ forall s, phase w s d = (phase w s c1 + phase w s c2) mod 2 ^ w)
    (fun e => e = LweDimensionMismatch)
    (safe_discard_add p w output c1 c2).
Proof using Hw.
  intros output c1 c2 Ho H1 H2. unfold safe_discard_add. checks; check_facts.
  - cbn. rewrite !lwe_dim_eq in Bad by assumption. split; [|reflexivity]. intros [A B]. destruct Bad; congruence.
  - rewrite lwe_dim_eq in H, H0 by assumption. destruct (nonempty_len output Ho) as (n & Ln). rewrite Ln.
    apply run_good; [split; congruence|]. intros s.
    apply (C20_discarding_values p w n s output c1 c2 Hw); congruence.
Qed.
Theorem C43_subtraction : forall output c1 c2, output <> [] -> c1 <> [] -> c2 <> [] ->
  engine_spec (length c1 = length output /\ length c2 = length output)
    (fun d => length d = length output /\ forall s, phase w s d = (phase w s c1 - phase w s c2) mod 2 ^ w)
    (fun e => e = LweDimensionMismatch)
    (safe_discard_sub p w output c1 c2).
Proof using Hw.
  intros output c1 c2 Ho H1 H2. unfold safe_discard_sub. checks; check_facts.
  - cbn. rewrite !lwe_dim_eq in Bad by assumption. split; [|reflexivity]. intros [A B]. destruct Bad; congruence.
  - rewrite lwe_dim_eq in H, H0 by assumption. destruct (nonempty_len output Ho) as (n & Ln). rewrite Ln.
    apply run_good; [split; congruence|]. intros s.
    apply (C20_discarding_values p w n s output c1 c2 Hw); congruence.
Qed.

(** The operations with one input ciphertext: opposite, product by a cleartext, addition and subtraction of a
    plaintext, and the fusing addition and subtraction, whose output is also an operand. *)
Theorem C43_unary : forall output c, output <> [] -> c <> [] ->
  let spec val := engine_spec (length c = length output) (fun d => length d = length output /\ forall s, phase w s d = val s mod 2 ^ w)
                              (fun e => e = LweDimensionMismatch) in
  spec (fun s => - phase w s c) (safe_discard_opp w output c) /\
  (forall a, spec (fun s => a * phase w s c) (safe_discard_mul_cleartext p w output c a)) /\
  (forall m, spec (fun s => phase w s c + m) (safe_discard_add_plaintext w output c m)) /\
  (forall m, spec (fun s => phase w s c - m) (safe_discard_sub_plaintext w output c m)) /\
  spec (fun s => phase w s output + phase w s c) (safe_fuse_add p w output c) /\
  spec (fun s => phase w s output - phase w s c) (safe_fuse_sub p w output c).
Proof using Hw.
  intros output c Ho Hc. cbv zeta. destruct (nonempty_len output Ho) as (n & Ln). rewrite Ln.
  unfold safe_discard_opp, safe_discard_mul_cleartext, safe_discard_add_plaintext, safe_discard_sub_plaintext, safe_fuse_add, safe_fuse_sub.
  assert (Hd : neq (lwe_dim c) (lwe_dim output) = neq (lwe_dim output) (lwe_dim c)) by (unfold neq; rewrite Nat.eqb_sym; reflexivity).
  rewrite !Hd. destruct (neq (lwe_dim output) (lwe_dim c)) eqn:Bad; unfold refuse.
  - apply neq_true in Bad. rewrite lwe_dim_eq in Bad by assumption. cbn. repeat split; try reflexivity; congruence.
  - apply neq_false in Bad. rewrite lwe_dim_eq in Bad by assumption.
    assert (Lc : length c = S n) by congruence.
    assert (V := fun s => C20_discarding_values p w n s output c c Hw Ln Lc Lc).
    split; [|split; [|split; [|split; [|split]]]].
    + apply run_good; [assumption|]. intros s. apply (V s).
    + intros a. apply run_good; [assumption|]. intros s. apply (V s).
    + intros m. apply run_good; [assumption|]. intros s. apply (V s).
    + intros m. apply run_good; [assumption|]. intros s. apply (V s).
    + apply run_good; [assumption|]. intros s. destruct (C19_addition p w n s output c Hw Ln Lc) as (d & E & [L _] & P). eauto.
    + apply run_good; [assumption|]. intros s. destruct (C19_subtraction p w n s output c Hw Ln Lc) as (d & E & [L _] & P). eauto.
Qed.
(** ** Vectors *)
Lemma lv_dim_eq u v : lwe_vec_wf u -> lwe_vec_wf v -> lv_dim u = lv_dim v <-> lv_size u = lv_size v.
Proof. intros [H1 _] [H2 _]. unfold lv_dim. lia. Qed.

(** The [i]-th ciphertexts of [v1] and [v2] give the [i]-th ciphertext of the result. *)
Definition pointwise2 {A B} (n : nat) (v1 : list A) (v2 : list B) (val : list Z -> A -> B -> Z) (ds : list (list Z)) : Prop :=
  length ds = length v1 /\
  forall i a b, nth_error v1 i = Some a -> nth_error v2 i = Some b ->
    exists d, nth_error ds i = Some d /\ length d = n /\ forall s, phase w s d = val s a b mod 2 ^ w.

Lemma pointwise_good {A B} n (v1 : list A) (v2 : list B) val (valid : Prop) means o : valid -> length v1 = length v2 ->
  (forall s, exists ds, o = Ret ds /\ length ds = length v1 /\
     forall i a b, nth_error v1 i = Some a -> nth_error v2 i = Some b ->
       exists d, nth_error ds i = Some d /\ length d = n /\ phase w s d = val s a b mod 2 ^ w) ->
  engine_spec valid (pointwise2 n v1 v2 val) means (run o).
Proof.
  intros V L H. destruct (H []) as (ds & E & Ls & H0). unfold run. rewrite E. cbn [obind engine_spec]. split; [exact V|].
  split; [exact Ls|]. intros i a b Ea Eb. destruct (H0 i a b Ea Eb) as (d & Ed & Ld & _). exists d. split; [exact Ed|]. split; [exact Ld|].
  intros s. destruct (H s) as (ds' & E' & _ & Hs). rewrite E in E'. injection E' as <-.
  destruct (Hs i a b Ea Eb) as (d' & Ed' & _ & P). rewrite Ed in Ed'. injection Ed' as <-. exact P.
Qed.

Lemma fuse_vector_ok (f : list Z -> list Z -> outcome (list Z)) n (Q : list Z -> list Z -> list Z -> Prop) :
  (forall o a, length o = S n -> length a = S n -> exists d, f o a = Ret d /\ Q o a d) ->
  forall out v, length out = length v -> Forall (fun c => length c = S n) out -> Forall (fun c => length c = S n) v ->
  exists ds, ozip_update f out v = Ret ds /\ length ds = length out /\
    forall i a b, nth_error out i = Some a -> nth_error v i = Some b -> exists d, nth_error ds i = Some d /\ Q a b d.
Proof.
  intros Hf. induction out as [|o out IH]; intros [|a v] L1 Ho H1; try discriminate.
  { exists []. split; [reflexivity|]. split; [reflexivity|]. intros [|i] x y E; discriminate. }
  inversion Ho; inversion H1; subst.
  destruct (Hf o a) as (d & E & HQ); try assumption.
  destruct (IH v) as (ds & Es & Ls & Hs); try assumption; try (cbn in *; lia).
  exists (d :: ds). cbn [ozip_update]. rewrite E. cbn [obind]. rewrite Es. cbn [obind].
  split; [reflexivity|]. split; [cbn; lia|].
  intros [|i] x y Ex Ey; cbn in Ex, Ey.
  - injection Ex as <-. injection Ey as <-. exists d. split; [reflexivity|exact HQ].
  - apply Hs; assumption.
Qed.

(** The documented meaning of the errors of the engines on vectors. *)
Definition dim_or_count (dims counts : Prop) (e : engine_error) : Prop :=
  (e = LweDimensionMismatch /\ ~ dims) \/ (e = CiphertextCountMismatch /\ ~ counts).

Theorem C43_vector_addition : forall output v1 v2, lwe_vec_wf output -> lwe_vec_wf v1 -> lwe_vec_wf v2 ->
  let dims := lv_size v1 = lv_size output /\ lv_size v2 = lv_size output in
  let counts := lv_count v1 = lv_count output /\ lv_count v2 = lv_count output in
  engine_spec (dims /\ counts)
    (pointwise2 (lv_size output) (lv_cts v1) (lv_cts v2) (fun s a b => phase w s a + phase w s b))
    (dim_or_count dims counts) (safe_discard_add_vector p w output v1 v2) /\
  engine_spec (dims /\ counts)
    (pointwise2 (lv_size output) (lv_cts v1) (lv_cts v2) (fun s a b => phase w s a - phase w s b))
    (dim_or_count dims counts) (safe_discard_sub_vector p w output v1 v2).
Proof using Hw.
  intros output v1 v2 Ho H1 H2 dims counts. unfold safe_discard_add_vector, safe_discard_sub_vector.
  destruct (neq (lv_dim output) (lv_dim v1) || neq (lv_dim output) (lv_dim v2)) eqn:Bad; unfold refuse at 1 3; check_facts.
  - rewrite !lv_dim_eq in Bad by assumption. assert (~ dims) by (unfold dims; intros [A B]; destruct Bad; congruence).
    cbn. unfold dim_or_count. tauto.
  - rewrite !lv_dim_eq in H, H0 by assumption.
    destruct (neq (lv_count output) (lv_count v1) || neq (lv_count output) (lv_count v2)) eqn:Bad2; unfold refuse; check_facts.
    + assert (~ counts) by (unfold counts; intros [A B]; destruct Bad2; congruence). cbn. unfold dim_or_count. tauto.
    + assert (V : dims /\ counts) by (unfold dims, counts; repeat split; congruence).
      destruct Ho as [Hp Ho], H1 as [_ H1], H2 as [_ H2]. rewrite <- H in H1. rewrite <- H0 in H2.
      destruct (lv_size output) as [|n]; [lia|]. unfold lv_count in *.
      split; (apply pointwise_good; [exact V|congruence|]); intros s; apply (C20_discarding_vectors p w n s); auto; congruence.
Qed.

Theorem C43_vector_fusing : forall output v, lwe_vec_wf output -> lwe_vec_wf v ->
  let dims := lv_size v = lv_size output in
  let counts := lv_count v = lv_count output in
  engine_spec (dims /\ counts)
    (pointwise2 (lv_size output) (lv_cts output) (lv_cts v) (fun s a b => phase w s a + phase w s b))
    (dim_or_count dims counts) (safe_fuse_add_vector p w output v) /\
  engine_spec (dims /\ counts)
    (pointwise2 (lv_size output) (lv_cts output) (lv_cts v) (fun s a b => phase w s a - phase w s b))
    (dim_or_count dims counts) (safe_fuse_sub_vector p w output v).
Proof using Hw.
  intros output v Ho H1 dims counts. unfold safe_fuse_add_vector, safe_fuse_sub_vector.
  destruct (neq (lv_dim v) (lv_dim output)) eqn:Bad; unfold refuse at 1 3; check_facts.
  - rewrite lv_dim_eq in Bad by assumption. cbn. unfold dim_or_count, dims. tauto.
  - rewrite lv_dim_eq in Bad by assumption.
    destruct (neq (lv_count v) (lv_count output)) eqn:Bad2; unfold refuse; check_facts.
    + cbn. unfold dim_or_count, counts. tauto.
    + destruct Ho as [Hp Ho], H1 as [_ H1]. rewrite Bad in H1. assert (V : dims /\ counts) by (split; assumption).
      destruct (lv_size output) as [|n]; [lia|]. unfold lv_count in *.
      split; (apply pointwise_good; [exact V|congruence|]); intros s.
      * apply (fuse_vector_ok (lwe_update_add p w) n (fun a b d => length d = S n /\ phase w s d = (phase w s a + phase w s b) mod 2 ^ w)); auto.
        intros a b La Lb. destruct (C19_addition p w n s a b Hw La Lb) as (d & E & [L _] & P). eauto.
      * apply (fuse_vector_ok (lwe_update_sub p w) n (fun a b d => length d = S n /\ phase w s d = (phase w s a - phase w s b) mod 2 ^ w)); auto.
        intros a b La Lb. destruct (C19_subtraction p w n s a b Hw La Lb) as (d & E & [L _] & P). eauto.
Qed.

Theorem C43_plaintext_vector_addition : forall output v ms, lwe_vec_wf output -> lwe_vec_wf v ->
  engine_spec (lv_size v = lv_size output /\ lv_count v = lv_count output /\ length ms = lv_count v)
    (pointwise2 (lv_size output) (lv_cts v) ms (fun s a m => phase w s a + m))
    (fun e => (e = LweDimensionMismatch /\ lv_size v <> lv_size output) \/ (e = CiphertextCountMismatch /\ lv_count v <> lv_count output) \/
              (e = PlaintextCountMismatch /\ length ms <> lv_count v))
    (safe_discard_add_plaintext_vector w output v ms).
Proof using Hw.
  intros output v ms Ho H1. unfold safe_discard_add_plaintext_vector. checks; check_facts.
  - rewrite lv_dim_eq in Bad by assumption. cbn. intuition congruence.
  - rewrite lv_dim_eq in Bad by assumption. cbn. intuition congruence.
  - rewrite lv_dim_eq in Bad by assumption. cbn. intuition congruence.
  - rewrite lv_dim_eq in Bad by assumption. destruct Ho as [Hp Ho], H1 as [_ H1]. rewrite <- Bad in H1.
    destruct (lv_size output) as [|n]; [lia|]. unfold lv_count in *.
    apply pointwise_good; [repeat split; congruence|congruence|]. intros s.
    destruct (C20_discarding_plaintext_vector w n s (lv_cts output) (lv_cts v) ms Hw) as (ds & E & L & Hd); auto.
    exists ds. split; [exact E|]. split; [exact L|]. intros i a m Ea Em. destruct (Hd i a m Ea Em) as (d & Ed & Ld & _ & P). eauto.
Qed.

(** The product with a vector of cleartexts does what it says when the output has as many ciphertexts as the input;
    the output count is not checked (see C43_cleartext_vector_count_refuted). *)
Theorem C43_cleartext_vector_multiplication : forall output v ss, lwe_vec_wf output -> lwe_vec_wf v -> lv_count output = lv_count v ->
  engine_spec (lv_size v = lv_size output /\ length ss = lv_count v)
    (pointwise2 (lv_size output) (lv_cts v) ss (fun s a m => m * phase w s a))
    (fun e => (e = LweDimensionMismatch /\ lv_size v <> lv_size output) \/ (e = CleartextCountMismatch /\ length ss <> lv_count v))
    (safe_discard_mul_cleartext_vector p w output v ss).
Proof using Hw.
  intros output v ss Ho H1 Hc. unfold safe_discard_mul_cleartext_vector. checks; check_facts.
  - rewrite lv_dim_eq in Bad by assumption. cbn. intuition congruence.
  - rewrite lv_dim_eq in Bad by assumption. cbn. intuition congruence.
  - rewrite lv_dim_eq in Bad by assumption. destruct Ho as [Hp Ho], H1 as [_ H1]. rewrite <- Bad in H1.
    destruct (lv_size output) as [|n]; [lia|]. unfold lv_count in *.
    apply pointwise_good; [repeat split; congruence|congruence|]. intros s.
    apply (C20_discarding_cleartext_vector p w n s); auto.
Qed.

(** The affine transformation: as C20_affine_accumulates, it adds to what the output held. *)
Theorem C43_affine : forall output v weights bias, output <> [] -> Forall (is_word w) output -> lwe_vec_wf v ->
  engine_spec (lv_size v = length output /\ length weights = lv_count v)
    (fun d => length d = length output /\
       forall s, phase w s d = (phase w s output + wsum weights (map (phase w s) (lv_cts v)) + bias) mod 2 ^ w)
    (fun e => (e = LweDimensionMismatch /\ lv_size v <> length output) \/ (e = CleartextCountMismatch /\ length weights <> lv_count v))
    (safe_discard_affine p w output v weights bias).
Proof using Hw.
  intros output v weights bias Ho Hf Hv. unfold safe_discard_affine.
  assert (Hd : lwe_dim output = lv_dim v <-> lv_size v = length output).
  { destruct Hv as [H _]. unfold lwe_dim, lv_dim. destruct output; [congruence|]. cbn [length]. lia. }
  checks; check_facts.
  - cbn. intuition congruence.
  - cbn. intuition congruence.
  - apply Hd in Bad. destruct Hv as [_ Hv]. rewrite Bad in Hv. destruct (nonempty_len output Ho) as (n & Ln). rewrite Ln in *.
    apply run_good; [split; congruence|]. intros s.
    destruct (C20_affine_accumulates p w n s output (lv_cts v) weights bias Hw) as (d & E & [L _] & P); [split; assumption|assumption|]. eauto.
Qed.

(** ** Decryption *)
Definition all_words (v : lwe_vec) : Prop := Forall (Forall (is_word w)) (lv_cts v).

Theorem C43_decryption : forall key c, c <> [] -> Forall (is_word w) c -> safe_key p key ->
  engine_spec (length c = S (length key)) (fun m => m = phase w key c) (fun e => e = LweDimensionMismatch) (safe_discard_decrypt p w key c).
Proof using Hw.
  intros key c Hc Hf Hk. unfold safe_discard_decrypt.
  assert (Hd : length key = lwe_dim c <-> length c = S (length key)).
  { unfold lwe_dim. destruct c; [congruence|]. cbn [length]. lia. }
  checks; check_facts.
  - cbn. intuition congruence.
  - apply Hd in Bad. unfold run. rewrite C18_decryption_is_phase by (try split; assumption). cbn. auto.
Qed.

Lemma decrypt_list_ok key cs : safe_key p key -> Forall (fun c => length c = S (length key)) cs -> Forall (Forall (is_word w)) cs ->
  decrypt_lwe_list p w key cs = Ret (map (phase w key) cs).
Proof using Hw.
  intros Hk H1 H2. unfold decrypt_lwe_list. induction cs as [|c cs IH]; [reflexivity|].
  inversion H1; inversion H2; subst. cbn [omap]. rewrite C18_decryption_is_phase by (try split; assumption). cbn [obind].
  rewrite IH by assumption. reflexivity.
Qed.
Lemma zip_decrypt_ok key cs out : safe_key p key -> Forall (fun c => length c = S (length key)) cs -> Forall (Forall (is_word w)) cs ->
  length out = length cs -> ozip_update (fun _ c => decrypt_lwe p w key c) out cs = Ret (map (phase w key) cs).
Proof using Hw.
  intros Hk H1 H2. revert out. induction cs as [|c cs IH]; intros [|o out] L; try discriminate; [reflexivity|].
  inversion H1; inversion H2; subst. cbn [ozip_update]. rewrite C18_decryption_is_phase by (try split; assumption). cbn [obind].
  rewrite IH by (try assumption; cbn in L; lia). reflexivity.
Qed.

Theorem C43_vector_decryption : forall key v, lwe_vec_wf v -> all_words v -> safe_key p key ->
  engine_spec (lv_size v = S (length key)) (fun ms => ms = map (phase w key) (lv_cts v)) (fun e => e = LweDimensionMismatch)
    (safe_decrypt_vector p w key v) /\
  forall output, engine_spec (lv_size v = S (length key) /\ length output = lv_count v) (fun ms => ms = map (phase w key) (lv_cts v))
    (fun e => (e = LweDimensionMismatch /\ lv_size v <> S (length key)) \/ (e = PlaintextCountMismatch /\ length output <> lv_count v))
    (safe_discard_decrypt_vector p w key output v).
Proof using Hw.
  intros key v Hv Hf Hk. assert (Hd : length key = lv_dim v <-> lv_size v = S (length key)).
  { destruct Hv as [H _]. unfold lv_dim. lia. }
  split; [|intros output].
  - unfold safe_decrypt_vector. checks; check_facts; [cbn; intuition congruence|].
    apply Hd in Bad. destruct Hv as [_ Hv]. rewrite Bad in Hv. unfold run. rewrite decrypt_list_ok by assumption. cbn. auto.
  - unfold safe_discard_decrypt_vector. checks; check_facts; [cbn; intuition congruence..|].
    apply Hd in Bad. destruct Hv as [_ Hv]. rewrite Bad in Hv. unfold run, lv_count in *. rewrite ck_dim_eq_ok by congruence. cbn [obind].
    rewrite zip_decrypt_ok by (try assumption; congruence). cbn. auto.
Qed.

(** ** Encryption: on matching sizes the operation of C18 and C21, else an error and no generator is touched *)
Theorem C43_encryption : forall gauss key output m g, output <> [] ->
  guarded_spec (length output = S (length key)) (encrypt_lwe p w gauss key output m g) (fun e => e = LweDimensionMismatch)
    (safe_discard_encrypt p w gauss key output m g).
Proof.
  intros gauss key output m g Ho. unfold safe_discard_encrypt, guarded_spec.
  assert (Hd : length key = lwe_dim output <-> length output = S (length key)).
  { unfold lwe_dim. destruct output; [congruence|]. cbn [length]. lia. }
  checks; check_facts.
  - right. split; [intuition congruence|]. eauto.
  - left. split; [apply Hd; assumption|]. unfold run. destruct (encrypt_lwe _ _ _ _ _ _ _); reflexivity.
Qed.
Theorem C43_vector_encryption : forall gauss key output ms g, lwe_vec_wf output ->
  guarded_spec (lv_size output = S (length key) /\ length ms = lv_count output) (encrypt_lwe_list p w gauss key (lv_cts output) ms g)
    (fun e => (e = LweDimensionMismatch /\ lv_size output <> S (length key)) \/ (e = PlaintextCountMismatch /\ length ms <> lv_count output))
    (safe_discard_encrypt_vector p w gauss key output ms g).
Proof.
  intros gauss key output ms g [Hp _]. unfold safe_discard_encrypt_vector, guarded_spec.
  assert (Hd : length key = lv_dim output <-> lv_size output = S (length key)) by (unfold lv_dim; lia).
  checks; check_facts.
  - right. split; [intuition congruence|]. eexists. split; [reflexivity|]. intuition congruence.
  - right. split; [intuition congruence|]. eexists. split; [reflexivity|]. intuition congruence.
  - left. split; [intuition congruence|]. unfold run. destruct (encrypt_lwe_list _ _ _ _ _ _ _); reflexivity.
Qed.
Theorem C43_public_key_encryption : forall pk output m sg, lwe_vec_wf pk -> output <> [] ->
  guarded_spec (length output = lv_size pk) (discard_encrypt_public p w (lv_cts pk) output m sg) (fun e => e = LweDimensionMismatch)
    (safe_discard_encrypt_public p w pk output m sg).
Proof.
  intros pk output m sg [Hp _] Ho. unfold safe_discard_encrypt_public, guarded_spec.
  assert (Hd : lv_dim pk = lwe_dim output <-> length output = lv_size pk).
  { unfold lwe_dim, lv_dim. destruct output; [congruence|]. cbn [length]. lia. }
  checks; check_facts.
  - right. split; [intuition congruence|]. eauto.
  - left. split; [apply Hd; assumption|]. unfold run. destruct (discard_encrypt_public _ _ _ _ _ _); reflexivity.
Qed.
End Lwe.
Print Assumptions C43_addition.
Print Assumptions C43_subtraction.
Print Assumptions C43_unary.
Print Assumptions C43_vector_addition.
Print Assumptions C43_vector_fusing.
Print Assumptions C43_plaintext_vector_addition.
Print Assumptions C43_cleartext_vector_multiplication.
Print Assumptions C43_affine.
Print Assumptions C43_decryption.
Print Assumptions C43_vector_decryption.
Print Assumptions C43_encryption.
Print Assumptions C43_vector_encryption.
Print Assumptions C43_public_key_encryption.

(** ** Checks that are missing *)
(** The plain decryption has no check: a ciphertext of another dimension is not refused.  Checked builds panic; release
    builds answer Ok with a number computed from the part of the key that fits. *)
Theorem C43_decryption_dimension_refuted : exists key c, length c <> S (length key) /\
  safe_decrypt Debug 32 key c = Panic /\ (exists m, safe_decrypt Release 32 key c = Ret (Ok m)) /\
  safe_discard_decrypt Debug 32 key c = Ret (Err LweDimensionMismatch).
Proof. exists [1; 1], [5; 9]. vm_compute. repeat split; try discriminate. eauto. Qed.
Print Assumptions C43_decryption_dimension_refuted.

(** The product of a vector of ciphertexts by cleartexts does not check the size of the output: with a longer output the
    last ciphertexts keep their previous value, with a shorter one results are dropped, and the answer is Ok. *)
Theorem C43_cleartext_vector_count_refuted : exists output output' v ss,
  lwe_vec_wf output /\ lwe_vec_wf output' /\ lwe_vec_wf v /\ lv_size output = lv_size v /\ lv_size output' = lv_size v /\ length ss = lv_count v /\
  (lv_count v < lv_count output)%nat /\ (lv_count output' < lv_count v)%nat /\
  safe_discard_mul_cleartext_vector Debug 32 output v ss = Ret (Ok [[2; 4]; [9; 12]; nth 2 (lv_cts output) []]) /\
  safe_discard_mul_cleartext_vector Debug 32 output' v ss = Ret (Ok [[2; 4]]).
Proof.
  exists (LweVec 2 [[0; 0]; [0; 0]; [7; 7]]), (LweVec 2 [[0; 0]]), (LweVec 2 [[1; 2]; [3; 4]]), [2; 3].
  unfold lwe_vec_wf. cbn. repeat split; repeat constructor.
Qed.
Print Assumptions C43_cleartext_vector_count_refuted.

Example C43_lwe_case :
  safe_discard_add Debug 8 [0; 0; 0] [250; 1; 7] [10; 2; 255] = Ret (Ok [4; 3; 6]) /\
  safe_discard_add Debug 8 [0; 0; 0] [250; 1; 7] [10; 2] = Ret (Err LweDimensionMismatch) /\
  safe_discard_add_vector Debug 8 (LweVec 2 [[1; 2]; [3; 4]]) (LweVec 2 [[250; 1]; [7; 8]]) (LweVec 2 [[10; 1]; [1; 1]]) = Ret (Ok [[4; 2]; [8; 9]]) /\
  safe_discard_add_vector Debug 8 (LweVec 2 [[1; 2]]) (LweVec 2 [[250; 1]; [7; 8]]) (LweVec 2 [[10; 1]; [1; 1]]) = Ret (Err CiphertextCountMismatch) /\
  safe_discard_add_plaintext_vector 8 (LweVec 2 [[1; 2]; [0; 0]]) (LweVec 2 [[250; 1]; [7; 8]]) [1; 2; 3] = Ret (Err PlaintextCountMismatch) /\
  safe_decrypt_vector Debug 8 [1; 0] (LweVec 3 [[250; 1; 7]; [3; 3; 3]]) = Ret (Ok [13; 0]).
Proof. repeat split. Qed.
