(** * C43, second part: extraction, keyswitches, GLWE operations, key generation and creation *)
From Verif Require Import Base Word WordFacts NegaRing PolySpec PolyModel PolyProofs RingSum DecompModel DecompProofs RandomModel RandomProofs LweSpec LweModel
  LweProofs LweTheorems GlweSpec GlweModel GlweProofs GlweTheorems GgswModel KeyswitchModel KeyswitchSpec KeyswitchProofs KeyswitchTheorems PackingProofs PackingTheorems
  NoiseBounds BootstrapModel GgswTheorems WopBitsTheorems EngineModel EngineSpec EngineTheorems.

(** ** Sample extraction *)
Theorem C43_extraction : forall w output c n, 0 <= w -> output <> [] -> glwe_ct_wf c -> Forall (Forall (is_word w)) (g_polys c) ->
  engine_spec (length output = S (g_dim c * g_N c) /\ (n < g_N c)%nat)
    (fun l => length l = length output /\
       forall key, length key = g_dim c -> Forall (fun s => length s = g_N c) key ->
         phase w (glwe_key_into_lwe_key key) l = rcoef (gphase (g_N c) key (g_polys c)) (Z.of_nat n) mod 2 ^ w)
    (fun e => (e = SizeMismatch /\ length output <> S (g_dim c * g_N c)) \/ (e = MonomialIndexTooLarge /\ (g_N c <= n)%nat))
    (safe_discard_extract w output c n).
Proof.
  intros w output c n Hw Ho (HN & Hne & Hl) Hwd. unfold safe_discard_extract.
  assert (Hd : lwe_dim output = (g_N c * g_dim c)%nat <-> length output = S (g_dim c * g_N c)).
  { unfold lwe_dim. destruct output; [congruence|]. cbn [length]. rewrite (Nat.mul_comm (g_N c)). lia. }
  checks; check_facts.
  - cbn. intuition congruence.
  - apply Nat.leb_le in Bad0. cbn. split; [lia|]. auto.
  - apply Nat.leb_gt in Bad0. apply Hd in Bad. unfold run.
    assert (Hwf : forall key : list (list Z), length key = g_dim c -> glwe_wf w (length key) (g_N c) (g_polys c)).
    { intros key ->. split; [unfold g_dim; destruct (g_polys c); [congruence|]; cbn [length]; lia|].
      clear - Hl Hwd. induction Hl; [constructor|]. inversion Hwd; subst. constructor; [split; assumption|auto]. }
    pose (z := repeat (repeat 0 (g_N c)) (g_dim c)).
    assert (Hz : length z = g_dim c) by apply repeat_length.
    destruct (C24_extraction_phase w (g_N c) z (g_polys c) output n Hw Bad0) as (l & E & [Ll _] & _); [|apply Hwf; exact Hz|rewrite Hz; exact Bad|].
    { apply Forall_forall. intros x Hx. apply repeat_spec in Hx. subst x. apply repeat_length. }
    rewrite E. cbn [obind engine_spec]. split; [split; assumption|]. split; [rewrite Ll, Hz; symmetry; exact Bad|].
    intros key Hk Hkl. destruct (C24_extraction_phase w (g_N c) key (g_polys c) output n Hw Bad0) as (l' & E' & _ & P); auto.
    { rewrite Hk; exact Bad. }
    rewrite E in E'. injection E' as <-. exact P.
Qed.
Print Assumptions C43_extraction.

(** ** Keyswitches *)
(** The sizes stored in a keyswitch key from the key [s] to the key [key]. *)
Definition ks_key_for (w : Z) (s key : list Z) (noise : nat -> nat -> Z) (k : ks_key) : Prop :=
  kk_out k = length key /\ ksk_encrypts w (kk_b k) (kk_l k) key s noise (kk_blocks k).

Theorem C43_keyswitch : forall p w s key noise beta k output c, dec_wf w (Dec (kk_b k) (kk_l k)) -> ks_key_for w s key noise k -> binary s ->
  (forall i j, (i < length s)%nat -> (j < kk_l k)%nat -> Z.abs (noise i j) <= beta) ->
  output <> [] -> c <> [] -> Forall (is_word w) c ->
  engine_spec (length c = S (length s) /\ length output = S (length key))
    (fun out => lwe_wf w (length key) out /\
       torus_dist w (phase w s c) (phase w key out)
         <= Z.of_nat (length s) * 2 ^ (w - kk_b k * Z.of_nat (kk_l k) - 1) + Z.of_nat (length s) * Z.of_nat (kk_l k) * 2 ^ (kk_b k - 1) * beta)
    (fun e => (e = InputLweDimensionMismatch /\ length c <> S (length s)) \/ (e = OutputLweDimensionMismatch /\ length output <> S (length key)))
    (safe_discard_keyswitch p w output c k).
Proof.
  intros p w s key noise beta k output c Hd (Hk & He) Hs Hn Ho Hc Hwd. unfold safe_discard_keyswitch.
  assert (D1 : lwe_dim c = kk_in k <-> length c = S (length s)).
  { unfold lwe_dim, kk_in. rewrite (proj1 He). destruct c; [congruence|]. cbn [length]. lia. }
  assert (D2 : lwe_dim output = kk_out k <-> length output = S (length key)).
  { unfold lwe_dim. rewrite Hk. destruct output; [congruence|]. cbn [length]. lia. }
  checks; check_facts; [cbn; intuition congruence..|]. apply D1 in Bad. apply D2 in Bad0. rewrite Hk. unfold run.
  destruct (C30_error_bound p w (kk_b k) (kk_l k) key s noise beta (kk_blocks k) output c) as (out & E & W & T); auto; [split; assumption|].
  rewrite E. cbn. auto.
Qed.
Print Assumptions C43_keyswitch.

Lemma g_dim_eq c k : glwe_ct_wf c -> g_dim c = k <-> length (g_polys c) = S k.
Proof. intros (_ & H & _). unfold g_dim. destruct (g_polys c); [congruence|]. cbn [length]. lia. Qed.

Section Packing.
Context (p : profile) (w : Z) (N : nat) (s : list Z) (key : list (list Z)) (k : pks_key) (output : glwe_ct) (v : lwe_vec).
Hypothesis (Hd : dec_wf w (Dec (pk_b k) (pk_l k))) (HN : (0 < N)%nat) (Hs : binary s) (KN : pk_N k = N) (Kk : pk_k k = length key)
  (Ho : glwe_ct_wf output) (Hv : lwe_vec_wf v) (Hwd : Forall (Forall (is_word w)) (lv_cts v)).

(** The documented conditions, one by one. *)
Definition packing_sizes : Prop :=
  lv_size v = S (length s) /\ g_dim output = length key /\ g_N output = N /\ (lv_count v <= N)%nat.
Definition packing_error (e : engine_error) : Prop :=
  (e = InputLweDimensionMismatch /\ lv_size v <> S (length s)) \/ (e = OutputGlweDimensionMismatch /\ g_dim output <> length key) \/
  (e = OutputPolynomialSizeMismatch /\ g_N output <> N) \/ (e = CiphertextCountMismatch /\ (g_N output < lv_count v)%nat).

Lemma packing_inputs : lv_size v = S (length s) -> Forall (lwe_wf w (length s)) (lv_cts v).
Proof using Hv Hwd.
  intros E. destruct Hv as [_ H]. rewrite E in H. revert H Hwd. generalize (lv_cts v). clear.
  intros l. induction l as [|c l IH]; intros H1 H2; constructor; inversion H1; inversion H2; subst; [split; assumption|auto].
Qed.

Theorem C43_packing_keyswitch : forall noise beta, gkey_ok p N key ->
  gksk_encrypts w (pk_b k) (pk_l k) N key s (rone N) noise (pk_blocks k) -> 0 <= beta ->
  (forall i j, (i < length s)%nat -> (j < pk_l k)%nat -> rbound (2 ^ w) beta (noise i j)) ->
  engine_spec packing_sizes
    (fun out => exists d, decrypt_glwe p w key N out = Ret d /\ length d = N /\
      let kse := Z.of_nat (lv_count v) * (Z.of_nat (length s) * (Z.of_nat (pk_l k) * (2 ^ (pk_b k - 1) * beta))) in
      (forall t ct, nth_error (lv_cts v) t = Some ct ->
         torus_dist w (phase w s ct) (nth t d 0) <= Z.of_nat (length s) * 2 ^ (w - pk_b k * Z.of_nat (pk_l k) - 1) + kse) /\
      (forall t, (lv_count v <= t < N)%nat -> torus_dist w 0 (nth t d 0) <= kse))
    packing_error (safe_discard_packing_keyswitch p w output v k).
Proof using All.
  intros noise beta Hg He Hb Hn. unfold safe_discard_packing_keyswitch, packing_sizes, packing_error.
  assert (D1 : lv_dim v = length (pk_blocks k) <-> lv_size v = S (length s)).
  { unfold lv_dim. rewrite (proj1 He). destruct Hv. lia. }
  rewrite Kk, KN. checks; check_facts; try (cbn; intuition congruence).
  - apply Nat.ltb_lt in Bad2. cbn. split; [lia|]. auto.
  - apply Nat.ltb_ge in Bad2. apply D1 in Bad. assert (Lo := proj1 (g_dim_eq output (length key) Ho) Bad0). destruct Ho as (_ & _ & Hol). rewrite Bad1 in Hol, Bad2. unfold run.
    destruct (C31_error_bound p w (pk_b k) (pk_l k) N key s noise beta (pk_blocks k) (g_polys output) (lv_cts v)) as (out & d & E & Ed & Ld & H1 & H2);
      auto using packing_inputs.
    rewrite E. cbn [obind engine_spec]. split; [auto|]. exists d. split; [exact Ed|]. split; [exact Ld|]. split; [|exact H2].
    intros t ct Ht. destruct (H1 t ct Ht) as (x & Ex & Hx). rewrite C18_decryption_is_phase in Ex.
    + injection Ex as <-. exact Hx.
    + destruct Hd as (? & ? & ? & ?). cbn in *. nia.
    + apply (proj1 (Forall_forall _ _) (packing_inputs Bad)). eapply nth_error_In; exact Ht.
    + right; exact Hs.
Qed.

Theorem C43_private_functional_packing_keyswitch : forall f1 (P : rp N) noise M beta,
  gksk_encrypts w (pk_b k) (pk_l k) N key (s ++ [-1]) (rscal f1 P) noise (pk_blocks k) -> 0 <= beta -> 0 <= M ->
  rbound (2 ^ w) M (rscal f1 P) ->
  (forall i j, (i <= length s)%nat -> (j < pk_l k)%nat -> rbound (2 ^ w) beta (noise i j)) ->
  engine_spec packing_sizes
    (fun out => glwe_wf w (length key) N out /\
      rbound (2 ^ w) (Z.of_nat (lv_count v) * (Z.of_nat (S (length s)) * 2 ^ (w - pk_b k * Z.of_nat (pk_l k) - 1) * M
                        + Z.of_nat (S (length s)) * (Z.of_nat (pk_l k) * (2 ^ (pk_b k - 1) * beta))))
        (rsub (gphase N key out)
              (rsum (lv_count v) (fun t => rshift (Z.of_nat t) (rscal (f1 * phase w s (nth t (lv_cts v) [])) P)))))
    packing_error (safe_discard_private_functional_packing_keyswitch p w output v k).
Proof using All.
  intros f1 P noise M beta He Hb HM HP Hn. unfold safe_discard_private_functional_packing_keyswitch, packing_sizes, packing_error.
  assert (D1 : lv_dim v = (length (pk_blocks k) - 1)%nat <-> lv_size v = S (length s)).
  { unfold lv_dim. rewrite (proj1 He), app_length. cbn [length]. destruct Hv. lia. }
  rewrite Kk, KN. checks; check_facts; try (cbn; intuition congruence).
  - apply Nat.ltb_lt in Bad2. cbn. split; [lia|]. auto.
  - apply Nat.ltb_ge in Bad2. apply D1 in Bad. assert (Lo := proj1 (g_dim_eq output (length key) Ho) Bad0). destruct Ho as (_ & _ & Hol). rewrite Bad1 in Hol, Bad2. unfold run.
    destruct (C32_error_bound p w (pk_b k) (pk_l k) N key s f1 P noise M beta (pk_blocks k) (g_polys output) (lv_cts v)) as (out & E & W & R1);
      auto using packing_inputs.
    rewrite E. cbn [obind engine_spec]. auto.
Qed.
End Packing.
Print Assumptions C43_packing_keyswitch.
Print Assumptions C43_private_functional_packing_keyswitch.

(** ** GLWE decryption *)
Lemma discard_decrypt_any_output p w key N encoded c : length encoded = N -> c <> [] -> Forall (fun a => length a = N) c ->
  discard_decrypt_glwe p w key encoded c = decrypt_glwe p w key N c.
Proof.
  intros Le Hc Hl. unfold decrypt_glwe, discard_decrypt_glwe.
  destruct (exists_last Hc) as (m & b & ->). rewrite glwe_split_snoc. cbn [obind].
  apply Forall_app in Hl. destruct Hl as [_ Hb]. apply Forall_inv in Hb.
  rewrite !ck_dim_eq_ok by (rewrite ?repeat_length; congruence). cbn [obind].
  rewrite !zip_overwrite by (rewrite ?repeat_length; congruence). reflexivity.
Qed.

Section Glwe.
Context (p : profile) (w : Z) (Hw : 0 <= w).

Lemma glwe_ct_words (key : list (list Z)) c : glwe_ct_wf c -> Forall (Forall (is_word w)) (g_polys c) -> g_dim c = length key -> glwe_wf w (length key) (g_N c) (g_polys c).
Proof.
  intros Hc Hwd Hk. apply (g_dim_eq c _ Hc) in Hk. split; [exact Hk|]. destruct Hc as (_ & _ & Hl).
  clear - Hl Hwd. induction Hl; [constructor|]. inversion Hwd; subst. constructor; [split; assumption|auto].
Qed.

Theorem C43_glwe_decryption : forall key c, glwe_key_wf key -> glwe_ct_wf c -> Forall (Forall (is_word w)) (g_polys c) ->
  gkey_ok p (gk_N key) (gk_polys key) ->
  let sizes := g_dim c = gk_dim key /\ g_N c = gk_N key in
  let good d := poly_wf w (gk_N key) d /\ req (2 ^ w) (R (gk_N key) d) (gphase (gk_N key) (gk_polys key) (g_polys c)) in
  let error e := (e = GlweDimensionMismatch /\ g_dim c <> gk_dim key) \/ (e = PolynomialSizeMismatch /\ g_N c <> gk_N key) in
  engine_spec sizes good error (safe_decrypt_glwe p w key c) /\
  forall output, engine_spec (sizes /\ length output = g_N c) good
    (fun e => error e \/ (e = PlaintextCountMismatch /\ length output <> g_N c)) (safe_discard_decrypt_glwe p w key output c).
Proof using Hw.
  intros key c (HN & Hkl) Hc Hwd Hg sizes good error.
  assert (Ok : sizes -> exists d, decrypt_glwe p w (gk_polys key) (gk_N key) (g_polys c) = Ret d /\ good d).
  { intros [S1 S2]. assert (Hwf := glwe_ct_words (gk_polys key) c Hc Hwd S1). rewrite S2 in Hwf.
    destruct (C23_decryption_is_phase p w (gk_N key) (gk_polys key) (g_polys c) Hw HN Hg Hwf) as (d & E & P & Q).
    exists d. split; [exact E|]. split; assumption. }
  split; [|intros output].
  - unfold safe_decrypt_glwe. checks; check_facts; try (cbn; unfold sizes, error; intuition congruence).
    destruct Ok as (d & E & G); [split; assumption|]. unfold run. rewrite E. cbn. split; [split; assumption|exact G].
  - unfold safe_discard_decrypt_glwe. checks; check_facts; try (cbn; unfold sizes, error; intuition congruence).
    destruct Ok as (d & E & G); [split; congruence|]. unfold run. destruct Hc as (_ & Hne & Hl).
    rewrite (discard_decrypt_any_output p w (gk_polys key) (gk_N key)), E; [|congruence|exact Hne|rewrite Bad; exact Hl].
    cbn. split; [split; [split; congruence|congruence]|exact G].
Qed.

Theorem C43_glwe_vector_decryption : forall key v, glwe_key_wf key -> glwe_vec_wf v -> Forall (Forall (Forall (is_word w))) (gv_cts v) ->
  gkey_ok p (gk_N key) (gk_polys key) ->
  engine_spec (gv_dim v = gk_dim key /\ gv_N v = gk_N key)
    (fun d => exists ds, d = concat ds /\
       Forall2 (fun c m => poly_wf w (gk_N key) m /\ req (2 ^ w) (R (gk_N key) m) (gphase (gk_N key) (gk_polys key) c)) (gv_cts v) ds)
    (fun e => (e = GlweDimensionMismatch /\ gv_dim v <> gk_dim key) \/ (e = PolynomialSizeMismatch /\ gv_N v <> gk_N key))
    (safe_decrypt_glwe_vector p w key v).
Proof using Hw.
  intros key v (HN & Hkl) (Hv1 & Hv2 & Hv) Hwd Hg. unfold safe_decrypt_glwe_vector.
  checks; check_facts; try (cbn; intuition congruence).
  assert (Hs : gv_size v = S (length (gk_polys key))) by (unfold gk_dim, gv_dim in *; lia).
  unfold run, decrypt_glwe_list.
  assert (H : exists ds, omap (decrypt_glwe p w (gk_polys key) (gk_N key)) (gv_cts v) = Ret ds /\
     Forall2 (fun c m => poly_wf w (gk_N key) m /\ req (2 ^ w) (R (gk_N key) m) (gphase (gk_N key) (gk_polys key) c)) (gv_cts v) ds).
  { rewrite Hs, <- Bad0 in Hv. clear - Hv Hwd Hw HN Hg. induction Hv as [|c cs [L1 L2] Hv IH]; [exists []; split; [reflexivity|constructor]|].
    inversion Hwd; subst. destruct IH as (ds & E & F); [assumption|].
    destruct (C23_decryption_is_phase p w (gk_N key) (gk_polys key) c Hw HN Hg) as (d & Ed & P & Q).
    { split; [exact L1|]. clear - L2 H1. induction L2; [constructor|]. inversion H1; subst. constructor; [split; assumption|auto]. }
    exists (d :: ds). cbn [omap]. rewrite Ed. cbn [obind]. rewrite E. cbn [obind]. split; [reflexivity|]. constructor; [split; assumption|exact F]. }
  destruct H as (ds & E & F). rewrite E. cbn. split; [split; congruence|]. exists ds. auto.
Qed.

(** ** GLWE encryption *)
Theorem C43_glwe_encryption : forall gauss key output m g, glwe_ct_wf output ->
  guarded_spec (gk_N key = g_N output /\ gk_dim key = g_dim output /\ length m = gk_N key)
    (encrypt_glwe p w gauss (gk_polys key) (g_polys output) m g)
    (fun e => (e = PolynomialSizeMismatch /\ gk_N key <> g_N output) \/ (e = GlweDimensionMismatch /\ gk_dim key <> g_dim output) \/
              (e = PlaintextCountMismatch /\ length m <> gk_N key))
    (safe_discard_encrypt_glwe p w gauss key output m g) /\
  guarded_spec (length m = gk_N key)
    (encrypt_glwe p w gauss (gk_polys key) (glwe_allocate (S (gk_dim key)) (gk_N key)) m g)
    (fun e => e = PlaintextCountMismatch) (safe_encrypt_glwe p w gauss key m g).
Proof.
  intros gauss key output m g Ho. split.
  - unfold safe_discard_encrypt_glwe, guarded_spec. checks; check_facts.
    1-3: right; split; [intuition congruence|]; eexists; split; [reflexivity|]; intuition congruence.
    left. split; [auto|]. unfold run. destruct (encrypt_glwe _ _ _ _ _ _ _); reflexivity.
  - unfold safe_encrypt_glwe, guarded_spec. checks; check_facts.
    1: right; split; [congruence|]; eauto.
    left. split; [auto|]. unfold run. destruct (encrypt_glwe _ _ _ _ _ _ _); reflexivity.
Qed.
Lemma usize_rem_ok a b : (0 < b)%nat -> usize_rem a b = Ret (a mod b)%nat.
Proof. intros H. unfold usize_rem. destruct (Nat.eqb_spec b 0); [lia|reflexivity]. Qed.
Lemma rem_zero a b : (0 < b)%nat -> (a mod b)%nat = 0%nat <-> a = (a / b * b)%nat.
Proof. intros H. pose proof (Nat.div_mod a b). lia. Qed.
Lemma rem_div a b : (0 < b)%nat -> (a mod b)%nat = 0%nat <-> exists q, a = (q * b)%nat.
Proof.
  intros H. rewrite rem_zero by assumption. split; [eauto|]. intros (q & ->). rewrite Nat.div_mul by lia. reflexivity.
Qed.

Theorem C43_glwe_vector_encryption : forall gauss key ms g, (0 < gk_N key)%nat ->
  guarded_spec (exists count, length ms = (count * gk_N key)%nat)
    (encrypt_glwe_list p w gauss (gk_polys key) (gk_N key) (repeat (glwe_allocate (S (gk_dim key)) (gk_N key)) (length ms / gk_N key)) ms g)
    (fun e => e = PlaintextCountMismatch) (safe_encrypt_glwe_vector p w gauss key ms g).
Proof.
  intros gauss key ms g HN. unfold safe_encrypt_glwe_vector, guarded_spec. rewrite usize_rem_ok by assumption. cbn [obind].
  rewrite <- rem_div by assumption. checks; check_facts.
  - right. eauto.
  - left. split; [exact Bad|]. unfold run. destruct (encrypt_glwe_list _ _ _ _ _ _ _ _); reflexivity.
Qed.

(** The trivial encryption decrypts to the plaintexts under every key, whatever the output held before. *)
Lemma trivial_any_output self k N m : length self = S k -> Forall (fun a => length a = N) self -> length m = N ->
  glwe_fill_with_trivial_encryption p self m = glwe_new_trivial_encryption p (S k) m.
Proof.
  intros L Hl Hm. unfold glwe_new_trivial_encryption, glwe_fill_with_trivial_encryption, glwe_allocate. rewrite Hm.
  replace (repeat (repeat 0 N) (S k)) with (repeat (repeat 0 N) k ++ [repeat 0 N]) by (rewrite <- repeat_cons; reflexivity).
  destruct (@exists_last _ self) as (ms & b & ->); [destruct self; discriminate|]. rewrite !glwe_split_snoc. cbn [obind].
  apply Forall_app in Hl. destruct Hl as [H1 H2]. apply Forall_inv in H2. rewrite app_length in L. cbn in L.
  rewrite !ck_dim_eq_ok by (rewrite ?repeat_length; congruence). cbn [obind]. rewrite !zip_overwrite by (rewrite ?repeat_length; congruence).
  do 2 f_equal. assert (Lk : length ms = k) by lia. clear - H1 Lk. subst k.
  induction H1 as [|x ms Hx H1 IH]; [reflexivity|]. cbn [map length repeat]. rewrite IH. f_equal. subst N. clear.
  induction x as [|y x IH]; [reflexivity|]. cbn [map length repeat]. rewrite <- IH. reflexivity.
Qed.

Theorem C43_glwe_trivial_encryption : forall output m, glwe_ct_wf output -> Forall (is_word w) m ->
  engine_spec (length m = g_N output)
    (fun c => glwe_wf w (g_dim output) (g_N output) c /\
       forall p' key, length key = g_dim output -> Forall (fun s => length s = g_N output) key -> decrypt_glwe p' w key (g_N output) c = Ret m)
    (fun e => e = MismatchedPolynomialSizeAndPlaintextVectorCount) (safe_discard_trivially_encrypt_glwe p output m).
Proof using Hw.
  intros output m Ho Hm. unfold safe_discard_trivially_encrypt_glwe. checks; check_facts; [cbn; intuition congruence|].
  destruct (g_dim_eq output (g_dim output) Ho) as [Lo _]. specialize (Lo eq_refl). destruct Ho as (HN & _ & Hl).
  unfold run. rewrite (trivial_any_output _ (g_dim output) (g_N output)) by auto.
  pose (z := repeat (repeat 0 (g_N output)) (g_dim output)).
  assert (Hz : length z = g_dim output) by apply repeat_length.
  assert (Hm' : poly_wf w (g_N output) m) by (split; auto).
  destruct (C23_trivial p w (g_N output) z m Hw HN Hm') as (c & E & W & _).
  { apply Forall_forall. intros x Hx. apply repeat_spec in Hx. subst x. apply repeat_length. }
  rewrite Hz in E, W. rewrite E. cbn [obind engine_spec]. split; [auto|]. split; [exact W|].
  intros p' key Lk Hk. destruct (C23_trivial p' w (g_N output) key m Hw HN Hm' Hk) as (c' & E' & _ & D & _).
  assert (c' = c); [|congruence]. rewrite Lk in E'. clear - E E'.
  unfold glwe_new_trivial_encryption, glwe_fill_with_trivial_encryption in *.
  destruct (glwe_split _) as [[ms b]|]; [|discriminate]. cbn [obind] in *.
  destruct (ck_dim_eq p _ _); [|discriminate]. destruct (ck_dim_eq p' _ _); [|discriminate]. cbn [obind] in *. congruence.
Qed.
Theorem C43_glwe_vector_trivial_encryption : forall key count ms, (0 < count)%nat -> ms <> [] -> Forall (is_word w) ms ->
  Forall (fun s => length s = (length ms / count)%nat) key ->
  engine_spec (exists N, length ms = (count * N)%nat)
    (fun cs => length cs = count /\ Forall (glwe_wf w (length key) (length ms / count)) cs /\
       decrypt_glwe_list p w key (length ms / count) cs = Ret ms)
    (fun e => e = PlaintextCountMismatch) (safe_trivially_encrypt_glwe_vector p (S (length key)) count ms).
Proof using Hw.
  intros key count ms Hc Hne Hm Hk. unfold safe_trivially_encrypt_glwe_vector. rewrite usize_rem_ok by assumption. cbn [obind].
  assert (Hx : (length ms mod count)%nat = 0%nat <-> exists N, length ms = (count * N)%nat).
  { rewrite rem_div by assumption. split; intros (q & H); exists q; rewrite Nat.mul_comm; exact H. }
  checks; check_facts.
  - cbn. split; [|reflexivity]. rewrite <- Hx. exact Bad.
  - assert (HN : (0 < length ms / count)%nat).
    { apply Nat.div_str_pos. split; [exact Hc|]. assert (0 < length ms)%nat by (destruct ms; [congruence|cbn; lia]).
      apply Hx in Bad. destruct Bad as (q & Hq). destruct q; [lia|]. rewrite Hq. clear. nia. }
    assert (HL : length ms = (count * (length ms / count))%nat) by (rewrite Nat.mul_comm; apply rem_zero; assumption).
    destruct (C23_vector_trivial p w (length ms / count) key count ms Hw HN Hm HL Hk) as (cs & E & L & W & D).
    unfold run. cbv zeta. rewrite E. cbn. split; [apply Hx; exact Bad|]. auto.
Qed.
End Glwe.
Print Assumptions C43_glwe_decryption.
Print Assumptions C43_glwe_vector_decryption.
Print Assumptions C43_glwe_encryption.
Print Assumptions C43_glwe_vector_encryption.
Print Assumptions C43_glwe_trivial_encryption.
Print Assumptions C43_glwe_vector_trivial_encryption.

(** ** Key generation *)
Theorem C43_secret_key_generation : forall n k N g,
  guarded_spec (0 < n)%nat (generate_new_lwe_secret_key n g) (fun e => e = NullLweDimension) (safe_generate_lwe_secret_key n g) /\
  guarded_spec (0 < k /\ 2 <= N)%nat (generate_new_glwe_secret_key k N g)
    (fun e => (e = NullGlweDimension /\ k = 0%nat) \/ (e = NullPolynomialSize /\ N = 0%nat) \/ (e = SizeOnePolynomial /\ N = 1%nat))
    (safe_generate_glwe_secret_key k N g).
Proof.
  intros n k N g. unfold safe_generate_lwe_secret_key, safe_generate_glwe_secret_key, guarded_spec. split.
  - destruct (Nat.eqb_spec n 0); rewrite ?refuse_true, ?refuse_false; [right|left].
    + split; [lia|]. eauto.
    + split; [lia|]. unfold run. destruct (generate_new_lwe_secret_key n g); reflexivity.
  - destruct (Nat.eqb_spec k 0), (Nat.eqb_spec N 0), (Nat.eqb_spec N 1); rewrite ?refuse_true, ?refuse_false;
      try (right; split; [lia|]; eexists; split; [reflexivity|]; tauto).
    left. split; [lia|]. unfold run. destruct (generate_new_glwe_secret_key k N g); reflexivity.
Qed.
Print Assumptions C43_secret_key_generation.

(** The polynomials of the GLWE key are the LWE key, in order. *)
Theorem C43_key_transformation : forall key N,
  engine_spec ((2 <= N)%nat /\ exists k, length key = (k * N)%nat)
    (fun polys => concat polys = key /\ Forall (fun s => length s = N) polys)
    (fun e => (e = NullPolynomialSize /\ N = 0%nat) \/ (e = SizeOnePolynomial /\ N = 1%nat) \/
              (e = IncompatibleLweDimension /\ ~ exists k, length key = (k * N)%nat))
    (safe_transform_lwe_key_to_glwe_key key N).
Proof.
  intros key N. unfold safe_transform_lwe_key_to_glwe_key.
  destruct (Nat.eqb_spec N 0), (Nat.eqb_spec N 1); rewrite ?refuse_true, ?refuse_false; try (cbn; split; [lia|tauto]).
  checks; check_facts; rewrite rem_div in Bad by lia.
  - cbn. tauto.
  - cbn. split; [split; [lia|exact Bad]|]. destruct Bad as (k & Hk). unfold lwe_key_to_glwe_key.
    destruct (chunks_spec N k key ltac:(lia) Hk) as (_ & H1 & H2). auto.
Qed.
Print Assumptions C43_key_transformation.

(** The decomposition parameters are what the checks say, as long as their product is a usize (see
    C43_decomposition_product_refuted). *)
Definition decomposition_error (w b : Z) (l : nat) (e : engine_error) : Prop :=
  (e = NullDecompositionBaseLog /\ b = 0) \/ (e = NullDecompositionLevelCount /\ l = 0%nat) \/ (e = DecompositionTooLarge /\ w < b * Z.of_nat l).
Lemma refuse_decomposition_cases {A} p w b l (rest : outcome (result A)) : 0 <= b -> b * Z.of_nat l < 2 ^ 64 ->
  ((0 < b /\ (0 < l)%nat /\ b * Z.of_nat l <= w) /\ refuse_decomposition p w b l rest = rest) \/
  (~ (0 < b /\ (0 < l)%nat /\ b * Z.of_nat l <= w) /\ exists e, refuse_decomposition p w b l rest = Ret (Err e) /\ decomposition_error w b l e).
Proof.
  intros Hb Hm. unfold refuse_decomposition, decomposition_error.
  destruct (Z.eqb_spec b 0); rewrite ?refuse_true, ?refuse_false; [right; split; [lia|]; eexists; split; [reflexivity|]; auto|].
  destruct (Nat.eqb_spec l 0); rewrite ?refuse_true, ?refuse_false; [right; split; [lia|]; eexists; split; [reflexivity|]; auto|].
  rewrite plain_ok by (unfold usize_bits; nia). cbn [obind].
  destruct (Z.ltb_spec w (b * Z.of_nat l)); rewrite ?refuse_true, ?refuse_false; [right; split; [lia|]; eexists; split; [reflexivity|]; auto|].
  left. split; [split; [|split]; lia|reflexivity].
Qed.

Theorem C43_evaluation_key_generation : forall p w gauss b l input_key output_key gkey g, 0 <= b -> b * Z.of_nat l < 2 ^ 64 ->
  guarded_spec (0 < b /\ (0 < l)%nat /\ b * Z.of_nat l <= w) (generate_new_lwe_keyswitch_key p w gauss b l input_key output_key g)
    (decomposition_error w b l) (safe_generate_keyswitch_key p w gauss b l input_key output_key g) /\
  guarded_spec (0 < b /\ (0 < l)%nat /\ b * Z.of_nat l <= w)
    (fill_with_new_bootstrap_key p w gauss (gk_polys gkey) (gk_N gkey) l b
       (repeat (ggsw_allocate (gk_N gkey) (S (gk_dim gkey)) l) (length input_key)) input_key g)
    (decomposition_error w b l) (safe_generate_bootstrap_key p w gauss b l input_key gkey g).
Proof.
  intros p w gauss b l s key gkey g Hb Hm. unfold safe_generate_keyswitch_key, safe_generate_bootstrap_key, guarded_spec. split.
  - destruct (refuse_decomposition_cases p w b l (run (generate_new_lwe_keyswitch_key p w gauss b l s key g)) Hb Hm) as [[V ->]|[V H]]; [left|right]; auto.
  - destruct (refuse_decomposition_cases p w b l (run (fill_with_new_bootstrap_key p w gauss (gk_polys gkey) (gk_N gkey) l b
       (repeat (ggsw_allocate (gk_N gkey) (S (gk_dim gkey)) l) (length s)) s g)) Hb Hm) as [[V ->]|[V H]]; [left|right]; auto.
Qed.
Print Assumptions C43_evaluation_key_generation.

(** A key generated and used through the safe methods only. *)
Theorem C43_generated_keyswitch : forall p w gauss b l beta s key g ksk g' output c,
  w mod 8 = 0 -> w < 2 ^ 64 -> 0 <= b -> b * Z.of_nat l < 2 ^ 64 -> b * Z.of_nat l <> w -> safe_key p key -> binary s -> egen_ok g -> gauss_small w beta gauss -> 0 <= beta ->
  safe_generate_keyswitch_key p w gauss b l s key g = Ret (Ok (ksk, g')) ->
  lwe_wf w (length s) c -> length output = S (length key) ->
  exists out, safe_discard_keyswitch p w output c (KsKey b l (length key) ksk) = Ret (Ok out) /\ lwe_wf w (length key) out /\
    torus_dist w (phase w s c) (phase w key out)
      <= Z.of_nat (length s) * 2 ^ (w - b * Z.of_nat l - 1) + Z.of_nat (length s) * Z.of_nat l * 2 ^ (b - 1) * beta.
Proof.
  intros p w gauss b l beta s key g ksk g' output c H8 Hw Hb Hm Hbl Hk Hs Hg Hga Hbe Hgen Hc Ho. unfold safe_generate_keyswitch_key in Hgen.
  destruct (refuse_decomposition_cases p w b l (run (generate_new_lwe_keyswitch_key p w gauss b l s key g)) Hb Hm) as [[V E]|[V (e & E & _)]];
    rewrite E in Hgen; [|discriminate].
  unfold run in Hgen. destruct (generate_new_lwe_keyswitch_key p w gauss b l s key g) as [[k1 g1]|] eqn:Eg; [|discriminate].
  injection Hgen as -> ->.
  assert (Hd : dec_wf w (Dec b l)) by (unfold dec_wf; cbn; lia).
  destruct (C41_generated_key p w gauss b l s key g ksk g' beta Hd H8 Hk Hg Hga Hbe Eg) as (noise & Henc & Hsm).
  destruct Hc as [Lc Wc].
  pose proof (C43_keyswitch p w s key _ beta (KsKey b l (length key) ksk) output c Hd (conj eq_refl Henc) Hs Hsm
    ltac:(destruct output; discriminate) ltac:(destruct c; discriminate) Wc) as HS.
  unfold engine_spec in HS. destruct (safe_discard_keyswitch p w output c (KsKey b l (length key) ksk)) as [[out|e]|].
  - exists out. split; [reflexivity|]. apply HS.
  - exfalso. apply (proj1 HS). auto.
  - contradiction.
Qed.
Print Assumptions C43_generated_keyswitch.

(** ** Creation from a container *)
Theorem C43_glwe_creation : forall container N, (0 < N)%nat ->
  engine_spec (container <> [] /\ exists size, length container = (size * N)%nat)
    (fun c => g_N c = N /\ concat (g_polys c) = container /\ glwe_ct_wf c)
    (fun e => (e = EmptyContainer /\ container = []) \/ (e = InvalidContainerSize /\ ~ exists size, length container = (size * N)%nat))
    (safe_create_glwe container N).
Proof.
  intros container N HN. unfold safe_create_glwe. destruct container as [|x container]; [cbn; split; [intros [H _]; congruence|auto]|].
  set (c := x :: container). assert (Hc : c <> []) by discriminate. replace (Nat.eqb (length c) 0) with false by reflexivity. rewrite refuse_false.
  clearbody c. rewrite usize_rem_ok by assumption. cbn [obind]. checks; check_facts; rewrite rem_div in Bad by assumption.
  - cbn. split; [tauto|auto].
  - cbn. split; [auto|]. destruct Bad as (k & Hk). destruct (chunks_spec N k c HN Hk) as (Lk & H1 & H2).
    split; [reflexivity|]. split; [exact H2|]. split; [exact HN|]. split; [|exact H1].
    cbn. intros E. rewrite E in H2. cbn in H2. congruence.
Qed.
Print Assumptions C43_glwe_creation.

Lemma ck_dim_div_ok p a b q : (0 < b)%nat -> a = (q * b)%nat -> ck_dim_div p a b = Ret tt.
Proof.
  intros Hb E. unfold ck_dim_div. destruct p; [|reflexivity]. rewrite usize_rem_ok by assumption. cbn [obind].
  rewrite E, Nat.mod_mul by lia. reflexivity.
Qed.
Lemma cut_twice {A} n m k (l : list A) : (0 < n)%nat -> (0 < m)%nat -> length l = (k * (n * m))%nat ->
  let cs := map (chunks n) (chunks (n * m) l) in
  length cs = k /\ Forall (fun c => length c = m /\ Forall (fun a => length a = n) c) cs /\ concat (map (@concat A) cs) = l.
Proof.
  intros Hn Hm Hl cs. destruct (chunks_spec (n * m) k l ltac:(nia) Hl) as (L1 & L2 & L3).
  split; [unfold cs; rewrite map_length; exact L1|].
  assert (H : forall ls, Forall (fun c : list A => length c = (n * m)%nat) ls ->
     Forall (fun c => length c = m /\ Forall (fun a => length a = n) c) (map (chunks n) ls) /\ map (@concat A) (map (chunks n) ls) = ls).
  { clear - Hn Hm. induction ls as [|c ls IH]; intros F; [split; [constructor|reflexivity]|].
    pose proof (Forall_inv F) as F1. pose proof (Forall_inv_tail F) as F2. cbv beta in F1. destruct (IH F2) as [I1 I2]. rewrite (Nat.mul_comm n m) in F1. destruct (chunks_spec n m c Hn F1) as (M1 & M2 & M3).
    cbn [map]. split; [constructor; auto|]. rewrite M3, I2. reflexivity. }
  destruct (H _ L2) as [H1 H2]. split; [exact H1|]. unfold cs. rewrite H2. exact L3.
Qed.
Theorem C43_glwe_vector_creation : forall p container k N, (0 < N)%nat -> Z.of_nat N * Z.of_nat (S k) < 2 ^ 64 ->
  engine_spec (container <> [] /\ exists count, length container = (count * (N * S k))%nat)
    (fun v => gv_N v = N /\ gv_size v = S k /\ concat (map (@concat Z) (gv_cts v)) = container /\ glwe_vec_wf v)
    (fun e => (e = EmptyContainer /\ container = []) \/ (e = InvalidContainerSize /\ ~ exists count, length container = (count * (N * S k))%nat))
    (safe_create_glwe_vector p container k N).
Proof.
  intros p container k N HN Hm. unfold safe_create_glwe_vector. destruct container as [|x container]; [cbn; split; [intros [H _]; congruence|auto]|].
  set (c := x :: container). assert (Hc : c <> []) by discriminate. replace (Nat.eqb (length c) 0) with false by reflexivity. rewrite refuse_false.
  clearbody c. rewrite plain_ok by (unfold usize_bits; lia). cbn [obind].
  replace (Z.to_nat (Z.of_nat N * Z.of_nat (S k))) with (N * S k)%nat by lia.
  rewrite usize_rem_ok by nia. cbn [obind]. checks; check_facts; rewrite rem_div in Bad by nia.
  - cbn. split; [tauto|auto].
  - destruct Bad as (q & Hq). unfold run.
    rewrite (ck_dim_div_ok p _ (S k) (q * N)) by (rewrite ?Hq; lia). cbn [obind].
    rewrite (ck_dim_div_ok p _ N (q * S k)) by (rewrite ?Hq; lia). cbn [obind engine_spec].
    split; [eauto|]. destruct (cut_twice N (S k) q c HN ltac:(lia) Hq) as (_ & H1 & H2).
    split; [reflexivity|]. split; [reflexivity|]. split; [exact H2|]. split; [exact HN|]. split; [cbn; lia|exact H1].
Qed.
Print Assumptions C43_glwe_vector_creation.

(** A keyswitch key: the container is cut in blocks of l ciphertexts of n_out + 1 words. *)
Theorem C43_keyswitch_key_creation : forall p w container n_out b l, 0 <= b -> b * Z.of_nat l < 2 ^ 64 -> Z.of_nat l * Z.of_nat (S n_out) < 2 ^ 64 ->
  engine_spec ((0 < b /\ (0 < l)%nat /\ b * Z.of_nat l <= w) /\ exists n_in, length container = (n_in * (l * S n_out))%nat)
    (fun k => kk_b k = b /\ kk_l k = l /\ kk_out k = n_out /\ concat (map (@concat Z) (kk_blocks k)) = container /\
       Forall (fun block => length block = l /\ Forall (fun c => length c = S n_out) block) (kk_blocks k))
    (fun e => decomposition_error w b l e \/ (e = InvalidContainerSize /\ ~ exists n_in, length container = (n_in * (l * S n_out))%nat))
    (safe_create_keyswitch_key p w container n_out b l).
Proof.
  intros p w container n_out b l Hb Hm Hl. unfold safe_create_keyswitch_key.
  match goal with |- engine_spec _ _ _ (refuse_decomposition _ _ _ _ ?rest) =>
    destruct (refuse_decomposition_cases p w b l rest Hb Hm) as [[V ->]|[V (e & -> & He)]] end.
  - rewrite plain_ok by (unfold usize_bits; lia). cbn [obind].
    replace (Z.to_nat (Z.of_nat l * Z.of_nat (S n_out))) with (l * S n_out)%nat by lia.
    rewrite usize_rem_ok by nia. cbn [obind]. checks; check_facts; rewrite rem_div in Bad by nia.
    + cbn. split; [tauto|auto].
    + destruct Bad as (q & Hq). unfold run.
      rewrite (ck_dim_div_ok p _ (S n_out) (q * l)) by (rewrite ?Hq; lia). cbn [obind].
      rewrite (ck_dim_div_ok p _ l (q * S n_out)) by (rewrite ?Hq; lia). cbn [obind engine_spec].
      split; [eauto|]. rewrite (Nat.mul_comm l) in Hq |- *.
      destruct (cut_twice (S n_out) l q container ltac:(lia) ltac:(lia) Hq) as (_ & H1 & H2). cbn. auto.
  - cbn. split; [tauto|auto].
Qed.
Print Assumptions C43_keyswitch_key_creation.

(** ** Checks that are missing or wrong *)
(** A decomposition of all the bits of the word passes the checks of the key generation, and every keyswitch with the
    key it makes then panics in checked builds. *)
Theorem C43_full_decomposition_refuted : 
  (forall w k output c, kk_b k * Z.of_nat (kk_l k) = w -> 0 < w < 2 ^ 64 -> safe_discard_keyswitch Debug w output c k <> Ret (Err InputLweDimensionMismatch) ->
     safe_discard_keyswitch Debug w output c k <> Ret (Err OutputLweDimensionMismatch) -> safe_discard_keyswitch Debug w output c k = Panic) /\
  exists b l s key g ksk g', b * Z.of_nat l = 32 /\ binary s /\ binary key /\
    safe_generate_keyswitch_key Debug 32 demo_gauss_word b l s key g = Ret (Ok (ksk, g')) /\
    safe_discard_keyswitch Debug 32 [0; 0; 0] [1; 2; 3; 4] (KsKey b l (length key) ksk) = Panic.
Proof.
  split.
  - intros w k output c Hbl Hw. unfold safe_discard_keyswitch.
    destruct (neq (lwe_dim c) (kk_in k)); rewrite ?refuse_true, ?refuse_false; [congruence|].
    destruct (neq (lwe_dim output) (kk_out k)); rewrite ?refuse_true, ?refuse_false; [congruence|]. intros _ _.
    unfold run, keyswitch_ciphertext. destruct (split_last c) as [[m b]|]; [|reflexivity]. cbn [obind].
    destruct (split_last output) as [[m0 b0]|]; [|reflexivity]. cbn [obind].
    destruct (ck_dim_eq _ _ _); [|reflexivity]. destruct (ck_dim_eq _ _ _); [|reflexivity]. cbn [obind].
    unfold dec_new. rewrite plain_ok by (unfold usize_bits; lia). cbn [obind]. rewrite Hbl.
    replace (w >? w) with false by lia. reflexivity.
  - destruct (safe_generate_keyswitch_key Debug 32 demo_gauss_word 16 2 [1; 0; 1] [1; 1] demo_egen) as [[[k g']|e]|] eqn:E; [|vm_compute in E; discriminate..].
    exists 16, 2%nat, [1; 0; 1], [1; 1], demo_egen, k, g'. split; [reflexivity|]. split; [bin|]. split; [bin|]. split; [exact E|].
    assert (Hk : length k = 3%nat) by (vm_compute in E; injection E as <- <-; reflexivity).
    unfold safe_discard_keyswitch, kk_in. cbn [kk_blocks kk_out kk_b kk_l]. rewrite Hk.
    unfold keyswitch_ciphertext. rewrite Hk. reflexivity.
Qed.
Print Assumptions C43_full_decomposition_refuted.

(** The product of the decomposition parameters can overflow: checked builds panic in the check, release builds accept
    parameters far larger than the word. *)
Theorem C43_decomposition_product_refuted : forall w gauss input_key output_key g, 0 <= w ->
  safe_generate_keyswitch_key Debug w gauss (2 ^ 63) 2 input_key output_key g = Panic /\
  forall e, safe_generate_keyswitch_key Release w gauss (2 ^ 63) 2 input_key output_key g <> Ret (Err e).
Proof.
  intros w gauss s key g Hw. split; [reflexivity|]. intros e. unfold safe_generate_keyswitch_key, refuse_decomposition.
  change (2 ^ 63 =? 0) with false. rewrite refuse_false. change (Nat.eqb 2 0) with false. rewrite refuse_false.
  change (plain Release usize_bits (2 ^ 63 * Z.of_nat 2)) with (@Ret Z 0). cbn [obind]. replace (w <? 0) with false by lia. rewrite refuse_false.
  unfold run. destruct (generate_new_lwe_keyswitch_key _ _ _ _ _ _ _ _); cbn; discriminate.
Qed.
Print Assumptions C43_decomposition_product_refuted.

(** Sizes that the checks divide by are not checked to be non-null: the safe methods panic.  The creation of an LWE
    vector does not check that the LWE size divides the container at all. *)
Theorem C43_null_sizes_refuted :
  (forall container, container <> [] -> safe_create_glwe container 0 = Panic) /\
  (forall p container k, container <> [] -> safe_create_glwe_vector p container k 0 = Panic) /\
  (forall p glwe_size ms, safe_trivially_encrypt_glwe_vector p glwe_size 0 ms = Panic) /\
  (forall container n, container <> [] -> n = 0%nat \/ (length container mod n <> 0)%nat ->
     safe_create_lwe_vector Debug container n = Panic /\ safe_create_lwe_vector Release container n = Ret (Ok (container, n))).
Proof.
  split; [|split; [|split]].
  - intros [|x c] H; [congruence|]. reflexivity.
  - intros p [|x c] k H; [congruence|]. unfold safe_create_glwe_vector. cbn [length Nat.eqb]. rewrite refuse_false. rewrite plain_ok by (unfold usize_bits; lia). reflexivity.
  - intros p gs ms. reflexivity.
  - intros [|x c] n H Hn; [congruence|]. unfold safe_create_lwe_vector. set (cc := x :: c) in *. replace (Nat.eqb (length cc) 0) with false by reflexivity.
    rewrite !refuse_false. split; [|reflexivity]. unfold ck_dim_div, usize_rem. destruct (Nat.eqb_spec n 0); [reflexivity|].
    destruct Hn as [Hn|Hn]; [congruence|]. cbn [obind]. destruct (Nat.eqb_spec (length cc mod n) 0); [contradiction|reflexivity].
Qed.
Print Assumptions C43_null_sizes_refuted.

(** The order of the range bounds is tested backwards: every range that is in order and not empty is refused as
    unordered, and ranges in the wrong order go through, the computation of their sizes then panicking in checked builds. *)
Theorem C43_range_order_refuted : forall p output input (orange irange : Z * Z), lv_dim output = lv_dim input ->
  (fst irange < snd irange -> loading_checks p output input orange irange = Ret (Err UnorderedInputRange)) /\
  (0 <= snd irange < fst irange -> 0 <= snd orange < fst orange -> fst irange < 2 ^ 64 ->
   snd irange < Z.of_nat (lv_count input) -> snd orange < Z.of_nat (lv_count output) ->
   loading_checks Debug output input orange irange = Panic).
Proof.
  intros p output input orange irange Hd. unfold loading_checks. split.
  - intros H. replace (neq (lv_dim input) (lv_dim output)) with false by (symmetry; apply neq_false; congruence). rewrite refuse_false.
    unfold is_ordered. replace (snd irange <=? fst irange) with false by lia. reflexivity.
  - intros Hi Ho Hf H1 H2. replace (neq (lv_dim input) (lv_dim output)) with false by (symmetry; apply neq_false; congruence). rewrite refuse_false.
    unfold is_ordered. replace (snd irange <=? fst irange) with true by lia. replace (snd orange <=? fst orange) with true by lia. cbn [negb]. rewrite !refuse_false.
    replace (Z.of_nat (lv_count output) <=? snd orange) with false by lia. replace (Z.of_nat (lv_count input) <=? snd irange) with false by lia. rewrite !refuse_false.
    unfold plain. replace (0 <=? snd irange - fst irange) with false by lia. reflexivity.
Qed.
Print Assumptions C43_range_order_refuted.

(** ** Concrete cases *)
Example C43_glwe_case :
  safe_discard_extract 8 [0; 0; 0] (GlweCt 2 [[1; 2]; [3; 4]]) 1 = Ret (Ok [2; 1; 4]) /\
  safe_discard_extract 8 [0; 0; 0] (GlweCt 2 [[1; 2]; [3; 4]]) 2 = Ret (Err MonomialIndexTooLarge) /\
  safe_discard_extract 8 [0; 0] (GlweCt 2 [[1; 2]; [3; 4]]) 1 = Ret (Err SizeMismatch) /\
  (match safe_discard_keyswitch Debug 32 [7; 7; 7] demo_ks_in (KsKey 5 3 2 demo_ksk) with
   | Ret (Ok out) => torus_dist 32 (phase 32 [1; 0; 1] demo_ks_in) (phase 32 [1; 1] out) <= 3 * 2 ^ (32 - 15 - 1) + 3 * 3 * 2 ^ 4 * 255
   | _ => False end) /\
  safe_discard_keyswitch Debug 32 [7; 7; 7; 7] demo_ks_in (KsKey 5 3 2 demo_ksk) = Ret (Err OutputLweDimensionMismatch) /\
  safe_decrypt_glwe Debug 8 (GlweKey 2 [[1; 0]]) (GlweCt 2 [[1; 2]; [3; 4]]) = Ret (Ok [2; 2]) /\
  safe_decrypt_glwe Debug 8 (GlweKey 4 [[1; 0; 1; 0]]) (GlweCt 2 [[1; 2]; [3; 4]]) = Ret (Err PolynomialSizeMismatch) /\
  safe_create_glwe [1; 2; 3; 4] 2 = Ret (Ok (GlweCt 2 [[1; 2]; [3; 4]])) /\
  safe_create_glwe [1; 2; 3; 4; 5] 2 = Ret (Err InvalidContainerSize) /\
  safe_transform_lwe_key_to_glwe_key [1; 0; 1; 1] 2 = Ret (Ok [[1; 0]; [1; 1]]) /\
  safe_create_keyswitch_key Debug 32 [1; 2; 3; 4; 5; 6; 7; 8] 1 5 2 = Ret (Ok (KsKey 5 2 1 [[[1; 2]; [3; 4]]; [[5; 6]; [7; 8]]])).
Proof. repeat match goal with |- _ /\ _ => split end; vm_compute; try reflexivity; discriminate. Qed.
