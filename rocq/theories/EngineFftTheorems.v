(** * C43, third part: the safe methods of the FFT engine
    For every operation, first the checks, for any entities whatever they hold ([guarded_spec]: Ok is the unchecked
    operation), then the result on entities that hold encryptions. *)
From Verif Require Import Base Word WordFacts NegaRing PolySpec PolyModel RingSum DecompModel DecompProofs LweSpec LweModel LweProofs
  GlweSpec GlweModel GlweProofs GlweTheorems GgswSpec GgswModel GgswTheorems ExtProdModel ExtProdSpec ExtProdProofs ExtProdTheorems BootstrapModel BootstrapSpec BootstrapTheorems
  SeededModel KeyswitchModel KeyswitchSpec KeyswitchTheorems PackingTheorems WopModel WopSpec WopTheorems WopBitsProofs WopCbsProofs WopBitsTheorems
  EngineModel EngineSpec EngineTheorems EngineGlweTheorems.

(** The polynomial sizes that the FFT engine supports. *)
Definition fft_ok (N : nat) : Prop := exists a, 5 <= a /\ Z.of_nat N = 2 ^ a.
Lemma fft_supported_spec N : fft_supported N = true <-> fft_ok N.
Proof.
  unfold fft_supported, is_power_of_two, fft_ok. rewrite !Bool.andb_true_iff, Bool.negb_true_iff, Nat.eqb_neq, Z.eqb_eq, Nat.leb_le. split.
  - intros [[H1 H2] H3]. exists (Z.log2 (Z.of_nat N)). split; [|symmetry; exact H2].
    change 5 with (Z.log2 32). apply Z.log2_le_mono. lia.
  - intros (a & Ha & E). assert (2 ^ 5 <= 2 ^ a) by (apply Z.pow_le_mono_r; lia). change (2 ^ 5) with 32 in *.
    rewrite E, Z.log2_pow2 by lia. split; [split; [lia|reflexivity]|lia].
Qed.
Lemma fft_refused N : negb (fft_supported N) = true <-> ~ fft_ok N.
Proof. rewrite Bool.negb_true_iff, <- Bool.not_true_iff_false, fft_supported_spec. reflexivity. Qed.
Lemma fft_accepted N : negb (fft_supported N) = false <-> fft_ok N.
Proof. rewrite Bool.negb_false_iff, fft_supported_spec. reflexivity. Qed.

Lemma guarded_intro {A} (valid : Prop) (op : outcome A) means : valid -> guarded_spec valid op means (run op).
Proof. intros H. left. split; [exact H|]. unfold run. destruct op; reflexivity. Qed.
Lemma guarded_error {A} (valid : Prop) (op : outcome A) (means : engine_error -> Prop) e : ~ valid -> means e -> guarded_spec valid op means (Ret (Err e)).
Proof. intros H M. right. split; [exact H|]. eauto. Qed.
Lemma guarded_ok {A} (valid : Prop) (op : outcome A) (good : A -> Prop) means o :
  guarded_spec valid op means o -> (valid -> exists a, op = Ret a /\ good a) -> engine_spec valid good means o.
Proof.
  intros [[V E]|[V (e & E & M)]] H; rewrite E; [|cbn; auto]. destruct (H V) as (a & -> & G). cbn. auto.
Qed.
Ltac fft_facts := check_facts; repeat match goal with
  | H : negb (fft_supported _) = true |- _ => apply fft_refused in H
  | H : negb (fft_supported _) = false |- _ => apply fft_accepted in H
  end.
Ltac guarded := checks; fft_facts; [(apply guarded_error; [intuition congruence|]; intuition congruence)..|apply guarded_intro; intuition congruence].

Section Checks.
Context (p : profile) (w : Z) (B : backend).

Definition bootstrap_sizes (output input : list Z) (acc : glwe_ct) (k : fbsk B) : Prop :=
  fft_ok (g_N acc) /\ lwe_dim input = length (fb_ggsws k) /\ g_N acc = fb_N k /\ g_dim acc = fb_k k /\ lwe_dim output = (fb_k k * fb_N k)%nat.
Definition bootstrap_error (output input : list Z) (acc : glwe_ct) (k : fbsk B) (e : engine_error) : Prop :=
  (e = UnsupportedPolynomialSize /\ ~ fft_ok (g_N acc)) \/
  (e = InputLweDimensionMismatch /\ lwe_dim input <> length (fb_ggsws k)) \/
  (e = AccumulatorPolynomialSizeMismatch /\ g_N acc <> fb_N k) \/
  (e = AccumulatorGlweDimensionMismatch /\ g_dim acc <> fb_k k) \/
  (e = OutputLweDimensionMismatch /\ lwe_dim output <> (fb_k k * fb_N k)%nat).
Theorem C43_bootstrap_checks : forall output input acc k,
  guarded_spec (bootstrap_sizes output input acc k)
    (fft_bootstrap p w B (fb_N k) (fb_b k) (fb_ggsws k) output input (g_polys acc))
    (bootstrap_error output input acc k) (safe_discard_bootstrap p w B output input acc k).
Proof. intros. unfold safe_discard_bootstrap, bootstrap_sizes, bootstrap_error. guarded. Qed.

(** The parallel bootstrap of a vector: once its own checks pass, the checks inside the tasks all pass, so that no task
    panics on an error: the result is the unchecked bootstrap on every element. *)
Definition vector_bootstrap_sizes (output input : lwe_vec) (acc : glwe_vec) (k : fbsk B) : Prop :=
  fft_ok (gv_N acc) /\ lv_dim input = length (fb_ggsws k) /\ gv_N acc = fb_N k /\ gv_dim acc = fb_k k /\ lv_dim output = (fb_k k * fb_N k)%nat /\
  gv_count acc = lv_count input /\ lv_count input = lv_count output.
Definition vector_bootstrap_error (output input : lwe_vec) (acc : glwe_vec) (k : fbsk B) (e : engine_error) : Prop :=
  (e = UnsupportedPolynomialSize /\ ~ fft_ok (gv_N acc)) \/
  (e = InputLweDimensionMismatch /\ lv_dim input <> length (fb_ggsws k)) \/
  (e = AccumulatorPolynomialSizeMismatch /\ gv_N acc <> fb_N k) \/
  (e = AccumulatorGlweDimensionMismatch /\ gv_dim acc <> fb_k k) \/
  (e = OutputLweDimensionMismatch /\ lv_dim output <> (fb_k k * fb_N k)%nat) \/
  (e = AccumulatorCountMismatch /\ gv_count acc <> lv_count input) \/
  (e = CiphertextCountMismatch /\ lv_count input <> lv_count output).
Lemma zip_ext {X Y} (f g : X -> Y -> outcome X) (P : X -> Prop) (Q : Y -> Prop) : (forall x y, P x -> Q y -> f x y = g x y) ->
  forall xs ys, Forall P xs -> Forall Q ys -> ozip_update f xs ys = ozip_update g xs ys.
Proof.
  intros H. induction xs as [|x xs IH]; intros [|y ys] Hx Hy; try reflexivity.
  inversion Hx; inversion Hy; subst. cbn [ozip_update]. rewrite H by assumption. rewrite IH by assumption. reflexivity.
Qed.
Lemma Forall_combine_iff {X Y} (P : X -> Prop) (Q : Y -> Prop) xs : Forall P xs -> forall ys, Forall Q ys -> Forall (fun z => P (fst z) /\ Q (snd z)) (combine xs ys).
Proof. induction 1; intros ys Hy; [constructor|]. destruct Hy; [constructor|]. cbn. constructor; auto. Qed.
Theorem C43_vector_bootstrap_checks : forall output input acc k, lwe_vec_wf output -> lwe_vec_wf input -> glwe_vec_wf acc ->
  guarded_spec (vector_bootstrap_sizes output input acc k)
    (ozip_update (fun o '(c, a) => fft_bootstrap p w B (fb_N k) (fb_b k) (fb_ggsws k) o c a) (lv_cts output) (combine (lv_cts input) (gv_cts acc)))
    (vector_bootstrap_error output input acc k) (safe_discard_bootstrap_vector p w B output input acc k).
Proof.
  intros output input acc k [_ Ho] [_ Hi] (_ & _ & Ha). unfold safe_discard_bootstrap_vector, vector_bootstrap_sizes, vector_bootstrap_error.
  checks; fft_facts; try (apply guarded_error; [intuition congruence|]; intuition congruence).
  match goal with |- guarded_spec _ ?op _ (run ?op') => replace op' with op; [apply guarded_intro; intuition congruence|] end.
  symmetry. apply (zip_ext _ _ (fun o => length o = lv_size output) (fun z => length (fst z) = lv_size input /\
    (length (snd z) = gv_size acc /\ Forall (fun q => length q = gv_N acc) (snd z)))); [|exact Ho|apply (Forall_combine_iff (fun c => length c = lv_size input) _ _ Hi _ Ha)].
  intros o [c a] Lo (Lc & La & _). cbn [fst snd] in *.
  destruct (C43_bootstrap_checks o c (GlweCt (gv_N acc) a) k) as [[V E]|[V _]].
  - rewrite E. cbn [g_polys]. destruct (fft_bootstrap p w B (fb_N k) (fb_b k) (fb_ggsws k) o c a); reflexivity.
  - exfalso. apply V. unfold bootstrap_sizes, g_dim. cbn [g_N g_polys]. unfold lv_dim, lv_count, gv_dim, gv_count, lwe_dim in *. rewrite Lc, Lo, La. intuition congruence.
Qed.

Theorem C43_external_product_checks : forall c (G : fggsw B) output,
  guarded_spec (fft_ok (g_N c) /\ (g_N c = fg_N G /\ g_N c = g_N output) /\ (g_dim c = fg_k G /\ g_dim c = g_dim output))
    (discard_external_product p w B (fg_N G) (fg_b G) (g_polys output) (fg_levels G) (g_polys c))
    (fun e => (e = UnsupportedPolynomialSize /\ ~ fft_ok (g_N c)) \/
              (e = PolynomialSizeMismatch /\ ~ ((g_N c = fg_N G /\ g_N c = g_N output) /\ (g_dim c = fg_k G /\ g_dim c = g_dim output))))
    (safe_discard_external_product p w B c G output).
Proof. intros. unfold safe_discard_external_product. guarded. Qed.

Theorem C43_cmux_checks : forall output input (G : fggsw B),
  guarded_spec (fft_ok (g_N output) /\ (g_N input = g_N output /\ g_N output = fg_N G) /\ (g_dim input = g_dim output /\ g_dim output = fg_k G))
    (cmux p w B (fg_N G) (fg_b G) (g_polys output) (g_polys input) (fg_levels G))
    (fun e => (e = UnsupportedPolynomialSize /\ ~ fft_ok (g_N output)) \/
              (e = PolynomialSizeMismatch /\ ~ (g_N input = g_N output /\ g_N output = fg_N G)) \/
              (e = GlweDimensionMismatch /\ ~ (g_dim input = g_dim output /\ g_dim output = fg_k G)))
    (safe_cmux p w B output input G).
Proof. intros. unfold safe_cmux. guarded. Qed.

Definition extract_bits_sizes (output : lwe_vec) (input : list Z) (k : fbsk B) (ks : ks_key) (count delta_log : Z) : Prop :=
  fft_ok (fb_N k) /\ lwe_dim input = (fb_k k * fb_N k)%nat /\ lwe_dim input = kk_in ks /\ lv_dim output = kk_out ks /\
  Z.of_nat (lv_count output) = count /\ kk_out ks = length (fb_ggsws k) /\ count + delta_log <= w.
Definition extract_bits_error (output : lwe_vec) (input : list Z) (k : fbsk B) (ks : ks_key) (count delta_log : Z) (e : engine_error) : Prop :=
  (e = UnsupportedPolynomialSize /\ ~ fft_ok (fb_N k)) \/
  (e = InputLweDimensionMismatch /\ lwe_dim input <> (fb_k k * fb_N k)%nat) \/
  (e = InputKeyswitchKeyLweDimensionMismatch /\ lwe_dim input <> kk_in ks) \/
  (e = OutputLweDimensionMismatch /\ lv_dim output <> kk_out ks) \/
  (e = ExtractedBitsCountMismatch /\ Z.of_nat (lv_count output) <> count) \/
  (e = KeyDimensionMismatch /\ kk_out ks <> length (fb_ggsws k)) \/
  (e = NotEnoughBitsToExtract /\ w < count + delta_log).
Theorem C43_bit_extraction_checks : forall output input k ks count delta_log, 0 <= delta_log -> count + delta_log < 2 ^ 64 ->
  guarded_spec (extract_bits_sizes output input k ks count delta_log)
    (fft_extract_bits p w B (fb_N k) (fb_b k) (S (fb_k k)) (kk_b ks) (kk_l ks) (kk_out ks) (fb_ggsws k) (kk_blocks ks) delta_log count (lv_cts output) input)
    (extract_bits_error output input k ks count delta_log) (safe_extract_bits p w B output input k ks count delta_log).
Proof.
  intros output input k ks count delta Hd Hm. unfold safe_extract_bits, extract_bits_sizes, extract_bits_error.
  destruct (Z.eqb_spec (Z.of_nat (lv_count output)) count) as [Hc|Hc]; cbn [negb].
  - rewrite plain_ok by (unfold usize_bits; lia). cbn [obind].
    destruct (Z.ltb_spec w (count + delta)) as [Hb|Hb].
    + checks; fft_facts; (apply guarded_error; [intuition lia|]; intuition congruence).
    + guarded.
  - checks; fft_facts; (apply guarded_error; [intuition congruence|]; intuition congruence).
Qed.

Definition circuit_bootstrap_sizes (output : ggsw_ct) (input : list Z) (k : fbsk B) (pf : cbs_pfpks) : Prop :=
  fft_ok (fb_N k) /\ cp_in pf = (fb_k k * fb_N k)%nat /\ cp_N pf = gg_N output /\ cp_k pf = gg_k output /\
  length (cp_keys pf) = (gg_l output * S (gg_k output))%nat /\ lwe_dim input = length (fb_ggsws k).
Theorem C43_circuit_bootstrap_checks : forall output input delta_log k pf,
  guarded_spec (circuit_bootstrap_sizes output input k pf)
    (fft_circuit_bootstrap_boolean p w B (fb_N k) (fb_b k) (S (fb_k k)) (fb_ggsws k) (cp_b pf) (cp_l pf) (cp_in pf) (cp_N pf) (cp_k pf)
       (gg_N output) (S (gg_k output)) input (gg_levels output) (gg_b output) delta_log (cp_keys pf))
    (fun e => (e = UnsupportedPolynomialSize /\ ~ fft_ok (fb_N k)) \/ (e = KeysDimensionMismatched /\ cp_in pf <> (fb_k k * fb_N k)%nat) \/
              (e = MismatchedPolynomialSize /\ cp_N pf <> gg_N output) \/ (e = MismatchedGlweDimension /\ cp_k pf <> gg_k output) \/
              (e = MismatchedPFPKSKCount /\ length (cp_keys pf) <> (gg_l output * S (gg_k output))%nat) \/
              (e = MismatchedInputLweDimension /\ lwe_dim input <> length (fb_ggsws k)))
    (safe_circuit_bootstrap p w B output input delta_log k pf).
Proof. intros. unfold safe_circuit_bootstrap, circuit_bootstrap_sizes. guarded. Qed.

Definition vertical_packing_sizes (output input : lwe_vec) (k : fbsk B) (luts : list Z) (cbs_l : nat) (cbs_b : Z) (pf : cbs_pfpks) : Prop :=
  fft_ok (fb_N k) /\ cp_in pf = (fb_k k * fb_N k)%nat /\ lv_dim input = length (fb_ggsws k) /\ lv_dim output = (cp_k pf * cp_N pf)%nat /\
  (exists q, length luts = (q * (cp_N pf * lv_count output))%nat) /\ (cp_N pf <= length luts / lv_count output)%nat /\
  (0 < cbs_l)%nat /\ cbs_b * Z.of_nat cbs_l <= w.
Theorem C43_vertical_packing_checks : forall output input k luts cbs_l cbs_b pf, (0 < lv_count output)%nat -> (0 < cp_N pf)%nat ->
  0 <= cbs_b -> cbs_b * Z.of_nat cbs_l < 2 ^ 64 ->
  guarded_spec (vertical_packing_sizes output input k luts cbs_l cbs_b pf)
    (fft_circuit_bootstrap_boolean_vertical_packing p w B (fb_N k) (fb_b k) (S (fb_k k)) (fb_ggsws k)
       (cp_b pf) (cp_l pf) (cp_in pf) (cp_N pf) (cp_k pf) (chunks (fb_N k) luts) (lv_cts output) (lv_cts input) (cp_keys pf) cbs_l cbs_b)
    (fun e => (e = UnsupportedPolynomialSize /\ ~ fft_ok (fb_N k)) \/ (e = KeysLweDimensionMismatch /\ cp_in pf <> (fb_k k * fb_N k)%nat) \/
              (e = InputLweDimensionMismatch /\ lv_dim input <> length (fb_ggsws k)) \/
              (e = OutputLweDimensionMismatch /\ lv_dim output <> (cp_k pf * cp_N pf)%nat) \/
              (e = MalformedLookUpTables /\ ~ exists q, length luts = (q * (cp_N pf * lv_count output))%nat) \/
              (e = InvalidSmallLookUpTableSize /\ (length luts / lv_count output < cp_N pf)%nat) \/
              (e = NullDecompositionBaseLog /\ cbs_l = 0%nat) \/ (e = DecompositionTooLarge /\ w < cbs_b * Z.of_nat cbs_l))
    (safe_circuit_bootstrap_vertical_packing p w B output input k luts cbs_l cbs_b pf).
Proof.
  intros output input k luts cbs_l cbs_b pf Hc HN Hb Hm. unfold safe_circuit_bootstrap_vertical_packing, vertical_packing_sizes.
  rewrite usize_rem_ok by nia. cbn [obind]. rewrite plain_ok by (unfold usize_bits; nia). cbn [obind].
  pose proof (rem_div (length luts) (cp_N pf * lv_count output) ltac:(nia)) as Hr.
  set (Q := exists q, length luts = (q * (cp_N pf * lv_count output))%nat) in *. clearbody Q.
  destruct (Nat.ltb_spec (length luts / lv_count output) (cp_N pf)) as [H1|H1].
  { checks; fft_facts; (apply guarded_error; [intuition lia|]; intuition congruence). }
  destruct (Nat.eqb_spec cbs_l 0) as [H2|H2].
  { checks; fft_facts; (apply guarded_error; [intuition lia|]; intuition congruence). }
  destruct (Z.ltb_spec w (cbs_b * Z.of_nat cbs_l)) as [H3|H3].
  { checks; fft_facts; (apply guarded_error; [intuition lia|]; intuition congruence). }
  assert (H4 : (0 < cbs_l)%nat) by lia. guarded.
Qed.
End Checks.
Print Assumptions C43_bootstrap_checks.
Print Assumptions C43_vector_bootstrap_checks.
Print Assumptions C43_external_product_checks.
Print Assumptions C43_cmux_checks.
Print Assumptions C43_bit_extraction_checks.
Print Assumptions C43_circuit_bootstrap_checks.
Print Assumptions C43_vertical_packing_checks.

(** ** Results on entities that hold encryptions *)
Section Fft.
Context (p : profile) (w a : Z) (N := Z.to_nat (2 ^ a)) (B : backend) (d : decomposer) (key : list (list Z)) (beta : Z) (T : nat) (E : Z).
Hypothesis (Hd : dec_wf w d) (Ha : 0 <= a) (Haw : a + 2 < w) (Hkey : binary_key N key) (Hbeta : 0 <= beta)
  (HB : backend_ok w N (base_log d) T E B) (HE : 0 <= E) (HT : (level_count d * S (length key) <= T)%nat).
Notation k := (length key).
Notation bound := (ep_error w (base_log d) k N (level_count d) 1 beta E).
Notation big := (glwe_key_into_lwe_key key).

(** The entity [G] is the Fourier transform of a GGSW encryption of [m]. *)
Definition fggsw_for (G : fggsw B) (m : Z) : Prop :=
  fg_b G = base_log d /\ fg_N G = N /\ fg_k G = k /\
  exists G0 noise, fg_levels G = fill_with_forward_fourier B G0 /\ ggsw_wf w k N (level_count d) G0 /\ ggsw_encrypts w (base_log d) N key m noise G0 /\
    forall j i, (j < level_count d)%nat -> (i <= k)%nat -> rbound (2 ^ w) beta (R N (noise (S j) i)).
(** The entity [b] is the Fourier transform of a bootstrap key for the bits [s]. *)
Definition fbsk_for (b : fbsk B) (s : list Z) : Prop :=
  fb_b b = base_log d /\ fb_N b = N /\ fb_k b = k /\ Forall (fun x => x = 0 \/ x = 1) s /\
  exists bsk, fb_ggsws b = bsk_forward_fourier B bsk /\ bsk_encrypts w (base_log d) N (level_count d) key beta bsk s.
Definition ct_words (c : glwe_ct) : Prop := Forall (Forall (is_word w)) (g_polys c).

Let HN : (0 < N)%nat.
Proof. pose proof (pow2_pos a Ha); unfold N; lia. Qed.
Let Hw0 : 0 <= w.
Proof. lia. Qed.

Theorem C43_external_product : forall G m c output, fggsw_for G m -> glwe_ct_wf c -> ct_words c -> glwe_ct_wf output -> ct_words output ->
  engine_spec (fft_ok (g_N c) /\ (g_N c = N /\ g_N c = g_N output) /\ (g_dim c = k /\ g_dim c = g_dim output))
    (fun out => glwe_wf w k N out /\
       rbound (2 ^ w) (ep_error w (base_log d) k N (level_count d) m beta E) (rsub (gphase N key out) (rscal m (gphase N key (g_polys c)))))
    (fun e => (e = UnsupportedPolynomialSize /\ ~ fft_ok (g_N c)) \/
              (e = PolynomialSizeMismatch /\ ~ ((g_N c = N /\ g_N c = g_N output) /\ (g_dim c = k /\ g_dim c = g_dim output))))
    (safe_discard_external_product p w B c G output).
Proof using All.
  intros G m c output (Gb & GN & Gk & G0 & noise & GL & GW & GE & Gn) Hc Wc Ho Wo.
  pose proof (C43_external_product_checks p w B c G output) as H. rewrite Gb, GN, Gk, GL in H. eapply guarded_ok; [exact H|].
  intros (_ & (E1 & E2) & (E3 & E4)).
  destruct (C26_discarding p w B N k d key m noise beta T E (g_polys output) G0 (g_polys c)) as (out & Eo & Wout & Hb); try assumption; try reflexivity.
  - rewrite <- E1, E2. apply glwe_ct_words; try assumption; congruence.
  - rewrite <- E1. apply glwe_ct_words; try assumption; congruence.
  - exists out. auto.
Qed.

Theorem C43_cmux : forall G (bit : bool) input output, fggsw_for G (Z.b2z bit) -> glwe_ct_wf input -> ct_words input -> glwe_ct_wf output -> ct_words output ->
  engine_spec (fft_ok (g_N output) /\ (g_N input = g_N output /\ g_N output = N) /\ (g_dim input = g_dim output /\ g_dim output = k))
    (fun r => glwe_wf w k N (fst r) /\
       rbound (2 ^ w) bound (rsub (gphase N key (fst r)) (gphase N key (g_polys (if bit then input else output)))))
    (fun e => (e = UnsupportedPolynomialSize /\ ~ fft_ok (g_N output)) \/
              (e = PolynomialSizeMismatch /\ ~ (g_N input = g_N output /\ g_N output = N)) \/
              (e = GlweDimensionMismatch /\ ~ (g_dim input = g_dim output /\ g_dim output = k)))
    (safe_cmux p w B output input G).
Proof using All.
  intros G bit input output (Gb & GN & Gk & G0 & noise & GL & GW & GE & Gn) Hc Wc Ho Wo.
  pose proof (C43_cmux_checks p w B output input G) as H. rewrite Gb, GN, Gk, GL in H. eapply guarded_ok; [exact H|].
  intros (_ & (E1 & E2) & (E3 & E4)).
  destruct (C27_cmux p w B N k d key bit noise beta T E (g_polys output) (g_polys input) G0) as (out & diff & Eo & W1 & W2 & Hb); try assumption; try reflexivity.
  - rewrite <- E2. apply glwe_ct_words; try assumption; congruence.
  - rewrite <- E2, <- E1. apply glwe_ct_words; try assumption; congruence.
  - exists (out, diff). split; [exact Eo|]. split; [exact W1|]. eapply rbound_le; [|destruct bit; exact Hb].
    apply ep_error_mono. destruct bit; auto.
Qed.

Lemma bsk_length bsk s : bsk_encrypts w (base_log d) N (level_count d) key beta bsk s -> length (bsk_forward_fourier B bsk) = length s.
Proof. intros H. unfold bsk_forward_fourier. rewrite map_length. eapply Forall2_len; exact H. Qed.
Lemma lwe_dim_spec c n : c <> [] -> lwe_dim c = n <-> length c = S n.
Proof. intros H. unfold lwe_dim. destruct c; [congruence|]. cbn [length]. lia. Qed.

(** Programmable bootstrap of [input] with the table in [acc]. *)
Definition bootstraps (s input : list Z) (table : list (list Z)) (out : list Z) : Prop :=
  lwe_wf w (k * N) out /\ exists e, Z.abs e <= Z.of_nat (nonzeros (removelast input)) * bound /\
    phase w big out = (rcoef (rmul (rmono N (- rot_exponent w N s input)) (gphase N key table)) 0 + e) mod 2 ^ w.
Theorem C43_bootstrap : forall b s input acc output, fbsk_for b s -> input <> [] -> Forall (is_word w) input -> output <> [] -> glwe_ct_wf acc -> ct_words acc ->
  engine_spec (bootstrap_sizes B output input acc b) (bootstraps s input (g_polys acc))
    (bootstrap_error B output input acc b) (safe_discard_bootstrap p w B output input acc b).
Proof using All.
  intros b s input acc output (Bb & BN & Bk & Hs & bsk & BL & BE) Hi Wi Ho Hacc Wacc.
  eapply guarded_ok; [apply C43_bootstrap_checks|]. unfold bootstrap_sizes. rewrite Bb, BN, Bk, BL, (bsk_length bsk s BE).
  rewrite !lwe_dim_spec by assumption. intros (_ & E1 & E2 & E3 & E4).
  destruct (C29_bootstrap p w a B d key beta T E Hd Ha Haw Hkey Hbeta HB HE HT bsk s (g_polys acc) input output Hs BE) as (l & e & El & Wl & He & Hp).
  - split; assumption.
  - fold N. rewrite <- E2. apply glwe_ct_words; assumption.
  - exact E4.
  - exists l. split; [exact El|]. split; [exact Wl|]. exists e. auto.
Qed.

Lemma zip_bootstraps (f : list Z -> list Z * list (list Z) -> outcome (list Z)) (P : list Z -> Prop) (Q : list Z * list (list Z) -> Prop) (G : list Z * list (list Z) -> list Z -> Prop) :
  (forall o z, P o -> Q z -> exists r, f o z = Ret r /\ G z r) ->
  forall os zs, length os = length zs -> Forall P os -> Forall Q zs -> exists rs, ozip_update f os zs = Ret rs /\ Forall2 G zs rs.
Proof.
  intros H. induction os as [|o os IH]; intros [|z zs] L Ho Hz; try discriminate; [exists []; split; [reflexivity|constructor]|].
  inversion Ho; inversion Hz; subst. destruct (H o z) as (r & Er & Gr); try assumption.
  destruct (IH zs) as (rs & Ers & Grs); try assumption; [cbn in L; lia|].
  exists (r :: rs). cbn [ozip_update]. rewrite Er. cbn [obind]. rewrite Ers. cbn [obind]. split; [reflexivity|]. constructor; assumption.
Qed.
Theorem C43_vector_bootstrap : forall b s input acc output, fbsk_for b s -> lwe_vec_wf input -> Forall (Forall (is_word w)) (lv_cts input) -> lwe_vec_wf output ->
  glwe_vec_wf acc -> Forall (Forall (Forall (is_word w))) (gv_cts acc) ->
  engine_spec (vector_bootstrap_sizes B output input acc b)
    (fun outs => Forall2 (fun z out => bootstraps s (fst z) (snd z) out) (combine (lv_cts input) (gv_cts acc)) outs)
    (vector_bootstrap_error B output input acc b) (safe_discard_bootstrap_vector p w B output input acc b).
Proof using All.
  intros b s input acc output (Bb & BN & Bk & Hs & bsk & BL & BE) Hi Wi Ho Hacc Wacc.
  eapply guarded_ok; [apply C43_vector_bootstrap_checks; assumption|]. unfold vector_bootstrap_sizes. rewrite Bb, BN, Bk, BL, (bsk_length bsk s BE).
  intros (_ & E1 & E2 & E3 & E4 & E5 & E6).
  destruct Hi as [Hi1 Hi2], Ho as [Ho1 Ho2], Hacc as (Ha1 & Ha2 & Ha3). unfold lv_dim, lv_count, gv_dim, gv_count in *.
  apply (zip_bootstraps _ (fun o => length o = lv_size output)
    (fun z => (length (fst z) = lv_size input /\ Forall (is_word w) (fst z)) /\
       ((length (snd z) = gv_size acc /\ Forall (fun q => length q = gv_N acc) (snd z)) /\ Forall (Forall (is_word w)) (snd z)))).
  - intros o [c t] Lo ((Lc & Wc) & (Lt & Ft) & Wt). cbn [fst snd] in *.
    destruct (C29_bootstrap p w a B d key beta T E Hd Ha Haw Hkey Hbeta HB HE HT bsk s t c o Hs BE) as (l & e & El & Wl & He & Hp).
    + split; [lia|exact Wc].
    + fold N. split; [lia|]. rewrite <- E2. clear - Ft Wt. induction Ft; [constructor|]. inversion Wt; subst. constructor; [split; assumption|auto].
    + fold N. lia.
    + exists l. split; [exact El|]. split; [exact Wl|]. exists e. auto.
  - rewrite combine_length. lia.
  - exact Ho2.
  - apply (Forall_combine_iff (fun c => length c = lv_size input /\ Forall (is_word w) c)
      (fun c => (length c = gv_size acc /\ Forall (fun q => length q = gv_N acc) c) /\ Forall (Forall (is_word w)) c)).
    + apply Forall_and; assumption.
    + apply Forall_and; assumption.
Qed.

(** ** Without-padding operations *)
Context (M : Z) (s : list Z).
Hypothesis (HM : 2 ^ w * (Z.of_nat (length s) + 1) <= 4 * Z.of_nat N * M).
Notation n := (length s).

(** Bit extraction, when the noise of the input and of the keys leaves the margin that C41 needs, and when the lowest bit
    extracted is not bit 0 (see C43_lowest_bit_refuted). *)
Theorem C43_bit_extraction : forall b ks noise_ks beta_ks delta count m e0 err input output,
  fbsk_for b s -> dec_wf w (Dec (kk_b ks) (kk_l ks)) -> ks_key_for w big s noise_ks ks ->
  (forall i j, (i < k * N)%nat -> (j < kk_l ks)%nat -> Z.abs (noise_ks i j) <= beta_ks) ->
  0 < count -> 0 <= delta -> (1 < count -> 0 < delta) -> count + delta < 2 ^ 64 ->
  (forall i, 0 <= i < count - 1 ->
     extract_error w delta e0 (Z.of_nat n * bound) (keyswitch_error w (kk_b ks) (k * N) (kk_l ks) beta_ks) i + M < 2 ^ (w - 2)) ->
  lwe_vec_wf output -> input <> [] -> Forall (is_word w) input ->
  phase w big input = (m * 2 ^ delta + err) mod 2 ^ w -> Z.abs err <= e0 ->
  engine_spec (extract_bits_sizes w B output input b ks count delta)
    (fun res => length res = lv_count output /\
       forall t o, nth_error res t = Some o -> let i := count - 1 - Z.of_nat t in
         lwe_wf w n o /\
         exists e, Z.abs e <= extract_error w delta e0 (Z.of_nat n * bound) (keyswitch_error w (kk_b ks) (k * N) (kk_l ks) beta_ks) i /\
           phase w s o = (Z.b2z (Z.testbit m i) * 2 ^ (w - 1) + e) mod 2 ^ w)
    (extract_bits_error w B output input b ks count delta)
    (safe_extract_bits p w B output input b ks count delta).
Proof using All.
  intros b ks noise_ks beta_ks delta count m e0 err input output (Bb & BN & Bk & Hs & bsk & BL & BE) Hdk (Ko & Ke) Hn Hc Hdl Hdl1 Hm Hmar Ho Hi Wi Hph Herr.
  eapply guarded_ok; [apply C43_bit_extraction_checks; assumption|]. unfold extract_bits_sizes. rewrite Bb, BN, Bk, BL, Ko, (bsk_length bsk s BE).
  rewrite !lwe_dim_spec by assumption. intros (_ & E1 & E2 & E3 & E4 & E5 & E6). destruct Ho as [Ho1 Ho2].
  destruct (C41_extract_bits p w a B d key beta T E Hd Ha Haw Hkey Hbeta HB HE HT s bsk M Hs BE HM
    (kk_b ks) (kk_l ks) noise_ks beta_ks (kk_blocks ks) delta count m e0 err input (lv_cts output)) as (res & Er & Lr & Hr); try assumption.
  - lia.
  - eapply Forall_impl; [|exact Ho2]. cbv beta. intros x Hx. unfold lv_dim in E3. lia.
  - split; assumption.
  - exists res. split; [exact Er|]. split; [exact Lr|]. exact Hr.
Qed.

(** The private functional packing keyswitch keys [pf] of the circuit bootstrap, from the extracted key to [key_pf]. *)
Definition pf_keys_for (pf : cbs_pfpks) (key_pf : list (list Z)) (beta_pf : Z) : Prop :=
  dec_wf w (Dec (cp_b pf) (cp_l pf)) /\ (0 < cp_N pf)%nat /\ binary_key (cp_N pf) key_pf /\ 0 <= beta_pf /\ cp_k pf = length key_pf /\ cp_in pf = length big /\
  cbs_keys_encrypt w (cp_b pf) (cp_l pf) (cp_N pf) key_pf big beta_pf (cp_keys pf).
Notation err_cbs b_pf l_pf beta_pf := (cbs_error w b_pf (k * N) l_pf beta_pf (Z.of_nat n * bound)).

(** The circuit bootstrap to a GGSW ciphertext with one level.  With more levels the safe method refuses all the keys that
    the library generates (C43_circuit_bootstrap_count_refuted). *)
Theorem C43_circuit_bootstrap : forall b pf key_pf beta_pf output input delta m err e0,
  fbsk_for b s -> pf_keys_for pf key_pf beta_pf ->
  gg_l output = 1%nat -> length (gg_levels output) = 1%nat -> dec_wf w (Dec (gg_b output) 1) ->
  Forall (fun lev => length lev = S (gg_k output) /\ Forall (fun o => length o = S (gg_k output) /\ Forall (fun q => length q = gg_N output) o) lev) (gg_levels output) ->
  0 <= delta < w -> input <> [] -> Forall (is_word w) input ->
  phase w s input = (m * 2 ^ delta + err) mod 2 ^ w -> Z.abs err <= e0 -> e0 * 2 ^ (w - delta - 1) + M < 2 ^ (w - 2) ->
  engine_spec (length input = S n /\ cp_N pf = gg_N output /\ cp_k pf = gg_k output /\ fft_ok N)
    (fun G => ggsw_wf w (length key_pf) (cp_N pf) 1 G /\
      exists noise, ggsw_encrypts w (gg_b output) (cp_N pf) key_pf (m mod 2) noise G /\
        forall i, (i <= length key_pf)%nat -> rbound (2 ^ w) (err_cbs (cp_b pf) (cp_l pf) beta_pf) (R (cp_N pf) (noise 1%nat i)))
    (fun e => (e = UnsupportedPolynomialSize /\ ~ fft_ok N) \/ (e = MismatchedPolynomialSize /\ cp_N pf <> gg_N output) \/
              (e = MismatchedGlweDimension /\ cp_k pf <> gg_k output) \/
              (e = MismatchedPFPKSKCount /\ cp_k pf <> gg_k output) \/ (e = MismatchedInputLweDimension /\ length input <> S n))
    (safe_circuit_bootstrap p w B output input delta b pf).
Proof using All.
  intros b pf key_pf beta_pf output input delta m err e0 (Bb & BN & Bk & Hs & bsk & BL & BE) (Pd & PN & Pk & Pb & Pkk & Pin & Penc) Hl Hll Hdo Hsh Hdl Hi Wi Hph Herr Hmar.
  pose proof (length_big N key (binary_key_lengths N key Hkey)) as Lb.
  pose proof (C43_circuit_bootstrap_checks p w B output input delta b pf) as H. unfold circuit_bootstrap_sizes in H.
  rewrite Bb, BN, Bk, BL, Hl, (bsk_length bsk s BE), Pin, Lb, (proj1 Penc), Pkk in H.
  assert (D := lwe_dim_spec input n Hi).
  rewrite Pkk. unfold engine_spec. destruct H as [[V Eo]|[V (e & Eo & He)]].
  - destruct V as (V1 & V2 & V3 & V4 & V5 & V6). apply D in V6. rewrite Eo.
    rewrite <- V4, <- V3. rewrite <- V4, <- V3 in Hsh.
    destruct (C42_circuit_bootstrap p w a B d key beta T E Hd Ha Haw Hkey Hbeta HB HE HT s bsk M Hs BE HM
      (cp_b pf) (cp_l pf) (cp_N pf) key_pf beta_pf (cp_keys pf) Pd PN Pk Pb Penc input (gg_levels output) (gg_b output) delta m err e0) as (G & EG & WG & noise & HG & Hn);
      try assumption; try (rewrite Hll; assumption); [split; assumption|].
    fold N in EG. rewrite EG. split; [auto|]. rewrite Hll in WG. split; [exact WG|]. exists noise. split; [exact HG|].
    intros i Hi'. apply (Hn 0%nat i); [lia|exact Hi'].
  - rewrite Eo. split.
    + intros (X1 & X2 & X3 & X4). apply V. rewrite <- X3. apply D in X1. repeat split; try assumption; lia.
    + rewrite D in He. destruct He as [He|[He|[He|[He|[He|He]]]]].
      * auto.
      * exfalso. apply (proj2 He). reflexivity.
      * auto.
      * auto.
      * right. right. right. left. split; [apply He|]. rewrite ?Pkk. intros X. apply (proj2 He). lia.
      * auto 10.
Qed.

(** Circuit bootstrap and vertical packing.  The tables are [count] groups of 2^r polynomials of size N, which must be the
    polynomial size of both keys; there are r + a input bits. *)
Theorem C43_vertical_packing : forall b pf key_pf beta_pf cbs_b cbs_l T_pf E_pf r luts input output bits e0,
  fbsk_for b s -> pf_keys_for pf key_pf beta_pf -> cp_N pf = N -> length key_pf = k -> 1 <= a <= 63 ->
  dec_wf w (Dec cbs_b cbs_l) -> backend_ok w N cbs_b T_pf E_pf B -> 0 <= E_pf -> (cbs_l * S k <= T_pf)%nat ->
  w = 64 \/ (p = Release /\ w < 64 /\ r = 0%nat) ->
  Forall (fun x => x = 0 \/ x = 1) bits -> Z.of_nat (length bits) = Z.of_nat r + a -> Z.of_nat (length bits) < 2 ^ 63 ->
  Forall2 (fun lwe bit => Forall (is_word w) lwe /\ exists err, Z.abs err <= e0 /\ phase w s lwe = (bit * 2 ^ (w - 1) + err) mod 2 ^ w) (lv_cts input) bits ->
  e0 + M < 2 ^ (w - 2) ->
  Forall (is_word w) luts -> length luts = (lv_count output * 2 ^ r * N)%nat -> (0 < lv_count output)%nat -> Z.of_nat (length luts) < 2 ^ 64 ->
  lwe_vec_wf input -> lwe_vec_wf output ->
  engine_spec (fft_ok N /\ lv_size input = S n /\ lv_size output = S (k * N))
    (fun res => length res = lv_count output /\
      forall t o, nth_error res t = Some o -> lwe_wf w (k * N) o /\
        exists e, Z.abs e <= Z.of_nat (length bits) * ep_error w cbs_b k N cbs_l 1 (err_cbs (cp_b pf) (cp_l pf) beta_pf) E_pf /\
          phase w (glwe_key_into_lwe_key key_pf) o = (nth (t * (2 ^ r * N) + Z.to_nat (bits_value bits)) luts 0 + e) mod 2 ^ w)
    (fun e => (e = UnsupportedPolynomialSize /\ ~ fft_ok N) \/ (e = InputLweDimensionMismatch /\ lv_size input <> S n) \/
              (e = OutputLweDimensionMismatch /\ lv_size output <> S (k * N)))
    (safe_circuit_bootstrap_vertical_packing p w B output input b luts cbs_l cbs_b pf).
Proof using All.
  intros b pf key_pf beta_pf cbs_b cbs_l T_pf E_pf r luts input output bits e0 (Bb & BN & Bk & Hs & bsk & BL & BE) (Pd & PN & Pk & Pb & Pkk & Pin & Penc)
    HNN Hkk Ha63 Hcd HBp HEp HTp Hw64 Hbits Lbits Lb63 Hin Hmar Wl Ll Hcnt Ll64 [Hi1 Hi2] [Ho1 Ho2].
  pose proof (length_big N key (binary_key_lengths N key Hkey)) as Lb.
  destruct Hcd as (Hc1 & Hc2 & Hc3 & Hc4) eqn:Ecd. cbn [base_log level_count] in *.
  pose proof (C43_vertical_packing_checks p w B output input b luts cbs_l cbs_b pf Hcnt PN ltac:(lia) ltac:(lia)) as H. unfold vertical_packing_sizes in H.
  rewrite Bb, BN, Bk, BL, (bsk_length bsk s BE), Pin, Lb, Pkk, HNN, Hkk in H.
  assert (Hq : exists q, length luts = (q * (N * lv_count output))%nat) by (exists (2 ^ r)%nat; rewrite Ll; lia).
  assert (Hdv : (length luts / lv_count output = 2 ^ r * N)%nat) by (rewrite Ll, <- Nat.mul_assoc, Nat.mul_comm; apply Nat.div_mul; lia).
  assert (Hle : (N <= length luts / lv_count output)%nat) by (rewrite Hdv; pose proof (Nat.pow_nonzero 2 r); nia).
  assert (D1 : lv_dim input = n <-> lv_size input = S n) by (unfold lv_dim; lia).
  assert (D2 : lv_dim output = (k * N)%nat <-> lv_size output = S (k * N)) by (unfold lv_dim; lia).
  unfold engine_spec. destruct H as [[V Eo]|[V (e & Eo & He)]].
  - destruct V as (V1 & V2 & V3 & V4 & V5 & V6 & V7 & V8). apply D1 in V3. apply D2 in V4. rewrite Eo.
    assert (LL : length luts = (lv_count output * 2 ^ r * N)%nat) by exact Ll.
    destruct (chunks_spec N (lv_count output * 2 ^ r) luts HN LL) as (K1 & K2 & K3).
    assert (Hkpf : (k * N = length key_pf * cp_N pf)%nat) by (rewrite Hkk, HNN; reflexivity).
    destruct (C42_circuit_bootstrap_vertical_packing p w a B d key beta T E Hd Ha Haw Hkey Hbeta HB HE HT s bsk M Hs BE HM
      (cp_b pf) (cp_l pf) (cp_N pf) key_pf beta_pf (cp_keys pf) Pd PN Pk Pb Penc a cbs_b cbs_l T_pf E_pf r (lv_cts input) bits (chunks N luts) (lv_cts output) e0)
      as (res & Er & Lr & Hr); try assumption.
    + rewrite HNN. exact HBp.
    + rewrite Hkk. exact HTp.
    + rewrite V3 in Hi2. clear - Hin Hi2. induction Hin as [|x y xs ys (X1 & X2) Hin IH]; [constructor|]. inversion Hi2; subst. constructor; [split; [split; assumption|exact X2]|auto].
    + rewrite HNN. rewrite <- K3 in Wl. clear - Wl K2. induction K2; [constructor|]. cbn [concat] in Wl. apply Forall_app in Wl. destruct Wl. constructor; [split; assumption|auto].
    + rewrite K1. apply Z.le_lt_trans with (Z.of_nat (length luts)); [|exact Ll64]. rewrite Ll. generalize (lv_count output * 2 ^ r)%nat. clear - HN. intros q. nia.
    + rewrite V4 in Ho2. exact Ho2.
    + rewrite Hkk, HNN in Er. fold N in Er. rewrite Er. split; [auto|]. split; [exact Lr|]. intros t o Ht. destruct (Hr t o Ht) as (R1 & e & R2 & R3).
      split; [exact R1|]. exists e. rewrite Hkk, HNN in R2. split; [exact R2|]. rewrite K3, HNN in R3. exact R3.
  - rewrite Eo. split.
    + intros (X1 & X2 & X3). apply V. apply D1 in X2. apply D2 in X3. repeat split; try assumption; try reflexivity; lia.
    + rewrite D1, D2 in He. destruct He as [He|[He|[He|[He|[He|[He|[He|He]]]]]]]; try tauto.
      * destruct He as [_ He]. clear - He Hle. lia.
      * destruct He as [_ He]. clear - He Hc2. lia.
      * destruct He as [_ He]. clear - He Hc3. lia.
Qed.
End Fft.
Print Assumptions C43_external_product.
Print Assumptions C43_cmux.
Print Assumptions C43_bootstrap.
Print Assumptions C43_vector_bootstrap.
Print Assumptions C43_bit_extraction.
Print Assumptions C43_circuit_bootstrap.
Print Assumptions C43_vertical_packing.

(** ** Checks that are missing or wrong *)
(** The safe circuit bootstrap asks for level_count * glwe_size keyswitch keys.  The library generates glwe_size keys, and
    the operation itself asserts that there are glwe_size keys: with two levels or more, generated keys are refused
    and the keys that are not refused make checked builds panic. *)
Theorem C43_circuit_bootstrap_count_refuted : forall p w B output input delta k pf, (2 <= gg_l output)%nat ->
  (length (cp_keys pf) = S (cp_k pf) -> exists e, safe_circuit_bootstrap p w B output input delta k pf = Ret (Err e)) /\
  (forall G, safe_circuit_bootstrap Debug w B output input delta k pf <> Ret (Ok G)).
Proof.
  intros p w B output input delta k pf Hl. split.
  - intros Hk. destruct (C43_circuit_bootstrap_checks p w B output input delta k pf) as [[(V1 & V2 & V3 & V4 & V5 & V6) _]|[_ (e & E & _)]]; [|eauto].
    exfalso. rewrite <- V4, Hk in V5. nia.
  - intros G. destruct (C43_circuit_bootstrap_checks Debug w B output input delta k pf) as [[(V1 & V2 & V3 & V4 & V5 & V6) E]|[_ (e & E & _)]]; [|congruence].
    rewrite E. unfold fft_circuit_bootstrap_boolean, circuit_bootstrap_boolean, debug_assert.
    replace (Nat.eqb (S (gg_k output)) (length (cp_keys pf))) with false; [|symmetry; apply Nat.eqb_neq; rewrite V5; nia].
    destruct (Nat.leb _ _); cbn [obind]; [|discriminate]. destruct (1 <=? _); cbn [obind]; [|discriminate].
    destruct (Nat.eqb _ _); cbn [obind]; [|discriminate]. destruct (Nat.eqb _ _); cbn [obind]; [|discriminate].
    destruct (Nat.eqb _ _); cbn [obind]; discriminate.
Qed.
Print Assumptions C43_circuit_bootstrap_count_refuted.

(** Vertical packing: a null base log is not refused (the level count is tested twice, the first time under the name of
    the base log), no output ciphertext makes a division by zero, and keys whose output dimensions differ are not
    refused although checked builds panic on them. *)
Theorem C43_vertical_packing_checks_refuted : forall w B output input k luts pf, fft_ok (fb_N k) -> cp_in pf = (fb_k k * fb_N k)%nat ->
  lv_dim input = length (fb_ggsws k) -> lv_dim output = (cp_k pf * cp_N pf)%nat -> (0 < cp_N pf)%nat -> 0 <= w ->
  (lv_count output = 0%nat -> forall p cbs_l cbs_b, safe_circuit_bootstrap_vertical_packing p w B output input k luts cbs_l cbs_b pf = Panic) /\
  ((0 < lv_count output)%nat -> (exists q, length luts = (q * (cp_N pf * lv_count output))%nat) -> (cp_N pf <= length luts / lv_count output)%nat ->
     (forall p b, b * 0 < 2 ^ 64 -> safe_circuit_bootstrap_vertical_packing p w B output input k luts 0 b pf = Ret (Err NullDecompositionBaseLog)) /\
     (forall p l e, (0 < l)%nat -> safe_circuit_bootstrap_vertical_packing p w B output input k luts l 0 pf <> Ret (Err e)) /\
     (lwe_vec_wf output -> (fb_k k * fb_N k <> cp_k pf * cp_N pf)%nat -> forall l b r, safe_circuit_bootstrap_vertical_packing Debug w B output input k luts l b pf <> Ret (Ok r))).
Proof.
  intros w B output input k luts pf H1 H2 H3 H4 HN Hw.
  assert (Heq : forall x : nat, neq x x = false) by (intros x; apply neq_false; reflexivity).
  assert (Hf := proj2 (fft_accepted (fb_N k)) H1).
  split.
  - intros Hc p l b. unfold safe_circuit_bootstrap_vertical_packing. rewrite Hf, H2, H3, H4, !Heq, !refuse_false, Hc, Nat.mul_0_r. reflexivity.
  - intros Hc Hq Hle.
    assert (Hr : (length luts mod (cp_N pf * lv_count output))%nat = 0%nat) by (apply rem_div; [nia|exact Hq]).
    assert (Hlt : Nat.ltb (length luts / lv_count output) (cp_N pf) = false) by (apply Nat.ltb_ge; exact Hle).
    split; [|split].
    + intros p b _. unfold safe_circuit_bootstrap_vertical_packing. rewrite Hf, H2, H3, H4, !Heq, !refuse_false, usize_rem_ok by nia.
      cbn [obind]. rewrite Hr, Heq, refuse_false, Hlt, refuse_false. reflexivity.
    + intros p l e Hl. unfold safe_circuit_bootstrap_vertical_packing. rewrite Hf, H2, H3, H4, !Heq, !refuse_false, usize_rem_ok by nia.
      cbn [obind]. rewrite Hr, Heq, refuse_false, Hlt, refuse_false. replace (Nat.eqb l 0) with false by (symmetry; apply Nat.eqb_neq; lia). rewrite !refuse_false.
      rewrite plain_ok by (unfold usize_bits; lia). cbn [obind]. replace (w <? 0 * Z.of_nat l) with false by lia. rewrite refuse_false.
      unfold run. match goal with |- context [obind ?x _] => destruct x end; cbn; discriminate.
    + intros [_ Ho] Hne l b r. unfold safe_circuit_bootstrap_vertical_packing. rewrite Hf, H2, H3, H4, !Heq, !refuse_false, usize_rem_ok by nia.
      cbn [obind]. rewrite Hr, Heq, refuse_false, Hlt, refuse_false. destruct (Nat.eqb l 0); rewrite ?refuse_true, ?refuse_false; [discriminate|].
      destruct (plain _ _ _) as [bl|]; cbn [obind]; [|discriminate]. destruct (w <? bl); rewrite ?refuse_true, ?refuse_false; [discriminate|].
      unfold run, fft_circuit_bootstrap_boolean_vertical_packing, circuit_bootstrap_boolean_vertical_packing, debug_assert.
      destruct (negb (Nat.eqb (length (lv_cts input)) 0)); cbn [obind]; [|discriminate].
      replace (forallb (fun o => Nat.eqb (length o - 1) ((S (fb_k k) - 1) * fb_N k)) (lv_cts output)) with false; [discriminate|].
      unfold lv_count, lv_dim in *. destruct (lv_cts output) as [|o os]; [cbn in Hc; lia|]. apply Forall_inv in Ho. cbn [forallb].
      symmetry. apply Bool.andb_false_iff. left. apply Nat.eqb_neq. rewrite Ho. lia.
Qed.
Print Assumptions C43_vertical_packing_checks_refuted.

(** Bit extraction down to bit 0 passes all the checks and panics in checked builds (C41_delta_zero_refuted). *)
Theorem C43_lowest_bit_refuted : forall w B output input k ks count, 1 < count -> count < 2 ^ 64 ->
  extract_bits_sizes w B output input k ks count 0 -> safe_extract_bits Debug w B output input k ks count 0 = Panic.
Proof.
  intros w B output input k ks count Hc Hm V.
  destruct (C43_bit_extraction_checks Debug w B output input k ks count 0) as [[_ E]|[H _]]; [lia|lia| |contradiction].
  rewrite E. unfold fft_extract_bits. rewrite C41_delta_zero_refuted; [reflexivity|exact Hc|].
  destruct V as (_ & _ & _ & _ & V & _). unfold lv_count in V. intros X. rewrite X in V. cbn in V. lia.
Qed.
Print Assumptions C43_lowest_bit_refuted.

(** The external product names a mismatch of GLWE dimensions a mismatch of polynomial sizes. *)
Theorem C43_external_product_error_refuted : forall p w B c (G : fggsw B) output, fft_ok (g_N c) -> g_N c = fg_N G -> g_N c = g_N output -> g_dim c <> fg_k G ->
  safe_discard_external_product p w B c G output = Ret (Err PolynomialSizeMismatch).
Proof.
  intros p w B c G output H1 H2 H3 H4. destruct (C43_external_product_checks p w B c G output) as [[V _]|[_ (e & E & [[_ M]|[-> _]])]]; [tauto|contradiction|exact E].
Qed.
Print Assumptions C43_external_product_error_refuted.

(** ** A concrete case through the safe methods only: 64-bit words, LWE key (1, 1), polynomials of size 32, exact backend *)
Definition demo_key32 : list (list Z) := [concat (repeat [1; 0; 0; 1; 1; 0; 1; 0] 4)].
Definition ok_key {A G} (o : outcome (result (list A * G))) : list A := match o with Ret (Ok (b, _)) => b | _ => [] end.
Definition demo_bsk32 : list (list (list (list (list Z)))) :=
  ok_key (safe_generate_bootstrap_key Debug 64 demo_gauss_word 6 3 [1; 1] (GlweKey 32 demo_key32) demo_gen8).
Definition demo_fbsk32 : fbsk (exact_backend 64) := @FBsk (exact_backend 64) 6 3 32 1 (bsk_forward_fourier (exact_backend 64) demo_bsk32).
Definition demo_acc32 : glwe_ct := GlweCt 32 [repeat 0 32; map (fun i => i * 2 ^ 58) (zseq 0 32)].
Lemma demo_fbsk32_ok : fbsk_for 64 5 (exact_backend 64) (Dec 6 3) demo_key32 255 demo_fbsk32 [1; 1].
Proof.
  unfold fbsk_for, demo_fbsk32. cbn [fb_b fb_N fb_k fb_ggsws base_log level_count]. split; [reflexivity|]. split; [reflexivity|]. split; [reflexivity|].
  split; [repeat (apply Forall_cons; [lia|]); apply Forall_nil|]. exists demo_bsk32. split; [reflexivity|].
  unfold demo_bsk32, ok_key, safe_generate_bootstrap_key. cbn [gk_polys gk_N]. change (gk_dim (GlweKey 32 demo_key32)) with 1%nat. change (length [1; 1]) with 2%nat.
  destruct (refuse_decomposition_cases Debug 64 6 3 (run (fill_with_new_bootstrap_key Debug 64 demo_gauss_word demo_key32 32 3 6
       (repeat (ggsw_allocate 32 2 3) 2) [1; 1] demo_gen8)) ltac:(lia) ltac:(lia)) as [[_ ->]|[V _]]; [|lia].
  unfold run. destruct (fill_with_new_bootstrap_key Debug 64 demo_gauss_word demo_key32 32 3 6 (repeat (ggsw_allocate 32 2 3) 2) [1; 1] demo_gen8) as [[b g']|] eqn:E.
  - cbn [obind].
    eapply (C29_generated_key Debug 64 demo_gauss_word 32 demo_key32 6 3 (repeat (ggsw_allocate 32 2 3) 2) [1; 1] demo_gen8 b g');
      try reflexivity; try (cbn; lia); try exact E.
    + apply demo_gauss_word_ok; lia.
    + apply demo_gauss_word_small; lia.
    + exact demo_gen8_ok.
    + split; [repeat constructor|]. right. constructor; [|constructor]. unfold demo_key32. cbn. repeat (apply Forall_cons; [lia|]). apply Forall_nil.
    + apply Forall_forall. intros x Hx. apply repeat_spec in Hx. subst x. apply ggsw_zero_wf. lia.
  - exfalso. clear - E. apply (f_equal (fun o => match o with Ret _ => true | Panic => false end)) in E. vm_compute in E. discriminate.
Qed.
(** The input decrypts to 5/64 of the torus, and the table read at 5 is 5 * 2^58: the message passes through. *)
Example C43_fft_case :
  fbsk_for 64 5 (exact_backend 64) (Dec 6 3) demo_key32 255 demo_fbsk32 [1; 1] /\
  safe_convert_bootstrap_key (exact_backend 64) 6 3 32 1 demo_bsk32 = Ret (Ok demo_fbsk32) /\ glwe_ct_wf demo_acc32 /\ fft_ok 32 /\
  phase 64 [1; 1] [7; 2 ^ 60; 2 ^ 60 + 7 + 5 * 2 ^ 58] = 5 * 2 ^ 58 /\
  (match safe_discard_bootstrap Debug 64 (exact_backend 64) (repeat 9 33) [7; 2 ^ 60; 2 ^ 60 + 7 + 5 * 2 ^ 58] demo_acc32 demo_fbsk32 with
   | Ret (Ok out) => Some (((phase 64 (concat demo_key32) out + 2 ^ 57) mod 2 ^ 64) / 2 ^ 58) | _ => None end) = Some 5 /\
  safe_discard_bootstrap Debug 64 (exact_backend 64) (repeat 9 32) [7; 2 ^ 60; 8] demo_acc32 demo_fbsk32 = Ret (Err OutputLweDimensionMismatch) /\
  safe_discard_bootstrap Debug 64 (exact_backend 64) (repeat 9 33) [7; 2 ^ 60; 8] (GlweCt 8 demo_key8) demo_fbsk32 = Ret (Err UnsupportedPolynomialSize).
Proof.
  split; [exact demo_fbsk32_ok|]. split; [reflexivity|]. split; [split; [cbn; lia|split; [discriminate|repeat constructor]]|].
  split; [exists 5; split; [lia|reflexivity]|]. repeat match goal with |- _ /\ _ => split end; vm_compute; reflexivity.
Qed.
