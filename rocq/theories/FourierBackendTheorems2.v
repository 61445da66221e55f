(** * C55: external products and bootstraps with the FFT backend; accurate transforms exist *)
From Coq Require Import QArith Qreals Qabs Lia.
From Verif Require Import Base Word WordFacts DecompModel DecompProofs NegaRing PolySpec PolyModel PolyProofs RingSum LweSpec LweProofs LweTheorems GlweSpec GlweModel GlweProofs GlweTheorems GgswSpec GgswModel GgswTheorems ExtProdModel ExtProdSpec ExtProdProofs ExtProdTheorems RandomModel CsprngFamily NoiseBounds BootstrapSpec BootstrapModel BootstrapTheorems FloatModel FloatFacts SeededModel FourierConvSpec FourierConvModel FourierConvProofs FourierConvTheorems FourierBackendModel FourierBackendMac.
From Coq Require Import Reals Lra.
From Verif Require Import ComplexSpec ComplexFacts FourierBackendSpec FourierBackendProofs FourierTwistiesTheorems FourierBackendTheorems.
Open Scope R_scope.

Theorem C55_external_product : forall p f w kn n pl tw buffer phi tau k d key m noise beta T E out G c,
  w = 32%Z \/ w = 64%Z -> nightly_avx512 f = false \/ w = 32%Z ->
  n = Nat.pow 2 kn -> (3 <= kn)%nat -> length buffer = n ->
  0 <= phi <= / 32 -> 0 <= tau <= / 32 -> (1 <= T)%nat -> INR T <= IZR (2 ^ 40) ->
  accurate_plan n phi pl -> accurate_twisties n tau tw -> fft_error w n (base_log d) T phi tau <= IZR E ->
  dec_wf w d -> length key = k -> binary_key (2 * n) key ->
  glwe_wf w k (2 * n) out -> glwe_wf w k (2 * n) c -> ggsw_wf w k (2 * n) (level_count d) G ->
  ggsw_encrypts w (base_log d) (2 * n) key m noise G -> (0 <= beta)%Z ->
  (forall j i, (j < level_count d)%nat -> (i <= k)%nat -> rbound (2 ^ w) beta (NegaRing.R (2 * n) (noise (S j) i))) ->
  (level_count d * S k <= T)%nat ->
  let B := fft_backend p f w pl tw buffer in
  exists out',
    external_product p w B (2 * n) (base_log d) out (fill_with_forward_fourier B G) c = Ret out' /\ glwe_wf w k (2 * n) out' /\
    rbound (2 ^ w) (ep_error w (base_log d) k (2 * n) (level_count d) m beta E)
      (rsub (gphase (2 * n) key out') (radd (gphase (2 * n) key out) (rscal m (gphase (2 * n) key c)))).
Proof.
  intros p f w kn n pl tw buffer phi tau k d key m noise beta T E out G c Hw Hf En Hkn Lb Hphi Htau HT1 HT Hpl Htw HE Hd Hk Hb Ho Hc HG Henc Hbeta Hnoise HTT B.
  assert (Hn : (0 < n)%nat) by (rewrite En; apply Nat.neq_0_lt_0, Nat.pow_nonzero; lia).
  apply (C26_error_bound p w B (2 * n) k d key m noise beta T E out G c); try assumption; [lia| |].
  - apply (C55_backend p f w kn n pl tw buffer phi tau); assumption.
  - apply le_IZR. eapply Rle_trans; [|exact HE]. apply fft_error_nonneg; [lia|lra|lra].
Qed.
Print Assumptions C55_external_product.

Theorem C55_bootstrap : forall p f w kn n pl tw buffer phi tau d key beta T E bsk s v lwe out,
  w = 32%Z \/ w = 64%Z -> nightly_avx512 f = false \/ w = 32%Z ->
  n = Nat.pow 2 kn -> (3 <= kn)%nat -> (Z.of_nat kn + 3 < w)%Z -> length buffer = n ->
  0 <= phi <= / 32 -> 0 <= tau <= / 32 -> (1 <= T)%nat -> INR T <= IZR (2 ^ 40) ->
  accurate_plan n phi pl -> accurate_twisties n tau tw -> fft_error w n (base_log d) T phi tau <= IZR E ->
  dec_wf w d -> binary_key (2 * n) key -> (0 <= beta)%Z -> (level_count d * S (length key) <= T)%nat ->
  Forall (fun x => x = 0%Z \/ x = 1%Z) s -> bsk_encrypts w (base_log d) (2 * n) (level_count d) key beta bsk s ->
  lwe_wf w (length s) lwe -> poly_wf w (2 * n) v -> length out = S (length key * (2 * n)) ->
  let B := fft_backend p f w pl tw buffer in
  exists l e, fft_bootstrap p w B (2 * n) (base_log d) (bsk_forward_fourier B bsk) out lwe (repeat (repeat 0%Z (2 * n)) (length key) ++ [v]) = Ret l /\
    lwe_wf w (length key * (2 * n)) l /\
    (Z.abs e <= Z.of_nat (nonzeros (removelast lwe)) * ep_error w (base_log d) (length key) (2 * n) (level_count d) 1 beta E)%Z /\
    phase w (glwe_key_into_lwe_key key) l = ((lut_at (2 * n) v (rot_exponent w (2 * n) s lwe) + e) mod 2 ^ w)%Z /\
    (forall val, (forall j, (2 * Z.abs (2 ^ w * j - 2 * Z.of_nat (2 * n) * phase w s lwe) <= 2 ^ w * (Z.of_nat (length s) + 1))%Z -> lut_at (2 * n) v j = val) ->
       phase w (glwe_key_into_lwe_key key) l = ((val + e) mod 2 ^ w)%Z).
Proof.
  intros p f w kn n pl tw buffer phi tau d key beta T E bsk s v lwe out Hw Hf En Hkn Hkw Lb Hphi Htau HT1 HT Hpl Htw HE Hd Hkey Hbeta HTT Hs Hbsk Hl Hv Ho B.
  assert (EN : Z.to_nat (2 ^ Z.of_nat (S kn)) = (2 * n)%nat).
  { rewrite En. change (2 ^ Z.of_nat (S kn))%Z with (Z.of_nat 2 ^ Z.of_nat (S kn))%Z. rewrite <- Nat2Z.inj_pow, Nat2Z.id. cbn [Nat.pow]. lia. }
  rewrite <- EN. apply C29_lookup with (T := T); rewrite ?EN; try assumption; [lia|lia| |].
  - apply (C55_backend p f w kn n pl tw buffer phi tau); assumption.
  - apply le_IZR. eapply Rle_trans; [|exact HE]. apply fft_error_nonneg; [lia|lra|lra].
Qed.
Print Assumptions C55_bootstrap.

(** ** Accurate transforms, sines and cosines exist *)
Definition approximate (g : Q) (r : R) : Q := rnd (inject_Z (up (r / Q2R g)) * g).
Lemma approximate_close g r : 0 <= Q2R g -> (Q2R g = 0 -> r = 0) -> Rabs (Q2R (approximate g r) - r) <= Q2R g + u * (Rabs r + Q2R g).
Proof.
  intros Hg H0. unfold approximate. set (q := (inject_Z (up (r / Q2R g)) * g)%Q). pose proof u_pos as U.
  assert (A : Rabs (Q2R q - r) <= Q2R g).
  { unfold q. rewrite Q2R_mult, Q2R_inject. destruct Hg as [Hg|Hg].
    - destruct (archimed (r / Q2R g)) as [A1 A2]. set (k := IZR (up (r / Q2R g))) in *. replace (k * Q2R g - r) with ((k - r / Q2R g) * Q2R g) by (field; lra).
      rewrite Rabs_mult, (Rabs_pos_eq (Q2R g)) by lra. rewrite <- (Rmult_1_l (Q2R g)) at 3. apply Rmult_le_compat_r; [lra|]. apply Rabs_le. lra.
    - rewrite <- Hg, (H0 (eq_sym Hg)), Rmult_0_r, Rminus_0_r, Rabs_R0. lra. }
  pose proof (rnd_R q) as B. assert (C : Rabs (Q2R q) <= Rabs r + Q2R g) by (replace (Q2R q) with ((Q2R q - r) + r) by ring; eapply Rle_trans; [apply Rabs_triang|lra]).
  replace (Q2R (rnd q) - r) with ((Q2R (rnd q) - Q2R q) + (Q2R q - r)) by ring. eapply Rle_trans; [apply Rabs_triang|]. assert (u * Rabs (Q2R q) <= u * (Rabs r + Q2R g)) by (apply Rmult_le_compat_l; lra). lra.
Qed.
Lemma approximate_fits g r : fits53 (approximate g r). Proof. apply rnd_fits. Qed.

(** A granule far below the sum of the moduli *)
Fixpoint size (l : list (Q * Q)) : Q := match l with [] => 0%Q | z :: l => (Qabs (fst z) + Qabs (snd z) + size l)%Q end.
Definition granule (l : list (Q * Q)) : Q := (size l * 2 ^ (-60))%Q.
Lemma rsumr_shift n f : rsumr (S n) f = f 0%nat + rsumr n (fun j => f (S j)).
Proof. change (S n) with (1 + n)%nat. rewrite rsumr_app. cbn [rsumr]. f_equal. lra. Qed.
Lemma size_total l : total (length l) l <= Q2R (size l) <= 2 * total (length l) l.
Proof.
  induction l as [|z l IH]; [unfold total; cbn [length rsumr size]; rewrite RMicromega.Q2R_0; lra|].
  unfold total. cbn [length size]. rewrite rsumr_shift. change (rsumr (length l) (fun j => cmod (entry (z :: l) (S j)))) with (total (length l) l). change (entry (z :: l) 0) with (to_c z).
  rewrite !Q2R_plus, !Q2R_abs. pose proof (cmod_parts (to_c z)). pose proof (cmod_fst (to_c z)). pose proof (cmod_snd (to_c z)). cbn [to_c fst snd] in *. lra.
Qed.
Lemma granule_total l : 0 <= Q2R (granule l) <= 2 * total (length l) l * / 1000000000000000000 /\ (Q2R (granule l) = 0 -> total (length l) l = 0).
Proof.
  pose proof (size_total l) as [A B]. unfold granule. rewrite Q2R_mult. change (2 ^ (-60))%Q with (2 ^ (- (60)))%Q. rewrite Q2R_pow2_opp by lia. change (2 ^ 60)%Z with 1152921504606846976%Z.
  assert (T0 : 0 <= total (length l) l) by (unfold total; apply rsumr_pos; intros; apply cmod_pos). split; [split; lra|]. intros H. lra.
Qed.

Definition approximate_all (n : nat) (l : list (Q * Q)) (F : nat -> complex) : list (Q * Q) :=
  map (fun k => (approximate (granule l) (fst (F k)), approximate (granule l) (snd (F k)))) (seq 0 n).
Definition demo_plan (n : nat) : plan :=
  {| plan_fwd := fun x => approximate_all n x (dft n (entry x)); plan_inv := fun y => approximate_all n y (idft n (entry y) (fun k => k)) |}.
Lemma approximate_all_ok n l F : length l = n -> (forall k, (k < n)%nat -> cmod (F k) <= total n l) ->
  length (approximate_all n l F) = n /\ Forall is_c64 (approximate_all n l F) /\ forall k, (k < n)%nat -> cmod (csub (entry (approximate_all n l F) k) (F k)) <= / IZR (2 ^ 51) * total n l.
Proof.
  intros L HF. unfold approximate_all. split; [rewrite map_length, seq_length; reflexivity|]. split.
  - apply Forall_forall. intros z Hz. apply in_map_iff in Hz. destruct Hz as (k & <- & _). split; apply approximate_fits.
  - intros k Hk. unfold entry. set (h := fun k => (approximate (granule l) (fst (F k)), approximate (granule l) (snd (F k)))).
    rewrite (nth_indep _ (0, 0)%Q (h 0%nat)) by (rewrite map_length, seq_length; exact Hk). rewrite (map_nth h), seq_nth by exact Hk. cbn [Nat.add]. unfold h. pose proof (granule_total l) as [[G1 G2] G3]. rewrite L in G2, G3. specialize (HF k Hk). pose proof (cmod_fst (F k)) as M1. pose proof (cmod_snd (F k)) as M2. pose proof (cmod_pos (F k)) as M0. pose proof u_pos as U.
    assert (Z : Q2R (granule l) = 0 -> fst (F k) = 0 /\ snd (F k) = 0).
    { intros H. specialize (G3 H). rewrite G3 in HF. split.
      - destruct (Req_dec (fst (F k)) 0) as [E|E]; [exact E|]. apply Rabs_pos_lt in E. lra.
      - destruct (Req_dec (snd (F k)) 0) as [E|E]; [exact E|]. apply Rabs_pos_lt in E. lra. }
    pose proof (approximate_close (granule l) (fst (F k)) G1 (fun H => proj1 (Z H))) as A1. pose proof (approximate_close (granule l) (snd (F k)) G1 (fun H => proj2 (Z H))) as A2.
    eapply Rle_trans; [apply cmod_parts|]. cbn [csub cadd copp to_c fst snd].
    fold (Q2R (approximate (granule l) (fst (F k))) - fst (F k)) (Q2R (approximate (granule l) (snd (F k))) - snd (F k)).
    set (t := total n l) in *. change (2 ^ 51)%Z with 2251799813685248%Z. unfold u in *. lra.
Qed.
Lemma demo_plan_accurate n : accurate_plan n (/ IZR (2 ^ 51)) (demo_plan n).
Proof.
  exists (fun k => k). split.
  - split; [intros; assumption|]. intros; assumption.
  - unfold demo_plan. cbn [plan_fwd plan_inv]. split; intros x L C.
    + exact (approximate_all_ok n x (dft n (entry x)) L (fun k _ => dft_le n (entry x) k)).
    + exact (approximate_all_ok n x (idft n (entry x) (fun k => k)) L (fun k _ => idft_le n (entry x) (fun k => k) k)).
Qed.
Definition demo_sin_cos (x : Q) : Q * Q := (approximate (2 ^ (-60))%Q (sin (Q2R x)), approximate (2 ^ (-60))%Q (cos (Q2R x))).
Lemma demo_sin_cos_accurate : accurate_sin_cos (/ IZR (2 ^ 52)) demo_sin_cos.
Proof.
  intros x _ _. unfold demo_sin_cos. cbn [fst snd]. split; [apply approximate_fits|]. split; [apply approximate_fits|].
  assert (G : Q2R (2 ^ (-60)) = / 1152921504606846976) by (change (2 ^ (-60))%Q with (2 ^ (- (60)))%Q; rewrite Q2R_pow2_opp by lia; reflexivity).
  assert (K : forall r, Rabs r <= 1 -> Rabs (Q2R (approximate (2 ^ (-60))%Q r) - r) <= / IZR (2 ^ 52)).
  { intros r Hr. eapply Rle_trans; [apply approximate_close; rewrite G; lra|]. rewrite G. change (2 ^ 52)%Z with 4503599627370496%Z. unfold u. lra. }
  pose proof (SIN_bound (Q2R x)). pose proof (COS_bound (Q2R x)). split; apply K; apply Rabs_le; lra.
Qed.

(** ** Concrete cases *)
Definition demo_tau : R := / IZR (2 ^ 52) + 1 / IZR (2 ^ 49).
Lemma INR_Z n : INR n = IZR (Z.of_nat n). Proof. apply INR_IZR_INZ. Qed.
(** Polynomials of 1024 coefficients of 32 bits, four products with digits in base 2^7: the error is below 2^16.
    Polynomials of 2048 coefficients of 64 bits, six products with digits in base 2^7: the error is below 2^51. *)
Example C55_case : forall p f, nightly_avx512 f = false ->
  (exists tw, twisties_new p demo_sin_cos 512 = Ret tw /\ accurate_twisties 512 demo_tau tw /\ backend_ok 32 1024 7 4 38786 (fft_backend p f 32 (demo_plan 512) tw (repeat (0, 0)%Q 512))) /\
  (exists tw, twisties_new p demo_sin_cos 1024 = Ret tw /\ accurate_twisties 1024 demo_tau tw /\ backend_ok 64 2048 7 6 (2 ^ 51) (fft_backend p f 64 (demo_plan 1024) tw (repeat (0, 0)%Q 1024))).
Proof.
  intros p f Hf. assert (P : 0 <= / IZR (2 ^ 51) <= / 32) by (change (2 ^ 51)%Z with 2251799813685248%Z; lra).
  assert (T : 0 <= demo_tau <= / 32) by (unfold demo_tau; change (2 ^ 52)%Z with 4503599627370496%Z; change (2 ^ 49)%Z with 562949953421312%Z; lra). split.
  - destruct (C55_twisties p demo_sin_cos _ 9 512 eq_refl ltac:(lia) demo_sin_cos_accurate) as (tw & E & A). exists tw. split; [exact E|]. split; [exact A|].
    apply (C55_backend p f 32 9 512 (demo_plan 512) tw _ _ _ 7 4 38786 (or_introl eq_refl) (or_introl Hf) eq_refl ltac:(lia) (repeat_length _ _) P T ltac:(lia)); [rewrite INR_Z; apply IZR_le; cbn; lia|apply demo_plan_accurate|exact A|].
    unfold fft_error, demo_tau. rewrite !INR_Z. cbn -[IZR Rmult Rplus Rdiv Rinv]. lra.
  - destruct (C55_twisties p demo_sin_cos _ 10 1024 eq_refl ltac:(lia) demo_sin_cos_accurate) as (tw & E & A). exists tw. split; [exact E|]. split; [exact A|].
    apply (C55_backend p f 64 10 1024 (demo_plan 1024) tw _ _ _ 7 6 (2 ^ 51) (or_intror eq_refl) (or_introl Hf) eq_refl ltac:(lia) (repeat_length _ _) P T ltac:(lia)); [rewrite INR_Z; apply IZR_le; cbn; lia|apply demo_plan_accurate|exact A|].
    unfold fft_error, demo_tau. rewrite !INR_Z. cbn -[IZR Rmult Rplus Rdiv Rinv]. lra.
Qed.

(** A whole bootstrap through the FFT: 16 coefficients, a key generated by the model of key generation, base 2^6 and three
    levels; the input is in the middle of the first half of the table. *)
Definition demo_key16 : list Z := [1; 0; 1; 1; 0; 0; 1; 0; 1; 1; 1; 0; 0; 0; 0; 1]%Z.
Definition demo_gen16 : egen := EG (BG (fun i => ((7 * i + 3) mod 256)%Z) 0 10000) (BG (fun i => ((11 * i + i / 16) mod 256)%Z) 0 1000000).
Definition demo_bsk16 : list (list (list (list (list Z)))) :=
  match fill_with_new_bootstrap_key Debug 32 demo_gauss_word [demo_key16] 16 3 6 (repeat (ggsw_allocate 16 2 3) 3) [1; 0; 1]%Z demo_gen16 with Ret (b, _) => b | Panic => [] end.
Definition demo_lut16 : list Z := repeat (2 ^ 28)%Z 12 ++ repeat (3 * 2 ^ 28)%Z 4.

Lemma demo_bsk16_encrypts : bsk_encrypts 32 6 16 3 [demo_key16] 255 demo_bsk16 [1; 0; 1]%Z.
Proof.
  unfold demo_bsk16.
  destruct (fill_with_new_bootstrap_key Debug 32 demo_gauss_word [demo_key16] 16 3 6 (repeat (ggsw_allocate 16 2 3) 3) [1; 0; 1]%Z demo_gen16) as [[b g']|] eqn:E.
  - eapply (C29_generated_key Debug 32 demo_gauss_word 16 [demo_key16] 6 3 (repeat (ggsw_allocate 16 2 3) 3) [1; 0; 1]%Z demo_gen16 b g');
      try reflexivity; try (cbn; lia); try exact E.
    + apply demo_gauss_word_ok; lia.
    + apply demo_gauss_word_small; lia.
    + intros q. cbn. lia.
    + split; [repeat constructor|]. right. repeat (constructor; [bin|]). constructor.
    + apply Forall_forall. intros x Hx. apply repeat_spec in Hx. subst x. apply ggsw_zero_wf. lia.
  - exfalso. clear - E. apply (f_equal (fun o => match o with Ret _ => true | Panic => false end)) in E. vm_compute in E. discriminate.
Qed.

Example C55_bootstrap_case : forall p f, nightly_avx512 f = false ->
  exists tw l e, let B := fft_backend p f 32 (demo_plan 8) tw (repeat (0, 0)%Q 8) in
    twisties_new p demo_sin_cos 8 = Ret tw /\
    fft_bootstrap p 32 B 16 6 (bsk_forward_fourier B demo_bsk16) (repeat 0%Z 17) demo_lwe (repeat (repeat 0%Z 16) 1 ++ [demo_lut16]) = Ret l /\
    (Z.abs e < 2 ^ 21)%Z /\ phase 32 (glwe_key_into_lwe_key [demo_key16]) l = ((2 ^ 28 + e) mod 2 ^ 32)%Z.
Proof.
  intros p f Hf. assert (P : 0 <= / IZR (2 ^ 51) <= / 32) by (change (2 ^ 51)%Z with 2251799813685248%Z; lra).
  assert (T : 0 <= demo_tau <= / 32) by (unfold demo_tau; change (2 ^ 52)%Z with 4503599627370496%Z; change (2 ^ 49)%Z with 562949953421312%Z; lra).
  destruct (C55_twisties p demo_sin_cos _ 3 8 eq_refl ltac:(lia) demo_sin_cos_accurate) as (tw & E & A). exists tw.
  destruct (C55_bootstrap p f 32 3 8 (demo_plan 8) tw (repeat (0, 0)%Q 8) (/ IZR (2 ^ 51)) demo_tau (Dec 6 3) [demo_key16] 255 6 12 demo_bsk16 [1; 0; 1]%Z demo_lut16 demo_lwe (repeat 0%Z 17)
    (or_introl eq_refl) (or_introl Hf) eq_refl ltac:(lia) ltac:(lia) (repeat_length _ _) P T ltac:(lia)) as (l & e & E1 & _ & He & _ & Hv).
  - rewrite INR_Z; apply IZR_le; cbn; lia.
  - apply demo_plan_accurate.
  - exact A.
  - unfold fft_error, demo_tau. rewrite !INR_Z. cbn -[IZR Rmult Rplus Rdiv Rinv]. lra.
  - unfold dec_wf; cbn [base_log level_count]; lia.
  - apply Forall_cons; [|apply Forall_nil]. split; [reflexivity|]. unfold demo_key16. repeat (apply Forall_cons; [lia|]). apply Forall_nil.
  - lia.
  - cbn. lia.
  - repeat (apply Forall_cons; [lia|]). apply Forall_nil.
  - exact demo_bsk16_encrypts.
  - exact demo_lwe_wf.
  - split; [reflexivity|]. unfold demo_lut16, is_word. cbn [repeat app]. repeat (apply Forall_cons; [lia|]). apply Forall_nil.
  - reflexivity.
  - exists l, e. cbv zeta in *. split; [exact E|]. split; [exact E1|]. split.
    + eapply Z.le_lt_trans; [exact He|]. vm_compute. reflexivity.
    + apply Hv. intros j Hj. replace (phase 32 [1; 0; 1]%Z demo_lwe) with 805306384%Z in Hj by (vm_compute; reflexivity).
      change (Z.of_nat (2 * 8)) with 16%Z in Hj. change (Z.of_nat (length [1; 0; 1]%Z)) with 3%Z in Hj. change (2 ^ 32)%Z with 4294967296%Z in Hj.
      assert (J : (4 <= j <= 8)%Z) by lia. assert (C : j = 4%Z \/ j = 5%Z \/ j = 6%Z \/ j = 7%Z \/ j = 8%Z) by lia. destruct C as [->|[->|[->|[->| ->]]]]; reflexivity.
Qed.
