(** * C62, over the real numbers: what the low latency bootstrap of the CUDA backend decrypts to *)
From Coq Require Import Reals Lra.
From Verif Require Import Base Word WordFacts DecompModel DecompProofs NegaRing PolySpec LweSpec LweModel GlweSpec GlweModel GgswSpec ExtProdModel ExtProdSpec ExtProdTheorems BootstrapSpec BootstrapModel BootstrapTheorems WopBitsTheorems GgswModel GgswTheorems NoiseBounds RandomModel GlweTheorems
  CudaBlockModel CudaBlockProofs CudaFftModel CudaFftSpec CudaFftAlgebra CudaFftProofs CudaFftFacts CudaFftTheorems CudaFftRealTheorems
  CudaPbsModel CudaPbsSpec CudaPbsLink CudaPbsTheorems CudaPbsRealModel CudaPbsReal CudaPbsRealBackend CudaPbsRealTheorems CudaGridModel CudaLowLatModel CudaLowLatTheorems.
Local Open Scope Z_scope.

(** One level of decomposition.  Under every schedule of the blocks and of their threads, the launch writes, for every ciphertext, an LWE ciphertext
    under the key made of the coefficients of the GLWE key, of the entry of its table at the decryption of the input. *)
Theorem C62_lookup : forall w ok size H T opt, w = 32 \/ w = 64 -> shape H T opt -> has_variables ok -> has_memory ok size ->
  forall b key beta bsk s vs lwes luts choices private gm,
  let k := length key in let N := (2 * H)%nat in let n := length s in
  b <= 31 -> dec_wf w (Dec b 1) -> 4 * Z.of_nat N < 2 ^ 32 -> 2 * Z.of_nat n * (Z.of_nat k + 1) * (Z.of_nat k + 1) * Z.of_nat H < 2 ^ 32 ->
  0 <= beta -> binary_key N key -> Forall (fun x => x = 0 \/ x = 1) s -> bsk_encrypts w b N 1 key beta bsk s -> Forall (lwe_wf w n) lwes -> Forall (poly_wf w N) vs ->
  (0 < length lwes)%nat -> length vs = length lwes -> length luts = length lwes -> enough_for_blocks H k n luts size ->
  (forall z, (z < length lwes)%nat -> test_vector_at H (nth z luts 0%nat) (repeat (repeat 0 N) k ++ [nth z vs []]) gm) ->
  key_at w 0%R 1%R Rplus Rmult Ropp H k 1 (key_to_double w) exact_twiddle bsk gm ->
  exists gm',
    host_bootstrap_low_latency w 0%R Rplus Rmult Rminus N (2 * opt) (torus_first w) (torus_second w) IZR exact_twiddle (/ sqrt 2)%R (/ INR H)%R
      b k 1 ok n lwes luts choices private gm = Ret gm' /\
    forall z, (z < length lwes)%nat -> exists r e, let rounded := map (as_double w) (nth z lwes []) in
      (forall i, (i <= k * N)%nat -> gm' (Word OUT (z * (k * N + 1) + i)) = Wd (nth i r 0)) /\ lwe_wf w (k * N) r /\
      Z.abs e <= Z.of_nat (nonzeros (removelast rounded)) * ep_error w b k N 1 1 beta (gpu_error w N b (S k)) /\
      (forall val, (forall j, 2 * Z.abs (2 ^ w * j - 2 * Z.of_nat N * LweSpec.phase w s rounded) <= 2 ^ w * (Z.of_nat n + 1) -> lut_at N (nth z vs []) j = val) ->
         LweSpec.phase w (glwe_key_into_lwe_key key) r = (val + e) mod 2 ^ w).
Proof.
  intros w ok size H T opt Hw Hshape Hvars Hmem b key beta bsk s vs lwes luts choices private gm k N n Hb31 Hd HN4 Hidx Hbeta Hkey Hs Hbsk Hlwe Hv Hcount Lv Ll Hsize Mtv Mkey.
  assert (HH : (1 <= H)%nat). { destruct Hshape as (_ & _ & _ & n0 & _ & ->). pose proof (Nat.pow_nonzero 2 n0). lia. }
  assert (Hw0 : 0 < w) by (destruct Hw as [-> | ->]; reflexivity). assert (H32 : 32 <= w) by (destruct Hw as [-> | ->]; lia).
  assert (Lb : length bsk = n) by (clear - Hbsk; unfold n; clear n; induction Hbsk; cbn; congruence).
  assert (Wb : Forall (ggsw_wf w k N 1) bsk) by (clear - Hbsk; induction Hbsk as [|G si bsk s (HG & _) Hb IH]; constructor; assumption).
  set (tvs := map (fun v => repeat (repeat 0 N) k ++ [v]) vs).
  assert (Et : forall z, (z < length lwes)%nat -> nth z tvs [] = repeat (repeat 0 N) k ++ [nth z vs []]).
  { intros z Hz. unfold tvs. rewrite (nth_indep _ [] (repeat (repeat 0 N) k ++ [[]])) by (rewrite map_length; lia). apply (map_nth (fun v => repeat (repeat 0 N) k ++ [v])). }
  assert (Wt : Forall (glwe_wf w k N) tvs).
  { apply Forall_map. eapply Forall_impl; [|exact Hv]. intros v Hv0. apply GlweProofs.glwe_wf_snoc. split; [apply repeat_length|]. split; [|exact Hv0]. apply Forall_forall. intros x Hx. apply repeat_spec in Hx. subst x. apply GgswTheorems.zero_poly_wf. lia. }
  assert (Hh : copies 0%R Rplus H (/ INR H)%R = 1%R) by (apply copies_inv, HH).
  destruct (C62_low_latency 0%R 1%R Rplus Rmult Rminus Ropp R_ring w ok size H T opt exact_twiddle (/ sqrt 2)%R (/ INR H)%R IZR (key_to_double w) (torus_first w) (torus_second w)
    Hshape Hvars Hmem (exact_table H) exact_first Hh eq_refl (first_zero w Hw) (second_zero w Hw)
    Release b k bsk lwes tvs luts (repeat 0 (S (k * N))) choices private gm) as (gm' & El & Hz & _); try assumption.
  - rewrite Lb. exact Hidx.
  - rewrite Lb. exact Hlwe.
  - apply repeat_length.
  - unfold tvs. rewrite map_length. exact Lv.
  - rewrite Lb. exact Hsize.
  - intros z Hz. rewrite Et by exact Hz. apply Mtv, Hz.
  - exists gm'. split; [rewrite <- Lb; exact El|]. intros z L. destruct (Hz z L) as (r & Eb & Lr & Hr). rewrite Et in Eb by exact L. set (rounded := map (as_double w) (nth z lwes [])) in *.
    rewrite Forall_forall in Hlwe, Hv. assert (Wz : lwe_wf w n (nth z lwes [])) by (apply Hlwe, nth_In, L). assert (Wv : poly_wf w N (nth z vs [])) by (apply Hv, nth_In; rewrite Lv; exact L).
    assert (Wr : lwe_wf w n rounded).
    { destruct Wz as [L0 F]. split; [unfold rounded; rewrite map_length; exact L0|]. apply Forall_map, Forall_forall. intros x _. apply as_double_word. lia. }
    destruct Hshape as (_ & _ & _ & n0 & Hn1 & Hn0).
    assert (EN : N = Z.to_nat (2 ^ (Z.of_nat n0 + 1))). { unfold N. rewrite Hn0. apply Nat2Z.inj. rewrite Z2Nat.id by (apply Z.pow_nonneg; lia). rewrite Nat2Z.inj_mul, Nat2Z.inj_pow, Z.add_1_r, Z.pow_succ_r by lia. reflexivity. }
    assert (Haw : Z.of_nat n0 + 1 + 2 < w).
    { rewrite EN, Z2Nat.id in HN4 by (apply Z.pow_nonneg; lia). change 4 with (2 ^ 2) in HN4. rewrite <- Z.pow_add_r in HN4 by lia. apply Z.pow_lt_mono_r_iff in HN4; lia. }
    pose proof (C61_backend w H b (1 * S k) Hw ltac:(lia)) as HB. fold N in HB.
    assert (HE : 0 <= gpu_error w N b (1 * S k)). { unfold gpu_error. assert (P : 0 <= 2 ^ (b - 1)) by (apply Z.pow_nonneg; lia). assert (0 <= Z.of_nat (1 * S k) * (Z.of_nat N * 2 ^ (b - 1))) by (apply Z.mul_nonneg_nonneg; [lia|]; apply Z.mul_nonneg_nonneg; lia). destruct (w =? 32); lia. }
    pose proof (C29_lookup Release w (Z.of_nat n0 + 1) (real_backend w H) (Dec b 1) key beta (1 * S k) (gpu_error w N b (1 * S k))) as LK. cbv zeta in LK. rewrite <- EN in LK. cbn [base_log level_count] in LK.
    destruct (LK Hd ltac:(lia) Haw Hkey Hbeta HB HE (le_n _) bsk s (nth z vs []) rounded (repeat 0 (S (k * N))) Hs Hbsk Wr Wv (repeat_length _ _)) as (r' & e & E2 & W2 & He & _ & Hval).
    assert (r' = r) as ->. { pose proof (eq_trans (eq_sym E2) Eb) as EE. injection EE as ->. reflexivity. }
    exists r, e. rewrite Nat.mul_1_l in He. split; [exact Hr|]. split; [exact W2|]. split; [exact He|exact Hval].
Qed.
Print Assumptions C62_lookup.

(** A case: two ciphertexts, words of 64 bits, polynomials of 8 coefficients, two blocks of two threads for each ciphertext *)
Definition case_bsk : list (list (list (list (list Z)))) :=
  match fill_with_new_bootstrap_key Debug 64 demo_gauss_word demo_key8 8 1 20 (repeat (ggsw_allocate 8 2 1) 2) [1; 1] demo_gen8 with
  | Ret (b, _) => b | Panic => [] end.
Lemma case_bsk_ok : bsk_encrypts 64 20 8 1 demo_key8 255 case_bsk [1; 1].
Proof.
  unfold case_bsk.
  destruct (fill_with_new_bootstrap_key Debug 64 demo_gauss_word demo_key8 8 1 20 (repeat (ggsw_allocate 8 2 1) 2) [1; 1] demo_gen8) as [[b g']|] eqn:E.
  - eapply (C29_generated_key Debug 64 demo_gauss_word 8 demo_key8 20 1 (repeat (ggsw_allocate 8 2 1) 2) [1; 1] demo_gen8 b g');
      try reflexivity; try (cbn; lia); try exact E.
    + apply demo_gauss_word_ok; lia.
    + apply demo_gauss_word_small; lia.
    + exact demo_gen8_ok.
    + exact demo_key8_gkey.
    + apply Forall_forall. intros x Hx. apply repeat_spec in Hx. subst x. apply ggsw_zero_wf. lia.
  - exfalso. clear - E. apply (f_equal (fun o => match o with Ret _ => true | Panic => false end)) in E. vm_compute in E. discriminate.
Qed.
Definition case_lwes : list (list Z) := [case_lwe; [2 ^ 62; 2 ^ 61; 2 ^ 63]].
Example C62_case :
  let gm := layout 64 0%R 1%R Rplus Rmult Ropp 4 1 1 5 (key_to_double 64) exact_twiddle case_bsk (repeat (repeat 0 8) 1 ++ [case_v]) in
  shape 4 2 2 /\ has_variables (fun _ => true) /\ has_memory (fun _ => true) case_size /\ dec_wf 64 (Dec 20 1) /\ binary_key 8 demo_key8 /\
  bsk_encrypts 64 20 8 1 demo_key8 255 case_bsk [1; 1] /\ Forall (lwe_wf 64 2) case_lwes /\ poly_wf 64 8 case_v /\ enough_for_blocks 4 1 2 [5; 5]%nat case_size /\
  (forall z, (z < 2)%nat -> test_vector_at 4 (nth z [5; 5] 0)%nat (repeat (repeat 0 8) 1 ++ [nth z [case_v; case_v] []]) gm) /\
  key_at 64 0%R 1%R Rplus Rmult Ropp 4 1 1 (key_to_double 64) exact_twiddle case_bsk gm /\
  LweSpec.phase 64 [1; 1] (map (as_double 64) case_lwe) = 2 ^ 63 - 7 /\ 2 * ep_error 64 20 1 8 1 1 255 (gpu_error 64 8 20 2) < 2 ^ 59.
Proof.
  cbv zeta. split; [split; [lia|]; split; [reflexivity|]; split; [reflexivity|]; exists 2%nat; split; [lia|reflexivity]|].
  split; [intros t r; reflexivity|]. split; [intros b i _; split; [reflexivity|]; intros; reflexivity|]. split; [unfold dec_wf; cbn [base_log level_count]; lia|]. split; [exact demo_key8_ok|].
  split; [exact case_bsk_ok|]. split; [repeat (apply Forall_cons; [split; [reflexivity|]; unfold case_lwe, is_word; repeat (apply Forall_cons; [lia|]); apply Forall_nil|]); apply Forall_nil|].
  split; [split; [reflexivity|]; unfold case_v, is_word; cbn [map]; repeat (apply Forall_cons; [lia|]); apply Forall_nil|].
  split; [unfold enough_for_blocks, case_size; cbn [length]; repeat (split; [lia|]); split; [intros [|[|z]] Hz; cbn; lia|lia]|].
  split; [intros [|[|z]] Hz; [apply layout_ok|apply layout_ok|lia]|]. split; [apply layout_ok|]. split; vm_compute; reflexivity.
Qed.
