(** * C61, over the real numbers: what the amortized bootstrap of the CUDA backend decrypts to *)
From Coq Require Import Reals Lra.
From Verif Require GgswTheorems.
From Verif Require Import Base Word WordFacts DecompModel DecompProofs NegaRing PolySpec LweSpec LweModel GlweSpec GlweModel GgswSpec ExtProdModel ExtProdSpec ExtProdTheorems BootstrapSpec BootstrapModel BootstrapTheorems WopBitsTheorems
  CudaBlockModel CudaBlockProofs CudaFftModel CudaFftSpec CudaFftAlgebra CudaFftProofs CudaFftFacts CudaFftTheorems CudaFftRealTheorems
  CudaPbsModel CudaPbsSpec CudaPbsLink CudaPbsTheorems CudaPbsRealModel CudaPbsReal CudaPbsRealBackend.
Local Open Scope Z_scope.

(** With exact arithmetic on the doubles, the products are exact up to the explicit error [gpu_error]. *)
Theorem C61_backend : forall w H b T, w = 32 \/ w = 64 -> (0 < H)%nat -> backend_ok w (2 * H) b T (gpu_error w (2 * H) b T) (real_backend w H).
Proof. intros w H b T Hw HH. exact (real_backend_ok w Hw H HH b T). Qed.
Print Assumptions C61_backend.

(** The conversion of the words of the ciphertext to double *)
Theorem C61_ciphertext_rounding : (forall x, is_word 32 x -> as_double 32 x = x) /\
  (forall x, is_word 64 x -> exists e, Z.abs e <= 1024 /\ as_double 64 x = (x + e) mod 2 ^ 64).
Proof. split; [exact as_double_32|exact as_double_64]. Qed.
Print Assumptions C61_ciphertext_rounding.

(** The words of 32 bits are reduced modulo 2^32 - 1, and not modulo 2^32; the second half of the coefficients is rounded up by one. *)
Theorem C61_words_modulus : (forall X, torus_first 32 (IZR X / max_word 32) = X mod (2 ^ 32 - 1)) /\ (forall X, torus_first 64 (IZR X / max_word 64) = X mod 2 ^ 64) /\
  (forall X, 1 <= X < 2 ^ 64 -> torus_second 64 (IZR X / max_word 64) = (X + 1) mod 2 ^ 64).
Proof.
  split; [intros X; apply (first_value 32); auto|]. split; [intros X; apply (first_value 64); auto|]. intros X HX. rewrite second_value by auto. change (modulus 64) with (2 ^ 64). rewrite Z.div_small, (Z.mod_small X) by lia.
  destruct (Z.ltb_spec 0 X); [reflexivity|lia].
Qed.
Print Assumptions C61_words_modulus.

(** With 64-bit words, a ciphertext whose rescaled mask is just below a half is rounded up: the CPU rounds it down (C28). *)
Theorem C61_modulus_switch_refuted : exists x, is_word 64 x /\ rescale_torus_element 64 2048 x = 1025%nat /\ switched 64 1024 0 x = 1024.
Proof. exists (2 ^ 63 + 2 ^ 52 - 1). split; [split; [discriminate|reflexivity]|]. split; vm_compute; reflexivity. Qed.
Print Assumptions C61_modulus_switch_refuted.

Lemma first_zero w : w = 32 \/ w = 64 -> torus_first w 0%R = 0.
Proof. intros Hw. replace 0%R with (IZR 0 / max_word w)%R by (unfold Rdiv; ring). rewrite first_value by exact Hw. apply Zmod_0_l. Qed.
Lemma second_zero w : w = 32 \/ w = 64 -> torus_second w 0%R = 0.
Proof. intros Hw. replace 0%R with (IZR 0 / max_word w)%R by (unfold Rdiv; ring). rewrite second_value by exact Hw. destruct Hw as [-> | ->]; vm_compute; reflexivity. Qed.

(** Under every schedule, the kernel writes an LWE ciphertext, under the key made of the coefficients of the GLWE key, of the entry of the
    table at the decryption of the switched input, and so of the entry at the decryption of the input when the entries around it are equal. *)
Theorem C61_lookup : forall w ok size H T opt, w = 32 \/ w = 64 -> shape H T opt -> has_variables ok -> has_memory ok size ->
  forall b l key beta bsk s v lwe partial lut out choices m,
  let k := length key in let N := (2 * H)%nat in let n := length s in let rounded := map (as_double w) lwe in
  b <= 31 -> dec_wf w (Dec b l) -> 4 * Z.of_nat N < 2 ^ 32 -> 2 * Z.of_nat n * Z.of_nat l * (Z.of_nat k + 1) * (Z.of_nat k + 1) * Z.of_nat H < 2 ^ 32 ->
  0 <= beta -> binary_key N key -> Forall (fun x => x = 0 \/ x = 1) s -> bsk_encrypts w b N l key beta bsk s -> lwe_wf w n lwe -> poly_wf w N v ->
  enough_memory H k l n lut out size -> test_vector_at H lut (repeat (repeat 0 N) k ++ [v]) m ->
  key_at w 0%R 1%R Rplus Rmult Ropp H k l (key_to_double w) exact_twiddle bsk m ->
  exists m' r e,
    launch addr_eqb ok T (device_bootstrap_amortized w 0%R Rplus Rmult Rminus N (2 * opt) (torus_first w) (torus_second w) IZR exact_twiddle (/ sqrt 2)%R (/ INR H)%R
      b k l partial n lwe lut out) choices m = Ret m' /\
    (forall i, (i <= k * N)%nat -> m' (Word OUT (out + i)) = Wd (nth i r 0)) /\ lwe_wf w (k * N) r /\
    Z.abs e <= Z.of_nat (nonzeros (removelast rounded)) * ep_error w b k N l 1 beta (gpu_error w N b (l * S k)) /\
    LweSpec.phase w (glwe_key_into_lwe_key key) r = (lut_at N v (rot_exponent w N s rounded) + e) mod 2 ^ w /\
    (forall val, (forall j, 2 * Z.abs (2 ^ w * j - 2 * Z.of_nat N * LweSpec.phase w s rounded) <= 2 ^ w * (Z.of_nat n + 1) -> lut_at N v j = val) ->
       LweSpec.phase w (glwe_key_into_lwe_key key) r = (val + e) mod 2 ^ w).
Proof.
  intros w ok size H T opt Hw Hshape Hvars Hmem b l key beta bsk s v lwe partial lut out choices m k N n rounded Hb31 Hd HN4 Hidx Hbeta Hkey Hs Hbsk Hlwe Hv Hsize Mtv Mkey.
  assert (HH : (1 <= H)%nat). { destruct Hshape as (_ & _ & _ & n0 & _ & ->). pose proof (Nat.pow_nonzero 2 n0). lia. }
  assert (Hw0 : 0 < w) by (destruct Hw as [-> | ->]; reflexivity). assert (H32 : 32 <= w) by (destruct Hw as [-> | ->]; lia).
  assert (Lb : length bsk = n) by (clear - Hbsk; unfold n; clear n; induction Hbsk; cbn; congruence).
  assert (Wb : Forall (ggsw_wf w k N l) bsk) by (clear - Hbsk; induction Hbsk as [|G si bsk s (HG & _) Hb IH]; constructor; assumption).
  assert (Wt : glwe_wf w k N (repeat (repeat 0 N) k ++ [v])).
  { apply GlweProofs.glwe_wf_snoc. split; [apply repeat_length|]. split; [|exact Hv]. apply Forall_forall. intros x Hx. apply repeat_spec in Hx. subst x. apply GgswTheorems.zero_poly_wf. lia. }
  assert (Wr : lwe_wf w n rounded).
  { destruct Hlwe as [L F]. split; [unfold rounded; rewrite map_length; exact L|]. apply Forall_map, Forall_forall. intros x _. apply as_double_word. lia. }
  assert (Hh : copies 0%R Rplus H (/ INR H)%R = 1%R) by (apply copies_inv, HH).
  destruct (C61_amortized 0%R 1%R Rplus Rmult Rminus Ropp R_ring w ok size H T opt exact_twiddle (/ sqrt 2)%R (/ INR H)%R IZR (key_to_double w) (torus_first w) (torus_second w)
    Hshape Hvars Hmem (exact_table H) exact_first Hh eq_refl (first_zero w Hw) (second_zero w Hw)
    Release b k l bsk lwe (repeat (repeat 0 N) k ++ [v]) partial lut out (repeat 0 (S (k * N))) choices m) as (m' & r & El & Eb & Lr & Hr & _); try assumption.
  - rewrite Lb. exact Hidx.
  - rewrite Lb. apply Hlwe.
  - apply Hlwe.
  - apply repeat_length.
  - rewrite Lb. exact Hsize.
  - destruct Hshape as (_ & _ & _ & n0 & Hn1 & Hn0).
    assert (EN : N = Z.to_nat (2 ^ (Z.of_nat n0 + 1))). { unfold N. rewrite Hn0. apply Nat2Z.inj. rewrite Z2Nat.id by (apply Z.pow_nonneg; lia). rewrite Nat2Z.inj_mul, Nat2Z.inj_pow, Z.add_1_r, Z.pow_succ_r by lia. reflexivity. }
    assert (Haw : Z.of_nat n0 + 1 + 2 < w).
    { rewrite EN, Z2Nat.id in HN4 by (apply Z.pow_nonneg; lia). change 4 with (2 ^ 2) in HN4. rewrite <- Z.pow_add_r in HN4 by lia. apply Z.pow_lt_mono_r_iff in HN4; lia. }
    pose proof (C61_backend w H b (l * S k) Hw ltac:(lia)) as HB. fold N in HB.
    assert (HE : 0 <= gpu_error w N b (l * S k)). { unfold gpu_error. assert (P : 0 <= 2 ^ (b - 1)) by (apply Z.pow_nonneg; lia). assert (0 <= Z.of_nat (l * S k) * (Z.of_nat N * 2 ^ (b - 1))) by (apply Z.mul_nonneg_nonneg; [lia|]; apply Z.mul_nonneg_nonneg; lia). destruct (w =? 32); lia. }
    pose proof (C29_lookup Release w (Z.of_nat n0 + 1) (real_backend w H) (Dec b l) key beta (l * S k) (gpu_error w N b (l * S k))) as LK. cbv zeta in LK. rewrite <- EN in LK. cbn [base_log level_count] in LK.
    destruct (LK Hd ltac:(lia) Haw Hkey Hbeta HB HE (le_n _) bsk s v rounded (repeat 0 (S (k * N))) Hs Hbsk Wr Hv (repeat_length _ _)) as (r' & e & E2 & W2 & He & Hrot & Hval).
    assert (r' = r) as ->. { pose proof (eq_trans (eq_sym E2) Eb) as EE. injection EE as ->. reflexivity. }
    exists m', r, e. split; [|split; [exact Hr|]; split; [exact W2|]; split; [exact He|]; split; [exact Hrot|exact Hval]]. rewrite <- Lb. exact El.
Qed.
Print Assumptions C61_lookup.

(** A case: words of 64 bits, polynomials of 8 coefficients, two threads in charge of four coefficients each, the key of C41 *)
Definition case_v : list Z := map (fun x => x * 2 ^ 60) [1; 2; 3; 4; 5; 6; 7; 8].
Definition case_lwe : list Z := [2 ^ 61; 7; 2 ^ 63 + 2 ^ 61 + 7 + 9].
Definition case_size (_ : nat) : nat := 1000.
Example C61_case :
  let m := layout 64 0%R 1%R Rplus Rmult Ropp 4 1 3 5 (key_to_double 64) exact_twiddle demo_bsk8 (repeat (repeat 0 8) 1 ++ [case_v]) in
  shape 4 2 2 /\ has_variables (fun _ => true) /\ has_memory (fun _ => true) case_size /\ dec_wf 64 (Dec 6 3) /\ binary_key 8 demo_key8 /\
  bsk_encrypts 64 6 8 3 demo_key8 255 demo_bsk8 [1; 1] /\ lwe_wf 64 2 case_lwe /\ poly_wf 64 8 case_v /\ enough_memory 4 1 3 2 5 7 case_size /\
  test_vector_at 4 5 (repeat (repeat 0 8) 1 ++ [case_v]) m /\ key_at 64 0%R 1%R Rplus Rmult Ropp 4 1 3 (key_to_double 64) exact_twiddle demo_bsk8 m /\
  LweSpec.phase 64 [1; 1] (map (as_double 64) case_lwe) = 2 ^ 63 - 7 /\ 2 * ep_error 64 6 1 8 3 1 255 (gpu_error 64 8 6 6) < 2 ^ 59.
Proof.
  cbv zeta. split; [split; [lia|]; split; [reflexivity|]; split; [reflexivity|]; exists 2%nat; split; [lia|reflexivity]|].
  split; [intros t r; reflexivity|]. split; [intros b i _; split; [reflexivity|]; intros; reflexivity|]. split; [unfold dec_wf; cbn [base_log level_count]; lia|]. split; [exact demo_key8_ok|].
  split; [exact demo_bsk8_ok|]. split; [split; [reflexivity|]; unfold case_lwe, is_word; repeat (apply Forall_cons; [lia|]); apply Forall_nil|].
  split; [split; [reflexivity|]; unfold case_v, is_word; cbn [map]; repeat (apply Forall_cons; [lia|]); apply Forall_nil|].
  split; [unfold enough_memory, case_size; lia|]. split; [apply layout_ok|]. split; [apply layout_ok|]. split; vm_compute; reflexivity.
Qed.
