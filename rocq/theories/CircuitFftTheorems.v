(** * Property C57 with the FFT backend of C55 *)
From Coq Require Import QArith Qreals.
From Verif Require Import Base Word WordFacts DecompModel DecompProofs NegaRing PolySpec PolyModel PolyProofs RingSum RandomModel CsprngFamily NoiseBounds
  LweSpec LweModel LweProofs LweTheorems LweVectorTheorems GlweSpec GlweModel GlweProofs GlweTheorems GgswSpec GgswModel GgswTheorems
  KeyswitchSpec KeyswitchModel KeyswitchProofs KeyswitchTheorems ExtProdModel ExtProdSpec ExtProdProofs ExtProdTheorems BootstrapSpec BootstrapModel BootstrapTheorems
  WopBitsTheorems NttSpec NttModel NttProofs NttTheorems NttExtProdProofs NttExtProdTheorems CircuitSpec CircuitModel CircuitTheorems
  FourierConvModel FourierBackendModel.
From Coq Require Import Reals Lra.
From Verif Require Import ComplexSpec FourierBackendSpec FourierBackendTheorems.
Open Scope Z_scope.

(** The hypotheses are those of [C57_circuit]; the error [E] is that of the FFT backend. *)
Section Keys.
(** Parameters: build profile, word size, message bits, dimension of the small key, dimension and size (2^a) of the GLWE key,
    decompositions of the bootstrap and of the keyswitch *)
Context (p : profile) (w t : Z) (n k : nat) (a : Z) (N := Z.to_nat (2 ^ a)) (bb : Z) (bl : nat) (kb : Z) (kl : nat).
(** Noise samplers for the small and for the large key, with bounds *)
Context (gauss_lwe gauss_glwe : list Z -> option (Z * Z)) (beta_lwe beta_glwe : Z).
Hypothesis (Ha : 0 <= a) (Haw : a + 2 < w) (Hw8 : w mod 8 = 0) (Hn : (0 < n)%nat) (Hk : (0 < k)%nat) (Ht : 0 <= t < a)
  (Hbd : dec_wf w (Dec bb bl)) (Hkd : dec_wf w (Dec kb kl)) (Hls : gauss_small w beta_lwe gauss_lwe)
  (Hgo : gauss_ok w gauss_glwe) (Hgs : gauss_small w beta_glwe gauss_glwe) (Hbeta : 0 <= beta_glwe)
  (Hbytes1 : Z.of_nat n * (Z.of_nat bl * ((Z.of_nat k + 1) * (Z.of_nat k * (Z.of_nat N * (w / 8))))) < 2 ^ 64)
  (Hbytes2 : Z.of_nat n * (Z.of_nat bl * ((Z.of_nat k + 1) * (Z.of_nat N * 256))) < 2 ^ 64).
(** Key generation: the states of the generators are those of any engines. *)
Context (gs1 gs1' gs2 gs2' : bgen) (g1 g1' g2 g2' g3 g3' : egen) (s : list Z) (glwe : list (list Z)) (bsk : list (list (list (list (list Z))))) (ksk : list (list (list Z))).
Notation big := (glwe_key_into_lwe_key glwe).
Hypothesis (Hg1 : egen_ok g1) (Hg2 : egen_ok g2) (Hg3 : egen_ok g3).
Hypothesis (Es : generate_new_lwe_secret_key n gs1 = Ret (s, gs1')) (Eg : generate_new_glwe_secret_key k N gs2 = Ret (glwe, gs2'))
  (Eb : fill_with_new_bootstrap_key p w gauss_glwe glwe N bl bb (repeat (ggsw_allocate N (S k) bl) n) s g1 = Ret (bsk, g1'))
  (Ek : generate_new_lwe_keyswitch_key p w gauss_lwe kb kl big s g2 = Ret (ksk, g2')).
(** The messages are encrypted under the large key. *)
Context (messages : list Z) (inputs : list (list Z)).
Hypothesis (Hm : Forall (fun x => 0 <= x < 2 ^ (t + 1)) messages) (Ei : encrypt_inputs p w t gauss_glwe big messages g3 = Ret (inputs, g3')).
(** The noise fits: [eps] bounds the error of the inputs and of a bootstrap with backend error [E]; the weights of a gate multiply it
    by at most [W], the keyswitch adds its error, and the modulus switch n + 1 half units of the 2N positions of the table. *)
Context (E eps W : Z) (phi tau : R).
Notation ks_error := (Z.of_nat (k * N) * 2 ^ (w - kb * Z.of_nat kl - 1) + Z.of_nat (k * N) * Z.of_nat kl * 2 ^ (kb - 1) * beta_lwe).
Hypothesis (HE : 0 <= E) (He1 : beta_glwe <= eps) (He2 : Z.of_nat n * ep_error w bb k N bl 1 beta_glwe E <= eps) (HW : 1 <= W)
  (Hbudget : 2 ^ w * (Z.of_nat n + 1) + 4 * Z.of_nat N * (W * eps + ks_error) < 2 ^ w * (Z.of_nat N / 2 ^ t)).
Context (circuit : list gate).
Hypothesis (Hc : circuit_wf W (length messages) circuit).


(** With the FFT backend of the code, on every instruction set except 64-bit words with AVX-512 (C54): [pl] is any plan accurate to
    [phi] and [tw] are twisting factors accurate to [tau]. *)
Theorem C57_fft_circuit (f : features) (pl : plan) (tw : twisties) (buffer : list (Q * Q)) :
  w = 32 \/ w = 64 -> nightly_avx512 f = false \/ w = 32 -> 4 <= a -> length buffer = Z.to_nat (2 ^ (a - 1)) ->
  (0 <= phi <= / 32)%R -> (0 <= tau <= / 32)%R -> (INR (bl * S k) <= IZR (2 ^ 40))%R ->
  accurate_plan (Z.to_nat (2 ^ (a - 1))) phi pl -> accurate_twisties (Z.to_nat (2 ^ (a - 1))) tau tw ->
  (fft_error w (Z.to_nat (2 ^ (a - 1))) bb (bl * S k) phi tau <= IZR E)%R ->
  let B := fft_backend p f w pl tw buffer in
  exists wires, run_circuit p w t n k N kb kl ksk (boot_fft p w B k N bb (bsk_forward_fourier B bsk)) circuit inputs tt = Ret (wires, tt) /\
    decrypt_wires p w t big wires = Ret (clear_run t circuit messages).
Proof.
  intros Hw Hf Ha4 Lb Hphi Htau HT Hpl Htw HEr B.
  assert (EN : N = (2 * Z.to_nat (2 ^ (a - 1)))%nat).
  { unfold N. replace a with (Z.succ (a - 1)) at 1 by lia. rewrite Z.pow_succ_r by lia. rewrite Z2Nat.inj_mul by (pose proof (pow2_pos (a - 1)); lia). reflexivity. }
  assert (En : Z.to_nat (2 ^ (a - 1)) = Nat.pow 2 (Z.to_nat (a - 1))).
  { apply Nat2Z.inj. rewrite Nat2Z.inj_pow, !Z2Nat.id by (try apply Z.pow_nonneg; lia). reflexivity. }
  assert (T1 : (1 <= bl * S k)%nat) by (pose proof Hbd as (_ & B2 & _); cbn [level_count] in B2; clear - B2; nia).
  assert (HB : backend_ok w N bb (bl * S k) E B).
  { rewrite EN. apply (C55_backend p f w (Z.to_nat (a - 1)) (Z.to_nat (2 ^ (a - 1))) pl tw buffer phi tau bb (bl * S k) E); try assumption. clear - Ha4. lia. }
  exact (C57_circuit p w t n k a bb bl kb kl gauss_lwe gauss_glwe beta_lwe beta_glwe Ha Haw Hw8 Hn Hk Ht Hbd Hkd Hls Hgo Hgs Hbeta Hbytes1 Hbytes2
    gs1 gs1' gs2 gs2' g1 g1' g2 g2' g3 g3' s glwe bsk ksk Hg1 Hg2 Hg3 Es Eg Eb Ek messages inputs Hm Ei E eps W HE He1 He2 HW Hbudget circuit Hc B (bl * S k) HB (Nat.le_refl _)).
Qed.
End Keys.
Print Assumptions C57_fft_circuit.

(** The budget with the worst-case error of the FFT: 64-bit words, dimension 32, N = 128 and k = 1, one bit of message plus padding, bootstrap
    base 2^8 with 4 levels, keyswitch base 2^3 with 8 levels, noise of 2^14 and 2^34, weights of norm 2; transforms and factors accurate to 2^-50. *)
Example C57_fft_budget : let E := 2 ^ 44 in let eps := 32 * ep_error 64 8 1 128 4 1 (2 ^ 14) E in
  (fft_error 64 64 8 8 (/ IZR (2 ^ 50)) (/ IZR (2 ^ 50)) <= IZR E)%R /\ 2 ^ 14 <= eps /\
  2 ^ 64 * (32 + 1) + 4 * 128 * (2 * eps + (128 * 2 ^ (64 - 3 * 8 - 1) + 128 * 8 * 2 ^ (3 - 1) * 2 ^ 34)) < 2 ^ 64 * (128 / 2 ^ 1).
Proof.
  split; [|split; [vm_compute; discriminate|vm_compute; reflexivity]].
  unfold fft_error. rewrite !INR_IZR_INZ. cbn [Z.of_nat Pos.of_succ_nat Pos.succ]. cbn. lra.
Qed.
