(** * Properties C41 and C42: bit extraction and circuit bootstrap. *)
From Verif Require Import Base Word WordFacts DecompModel DecompProofs NegaRing PolySpec PolyModel PolyProofs RingSum
  LweSpec LweModel LweProofs LweTheorems GlweSpec GlweModel GlweProofs GlweTheorems GgswSpec GgswModel GgswTheorems ExtProdModel ExtProdSpec ExtProdProofs ExtProdTheorems
  RandomModel RandomProofs CsprngFamily NoiseBounds BootstrapSpec BootstrapModel BootstrapTheorems KeyswitchModel KeyswitchSpec KeyswitchProofs KeyswitchTheorems
  PackingProofs PackingTheorems SeededModel WopModel WopSpec WopTreeProofs WopTheorems WopBitsProofs WopCbsProofs.

(** ** The keyswitches and the bootstrap of the library *)
Lemma torus_dist_witness w x y B : 0 <= w -> torus_dist w x y <= B -> exists e, Z.abs e <= B /\ eqm (2 ^ w) y (x + e).
Proof.
  intros Hw H. unfold torus_dist in H. pose proof (pow2_pos w Hw) as Hp.
  pose proof (Z.mod_pos_bound (x - y) (2 ^ w) Hp). pose proof (Z.mod_pos_bound (y - x) (2 ^ w) Hp).
  destruct (Z.le_gt_cases ((y - x) mod 2 ^ w) ((x - y) mod 2 ^ w)) as [Hc|Hc].
  - exists ((y - x) mod 2 ^ w). split; [lia|]. transitivity (x + (y - x)); [apply eqm_eq; lia|]. unfold eqm. rewrite Z.add_mod_idemp_r by lia. reflexivity.
  - exists (- ((x - y) mod 2 ^ w)). split; [lia|]. transitivity (x - (x - y)); [apply eqm_eq; lia|].
    unfold eqm. change (eqm (2 ^ w) (x - (x - y)) (x + - ((x - y) mod 2 ^ w))). rewrite (eqm_mod (2 ^ w) (x - y)). apply eqm_eq. lia.
Qed.

Lemma lwe_keyswitches p w b l s_in s_out noise beta ksk : dec_wf w (Dec b l) -> ksk_encrypts w b l s_out s_in noise ksk -> binary s_in ->
  (forall i j, (i < length s_in)%nat -> (j < l)%nat -> Z.abs (noise i j) <= beta) ->
  keyswitches w s_in s_out (keyswitch_error w b (length s_in) l beta) (keyswitch_ciphertext p w b l (length s_out) ksk).
Proof.
  intros Hd Hk Hbin Hn after before La Wb.
  destruct (C30_error_bound p w b l s_out s_in noise beta ksk after before Hd Hk Hbin Hn Wb La) as (out & E & W & Hdist).
  destruct Hd as (H1 & H2 & H3 & H4). cbn [base_log level_count] in *.
  destruct (torus_dist_witness w _ _ _ ltac:(nia) Hdist) as (e & He & Hp). exists out, e. auto.
Qed.

Lemma nonzeros_le l : (nonzeros l <= length l)%nat.
Proof. unfold nonzeros. induction l as [|x l IH]; [reflexivity|]. cbn [filter]. destruct (negb (x =? 0)); cbn [length]; lia. Qed.

Lemma binary_big N key : binary_key N key -> binary (glwe_key_into_lwe_key key).
Proof.
  intros H. unfold glwe_key_into_lwe_key, binary. induction H as [|x key [_ Hx] Hk IH]; [constructor|]. cbn [concat]. apply Forall_app. split; assumption.
Qed.
Lemma length_big N key : Forall (fun s => length s = N) key -> length (glwe_key_into_lwe_key key) = (length key * N)%nat.
Proof. intros H. unfold glwe_key_into_lwe_key. induction H as [|x key Hx Hk IH]; [reflexivity|]. cbn [concat length]. rewrite app_length, IH, Hx. lia. Qed.
Lemma binary_key_lengths N key : binary_key N key -> Forall (fun s => length s = N) key.
Proof. intros H. eapply Forall_impl; [|exact H]. intros x Hx. apply Hx. Qed.

Lemma lut_const N x j : (0 < N)%nat -> (0 <= j < Z.of_nat N -> lut_at N (repeat x N) j = x) /\ (Z.of_nat N <= j < 2 * Z.of_nat N -> lut_at N (repeat x N) j = - x).
Proof.
  intros HN. unfold lut_at, coef.
  assert (Hn : forall i, 0 <= i < Z.of_nat N -> nth (Z.to_nat i) (repeat x N) 0 = x).
  { intros i Hi. rewrite (nth_indep _ _ x) by (rewrite repeat_length; lia). apply nth_repeat. }
  split; intros Hj.
  - rewrite Z.div_small, Z.mod_small by lia. cbn [Z.even]. apply Hn. lia.
  - replace (j / Z.of_nat N) with 1 by (apply Z.div_unique with (j - Z.of_nat N); lia). cbn [Z.even].
    rewrite Hn by (apply Z.mod_pos_bound; lia). reflexivity.
Qed.

Lemma ep_error_nonneg w d k N m beta E : dec_wf w d -> 0 <= beta -> 0 <= E -> 0 <= m -> 0 <= ep_error w (base_log d) k N (level_count d) m beta E.
Proof.
  intros (H1 & H2 & H3 & H4) Hb HE Hm. unfold ep_error.
  assert (0 <= 2 ^ (base_log d - 1)) by (apply Z.pow_nonneg; lia). assert (0 <= 2 ^ (w - base_log d * Z.of_nat (level_count d) - 1)) by (apply Z.pow_nonneg; lia).
  nia.
Qed.

Lemma phase_of_eqm w s c v : 0 <= w -> eqm (2 ^ w) (phase w s c) v -> phase w s c = v mod 2 ^ w.
Proof. intros Hw H. rewrite <- H, Z.mod_small by (apply phase_word; exact Hw). reflexivity. Qed.

(** ** Functional keyswitch of one ciphertext *)
(** The result is within the bound of P times the message, where [M] bounds the coefficients of P. *)
Theorem C32_keyswitch_error_bound : forall p w b l N key s (P : rp N) noise M beta pfpksk after before,
  dec_wf w (Dec b l) -> (0 < N)%nat -> gksk_encrypts w b l N key (s ++ [-1]) P noise pfpksk -> binary s ->
  0 <= beta -> 0 <= M -> rbound (2 ^ w) M P ->
  (forall i j, (i <= length s)%nat -> (j < l)%nat -> rbound (2 ^ w) beta (noise i j)) ->
  lwe_wf w (length s) before -> length after = S (length key) -> Forall (fun a => length a = N) after ->
  exists out,
    private_functional_keyswitch_ciphertext p w b l (length key) pfpksk after before = Ret out /\
    glwe_wf w (length key) N out /\
    rbound (2 ^ w) (Z.of_nat (S (length s)) * 2 ^ (w - b * Z.of_nat l - 1) * M + Z.of_nat (S (length s)) * (Z.of_nat l * (2 ^ (b - 1) * beta)))
      (rsub (gphase N key out) (rscal (phase w s before) P)).
Proof.
  intros p w b l N key s P noise M beta pfpksk after before Hd HN Hk Hbin Hbeta HM HPM Hnb Hct Ho Hof.
  pose proof Hd as (H1 & H2 & H3 & H4). cbn [base_log level_count] in *. assert (Hw : 0 < w) by nia.
  assert (Hk' : gksk_encrypts w b l N key (s ++ [-1]) (rscal 1 P) noise pfpksk).
  { eapply gksk_encrypts_ext; [|exact Hk]. symmetry. apply rscal_1. }
  destruct (C32_keyswitch p w b l N key s 1 P noise pfpksk after before Hd HN Hk' Hct Ho Hof) as (out & D & E & W & HD & Q).
  exists out. split; [exact E|]. split; [exact W|].
  set (r := 2 ^ (w - b * Z.of_nat l - 1)) in *. set (n := length s) in *.
  destruct (rounded_mask_error w b l s before Hd Hbin Hct) as (e1 & He1 & Ee1). fold n r in He1, Ee1.
  destruct (HD n (le_n n)) as (_ & _ & e2 & He2 & Ee2). fold r in He2.
  assert (El : nth n before 0 = last before 0).
  { destruct Hct as [Hcl _]. destruct (snoc_dec before _ Hcl) as (mask & body & -> & Hml). rewrite last_last, app_nth2 by (unfold n; lia).
    unfold n. rewrite Hml, Nat.sub_diag. reflexivity. }
  rewrite El in Ee2.
  set (C := closest_representable w (Dec b l) (last before 0)) in *.
  set (S1 := zsum n (fun i => closest_representable w (Dec b l) (nth i before 0) * nth i s 0)) in *.
  assert (Hph : eqm (2 ^ w) (C - S1) (phase w s before + (e1 + e2))).
  { rewrite Ee2. transitivity (last before 0 - S1 + e2); [apply eqm_eq; lia|]. rewrite Ee1. apply eqm_eq. lia. }
  eapply rbound_req.
  { symmetry. instantiate (1 := rsub (rscal (e1 + e2) P) (rsum (S n) (fun i => rsum l (fun j => rscal (D i j) (noise i j))))).
    rewrite Q. set (Y := rsum _ _). clearbody Y. intros x.
    change (eqm (2 ^ w) (1 * (C - S1) * rcoef P x - rcoef Y x - phase w s before * rcoef P x) ((e1 + e2) * rcoef P x - rcoef Y x)).
    rewrite Hph. apply eqm_eq. ring. }
  apply rbound_sub.
  - eapply rbound_le; [|apply rbound_scal; exact HPM]. apply Z.mul_le_mono_nonneg_r; [exact HM|]. lia.
  - apply gksk_noise_bound; auto.
    + intros i j Hi Hj. destruct (HD i ltac:(lia)) as (Hb & _). apply Hb. exact Hj.
    + intros i j Hi Hj. apply Hnb; [lia|exact Hj].
Qed.
Print Assumptions C32_keyswitch_error_bound.

Section Fft.
Context (p : profile) (w a : Z) (N := Z.to_nat (2 ^ a)) (B : backend) (d : decomposer) (key : list (list Z)) (beta : Z) (T : nat) (E : Z).
Hypothesis (Hd : dec_wf w d) (Ha : 0 <= a) (Haw : a + 2 < w) (Hkey : binary_key N key) (Hbeta : 0 <= beta)
  (HB : backend_ok w N (base_log d) T E B) (HE : 0 <= E) (HT : (level_count d * S (length key) <= T)%nat).
Notation k := (length key).
Notation bound := (ep_error w (base_log d) k N (level_count d) 1 beta E).
Notation big := (glwe_key_into_lwe_key key).
(** The LWE key encrypted by the bootstrap key; the margin [M] that modulus switching needs around 0 and half the torus. *)
Context (s : list Z) (bsk : list (list (list (list (list Z))))) (M : Z).
Hypothesis (Hs : Forall (fun x => x = 0 \/ x = 1) s) (Hbsk : bsk_encrypts w (base_log d) N (level_count d) key beta bsk s)
  (HM : 2 ^ w * (Z.of_nat (length s) + 1) <= 4 * Z.of_nat N * M).
Notation n := (length s).

Let HN : (0 < N)%nat.
Proof. pose proof (pow2_pos a Ha); unfold N; lia. Qed.
Let Hw0 : 0 <= w.
Proof. lia. Qed.
Let Hw2 : 2 < w.
Proof. lia. Qed.
Let HM0 : 0 <= M.
Proof. pose proof (pow2_pos w ltac:(lia)). nia. Qed.

Lemma fft_sign_bootstraps : sign_bootstraps w N (S k) s big M (Z.of_nat n * bound) (fft_bootstrap p w B N (base_log d) (bsk_forward_fourier B bsk)).
Proof using All.
  intros out lwe x Lo Wl Hx. unfold const_accumulator. replace (S k - 1)%nat with k by lia.
  rewrite (length_big N) in * by (apply binary_key_lengths; exact Hkey).
  destruct (C29_lookup p w a B d key beta T E Hd Ha Haw Hkey Hbeta HB HE HT bsk s (repeat x N) lwe out Hs Hbsk Wl) as (l & e & E1 & W & He & _ & Hval).
  - split; [apply repeat_length|]. apply Forall_forall. intros y Hy. apply repeat_spec in Hy. subst y. exact Hx.
  - exact Lo.
  - exists l, e. split; [exact E1|]. split; [exact W|]. split.
    { pose proof (ep_error_nonneg w d k N 1 beta E Hd Hbeta HE ltac:(lia)) as Hbd. pose proof (nonzeros_le (removelast lwe)) as Hnz.
      assert (Hrl : length (removelast lwe) = n). { destruct Wl as [Lw _]. destruct (snoc_dec lwe _ Lw) as (mk & bd & -> & L). rewrite removelast_last. exact L. }
      eapply Z.le_trans; [exact He|]. apply Z.mul_le_mono_nonneg_r; [exact Hbd|lia]. }
    pose proof (pow2_pos w ltac:(lia)) as Hp. pose proof (half_double w ltac:(lia)) as Hh.
    set (ph := phase w s lwe) in *. clearbody ph.
    split; intros Hph.
    + rewrite (Hval x); [apply eqm_mod|]. intros j Hj. apply (lut_const N x j HN). clear - Hj Hph HM Hp Hh HN. nia.
    + rewrite (Hval (- x)); [apply eqm_mod|]. intros j Hj. apply (lut_const N x j HN). clear - Hj Hph HM Hp Hh HN. nia.
Qed.

(** ** C41 *)
(** [m] is any integer encrypted with scaling 2^delta and noise at most [e0]: the [count] ciphertexts returned,
    under the LWE key [s], encrypt the bits count - 1, ..., 0 of [m], each at the top of the word, provided the noise of
    every bit but the last leaves a margin [M] below a quarter of the torus. *)
Theorem C41_extract_bits : forall b_ks l_ks noise_ks beta_ks ksk delta count m e0 err lwe outs,
  dec_wf w (Dec b_ks l_ks) -> ksk_encrypts w b_ks l_ks s big noise_ks ksk ->
  (forall i j, (i < k * N)%nat -> (j < l_ks)%nat -> Z.abs (noise_ks i j) <= beta_ks) ->
  0 < count -> 0 <= delta -> (1 < count -> 0 < delta) -> delta + count <= w ->
  (forall i, 0 <= i < count - 1 ->
     extract_error w delta e0 (Z.of_nat n * bound) (keyswitch_error w b_ks (k * N) l_ks beta_ks) i + M < 2 ^ (w - 2)) ->
  Z.of_nat (length outs) = count -> Forall (fun o => length o = S n) outs -> lwe_wf w (k * N) lwe ->
  phase w big lwe = (m * 2 ^ delta + err) mod 2 ^ w -> Z.abs err <= e0 ->
  exists res, fft_extract_bits p w B N (base_log d) (S k) b_ks l_ks n (bsk_forward_fourier B bsk) ksk delta count outs lwe = Ret res /\
    length res = length outs /\
    forall t o, nth_error res t = Some o -> let i := count - 1 - Z.of_nat t in
      lwe_wf w n o /\
      exists e, Z.abs e <= extract_error w delta e0 (Z.of_nat n * bound) (keyswitch_error w b_ks (k * N) l_ks beta_ks) i /\
        phase w s o = (Z.b2z (Z.testbit m i) * 2 ^ (w - 1) + e) mod 2 ^ w.
Proof using All.
  intros b_ks l_ks noise_ks beta_ks ksk delta count m e0 err lwe outs Hdk Hksk Hn Hc Hd0 Hd1 Hdc Hmar Lo Fo Wl Hph Herr.
  pose proof (length_big N key (binary_key_lengths N key Hkey)) as Lb.
  destruct Hd as (_ & _ & _ & Hw64). unfold fft_extract_bits.
  assert (Ln : length (bsk_forward_fourier B bsk) = n) by (unfold bsk_forward_fourier; rewrite map_length; apply (Forall2_len _ _ _ Hbsk)).
  rewrite Ln.
  destruct (extract_bits_ok p w N (S k) s big M (Z.of_nat n * bound) (keyswitch_error w b_ks (k * N) l_ks beta_ks)
     (keyswitch_ciphertext p w b_ks l_ks n ksk) (fft_bootstrap p w B N (base_log d) (bsk_forward_fourier B bsk))
     Hw2 Hw64 HM0) with (delta := delta) (count := count) (m := m) (e0 := e0) (outs := outs) (lwe := lwe) (err := err) as (res & E1 & L & H); try assumption.
  - rewrite <- Lb. apply (lwe_keyswitches p w b_ks l_ks big s noise_ks beta_ks ksk Hdk Hksk); [apply (binary_big N); exact Hkey|].
    intros i j Hi. apply Hn. rewrite <- Lb. exact Hi.
  - apply fft_sign_bootstraps.
  - rewrite Lb. f_equal. lia.
  - rewrite Lb. exact Wl.
  - rewrite Hph. apply eqm_mod.
  - exists res. split; [exact E1|]. split; [exact L|]. intros t o Ht. destruct (H t o Ht) as (W & e & He & Hp). set (i := count - 1 - Z.of_nat t) in *. split; [exact W|].
    exists e. split; [exact He|]. rewrite (phase_of_eqm w s o _ Hw0 Hp).
    f_equal. f_equal. f_equal.
    assert (Hi : 0 <= i). { unfold i. assert (Ht' : (t < length res)%nat) by (apply nth_error_Some; congruence). clear - Ht' L Lo. lia. }
    rewrite Z.testbit_spec' by exact Hi. reflexivity.
Qed.

(** ** C42 *)
(** The boolean shift: the low bit of the message, moved to 2^(w - b * level). *)
Theorem C42_homomorphic_shift : forall lwe out level b delta m err e0,
  0 <= delta < w -> 0 <= b -> 0 <= level -> b * level < w ->
  length out = S (k * N) -> lwe_wf w n lwe ->
  phase w s lwe = (m * 2 ^ delta + err) mod 2 ^ w -> Z.abs err <= e0 -> e0 * 2 ^ (w - delta - 1) + M < 2 ^ (w - 2) ->
  exists l e, fft_homomorphic_shift_boolean p w B N (base_log d) (S k) (bsk_forward_fourier B bsk) out lwe level b delta = Ret l /\
    lwe_wf w (k * N) l /\ Z.abs e <= Z.of_nat n * bound /\
    phase w big l = (m mod 2 * 2 ^ (w - b * level) + e) mod 2 ^ w.
Proof using All.
  intros lwe out level b delta m err e0 H1 H2 H3 H4 Lo Wl Hph Herr Hmar.
  pose proof (length_big N key (binary_key_lengths N key Hkey)) as Lb. destruct Hd as (_ & _ & _ & Hw64).
  destruct (homomorphic_shift_ok p w N (S k) s big M (Z.of_nat n * bound) (fft_bootstrap p w B N (base_log d) (bsk_forward_fourier B bsk))
    out lwe level b delta m err e0) as (l & e & E1 & W & He & Hp); try assumption.
  - apply fft_sign_bootstraps.
  - rewrite Lb. exact Lo.
  - rewrite Hph. apply eqm_mod.
  - rewrite Lb in W. exists l, e. split; [exact E1|]. split; [exact W|]. split; [exact He|].
    apply phase_of_eqm; [exact Hw0|exact Hp].
Qed.

Context (b_pf : Z) (l_pf N_pf : nat) (key_pf : list (list Z)) (beta_pf : Z) (keys : list (list (list (list (list Z))))).
Hypothesis (Hd_pf : dec_wf w (Dec b_pf l_pf)) (HN_pf : (0 < N_pf)%nat) (Hkey_pf : binary_key N_pf key_pf) (Hbeta_pf : 0 <= beta_pf)
  (Hkeys : cbs_keys_encrypt w b_pf l_pf N_pf key_pf big beta_pf keys).
Notation k_pf := (length key_pf).
Notation err_cbs := (cbs_error w b_pf (k * N) l_pf beta_pf (Z.of_nat n * bound)).

(** The GGSW ciphertext produced encrypts the low bit of the message, with the noise of one bootstrap and one
    functional keyswitch. *)
Theorem C42_circuit_bootstrap : forall lwe ggsw_out b delta m err e0,
  0 <= delta < w -> dec_wf w (Dec b (length ggsw_out)) ->
  Forall (fun lev => length lev = S k_pf /\ Forall (fun o => length o = S k_pf /\ Forall (fun q => length q = N_pf) o) lev) ggsw_out ->
  lwe_wf w n lwe -> phase w s lwe = (m * 2 ^ delta + err) mod 2 ^ w -> Z.abs err <= e0 -> e0 * 2 ^ (w - delta - 1) + M < 2 ^ (w - 2) ->
  exists G, fft_circuit_bootstrap_boolean p w B N (base_log d) (S k) (bsk_forward_fourier B bsk) b_pf l_pf (k * N) N_pf k_pf N_pf (S k_pf)
      lwe ggsw_out b delta keys = Ret G /\
    ggsw_wf w k_pf N_pf (length ggsw_out) G /\
    exists noise, ggsw_encrypts w b N_pf key_pf (m mod 2) noise G /\
      forall j i, (j < length ggsw_out)%nat -> (i <= k_pf)%nat -> rbound (2 ^ w) err_cbs (R N_pf (noise (S j) i)).
Proof using All.
  intros lwe ggsw_out b delta m err e0 Hdl (Hb1 & Hl1 & Hbl & Hw64) Fl Wl Hph Herr Hmar. cbn [base_log level_count] in *.
  pose proof (length_big N key (binary_key_lengths N key Hkey)) as Lb.
  set (P := fun u => if Nat.ltb u k_pf then ropp (R N_pf (nth u key_pf [])) else rone N_pf).
  set (Epf := Z.of_nat (S (k * N)) * 2 ^ (w - b_pf * Z.of_nat l_pf - 1) * 1 + Z.of_nat (S (k * N)) * (Z.of_nat l_pf * (2 ^ (b_pf - 1) * beta_pf))).
  assert (HPb : forall u, (u <= k_pf)%nat -> rbound (2 ^ w) 1 (P u)).
  { intros u Hu. unfold P. destruct (Nat.ltb_spec u k_pf).
    - apply rbound_opp. unfold binary_key in Hkey_pf. rewrite Forall_forall in Hkey_pf. destruct (Hkey_pf (nth u key_pf [])) as [Lu Fu]; [apply nth_In; assumption|].
      apply rbound_R; [exact Lu|]. eapply Forall_impl; [|exact Fu]. intros x Hx. exists x. split; [reflexivity|destruct Hx; lia].
    - intros x Hx. exists (rcoef (rone N_pf) x). split; [reflexivity|]. unfold rone. rewrite rcoef_rconst by exact Hx. destruct (x =? 0); lia. }
  assert (HP : forall u kk, nth_error keys u = Some kk ->
     multiplies w N_pf key_pf big (P u) Epf (private_functional_keyswitch_ciphertext p w b_pf l_pf k_pf kk)).
  { intros u kk Hu out lw Lo Fo Wlw. destruct Hkeys as [Lk Hk]. destruct (Hk u kk Hu) as (noise & Henc & Hn).
    assert (Hu' : (u <= k_pf)%nat) by (assert ((u < length keys)%nat) by (apply nth_error_Some; congruence); lia).
    destruct (C32_keyswitch_error_bound p w b_pf l_pf N_pf key_pf big (P u) noise 1 beta_pf kk out lw) as (res & E1 & W & Hr); try assumption.
    - apply (binary_big N). exact Hkey.
    - lia.
    - apply HPb. exact Hu'.
    - exists res. split; [exact E1|]. split; [exact W|]. rewrite Lb in Hr. exact Hr. }
  unfold fft_circuit_bootstrap_boolean.
  destruct (circuit_bootstrap_ok p w N (S k) s big M (Z.of_nat n * bound) (fft_bootstrap p w B N (base_log d) (bsk_forward_fourier B bsk)) Hw2 Hw64 HM0 fft_sign_bootstraps
     (private_functional_keyswitch_ciphertext p w b_pf l_pf k_pf) N_pf key_pf Epf keys P 1 HP ltac:(apply Hkeys) ltac:(lia) HPb b delta m err e0 lwe)
    with (levs := ggsw_out) as (G & E1 & LG & FG & HG); try assumption; try lia.
  - rewrite Hph. apply eqm_mod.
  - rewrite Lb in E1. exists G. split; [exact E1|]. split.
    { split; [exact LG|]. apply Forall_forall. intros lev Hlev. split; [rewrite Forall_forall in FG; apply FG; exact Hlev|].
      apply Forall_forall. intros row Hrow. apply In_nth_error in Hlev. destruct Hlev as [j Hj]. apply In_nth_error in Hrow. destruct Hrow as [u Hu].
      apply (HG j lev u row Hj Hu). }
    set (V := fun j i => ggsw_row_value w b N_pf key_pf (m mod 2) j i).
    assert (HV : forall j u, (u <= k_pf)%nat -> req (2 ^ w) (rscal (m mod 2 * 2 ^ (w - b * Z.of_nat j)) (P u)) (V j u)).
    { intros j u Hu. unfold V, P, ggsw_row_value. destruct (Nat.ltb_spec u k_pf) as [Hlt|Hge].
      - rewrite (nth_error_nth' key_pf [] Hlt). intros x. apply eqm_eq.
        set (c := m mod 2 * _). change (c * - rcoef (R N_pf (nth u key_pf [])) x = - c * rcoef (R N_pf (nth u key_pf [])) x). ring.
      - replace (nth_error key_pf u) with (@None (list Z)) by (symmetry; apply nth_error_None; exact Hge).
        apply req_coefs. intros x Hx. apply eqm_eq. set (c := m mod 2 * _). change (c * rcoef (rone N_pf) x = rcoef (rconst N_pf c) x).
        unfold rone. rewrite !rcoef_rconst by exact Hx. destruct (x =? 0); ring. }
    set (noise := fun j i => coefs (rsub (gphase N_pf key_pf (nth i (nth (j - 1) G []) [])) (V j i))).
    exists noise. split.
    + intros j lev i row Hj Hi. unfold noise. rewrite <- R_coefs_list. replace (S j - 1)%nat with j by lia.
      rewrite (nth_error_nth _ _ _ Hj), (nth_error_nth _ _ _ Hi). fold (V (S j) i). intros x. apply eqm_eq. cbn. ring.
    + intros j i Hj Hi. unfold noise. eapply rbound_req; [apply R_coefs_list|]. replace (S j - 1)%nat with j by lia.
      assert (Hj' : nth_error G j = Some (nth j G [])) by (apply nth_error_nth'; lia).
      assert (Hi' : nth_error (nth j G []) i = Some (nth i (nth j G []) [])).
      { apply nth_error_nth'. rewrite Forall_forall in FG. rewrite (FG (nth j G [])) by (apply nth_In; lia). lia. }
      destruct (HG _ _ _ _ Hj' Hi') as [_ Hr]. eapply rbound_le; [|eapply rbound_req; [|exact Hr]].
      * unfold Epf, cbs_error. rewrite !Z.mul_1_r. lia.
      * intros x. change (eqm (2 ^ w) (rcoef (gphase N_pf key_pf (nth i (nth j G []) [])) x - rcoef (rscal (m mod 2 * 2 ^ (w - b * Z.of_nat (S j))) (P i)) x)
          (rcoef (gphase N_pf key_pf (nth i (nth j G []) [])) x - rcoef (V (S j) i) x)). rewrite (HV (S j) i Hi x). reflexivity.
Qed.
(** A list of circuit bootstraps, each overwriting the same buffer *)
Lemma cbs_vp_ggsws_ok b l e0 : dec_wf w (Dec b l) -> e0 + M < 2 ^ (w - 2) -> forall lwes bits buf,
  Forall2 (fun lwe bit => lwe_wf w n lwe /\ exists err, Z.abs err <= e0 /\ phase w s lwe = (bit * 2 ^ (w - 1) + err) mod 2 ^ w) lwes bits ->
  Forall (fun x => x = 0 \/ x = 1) bits ->
  length buf = l ->
  Forall (fun lev => length lev = S k_pf /\ Forall (fun o => length o = S k_pf /\ Forall (fun q => length q = N_pf) o) lev) buf ->
  exists Gs, cbs_vp_ggsws p w (fft_bootstrap p w B N (base_log d) (bsk_forward_fourier B bsk)) (private_functional_keyswitch_ciphertext p w b_pf l_pf k_pf)
      (fill_with_forward_fourier B) N (S k) (k * N) N_pf k_pf b keys buf lwes = Ret (bsk_forward_fourier B Gs) /\
    bsk_encrypts w b N_pf l key_pf err_cbs Gs bits.
Proof using All.
  intros Hdc Hmar. induction lwes as [|lwe lwes IH]; intros bits buf Hl Hbits Lb Fb; inversion Hl as [|lwe' bit lwes' bits' Hlwe Hrest E1 E2]; subst.
  - exists []. split; [reflexivity|constructor].
  - destruct Hlwe as (Wl & err & Herr & Hph). cbn [cbs_vp_ggsws].
    destruct (C42_circuit_bootstrap lwe buf b (w - 1) bit err e0) as (G & E1 & WG & noise & Henc & Hn); try assumption.
    + clear - Hw2. lia.
    + replace (w - (w - 1) - 1) with 0 by (clear; lia). rewrite Z.pow_0_r, Z.mul_1_r. exact Hmar.
    + unfold fft_circuit_bootstrap_boolean in E1. rewrite E1. cbn [obind].
      destruct (IH bits' G Hrest (Forall_inv_tail Hbits)) as (Gs & E2 & HGs).
      * apply WG.
      * destruct WG as [_ FG]. eapply Forall_impl; [|exact FG]. intros lev [Ll Fl]. split; [exact Ll|].
        eapply Forall_impl; [|exact Fl]. intros o [Lo Fo]. split; [exact Lo|]. eapply Forall_impl; [|exact Fo]. intros q Hq. apply Hq.
      * rewrite E2. cbn [obind]. exists (G :: Gs). split; [reflexivity|]. constructor; [|exact HGs].
        split; [exact WG|]. exists noise. split; [|exact Hn].
        replace bit with (bit mod 2) by (pose proof (Forall_inv Hbits) as Hb; cbn in Hb; destruct Hb as [-> | ->]; reflexivity). exact Henc.
Qed.

(** Circuit bootstrap and vertical packing from LWE ciphertexts of bits, most significant first: output number [t] decrypts to the
    entry, in the [t]-th of the equal parts of the table, at the number written by the bits. *)
Theorem C42_circuit_bootstrap_vertical_packing : forall a_pf b l T_pf E_pf r lwes bits big_lut outs e0,
  N_pf = Z.to_nat (2 ^ a_pf) -> 1 <= a_pf <= 63 -> a_pf + 2 < w -> dec_wf w (Dec b l) ->
  backend_ok w N_pf b T_pf E_pf B -> 0 <= E_pf -> (l * S k_pf <= T_pf)%nat ->
  (k * N = k_pf * N_pf)%nat ->
  w = 64 \/ (p = Release /\ w < 64 /\ r = 0%nat) ->
  Forall (fun x => x = 0 \/ x = 1) bits -> Z.of_nat (length bits) = Z.of_nat r + a_pf -> Z.of_nat (length bits) < 2 ^ 63 ->
  Forall2 (fun lwe bit => lwe_wf w n lwe /\ exists err, Z.abs err <= e0 /\ phase w s lwe = (bit * 2 ^ (w - 1) + err) mod 2 ^ w) lwes bits ->
  e0 + M < 2 ^ (w - 2) ->
  Forall (poly_wf w N_pf) big_lut -> length big_lut = (length outs * 2 ^ r)%nat -> (0 < length outs)%nat -> Z.of_nat (length big_lut) < 2 ^ 64 ->
  Forall (fun o => length o = S (k * N)) outs ->
  exists res, fft_circuit_bootstrap_boolean_vertical_packing p w B N (base_log d) (S k) (bsk_forward_fourier B bsk) b_pf l_pf (k * N) N_pf k_pf
      big_lut outs lwes keys l b = Ret res /\
    length res = length outs /\
    forall t o, nth_error res t = Some o -> lwe_wf w (k * N) o /\
      exists e, Z.abs e <= Z.of_nat (length bits) * ep_error w b k_pf N_pf l 1 err_cbs E_pf /\
        phase w (glwe_key_into_lwe_key key_pf) o
          = (nth (t * (2 ^ r * N_pf) + Z.to_nat (bits_value bits)) (concat big_lut) 0 + e) mod 2 ^ w.
Proof using All.
  intros a_pf b l T_pf E_pf r lwes bits big_lut outs e0 EN Hapf Hapw Hdc HBpf HEpf HTpf Hdim Hcase Hbits Hlen Hlen63 Hlwes Hmar Fl Ll Lo0 Ll64 Fo.
  unfold fft_circuit_bootstrap_boolean_vertical_packing, circuit_bootstrap_boolean_vertical_packing.
  pose proof (Forall2_len _ _ _ Hlwes) as Lbits.
  replace (negb (Nat.eqb (length lwes) 0)) with true by (symmetry; apply negb_true_iff, Nat.eqb_neq; clear - Lbits Hlen Hapf; lia). rewrite debug_true. cbn [obind].
  replace (forallb _ outs) with true.
  2: { symmetry. apply forallb_forall. intros o Ho. rewrite Forall_forall in Fo. rewrite (Fo o Ho). apply Nat.eqb_eq. clear. lia. }
  rewrite debug_true. cbn [obind].
  assert (Hev : Nat.even N_pf = true).
  { rewrite EN. replace a_pf with (1 + (a_pf - 1)) by (clear; lia). rewrite Z.pow_add_r by (clear - Hapf; lia). rewrite Z2Nat.inj_mul by (try apply Z.pow_nonneg; clear; lia).
    rewrite Nat.even_mul. reflexivity. }
  rewrite Hev. cbn [assert_ obind].
  destruct (cbs_vp_ggsws_ok b l e0 Hdc Hmar lwes bits (repeat (repeat (repeat (repeat 0 N_pf) (S k_pf)) (S k_pf)) l) Hlwes Hbits) as (Gs & -> & HGs).
  { apply repeat_length. }
  { apply Forall_forall. intros x Hx. apply repeat_spec in Hx. subst x. split; [apply repeat_length|].
    apply Forall_forall. intros x Hx. apply repeat_spec in Hx. subst x. split; [apply repeat_length|].
    apply Forall_forall. intros x Hx. apply repeat_spec in Hx. subst x. apply repeat_length. }
  cbn [obind]. replace (negb (Nat.eqb (length outs) 0)) with true by (symmetry; apply negb_true_iff, Nat.eqb_neq; clear - Lo0; lia). cbn [assert_ obind].
  assert (Hsm : (length big_lut / length outs = 2 ^ r)%nat) by (rewrite Ll, Nat.mul_comm; apply Nat.div_mul; clear - Lo0; lia).
  rewrite Hsm. assert (H2r : (2 ^ r <> 0)%nat) by (apply Nat.pow_nonzero; clear; lia).
  replace (negb (Nat.eqb (2 ^ r) 0)) with true by (symmetry; apply negb_true_iff, Nat.eqb_neq; exact H2r). cbn [assert_ obind].
  replace (Nat.eqb (length big_lut mod 2 ^ r) 0) with true by (symmetry; apply Nat.eqb_eq; rewrite Ll; apply Nat.mod_mul; exact H2r). rewrite debug_true. cbn [obind].
  destruct (chunks_spec (2 ^ r) (length outs) big_lut) as (Lc & Fc & Ec); [clear - H2r; lia|exact Ll|].
  set (luts := chunks (2 ^ r) big_lut) in *. rewrite <- Ec. assert (Fw : Forall (Forall (poly_wf w N_pf)) luts).
  { apply Forall_forall. intros c Hc. apply Forall_forall. intros q Hq. rewrite Forall_forall in Fl. apply Fl. rewrite <- Ec. apply in_concat. exists c. auto. }
  assert (Hsmall : Z.of_nat (2 ^ r) < 2 ^ 64) by (clear - Ll Ll64 Lo0; nia).
  clearbody luts. clear Ec Fl Ll Hsm Ll64 big_lut Lo0.
  revert luts Lc Fc Fw. induction Fo as [|out outs Lout Fo IH]; intros [|lut luts] Lc Fc Fw; try discriminate.
  { exists []. split; [reflexivity|]. split; [reflexivity|]. intros [|t]; discriminate. }
  cbn [ozip_update].
  assert (Herr0 : 0 <= err_cbs).
  { unfold cbs_error. pose proof (ep_error_nonneg w d k N 1 beta E Hd Hbeta HE ltac:(clear; lia)) as H0.
    assert (0 <= 2 ^ (w - b_pf * Z.of_nat l_pf - 1)) by (apply Z.pow_nonneg; clear; lia). assert (0 <= 2 ^ (b_pf - 1)) by (apply Z.pow_nonneg; clear; lia).
    clear - H0 H H1 Hbeta_pf. assert (0 <= Z.of_nat l_pf * (2 ^ (b_pf - 1) * beta_pf)) by (apply Z.mul_nonneg_nonneg; [lia|apply Z.mul_nonneg_nonneg; assumption]).
    assert (0 <= Z.of_nat n * bound) by (apply Z.mul_nonneg_nonneg; [lia|exact H0]). set (x := Z.of_nat n * bound) in *. set (y := Z.of_nat l_pf * _) in *. set (z := 2 ^ (w - _ - 1)) in *.
    clearbody x y z. nia. }
  destruct (C40_table_lookup p w a_pf B (Dec b l) key_pf err_cbs T_pf E_pf) with (ggsws := Gs) (bits := bits) (luts := lut) (out := out) (r := r)
    as (o & e & E1 & Wo & He & Hp); rewrite <- ?EN; cbn [base_log level_count] in *; try assumption; try (clear - Hapf; lia).
  { rewrite (Forall_inv Fc). exact Hsmall. }
  { exact (Forall_inv Fw). }
  { exact (Forall_inv Fc). }
  { rewrite <- Hdim. exact Lout. }
  rewrite <- EN in E1, Wo, He. unfold fft_vertical_packing in E1. rewrite E1. cbn [obind].
  destruct (IH luts) as (res & E2 & L2 & H2); [cbn in Lc; clear - Lc; lia|exact (Forall_inv_tail Fc)|exact (Forall_inv_tail Fw)|].
  rewrite E2. cbn [obind]. exists (o :: res). split; [reflexivity|]. split; [cbn; rewrite L2; reflexivity|].
  assert (Llut : length (concat lut) = (2 ^ r * N_pf)%nat).
  { pose proof (Forall_inv Fc) as L1. pose proof (Forall_inv Fw) as F1. clear - L1 F1. cbn beta in L1. rewrite <- L1. clear L1.
    induction F1 as [|x lut [Lx _] F IHl]; [reflexivity|]. cbn [concat length]. rewrite app_length, IHl, Lx. lia. }
  assert (Hval : 0 <= bits_value bits < 2 ^ Z.of_nat (length bits)) by (apply bits_value_range; exact Hbits).
  assert (Hval' : (Z.to_nat (bits_value bits) < 2 ^ r * N_pf)%nat).
  { rewrite Hlen, Z.pow_add_r in Hval by (clear - Hapf; lia). apply Nat2Z.inj_lt. rewrite Nat2Z.inj_mul, Nat2Z.inj_pow, EN, !Z2Nat.id by (try apply Z.pow_nonneg; clear - Hval; lia).
    apply Hval. }
  intros [|t] o' Ht; cbn in Ht.
  - injection Ht as <-. split; [rewrite Hdim; exact Wo|]. exists e. split; [exact He|]. rewrite Hp. cbn [Nat.mul Nat.add concat].
    rewrite concat_app, app_nth1; [reflexivity|]. rewrite Llut. exact Hval'.
  - destruct (H2 t o' Ht) as (W' & e' & He' & Hp'). split; [exact W'|]. exists e'. split; [exact He'|]. rewrite Hp'. cbn [concat]. rewrite concat_app, app_nth2 by (rewrite Llut; clear; lia).
    rewrite Llut. do 3 f_equal. clear. lia.
Qed.
End Fft.
Print Assumptions C41_extract_bits.

(** When the noise of the bit stays below a quarter of the torus, rounding the phase gives the bit. *)
Theorem C41_decoded : forall w phs bit e R, 2 < w -> phs = (Z.b2z bit * 2 ^ (w - 1) + e) mod 2 ^ w -> Z.abs e <= R -> R < 2 ^ (w - 2) ->
  (phs + 2 ^ (w - 2)) mod 2 ^ w / 2 ^ (w - 1) = Z.b2z bit.
Proof.
  intros w phs bit e R Hw -> He HR. rewrite Z.add_mod_idemp_l by (pose proof (pow2_pos w ltac:(lia)); lia).
  pose proof (half_double w ltac:(lia)) as D1. pose proof (quarter_double w ltac:(lia)) as D2.
  pose proof (pow2_pos (w - 2) ltac:(lia)) as Hp. set (q := 2 ^ (w - 2)) in *. rewrite D1, D2. clearbody q.
  destruct bit; cbn [Z.b2z].
  - rewrite Z.mod_small by lia. symmetry. apply Z.div_unique with (e + q); lia.
  - rewrite Z.mod_small by lia. apply Z.div_small. lia.
Qed.

Print Assumptions C41_decoded.
Print Assumptions C42_homomorphic_shift.
Print Assumptions C42_circuit_bootstrap.
Print Assumptions C42_circuit_bootstrap_vertical_packing.

(** The functional keyswitch keys made by key generation meet the hypothesis of the theorems above, with the bound of the sampler. *)
Theorem C42_generated_keys : forall p w gauss b l N s key g keys g' beta,
  dec_wf w (Dec b l) -> w mod 8 = 0 -> (0 < N)%nat -> gauss_ok w gauss -> gauss_small w beta gauss -> gkey_ok p N key -> egen_ok g ->
  generate_new_cbs_pfpks_keys p w gauss b l N s key g = Ret (keys, g') ->
  cbs_keys_encrypt w b l N key s beta keys.
Proof.
  intros p w gauss b l N s key g keys g' beta Hd Hw8 HN Hga Hsm Hk Hg E.
  pose proof Hd as (H1 & H2 & H3 & H4). cbn [base_log level_count] in *.
  destruct (C32_circuit_bootstrap_keys p w gauss b l N s key g keys g' Hd Hw8 HN Hga Hk Hg E) as (children & Ef & Lk & Lc & H).
  split; [exact Lk|]. intros u ksk Hu.
  assert (Hul : (u < length children)%nat) by (rewrite Lc, <- Lk; apply nth_error_Some; congruence).
  destruct (nth_error children u) as [child|] eqn:Ec; [|apply nth_error_None in Ec; lia].
  destruct (H u ksk child Hu Ec) as (gcs & noise & g1 & Eg & Hn & Henc).
  exists (fun i j => R N (nth j (noise i) [])). split; [exact Henc|]. intros i j Hi Hj.
  unfold fork_pfpksk_to_pfpksk_chunks in Eg.
  destruct (mask_bytes_per_pfpksk_chunk p w _ _ _) as [mb|]; [|discriminate]. cbn [obind] in Eg.
  destruct (noise_bytes_per_pfpksk_chunk p _ _) as [nb|]; [|discriminate]. cbn [obind] in Eg.
  apply eg_fork_children in Eg. destruct Eg as [Lg _]. rewrite Nat2Z.id in Lg.
  destruct (nth_error gcs i) as [gc|] eqn:Ei; [|apply nth_error_None in Ei; lia].
  destruct (Hn i gc Ei) as (ng & En). apply (noise_polys_small w beta gauss N ltac:(nia) Hsm) in En. apply En. exact Hj.
Qed.
Print Assumptions C42_generated_keys.

(** ** Where the claims fail *)
(** Extracting at least two bits with a scaling factor of 2^0 computes [delta_log - 1]: checked builds panic, for every keyswitch,
    bootstrap and ciphertext. *)
Theorem C41_delta_zero_refuted : forall w ks pbs N gs n_ks n_bsk count outs lwe, 1 < count -> outs <> [] ->
  extract_bits Debug w pbs ks N gs n_ks n_bsk 0 count outs lwe = Panic.
Proof.
  intros w ks pbs N gs n_ks n_bsk count outs lwe Hc Ho. unfold extract_bits. cbn [debug_assert].
  destruct (assert_ _) as [[]|]; [|reflexivity]. cbn [obind]. destruct (assert_ _) as [[]|]; [|reflexivity]. cbn [obind].
  destruct (assert_ _) as [[]|]; [|reflexivity]. cbn [obind]. destruct (assert_ _) as [[]|]; [|reflexivity]. cbn [obind].
  destruct (assert_ _) as [[]|]; [|reflexivity]. cbn [obind].
  destruct (rev outs) as [|out outs'] eqn:Er; [apply (f_equal (@rev _)) in Er; rewrite rev_involutive in Er; contradiction|].
  cbn [extract_loop]. destruct (plain _ _ _) as [x|]; [|reflexivity]. cbn [obind]. destruct (plain _ _ _) as [y|]; [|reflexivity]. cbn [obind].
  destruct (plain _ _ _) as [z|]; [|reflexivity]. cbn [obind]. destruct (omap _ _) as [sh|]; [|reflexivity]. cbn [obind].
  destruct (ks _ _) as [kb|]; [|reflexivity]. cbn [obind]. destruct (copy_slice _ _) as [o|]; [|reflexivity]. cbn [obind].
  destruct (plain Debug usize_bits (count - 1)) as [st|] eqn:Est; [|reflexivity]. cbn [obind].
  unfold plain in Est. destruct ((0 <=? count - 1) && (count - 1 <? 2 ^ usize_bits)); [|discriminate]. injection Est as <-.
  destruct (Z.eqb_spec 0 (count - 1)); [lia|]. destruct (shl_ _ _ _ _) as [q|]; [|reflexivity]. cbn [obind].
  destruct (add_to_body _ _ _) as [kb2|]; [|reflexivity]. reflexivity.
Qed.
Print Assumptions C41_delta_zero_refuted.

(** A GGSW ciphertext whose decomposition uses the whole word computes [w - 1 - base_log * level] at its last level: checked builds
    panic, for every bootstrap, functional keyswitch and input. *)
Lemma shift_full_panics w pbs N gs out lwe level b delta : b * level = w -> homomorphic_shift_boolean Debug w pbs N gs out lwe level b delta = Panic.
Proof.
  intros Hb. unfold homomorphic_shift_boolean.
  destruct (plain _ _ _) as [x|]; [|reflexivity]. cbn [obind]. destruct (plain _ _ _) as [y|]; [|reflexivity]. cbn [obind].
  destruct (shl_ _ _ _ _) as [f|]; [|reflexivity]. cbn [obind]. destruct (shl_ _ _ _ _) as [q|]; [|reflexivity]. cbn [obind].
  destruct (add_to_body _ _ _) as [sh|]; [|reflexivity]. cbn [obind].
  destruct (plain Debug usize_bits (b * level)) as [e|] eqn:Ee; [|reflexivity]. cbn [obind].
  unfold plain in Ee. destruct (_ && _); [|discriminate]. injection Ee as <-. rewrite Hb.
  replace (w - 1 - w) with (-1) by lia. reflexivity.
Qed.
Theorem C42_full_decomposition_refuted : forall w pbs PF (pfks : PF -> list (list Z) -> list Z -> outcome (list (list Z))) N gs No go pf_in pf_N pf_k lwe ggsw b delta keys,
  ggsw <> [] -> b * Z.of_nat (length ggsw) = w ->
  circuit_bootstrap_boolean Debug w pbs pfks N gs No go pf_in pf_N pf_k lwe ggsw b delta keys = Panic.
Proof.
  intros w pbs PF pfks N gs No go pf_in pf_N pf_k lwe ggsw b delta keys Hne Hb. unfold circuit_bootstrap_boolean. cbn [debug_assert].
  do 6 (destruct (assert_ _) as [[]|]; [|reflexivity]; cbn [obind]).
  assert (H : forall count level outs buf, (0 < count)%nat -> b * (level + Z.of_nat count - 1) = w ->
     cbs_levels Debug w pbs pfks N gs lwe b delta keys count level outs buf = Panic).
  { induction count as [|count IH]; intros level outs buf Hc Hl; [lia|]. cbn [cbs_levels]. destruct count as [|count].
    - rewrite shift_full_panics by (rewrite <- Hl; f_equal; lia). reflexivity.
    - destruct (homomorphic_shift_boolean _ _ _ _ _ _ _ _ _ _) as [bf|]; [|reflexivity]. cbn [obind].
      destruct (cbs_keys _ _ _ _) as [[dn os]|]; [|reflexivity]. cbn [obind]. rewrite IH; [reflexivity|lia|]. rewrite <- Hl. f_equal. lia. }
  rewrite H; [reflexivity| |].
  - destruct ggsw; [contradiction|cbn; lia].
  - rewrite <- Hb. f_equal. lia.
Qed.
Print Assumptions C42_full_decomposition_refuted.

(** The keyswitch keys made by key generation meet the hypothesis of C41, with the bound of the sampler. *)
Theorem C41_generated_key : forall p w gauss b l s key g ksk g' beta,
  dec_wf w (Dec b l) -> w mod 8 = 0 -> safe_key p key -> egen_ok g -> gauss_small w beta gauss -> 0 <= beta ->
  generate_new_lwe_keyswitch_key p w gauss b l s key g = Ret (ksk, g') ->
  exists noise, ksk_encrypts w b l key s noise ksk /\ forall i j, (i < length s)%nat -> (j < l)%nat -> Z.abs (noise i j) <= beta.
Proof.
  intros p w gauss b l s key g ksk g' beta Hd Hw8 Hk Hg Hsm Hbeta E.
  destruct (C30_generated_key p w gauss b l s key g ksk g' Hd Hw8 Hk Hg E) as (es & Ee & Les & Hl & Hrows).
  apply (generate_gaussian_small w beta gauss Hsm) in Ee.
  exists (fun i j => sgn w (nth (i * l + j) es 0)). split.
  - split; [exact Hl|]. intros i block Hi. destruct (Hrows i block Hi) as [Lb H]. split; [exact Lb|]. intros j row Hj.
    destruct (H j row Hj) as [W Hp]. split; [exact W|]. rewrite Hp.
    change (eqm (2 ^ w) (nth i s 0 * 2 ^ (w - b * (Z.of_nat j + 1)) + nth (i * l + j) es 0) (nth i s 0 * 2 ^ (w - b * (Z.of_nat j + 1)) + sgn w (nth (i * l + j) es 0))).
    rewrite sgn_eqm. reflexivity.
  - intros i j Hi Hj. rewrite Forall_forall in Ee. apply Ee, nth_In. rewrite Les. nia.
Qed.
Print Assumptions C41_generated_key.

(** ** A concrete case: 64-bit words, LWE key (1, 1), polynomials of size 8, exact backend *)
Definition demo_gen8 : egen := EG (BG (fun i => (7 * i + 3) mod 256) 0 100000) (BG (fun i => (i * i + 3 * i + 3) mod 251) 0 10000000).
Definition demo_key8 : list (list Z) := [[1; 0; 1; 1; 0; 1; 0; 0]].
Definition demo_bsk8 : list (list (list (list (list Z)))) :=
  match fill_with_new_bootstrap_key Debug 64 demo_gauss_word demo_key8 8 3 6 (repeat (ggsw_allocate 8 2 3) 2) [1; 1] demo_gen8 with
  | Ret (b, _) => b | Panic => [] end.
Definition demo_ksk8 : list (list (list Z)) :=
  match generate_new_lwe_keyswitch_key Debug 64 demo_gauss_word 4 3 (concat demo_key8) [1; 1] demo_gen8 with
  | Ret (b, _) => b | Panic => [] end.
Definition demo_pfks8 : list (list (list (list (list Z)))) :=
  match generate_new_cbs_pfpks_keys Debug 64 demo_gauss_word 6 3 8 (concat demo_key8) demo_key8 demo_gen8 with
  | Ret (b, _) => b | Panic => [] end.

Lemma demo_key8_ok : binary_key (Z.to_nat (2 ^ 3)) demo_key8.
Proof. apply Forall_cons; [split; [reflexivity|repeat (apply Forall_cons; [lia|]); apply Forall_nil]|apply Forall_nil]. Qed.
Lemma demo_key8_gkey : gkey_ok Debug 8 demo_key8.
Proof. split; [repeat constructor|]. right. repeat (constructor; [bin|]). constructor. Qed.
Lemma demo_gen8_ok : egen_ok demo_gen8.
Proof. intros q. cbn. lia. Qed.

Lemma demo_bsk8_ok : bsk_encrypts 64 6 8 3 demo_key8 255 demo_bsk8 [1; 1].
Proof.
  unfold demo_bsk8.
  destruct (fill_with_new_bootstrap_key Debug 64 demo_gauss_word demo_key8 8 3 6 (repeat (ggsw_allocate 8 2 3) 2) [1; 1] demo_gen8) as [[b g']|] eqn:E.
  - eapply (C29_generated_key Debug 64 demo_gauss_word 8 demo_key8 6 3 (repeat (ggsw_allocate 8 2 3) 2) [1; 1] demo_gen8 b g');
      try reflexivity; try (cbn; lia); try exact E.
    + apply demo_gauss_word_ok; lia.
    + apply demo_gauss_word_small; lia.
    + exact demo_gen8_ok.
    + exact demo_key8_gkey.
    + apply Forall_forall. intros x Hx. apply repeat_spec in Hx. subst x. apply ggsw_zero_wf. lia.
  - exfalso. clear - E. apply (f_equal (fun o => match o with Ret _ => true | Panic => false end)) in E. vm_compute in E. discriminate.
Qed.
Lemma demo_ksk8_ok : exists noise, ksk_encrypts 64 4 3 [1; 1] (glwe_key_into_lwe_key demo_key8) noise demo_ksk8 /\
  forall i j, (i < 8)%nat -> (j < 3)%nat -> Z.abs (noise i j) <= 255.
Proof.
  unfold demo_ksk8.
  destruct (generate_new_lwe_keyswitch_key Debug 64 demo_gauss_word 4 3 (concat demo_key8) [1; 1] demo_gen8) as [[b g']|] eqn:E.
  - eapply (C41_generated_key Debug 64 demo_gauss_word 4 3 (concat demo_key8) [1; 1] demo_gen8 b g' 255); try exact E.
    + unfold dec_wf; cbn [base_log level_count]; lia.
    + reflexivity.
    + right. bin.
    + exact demo_gen8_ok.
    + apply demo_gauss_word_small; lia.
    + lia.
  - exfalso. clear - E. apply (f_equal (fun o => match o with Ret _ => true | Panic => false end)) in E. vm_compute in E. discriminate.
Qed.
Lemma demo_pfks8_ok : cbs_keys_encrypt 64 6 3 8 demo_key8 (glwe_key_into_lwe_key demo_key8) 255 demo_pfks8.
Proof.
  unfold demo_pfks8.
  destruct (generate_new_cbs_pfpks_keys Debug 64 demo_gauss_word 6 3 8 (concat demo_key8) demo_key8 demo_gen8) as [[b g']|] eqn:E.
  - eapply (C42_generated_keys Debug 64 demo_gauss_word 6 3 8 (concat demo_key8) demo_key8 demo_gen8 b g' 255); try exact E.
    + unfold dec_wf; cbn [base_log level_count]; lia.
    + reflexivity.
    + lia.
    + apply demo_gauss_word_ok; lia.
    + apply demo_gauss_word_small; lia.
    + exact demo_key8_gkey.
    + exact demo_gen8_ok.
  - exfalso. clear - E. apply (f_equal (fun o => match o with Ret _ => true | Panic => false end)) in E. vm_compute in E. discriminate.
Qed.

(** An encryption of 5 with scaling 2^56 and noise 3 *)
Definition demo_lwe8 : list Z := let mask := [2 ^ 61 + 11; 5; 2 ^ 60 + 3; 77; 2 ^ 63; 1234567; 0; 2 ^ 62] in mask ++ [(5 * 2 ^ 56 + 3 + dot mask (concat demo_key8)) mod 2 ^ 64].
(** Encryptions of 1, 0, 1 at the top of the word under (1, 1), with noises 9, 5, 0 *)
Definition demo_bits8 : list (list Z) := [[2 ^ 61; 7; 2 ^ 63 + 2 ^ 61 + 7 + 9]; [2 ^ 60; 2 ^ 60; 2 ^ 61 + 5]; [1; 2; 2 ^ 63 + 3]].
(** Two tables of eight entries *)
Definition demo_tables8 : list (list Z) := map (map (fun x => x * 2 ^ 62)) [[0; 1; 2; 3; 0; 1; 2; 3]; [3; 3; 2; 2; 1; 3; 0; 0]].

Example C41_case :
  dec_wf 64 (Dec 6 3) /\ binary_key (Z.to_nat (2 ^ 3)) demo_key8 /\ (exists T, backend_ok 64 8 6 T 0 (exact_backend 64) /\ (3 * 2 <= T)%nat) /\
  bsk_encrypts 64 6 8 3 demo_key8 255 demo_bsk8 [1; 1] /\ 2 ^ 64 * 3 <= 4 * 8 * (3 * 2 ^ 59) /\
  (exists noise, ksk_encrypts 64 4 3 [1; 1] (glwe_key_into_lwe_key demo_key8) noise demo_ksk8 /\
     forall i j, (i < 8)%nat -> (j < 3)%nat -> Z.abs (noise i j) <= 255) /\
  (forall i, 0 <= i < 2 ->
     extract_error 64 56 3 (2 * ep_error 64 6 1 8 3 1 255 0) (keyswitch_error 64 4 8 3 255) i + 3 * 2 ^ 59 < 2 ^ 62) /\
  phase 64 (glwe_key_into_lwe_key demo_key8) demo_lwe8 = (5 * 2 ^ 56 + 3) mod 2 ^ 64 /\
  match fft_extract_bits Debug 64 (exact_backend 64) 8 6 2 4 3 2 (bsk_forward_fourier (exact_backend 64) demo_bsk8) demo_ksk8 56 3
      (repeat (repeat 9 3) 3) demo_lwe8 with
  | Ret l => map (fun c => (phase 64 [1; 1] c + 2 ^ 62) mod 2 ^ 64 / 2 ^ 63) l | Panic => [] end = [1; 0; 1].
Proof.
  split; [unfold dec_wf; cbn [base_log level_count]; lia|]. split; [exact demo_key8_ok|].
  split; [exists 6%nat; split; [apply C26_exact_backend_ok; lia|lia]|].
  split; [exact demo_bsk8_ok|]. split; [lia|]. split; [exact demo_ksk8_ok|].
  split. { intros i Hi. assert (H : i = 0 \/ i = 1) by lia. destruct H as [-> | ->]; vm_compute; reflexivity. }
  split; [reflexivity|]. vm_compute. reflexivity.
Qed.

Example C42_case :
  cbs_keys_encrypt 64 6 3 8 demo_key8 (glwe_key_into_lwe_key demo_key8) 255 demo_pfks8 /\
  map (phase 64 [1; 1]) demo_bits8 = [2 ^ 63 + 9; 5; 2 ^ 63] /\ 9 + 3 * 2 ^ 59 < 2 ^ 62 /\
  bits_value [1; 0; 1] = 5 /\
  3 * ep_error 64 4 1 8 3 1 (cbs_error 64 6 8 3 255 (2 * ep_error 64 6 1 8 3 1 255 0)) 0 < 2 ^ 61 /\
  match fft_circuit_bootstrap_boolean_vertical_packing Debug 64 (exact_backend 64) 8 6 2 (bsk_forward_fourier (exact_backend 64) demo_bsk8) 6 3 8 8 1
      demo_tables8 (repeat (repeat 1 9) 2) demo_bits8 demo_pfks8 3 4 with
  | Ret l => map (fun c => (phase 64 (concat demo_key8) c + 2 ^ 61) mod 2 ^ 64 / 2 ^ 62) l | Panic => [] end = [1; 3].
Proof.
  split; [exact demo_pfks8_ok|]. split; [reflexivity|]. split; [reflexivity|]. split; [reflexivity|].
  split; vm_compute; reflexivity.
Qed.
