(** * C66: the noise estimates of the keyswitch and of the modulus switch, against the code *)
From Verif Require Import Base Word WordFacts NegaRing PolySpec RingSum DecompModel DecompProofs ExtProdProofs LweSpec LweProofs KeyswitchModel KeyswitchSpec KeyswitchProofs KeyswitchTheorems
  BootstrapModel BootstrapSpec BootstrapTheorems NoiseSpec NoiseFacts NoiseDigitFacts NoiseModel NoiseKeyFacts NoiseTheorems NoiseKeyTheorems NoiseKsFacts.
From Coq Require Import Reals Lra Lia.

Section Code.
Context (w b : Z) (l : nat) (Hd : dec_wf w (Dec b l)).
(** Everything a keyswitch meets: the noise of the input, and for each of the n columns a word of the mask, the coefficient of the key which it multiplies and the noises
    of the rows of the keyswitching key.  All independent, the words of the mask uniform. *)
Definition outcomes (n : nat) (De Dk Ds : list Z) : list (Z * list (Z * (Z * list Z))) :=
  list_prod De (samples n (list_prod (words w) (list_prod Dk (samples l Ds)))).
Lemma columns_phase r (cs : list (Z * (Z * list Z))) : Forall (is_word w) (map fst cs) ->
  eqm (2 ^ w) (r * (dot (map fst cs) (map (fun c => fst (snd c)) cs)
     - zsum (length cs) (fun i => closest_representable w (Dec b l) (fst (nth i cs (0, (0, [])))) * fst (snd (nth i cs (0, (0, []))))))
     - zsum (length cs) (fun i => zsum l (fun j => sdigit w (Dec b l) (l - 1 - j) (fst (nth i cs (0, (0, [])))) * nth j (snd (snd (nth i cs (0, (0, []))))) 0)))
     (fold_right (fun c z => column_noise w b l r c + z) 0 cs).
Proof.
  intros Hw. induction cs as [|[a [s E]] cs IH]; [apply eqm_eq; cbn; ring|]. cbn [map] in Hw. pose proof (Forall_inv Hw) as Ha. specialize (IH (Forall_inv_tail Hw)).
  cbn [length map dot fold_right]. rewrite !zsum_S_l. cbn [nth]. rewrite <- IH. cbn [fst snd]. unfold column_noise at 1. cbn [fst snd].
  rewrite <- (lost_spec w b l Hd a Ha). apply eqm_eq. ring.
Qed.
Lemma ks_phase p key ksk after before m (o : Z * list (Z * (Z * list Z))) :
  ksk_encrypts w b l key (map (fun c => fst (snd c)) (snd o)) (fun i j => nth j (snd (snd (nth i (snd o) (0, (0, []))))) 0) ksk ->
  lwe_wf w (length (snd o)) before -> removelast before = map fst (snd o) ->
  phase w (map (fun c => fst (snd c)) (snd o)) before = (m + fst o) mod 2 ^ w -> length after = S (length key) ->
  exists out, keyswitch_ciphertext p w b l (length key) ksk after before = Ret out /\ lwe_wf w (length key) out /\ phase w key out = (m + ks_noise w b l 1 o) mod 2 ^ w.
Proof.
  destruct o as [e cs]. cbn [fst snd]. intros Hk Hb Hm Hp Ha. set (s := map (fun c => fst (snd c)) cs) in *.
  assert (Hls : length s = length cs) by (unfold s; apply map_length). rewrite <- Hls in Hb.
  destruct (keyswitch_digits p w b l key s _ ksk after before Hd Hk Hb Ha) as (out & E & Ho & P). exists out. split; [exact E|]. split; [exact Ho|].
  rewrite P. change (eqm (2 ^ w) (last before 0 - zsum (length s) (fun i => closest_representable w (Dec b l) (nth i before 0) * nth i s 0)
     - zsum (length s) (fun i => zsum l (fun j => sdigit w (Dec b l) (l - 1 - j) (nth i before 0) * nth j (snd (snd (nth i cs (0, (0, []))))) 0))) (m + ks_noise w b l 1 (e, cs))).
  destruct Hb as [Hl Hw]. destruct (snoc_dec before _ Hl) as (mask & body & -> & Hml). rewrite removelast_last in Hm. subst mask.
  rewrite last_last. unfold phase in Hp. rewrite last_last, removelast_last in Hp.
  assert (Hp' : eqm (2 ^ w) (body - dot (map fst cs) s) (m + e)) by exact Hp.
  assert (Eb : eqm (2 ^ w) body (m + e + dot (map fst cs) s)) by (rewrite <- Hp'; apply eqm_eq; ring). rewrite Eb. clear Eb Hp Hp' P E.
  apply Forall_app in Hw. destruct Hw as [Hw _]. rewrite Hls.
  rewrite (zsum_ext (length cs) (fun i => closest_representable w (Dec b l) (nth i (map fst cs ++ [body]) 0) * nth i s 0)
    (fun i => closest_representable w (Dec b l) (fst (nth i cs (0, (0, [])))) * fst (snd (nth i cs (0, (0, [])))))).
  2:{ intros i Hi. rewrite nth_snoc_lt by (rewrite map_length; assumption). unfold s.
      change 0 with (fst (0, (0, @nil Z))) at 1. rewrite map_nth. f_equal. change 0 with ((fun c : Z * (Z * list Z) => fst (snd c)) (0, (0, @nil Z))) at 1. rewrite map_nth. reflexivity. }
  rewrite (zsum_ext (length cs) (fun i => zsum l (fun j => sdigit w (Dec b l) (l - 1 - j) (nth i (map fst cs ++ [body]) 0) * nth j (snd (snd (nth i cs (0, (0, []))))) 0))
    (fun i => zsum l (fun j => sdigit w (Dec b l) (l - 1 - j) (fst (nth i cs (0, (0, [])))) * nth j (snd (snd (nth i cs (0, (0, []))))) 0))).
  2:{ intros i Hi. apply zsum_ext. intros j Hj. rewrite nth_snoc_lt by (rewrite map_length; assumption). f_equal. f_equal. change 0 with (fst (0, (0, @nil Z))) at 1. rewrite map_nth. reflexivity. }
  unfold ks_noise. cbn [fst snd]. unfold s. rewrite <- (columns_phase 1 cs Hw). apply eqm_eq. ring.
Qed.
End Code.

Local Open Scope R_scope.
Section Estimate.
Context (w b : Z) (l : nat) (Hd : dec_wf w (Dec b l)).
Local Notation Delta := (2 ^ (w - b * Z.of_nat l))%Z.
Lemma estimate_ks_value K n d_lwe d_ksk : valid d_lwe -> valid d_ksk ->
  let m := get_modular_variance in
  let var_key := m (variance_key_coefficient K w) w in let mean_key := expectation_key_coefficient K in
  0 <= var_key ->
  m (estimate_keyswitch_noise_lwe_to_glwe_with_constant_terms K n d_lwe d_ksk b l w) w =
    m d_lwe w + INR n * ((IZR Delta ^ 2 - 1) / 12 * (var_key + mean_key ^ 2) + var_key / 4) + INR n * INR l * m d_ksk w * ((IZR (2 ^ b) ^ 2 + 2) / 12).
Proof.
  intros V1 V2 m var_key mean_key Hv. unfold estimate_keyswitch_noise_lwe_to_glwe_with_constant_terms. cbn zeta. fold m. fold var_key. fold mean_key. unfold square.
  destruct (ks_params w b l Hd) as (Hb & Hl & Hn & EH & Hh & Ew & HP).
  assert (EB : powi2 b = IZR (2 ^ b)) by (apply powi2_Z; lia).
  assert (ED : powi2 (2 * w) = powi2 (b * 2 * Z.of_nat l) * IZR Delta ^ 2).
  { replace (2 * w)%Z with (b * 2 * Z.of_nat l + 2 * (w - b * Z.of_nat l))%Z by ring. rewrite powi2_plus. f_equal. rewrite powi2_twice. f_equal. apply powi2_Z. lia. }
  rewrite ED, EB. pose proof (powi2_pos (b * 2 * Z.of_nat l)) as Hp. pose proof (pos_INR n) as Hn0. pose proof (pos_INR l) as Hl0.
  assert (HD1 : 1 <= IZR Delta) by (apply IZR_le; pose proof (pow2_pos (w - b * Z.of_nat l) ltac:(lia)); lia).
  pose proof (valid_modular_nonneg d_lwe w V1) as N1. pose proof (valid_modular_nonneg d_ksk w V2) as N2. fold m in N1, N2.
  unfold m at 1. rewrite modular_from; [unfold m; field; lra|].
  replace (powi2 (b * 2 * Z.of_nat l) * IZR Delta ^ 2 / (12 * powi2 (b * 2 * Z.of_nat l)) - 1 / 12) with ((IZR Delta ^ 2 - 1) / 12) by (field; lra).
  repeat apply Rplus_le_le_0_compat.
  - exact N1.
  - apply Rmult_le_pos; [apply Rmult_le_pos; [assumption|nra]|]. pose proof (Rle_0_sqr mean_key) as Hq. unfold Rsqr in Hq. lra.
  - apply Rmult_le_pos; lra.
  - unfold Rdiv. apply Rmult_le_pos; [|lra]. apply Rmult_le_pos; [apply Rmult_le_pos; [apply Rmult_le_pos; assumption|assumption]|].
    pose proof (Rle_0_sqr (IZR (2 ^ b))) as Hq. unfold Rsqr in Hq. lra.
Qed.
Lemma key_kind_stats K Dk : key_distribution K Dk -> Dk <> [] /\ get_modular_variance (variance_key_coefficient K w) w = zvariance Dk /\ expectation_key_coefficient K = zmean Dk.
Proof.
  intros HK. destruct (key_moments K Dk HK) as [HD _]. destruct (C65_key_coefficient K Dk w HK) as (E1 & E2 & _). auto.
Qed.
Lemma column_variance r Dk Ds : Dk <> [] -> Ds <> [] -> zmean Ds = 0 ->
  let V := variance (columns w l Dk Ds) (fun c => IZR (column_noise w b l r c)) in
  let rounding := IZR r ^ 2 * ((IZR Delta ^ 2 - 1) / 12 * (zvariance Dk + zmean Dk ^ 2) + zvariance Dk / 4) in
  let digits := INR l * zvariance Ds * ((IZR (2 ^ b) ^ 2 + 2) / 12) in
  rounding + digits - INR (l - 1) * zvariance Ds * (IZR (2 ^ b) / 4) <= V <= rounding + digits.
Proof.
  intros HDk H2 H0 V rounding digits. pose proof (proj2 (column_stats w b l Hd r Dk Ds HDk H2 H0)) as HV. fold V in HV.
  pose proof (zvariance_moments Dk HDk) as Hm2. destruct (ks_params w b l Hd) as (Hb & Hl & Hn & _).
  set (S := nsum l (fun j => mean (words w) (fun x => IZR (sdigit w (Dec b l) (l - 1 - j) x) ^ 2))) in *. set (c := (IZR (2 ^ b) ^ 2 + 2) / 12) in *.
  assert (HS : INR l * c - INR (l - 1) * (IZR (2 ^ b) / 4) <= S <= INR l * c).
  { assert (Hlast : S = nsum (l - 1) (fun j => mean (words w) (fun x => IZR (sdigit w (Dec b l) (l - 1 - j) x) ^ 2)) + c).
    { unfold S. replace l with (Datatypes.S (l - 1)) at 1 by lia. rewrite nsum_S. f_equal. rewrite Nat.sub_diag. apply (digit_mean w b l Hd 0 Hl). reflexivity. }
    assert (HL : INR l = INR (l - 1) + 1) by (rewrite <- S_INR; f_equal; lia). rewrite Hlast, HL.
    assert (Hbnd : forall j, (j < l - 1)%nat -> c - IZR (2 ^ b) / 4 <= mean (words w) (fun x => IZR (sdigit w (Dec b l) (l - 1 - j) x) ^ 2) <= c).
    { intros j Hj. apply (digit_mean w b l Hd (l - 1 - j)). lia. }
    set (f := fun j => mean (words w) (fun x => IZR (sdigit w (Dec b l) (l - 1 - j) x) ^ 2)) in *. change (nsum (l - 1) _) with (nsum (l - 1) f).
    assert (G1 : nsum (l - 1) (fun _ => c - IZR (2 ^ b) / 4) <= nsum (l - 1) f) by (apply rsum_le; intros j Hj; apply in_seq in Hj; apply Hbnd; lia).
    assert (G2 : nsum (l - 1) f <= nsum (l - 1) (fun _ => c)) by (apply rsum_le; intros j Hj; apply in_seq in Hj; apply Hbnd; lia).
    rewrite nsum_const in G1, G2. lra. }
  rewrite HV. unfold rounding, digits. replace (moment 2 Dk) with (zvariance Dk + zmean Dk ^ 2) by lra.
  pose proof (variance_nonneg Ds IZR) as Hz. fold (zvariance Ds) in Hz. set (z := zvariance Ds) in *.
  assert (K1 : z * S <= z * (INR l * c)) by (apply Rmult_le_compat_l; [assumption|apply HS]).
  assert (K2 : z * (INR l * c - INR (l - 1) * (IZR (2 ^ b) / 4)) <= z * S) by (apply Rmult_le_compat_l; [assumption|apply HS]).
  clear - K1 K2. set (rr := IZR r ^ 2) in *. lra.
Qed.
Lemma ks_variance K n d_lwe d_ksk De Dk Ds : describes w d_lwe De -> describes w d_ksk Ds -> zmean Ds = 0 -> key_distribution K Dk ->
  let V := variance (outcomes w l n De Dk Ds) (fun o => IZR (ks_noise w b l 1 o)) in
  let est := get_modular_variance (estimate_keyswitch_noise_lwe_to_glwe_with_constant_terms K n d_lwe d_ksk b l w) w in
  est - INR n * INR (l - 1) * zvariance Ds * (IZR (2 ^ b) / 4) <= V <= est.
Proof.
  intros (H1 & V1 & E1) (H2 & V2 & E2) H0 HK V est. destruct (key_kind_stats K Dk HK) as (HDk & Ev & Em).
  assert (HV : V = 1 ^ 2 * zvariance De + INR n * variance (columns w l Dk Ds) (fun c => IZR (column_noise w b l 1 c))) by apply (ks_noise_stats w b l Hd 1 n De Dk Ds H1 HDk H2 H0).
  assert (Hest : est = _) by (apply (estimate_ks_value K n d_lwe d_ksk V1 V2); rewrite Ev; apply variance_nonneg). rewrite E1, E2, Ev, Em in Hest.
  destruct (column_variance 1 Dk Ds HDk H2 H0) as [B1 B2].
  pose proof (pos_INR n) as Hn0. apply (Rmult_le_compat_l (INR n)) in B1, B2; try assumption. rewrite HV, Hest. clear - B1 B2. split; lra.
Qed.
End Estimate.

(** For every outcome, keyswitching with the code adds exactly [noise] to the message.  The estimate is never below the variance of [noise], exceeds it by at most
    n*(l-1)*sigma^2*B/4 (sigma^2 the variance of the noise of the key, B = 2^b), and is exact for one level.  The noise is biased by -n/2 times the mean of the key. *)
Theorem C66_keyswitch : forall w b l K n d_lwe d_ksk De Dk Ds,
  dec_wf w (Dec b l) -> describes w d_lwe De -> describes w d_ksk Ds -> zmean Ds = 0 -> key_distribution K Dk ->
  let estimate := get_modular_variance (estimate_keyswitch_noise_lwe_to_glwe_with_constant_terms K n d_lwe d_ksk b l w) w in
  exists noise : Z * list (Z * (Z * list Z)) -> Z,
  (forall p key ksk after before m e columns, In (e, columns) (outcomes w l n De Dk Ds) ->
     ksk_encrypts w b l key (map (fun c => fst (snd c)) columns) (fun i j => nth j (snd (snd (nth i columns (0, (0, []))%Z))) 0%Z) ksk ->
     lwe_wf w n before -> removelast before = map fst columns ->
     phase w (map (fun c => fst (snd c)) columns) before = ((m + e) mod 2 ^ w)%Z -> length after = S (length key) ->
     exists out, keyswitch_ciphertext p w b l (length key) ksk after before = Ret out /\ lwe_wf w (length key) out /\
       phase w key out = ((m + noise (e, columns)) mod 2 ^ w)%Z) /\
  mean (outcomes w l n De Dk Ds) (fun o => IZR (noise o)) = zmean De - INR n / 2 * zmean Dk /\
  variance (outcomes w l n De Dk Ds) (fun o => IZR (noise o)) <= estimate /\
  estimate - INR n * INR (l - 1) * zvariance Ds * (IZR (2 ^ b) / 4) <= variance (outcomes w l n De Dk Ds) (fun o => IZR (noise o)) /\
  (l = 1%nat -> variance (outcomes w l n De Dk Ds) (fun o => IZR (noise o)) = estimate).
Proof.
  intros w b l K n d_lwe d_ksk De Dk Ds Hd HL HS H0 HK estimate. exists (ks_noise w b l 1).
  pose proof (ks_variance w b l Hd K n d_lwe d_ksk De Dk Ds HL HS H0 HK) as [V1 V2]. fold estimate in V1, V2.
  split; [|split; [|split; [exact V2|split; [exact V1|]]]].
  - intros p key ksk after before m e columns Hin Hk Hb Hm Hp Ha.
    assert (Hlen : length columns = n) by (apply in_prod_iff in Hin; destruct Hin as [_ Hin]; apply samples_length in Hin; exact Hin).
    apply (ks_phase w b l Hd p key ksk after before m (e, columns)); cbn [fst snd]; try assumption. rewrite Hlen. exact Hb.
  - destruct (key_kind_stats w K Dk HK) as (HDk & _ & _). rewrite <- (Rmult_1_l (zmean De - INR n / 2 * zmean Dk)). apply (ks_noise_stats w b l Hd 1 n De Dk Ds (proj1 HL) HDk (proj1 HS) H0).
  - intros ->. cbn [Nat.sub INR] in V1. rewrite Rmult_0_r, !Rmult_0_l, Rminus_0_r in V1. apply Rle_antisym; assumption.
Qed.
Print Assumptions C66_keyswitch.

(** Chebyshev: how often the decryption is further than [t] from its mean. *)
Lemma chebyshev {A} (D : list A) X t : 0 < t -> mean D (fun o => if Rle_dec t (Rabs (X o - mean D X)) then 1 else 0) <= variance D X / t ^ 2.
Proof.
  intros Ht. unfold variance. set (mu := mean D X). assert (Ht2 : 0 < t ^ 2) by (apply pow_lt; assumption).
  replace (mean D (fun o => (X o - mu) ^ 2) / t ^ 2) with (mean D (fun o => / t ^ 2 * (X o - mu) ^ 2)) by (rewrite mean_scal; unfold Rdiv; ring).
  apply mean_le. intros o _. assert (Hi : 0 < / t ^ 2) by (apply Rinv_0_lt_compat; assumption). destruct (Rle_dec t (Rabs (X o - mu))) as [H|H].
  - assert (Hs : t ^ 2 <= (X o - mu) ^ 2).
    { rewrite <- (pow2_abs (X o - mu)). apply pow_incr. split; [lra|exact H]. }
    rewrite <- (Rinv_l (t ^ 2)) by lra. apply Rmult_le_compat_l; lra.
  - apply Rmult_le_pos; [lra|apply pow2_ge_0].
Qed.
Theorem C66_keyswitch_tail : forall w b l K n d_lwe d_ksk De Dk Ds t,
  dec_wf w (Dec b l) -> describes w d_lwe De -> describes w d_ksk Ds -> zmean Ds = 0 -> key_distribution K Dk -> 0 < t ->
  let estimate := get_modular_variance (estimate_keyswitch_noise_lwe_to_glwe_with_constant_terms K n d_lwe d_ksk b l w) w in
  exists noise : Z * list (Z * (Z * list Z)) -> Z,
  (forall p key ksk after before m e columns, In (e, columns) (outcomes w l n De Dk Ds) ->
     ksk_encrypts w b l key (map (fun c => fst (snd c)) columns) (fun i j => nth j (snd (snd (nth i columns (0, (0, []))%Z))) 0%Z) ksk ->
     lwe_wf w n before -> removelast before = map fst columns ->
     phase w (map (fun c => fst (snd c)) columns) before = ((m + e) mod 2 ^ w)%Z -> length after = S (length key) ->
     exists out, keyswitch_ciphertext p w b l (length key) ksk after before = Ret out /\ lwe_wf w (length key) out /\
       phase w key out = ((m + noise (e, columns)) mod 2 ^ w)%Z) /\
  mean (outcomes w l n De Dk Ds) (fun o => if Rle_dec t (Rabs (IZR (noise o) - (zmean De - INR n / 2 * zmean Dk))) then 1 else 0) <= estimate / t ^ 2.
Proof.
  intros w b l K n d_lwe d_ksk De Dk Ds t Hd HL HS H0 HK Ht estimate.
  destruct (C66_keyswitch w b l K n d_lwe d_ksk De Dk Ds Hd HL HS H0 HK) as (noise & Hc & Hm & Hv & _). exists noise. split; [exact Hc|].
  rewrite <- Hm. eapply Rle_trans; [apply (chebyshev _ (fun o => IZR (noise o))); assumption|].
  apply Rmult_le_compat_r; [left; apply Rinv_0_lt_compat, pow_lt; assumption|exact Hv].
Qed.
Print Assumptions C66_keyswitch_tail.

(** ** The modulus switch at the start of a bootstrap *)
Section Switch.
Context (w a : Z) (Ha : (0 <= a)%Z) (Haw : (a + 2 < w)%Z) (Hw64 : (w < 2 ^ 64)%Z).
Local Notation Delta := (2 ^ (w - (a + 1)))%Z.
Lemma switch_wf : dec_wf w (Dec (a + 1) 1).
Proof. unfold dec_wf. cbn [base_log level_count]. lia. Qed.
Local Notation lost := (NoiseKsFacts.lost w (a + 1) 1).
Lemma switched_lost x : is_word w x -> (Delta * switched w (2 ^ a) 0 x)%Z = (x - lost x)%Z.
Proof.
  intros Hx. destruct (ks_params w (a + 1) 1 switch_wf) as (_ & _ & Hn & EH & Hh & Ew & HP). change (Z.of_nat 1) with 1%Z in *. rewrite Z.mul_1_r in *. rewrite Z.pow_1_r in *.
  unfold NoiseKsFacts.lost, moved, switched, round_div. change (Z.of_nat 1) with 1%Z. rewrite Z.mul_1_r. change (2 ^ 0)%Z with 1%Z. rewrite !Z.mul_1_l.
  assert (E2 : (2 * 2 ^ a = 2 ^ (a + 1))%Z) by (rewrite Z.pow_add_r by lia; change (2 ^ 1)%Z with 2%Z; ring). rewrite E2.
  set (P := (2 ^ (a + 1))%Z) in *. set (D := Delta) in *. set (hf := (2 ^ (w - (a + 1) - 1))%Z) in *. rewrite Ew.
  assert (E3 : ((2 * (x * P) + P * D) / (2 * (P * D)) = (x + hf) / D)%Z).
  { replace (2 * (x * P) + P * D)%Z with ((x + hf) * (2 * P))%Z by (rewrite EH; ring). replace (2 * (P * D))%Z with (D * (2 * P))%Z by ring.
    apply Z.div_mul_cancel_r; lia. }
  rewrite E3. assert (E4 : (((x + hf) mod (P * D)) mod D = (x + hf) mod D)%Z).
  { rewrite (Z.mul_comm P D), Z.rem_mul_r by lia. rewrite (Z.mul_comm D), Z_mod_plus_full. apply Z.mod_mod. lia. }
  rewrite E4. rewrite (Z.mod_eq (x + hf) D) by (clear - HP Hn; unfold D; apply Z.pow_nonzero; lia). ring.
Qed.
(** The noise of the input, the body, and for each column a word of the mask and a bit of the key *)
Definition switch_outcomes (n : nat) (De : list Z) : list (Z * (Z * list (Z * Z))) :=
  list_prod De (list_prod (words w) (samples n (list_prod (words w) [0; 1]%Z))).
Definition switch_noise (o : Z * (Z * list (Z * Z))) : Z :=
  (fst o - lost (fst (snd o)) + fold_right (fun c z => lost (fst c) * snd c + z) 0 (snd (snd o)))%Z.
Lemma switch_column_stats : 
  mean (list_prod (words w) [0; 1]%Z) (fun c => IZR (lost (fst c) * snd c)) = - (1 / 4) /\
  variance (list_prod (words w) [0; 1]%Z) (fun c => IZR (lost (fst c) * snd c)) = IZR Delta ^ 2 / 24 + 1 / 48.
Proof.
  destruct (lost_mean w (a + 1) 1 switch_wf) as [L1 L2]. change (Z.of_nat 1) with 1%Z in *. rewrite Z.mul_1_r in *.
  assert (M1 : mean (list_prod (words w) [0; 1]%Z) (fun c => IZR (lost (fst c) * snd c)) = - (1 / 4)).
  { rewrite (mean_ext _ _ (fun c => IZR (lost (fst c)) * IZR (snd c))) by (intros; apply mult_IZR).
    rewrite (mean_indep (words w) [0; 1]%Z (fun x => IZR (lost x)) IZR). rewrite L1. unfold mean. cbn. field. }
  split; [exact M1|]. rewrite variance_moments by (apply list_prod_nil; [apply (words_nil w (a + 1) 1 switch_wf)|discriminate]). rewrite M1.
  rewrite (mean_ext _ _ (fun c => IZR (lost (fst c)) ^ 2 * IZR (snd c) ^ 2)) by (intros; rewrite mult_IZR; ring).
  rewrite (mean_indep (words w) [0; 1]%Z (fun x => IZR (lost x) ^ 2) (fun s => IZR s ^ 2)). rewrite L2. unfold mean. cbn. field.
Qed.
Lemma switch_noise_stats n De : De <> [] ->
  variance (switch_outcomes n De) (fun o => IZR (switch_noise o)) = zvariance De + (IZR Delta ^ 2 - 1) / 12 + INR n * (IZR Delta ^ 2 / 24 + 1 / 48).
Proof.
  intros HDe. pose proof (words_nil w (a + 1) 1 switch_wf) as Hw. destruct (lost_mean w (a + 1) 1 switch_wf) as [L1 L2]. change (Z.of_nat 1) with 1%Z in *. rewrite Z.mul_1_r in *.
  assert (Hc : list_prod (words w) [0; 1]%Z <> []) by (apply list_prod_nil; [assumption|discriminate]). pose proof (samples_nil n _ Hc) as Hs.
  assert (Hp : list_prod (words w) (samples n (list_prod (words w) [0; 1]%Z)) <> []) by (apply list_prod_nil; assumption).
  rewrite (variance_ext _ _ (fun o => IZR (fst o) + (-1 * IZR (lost (fst (snd o))) + rsum (snd (snd o)) (fun c => IZR (lost (fst c) * snd c))))).
  2:{ intros [e [body cs]] _. unfold switch_noise. cbn [fst snd]. rewrite plus_IZR, minus_IZR.
      assert (E : IZR (fold_right (fun c z => (lost (fst c) * snd c + z)%Z) 0%Z cs) = rsum cs (fun c => IZR (lost (fst c) * snd c))).
      { induction cs as [|c cs IH]; [reflexivity|]. cbn [fold_right rsum]. rewrite plus_IZR, IH. reflexivity. }
      rewrite E. ring. }
  unfold switch_outcomes.
  rewrite (variance_indep De _ IZR (fun o => -1 * IZR (lost (fst o)) + rsum (snd o) (fun c => IZR (lost (fst c) * snd c))) HDe Hp).
  rewrite (variance_indep (words w) _ (fun x => -1 * IZR (lost x)) (fun cs => rsum cs (fun c => IZR (lost (fst c) * snd c))) Hw Hs).
  rewrite (proj2 (samples_sum n _ (fun c => IZR (lost (fst c) * snd c)) Hc)), (proj2 switch_column_stats). rewrite variance_scal.
  rewrite (variance_moments (words w)) by assumption. rewrite L1, L2. unfold zvariance. field.
Qed.
End Switch.

(** [pbs_modulus_switch] brings every word of the ciphertext to 0 .. 2N (N = 2^a).  The decryption of the result, scaled back by Delta = 2^w/2N, is the message plus [noise], and the
    estimate is the variance of [noise], when body, mask, key bits and input noise are independent, body and mask uniform.  (The message is the phase minus the input noise.) *)
Theorem C66_modulus_switch : forall w a n d_in De, (0 <= a)%Z -> (a + 2 < w)%Z -> (w < 2 ^ 64)%Z -> describes w d_in De ->
  exists noise : Z * (Z * list (Z * Z)) -> Z,
  (forall p e body columns, In (e, (body, columns)) (switch_outcomes w n De) ->
     exists mask' body', Forall2 (fun c x => pbs_modulus_switch p w (fst c) (2 ^ a) 0 0 = Ret x) columns mask' /\ pbs_modulus_switch p w body (2 ^ a) 0 0 = Ret body' /\
       let s := map snd columns in let message := (phase w s (map fst columns ++ [body]) - e)%Z in
       eqm (2 ^ w) (2 ^ (w - (a + 1)) * (body' - dot mask' s)) (message + noise (e, (body, columns)))) /\
  variance (switch_outcomes w n De) (fun o => IZR (noise o)) = get_modular_variance (estimate_modulus_switching_noise_with_binary_key n (a + 1) d_in w) w.
Proof.
  intros w a n d_in De Ha Haw Hw64 (HDe & Hv & E). exists (switch_noise w a). split.
  - intros p e body columns Hin. unfold switch_outcomes in Hin. apply in_prod_iff in Hin. destruct Hin as [_ Hin]. apply in_prod_iff in Hin. destruct Hin as [Hb Hcs].
    apply samples_in in Hcs.
    assert (HW : forall x, In x (words w) -> is_word w x).
    { intros x Hx. unfold words in Hx. apply in_map_iff in Hx. destruct Hx as (i & <- & Hi). apply in_seq in Hi. split; lia. }
    assert (Hsw : forall x, is_word w x -> pbs_modulus_switch p w x (2 ^ a) 0 0 = Ret (switched w (2 ^ a) 0 x)).
    { intros x Hx. rewrite C28_modulus_switch by (try assumption; lia). do 2 f_equal. change (2 ^ 0)%Z with 1%Z. rewrite Z.mul_1_r. apply Z.mod_small. exact Hx. }
    exists (map (fun c => switched w (2 ^ a) 0 (fst c)) columns), (switched w (2 ^ a) 0 body).
    assert (Hall : Forall (fun c => is_word w (fst c)) columns).
    { eapply Forall_impl; [|exact Hcs]. intros c Hc. destruct c as [x s]. apply in_prod_iff in Hc. apply HW, Hc. }
    split; [|split; [apply Hsw, HW, Hb|]].
    + clear - Hsw Hall. induction Hall as [|c cs Hc _ IH]; constructor; [apply Hsw; exact Hc|exact IH].
    + cbn zeta. unfold phase. rewrite last_last, removelast_last. unfold eqm. rewrite <- Z.add_sub_swap. rewrite Zminus_mod, Zplus_mod, Zmod_mod, <- Zplus_mod, <- Zminus_mod.
      f_equal. unfold switch_noise. cbn [fst snd]. rewrite Z.mul_sub_distr_l, (switched_lost w a Ha Haw Hw64 body (HW _ Hb)).
      assert (G : (2 ^ (w - (a + 1)) * dot (map (fun c => switched w (2 ^ a) 0 (fst c)) columns) (map snd columns) =
                   dot (map fst columns) (map snd columns) - fold_right (fun c z => NoiseKsFacts.lost w (a + 1) 1 (fst c) * snd c + z) 0 columns)%Z).
      { clear - Hall Ha Haw Hw64. induction Hall as [|c cs Hc _ IH]; [cbn; lia|]. cbn [map dot fold_right]. rewrite Z.mul_add_distr_l, IH, Z.mul_assoc.
        rewrite (switched_lost w a Ha Haw Hw64 (fst c) Hc). ring. }
      rewrite G. ring.
  - rewrite (switch_noise_stats w a Ha Haw Hw64 n De HDe). unfold estimate_modulus_switching_noise_with_binary_key. cbn zeta. rewrite E. unfold square.
    assert (ED : powi2 (2 * w) = powi2 (a + 1) ^ 2 * IZR (2 ^ (w - (a + 1))) ^ 2).
    { replace (2 * w)%Z with (2 * (a + 1) + 2 * (w - (a + 1)))%Z by ring. rewrite powi2_plus, !powi2_twice. f_equal. f_equal. apply powi2_Z. lia. }
    rewrite ED. pose proof (powi2_pos (a + 1)) as Hp. set (q := powi2 (a + 1)) in *. set (D := IZR (2 ^ (w - (a + 1)))) in *. pose proof (pos_INR n) as Hn.
    assert (HD : 1 <= D) by (apply IZR_le; pose proof (pow2_pos (w - (a + 1)) ltac:(lia)); lia).
    pose proof (variance_nonneg De IZR) as Hz. fold (zvariance De) in Hz.
    replace (zvariance De + 1 / 12 * (q ^ 2 * D ^ 2) / (q * q) - 1 / 12 + INR n / 24 * (q ^ 2 * D ^ 2) / (q * q) + INR n / 48)
      with (zvariance De + (D ^ 2 - 1) / 12 + INR n * (D ^ 2 / 24 + 1 / 48)) by (field; lra).
    rewrite modular_from; [reflexivity|]. assert (0 <= D ^ 2 - 1) by nra. assert (0 <= INR n * (D ^ 2 / 24 + 1 / 48)) by (apply Rmult_le_pos; [assumption|nra]). lra.
Qed.
Print Assumptions C66_modulus_switch.

(** ** Cases *)
Example C66_uniform_pm : describes 6 (from_modular_variance 1 6) [-1; 1]%Z /\ zmean [-1; 1]%Z = 0.
Proof.
  split; [|unfold zmean, mean; cbn; lra]. split; [discriminate|]. split; [apply valid_from; lra|]. rewrite modular_from by lra. unfold zvariance, variance, mean. cbn. lra.
Qed.
(** A keyswitch of six-bit words from [1] to [1; 0] with two levels of two bits.  The message 20 becomes 20 + 2. *)
Example C66_keyswitch_case :
  dec_wf 6 (Dec 2 2) /\ In (1, [(13, (1, [1; 1]))])%Z (outcomes 6 2 1 [-1; 1]%Z [0; 1]%Z [-1; 1]%Z) /\
  ksk_encrypts 6 2 2 [1; 0]%Z [1]%Z (fun i j => nth j [1; 1]%Z 0%Z) [[[5; 9; 22]; [60; 7; 1]]]%Z /\
  lwe_wf 6 1 [13; 34]%Z /\ phase 6 [1]%Z [13; 34]%Z = ((20 + 1) mod 2 ^ 6)%Z /\
  exists out, keyswitch_ciphertext Debug 6 2 2 2 [[[5; 9; 22]; [60; 7; 1]]]%Z [0; 0; 0]%Z [13; 34]%Z = Ret out /\ phase 6 [1; 0]%Z out = 22%Z.
Proof.
  split; [unfold dec_wf; cbn; lia|]. split.
  { unfold outcomes. apply in_prod_iff. split; [right; left; reflexivity|]. vm_compute. intuition. }
  split.
  { split; [reflexivity|]. intros [|[|i]] block H; cbn in H; inversion H; subst block. split; [reflexivity|].
    intros [|[|[|j]]] row Hr; cbn in Hr; inversion Hr; subst row; (split; [split; [reflexivity|repeat constructor; vm_compute; intuition discriminate]|vm_compute; reflexivity]). }
  split; [split; [reflexivity|repeat constructor; vm_compute; intuition discriminate]|]. split; [reflexivity|].
  eexists. split; [vm_compute; reflexivity|vm_compute; reflexivity].
Qed.
(** The estimate (input variance 1, key noise 1) of this keyswitch.*)
Example C66_keyswitch_estimate :
  get_modular_variance (estimate_keyswitch_noise_lwe_to_glwe_with_constant_terms BinaryKeyKind 1 (from_modular_variance 1 6) (from_modular_variance 1 6) 2 2 6) 6 = 75 / 16.
Proof.
  destruct C66_uniform_pm as ((_ & V & E) & _).
  rewrite (estimate_ks_value 6 2 2 ltac:(unfold dec_wf; cbn; lia) BinaryKeyKind 1 _ _ V V).
  2:{ rewrite (proj1 (proj2 (key_kind_stats 6 BinaryKeyKind [0; 1]%Z eq_refl))). apply variance_nonneg. }
  destruct (key_kind_stats 6 BinaryKeyKind [0; 1]%Z eq_refl) as (_ & -> & ->). rewrite E. unfold zvariance, zmean, variance, mean. cbn. lra.
Qed.
Example C66_modulus_switch_case :
  describes 6 (from_modular_variance 1 6) [-1; 1]%Z /\ In (1, (21, [(13, 1)]))%Z (switch_outcomes 6 1 [-1; 1]%Z) /\
  pbs_modulus_switch Debug 6 13 (2 ^ 1) 0 0 = Ret 1%Z /\ pbs_modulus_switch Debug 6 21 (2 ^ 1) 0 0 = Ret 1%Z /\
  get_modular_variance (estimate_modulus_switching_noise_with_binary_key 1 2 (from_modular_variance 1 6) 6) 6 = 1 + 255 / 12 + 256 / 24 + 1 / 48.
Proof.
  destruct C66_uniform_pm as (D & _). split; [exact D|]. split; [|split; [reflexivity|split; [reflexivity|]]].
  - unfold switch_outcomes. apply in_prod_iff. split; [right; left; reflexivity|]. apply in_prod_iff. split; vm_compute; intuition.
  - destruct (C66_modulus_switch 6 1 1 _ _ ltac:(lia) ltac:(lia) ltac:(lia) D) as (noise & _ & V). change (1 + 1)%Z with 2%Z in V.
    destruct D as (HD & _ & E). unfold estimate_modulus_switching_noise_with_binary_key. cbn zeta. rewrite E. unfold square.
    assert (P1 : powi2 (2 * 6) = 4096) by (rewrite powi2_Z by lia; reflexivity). assert (P2 : powi2 2 = 4) by (rewrite powi2_Z by lia; reflexivity). rewrite P1, P2.
    rewrite modular_from; unfold zvariance, variance, mean; cbn; lra.
Qed.
