(** * C21 - C22: LWE vectors and public key encryption *)
From Verif Require Import Base Word WordFacts LweSpec PolyModel PolyProofs RandomModel RandomProofs RandomTheorems LweModel LweProofs LweTheorems.

(** ** C21 *)
(** The words of the i-th mask of [count] consecutive masks of [n] words. *)
Definition mask_words (w : Z) (g : bgen) (n : nat) (i : Z) : list Z :=
  table_words w (bg_table g) (bg_pos g + i * (Z.of_nat n * (w / 8))) n.

Lemma encrypt_lwe_inv p w gauss key output m g c g' :
  0 < w -> w mod 8 = 0 -> egen_ok g -> safe_key p key -> length output = S (length key) ->
  encrypt_lwe p w gauss key output m g = Ret (c, g') ->
  exists e, gaussian_one gauss (eg_noise g) = Ret (e, eg_noise g') /\
    eg_mask g' = bg_advance (eg_mask g) (Z.of_nat (length key) * (w / 8)) /\
    lwe_wf w (length key) c /\ removelast c = mask_words w (eg_mask g) (length key) 0 /\
    decrypt_lwe p w key c = Ret ((m + e) mod 2 ^ w).
Proof.
  intros Hw Hm Hg Hk Ho E. destruct (C18_encrypt_decrypt p w gauss key output m g c g' Hw Hm Hg Hk Ho E) as (e & En & Egm & Hwf & Hd).
  exists e. repeat (split; [assumption|]). split; [|assumption].
  unfold encrypt_lwe in E. destruct (snoc_dec output _ Ho) as (om & ob & -> & Lo). rewrite split_last_snoc in E. cbn [obind] in E.
  destruct (fill_mask_and_body p w gauss key (length om) m g) as [[[mask body] g1]|] eqn:Ef; [|discriminate].
  cbn [obind] in E. injection E as <- <-. apply fill_mask_and_body_inv in Ef; try assumption.
  destruct Ef as (e' & -> & _). rewrite removelast_last. unfold mask_words. rewrite Z.mul_0_l, Z.add_0_r. congruence.
Qed.

Lemma zip_inv p w gauss key : 0 < w -> w mod 8 = 0 -> safe_key p key ->
  forall ms outs g cs g', egen_ok g -> length outs = length ms -> Forall (fun o => length o = S (length key)) outs ->
  encrypt_lwe_zip p w gauss key outs ms g = Ret (cs, g') ->
  exists es,
    generate_tensor (gaussian_one gauss) (length ms) (eg_noise g) = Ret (es, eg_noise g') /\
    eg_mask g' = bg_advance (eg_mask g) (Z.of_nat (length ms) * (Z.of_nat (length key) * (w / 8))) /\
    map (@removelast Z) cs = map (mask_words w (eg_mask g) (length key)) (zseq 0 (length ms)) /\
    Forall (lwe_wf w (length key)) cs /\
    decrypt_lwe_list p w key cs = Ret (map2 (fun m e => (m + e) mod 2 ^ w) ms es).
Proof.
  intros Hw Hm Hk. induction ms as [|m ms IH]; intros [|o outs] g cs g' Hg Hl Ho E; try discriminate.
  { cbn in E. injection E as <- <-. exists []. repeat split; auto. cbn. rewrite bg_advance_0. reflexivity. }
  inversion Ho as [|? ? Ho1 Ho2]; subst. cbn [encrypt_lwe_zip] in E.
  destruct (encrypt_lwe p w gauss key o m g) as [[c g1]|] eqn:E1; [|discriminate]. cbn [obind] in E.
  destruct (encrypt_lwe_zip p w gauss key outs ms g1) as [[cs1 g2]|] eqn:E2; [|discriminate]. cbn [obind] in E. injection E as <- <-.
  apply encrypt_lwe_inv in E1; try assumption. destruct E1 as (e & En & Egm & Hwf & Hr & Hd).
  apply IH in E2; try assumption; [|unfold egen_ok; rewrite Egm; exact Hg|cbn in Hl; lia].
  destruct E2 as (es & Es & Egm2 & Hr2 & Hwf2 & Hd2).
  exists (e :: es). cbn [length generate_tensor]. rewrite En. cbn [obind]. rewrite Es. cbn [obind].
  split; [reflexivity|]. split; [|split; [|split]].
  - rewrite Egm2, Egm, bg_advance_advance. f_equal. lia.
  - cbn [map zseq]. rewrite Hr. f_equal. rewrite Hr2. rewrite (zseq_shift 1 0), map_map. apply map_ext.
    intros i. unfold mask_words. rewrite Egm. cbn [bg_table bg_pos bg_advance]. f_equal. lia.
  - constructor; assumption.
  - unfold decrypt_lwe_list in *. cbn [omap]. rewrite Hd. cbn [obind]. rewrite Hd2. reflexivity.
Qed.

(** Sequential encryption of a vector: noise samples are drawn one after the other, ciphertext i
    decrypts to m_i + e_i and uses the i-th block of n mask words. *)
Theorem C21_vector_encryption : forall p w gauss key outs ms g cs g',
  0 < w -> w mod 8 = 0 -> safe_key p key -> egen_ok g ->
  length outs = length ms -> Forall (fun o => length o = S (length key)) outs ->
  encrypt_lwe_list p w gauss key outs ms g = Ret (cs, g') ->
  exists es,
    generate_tensor (gaussian_one gauss) (length ms) (eg_noise g) = Ret (es, eg_noise g') /\
    eg_mask g' = bg_advance (eg_mask g) (Z.of_nat (length ms) * (Z.of_nat (length key) * (w / 8))) /\
    map (@removelast Z) cs = map (mask_words w (eg_mask g) (length key)) (zseq 0 (length ms)) /\
    Forall (lwe_wf w (length key)) cs /\
    decrypt_lwe_list p w key cs = Ret (map2 (fun m e => (m + e) mod 2 ^ w) ms es).
Proof.
  intros p w gauss key outs ms g cs g' Hw Hm Hk Hg Hl Ho E. unfold encrypt_lwe_list in E.
  rewrite ck_dim_eq_ok in E by assumption. cbn [obind] in E. revert E. apply zip_inv; assumption.
Qed.
Print Assumptions C21_vector_encryption.

Lemma zip3_inv p w gauss key mg ng : 0 < w -> w mod 8 = 0 -> safe_key p key -> bytes_ok (bg_table mg) ->
  forall ms outs i gs cs, length outs = length ms -> Forall (fun o => length o = S (length key)) outs ->
  gs = map (fun j => EG (bg_window mg (j * (Z.of_nat (length key) * (w / 8))) (Z.of_nat (length key) * (w / 8))) (bg_window ng (j * 768) 768)) (zseq i (length ms)) ->
  encrypt_lwe_zip3 p w gauss key outs ms gs = Ret cs ->
  exists es,
    omap (fun j => let! (e, _) := gaussian_one gauss (bg_window ng (j * 768) 768) in Ret e) (zseq i (length ms)) = Ret es /\
    map (@removelast Z) cs = map (mask_words w mg (length key)) (zseq i (length ms)) /\
    Forall (lwe_wf w (length key)) cs /\
    decrypt_lwe_list p w key cs = Ret (map2 (fun m e => (m + e) mod 2 ^ w) ms es).
Proof.
  intros Hw Hm Hk Hg. induction ms as [|m ms IH]; intros [|o outs] i gs cs Hl Ho -> E; try discriminate.
  { cbn in E. injection E as <-. exists []. repeat split; auto. }
  inversion Ho as [|? ? Ho1 Ho2]; subst. cbn [encrypt_lwe_zip3 length zseq map] in E.
  match type of E with context [encrypt_lwe _ _ _ _ _ _ ?g] => set (g0 := g) in E end.
  destruct (encrypt_lwe p w gauss key o m g0) as [[c g1]|] eqn:E1; [|discriminate]. cbn [obind] in E.
  destruct (encrypt_lwe_zip3 p w gauss key outs ms _) as [cs1|] eqn:E2; [|discriminate]. cbn [obind] in E. injection E as <-.
  apply encrypt_lwe_inv in E1; try assumption. destruct E1 as (e & En & Egm & Hwf & Hr & Hd).
  apply IH with (i := i + 1) in E2; try assumption; [|cbn in Hl; lia|reflexivity].
  destruct E2 as (es & Es & Hr2 & Hwf2 & Hd2).
  exists (e :: es). cbn [length zseq omap]. change (eg_noise g0) with (bg_window ng (i * 768) 768) in En. rewrite En. cbn [obind]. rewrite Es. cbn [obind].
  split; [reflexivity|]. split; [|split].
  - cbn [map]. rewrite Hr, Hr2. f_equal. unfold mask_words, g0. cbn [eg_mask bg_table bg_pos bg_window]. f_equal. lia.
  - constructor; assumption.
  - unfold decrypt_lwe_list in *. cbn [omap]. rewrite Hd. cbn [obind]. rewrite Hd2. reflexivity.
Qed.

(** Parallel encryption of a vector: same masks and same mask generator afterwards as the sequential
    one; the noise of ciphertext i is drawn from bytes 768*i .. 768*(i+1) of the noise generator. *)
Theorem C21_parallel_vector_encryption : forall p w gauss key outs ms g cs g',
  0 < w -> w mod 8 = 0 -> safe_key p key -> egen_ok g -> (0 < length key)%nat ->
  length outs = length ms -> Forall (fun o => length o = S (length key)) outs ->
  Z.of_nat (length ms) * (Z.of_nat (length key) * (w / 8)) < 2 ^ 64 -> Z.of_nat (length ms) * 768 < 2 ^ 64 ->
  par_encrypt_lwe_list p w gauss key (S (length key)) outs ms g = Ret (cs, g') ->
  exists es,
    omap (fun j => let! (e, _) := gaussian_one gauss (bg_window (eg_noise g) (j * 768) 768) in Ret e) (zseq 0 (length ms)) = Ret es /\
    eg_mask g' = bg_advance (eg_mask g) (Z.of_nat (length ms) * (Z.of_nat (length key) * (w / 8))) /\
    map (@removelast Z) cs = map (mask_words w (eg_mask g) (length key)) (zseq 0 (length ms)) /\
    Forall (lwe_wf w (length key)) cs /\
    decrypt_lwe_list p w key cs = Ret (map2 (fun m e => (m + e) mod 2 ^ w) ms es).
Proof.
  intros p w gauss key outs ms g cs g' Hw Hm Hk Hg Hkn Hl Ho Hov Hov2 E. unfold par_encrypt_lwe_list in E.
  rewrite ck_dim_eq_ok in E by assumption. cbn [obind] in E.
  assert (Hw8 : 0 < w / 8) by lia. rewrite Hl in E.
  assert (Hmul : umul p (Z.of_nat (length key)) (w / 8) = Ret (Z.of_nat (length key) * (w / 8)) \/ length ms = 0%nat).
  { destruct (length ms) as [|k] eqn:Ek; [right; reflexivity|left]. apply umul_ok. unfold usize_bits. nia. }
  destruct (fork_lwe_list_to_lwe p w g (Z.of_nat (length ms)) (Z.of_nat (S (length key)))) as [[oc g1]|] eqn:Ef; [|discriminate].
  cbn [obind] in E. destruct oc as [gs|]; [|discriminate].
  destruct (encrypt_lwe_zip3 p w gauss key outs ms gs) as [cs1|] eqn:Ez; [|discriminate]. cbn [obind] in E. injection E as <- <-.
  unfold fork_lwe_list_to_lwe, mask_bytes_per_lwe, noise_bytes_per_lwe, noise_bytes_per_coef, mask_bytes_per_coef in Ef.
  replace (Z.of_nat (S (length key)) - 1) with (Z.of_nat (length key)) in Ef by lia.
  destruct (umul p (Z.of_nat (length key)) (w / 8)) as [mb|] eqn:Emb; [|discriminate]. cbn [obind] in Ef.
  rewrite umul_ok in Ef by (unfold usize_bits; lia). cbn [obind] in Ef. change (256 * 3) with 768 in Ef.
  destruct Hmul as [Hmul|H0].
  2: { exfalso. rewrite H0 in Ef. unfold eg_fork, bg_fork in Ef. cbn in Ef. discriminate. }
  injection Hmul as ->. unfold eg_fork in Ef.
  destruct (bg_fork p (eg_mask g) _ _) as [[[msk mask]|]|] eqn:Em in Ef; cbn [obind] in Ef; try discriminate.
  destruct (bg_fork p (eg_noise g) _ 768) as [[[ns noise]|]|] eqn:En in Ef; cbn [obind] in Ef; try discriminate.
  injection Ef as <- <-.
  apply bg_fork_inv in Em; [|lia|nia|assumption]. destruct Em as (_ & _ & Hle & -> & ->).
  apply bg_fork_inv in En; [|lia|lia|assumption]. destruct En as (_ & _ & _ & -> & ->).
  rewrite Nat2Z.id in Ez.
  apply zip3_inv with (mg := eg_mask g) (ng := eg_noise g) (i := 0) in Ez; try assumption.
  - destruct Ez as (es & Es & Hr & Hwf & Hd). exists es. split; [exact Es|]. split; [reflexivity|]. auto.
  - clear. generalize 0. induction (length ms) as [|k IH]; intros i; [reflexivity|]. cbn [zseq map map2]. rewrite IH. reflexivity.
Qed.
Print Assumptions C21_parallel_vector_encryption.

(** Hence, for the same generator state, both use the same masks. *)
Theorem C21_parallel_same_masks : forall p w gauss key outs ms g cs g1 cs' g2,
  0 < w -> w mod 8 = 0 -> safe_key p key -> egen_ok g -> (0 < length key)%nat ->
  length outs = length ms -> Forall (fun o => length o = S (length key)) outs ->
  Z.of_nat (length ms) * (Z.of_nat (length key) * (w / 8)) < 2 ^ 64 -> Z.of_nat (length ms) * 768 < 2 ^ 64 ->
  encrypt_lwe_list p w gauss key outs ms g = Ret (cs, g1) ->
  par_encrypt_lwe_list p w gauss key (S (length key)) outs ms g = Ret (cs', g2) ->
  map (@removelast Z) cs = map (@removelast Z) cs' /\ eg_mask g1 = eg_mask g2.
Proof.
  intros p w gauss key outs ms g cs g1 cs' g2 Hw Hm Hk Hg Hkn Hl Ho Hov Hov2 E1 E2.
  apply C21_vector_encryption in E1; try assumption. apply C21_parallel_vector_encryption in E2; try assumption.
  destruct E1 as (es & _ & G1 & R1 & _). destruct E2 as (es' & _ & G2 & R2 & _). split; congruence.
Qed.
Print Assumptions C21_parallel_same_masks.

(** But the bodies may differ: the two versions do not read the noise generator at the same places. *)
Theorem C21_parallel_same_bodies_refuted : exists key ms,
  let outs := map (fun _ => [0; 0]) ms in
  match encrypt_lwe_list Debug 32 demo_gauss key outs ms demo_gen,
        par_encrypt_lwe_list Debug 32 demo_gauss key 2 outs ms (EG (eg_mask demo_gen) (BG (bg_table (eg_noise demo_gen)) 0 4000)) with
  | Ret (cs, _), Ret (cs', _) => map (@removelast Z) cs = map (@removelast Z) cs' /\ cs <> cs'
  | _, _ => False
  end.
Proof. exists [1], [5; 6]. vm_compute. split; [reflexivity|discriminate]. Qed.
Print Assumptions C21_parallel_same_bodies_refuted.

Example C21_case :
  let key := [1; 0; 1] in let ms := [2 ^ 30; 7; 2 ^ 31] in
  match encrypt_lwe_list Debug 32 demo_gauss key (map (fun _ => [0; 0; 0; 0]) ms) ms demo_gen with
  | Ret (cs, g') => length cs = 3%nat /\ bg_pos (eg_mask g') = 36 /\
      match generate_tensor (gaussian_one demo_gauss) 3 (eg_noise demo_gen) with
      | Ret (es, _) => es = [98; 66; 34] /\ decrypt_lwe_list Debug 32 key cs = Ret [2 ^ 30 + 98; 7 + 66; 2 ^ 31 + 34]
      | Panic => False
      end
  | Panic => False
  end.
Proof. vm_compute. repeat split. Qed.

(** ** C22 *)
Fixpoint chosen_sum (choice es : list Z) : Z :=
  match choice, es with b :: choice', e :: es' => b * e + chosen_sum choice' es' | _, _ => 0 end.

(** For any public key [pk] whose i-th ciphertext has phase [z_i], every plaintext and every random
    choice: the result has phase m + (sum of the chosen z_i). *)
Theorem C22_public_encryption : forall p w n s pk output m sg c sg',
  0 <= w -> Forall (fun z => length z = S n) pk -> length output = S n ->
  discard_encrypt_public p w pk output m sg = Ret (c, sg') ->
  exists choice, generate_tensor uniform_binary_one (length pk) sg = Ret (choice, sg') /\
    length choice = length pk /\ Forall (fun b => b = 0 \/ b = 1) choice /\ length c = S n /\
    phase w s c = (m + chosen_sum choice (map (phase w s) pk)) mod 2 ^ w.
Proof.
  intros p w n s pk output m sg c sg' Hw Hpk Ho E. unfold discard_encrypt_public in E.
  destruct (snoc_dec output _ Ho) as (om & ob & -> & Lo).
  unfold fill_with_trivial_encryption in E. rewrite split_last_snoc in E. cbn [obind] in E.
  destruct (generate_tensor uniform_binary_one (length pk) sg) as [[choice sg1]|] eqn:Ec; [|discriminate]. cbn [obind] in E.
  destruct (C18_generated_keys_are_safe Debug (length pk) sg choice sg1 Ec) as [[Hx|Hb] Hl]; [discriminate|].
  destruct (add_chosen p w _ choice pk) as [o|] eqn:Ea; [|discriminate]. cbn [obind] in E. injection E as <- <-.
  exists choice. split; [reflexivity|]. split; [exact Hl|]. split; [exact Hb|].
  set (t := map (fun _ => 0) om ++ [m]) in *.
  assert (Ht : length t = S n) by (unfold t; rewrite app_length, map_length; cbn; lia).
  assert (Hp : eqm (2 ^ w) (raw s t) m).
  { unfold t. rewrite raw_snoc. apply eqm_eq. enough (dot (map (fun _ => 0) om) s = 0) by lia. clear. revert s.
    induction om as [|x om IH]; intros [|y s]; cbn [map dot]; auto. rewrite IH. reflexivity. }
  assert (G : length o = S n /\ eqm (2 ^ w) (raw s o) (raw s t + chosen_sum choice (map (phase w s) pk))).
  { clear Ec Hp. clearbody t. revert t choice Hl Hb Ht Ea. induction Hpk as [|z pk Hz Hpk IH]; intros t choice Hl Hb Ht Ea.
    { destruct choice; [|discriminate]. cbn in Ea. injection Ea as <-. split; [assumption|]. cbn. apply eqm_eq. lia. }
    destruct choice as [|b choice]; [discriminate|]. pose proof (Forall_inv Hb) as Hb1. pose proof (Forall_inv_tail Hb) as Hb2. cbn [add_chosen] in Ea.
    destruct Hb1 as [->| ->].
    - cbn [Z.eqb obind] in Ea. apply IH in Ea; [|cbn in Hl; lia|assumption|assumption]. destruct Ea as [L1 P1].
      split; [exact L1|]. rewrite P1. cbn [map chosen_sum]. apply eqm_eq. lia.
    - change (1 =? 1) with true in Ea. cbv iota in Ea. rewrite add_ok in Ea by lia. cbn [obind] in Ea.
      apply IH in Ea; [|cbn in Hl; lia|assumption|rewrite map2_length; lia]. destruct Ea as [L1 P1].
      split; [exact L1|]. rewrite P1. cbn [map chosen_sum].
      rewrite (raw_map2 (2 ^ w) (wadd w) 1 1 n) by (auto; intros; rewrite wadd_eqm; apply eqm_eq; ring).
      rewrite (phase_eqm w s z). apply eqm_eq. ring. }
  destruct G as [L1 P1]. split; [exact L1|]. apply phase_eq. rewrite P1, Hp. reflexivity.
Qed.
Print Assumptions C22_public_encryption.

(** With a generated public key the error is the sum of the chosen encryption noises. *)
Theorem C22_generated_public_key : forall p w gauss key count g pk g' output m sg c sg',
  0 < w -> w mod 8 = 0 -> safe_key p key -> egen_ok g -> length output = S (length key) ->
  generate_new_lwe_public_key p w gauss key count g = Ret (pk, g') ->
  discard_encrypt_public p w pk output m sg = Ret (c, sg') ->
  exists choice es,
    generate_tensor (gaussian_one gauss) count (eg_noise g) = Ret (es, eg_noise g') /\
    generate_tensor uniform_binary_one count sg = Ret (choice, sg') /\
    Forall (fun b => b = 0 \/ b = 1) choice /\
    phase w key c = (m + chosen_sum choice es) mod 2 ^ w.
Proof.
  intros p w gauss key count g pk g' output m sg c sg' Hw Hm Hk Hg Ho Epk E.
  unfold generate_new_lwe_public_key, zero_encrypt_vector in Epk.
  apply C21_vector_encryption in Epk; try assumption.
  2: { rewrite !repeat_length. reflexivity. }
  2: { apply Forall_forall. intros o Hin. apply repeat_spec in Hin. subst. apply repeat_length. }
  destruct Epk as (es & Es & _ & Hr & Hwf & Hd). rewrite repeat_length in *.
  assert (Hlen : length pk = count).
  { rewrite <- (map_length (@removelast Z) pk), Hr, map_length, zseq_len. reflexivity. }
  assert (Hpk : Forall (fun z => length z = S (length key)) pk).
  { eapply Forall_impl; [|exact Hwf]. intros z Hz. apply Hz. }
  destruct (C22_public_encryption p w (length key) key pk output m sg c sg' ltac:(lia) Hpk Ho E) as (choice & Ec & Hl & Hb & _ & P).
  exists choice, es. rewrite Hlen in Ec. split; [exact Es|]. split; [exact Ec|]. split; [exact Hb|]. rewrite P.
  assert (Ephase : decrypt_lwe_list p w key pk = Ret (map (phase w key) pk)).
  { unfold decrypt_lwe_list. apply omap_ok. intros z Hz. rewrite Forall_forall in Hwf. apply decrypt_phase; auto. lia. }
  rewrite Ephase in Hd. injection Hd as Hd. rewrite Hd.
  assert (Hle : length es = count).
  { apply (generate_tensor_table (gaussian_one gauss) count (eg_noise g) es (eg_noise g')); [|exact Es].
    intros gg x gg' Eg. unfold gaussian_one in Eg. destruct (gaussian_pair gauss gg) as [[[a b] g1]|] eqn:Ep; [|discriminate].
    cbn [obind] in Eg. injection Eg as <- <-. apply C09_gaussian_pair in Ep. destruct Ep as (j & _ & -> & _). reflexivity. }
  change (eqm (2 ^ w) (m + chosen_sum choice (map2 (fun m0 e => (m0 + e) mod 2 ^ w) (repeat 0 count) es)) (m + chosen_sum choice es)).
  enough (H : eqm (2 ^ w) (chosen_sum choice (map2 (fun m0 e => (m0 + e) mod 2 ^ w) (repeat 0 count) es)) (chosen_sum choice es)) by (rewrite H; reflexivity).
  clear - Hle. revert es count Hle. induction choice as [|b choice IH]; intros [|e es] [|count] H; try discriminate; try reflexivity.
  cbn [repeat map2 chosen_sum]. rewrite IH by (cbn in H; lia). rewrite eqm_mod. reflexivity.
Qed.
Print Assumptions C22_generated_public_key.

Example C22_case :
  let key := [1; 0; 1] in
  match generate_new_lwe_public_key Debug 32 demo_gauss key 3 demo_gen with
  | Ret (pk, _) =>
      match discard_encrypt_public Debug 32 pk [9; 9; 9; 9] (2 ^ 31) (BG (fun q => q mod 256) 1 100) with
      | Ret (c, _) => phase 32 key c = 2 ^ 31 + 98 + 34
      | Panic => False
      end
  | Panic => False
  end.
Proof. vm_compute. reflexivity. Qed.
