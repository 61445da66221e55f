(** * C30: LWE keyswitch *)
From Verif Require Import Base Word WordFacts NegaRing PolySpec RingSum DecompModel DecompProofs DecompTheorems ExtProdProofs ExtProdTheorems
  RandomModel LweSpec LweModel LweProofs LweTheorems LweVectorTheorems GlweTheorems GgswTheorems NoiseBounds BootstrapTheorems KeyswitchModel KeyswitchSpec KeyswitchProofs.

Lemma sdigits_gadget w b l x : dec_wf w (Dec b l) -> is_word w x ->
  gadget_digits w b l x (closest_representable w (Dec b l) x) (fun j => sdigit w (Dec b l) (l - 1 - j) x).
Proof.
  intros Hd Hx. split; [|split].
  - intros j Hj. apply (xdigit_spec w (Dec b l) x (l - 1 - j) Hd Hx). cbn [level_count]. lia.
  - rewrite <- (sdigit_recompose w (Dec b l) x Hd Hx). cbn [level_count base_log]. apply sumz_eqm. intros j Hj.
    apply eqm_eq. rewrite Z2Nat.id by lia. ring.
  - destruct (closest_error w (Dec b l) Hd x Hx) as (e & E & He). cbn [level_count base_log] in He. exists e.
    split; [lia|exact E].
Qed.

(** A total congruent to [v] up to a small [e]. *)
Lemma torus_dist_le w x y e B : 0 < w -> eqm (2 ^ w) y (x + e) -> Z.abs e <= B -> torus_dist w x y <= B.
Proof.
  intros Hw E He. unfold torus_dist. pose proof (pow2_pos w ltac:(lia)) as Hp.
  assert (E1 : (y - x) mod 2 ^ w = e mod 2 ^ w).
  { change (eqm (2 ^ w) (y - x) e). rewrite E. apply eqm_eq. lia. }
  assert (E2 : (x - y) mod 2 ^ w = (- e) mod 2 ^ w).
  { change (eqm (2 ^ w) (x - y) (- e)). rewrite E. apply eqm_eq. lia. }
  rewrite E1, E2. set (q := 2 ^ w) in *. clearbody q.
  destruct (Z.le_gt_cases 0 e).
  - pose proof (Z.mod_le e q ltac:(lia) Hp). lia.
  - pose proof (Z.mod_le (- e) q ltac:(lia) Hp). lia.
Qed.

Lemma lwe_sub_element_mul_ok p w n key o r x : 0 <= w -> lwe_wf w n o -> lwe_wf w n r ->
  exists o', sub_element_mul p w o r x = Ret o' /\ lwe_wf w n o' /\
    forall k : unit, eqm (2 ^ w) (raw key o') (raw key o - x * raw key r).
Proof.
  intros Hw [Ho Hoa] [Hr Hra]. unfold sub_element_mul. rewrite ck_dim_eq_ok by congruence. cbn [obind].
  eexists. split; [reflexivity|]. rewrite zip_update_map2 by congruence. split.
  - split; [rewrite map2_length; lia|]. apply words_map2. intros. apply wsub_word. assumption.
  - intros _. rewrite (raw_map2 (2 ^ w) _ 1 (- x) n); [apply eqm_eq; ring| |assumption|assumption].
    intros a c. rewrite wsub_eqm, wmul_eqm. apply eqm_eq. ring.
Qed.

Lemma nth_snoc_lt {A} (m : list A) a i d : (i < length m)%nat -> nth i (m ++ [a]) d = nth i m d.
Proof. intros. apply app_nth1. assumption. Qed.

(** The digits which the loop uses are those of the decomposition of the mask. *)
Lemma keyswitch_digits p w b l key s noise ksk after before :
  dec_wf w (Dec b l) -> ksk_encrypts w b l key s noise ksk ->
  lwe_wf w (length s) before -> length after = S (length key) ->
  exists out,
    keyswitch_ciphertext p w b l (length key) ksk after before = Ret out /\
    lwe_wf w (length key) out /\
    phase w key out =
      (last before 0 - zsum (length s) (fun i => closest_representable w (Dec b l) (nth i before 0) * nth i s 0)
       - zsum (length s) (fun i => zsum l (fun j => sdigit w (Dec b l) (l - 1 - j) (nth i before 0) * noise i j))) mod 2 ^ w.
Proof.
  intros Hd [Hkl Hk] [Hbl Hbw] Hal.
  pose proof Hd as (H1 & H2 & H3 & H4). cbn [base_log level_count] in *. assert (Hw : 0 < w) by nia.
  destruct (snoc_dec before _ Hbl) as (mask & body & -> & Hml). destruct (snoc_dec after _ Hal) as (mask0 & body0 & -> & Hm0).
  apply Forall_app in Hbw. destruct Hbw as [Hmw Hbw]. apply Forall_inv in Hbw.
  unfold keyswitch_ciphertext. rewrite !split_last_snoc. cbn [obind]. rewrite !ck_dim_eq_ok by congruence. cbn [obind].
  rewrite dec_new_ok by assumption. cbn [obind].
  set (d := Dec b l) in *.
  assert (Hz : lwe_wf w (length key) (map (fun _ => 0) mask0 ++ [body])).
  { split; [rewrite app_length, map_length; cbn; lia|]. apply Forall_app. split; [|constructor; [assumption|constructor]].
    apply words_map. intros _. split; [lia|apply pow2_pos; lia]. }
  destruct (ks_blocks_ok p w d Hd (sub_element_mul p w) (lwe_wf w (length key)) (fun _ : unit => raw key)
     ltac:(intros; apply lwe_sub_element_mul_ok; auto; lia) [] ksk mask (map (fun _ => 0) mask0 ++ [body])) as (out & E & Ho & P).
  - congruence.
  - assumption.
  - apply Forall_forall. intros bl Hin. apply In_nth_error in Hin. destruct Hin as [i Hi]. destruct (Hk i bl Hi) as [Hl1 Hl2].
    split; [assumption|]. apply Forall_forall. intros row Hrow. apply In_nth_error in Hrow. destruct Hrow as [j Hj]. apply (Hl2 j row Hj).
  - assumption.
  - exists out. split; [exact E|]. split; [assumption|].
    assert (Hnw : forall i, is_word w (nth i mask 0)).
    { intros i. destruct (nth_in_or_default i mask 0) as [Hin| ->]; [|split; [lia|apply pow2_pos; lia]].
      rewrite Forall_forall in Hmw. apply Hmw. assumption. }
    rewrite (zsum_ext (length s) (fun i => zsum l (fun j => sdigit w d (l - 1 - j) (nth i (mask ++ [body]) 0) * noise i j))
       (fun i => zsum l (fun j => sdigit w d (l - 1 - j) (nth i mask 0) * noise i j))) by (intros i Hi; rewrite nth_snoc_lt by lia; reflexivity).
    apply phase_eq. rewrite (P tt). rewrite raw_snoc.
    assert (E0 : eqm (2 ^ w) (dot (map (fun _ => 0) mask0) key) 0).
    { rewrite (dot_map (2 ^ w) _ 0) by (intros; reflexivity). apply eqm_eq. lia. }
    rewrite E0. rewrite last_last. change (level_count d) with l. rewrite Hml.
    rewrite (zsum_eqm (2 ^ w) (length s)
       (fun i => zsum l (fun j => sdigit w d (l - 1 - j) (nth i mask 0) * raw key (nth j (nth i ksk []) [])))
       (fun i => closest_representable w d (nth i (mask ++ [body]) 0) * nth i s 0
                 + zsum l (fun j => sdigit w d (l - 1 - j) (nth i mask 0) * noise i j))).
    { rewrite zsum_add. apply eqm_eq. lia. }
    intros i Hi. rewrite nth_snoc_lt by lia.
    destruct (sdigits_gadget w b l (nth i mask 0) Hd (Hnw i)) as (_ & Hsum & _). fold d in Hsum.
    rewrite <- Hsum. rewrite <- zsum_mul_r, <- zsum_add. apply zsum_eqm. intros j Hj.
    destruct (nth_error ksk i) as [bl|] eqn:Ebl; [|apply nth_error_None in Ebl; lia].
    destruct (Hk i bl Ebl) as [Hl1 Hl2]. destruct (nth_error bl j) as [row|] eqn:Erow; [|apply nth_error_None in Erow; lia].
    destruct (Hl2 j row Erow) as [_ Hph].
    rewrite (nth_error_nth _ _ _ Ebl), (nth_error_nth _ _ _ Erow).
    rewrite <- (phase_eqm w key row), Hph, eqm_mod. apply eqm_eq. ring.
Qed.

(** Whatever the output held before, keyswitching succeeds and the result decrypts to
    b - sum closest(a_i)*s_i minus the digit-weighted sum of the noises of the key. *)
Theorem C30_keyswitch : forall p w b l key s noise ksk after before,
  dec_wf w (Dec b l) -> ksk_encrypts w b l key s noise ksk ->
  lwe_wf w (length s) before -> length after = S (length key) ->
  exists out D,
    keyswitch_ciphertext p w b l (length key) ksk after before = Ret out /\
    lwe_wf w (length key) out /\
    (forall i, (i < length s)%nat ->
       gadget_digits w b l (nth i before 0) (closest_representable w (Dec b l) (nth i before 0)) (D i)) /\
    phase w key out =
      (last before 0 - zsum (length s) (fun i => closest_representable w (Dec b l) (nth i before 0) * nth i s 0)
       - zsum (length s) (fun i => zsum l (fun j => D i j * noise i j))) mod 2 ^ w.
Proof.
  intros p w b l key s noise ksk after before Hd Hk Hb Hal. destruct (keyswitch_digits p w b l key s noise ksk after before Hd Hk Hb Hal) as (out & E & Ho & P).
  exists out, (fun i j => sdigit w (Dec b l) (l - 1 - j) (nth i before 0)). split; [exact E|]. split; [exact Ho|]. split; [|exact P].
  intros i Hi. apply sdigits_gadget; [exact Hd|]. destruct Hb as [Hl Hw]. rewrite Forall_forall in Hw. apply Hw, nth_In. lia.
Qed.
Print Assumptions C30_keyswitch.

(** Consequently the decryption moves by at most n*2^(w-bl-1) + n*l*2^(b-1)*beta on the torus. *)
Theorem C30_error_bound : forall p w b l key s noise beta ksk after before,
  dec_wf w (Dec b l) -> ksk_encrypts w b l key s noise ksk -> binary s ->
  (forall i j, (i < length s)%nat -> (j < l)%nat -> Z.abs (noise i j) <= beta) ->
  lwe_wf w (length s) before -> length after = S (length key) ->
  exists out,
    keyswitch_ciphertext p w b l (length key) ksk after before = Ret out /\
    lwe_wf w (length key) out /\
    torus_dist w (phase w s before) (phase w key out)
      <= Z.of_nat (length s) * 2 ^ (w - b * Z.of_nat l - 1) + Z.of_nat (length s) * Z.of_nat l * 2 ^ (b - 1) * beta.
Proof.
  intros p w b l key s noise beta ksk after before Hd Hk Hbin Hbeta Hb Ha.
  destruct (C30_keyswitch p w b l key s noise ksk after before Hd Hk Hb Ha) as (out & D & E & Ho & HD & HP).
  exists out. split; [assumption|]. split; [assumption|].
  pose proof Hd as (H1 & H2 & H3 & H4). cbn [base_log level_count] in *.
  destruct Hb as [Hbl Hbw]. destruct (snoc_dec before _ Hbl) as (mask & body & -> & Hml).
  set (n := length s) in *. rewrite last_last in HP.
  destruct (list_choice (fun i e => Z.abs e <= 2 ^ (w - b * Z.of_nat l - 1) /\
     eqm (2 ^ w) (closest_representable w (Dec b l) (nth i (mask ++ [body]) 0)) (nth i (mask ++ [body]) 0 + e)) 0 n) as (es & Hel & Hes).
  { intros i Hi. destruct (HD i Hi) as (_ & _ & e & He). exists e. exact He. }
  apply (torus_dist_le w _ _ (- zsum n (fun i => nth i es 0 * nth i s 0) - zsum n (fun i => zsum l (fun j => D i j * noise i j)))); [nia| |].
  - rewrite HP, eqm_mod. rewrite phase_eqm, raw_snoc, dot_zsum by exact Hml. rewrite Hml.
    rewrite (zsum_eqm (2 ^ w) n (fun i => closest_representable w (Dec b l) (nth i (mask ++ [body]) 0) * nth i s 0)
       (fun i => nth i mask 0 * nth i s 0 + nth i es 0 * nth i s 0)).
    + rewrite zsum_add. apply eqm_eq. lia.
    + intros i Hi. destruct (Hes i Hi) as [_ Ee]. rewrite Ee, nth_snoc_lt by lia. apply eqm_eq. ring.
  - pose proof (pow2_pos (b - 1) ltac:(lia)) as Hpb. pose proof (pow2_pos (w - b * Z.of_nat l - 1) ltac:(lia)) as Hpw.
    assert (A1 : Z.abs (zsum n (fun i => nth i es 0 * nth i s 0)) <= Z.of_nat n * 2 ^ (w - b * Z.of_nat l - 1)).
    { apply zsum_le_const. intros i Hi. destruct (Hes i Hi) as [He _].
      assert (Hs : nth i s 0 = 0 \/ nth i s 0 = 1) by (unfold binary in Hbin; rewrite Forall_forall in Hbin; apply Hbin, nth_In; assumption).
      destruct Hs as [-> | ->]; lia. }
    assert (A2 : Z.abs (zsum n (fun i => zsum l (fun j => D i j * noise i j))) <= Z.of_nat n * (Z.of_nat l * (2 ^ (b - 1) * beta))).
    { apply zsum_le_const. intros i Hi. apply zsum_le_const. intros j Hj. rewrite Z.abs_mul.
      destruct (HD i Hi) as (HDb & _ & _). specialize (HDb j Hj). specialize (Hbeta i j Hi Hj). nia. }
    lia.
Qed.
Print Assumptions C30_error_bound.

(** The previous content of the output plays no role. *)
Theorem C30_ignores_output : forall p w b l n_out ksk after after' before, length after = length after' ->
  keyswitch_ciphertext p w b l n_out ksk after before = keyswitch_ciphertext p w b l n_out ksk after' before.
Proof.
  intros p w b l n_out ksk after after' before Hl. unfold keyswitch_ciphertext.
  destruct (split_last before) as [[mask body]|]; [|reflexivity]. cbn [obind].
  destruct after as [|a1 after], after' as [|a2 after']; try discriminate; [reflexivity|].
  cbn [length] in Hl.
  destruct (snoc_dec (a1 :: after) (length after) eq_refl) as (m1 & b1 & -> & L1).
  destruct (snoc_dec (a2 :: after') (length after)) as (m2 & b2 & -> & L2); [cbn; lia|].
  rewrite !split_last_snoc. cbn [obind]. rewrite L1, L2.
  replace (map (fun _ : Z => 0) m1) with (map (fun _ : Z => 0) m2); [reflexivity|].
  assert (Hc : forall (l1 l2 : list Z), length l1 = length l2 -> map (fun _ : Z => 0) l1 = map (fun _ : Z => 0) l2).
  { clear. induction l1 as [|x l1 IH]; intros [|y l2] H; try discriminate; [reflexivity|]. cbn. f_equal. apply IH. cbn in H. lia. }
  apply Hc. congruence.
Qed.
Print Assumptions C30_ignores_output.

(** Keyswitching a vector is keyswitching each of its elements. *)
Theorem C30_vector : forall p w b l n_out ksk output input outs, length output = length input ->
  (keyswitch_list p w b l n_out ksk output input = Ret outs <->
   length outs = length input /\
   forall i o c r, nth_error output i = Some o -> nth_error input i = Some c -> nth_error outs i = Some r ->
     keyswitch_ciphertext p w b l n_out ksk o c = Ret r).
Proof.
  intros p w b l n_out ksk output input outs Hl. unfold keyswitch_list. rewrite ck_dim_eq_ok by congruence. cbn [obind].
  revert input outs Hl. induction output as [|o output IH]; intros [|c input] outs Hl; try discriminate; cbn [ozip_update].
  - split.
    + intros [= <-]. split; [reflexivity|]. intros [|i]; discriminate.
    + intros [H _]. destruct outs; [reflexivity|discriminate].
  - split.
    + intros E. destruct (keyswitch_ciphertext p w b l n_out ksk o c) as [r|] eqn:E1; [|discriminate]. cbn [obind] in E.
      destruct (ozip_update (keyswitch_ciphertext p w b l n_out ksk) output input) as [rs|] eqn:E2; [|discriminate].
      cbn [obind] in E. injection E as <-. apply IH in E2; [|cbn in Hl; lia]. destruct E2 as [L F]. split; [cbn; lia|].
      intros [|i] o' c' r' Ho Hc Hr; cbn [nth_error] in *.
      * congruence.
      * eapply F; eassumption.
    + intros [L F]. destruct outs as [|r outs]; [discriminate|].
      rewrite (F O o c r eq_refl eq_refl eq_refl). cbn [obind].
      destruct (IH input outs) as [_ IH2]; [cbn in Hl; lia|]. rewrite IH2; [reflexivity|]. split; [cbn in L; lia|].
      intros i o' c' r' Ho Hc Hr. apply (F (S i) o' c' r'); assumption.
Qed.
Print Assumptions C30_vector.

(** ** Generated keys *)
Lemma ks_messages_ok p w b l bit : dec_wf w (Dec b l) ->
  ks_messages p w b l bit = Ret (map (fun j => shl w bit (w - b * Z.of_nat j)) (seq 1 l)).
Proof.
  intros Hd. unfold ks_messages. apply omap_ok. intros j Hj. apply in_seq in Hj.
  apply (summand_ok p w (Dec b l) j bit Hd). cbn [level_count]. lia.
Qed.

Lemma generate_tensor_app one n m g : generate_tensor one (n + m) g =
  let! (l1, g) := generate_tensor one n g in let! (l2, g) := generate_tensor one m g in Ret (l1 ++ l2, g).
Proof.
  revert g. induction n as [|n IH]; intros g; cbn [Nat.add generate_tensor obind].
  - destruct (generate_tensor one m g) as [[l2 g2]|]; reflexivity.
  - destruct (one g) as [[a g1]|]; [|reflexivity]. cbn [obind]. rewrite IH.
    destruct (generate_tensor one n g1) as [[l1 g2]|]; [|reflexivity]. cbn [obind].
    destruct (generate_tensor one m g2) as [[l2 g3]|]; reflexivity.
Qed.
Lemma generate_tensor_length one : forall n g l g', generate_tensor one n g = Ret (l, g') -> length l = n.
Proof.
  induction n as [|n IH]; intros g l g' E; cbn [generate_tensor] in E; [injection E as <- <-; reflexivity|].
  destruct (one g) as [[a g1]|]; [|discriminate]. cbn [obind] in E.
  destruct (generate_tensor one n g1) as [[l1 g2]|] eqn:E1; [|discriminate]. cbn [obind] in E. injection E as <- <-.
  cbn. f_equal. eapply IH. eassumption.
Qed.

Lemma decrypt_list_phases p w key : 0 <= w -> safe_key p key -> forall cs, Forall (lwe_wf w (length key)) cs ->
  decrypt_lwe_list p w key cs = Ret (map (phase w key) cs).
Proof.
  intros Hw Hk cs Hc. unfold decrypt_lwe_list. apply omap_ok. rewrite Forall_forall in Hc. intros c Hin.
  apply decrypt_phase; auto.
Qed.

(** The key generated for (s, key) encrypts s: the noises are the n*l successive samples of the noise
    generator. *)
Theorem C30_generated_key : forall p w gauss b l s key g ksk g',
  dec_wf w (Dec b l) -> w mod 8 = 0 -> safe_key p key -> egen_ok g ->
  generate_new_lwe_keyswitch_key p w gauss b l s key g = Ret (ksk, g') ->
  exists es,
    generate_tensor (gaussian_one gauss) (length s * l) (eg_noise g) = Ret (es, eg_noise g') /\
    length es = (length s * l)%nat /\
    ksk_encrypts w b l key s (fun i j => nth (i * l + j) es 0) ksk.
Proof.
  intros p w gauss b l s key g ksk g' Hd Hw8 Hk Hg E.
  pose proof Hd as (H1 & H2 & H3 & H4). cbn [base_log level_count] in *. assert (Hw : 0 < w) by nia.
  unfold generate_new_lwe_keyswitch_key in E. revert g ksk g' Hg E.
  induction s as [|x s IH]; intros g ksk g' Hg E; cbn [length repeat fill_with_keyswitch_key] in E.
  - injection E as <- <-. exists []. split; [reflexivity|]. split; [reflexivity|]. split; [reflexivity|]. intros [|i]; discriminate.
  - rewrite ks_messages_ok in E by assumption. cbn [obind] in E.
    destruct (encrypt_lwe_list p w gauss key _ _ g) as [[block g1]|] eqn:E1; [|discriminate]. cbn [obind] in E.
    destruct (fill_with_keyswitch_key p w gauss b l key s _ g1) as [[rest g2]|] eqn:E2; [|discriminate].
    cbn [obind] in E. injection E as <- <-.
    apply C21_vector_encryption in E1; try assumption.
    2: { rewrite repeat_length, map_length, seq_length. reflexivity. }
    2: { apply Forall_forall. intros o Ho. apply repeat_spec in Ho. subst o. cbn. rewrite repeat_length. reflexivity. }
    rewrite map_length, seq_length in E1. destruct E1 as (es1 & En1 & Em1 & _ & Hwf1 & Hdec).
    apply IH in E2; [|unfold egen_ok; rewrite Em1; exact Hg]. destruct E2 as (es2 & En2 & Hl2 & Hk2 & Hk3).
    pose proof (generate_tensor_length _ _ _ _ _ En1) as Hl1.
    exists (es1 ++ es2). split; [|split; [|split]].
    + cbn [Nat.mul length]. rewrite generate_tensor_app, En1. cbn [obind]. rewrite En2. reflexivity.
    + rewrite app_length. cbn [length]. lia.
    + cbn [length]. congruence.
    + rewrite decrypt_list_phases in Hdec by (assumption || lia). injection Hdec as Hdec.
      intros [|i] blk Hi; cbn [nth_error] in Hi.
      * injection Hi as <-.
        assert (Hbl : length block = l).
        { apply (f_equal (@length Z)) in Hdec. rewrite map_length, map2_length, map_length, seq_length, Hl1 in Hdec. lia. }
        split; [assumption|]. intros j row Hj.
        pose proof (nth_error_In _ _ Hj) as Hin. assert (Hjl : (j < l)%nat) by (rewrite <- Hbl; apply nth_error_Some; congruence).
        split; [rewrite Forall_forall in Hwf1; auto|].
        assert (Hj' : nth_error (map (phase w key) block) j = Some (phase w key row)) by (apply map_nth_error; assumption).
        rewrite Hdec, nth_error_map2 in Hj'. rewrite nth_error_map in Hj'.
        rewrite (nth_error_nth' (seq 1 l) O) in Hj' by (rewrite seq_length; assumption). rewrite seq_nth in Hj' by assumption.
        cbn [option_map] in Hj'. rewrite (nth_error_nth' es1 0) in Hj' by lia. injection Hj' as Hj'. rewrite <- Hj'.
        cbn [nth Nat.mul Nat.add]. rewrite app_nth1 by lia.
        change (eqm (2 ^ w) (shl w x (w - b * Z.of_nat (S j)) + nth j es1 0) (x * 2 ^ (w - b * (Z.of_nat j + 1)) + nth j es1 0)).
        rewrite shl_eqm. replace (Z.of_nat (S j)) with (Z.of_nat j + 1) by lia. reflexivity.
      * destruct (Hk3 i blk Hi) as [Hb1 Hb2]. split; [assumption|]. intros j row Hj. destruct (Hb2 j row Hj) as [W P]. split; [assumption|].
        rewrite P. cbn [nth]. rewrite app_nth2 by nia. replace (S i * l + j - length es1)%nat with (i * l + j)%nat by lia. reflexivity.
Qed.
Print Assumptions C30_generated_key.

Lemma generate_gaussian_small w beta gauss : gauss_small w beta gauss -> forall n g l g',
  generate_tensor (gaussian_one gauss) n g = Ret (l, g') -> Forall (fun x => Z.abs (sgn w x) <= beta) l.
Proof.
  intros Hg. induction n as [|n IH]; intros g l g' E; cbn [generate_tensor] in E; [injection E as <- <-; constructor|].
  destruct (gaussian_one gauss g) as [[a g1]|] eqn:E0; [|discriminate]. cbn [obind] in E.
  destruct (generate_tensor (gaussian_one gauss) n g1) as [[l1 g2]|] eqn:E1; [|discriminate]. cbn [obind] in E. injection E as <- <-.
  constructor; [|eapply IH; eassumption]. unfold gaussian_one, gaussian_pair in E0.
  destruct (gaussian_loop gauss _ g) as [[[u v] g3]|] eqn:E3; [|discriminate]. cbn [obind] in E0. injection E0 as <- <-.
  apply (gaussian_loop_small w beta) in E3; [apply E3|assumption].
Qed.

Lemma ksk_encrypts_ext w b l key s noise noise' ksk :
  (forall i j, (i < length s)%nat -> (j < l)%nat -> eqm (2 ^ w) (noise i j) (noise' i j)) ->
  ksk_encrypts w b l key s noise ksk -> ksk_encrypts w b l key s noise' ksk.
Proof.
  intros H [Hl Hk]. split; [assumption|]. intros i bl Hi. destruct (Hk i bl Hi) as [H1 H2]. split; [assumption|].
  intros j row Hj. destruct (H2 j row Hj) as [W P]. split; [assumption|]. rewrite P.
  assert (Hil : (i < length s)%nat) by (rewrite <- Hl; apply nth_error_Some; congruence).
  assert (Hjl : (j < l)%nat) by (rewrite <- H1; apply nth_error_Some; congruence).
  change (eqm (2 ^ w) (nth i s 0 * 2 ^ (w - b * (Z.of_nat j + 1)) + noise i j) (nth i s 0 * 2 ^ (w - b * (Z.of_nat j + 1)) + noise' i j)).
  rewrite (H i j Hil Hjl). reflexivity.
Qed.

(** End to end: with a generated key whose noise samples are at most [beta], keyswitching a ciphertext
    keeps its decryption within the bound. *)
Theorem C30_end_to_end : forall p w gauss b l beta s key g ksk g' after before,
  dec_wf w (Dec b l) -> w mod 8 = 0 -> safe_key p key -> binary s -> egen_ok g -> gauss_small w beta gauss ->
  generate_new_lwe_keyswitch_key p w gauss b l s key g = Ret (ksk, g') ->
  lwe_wf w (length s) before -> length after = S (length key) ->
  exists out x y,
    keyswitch_ciphertext p w b l (length key) ksk after before = Ret out /\
    decrypt_lwe p w s before = Ret x /\ decrypt_lwe p w key out = Ret y /\
    torus_dist w x y <= Z.of_nat (length s) * 2 ^ (w - b * Z.of_nat l - 1) + Z.of_nat (length s) * Z.of_nat l * 2 ^ (b - 1) * beta.
Proof.
  intros p w gauss b l beta s key g ksk g' after before Hd Hw8 Hk Hbin Hg Hgs E Hb Ha.
  pose proof Hd as (H1 & H2 & H3 & H4). cbn [base_log level_count] in *. assert (Hw : 0 < w) by nia.
  destruct (C30_generated_key p w gauss b l s key g ksk g' Hd Hw8 Hk Hg E) as (es & En & Hl & He).
  pose proof (generate_gaussian_small w beta gauss Hgs _ _ _ _ En) as Hsm.
  destruct (C30_error_bound p w b l key s (fun i j => sgn w (nth (i * l + j) es 0)) beta ksk after before Hd) as (out & Eo & Hwf & HB); auto.
  - revert He. apply ksk_encrypts_ext. intros i j Hi Hj. apply eqm_sgn. lia.
  - intros i j Hi Hj. rewrite Forall_forall in Hsm. apply Hsm. apply nth_In. nia.
  - exists out, (phase w s before), (phase w key out). split; [assumption|].
    rewrite !decrypt_phase by (auto; try lia; right; assumption). auto.
Qed.
Print Assumptions C30_end_to_end.

Definition demo_ksk : list (list (list Z)) :=
  match generate_new_lwe_keyswitch_key Debug 32 demo_gauss_word 5 3 [1; 0; 1] [1; 1] demo_egen with Ret (k, _) => k | Panic => [] end.
Definition demo_ks_in : list Z := [2345678901; 987654321; 3141592653; 2000000000].

(** A generated key meets the hypotheses; the decryption moves by 73301, below 3*2^16 + 9*16*255. *)
Example C30_case :
  dec_wf 32 (Dec 5 3) /\ binary [1; 0; 1] /\ lwe_wf 32 3 demo_ks_in /\
  (exists es, length es = 9%nat /\ Forall (fun x => Z.abs (sgn 32 x) <= 255) es /\
     ksk_encrypts 32 5 3 [1; 1] [1; 0; 1] (fun i j => nth (i * 3 + j) es 0) demo_ksk) /\
  phase 32 [1; 0; 1] demo_ks_in = 807695742 /\
  match keyswitch_ciphertext Debug 32 5 3 2 demo_ksk [7; 7; 7] demo_ks_in with
  | Ret c => phase 32 [1; 1] c = 807695742 + 73301
  | Panic => False
  end.
Proof.
  split; [unfold dec_wf; cbn [base_log level_count]; lia|].
  split; [unfold binary; repeat (apply Forall_cons; [lia|]); apply Forall_nil|].
  split; [split; [reflexivity|]; unfold demo_ks_in, is_word; repeat (apply Forall_cons; [lia|]); apply Forall_nil|].
  split; [|split; vm_compute; reflexivity].
  unfold demo_ksk.
  destruct (generate_new_lwe_keyswitch_key Debug 32 demo_gauss_word 5 3 [1; 0; 1] [1; 1] demo_egen) as [[k g']|] eqn:E.
  - apply C30_generated_key in E.
    + destruct E as (es & En & Hl & He). exists es. split; [exact Hl|]. split; [|exact He].
      eapply (generate_gaussian_small 32 255 demo_gauss_word); [apply demo_gauss_word_small; lia|exact En].
    + unfold dec_wf; cbn [base_log level_count]; lia.
    + reflexivity.
    + right. unfold binary. repeat (apply Forall_cons; [lia|]). apply Forall_nil.
    + intros q. cbn. lia.
  - exfalso. apply (f_equal (fun o => match o with Ret _ => true | Panic => false end)) in E. vm_compute in E. discriminate.
Qed.
