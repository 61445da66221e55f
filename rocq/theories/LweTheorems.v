(** * C18 - C22: LWE encryption and linear operations *)
From Verif Require Import Base Word WordFacts LweSpec PolyModel RandomModel RandomProofs LweModel LweProofs.

(** ** C18 *)

(** Decryption computes the phase: in release builds for every key, in checked builds for binary keys
    (the plain product of compute_multisum overflows for others, see below). *)
Theorem C18_decryption_is_phase : forall p w key c, 0 <= w -> lwe_wf w (length key) c -> safe_key p key ->
  decrypt_lwe p w key c = Ret (phase w key c).
Proof. exact decrypt_phase. Qed.
Print Assumptions C18_decryption_is_phase.

(** An encryption that returns draws one noise sample [e] and n mask words, and decrypts to m + e. *)
Theorem C18_encrypt_decrypt : forall p w gauss key output m g c g',
  0 < w -> w mod 8 = 0 -> egen_ok g -> safe_key p key -> length output = S (length key) ->
  encrypt_lwe p w gauss key output m g = Ret (c, g') ->
  exists e,
    gaussian_one gauss (eg_noise g) = Ret (e, eg_noise g') /\
    eg_mask g' = bg_advance (eg_mask g) (Z.of_nat (length key) * (w / 8)) /\
    lwe_wf w (length key) c /\
    decrypt_lwe p w key c = Ret ((m + e) mod 2 ^ w).
Proof.
  intros p w gauss key output m g c g' Hw Hm Hg Hk Ho E. unfold encrypt_lwe in E.
  destruct (snoc_dec output _ Ho) as (om & ob & -> & Lo). rewrite split_last_snoc in E. cbn [obind] in E.
  destruct (fill_mask_and_body p w gauss key (length om) m g) as [[[mask body] g1]|] eqn:Ef; [|discriminate].
  cbn [obind] in E. injection E as <- <-.
  apply fill_mask_and_body_inv in Ef; try assumption. destruct Ef as (e & Hmk & En & Hgm & Hwf & Hb).
  exists e. rewrite Lo in *. split; [exact En|]. split; [exact Hgm|]. split; [exact Hwf|].
  rewrite decrypt_phase by (assumption || lia). f_equal.
  rewrite phase_raw, raw_snoc, Hb. change (eqm (2 ^ w) ((e + dot mask key + m) mod 2 ^ w - dot mask key) (m + e)).
  rewrite eqm_mod. apply eqm_eq. ring.
Qed.
Print Assumptions C18_encrypt_decrypt.

(** It returns as soon as the mask bytes are there and the noise can be drawn. *)
Theorem C18_encryption_succeeds : forall p w gauss key output m g e ng,
  0 < w -> w mod 8 = 0 -> egen_ok g -> safe_key p key -> length output = S (length key) ->
  bg_pos (eg_mask g) + Z.of_nat (length key) * (w / 8) <= bg_end (eg_mask g) ->
  gaussian_one gauss (eg_noise g) = Ret (e, ng) ->
  exists c g', encrypt_lwe p w gauss key output m g = Ret (c, g').
Proof.
  intros p w gauss key output m g e ng Hw Hm Hg Hk Ho Hle En. unfold encrypt_lwe.
  destruct (snoc_dec output _ Ho) as (om & ob & -> & Lo). rewrite split_last_snoc. cbn [obind].
  destruct (fill_mask_and_body_ok p w gauss key (length om) m g e ng) as (mask & body & E); try assumption.
  { rewrite Lo. assumption. }
  rewrite E. cbn [obind]. eauto.
Qed.
Print Assumptions C18_encryption_succeeds.

(** A noise smaller than half a step is removed by rounding: the message of d bits is recovered. *)
Theorem C18_decoding : forall w d k e, 0 <= d < w -> 0 <= k < 2 ^ d -> - 2 ^ (w - d - 1) <= e < 2 ^ (w - d - 1) ->
  (((k * 2 ^ (w - d) + e) mod 2 ^ w + 2 ^ (w - d - 1)) mod 2 ^ w) / 2 ^ (w - d) = k.
Proof.
  intros w d k e Hd Hk He.
  assert (E2 : 2 ^ (w - d) = 2 * 2 ^ (w - d - 1)) by (rewrite <- Z.pow_succ_r by lia; f_equal; lia).
  assert (Ew : 2 ^ w = 2 ^ d * 2 ^ (w - d)) by (rewrite <- Z.pow_add_r by lia; f_equal; lia).
  rewrite Zplus_mod_idemp_l.
  replace (k * 2 ^ (w - d) + e + 2 ^ (w - d - 1)) with ((e + 2 ^ (w - d - 1)) + k * 2 ^ (w - d)) by ring.
  pose proof (pow2_pos (w - d - 1) ltac:(lia)).
  rewrite Z.mod_small by nia. rewrite Z.div_add by lia. rewrite Z.div_small by lia. reflexivity.
Qed.
Print Assumptions C18_decoding.

(** Trivial ciphertexts decrypt to m under every key, in every build. *)
Theorem C18_trivial : forall p w n key m, 0 <= w -> is_word w m -> length key = n ->
  exists c, new_trivial_encryption (S n) m = Ret c /\ lwe_wf w n c /\ decrypt_lwe p w key c = Ret m.
Proof.
  intros p w n key m Hw Hm Hn. unfold new_trivial_encryption, fill_with_trivial_encryption.
  replace (repeat 0 (S n)) with (repeat 0 n ++ [0]).
  2: { rewrite <- repeat_cons. reflexivity. }
  rewrite split_last_snoc. cbn [obind]. eexists. split; [reflexivity|].
  replace (map (fun _ => 0) (repeat 0 n)) with (repeat 0 n) by (clear; induction n; cbn; congruence).
  pose proof (pow2_pos w Hw).
  split; [split|].
  - rewrite app_length, repeat_length. cbn. lia.
  - apply Forall_app. split; [|constructor; [assumption|constructor]].
    apply Forall_forall. intros x Hx. apply repeat_spec in Hx. subst. unfold is_word. lia.
  - unfold decrypt_lwe. rewrite split_last_snoc. cbn [obind]. unfold compute_multisum_.
    rewrite ck_dim_eq_ok by (rewrite repeat_length; lia). cbn [obind].
    assert (E : multisum_fold p w 0 (repeat 0 n) key = Ret 0).
    { clear Hn. revert key. induction n as [|n IH]; intros [|s key]; try reflexivity. cbn [repeat multisum_fold].
      rewrite plain_ok by lia. cbn [obind]. unfold wadd. rewrite Z.mod_0_l by lia. apply IH. }
    rewrite E. cbn [obind]. unfold wsub. rewrite Z.sub_0_r, Z.mod_small by assumption. reflexivity.
Qed.
Print Assumptions C18_trivial.

(** With overflow checks, a ternary key ([LweSecretKey::generate_ternary]) makes decryption panic. *)
Theorem C18_checked_ternary_refuted : exists key c, lwe_wf 32 (length key) c /\
  Forall (fun x => x = 0 \/ x = 1 \/ x = 2 ^ 32 - 1) key /\
  decrypt_lwe Debug 32 key c = Panic /\ decrypt_lwe Release 32 key c = Ret 5.
Proof.
  exists [2 ^ 32 - 1], [3; 2]. split; [split; [reflexivity|repeat constructor; unfold is_word; lia]|].
  split; [constructor; [right; right; reflexivity|constructor]|]. split; vm_compute; reflexivity.
Qed.
Print Assumptions C18_checked_ternary_refuted.

(** Binary keys as generated by the engine are safe in both builds. *)
Theorem C18_generated_keys_are_safe : forall p n g key g', generate_new_lwe_secret_key n g = Ret (key, g') ->
  safe_key p key /\ length key = n.
Proof.
  intros p n g key g' E. unfold generate_new_lwe_secret_key in E.
  assert (H : binary key /\ length key = n).
  { revert g key g' E. induction n as [|n IH]; intros g key g' E; cbn [generate_tensor] in E.
    { injection E as <- <-. split; [constructor|reflexivity]. }
    unfold uniform_binary_one at 1 in E. destruct (generate_next g) as [[a g1]|]; [|discriminate]. cbn [obind] in E.
    destruct (generate_tensor uniform_binary_one n g1) as [[l g2]|] eqn:E2; [|discriminate]. cbn [obind] in E.
    injection E as <- <-. destruct (IH _ _ _ E2) as [Hb Hl]. split; [|cbn; lia].
    constructor; [destruct (_ =? 1); auto|exact Hb]. }
  destruct H as [Hb Hl]. split; [right; exact Hb|exact Hl].
Qed.
Print Assumptions C18_generated_keys_are_safe.

Definition demo_gauss (l : list Z) : option (Z * Z) := match l with a :: b :: _ => if a <? 128 then Some (a, b) else None | _ => None end.
Definition demo_gen : egen := EG (BG (fun q => (q * 37 + 11) mod 256) 0 1000) (BG (fun q => (q * 7 + 130) mod 256) 0 1000).
Ltac bin := repeat (constructor; [first [left; reflexivity | right; reflexivity]|]); constructor.
Example C18_case :
  let key := [1; 0; 1] in
  egen_ok demo_gen /\ safe_key Debug key /\
  match encrypt_lwe Debug 32 demo_gauss key [0; 0; 0; 0] (2 ^ 31) demo_gen with
  | Ret (c, g') => c = [2052403211; 250201247; 2726123571; 2631043232] /\ bg_pos (eg_mask g') = 12 /\ bg_pos (eg_noise g') = 48 /\
      decrypt_lwe Debug 32 key c = Ret (2 ^ 31 + 98)
  | Panic => False
  end /\
  match gaussian_one demo_gauss (eg_noise demo_gen) with Ret (e, _) => e = 98 | Panic => False end.
Proof.
  cbv zeta. split; [intros q; cbn; lia|]. split; [right; bin|]. vm_compute. repeat split.
Qed.

(** ** C19: linear operations act on phases; for all ciphertexts and all keys. *)
Section C19.
Context (p : profile) (w : Z) (n : nat).
Hypothesis Hw : 0 <= w.

Lemma add_ok c1 c2 : length c1 = length c2 -> lwe_update_add p w c1 c2 = Ret (map2 (wadd w) c1 c2).
Proof.
  intros H. unfold lwe_update_add, update_with_wrapping_add_. rewrite ck_dim_eq_ok by assumption. cbn [obind].
  rewrite zip_update_map2 by assumption. reflexivity.
Qed.
Lemma sub_ok c1 c2 : length c1 = length c2 -> lwe_update_sub p w c1 c2 = Ret (map2 (wsub w) c1 c2).
Proof.
  intros H. unfold lwe_update_sub, update_with_wrapping_sub_. rewrite ck_dim_eq_ok by assumption. cbn [obind].
  rewrite zip_update_map2 by assumption. reflexivity.
Qed.
Lemma words_map2 (f : Z -> Z -> Z) (l m : list Z) : (forall a b, is_word w (f a b)) -> Forall (is_word w) (map2 f l m).
Proof. intros H. revert m. induction l as [|a l IH]; intros [|b m]; constructor; auto. Qed.
Lemma words_map (f : Z -> Z) (l : list Z) : (forall a, is_word w (f a)) -> Forall (is_word w) (map f l).
Proof. intros H. induction l; constructor; auto. Qed.

Lemma wf_map2 (f : Z -> Z -> Z) c1 c2 : (forall a b, is_word w (f a b)) -> length c1 = S n -> length c2 = S n -> lwe_wf w n (map2 f c1 c2).
Proof. intros H H1 H2. split; [rewrite map2_length; lia|apply words_map2; exact H]. Qed.

Lemma phase_add s c1 c2 : length c1 = S n -> length c2 = S n ->
  phase w s (map2 (wadd w) c1 c2) = (phase w s c1 + phase w s c2) mod 2 ^ w.
Proof.
  intros H1 H2. apply phase_eq. rewrite (raw_map2 (2 ^ w) (wadd w) 1 1 n) by (auto; intros; rewrite wadd_eqm; apply eqm_eq; ring).
  rewrite !phase_eqm. apply eqm_eq. ring.
Qed.
Lemma phase_sub s c1 c2 : length c1 = S n -> length c2 = S n ->
  phase w s (map2 (wsub w) c1 c2) = (phase w s c1 - phase w s c2) mod 2 ^ w.
Proof.
  intros H1 H2. apply phase_eq. rewrite (raw_map2 (2 ^ w) (wsub w) 1 (-1) n) by (auto; intros; rewrite wsub_eqm; apply eqm_eq; ring).
  rewrite !phase_eqm. apply eqm_eq. ring.
Qed.
Lemma body_add_ok s c m : length c = S n -> exists d, lwe_body_add w c m = Ret d /\ length d = S n /\
  removelast d = removelast c /\ phase w s d = (phase w s c + m) mod 2 ^ w /\ (Forall (is_word w) c -> Forall (is_word w) d).
Proof.
  intros H. destruct (snoc_dec c n H) as (mk & b & -> & L). unfold lwe_body_add. rewrite split_last_snoc. cbn [obind].
  eexists. split; [reflexivity|]. split; [rewrite app_length; cbn; lia|]. split; [rewrite !removelast_last; reflexivity|]. split.
  - apply phase_eq. rewrite phase_eqm, !raw_snoc, wadd_eqm. apply eqm_eq. ring.
  - intros Hf. apply Forall_app in Hf. apply Forall_app. split; [apply Hf|]. constructor; [apply wadd_word; assumption|constructor].
Qed.
Lemma body_sub_ok s c m : length c = S n -> exists d, lwe_body_sub w c m = Ret d /\ length d = S n /\
  removelast d = removelast c /\ phase w s d = (phase w s c - m) mod 2 ^ w /\ (Forall (is_word w) c -> Forall (is_word w) d).
Proof.
  intros H. destruct (snoc_dec c n H) as (mk & b & -> & L). unfold lwe_body_sub. rewrite split_last_snoc. cbn [obind].
  eexists. split; [reflexivity|]. split; [rewrite app_length; cbn; lia|]. split; [rewrite !removelast_last; reflexivity|]. split.
  - apply phase_eq. rewrite phase_eqm, !raw_snoc, wsub_eqm. apply eqm_eq. ring.
  - intros Hf. apply Forall_app in Hf. apply Forall_app. split; [apply Hf|]. constructor; [apply wsub_word; assumption|constructor].
Qed.
Lemma multisum_loop_ok s out cs ws : length out = S n -> Forall (is_word w) out -> Forall (fun c => length c = S n) cs ->
  exists d, multisum_loop p w out cs ws = Ret d /\ length d = S n /\ Forall (is_word w) d /\
    eqm (2 ^ w) (raw s d) (raw s out + wsum ws (map (raw s) cs)).
Proof.
  intros Ho Hwo Hc. revert out ws Ho Hwo. induction cs as [|c cs IH]; intros out ws Ho Hwo.
  { cbn [multisum_loop map]. exists out. split; [destruct ws; reflexivity|]. split; [assumption|]. split; [assumption|].
    apply eqm_eq. destruct ws; cbn; lia. }
  destruct ws as [|a ws].
  { exists out. split; [reflexivity|]. split; [assumption|]. split; [assumption|]. apply eqm_eq. cbn. lia. }
  inversion Hc as [|? ? Hc1 Hc2]; subst. cbn [multisum_loop]. rewrite ck_dim_eq_ok by lia. cbn [obind].
  rewrite zip_update_map2 by lia.
  destruct (IH Hc2 (map2 (fun o c => wadd w o (wmul w c a)) out c) ws) as (d & E & Hl & Hwd & Hd).
  { rewrite map2_length. lia. }
  { apply words_map2. intros. apply wadd_word. assumption. }
  exists d. split; [exact E|]. split; [exact Hl|]. split; [exact Hwd|].
  rewrite Hd. cbn [map wsum].
  rewrite (raw_map2 (2 ^ w) _ 1 a n) by (auto; intros; rewrite wadd_eqm, wmul_eqm; apply eqm_eq; ring).
  apply eqm_eq. ring.
Qed.
Lemma wsum_phase s cs ws : eqm (2 ^ w) (wsum ws (map (phase w s) cs)) (wsum ws (map (raw s) cs)).
Proof.
  revert ws. induction cs as [|c cs IH]; intros [|a ws]; try reflexivity. cbn [map wsum]. rewrite IH, phase_eqm. reflexivity.
Qed.
End C19.

Theorem C19_addition : forall p w n s c1 c2, 0 <= w -> length c1 = S n -> length c2 = S n ->
  exists d, lwe_update_add p w c1 c2 = Ret d /\ lwe_wf w n d /\ phase w s d = (phase w s c1 + phase w s c2) mod 2 ^ w.
Proof.
  intros p w n s c1 c2 Hw H1 H2. exists (map2 (wadd w) c1 c2). split; [apply add_ok; lia|].
  split; [apply wf_map2; auto; intros; apply wadd_word; assumption|]. apply (phase_add w n); assumption.
Qed.
Print Assumptions C19_addition.

Theorem C19_subtraction : forall p w n s c1 c2, 0 <= w -> length c1 = S n -> length c2 = S n ->
  exists d, lwe_update_sub p w c1 c2 = Ret d /\ lwe_wf w n d /\ phase w s d = (phase w s c1 - phase w s c2) mod 2 ^ w.
Proof.
  intros p w n s c1 c2 Hw H1 H2. exists (map2 (wsub w) c1 c2). split; [apply sub_ok; lia|].
  split; [apply wf_map2; auto; intros; apply wsub_word; assumption|]. apply (phase_sub w n); assumption.
Qed.
Print Assumptions C19_subtraction.

Theorem C19_opposite : forall w n s c, 0 <= w -> length c = S n ->
  lwe_wf w n (lwe_update_neg w c) /\ phase w s (lwe_update_neg w c) = (- phase w s c) mod 2 ^ w.
Proof.
  intros w n s c Hw H. unfold lwe_update_neg. split.
  - split; [rewrite map_length; assumption|apply words_map; intros; apply wneg_word; assumption].
  - apply phase_eq. rewrite (raw_map (2 ^ w) (wneg w) (-1) n) by (auto; intros; rewrite wneg_eqm; apply eqm_eq; ring).
    rewrite phase_eqm. apply eqm_eq. ring.
Qed.
Print Assumptions C19_opposite.

Theorem C19_cleartext_multiplication : forall p w n s out c a, 0 <= w -> length c = S n -> length out = S n ->
  lwe_wf w n (lwe_update_scalar_mul w c a) /\
  phase w s (lwe_update_scalar_mul w c a) = (a * phase w s c) mod 2 ^ w /\
  lwe_fill_scalar_mul p w out c a = Ret (lwe_update_scalar_mul w c a).
Proof.
  intros p w n s out c a Hw H Ho. unfold lwe_update_scalar_mul. split; [|split].
  - split; [rewrite map_length; assumption|apply words_map; intros; apply wmul_word; assumption].
  - apply phase_eq. rewrite (raw_map (2 ^ w) _ a n) by (auto; intros; rewrite wmul_eqm; apply eqm_eq; ring).
    rewrite phase_eqm. reflexivity.
  - unfold lwe_fill_scalar_mul. rewrite ck_dim_eq_ok by lia. cbn [obind]. rewrite zip_update_map2 by lia. f_equal.
    rewrite <- H in Ho. clear H. revert c Ho. induction out as [|o out IH]; intros [|x c] Ho; try discriminate; [reflexivity|].
    cbn. rewrite IH by (cbn in Ho; lia). reflexivity.
Qed.
Print Assumptions C19_cleartext_multiplication.

Theorem C19_plaintext_addition : forall w n s c m, 0 <= w -> lwe_wf w n c ->
  (exists d, lwe_body_add w c m = Ret d /\ lwe_wf w n d /\ removelast d = removelast c /\
     phase w s d = (phase w s c + m) mod 2 ^ w) /\
  (exists d, lwe_body_sub w c m = Ret d /\ lwe_wf w n d /\ removelast d = removelast c /\
     phase w s d = (phase w s c - m) mod 2 ^ w).
Proof.
  intros w n s c m Hw [H Hc]. split.
  - destruct (body_add_ok w n Hw s c m H) as (d & E & L & R & P & F). exists d. repeat split; auto.
  - destruct (body_sub_ok w n Hw s c m H) as (d & E & L & R & P & F). exists d. repeat split; auto.
Qed.
Print Assumptions C19_plaintext_addition.

(** The affine combination, when the output held a trivial encryption of 0 (see C20). *)
Theorem C19_affine : forall p w n s cs ws bias, 0 <= w -> Forall (fun c => length c = S n) cs ->
  exists d, discard_affine p w (repeat 0 (S n)) cs ws bias = Ret d /\ lwe_wf w n d /\
    phase w s d = (wsum ws (map (phase w s) cs) + bias) mod 2 ^ w.
Proof.
  intros p w n s cs ws bias Hw Hc. unfold discard_affine, fill_with_multisum_with_bias.
  assert (H0 : Forall (is_word w) (repeat 0 (S n))).
  { apply Forall_forall. intros x Hx. apply repeat_spec in Hx. subst. pose proof (pow2_pos w Hw). unfold is_word. lia. }
  destruct (multisum_loop_ok p w n Hw s (repeat 0 (S n)) cs ws (repeat_length _ _) H0 Hc) as (d & E & L & F & R).
  rewrite E. cbn [obind]. destruct (body_add_ok w n Hw s d bias L) as (d' & E' & L' & _ & P & F'). exists d'.
  split; [exact E'|]. split; [split; auto|]. rewrite P.
  change (eqm (2 ^ w) (phase w s d + bias) (wsum ws (map (phase w s) cs) + bias)).
  rewrite phase_eqm, R, wsum_phase. apply eqm_eq.
  enough (raw s (repeat 0 (S n)) = 0) by lia.
  replace (repeat 0 (S n)) with (repeat 0 n ++ [0]) by (rewrite <- repeat_cons; reflexivity).
  rewrite raw_snoc. enough (dot (repeat 0 n) s = 0) by lia. clear. revert s.
  induction n as [|n IH]; intros [|y s]; cbn [repeat dot]; auto. rewrite IH. reflexivity.
Qed.
Print Assumptions C19_affine.

Example C19_case :
  let s := [1; 0; 1] in let c1 := [10; 20; 30; 100] in let c2 := [250; 3; 9; 7] in
  phase 8 s c1 = 60 /\ phase 8 s c2 = 4 /\
  discard_affine Debug 8 [0; 0; 0; 0] [c1; c2] [3; 250] 11 = Ret [66; 42; 36; 13] /\
  phase 8 s [66; 42; 36; 13] = (3 * 60 + 250 * 4 + 11) mod 2 ^ 8.
Proof. vm_compute. repeat split. Qed.

(** ** C20 *)
Theorem C20_discarding_operations : forall p w out out' c1 c2 a,
  length out = length out' ->
  discard_add p w out c1 c2 = discard_add p w out' c1 c2 /\
  discard_sub p w out c1 c2 = discard_sub p w out' c1 c2 /\
  discard_opp w out c1 = discard_opp w out' c1 /\
  discard_add_plaintext w out c1 a = discard_add_plaintext w out' c1 a /\
  discard_sub_plaintext w out c1 a = discard_sub_plaintext w out' c1 a /\
  (length out = length c1 -> discard_mul_cleartext p w out c1 a = discard_mul_cleartext p w out' c1 a).
Proof.
  intros p w out out' c1 c2 a H. unfold discard_add, discard_sub, discard_opp, discard_add_plaintext, discard_sub_plaintext, fill_with_copy.
  rewrite H. repeat (split; [reflexivity|]).
  intros Hc. unfold discard_mul_cleartext, lwe_fill_scalar_mul. rewrite !ck_dim_eq_ok by congruence. cbn [obind].
  rewrite !zip_update_map2 by congruence. f_equal. clear - H. revert out' c1 H.
  induction out as [|x out IH]; intros [|y out'] [|z c1] H; try discriminate; try reflexivity.
  cbn. f_equal. apply IH. cbn in H. lia.
Qed.
Print Assumptions C20_discarding_operations.

(** And the values are those of the operation. *)
Theorem C20_discarding_values : forall p w n s out c1 c2, 0 <= w -> length out = S n -> length c1 = S n -> length c2 = S n ->
  (exists d, discard_add p w out c1 c2 = Ret d /\ length d = S n /\ phase w s d = (phase w s c1 + phase w s c2) mod 2 ^ w) /\
  (exists d, discard_sub p w out c1 c2 = Ret d /\ length d = S n /\ phase w s d = (phase w s c1 - phase w s c2) mod 2 ^ w) /\
  (exists d, discard_opp w out c1 = Ret d /\ length d = S n /\ phase w s d = (- phase w s c1) mod 2 ^ w) /\
  (forall m, exists d, discard_add_plaintext w out c1 m = Ret d /\ length d = S n /\ phase w s d = (phase w s c1 + m) mod 2 ^ w) /\
  (forall m, exists d, discard_sub_plaintext w out c1 m = Ret d /\ length d = S n /\ phase w s d = (phase w s c1 - m) mod 2 ^ w) /\
  (forall a, exists d, discard_mul_cleartext p w out c1 a = Ret d /\ length d = S n /\ phase w s d = (a * phase w s c1) mod 2 ^ w).
Proof.
  intros p w n s out c1 c2 Hw Ho H1 H2.
  unfold discard_add, discard_sub, discard_opp, discard_add_plaintext, discard_sub_plaintext, discard_mul_cleartext, fill_with_copy.
  rewrite (proj2 (Nat.eqb_eq (length out) (length c1))) by lia. cbn [obind].
  split; [|split; [|split; [|split; [|split]]]].
  - destruct (C19_addition p w n s c1 c2 Hw H1 H2) as (d & E & [L _] & P). eauto.
  - destruct (C19_subtraction p w n s c1 c2 Hw H1 H2) as (d & E & [L _] & P). eauto.
  - destruct (C19_opposite w n s c1 Hw H1) as [[L _] P]. eauto.
  - intros m. destruct (body_add_ok w n Hw s c1 m H1) as (d & E & L & _ & P & _). eauto.
  - intros m. destruct (body_sub_ok w n Hw s c1 m H1) as (d & E & L & _ & P & _). eauto.
  - intros a. destruct (C19_cleartext_multiplication p w n s out c1 a Hw H1 Ho) as ([L _] & P & E). eauto.
Qed.
Print Assumptions C20_discarding_values.

(** The discarding affine transformation does depend on the previous output: it adds to it. *)
Theorem C20_affine_accumulates : forall p w n s out cs ws bias, 0 <= w -> lwe_wf w n out -> Forall (fun c => length c = S n) cs ->
  exists d, discard_affine p w out cs ws bias = Ret d /\ lwe_wf w n d /\
    phase w s d = (phase w s out + wsum ws (map (phase w s) cs) + bias) mod 2 ^ w.
Proof.
  intros p w n s out cs ws bias Hw [Ho Hf] Hc. unfold discard_affine, fill_with_multisum_with_bias.
  destruct (multisum_loop_ok p w n Hw s out cs ws Ho Hf Hc) as (d & E & L & F & R).
  rewrite E. cbn [obind]. destruct (body_add_ok w n Hw s d bias L) as (d' & E' & L' & _ & P & F'). exists d'.
  split; [exact E'|]. split; [split; auto|]. rewrite P.
  change (eqm (2 ^ w) (phase w s d + bias) (phase w s out + wsum ws (map (phase w s) cs) + bias)).
  rewrite !phase_eqm, R, wsum_phase. reflexivity.
Qed.
Print Assumptions C20_affine_accumulates.

Theorem C20_affine_refuted : exists out out' cs ws bias, length out = length out' /\
  discard_affine Debug 32 out cs ws bias <> discard_affine Debug 32 out' cs ws bias.
Proof. exists [0; 0], [0; 1], [[1; 2]], [3], 4. split; [reflexivity|]. vm_compute. discriminate. Qed.
Print Assumptions C20_affine_refuted.

(** Vectors: elementwise, whatever the output held. *)
Lemma discard_vector_ok (f : list Z -> list Z -> list Z -> outcome (list Z)) n (Q : list Z -> list Z -> list Z -> Prop) :
  (forall o a b, length o = S n -> length a = S n -> length b = S n -> exists d, f o a b = Ret d /\ Q a b d) ->
  forall out v1 v2, length out = length v1 -> length v1 = length v2 ->
  Forall (fun c => length c = S n) out -> Forall (fun c => length c = S n) v1 -> Forall (fun c => length c = S n) v2 ->
  exists ds, ozip_update (fun o '(a, b) => f o a b) out (combine v1 v2) = Ret ds /\ length ds = length v1 /\
    forall i a b, nth_error v1 i = Some a -> nth_error v2 i = Some b -> exists d, nth_error ds i = Some d /\ Q a b d.
Proof.
  intros Hf. induction out as [|o out IH]; intros [|a v1] [|b v2] L1 L2 Ho H1 H2; try discriminate.
  { exists []. split; [reflexivity|]. split; [reflexivity|]. intros [|i] x y E; discriminate. }
  inversion Ho; inversion H1; inversion H2; subst.
  destruct (Hf o a b) as (d & E & HQ); try assumption.
  destruct (IH v1 v2) as (ds & Es & Ls & Hs); try assumption; try (cbn in *; lia).
  exists (d :: ds). cbn [combine ozip_update]. rewrite E. cbn [obind]. rewrite Es. cbn [obind].
  split; [reflexivity|]. split; [cbn; lia|].
  intros [|i] x y Ex Ey; cbn in Ex, Ey.
  - injection Ex as <-. injection Ey as <-. exists d. split; [reflexivity|exact HQ].
  - apply Hs; assumption.
Qed.

Theorem C20_discarding_vectors : forall p w n s out v1 v2, 0 <= w -> length out = length v1 -> length v1 = length v2 ->
  Forall (fun c => length c = S n) out -> Forall (fun c => length c = S n) v1 -> Forall (fun c => length c = S n) v2 ->
  (exists ds, discard_add_vector p w out v1 v2 = Ret ds /\ length ds = length v1 /\
     forall i a b, nth_error v1 i = Some a -> nth_error v2 i = Some b ->
       exists d, nth_error ds i = Some d /\ length d = S n /\ phase w s d = (phase w s a + phase w s b) mod 2 ^ w) /\
  (exists ds, discard_sub_vector p w out v1 v2 = Ret ds /\ length ds = length v1 /\
     forall i a b, nth_error v1 i = Some a -> nth_error v2 i = Some b ->
       exists d, nth_error ds i = Some d /\ length d = S n /\ phase w s d = (phase w s a - phase w s b) mod 2 ^ w).
Proof.
  intros p w n s out v1 v2 Hw L1 L2 Ho H1 H2. split.
  - apply (discard_vector_ok (discard_add p w) n (fun a b d => length d = S n /\ phase w s d = (phase w s a + phase w s b) mod 2 ^ w)); auto.
    intros o a b Lo La Lb. destruct (C20_discarding_values p w n s o a b Hw Lo La Lb) as (H & _). exact H.
  - apply (discard_vector_ok (discard_sub p w) n (fun a b d => length d = S n /\ phase w s d = (phase w s a - phase w s b) mod 2 ^ w)); auto.
    intros o a b Lo La Lb. destruct (C20_discarding_values p w n s o a b Hw Lo La Lb) as (_ & H & _). exact H.
Qed.
Print Assumptions C20_discarding_vectors.

Theorem C20_discarding_plaintext_vector : forall w n s out v ms, 0 <= w -> length out = length v -> length v = length ms ->
  Forall (fun c => length c = S n) out -> Forall (fun c => length c = S n) v ->
  exists ds, discard_add_plaintext_vector w out v ms = Ret ds /\ length ds = length v /\
    forall i a m, nth_error v i = Some a -> nth_error ms i = Some m ->
      exists d, nth_error ds i = Some d /\ length d = S n /\ removelast d = removelast a /\ phase w s d = (phase w s a + m) mod 2 ^ w.
Proof.
  intros w n s out v ms Hw L1 L2 Ho H1. unfold discard_add_plaintext_vector.
  assert (E : ozip_update fill_with_copy out v = Ret v).
  { clear L2 ms. revert v L1 H1. induction Ho as [|o out Ho1 Ho IH]; intros [|a v] L1 H1; try discriminate; [reflexivity|].
    inversion H1; subst. cbn [ozip_update]. unfold fill_with_copy at 1. rewrite (proj2 (Nat.eqb_eq (length o) (length a))) by lia.
    cbn [obind]. rewrite IH by (auto; cbn in *; lia). reflexivity. }
  rewrite E. cbn [obind]. clear E L1 Ho out. revert ms L2. induction H1 as [|a v Ha Hv IH]; intros [|m ms] L2; try discriminate.
  { exists []. split; [reflexivity|]. split; [reflexivity|]. intros [|i] x y Ex; discriminate. }
  destruct (body_add_ok w n Hw s a m Ha) as (d & Ed & Ld & R & P & _).
  destruct (IH ms) as (ds & Es & Ls & Hs); [cbn in *; lia|].
  exists (d :: ds). cbn [ozip_update]. rewrite Ed. cbn [obind]. rewrite Es. cbn [obind].
  split; [reflexivity|]. split; [cbn; lia|].
  intros [|i] x y Ex Ey; cbn in Ex, Ey.
  - injection Ex as <-. injection Ey as <-. exists d. split; [reflexivity|auto].
  - apply Hs; assumption.
Qed.
Print Assumptions C20_discarding_plaintext_vector.

Theorem C20_discarding_cleartext_vector : forall p w n s out v ss, 0 <= w -> length out = length v -> length v = length ss ->
  Forall (fun c => length c = S n) out -> Forall (fun c => length c = S n) v ->
  exists ds, discard_mul_cleartext_vector p w out v ss = Ret ds /\ length ds = length v /\
    forall i a m, nth_error v i = Some a -> nth_error ss i = Some m ->
      exists d, nth_error ds i = Some d /\ length d = S n /\ phase w s d = (m * phase w s a) mod 2 ^ w.
Proof.
  intros p w n s out v ss Hw L1 L2 Ho. revert v ss L1 L2.
  induction Ho as [|o out Ho1 Ho IH]; intros [|a v] [|m ss] L1 L2 H1; try discriminate.
  { exists []. split; [reflexivity|]. split; [reflexivity|]. intros [|i] x y Ex; discriminate. }
  inversion H1; subst. destruct (C19_cleartext_multiplication p w n s o a m Hw) as ([L _] & P & E); try assumption.
  destruct (IH v ss) as (ds & Es & Ls & Hs); try assumption; try (cbn in *; lia).
  eexists. cbn [discard_mul_cleartext_vector]. rewrite E. cbn [obind]. rewrite Es. cbn [obind].
  split; [reflexivity|]. split; [cbn; lia|].
  intros [|i] x y Ex Ey; cbn in Ex, Ey.
  - injection Ex as <-. injection Ey as <-. eexists. split; [reflexivity|split; [exact L|exact P]].
  - apply Hs; assumption.
Qed.
Print Assumptions C20_discarding_cleartext_vector.

Example C20_case : discard_add_vector Debug 8 [[1; 2]; [3; 4]] [[250; 1]; [7; 8]] [[10; 1]; [1; 1]] = Ret [[4; 2]; [8; 9]].
Proof. reflexivity. Qed.
