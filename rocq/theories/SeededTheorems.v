(** * C33: seeded entities, once expanded, are the ordinary ones *)
From Verif Require Import Base Word WordFacts NegaRing PolySpec PolyModel PolyProofs RandomModel RandomProofs RandomTheorems
  CsprngFamily LweSpec LweModel LweProofs LweTheorems GlweSpec GlweModel GlweProofs GlweTheorems GgswSpec GgswModel GgswProofs GgswTheorems
  DecompModel KeyswitchModel SeededModel.

(** ** LWE *)
Lemma obind_assoc {A B C} (x : outcome A) (f : A -> outcome B) (h : B -> outcome C) : obind (obind x f) h = obind x (fun a => obind (f a) h).
Proof. destruct x; reflexivity. Qed.

Lemma encrypt_lwe_shape p w gauss key output m g c g' : encrypt_lwe p w gauss key output m g = Ret (c, g') ->
  exists mask body, c = mask ++ [body].
Proof.
  unfold encrypt_lwe. destruct (split_last output) as [[m0 b0]|]; [|discriminate]. cbn [obind].
  destruct (fill_mask_and_body _ _ _ _ _ _ _) as [[[mask body] g1]|]; [|discriminate]. cbn [obind]. intros [= <- <-]. eauto.
Qed.

Lemma encrypt_lwe_fill p w gauss key output m g : length output = S (length key) ->
  encrypt_lwe p w gauss key output m g =
  let! (mask, body, g) := fill_mask_and_body p w gauss key (length key) m g in Ret (mask ++ [body], g).
Proof.
  intros Hl. destruct (snoc_dec output (length key) Hl) as (mask0 & b0 & -> & L0). unfold encrypt_lwe. rewrite split_last_snoc. cbn [obind].
  rewrite L0. reflexivity.
Qed.

(** An encryption read back with the mask generator it started from. *)
Lemma expand_one_lwe_eq p w gauss key output o m g c g' : length output = S (length key) -> length o = S (length key) ->
  encrypt_lwe p w gauss key output m g = Ret (c, g') -> expand_one_lwe w o (last c 0) (eg_mask g) = Ret (c, eg_mask g').
Proof.
  intros L1 L2 E. rewrite encrypt_lwe_fill in E by assumption.
  destruct (fill_mask_and_body p w gauss key (length key) m g) as [[[mask body] g1]|] eqn:Ef; [|discriminate]. cbn [obind] in E.
  injection E as <- <-. rewrite last_last. unfold expand_one_lwe.
  destruct (snoc_dec o (length key) L2) as (mask0 & b0 & -> & L0). rewrite split_last_snoc. cbn [obind]. rewrite L0.
  unfold fill_mask_and_body, random_mask in Ef.
  destruct (generate_tensor (uniform_one w) (length key) (eg_mask g)) as [[l mg]|]; [|discriminate]. cbn [obind] in Ef |- *.
  destruct (random_noise gauss _) as [[e g2]|] eqn:En; [|discriminate]. cbn [obind] in Ef. apply random_noise_inv in En. destruct En as [En _].
  destruct (compute_multisum_ p w l key); [|discriminate]. cbn [obind] in Ef. injection Ef as <- <- <-. rewrite En. reflexivity.
Qed.

Theorem C33_lwe : forall p w gauss rng key output o m seed nseed body0,
  length output = S (length key) -> length o = S (length key) ->
  (let! s := encrypt_seeded_lwe p w gauss rng key (length key) (Seeded seed body0) m nseed in expand_lwe w rng s o) =
  (let! (c, _) := encrypt_lwe p w gauss key output m (EG (rng seed) (rng nseed)) in Ret c).
Proof.
  intros p w gauss rng key output o m seed nseed body0 L1 L2. unfold encrypt_seeded_lwe, new_egen.
  replace (debug_assert p _) with (Ret tt) by (unfold debug_assert; rewrite Nat.eqb_refl; destruct p; reflexivity). cbn [obind sd_seed].
  destruct (encrypt_lwe p w gauss key output m (EG (rng seed) (rng nseed))) as [[c g]|] eqn:E.
  - pose proof (expand_one_lwe_eq p w gauss key output o m _ c g L1 L2 E) as Hx. rewrite encrypt_lwe_fill in E by assumption.
    destruct (fill_mask_and_body _ _ _ _ _ _ _) as [[[mask body] g1]|]; [|discriminate]. cbn [obind] in E |- *. injection E as <- <-.
    rewrite last_last in Hx. unfold expand_lwe. cbn [sd_bodies sd_seed eg_mask] in *. rewrite Hx. reflexivity.
  - rewrite encrypt_lwe_fill in E by assumption. destruct (fill_mask_and_body _ _ _ _ _ _ _) as [[[mask body] g1]|]; [discriminate|]. reflexivity.
Qed.
Print Assumptions C33_lwe.

(** Lists: the bodies of the ordinary encryption, and the reading back of the whole list. *)
Lemma seeded_zip_eq p w gauss key : forall output bodies ms g, Forall (fun o => length o = S (length key)) output ->
  length output = length ms -> length bodies = length ms ->
  encrypt_seeded_lwe_zip p w gauss key bodies ms g =
  let! (cs, g) := encrypt_lwe_zip p w gauss key output ms g in Ret (map (fun c => last c 0) cs, g).
Proof.
  induction output as [|o output IH]; intros bodies ms g Ho L1 L2.
  - destruct ms; [|discriminate]. destruct bodies; [|discriminate]. reflexivity.
  - destruct ms as [|m ms]; [discriminate|]. destruct bodies as [|b bodies]; [discriminate|]. cbn [encrypt_seeded_lwe_zip encrypt_lwe_zip].
    rewrite encrypt_lwe_fill by (apply Forall_inv in Ho; exact Ho).
    destruct (fill_mask_and_body _ _ _ _ _ _ _) as [[[mask body] g1]|]; [|reflexivity]. cbn [obind].
    rewrite IH by (cbn in L1, L2; try lia; apply Forall_inv_tail in Ho; exact Ho).
    destruct (encrypt_lwe_zip p w gauss key output ms g1) as [[cs g2]|]; [|reflexivity]. cbn [obind map]. rewrite last_last. reflexivity.
Qed.

Lemma expand_lwe_zip_eq p w gauss key : forall output outs ms g cs g', Forall (fun o => length o = S (length key)) output ->
  Forall (fun o => length o = S (length key)) outs -> length output = length ms -> length outs = length ms ->
  encrypt_lwe_zip p w gauss key output ms g = Ret (cs, g') ->
  expand_zip (expand_one_lwe w) outs (map (fun c => last c 0) cs) (eg_mask g) = Ret (cs, eg_mask g').
Proof.
  induction output as [|o output IH]; intros outs ms g cs g' Ho Hos L1 L2 E.
  - destruct ms; [|discriminate]. destruct outs; [|discriminate]. cbn in E. injection E as <- <-. reflexivity.
  - destruct ms as [|m ms]; [discriminate|]. destruct outs as [|o' outs]; [discriminate|]. cbn [encrypt_lwe_zip] in E.
    destruct (encrypt_lwe p w gauss key o m g) as [[c g1]|] eqn:Ec; [|discriminate]. cbn [obind] in E.
    destruct (encrypt_lwe_zip p w gauss key output ms g1) as [[cs' g2]|] eqn:Ecs; [|discriminate]. cbn [obind] in E. injection E as <- <-.
    cbn [map expand_zip]. rewrite (expand_one_lwe_eq p w gauss key o o' m g c g1 (Forall_inv Ho) (Forall_inv Hos) Ec). cbn [obind].
    rewrite (IH outs ms g1 cs' g2) by (try assumption; try (cbn in L1, L2; lia); eapply Forall_inv_tail; eassumption). reflexivity.
Qed.

Theorem C33_lwe_list : forall p w gauss rng key output outs ms seed nseed bodies0,
  Forall (fun o => length o = S (length key)) output -> Forall (fun o => length o = S (length key)) outs ->
  length output = length ms -> length outs = length ms -> length bodies0 = length ms ->
  (let! s := encrypt_seeded_lwe_list p w gauss rng key (Seeded seed bodies0) ms nseed in expand_lwe_list w rng s outs) =
  (let! (cs, _) := encrypt_lwe_list p w gauss key output ms (EG (rng seed) (rng nseed)) in Ret cs).
Proof.
  intros p w gauss rng key output outs ms seed nseed bodies0 Ho Hos L1 L2 L3. unfold encrypt_seeded_lwe_list, encrypt_lwe_list, new_egen.
  rewrite ck_dim_eq_ok by assumption. cbn [obind sd_seed sd_bodies]. rewrite (seeded_zip_eq p w gauss key output) by assumption.
  destruct (encrypt_lwe_zip _ _ _ _ _ _ _) as [[cs g]|] eqn:E; [|reflexivity]. cbn [obind]. unfold expand_lwe_list. cbn [sd_bodies sd_seed].
  apply (expand_lwe_zip_eq p w gauss key output outs ms) in E; try assumption. cbn [eg_mask] in E. rewrite E. reflexivity.
Qed.
Print Assumptions C33_lwe_list.

(** ** Keyswitching keys *)
Lemma omap_length {A B} (f : A -> outcome B) : forall l r, omap f l = Ret r -> length r = length l.
Proof.
  induction l as [|a l IH]; intros r E; cbn [omap] in E; [injection E as <-; reflexivity|].
  destruct (f a); [|discriminate]. cbn [obind] in E. destruct (omap f l) as [r'|] eqn:El; [|discriminate]. cbn [obind] in E. injection E as <-.
  cbn. rewrite (IH _ eq_refl). reflexivity.
Qed.
Lemma ks_messages_length p w b l bit ms : ks_messages p w b l bit = Ret ms -> length ms = l.
Proof. unfold ks_messages. intros E. apply omap_length in E. rewrite seq_length in E. exact E. Qed.

Definition ksk_shape (n l : nat) (ksk : list (list (list Z))) : Prop :=
  Forall (fun block => length block = l /\ Forall (fun o : list Z => length o = S n) block) ksk.

Lemma seeded_ksk_eq p w gauss b l ak : forall bk output bodies g, ksk_shape (length ak) l output ->
  Forall (fun b : list Z => length b = l) bodies -> length output = length bk -> length bodies = length bk ->
  seeded_ksk_loop p w gauss b l ak bk bodies g =
  let! (ksk, g) := fill_with_keyswitch_key p w gauss b l ak bk output g in Ret (map (map (fun c => last c 0)) ksk, g).
Proof.
  induction bk as [|bit bk IH]; intros output bodies g Ho Hb L1 L2.
  - destruct output; [|discriminate]. destruct bodies; [|discriminate]. reflexivity.
  - destruct output as [|block output]; [discriminate|]. destruct bodies as [|bb bodies]; [discriminate|]. cbn [seeded_ksk_loop fill_with_keyswitch_key].
    destruct (Forall_inv Ho) as [Lb Wb]. pose proof (Forall_inv Hb) as Lbb. cbn beta in Lbb.
    destruct (ks_messages p w b l bit) as [ms|] eqn:Em; [|reflexivity]. cbn [obind]. apply ks_messages_length in Em.
    unfold encrypt_lwe_list. rewrite ck_dim_eq_ok by congruence. cbn [obind].
    rewrite (seeded_zip_eq p w gauss ak block) by congruence.
    destruct (encrypt_lwe_zip _ _ _ _ _ _ _) as [[cs g1]|]; [|reflexivity]. cbn [obind].
    rewrite (IH output) by (try (cbn in L1, L2; lia); eapply Forall_inv_tail; eassumption).
    destruct (fill_with_keyswitch_key p w gauss b l ak bk output g1) as [[ks g2]|]; reflexivity.
Qed.

Lemma expand_ksk_eq p w gauss b l ak : forall bk output outs g ksk g', ksk_shape (length ak) l output -> ksk_shape (length ak) l outs ->
  length output = length bk -> length outs = length bk ->
  fill_with_keyswitch_key p w gauss b l ak bk output g = Ret (ksk, g') ->
  expand_zip (expand_zip (expand_one_lwe w)) outs (map (map (fun c => last c 0)) ksk) (eg_mask g) = Ret (ksk, eg_mask g').
Proof.
  induction bk as [|bit bk IH]; intros output outs g ksk g' Ho Hos L1 L2 E.
  - destruct output; [|discriminate]. destruct outs; [|discriminate]. cbn in E. injection E as <- <-. reflexivity.
  - destruct output as [|block output]; [discriminate|]. destruct outs as [|ob outs]; [discriminate|]. cbn [fill_with_keyswitch_key] in E.
    destruct (Forall_inv Ho) as [Lb Wb]. destruct (Forall_inv Hos) as [Lo Wo].
    destruct (ks_messages p w b l bit) as [ms|] eqn:Em; [|discriminate]. cbn [obind] in E. apply ks_messages_length in Em.
    unfold encrypt_lwe_list in E. rewrite ck_dim_eq_ok in E by congruence. cbn [obind] in E.
    destruct (encrypt_lwe_zip _ _ _ _ _ _ _) as [[cs g1]|] eqn:Ec; [|discriminate]. cbn [obind] in E.
    destruct (fill_with_keyswitch_key p w gauss b l ak bk output g1) as [[ks g2]|] eqn:Ek; [|discriminate]. cbn [obind] in E. injection E as <- <-.
    cbn [map expand_zip]. rewrite (expand_lwe_zip_eq p w gauss ak block ob ms g cs g1) by (assumption || congruence). cbn [obind].
    rewrite (IH output outs g1 ks g2) by (try assumption; try (cbn in L1, L2; lia); eapply Forall_inv_tail; eassumption). reflexivity.
Qed.

Theorem C33_keyswitch_key : forall p w gauss rng b l input_key output_key outs seed nseed,
  length outs = length input_key -> ksk_shape (length output_key) l outs ->
  (let! s := generate_new_lwe_seeded_keyswitch_key p w gauss rng b l input_key output_key seed nseed in expand_keyswitch_key w rng s outs) =
  (let! (ksk, _) := generate_new_lwe_keyswitch_key p w gauss b l input_key output_key (EG (rng seed) (rng nseed)) in Ret ksk).
Proof.
  intros p w gauss rng b l ik ok outs seed nseed Lo Ho.
  unfold generate_new_lwe_seeded_keyswitch_key, generate_new_lwe_keyswitch_key, fill_with_seeded_keyswitch_key, new_egen. cbn [sd_bodies sd_seed].
  set (output := repeat (repeat (repeat 0 (S (length ok))) l) (length ik)).
  assert (So : ksk_shape (length ok) l output).
  { apply Forall_forall. intros blk Hb. apply repeat_spec in Hb. subst blk. split; [apply repeat_length|].
    apply Forall_forall. intros o H. apply repeat_spec in H. subst o. apply repeat_length. }
  rewrite (seeded_ksk_eq p w gauss b l ok ik output);
    [|exact So|apply Forall_forall; intros x Hx; apply repeat_spec in Hx; subst x; apply repeat_length|apply repeat_length..].
  destruct (fill_with_keyswitch_key _ _ _ _ _ _ _ _ _) as [[ksk g]|] eqn:E; [|reflexivity]. cbn [obind]. unfold expand_keyswitch_key. cbn [sd_bodies sd_seed].
  apply (expand_ksk_eq p w gauss b l ok ik output outs) in E; try assumption; [|apply repeat_length]. cbn [eg_mask] in E. rewrite E. reflexivity.
Qed.
Print Assumptions C33_keyswitch_key.

(** ** GLWE *)
Lemma seeded_glwe_eq p w gauss key N output body0 m g : glwe_wf w (length key) N output -> length m = N -> length body0 = N ->
  encrypt_seeded_glwe_with p w gauss key N body0 m g =
  let! (c, g) := encrypt_glwe p w gauss key output m g in Ret (last c [], g).
Proof.
  intros Ho Hm Lb. destruct (wf_snoc_dec _ _ _ _ Ho) as (om & ob & -> & Lo & _ & [Lob _]).
  unfold encrypt_seeded_glwe_with, encrypt_glwe. rewrite glwe_split_snoc. cbn [obind].
  rewrite !ck_dim_eq_ok by congruence. cbn [obind]. rewrite Lo, Lob, Lb. unfold glwe_fill_mask_and_body.
  destruct (random_noises gauss N g) as [[es g1]|]; [|reflexivity]. cbn [obind]. rewrite (Nat.mul_comm N).
  destruct (random_mask w (length key * N) g1) as [[mask g2]|]; [|reflexivity]. cbn [obind].
  destruct (update_with_wrapping_add_multisum_ p w es (chunks N mask) key) as [b1|]; [|reflexivity]. cbn [obind].
  destruct (update_with_wrapping_add_ p w b1 m) as [b2|]; [|reflexivity]. cbn [obind]. rewrite last_last. reflexivity.
Qed.

(** A ciphertext whose masks are the words of the table at the generator's position is read back. *)
Lemma expand_glwe_row w k N o row g : 0 < w -> (0 < N)%nat -> glwe_wf w k N o -> glwe_wf w k N row ->
  concat (removelast row) = table_words w (bg_table g) (bg_pos g) (k * N) -> bg_pos g + Z.of_nat (k * N) * (w / 8) <= bg_end g ->
  expand_one_glwe w o (last row []) g = Ret (row, bg_advance g (Z.of_nat (k * N) * (w / 8))).
Proof.
  intros Hw HN Ho Hr Hm Hle. destruct (wf_snoc_dec _ _ _ _ Ho) as (om & ob & -> & Lo & _ & [Lob _]).
  destruct (wf_snoc_dec _ _ _ _ Hr) as (rm & rb & -> & Lr & Wr & [Lrb _]). rewrite removelast_last in Hm. rewrite last_last.
  unfold expand_one_glwe. rewrite glwe_split_snoc. cbn [obind]. rewrite Lo, Lob.
  rewrite uniform_tensor_ok by lia. cbn [obind]. rewrite Lrb, Nat.eqb_refl. cbn [assert_ obind].
  rewrite <- Hm, chunks_concat; [reflexivity|assumption|]. eapply Forall_impl; [|exact Wr]. intros a [La _]. exact La.
Qed.

Section Glwe33.
Context (p : profile) (w : Z) (gauss : list Z -> option (Z * Z)) (N : nat) (key : list (list Z)).
Context (Hw : 0 < w) (Hm8 : w mod 8 = 0) (HN : (0 < N)%nat) (Hga : gauss_ok w gauss) (Hk : gkey_ok p N key).
Notation k := (length key).

Lemma encrypt_glwe_fits output m g c g' : glwe_wf w k N output -> length m = N ->
  encrypt_glwe p w gauss key output m g = Ret (c, g') -> (k * N = 0)%nat \/ bg_pos (eg_mask g) + Z.of_nat (k * N) * (w / 8) <= bg_end (eg_mask g).
Proof.
  intros Ho Hm E. unfold encrypt_glwe in E. destruct (wf_snoc_dec _ _ _ _ Ho) as (om & ob & -> & Lo & _ & [Lob _]).
  rewrite glwe_split_snoc in E. cbn [obind] in E. rewrite !ck_dim_eq_ok in E by congruence. cbn [obind] in E. rewrite Lo, Lob in E.
  unfold glwe_fill_mask_and_body, random_noises in E.
  destruct (gaussian_tensor gauss N (eg_noise g)) as [[es ng]|]; [|discriminate]. cbn [obind] in E.
  unfold random_mask in E. cbn [eg_mask] in E.
  destruct (generate_tensor (uniform_one w) (k * N) (eg_mask g)) as [[mask g2]|] eqn:Em; [|discriminate].
  apply uniform_tensor_inv in Em; [|assumption..]. tauto.
Qed.

Lemma expand_one_glwe_eq output o m g c g' : (0 < k)%nat -> egen_ok g -> glwe_wf w k N output -> glwe_wf w k N o -> length m = N ->
  encrypt_glwe p w gauss key output m g = Ret (c, g') -> expand_one_glwe w o (last c []) (eg_mask g) = Ret (c, eg_mask g').
Proof.
  intros Hk0 Hg Ho Ho' Hm E. pose proof (encrypt_glwe_fits _ _ _ _ _ Ho Hm E) as Hf. apply encrypt_glwe_inv with (N := N) in E; try assumption.
  destruct E as (es & _ & -> & Hc & Wc & _). apply expand_glwe_row; try assumption. destruct Hf; [nia|assumption].
Qed.

Lemma encrypt_glwe_ok_gen output m g c g' : egen_ok g -> glwe_wf w k N output -> length m = N ->
  encrypt_glwe p w gauss key output m g = Ret (c, g') -> egen_ok g'.
Proof.
  intros Hg Ho Hm E. apply encrypt_glwe_inv with (N := N) in E; try assumption. destruct E as (es & _ & E & _). unfold egen_ok. rewrite E. exact Hg.
Qed.

Lemma seeded_glwe_zip_eq : forall output bodies ms g, Forall (glwe_wf w k N) output -> Forall (fun b : list Z => length b = N) bodies ->
  Forall (fun m : list Z => length m = N) ms -> length output = length ms -> length bodies = length ms ->
  encrypt_seeded_glwe_zip p w gauss key N bodies ms g =
  let! (cs, g) := encrypt_glwe_zip p w gauss key output ms g in Ret (map (fun c => last c []) cs, g).
Proof.
  induction output as [|o output IH]; intros bodies ms g Ho Hb Hm L1 L2.
  - destruct ms; [|discriminate]. destruct bodies; [|discriminate]. reflexivity.
  - destruct ms as [|m ms]; [discriminate|]. destruct bodies as [|b bodies]; [discriminate|]. cbn [encrypt_seeded_glwe_zip encrypt_glwe_zip].
    rewrite (seeded_glwe_eq p w gauss key N o b m g (Forall_inv Ho) (Forall_inv Hm) (Forall_inv Hb)).
    destruct (encrypt_glwe p w gauss key o m g) as [[c g1]|]; [|reflexivity]. cbn [obind].
    rewrite IH by (try (cbn in L1, L2; lia); eapply Forall_inv_tail; eassumption).
    destruct (encrypt_glwe_zip p w gauss key output ms g1) as [[cs g2]|]; reflexivity.
Qed.

Lemma expand_glwe_zip_eq : (0 < k)%nat -> forall output outs ms g cs g', egen_ok g -> Forall (glwe_wf w k N) output -> Forall (glwe_wf w k N) outs ->
  Forall (fun m : list Z => length m = N) ms -> length output = length ms -> length outs = length ms ->
  encrypt_glwe_zip p w gauss key output ms g = Ret (cs, g') ->
  expand_zip (expand_one_glwe w) outs (map (fun c => last c []) cs) (eg_mask g) = Ret (cs, eg_mask g').
Proof.
  intros Hk0. induction output as [|o output IH]; intros outs ms g cs g' Hg Ho Hos Hm L1 L2 E.
  - destruct ms; [|discriminate]. destruct outs; [|discriminate]. cbn in E. injection E as <- <-. reflexivity.
  - destruct ms as [|m ms]; [discriminate|]. destruct outs as [|o' outs]; [discriminate|]. cbn [encrypt_glwe_zip] in E.
    destruct (encrypt_glwe p w gauss key o m g) as [[c g1]|] eqn:Ec; [|discriminate]. cbn [obind] in E.
    destruct (encrypt_glwe_zip p w gauss key output ms g1) as [[cs' g2]|] eqn:Ecs; [|discriminate]. cbn [obind] in E. injection E as <- <-.
    cbn [map expand_zip]. rewrite (expand_one_glwe_eq o o' m g c g1 Hk0 Hg (Forall_inv Ho) (Forall_inv Hos) (Forall_inv Hm) Ec). cbn [obind].
    rewrite (IH outs ms g1 cs' g2); try (eapply Forall_inv_tail; eassumption); try (cbn in L1, L2; lia); try assumption; [reflexivity|].
    exact (encrypt_glwe_ok_gen o m g c g1 Hg (Forall_inv Ho) (Forall_inv Hm) Ec).
Qed.
End Glwe33.

Theorem C33_glwe : forall p w gauss rng N key output o m seed nseed body0,
  let k := length key in
  0 < w -> w mod 8 = 0 -> (0 < N)%nat -> (0 < k)%nat -> gauss_ok w gauss -> bytes_ok (bg_table (rng seed)) -> gkey_ok p N key ->
  glwe_wf w k N output -> glwe_wf w k N o -> length m = N -> length body0 = N ->
  (let! s := encrypt_seeded_glwe p w gauss rng key N k (Seeded seed body0) m nseed in expand_glwe w rng s o) =
  (let! (c, _) := encrypt_glwe p w gauss key output m (EG (rng seed) (rng nseed)) in Ret c).
Proof.
  intros p w gauss rng N key output o m seed nseed body0 k Hw Hm8 HN Hk0 Hga Hg Hk Ho Ho' Hm Lb. unfold encrypt_seeded_glwe, new_egen.
  rewrite ck_dim_eq_ok by reflexivity. cbn [obind sd_seed sd_bodies]. rewrite (seeded_glwe_eq p w gauss key N output) by assumption.
  destruct (encrypt_glwe p w gauss key output m _) as [[c g]|] eqn:E; [|reflexivity]. cbn [obind]. unfold expand_glwe. cbn [sd_seed sd_bodies].
  apply (expand_one_glwe_eq p w gauss N key Hw Hm8 HN Hga Hk output o) in E; try assumption. cbn [eg_mask] in E. rewrite E. reflexivity.
Qed.
Print Assumptions C33_glwe.

Theorem C33_glwe_list : forall p w gauss rng N key output outs ms seed nseed bodies0,
  let k := length key in
  0 < w -> w mod 8 = 0 -> (0 < N)%nat -> (0 < k)%nat -> gauss_ok w gauss -> bytes_ok (bg_table (rng seed)) -> gkey_ok p N key ->
  Forall (glwe_wf w k N) output -> Forall (glwe_wf w k N) outs -> Forall (fun b : list Z => length b = N) bodies0 ->
  length ms = (length output * N)%nat -> length outs = length output -> length bodies0 = length output ->
  (let! s := encrypt_seeded_glwe_list p w gauss rng key N N k (Seeded seed bodies0) ms nseed in expand_glwe_list w rng s outs) =
  (let! (cs, _) := encrypt_glwe_list p w gauss key N output ms (EG (rng seed) (rng nseed)) in Ret cs).
Proof.
  intros p w gauss rng N key output outs ms seed nseed bodies0 k Hw Hm8 HN Hk0 Hga Hg Hk Ho Hos Hb Lm Los Lb.
  unfold encrypt_seeded_glwe_list, encrypt_glwe_list, new_egen. cbn [sd_seed sd_bodies].
  destruct (chunks_spec N (length output) ms HN Lm) as (Lc & Fc & _).
  rewrite ck_dim_eq_ok by lia. cbn [obind]. rewrite ck_dim_eq_ok by reflexivity. cbn [obind]. rewrite ck_dim_eq_ok by lia. cbn [obind].
  rewrite (seeded_glwe_zip_eq p w gauss N key HN output) by (assumption || congruence).
  destruct (encrypt_glwe_zip _ _ _ _ _ _ _) as [[cs g]|] eqn:E; [|reflexivity]. cbn [obind]. unfold expand_glwe_list. cbn [sd_seed sd_bodies].
  apply (expand_glwe_zip_eq p w gauss N key Hw Hm8 HN Hga Hk Hk0 output outs) in E; try (assumption || congruence). cbn [eg_mask] in E. rewrite E. reflexivity.
Qed.
Print Assumptions C33_glwe_list.

(** ** GGSW *)
Lemma with_children_map {A B} (F : A -> B) (f : nat -> A -> egen -> outcome A) (h : nat -> B -> egen -> outcome B) : forall out outs gens i,
  length outs = length out ->
  (forall t a b g, nth_error out t = Some a -> nth_error outs t = Some b -> h (i + t)%nat b g = let! x := f (i + t)%nat a g in Ret (F x)) ->
  (length out <= length gens)%nat ->
  with_children h i outs gens = let! r := with_children f i out gens in Ret (map F r).
Proof.
  induction out as [|a out IH]; intros [|b outs] gens i L H Hg; try discriminate; [destruct gens; reflexivity|].
  destruct gens as [|g gens]; [cbn in Hg; lia|]. cbn [with_children].
  specialize (IH outs gens (S i)). pose proof (H O a b g eq_refl eq_refl) as H0. rewrite Nat.add_0_r in H0. rewrite H0.
  destruct (f i a g) as [x|]; [|reflexivity]. cbn [obind]. rewrite IH; [|cbn in L; lia| |cbn in Hg; lia].
  2: { intros t a' b' g' E1 E2. specialize (H (S t) a' b' g' E1 E2). rewrite <- Nat.add_succ_comm in H. exact H. }
  destruct (with_children f (S i) out gens); reflexivity.
Qed.

Lemma expand_zip_ok {A B} (f : A -> B -> bgen -> outcome (A * bgen)) (step : Z) : forall outs ins res g, length outs = length ins -> length res = length ins ->
  (forall t o b r, nth_error outs t = Some o -> nth_error ins t = Some b -> nth_error res t = Some r ->
     f o b (bg_advance g (Z.of_nat t * step)) = Ret (r, bg_advance g (Z.of_nat (S t) * step))) ->
  expand_zip f outs ins g = Ret (res, bg_advance g (Z.of_nat (length ins) * step)).
Proof.
  induction outs as [|o outs IH]; intros [|b ins] [|r res] g L1 L2 H; try discriminate.
  - cbn. destruct g; unfold bg_advance; cbn. rewrite Z.add_0_r. reflexivity.
  - cbn [expand_zip]. pose proof (H O o b r eq_refl eq_refl eq_refl) as H0. change (Z.of_nat 0) with 0 in H0. change (Z.of_nat 1) with 1 in H0. rewrite Z.mul_0_l, bg_advance_0, Z.mul_1_l in H0.
    rewrite H0. cbn [obind].
    assert (Hadv : forall x y, bg_advance (bg_advance g x) y = bg_advance g (x + y)) by (intros; unfold bg_advance; cbn; f_equal; lia).
    rewrite (IH ins res); [|cbn in L1; lia|cbn in L2; lia|].
    + cbn [obind]. rewrite Hadv. cbn [length]. do 3 f_equal. lia.
    + intros t o' b' r' E1 E2 E3. specialize (H (S t) o' b' r' E1 E2 E3). rewrite !Hadv.
      replace (step + Z.of_nat t * step) with (Z.of_nat (S t) * step) by lia.
      replace (step + Z.of_nat (S t) * step) with (Z.of_nat (S (S t)) * step) by lia. exact H.
Qed.

(** Shapes of seeded bodies. *)
Definition bodies_wf (k N l : nat) (B : list (list (list Z))) : Prop :=
  length B = l /\ Forall (fun lev => length lev = S k /\ Forall (fun b : list Z => length b = N) lev) B.

Lemma row_message_length w key N i last factor m : Forall (fun s : list Z => length s = N) key ->
  ggsw_row_message w key N i last factor = Ret m -> length m = N.
Proof.
  intros Hk E. unfold ggsw_row_message in E. destruct (Nat.ltb i last).
  - destruct (nth_error key i) as [s|] eqn:Es; [|discriminate]. injection E as <-. rewrite map_length.
    rewrite Forall_forall in Hk. apply Hk. exact (nth_error_In _ _ Es).
  - destruct (repeat 0 N) as [|x r] eqn:Er; [discriminate|]. injection E as <-. rewrite <- (repeat_length 0 N), Er. reflexivity.
Qed.

Section Ggsw33.
Context (p : profile) (w b : Z) (gauss : list Z -> option (Z * Z)) (N : nat) (key : list (list Z)).
Context (Hw : 0 < w) (Hm8 : w mod 8 = 0) (Hw64 : w < 2 ^ 64) (HN : (0 < N)%nat) (Hga : gauss_ok w gauss) (Hk : gkey_ok p N key) (Hk0 : (0 < length key)%nat).
Context (Hb : 0 < b).
Notation k := (length key).
Notation last_of := (fun c : list (list Z) => last c []).

Lemma key_lengths : Forall (fun s : list Z => length s = N) key.
Proof. apply Hk. Qed.

Lemma seeded_row_eq i lst factor row body0 g : glwe_wf w k N row -> length body0 = N ->
  encrypt_constant_seeded_ggsw_row p w gauss key N i lst factor body0 g =
  let! c := encrypt_constant_ggsw_row p w gauss key N i lst factor row g in Ret (last c []).
Proof.
  intros Hr Lb. unfold encrypt_constant_seeded_ggsw_row, encrypt_constant_ggsw_row.
  destruct (ggsw_row_message w key N i lst factor) as [m|] eqn:Em; [|reflexivity]. cbn [obind]. apply row_message_length in Em; [|exact key_lengths].
  rewrite (seeded_glwe_eq p w gauss key N row) by assumption. destruct (encrypt_glwe p w gauss key row m g) as [[c g1]|]; reflexivity.
Qed.

Lemma level_gens_length g gens g' : expect_fork (fork_ggsw_level_to_glwe p w g (Z.of_nat k + 1) (Z.of_nat N)) = Ret (gens, g') ->
  (Z.of_nat k + 1) * (Z.of_nat k * (Z.of_nat N * (w / 8))) < 2 ^ 64 -> (Z.of_nat k + 1) * (Z.of_nat N * 256) < 2 ^ 64 -> length gens = S k.
Proof.
  intros E S1 S2. assert (Hb8 : 0 < w / 8) by lia. rewrite fork_level_eq in E by assumption. apply eg_fork_inv in E; [|nia|lia|lia|lia].
  destruct E as (-> & _). rewrite children_length. lia.
Qed.

Lemma seeded_level_eq m j lev bodies g : length lev = S k -> Forall (glwe_wf w k N) lev -> length bodies = S k -> Forall (fun b : list Z => length b = N) bodies ->
  (Z.of_nat k + 1) * (Z.of_nat k * (Z.of_nat N * (w / 8))) < 2 ^ 64 -> (Z.of_nat k + 1) * (Z.of_nat N * 256) < 2 ^ 64 -> Z.of_nat k + 1 < 2 ^ 64 ->
  encrypt_seeded_ggsw_level p w gauss key N b m (S k) j bodies g =
  let! r := encrypt_ggsw_level p w gauss key N b m j lev g in Ret (map last_of r).
Proof.
  intros Ll Wl Lb Wb S1 S2 S3. unfold encrypt_seeded_ggsw_level, encrypt_ggsw_level.
  destruct (level_scale p w b (S j)) as [scale|]; [|reflexivity]. cbn [obind].
  destruct (expect_fork _) as [[gens g1]|] eqn:Ef; [|reflexivity]. cbn [obind]. apply level_gens_length in Ef; [|assumption..].
  unfold plain, usize_bits. replace (Z.of_nat (S k) - 1) with (Z.of_nat k) by lia.
  rewrite Z.mod_small by lia. replace ((0 <=? Z.of_nat k) && (Z.of_nat k <? 2 ^ 64)) with true by lia. cbn [obind].
  replace (match p with Debug => Ret (Z.of_nat k) | Release => Ret (Z.of_nat k) end) with (Ret (Z.of_nat k)) by (destruct p; reflexivity).
  cbn [obind]. rewrite Nat2Z.id.
  destruct lev as [|r0 lev'] eqn:El; [discriminate|]. rewrite <- El in *. clear El r0 lev'. replace (length lev - 1)%nat with k by lia.
  apply (with_children_map last_of); [congruence| |lia].
  intros t a b0 g0 Ea Eb. apply seeded_row_eq.
  - rewrite Forall_forall in Wl. apply Wl. exact (nth_error_In _ _ Ea).
  - rewrite Forall_forall in Wb. apply Wb. exact (nth_error_In _ _ Eb).
Qed.

Lemma seeded_ggsw_eq m output bodies g : let l := length output in
  ggsw_wf w k N l output -> bodies_wf k N l bodies -> ggsw_bytes_small w l k N ->
  encrypt_seeded_ggsw_with p w gauss key N b N (S k) bodies m g =
  let! (G, g) := encrypt_constant_ggsw p w gauss key N b output m g in Ret (map (map last_of) G, g).
Proof.
  intros l [_ Wo] [Lb Wb] Hs. unfold encrypt_seeded_ggsw_with, encrypt_constant_ggsw. rewrite ck_dim_eq_ok by reflexivity. cbn [obind].
  rewrite ck_dim_eq_ok by lia. cbn [obind]. rewrite Lb. fold l.
  destruct (expect_fork _) as [[gens g1]|] eqn:Ef; [|reflexivity]. cbn [obind].
  destruct (Nat.eq_dec l 0) as [El|Hl0].
  { assert (output = []) as -> by (destruct output; [reflexivity|discriminate]). assert (bodies = []) as -> by (destruct bodies; [reflexivity|cbn in Lb; lia]).
    destruct gens; reflexivity. }
  assert (Hlen : length gens = l).
  { rewrite fork_levels_eq in Ef by (assumption || lia). destruct Hs as [S1 S2]. assert (0 < w / 8) by lia. apply eg_fork_inv in Ef; [|nia|lia|assumption..].
    destruct Ef as (-> & _). apply children_length. }
  destruct Hs as [S1 S2]. assert (0 < w / 8) by lia.
  rewrite (with_children_map (map last_of) (encrypt_ggsw_level p w gauss key N b m) _ output bodies); [|exact Lb| |fold l; lia].
  - destruct (with_children _ 0 output gens); reflexivity.
  - intros t lev bd g0 El Eb. cbn [Nat.add]. rewrite Forall_forall in Wo. destruct (Wo lev (nth_error_In _ _ El)) as [L1 W1].
    rewrite Forall_forall in Wb. destruct (Wb bd (nth_error_In _ _ Eb)) as [L2 W2]. apply seeded_level_eq; try assumption; nia.
Qed.

(** Expanding the bodies of an encryption, from a generator with the same bytes at the same place. *)
Lemma expand_ggsw_eq m output outs g G g' e : let l := length output in
  ggsw_wf w k N l output -> ggsw_wf w k N l outs -> egen_ok g -> b * Z.of_nat l <= w -> ggsw_bytes_small w l k N -> bg_end (eg_mask g) <= e ->
  encrypt_constant_ggsw p w gauss key N b output m g = Ret (G, g') ->
  expand_ggsw_with w outs (map (map last_of) G) (BG (bg_table (eg_mask g)) (bg_pos (eg_mask g)) e) =
  Ret (G, BG (bg_table (eg_mask g)) (bg_pos (eg_mask g) + Z.of_nat l * ((Z.of_nat k + 1) * (Z.of_nat k * (Z.of_nat N * (w / 8))))) e).
Proof.
  intros l Ho [Los Wos] Hg Hbl Hs He E. assert (Hb8 : 0 < w / 8) by lia.
  pose proof E as E'. apply (ggsw_inv p w b gauss N key) in E'; try assumption. fold l in E'. destruct E' as (LG & _ & Hfit & _).
  apply C25_rows in E; try assumption. destruct E as (noise & [_ WG] & _ & _ & Hm & _ & _).
  set (b8 := w / 8) in *. set (gg := BG _ _ e).
  replace (BG (bg_table (eg_mask g)) (bg_pos (eg_mask g) + _) e)
    with (bg_advance gg (Z.of_nat (length (map (map last_of) G)) * ((Z.of_nat k + 1) * (Z.of_nat k * (Z.of_nat N * b8)))))
    by (rewrite map_length, LG; reflexivity).
  unfold expand_ggsw_with. apply expand_zip_ok; rewrite ?map_length; [rewrite Los, LG; reflexivity|reflexivity|].
  intros j ol bl lev Eo Eb El. rewrite nth_error_map, El in Eb. cbn in Eb. injection Eb as <-.
  rewrite Forall_forall in Wos, WG. destruct (Wos ol (nth_error_In _ _ Eo)) as [Lol Wol]. destruct (WG lev (nth_error_In _ _ El)) as [Llev Wlev].
  assert (Hj : (j < l)%nat) by (rewrite <- LG; apply nth_error_Some; congruence).
  replace (bg_advance gg (Z.of_nat (S j) * _)) with
    (bg_advance (bg_advance gg (Z.of_nat j * ((Z.of_nat k + 1) * (Z.of_nat k * (Z.of_nat N * b8))))) (Z.of_nat (length (map last_of lev)) * (Z.of_nat (k * N) * b8))).
  2: { rewrite map_length, Llev. unfold bg_advance, gg. cbn [bg_table bg_pos bg_end]. f_equal. rewrite Nat2Z.inj_mul, !Nat2Z.inj_succ. unfold Z.succ. ring. }
  apply expand_zip_ok; rewrite ?map_length; [congruence|reflexivity|].
  intros i o bd row Eoi Ebd Er. rewrite nth_error_map, Er in Ebd. cbn in Ebd. injection Ebd as <-.
  rewrite Forall_forall in Wol, Wlev.
  assert (Hi : (i < S k)%nat) by (rewrite <- Llev; apply nth_error_Some; congruence).
  rewrite (expand_glwe_row w k N o row); try assumption.
  - fold b8. unfold bg_advance, gg. cbn [bg_table bg_pos bg_end]. do 3 f_equal. rewrite Nat2Z.inj_mul, !Nat2Z.inj_succ. unfold Z.succ. ring.
  - apply Wol. exact (nth_error_In _ _ Eoi).
  - apply Wlev. exact (nth_error_In _ _ Er).
  - rewrite (Hm j lev i row El Er). fold k. unfold row_number, bg_advance, gg. cbn [bg_table bg_pos bg_end]. f_equal. fold b8.
    replace (S j - 1)%nat with j by lia. rewrite !Nat2Z.inj_add, !Nat2Z.inj_mul, Nat2Z.inj_add. change (Z.of_nat 1) with 1. ring.
  - unfold bg_advance, gg. cbn [bg_table bg_pos bg_end]. fold b8.
    assert (Hr : (Z.of_nat j * (Z.of_nat k + 1) + Z.of_nat i + 1) * (Z.of_nat k * (Z.of_nat N * b8)) <= Z.of_nat l * ((Z.of_nat k + 1) * (Z.of_nat k * (Z.of_nat N * b8)))).
    { rewrite (Z.mul_assoc (Z.of_nat l)). apply Z.mul_le_mono_nonneg_r; nia. }
    rewrite Nat2Z.inj_mul. lia.
Qed.
End Ggsw33.

Theorem C33_ggsw : forall p w gauss rng N key b output outs bodies0 m seed nseed,
  let k := length key in let l := length output in
  0 < w -> w mod 8 = 0 -> w < 2 ^ 64 -> (0 < N)%nat -> (0 < k)%nat -> gauss_ok w gauss -> bytes_ok (bg_table (rng seed)) -> gkey_ok p N key ->
  0 < b -> b * Z.of_nat l <= w -> ggsw_wf w k N l output -> ggsw_wf w k N l outs -> bodies_wf k N l bodies0 -> ggsw_bytes_small w l k N ->
  (let! s := encrypt_constant_seeded_ggsw p w gauss rng key N b N (S k) (Seeded seed bodies0) m nseed in expand_ggsw w rng s outs) =
  (let! (G, _) := encrypt_constant_ggsw p w gauss key N b output m (EG (rng seed) (rng nseed)) in Ret G).
Proof.
  intros p w gauss rng N key b output outs bodies0 m seed nseed k l Hw Hm8 Hw64 HN Hk0 Hga Hg Hk Hb Hbl Ho Hos Hbd Hs.
  unfold encrypt_constant_seeded_ggsw, new_egen. cbn [sd_seed sd_bodies]. unfold k.
  rewrite (seeded_ggsw_eq p w b gauss N key Hw Hm8 HN Hk Hk0 m output) by assumption.
  destruct (encrypt_constant_ggsw _ _ _ _ _ _ _ _ _) as [[G g]|] eqn:E; [|reflexivity]. cbn [obind]. unfold expand_ggsw. cbn [sd_seed sd_bodies].
  apply (expand_ggsw_eq p w b gauss N key) with (outs := outs) (e := bg_end (rng seed)) in E; try assumption; [|cbn; lia].
  cbn [eg_mask] in E. destruct (rng seed) as [tab pos e]. cbn [bg_table bg_pos bg_end] in E. rewrite E. reflexivity.
Qed.
Print Assumptions C33_ggsw.

(** ** Bootstrap keys *)
Lemma seeded_bsk_loop_eq p w b gauss N key l : 0 < w -> w mod 8 = 0 -> (0 < N)%nat -> gkey_ok p N key -> (0 < length key)%nat -> ggsw_bytes_small w l (length key) N ->
  forall out bodies lwe_key gens, Forall (ggsw_wf w (length key) N l) out -> Forall (bodies_wf (length key) N l) bodies ->
  length out = length lwe_key -> length bodies = length lwe_key -> length gens = length lwe_key ->
  seeded_bsk_loop p w gauss key N b N (S (length key)) bodies lwe_key gens =
  let! r := bsk_loop p w gauss key N b out lwe_key gens in Ret (map (map (map (fun c => last c []))) r).
Proof.
  intros Hw Hm8 HN Hk Hk0 Hs. induction out as [|G out IH]; intros bodies lk gens Ho Hb L1 L2 L3.
  - destruct lk; [|discriminate]. destruct bodies; [|discriminate]. reflexivity.
  - destruct lk as [|s lk]; [discriminate|]. destruct bodies as [|B bodies]; [discriminate|]. destruct gens as [|g gens]; [discriminate|].
    cbn [seeded_bsk_loop bsk_loop]. pose proof (Forall_inv Ho) as HG. pose proof (Forall_inv Hb) as HB. pose proof (proj1 HG) as LG.
    rewrite (seeded_ggsw_eq p w b gauss N key Hw Hm8 HN Hk Hk0 s G); [|rewrite LG; assumption..].
    destruct (encrypt_constant_ggsw p w gauss key N b G s g) as [[x g1]|]; [|reflexivity]. cbn [obind].
    rewrite IH by (try (cbn in L1, L2, L3; lia); eapply Forall_inv_tail; eassumption).
    destruct (bsk_loop p w gauss key N b out lk gens); reflexivity.
Qed.

Lemma zero_bodies_wf k N l B : bodies_wf k N l B -> bodies_wf k N l (map (map (map (fun _ : Z => 0))) B).
Proof.
  intros [L H]. split; [rewrite map_length; exact L|]. apply Forall_forall. intros lev' Hin. apply in_map_iff in Hin. destruct Hin as (lev & <- & Hin).
  rewrite Forall_forall in H. destruct (H lev Hin) as [Ll Wl]. split; [rewrite map_length; exact Ll|]. apply Forall_forall. intros b' Hb.
  apply in_map_iff in Hb. destruct Hb as (bd & <- & Hb). rewrite map_length. rewrite Forall_forall in Wl. apply Wl. exact Hb.
Qed.

Theorem C33_bootstrap_key : forall p w gauss rng N key b l output outs bodies0 lwe_key seed nseed,
  let k := length key in let n := length lwe_key in
  0 < w -> w mod 8 = 0 -> w < 2 ^ 64 -> (0 < N)%nat -> (0 < k)%nat -> (0 < l)%nat -> (0 < n)%nat ->
  gauss_ok w gauss -> bytes_ok (bg_table (rng seed)) -> gkey_ok p N key -> 0 < b -> b * Z.of_nat l <= w ->
  length output = n -> Forall (ggsw_wf w k N l) output -> length outs = n -> Forall (ggsw_wf w k N l) outs ->
  length bodies0 = n -> Forall (bodies_wf k N l) bodies0 ->
  Z.of_nat n * (Z.of_nat l * ((Z.of_nat k + 1) * (Z.of_nat k * (Z.of_nat N * (w / 8))))) < 2 ^ 64 ->
  Z.of_nat n * (Z.of_nat l * ((Z.of_nat k + 1) * (Z.of_nat N * 256))) < 2 ^ 64 ->
  (let! s := fill_with_new_seeded_bootstrap_key p w gauss rng key N l b N (S k) (Seeded seed bodies0) lwe_key nseed in expand_bootstrap_key w rng s outs) =
  (let! (bsk, _) := fill_with_new_bootstrap_key p w gauss key N l b output lwe_key (EG (rng seed) (rng nseed)) in Ret bsk).
Proof.
  intros p w gauss rng N key b l output outs bodies0 lwe_key seed nseed k n Hw Hm8 Hw64 HN Hk0 Hl0 Hn0 Hga Hg Hk Hb Hbl Lo Ho Los Hos Lbd Hbd S1 S2.
  assert (Hb8 : 0 < w / 8) by lia.
  unfold fill_with_new_seeded_bootstrap_key, fill_with_new_bootstrap_key, new_egen. cbn [sd_seed sd_bodies]. rewrite !ck_dim_eq_ok by assumption. cbn [obind].
  fold k n. rewrite fork_bsk_eq by assumption.
  assert (Hs : ggsw_bytes_small w l k N) by (split; nia).
  destruct (expect_fork _) as [[gens g1]|] eqn:Ef; [|reflexivity]. cbn [obind].
  apply eg_fork_inv in Ef; [|nia|lia|assumption|assumption]. destruct Ef as (-> & _ & _ & _ & _ & Hfit & _). cbn [eg_mask] in Hfit.
  set (gens := map _ (zseq 0 n)). assert (Lg : length gens = n) by apply children_length.
  assert (Wz : Forall (ggsw_wf w k N l) (map zero_ggsw output)).
  { apply Forall_forall. intros G Hin. apply in_map_iff in Hin. destruct Hin as (G0 & <- & Hin). rewrite Forall_forall in Ho. apply zero_ggsw_wf; [lia|auto]. }
  unfold k. rewrite (seeded_bsk_loop_eq p w b gauss N key l Hw Hm8 HN Hk Hk0 Hs (map zero_ggsw output));
    [|exact Wz| |rewrite map_length; exact Lo|rewrite map_length; exact Lbd|exact Lg].
  2: { apply Forall_forall. intros B Hin. apply in_map_iff in Hin. destruct Hin as (B0 & <- & Hin). rewrite Forall_forall in Hbd. apply zero_bodies_wf. auto. }
  destruct (bsk_loop p w gauss key N b (map zero_ggsw output) lwe_key gens) as [bsk|] eqn:Eb; [|reflexivity]. cbn [obind].
  apply bsk_loop_inv in Eb; [|rewrite map_length; symmetry; exact Lo|rewrite map_length, Lo; exact Lg]. destruct Eb as [Lr Hr]. rewrite map_length, Lo in Lr.
  unfold expand_bootstrap_key. cbn [sd_seed sd_bodies].
  rewrite (expand_zip_ok (expand_ggsw_with w) (Z.of_nat l * ((Z.of_nat k + 1) * (Z.of_nat k * (Z.of_nat N * (w / 8))))) outs _ bsk); [reflexivity|rewrite map_length; congruence|rewrite map_length; reflexivity|].
  intros t o bd G Eo Ebd EG. rewrite nth_error_map, EG in Ebd. cbn [option_map] in Ebd. injection Ebd as <-.
  assert (Ht : (t < n)%nat) by (rewrite <- Lr; apply nth_error_Some; congruence).
  destruct (nth_error lwe_key t) as [s|] eqn:Es; [|apply nth_error_None in Es; fold n in Es; lia].
  destruct (nth_error (map zero_ggsw output) t) as [z|] eqn:Ez; [|apply nth_error_None in Ez; rewrite map_length in Ez; lia].
  destruct (Hr t z s _ Ez Es (child_nth _ _ _ _ _ Ht)) as (x & gx & Ex & Ee). rewrite EG in Ex. injection Ex as <-.
  rewrite Forall_forall in Wz, Hos. pose proof (Wz z (nth_error_In _ _ Ez)) as Wzz. pose proof (Hos o (nth_error_In _ _ Eo)) as Woo. pose proof (proj1 Wzz) as Lz.
  apply (expand_ggsw_eq p w b gauss N key) with (outs := o) (e := bg_end (rng seed)) in Ee; try assumption; rewrite ?Lz; try assumption.
  - unfold child, bg_window in Ee. cbn [eg_mask bg_table bg_pos] in Ee. fold k in Ee. unfold bg_advance.
    rewrite Lz in Ee. rewrite Ee. do 3 f_equal. rewrite Nat2Z.inj_succ. unfold Z.succ. ring.
  - unfold child, bg_window. cbn [eg_mask bg_end bg_pos]. fold k.
    set (X := Z.of_nat l * ((Z.of_nat k + 1) * (Z.of_nat k * (Z.of_nat N * (w / 8))))) in *. assert (0 <= X) by (unfold X; nia). clearbody X. nia.
Qed.
Print Assumptions C33_bootstrap_key.

(** Concrete cases: w = 32, a generator family whose bytes depend on the seed, noise as in [demo_gauss_word]. *)
Definition demo_rng (seed : Z) : bgen := BG (fun i => (7 * i + 11 * seed + i / 512 + 3) mod 256) 0 10000.
Lemma demo_rng_ok seed : bytes_ok (bg_table (demo_rng seed)).
Proof. intros i. cbn. lia. Qed.

Example C33_case :
  let key := [[1; 0]] in
  gkey_ok Debug 2 key /\ gauss_ok 32 demo_gauss_word /\ ggsw_wf 32 1 2 2 (ggsw_allocate 2 2 2) /\ bodies_wf 1 2 2 [[[0; 0]; [0; 0]]; [[0; 0]; [0; 0]]] /\ ggsw_bytes_small 32 2 1 2 /\
  (let! s := encrypt_constant_seeded_ggsw Debug 32 demo_gauss_word demo_rng key 2 4 2 2 (Seeded 5 [[[0; 0]; [0; 0]]; [[0; 0]; [0; 0]]]) 3 9 in
   let! G := expand_ggsw 32 demo_rng s (ggsw_allocate 2 2 2) in
   Ret (map (map (decrypt_glwe Debug 32 key 2)) G)) = Ret [[Ret [2 ^ 32 - 3 * 2 ^ 28 + 102; 109]; Ret [3 * 2 ^ 28 + 103; 110]]; [Ret [2 ^ 32 - 3 * 2 ^ 24 + 104; 111]; Ret [3 * 2 ^ 24 + 105; 112]]] /\
  (let! s := encrypt_seeded_lwe Debug 32 demo_gauss_word demo_rng [1; 0; 1] 3 (Seeded 5 0) (2 ^ 30) 9 in
   let! c := expand_lwe 32 demo_rng s [9; 9; 9; 9] in decrypt_lwe Debug 32 [1; 0; 1] c) = Ret (2 ^ 30 + 102).
Proof.
  cbv zeta. split. { split; [repeat constructor|]. right. repeat (constructor; [bin|]). constructor. }
  split; [apply demo_gauss_word_ok; lia|]. split; [apply ggsw_zero_wf; lia|].
  split; [split; [reflexivity|repeat constructor]|]. split; [split; vm_compute; reflexivity|].
  split; vm_compute; reflexivity.
Qed.
