(** * Facts about LWE phases and encryption *)
From Verif Require Import Base Word WordFacts LweSpec PolyModel RandomModel RandomProofs LweModel.

(** The phase before reduction. *)
Definition raw (s c : list Z) : Z := last c 0 - dot (removelast c) s.

Lemma snoc_dec {A} (c : list A) n : length c = S n -> exists m b, c = m ++ [b] /\ length m = n.
Proof.
  intros H. destruct (exists_last (l := c)) as (m & b & ->).
  - intros ->. discriminate.
  - exists m, b. split; [reflexivity|]. rewrite app_length in H. cbn in H. lia.
Qed.

Lemma raw_snoc s m b : raw s (m ++ [b]) = b - dot m s.
Proof. unfold raw. rewrite last_last, removelast_last. reflexivity. Qed.

Lemma phase_raw w s c : phase w s c = raw s c mod 2 ^ w.
Proof. reflexivity. Qed.
Lemma phase_eqm w s c : eqm (2 ^ w) (phase w s c) (raw s c).
Proof. apply eqm_mod. Qed.
Lemma phase_word w s c : 0 <= w -> is_word w (phase w s c).
Proof. intros. apply Z.mod_pos_bound, pow2_pos; assumption. Qed.
Lemma phase_eq w s c v : eqm (2 ^ w) (raw s c) v -> phase w s c = v mod 2 ^ w.
Proof. intros H. exact H. Qed.
Lemma split_last_snoc m b : split_last (m ++ [b]) = Ret (m, b).
Proof.
  unfold split_last. destruct (m ++ [b]) eqn:E; [destruct m; discriminate|].
  rewrite <- E, removelast_last, last_last. reflexivity.
Qed.
Lemma split_last_inv c m b : split_last c = Ret (m, b) -> c = m ++ [b].
Proof.
  destruct c as [|x c]; [discriminate|]. unfold split_last. intros E.
  injection E as Em Eb. rewrite <- Em, <- Eb. apply (app_removelast_last (l := x :: c) 0). discriminate.
Qed.

Lemma map2_snoc {A B C} (f : A -> B -> C) l m a b : length l = length m ->
  map2 f (l ++ [a]) (m ++ [b]) = map2 f l m ++ [f a b].
Proof.
  revert m. induction l as [|x l IH]; intros [|y m] H; try discriminate; [reflexivity|].
  cbn. rewrite IH by (cbn in H; lia). reflexivity.
Qed.

(** ** Linearity *)
Lemma dot_nil_r a : dot a [] = 0.
Proof. destruct a; reflexivity. Qed.

Lemma dot_map2 q f al be a b s : (forall x y, eqm q (f x y) (al * x + be * y)) -> length a = length b ->
  eqm q (dot (map2 f a b) s) (al * dot a s + be * dot b s).
Proof.
  intros Hf. revert b s. induction a as [|x a IH]; intros [|y b] [|z s] H; try discriminate;
    cbn [map2 dot]; try (apply eqm_eq; rewrite ?dot_nil_r; lia).
  rewrite IH by (cbn in H; lia). rewrite (Hf x y). apply eqm_eq. ring.
Qed.

Lemma dot_map q f al a s : (forall x, eqm q (f x) (al * x)) -> eqm q (dot (map f a) s) (al * dot a s).
Proof.
  intros Hf. revert s. induction a as [|x a IH]; intros [|z s]; cbn [map dot]; try (apply eqm_eq; lia).
  rewrite IH, (Hf x). apply eqm_eq. ring.
Qed.

Lemma raw_map2 q f al be n c1 c2 s : (forall x y, eqm q (f x y) (al * x + be * y)) ->
  length c1 = S n -> length c2 = S n ->
  eqm q (raw s (map2 f c1 c2)) (al * raw s c1 + be * raw s c2).
Proof.
  intros Hf H1 H2. destruct (snoc_dec c1 n H1) as (m1 & b1 & -> & L1). destruct (snoc_dec c2 n H2) as (m2 & b2 & -> & L2).
  rewrite map2_snoc by lia. rewrite !raw_snoc. rewrite (dot_map2 q f al be) by (assumption || lia).
  rewrite (Hf b1 b2). apply eqm_eq. ring.
Qed.

Lemma raw_map q f al n c s : (forall x, eqm q (f x) (al * x)) -> length c = S n ->
  eqm q (raw s (map f c)) (al * raw s c).
Proof.
  intros Hf H1. destruct (snoc_dec c n H1) as (m1 & b1 & -> & L1).
  rewrite map_app. cbn [map]. rewrite !raw_snoc, (dot_map q f al) by assumption. rewrite (Hf b1). apply eqm_eq. ring.
Qed.

(** ** The multisum *)
Lemma plain_release w v : plain Release w v = Ret (v mod 2 ^ w).
Proof.
  unfold plain. destruct (Z.leb_spec 0 v), (Z.ltb_spec v (2 ^ w)); cbn [andb]; try reflexivity.
  rewrite Z.mod_small by lia. reflexivity.
Qed.

Definition binary (s : list Z) : Prop := Forall (fun x => x = 0 \/ x = 1) s.

(** Builds and keys for which no product overflows a checked multiplication. *)
Definition safe_key (p : profile) (s : list Z) : Prop := p = Release \/ binary s.

Lemma multisum_fold_ok p w acc mask key : 0 <= w -> Forall (is_word w) mask -> safe_key p key -> is_word w acc ->
  multisum_fold p w acc mask key = Ret ((acc + dot mask key) mod 2 ^ w).
Proof.
  intros Hw Hm Hk. revert acc key Hk. induction mask as [|a mask IH]; intros acc key Hk Ha.
  { cbn [multisum_fold dot]. rewrite Z.add_0_r, Z.mod_small by assumption. reflexivity. }
  destruct key as [|s key].
  { cbn [multisum_fold dot]. rewrite Z.add_0_r, Z.mod_small by assumption. reflexivity. }
  inversion Hm as [|? ? Ha0 Hm']; subst. cbn [multisum_fold dot].
  assert (E : exists m, plain p w (a * s) = Ret m /\ eqm (2 ^ w) m (a * s)).
  { destruct Hk as [->|Hb].
    - rewrite plain_release. eexists. split; [reflexivity|]. apply eqm_mod.
    - inversion Hb as [|? ? Hs _]; subst. exists (a * s). split; [|reflexivity]. apply plain_ok.
      unfold is_word in *. destruct Hs as [->| ->]; lia. }
  destruct E as (m & -> & Em). cbn [obind]. rewrite IH.
  - f_equal. change (eqm (2 ^ w) (wadd w acc m + dot mask key) (acc + (a * s + dot mask key))).
    rewrite wadd_eqm, Em. apply eqm_eq. ring.
  - assumption.
  - destruct Hk as [->|Hb]; [left; reflexivity|right; inversion Hb; assumption].
  - apply wadd_word. assumption.
Qed.

Lemma compute_multisum_ok p w mask key : 0 <= w -> Forall (is_word w) mask -> safe_key p key -> length mask = length key ->
  compute_multisum_ p w mask key = Ret (dot mask key mod 2 ^ w).
Proof.
  intros Hw Hm Hk Hl. unfold compute_multisum_. rewrite ck_dim_eq_ok by assumption. cbn [obind].
  rewrite multisum_fold_ok; auto. unfold is_word. pose proof (pow2_pos w Hw). lia.
Qed.

Lemma decrypt_phase p w key c : 0 <= w -> lwe_wf w (length key) c -> safe_key p key ->
  decrypt_lwe p w key c = Ret (phase w key c).
Proof.
  intros Hw [Hl Hc] Hk. destruct (snoc_dec c _ Hl) as (m & b & -> & L). apply Forall_app in Hc. destruct Hc as [Hm _].
  unfold decrypt_lwe. rewrite split_last_snoc. cbn [obind]. rewrite compute_multisum_ok by auto. cbn [obind].
  f_equal. rewrite phase_raw, raw_snoc. change (eqm (2 ^ w) (b - dot m key mod 2 ^ w) (b - dot m key)).
  rewrite (eqm_mod (2 ^ w) (dot m key)). reflexivity.
Qed.

(** ** Encryption *)
Definition egen_ok (g : egen) : Prop := bytes_ok (bg_table (eg_mask g)).

Lemma generate_tensor_table one n g l g' : (forall g x g', one g = Ret (x, g') -> bg_table g' = bg_table g) ->
  generate_tensor one n g = Ret (l, g') -> bg_table g' = bg_table g /\ length l = n.
Proof.
  intros H1. revert g l g'. induction n as [|n IH]; intros g l g' E; cbn [generate_tensor] in E.
  { injection E as <- <-. split; reflexivity. }
  destruct (one g) as [[x g1]|] eqn:E1; [|discriminate]. cbn [obind] in E.
  destruct (generate_tensor one n g1) as [[l1 g2]|] eqn:E2; [|discriminate]. injection E as <- <-.
  destruct (IH _ _ _ E2) as [Ht Hl]. rewrite Ht. split; [apply (H1 _ _ _ E1)|cbn; lia].
Qed.

(** Reading words succeeds exactly when enough bytes remain; the values are the table's. *)
Lemma uniform_tensor_inv w n g l g' : 0 < w -> w mod 8 = 0 -> generate_tensor (uniform_one w) n g = Ret (l, g') ->
  l = table_words w (bg_table g) (bg_pos g) n /\ g' = bg_advance g (Z.of_nat n * (w / 8)) /\
  (n = 0%nat \/ bg_pos g + Z.of_nat n * (w / 8) <= bg_end g).
Proof.
  intros Hw Hm E. destruct (Z.le_gt_cases (bg_pos g + Z.of_nat n * (w / 8)) (bg_end g)) as [H|H].
  - rewrite uniform_tensor_ok in E by lia. injection E as <- <-. auto.
  - destruct n as [|n].
    + cbn in E. injection E as <- <-. rewrite bg_advance_0. repeat split; auto.
    + exfalso. assert (E0 : bg_pos g <= bg_end g).
      { destruct (Z.le_gt_cases (bg_pos g) (bg_end g)); [assumption|]. cbn [generate_tensor] in E.
        unfold uniform_one in E. rewrite read_bytes_panic in E by lia. discriminate. }
      rewrite uniform_tensor_panic in E by lia. discriminate.
Qed.

Lemma random_mask_inv w n g l g' : 0 < w -> w mod 8 = 0 -> random_mask w n g = Ret (l, g') ->
  l = table_words w (bg_table (eg_mask g)) (bg_pos (eg_mask g)) n /\
  eg_mask g' = bg_advance (eg_mask g) (Z.of_nat n * (w / 8)) /\ eg_noise g' = eg_noise g.
Proof.
  intros Hw Hm. unfold random_mask. destruct (generate_tensor (uniform_one w) n (eg_mask g)) as [[l1 m]|] eqn:E; [|discriminate].
  cbn [obind]. intros E'. injection E' as <- <-. apply uniform_tensor_inv in E; [|assumption..]. tauto.
Qed.

Lemma random_noise_inv gauss g e g' : random_noise gauss g = Ret (e, g') ->
  eg_mask g' = eg_mask g /\ gaussian_one gauss (eg_noise g) = Ret (e, eg_noise g').
Proof.
  unfold random_noise. destruct (gaussian_one gauss (eg_noise g)) as [[x n]|]; [|discriminate].
  cbn [obind]. intros E. injection E as <- <-. split; reflexivity.
Qed.

(** The noise that an encryption started in [g] draws. *)
Definition noise_of (gauss : list Z -> option (Z * Z)) (g : egen) : outcome (Z * bgen) := gaussian_one gauss (eg_noise g).

Lemma fill_mask_and_body_inv p w gauss key n m g mask body g' : 0 < w -> w mod 8 = 0 -> egen_ok g -> safe_key p key ->
  n = length key ->
  fill_mask_and_body p w gauss key n m g = Ret (mask, body, g') ->
  exists e,
    mask = table_words w (bg_table (eg_mask g)) (bg_pos (eg_mask g)) n /\
    gaussian_one gauss (eg_noise g) = Ret (e, eg_noise g') /\
    eg_mask g' = bg_advance (eg_mask g) (Z.of_nat n * (w / 8)) /\
    lwe_wf w n (mask ++ [body]) /\
    body = (e + dot mask key + m) mod 2 ^ w.
Proof.
  intros Hw Hm Hg Hk Hn E. unfold fill_mask_and_body in E.
  destruct (random_mask w n g) as [[mk g1]|] eqn:E1; [|discriminate]. cbn [obind] in E.
  destruct (random_noise gauss g1) as [[e g2]|] eqn:E2; [|discriminate]. cbn [obind] in E.
  apply random_mask_inv in E1; [|assumption..]. destruct E1 as (-> & Hmk & Hno).
  apply random_noise_inv in E2. destruct E2 as (Hmk2 & E2).
  rewrite compute_multisum_ok in E;
    [|lia|apply table_words_words; [exact Hg|lia|assumption]|assumption|rewrite table_words_length; assumption].
  cbn [obind] in E. injection E as <- <- <-. exists e. split; [reflexivity|].
  split; [rewrite <- Hno; exact E2|]. split; [congruence|].
  split; [split|].
  - rewrite app_length, table_words_length. cbn. lia.
  - apply Forall_app. split; [apply table_words_words; [exact Hg|lia|assumption]|].
    constructor; [apply wadd_word; lia|constructor].
  - change (eqm (2 ^ w) (wadd w e (dot (table_words w (bg_table (eg_mask g)) (bg_pos (eg_mask g)) n) key mod 2 ^ w) + m)
      (e + dot (table_words w (bg_table (eg_mask g)) (bg_pos (eg_mask g)) n) key + m)).
    rewrite wadd_eqm, (eqm_mod (2 ^ w) (dot _ key)). reflexivity.
Qed.

Lemma fill_mask_and_body_ok p w gauss key n m g e ng : 0 < w -> w mod 8 = 0 -> egen_ok g -> safe_key p key ->
  n = length key ->
  bg_pos (eg_mask g) + Z.of_nat n * (w / 8) <= bg_end (eg_mask g) ->
  gaussian_one gauss (eg_noise g) = Ret (e, ng) ->
  exists mask body, fill_mask_and_body p w gauss key n m g = Ret (mask, body, EG (bg_advance (eg_mask g) (Z.of_nat n * (w / 8))) ng).
Proof.
  intros Hw Hm Hg Hk Hn Hle E. unfold fill_mask_and_body, random_mask.
  rewrite uniform_tensor_ok by lia. cbn [obind]. unfold random_noise. cbn [eg_noise]. rewrite E. cbn [obind].
  rewrite compute_multisum_ok;
    [|lia|apply table_words_words; [exact Hg|lia|assumption]|assumption|rewrite table_words_length; assumption].
  cbn [obind eg_mask]. eauto.
Qed.
