(** * C23 - C24: GLWE encryption and sample extraction *)
From Verif Require Import Base Word WordFacts NegaRing PolySpec PolyModel PolyProofs RandomModel RandomProofs LweSpec LweModel LweProofs LweTheorems GlweSpec GlweModel GlweProofs.

(** ** C23 *)

(** Decryption returns the phase body - sum mask_i * key_i of the ring, with coefficients in [0, 2^w):
    in release builds for every key, in checked builds for binary keys. *)
Theorem C23_decryption_is_phase : forall p w N key c, 0 <= w -> (0 < N)%nat -> gkey_ok p N key -> glwe_wf w (length key) N c ->
  exists d, decrypt_glwe p w key N c = Ret d /\ poly_wf w N d /\ req (2 ^ w) (R N d) (gphase N key c).
Proof. exact decrypt_glwe_phase. Qed.
Print Assumptions C23_decryption_is_phase.

Lemma decrypt_unique p w N key c v : 0 <= w -> (0 < N)%nat -> gkey_ok p N key -> glwe_wf w (length key) N c ->
  poly_wf w N v -> req (2 ^ w) (gphase N key c) (R N v) -> decrypt_glwe p w key N c = Ret v.
Proof.
  intros Hw HN Hk Hc Hv Hr. destruct (decrypt_glwe_phase p w N key c) as (d & E & Hd & Hrd); try assumption.
  rewrite E. f_equal. apply (R_inj N w); [apply Hd|apply Hv|apply Hd|apply Hv|]. rewrite Hrd. exact Hr.
Qed.

(** An encryption that returns draws N noise samples and k*N mask words, and decrypts to the message plus
    the noise, coefficient by coefficient modulo 2^w. *)
Theorem C23_encrypt_decrypt : forall p w gauss N key output m g c g',
  0 < w -> w mod 8 = 0 -> (0 < N)%nat -> gauss_ok w gauss -> egen_ok g -> gkey_ok p N key ->
  glwe_wf w (length key) N output -> length m = N ->
  encrypt_glwe p w gauss key output m g = Ret (c, g') ->
  exists es,
    gaussian_tensor gauss N (eg_noise g) = Ret (es, eg_noise g') /\
    eg_mask g' = bg_advance (eg_mask g) (Z.of_nat (length key * N) * (w / 8)) /\
    concat (removelast c) = table_words w (bg_table (eg_mask g)) (bg_pos (eg_mask g)) (length key * N) /\
    glwe_wf w (length key) N c /\
    decrypt_glwe p w key N c = Ret (padd w m es).
Proof.
  intros p w gauss N key output m g c g' Hw Hm8 HN Hga Hg Hk Ho Hm E. unfold encrypt_glwe in E.
  destruct (wf_snoc_dec _ _ _ _ Ho) as (om & ob & -> & Lo & _ & [Lb _]). rewrite glwe_split_snoc in E. cbn [obind] in E.
  rewrite ck_dim_eq_ok in E by congruence. cbn [obind] in E. rewrite ck_dim_eq_ok in E by congruence. cbn [obind] in E.
  rewrite Lo, Lb in E.
  destruct (glwe_fill_mask_and_body p w gauss key (length key) N m g) as [[[masks body] g1]|] eqn:Ef; [|discriminate].
  cbn [obind] in E. injection E as <- <-.
  apply glwe_fill_inv in Ef; try assumption. destruct Ef as (es & En & Hes & Hgm & Hmk & Hwf & Hr).
  exists es. split; [exact En|]. split; [exact Hgm|]. split; [|split; [exact Hwf|]].
  - rewrite removelast_last, Hmk. apply (chunks_spec N (length key)); [assumption|apply table_words_length].
  - apply decrypt_unique; [lia|assumption..|apply padd_wf; [lia|assumption|apply Hes]|].
    rewrite gphase_snoc, Hr, R_padd by (assumption || lia || apply Hes). intros k. apply eqm_eq. cbn. lia.
Qed.
Print Assumptions C23_encrypt_decrypt.

(** It returns as soon as the mask bytes are there and the noise can be drawn. *)
Theorem C23_encryption_succeeds : forall p w gauss N key output m g es ng,
  0 < w -> w mod 8 = 0 -> (0 < N)%nat -> gauss_ok w gauss -> egen_ok g -> gkey_ok p N key ->
  glwe_wf w (length key) N output -> length m = N ->
  bg_pos (eg_mask g) + Z.of_nat (length key * N) * (w / 8) <= bg_end (eg_mask g) ->
  gaussian_tensor gauss N (eg_noise g) = Ret (es, ng) ->
  exists c g', encrypt_glwe p w gauss key output m g = Ret (c, g').
Proof.
  intros p w gauss N key output m g es ng Hw Hm8 HN Hga Hg Hk Ho Hm Hle En. unfold encrypt_glwe.
  destruct (wf_snoc_dec _ _ _ _ Ho) as (om & ob & -> & Lo & _ & [Lb _]). rewrite glwe_split_snoc. cbn [obind].
  rewrite ck_dim_eq_ok by congruence. cbn [obind]. rewrite ck_dim_eq_ok by congruence. cbn [obind]. rewrite Lo, Lb.
  destruct (glwe_fill_ok p w gauss key (length key) N m g es ng) as (mk & b & g' & E); try assumption.
  rewrite E. cbn [obind]. eauto.
Qed.
Print Assumptions C23_encryption_succeeds.

(** Encryptions of zero: the same with the zero message. *)
Theorem C23_zero_encryption : forall p w gauss N key output g,
  0 < w -> w mod 8 = 0 -> (0 < N)%nat -> gauss_ok w gauss -> egen_ok g -> gkey_ok p N key ->
  glwe_wf w (length key) N output ->
  encrypt_zero_glwe p w gauss key output g = encrypt_glwe p w gauss key output (repeat 0 N) g.
Proof.
  intros p w gauss N key output g Hw Hm8 HN Hga Hg Hk Ho. unfold encrypt_zero_glwe, encrypt_glwe.
  destruct (wf_snoc_dec _ _ _ _ Ho) as (om & ob & -> & Lo & _ & [Lb _]). rewrite glwe_split_snoc. cbn [obind].
  rewrite (ck_dim_eq_ok p (length (repeat 0 N))) by (rewrite repeat_length; congruence). cbn [obind].
  rewrite ck_dim_eq_ok by congruence. cbn [obind]. unfold glwe_fill_mask_and_body. rewrite Lb, Lo.
  destruct (random_noises gauss N g) as [[es g1]|] eqn:E1; [|reflexivity]. cbn [obind].
  destruct (random_mask w (length key * N) g1) as [[mask g2]|] eqn:E2; [|reflexivity]. cbn [obind].
  apply (random_noises_inv w) in E1; [|assumption]. destruct E1 as (Eg1 & En & Hes).
  apply random_mask_inv in E2; [|assumption..]. destruct E2 as (-> & Eg2 & Eno). rewrite Eg1 in *.
  set (mask := table_words _ _ _ _) in *.
  destruct (chunks_wf w N (length key) mask) as (Hl & Hwf & Hcat); [assumption|apply table_words_length|apply table_words_words; [exact Hg|lia|assumption]|].
  destruct (add_multisum_spec w ltac:(lia) p N es (chunks N mask) key HN) as (body1 & Eb & Hb1 & Hr1); try assumption.
  { apply (wf_lengths w). assumption. } { apply Hk. } { apply (key_no_overflow p w N); [lia|assumption..]. }
  rewrite Eb. cbn [obind]. unfold update_with_wrapping_add_.
  rewrite ck_dim_eq_ok by (rewrite repeat_length; apply Hb1). cbn [obind].
  rewrite zip_update_map2 by (rewrite repeat_length; apply Hb1).
  replace (map2 (wadd w) body1 (repeat 0 N)) with body1; [reflexivity|].
  destruct Hb1 as [Lb1 Wb1]. clear - Lb1 Wb1. revert N Lb1. induction Wb1 as [|x l Hx Wb1 IH]; intros N Lb1; [reflexivity|].
  destruct N; [discriminate|]. cbn [repeat map2]. unfold wadd at 1. rewrite Z.add_0_r, Z.mod_small by exact Hx.
  f_equal. apply IH. cbn in Lb1. lia.
Qed.
Print Assumptions C23_zero_encryption.

(** Trivial ciphertexts decrypt to m under every key of every kind, in every build; the trivial
    decryption returns m without a key. *)
Theorem C23_trivial : forall p w N key m, 0 <= w -> (0 < N)%nat -> poly_wf w N m -> Forall (fun s => length s = N) key ->
  exists c, glwe_new_trivial_encryption p (S (length key)) m = Ret c /\ glwe_wf w (length key) N c /\
    decrypt_glwe p w key N c = Ret m /\ glwe_trivial_decrypt c = Ret m.
Proof.
  intros p w N key m Hw HN Hm Hk. unfold glwe_new_trivial_encryption, glwe_fill_with_trivial_encryption, glwe_allocate.
  replace (repeat (repeat 0 (length m)) (S (length key))) with (repeat (repeat 0 (length m)) (length key) ++ [repeat 0 (length m)])
    by (rewrite <- repeat_cons; reflexivity).
  rewrite glwe_split_snoc. cbn [obind]. rewrite ck_dim_eq_ok by (rewrite repeat_length; reflexivity). cbn [obind].
  rewrite zip_overwrite by (rewrite repeat_length; reflexivity). eexists. split; [reflexivity|].
  assert (Ez : map (map (fun _ : Z => 0)) (repeat (repeat 0 (length m)) (length key)) = repeat (repeat 0 N) (length key)).
  { destruct Hm as [-> _]. clear. induction key as [|s key IH]; [reflexivity|]. cbn [length repeat map]. rewrite IH.
    f_equal. clear. induction N as [|N IH]; [reflexivity|]. cbn [repeat map]. rewrite IH. reflexivity. }
  rewrite Ez.
  assert (Hwf : glwe_wf w (length key) N (repeat (repeat 0 N) (length key) ++ [m])).
  { apply glwe_wf_snoc. split; [apply repeat_length|]. split; [|assumption]. apply Forall_forall. intros x Hx.
    apply repeat_spec in Hx. subst x. split; [apply repeat_length|]. apply Forall_forall. intros y Hy. apply repeat_spec in Hy. subst y.
    split; [lia|apply pow2_pos; assumption]. }
  split; [exact Hwf|]. split.
  - unfold decrypt_glwe, discard_decrypt_glwe. rewrite glwe_split_snoc. cbn [obind].
    rewrite ck_dim_eq_ok by (rewrite repeat_length; symmetry; apply Hm). cbn [obind].
    rewrite zip_overwrite by (rewrite repeat_length; symmetry; apply Hm).
    destruct (sub_multisum_spec w Hw p N m (repeat (repeat 0 N) (length key)) key HN) as (d & E & Hd & Hr); try assumption.
    { apply Forall_forall. intros x Hx. apply repeat_spec in Hx. subst x. apply repeat_length. }
    { right. apply Forall_forall. intros x Hx. apply repeat_spec in Hx. subst x. apply Forall_forall. intros s _ x y Hx _.
      apply repeat_spec in Hx. subst x. pose proof (pow2_pos w Hw). lia. }
    rewrite E. f_equal. apply (R_inj N w); [apply Hd|apply Hm|apply Hd|apply Hm|]. rewrite Hr.
    assert (Hz : req (2 ^ w) (rdot N (repeat (repeat 0 N) (length key)) key) (rzero N)).
    { clear. induction key as [|s key IH]; [intros k; reflexivity|]. cbn [length repeat rdot]. rewrite IH.
      rewrite R_zero. intros k. apply eqm_eq. cbn. rewrite sumz_zero by (intros; lia). reflexivity. }
    rewrite Hz. intros k. apply eqm_eq. cbn. lia.
  - unfold glwe_trivial_decrypt. rewrite glwe_split_snoc. reflexivity.
Qed.
Print Assumptions C23_trivial.

(** Vectors: [noise_polys] draws the noise of [count] ciphertexts one after the other. *)
Fixpoint noise_polys (gauss : list Z -> option (Z * Z)) (N count : nat) (g : bgen) : outcome (list (list Z) * bgen) :=
  match count with
  | O => Ret ([], g)
  | S c => let! (e, g) := gaussian_tensor gauss N g in let! (es, g) := noise_polys gauss N c g in Ret (e :: es, g)
  end.

Lemma padd_app w a b c d : length a = length b -> padd w (a ++ c) (b ++ d) = padd w a b ++ padd w c d.
Proof. unfold padd. revert b. induction a as [|x a IH]; intros [|y b] H; try discriminate; [reflexivity|]. cbn. f_equal. apply IH. cbn in H. lia. Qed.

Lemma glwe_zip_inv p w gauss N key : 0 < w -> w mod 8 = 0 -> (0 < N)%nat -> gauss_ok w gauss -> gkey_ok p N key ->
  forall ms outs g cs g', egen_ok g -> length outs = length ms -> Forall (glwe_wf w (length key) N) outs ->
  Forall (fun m => length m = N) ms ->
  encrypt_glwe_zip p w gauss key outs ms g = Ret (cs, g') ->
  exists ess,
    noise_polys gauss N (length ms) (eg_noise g) = Ret (ess, eg_noise g') /\
    eg_mask g' = bg_advance (eg_mask g) (Z.of_nat (length ms * (length key * N)) * (w / 8)) /\
    concat (concat (map (@removelast (list Z)) cs)) = table_words w (bg_table (eg_mask g)) (bg_pos (eg_mask g)) (length ms * (length key * N)) /\
    Forall (glwe_wf w (length key) N) cs /\
    decrypt_glwe_list p w key N cs = Ret (padd w (concat ms) (concat ess)).
Proof.
  intros Hw Hm8 HN Hga Hk. induction ms as [|m ms IH]; intros [|o outs] g cs g' Hg Hl Ho Hms E; try discriminate.
  { cbn in E. injection E as <- <-. exists []. repeat split; auto. cbn. rewrite bg_advance_0. reflexivity. }
  pose proof (Forall_inv Ho) as Ho1. pose proof (Forall_inv_tail Ho) as Ho2.
  pose proof (Forall_inv Hms) as Hm1. pose proof (Forall_inv_tail Hms) as Hm2. cbn beta in Hm1.
  cbn [encrypt_glwe_zip] in E.
  destruct (encrypt_glwe p w gauss key o m g) as [[c g1]|] eqn:E1; [|discriminate]. cbn [obind] in E.
  destruct (encrypt_glwe_zip p w gauss key outs ms g1) as [[cs1 g2]|] eqn:E2; [|discriminate]. cbn [obind] in E. injection E as <- <-.
  apply (C23_encrypt_decrypt p w gauss N) in E1; try assumption. destruct E1 as (es & En & Egm & Hr & Hwf & Hd).
  apply IH in E2; try assumption; [|unfold egen_ok; rewrite Egm; exact Hg|cbn in Hl; lia].
  destruct E2 as (ess & Ess & Egm2 & Hr2 & Hwf2 & Hd2).
  exists (es :: ess). cbn [length noise_polys]. rewrite En. cbn [obind]. rewrite Ess. cbn [obind].
  split; [reflexivity|]. split; [|split; [|split]].
  - rewrite Egm2, Egm, bg_advance_advance. f_equal. lia.
  - cbn [map concat Nat.mul]. rewrite concat_app, Hr, Hr2, table_words_app. rewrite Egm. reflexivity.
  - constructor; assumption.
  - unfold decrypt_glwe_list in *. cbn [omap]. rewrite Hd. cbn [obind].
    destruct (omap (decrypt_glwe p w key N) cs1) as [ds|]; [|discriminate]. cbn [obind] in *. injection Hd2 as Hd2. cbn [concat].
    rewrite padd_app, Hd2; [reflexivity|].
    apply (gaussian_tensor_words w) in En; [|assumption]. destruct En as [-> _]. assumption.
Qed.

(** Ciphertext i of an encrypted vector uses the i-th block of k*N mask words and decrypts to the i-th
    block of N plaintexts plus its noise. *)
Theorem C23_vector_encryption : forall p w gauss N key outs ms g cs g',
  0 < w -> w mod 8 = 0 -> (0 < N)%nat -> gauss_ok w gauss -> egen_ok g -> gkey_ok p N key ->
  Forall (glwe_wf w (length key) N) outs -> length ms = (length outs * N)%nat ->
  encrypt_glwe_list p w gauss key N outs ms g = Ret (cs, g') ->
  exists ess,
    noise_polys gauss N (length outs) (eg_noise g) = Ret (ess, eg_noise g') /\
    eg_mask g' = bg_advance (eg_mask g) (Z.of_nat (length outs * (length key * N)) * (w / 8)) /\
    concat (concat (map (@removelast (list Z)) cs)) = table_words w (bg_table (eg_mask g)) (bg_pos (eg_mask g)) (length outs * (length key * N)) /\
    Forall (glwe_wf w (length key) N) cs /\
    decrypt_glwe_list p w key N cs = Ret (padd w ms (concat ess)).
Proof.
  intros p w gauss N key outs ms g cs g' Hw Hm8 HN Hga Hg Hk Ho Hl E. unfold encrypt_glwe_list in E.
  rewrite ck_dim_eq_ok in E by congruence. cbn [obind] in E.
  destruct (chunks_spec N (length outs) ms HN Hl) as (C1 & C2 & C3).
  apply (glwe_zip_inv p w gauss N key) in E; auto. rewrite C1, C3 in E. exact E.
Qed.
Print Assumptions C23_vector_encryption.

Theorem C23_vector_trivial : forall p w N key count ms, 0 <= w -> (0 < N)%nat -> Forall (is_word w) ms ->
  length ms = (count * N)%nat -> Forall (fun s => length s = N) key ->
  exists cs, glwe_list_fill_with_trivial_encryption p N (repeat (glwe_allocate (S (length key)) N) count) ms = Ret cs /\
    length cs = count /\ Forall (glwe_wf w (length key) N) cs /\ decrypt_glwe_list p w key N cs = Ret ms.
Proof.
  intros p w N key count ms Hw HN Hms Hl Hk. unfold glwe_list_fill_with_trivial_encryption.
  rewrite ck_dim_eq_ok by (rewrite repeat_length; lia). cbn [obind].
  destruct (chunks_wf w N count ms HN Hl Hms) as (C1 & C2 & C3).
  assert (G : forall n mm, length mm = n -> Forall (poly_wf w N) mm ->
    exists cs, ozip_update (glwe_fill_with_trivial_encryption p) (repeat (glwe_allocate (S (length key)) N) n) mm = Ret cs /\
      length cs = n /\ Forall (glwe_wf w (length key) N) cs /\ omap (decrypt_glwe p w key N) cs = Ret mm).
  { intros n mm. revert n. induction mm as [|m mm IH]; intros n Hn Hmm; destruct n as [|n]; try discriminate.
    - exists []. repeat split; auto.
    - pose proof (Forall_inv Hmm) as Hm. destruct (IH n) as (cs & E1 & E2 & E3 & E4); [cbn in Hn; lia|apply (Forall_inv_tail Hmm)|].
      destruct (C23_trivial p w N key m Hw HN Hm Hk) as (c & Ec & Hc & Hd & _).
      unfold glwe_new_trivial_encryption in Ec. destruct Hm as [HmN _]. rewrite HmN in Ec.
      exists (c :: cs). cbn [repeat ozip_update]. rewrite Ec. cbn [obind]. rewrite E1. cbn [obind].
      split; [reflexivity|]. split; [cbn; lia|]. split; [constructor; assumption|]. cbn [omap]. rewrite Hd. cbn [obind].
      rewrite E4. reflexivity. }
  destruct (G count (chunks N ms) C1 C2) as (cs & E1 & E2 & E3 & E4). exists cs. split; [exact E1|]. split; [assumption|].
  split; [assumption|]. unfold decrypt_glwe_list. rewrite E4. cbn [obind]. rewrite C3. reflexivity.
Qed.
Print Assumptions C23_vector_trivial.

(** Binary keys as generated by the engine are usable in both builds. *)
Theorem C23_generated_keys_are_safe : forall p k N g key g', (0 < N)%nat -> generate_new_glwe_secret_key k N g = Ret (key, g') ->
  gkey_ok p N key /\ length key = k /\ binary (glwe_key_into_lwe_key key).
Proof.
  intros p k N g key g' HN E. unfold generate_new_glwe_secret_key in E.
  destruct (generate_tensor uniform_binary_one (N * k) g) as [[l g1]|] eqn:E1; [|discriminate]. cbn [obind] in E. injection E as <- <-.
  destruct (C18_generated_keys_are_safe Debug (N * k) g l g1 E1) as [[H|Hb] Hl]; [discriminate|].
  destruct (chunks_spec N k l HN ltac:(lia)) as (C1 & C2 & C3). unfold glwe_key_into_lwe_key, gkey_ok. rewrite C3.
  split; [|auto]. split; [assumption|]. right. unfold binary in *. rewrite <- C3, Forall_concat in Hb. exact Hb.
Qed.
Print Assumptions C23_generated_keys_are_safe.

(** With overflow checks, a ternary GLWE key makes decryption panic. *)
Theorem C23_checked_ternary_refuted : exists key c, glwe_wf 32 (length key) 2 c /\
  Forall (Forall (fun x => x = 0 \/ x = 1 \/ x = 2 ^ 32 - 1)) key /\
  decrypt_glwe Debug 32 key 2 c = Panic /\ decrypt_glwe Release 32 key 2 c = Ret [2 ^ 32 - 1; 5].
Proof.
  exists [[0; 2 ^ 32 - 1]], [[3; 2]; [1; 2]]. split; [|split; [|split; vm_compute; reflexivity]].
  - split; [reflexivity|]. repeat constructor; unfold is_word; lia.
  - constructor; [|constructor]. constructor; [left; reflexivity|]. constructor; [right; right; reflexivity|constructor].
Qed.
Print Assumptions C23_checked_ternary_refuted.

Definition demo_gauss_word (l : list Z) : option (Z * Z) :=
  match demo_gauss l with Some (a, b) => Some (a mod 256, b mod 256) | None => None end.
Lemma demo_gauss_word_ok w : 8 <= w -> gauss_ok w demo_gauss_word.
Proof.
  intros Hw l a b. unfold demo_gauss_word. destruct (demo_gauss l) as [[x y]|]; [|discriminate]. intros H. injection H as <- <-.
  unfold is_word. pose proof (Z.pow_le_mono_r 2 8 w ltac:(lia) Hw). change (2 ^ 8) with 256 in *.
  pose proof (Z.mod_pos_bound x 256 ltac:(lia)). pose proof (Z.mod_pos_bound y 256 ltac:(lia)). lia.
Qed.

Example C23_case :
  let key := [[1; 0]; [1; 1]] in
  egen_ok demo_gen /\ gkey_ok Debug 2 key /\ gauss_ok 32 demo_gauss_word /\
  match encrypt_glwe Debug 32 demo_gauss_word key [[0; 0]; [0; 0]; [0; 0]] [2 ^ 31; 2 ^ 30] demo_gen with
  | Ret (c, g') =>
      c = [[2052403211; 250201247]; [2726123571; 907144391]; [1723898841; 662243842]] /\
      bg_pos (eg_mask g') = 16 /\ bg_pos (eg_noise g') = 48 /\
      decrypt_glwe Debug 32 key 2 c = Ret [2 ^ 31 + 98; 2 ^ 30 + 105]
  | Panic => False
  end /\
  match gaussian_tensor demo_gauss_word 2 (eg_noise demo_gen) with Ret (e, _) => e = [98; 105] | Panic => False end.
Proof.
  cbv zeta. split; [intros q; cbn; lia|]. split.
  { split; [repeat constructor|]. right. repeat (constructor; [bin|]). constructor. }
  split; [apply demo_gauss_word_ok; lia|]. vm_compute. repeat split.
Qed.

(** ** C24: sample extraction *)
Lemma zc_rev l k : 0 <= k < Z.of_nat (length l) -> zc (rev l) k = zc l (Z.of_nat (length l) - 1 - k).
Proof.
  intros Hk. unfold zc. destruct (Z.leb_spec 0 k); [|lia]. destruct (Z.leb_spec 0 (Z.of_nat (length l) - 1 - k)); [|lia].
  rewrite rev_nth by lia. f_equal. lia.
Qed.

Lemma extract_poly_coef w N a n j : 0 <= w -> length a = N -> (n < N)%nat -> 0 <= j < Z.of_nat N ->
  eqm (2 ^ w) (zc (extract_poly w (N - n - 1) a) j) (ext N a (Z.of_nat n - j)).
Proof.
  intros Hw Ha Hn Hj. unfold extract_poly.
  destruct (neg_first_ok w Hw (rev a) (N - n - 1)) as [Hl Hz]; [rewrite rev_length; lia|]. rewrite rev_length, Ha in Hl.
  rewrite rotate_left_zc by lia. rewrite Hl. rewrite ext_zc by lia.
  destruct (Z.ltb_spec j (Z.of_nat (N - (N - n - 1)))).
  - rewrite Hz. destruct (Z.ltb_spec (j + Z.of_nat (N - n - 1)) (Z.of_nat (N - n - 1))); [lia|].
    rewrite zc_rev by lia. rewrite (zc_out a (Z.of_nat n - j + Z.of_nat N)) by lia. apply eqm_eq. rewrite Z.sub_0_r. f_equal. lia.
  - rewrite Hz. destruct (Z.ltb_spec (j - Z.of_nat (N - (N - n - 1))) (Z.of_nat (N - n - 1))); [|lia].
    rewrite zc_rev by lia. rewrite (zc_out a (Z.of_nat n - j)) by lia. apply eqm_eq. rewrite ?Z.sub_0_l. replace (Z.of_nat (length a) - 1 - (j - Z.of_nat (N - (N - n - 1)))) with (Z.of_nat n - j + Z.of_nat N) by lia. reflexivity.
Qed.

Lemma extract_poly_wf w N a o : 0 <= w -> poly_wf w N a -> poly_wf w N (extract_poly w o a).
Proof.
  intros Hw [Hl Ha]. unfold extract_poly, rotate_left, neg_first. split.
  - rewrite app_length, skipn_length, firstn_length, app_length, map_length, firstn_length, skipn_length, rev_length. lia.
  - apply Forall_app.
    assert (F : Forall (is_word w) (map (wneg w) (firstn o (rev a)) ++ skipn o (rev a))).
    { apply Forall_app. split; [apply map_wneg_words; assumption|]. apply Forall_skipn. apply Forall_rev. assumption. }
    split; [apply Forall_skipn|apply Forall_firstn]; exact F.
Qed.

Lemma dot_sumz N a s : length a = N -> length s = N -> dot a s = sumz N (fun j => zc a j * zc s j).
Proof.
  revert a s. induction N as [|N IH]; intros [|x a] [|y s] Ha Hs; try discriminate; [reflexivity|].
  cbn [dot]. rewrite sumz_S_l. rewrite (IH a s) by (cbn in *; lia). rewrite !zc_cons. cbn [Z.eqb]. rewrite !zc_out by lia.
  rewrite !Z.add_0_r. f_equal. apply sumz_ext. intros i Hi. rewrite !zc_cons.
  destruct (Z.eqb_spec (i + 1) 0); [lia|]. rewrite !Z.add_0_l. do 2 f_equal; lia.
Qed.

Lemma dot_app a b s t : length a = length s -> dot (a ++ b) (s ++ t) = dot a s + dot b t.
Proof. revert s. induction a as [|x a IH]; intros [|y s] H; try discriminate; [reflexivity|]. cbn [app dot]. rewrite IH by (cbn in H; lia). lia. Qed.

Lemma dot_extract w N n : 0 <= w -> (n < N)%nat -> forall masks key, length masks = length key ->
  Forall (poly_wf w N) masks -> Forall (fun s => length s = N) key ->
  eqm (2 ^ w) (dot (concat (map (extract_poly w (N - n - 1)) masks)) (concat key)) (rcoef (rdot N masks key) (Z.of_nat n)).
Proof.
  intros Hw Hn. induction masks as [|a masks IH]; intros [|s key] Hl Hm Hk; try discriminate; [reflexivity|].
  pose proof (Forall_inv Hm) as Ha. pose proof (Forall_inv_tail Hm) as Hm'.
  pose proof (Forall_inv Hk) as Hs. pose proof (Forall_inv_tail Hk) as Hk'. cbn beta in Hs.
  cbn [map concat rdot]. rewrite dot_app by (rewrite Hs; apply (extract_poly_wf w N a _ Hw Ha)).
  rewrite IH by (auto; cbn in Hl; lia).
  change (rcoef (radd ?x ?y) ?k) with (rcoef x k + rcoef y k). 
  assert (E : eqm (2 ^ w) (dot (extract_poly w (N - n - 1) a) s) (rcoef (rmul (R N a) (R N s)) (Z.of_nat n))).
  { rewrite (dot_sumz N) by (auto; apply (extract_poly_wf w N a _ Hw Ha)).
    rewrite (rmul_comm (2 ^ w) (R N a) (R N s) (Z.of_nat n)).
    change (rcoef (rmul (R N s) (R N a)) (Z.of_nat n)) with (sumz N (fun i => ext N s i * ext N a (Z.of_nat n - i))).
    apply sumz_eqm. intros i Hi. rewrite extract_poly_coef by (auto; apply Ha).
    rewrite (ext_small N s) by assumption. rewrite zc_coef by lia. apply eqm_eq. ring. }
  rewrite E. reflexivity.
Qed.

(** For every degree n < N the extracted LWE ciphertext has dimension k*N and its phase under the
    concatenation of the key polynomials is the coefficient n of the GLWE phase, exactly. *)
Theorem C24_extraction_phase : forall w N key c lwe n, 0 <= w -> (n < N)%nat -> Forall (fun s => length s = N) key ->
  glwe_wf w (length key) N c -> length lwe = S (length key * N) ->
  exists l, fill_lwe_with_sample_extraction w N c lwe n = Ret l /\ lwe_wf w (length key * N) l /\
    phase w (glwe_key_into_lwe_key key) l = rcoef (gphase N key c) (Z.of_nat n) mod 2 ^ w.
Proof.
  intros w N key c lwe n Hw Hn Hk Hc Hlwe. destruct (wf_snoc_dec _ _ _ _ Hc) as (m & b & -> & Hl & Hm & Hb).
  unfold fill_lwe_with_sample_extraction. destruct (snoc_dec lwe _ Hlwe) as (lm & lb & -> & Llm).
  destruct (lm ++ [lb]) eqn:El; [destruct lm; discriminate|]. rewrite <- El. clear El.
  rewrite glwe_split_snoc. cbn [obind]. destruct Hb as [Lb Wb].
  destruct (nth_error b n) as [bn|] eqn:Eb; [|apply nth_error_None in Eb; lia].
  rewrite removelast_last, (concat_length_const N) by (apply (wf_lengths w); assumption).
  rewrite Llm, Hl, Nat.eqb_refl. eexists. split; [reflexivity|].
  rewrite chunks_concat by (try (apply (wf_lengths w); assumption); lia).
  set (me := map (extract_poly w (N - n - 1)) m).
  assert (Wme : Forall (poly_wf w N) me).
  { unfold me. apply Forall_forall. intros x Hx. apply in_map_iff in Hx. destruct Hx as (a & <- & Hi).
    apply extract_poly_wf; [assumption|]. rewrite Forall_forall in Hm. auto. }
  assert (Lme : length (concat me) = (length key * N)%nat).
  { rewrite (concat_length_const N) by (apply (wf_lengths w); assumption). unfold me. rewrite map_length, Hl. reflexivity. }
  assert (Wbn : is_word w bn) by (rewrite Forall_forall in Wb; apply Wb; apply (nth_error_In _ _ Eb)).
  split; [split|].
  - rewrite app_length, Lme. cbn. lia.
  - apply Forall_app. split; [|constructor; [assumption|constructor]]. apply Forall_concat.
    eapply Forall_impl; [|exact Wme]. intros x Hx. apply Hx.
  - apply phase_eq. unfold raw. rewrite removelast_last, last_last. rewrite gphase_snoc.
    change (rcoef (rsub ?x ?y) ?k) with (rcoef x k - rcoef y k). rewrite rcoef_R by lia.
    unfold glwe_key_into_lwe_key, me. rewrite dot_extract by auto.
    apply eqm_eq. f_equal. unfold coef. rewrite Nat2Z.id. symmetry. apply nth_error_nth. exact Eb.
Qed.
Print Assumptions C24_extraction_phase.

(** In terms of decryption: under the LWE key obtained from the GLWE key, the extracted ciphertext
    decrypts to the n-th coefficient of the decryption of the GLWE ciphertext. *)
Theorem C24_extraction_decrypts : forall p w N key c lwe n d, 0 <= w -> (n < N)%nat -> gkey_ok p N key ->
  glwe_wf w (length key) N c -> length lwe = S (length key * N) -> decrypt_glwe p w key N c = Ret d ->
  exists l, fill_lwe_with_sample_extraction w N c lwe n = Ret l /\
    decrypt_lwe p w (glwe_key_into_lwe_key key) l = Ret (nth n d 0).
Proof.
  intros p w N key c lwe n d Hw Hn Hk Hc Hlwe Hd.
  destruct (C24_extraction_phase w N key c lwe n) as (l & E & Hwf & Hp); try assumption; [apply Hk|].
  exists l. split; [exact E|].
  assert (Lk : length (glwe_key_into_lwe_key key) = (length key * N)%nat) by (apply concat_length_const; apply Hk).
  rewrite decrypt_phase; [|assumption|rewrite Lk; assumption|].
  2: { destruct Hk as [_ [->|Hb]]; [left; reflexivity|right]. unfold binary, glwe_key_into_lwe_key. apply Forall_concat. exact Hb. }
  f_equal. rewrite Hp. destruct (decrypt_glwe_phase p w N key c) as (d' & E' & [Ld Wd] & Hr); try assumption; [lia|].
  rewrite Hd in E'. injection E' as <-. specialize (Hr (Z.of_nat n)). unfold eqm in Hr. rewrite <- Hr, rcoef_R by lia.
  unfold coef. rewrite Nat2Z.id. apply Z.mod_small. rewrite Forall_forall in Wd. apply Wd. apply nth_In. lia.
Qed.
Print Assumptions C24_extraction_decrypts.

(** Going from a GLWE key to an LWE key and back gives the same key. *)
Theorem C24_key_transformations_inverse : forall N key, (0 < N)%nat -> Forall (fun s => length s = N) key ->
  lwe_key_to_glwe_key (glwe_key_into_lwe_key key) N = key.
Proof. intros N key HN Hk. apply chunks_concat; assumption. Qed.
Print Assumptions C24_key_transformations_inverse.
Theorem C24_key_transformations_inverse' : forall N k key, (0 < N)%nat -> length key = (k * N)%nat ->
  glwe_key_into_lwe_key (lwe_key_to_glwe_key key N) = key /\ length (lwe_key_to_glwe_key key N) = k.
Proof. intros N k key HN Hk. destruct (chunks_spec N k key HN Hk) as (A & _ & B). split; assumption. Qed.
Print Assumptions C24_key_transformations_inverse'.

Example C24_case :
  let key := [[1; 0; 1]; [0; 1; 1]] in
  let c := [[10; 20; 30]; [40; 50; 60]; [1000; 2000; 3000]] in
  glwe_wf 32 2 3 c /\
  decrypt_glwe Debug 32 key 3 c = Ret [1120; 2030; 2870] /\
  fill_lwe_with_sample_extraction 32 3 c (repeat 7 7) 1 = Ret [20; 10; 2 ^ 32 - 30; 50; 40; 2 ^ 32 - 60; 2000] /\
  decrypt_lwe Debug 32 (glwe_key_into_lwe_key key) [20; 10; 2 ^ 32 - 30; 50; 40; 2 ^ 32 - 60; 2000] = Ret 2030 /\
  fill_lwe_with_sample_extraction 32 3 c (repeat 7 7) 3 = Panic.
Proof.
  cbv zeta. split; [split; [reflexivity|]; repeat constructor; unfold is_word; lia|]. vm_compute. repeat split.
Qed.
