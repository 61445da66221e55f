(** * Facts about GLWE encryption *)
From Verif Require Import Base Word WordFacts NegaRing PolySpec PolyModel PolyProofs RandomModel RandomProofs LweSpec LweModel LweProofs GlweSpec GlweModel.

(** ** Chunks *)
Lemma chunks_fuel_spec {A} n k : (0 < n)%nat -> forall fuel (l : list A), length l = (k * n)%nat -> (k <= fuel)%nat ->
  length (chunks_fuel fuel n l) = k /\ Forall (fun c => length c = n) (chunks_fuel fuel n l) /\ concat (chunks_fuel fuel n l) = l.
Proof.
  intros Hn. induction k as [|k IH]; intros fuel l Hl Hf.
  - destruct l; [|discriminate]. destruct fuel; cbn; auto.
  - destruct fuel as [|fuel]; [lia|]. destruct l as [|x l]; [cbn in Hl; lia|].
    cbn [chunks_fuel]. set (l0 := x :: l) in *.
    destruct (IH fuel (skipn n l0)) as (H1 & H2 & H3).
    { rewrite skipn_length, Hl. lia. } { lia. }
    split; [cbn; lia|]. split.
    + constructor; [|assumption]. rewrite firstn_length, Hl. lia.
    + cbn [concat]. rewrite H3. apply firstn_skipn.
Qed.

Lemma chunks_spec {A} n k (l : list A) : (0 < n)%nat -> length l = (k * n)%nat ->
  length (chunks n l) = k /\ Forall (fun c => length c = n) (chunks n l) /\ concat (chunks n l) = l.
Proof. intros Hn Hl. unfold chunks. apply chunks_fuel_spec; [assumption..|]. rewrite Hl. nia. Qed.

Lemma chunks_concat {A} n (ls : list (list A)) : (0 < n)%nat -> Forall (fun c => length c = n) ls -> chunks n (concat ls) = ls.
Proof.
  intros Hn H. unfold chunks.
  assert (G : forall fuel, (length ls <= fuel)%nat -> chunks_fuel fuel n (concat ls) = ls).
  { induction H as [|c ls Hc H IH]; intros fuel Hf.
    - destruct fuel; reflexivity.
    - destruct fuel as [|fuel]; [cbn in Hf; lia|]. cbn [concat]. cbn [chunks_fuel].
      destruct (c ++ concat ls) eqn:E.
      + apply app_eq_nil in E. destruct E as [-> _]. cbn in Hc. lia.
      + rewrite <- E. rewrite firstn_app, Hc, Nat.sub_diag, firstn_O, app_nil_r, skipn_app, Hc, Nat.sub_diag, skipn_O.
        rewrite <- Hc, firstn_all, skipn_all, Hc. cbn [app]. rewrite IH by (cbn in Hf; lia). reflexivity. }
  apply G. clear G. induction H as [|c ls Hc H IH]; [cbn; lia|]. cbn [concat length]. rewrite app_length. lia.
Qed.

Lemma concat_length_const {A} n (ls : list (list A)) : Forall (fun c => length c = n) ls -> length (concat ls) = (length ls * n)%nat.
Proof. induction 1 as [|c ls Hc H IH]; [reflexivity|]. cbn [concat length]. rewrite app_length, IH, Hc. lia. Qed.

Lemma Forall_concat {A} (P : A -> Prop) ls : Forall P (concat ls) <-> Forall (Forall P) ls.
Proof.
  induction ls as [|c ls IH]; cbn [concat]; [split; constructor|]. rewrite Forall_app, IH. split.
  - intros [? ?]. constructor; assumption.
  - intros H. inversion H. auto.
Qed.

Lemma chunks_wf w n k l : (0 < n)%nat -> length l = (k * n)%nat -> Forall (is_word w) l ->
  length (chunks n l) = k /\ Forall (poly_wf w n) (chunks n l) /\ concat (chunks n l) = l.
Proof.
  intros Hn Hl Hw. destruct (chunks_spec n k l Hn Hl) as (H1 & H2 & H3). split; [assumption|]. split; [|assumption].
  rewrite <- H3, Forall_concat in Hw. rewrite Forall_forall in *. intros c Hc. split; auto.
Qed.

(** ** Noise *)
(** The sampler returns words (its Rust type is the scalar type). *)
Definition gauss_ok (w : Z) (gauss : list Z -> option (Z * Z)) : Prop :=
  forall l a b, gauss l = Some (a, b) -> is_word w a /\ is_word w b.

Lemma gaussian_loop_words w gauss fuel : gauss_ok w gauss -> forall g a b g', gaussian_loop gauss fuel g = Ret (a, b, g') ->
  is_word w a /\ is_word w b.
Proof.
  intros Hg. induction fuel as [|fuel IH]; intros g a b g' E; [discriminate|]. cbn [gaussian_loop] in E.
  destruct (read_bytes 8 g) as [[u g1]|]; [|discriminate]. cbn [obind] in E.
  destruct (read_bytes 8 g1) as [[v g2]|]; [|discriminate]. cbn [obind] in E.
  destruct (gauss (u ++ v)) as [[x y]|] eqn:El.
  - injection E as <- <- <-. apply (Hg _ _ _ El).
  - apply (IH _ _ _ _ E).
Qed.

Lemma gaussian_tensor_words w gauss : gauss_ok w gauss -> forall n g l g', gaussian_tensor gauss n g = Ret (l, g') ->
  poly_wf w n l.
Proof.
  intros Hg n. induction n as [n IHn] using lt_wf_ind. intros g l g' E.
  destruct n as [|[|n]]; cbn [gaussian_tensor] in E.
  - injection E as <- <-. split; [reflexivity|constructor].
  - destruct (gaussian_pair gauss g) as [[[a b] g1]|] eqn:E1; [|discriminate]. cbn [obind] in E. injection E as <- <-.
    apply (gaussian_loop_words w) in E1; [|assumption]. split; [reflexivity|]. constructor; [apply E1|constructor].
  - destruct (gaussian_pair gauss g) as [[[a b] g1]|] eqn:E1; [|discriminate]. cbn [obind] in E.
    destruct (gaussian_tensor gauss n g1) as [[l1 g2]|] eqn:E2; [|discriminate]. cbn [obind] in E. injection E as <- <-.
    apply (gaussian_loop_words w) in E1; [|assumption]. apply IHn in E2; [|lia]. destruct E2 as [L F].
    split; [cbn; lia|]. constructor; [apply E1|]. constructor; [apply E1|assumption].
Qed.

Lemma random_noises_inv w gauss n g l g' : gauss_ok w gauss -> random_noises gauss n g = Ret (l, g') ->
  eg_mask g' = eg_mask g /\ gaussian_tensor gauss n (eg_noise g) = Ret (l, eg_noise g') /\ poly_wf w n l.
Proof.
  intros Hg. unfold random_noises. destruct (gaussian_tensor gauss n (eg_noise g)) as [[l1 n1]|] eqn:E; [|discriminate].
  cbn [obind]. intros H. injection H as <- <-. split; [reflexivity|]. split; [reflexivity|].
  apply (gaussian_tensor_words w gauss Hg _ _ _ _ E).
Qed.

(** ** Keys *)
Definition gkey_ok (p : profile) (N : nat) (key : list (list Z)) : Prop :=
  Forall (fun s => length s = N) key /\ (p = Release \/ Forall binary key).

Lemma key_no_overflow p w N key masks : 0 <= w -> gkey_ok p N key -> Forall (poly_wf w N) masks ->
  p = Release \/ Forall (fun c => Forall (no_overflow w c) key) masks.
Proof.
  intros Hw [_ [->|Hb]] Hm; [left; reflexivity|right].
  rewrite Forall_forall in *. intros c Hc. apply Forall_forall. intros s Hs x y Hx Hy.
  destruct (Hm c Hc) as [_ Hcw]. rewrite Forall_forall in Hcw. specialize (Hcw x Hx). unfold is_word in Hcw.
  specialize (Hb s Hs). unfold binary in Hb. rewrite Forall_forall in Hb. destruct (Hb y Hy) as [->| ->]; lia.
Qed.

Lemma wf_lengths w N cs : Forall (poly_wf w N) cs -> Forall (fun c => length c = N) cs.
Proof. intros H. eapply Forall_impl; [|exact H]. intros a [Ha _]. exact Ha. Qed.

Lemma glwe_split_snoc m b : glwe_split (m ++ [b]) = Ret (m, b).
Proof.
  unfold glwe_split. destruct (m ++ [b]) eqn:E; [destruct m; discriminate|]. rewrite <- E.
  rewrite removelast_last, last_last. reflexivity.
Qed.

Lemma gphase_snoc N s m b : gphase N s (m ++ [b]) = rsub (R N b) (rdot N m s).
Proof. unfold gphase. rewrite removelast_last, last_last. reflexivity. Qed.

Lemma glwe_wf_snoc w k N m b : glwe_wf w k N (m ++ [b]) <-> length m = k /\ Forall (poly_wf w N) m /\ poly_wf w N b.
Proof.
  unfold glwe_wf. rewrite app_length, Forall_app. cbn [length]. split.
  - intros (H1 & H2 & H3). split; [lia|]. split; [assumption|]. apply Forall_inv in H3. exact H3.
  - intros (H1 & H2 & H3). split; [lia|]. split; [assumption|]. constructor; [assumption|constructor].
Qed.

Lemma wf_snoc_dec w k N c : glwe_wf w k N c -> exists m b, c = m ++ [b] /\ length m = k /\ Forall (poly_wf w N) m /\ poly_wf w N b.
Proof.
  intros H. pose proof H as [Hl _]. destruct (snoc_dec c k Hl) as (m & b & -> & _).
  exists m, b. split; [reflexivity|]. apply glwe_wf_snoc. exact H.
Qed.

Lemma zip_overwrite {A} (a b : list A) : length a = length b -> zip_update (fun _ x => x) a b = b.
Proof. revert b. induction a as [|x a IH]; intros [|y b] H; try discriminate; [reflexivity|]. cbn. f_equal. apply IH. cbn in H. lia. Qed.

(** Decryption computes the phase polynomial. *)
Lemma decrypt_glwe_phase p w N key c : 0 <= w -> (0 < N)%nat -> gkey_ok p N key -> glwe_wf w (length key) N c ->
  exists d, decrypt_glwe p w key N c = Ret d /\ poly_wf w N d /\ req (2 ^ w) (R N d) (gphase N key c).
Proof.
  intros Hw HN Hk Hc. destruct (wf_snoc_dec _ _ _ _ Hc) as (m & b & -> & Hl & Hm & Hb).
  unfold decrypt_glwe, discard_decrypt_glwe. rewrite glwe_split_snoc. cbn [obind].
  rewrite ck_dim_eq_ok by (rewrite repeat_length; symmetry; apply Hb). cbn [obind].
  rewrite zip_overwrite by (rewrite repeat_length; symmetry; apply Hb).
  destruct (sub_multisum_spec w Hw p N b m key HN) as (d & E & Hd & Hr); try assumption.
  - apply (wf_lengths w). assumption.
  - apply Hk.
  - apply (key_no_overflow p w N); assumption.
  - exists d. split; [exact E|]. split; [assumption|]. rewrite gphase_snoc. exact Hr.
Qed.

Lemma map2_words {A B} w (f : A -> B -> Z) a b : (forall x y, is_word w (f x y)) -> Forall (is_word w) (map2 f a b).
Proof. intros H. revert b. induction a as [|x a IH]; intros [|y b]; cbn; constructor; auto. Qed.

Lemma padd_wf w N a b : 0 <= w -> length a = N -> length b = N -> poly_wf w N (padd w a b).
Proof.
  intros Hw Ha Hb. unfold padd. split; [rewrite map2_length; lia|]. apply map2_words.
  intros x y. apply Z.mod_pos_bound. apply pow2_pos. assumption.
Qed.

Lemma R_padd w N a b : 0 <= w -> length a = N -> length b = N -> req (2 ^ w) (R N (padd w a b)) (radd (R N a) (R N b)).
Proof.
  intros Hw Ha Hb. unfold padd. apply R_add; [lia|pose proof (pow2_pos w Hw); apply Z.mod_0_l; lia|].
  intros x y. apply eqm_mod.
Qed.

Lemma wadd_padd w a b : map2 (wadd w) a b = padd w a b.
Proof. reflexivity. Qed.

(** What an encryption computes, whatever the build. *)
Lemma glwe_fill_inv p w gauss key k N m g masks body g' :
  0 < w -> w mod 8 = 0 -> (0 < N)%nat -> gauss_ok w gauss -> egen_ok g -> gkey_ok p N key -> length m = N ->
  glwe_fill_mask_and_body p w gauss key k N m g = Ret (masks, body, g') ->
  exists es,
    gaussian_tensor gauss N (eg_noise g) = Ret (es, eg_noise g') /\ poly_wf w N es /\
    eg_mask g' = bg_advance (eg_mask g) (Z.of_nat (k * N) * (w / 8)) /\
    masks = chunks N (table_words w (bg_table (eg_mask g)) (bg_pos (eg_mask g)) (k * N)) /\
    glwe_wf w k N (masks ++ [body]) /\
    req (2 ^ w) (R N body) (radd (radd (R N es) (rdot N masks key)) (R N m)).
Proof.
  intros Hw Hm8 HN Hga Hg Hk Hm E. unfold glwe_fill_mask_and_body in E.
  destruct (random_noises gauss N g) as [[es g1]|] eqn:E1; [|discriminate]. cbn [obind] in E.
  destruct (random_mask w (k * N) g1) as [[mask g2]|] eqn:E2; [|discriminate]. cbn [obind] in E.
  apply (random_noises_inv w) in E1; [|assumption]. destruct E1 as (Eg1 & En & Hes).
  apply random_mask_inv in E2; [|assumption..]. destruct E2 as (-> & Eg2 & Eno). rewrite Eg1 in *.
  set (mask := table_words _ _ _ _) in *.
  destruct (chunks_wf w N k mask) as (Hl & Hwf & Hcat); [assumption|apply table_words_length|apply table_words_words; [exact Hg|lia|assumption]|].
  destruct (add_multisum_spec w ltac:(lia) p N es (chunks N mask) key HN) as (body1 & Eb & Hb1 & Hr1); try assumption.
  { apply (wf_lengths w). assumption. } { apply Hk. } { apply (key_no_overflow p w N); [lia|assumption..]. }
  rewrite Eb in E. cbn [obind] in E. unfold update_with_wrapping_add_ in E.
  rewrite ck_dim_eq_ok in E by (rewrite Hm; apply Hb1). cbn [obind] in E.
  rewrite zip_update_map2 in E by (rewrite Hm; apply Hb1). injection E as <- <- <-.
  exists es. split; [rewrite Eno; exact En|]. split; [assumption|]. split; [exact Eg2|]. split; [reflexivity|].
  rewrite wadd_padd. split.
  - apply glwe_wf_snoc. split; [assumption|]. split; [assumption|]. apply padd_wf; [lia|apply Hb1|assumption].
  - rewrite R_padd by (assumption || lia || apply Hb1). rewrite Hr1. reflexivity.
Qed.

Lemma glwe_fill_ok p w gauss key k N m g es ng :
  0 < w -> w mod 8 = 0 -> (0 < N)%nat -> gauss_ok w gauss -> egen_ok g -> gkey_ok p N key -> length m = N ->
  bg_pos (eg_mask g) + Z.of_nat (k * N) * (w / 8) <= bg_end (eg_mask g) ->
  gaussian_tensor gauss N (eg_noise g) = Ret (es, ng) ->
  exists masks body g', glwe_fill_mask_and_body p w gauss key k N m g = Ret (masks, body, g').
Proof.
  intros Hw Hm8 HN Hga Hg Hk Hm Hle En. unfold glwe_fill_mask_and_body, random_noises. rewrite En. cbn [obind].
  unfold random_mask. cbn [eg_mask eg_noise]. rewrite uniform_tensor_ok by lia. cbn [obind].
  set (mask := table_words _ _ _ _) in *.
  destruct (chunks_wf w N k mask) as (Hl & Hwf & Hcat); [assumption|apply table_words_length|apply table_words_words; [exact Hg|lia|assumption]|].
  destruct (add_multisum_spec w ltac:(lia) p N es (chunks N mask) key HN) as (body1 & Eb & Hb1 & Hr1).
  { apply (wf_lengths w). assumption. } { apply Hk. } { apply (gaussian_tensor_words w gauss Hga _ _ _ _ En). }
  { apply (key_no_overflow p w N); [lia|assumption..]. }
  rewrite Eb. cbn [obind]. unfold update_with_wrapping_add_.
  rewrite ck_dim_eq_ok by (rewrite Hm; apply Hb1). cbn [obind]. eauto.
Qed.
