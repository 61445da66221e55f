(** * Lemmas about GGSW encryption *)
From Verif Require Import Base Word WordFacts NegaRing PolySpec PolyModel PolyProofs RandomModel RandomProofs RandomTheorems
  CsprngFamily LweSpec LweModel LweProofs GlweSpec GlweModel GlweProofs GlweTheorems GgswSpec GgswModel.

Lemma with_children_inv {A} (f : nat -> A -> egen -> outcome A) : forall out gens i res, length gens = length out ->
  with_children f i out gens = Ret res ->
  length res = length out /\
  forall t a g, nth_error out t = Some a -> nth_error gens t = Some g ->
    exists x, nth_error res t = Some x /\ f (i + t)%nat a g = Ret x.
Proof.
  induction out as [|a out IH]; intros [|g gens] i res Hl E; try discriminate; cbn [with_children] in E.
  - injection E as <-. split; [reflexivity|]. intros [|t] a g Ha; discriminate.
  - destruct (f i a g) as [x|] eqn:Ef; [|discriminate]. cbn [obind] in E.
    destruct (with_children f (S i) out gens) as [xs|] eqn:Ex; [|discriminate]. cbn [obind] in E. injection E as <-.
    destruct (IH gens (S i) xs) as [Hlx Hx]; [cbn in Hl; lia|assumption|]. split; [cbn; lia|].
    intros [|t] a' g' Ha Hg; cbn [nth_error] in *.
    + injection Ha as <-. injection Hg as <-. exists x. rewrite Nat.add_0_r. auto.
    + destruct (Hx t a' g' Ha Hg) as (y & Hy & Ey). exists y. split; [exact Hy|]. rewrite <- Ey. f_equal. lia.
Qed.

Lemma with_children_ok {A} (f : nat -> A -> egen -> outcome A) : forall out gens i, length gens = length out ->
  (forall t a g, nth_error out t = Some a -> nth_error gens t = Some g -> exists x, f (i + t)%nat a g = Ret x) ->
  exists res, with_children f i out gens = Ret res.
Proof.
  induction out as [|a out IH]; intros [|g gens] i Hl H; try discriminate; cbn [with_children]; [eauto|].
  destruct (H O a g eq_refl eq_refl) as (x & Ex). rewrite Nat.add_0_r in Ex. rewrite Ex. cbn [obind].
  destruct (IH gens (S i)) as (xs & Exs); [cbn in Hl; lia| |rewrite Exs; cbn [obind]; eauto].
  intros t a' g' Ha Hg. destruct (H (S t) a' g' Ha Hg) as (y & Ey). exists y. rewrite <- Ey. f_equal. lia.
Qed.

(** ** Forks *)
Definition child (g : egen) (mb nb : Z) (i : Z) : egen := EG (bg_window (eg_mask g) (i * mb) mb) (bg_window (eg_noise g) (i * nb) nb).
Definition eg_advance (g : egen) (mb nb : Z) : egen := EG (bg_advance (eg_mask g) mb) (bg_advance (eg_noise g) nb).

Lemma map2_map_same {A B C D} (f : B -> C -> D) (u : A -> B) (v : A -> C) l : map2 f (map u l) (map v l) = map (fun x => f (u x) (v x)) l.
Proof. induction l as [|a l IH]; [reflexivity|]. cbn. rewrite IH. reflexivity. Qed.

Lemma eg_fork_inv p g (n : nat) mb nb ch g' : 0 <= mb -> 0 <= nb ->
  Z.of_nat n * mb < 2 ^ 64 -> Z.of_nat n * nb < 2 ^ 64 ->
  expect_fork (eg_fork p g (Z.of_nat n) mb nb) = Ret (ch, g') ->
  ch = map (child g mb nb) (zseq 0 n) /\ g' = eg_advance g (Z.of_nat n * mb) (Z.of_nat n * nb) /\ (0 < n)%nat /\ 0 < mb /\ 0 < nb /\
  Z.of_nat n * mb <= bg_end (eg_mask g) - bg_pos (eg_mask g) /\ Z.of_nat n * nb <= bg_end (eg_noise g) - bg_pos (eg_noise g).
Proof.
  intros Hmb Hnb H1 H2 E. unfold expect_fork, eg_fork in E.
  destruct (bg_fork p (eg_mask g) (Z.of_nat n) mb) as [[[ms mask]|]|] eqn:Em; cbn [obind] in E; try discriminate.
  destruct (bg_fork p (eg_noise g) (Z.of_nat n) nb) as [[[ns noise]|]|] eqn:En; cbn [obind] in E; try discriminate.
  injection E as <- <-.
  apply bg_fork_inv in Em; [|lia|lia|assumption]. destruct Em as (Hn & Hb & Hle & -> & ->).
  apply bg_fork_inv in En; [|lia|lia|assumption]. destruct En as (_ & Hb' & Hle' & -> & ->).
  rewrite Nat2Z.id. rewrite map2_map_same. split; [reflexivity|]. split; [reflexivity|]. lia.
Qed.

Lemma eg_fork_ret p g (n : nat) mb nb : (0 < n)%nat -> 0 < mb -> 0 < nb -> fits p g (Z.of_nat n) mb nb ->
  expect_fork (eg_fork p g (Z.of_nat n) mb nb) = Ret (map (child g mb nb) (zseq 0 n), eg_advance g (Z.of_nat n * mb) (Z.of_nat n * nb)).
Proof.
  intros Hn Hmb Hnb (H1 & H2 & H3 & H4). unfold expect_fork, eg_fork.
  rewrite !bg_fork_ok by (unfold usize_bits; lia). cbn [obind]. rewrite Nat2Z.id, map2_map_same. reflexivity.
Qed.

Lemma child_nth g mb nb n i : (i < n)%nat -> nth_error (map (child g mb nb) (zseq 0 n)) i = Some (child g mb nb (Z.of_nat i)).
Proof. intros Hi. rewrite (map_nth_error _ _ _ (nth_error_zseq n 0 i Hi)). reflexivity. Qed.

Lemma children_length g mb nb n : length (map (child g mb nb) (zseq 0 n)) = n.
Proof. rewrite map_length, zseq_len. reflexivity. Qed.

(** The byte counts of the forks, when they fit a usize *)
Section Counts.
Context (p : profile) (w : Z) (Hw : 0 < w) (Hm : w mod 8 = 0).
Ltac open := unfold fork_ggsw_level_to_glwe, fork_ggsw_to_ggsw_levels, fork_bsk_to_ggsw, mask_bytes_per_ggsw, noise_bytes_per_ggsw,
  mask_bytes_per_ggsw_level, noise_bytes_per_ggsw_level, mask_bytes_per_glwe, noise_bytes_per_glwe, mask_bytes_per_polynomial,
  noise_bytes_per_polynomial, noise_bytes_per_coef, mask_bytes_per_coef.

Lemma fork_level_eq g (k N : nat) : (0 < k)%nat -> (Z.of_nat k + 1) * (Z.of_nat k * (Z.of_nat N * (w / 8))) < 2 ^ 64 -> (Z.of_nat k + 1) * (Z.of_nat N * 256) < 2 ^ 64 ->
  fork_ggsw_level_to_glwe p w g (Z.of_nat k + 1) (Z.of_nat N) =
  eg_fork p g (Z.of_nat (k + 1)) (Z.of_nat k * (Z.of_nat N * (w / 8))) (Z.of_nat N * 256).
Proof.
  intros Hk H1 H2. assert (Hb : 0 < w / 8) by lia. open. set (b := w / 8) in *. clearbody b.
  replace (Z.of_nat k + 1 - 1) with (Z.of_nat k) by lia.
  assert (Z.of_nat N * b < 2 ^ 64) by nia. assert (Z.of_nat k * (Z.of_nat N * b) < 2 ^ 64) by nia.
  rewrite umul_ok by (unfold usize_bits; nia). cbn [obind]. rewrite umul_ok by (unfold usize_bits; nia). cbn [obind].
  rewrite umul_ok by (unfold usize_bits; nia). cbn [obind]. f_equal. lia.
Qed.

Lemma fork_levels_eq g (l k N : nat) : (0 < k)%nat -> (0 < l)%nat -> ggsw_bytes_small w l k N ->
  fork_ggsw_to_ggsw_levels p w g (Z.of_nat l) (Z.of_nat k + 1) (Z.of_nat N) =
  eg_fork p g (Z.of_nat l) ((Z.of_nat k + 1) * (Z.of_nat k * (Z.of_nat N * (w / 8)))) ((Z.of_nat k + 1) * (Z.of_nat N * 256)).
Proof.
  intros Hk Hl [H1 H2]. assert (Hb : 0 < w / 8) by lia. open. set (b := w / 8) in *. clearbody b.
  replace (Z.of_nat k + 1 - 1) with (Z.of_nat k) by lia.
  set (A := Z.of_nat N * b) in *. set (B := Z.of_nat k * A) in *. set (C := (Z.of_nat k + 1) * B) in *.
  set (D := Z.of_nat N * 256) in *. set (E := (Z.of_nat k + 1) * D) in *.
  assert (0 <= A) by (unfold A; nia). assert (A <= B) by (unfold B; nia). assert (B <= C) by (unfold C; nia).
  assert (0 <= D) by (unfold D; lia). assert (D <= E) by (unfold E; nia). assert (C < 2 ^ 64) by nia. assert (E < 2 ^ 64) by nia.
  rewrite umul_ok by (unfold usize_bits; fold A; lia). cbn [obind]. rewrite umul_ok by (unfold usize_bits; fold A B; lia). cbn [obind].
  rewrite umul_ok by (unfold usize_bits; fold A B C; lia). cbn [obind]. rewrite umul_ok by (unfold usize_bits; fold D; lia). cbn [obind].
  rewrite umul_ok by (unfold usize_bits; fold D E; lia). reflexivity.
Qed.

Lemma fork_bsk_eq g (n l k N : nat) : (0 < k)%nat -> (0 < l)%nat -> (0 < n)%nat ->
  Z.of_nat n * (Z.of_nat l * ((Z.of_nat k + 1) * (Z.of_nat k * (Z.of_nat N * (w / 8))))) < 2 ^ 64 ->
  Z.of_nat n * (Z.of_nat l * ((Z.of_nat k + 1) * (Z.of_nat N * 256))) < 2 ^ 64 ->
  fork_bsk_to_ggsw p w g (Z.of_nat n) (Z.of_nat l) (Z.of_nat k + 1) (Z.of_nat N) =
  eg_fork p g (Z.of_nat n) (Z.of_nat l * ((Z.of_nat k + 1) * (Z.of_nat k * (Z.of_nat N * (w / 8))))) (Z.of_nat l * ((Z.of_nat k + 1) * (Z.of_nat N * 256))).
Proof.
  intros Hk Hl Hn H1 H2. assert (Hb : 0 < w / 8) by lia. open. set (b := w / 8) in *. clearbody b.
  replace (Z.of_nat k + 1 - 1) with (Z.of_nat k) by lia.
  set (A := Z.of_nat N * b) in *. set (B := Z.of_nat k * A) in *. set (C := (Z.of_nat k + 1) * B) in *. set (C' := Z.of_nat l * C) in *.
  set (D := Z.of_nat N * 256) in *. set (E := (Z.of_nat k + 1) * D) in *. set (E' := Z.of_nat l * E) in *.
  assert (0 <= A) by (unfold A; nia). assert (A <= B) by (unfold B; nia). assert (B <= C) by (unfold C; nia). assert (C <= C') by (unfold C'; nia).
  assert (0 <= D) by (unfold D; lia). assert (D <= E) by (unfold E; nia). assert (E <= E') by (unfold E'; nia).
  assert (C' < 2 ^ 64) by nia. assert (E' < 2 ^ 64) by nia.
  rewrite umul_ok by (unfold usize_bits; fold A; lia). cbn [obind]. rewrite umul_ok by (unfold usize_bits; fold A B; lia). cbn [obind].
  rewrite umul_ok by (unfold usize_bits; fold A B C; lia). cbn [obind]. rewrite umul_ok by (unfold usize_bits; fold A B C C'; lia). cbn [obind].
  rewrite umul_ok by (unfold usize_bits; fold D; lia). cbn [obind]. rewrite umul_ok by (unfold usize_bits; fold D E; lia). cbn [obind].
  rewrite umul_ok by (unfold usize_bits; fold D E E'; lia). reflexivity.
Qed.
End Counts.

(** ** Scales and messages *)
Lemma level_scale_ok p w b j : 0 < b -> (0 < j)%nat -> b * Z.of_nat j <= w -> w < 2 ^ 64 ->
  level_scale p w b j = Ret (2 ^ (w - b * Z.of_nat j)).
Proof.
  intros Hb Hj Hle Hw. unfold level_scale. rewrite umul_ok by (unfold usize_bits; nia). cbn [obind].
  rewrite plain_ok by (unfold usize_bits; nia). cbn [obind]. unfold shl_. destruct (Z.ltb_spec (w - b * Z.of_nat j) w); [|nia].
  unfold shl. rewrite Z.mul_1_l. f_equal. apply Z.mod_small. split; [apply Z.pow_nonneg; lia|apply Z.pow_lt_mono_r; nia].
Qed.

Lemma ggsw_message_ok w b N key m j i : 0 <= w -> (0 < N)%nat -> Forall (fun s => length s = N) key ->
  (i <= length key)%nat ->
  exists msg, ggsw_row_message w key N i (length key) (wmul w (wneg w m) (2 ^ (w - b * Z.of_nat j))) = Ret msg /\ length msg = N /\
    req (2 ^ w) (R N msg) (ggsw_row_value w b N key m j i).
Proof.
  intros Hw HN Hk Hi. unfold ggsw_row_message, ggsw_row_value. set (sc := 2 ^ _).
  assert (Hf : eqm (2 ^ w) (wmul w (wneg w m) sc) (- (m * sc))).
  { rewrite wmul_eqm, wneg_eqm. apply eqm_eq. ring. }
  set (f := wmul w (wneg w m) sc) in *. clearbody f.
  destruct (Nat.ltb_spec i (length key)).
  - destruct (nth_error key i) as [s|] eqn:Es; [|apply nth_error_None in Es; lia].
    eexists. split; [reflexivity|]. rewrite map_length. split.
    + apply nth_error_In in Es. rewrite Forall_forall in Hk. apply Hk. exact Es.
    + apply R_scal; [unfold wmul; rewrite Z.mul_0_l; apply Z.mod_0_l; pose proof (pow2_pos w Hw); lia|].
      intros a. rewrite wmul_eqm, Hf. apply eqm_eq. ring.
  - destruct (nth_error key i) as [s|] eqn:Es; [exfalso; assert (nth_error key i <> None) by congruence; apply nth_error_Some in H0; lia|].
    destruct N as [|N']; [lia|]. cbn [repeat]. eexists. split; [reflexivity|]. split; [cbn; rewrite repeat_length; reflexivity|].
    apply req_coefs. intros c Hc. rewrite rcoef_rconst by lia. rewrite rcoef_R by lia.
    destruct (Z.eqb_spec c 0) as [->|Hne].
    + unfold coef. cbn [Z.to_nat nth]. rewrite wadd_eqm, wneg_eqm, Hf. apply eqm_eq. ring.
    + unfold coef. destruct (Z.to_nat c) as [|c'] eqn:Ec; [lia|]. cbn [nth]. apply eqm_eq.
      clear. revert c'. induction N' as [|N' IH]; intros [|c']; cbn; auto.
Qed.

(** ** One encryption, with everything the callers need *)
Lemma encrypt_glwe_inv p w gauss N key output m g c g' :
  0 < w -> w mod 8 = 0 -> (0 < N)%nat -> gauss_ok w gauss -> egen_ok g -> gkey_ok p N key ->
  glwe_wf w (length key) N output -> length m = N ->
  encrypt_glwe p w gauss key output m g = Ret (c, g') ->
  exists es,
    gaussian_tensor gauss N (eg_noise g) = Ret (es, eg_noise g') /\
    eg_mask g' = bg_advance (eg_mask g) (Z.of_nat (length key * N) * (w / 8)) /\
    concat (removelast c) = table_words w (bg_table (eg_mask g)) (bg_pos (eg_mask g)) (length key * N) /\
    glwe_wf w (length key) N c /\
    req (2 ^ w) (gphase N key c) (radd (R N m) (R N es)).
Proof.
  intros Hw Hm8 HN Hga Hg Hk Ho Hm E. unfold encrypt_glwe in E.
  destruct (wf_snoc_dec _ _ _ _ Ho) as (om & ob & -> & Lo & _ & [Lb _]). rewrite glwe_split_snoc in E. cbn [obind] in E.
  rewrite ck_dim_eq_ok in E by congruence. cbn [obind] in E. rewrite ck_dim_eq_ok in E by congruence. cbn [obind] in E.
  rewrite Lo, Lb in E.
  destruct (glwe_fill_mask_and_body p w gauss key (length key) N m g) as [[[masks body] g1]|] eqn:Ef; [|discriminate].
  cbn [obind] in E. injection E as <- <-.
  apply glwe_fill_inv in Ef; try assumption. destruct Ef as (es & En & Hes & Hgm & Hmk & Hwf & Hr).
  exists es. split; [exact En|]. split; [exact Hgm|]. split; [|split; [exact Hwf|]].
  - rewrite removelast_last, Hmk. apply (chunks_spec N (length key)); [assumption|apply table_words_length].
  - rewrite gphase_snoc, Hr. intros k. apply eqm_eq. cbn. lia.
Qed.

Lemma egen_ok_child g mb nb i : egen_ok g -> egen_ok (child g mb nb i).
Proof. intros H. exact H. Qed.
Lemma egen_ok_advance g mb nb : egen_ok g -> egen_ok (eg_advance g mb nb).
Proof. intros H. exact H. Qed.

(** ** One level, and the whole ciphertext *)
Section Enc.
Context (p : profile) (w b : Z) (gauss : list Z -> option (Z * Z)) (N : nat) (key : list (list Z)).
Context (Hw : 0 < w) (Hm8 : w mod 8 = 0) (Hw64 : w < 2 ^ 64) (HN : (0 < N)%nat) (Hga : gauss_ok w gauss) (Hk : gkey_ok p N key) (Hk0 : (0 < length key)%nat).
Context (Hb : 0 < b).
Notation k := (length key).
Notation mb := (Z.of_nat (length key) * (Z.of_nat N * (w / 8))).
Notation nb := (Z.of_nat N * 256).

(** What an encryption with generator [g] makes of a row. *)
Definition row_ok (m : Z) (j i : nat) (g : egen) (row : list (list Z)) : Prop :=
  exists es ng, gaussian_tensor gauss N (eg_noise g) = Ret (es, ng) /\
    concat (removelast row) = table_words w (bg_table (eg_mask g)) (bg_pos (eg_mask g)) (k * N) /\
    glwe_wf w k N row /\
    req (2 ^ w) (gphase N key row) (radd (ggsw_row_value w b N key m j i) (R N es)).

Lemma level_inv m j lev g res : length lev = S k -> Forall (glwe_wf w k N) lev -> egen_ok g ->
  b * Z.of_nat (S j) <= w ->
  (Z.of_nat k + 1) * mb < 2 ^ 64 -> (Z.of_nat k + 1) * nb < 2 ^ 64 ->
  encrypt_ggsw_level p w gauss key N b m j lev g = Ret res ->
  length res = S k /\ (Z.of_nat k + 1) * mb <= bg_end (eg_mask g) - bg_pos (eg_mask g) /\
  forall i row, nth_error res i = Some row -> row_ok m (S j) i (child g mb nb (Z.of_nat i)) row.
Proof.
  intros Hl Hwf Hg Hbj S1 S2 E. unfold encrypt_ggsw_level in E. rewrite level_scale_ok in E by (assumption || lia). cbn [obind] in E.
  rewrite fork_level_eq in E by assumption.
  destruct (expect_fork _) as [[gens g1]|] eqn:Ef; [|discriminate]. cbn [obind] in E.
  apply eg_fork_inv in Ef; [|nia|lia|lia|lia]. destruct Ef as (-> & _ & _ & _ & _ & Hle & _).
  destruct lev as [|r0 lev'] eqn:El; [discriminate|]. rewrite <- El in *. clear El r0 lev'.
  apply with_children_inv in E; [|rewrite children_length; lia]. destruct E as [Lr Hr].
  split; [lia|]. split; [lia|]. intros i row Hi.
  assert (Hik : (i < k + 1)%nat) by (assert (i < length res)%nat by (apply nth_error_Some; congruence); lia).
  destruct (nth_error lev i) as [r|] eqn:Er; [|apply nth_error_None in Er; lia].
  destruct (Hr i r (child g mb nb (Z.of_nat i)) Er (child_nth _ _ _ _ _ Hik)) as (x & Hx & Ex).
  rewrite Hi in Hx. injection Hx as <-. unfold encrypt_constant_ggsw_row in Ex. replace (length lev - 1)%nat with k in Ex by lia.
  cbn [Nat.add] in Ex.
  destruct (ggsw_message_ok w b N key m (S j) i) as (msg & Emsg & Lmsg & Hmsg); [lia|assumption|apply Hk|lia|].
  rewrite Emsg in Ex. cbn [obind] in Ex.
  destruct (encrypt_glwe p w gauss key r msg _) as [[c gc]|] eqn:Ec; [|discriminate]. cbn [obind] in Ex. injection Ex as <-.
  apply encrypt_glwe_inv with (N := N) in Ec; try assumption.
  2: { rewrite Forall_forall in Hwf. apply Hwf. apply (nth_error_In _ _ Er). }
  destruct Ec as (es & En & _ & Hmk & Hc & Hp). exists es, (eg_noise gc). split; [exact En|]. split; [exact Hmk|]. split; [exact Hc|].
  rewrite Hp, Hmsg. reflexivity.
Qed.

Lemma level_ok m j lev g : length lev = S k -> Forall (glwe_wf w k N) lev -> egen_ok g ->
  b * Z.of_nat (S j) <= w -> fits p g (Z.of_nat k + 1) mb nb ->
  (forall i, (i < S k)%nat -> exists r, gaussian_tensor gauss N (eg_noise (child g mb nb (Z.of_nat i))) = Ret r) ->
  exists res, encrypt_ggsw_level p w gauss key N b m j lev g = Ret res.
Proof.
  intros Hl Hwf Hg Hbj Hf Hns. pose proof Hf as (S1 & S2 & S3 & S4). unfold encrypt_ggsw_level. rewrite level_scale_ok by (assumption || lia). cbn [obind].
  rewrite fork_level_eq by assumption. assert (0 < w / 8) by lia.
  rewrite eg_fork_ret; [|lia|nia|lia|replace (Z.of_nat (k + 1)) with (Z.of_nat k + 1) by lia; assumption]. cbn [obind].
  destruct lev as [|r0 lev'] eqn:El; [discriminate|]. rewrite <- El in *. clear El r0 lev'.
  apply with_children_ok; [rewrite children_length; lia|]. intros i r gi Er Eg.
  assert (Hik : (i < k + 1)%nat) by (assert (i < length lev)%nat by (apply nth_error_Some; congruence); lia).
  rewrite child_nth in Eg by assumption. injection Eg as <-. unfold encrypt_constant_ggsw_row. replace (length lev - 1)%nat with k by lia. cbn [Nat.add].
  destruct (ggsw_message_ok w b N key m (S j) i) as (msg & Emsg & Lmsg & Hmsg); [lia|assumption|apply Hk|lia|].
  rewrite Emsg. cbn [obind]. destruct (Hns i ltac:(lia)) as ([es ng] & En).
  destruct (C23_encryption_succeeds p w gauss N key r msg (child g mb nb (Z.of_nat i)) es ng) as (c & gc & Ec); try assumption.
  { rewrite Forall_forall in Hwf. apply Hwf. apply (nth_error_In _ _ Er). }
  { cbn. nia. }
  rewrite Ec. cbn [obind]. eauto.
Qed.

Notation mbl := ((Z.of_nat k + 1) * mb).
Notation nbl := ((Z.of_nat k + 1) * nb).

Lemma ggsw_inv m output g res g' : let l := length output in
  ggsw_wf w k N l output -> egen_ok g -> b * Z.of_nat l <= w -> ggsw_bytes_small w l k N ->
  encrypt_constant_ggsw p w gauss key N b output m g = Ret (res, g') ->
  length res = l /\ g' = eg_advance g (Z.of_nat l * mbl) (Z.of_nat l * nbl) /\
  Z.of_nat l * mbl <= bg_end (eg_mask g) - bg_pos (eg_mask g) /\
  forall j lev, nth_error res j = Some lev -> length lev = S k /\
    forall i row, nth_error lev i = Some row -> row_ok m (S j) i (child (child g mbl nbl (Z.of_nat j)) mb nb (Z.of_nat i)) row.
Proof.
  intros l [_ Hwf] Hg Hbl [S1 S2] E. unfold encrypt_constant_ggsw in E. fold l in E.
  assert (Hb8 : 0 < w / 8) by lia.
  destruct (Nat.eq_dec l 0) as [El|Hl0].
  { rewrite El in E. exfalso. cbn [Z.of_nat] in E.
    unfold fork_ggsw_to_ggsw_levels in E. destruct (mask_bytes_per_ggsw_level _ _ _ _); [|discriminate]. cbn [obind] in E.
    destruct (noise_bytes_per_ggsw_level _ _ _); discriminate. }
  rewrite fork_levels_eq in E by (assumption || lia || (split; assumption)).
  destruct (expect_fork _) as [[gens g1]|] eqn:Ef; [|discriminate]. cbn [obind] in E.
  destruct (with_children _ 0 output gens) as [rs|] eqn:Ew; [|discriminate]. cbn [obind] in E. injection E as -> ->.
  apply eg_fork_inv in Ef; [|nia|lia|assumption|assumption]. destruct Ef as (-> & -> & _ & _ & _ & Hle & _).
  apply with_children_inv in Ew; [|rewrite children_length; reflexivity]. destruct Ew as [Lr Hr].
  split; [assumption|]. split; [reflexivity|]. split; [lia|]. intros j lev Hj.
  assert (Hjl : (j < l)%nat) by (unfold l; rewrite <- Lr; apply nth_error_Some; congruence).
  destruct (nth_error output j) as [o|] eqn:Eo; [|apply nth_error_None in Eo; fold l in Eo; lia].
  destruct (Hr j o _ Eo (child_nth _ _ _ _ _ Hjl)) as (x & Hx & Ex). rewrite Hj in Hx. injection Hx as <-. cbn [Nat.add] in Ex.
  pose proof (nth_error_In _ _ Eo) as Hin. rewrite Forall_forall in Hwf. destruct (Hwf o Hin) as [Lo Wo].
  apply level_inv in Ex; try assumption; [|nia|nia|nia]. destruct Ex as (Ll & _ & Hrows). split; assumption.
Qed.

Lemma ggsw_ok m output g : let l := length output in
  ggsw_wf w k N l output -> egen_ok g -> b * Z.of_nat l <= w -> (0 < l)%nat ->
  fits p g (Z.of_nat l) mbl nbl ->
  (forall j i, (j < l)%nat -> (i < S k)%nat -> exists r, gaussian_tensor gauss N (eg_noise (child (child g mbl nbl (Z.of_nat j)) mb nb (Z.of_nat i))) = Ret r) ->
  exists res g', encrypt_constant_ggsw p w gauss key N b output m g = Ret (res, g').
Proof.
  intros l [_ Hwf] Hg Hbl Hl0 Hf Hns. pose proof Hf as (S1 & S2 & S3 & S4). assert (Hb8 : 0 < w / 8) by lia.
  unfold encrypt_constant_ggsw. fold l.
  rewrite fork_levels_eq by (assumption || lia || (split; assumption)).
  rewrite eg_fork_ret; [|lia|nia|lia|assumption]. cbn [obind].
  destruct (with_children_ok (encrypt_ggsw_level p w gauss key N b m) output (map (child g mbl nbl) (zseq 0 l)) 0) as (rs & Ers).
  - apply children_length.
  - intros j o gj Eo Eg. assert (Hjl : (j < l)%nat) by (unfold l; apply nth_error_Some; congruence).
    rewrite child_nth in Eg by assumption. injection Eg as <-. cbn [Nat.add].
    pose proof (nth_error_In _ _ Eo) as Hin. rewrite Forall_forall in Hwf. destruct (Hwf o Hin) as [Lo Wo].
    apply level_ok; try assumption; [nia| |].
    + split; [nia|]. split; [nia|]. cbn. split; nia.
    + intros i Hi. apply Hns; assumption.
  - rewrite Ers. cbn [obind]. eauto.
Qed.
End Enc.
