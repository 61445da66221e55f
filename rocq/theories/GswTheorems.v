(** * C53: GSW ciphertexts over LWE *)
From Verif Require Import Base Word WordFacts NegaRing PolySpec RingSum DecompModel DecompProofs DecompTheorems RandomModel RandomProofs RandomTheorems
  LweSpec LweModel LweProofs LweTheorems GlweModel GlweProofs GlweTheorems GgswModel GgswProofs GgswTheorems ParModel ParTheorems ExtProdProofs
  KeyswitchSpec KeyswitchProofs KeyswitchTheorems NoiseBounds ExtProdTheorems BootstrapTheorems SeededModel GswModel GswSpec.

(** ** Forks *)
Section Counts.
Context (p : profile) (w : Z) (Hw : 0 < w) (Hm : w mod 8 = 0).
Ltac open := unfold fork_gsw_level_to_lwe, fork_gsw_to_gsw_levels, mask_bytes_per_gsw_level, noise_bytes_per_gsw_level, mask_bytes_per_lwe,
  noise_bytes_per_lwe, noise_bytes_per_coef, mask_bytes_per_coef.

Lemma gsw_fork_level_eq g (n : nat) : (Z.of_nat n + 1) * (Z.of_nat n * (w / 8)) < 2 ^ 64 -> (Z.of_nat n + 1) * 768 < 2 ^ 64 ->
  fork_gsw_level_to_lwe p w g (Z.of_nat n + 1) = eg_fork p g (Z.of_nat (n + 1)) (Z.of_nat n * (w / 8)) 768.
Proof.
  intros H1 H2. assert (Hb : 0 < w / 8) by lia. open. set (b := w / 8) in *. clearbody b.
  replace (Z.of_nat n + 1 - 1) with (Z.of_nat n) by lia.
  assert (Z.of_nat n * b < 2 ^ 64) by nia.
  rewrite umul_ok by (unfold usize_bits; nia). cbn [obind]. rewrite umul_ok by (unfold usize_bits; nia). cbn [obind]. f_equal. lia.
Qed.

Lemma gsw_fork_levels_eq g (l n : nat) : (0 < l)%nat -> gsw_bytes_small w l n ->
  fork_gsw_to_gsw_levels p w g (Z.of_nat l) (Z.of_nat n + 1) =
  eg_fork p g (Z.of_nat l) ((Z.of_nat n + 1) * (Z.of_nat n * (w / 8))) ((Z.of_nat n + 1) * 768).
Proof.
  intros Hl [H1 H2]. assert (Hb : 0 < w / 8) by lia. open. set (b := w / 8) in *. clearbody b.
  replace (Z.of_nat n + 1 - 1) with (Z.of_nat n) by lia.
  set (A := Z.of_nat n * b) in *. set (C := (Z.of_nat n + 1) * A) in *. set (E := (Z.of_nat n + 1) * 768) in *.
  assert (0 <= A) by (unfold A; nia). assert (A <= C) by (unfold C; nia). assert (0 <= E) by (unfold E; lia).
  assert (C < 2 ^ 64) by nia. assert (E < 2 ^ 64) by nia.
  rewrite umul_ok by (unfold usize_bits; fold A; lia). cbn [obind]. rewrite umul_ok by (unfold usize_bits; fold A C; lia). cbn [obind].
  rewrite umul_ok by (unfold usize_bits; lia). cbn [obind]. rewrite umul_ok by (unfold usize_bits; fold E; lia). reflexivity.
Qed.
End Counts.

(** ** The factor of a level *)
Lemma plain_inv p w v d : plain p w v = Ret d -> eqm (2 ^ w) d v.
Proof.
  unfold plain. destruct (_ && _); [intros [= <-]; reflexivity|]. destruct p; [discriminate|]. intros [= <-]. apply eqm_mod.
Qed.

Lemma gsw_factor_inv p w b m j d : 0 < b -> (0 < j)%nat -> b * Z.of_nat j <= w -> w < 2 ^ 64 ->
  gsw_factor p w b m j = Ret d -> eqm (2 ^ w) d (m * 2 ^ (w - b * Z.of_nat j)).
Proof.
  intros Hb Hj Hbj Hw E. unfold gsw_factor in E. rewrite level_scale_ok in E by assumption. cbn [obind] in E. apply plain_inv in E. exact E.
Qed.

(** A message below 2^b overflows at no level. *)
Lemma gsw_factor_ok p w b m j : 0 < b -> (0 < j)%nat -> b * Z.of_nat j <= w -> w < 2 ^ 64 -> p = Release \/ 0 <= m < 2 ^ b ->
  exists d, gsw_factor p w b m j = Ret d.
Proof.
  intros Hb Hj Hbj Hw Hm. unfold gsw_factor. rewrite level_scale_ok by assumption. cbn [obind]. destruct Hm as [->|Hm].
  - rewrite plain_release. eauto.
  - eexists. apply plain_ok.
    assert (2 ^ b * 2 ^ (w - b * Z.of_nat j) <= 2 ^ w).
    { rewrite <- Z.pow_add_r by lia. apply Z.pow_le_mono_r; nia. }
    pose proof (pow2_pos (w - b * Z.of_nat j) ltac:(lia)). nia.
Qed.

(** ** The diagonal *)
Definition gsw_diag (d : Z) (key : list Z) (i : nat) : Z := match nth_error key i with Some s => - (d * s) | None => d end.

Lemma add_at_ok w n d c i : 0 <= w -> lwe_wf w n c -> (i <= n)%nat ->
  exists c', add_at w i d c = Ret c' /\ lwe_wf w n c' /\
    (forall t, (t < n)%nat -> nth t c' 0 = if Nat.eqb t i then wadd w (nth t c 0) d else nth t c 0) /\
    forall key, length key = n -> eqm (2 ^ w) (raw key c') (raw key c + gsw_diag d key i).
Proof.
  intros Hw [Hl Hc] Hi. destruct (snoc_dec c n Hl) as (mask & body & -> & Lm). clear Hl. subst n.
  apply Forall_app in Hc. destruct Hc as [Hmw Hbw]. apply Forall_inv in Hbw. unfold add_at.
  destruct (Nat.eq_dec i (length mask)) as [->|Hne].
  - assert (E : update_nth (fun c => Ret (wadd w c d)) (length mask) (mask ++ [body]) = Ret (mask ++ [wadd w body d])).
    { clear. induction mask as [|a mask IH]; [reflexivity|]. cbn [length app update_nth]. rewrite IH. reflexivity. }
    exists (mask ++ [wadd w body d]). split; [exact E|]. split; [|split].
    + split; [rewrite app_length; cbn; lia|]. apply Forall_app. split; [assumption|]. constructor; [apply wadd_word; assumption|constructor].
    + intros t Ht. destruct (Nat.eqb_spec t (length mask)); [lia|]. rewrite !app_nth1 by lia. reflexivity.
    + intros key Lk. rewrite !raw_snoc. unfold gsw_diag. replace (nth_error key (length mask)) with (@None Z) by (symmetry; apply nth_error_None; lia).
      rewrite wadd_eqm. apply eqm_eq. ring.
  - assert (Hi' : (i < length mask)%nat) by lia. clear Hi Hne.
    assert (G : exists mask', update_nth (fun c => Ret (wadd w c d)) i (mask ++ [body]) = Ret (mask' ++ [body]) /\ length mask' = length mask /\
      Forall (is_word w) mask' /\ (forall t, nth t mask' 0 = if Nat.eqb t i then wadd w (nth t mask 0) d else nth t mask 0) /\
      forall key, length key = length mask -> eqm (2 ^ w) (dot mask' key) (dot mask key - gsw_diag d key i)).
    { revert mask Hmw Hi'. induction i as [|i IH]; intros [|a mask] Hmw Hi; cbn in Hi; try lia.
      - exists (wadd w a d :: mask). cbn [app update_nth obind]. split; [reflexivity|]. split; [reflexivity|].
        split; [constructor; [apply wadd_word; assumption|apply (Forall_inv_tail Hmw)]|]. split.
        + intros [|t]; reflexivity.
        + intros [|s key] Lk; [discriminate|]. cbn [dot]. unfold gsw_diag. cbn [nth_error]. rewrite wadd_eqm. apply eqm_eq. ring.
      - destruct (IH mask (Forall_inv_tail Hmw)) as (mk & E & L & Ww & Hn & Hd); [lia|]. cbn [app update_nth]. rewrite E. cbn [obind].
        exists (a :: mk). split; [reflexivity|]. split; [cbn; lia|]. split; [constructor; [apply (Forall_inv Hmw)|assumption]|]. split.
        + intros [|t]; [reflexivity|]. cbn [nth Nat.eqb]. apply Hn.
        + intros [|s key] Lk; [discriminate|]. cbn [dot]. unfold gsw_diag. cbn [nth_error]. rewrite (Hd key) by (cbn in Lk; lia).
          apply eqm_eq. unfold gsw_diag. ring. }
    destruct G as (mk & E & L & Ww & Hn & Hd). exists (mk ++ [body]). split; [exact E|]. split; [|split].
    + split; [rewrite app_length; cbn; lia|]. apply Forall_app. split; [assumption|]. constructor; [assumption|constructor].
    + intros t Ht. rewrite !app_nth1 by lia. apply Hn.
    + intros key Lk. rewrite !raw_snoc, (Hd key Lk). apply eqm_eq. ring.
Qed.

Lemma gsw_diag_value w b key m j i d : eqm (2 ^ w) d (m * 2 ^ (w - b * Z.of_nat j)) ->
  eqm (2 ^ w) (gsw_diag d key i) (gsw_row_value w b key m j i).
Proof.
  intros H. unfold gsw_diag, gsw_row_value. destruct (nth_error key i); rewrite H; apply eqm_eq; ring.
Qed.

(** ** Encryption *)
Section Enc.
Context (p : profile) (w b : Z) (gauss : list Z -> option (Z * Z)) (key : list Z).
Context (Hw : 0 < w) (Hm8 : w mod 8 = 0) (Hw64 : w < 2 ^ 64) (Hk : safe_key p key) (Hk0 : (0 < length key)%nat) (Hb : 0 < b).
Notation n := (length key).
Notation mb := (Z.of_nat (length key) * (w / 8)).
Notation nb := 768.

Definition gsw_row_ok (m : Z) (j i : nat) (g : egen) (row : list Z) : Prop :=
  exists e ng, gaussian_one gauss (eg_noise g) = Ret (e, ng) /\
    (forall t, (t < n)%nat -> nth t row 0 =
       (nth t (table_words w (bg_table (eg_mask g)) (bg_pos (eg_mask g)) n) 0 + (if Nat.eqb t i then m * 2 ^ (w - b * Z.of_nat j) else 0)) mod 2 ^ w) /\
    lwe_wf w n row /\ eqm (2 ^ w) (raw key row) (gsw_row_value w b key m j i + e).

Lemma gsw_row_inv m j i d row g res : egen_ok g -> lwe_wf w n row -> (i <= n)%nat -> eqm (2 ^ w) d (m * 2 ^ (w - b * Z.of_nat j)) ->
  encrypt_gsw_row p w gauss key d i row g = Ret res -> gsw_row_ok m j i g res.
Proof.
  intros Hg [Lr _] Hi Hd E. unfold encrypt_gsw_row, encrypt_lwe in E.
  destruct (snoc_dec row _ Lr) as (om & ob & -> & Lo). rewrite split_last_snoc in E. cbn [obind] in E.
  destruct (fill_mask_and_body p w gauss key (length om) 0 g) as [[[mask body] g1]|] eqn:Ef; [|discriminate]. cbn [obind] in E.
  apply fill_mask_and_body_inv in Ef; try assumption. destruct Ef as (e & Hmk & En & Hgm & Hwf & Hbd).
  rewrite Lo in *. destruct (add_at_ok w n d (mask ++ [body]) i ltac:(lia) Hwf Hi) as (c' & E' & Hc' & Hn & Hr). rewrite E in E'. injection E' as ->.
  exists e, (eg_noise g1). split; [exact En|]. split; [|split; [exact Hc'|]].
  - intros t Ht. rewrite (Hn t Ht). rewrite app_nth1 by (rewrite Hmk, table_words_length; lia). rewrite <- Hmk.
    assert (Hwt : is_word w (nth t mask 0)).
    { destruct Hwf as [_ Hf]. apply Forall_app in Hf. destruct Hf as [Hf _]. rewrite Forall_forall in Hf. apply Hf. apply nth_In.
      rewrite Hmk, table_words_length. exact Ht. }
    destruct (Nat.eqb t i).
    + change (eqm (2 ^ w) (nth t mask 0 + d) (nth t mask 0 + m * 2 ^ (w - b * Z.of_nat j))). rewrite Hd. reflexivity.
    + rewrite Z.add_0_r. symmetry. apply Z.mod_small. exact Hwt.
  - rewrite (Hr key eq_refl), raw_snoc, Hbd, eqm_mod, (gsw_diag_value w b key m j i d Hd). apply eqm_eq. ring.
Qed.

Lemma gsw_level_inv m j lev g res : length lev = S n -> Forall (lwe_wf w n) lev -> egen_ok g -> b * Z.of_nat (S j) <= w ->
  (Z.of_nat n + 1) * mb < 2 ^ 64 -> (Z.of_nat n + 1) * nb < 2 ^ 64 ->
  encrypt_gsw_level p w gauss key b m j lev g = Ret res ->
  length res = S n /\ forall i row, nth_error res i = Some row -> gsw_row_ok m (S j) i (child g mb nb (Z.of_nat i)) row.
Proof.
  intros Hl Hwf Hg Hbj S1 S2 E. unfold encrypt_gsw_level in E.
  destruct (gsw_factor p w b m (S j)) as [d|] eqn:Ed; [|discriminate]. cbn [obind] in E. apply gsw_factor_inv in Ed; try assumption; [|lia].
  rewrite gsw_fork_level_eq in E by assumption.
  destruct (expect_fork _) as [[gens g1]|] eqn:Ef; [|discriminate]. cbn [obind] in E.
  apply eg_fork_inv in Ef; [|nia|lia|lia|lia]. destruct Ef as (-> & _ & _ & _ & _ & Hle & _).
  apply with_children_inv in E; [|rewrite children_length; lia]. destruct E as [Lr Hr].
  split; [lia|]. intros i row Hi.
  assert (Hik : (i < n + 1)%nat) by (assert (i < length res)%nat by (apply nth_error_Some; congruence); lia).
  destruct (nth_error lev i) as [r|] eqn:Er; [|apply nth_error_None in Er; lia].
  destruct (Hr i r (child g mb nb (Z.of_nat i)) Er (child_nth _ _ _ _ _ Hik)) as (x & Hx & Ex).
  rewrite Hi in Hx. injection Hx as <-. cbn [Nat.add] in Ex.
  eapply gsw_row_inv; [exact Hg| |lia|exact Ed|exact Ex]. rewrite Forall_forall in Hwf. apply Hwf. apply (nth_error_In _ _ Er).
Qed.

Lemma gsw_level_ok m j lev g : length lev = S n -> Forall (lwe_wf w n) lev -> egen_ok g -> b * Z.of_nat (S j) <= w ->
  p = Release \/ 0 <= m < 2 ^ b -> fits p g (Z.of_nat n + 1) mb nb ->
  (forall i, (i < S n)%nat -> exists r, gaussian_one gauss (eg_noise (child g mb nb (Z.of_nat i))) = Ret r) ->
  exists res, encrypt_gsw_level p w gauss key b m j lev g = Ret res.
Proof.
  intros Hl Hwf Hg Hbj Hm Hf Hns. pose proof Hf as (S1 & S2 & S3 & S4). unfold encrypt_gsw_level.
  destruct (gsw_factor_ok p w b m (S j)) as (d & Ed); try assumption; [lia|]. rewrite Ed. cbn [obind].
  rewrite gsw_fork_level_eq by assumption. assert (0 < w / 8) by lia.
  rewrite eg_fork_ret; [|lia|nia|lia|replace (Z.of_nat (n + 1)) with (Z.of_nat n + 1) by lia; assumption]. cbn [obind].
  apply with_children_ok; [rewrite children_length; lia|]. intros i r gi Er Eg.
  assert (Hik : (i < n + 1)%nat) by (assert (i < length lev)%nat by (apply nth_error_Some; congruence); lia).
  rewrite child_nth in Eg by assumption. injection Eg as <-. cbn [Nat.add]. unfold encrypt_gsw_row.
  destruct (Hns i ltac:(lia)) as ([e ng] & En).
  assert (Hr : lwe_wf w n r) by (rewrite Forall_forall in Hwf; apply Hwf; apply (nth_error_In _ _ Er)).
  destruct (C18_encryption_succeeds p w gauss key r 0 (child g mb nb (Z.of_nat i)) e ng) as (c & gc & Ec); try assumption.
  { apply Hr. }
  { cbn. lia. }
  rewrite Ec. cbn [obind]. destruct (C18_encrypt_decrypt _ _ _ _ _ _ _ _ _ Hw Hm8 (egen_ok_child g mb nb _ Hg) Hk (proj1 Hr) Ec) as (_ & _ & _ & Hc & _).
  destruct (add_at_ok w n d c i ltac:(lia) Hc ltac:(lia)) as (c' & E' & _). exists c'. exact E'.
Qed.

Notation mbl := ((Z.of_nat n + 1) * mb).
Notation nbl := ((Z.of_nat n + 1) * nb).

Lemma gsw_inv m lwe_size output g res g' : let l := length output in
  gsw_wf w n l output -> egen_ok g -> b * Z.of_nat l <= w -> gsw_bytes_small w l n ->
  encrypt_constant_gsw p w gauss key lwe_size b output m g = Ret (res, g') ->
  length res = l /\ g' = eg_advance g (Z.of_nat l * mbl) (Z.of_nat l * nbl) /\
  forall j lev, nth_error res j = Some lev -> length lev = S n /\
    forall i row, nth_error lev i = Some row -> gsw_row_ok m (S j) i (child (child g mbl nbl (Z.of_nat j)) mb nb (Z.of_nat i)) row.
Proof.
  intros l [_ Hwf] Hg Hbl [S1 S2] E. unfold encrypt_constant_gsw in E. fold l in E.
  destruct (ck_dim_eq _ _ _); [|discriminate]. cbn [obind] in E.
  assert (Hb8 : 0 < w / 8) by lia.
  destruct (Nat.eq_dec l 0) as [El|Hl0].
  { rewrite El in E. exfalso. cbn [Z.of_nat] in E.
    unfold fork_gsw_to_gsw_levels in E. destruct (mask_bytes_per_gsw_level _ _ _); [|discriminate]. cbn [obind] in E.
    destruct (noise_bytes_per_gsw_level _ _); discriminate. }
  rewrite gsw_fork_levels_eq in E by (assumption || lia || (split; assumption)).
  destruct (expect_fork _) as [[gens g1]|] eqn:Ef; [|discriminate]. cbn [obind] in E.
  destruct (with_children _ 0 output gens) as [rs|] eqn:Ew; [|discriminate]. cbn [obind] in E. injection E as -> ->.
  apply eg_fork_inv in Ef; [|nia|lia|assumption|assumption]. destruct Ef as (-> & -> & _ & _ & _ & Hle & _).
  apply with_children_inv in Ew; [|rewrite children_length; reflexivity]. destruct Ew as [Lr Hr].
  split; [assumption|]. split; [reflexivity|]. intros j lev Hj.
  assert (Hjl : (j < l)%nat) by (unfold l; rewrite <- Lr; apply nth_error_Some; congruence).
  destruct (nth_error output j) as [o|] eqn:Eo; [|apply nth_error_None in Eo; fold l in Eo; lia].
  destruct (Hr j o _ Eo (child_nth _ _ _ _ _ Hjl)) as (x & Hx & Ex). rewrite Hj in Hx. injection Hx as <-. cbn [Nat.add] in Ex.
  pose proof (nth_error_In _ _ Eo) as Hin. rewrite Forall_forall in Hwf. destruct (Hwf o Hin) as [Lo Wo].
  apply gsw_level_inv in Ex; try assumption; nia.
Qed.
End Enc.

(** The bytes of row number [r]: its slice of the mask stream and its slice of the noise stream. *)
Definition gsw_mask_pos (w : Z) (n : nat) (g : egen) (r : nat) : Z := bg_pos (eg_mask g) + Z.of_nat r * (Z.of_nat n * (w / 8)).
Definition gsw_noise_bytes (g : egen) (r : nat) : bgen := bg_window (eg_noise g) (Z.of_nat r * 768) 768.

Lemma gsw_child_child g n w j i :
  child (child g ((Z.of_nat n + 1) * (Z.of_nat n * (w / 8))) ((Z.of_nat n + 1) * 768) (Z.of_nat j)) (Z.of_nat n * (w / 8)) 768 (Z.of_nat i) =
  EG (bg_window (eg_mask g) (Z.of_nat (gsw_row_number n (S j) i) * (Z.of_nat n * (w / 8))) (Z.of_nat n * (w / 8)))
     (gsw_noise_bytes g (gsw_row_number n (S j) i)).
Proof.
  unfold child, gsw_noise_bytes, gsw_row_number, bg_window. cbn [eg_mask eg_noise bg_pos bg_end bg_table]. set (b := w / 8). clearbody b.
  replace (S j - 1)%nat with j by lia. replace (Z.of_nat (j * (n + 1) + i)) with (Z.of_nat j * (Z.of_nat n + 1) + Z.of_nat i) by lia.
  f_equal; f_equal; ring.
Qed.

(** An encryption that returns: row [i] of level [j] encrypts [gsw_row_value] with a noise of its own,
    drawn from its own slice of the noise stream; its mask is its own slice of the mask stream, plus
    m*2^(w-bj) at position [i]; the generator is left after the last slice. *)
Theorem C53_rows : forall p w gauss key lwe_size b output m g G g',
  let n := length key in let l := length output in
  0 < w -> w mod 8 = 0 -> w < 2 ^ 64 -> (0 < n)%nat -> egen_ok g -> safe_key p key ->
  0 < b -> b * Z.of_nat l <= w -> gsw_wf w n l output -> gsw_bytes_small w l n ->
  encrypt_constant_gsw p w gauss key lwe_size b output m g = Ret (G, g') ->
  exists noise,
    gsw_wf w n l G /\ gsw_encrypts w b key m noise G /\
    (forall j i, (1 <= j <= l)%nat -> (i <= n)%nat ->
       exists ng, gaussian_one gauss (gsw_noise_bytes g (gsw_row_number n j i)) = Ret (noise j i, ng)) /\
    (forall j lev i row t, nth_error G j = Some lev -> nth_error lev i = Some row -> (t < n)%nat ->
       nth t row 0 = (nth t (table_words w (bg_table (eg_mask g)) (gsw_mask_pos w n g (gsw_row_number n (S j) i)) n) 0
                      + (if Nat.eqb t i then m * 2 ^ (w - b * Z.of_nat (S j)) else 0)) mod 2 ^ w) /\
    eg_mask g' = bg_advance (eg_mask g) (Z.of_nat (l * (n + 1)) * (Z.of_nat n * (w / 8))) /\
    eg_noise g' = bg_advance (eg_noise g) (Z.of_nat (l * (n + 1)) * 768).
Proof.
  intros p w gauss key lwe_size b output m g G g' n l Hw Hm8 Hw64 Hn0 Hg Hk Hb Hbl Hwf Hs E.
  apply (gsw_inv p w b gauss key) in E; try assumption. fold n l in E. destruct E as (LG & -> & H).
  exists (fun j i => match gaussian_one gauss (gsw_noise_bytes g (gsw_row_number n j i)) with Ret (e, _) => e | Panic => 0 end).
  assert (HR : forall j lev i row, nth_error G j = Some lev -> nth_error lev i = Some row ->
    gsw_row_ok w b gauss key m (S j) i (EG (bg_window (eg_mask g) (Z.of_nat (gsw_row_number n (S j) i) * (Z.of_nat n * (w / 8))) (Z.of_nat n * (w / 8)))
     (gsw_noise_bytes g (gsw_row_number n (S j) i))) row).
  { intros j lev i row Hj Hi. destruct (H j lev Hj) as [_ Hr]. specialize (Hr i row Hi). unfold n in Hr. rewrite gsw_child_child in Hr. exact Hr. }
  split; [split; [exact LG|]|].
  { apply Forall_forall. intros lev Hin. apply In_nth_error in Hin. destruct Hin as [j Hj]. split; [apply (H j lev Hj)|].
    apply Forall_forall. intros row Hin. apply In_nth_error in Hin. destruct Hin as [i Hi].
    destruct (HR j lev i row Hj Hi) as (e & ng & _ & _ & Hrow & _). exact Hrow. }
  split.
  { intros j lev i row Hj Hi. destruct (HR j lev i row Hj Hi) as (e & ng & En & _ & _ & Hp). cbn [eg_noise] in En. rewrite En. apply phase_eq. exact Hp. }
  split.
  { intros j i Hj Hi. destruct j as [|j]; [lia|].
    destruct (nth_error G j) as [lev|] eqn:Ej; [|apply nth_error_None in Ej; lia]. destruct (H j lev Ej) as [Ll _].
    destruct (nth_error lev i) as [row|] eqn:Ei; [|apply nth_error_None in Ei; unfold n in *; lia].
    destruct (HR j lev i row Ej Ei) as (e & ng & En & _). cbn [eg_noise] in En. exists ng. rewrite En. reflexivity. }
  split.
  { intros j lev i row t Hj Hi Ht. destruct (HR j lev i row Hj Hi) as (e & ng & _ & Hmk & _). exact (Hmk t Ht). }
  cbn [eg_advance eg_mask eg_noise]. unfold bg_advance. split; f_equal; unfold n, l; set (q := w / 8); clearbody q; lia.
Qed.
Print Assumptions C53_rows.

(** It returns when the streams have the bytes, each slice yields its noise and, in checked builds, the
    message is below the decomposition base. *)
Theorem C53_succeeds : forall p w gauss key b output m g,
  let n := length key in let l := length output in
  0 < w -> w mod 8 = 0 -> w < 2 ^ 64 -> (0 < n)%nat -> egen_ok g -> safe_key p key ->
  0 < b -> b * Z.of_nat l <= w -> gsw_wf w n l output -> (0 < l)%nat -> gsw_bytes_small w l n ->
  p = Release \/ 0 <= m < 2 ^ b ->
  Z.of_nat (l * (n + 1) * n) * (w / 8) <= bg_end (eg_mask g) - bg_pos (eg_mask g) ->
  Z.of_nat (l * (n + 1)) * 768 <= bg_end (eg_noise g) - bg_pos (eg_noise g) ->
  (forall r, (r < l * (n + 1))%nat -> exists x, gaussian_one gauss (gsw_noise_bytes g r) = Ret x) ->
  exists G g', encrypt_constant_gsw p w gauss key (S n) b output m g = Ret (G, g').
Proof.
  intros p w gauss key b output m g n l Hw Hm8 Hw64 Hn0 Hg Hk Hb Hbl [_ Hwf] Hl0 [S1 S2] Hm F1 F2 Hns.
  assert (Hb8 : 0 < w / 8) by lia.
  assert (Hf : fits p g (Z.of_nat l) ((Z.of_nat n + 1) * (Z.of_nat n * (w / 8))) ((Z.of_nat n + 1) * 768)).
  { split; [exact S1|]. split; [exact S2|]. revert F1 F2. set (q := w / 8). clearbody q. clear. split; lia. }
  pose proof Hf as (_ & _ & S3 & S4).
  unfold encrypt_constant_gsw. rewrite ck_dim_eq_ok by (unfold n; lia). cbn [obind]. fold l n.
  rewrite gsw_fork_levels_eq by (assumption || lia || (split; assumption)).
  rewrite eg_fork_ret; [|lia|nia|lia|assumption]. cbn [obind].
  destruct (with_children_ok (encrypt_gsw_level p w gauss key b m) output
     (map (child g ((Z.of_nat n + 1) * (Z.of_nat n * (w / 8))) ((Z.of_nat n + 1) * 768)) (zseq 0 l)) 0) as (rs & Ers).
  - apply children_length.
  - intros j o gj Eo Eg. assert (Hjl : (j < l)%nat) by (unfold l; apply nth_error_Some; congruence).
    rewrite child_nth in Eg by assumption. injection Eg as <-. cbn [Nat.add].
    pose proof (nth_error_In _ _ Eo) as Hin. rewrite Forall_forall in Hwf. destruct (Hwf o Hin) as [Lo Wo].
    apply gsw_level_ok; try assumption; [nia| |].
    + split; [fold n; nia|]. split; [fold n; nia|]. cbn. fold n. split; nia.
    + intros i Hi. fold n. rewrite gsw_child_child. cbn [eg_noise]. apply Hns. unfold gsw_row_number. fold n in Hi. nia.
  - rewrite Ers. cbn [obind]. eauto.
Qed.
Print Assumptions C53_succeeds.

(** In checked builds a message of 2^b or more is always refused with a panic: the product with the
    scale of level 1 overflows. *)
Theorem C53_checked_large_message_panics : forall w gauss key lwe_size b output m g,
  0 < b <= w -> w < 2 ^ 64 -> 2 ^ b <= m ->
  encrypt_constant_gsw Debug w gauss key lwe_size b output m g = Panic.
Proof.
  intros w gauss key lwe_size b output m g Hb Hw Hm. unfold encrypt_constant_gsw.
  destruct (ck_dim_eq _ _ _); [|reflexivity]. cbn [obind].
  destruct (expect_fork _) as [[gens g1]|] eqn:Ef; [|reflexivity]. cbn [obind].
  assert (Hg : gens <> [] /\ output <> []).
  { unfold expect_fork, fork_gsw_to_gsw_levels in Ef. destruct (mask_bytes_per_gsw_level _ _ _) as [mbs|]; [|discriminate]. cbn [obind] in Ef.
    destruct (noise_bytes_per_gsw_level _ _) as [nbs|]; [|discriminate]. cbn [obind] in Ef.
    destruct output as [|lev output]; [cbn in Ef; discriminate|]. split; [|discriminate]. intros ->.
    unfold eg_fork in Ef. destruct (bg_fork Debug (eg_mask g) _ mbs) as [[[ms mask]|]|] eqn:Em; cbn [obind] in Ef; try discriminate.
    destruct (bg_fork Debug (eg_noise g) _ nbs) as [[[ns noise]|]|] eqn:En; cbn [obind] in Ef; try discriminate.
    injection Ef as Ef _.
    assert (L : forall x y ch z, bg_fork Debug x (Z.of_nat (length (lev :: output))) y = Ret (Some (ch, z)) -> ch <> []).
    { intros x y ch z. assert (Eq : Z.to_nat (Z.of_nat (length (lev :: output))) = S (length output)) by (rewrite Nat2Z.id; reflexivity).
      revert Eq. generalize (Z.of_nat (length (lev :: output))). intros q Eq. unfold bg_fork. destruct (_ || _); [discriminate|]. destruct (plain _ _ _); [|discriminate]. cbn [obind].
      destruct (_ <=? _); [|discriminate]. intros [= <- _]. rewrite Eq. discriminate. }
    apply L in Em. apply L in En. destruct ms; [contradiction|]. destruct ns; [contradiction|]. discriminate. }
  destruct Hg as [Hg Ho]. destruct output as [|lev output]; [contradiction|]. destruct gens as [|g0 gens]; [contradiction|].
  cbn [with_children]. unfold encrypt_gsw_level, gsw_factor. rewrite level_scale_ok by lia. cbn [obind].
  unfold plain. assert (2 ^ w <= m * 2 ^ (w - b * Z.of_nat 1)).
  { replace (2 ^ w) with (2 ^ b * 2 ^ (w - b * Z.of_nat 1)) by (rewrite <- Z.pow_add_r by lia; f_equal; lia).
    pose proof (pow2_pos (w - b * Z.of_nat 1) ltac:(lia)). nia. }
  destruct (Z.ltb_spec (m * 2 ^ (w - b * Z.of_nat 1)) (2 ^ w)); [lia|]. rewrite andb_false_r. reflexivity.
Qed.
Print Assumptions C53_checked_large_message_panics.

(** ** The parallel version: for every input, profile, noise oracle and schedule. *)
Lemma gsw_level_acts p w gauss key b m base j lev g :
  acts base lev [par_gsw_level p w gauss key b m base j lev g] (encrypt_gsw_level p w gauss key b m j lev g).
Proof.
  unfold par_gsw_level, encrypt_gsw_level. apply acts_node.
  - intros l E. destruct (gsw_factor p w b m (S j)) as [d|]; [|discriminate]. cbn [obind] in *.
    destruct (expect_fork _) as [[gens g1]|]; [|discriminate]. cbn [obind] in *. injection E as <-.
    rewrite <- (concat_singletons lev) at 1. eapply acts_ext;
      [apply (acts_children (fun x => [x]) (encrypt_gsw_row p w gauss key d))|].
    + intros base' i c g'. exact (acts_leaf base' c (fun row => encrypt_gsw_row p w gauss key d i row g')).
    + destruct (with_children _ 0 lev gens) as [r|]; [|reflexivity]. cbn [obind]. rewrite concat_singletons. reflexivity.
  - destruct (gsw_factor p w b m (S j)) as [d|]; [|reflexivity]. cbn [obind].
    destruct (expect_fork _) as [[gens g1]|]; [discriminate|reflexivity].
Qed.

Theorem C53_parallel : forall p w gauss key lwe_size b output m g,
  par_like_seq (@concat _) (concat output) (par_encrypt_constant_gsw p w gauss key lwe_size b output m g)
    (encrypt_constant_gsw p w gauss key lwe_size b output m g).
Proof.
  intros p w gauss key lwe_size b output m g. unfold par_like_seq, par_encrypt_constant_gsw, encrypt_constant_gsw.
  destruct (ck_dim_eq _ _ _); [|reflexivity]. cbn [obind]. destruct (expect_fork _) as [[gens g1]|]; [|reflexivity]. cbn [obind]. split.
  - apply acts_schedules. rewrite <- (map_id output) at 1.
    eapply acts_ext; [apply (acts_children (fun x => x) (encrypt_gsw_level p w gauss key b m))|].
    + intros base' i c g'. eapply acts_ext; [apply gsw_level_acts|]. destruct (encrypt_gsw_level p w gauss key b m i c g'); reflexivity.
    + destruct (with_children _ 0 output gens) as [r|]; [|reflexivity]. cbn [obind]. rewrite map_id. reflexivity.
  - intros r g'. destruct (with_children _ 0 output gens); [|discriminate]. cbn [obind]. intros [= <- <-]. reflexivity.
Qed.
Print Assumptions C53_parallel.

(** ** The trivial encryption *)
Lemma gsw_zero_rows_inv gauss n : forall rows g res g', Forall (fun c => length c = S n) rows ->
  map_gen (gsw_zero_row gauss) rows g = Ret (res, g') ->
  exists es, generate_tensor (gaussian_one gauss) (length rows) (eg_noise g) = Ret (es, eg_noise g') /\ eg_mask g' = eg_mask g /\
    res = map (fun e => repeat 0 n ++ [e]) es.
Proof.
  induction rows as [|row rows IH]; intros g res g' H E; cbn [map_gen] in E.
  - injection E as <- <-. exists []. repeat split.
  - destruct (gsw_zero_row gauss row g) as [[x g1]|] eqn:Ex; [|discriminate]. cbn [obind] in E.
    destruct (map_gen _ rows g1) as [[xs g2]|] eqn:Exs; [|discriminate]. cbn [obind] in E. injection E as <- <-.
    destruct (IH _ _ _ (Forall_inv_tail H) Exs) as (es & En & Em & ->).
    apply Forall_inv in H. destruct (snoc_dec row n H) as (mask & body & -> & Lm). unfold gsw_zero_row in Ex. rewrite split_last_snoc in Ex. cbn [obind] in Ex.
    destruct (random_noise gauss g) as [[e g3]|] eqn:Er; [|discriminate]. cbn [obind] in Ex. injection Ex as <- <-.
    apply random_noise_inv in Er. destruct Er as [E1 E2]. exists (e :: es). cbn [length generate_tensor map]. rewrite E2. cbn [obind]. rewrite En. cbn [obind].
    split; [reflexivity|]. split; [congruence|]. f_equal. f_equal. clear - Lm. revert n Lm. induction mask as [|a mask IH]; intros n <-; [reflexivity|].
    cbn. f_equal. apply IH. reflexivity.
Qed.

(** Level by level: the noises of level [j] (from 0) are number j*(n+1) to j*(n+1)+n of the sequence. *)
Lemma gsw_zero_levels_inv gauss n : forall output g res g', Forall (fun lev => length lev = S n /\ Forall (fun c => length c = S n) lev) output ->
  map_gen (map_gen (gsw_zero_row gauss)) output g = Ret (res, g') ->
  exists es, generate_tensor (gaussian_one gauss) (length output * (n + 1)) (eg_noise g) = Ret (es, eg_noise g') /\ eg_mask g' = eg_mask g /\
    length res = length output /\
    forall j lev, nth_error res j = Some lev -> length lev = S n /\
      forall i row, nth_error lev i = Some row -> row = repeat 0 n ++ [nth (j * (n + 1) + i) es 0].
Proof.
  induction output as [|lev0 output IH]; intros g res g' H E; cbn [map_gen] in E.
  - injection E as <- <-. exists []. repeat split; try reflexivity; destruct j; discriminate.
  - destruct (map_gen (gsw_zero_row gauss) lev0 g) as [[x g1]|] eqn:Ex; [|discriminate]. cbn [obind] in E.
    destruct (map_gen _ output g1) as [[xs g2]|] eqn:Exs; [|discriminate]. cbn [obind] in E. injection E as <- <-.
    destruct (IH _ _ _ (Forall_inv_tail H) Exs) as (es & En & Em & Ll & Hr). apply Forall_inv in H. destruct H as [L0 H0].
    destruct (gsw_zero_rows_inv gauss n lev0 g x g1 H0 Ex) as (es0 & En0 & Em0 & ->). rewrite L0 in En0.
    pose proof (generate_tensor_length _ _ _ _ _ En0) as Le0.
    exists (es0 ++ es). cbn [length]. replace (S (length output) * (n + 1))%nat with (S n + length output * (n + 1))%nat by lia.
    rewrite generate_tensor_app, En0. cbn [obind]. rewrite En. cbn [obind]. split; [reflexivity|]. split; [congruence|]. split; [lia|].
    intros [|j] lev Hj; cbn [nth_error] in Hj.
    + injection Hj as <-. rewrite map_length. split; [assumption|]. intros i row Hi.
      assert (Hil : (i < length es0)%nat) by (rewrite <- (map_length (fun e => repeat 0 n ++ [e]) es0); apply nth_error_Some; congruence).
      rewrite (map_nth_error (fun e => repeat 0 n ++ [e]) i es0 (nth_error_nth' es0 0 Hil)) in Hi. injection Hi as <-.
      cbn [Nat.mul Nat.add]. rewrite app_nth1 by lia. reflexivity.
    + destruct (Hr j lev Hj) as [L1 H1]. split; [assumption|]. intros i row Hi. rewrite (H1 i row Hi). do 2 f_equal.
      rewrite app_nth2 by lia. f_equal. lia.
Qed.

Lemma gsw_diagonal_ok w n d : 0 <= w -> forall matrix idx, Forall (lwe_wf w n) matrix -> (idx + length matrix <= S n)%nat ->
  exists res, gsw_diagonal w d idx matrix = Ret res /\ length res = length matrix /\
    forall t row', nth_error res t = Some row' -> exists row, nth_error matrix t = Some row /\ lwe_wf w n row' /\
      forall key, length key = n -> eqm (2 ^ w) (raw key row') (raw key row + gsw_diag d key (idx + t)).
Proof.
  intros Hw. induction matrix as [|row matrix IH]; intros idx Hm Hl.
  - exists []. split; [reflexivity|]. split; [reflexivity|]. intros [|t] row' H; discriminate.
  - cbn [gsw_diagonal]. destruct (add_at_ok w n d row idx Hw (Forall_inv Hm)) as (r & Er & Wr & _ & Rr); [cbn in Hl; lia|].
    rewrite Er. cbn [obind]. destruct (IH (S idx) (Forall_inv_tail Hm)) as (rs & Ers & Lrs & Hrs); [cbn in Hl; lia|]. rewrite Ers. cbn [obind].
    exists (r :: rs). split; [reflexivity|]. split; [cbn; lia|]. intros [|t] row' H; cbn [nth_error] in *.
    + injection H as <-. exists row. rewrite Nat.add_0_r. auto.
    + destruct (Hrs t row' H) as (row0 & E0 & W0 & R0). exists row0. split; [exact E0|]. split; [exact W0|]. intros key Lk. rewrite (R0 key Lk).
      replace (S idx + t)%nat with (idx + S t)%nat by lia. reflexivity.
Qed.

Lemma gsw_add_gadget_inv p w b m n : 0 <= w -> w < 2 ^ 64 -> 0 < b -> forall out idx res,
  Forall (fun lev => length lev = S n /\ Forall (lwe_wf w n) lev) out -> b * Z.of_nat (idx + length out) <= w ->
  gsw_add_gadget p w b m idx out = Ret res -> length res = length out /\
    forall j lev', nth_error res j = Some lev' -> exists lev, nth_error out j = Some lev /\ length lev' = S n /\
      forall i row', nth_error lev' i = Some row' -> exists row, nth_error lev i = Some row /\ lwe_wf w n row' /\
        forall key, length key = n -> eqm (2 ^ w) (raw key row') (raw key row + gsw_row_value w b key m (S (idx + j)) i).
Proof.
  intros Hw Hw64 Hb. induction out as [|lev out IH]; intros idx res Ho Hl E; cbn [gsw_add_gadget] in E.
  - injection E as <-. split; [reflexivity|]. intros [|j] lev' H; discriminate.
  - destruct (gsw_factor p w b m (S idx)) as [d|] eqn:Ed; [|discriminate]. cbn [obind length] in *. apply gsw_factor_inv in Ed; try assumption; try nia.
    destruct (Forall_inv Ho) as [Ll Wl]. destruct (gsw_diagonal_ok w n d Hw lev 0 Wl) as (r & Er & Lr & Hr); [lia|]. rewrite Er in E. cbn [obind] in E.
    destruct (gsw_add_gadget p w b m (S idx) out) as [rs|] eqn:Ers; [|discriminate]. cbn [obind] in E. injection E as <-.
    destruct (IH (S idx) rs (Forall_inv_tail Ho)) as [Lrs Hrs]; [replace (S idx + length out)%nat with (idx + S (length out))%nat by lia; exact Hl|exact Ers|].
    split; [cbn; lia|]. intros [|j] lev' H; cbn [nth_error] in *.
    + injection H as <-. exists lev. split; [reflexivity|]. split; [lia|]. intros i row' Hi. destruct (Hr i row' Hi) as (row & E0 & W0 & R0).
      exists row. split; [exact E0|]. split; [exact W0|]. intros key Lk. rewrite (R0 key Lk), Nat.add_0_r. cbn [Nat.add].
      rewrite (gsw_diag_value w b key m (S idx) i d Ed). reflexivity.
    + destruct (Hrs j lev' H) as (lev0 & E0 & L0 & H0). exists lev0. split; [exact E0|]. split; [exact L0|].
      replace (idx + S j)%nat with (S idx + j)%nat by lia. exact H0.
Qed.

(** The trivial encryption: under EVERY key of the right size the rows are those of a GSW encryption,
    with the noises drawn in sequence, level after level and row after row; the mask stream is not
    touched. *)
Theorem C53_trivial : forall p w gauss key0 lwe_size n b output m g G g',
  let l := length output in
  0 < w -> w < 2 ^ 64 -> gauss_ok w gauss -> 0 < b -> b * Z.of_nat l <= w -> gsw_wf w n l output ->
  trivial_encrypt_constant_gsw p w gauss key0 lwe_size b output m g = Ret (G, g') ->
  exists es, gsw_wf w n l G /\ eg_mask g' = eg_mask g /\
    generate_tensor (gaussian_one gauss) (l * (n + 1)) (eg_noise g) = Ret (es, eg_noise g') /\
    forall key, length key = n -> gsw_encrypts w b key m (fun j i => nth (gsw_row_number n j i) es 0) G.
Proof.
  intros p w gauss key0 lwe_size n b output m g G g' l Hw Hw64 Hga Hb Hbl [_ Hwf] E. unfold trivial_encrypt_constant_gsw in E.
  destruct (ck_dim_eq _ _ _); [|discriminate]. cbn [obind] in E.
  destruct (map_gen _ output g) as [[out g1]|] eqn:Eo; [|discriminate]. cbn [obind] in E.
  destruct (gsw_add_gadget p w b m 0 out) as [G'|] eqn:Eg; [|discriminate]. cbn [obind] in E. injection E as -> ->.
  apply (gsw_zero_levels_inv gauss n) in Eo.
  2: { eapply Forall_impl; [|exact Hwf]. intros lev [L H]. split; [exact L|]. eapply Forall_impl; [|exact H]. intros c [Hc _]. exact Hc. }
  destruct Eo as (es & En & Em & Lo & Ho). exists es.
  assert (Hes : Forall (is_word w) es).
  { clear - En Hga. revert En. generalize (length output * (n + 1))%nat (eg_noise g) (eg_noise g'). intros k. revert es.
    induction k as [|k IH]; intros es a c E; cbn [generate_tensor] in E; [injection E as <- <-; constructor|].
    destruct (gaussian_one gauss a) as [[x g1]|] eqn:E0; [|discriminate]. cbn [obind] in E.
    destruct (generate_tensor (gaussian_one gauss) k g1) as [[l1 g2]|] eqn:E1; [|discriminate]. cbn [obind] in E. injection E as <- <-.
    constructor; [|eapply IH; eassumption].
    assert (Et : gaussian_tensor gauss 1 a = Ret ([x], g1)).
    { unfold gaussian_one in E0. cbn [gaussian_tensor]. destruct (gaussian_pair gauss a) as [[[u v] g3]|]; [|discriminate]. cbn [obind] in *. injection E0 as -> ->. reflexivity. }
    apply (GlweProofs.gaussian_tensor_words w gauss Hga) in Et. destruct Et as [_ Et]. apply (Forall_inv Et). }
  assert (Hout : Forall (fun lev => length lev = S n /\ Forall (lwe_wf w n) lev) out).
  { apply Forall_forall. intros lev Hin. apply In_nth_error in Hin. destruct Hin as [j Hj]. destruct (Ho j lev Hj) as [L1 H1]. split; [exact L1|].
    apply Forall_forall. intros row Hin. apply In_nth_error in Hin. destruct Hin as [i Hi]. rewrite (H1 i row Hi).
    split; [rewrite app_length, repeat_length; cbn; lia|]. apply Forall_app. split.
    - apply Forall_forall. intros x Hx. apply repeat_spec in Hx. subst x. split; [lia|apply pow2_pos; lia].
    - constructor; [|constructor]. destruct (nth_in_or_default (j * (n + 1) + i) es 0) as [Hin| ->]; [|split; [lia|apply pow2_pos; lia]].
      rewrite Forall_forall in Hes. apply Hes. exact Hin. }
  apply (gsw_add_gadget_inv p w b m n) in Eg; try assumption; [|lia|cbn [Nat.add]; rewrite Lo; exact Hbl]. destruct Eg as [LG HG].
  split; [|split; [exact Em|split; [exact En|]]].
  - split; [unfold l; congruence|]. apply Forall_forall. intros lev' Hin. apply In_nth_error in Hin. destruct Hin as [j Hj].
    destruct (HG j lev' Hj) as (lev & _ & Ll & Hr). split; [exact Ll|]. apply Forall_forall. intros row' Hin. apply In_nth_error in Hin. destruct Hin as [i Hi].
    destruct (Hr i row' Hi) as (row & _ & Wr & _). exact Wr.
  - intros key Lk j lev' i row' Hj Hi. destruct (HG j lev' Hj) as (lev & E1 & _ & Hr). destruct (Hr i row' Hi) as (row & E2 & _ & Rr).
    apply phase_eq. rewrite (Rr key Lk). destruct (Ho j lev E1) as [_ H1]. rewrite (H1 i row E2), raw_snoc. cbn [Nat.add].
    unfold gsw_row_number. replace (S j - 1)%nat with j by lia.
    assert (E0 : dot (repeat 0 n) key = 0).
    { clear. revert key. induction n as [|k IH]; intros [|s key]; cbn; try reflexivity. rewrite IH. reflexivity. }
    rewrite E0. apply eqm_eq. ring.
Qed.
Print Assumptions C53_trivial.

(** ** External product *)
Section Ep.
Context (p : profile) (w : Z) (n : nat) (key : list Z) (Hw : 0 <= w).

Lemma gsw_ep_rows_ok : forall rows ds out, length rows = length ds -> Forall (lwe_wf w n) rows -> lwe_wf w n out ->
  exists out', gsw_ep_rows p w rows ds out = Ret out' /\ lwe_wf w n out' /\
    eqm (2 ^ w) (raw key out') (raw key out + zsum (length ds) (fun i => nth i ds 0 * raw key (nth i rows []))).
Proof.
  induction rows as [|row rows IH]; intros [|x ds] out Hl Hr Ho; try discriminate.
  - exists out. cbn [gsw_ep_rows length]. split; [reflexivity|]. split; [assumption|]. rewrite zsum_0. apply eqm_eq. lia.
  - cbn [gsw_ep_rows]. pose proof (Forall_inv Hr) as [Lrow _]. destruct Ho as [Lo Wo]. rewrite ck_dim_eq_ok by congruence. cbn [obind].
    rewrite zip_update_map2 by congruence.
    destruct (IH ds (map2 (fun o c => wadd w o (wmul w c x)) out row)) as (out' & E & W & P); [cbn in Hl; lia|apply (Forall_inv_tail Hr)| |].
    { split; [rewrite map2_length; lia|]. apply words_map2. intros. apply wadd_word. assumption. }
    exists out'. split; [exact E|]. split; [exact W|]. rewrite P. cbn [length]. rewrite zsum_S_l. cbn [nth].
    rewrite (raw_map2 (2 ^ w) _ 1 x n); [apply eqm_eq; ring| |assumption|assumption].
    intros a c. rewrite wadd_eqm, wmul_eqm. apply eqm_eq. ring.
Qed.

Lemma gsw_ep_levels_ok d : dec_wf w d -> forall levels it out, tinv w d it -> ti_current_level it = length levels ->
  Forall (fun lev => length lev = length (ti_states it) /\ Forall (lwe_wf w n) lev) levels -> lwe_wf w n out ->
  exists out', gsw_ep_levels p w levels it out = Ret out' /\ lwe_wf w n out' /\
    eqm (2 ^ w) (raw key out') (raw key out + zsum (length levels) (fun t => zsum (length (ti_states it)) (fun i =>
      dgt w (base_log d) (length levels) t (nth i (ti_states it) 0) * raw key (nth i (nth t levels []) [])))).
Proof.
  intros Hd. induction levels as [|lev levels IH]; intros it out Hi El Hl Ho.
  - exists out. cbn [gsw_ep_levels length]. split; [reflexivity|]. split; [assumption|]. rewrite zsum_0. apply eqm_eq. lia.
  - cbn [gsw_ep_levels]. cbn [length] in El. destruct (tsdi_next_ok p w d it (length levels) Hd Hi El) as (it' & E1 & Hi' & El' & _ & Est').
    rewrite E1. cbn [obind tt_level tt_values].
    replace (debug_assert p (Nat.eqb (length (lev :: levels)) (S (length levels)))) with (@Ret unit tt)
      by (unfold debug_assert; cbn [length]; rewrite Nat.eqb_refl; destruct p; reflexivity). cbn [obind].
    destruct (Forall_inv Hl) as [L1 W1]. apply Forall_inv_tail in Hl.
    destruct (gsw_ep_rows_ok lev (map (fun s => fst (decompose_one_level w (base_log d) s)) (ti_states it)) out) as (o1 & Eo & Wo & Po);
      [rewrite map_length; assumption|assumption|assumption|]. rewrite Eo. cbn [obind].
    assert (Ls : length (ti_states it') = length (ti_states it)) by (rewrite Est', map_length; reflexivity).
    destruct (IH it' o1 Hi' El') as (o2 & E2 & W2 & P2); [rewrite Ls; assumption|assumption|]. exists o2. split; [exact E2|]. split; [exact W2|].
    rewrite P2, Po, Ls, map_length. cbn [length]. rewrite zsum_S_l. apply eqm_eq.
    rewrite (zsum_ext (length (ti_states it)) (fun i => nth i (map (fun s => fst (decompose_one_level w (base_log d) s)) (ti_states it)) 0 * raw key (nth i lev []))
       (fun i => dgt w (base_log d) (S (length levels)) 0 (nth i (ti_states it) 0) * raw key (nth i (nth 0 (lev :: levels) []) []))).
    2: { intros i Hi0. rewrite dgt_0. cbn [nth]. rewrite (nth_indep _ 0 (fst (decompose_one_level w (base_log d) 0))) by (rewrite map_length; lia).
         rewrite (map_nth (fun s => fst (decompose_one_level w (base_log d) s))). reflexivity. }
    rewrite (zsum_ext (length levels)
       (fun t => zsum (length (ti_states it)) (fun i => dgt w (base_log d) (length levels) t (nth i (ti_states it') 0) * raw key (nth i (nth t levels []) [])))
       (fun t => zsum (length (ti_states it)) (fun i => dgt w (base_log d) (S (length levels)) (S t) (nth i (ti_states it) 0) * raw key (nth i (nth (S t) (lev :: levels) []) [])))); [ring|].
    intros t Ht. apply zsum_ext. intros i Hi0. rewrite dgt_S. cbn [nth]. do 2 f_equal. rewrite Est'.
    rewrite (nth_indep _ 0 (snd (decompose_one_level w (base_log d) 0))) by (rewrite map_length; lia).
    rewrite (map_nth (fun s => snd (decompose_one_level w (base_log d) s))). reflexivity.
Qed.
End Ep.

Lemma zip_const {A B} (f : B -> A) : forall s y, length s = length y -> zip_update (fun _ b => f b) s y = map f y.
Proof. induction s as [|a s IH]; intros [|b y] H; try discriminate; [reflexivity|]. cbn [zip_update map]. rewrite IH by (cbn in H; lia). reflexivity. Qed.

Lemma zsum_swap n m (f : nat -> nat -> Z) : zsum n (fun i => zsum m (fun j => f i j)) = zsum m (fun j => zsum n (fun i => f i j)).
Proof.
  induction n as [|n IH].
  - rewrite zsum_0. induction m as [|m IHm]; [rewrite zsum_0; reflexivity|]. rewrite zsum_S, <- IHm, zsum_0. reflexivity.
  - rewrite zsum_S, IH, <- zsum_add. apply zsum_ext. intros j _. rewrite zsum_S. reflexivity.
Qed.

(** What row [i] of level [j] encrypts is m * 2^(w-bj) times the weight of coefficient [i] in a phase:
    -s_i for a mask coefficient, 1 for the body. *)
Definition phase_weight (key : list Z) (i : nat) : Z := match nth_error key i with Some s => - s | None => 1 end.
Lemma raw_weights key c : length c = S (length key) -> raw key c = zsum (S (length key)) (fun i => nth i c 0 * phase_weight key i).
Proof.
  intros H. destruct (snoc_dec c _ H) as (mask & body & -> & L). rewrite raw_snoc, zsum_S, dot_zsum by exact L. rewrite L.
  rewrite <- L, app_nth2, Nat.sub_diag by lia. cbn [nth]. unfold phase_weight at 2.
  replace (nth_error key (length mask)) with (@None Z) by (symmetry; apply nth_error_None; lia). rewrite Z.mul_1_r.
  rewrite (zsum_ext (length mask) (fun i => nth i (mask ++ [body]) 0 * phase_weight key i) (fun i => -1 * (nth i mask 0 * nth i key 0))).
  - rewrite zsum_mul_l. ring.
  - intros i Hi. rewrite app_nth1 by lia. unfold phase_weight. rewrite (nth_error_nth' key 0) by lia. ring.
Qed.

(** The external product adds to the output m times the rounded ciphertext: on phases, up to the
    digit-weighted sum of the noises of the GSW ciphertext. *)
Theorem C53_external_product : forall p w b l key m noise G out c buf,
  let n := length key in
  dec_wf w (Dec b l) -> gsw_wf w n l G -> gsw_encrypts w b key m noise G ->
  lwe_wf w n out -> lwe_wf w n c -> length buf = S n ->
  exists out' c' D,
    gsw_external_product p w (S n) b G out c buf = Ret (out', c') /\ lwe_wf w n out' /\ lwe_wf w n c' /\
    (forall i, (i <= n)%nat -> gadget_digits w b l (nth i c 0) (nth i c' 0) (D i)) /\
    phase w key out' = (phase w key out + m * phase w key c' + zsum (S n) (fun i => zsum l (fun j => D i j * noise (S j) i))) mod 2 ^ w.
Proof.
  intros p w b l key m noise G out c buf n Hd [HGl HGf] HG Ho [Lc Wc] Hbuf. set (d := Dec b l) in *.
  pose proof Hd as (H1 & H2 & H3 & H4). cbn [d base_log level_count] in H1, H2, H3, H4. assert (Hw : 0 < w) by nia.
  unfold gsw_external_product. destruct Ho as [Lo Wo]. rewrite !ck_dim_eq_ok by congruence. cbn [obind].
  rewrite HGl, dec_new_ok by assumption. cbn [obind]. fold d.
  rewrite (ozip_update_ok _ (fun _ x => closest_representable w d x)).
  2:{ intros x y _ Hy. rewrite Forall_forall in Wc. apply closest_representable_ok; auto. }
  cbn [obind]. rewrite (zip_const (closest_representable w d)) by congruence.
  set (c' := map (closest_representable w d) c).
  destruct (decompose_tensor_ok p w d c' Hd) as (it & E & Hi & _ & El & Est).
  { unfold c'. rewrite Forall_map. apply Forall_forall. intros. apply closest_word. exact Hd. }
  rewrite E. cbn [obind]. cbn [d level_count] in El.
  set (st := fun x => shr (closest_representable w d x) (w - base_log d * Z.of_nat (level_count d))).
  assert (Est' : ti_states it = map st c).
  { rewrite Est. unfold c'. rewrite map_map. apply map_ext_in. intros x Hx. rewrite Forall_forall in Wc. unfold st. f_equal.
    apply closest_fixpoint; [assumption|apply closest_word; assumption|]. apply closest_multiple; auto. }
  assert (Lst : length (ti_states it) = S n) by (rewrite Est', map_length; exact Lc).
  destruct (gsw_ep_levels_ok p w n key ltac:(lia) d Hd (rev G) it out Hi) as (out' & E2 & W2 & P2).
  { rewrite rev_length. congruence. }
  { rewrite Lst. apply Forall_rev. exact HGf. }
  { split; assumption. }
  rewrite E2. cbn [obind].
  assert (Hnw : forall i, is_word w (nth i c 0)).
  { intros i. destruct (nth_in_or_default i c 0) as [Hin| ->]; [|split; [lia|apply pow2_pos; lia]]. rewrite Forall_forall in Wc. auto. }
  assert (Hc' : forall i, (i <= n)%nat -> nth i c' 0 = closest_representable w d (nth i c 0)).
  { intros i Hi0. unfold c'. rewrite (nth_indep _ 0 (closest_representable w d 0)) by (rewrite map_length; lia). apply map_nth. }
  assert (Wc' : lwe_wf w n c').
  { unfold c'. split; [rewrite map_length; exact Lc|]. rewrite Forall_map. apply Forall_forall. intros. apply closest_word. exact Hd. }
  exists out', c', (fun i j => sdigit w d (l - 1 - j) (nth i c 0)). split; [reflexivity|]. split; [exact W2|]. split; [exact Wc'|]. split.
  { intros i Hi0. rewrite Hc' by exact Hi0. apply sdigits_gadget; auto. }
  apply phase_eq. rewrite P2. rewrite rev_length, HGl, Lst. rewrite !phase_eqm.
  rewrite zsum_swap. rewrite (raw_weights key c' (proj1 Wc')). fold n. rewrite <- zsum_mul_l.
  rewrite (zsum_eqm (2 ^ w) (S n) (fun j => zsum l (fun i => dgt w (base_log d) l i (nth j (ti_states it) 0) * raw key (nth j (nth i (rev G) []) [])))
     (fun i => m * (nth i c' 0 * phase_weight key i) + zsum l (fun j => sdigit w d (l - 1 - j) (nth i c 0) * noise (S j) i))).
  { rewrite zsum_add. apply eqm_eq. ring. }
  intros i Hi0. rewrite Hc' by lia.
  destruct (sdigits_gadget w b l (nth i c 0) Hd (Hnw i)) as (_ & Hsum & _). fold d in Hsum. rewrite <- Hsum.
  rewrite <- zsum_mul_r, <- zsum_mul_l, <- zsum_add.
  rewrite <- (zsum_rev l). apply zsum_eqm. intros j Hj.
  rewrite rev_nth by lia. replace (length G - S (l - 1 - j))%nat with j by lia.
  destruct (nth_error G j) as [lev|] eqn:Ej; [|apply nth_error_None in Ej; lia].
  rewrite Forall_forall in HGf. destruct (HGf lev (nth_error_In _ _ Ej)) as [Llev _].
  destruct (nth_error lev i) as [row|] eqn:Ei; [|apply nth_error_None in Ei; lia].
  rewrite (nth_error_nth _ _ _ Ej), (nth_error_nth _ _ _ Ei).
  rewrite <- (phase_eqm w key row), (HG j lev i row Ej Ei), eqm_mod.
  assert (Ed : dgt w (base_log d) l (l - 1 - j) (nth i (ti_states it) 0) = xdigit w d (l - 1 - j) (nth i c 0)).
  { rewrite Est'. rewrite (nth_indep _ 0 (st 0)) by (rewrite map_length; lia). rewrite map_nth. reflexivity. }
  rewrite Ed. unfold sdigit. rewrite sgn_eqm. apply eqm_eq. unfold gsw_row_value, phase_weight.
  replace (Z.of_nat (S j)) with (Z.of_nat j + 1) by lia. destruct (nth_error key i); ring.
Qed.
Print Assumptions C53_external_product.

(** With a binary key and noises of at most [beta], the phase of the output moves by m times the phase of
    the input up to the bound. *)
Definition gsw_error (w b : Z) (n l : nat) (m beta : Z) : Z :=
  (Z.of_nat n + 1) * (Z.abs m * 2 ^ (w - b * Z.of_nat l - 1) + Z.of_nat l * 2 ^ (b - 1) * beta).

Theorem C53_error_bound : forall p w b l key m noise beta G out c buf,
  let n := length key in
  dec_wf w (Dec b l) -> binary key -> gsw_wf w n l G -> gsw_encrypts w b key m noise G ->
  (forall j i, (1 <= j <= l)%nat -> (i <= n)%nat -> Z.abs (noise j i) <= beta) ->
  lwe_wf w n out -> lwe_wf w n c -> length buf = S n ->
  exists out' c', gsw_external_product p w (S n) b G out c buf = Ret (out', c') /\ lwe_wf w n out' /\
    torus_dist w (phase w key out + m * phase w key c) (phase w key out') <= gsw_error w b n l m beta.
Proof.
  intros p w b l key m noise beta G out c buf n Hd Hbin HG He Hbeta Ho Hc Hbuf.
  destruct (C53_external_product p w b l key m noise G out c buf Hd HG He Ho Hc Hbuf) as (out' & c' & D & E & Wo & Wc & HD & HP). fold n in E, Wo, Wc, HD, HP.
  exists out', c'. split; [exact E|]. split; [exact Wo|].
  pose proof Hd as (H1 & H2 & H3 & H4). cbn [base_log level_count] in *.
  destruct (list_choice (fun i e => Z.abs e <= 2 ^ (w - b * Z.of_nat l - 1) /\ eqm (2 ^ w) (nth i c' 0) (nth i c 0 + e)) 0 (S n)) as (es & Hel & Hes).
  { intros i Hi. destruct (HD i ltac:(lia)) as (_ & _ & e & He1 & He2). exists e. auto. }
  assert (Hwt : forall i, Z.abs (phase_weight key i) <= 1).
  { intros i. unfold phase_weight. destruct (nth_error key i) as [s|] eqn:Es; [|lia]. unfold binary in Hbin. rewrite Forall_forall in Hbin.
    destruct (Hbin s (nth_error_In _ _ Es)) as [-> | ->]; lia. }
  apply (torus_dist_le w _ _ (m * zsum (S n) (fun i => nth i es 0 * phase_weight key i) + zsum (S n) (fun i => zsum l (fun j => D i j * noise (S j) i)))); [nia| |].
  - rewrite HP, eqm_mod. rewrite (phase_eqm w key c), (phase_eqm w key c'). rewrite (raw_weights key c (proj1 Hc)), (raw_weights key c' (proj1 Wc)). fold n.
    rewrite (zsum_eqm (2 ^ w) (S n) (fun i => nth i c' 0 * phase_weight key i) (fun i => nth i c 0 * phase_weight key i + nth i es 0 * phase_weight key i)).
    + rewrite zsum_add. apply eqm_eq. ring.
    + intros i Hi. destruct (Hes i Hi) as [_ Ee]. rewrite Ee. apply eqm_eq. ring.
  - unfold gsw_error. pose proof (pow2_pos (b - 1) ltac:(lia)) as Hpb. pose proof (pow2_pos (w - b * Z.of_nat l - 1) ltac:(lia)) as Hpw.
    assert (A1 : Z.abs (zsum (S n) (fun i => nth i es 0 * phase_weight key i)) <= Z.of_nat (S n) * 2 ^ (w - b * Z.of_nat l - 1)).
    { apply zsum_le_const. intros i Hi. destruct (Hes i Hi) as [He1 _]. rewrite Z.abs_mul. specialize (Hwt i). nia. }
    assert (A2 : Z.abs (zsum (S n) (fun i => zsum l (fun j => D i j * noise (S j) i))) <= Z.of_nat (S n) * (Z.of_nat l * (2 ^ (b - 1) * beta))).
    { apply zsum_le_const. intros i Hi. apply zsum_le_const. intros j Hj. rewrite Z.abs_mul.
      destruct (HD i ltac:(lia)) as (HDb & _ & _). specialize (HDb j Hj). specialize (Hbeta (S j) i ltac:(lia) ltac:(lia)). nia. }
    eapply Z.le_trans; [apply Z.abs_triangle|]. rewrite Z.abs_mul. nia.
Qed.
Print Assumptions C53_error_bound.

(** Controlled selection: with an encryption of a bit, the result decrypts like the chosen ciphertext,
    whatever the output and the buffer held. *)
Theorem C53_cmux : forall p w b l key (bit : bool) noise beta G out ct0 ct1 buf,
  let n := length key in
  dec_wf w (Dec b l) -> binary key -> gsw_wf w n l G -> gsw_encrypts w b key (Z.b2z bit) noise G ->
  (forall j i, (1 <= j <= l)%nat -> (i <= n)%nat -> Z.abs (noise j i) <= beta) ->
  length out = S n -> lwe_wf w n ct0 -> lwe_wf w n ct1 -> length buf = S n ->
  exists out' c', gsw_cmux p w (S n) b G out ct0 ct1 buf = Ret (out', c') /\ lwe_wf w n out' /\
    torus_dist w (phase w key (if bit then ct1 else ct0)) (phase w key out') <= gsw_error w b n l (Z.b2z bit) beta.
Proof.
  intros p w b l key bit noise beta G out ct0 ct1 buf n Hd Hbin HG He Hbeta Lo H0 Hc1 Hbuf.
  pose proof Hd as (D1 & D2 & D3 & D4). cbn [base_log level_count] in *. assert (Hw : 0 < w) by nia.
  unfold gsw_cmux. pose proof H0 as [L0 _]. pose proof Hc1 as [L1 _]. rewrite Lo, L0, Nat.eqb_refl. cbn [assert_ obind].
  rewrite ck_dim_eq_ok by congruence. cbn [obind]. rewrite zip_update_map2 by congruence.
  assert (Wd : lwe_wf w n (map2 (wsub w) ct1 ct0)).
  { split; [rewrite map2_length; lia|]. apply words_map2. intros. apply wsub_word. lia. }
  destruct (C53_error_bound p w b l key (Z.b2z bit) noise beta G ct0 (map2 (wsub w) ct1 ct0) buf Hd Hbin HG He Hbeta H0 Wd Hbuf) as (out' & c' & E & Wo & HB).
  exists out', c'. split; [exact E|]. split; [exact Wo|]. eapply Z.le_trans; [|exact HB]. apply Z.eq_le_incl.
  unfold torus_dist.
  assert (Ep : eqm (2 ^ w) (phase w key (if bit then ct1 else ct0)) (phase w key ct0 + Z.b2z bit * phase w key (map2 (wsub w) ct1 ct0))).
  { rewrite !phase_eqm. rewrite (raw_map2 (2 ^ w) (wsub w) 1 (-1) n ct1 ct0 key); [|intros; rewrite wsub_eqm; apply eqm_eq; ring|assumption|assumption].
    apply eqm_eq. destruct bit; cbn [Z.b2z]; ring. }
  f_equal; [change (eqm (2 ^ w) (phase w key (if bit then ct1 else ct0) - phase w key out') (phase w key ct0 + Z.b2z bit * phase w key (map2 (wsub w) ct1 ct0) - phase w key out'))
           |change (eqm (2 ^ w) (phase w key out' - phase w key (if bit then ct1 else ct0)) (phase w key out' - (phase w key ct0 + Z.b2z bit * phase w key (map2 (wsub w) ct1 ct0))))];
    rewrite Ep; reflexivity.
Qed.
Print Assumptions C53_cmux.

(** End to end: encrypt an integer as a GSW ciphertext, take its external product with an LWE ciphertext,
    decrypt. *)
Theorem C53_end_to_end : forall p w gauss key lwe_size b output m g G g' beta out c buf,
  let n := length key in let l := length output in
  dec_wf w (Dec b l) -> w mod 8 = 0 -> w < 2 ^ 64 -> (0 < n)%nat -> egen_ok g -> binary key ->
  gsw_wf w n l output -> gsw_bytes_small w l n -> gauss_small w beta gauss ->
  encrypt_constant_gsw p w gauss key lwe_size b output m g = Ret (G, g') ->
  lwe_wf w n out -> lwe_wf w n c -> length buf = S n ->
  exists out' c' x y z,
    gsw_external_product p w (S n) b G out c buf = Ret (out', c') /\
    decrypt_lwe p w key out = Ret x /\ decrypt_lwe p w key c = Ret y /\ decrypt_lwe p w key out' = Ret z /\
    torus_dist w (x + m * y) z <= gsw_error w b n l m beta.
Proof.
  intros p w gauss key lwe_size b output m g G g' beta out c buf n l Hd Hw8 Hw64 Hn0 Hg Hbin Hout Hby Hgs E Ho Hc Hbuf.
  pose proof Hd as (H1 & H2 & H3 & H4). cbn [base_log level_count] in *. assert (Hw : 0 < w) by nia.
  destruct (C53_rows p w gauss key lwe_size b output m g G g') as (noise & HG & He & Hn & _); auto; try (fold n l; auto; lia); [right; assumption|].
  fold n l in HG, He, Hn.
  destruct (C53_error_bound p w b l key m (fun j i => sgn w (noise j i)) beta G out c buf Hd Hbin HG) as (out' & c' & Eo & Wo & HB); auto.
  - intros j lev i row Ej Ei. rewrite (He j lev i row Ej Ei).
    change (eqm (2 ^ w) (gsw_row_value w b key m (S j) i + noise (S j) i) (gsw_row_value w b key m (S j) i + sgn w (noise (S j) i))).
    rewrite <- eqm_sgn by lia. reflexivity.
  - intros j i Hj Hi. destruct (Hn j i Hj Hi) as [ng Eg]. unfold gaussian_one, gaussian_pair in Eg.
    destruct (gaussian_loop gauss _ _) as [[[u v] g3]|] eqn:E3; [|discriminate]. cbn [obind] in Eg. injection Eg as <- _.
    apply (gaussian_loop_small w beta) in E3; [apply E3|assumption].
  - exists out', c', (phase w key out), (phase w key c), (phase w key out'). split; [exact Eo|].
    rewrite !decrypt_phase by (auto; try lia; right; assumption). auto.
Qed.
Print Assumptions C53_end_to_end.

(** A concrete encryption: w = 32, base 2^5, three levels, a key of two bits. *)
Definition demo_gsw_out : list (list (list Z)) := repeat (repeat [0; 0; 0] 3) 3.
Definition demo_gsw (m : Z) : list (list (list Z)) :=
  match encrypt_constant_gsw Debug 32 demo_gauss_word [1; 0] 3 5 demo_gsw_out m demo_egen with Ret (G, _) => G | Panic => [] end.
Definition demo_ct0 : list Z := [2345678901; 987654321; 3141592653].
Definition demo_ct1 : list Z := [112358132; 1346269217; 1000000007].

(** The hypotheses of the encryption theorems hold for it; the external product with an encryption of 3
    adds 3 times the phase up to 66642, below the bound 626544; the selection by an encryption of 1 (of 0)
    moves the phase by 22203 (by 74). *)
Example C53_case :
  dec_wf 32 (Dec 5 3) /\ binary [1; 0] /\ safe_key Debug [1; 0] /\ egen_ok demo_egen /\ gsw_wf 32 2 3 demo_gsw_out /\ gsw_bytes_small 32 3 2 /\
  gauss_small 32 255 demo_gauss_word /\ gauss_ok 32 demo_gauss_word /\
  lwe_wf 32 2 demo_ct0 /\ lwe_wf 32 2 demo_ct1 /\
  Z.of_nat (3 * (2 + 1) * 2) * (32 / 8) <= bg_end (eg_mask demo_egen) - bg_pos (eg_mask demo_egen) /\
  Z.of_nat (3 * (2 + 1)) * 768 <= bg_end (eg_noise demo_egen) - bg_pos (eg_noise demo_egen) /\
  (forall r, (r < 9)%nat -> exists x, gaussian_one demo_gauss_word (gsw_noise_bytes demo_egen r) = Ret x) /\
  (exists g', encrypt_constant_gsw Debug 32 demo_gauss_word [1; 0] 3 5 demo_gsw_out 3 demo_egen = Ret (demo_gsw 3, g')) /\
  encrypt_constant_gsw Debug 32 demo_gauss_word [1; 0] 3 5 demo_gsw_out 32 demo_egen = Panic /\
  phase 32 [1; 0] demo_ct0 = 795913752 /\ phase 32 [1; 0] demo_ct1 = 887641875 /\
  (exists o c, gsw_external_product Debug 32 3 5 (demo_gsw 3) demo_ct0 demo_ct1 [9; 9; 9] = Ret (o, c) /\
     phase 32 [1; 0] o = 795913752 + 3 * 887641875 - 66642) /\
  gsw_error 32 5 2 3 3 255 = 626544 /\
  (exists o c, gsw_cmux Debug 32 3 5 (demo_gsw 1) [1; 2; 3] demo_ct0 demo_ct1 [9; 9; 9] = Ret (o, c) /\ phase 32 [1; 0] o = 887641875 + 22203) /\
  (exists o c, gsw_cmux Debug 32 3 5 (demo_gsw 0) [1; 2; 3] demo_ct0 demo_ct1 [9; 9; 9] = Ret (o, c) /\ phase 32 [1; 0] o = 795913752 - 74) /\
  (exists g', trivial_encrypt_constant_gsw Debug 32 demo_gauss_word [1; 0] 3 5 demo_gsw_out 3 demo_egen =
     Ret ([[[402653184; 0; 1]; [0; 402653184; 1]; [0; 0; 402653185]]; [[12582912; 0; 1]; [0; 12582912; 1]; [0; 0; 12582913]];
           [[393216; 0; 1]; [0; 393216; 1]; [0; 0; 393217]]], g')).
Proof.
  split; [unfold dec_wf; cbn [base_log level_count]; lia|].
  split; [unfold binary; repeat (apply Forall_cons; [lia|]); apply Forall_nil|].
  split; [right; unfold binary; repeat (apply Forall_cons; [lia|]); apply Forall_nil|].
  split; [intros q; cbn; lia|].
  split. { split; [reflexivity|]. unfold demo_gsw_out. apply Forall_forall. intros lev Hl. apply repeat_spec in Hl. subst lev. split; [reflexivity|].
    apply Forall_forall. intros row Hr. apply repeat_spec in Hr. subst row. split; [reflexivity|]. repeat constructor; lia. }
  split; [unfold gsw_bytes_small; cbn; lia|].
  split; [apply demo_gauss_word_small; lia|]. split; [apply demo_gauss_word_ok; lia|].
  split; [split; [reflexivity|]; unfold demo_ct0, is_word; repeat (apply Forall_cons; [lia|]); apply Forall_nil|].
  split; [split; [reflexivity|]; unfold demo_ct1, is_word; repeat (apply Forall_cons; [lia|]); apply Forall_nil|].
  split; [cbn; lia|]. split; [cbn; lia|].
  split. { intros r Hr. do 9 (destruct r as [|r]; [eexists; vm_compute; reflexivity|]). lia. }
  split. { unfold demo_gsw. destruct (encrypt_constant_gsw Debug 32 demo_gauss_word [1; 0] 3 5 demo_gsw_out 3 demo_egen) as [[G g']|] eqn:E; [exists g'; reflexivity|].
    exfalso. apply (f_equal (fun o => match o with Ret _ => true | Panic => false end)) in E. vm_compute in E. discriminate. }
  split; [vm_compute; reflexivity|]. split; [vm_compute; reflexivity|]. split; [vm_compute; reflexivity|].
  split; [eexists; eexists; split; [vm_compute; reflexivity|vm_compute; reflexivity]|].
  split; [vm_compute; reflexivity|].
  split; [eexists; eexists; split; [vm_compute; reflexivity|vm_compute; reflexivity]|].
  split; [eexists; eexists; split; [vm_compute; reflexivity|vm_compute; reflexivity]|].
  eexists. vm_compute. reflexivity.
Qed.
