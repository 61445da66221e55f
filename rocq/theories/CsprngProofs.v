From Verif Require Import Base CsprngModel CsprngSpec.

Lemma pow132 : table_size = 16 * 2 ^ 128. Proof. reflexivity. Qed.

Lemma ti_eta t : t = TI (aes_index t) (byte_index t). Proof. destruct t; reflexivity. Qed.

Lemma pos_range t : ti_wf t -> 0 <= pos t < table_size.
Proof. unfold ti_wf, pos; rewrite pow132; lia. Qed.

Lemma pos_inj t u : ti_wf t -> ti_wf u -> pos t = pos u -> t = u.
Proof.
  destruct t as [a b], u as [c d]; unfold ti_wf, pos; cbn [aes_index byte_index]; intros.
  f_equal; lia.
Qed.

Lemma ti_increase_wf t s : ti_wf t -> ti_wf (ti_increase t s).
Proof.
  unfold ti_wf, ti_increase, bytes_per_aes_call; cbn [aes_index byte_index]; intros.
  split; apply Z.mod_pos_bound; lia.
Qed.

Lemma mod_block M a b : 0 < M -> 0 <= b < 16 -> 16 * (a mod M) + b = (16 * a + b) mod (16 * M).
Proof.
  intros HM Hb. apply Z.mod_unique with (q := a / M).
  - left. pose proof (Z.mod_pos_bound a M HM). lia.
  - pose proof (Z.div_mod a M). lia.
Qed.

Lemma ti_increase_pos t s : ti_wf t -> 0 <= s ->
  pos (ti_increase t s) = (pos t + s) mod table_size.
Proof.
  unfold ti_wf, ti_increase, pos, bytes_per_aes_call; cbn [aes_index byte_index]; intros H Hs.
  rewrite pow132, mod_block by (try apply Z.mod_pos_bound; lia).
  f_equal. lia.
Qed.

Lemma ti_decrease_wf t s : ti_wf t -> ti_wf (ti_decrease t s).
Proof.
  unfold ti_wf, ti_decrease, bytes_per_aes_call; intros [Ha Hb].
  assert (0 <= s mod 16 < 16) by (apply Z.mod_pos_bound; lia).
  destruct (Z.leb_spec (s mod 16) (byte_index t)); cbn [aes_index byte_index];
    (split; [apply Z.mod_pos_bound; lia | lia]).
Qed.

Lemma ti_decrease_pos t s : ti_wf t -> 0 <= s ->
  pos (ti_decrease t s) = (pos t - s) mod table_size.
Proof.
  unfold ti_wf, ti_decrease, pos, bytes_per_aes_call; intros [Ha Hb] Hs.
  assert (0 <= s mod 16 < 16) by (apply Z.mod_pos_bound; lia).
  pose proof (Z.div_mod s 16).
  destruct (Z.leb_spec (s mod 16) (byte_index t)); cbn [aes_index byte_index];
    rewrite pow132, mod_block by lia; f_equal; lia.
Qed.

Lemma ti_cmp_pos a b : ti_wf a -> ti_wf b -> ti_cmp a b = Z.compare (pos a) (pos b).
Proof.
  unfold ti_wf, ti_cmp, pos; intros.
  destruct (Z.compare_spec (aes_index a) (aes_index b)).
  - destruct (Z.compare_spec (byte_index a) (byte_index b)); symmetry;
      [apply Z.compare_eq_iff | apply Z.compare_lt_iff | apply Z.compare_gt_iff]; lia.
  - symmetry; apply Z.compare_lt_iff; lia.
  - symmetry; apply Z.compare_gt_iff; lia.
Qed.

Lemma ti_ltb_pos a b : ti_wf a -> ti_wf b -> ti_ltb a b = (pos a <? pos b).
Proof. intros; unfold ti_ltb, Z.ltb; rewrite ti_cmp_pos by assumption; reflexivity. Qed.
Lemma ti_leb_pos a b : ti_wf a -> ti_wf b -> ti_leb a b = (pos a <=? pos b).
Proof. intros; unfold ti_leb, Z.leb; rewrite ti_cmp_pos by assumption; reflexivity. Qed.
Lemma ti_geb_pos a b : ti_wf a -> ti_wf b -> ti_geb a b = (pos b <=? pos a).
Proof.
  intros; unfold ti_geb; rewrite ti_cmp_pos by assumption.
  destruct (Z.compare_spec (pos a) (pos b)); lia.
Qed.
Lemma ti_eqb_pos a b : ti_wf a -> ti_wf b -> ti_eqb a b = (pos a =? pos b).
Proof.
  intros; unfold ti_eqb; rewrite ti_cmp_pos by assumption.
  destruct (Z.compare_spec (pos a) (pos b)); lia.
Qed.

Lemma FIRST_wf : ti_wf TI_FIRST. Proof. unfold ti_wf; cbn; lia. Qed.
Lemma SECOND_wf : ti_wf TI_SECOND. Proof. unfold ti_wf; cbn; lia. Qed.
Lemma LAST_wf : ti_wf TI_LAST. Proof. unfold ti_wf; cbn; lia. Qed.

Lemma ti_distance_pos a b : ti_wf a -> ti_wf b -> pos b <= pos a ->
  exists d, ti_distance a b = Some d /\
    d = Z.min (Z.min (16 * (aes_index a - aes_index b)) (2 ^ 128 - 1) + byte_index a) (2 ^ 128 - 1)
        - byte_index b.
Proof.
  intros Ha Hb Hle. unfold ti_distance. rewrite ti_cmp_pos by assumption.
  unfold ti_wf, pos in *.
  destruct (Z.compare_spec (16 * aes_index a + byte_index a) (16 * aes_index b + byte_index b)) as [H|H|H]; [| lia |].
  - exists 0. split; [reflexivity|]. lia.
  - eexists; split; [reflexivity|].
    unfold u128_saturating_sub, u128_saturating_add, u128_saturating_mul, bytes_per_aes_call. lia.
Qed.

Lemma ti_distance_none a b : ti_wf a -> ti_wf b -> pos a < pos b -> ti_distance a b = None.
Proof.
  intros Ha Hb H. unfold ti_distance. rewrite ti_cmp_pos by assumption.
  apply Z.compare_lt_iff in H. rewrite H. reflexivity.
Qed.

Lemma ti_distance_exact a b : ti_wf a -> ti_wf b -> pos b <= pos a -> pos a - pos b < 2 ^ 128 - 15 ->
  ti_distance a b = Some (pos a - pos b).
Proof.
  intros Ha Hb Hle Hs. destruct (ti_distance_pos a b Ha Hb Hle) as (d & -> & ->).
  unfold ti_wf, pos in *. f_equal. lia.
Qed.

(** In the saturated zone the answer is within 15 of the documented one. *)
Lemma ti_distance_sat a b : ti_wf a -> ti_wf b -> 2 ^ 128 - 15 <= pos a - pos b ->
  exists d, ti_distance a b = Some d /\ 2 ^ 128 - 1 - 15 <= d <= 2 ^ 128 - 1.
Proof.
  intros Ha Hb Hs. destruct (ti_distance_pos a b Ha Hb ltac:(lia)) as (d & -> & ->).
  eexists; split; [reflexivity|]. unfold ti_wf, pos in *. lia.
Qed.

(** ** generator steps *)
Lemma plain_ok p w v : 0 <= v < 2 ^ w -> plain p w v = Ret v.
Proof. intros H. unfold plain. destruct (Z.leb_spec 0 v), (Z.ltb_spec v (2 ^ w)); cbn; auto; lia. Qed.

Lemma plain_debug_inv w v x : plain Debug w v = Ret x -> x = v /\ 0 <= v < 2 ^ w.
Proof.
  unfold plain. destruct (Z.leb_spec 0 v), (Z.ltb_spec v (2 ^ w)); cbn; intros E; inversion E; subst; lia.
Qed.

Lemma st_new_ok t : ti_wf t -> 0 < pos t ->
  exists st, st_new t = Ret st /\ ti_wf (table_idx st) /\ pos (table_idx st) = pos t - 1
             /\ buffer_pointer st = 127.
Proof.
  intros Ht Hp. unfold st_new. rewrite ti_eqb_pos by (auto using FIRST_wf).
  change (pos TI_FIRST) with 0. destruct (Z.eqb_spec (pos t) 0); [lia|]. cbn.
  eexists; split; [reflexivity|]. cbn [table_idx buffer_pointer].
  split; [apply ti_decrease_wf; assumption|]. split; [|reflexivity].
  unfold ti_decremented. rewrite ti_decrease_pos by (auto; lia).
  pose proof (pos_range t Ht). apply Z.mod_small. lia.
Qed.

Section Gen.
  Context {B : Type}.
  Variable enc : Z -> list B.
  Hypothesis Henc : cipher_wf enc.

  (** [GInv lo hi g]: the next byte to output is at [lo], the bound is [hi]. *)
  Record GInv (lo hi : Z) (g : generator B) : Prop := {
    gi_enc : block_cipher g = enc;
    gi_lastwf : ti_wf (last g);
    gi_last : pos (last g) = hi - 1;
    gi_wf : ti_wf (gen_table_index g);
    gi_pos : pos (gen_table_index g) = lo - 1;
    gi_range : 1 <= lo <= hi /\ hi < table_size;
    gi_ptr : 0 <= buffer_pointer (gstate g) <= 127;
    gi_buf : forall d, 0 <= d -> buffer_pointer (gstate g) + 1 + d < 128 -> lo + d < hi ->
      nth_error (buffer g) (Z.to_nat (buffer_pointer (gstate g) + 1 + d)) = table_byte enc (lo + d) }.

  Lemma GInv_hi lo hi g : GInv lo hi g -> hi < table_size.
  Proof. intros H. apply (gi_range _ _ _ H). Qed.

  Lemma from_block_cipher_ok start bound : ti_wf start -> ti_wf bound ->
    0 < pos start < pos bound ->
    exists g, from_block_cipher enc start bound = Ret g /\ GInv (pos start) (pos bound) g.
  Proof.
    intros Hs Hb H. unfold from_block_cipher. rewrite ti_ltb_pos by assumption.
    destruct (Z.ltb_spec (pos start) (pos bound)); [|lia]. cbn.
    destruct (st_new_ok start Hs) as (st & E & Hw & Hp & Hptr); [lia|].
    rewrite E. cbn. eexists; split; [reflexivity|].
    pose proof (pos_range bound Hb).
    constructor; cbn [block_cipher last gstate buffer]; unfold gen_table_index; cbn [gstate]; auto.
    - apply ti_decrease_wf; assumption.
    - unfold ti_decremented. rewrite ti_decrease_pos by (auto; lia). apply Z.mod_small. lia.
    - lia.
    - lia.
    - intros; lia.
  Qed.

  Lemma from_block_cipher_inv start bound g : ti_wf start -> ti_wf bound ->
    from_block_cipher enc start bound = Ret g -> 0 < pos start < pos bound.
  Proof.
    intros Hs Hb. unfold from_block_cipher. rewrite ti_ltb_pos by assumption.
    destruct (Z.ltb_spec (pos start) (pos bound)); cbn; [|discriminate].
    unfold st_new. rewrite ti_eqb_pos by (auto using FIRST_wf). change (pos TI_FIRST) with 0.
    pose proof (pos_range start Hs).
    destruct (Z.eqb_spec (pos start) 0); cbn; [discriminate|]. lia.
  Qed.

  Lemma nth_error_flat16 (f : Z -> list B) l (H : forall c, length (f c) = 16%nat) i :
    nth_error (flat_map f l) i =
    match nth_error l (i / 16)%nat with Some c => nth_error (f c) (i mod 16)%nat | None => None end.
  Proof.
    revert i; induction l as [|c l IH]; intros i; cbn [flat_map].
    - destruct (i / 16)%nat, i; reflexivity.
    - destruct (Nat.lt_ge_cases i 16) as [Hi|Hi].
      + rewrite nth_error_app1 by (rewrite H; lia).
        replace (i / 16)%nat with 0%nat by (symmetry; apply Nat.div_small; lia).
        rewrite Nat.mod_small by lia. reflexivity.
      + rewrite nth_error_app2 by (rewrite H; lia). rewrite H, IH.
        assert (Hd : (i / 16 = S ((i - 16) / 16))%nat).
        { replace i with ((i - 16) + 1 * 16)%nat at 1 by lia. rewrite Nat.div_add by lia. lia. }
        assert (Hm : (i mod 16 = (i - 16) mod 16)%nat).
        { replace i with ((i - 16) + 1 * 16)%nat at 1 by lia. rewrite Nat.mod_add by lia. reflexivity. }
        rewrite Hd, Hm. reflexivity.
  Qed.

  Lemma omap_ret {A C} (f : A -> outcome C) (g : A -> C) l :
    (forall a, In a l -> f a = Ret (g a)) -> omap f l = Ret (map g l).
  Proof.
    induction l as [|a l IH]; intros H; cbn; [reflexivity|].
    rewrite (H a) by (left; reflexivity). cbn. rewrite IH by (intros; apply H; right; assumption).
    reflexivity.
  Qed.

  Lemma plain_cases p w v : 0 <= v -> plain p w v = Panic \/ plain p w v = Ret (v mod 2 ^ w).
  Proof.
    intros Hv. unfold plain. destruct (Z.leb_spec 0 v), (Z.ltb_spec v (2 ^ w)); cbn; try lia.
    - right. rewrite Z.mod_small by lia. reflexivity.
    - destruct p; auto.
  Qed.

  (** The batch starting at counter [c]; entries of counters below 2^128 are table bytes. *)
  Lemma generate_batch_ok p c : 0 <= c < 2 ^ 128 -> (p = Release \/ c + 7 < 2 ^ 128) ->
    exists buf, generate_batch p enc c = Ret buf /\
      forall i, 0 <= i < 128 -> 16 * c + i < table_size ->
        nth_error buf (Z.to_nat i) = table_byte enc (16 * c + i).
  Proof.
    intros Hc Hp. unfold generate_batch.
    rewrite (omap_ret _ (fun j => (c + j) mod 2 ^ 128)).
    2:{ intros j Hj.
        assert (0 <= j < 8) by (cbn in Hj; lia).
        unfold plain. destruct (Z.leb_spec 0 (c + j)), (Z.ltb_spec (c + j) (2 ^ 128)); cbn; try lia.
        - rewrite Z.mod_small by lia. reflexivity.
        - destruct Hp as [->|Hp]; [reflexivity|lia]. }
    cbn [obind]. eexists; split; [reflexivity|].
    intros i Hi Hlim. rewrite nth_error_flat16 by assumption.
    assert (Hi8 : 0 <= i / 16 < 8) by lia.
    replace (Z.to_nat i / 16)%nat with (Z.to_nat (i / 16))
      by (rewrite Z2Nat.inj_div by lia; reflexivity).
    replace (Z.to_nat i mod 16)%nat with (Z.to_nat (i mod 16))
      by (rewrite Z2Nat.inj_mod by lia; reflexivity).
    assert (Hn : nth_error (map (fun j => (c + j) mod 2 ^ 128) (zseq 0 8)) (Z.to_nat (i / 16))
                 = Some ((c + i / 16) mod 2 ^ 128)).
    { rewrite nth_error_map. 
      assert (Hz : nth_error (zseq 0 8) (Z.to_nat (i / 16)) = Some (i / 16)).
      { generalize dependent (i / 16). intros z Hz. 
        assert (z = 0 \/ z = 1 \/ z = 2 \/ z = 3 \/ z = 4 \/ z = 5 \/ z = 6 \/ z = 7) as Hz' by lia.
        repeat destruct Hz' as [->|Hz']; try subst; reflexivity. }
      rewrite Hz. reflexivity. }
    rewrite Hn. unfold table_byte.
    rewrite pow132 in Hlim.
    rewrite Z.mod_small by lia.
    replace ((16 * c + i) / 16) with (c + i / 16) by lia.
    replace ((16 * c + i) mod 16) with (i mod 16) by lia. reflexivity.
  Qed.

  Lemma table_byte_some q : exists b, table_byte enc q = Some b.
  Proof.
    unfold table_byte. destruct (nth_error (enc (q / 16)) (Z.to_nat (q mod 16))) eqn:E; eauto.
    exfalso. apply nth_error_None in E. rewrite Henc in E.
    assert (0 <= q mod 16 < 16) by (apply Z.mod_pos_bound; lia). lia.
  Qed.

  Lemma gen_next_some p lo hi g : GInv lo hi g -> lo < hi -> reach p (lo + 1) ->
    exists b g', gen_next p g = Ret (Some b, g') /\ table_byte enc lo = Some b /\ GInv (lo + 1) hi g'.
  Proof.
    intros H Hlt Hp. pose proof (GInv_hi _ _ _ H) as Hhi. destruct H as [He Hlw Hl Hw Hpos Hr Hptr Hbuf].
    unfold gen_next. rewrite ti_geb_pos by assumption. rewrite Hl, Hpos.
    destruct (Z.leb_spec (hi - 1) (lo - 1)); [lia|].
    unfold st_increment, st_increase. unfold gen_table_index in *.
    rewrite plain_ok by (unfold usize_bits; lia). cbn [obind].
    assert (Htw : ti_wf (ti_increase (table_idx (gstate g)) 1)) by (apply ti_increase_wf; assumption).
    assert (Htp : pos (ti_increase (table_idx (gstate g)) 1) = lo).
    { rewrite ti_increase_pos by (auto; lia). rewrite Hpos, Z.mod_small; lia. }
    unfold bytes_per_batch.
    destruct (Z.ltb_spec (128 - 1) (buffer_pointer (gstate g) + 1)) as [Hlong|Hshort]; cbn [obind].
    - (* refresh *)
      set (t := ti_increase (table_idx (gstate g)) 1) in *.
      destruct Htw as [Ha Hb].
      destruct (generate_batch_ok p (aes_index t) Ha) as (buf & Eb & Hbuf').
      { unfold reach, debug_limit in Hp. rewrite pow132 in Hp. unfold pos in Htp.
        destruct Hp; [left; assumption | right; lia]. }
      rewrite He, Eb. cbn [obind].
      assert (Hx : nth_error buf (Z.to_nat (byte_index t)) = table_byte enc lo).
      { rewrite Hbuf'; [f_equal; exact Htp | lia |]. unfold pos in Htp; lia. }
      destruct (table_byte_some lo) as [x Hx'].
      unfold index_buffer. destruct (Z.ltb_spec (byte_index t) 0); [lia|].
      rewrite Hx, Hx'. cbn [obind].
      exists x; eexists; split; [reflexivity|split; [reflexivity|]].
      constructor; cbn [block_cipher last gstate buffer buffer_pointer]; unfold gen_table_index;
        cbn [gstate table_idx]; auto; try lia.
      + unfold ti_wf; split; assumption.
      + intros d Hd Hd1 Hd2. rewrite Hbuf'; unfold pos in Htp; [f_equal; lia | lia | lia].
    - (* inside the buffer *)
      pose proof (Hbuf 0 ltac:(lia) ltac:(lia) ltac:(lia)) as Hx.
      destruct (table_byte_some lo) as [x Hx'].
      rewrite !Z.add_0_r in Hx. rewrite Hx' in Hx.
      unfold index_buffer. destruct (Z.ltb_spec (buffer_pointer (gstate g) + 1) 0); [lia|].
      rewrite Hx. cbn [obind].
      exists x; eexists; split; [reflexivity|split; [exact Hx'|]].
      constructor; cbn [block_cipher last gstate buffer buffer_pointer]; unfold gen_table_index;
        cbn [gstate table_idx]; auto; try lia.
      intros d Hd Hd1 Hd2.
      replace (buffer_pointer (gstate g) + 1 + 1 + d) with (buffer_pointer (gstate g) + 1 + (d + 1)) by lia.
      replace (lo + 1 + d) with (lo + (d + 1)) by lia. apply Hbuf; lia.
  Qed.

  Lemma gen_next_none p lo hi g : GInv lo hi g -> hi <= lo -> gen_next p g = Ret (None, g).
  Proof.
    intros [He Hlw Hl Hw Hpos Hr Hptr Hbuf] Hle.
    unfold gen_next. rewrite ti_geb_pos by assumption. rewrite Hl, Hpos.
    destruct (Z.leb_spec (hi - 1) (lo - 1)); [reflexivity|lia].
  Qed.

  Lemma gen_take_stream p : forall k lo hi g, GInv lo hi g ->
    reach p (Z.min hi (lo + Z.of_nat k)) ->
    exists g', gen_take p g k = Ret (stream enc lo hi k, g')
      /\ GInv (Z.min hi (lo + Z.of_nat k)) hi g'.
  Proof.
    induction k as [|k IH]; intros lo hi g H Hp.
    - exists g. split; [reflexivity|]. pose proof (gi_range _ _ _ H).
      replace (Z.min hi (lo + Z.of_nat 0)) with lo by lia. assumption.
    - pose proof (gi_range _ _ _ H) as Hr.
      destruct (Z.lt_ge_cases lo hi) as [Hlt|Hge].
      + destruct (gen_next_some p lo hi g H Hlt) as (b & g1 & E & Hb & H1).
        { unfold reach in *. destruct Hp; [left; assumption|right; lia]. }
        destruct (IH (lo + 1) hi g1 H1) as (g2 & E2 & H2).
        { replace (lo + 1 + Z.of_nat k) with (lo + Z.of_nat (S k)) by lia. assumption. }
        exists g2. split.
        * cbn [gen_take]. rewrite E. cbn [obind]. rewrite E2. cbn [obind].
          unfold stream. cbn [zseq map]. destruct (Z.ltb_spec lo hi); [|lia]. rewrite Hb. reflexivity.
        * replace (lo + Z.of_nat (S k)) with (lo + 1 + Z.of_nat k) by lia. assumption.
      + destruct (IH lo hi g H) as (g2 & E2 & H2).
        { replace (Z.min hi (lo + Z.of_nat k)) with (Z.min hi (lo + Z.of_nat (S k))) by lia. assumption. }
        exists g2. split.
        * cbn [gen_take]. rewrite (gen_next_none p lo hi g H) by lia. cbn [obind]. rewrite E2. cbn [obind].
          unfold stream. cbn [zseq map]. destruct (Z.ltb_spec lo hi); [lia|].
          f_equal. f_equal. f_equal.
          assert (G : forall n a b, hi <= a -> hi <= b ->
            map (fun q => if q <? hi then table_byte enc q else None) (zseq a n)
            = map (fun q => if q <? hi then table_byte enc q else None) (zseq b n)).
          { induction n as [|n IHn]; intros a b Ha Hb; cbn [zseq map]; [reflexivity|].
            destruct (Z.ltb_spec a hi), (Z.ltb_spec b hi); try lia. f_equal. apply IHn; lia. }
          apply G; lia.
        * replace (Z.min hi (lo + Z.of_nat (S k))) with (Z.min hi (lo + Z.of_nat k)) by lia. assumption.
  Qed.

  (** ** remaining bytes *)
  Lemma gen_remaining_exact lo hi g : GInv lo hi g -> hi - lo < 2 ^ 128 - 15 ->
    gen_remaining_bytes g = Ret (hi - lo).
  Proof.
    intros [He Hlw Hl Hw Hpos Hr Hptr Hbuf] Hs. unfold gen_remaining_bytes.
    rewrite ti_distance_exact by (auto; lia). f_equal. lia.
  Qed.
  Lemma gen_remaining_sat lo hi g : GInv lo hi g -> 2 ^ 128 - 15 <= hi - lo ->
    exists d, gen_remaining_bytes g = Ret d /\ 2 ^ 128 - 16 <= d <= 2 ^ 128 - 1.
  Proof.
    intros [He Hlw Hl Hw Hpos Hr Hptr Hbuf] Hs. unfold gen_remaining_bytes.
    destruct (ti_distance_sat (last g) (gen_table_index g) Hlw Hw) as (d & E & Hd); [lia|].
    rewrite E. eexists; split; [reflexivity|lia].
  Qed.

  (** ** forks *)
  Lemma fork_child_ok p first nb i : ti_wf first -> 0 < pos first -> 0 < nb -> 0 <= i ->
    nb * (i + 1) < 2 ^ 64 -> pos first + nb * (i + 1) < table_size ->
    exists g, fork_child p enc first nb i = Ret g
      /\ GInv (pos first + nb * i) (pos first + nb * (i + 1)) g.
  Proof.
    intros Hf Hf0 Hnb Hi Hn Hsz. unfold fork_child.
    assert (0 <= nb * i) by lia. assert (nb * i + nb = nb * (i + 1)) by lia.
    assert (i + 1 <= nb * (i + 1)) by nia.
    repeat (rewrite plain_ok by (unfold usize_bits; lia); cbn [obind]).
    pose proof (pos_range first Hf).
    assert (Hs : pos (ti_increase first (nb * i)) = pos first + nb * i)
      by (rewrite ti_increase_pos by (auto; lia); apply Z.mod_small; lia).
    assert (He : pos (ti_increase first (nb * (i + 1))) = pos first + nb * (i + 1))
      by (rewrite ti_increase_pos by (auto; lia); apply Z.mod_small; lia).
    destruct (from_block_cipher_ok (ti_increase first (nb * i)) (ti_increase first (nb * (i + 1)))
               (ti_increase_wf _ _ Hf) (ti_increase_wf _ _ Hf)) as (g & E & H3).
    { rewrite Hs, He. lia. }
    exists g. rewrite Hs, He in H3. split; assumption.
  Qed.

  (** Complete description of a fork whose sizes do not overflow. *)
  Lemma try_fork_spec p lo hi g n nb : GInv lo hi g -> 0 <= n -> 0 <= nb ->
    n * nb < 2 ^ 64 -> lo - 1 + n * nb < table_size ->
    (n = 0 /\ try_fork p g n nb = Ret (ForkErr ZeroChildrenCount)) \/
    (0 < n /\ nb = 0 /\ try_fork p g n nb = Ret (ForkErr ZeroBytesPerChild)) \/
    (0 < n /\ 0 < nb /\ hi - lo < n * nb /\ try_fork p g n nb = Ret (ForkErr ForkTooLarge)) \/
    (0 < n /\ 0 < nb /\ n * nb <= hi - lo /\
     exists child parent, try_fork p g n nb = Ret (ForkOk child n parent) /\
       GInv (lo + n * nb) hi parent /\
       forall i, 0 <= i < n -> exists c, child i = Ret c /\ GInv (lo + nb * i) (lo + nb * (i + 1)) c).
  Proof.
    intros H Hn Hnb Hov Hsz. pose proof (GInv_hi _ _ _ H) as Hhi. unfold try_fork.
    destruct (Z.eqb_spec n 0) as [->|Hn0]; [left; auto|right].
    destruct (Z.eqb_spec nb 0) as [->|Hnb0]; [left; repeat split; auto; lia|right].
    destruct H as [He Hlw Hl Hw Hpos Hr Hptr Hbuf].
    assert (0 < n * nb) by nia.
    unfold is_fork_in_bound. rewrite plain_ok by (unfold usize_bits; lia). cbn [obind].
    rewrite ti_leb_pos by (auto using ti_increase_wf).
    rewrite ti_increase_pos by (auto; lia). rewrite Hpos, Hl.
    rewrite Z.mod_small by lia.
    destruct (Z.leb_spec (lo - 1 + n * nb) (hi - 1)) as [Hin|Hout]; cbn [negb].
    2:{ left. repeat split; lia. }
    right. repeat split; try lia.
    rewrite plain_ok by (unfold usize_bits; lia). cbn [obind].
    assert (Hfw : ti_wf (ti_incremented (gen_table_index g))) by (apply ti_increase_wf; assumption).
    assert (Hfp : pos (ti_incremented (gen_table_index g)) = lo).
    { unfold ti_incremented. rewrite ti_increase_pos by (auto; lia). rewrite Hpos, Z.mod_small; lia. }
    assert (Hend : lo + n * nb < table_size) by lia.
    assert (Hnp : pos (ti_increase (ti_incremented (gen_table_index g)) (nb * n)) = lo + n * nb).
    { rewrite ti_increase_pos by (auto; lia). rewrite Hfp, Z.mod_small; lia. }
    destruct (st_new_ok _ (ti_increase_wf _ (nb * n) Hfw)) as (st & Est & Hsw & Hsp & Hptr'); [lia|].
    rewrite Est. cbn [obind].
    eexists; eexists; split; [reflexivity|]. split.
    - constructor; cbn [block_cipher last gstate buffer]; unfold gen_table_index; cbn [gstate]; auto; try lia.
    - intros i Hi. rewrite <- Hfp. rewrite He.
      assert (nb * (i + 1) <= nb * n) by nia.
      apply fork_child_ok; auto; lia.
  Qed.

  (** ** inversion: whatever the profile, a step that returns follows the table *)
  Lemma omap_plain_debug c : forall l cs, omap (fun j => plain Debug 128 (c + j)) l = Ret cs ->
    forall j, In j l -> c + j < 2 ^ 128.
  Proof.
    induction l as [|a l IH]; intros cs E j; [intros []|].
    cbn [omap] in E. destruct (plain Debug 128 (c + a)) eqn:Ea; cbn [obind] in E; [|discriminate].
    destruct (omap (fun j => plain Debug 128 (c + j)) l) eqn:El; cbn [obind] in E; [|discriminate].
    apply plain_debug_inv in Ea. intros [<-|Hj]; [lia|]. eapply IH; [reflexivity|assumption].
  Qed.

  Lemma gen_next_ret p lo hi g o g' : GInv lo hi g -> gen_next p g = Ret (o, g') ->
    (lo < hi /\ o = table_byte enc lo /\ GInv (lo + 1) hi g') \/ (lo = hi /\ o = None /\ g' = g).
  Proof.
    intros H E. pose proof (gi_range _ _ _ H) as Hr.
    destruct (Z.lt_ge_cases lo hi) as [Hlt|Hge].
    2:{ rewrite (gen_next_none p lo hi g H Hge) in E. injection E as <- <-. right. repeat split; lia. }
    left. split; [assumption|].
    destruct p.
    2:{ destruct (gen_next_some Release lo hi g H Hlt) as (b & g1 & E1 & Hb & H1); [left; reflexivity|].
        rewrite E1 in E. injection E as <- <-. auto. }
    destruct (Z.le_gt_cases (lo + 1) debug_limit) as [Hd|Hd].
    { destruct (gen_next_some Debug lo hi g H Hlt) as (b & g1 & E1 & Hb & H1); [right; assumption|].
      rewrite E1 in E. injection E as <- <-. auto. }
    (* beyond the limit no refresh can succeed: the byte comes from the buffer *)
    assert (E' : gen_next Release g = Ret (o, g')).
    { revert E. destruct H as [He Hlw Hl Hw Hpos _ Hptr Hbuf].
      unfold gen_next. rewrite ti_geb_pos by assumption. rewrite Hl, Hpos.
      destruct (Z.leb_spec (hi - 1) (lo - 1)); [auto|].
      unfold st_increment, st_increase. unfold gen_table_index in *.
      rewrite !plain_ok by (unfold usize_bits; lia). cbn [obind].
      assert (Htw : ti_wf (ti_increase (table_idx (gstate g)) 1)) by (apply ti_increase_wf; assumption).
      assert (Htp : pos (ti_increase (table_idx (gstate g)) 1) = lo).
      { rewrite ti_increase_pos by (auto; lia). rewrite Hpos, Z.mod_small; lia. }
      destruct (Z.ltb_spec (bytes_per_batch - 1) (buffer_pointer (gstate g) + 1)); cbn [obind]; [|auto].
      unfold generate_batch at 1.
      destruct (omap _ _) as [cs|] eqn:Eo; cbn [obind]; [|discriminate].
      exfalso. pose proof (omap_plain_debug _ _ _ Eo 7 ltac:(cbn; tauto)).
      unfold debug_limit in Hd. rewrite pow132 in Hd. unfold ti_wf, pos in *. lia. }
    destruct (gen_next_some Release lo hi g H Hlt) as (b & g1 & E1 & Hb & H1); [left; reflexivity|].
    rewrite E1 in E'. injection E' as <- <-. auto.
  Qed.

  Lemma GInv_unique lo hi g : GInv lo hi g -> lo = next_pos g /\ hi = bound_pos g.
  Proof. intros [He Hlw Hl Hw Hpos Hr Hptr Hbuf]. unfold next_pos, bound_pos. lia. Qed.

  Lemma reachable_inv p g : reachable p enc g -> GInv (next_pos g) (bound_pos g) g.
  Proof.
    assert (K : forall lo hi g, GInv lo hi g -> GInv (next_pos g) (bound_pos g) g).
    { intros lo hi g0 H. destruct (GInv_unique _ _ _ H) as [<- <-]. assumption. }
    induction 1 as [start bound g Hs Hb E | g b g' _ IH E
                   | g n nb child count parent _ IH Hn Hnb Hov Hsz E
                   | g n nb child count parent i c _ IH Hn Hnb Hov Hsz E Hi Ec].
    - pose proof (from_block_cipher_inv _ _ _ Hs Hb E) as H.
      destruct (from_block_cipher_ok start bound Hs Hb H) as (g0 & E0 & H0).
      rewrite E in E0. injection E0 as <-. eauto.
    - destruct (gen_next_ret _ _ _ _ _ _ IH E) as [(_ & _ & H)|(_ & _ & ->)]; eauto.
    - assert (Hsz' : next_pos g - 1 + n * nb < table_size) by (unfold next_pos; lia).
      destruct (try_fork_spec p _ _ _ n nb IH Hn Hnb Hov Hsz') as
        [(_ & E')|[(_ & _ & E')|[(_ & _ & _ & E')|(_ & _ & _ & child' & parent' & E' & Hp & _)]]];
        rewrite E in E'; try discriminate.
      injection E' as -> -> ->. eauto.
    - assert (Hsz' : next_pos g - 1 + n * nb < table_size) by (unfold next_pos; lia).
      destruct (try_fork_spec p _ _ _ n nb IH Hn Hnb Hov Hsz') as
        [(_ & E')|[(_ & _ & E')|[(_ & _ & _ & E')|(_ & _ & _ & child' & parent' & E' & _ & Hc)]]];
        rewrite E in E'; try discriminate.
      injection E' as -> -> ->. destruct (Hc i Hi) as (c' & Ec' & Hc').
      rewrite Ec in Ec'. injection Ec' as <-. eauto.
  Qed.

  (** ** concatenation of streams *)
  Lemma zseq_app n m : forall a, zseq a (n + m) = zseq a n ++ zseq (a + Z.of_nat n) m.
  Proof.
    induction n as [|n IH]; intros a; cbn [Nat.add zseq app]; [f_equal; lia|].
    rewrite IH. f_equal. f_equal. f_equal. lia.
  Qed.

  Lemma stream_app lo hi n m : stream enc lo hi (n + m) = stream enc lo hi n ++ stream enc (lo + Z.of_nat n) hi m.
  Proof. unfold stream. rewrite zseq_app, map_app. reflexivity. Qed.

  Lemma stream_hi lo hi hi' n : lo + Z.of_nat n <= hi -> lo + Z.of_nat n <= hi' ->
    stream enc lo hi n = stream enc lo hi' n.
  Proof.
    revert lo; induction n as [|n IH]; intros lo H H'; [reflexivity|].
    unfold stream in *. cbn [zseq map]. rewrite IH by lia.
    destruct (Z.ltb_spec lo hi), (Z.ltb_spec lo hi'); try lia. reflexivity.
  Qed.

  Lemma take_concat_children p lo nb child : 0 <= nb -> forall k a, 0 <= a ->
    (forall i, a <= i < a + Z.of_nat k -> exists c, child i = Ret c /\
        GInv (lo + nb * i) (lo + nb * (i + 1)) c) ->
    reach p (lo + nb * (a + Z.of_nat k)) ->
    exists cs outs, omap child (zseq a k) = Ret cs /\
      omap (fun c => gen_take p c (Z.to_nat nb)) cs = Ret outs /\
      concat (map fst outs) = stream enc (lo + nb * a) (lo + nb * (a + Z.of_nat k)) (k * Z.to_nat nb).
  Proof.
    intros Hnb. induction k as [|k IH]; intros a Ha Hc Hp.
    - exists [], []. cbn. auto.
    - destruct (Hc a) as (c & Ec & Hcg); [lia|].
      destruct (IH (a + 1)) as (cs & outs & E1 & E2 & E3); [lia | intros; apply Hc; lia | |].
      { replace (a + 1 + Z.of_nat k) with (a + Z.of_nat (S k)) by lia. assumption. }
      destruct (gen_take_stream p (Z.to_nat nb) _ _ _ Hcg) as (g' & Et & _).
      { unfold reach in *. destruct Hp; [left; assumption|right]. nia. }
      exists (c :: cs), ((stream enc (lo + nb * a) (lo + nb * (a + 1)) (Z.to_nat nb), g') :: outs).
      cbn [zseq omap]. rewrite Ec. cbn [obind]. rewrite E1. cbn [obind].
      split; [reflexivity|]. split.
      + cbn [omap]. rewrite Et. cbn [obind]. rewrite E2. reflexivity.
      + cbn [map concat fst]. rewrite E3.
        replace (S k * Z.to_nat nb)%nat with (Z.to_nat nb + k * Z.to_nat nb)%nat by lia.
        rewrite stream_app. f_equal.
        * apply stream_hi; nia.
        * f_equal; lia.
  Qed.
End Gen.
