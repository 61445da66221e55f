(** * Proof that the Karatsuba product agrees with the schoolbook product *)
From Verif Require Import Base Word WordFacts NegaRing PolySpec PolyModel PolyProofs.

Section Kara.
Context (p : profile) (w : Z) (Hw : 0 <= w).
Notation words := (Forall (is_word w)).

Lemma full_row_ok i a : forall q j acc, (i + j + length q <= length acc)%nat -> words acc ->
  exists acc', full_row w acc i a j q = Ret acc' /\ length acc' = length acc /\ words acc' /\
    forall k, eqm (2 ^ w) (zc acc' k) (zc acc k + a * zc q (k - Z.of_nat i - Z.of_nat j)).
Proof.
  induction q as [|b q IH]; intros j acc Hl Hwd.
  - exists acc. cbn [full_row]. repeat split; auto. intros k. rewrite zc_nil. apply eqm_eq. ring.
  - cbn [length] in Hl. cbn [full_row].
    destruct (upd_ok acc (i + j) (fun e => wadd w e (wmul w a b))) as (acc1 & -> & Hl1 & Hz1 & HP); [lia|].
    cbn [obind].
    destruct (IH (S j) acc1) as (acc2 & -> & Hl2 & Hw2 & Hz2); [lia|apply HP; [assumption|intros; apply wadd_word; assumption]|].
    exists acc2. split; [reflexivity|]. split; [lia|]. split; [assumption|]. intros k. rewrite Hz2, Hz1, zc_cons.
    replace (k - Z.of_nat i - Z.of_nat j - 1) with (k - Z.of_nat i - Z.of_nat (S j)) by lia.
    destruct (Z.eqb_spec k (Z.of_nat (i + j))), (Z.eqb_spec (k - Z.of_nat i - Z.of_nat j) 0); try lia.
    + rewrite wadd_eqm, wmul_eqm. apply eqm_eq. ring.
    + apply eqm_eq. ring.
Qed.

Lemma full_loop_ok q : forall l i acc, (i + length l + length q <= length acc + 1)%nat -> words acc ->
  exists acc', full_loop w acc i l q = Ret acc' /\ length acc' = length acc /\ words acc' /\
    forall k, eqm (2 ^ w) (zc acc' k) (zc acc k + full l q (k - Z.of_nat i)).
Proof.
  induction l as [|a l IH]; intros i acc Hl Hwd.
  - exists acc. cbn [full_loop]. repeat split; auto. intros k. rewrite full_nil. apply eqm_eq. ring.
  - cbn [length] in Hl. cbn [full_loop].
    destruct (full_row_ok i a q 0 acc) as (acc1 & -> & Hl1 & Hw1 & Hz1); [lia|assumption|]. cbn [obind].
    destruct (IH (S i) acc1) as (acc2 & -> & Hl2 & Hw2 & Hz2); [lia|assumption|].
    exists acc2. split; [reflexivity|]. split; [lia|]. split; [assumption|]. intros k.
    rewrite Hz2, Hz1, full_cons. change (Z.of_nat 0) with 0. rewrite Z.sub_0_r.
    replace (k - Z.of_nat i - 1) with (k - Z.of_nat (S i)) by lia. apply eqm_eq. ring.
Qed.

(** ** Sub-ranges *)
Lemma get_sub_ok l a b : (a <= b)%nat -> (b <= length l)%nat ->
  exists s, get_sub l a b = Ret s /\ length s = (b - a)%nat /\ (words l -> words s) /\
    forall k, zc s k = if (0 <=? k) && (k <? Z.of_nat (b - a)) then zc l (k + Z.of_nat a) else 0.
Proof.
  intros Hab Hb. unfold get_sub.
  rewrite (proj2 (Nat.leb_le a b)) by assumption. rewrite (proj2 (Nat.leb_le b (length l))) by assumption.
  cbn [andb]. eexists. split; [reflexivity|]. split; [rewrite firstn_length, skipn_length; lia|]. split.
  { intros H. apply Forall_firstn, Forall_skipn. assumption. }
  intros k. rewrite zc_firstn. destruct (Z.leb_spec 0 k), (Z.ltb_spec k (Z.of_nat (b - a))); cbn [andb]; auto.
  - apply zc_skipn. assumption.
  - apply zc_out. lia.
Qed.

Lemma firstn_skipn_parts (l : list Z) h : (h <= length l)%nat ->
  get_sub l 0 h = Ret (firstn h l) /\ get_sub l h (length l) = Ret (skipn h l).
Proof.
  intros H. unfold get_sub. rewrite (proj2 (Nat.leb_le h (length l))) by assumption.
  rewrite Nat.leb_refl. cbn. rewrite Nat.sub_0_r. split; [reflexivity|].
  rewrite <- skipn_length, firstn_all. reflexivity.
Qed.

Lemma upd_sub_ok l a b f s' : (a <= b)%nat -> (b <= length l)%nat ->
  (forall s, get_sub l a b = Ret s -> f s = Ret s') -> length s' = (b - a)%nat ->
  exists l', upd_sub l a b f = Ret l' /\ length l' = length l /\ (words l -> words s' -> words l') /\
    forall k, zc l' k = if (Z.of_nat a <=? k) && (k <? Z.of_nat b) then zc s' (k - Z.of_nat a) else zc l k.
Proof.
  intros Hab Hb Hf Hs. unfold upd_sub.
  destruct (get_sub_ok l a b Hab Hb) as (s & E & _). rewrite E. cbn [obind]. rewrite (Hf s E). cbn [obind].
  eexists. split; [reflexivity|]. split.
  { rewrite !app_length, firstn_length, skipn_length. lia. } split.
  { intros H1 H2. apply Forall_app. split; [apply Forall_firstn; assumption|].
    apply Forall_app. split; [assumption|apply Forall_skipn; assumption]. }
  intros k. rewrite !zc_app, zc_firstn, firstn_length, Nat.min_l, Hs by lia.
  destruct (Z.leb_spec (Z.of_nat a) k), (Z.ltb_spec k (Z.of_nat b)), (Z.ltb_spec k (Z.of_nat a)); cbn [andb]; try lia.
  - rewrite (zc_out (skipn _ _)) by lia. lia.
  - rewrite (zc_out s') by lia. rewrite zc_skipn by lia. rewrite !Z.add_0_l. f_equal. lia.
  - rewrite (zc_out s') by lia. rewrite (zc_out (skipn _ _)) by lia. lia.
Qed.

Lemma words_map2_wadd x y : words (map2 (wadd w) x y).
Proof.
  apply Forall_forall. intros e He. apply In_nth_error in He. destruct He as [i Hi].
  rewrite nth_error_map2 in Hi. destruct (nth_error x i), (nth_error y i); try discriminate.
  injection Hi as <-. apply wadd_word. assumption.
Qed.
Lemma words_map2_wsub x y : words (map2 (wsub w) x y).
Proof.
  apply Forall_forall. intros e He. apply In_nth_error in He. destruct He as [i Hi].
  rewrite nth_error_map2 in Hi. destruct (nth_error x i), (nth_error y i); try discriminate.
  injection Hi as <-. apply wsub_word. assumption.
Qed.

Lemma zip_snd (s y : list Z) : length s = length y -> zip_update (fun _ ab => ab) s y = y.
Proof.
  revert y. induction s as [|a s IH]; intros [|b y] H; try discriminate; [reflexivity|].
  cbn. f_equal. apply IH. injection H as H. assumption.
Qed.

Lemma fill_sub_ok s x y : length s = length x -> length s = length y ->
  fill_with_wrapping_sub_ p w s x y = Ret (map2 (wsub w) x y).
Proof.
  intros Hx Hy. unfold fill_with_wrapping_sub_. rewrite !ck_dim_eq_ok by assumption. cbn [obind].
  rewrite zip_snd; [reflexivity|]. rewrite map2_length. lia.
Qed.
Lemma fill_add_ok s x y : length s = length x -> length s = length y ->
  fill_with_wrapping_add_ p w s x y = Ret (map2 (wadd w) x y).
Proof.
  intros Hx Hy. unfold fill_with_wrapping_add_. rewrite !ck_dim_eq_ok by assumption. cbn [obind].
  rewrite zip_snd; [reflexivity|]. rewrite map2_length. lia.
Qed.

Lemma upd_sub_add l a b x : (a <= b)%nat -> (b <= length l)%nat -> length x = (b - a)%nat -> words l ->
  exists l', upd_sub l a b (fun s => update_with_wrapping_add_ p w s x) = Ret l' /\ length l' = length l /\ words l' /\
    forall k, eqm (2 ^ w) (zc l' k) (zc l k + zc x (k - Z.of_nat a)).
Proof.
  intros Hab Hb Hx Hwd.
  destruct (get_sub_ok l a b Hab Hb) as (s & E & Hs & _ & Hzs).
  destruct (upd_sub_ok l a b (fun s => update_with_wrapping_add_ p w s x) (map2 (wadd w) s x)) as (l' & E' & Hl & HP & Hz); auto.
  - intros s0 E0. rewrite E in E0. injection E0 as <-. unfold update_with_wrapping_add_.
    rewrite ck_dim_eq_ok by lia. cbn [obind]. rewrite zip_update_map2 by lia. reflexivity.
  - rewrite map2_length. lia.
  - exists l'. split; [assumption|]. split; [assumption|]. split; [apply HP; [assumption|apply words_map2_wadd]|].
    intros k. rewrite Hz.
    destruct (Z.leb_spec (Z.of_nat a) k), (Z.ltb_spec k (Z.of_nat b)); cbn [andb];
      try (rewrite (zc_out x) by lia; apply eqm_eq; lia).
    rewrite zc_map2 by (try apply wadd_00; lia). rewrite wadd_eqm. rewrite Hzs.
    destruct (Z.leb_spec 0 (k - Z.of_nat a)), (Z.ltb_spec (k - Z.of_nat a) (Z.of_nat (b - a))); cbn [andb]; try lia.
    replace (k - Z.of_nat a + Z.of_nat a) with k by lia. reflexivity.
Qed.

Lemma upd_sub_sub l a b x : (a <= b)%nat -> (b <= length l)%nat -> length x = (b - a)%nat -> words l ->
  exists l', upd_sub l a b (fun s => update_with_wrapping_sub_ p w s x) = Ret l' /\ length l' = length l /\ words l' /\
    forall k, eqm (2 ^ w) (zc l' k) (zc l k - zc x (k - Z.of_nat a)).
Proof.
  intros Hab Hb Hx Hwd.
  destruct (get_sub_ok l a b Hab Hb) as (s & E & Hs & _ & Hzs).
  destruct (upd_sub_ok l a b (fun s => update_with_wrapping_sub_ p w s x) (map2 (wsub w) s x)) as (l' & E' & Hl & HP & Hz); auto.
  - intros s0 E0. rewrite E in E0. injection E0 as <-. unfold update_with_wrapping_sub_.
    rewrite ck_dim_eq_ok by lia. cbn [obind]. rewrite zip_update_map2 by lia. reflexivity.
  - rewrite map2_length. lia.
  - exists l'. split; [assumption|]. split; [assumption|]. split; [apply HP; [assumption|apply words_map2_wsub]|].
    intros k. rewrite Hz.
    destruct (Z.leb_spec (Z.of_nat a) k), (Z.ltb_spec k (Z.of_nat b)); cbn [andb];
      try (rewrite (zc_out x) by lia; apply eqm_eq; lia).
    rewrite zc_map2 by (try apply wsub_00; lia). rewrite wsub_eqm. rewrite Hzs.
    destruct (Z.leb_spec 0 (k - Z.of_nat a)), (Z.ltb_spec (k - Z.of_nat a) (Z.of_nat (b - a))); cbn [andb]; try lia.
    replace (k - Z.of_nat a + Z.of_nat a) with k by lia. reflexivity.
Qed.

Lemma upd_sub_fill n a b x y : (a <= b)%nat -> (b <= n)%nat -> length x = (b - a)%nat -> length y = (b - a)%nat ->
  exists l', upd_sub (repeat 0 n) a b (fun s => fill_with_wrapping_sub_ p w s x y) = Ret l' /\ length l' = n /\ words l' /\
    forall k, eqm (2 ^ w) (zc l' k) (zc x (k - Z.of_nat a) - zc y (k - Z.of_nat a)).
Proof.
  intros Hab Hb Hx Hy.
  destruct (get_sub_ok (repeat 0 n) a b Hab) as (s & E & Hs & _ & Hzs); [rewrite repeat_length; assumption|].
  destruct (upd_sub_ok (repeat 0 n) a b (fun s => fill_with_wrapping_sub_ p w s x y) (map2 (wsub w) x y)) as (l' & E' & Hl & HP & Hz); auto.
  - rewrite repeat_length. assumption.
  - intros s0 E0. rewrite E in E0. injection E0 as <-. apply fill_sub_ok; lia.
  - rewrite map2_length. lia.
  - rewrite repeat_length in Hl. exists l'. split; [assumption|]. split; [assumption|]. split.
    { apply HP; [|apply words_map2_wsub]. apply Forall_forall. intros e He. apply repeat_spec in He. subst.
      split; [lia|apply pow2_pos; assumption]. }
    intros k. rewrite Hz.
    destruct (Z.leb_spec (Z.of_nat a) k), (Z.ltb_spec k (Z.of_nat b)); cbn [andb];
      try (rewrite (zc_out x), (zc_out y), zc_repeat0 by lia; apply eqm_eq; lia).
    rewrite zc_map2 by (try apply wsub_00; lia). apply wsub_eqm.
Qed.

Lemma words_zeros n : words (repeat 0 n).
Proof.
  apply Forall_forall. intros e He. apply repeat_spec in He. subst. split; [lia|apply pow2_pos; assumption].
Qed.

(** The product of two split polynomials. *)
Lemma full_split l q h k : (h <= length l)%nat -> (h <= length q)%nat ->
  full l q k = full (firstn h l) (firstn h q) k
    + full (firstn h l) (skipn h q) (k - Z.of_nat h) + full (skipn h l) (firstn h q) (k - Z.of_nat h)
    + full (skipn h l) (skipn h q) (k - Z.of_nat h - Z.of_nat h).
Proof.
  intros Hl Hq. rewrite <- (firstn_skipn h l) at 1. rewrite <- (firstn_skipn h q) at 1.
  rewrite full_app, !full_app_r, !firstn_length, !Nat.min_l by assumption. lia.
Qed.

Lemma full_sum l0 l1 q0 q1 k : length l0 = length l1 -> length q0 = length q1 ->
  eqm (2 ^ w) (full (map2 (wadd w) l0 l1) (map2 (wadd w) q0 q1) k)
    (full l0 q0 k + full l0 q1 k + full l1 q0 k + full l1 q1 k).
Proof.
  intros Hl Hq.
  rewrite (full_add_l (2 ^ w) l0 l1 (map2 (wadd w) l0 l1)).
  - rewrite (full_add_r (2 ^ w) l0 q0 q1 (map2 (wadd w) q0 q1)), (full_add_r (2 ^ w) l1 q0 q1 (map2 (wadd w) q0 q1)).
    + apply eqm_eq. ring.
    + intros j. rewrite zc_map2 by (auto using wadd_00). apply wadd_eqm.
    + intros j. rewrite zc_map2 by (auto using wadd_00). apply wadd_eqm.
  - assumption.
  - intros j. rewrite zc_map2 by (auto using wadd_00). apply wadd_eqm.
  - rewrite map2_length. lia.
Qed.

Lemma induction_karatsuba_ok : forall f fuel l q, (f <= fuel)%nat ->
  length l = (32 * 2 ^ f)%nat -> length q = (32 * 2 ^ f)%nat ->
  exists r, induction_karatsuba p w fuel (repeat 0 (2 * length l)) l q = Ret r /\
    length r = (2 * length l)%nat /\ words r /\ forall k, eqm (2 ^ w) (zc r k) (full l q k).
Proof.
  induction f as [|f IH]; intros fuel l q Hfuel Hl Hq.
  - cbn [Nat.pow] in Hl, Hq. assert (Hl' : length l = KARATSUBA_STOP) by (rewrite Hl; reflexivity).
    destruct (full_loop_ok q l 0 (repeat 0 (2 * length l))) as (r & E & Hlr & Hwr & Hz).
    { rewrite repeat_length. lia. }
    { apply words_zeros. }
    exists r. rewrite repeat_length in Hlr. split; [|split; [assumption|split; [assumption|]]].
    + destruct fuel; unfold induction_karatsuba at 1; fold induction_karatsuba;
        destruct (Nat.eqb_spec (length l) KARATSUBA_STOP) as [_|Hne]; [exact E|contradiction|exact E|contradiction].
    + intros k. rewrite Hz, zc_repeat0. change (Z.of_nat 0) with 0. rewrite Z.sub_0_r. apply eqm_eq. ring.
  - destruct fuel as [|fuel]; [lia|]. rewrite Nat.pow_succ_r' in Hl, Hq.
    assert (Hpos : (1 <= 2 ^ f)%nat) by (clear; induction f; cbn; lia).
    set (h := (32 * 2 ^ f)%nat) in *.
    assert (Hlh : length l = (2 * h)%nat) by lia. assert (Hqh : length q = (2 * h)%nat) by lia.
    assert (Hh : (32 <= h)%nat) by lia. clearbody h. clear Hpos Hl Hq.
    cbn [induction_karatsuba]. rewrite Hlh. unfold KARATSUBA_STOP.
    destruct (Nat.eqb_spec (2 * h) 32) as [E|_]; [lia|].
    rewrite !repeat_length.
    replace (Nat.div (2 * (2 * h)) 2) with (2 * h)%nat by (apply Nat.div_unique with 0%nat; lia).
    replace (Nat.div (2 * (2 * h)) 4) with h by (apply Nat.div_unique with 0%nat; lia).
    replace (Nat.div (3 * (2 * (2 * h))) 4) with (3 * h)%nat by (apply Nat.div_unique with 0%nat; lia).
    destruct (firstn_skipn_parts l h ltac:(lia)) as [El0 El1]. rewrite Hlh in El1.
    destruct (firstn_skipn_parts q h ltac:(lia)) as [Eq0 Eq1]. rewrite Hqh in Eq1.
    rewrite El0, Eq0, El1, Eq1. cbn [obind].
    assert (Ll0 : length (firstn h l) = h) by (rewrite firstn_length; lia).
    assert (Lq0 : length (firstn h q) = h) by (rewrite firstn_length; lia).
    assert (Ll1 : length (skipn h l) = h) by (rewrite skipn_length; lia).
    assert (Lq1 : length (skipn h q) = h) by (rewrite skipn_length; lia).
    pose proof (fun k => full_split l q h k ltac:(lia) ltac:(lia)) as Hsplit.
    set (l0 := firstn h l) in *. set (l1 := skipn h l) in *. set (q0 := firstn h q) in *. set (q1 := skipn h q) in *.
    clearbody l0 l1 q0 q1.
    destruct (IH fuel l0 q0 ltac:(lia) Ll0 Lq0) as (a0 & E0 & La0 & Wa0 & Ha0). rewrite Ll0 in E0, La0.
    destruct (IH fuel l1 q1 ltac:(lia) Ll1 Lq1) as (a1 & E1 & La1 & Wa1 & Ha1). rewrite Ll1 in E1, La1.
    rewrite E0, E1. cbn [obind].
    rewrite !fill_add_ok by (rewrite repeat_length; lia). cbn [obind].
    destruct (IH fuel (map2 (wadd w) l0 l1) (map2 (wadd w) q0 q1) ltac:(lia)) as (a2 & E2 & La2 & Wa2 & Ha2).
    { rewrite map2_length. lia. } { rewrite map2_length. lia. }
    rewrite map2_length, Ll0, Ll1, Nat.min_id in E2, La2. rewrite E2. cbn [obind].
    destruct (upd_sub_fill (2 * (2 * h)) h (3 * h) a2 a0) as (r1 & -> & Lr1 & Wr1 & Hr1); [lia|lia|lia|lia|]. cbn [obind].
    destruct (upd_sub_sub r1 h (3 * h) a1) as (r2 & -> & Lr2 & Wr2 & Hr2); [lia|lia|lia|assumption|]. cbn [obind].
    destruct (upd_sub_add r2 0 (2 * h) a0) as (r3 & -> & Lr3 & Wr3 & Hr3); [lia|lia|lia|assumption|]. cbn [obind].
    destruct (upd_sub_add r3 (2 * h) (2 * (2 * h)) a1) as (r4 & -> & Lr4 & Wr4 & Hr4); [lia|lia|lia|assumption|].
    exists r4. split; [reflexivity|]. split; [lia|]. split; [assumption|]. intros k.
    rewrite Hr4, Hr3, Hr2, Hr1, Hsplit, !Ha0, !Ha1, Ha2, full_sum by congruence.
    replace (k - Z.of_nat (2 * h)) with (k - Z.of_nat h - Z.of_nat h) by lia.
    change (Z.of_nat 0) with 0. rewrite Z.sub_0_r. apply eqm_eq. ring.
Qed.

Lemma log2_64 f : is_pow2 (64 * 2 ^ f) = true.
Proof.
  unfold is_pow2. replace (64 * 2 ^ f)%nat with (2 ^ (6 + f))%nat by (rewrite Nat.pow_add_r; reflexivity).
  rewrite Nat.log2_pow2 by lia. apply Nat.eqb_refl.
Qed.

Lemma karatsuba_ok f fuel self l q : (f <= fuel)%nat ->
  length l = (64 * 2 ^ f)%nat -> length q = length l -> length self = length l ->
  fill_with_karatsuba_mul_ p w fuel self l q = Ret (nega w l q).
Proof.
  intros Hfuel Hl Hq Hs. unfold fill_with_karatsuba_mul_.
  rewrite !ck_dim_eq_ok by congruence. cbn [obind].
  assert (Ea : match p with Debug => assert_ (is_pow2 (length l)) | Release => Ret tt end = Ret tt).
  { destruct p; [|reflexivity]. rewrite Hl, log2_64. reflexivity. }
  rewrite Ea. cbn [obind]. clear Ea. rewrite Hs.
  assert (Hpos : (1 <= 2 ^ f)%nat) by (clear; induction f; cbn; lia).
  set (h := (32 * 2 ^ f)%nat) in *.
  assert (Hlh : length l = (2 * h)%nat) by lia. assert (Hqh : length q = (2 * h)%nat) by lia.
  assert (Hh : (32 <= h)%nat) by lia.
  rewrite Hlh. replace (Nat.div (2 * h) 2) with h by (apply Nat.div_unique with 0%nat; lia).
  destruct (firstn_skipn_parts l h ltac:(lia)) as [El0 El1]. rewrite Hlh in El1.
  destruct (firstn_skipn_parts q h ltac:(lia)) as [Eq0 Eq1]. rewrite Hqh in Eq1.
  rewrite El0, Eq0, El1, Eq1. cbn [obind].
  assert (Ll0 : length (firstn h l) = h) by (rewrite firstn_length; lia).
  assert (Lq0 : length (firstn h q) = h) by (rewrite firstn_length; lia).
  assert (Ll1 : length (skipn h l) = h) by (rewrite skipn_length; lia).
  assert (Lq1 : length (skipn h q) = h) by (rewrite skipn_length; lia).
  pose proof (fun k => full_split l q h k ltac:(lia) ltac:(lia)) as Hsplit.
  set (l0 := firstn h l) in *. set (l1 := skipn h l) in *. set (q0 := firstn h q) in *. set (q1 := skipn h q) in *.
  clearbody l0 l1 q0 q1.
  destruct (induction_karatsuba_ok f fuel l0 q0 Hfuel Ll0 Lq0) as (a0 & E0 & La0 & Wa0 & Ha0). rewrite Ll0 in E0, La0.
  destruct (induction_karatsuba_ok f fuel l1 q1 Hfuel Ll1 Lq1) as (a1 & E1 & La1 & Wa1 & Ha1). rewrite Ll1 in E1, La1.
  rewrite E0. cbn [obind]. rewrite E1. cbn [obind].
  rewrite !fill_add_ok by (rewrite repeat_length; lia). cbn [obind].
  destruct (induction_karatsuba_ok f fuel (map2 (wadd w) l0 l1) (map2 (wadd w) q0 q1) Hfuel) as (a2 & E2 & La2 & Wa2 & Ha2).
  { rewrite map2_length. lia. } { rewrite map2_length. lia. }
  rewrite map2_length, Ll0, Ll1, Nat.min_id in E2, La2. rewrite E2. cbn [obind].
  clearbody h. clear Hpos Hl E0 E1 E2 El0 El1 Eq0 Eq1.
  rewrite fill_sub_ok by lia. cbn [obind].
  destruct (get_sub_ok a0 0 h) as (a0b & -> & La0b & _ & Ha0b); [lia|lia|]. cbn [obind].
  destruct (get_sub_ok a0 h (2 * h)) as (a0t & -> & La0t & _ & Ha0t); [lia|lia|]. cbn [obind].
  destruct (get_sub_ok a1 0 h) as (a1b & -> & La1b & _ & Ha1b); [lia|lia|]. cbn [obind].
  destruct (get_sub_ok a1 h (2 * h)) as (a1t & -> & La1t & _ & Ha1t); [lia|lia|]. cbn [obind].
  destruct (get_sub_ok a2 0 h) as (a2b & -> & La2b & _ & Ha2b); [lia|lia|]. cbn [obind].
  destruct (get_sub_ok a2 h (2 * h)) as (a2t & -> & La2t & _ & Ha2t); [lia|lia|]. cbn [obind].
  set (r0 := map2 (wsub w) a0 a1).
  assert (Lr0 : length r0 = (2 * h)%nat) by (unfold r0; rewrite map2_length; lia).
  assert (Wr0 : words r0) by apply words_map2_wsub.
  destruct (upd_sub_sub r0 0 h a2t) as (r1 & -> & Lr1 & Wr1 & Hr1); [lia|lia|lia|assumption|]. cbn [obind].
  destruct (upd_sub_add r1 0 h a0t) as (r2 & -> & Lr2 & Wr2 & Hr2); [lia|lia|lia|assumption|]. cbn [obind].
  destruct (upd_sub_add r2 0 h a1t) as (r3 & -> & Lr3 & Wr3 & Hr3); [lia|lia|lia|assumption|]. cbn [obind].
  destruct (upd_sub_add r3 h (2 * h) a2b) as (r4 & -> & Lr4 & Wr4 & Hr4); [lia|lia|lia|assumption|]. cbn [obind].
  destruct (upd_sub_sub r4 h (2 * h) a0b) as (r5 & -> & Lr5 & Wr5 & Hr5); [lia|lia|lia|assumption|]. cbn [obind].
  destruct (upd_sub_sub r5 h (2 * h) a1b) as (r6 & -> & Lr6 & Wr6 & Hr6); [lia|lia|lia|assumption|].
  f_equal. unfold nega. apply canonical; [assumption|lia|assumption|].
  intros k Hk. rewrite Hr6, Hr5, Hr4, Hr3, Hr2, Hr1. unfold r0.
  rewrite zc_map2 by (try apply wsub_00; lia). rewrite wsub_eqm.
  rewrite Ha0b, Ha0t, Ha1b, Ha1t, Ha2b, Ha2t. change (Z.of_nat 0) with 0. rewrite !Z.sub_0_r, !Z.add_0_r, !Nat.sub_0_r.
  unfold nega_coef. rewrite !Hsplit, Hlh.
  replace (2 * h - h)%nat with h by lia.
  destruct (Z.lt_ge_cases k (Z.of_nat h)) as [Hlt|Hge].
  - replace ((0 <=? k) && (k <? Z.of_nat h)) with true by lia.
    replace ((0 <=? k - Z.of_nat h) && (k - Z.of_nat h <? Z.of_nat h)) with false by lia.
    rewrite !Ha0, !Ha1, Ha2, full_sum by congruence.
    rewrite (full_out l0 q1 (k - Z.of_nat h)), (full_out l1 q0 (k - Z.of_nat h)),
      (full_out l1 q1 (k - Z.of_nat h - Z.of_nat h)), (full_out l0 q0 (k + Z.of_nat (2 * h))) by lia.
    replace (k + Z.of_nat (2 * h) - Z.of_nat h) with (k + Z.of_nat h) by lia.
    replace (k + Z.of_nat h - Z.of_nat h) with k by lia.
    apply eqm_eq. ring.
  - replace ((0 <=? k) && (k <? Z.of_nat h)) with false by lia.
    replace ((0 <=? k - Z.of_nat h) && (k - Z.of_nat h <? Z.of_nat h)) with true by lia.
    rewrite !Ha0, !Ha1, Ha2, full_sum by congruence.
    rewrite (full_out l0 q0 (k + Z.of_nat (2 * h))), (full_out l0 q1 (k + Z.of_nat (2 * h) - Z.of_nat h)),
      (full_out l1 q0 (k + Z.of_nat (2 * h) - Z.of_nat h)), (full_out l1 q1 (k - Z.of_nat h - Z.of_nat h)) by lia.
    replace (k + Z.of_nat (2 * h) - Z.of_nat h - Z.of_nat h) with k by lia.
    apply eqm_eq. ring.
Qed.

(** Small sizes never reach the base case. *)
Lemma karatsuba_diverges : forall fuel res l q,
  (length l < 32)%nat -> (length res < 128)%nat ->
  induction_karatsuba p w fuel res l q = Panic.
Proof.
  induction fuel as [|fuel IH]; intros res l q Hl Hr.
  - cbn [induction_karatsuba]. unfold KARATSUBA_STOP. destruct (Nat.eqb_spec (length l) 32); [lia|reflexivity].
  - cbn [induction_karatsuba]. unfold KARATSUBA_STOP. destruct (Nat.eqb_spec (length l) 32); [lia|].
    pose proof (Nat.div_lt_upper_bound (length res) 4 32 ltac:(lia) ltac:(lia)) as Hd4.
    pose proof (Nat.div_lt_upper_bound (length res) 2 64 ltac:(lia) ltac:(lia)) as Hd2.
    destruct (get_sub l 0 (Nat.div (length res) 4)) as [l0|] eqn:E; [|reflexivity].
    assert (Ll0 : (length l0 < 32)%nat).
    { unfold get_sub in E. destruct (_ && _)%bool; [|discriminate]. injection E as <-.
      rewrite firstn_length. lia. }
    clear E. cbn [obind]. destruct (get_sub q 0 _) as [q0|]; [|reflexivity].
    cbn [obind]. destruct (get_sub l _ _) as [l1|]; [|reflexivity].
    cbn [obind]. destruct (get_sub q _ _) as [q1|]; [|reflexivity].
    cbn [obind]. rewrite IH; [reflexivity|assumption|]. rewrite repeat_length. lia.
Qed.
End Kara.
