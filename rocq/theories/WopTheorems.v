(** * Properties C39 and C40: cmux tree and vertical packing. *)
From Verif Require Import Base Word WordFacts DecompModel DecompProofs NegaRing PolySpec PolyModel PolyProofs RingSum
  LweSpec LweProofs LweTheorems GlweSpec GlweModel GlweProofs GlweTheorems GgswSpec GgswModel GgswTheorems ExtProdModel ExtProdSpec ExtProdProofs ExtProdTheorems
  RandomModel CsprngFamily NoiseBounds BootstrapSpec BootstrapModel BootstrapTheorems SeededModel WopModel WopSpec WopTreeProofs.

(** ** C39 *)
(** For every external product [ep] (whatever it computes, even if it panics) that keeps the shape of its
    output, the memory-optimised tree is the plain recursive selection tree whose leaves are the trivial
    ciphertexts of the tables, and whose selection of [a] or [b] by [g] is a + g * (b - a).  The previous contents of
    the output are irrelevant. *)
Theorem C39_tree : forall p w {K} (ep : list (list Z) -> K -> list (list Z) -> outcome (list (list Z))) k N out luts ggsws,
  (forall a g c r, length a = S k -> Forall (fun q => length q = N) a -> ep a g c = Ret r -> length r = S k /\ Forall (fun q => length q = N) r) ->
  length out = S k -> Forall (fun q => length q = N) out -> Forall (fun q => length q = N) luts ->
  length luts = (2 ^ length ggsws)%nat ->
  cmux_tree p w ep N out luts ggsws =
  select_tree (fun a b g => ep a g (zip_update (zip_update (wsub w)) b a)) ggsws (map (fun lut => repeat (repeat 0 N) k ++ [lut]) luts).
Proof.
  intros p w K ep k N out luts ggsws Hep Lo Fo Fl Ll.
  set (P := fun c : list (list Z) => length c = S k /\ Forall (fun q => length q = N) c).
  apply (cmux_tree_ok w ep k N P ggsws).
  - intros c [Lc Fc]. rewrite <- Lc. clear -Fc. induction c as [|x c IH]; [reflexivity|]. apply Forall_cons_iff in Fc. destruct Fc.
    cbn [concat length]. rewrite app_length, IH by assumption. cbn. lia.
  - intros a b g r _ [La Fa] _ E. apply (Hep _ _ _ _ La Fa E).
  - exact Lo.
  - exact Fo.
  - eapply Forall_impl; [|exact Fl]. intros lut Hlut. split; [exact Hlut|]. unfold P, trivial. split; [rewrite app_length, repeat_length; cbn; lia|].
    apply Forall_app. split; [|constructor; [exact Hlut|constructor]]. apply Forall_forall. intros x Hx. apply repeat_spec in Hx. subst x. apply repeat_length.
  - exact Ll.
Qed.
Print Assumptions C39_tree.

Lemma fold_bits bits : forall acc, fold_left (fun acc b => 2 * acc + b) bits acc = acc * 2 ^ Z.of_nat (length bits) + bits_value bits.
Proof.
  unfold bits_value. induction bits as [|b bits IH]; intros acc; cbn [fold_left length]; [rewrite Z.mul_1_r; lia|].
  rewrite IH, (IH (2 * 0 + b)), Nat2Z.inj_succ, Z.pow_succ_r by lia. lia.
Qed.
Lemma bits_value_cons b bits : bits_value (b :: bits) = b * 2 ^ Z.of_nat (length bits) + bits_value bits.
Proof. unfold bits_value at 1. cbn [fold_left]. rewrite fold_bits. lia. Qed.
Lemma bits_value_app x y : bits_value (x ++ y) = bits_value x * 2 ^ Z.of_nat (length y) + bits_value y.
Proof. unfold bits_value at 1. rewrite fold_left_app. fold (bits_value x). apply fold_bits. Qed.
Lemma bits_value_range bits : Forall (fun x => x = 0 \/ x = 1) bits -> 0 <= bits_value bits < 2 ^ Z.of_nat (length bits).
Proof.
  induction 1 as [|b bits Hb _ IH]; [cbn; lia|]. rewrite bits_value_cons. cbn [length]. rewrite Nat2Z.inj_succ, Z.pow_succ_r by lia.
  destruct Hb as [-> | ->]; lia.
Qed.

Definition cmux_of {K} (w : Z) (ep : list (list Z) -> K -> list (list Z) -> outcome (list (list Z))) (a b : list (list Z)) (g : K) :=
  let diff := zip_update (zip_update (wsub w)) b a in let! out := ep a g diff in Ret (out, diff).

Lemma select_tree_value {K} w N key bound (ep : list (list Z) -> K -> list (list Z) -> outcome (list (list Z))) ggsws bits : 0 <= bound ->
  Forall2 (cmux_selects w N key bound (cmux_of w ep)) ggsws bits -> forall leaves, Forall (glwe_wf w (length key) N) leaves ->
  length leaves = (2 ^ length ggsws)%nat ->
  exists out, select_tree (fun a b g => ep a g (zip_update (zip_update (wsub w)) b a)) ggsws leaves = Ret out /\ glwe_wf w (length key) N out /\
    rbound (2 ^ w) (Z.of_nat (length bits) * bound) (rsub (gphase N key out) (gphase N key (nth (Z.to_nat (bits_value bits)) leaves []))).
Proof.
  intros Hbd. induction 1 as [|g bit gs bits [Hbit Hg] Hall IH]; intros leaves Hw Hl.
  - destruct leaves as [|x [|? ?]]; try discriminate. apply Forall_inv in Hw. exists x. split; [reflexivity|]. split; [exact Hw|].
    cbn. eapply rbound_req; [|apply rbound_zero]. intros y. apply eqm_eq. cbn. ring.
  - cbn [select_tree]. cbn [length Nat.pow] in Hl.
    assert (Lf : length (firstn (2 ^ length gs) leaves) = (2 ^ length gs)%nat) by (rewrite firstn_length, Hl; lia).
    assert (Ls : length (skipn (2 ^ length gs) leaves) = (2 ^ length gs)%nat) by (rewrite skipn_length, Hl; lia).
    assert (Hbits : Forall (fun x => x = 0 \/ x = 1) bits) by (clear -Hall; induction Hall as [|? ? ? ? [H _] _ IH]; constructor; assumption).
    pose proof (bits_value_range bits Hbits) as Hv. assert (El : length bits = length gs) by (symmetry; eapply Forall2_len; exact Hall).
    assert (Hv' : (Z.to_nat (bits_value bits) < 2 ^ length gs)%nat).
    { rewrite <- El. apply Nat2Z.inj_lt. rewrite Z2Nat.id by lia. rewrite Nat2Z.inj_pow. apply Hv. }
    pose proof Hw as Hw2. rewrite <- (firstn_skipn (2 ^ length gs) leaves) in Hw2. apply Forall_app in Hw2. destruct Hw2 as [Wf Ws].
    destruct (IH _ Wf Lf) as (lo & -> & Wlo & Hlo). destruct (IH _ Ws Ls) as (hi & -> & Whi & Hhi). cbn [obind].
    destruct (Hg lo hi Wlo Whi) as (out & diff & E & Wo & Ho). unfold cmux_of in E.
    destruct (ep lo g _) as [r|]; [|discriminate]. cbn [obind] in E. injection E as -> _. exists out. split; [reflexivity|]. split; [exact Wo|].
    rewrite bits_value_cons, El. cbn [length]. rewrite Nat2Z.inj_succ, Z.mul_succ_l, <- El. rewrite Z.add_comm, El.
    destruct Hbit as [-> | ->].
    + cbn [Z.eqb] in Ho. rewrite Z.mul_0_l, Z.add_0_l.
      assert (En : nth (Z.to_nat (bits_value bits)) (firstn (2 ^ length gs) leaves) [] = nth (Z.to_nat (bits_value bits)) leaves []).
      { rewrite <- (firstn_skipn (2 ^ length gs) leaves) at 2. symmetry. apply app_nth1. lia. }
      rewrite En in Hlo. rewrite El in Hlo. eapply rbound_req; [|apply rbound_add; [exact Ho|exact Hlo]]. intros y. apply eqm_eq. cbn. ring.
    + change (1 =? 1) with true in Ho. cbv iota in Ho. rewrite Z.mul_1_l.
      assert (En : nth (Z.to_nat (bits_value bits)) (skipn (2 ^ length gs) leaves) [] = nth (Z.to_nat (2 ^ Z.of_nat (length gs) + bits_value bits)) leaves []).
      { rewrite <- (firstn_skipn (2 ^ length gs) leaves) at 2. rewrite app_nth2, Lf.
        - f_equal. rewrite Z2Nat.inj_add by lia. replace (Z.to_nat (2 ^ Z.of_nat (length gs))) with (2 ^ length gs)%nat; [lia|].
          rewrite <- (Nat2Z.inj_pow 2). rewrite Nat2Z.id. reflexivity.
        - rewrite Lf. apply Nat2Z.inj_le. rewrite Z2Nat.id by lia. rewrite Nat2Z.inj_pow. change (Z.of_nat 2) with 2. lia. }
      rewrite En in Hhi. rewrite El in Hhi. eapply rbound_req; [|apply rbound_add; [exact Ho|exact Hhi]]. intros y. apply eqm_eq. cbn. ring.
Qed.

Lemma trivial_wf w k N lut : 0 <= w -> poly_wf w N lut -> glwe_wf w k N (trivial k N lut).
Proof.
  intros Hw Hl. unfold trivial. apply glwe_wf_snoc. split; [apply repeat_length|]. split; [|exact Hl].
  apply Forall_forall. intros x Hx. apply repeat_spec in Hx. subst x. apply zero_poly_wf. exact Hw.
Qed.
Lemma glwe_wf_flat w k N c : glwe_wf w k N c -> length (concat c) = (S k * N)%nat.
Proof.
  intros [Lc Fc]. rewrite <- Lc. clear Lc. induction c as [|x c IH]; [reflexivity|]. apply Forall_cons_iff in Fc. destruct Fc as [[Lx _] Fc].
  cbn [concat length]. rewrite app_length, IH by assumption. cbn. lia.
Qed.

Lemma cmux_tree_value {K} p w N key bound (ep : list (list Z) -> K -> list (list Z) -> outcome (list (list Z))) ggsws bits out luts : 0 <= bound -> 0 <= w ->
  Forall2 (cmux_selects w N key bound (cmux_of w ep)) ggsws bits -> length out = S (length key) -> Forall (fun q => length q = N) out ->
  Forall (poly_wf w N) luts -> length luts = (2 ^ length ggsws)%nat ->
  exists ct, cmux_tree p w ep N out luts ggsws = Ret ct /\ glwe_wf w (length key) N ct /\
    rbound (2 ^ w) (Z.of_nat (length bits) * bound) (rsub (gphase N key ct) (R N (nth (Z.to_nat (bits_value bits)) luts []))).
Proof.
  intros Hbd Hw Hall Lo Fo Fl Ll. set (k := length key) in *.
  rewrite (cmux_tree_ok w ep k N (glwe_wf w k N) ggsws).
  - destruct (select_tree_value w N key bound ep ggsws bits Hbd Hall (map (trivial k N) luts)) as (ct & E & W & Hct).
    + apply Forall_forall. intros x Hx. apply in_map_iff in Hx. destruct Hx as (lut & <- & Hi). rewrite Forall_forall in Fl. apply trivial_wf; auto.
    + rewrite map_length. exact Ll.
    + exists ct. split; [exact E|]. split; [exact W|]. eapply rbound_req; [|exact Hct].
      assert (Hi : (Z.to_nat (bits_value bits) < length luts)%nat).
      { assert (Hbits : Forall (fun x => x = 0 \/ x = 1) bits) by (clear -Hall; induction Hall as [|? ? ? ? [H _] _ IH]; constructor; assumption).
        pose proof (bits_value_range bits Hbits). rewrite Ll, (Forall2_len _ _ _ Hall). apply Nat2Z.inj_lt. rewrite Z2Nat.id by lia. rewrite Nat2Z.inj_pow. apply H. }
      rewrite (nth_indep _ [] (trivial k N [])) by (rewrite map_length; exact Hi). rewrite map_nth. unfold trivial, k. rewrite gphase_trivial. reflexivity.
  - intros c Hc. apply (glwe_wf_flat w). exact Hc.
  - intros a b g r Hin Wa Wb E. apply In_nth_error in Hin. destruct Hin as (i & Hi).
    assert (Hg : exists bit, cmux_selects w N key bound (cmux_of w ep) g bit).
    { clear -Hall Hi. revert i Hi. induction Hall as [|x y ? ? H _ IH]; intros [|i] Hi; cbn in Hi; try discriminate; [injection Hi as ->; eauto|eauto]. }
    destruct Hg as (bit & _ & Hg). destruct (Hg a b Wa Wb) as (o & diff & E' & Wo & _). unfold cmux_of in E'. cbn in E'. rewrite E in E'. cbn in E'. injection E' as -> _. exact Wo.
  - exact Lo.
  - exact Fo.
  - eapply Forall_impl; [|exact Fl]. intros lut Hlut. split; [apply Hlut|]. apply trivial_wf; assumption.
  - exact Ll.
Qed.

(** ** C40 *)
(** the value of bits, least significant first *)
Fixpoint lsb_value (bits : list Z) : Z := match bits with [] => 0 | b :: bs => b + 2 * lsb_value bs end.
Lemma lsb_value_app x y : lsb_value (x ++ y) = lsb_value x + 2 ^ Z.of_nat (length x) * lsb_value y.
Proof. induction x as [|b x IH]; cbn [app lsb_value length]; [lia|]. rewrite IH, Nat2Z.inj_succ, Z.pow_succ_r by lia. lia. Qed.
Lemma lsb_value_rev bits : lsb_value (rev bits) = bits_value bits.
Proof.
  induction bits as [|b bits IH]; [reflexivity|]. cbn [rev]. rewrite lsb_value_app, IH, rev_length, bits_value_cons. cbn [lsb_value]. lia.
Qed.

Lemma vp_rotate_ok {K} w a key bound (cm : list (list Z) -> list (list Z) -> K -> outcome (list (list Z) * list (list Z))) :
  let N := Z.to_nat (2 ^ a) in 0 <= a <= 63 -> 0 <= w -> forall ggsws bits degree i ct0 e n0 lut0,
  Forall2 (cmux_selects w N key bound cm) ggsws bits -> 0 <= degree -> 0 <= i -> eqm (2 * Z.of_nat N) degree (2 ^ i) -> glwe_wf w (length key) N ct0 ->
  rbound (2 ^ w) (n0 * bound) (rsub (gphase N key ct0) (rshift e lut0)) ->
  exists ct, vp_rotate_loop w cm ggsws degree ct0 = Ret ct /\ glwe_wf w (length key) N ct /\
    rbound (2 ^ w) ((n0 + Z.of_nat (length bits)) * bound) (rsub (gphase N key ct) (rshift (e - 2 ^ i * lsb_value bits) lut0)).
Proof.
  intros N Ha Hw ggsws bits degree i ct0 e n0 lut0 Hall. revert degree i ct0 e n0 lut0.
  assert (HNa : Z.of_nat N = 2 ^ a) by (unfold N; rewrite Z2Nat.id; [reflexivity|pose proof (pow2_pos a); lia]).
  assert (HN : (0 < N)%nat) by (pose proof (pow2_pos a); lia).
  induction Hall as [|g bit gs bits [Hbit Hg] Hall IH]; intros degree i ct0 e n0 lut0 Hd Hi Hdi Hc Hinv.
  - exists ct0. split; [reflexivity|]. split; [exact Hc|]. cbn [lsb_value length]. rewrite Z.mul_0_r, Z.sub_0_r, Z.add_0_r. exact Hinv.
  - cbn [vp_rotate_loop].
    destruct (list_rotation_ok w N (length key) ct0 (fun poly => unit_monomial_div w poly (Z.to_nat degree)) (- degree) Hc) as [W1 H1].
    { intros q Hq. destruct (unit_monomial_div_ok w ltac:(lia) N q (Z.to_nat degree) HN Hq) as [A B].
      rewrite Z2Nat.id in B by assumption. split; assumption. }
    fold (list_monic_monomial_div w ct0 (Z.to_nat degree)) in W1, H1.
    pose proof (gphase_shift N (2 ^ w) _ key ct0 _ (- degree) eq_refl (proj1 Hc) (proj1 W1) H1) as Hph.
    rewrite (rshift_mod _ (- degree) (- 2 ^ i)) in Hph.
    2:{ change (eqm (2 * Z.of_nat N) (- degree) (- 2 ^ i)). rewrite Hdi. reflexivity. }
    destruct (Hg ct0 _ Hc W1) as (out & diff & -> & Wo & Ho). cbn [obind].
    destruct (IH (shl usize_bits degree 1) (i + 1) out (e - 2 ^ i * bit) (n0 + 1) lut0) as (ct & E & W & Hfin).
    + unfold shl, usize_bits. apply Z.mod_pos_bound. lia.
    + lia.
    + unfold shl, usize_bits. rewrite Z.pow_add_r by lia. rewrite <- Hdi. change (2 ^ 1) with 2.
      apply eqm_divide. rewrite Z.mod_eq by lia. exists (- ((degree * 2) / 2 ^ 64) * 2 ^ (63 - a)).
      rewrite HNa. replace (2 ^ 64) with (2 ^ (63 - a) * (2 * 2 ^ a)) at 1; [ring|].
      rewrite <- Z.pow_succ_r, <- Z.pow_add_r by lia. f_equal. lia.
    + exact Wo.
    + rewrite Z.mul_add_distr_r, Z.mul_1_l. destruct Hbit as [-> | ->].
      * rewrite Z.mul_0_r, Z.sub_0_r. cbn [Z.eqb] in Ho. eapply rbound_req; [|apply rbound_add; [exact Hinv|exact Ho]].
        intros y. apply eqm_eq. cbn. ring.
      * rewrite Z.mul_1_r. change (1 =? 1) with true in Ho. cbv iota in Ho.
        eapply rbound_req; [|apply rbound_add; [apply (rbound_shift (2 ^ w) _ (- 2 ^ i)); exact Hinv|exact Ho]].
        rewrite Hph, rshift_rsub, rshift_add. replace (- 2 ^ i + e) with (e - 2 ^ i) by lia. intros y. apply eqm_eq. cbn. ring.
    + exists ct. split; [exact E|]. split; [exact W|]. cbn [length lsb_value]. rewrite Z.pow_add_r in Hfin by lia. change (2 ^ 1) with 2 in Hfin.
      replace (e - 2 ^ i * (bit + 2 * lsb_value bits)) with (e - 2 ^ i * bit - 2 ^ i * 2 * lsb_value bits) by ring.
      replace (n0 + Z.of_nat (S (length bits))) with (n0 + 1 + Z.of_nat (length bits)) by lia. exact Hfin.
Qed.

Lemma Forall2_split {A B} (P : A -> B -> Prop) n : forall x y, Forall2 P x y -> Forall2 P (firstn n x) (firstn n y) /\ Forall2 P (skipn n x) (skipn n y).
Proof. induction n as [|n IH]; intros x y H; cbn; [split; [constructor|exact H]|]. destruct H; cbn; [split; constructor|]. destruct (IH _ _ H0). split; [constructor; assumption|assumption]. Qed.
Lemma Forall2_rev {A B} (P : A -> B -> Prop) x y : Forall2 P x y -> Forall2 P (rev x) (rev y).
Proof. induction 1; cbn; [constructor|]. apply Forall2_app; [assumption|]. constructor; [assumption|constructor]. Qed.

Lemma vertical_packing_value {K} p w a key bound (ep : list (list Z) -> K -> list (list Z) -> outcome (list (list Z))) ggsws bits luts out r :
  let N := Z.to_nat (2 ^ a) in 1 <= a <= 63 -> 0 <= w -> 0 <= bound -> Forall (fun s => length s = N) key ->
  w = 64 \/ (p = Release /\ w < 64 /\ r = 0%nat) -> Z.of_nat (length ggsws) < 2 ^ 63 -> (r <= length ggsws)%nat ->
  Forall2 (cmux_selects w N key bound (cmux_of w ep)) ggsws bits ->
  Forall (poly_wf w N) luts -> length luts = (2 ^ r)%nat -> Z.of_nat (length luts) < 2 ^ 64 -> length out = S (length key * N) ->
  exists l e, vertical_packing p w ep (cmux_of w ep) N (S (length key)) luts out ggsws = Ret l /\ lwe_wf w (length key * N) l /\
    Z.abs e <= Z.of_nat (length ggsws) * bound /\
    phase w (glwe_key_into_lwe_key key) l = (lut_at N (nth (Z.to_nat (bits_value (firstn r bits))) luts []) (bits_value (skipn r bits)) + e) mod 2 ^ w.
Proof.
  intros N Ha Hw Hbd Hk Hcase Hn63 Hr Hall Fl Ll L64 Lo.
  assert (HNa : Z.of_nat N = 2 ^ a) by (unfold N; rewrite Z2Nat.id; [reflexivity|pose proof (pow2_pos a); lia]).
  assert (HN : (0 < N)%nat) by (pose proof (pow2_pos a); lia).
  unfold vertical_packing. rewrite Lo. replace (S (length key * N) - 1)%nat with (N * (S (length key) - 1))%nat by lia.
  rewrite Nat.eqb_refl, debug_true. cbn [obind].
  assert (Elog : Z.log2 (Z.of_nat (length luts)) = Z.of_nat r).
  { rewrite Ll, Nat2Z.inj_pow. apply Z.log2_pow2. lia. }
  assert (Elz : leading_zeros (Z.of_nat (length luts)) = 63 - Z.of_nat r).
  { unfold leading_zeros. destruct (Z.eqb_spec (Z.of_nat (length luts)) 0) as [H0|_]; [rewrite Ll, Nat2Z.inj_pow in H0; pose proof (Z.pow_pos_nonneg 2 (Z.of_nat r)); lia|].
    rewrite Elog. unfold usize_bits. lia. }
  assert (Er : Z.of_nat r < 64) by (rewrite <- Elog; apply Z.log2_lt_pow2; [|exact L64]; rewrite Ll, Nat2Z.inj_pow; apply Z.pow_pos_nonneg; lia).
  rewrite Elz.
  assert (Elt : exists lg, plain p usize_bits (w - 1 - (63 - Z.of_nat r)) = Ret lg /\ (if Z.of_nat (length ggsws) <? lg then 0%nat else Z.to_nat lg) = r).
  { destruct Hcase as [-> | (-> & Hw64 & ->)].
    - exists (Z.of_nat r). rewrite plain_ok by (unfold usize_bits; lia). split; [f_equal; lia|].
      destruct (Z.ltb_spec (Z.of_nat (length ggsws)) (Z.of_nat r)); [lia|]. apply Nat2Z.id.
    - exists ((w - 64) mod 2 ^ 64). split; [unfold plain, usize_bits; replace (w - 1 - (63 - Z.of_nat 0)) with (w - 64) by lia; destruct (Z.leb_spec 0 (w - 64)); [lia|]; reflexivity|].
      rewrite <- (Z.mod_add _ 1), Z.mod_small by lia. destruct (Z.ltb_spec (Z.of_nat (length ggsws)) (w - 64 + 1 * 2 ^ 64)); [reflexivity|]. lia. }
  destruct Elt as (lg & -> & Elg). cbn [obind]. rewrite Elg.
  assert (Hev : Nat.even N = true).
  { apply Nat.even_spec. exists (Z.to_nat (2 ^ (a - 1))). pose proof (pow2_pos (a - 1)). apply Nat2Z.inj. rewrite HNa, Nat2Z.inj_mul, Z2Nat.id by lia.
    change (Z.of_nat 2) with 2. rewrite <- Z.pow_succ_r by lia. f_equal. lia. }
  rewrite Hev. cbn [assert_ obind].
  destruct (Forall2_split _ r _ _ Hall) as [Hf Hs].
  destruct (cmux_tree_value p w N key bound ep (firstn r ggsws) (firstn r bits) (repeat (repeat 0 N) (S (length key))) luts Hbd Hw Hf) as (ct & -> & W & Hct).
  { apply repeat_length. }
  { apply Forall_forall. intros x Hx. apply repeat_spec in Hx. subst x. apply repeat_length. }
  { exact Fl. }
  { rewrite firstn_length, Nat.min_l by lia. exact Ll. }
  cbn [obind]. set (v := nth (Z.to_nat (bits_value (firstn r bits))) luts []) in *.
  destruct (vp_rotate_ok w a key bound (cmux_of w ep) ltac:(lia) Hw (rev (skipn r ggsws)) (rev (skipn r bits)) 1 0 ct 0 (Z.of_nat (length (firstn r bits))) (R N v)
              (Forall2_rev _ _ _ Hs)) as (ct2 & E & W2 & Hct2); try lia.
  { reflexivity. }
  { exact W. }
  { eapply rbound_req; [|exact Hct]. fold N. rewrite rshift_0. reflexivity. }
  fold N in E, W2, Hct2. unfold vp_blind_rotate. rewrite E. cbn [obind].
  destruct (C24_extraction_phase w N key ct2 out 0) as (l & El & Wl & Hp); try assumption.
  destruct (Hct2 0) as (e & He & Hab); [lia|]. exists l, e. split; [exact El|]. split; [exact Wl|]. split.
  - rewrite rev_length in Hab. assert (Elb : length bits = length ggsws) by (symmetry; eapply Forall2_len; exact Hall).
    replace (Z.of_nat (length (firstn r bits)) + Z.of_nat (length (skipn r bits))) with (Z.of_nat (length ggsws)) in Hab; [exact Hab|].
    rewrite <- Elb. rewrite <- (firstn_skipn r bits) at 1. rewrite app_length. lia.
  - rewrite Hp. change (Z.of_nat 0) with 0. rewrite lsb_value_rev in He. rewrite <- lut_at_ext by exact HN.
    change (eqm (2 ^ w) (rcoef (gphase N key ct2) 0) (rcoef (R N v) (bits_value (skipn r bits)) + e)).
    rewrite <- He. apply eqm_eq. cbn [rsub rshift rcoef proj1_sig]. rewrite Z.mul_1_l. unfold rcoef, rshift, rsub. cbn [proj1_sig].
    replace (0 - (0 - bits_value (skipn r bits))) with (bits_value (skipn r bits)) by lia. lia.
Qed.

Section Fft.
Context (p : profile) (w a : Z) (N := Z.to_nat (2 ^ a)) (B : backend) (d : decomposer) (key : list (list Z)) (beta : Z) (T : nat) (E : Z).
Hypothesis (Hd : dec_wf w d) (Ha : 1 <= a) (Haw : a + 2 < w) (Hkey : binary_key N key) (Hbeta : 0 <= beta)
  (HB : backend_ok w N (base_log d) T E B) (HE : 0 <= E) (HT : (level_count d * S (length key) <= T)%nat).
Notation k := (length key).
Notation bound := (ep_error w (base_log d) k N (level_count d) 1 beta E).

Let Hbound : 0 <= bound.
Proof.
  destruct Hd as (H1 & H2 & H3 & H4). unfold ep_error.
  assert (0 <= 2 ^ (base_log d - 1)) by (apply Z.pow_nonneg; lia). assert (0 <= 2 ^ (w - base_log d * Z.of_nat (level_count d) - 1)) by (apply Z.pow_nonneg; lia).
  pose proof Hbeta. pose proof HE. nia.
Qed.

(** The selector bits [bits], most significant first, are encrypted by GGSW ciphertexts with noise at most [beta]:
    the tree returns an encryption of the table at index [bits], with at most one external product error per bit. *)
Theorem C39_cmux_tree : forall ggsws bits out luts, Forall (fun x => x = 0 \/ x = 1) bits ->
  bsk_encrypts w (base_log d) N (level_count d) key beta ggsws bits ->
  length out = S k -> Forall (fun q => length q = N) out -> Forall (poly_wf w N) luts -> length luts = (2 ^ length bits)%nat ->
  exists ct, fft_cmux_tree p w B N (base_log d) out luts (bsk_forward_fourier B ggsws) = Ret ct /\ glwe_wf w k N ct /\
    rbound (2 ^ w) (Z.of_nat (length bits) * bound) (rsub (gphase N key ct) (R N (nth (Z.to_nat (bits_value bits)) luts []))).
Proof.
  intros ggsws bits out luts Hbits Henc Lo Fo Fl Ll. unfold fft_cmux_tree.
  assert (Hs : Forall2 (cmux_selects w N key bound (cmux p w B N (base_log d))) (bsk_forward_fourier B ggsws) bits)
    by (apply (bsk_selects p w a B d key beta T E); assumption || lia).
  destruct (cmux_tree_value p w N key bound (external_product p w B N (base_log d)) (bsk_forward_fourier B ggsws) bits out luts) as (ct & E1 & W & Hct); try assumption; [lia| |].
  - rewrite (Forall2_len _ _ _ Hs). exact Ll.
  - exists ct. auto.
Qed.

(** Vertical packing: 2^r tables and r + m bits.  The output decrypts to the entry of the table selected by the first r bits at
    the position given by the others (read negacyclically when it exceeds N). *)
Theorem C40_vertical_packing : forall ggsws bits luts out r, Forall (fun x => x = 0 \/ x = 1) bits ->
  bsk_encrypts w (base_log d) N (level_count d) key beta ggsws bits -> (r <= length bits)%nat ->
  a <= 63 -> w = 64 \/ (p = Release /\ w < 64 /\ r = 0%nat) -> Z.of_nat (length bits) < 2 ^ 63 -> Z.of_nat (length luts) < 2 ^ 64 ->
  Forall (poly_wf w N) luts -> length luts = (2 ^ r)%nat -> length out = S (k * N) ->
  exists l e, fft_vertical_packing p w B N (base_log d) (S k) luts out (bsk_forward_fourier B ggsws) = Ret l /\ lwe_wf w (k * N) l /\
    Z.abs e <= Z.of_nat (length bits) * bound /\
    phase w (glwe_key_into_lwe_key key) l =
      (lut_at N (nth (Z.to_nat (bits_value (firstn r bits))) luts []) (bits_value (skipn r bits)) + e) mod 2 ^ w.
Proof.
  intros ggsws bits luts out r Hbits Henc Hr Ha63 Hcase Hn63 L64 Fl Ll Lo. unfold fft_vertical_packing.
  assert (Hs : Forall2 (cmux_selects w N key bound (cmux p w B N (base_log d))) (bsk_forward_fourier B ggsws) bits)
    by (apply (bsk_selects p w a B d key beta T E); assumption || lia).
  pose proof (Forall2_len _ _ _ Hs) as Els.
  destruct (vertical_packing_value p w a key bound (external_product p w B N (base_log d)) (bsk_forward_fourier B ggsws) bits luts out r)
    as (l & e & E1 & W & He & Hp); try assumption; try lia.
  - eapply Forall_impl; [|exact Hkey]. intros x Hx. apply Hx.
  - rewrite Els in He. exists l, e. auto.
Qed.

(** In particular, when the bits that are left after the choice of the table are exactly enough to index it, the output
    decrypts to the entry of the whole table (the concatenation of the polynomials) at the number written by all the bits. *)
Theorem C40_table_lookup : forall ggsws bits luts out r, Forall (fun x => x = 0 \/ x = 1) bits ->
  bsk_encrypts w (base_log d) N (level_count d) key beta ggsws bits -> Z.of_nat (length bits) = Z.of_nat r + a ->
  a <= 63 -> w = 64 \/ (p = Release /\ w < 64 /\ r = 0%nat) -> Z.of_nat (length bits) < 2 ^ 63 -> Z.of_nat (length luts) < 2 ^ 64 ->
  Forall (poly_wf w N) luts -> length luts = (2 ^ r)%nat -> length out = S (k * N) ->
  exists l e, fft_vertical_packing p w B N (base_log d) (S k) luts out (bsk_forward_fourier B ggsws) = Ret l /\ lwe_wf w (k * N) l /\
    Z.abs e <= Z.of_nat (length bits) * bound /\
    phase w (glwe_key_into_lwe_key key) l = (nth (Z.to_nat (bits_value bits)) (concat luts) 0 + e) mod 2 ^ w.
Proof.
  intros ggsws bits luts out r Hbits Henc Hn Ha63 Hcase Hn63 L64 Fl Ll Lo.
  destruct (C40_vertical_packing ggsws bits luts out r) as (l & e & E1 & W & He & Hp); try assumption; [lia|].
  exists l, e. split; [exact E1|]. split; [exact W|]. split; [exact He|]. rewrite Hp. do 2 f_equal.
  set (hi := firstn r bits) in *. set (lo := skipn r bits) in *.
  assert (HNa : Z.of_nat N = 2 ^ a) by (unfold N; rewrite Z2Nat.id; [reflexivity|pose proof (pow2_pos a); lia]).
  assert (Hhi : 0 <= bits_value hi < 2 ^ Z.of_nat (length hi)) by (apply bits_value_range; apply Forall_firstn; exact Hbits).
  assert (Hlo : 0 <= bits_value lo < 2 ^ Z.of_nat (length lo)) by (apply bits_value_range; apply Forall_skipn; exact Hbits).
  assert (Lhi : length hi = r) by (unfold hi; rewrite firstn_length; lia). assert (Llo : Z.of_nat (length lo) = a) by (unfold lo; rewrite skipn_length; lia).
  rewrite Lhi in Hhi. rewrite Llo, <- HNa in Hlo.
  replace (bits_value bits) with (bits_value hi * Z.of_nat N + bits_value lo) by (rewrite <- (firstn_skipn r bits), bits_value_app; fold hi lo; rewrite Llo, HNa; reflexivity).
  unfold lut_at. rewrite Z.div_small, Z.mod_small by exact Hlo. cbn [Z.even]. unfold coef.
  assert (Hnth : (Z.to_nat (bits_value hi) < length luts)%nat).
  { rewrite Ll. apply Nat2Z.inj_lt. rewrite Z2Nat.id by lia. rewrite Nat2Z.inj_pow. apply Hhi. }
  replace (Z.to_nat (bits_value hi * Z.of_nat N + bits_value lo)) with (Z.to_nat (bits_value hi) * N + Z.to_nat (bits_value lo))%nat by nia.
  assert (Hl2 : (Z.to_nat (bits_value lo) < N)%nat) by lia. revert Hnth Hl2. generalize (Z.to_nat (bits_value hi)) (Z.to_nat (bits_value lo)). clear -Fl.
  induction luts as [|x luts IH]; intros i j Hi Hj; [cbn in Hi; lia|]. apply Forall_cons_iff in Fl. destruct Fl as [[Lx _] Fl].
  cbn [concat]. destruct i as [|i].
  - cbn [nth Nat.mul Nat.add]. symmetry. apply app_nth1. lia.
  - cbn [nth]. rewrite app_nth2 by lia. rewrite (IH Fl i j) by (cbn in Hi; lia). f_equal. lia.
Qed.
End Fft.
Print Assumptions C39_cmux_tree.
Print Assumptions C40_vertical_packing.
Print Assumptions C40_table_lookup.

(** The number of tables is measured with [Scalar::BITS - 1 - leading_zeros(usize)]: with scalars of fewer than 64 bits this
    underflows.  Checked builds then panic for every realistic number of tables, and optimised builds panic for every table
    larger than one polynomial. *)
Theorem C40_narrow_scalars_refuted : forall p w {K} (ep : list (list Z) -> K -> list (list Z) -> outcome (list (list Z))) cm N glwe_size luts out ggsws,
  0 < w < 64 -> (2 <= N)%nat -> (1 <= glwe_size)%nat -> Forall (fun q => length q = N) luts -> (1 <= length luts)%nat -> Z.of_nat (length luts) < 2 ^ (64 - w) ->
  Z.of_nat (length ggsws) < 2 ^ 63 -> p = Debug \/ (1 < length luts)%nat ->
  vertical_packing p w ep cm N glwe_size luts out ggsws = Panic.
Proof.
  intros p w K ep cm N gs luts out ggsws Hw HN Hgs Fl L1 L2 Lg Hc. unfold vertical_packing.
  destruct (debug_assert p _) as [[]|]; [|reflexivity]. cbn [obind].
  set (n := Z.of_nat (length luts)) in *.
  assert (Hlog : 0 <= Z.log2 n < 64 - w).
  { split; [apply Z.log2_nonneg|]. apply Z.log2_lt_pow2; [unfold n; lia|exact L2]. }
  unfold leading_zeros. destruct (Z.eqb_spec n 0) as [?|_]; [lia|]. unfold usize_bits.
  set (v := w - 1 - (64 - 1 - Z.log2 n)). assert (Hv : -63 <= v < 0) by (unfold v; lia). clearbody v.
  unfold plain. destruct (Z.leb_spec 0 v); [lia|]. cbn [andb].
  destruct p; [reflexivity|]. cbn [obind]. destruct Hc as [|Hc]; [discriminate|].
  rewrite <- (Z.mod_add _ 1), Z.mod_small by lia.
  destruct (Z.ltb_spec (Z.of_nat (length ggsws)) (v + 1 * 2 ^ 64)); [|lia].
  destruct (assert_ _) as [[]|]; [|reflexivity]. cbn [obind firstn].
  unfold cmux_tree. cbn [debug_assert obind].
  replace (repeat (repeat 0 N) gs) with (repeat (repeat 0 N) (gs - 1) ++ [repeat 0 N]) by (rewrite <- repeat_cons; replace gs with (S (gs - 1)) at 2 by lia; reflexivity).
  rewrite glwe_split_snoc. cbn [obind]. unfold copy_slice. rewrite repeat_length.
  assert (Hcc : length (concat luts) = (length luts * N)%nat).
  { clear -Fl. induction luts as [|x l IH]; [reflexivity|]. apply Forall_cons_iff in Fl. destruct Fl. cbn [concat length]. rewrite app_length, IH by assumption. lia. }
  rewrite Hcc. destruct (Nat.eqb_spec N (length luts * N)); [nia|]. reflexivity.
Qed.
Print Assumptions C40_narrow_scalars_refuted.

(** A concrete case: 64-bit words, N = 4, two tables of four entries and the selector bits 1, 0, 1: entry 5. *)
Definition demo_gen64 : egen := EG (BG (fun i => (7 * i + 3) mod 256) 0 100000) (BG (fun i => (i * i + i / 512 + 1) mod 256) 0 1000000).
Definition demo_sel : list (list (list (list (list Z)))) :=
  match fill_with_new_bootstrap_key Debug 64 demo_gauss_word [[1; 0; 1; 1]] 4 3 6 (repeat (ggsw_allocate 4 2 3) 3) [1; 0; 1] demo_gen64 with
  | Ret (b, _) => b | Panic => [] end.
Definition demo_tables : list (list Z) := [[0; 2 ^ 60; 2 * 2 ^ 60; 3 * 2 ^ 60]; [4 * 2 ^ 60; 5 * 2 ^ 60; 6 * 2 ^ 60; 7 * 2 ^ 60]].
Lemma demo_sel_ok : bsk_encrypts 64 6 4 3 [[1; 0; 1; 1]] 255 demo_sel [1; 0; 1].
Proof.
  unfold demo_sel.
  destruct (fill_with_new_bootstrap_key Debug 64 demo_gauss_word [[1; 0; 1; 1]] 4 3 6 (repeat (ggsw_allocate 4 2 3) 3) [1; 0; 1] demo_gen64) as [[b g']|] eqn:E.
  - eapply (C29_generated_key Debug 64 demo_gauss_word 4 [[1; 0; 1; 1]] 6 3 (repeat (ggsw_allocate 4 2 3) 3) [1; 0; 1] demo_gen64 b g');
      try reflexivity; try (cbn; lia); try exact E.
    + apply demo_gauss_word_ok; lia.
    + apply demo_gauss_word_small; lia.
    + intros q. cbn. lia.
    + split; [repeat constructor|]. right. repeat (constructor; [bin|]). constructor.
    + apply Forall_forall. intros x Hx. apply repeat_spec in Hx. subst x. apply ggsw_zero_wf. lia.
  - exfalso. clear - E. apply (f_equal (fun o => match o with Ret _ => true | Panic => false end)) in E. vm_compute in E. discriminate.
Qed.
Lemma demo_tables_wf : Forall (poly_wf 64 4) demo_tables.
Proof.
  unfold demo_tables. repeat (apply Forall_cons; [split; [reflexivity|]; unfold is_word; repeat (apply Forall_cons; [lia|]); apply Forall_nil|]). apply Forall_nil.
Qed.

Example C39_case :
  let key := [[1; 0; 1; 1]] in let B := exact_backend 64 in
  dec_wf 64 (Dec 6 3) /\ binary_key (Z.to_nat (2 ^ 2)) key /\ backend_ok 64 4 6 6 0 B /\
  bsk_encrypts 64 6 4 3 key 255 demo_sel [1; 0; 1] /\ Forall (poly_wf 64 4) demo_tables /\
  bits_value [1; 0; 1] = 5 /\ length demo_tables = (2 ^ length [1]%Z)%nat /\
  match fft_cmux_tree Debug 64 B 4 6 (repeat (repeat 9 4) 2) demo_tables (firstn 1 (bsk_forward_fourier B demo_sel)) with
  | Ret ct => map (fun i => sgn 64 ((rcoef (gphase 4 key ct) (Z.of_nat i) - (4 + Z.of_nat i) * 2 ^ 60) mod 2 ^ 64)) (seq 0 4) = [-640; -512; -416; 736]
  | Panic => False
  end /\
  match fft_vertical_packing Debug 64 B 4 6 2 demo_tables (repeat 7 5) (bsk_forward_fourier B demo_sel) with
  | Ret l => phase 64 (glwe_key_into_lwe_key key) l = 5 * 2 ^ 60 + 8992
  | Panic => False
  end.
Proof.
  cbv zeta. split; [unfold dec_wf; cbn [base_log level_count]; lia|].
  split; [apply Forall_cons; [split; [reflexivity|repeat (apply Forall_cons; [lia|]); apply Forall_nil]|apply Forall_nil]|].
  split; [apply C26_exact_backend_ok; lia|].
  split; [exact demo_sel_ok|]. split; [exact demo_tables_wf|]. split; [reflexivity|]. split; [reflexivity|].
  split; vm_compute; reflexivity.
Qed.

Example C40_case : let B := exact_backend 32 in let luts := [[1; 2; 3; 4]; [5; 6; 7; 8]] in
  vertical_packing Debug 32 (external_product Debug 32 B 4 6) (cmux Debug 32 B 4 6) 4 2 [[1; 2; 3; 4]] (repeat 0 5) [] = Panic /\
  vertical_packing Release 32 (external_product Release 32 B 4 6) (cmux Release 32 B 4 6) 4 2 luts (repeat 0 5) (firstn 1 (bsk_forward_fourier B demo_bsk)) = Panic /\
  match fft_vertical_packing Release 32 B 4 6 2 [[2 ^ 28; 2 ^ 29; 3 * 2 ^ 28; 2 ^ 30]] (repeat 0 5) (firstn 2 (bsk_forward_fourier B demo_bsk)) with
  | Ret l => torus_dist 32 (phase 32 (glwe_key_into_lwe_key [[1; 0; 1; 1]]) l) (3 * 2 ^ 28) <= 2 ^ 16
  | Panic => False
  end.
Proof. cbv zeta. split; [vm_compute; reflexivity|]. split; [vm_compute; reflexivity|]. vm_compute. discriminate. Qed.
