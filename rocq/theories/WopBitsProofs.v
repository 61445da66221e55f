(** * Bit extraction and the boolean bootstrap, for any keyswitch and any bootstrap with bounded errors *)
From Verif Require Import Base Word WordFacts LweSpec LweModel LweProofs LweTheorems SeededModel WopModel WopSpec WopTreeProofs.

(** A keyswitch from [s_in] to [s_out] that adds a noise of at most [E]. *)
Definition keyswitches (w : Z) (s_in s_out : list Z) (E : Z) (ks : list Z -> list Z -> outcome (list Z)) : Prop :=
  forall after before, length after = S (length s_out) -> lwe_wf w (length s_in) before ->
  exists out e, ks after before = Ret out /\ lwe_wf w (length s_out) out /\ Z.abs e <= E /\
    eqm (2 ^ w) (phase w s_out out) (phase w s_in before + e).

(** A bootstrap of constant tables: the sign of the input decides of the sign of the output, except at distance
    at most [M] of 0 and of half the torus. *)
Definition sign_bootstraps (w : Z) (N glwe_size : nat) (s_in s_out : list Z) (M E : Z) (pbs : list Z -> list Z -> list (list Z) -> outcome (list Z)) : Prop :=
  forall out lwe x, length out = S (length s_out) -> lwe_wf w (length s_in) lwe -> is_word w x ->
  exists l e, pbs out lwe (const_accumulator N glwe_size x) = Ret l /\ lwe_wf w (length s_out) l /\ Z.abs e <= E /\
    (M <= phase w s_in lwe < 2 ^ (w - 1) - M -> eqm (2 ^ w) (phase w s_out l) (x + e)) /\
    (2 ^ (w - 1) + M <= phase w s_in lwe < 2 ^ w - M -> eqm (2 ^ w) (phase w s_out l) (- x + e)).

Lemma half_double w : 0 < w -> 2 ^ w = 2 * 2 ^ (w - 1).
Proof. intros. replace w with (Z.succ (w - 1)) at 1 by lia. rewrite Z.pow_succ_r by lia. reflexivity. Qed.

Lemma quarter_double w : 1 < w -> 2 ^ (w - 1) = 2 * 2 ^ (w - 2).
Proof. intros. rewrite (half_double (w - 1)) by lia. do 2 f_equal. lia. Qed.

Lemma add_to_body_ok w s c n x : 0 <= w -> lwe_wf w n c ->
  exists d, add_to_body w c x = Ret d /\ lwe_wf w n d /\ eqm (2 ^ w) (phase w s d) (phase w s c + x).
Proof.
  intros Hw [Hl Hf]. destruct (body_add_ok w n Hw s c x Hl) as (d & E & Ld & _ & Hp & Hfd).
  exists d. split; [exact E|]. split; [split; [exact Ld|apply Hfd; exact Hf]|]. rewrite Hp. apply eqm_mod.
Qed.

(** Adding a quarter and bootstrapping a constant table separates the two values of a noisy top bit. *)
Lemma sign_of_bit w N gs s_in s_out M E pbs ks out x m r R :
  2 < w -> sign_bootstraps w N gs s_in s_out M E pbs -> 0 <= M ->
  lwe_wf w (length s_in) ks -> length out = S (length s_out) -> is_word w x ->
  eqm (2 ^ w) (phase w s_in ks) (m * 2 ^ (w - 1) + 2 ^ (w - 2) + r) -> Z.abs r <= R -> R + M < 2 ^ (w - 2) ->
  exists l e, pbs out ks (const_accumulator N gs x) = Ret l /\ lwe_wf w (length s_out) l /\ Z.abs e <= E /\
    eqm (2 ^ w) (phase w s_out l) ((1 - 2 * (m mod 2)) * x + e).
Proof.
  intros Hw Hpbs HM Hks Ho Hx Hph Hr HR.
  destruct (Hpbs out ks x Ho Hks Hx) as (l & e & E1 & Wl & He & H0 & H1).
  exists l, e. split; [exact E1|]. split; [exact Wl|]. split; [exact He|].
  pose proof (half_double w ltac:(lia)) as Dw. pose proof (quarter_double w ltac:(lia)) as Dh. pose proof (pow2_pos (w - 2) ltac:(lia)) as Hp.
  assert (Hm : m mod 2 = 0 \/ m mod 2 = 1) by (pose proof (Z.mod_pos_bound m 2 ltac:(lia)); lia).
  assert (Hph' : phase w s_in ks = ((m mod 2) * 2 ^ (w - 1) + 2 ^ (w - 2) + r) mod 2 ^ w).
  { rewrite <- (Z.mod_small (phase w s_in ks) (2 ^ w)) by (apply (phase_word w s_in ks); lia). rewrite Hph.
    change (eqm (2 ^ w) (m * 2 ^ (w - 1) + 2 ^ (w - 2) + r) ((m mod 2) * 2 ^ (w - 1) + 2 ^ (w - 2) + r)).
    rewrite (Z.div_mod m 2) at 1 by lia.
    replace ((2 * (m / 2) + m mod 2) * 2 ^ (w - 1) + 2 ^ (w - 2) + r) with ((m mod 2) * 2 ^ (w - 1) + 2 ^ (w - 2) + r + (m / 2) * 2 ^ w)
      by (rewrite Dw; ring). unfold eqm. rewrite Z.mod_add by lia. reflexivity. }
  destruct Hm as [Hm|Hm]; rewrite Hm in *.
  - rewrite Z.mod_small in Hph' by lia. rewrite H0 by lia. apply eqm_eq. ring.
  - rewrite Z.mod_small in Hph' by lia. rewrite H1 by lia. apply eqm_eq. ring.
Qed.

Section Extract.
Context (p : profile) (w : Z) (N gs : nat) (s_small s_big : list Z) (M Ebs Eks : Z)
  (ks : list Z -> list Z -> outcome (list Z)) (pbs : list Z -> list Z -> list (list Z) -> outcome (list Z)).
Hypothesis (Hw : 2 < w) (Hw64 : w < 2 ^ 64) (HM : 0 <= M)
  (Hks : keyswitches w s_big s_small Eks ks) (Hpbs : sign_bootstraps w N gs s_small s_big M Ebs pbs).
Context (delta count m e0 : Z).
Hypothesis (Hcount : 0 < count) (Hd0 : 0 <= delta) (Hdelta : 1 < count -> 0 < delta) (Hdc : delta + count <= w)
  (Hmargin : forall i, 0 <= i < count - 1 -> extract_error w delta e0 Ebs Eks i + M < 2 ^ (w - 2)).

(** [lia] without the hypotheses about phases and noises *)
Local Ltac ix := repeat match goal with
  | H : context [Z.abs _] |- _ => clear H
  | H : context [eqm _ _ _] |- _ => clear H
  | H : context [length _ = _] |- _ => match type of H with (_ + _ = _) => fail 1 | _ => clear H end
  end; lia.

Lemma extract_loop_ok : forall outs i lwe kb pb err,
  0 <= i -> i + Z.of_nat (length outs) = count ->
  Forall (fun o => length o = S (length s_small)) outs -> lwe_wf w (length s_big) lwe ->
  length kb = S (length s_small) -> length pb = S (length s_big) ->
  eqm (2 ^ w) (phase w s_big lwe) (m / 2 ^ i * 2 ^ (delta + i) + err) -> Z.abs err <= e0 + i * Ebs ->
  exists res, extract_loop p w pbs ks N gs delta count outs i lwe kb pb = Ret res /\ length res = length outs /\
    forall t o, nth_error res t = Some o -> lwe_wf w (length s_small) o /\
      exists e, Z.abs e <= extract_error w delta e0 Ebs Eks (i + Z.of_nat t) /\
        eqm (2 ^ w) (phase w s_small o) (m / 2 ^ (i + Z.of_nat t) mod 2 * 2 ^ (w - 1) + e).
Proof using All.
  change (2 ^ 64) with (2 ^ usize_bits) in Hw64.
  induction outs as [|out outs IH]; intros i lwe kb pb err Hi Hlen Houts Hlwe Hkb Hpb Hph Herr.
  { exists []. split; [reflexivity|]. split; [reflexivity|]. intros t o H. destruct t; discriminate. }
  cbn [length] in Hlen. rewrite Nat2Z.inj_succ in Hlen. cbn [extract_loop].
  rewrite plain_ok by ix. cbn [obind]. rewrite plain_ok by ix. cbn [obind]. rewrite plain_ok by ix. cbn [obind].
  set (sh := w - delta - i - 1). assert (Hsh : 0 <= sh < w) by (subst sh; ix).
  rewrite (omap_ok _ (fun x => shl w x sh)) by (intros; apply shl_ok; ix). cbn [obind].
  assert (Hws : lwe_wf w (length s_big) (map (fun x => shl w x sh) lwe)).
  { split; [rewrite map_length; apply Hlwe|]. apply words_map. intros a. apply shl_word. ix. }
  assert (Hps : eqm (2 ^ w) (phase w s_big (map (fun x => shl w x sh) lwe)) (m / 2 ^ i * 2 ^ (w - 1) + err * 2 ^ sh)).
  { rewrite phase_eqm. rewrite (raw_map (2 ^ w) _ (2 ^ sh) (length s_big)); [|intros; rewrite shl_eqm; apply eqm_eq; ring|apply Hlwe].
    rewrite <- (phase_eqm w s_big lwe), Hph. apply eqm_eq. rewrite Z.mul_add_distr_l.
    replace (2 ^ (w - 1)) with (2 ^ sh * 2 ^ (delta + i)) by (rewrite <- Z.pow_add_r by (subst sh; ix); f_equal; subst sh; clear; lia). ring. }
  destruct (Hks kb _ Hkb Hws) as (kb' & e1 & -> & Wkb & He1 & Hpk). cbn [obind].
  unfold copy_slice. pose proof (Forall_inv Houts) as Lout. cbn beta in Lout.
  replace (Nat.eqb (length out) (length kb')) with true by (symmetry; apply Nat.eqb_eq; destruct Wkb; congruence). cbn [assert_ obind].
  rewrite plain_ok by ix. cbn [obind].
  assert (Hshe : Z.abs (err * 2 ^ sh) <= (e0 + i * Ebs) * 2 ^ sh).
  { rewrite Z.abs_mul, (Z.abs_eq (2 ^ sh)) by (apply Z.pow_nonneg; clear; lia). apply Z.mul_le_mono_nonneg_r; [apply Z.pow_nonneg; clear; lia|exact Herr]. }
  assert (Hk1 : eqm (2 ^ w) (phase w s_small kb') (m / 2 ^ i * 2 ^ (w - 1) + (err * 2 ^ sh + e1))).
  { rewrite Hpk, Hps. apply eqm_eq. ring. }
  assert (Hr : Z.abs (err * 2 ^ sh + e1) <= extract_error w delta e0 Ebs Eks i) by (unfold extract_error; fold sh; clear - He1 Hshe; set (A := err * 2 ^ sh) in *; set (C := (e0 + i * Ebs) * 2 ^ sh) in *; clearbody A C; lia).
  assert (Hbit : eqm (2 ^ w) (phase w s_small kb') (m / 2 ^ i mod 2 * 2 ^ (w - 1) + (err * 2 ^ sh + e1))).
  { rewrite Hk1. rewrite (Z.div_mod (m / 2 ^ i) 2) at 1 by (clear; lia). rewrite (half_double w) by ix.
    unfold eqm. rewrite <- (Z.mod_add (m / 2 ^ i mod 2 * 2 ^ (w - 1) + (err * 2 ^ sh + e1)) (m / 2 ^ i / 2)) by (pose proof (pow2_pos (w - 1) ltac:(ix)) as HH; clear - HH; lia).
    f_equal. ring. }
  destruct (Z.eqb_spec i (count - 1)) as [Hlast|Hlast].
  - exists (kb' :: outs). split; [reflexivity|]. split; [reflexivity|]. assert (outs = []) as -> by (destruct outs; [reflexivity|cbn [length] in Hlen; clear - Hlen Hlast; lia]).
    intros t o Ht. destruct t as [|t]; [|destruct t; discriminate]. cbn in Ht. injection Ht as <-. split; [exact Wkb|].
    exists (err * 2 ^ sh + e1). change (Z.of_nat 0) with 0. rewrite Z.add_0_r. split; [exact Hr|exact Hbit].
  - rewrite shl_ok by ix. cbn [obind].
    destruct (add_to_body_ok w s_small kb' (length s_small) (shl w 1 (w - 2)) ltac:(ix) Wkb) as (kb2 & -> & Wkb2 & Hk2). cbn [obind].
    rewrite plain_ok by ix. cbn [obind]. rewrite plain_ok by ix. cbn [obind]. rewrite shl_ok by ix. cbn [obind].
    destruct (sign_of_bit w N gs s_small s_big M Ebs pbs kb2 pb (wsub w 0 (shl w 1 (delta - 1 + i))) (m / 2 ^ i) (err * 2 ^ sh + e1)
       (extract_error w delta e0 Ebs Eks i)) as (pb2 & e2 & E2 & Wpb2 & He2 & Hp2); try assumption.
    { apply wsub_word. ix. }
    { rewrite Hk2, Hk1, shl_eqm. apply eqm_eq. ring. }
    { apply Hmargin. ix. }
    rewrite E2. cbn [obind]. rewrite plain_ok by ix. cbn [obind]. rewrite plain_ok by ix. cbn [obind]. rewrite shl_ok by ix. cbn [obind].
    destruct (add_to_body_ok w s_big pb2 (length s_big) (shl w 1 (delta + i - 1)) ltac:(ix) Wpb2) as (pb3 & -> & Wpb3 & Hp3). cbn [obind].
    destruct Hlwe as [Ll Fl]. destruct Wpb3 as [Lp Fp].
    rewrite zip_update_map2 by congruence.
    destruct (IH (i + 1) (map2 (wsub w) lwe pb3) kb2 pb3 (err - e2)) as (res & E3 & L3 & H3).
    + ix.
    + ix.
    + exact (Forall_inv_tail Houts).
    + apply wf_map2; [intros; apply wsub_word; ix|assumption|assumption].
    + apply Wkb2.
    + exact Lp.
    + rewrite (phase_sub w (length s_big) s_big lwe pb3) by assumption. unfold eqm. rewrite Z.mod_mod by (pose proof (pow2_pos w ltac:(ix)) as HH; clear - HH; lia).
      fold (eqm (2 ^ w) (phase w s_big lwe - phase w s_big pb3) (m / 2 ^ (i + 1) * 2 ^ (delta + (i + 1)) + (err - e2))).
      rewrite Hph, Hp3, Hp2, wsub_eqm, !shl_eqm.
      assert (D1 : m / 2 ^ (i + 1) = m / 2 ^ i / 2) by (rewrite Z.pow_add_r by ix; rewrite <- Z.div_div by first [clear; lia|apply Z.pow_nonzero; ix|apply pow2_pos; ix|lia]; reflexivity).
      assert (D2 : 2 ^ (delta + (i + 1)) = 4 * 2 ^ (delta + i - 1)) by (replace (delta + (i + 1)) with (2 + (delta + i - 1)) by (clear; lia); rewrite Z.pow_add_r by ix; reflexivity).
      assert (D3 : 2 ^ (delta + i) = 2 * 2 ^ (delta + i - 1)) by (rewrite (half_double (delta + i)) by ix; reflexivity).
      rewrite D1, D2, D3. replace (delta - 1 + i) with (delta + i - 1) by (clear; lia). set (u := 2 ^ (delta + i - 1)). set (v := m / 2 ^ i).
      apply eqm_eq. rewrite (Z.div_mod v 2) at 1 by (clear; lia). ring.
    + clear - Herr He2; lia.
    + rewrite E3. cbn [obind]. exists (kb' :: res). split; [reflexivity|]. split; [cbn; congruence|].
      intros t o Ht. destruct t as [|t].
      * cbn in Ht. injection Ht as <-. split; [exact Wkb|]. exists (err * 2 ^ sh + e1). change (Z.of_nat 0) with 0. rewrite Z.add_0_r. split; [exact Hr|exact Hbit].
      * cbn in Ht. destruct (H3 t o Ht) as (Wo & e & He & Ho). split; [exact Wo|]. exists e.
        replace (i + Z.of_nat (S t)) with (i + 1 + Z.of_nat t) by (clear; lia). split; assumption.
Qed.

Lemma extract_bits_ok outs lwe err :
  length s_big = ((gs - 1) * N)%nat ->
  Z.of_nat (length outs) = count -> Forall (fun o => length o = S (length s_small)) outs -> lwe_wf w (length s_big) lwe ->
  eqm (2 ^ w) (phase w s_big lwe) (m * 2 ^ delta + err) -> Z.abs err <= e0 ->
  exists res, extract_bits p w pbs ks N gs (length s_small) (length s_small) delta count outs lwe = Ret res /\ length res = length outs /\
    forall t o, nth_error res t = Some o -> lwe_wf w (length s_small) o /\
      exists e, Z.abs e <= extract_error w delta e0 Ebs Eks (count - 1 - Z.of_nat t) /\
        eqm (2 ^ w) (phase w s_small o) (m / 2 ^ (count - 1 - Z.of_nat t) mod 2 * 2 ^ (w - 1) + e).
Proof using All.
  intros Hsb Hlen Hf Hlwe Hph Herr. unfold extract_bits.
  replace (count + delta <=? w) with true by (symmetry; apply Z.leb_le; lia). rewrite debug_true. cbn [obind].
  replace (forallb _ outs) with true by (symmetry; apply forallb_forall; intros o Ho; rewrite Forall_forall in Hf; rewrite (Hf o Ho); apply Nat.eqb_eq; lia).
  rewrite debug_true. cbn [obind].
  replace (_ =? count) with true by (symmetry; apply Z.eqb_eq; lia). rewrite debug_true. cbn [obind].
  replace (Nat.eqb (length lwe) _) with true by (symmetry; apply Nat.eqb_eq; rewrite <- Hsb; apply Hlwe). rewrite debug_true. cbn [obind].
  rewrite Nat.eqb_refl, debug_true. cbn [obind].
  destruct (extract_loop_ok (rev outs) 0 lwe (repeat 0 (S (length s_small))) (repeat 0 (S ((gs - 1) * N))) err) as (res & E & L & H).
  - lia.
  - rewrite rev_length. lia.
  - apply Forall_rev. exact Hf.
  - exact Hlwe.
  - apply repeat_length.
  - rewrite repeat_length. lia.
  - rewrite Z.pow_0_r, Z.div_1_r, Z.add_0_r. exact Hph.
  - lia.
  - rewrite E. cbn [obind]. rewrite rev_length in L. exists (rev res). split; [reflexivity|]. split; [rewrite rev_length; exact L|].
    intros t o Ht. assert (Hlt : (t < length res)%nat) by (rewrite <- rev_length; apply nth_error_Some; congruence).
    assert (Ht' : nth_error res (length res - 1 - t) = Some o).
    { rewrite <- Ht. rewrite (nth_error_nth' res []) by lia. rewrite (nth_error_nth' (rev res) []) by (rewrite rev_length; lia).
      f_equal. rewrite rev_nth by lia. f_equal. lia. }
    destruct (H _ _ Ht') as (W & e & He & Ho). split; [exact W|]. exists e.
    replace (count - 1 - Z.of_nat t) with (0 + Z.of_nat (length res - 1 - t)) by (clear - L Hlen Hlt; lia). split; assumption.
Qed.
End Extract.
