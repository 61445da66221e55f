(** * Lemmas about the keyswitch loops *)
From Verif Require Import Base Word WordFacts NegaRing PolySpec RingSum DecompModel DecompProofs ExtProdProofs
  LweSpec LweModel LweProofs GlweSpec GlweModel GlweProofs PolyModel PolyProofs KeyswitchModel KeyswitchSpec.

(** ** Sums *)
Lemma zsum_0 f : zsum 0 f = 0.
Proof. reflexivity. Qed.
Lemma zsum_S n f : zsum (S n) f = zsum n f + f n.
Proof. unfold zsum. cbn [sumz]. rewrite Nat2Z.id. reflexivity. Qed.
Lemma zsum_ext n f g : (forall i, (i < n)%nat -> f i = g i) -> zsum n f = zsum n g.
Proof. intros H. apply sumz_ext. intros i Hi. apply H. lia. Qed.
Lemma zsum_eqm q n f g : (forall i, (i < n)%nat -> eqm q (f i) (g i)) -> eqm q (zsum n f) (zsum n g).
Proof. intros H. apply sumz_eqm. intros i Hi. apply H. lia. Qed.
Lemma zsum_add n f g : zsum n (fun i => f i + g i) = zsum n f + zsum n g.
Proof. apply sumz_add. Qed.
Lemma zsum_mul_l n c f : zsum n (fun i => c * f i) = c * zsum n f.
Proof. apply sumz_mul_l. Qed.
Lemma zsum_mul_r n c f : zsum n (fun i => f i * c) = zsum n f * c.
Proof. apply sumz_mul_r. Qed.
Lemma zsum_S_l n f : zsum (S n) f = f O + zsum n (fun i => f (S i)).
Proof.
  unfold zsum. rewrite sumz_S_l. f_equal. apply sumz_ext. intros i Hi. f_equal. lia.
Qed.
Lemma zsum_rev n f : zsum n (fun i => f (n - 1 - i)%nat) = zsum n f.
Proof.
  unfold zsum. rewrite <- (sumz_rev n (fun i => f (Z.to_nat i))). apply sumz_ext. intros i Hi. f_equal. lia.
Qed.
Lemma zsum_abs n f g : (forall i, (i < n)%nat -> Z.abs (f i) <= g i) -> Z.abs (zsum n f) <= zsum n g.
Proof. intros H. apply sumz_abs. intros i Hi. apply H. lia. Qed.
Lemma zsum_const n c : zsum n (fun _ => c) = Z.of_nat n * c.
Proof. unfold zsum. apply (sumz_const n c). Qed.
Lemma zsum_le_const n f B : (forall i, (i < n)%nat -> Z.abs (f i) <= B) -> Z.abs (zsum n f) <= Z.of_nat n * B.
Proof. intros H. rewrite <- zsum_const. apply zsum_abs. assumption. Qed.
Lemma dot_zsum a s : length a = length s -> dot a s = zsum (length a) (fun i => nth i a 0 * nth i s 0).
Proof.
  revert s. induction a as [|x a IH]; intros [|y s] H; try discriminate; [reflexivity|].
  cbn [length] in *. rewrite zsum_S_l. cbn [nth dot]. rewrite IH by lia. reflexivity.
Qed.

(** ** The loops, for any output type with Z-valued linear observations *)
Section Core.
Context {A K : Type} (p : profile) (w : Z) (d : decomposer) (Hd : dec_wf w d) (sub_mul : A -> A -> Z -> outcome A)
  (wf : A -> Prop) (phi : K -> A -> Z).
Hypothesis Hsub : forall o r x, wf o -> wf r -> is_word w x ->
  exists o', sub_mul o r x = Ret o' /\ wf o' /\ forall k, eqm (2 ^ w) (phi k o') (phi k o - x * phi k r).

Lemma ks_levels_ok dflt : forall l rows it o, iter_inv w d it -> it_current_level it = l -> length rows = l ->
  Forall wf rows -> wf o ->
  exists o', ks_levels p w sub_mul rows it o = Ret o' /\ wf o' /\
    forall k, eqm (2 ^ w) (phi k o')
      (phi k o - zsum l (fun t => dgt w (base_log d) l t (it_state it) * phi k (nth t rows dflt))).
Proof.
  pose proof Hd as (H1 & H2 & H3 & H4).
  induction l as [|l IH]; intros rows it o Hi El Hl Hr Ho.
  - destruct rows; [|discriminate]. exists o. cbn [ks_levels]. split; [reflexivity|]. split; [assumption|].
    intros k. apply eqm_eq. rewrite zsum_0. lia.
  - destruct rows as [|row rows]; [discriminate|]. injection Hl as Hl.
    pose proof (Forall_inv Hr) as Hrow. apply Forall_inv_tail in Hr.
    destruct (sdi_next_some p w d it l Hd Hi El) as (D & st' & it' & E & En & Hi' & El' & Es' & _).
    cbn [ks_levels]. rewrite En. cbn [obind t_value].
    assert (HD : is_word w D).
    { unfold decompose_one_level in E. apply (f_equal fst) in E. cbn [fst] in E. rewrite <- E. apply wsub_word. nia. }
    destruct (Hsub o row D Ho Hrow HD) as (o1 & E1 & Ho1 & P1). rewrite E1. cbn [obind].
    destruct (IH rows it' o1 Hi' El' Hl Hr Ho1) as (o' & E' & Ho' & P'). exists o'. split; [assumption|].
    split; [assumption|]. intros k. rewrite P', P1. apply eqm_eq. rewrite zsum_S_l. cbn [nth].
    rewrite dgt_0, E. cbn [fst].
    rewrite (zsum_ext l (fun t => dgt w (base_log d) (S l) (S t) (it_state it) * phi k (nth t rows dflt))
                        (fun t => dgt w (base_log d) l t (it_state it') * phi k (nth t rows dflt))); [lia|].
    intros t Ht. rewrite dgt_S, E, Es'. reflexivity.
Qed.

Lemma ks_blocks_ok dflt : forall blocks xs o, length blocks = length xs -> Forall (is_word w) xs ->
  Forall (fun bl => length bl = level_count d /\ Forall wf bl) blocks -> wf o ->
  exists o', ks_blocks p w sub_mul d blocks xs o = Ret o' /\ wf o' /\
    forall k, eqm (2 ^ w) (phi k o')
      (phi k o - zsum (length xs) (fun i => zsum (level_count d) (fun j =>
         sdigit w d (level_count d - 1 - j) (nth i xs 0) * phi k (nth j (nth i blocks []) dflt)))).
Proof.
  induction blocks as [|bl blocks IH]; intros [|x xs] o Hl Hx Hb Ho; try discriminate.
  - exists o. cbn [ks_blocks length]. split; [reflexivity|]. split; [assumption|]. intros k. apply eqm_eq. rewrite zsum_0. lia.
  - pose proof (Forall_inv Hx) as Hx0. apply Forall_inv_tail in Hx. destruct (Forall_inv Hb) as [Hbl Hbw]. apply Forall_inv_tail in Hb.
    cbn [ks_blocks]. rewrite closest_representable_ok by assumption. cbn [obind].
    pose proof (closest_word w d Hd x) as Hc.
    assert (Ecc : closest_representable w d (closest_representable w d x) = closest_representable w d x).
    { apply closest_fixpoint; [assumption|assumption|]. apply closest_multiple; assumption. }
    destruct (decompose_ok p w d _ Hd Hc) as (it & E & Hi & _ & El & Es). rewrite E. cbn [obind].
    rewrite Ecc in Es.
    destruct (ks_levels_ok dflt (level_count d) (rev bl) it o Hi El) as (o1 & E1 & Ho1 & P1);
      [rewrite rev_length; assumption|apply Forall_rev; assumption|assumption|].
    rewrite E1. cbn [obind].
    destruct (IH xs o1) as (o' & E' & Ho' & P'); [cbn in Hl; lia|assumption|assumption|assumption|].
    exists o'. split; [assumption|]. split; [assumption|]. intros k. rewrite P', P1.
    cbn [length]. rewrite zsum_S_l. cbn [nth].
    rewrite <- (zsum_rev (level_count d) (fun t => dgt w (base_log d) (level_count d) t (it_state it) * phi k (nth t (rev bl) dflt))).
    match goal with |- eqm _ (phi k o - ?a - ?b) (phi k o - (?c + ?e)) => assert (Eac : eqm (2 ^ w) a c) end.
    { apply zsum_eqm. intros j Hj. rewrite Es. rewrite rev_nth by lia.
      replace (length bl - S (level_count d - 1 - j))%nat with j by lia.
      unfold sdigit. rewrite sgn_eqm. reflexivity. }
    rewrite Eac. apply eqm_eq. lia.
Qed.
End Core.
