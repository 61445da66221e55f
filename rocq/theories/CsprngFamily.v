(** Fork families never reuse a table position: the invariant and its induction. *)
From Verif Require Import Base CsprngModel CsprngSpec CsprngProofs.

Lemma zseq_length n : forall a, length (zseq a n) = n.
Proof. induction n; intros; cbn; auto. Qed.

Lemma nth_error_zseq n : forall a i, (i < n)%nat -> nth_error (zseq a n) i = Some (a + Z.of_nat i).
Proof.
  induction n as [|n IH]; intros a i Hi; [lia|].
  destruct i; cbn [zseq nth_error]; [f_equal; lia|]. rewrite IH by lia. f_equal; lia.
Qed.

Lemma in_zseq n : forall a x, In x (zseq a n) <-> a <= x < a + Z.of_nat n.
Proof.
  induction n as [|n IH]; intros a x; cbn [zseq In]; [lia|]. rewrite IH. lia.
Qed.

Lemma nth_error_set_nth {A} (l : list A) i x j : (i < length l)%nat ->
  nth_error (set_nth l i x) j = if Nat.eqb j i then Some x else nth_error l j.
Proof.
  revert i j; induction l as [|a l IH]; intros i j Hi; [cbn in Hi; lia|].
  destruct i as [|i].
  - unfold set_nth; cbn [firstn skipn app]. destruct j; reflexivity.
  - unfold set_nth. cbn [firstn skipn app]. destruct j as [|j]; [reflexivity|].
    cbn [nth_error Nat.eqb]. apply (IH i j). cbn in Hi; lia.
Qed.

Lemma set_nth_length {A} (l : list A) i x : (i < length l)%nat -> length (set_nth l i x) = length l.
Proof.
  intros H. unfold set_nth. rewrite app_length; cbn [length]. rewrite firstn_length, skipn_length. lia.
Qed.

Section Fam.
  Context {B : Type}.
  Variable enc : Z -> list B.
  Hypothesis Henc : cipher_wf enc.

  Definition in_iv (q : Z) (iv : Z * Z) : Prop := fst iv <= q < snd iv.
  Definition in_some (q : Z) (ivs : list (Z * Z)) : Prop :=
    exists i iv, nth_error ivs i = Some iv /\ in_iv q iv.

  (** [ivs] are the table intervals still owned by the members of [fam]. *)
  Record FInv (lim : Z) (ivs : list (Z * Z)) (fam : list (generator B)) : Prop := {
    fi_len : length ivs = length fam;
    fi_inv : forall i lo hi g, nth_error ivs i = Some (lo, hi) -> nth_error fam i = Some g ->
             GInv enc lo hi g;
    fi_lim : forall i lo hi, nth_error ivs i = Some (lo, hi) -> lo <= lim;
    fi_disj : forall i j a b c d, i <> j -> nth_error ivs i = Some (a, b) ->
              nth_error ivs j = Some (c, d) -> b <= c \/ d <= a }.

  (** What a usize-typed operation may carry. *)
  Definition op_usize (o : fam_op) : Prop :=
    match o with FNext _ => True | FFork _ n nb => 0 <= n < 2 ^ 64 /\ 0 <= nb < 2 ^ 64 end.
  (** The product of the fork sizes fits a usize. *)
  Definition op_fits (o : fam_op) : Prop :=
    match o with FNext _ => True | FFork _ n nb => n * nb < 2 ^ 64 end.

  Lemma fork_children_ok lo nb n child :
    (forall i, 0 <= i < n -> exists c, child i = Ret c /\ GInv enc (lo + nb * i) (lo + nb * (i + 1)) c) ->
    exists cs, fork_children child n = Ret cs /\ length cs = Z.to_nat n /\
      forall i c, nth_error cs i = Some c ->
        GInv enc (lo + nb * Z.of_nat i) (lo + nb * (Z.of_nat i + 1)) c.
  Proof.
    intros H. unfold fork_children.
    assert (G : forall k a, 0 <= a -> a + Z.of_nat k <= n ->
      exists cs, omap child (zseq a k) = Ret cs /\ length cs = k /\
        forall i c, nth_error cs i = Some c ->
          GInv enc (lo + nb * (a + Z.of_nat i)) (lo + nb * (a + Z.of_nat i + 1)) c).
    { induction k as [|k IH]; intros a Ha Hk.
      - exists []. split; [reflexivity|split; [reflexivity|]]. intros [|i] c; discriminate.
      - destruct (H a) as (c0 & E0 & H0); [lia|].
        destruct (IH (a + 1)) as (cs & E & Hl & Hc); [lia|lia|].
        exists (c0 :: cs). cbn [zseq omap]. rewrite E0. cbn [obind]. rewrite E. cbn [obind].
        split; [reflexivity|split; [cbn; lia|]]. intros [|i] c; cbn [nth_error]; intros Hn.
        + injection Hn as <-. replace (a + Z.of_nat 0) with a by lia. assumption.
        + apply Hc in Hn. replace (a + Z.of_nat (S i)) with (a + 1 + Z.of_nat i) by lia. assumption. }
    destruct (Z.lt_ge_cases n 0) as [Hneg|Hpos].
    - exists []. replace (Z.to_nat n) with 0%nat by lia. 
      split; [reflexivity|split; [reflexivity|]]. intros [|i] c; discriminate.
    - destruct (G (Z.to_nat n) 0) as (cs & E & Hl & Hc); [lia|lia|].
      exists cs. split; [exact E|split; [exact Hl|exact Hc]].
  Qed.

  Lemma FInv_next lim ivs fam i lo hi g' : FInv lim ivs fam -> nth_error ivs i = Some (lo, hi) ->
    lo < hi -> GInv enc (lo + 1) hi g' ->
    FInv (lim + 1) (set_nth ivs i (lo + 1, hi)) (set_nth fam i g').
  Proof.
    intros [Hl Hi Hlim Hd] Hn Hlt Hg.
    assert (Hib : (i < length ivs)%nat) by (apply nth_error_Some; congruence).
    assert (Hfb : (i < length fam)%nat) by lia.
    constructor.
    - rewrite !set_nth_length by assumption. assumption.
    - intros j a b g. rewrite !nth_error_set_nth by assumption.
      destruct (Nat.eqb_spec j i) as [->|]; [|apply Hi].
      intros E1 E2. injection E1 as <- <-. injection E2 as <-. assumption.
    - intros j a b. rewrite nth_error_set_nth by assumption.
      destruct (Nat.eqb_spec j i) as [->|].
      + intros E; injection E as <- <-. apply Hlim in Hn. lia.
      + intros E. apply Hlim in E. lia.
    - intros j k a b c d Hjk. rewrite !nth_error_set_nth by assumption.
      destruct (Nat.eqb_spec j i) as [->|], (Nat.eqb_spec k i) as [->|]; try lia.
      + intros E1 E2. injection E1 as <- <-.
        destruct (Hd i k lo hi c d Hjk Hn E2); lia.
      + intros E1 E2. injection E2 as <- <-.
        destruct (Hd j i a b lo hi Hjk E1 Hn); lia.
      + apply Hd; assumption.
  Qed.

  Definition child_ivs (lo nb n : Z) : list (Z * Z) :=
    map (fun i => (lo + nb * i, lo + nb * (i + 1))) (zseq 0 (Z.to_nat n)).

  Lemma nth_child_ivs lo nb n i iv : nth_error (child_ivs lo nb n) i = Some iv ->
    (i < Z.to_nat n)%nat /\ iv = (lo + nb * Z.of_nat i, lo + nb * (Z.of_nat i + 1)).
  Proof.
    unfold child_ivs. intros E.
    assert (Hi : (i < Z.to_nat n)%nat).
    { rewrite <- (zseq_length (Z.to_nat n) 0), <- (map_length (fun i => (lo + nb * i, lo + nb * (i + 1)))).
      apply nth_error_Some. congruence. }
    split; [assumption|].
    rewrite nth_error_map, nth_error_zseq in E by assumption. cbn in E. injection E as <-. reflexivity.
  Qed.

  Lemma FInv_fork lim ivs fam i lo hi n nb parent cs : FInv lim ivs fam ->
    nth_error ivs i = Some (lo, hi) -> 0 < n -> 0 < nb -> n * nb < 2 ^ 64 -> n * nb <= hi - lo ->
    GInv enc (lo + n * nb) hi parent -> length cs = Z.to_nat n ->
    (forall j c, nth_error cs j = Some c ->
       GInv enc (lo + nb * Z.of_nat j) (lo + nb * (Z.of_nat j + 1)) c) ->
    FInv (lim + 2 ^ 64) (set_nth ivs i (lo + n * nb, hi) ++ child_ivs lo nb n)
         (set_nth fam i parent ++ cs).
  Proof.
    intros [Hl Hi Hlim Hd] Hn Hnp Hnb Hov Hfit Hp Hcl Hcs.
    assert (Hib : (i < length ivs)%nat) by (apply nth_error_Some; congruence).
    assert (Hfb : (i < length fam)%nat) by lia.
    assert (Hlo : lo <= lim) by (eapply Hlim; eassumption).
    assert (Hil : length (set_nth ivs i (lo + n * nb, hi)) = length (set_nth fam i parent))
      by (rewrite !set_nth_length by assumption; assumption).
    assert (Hcb : forall j, (j < Z.to_nat n)%nat -> 0 <= nb * Z.of_nat j /\ nb * (Z.of_nat j + 1) <= n * nb)
      by (intros; nia).
    constructor.
    - rewrite !app_length, Hil, Hcl. unfold child_ivs. rewrite map_length, zseq_length. reflexivity.
    - intros j a b g E1 E2.
      destruct (Nat.lt_ge_cases j (length (set_nth fam i parent))) as [Hj|Hj].
      + rewrite nth_error_app1 in E1 by lia. rewrite nth_error_app1 in E2 by lia.
        rewrite nth_error_set_nth in E1 by assumption. rewrite nth_error_set_nth in E2 by assumption.
        destruct (Nat.eqb_spec j i) as [->|]; [|eapply Hi; eassumption].
        injection E1 as <- <-. injection E2 as <-. assumption.
      + rewrite nth_error_app2 in E1 by lia. rewrite nth_error_app2 in E2 by lia. rewrite Hil in E1.
        apply nth_child_ivs in E1. destruct E1 as [_ E1]. injection E1 as -> ->. apply Hcs; assumption.
    - intros j a b E1.
      destruct (Nat.lt_ge_cases j (length (set_nth fam i parent))) as [Hj|Hj].
      + rewrite nth_error_app1 in E1 by lia. rewrite nth_error_set_nth in E1 by assumption.
        destruct (Nat.eqb_spec j i) as [->|].
        * injection E1 as <- <-. lia.
        * apply Hlim in E1. lia.
      + rewrite nth_error_app2 in E1 by lia.
        apply nth_child_ivs in E1. destruct E1 as [Hj' E1]. injection E1 as -> ->.
        specialize (Hcb _ Hj'). lia.
    - (* where an interval of the new family lies with respect to the old ones *)
      intros j k a b c d Hjk E1 E2.
      assert (Old : forall m x y, m <> i -> nth_error ivs m = Some (x, y) -> y <= lo \/ hi <= x).
      { intros m x y Hm E. destruct (Hd i m lo hi x y (not_eq_sym Hm) Hn E); lia. }
      set (L := length (set_nth fam i parent)) in *.
      assert (Cl : forall m x y, nth_error (set_nth ivs i (lo + n * nb, hi) ++ child_ivs lo nb n) m = Some (x, y) ->
        (m = i /\ x = lo + n * nb /\ y = hi /\ (m < L)%nat) \/
        (m <> i /\ (m < L)%nat /\ nth_error ivs m = Some (x, y)) \/
        ((L <= m)%nat /\ ((m - L) < Z.to_nat n)%nat /\ x = lo + nb * Z.of_nat (m - L)
          /\ y = lo + nb * (Z.of_nat (m - L) + 1))).
      { intros m x y E. destruct (Nat.lt_ge_cases m L) as [Hm|Hm].
        - rewrite nth_error_app1 in E by lia. rewrite nth_error_set_nth in E by assumption.
          destruct (Nat.eqb_spec m i) as [->|]; [left; injection E as <- <-; auto | right; left; auto].
        - rewrite nth_error_app2 in E by lia. rewrite Hil in E.
          apply nth_child_ivs in E. destruct E as [Hm' E]. injection E as -> ->. right; right; auto. }
      pose proof (Cl j a b E1) as C1. pose proof (Cl k c d E2) as C2. clear Cl.
      destruct C1 as [(-> & -> & -> & ?)|[(Hji & Hj & E1')|(Hj & Hj' & -> & ->)]];
      destruct C2 as [(-> & -> & -> & ?)|[(Hki & Hk & E2')|(Hk & Hk' & -> & ->)]]; try lia.
      + destruct (Old k c d Hki E2'); lia.
      + specialize (Hcb _ Hk'). lia.
      + destruct (Old j a b Hji E1'); lia.
      + exact (Hd j k a b c d Hjk E1' E2').
      + specialize (Hcb _ Hk'). destruct (Old j a b Hji E1'); lia.
      + specialize (Hcb _ Hj'). lia.
      + specialize (Hcb _ Hj'). destruct (Old k c d Hki E2'); lia.
      + assert (Hne : (j - L)%nat <> (k - L)%nat) by lia.
        destruct (Nat.lt_ge_cases (j - L) (k - L)); [left|right]; nia.
  Qed.

  (** Every output of a history is the table byte of a position owned by the initial family,
      and no position is used twice. *)
  Lemma fam_run_positions p ops : forall lim ivs fam,
    FInv lim ivs fam ->
    lim + Z.of_nat (length ops) * 2 ^ 64 < table_size - 2 ^ 65 ->
    Forall op_usize ops -> (p = Release -> Forall op_fits ops) ->
    exists us, Forall2 (fun b q => table_byte enc q = Some b) (fam_run p fam ops) us /\
      NoDup us /\ (forall u, In u us -> in_some u ivs).
  Proof.
    induction ops as [|o ops IH]; intros lim ivs fam HF Hlim Hu Hfit.
    - exists []. split; [constructor|split; [constructor | intros u []]].
    - cbn [length] in Hlim. cbn [fam_run].
      inversion Hu as [|o' ops' Hu1 Hu2]; subst.
      assert (Hfit2 : p = Release -> Forall op_fits ops)
        by (intros E; specialize (Hfit E); inversion Hfit; assumption).
      assert (Skip : exists us,
        Forall2 (fun b q => table_byte enc q = Some b) ([] ++ fam_run p fam ops) us /\
        NoDup us /\ (forall u, In u us -> in_some u ivs)).
      { apply (IH lim); auto. lia. }
      destruct o as [i | i n nb]; cbn [fam_step].
      + destruct (nth_error fam i) as [g|] eqn:Eg; [|exact Skip].
        destruct (nth_error ivs i) as [[lo hi]|] eqn:Ei.
        2:{ apply nth_error_None in Ei. rewrite (fi_len _ _ _ HF) in Ei.
            apply nth_error_None in Ei. congruence. }
        pose proof (fi_inv _ _ _ HF _ _ _ _ Ei Eg) as Hg.
        pose proof (fi_lim _ _ _ HF _ _ _ Ei) as Hlo.
        destruct (Z.lt_ge_cases lo hi) as [Hlt|Hge].
        * destruct (gen_next_some enc Henc p lo hi g Hg Hlt) as (b & g' & E & Hb & Hg').
          { right. unfold debug_limit. lia. }
          rewrite E. cbn [obind].
          destruct (IH (lim + 1) _ _ (FInv_next _ _ _ _ _ _ _ HF Ei Hlt Hg')) as (us & F & ND & Hin);
            auto; [lia|].
          exists (lo :: us). cbn [app].
          assert (Hib : (i < length ivs)%nat) by (apply nth_error_Some; congruence).
          assert (Sub : forall u, in_some u (set_nth ivs i (lo + 1, hi)) -> in_some u ivs /\ u <> lo).
          { intros u (j & iv & Ej & Hiv). rewrite nth_error_set_nth in Ej by assumption.
            destruct (Nat.eqb_spec j i) as [->|Hji].
            - injection Ej as <-. unfold in_iv in Hiv; cbn in Hiv. split; [|lia].
              exists i, (lo, hi). split; [assumption|]. unfold in_iv; cbn; lia.
            - split; [exists j, iv; auto|]. destruct iv as [c d].
              intros ->. unfold in_iv in Hiv; cbn in Hiv.
              destruct (fi_disj _ _ _ HF i j lo hi c d (not_eq_sym Hji) Ei Ej); lia. }
          split; [|split].
          -- constructor; assumption.
          -- constructor; [|assumption]. intros Hlo'. apply Hin, Sub in Hlo'. lia.
          -- intros u [<-|Hu']; [|apply Sub; auto].
             exists i, (lo, hi). split; [assumption|]. unfold in_iv; cbn; lia.
        * rewrite (gen_next_none enc p lo hi g Hg Hge). cbn [obind].
          replace (set_nth fam i g) with fam; [exact Skip|].
          symmetry. unfold set_nth. clear -Eg. revert i Eg.
          induction fam as [|x fam IHf]; intros [|i] Eg; cbn in *; try discriminate.
          -- injection Eg as ->. reflexivity.
          -- f_equal. apply IHf. assumption.
      + destruct (nth_error fam i) as [g|] eqn:Eg; [|exact Skip].
        destruct (nth_error ivs i) as [[lo hi]|] eqn:Ei.
        2:{ apply nth_error_None in Ei. rewrite (fi_len _ _ _ HF) in Ei.
            apply nth_error_None in Ei. congruence. }
        pose proof (fi_inv _ _ _ HF _ _ _ _ Ei Eg) as Hg.
        pose proof (fi_lim _ _ _ HF _ _ _ Ei) as Hlo.
        cbn [op_usize] in Hu1.
        destruct (Z.lt_ge_cases (n * nb) (2 ^ 64)) as [Hov|Hov].
        * destruct (try_fork_spec enc p lo hi g n nb Hg) as
            [(_ & E)|[(_ & _ & E)|[(_ & _ & _ & E)|(Hn & Hnb & Hle & child & parent & E & Hp & Hc)]]];
            try lia; try (rewrite E; cbn [obind]; exact Skip).
          rewrite E. cbn [obind].
          destruct (fork_children_ok lo nb n child Hc) as (cs & Ec & Hcl & Hcs).
          rewrite Ec. cbn [obind app].
          destruct (IH (lim + 2 ^ 64) _ _
            (FInv_fork _ _ _ _ _ _ _ _ _ _ HF Ei Hn Hnb Hov Hle Hp Hcl Hcs)) as (us & F & ND & Hin);
            auto; [lia|].
          exists us. split; [exact F|split; [exact ND|]]. intros u Hu'. apply Hin in Hu'.
          destruct Hu' as (j & iv & Ej & Hiv).
          assert (Hib : (i < length ivs)%nat) by (apply nth_error_Some; congruence).
          destruct (Nat.lt_ge_cases j (length ivs)) as [Hj|Hj].
          -- rewrite nth_error_app1 in Ej by (rewrite set_nth_length; assumption).
             rewrite nth_error_set_nth in Ej by assumption.
             destruct (Nat.eqb_spec j i) as [->|]; [|exists j, iv; auto].
             injection Ej as <-. exists i, (lo, hi). split; [assumption|].
             unfold in_iv in *; cbn in *. nia.
          -- rewrite nth_error_app2 in Ej by (rewrite set_nth_length; assumption).
             apply nth_child_ivs in Ej. destruct Ej as [Hj' ->].
             exists i, (lo, hi). split; [assumption|].
             unfold in_iv in *; cbn [fst snd] in *. revert Hj' Hiv.
             rewrite set_nth_length by assumption.
             generalize (j - length ivs)%nat as m. intros m Hm Hiv.
             assert (0 <= nb * Z.of_nat m) by nia.
             assert (nb * (Z.of_nat m + 1) <= nb * n) by nia. lia.
        * (* the product overflows: only possible with overflow checks, and it panics *)
          assert (Hd : p = Debug).
          { destruct p; [reflexivity|]. specialize (Hfit eq_refl). inversion Hfit; subst. cbn in *. lia. }
          subst p. unfold try_fork.
          destruct (Z.eqb_spec n 0); [subst; lia|]. destruct (Z.eqb_spec nb 0); [subst; lia|].
          unfold is_fork_in_bound, plain, usize_bits.
          destruct (Z.leb_spec 0 (n * nb)), (Z.ltb_spec (n * nb) (2 ^ 64)); try lia; cbn [andb obind];
            (exists []; split; [constructor|split; [constructor|intros u []]]).
  Qed.

  (** The table entries are pairwise distinct, as when every byte is tagged with its place. *)
  Definition table_injective : Prop := forall q q' b,
    0 <= q < table_size -> 0 <= q' < table_size ->
    table_byte enc q = Some b -> table_byte enc q' = Some b -> q = q'.

  Lemma fam_run_nodup p ops g0 : table_injective ->
    random_generator_new enc = Ret g0 ->
    Z.of_nat (length ops) <= 2 ^ 67 ->
    Forall op_usize ops -> (p = Release -> Forall op_fits ops) ->
    NoDup (fam_run p [g0] ops).
  Proof.
    intros Hinj Hnew Hlen Hu Hfit.
    destruct (from_block_cipher_ok enc TI_SECOND TI_LAST SECOND_wf LAST_wf) as (g & E & Hg).
    { unfold pos; cbn; lia. }
    unfold random_generator_new, gen_new in Hnew. rewrite E in Hnew. injection Hnew as <-.
    assert (HF : FInv 1 [(pos TI_SECOND, pos TI_LAST)] [g]).
    { constructor.
      - reflexivity.
      - intros [|[|i]] lo hi g0; cbn [nth_error]; try discriminate.
        intros E1 E2; injection E1 as <- <-; injection E2 as <-; assumption.
      - intros [|[|i]] lo hi; cbn [nth_error]; try discriminate.
        intros E1; injection E1 as <- <-; reflexivity.
      - intros [|[|i]] [|[|j]] a b c d; cbn [nth_error]; try discriminate. lia. }
    destruct (fam_run_positions p ops _ _ _ HF) as (us & F & ND & Hin); auto.
    { assert (table_size = 2 ^ 132) by reflexivity. lia. }
    assert (Hrange : forall u, In u us -> 0 <= u < table_size).
    { intros u Hu'. apply Hin in Hu'. destruct Hu' as ([|[|i]] & [a b] & Ei & Hiv); cbn [nth_error] in Ei; try discriminate.
      injection Ei as <- <-. unfold in_iv in Hiv; cbn [fst snd] in Hiv.
      pose proof (pos_range _ LAST_wf). pose proof (pos_range _ SECOND_wf). lia. }
    clear -F ND Hrange Hinj. induction F as [|b q bs us Hb F IH]; [constructor|].
    inversion ND; subst. constructor.
    - intros Hin.
      assert (exists q', In q' us /\ table_byte enc q' = Some b).
      { clear -F Hin. induction F as [|b' q' bs us H F IH]; [destruct Hin|].
        destruct Hin as [->|Hin]; [exists q'; split; [left; reflexivity|assumption]|].
        destruct (IH Hin) as (q'' & ? & ?). exists q''. split; [right; assumption|assumption]. }
      destruct H as (q' & Hq' & Hb').
      assert (q = q') by (eapply Hinj; [apply Hrange; left; reflexivity | apply Hrange; right; assumption | eassumption | eassumption]).
      subst. contradiction.
    - apply IH; auto. intros; apply Hrange; right; assumption.
  Qed.
End Fam.
