(** * Facts about the rounding of [FloatModel] *)
From Coq Require Import QArith Qpower Qabs Qround Lqa.
From Verif Require Import Base Word WordFacts FloatModel.
Open Scope Q_scope.

(** The unit roundoff of binary64. *)
Notation unit_roundoff := (1 # 9007199254740992).

Lemma Q2_neq : ~ 2 == 0. Proof. discriminate. Qed.
Lemma Q2_pos e : 0 < 2 ^ e.
Proof.
  destruct (Qle_lt_or_eq _ _ (Qpower_pos 2 e ltac:(discriminate))) as [H|H]; [exact H|].
  exfalso. symmetry in H. revert H. apply Qpower_not_0, Q2_neq.
Qed.
Lemma Q2_add a b : 2 ^ (a + b)%Z == 2 ^ a * 2 ^ b. Proof. apply Qpower_plus, Q2_neq. Qed.
Lemma Q2_Z e : (0 <= e)%Z -> 2 ^ e == inject_Z (2 ^ e)%Z.
Proof. intros. rewrite Zpower_Qpower by assumption. reflexivity. Qed.
Lemma Q2_opp e : 2 ^ (- e)%Z * 2 ^ e == 1.
Proof. rewrite <- Q2_add. replace (- e + e)%Z with 0%Z by lia. reflexivity. Qed.

Lemma floor_bounds q : inject_Z (Qfloor q) <= q < inject_Z (Qfloor q) + 1.
Proof.
  split; [apply Qfloor_le|]. pose proof (Qlt_floor q) as H. rewrite inject_Z_plus in H. exact H.
Qed.

Lemma round_even_err q : Qabs (inject_Z (round_even q) - q) <= 1 # 2.
Proof.
  pose proof (floor_bounds q) as [H1 H2]. unfold round_even.
  apply Qabs_Qle_condition.
  destruct (q - inject_Z (Qfloor q) ?= 1 # 2) eqn:E.
  - apply Qeq_alt in E. destruct (Z.even (Qfloor q)); [split; lra|]. rewrite inject_Z_plus. change (inject_Z 1) with 1. split; lra.
  - apply Qlt_alt in E. split; lra.
  - apply Qgt_alt in E. rewrite inject_Z_plus. change (inject_Z 1) with 1. split; lra.
Qed.

Lemma round_even_nonneg q : 0 <= q -> (0 <= round_even q)%Z.
Proof.
  intros H. assert (0 <= Qfloor q)%Z.
  { change 0%Z with (Qfloor 0). apply Qfloor_resp_le. exact H. }
  unfold round_even. destruct (_ ?= _); [destruct Z.even|..]; lia.
Qed.

Lemma round_even_int q z : q == inject_Z z -> round_even q = z.
Proof.
  intros H. unfold round_even. assert (E : Qfloor q = z) by (rewrite (Qfloor_comp _ _ H); apply Qfloor_Z).
  rewrite E. assert (E2 : (q - inject_Z z ?= 1 # 2) = Lt). { apply Qlt_alt. rewrite H. unfold Qminus. rewrite Qplus_opp_r. reflexivity. }
  now rewrite E2.
Qed.

Lemma inject_le a b : (a <= b)%Z -> inject_Z a <= inject_Z b. Proof. intros; now rewrite <- Zle_Qle. Qed.
Lemma inject_lt a b : (a < b)%Z -> inject_Z a < inject_Z b. Proof. intros; now rewrite <- Zlt_Qlt. Qed.

(** The exponent puts [|x| / 2^e] in [2^52, 2^53). *)
Lemma ulp_exp_spec x : ~ x == 0 -> 2 ^ 52 * 2 ^ ulp_exp x <= Qabs x < 2 ^ 53 * 2 ^ ulp_exp x.
Proof.
  intros Hx. unfold ulp_exp.
  assert (Hn : (0 < Z.abs (Qnum x))%Z). { destruct x as [n d]. unfold Qeq in Hx. cbn in *. lia. }
  pose proof (Z.log2_spec _ Hn) as [Ha1 Ha2].
  pose proof (Z.log2_spec (Zpos (Qden x)) (Pos2Z.is_pos _)) as [Hb1 Hb2].
  pose proof (Z.log2_nonneg (Z.abs (Qnum x))) as Pa. pose proof (Z.log2_nonneg (Zpos (Qden x))) as Pb.
  set (a := Z.log2 (Z.abs (Qnum x))) in *. set (b := Z.log2 (Zpos (Qden x))) in *.
  assert (Hd : Qabs x * inject_Z (Zpos (Qden x)) == inject_Z (Z.abs (Qnum x))).
  { destruct x as [n d]. unfold Qabs, Qmult, inject_Z, Qeq. cbn. lia. }
  apply inject_le in Ha1. apply inject_lt in Ha2. apply inject_le in Hb1. apply inject_lt in Hb2.
  rewrite <- Q2_Z in Ha1, Ha2, Hb1, Hb2 by lia. rewrite <- Hd in Ha1, Ha2. clear Hd.
  unfold Z.succ in *. rewrite Q2_add in Ha2, Hb2. change (2 ^ 1) with 2 in *.
  assert (P : 0 < inject_Z (Zpos (Qden x))) by (change 0 with (inject_Z 0); apply inject_lt; lia).
  set (D := inject_Z (Zpos (Qden x))) in *. set (X := Qabs x) in *.
  assert (E1 : 2 ^ a == 2 ^ 53 * 2 ^ (a - b - 53) * 2 ^ b).
  { rewrite <- !Q2_add. replace (53 + (a - b - 53) + b)%Z with a by lia. reflexivity. }
  rewrite E1 in Ha1, Ha2. pose proof (Q2_pos b) as Pb'. pose proof (Q2_pos (a - b - 53)) as Pe.
  assert (HX : 2 ^ 52 * 2 ^ (a - b - 53) < X < 2 ^ 54 * 2 ^ (a - b - 53)).
  { change (2 ^ 53) with (inject_Z 9007199254740992) in *. change (2 ^ 52) with (inject_Z 4503599627370496) in *.
    change (2 ^ 54) with (inject_Z 18014398509481984) in *.
    set (E := 2 ^ (a - b - 53)) in *. set (B := 2 ^ b) in *. unfold inject_Z in *. clearbody E B D X.
    assert (HX0 : 0 <= X). { destruct (Qlt_le_dec X 0) as [H|H]; [|exact H]. exfalso. nra. }
    split; [destruct (Qlt_le_dec (4503599627370496 * E) X) as [H|H]; [exact H|exfalso] | destruct (Qlt_le_dec X (18014398509481984 * E)) as [H|H]; [exact H|exfalso]].
    - assert (X * D <= 4503599627370496 * E * D) by (apply Qmult_le_compat_r; lra).
      assert (4503599627370496 * E * D < 4503599627370496 * E * (B * 2)) by (apply Qmult_lt_l; [nra | exact Hb2]). lra.
    - assert (18014398509481984 * E * D <= X * D) by (apply Qmult_le_compat_r; lra).
      assert (18014398509481984 * E * B <= 18014398509481984 * E * D) by (apply Qmult_le_l; [nra|exact Hb1]). lra. }
  destruct (Qle_bool (2 ^ (a - b - 53 + 53)) X) eqn:E.
  - apply Qle_bool_iff in E. rewrite Q2_add in *. change (2 ^ 1) with 2 in *.
    change (2 ^ 53) with (inject_Z 9007199254740992) in *. change (2 ^ 52) with (inject_Z 4503599627370496) in *.
    change (2 ^ 54) with (inject_Z 18014398509481984) in *. unfold inject_Z in *. split; lra.
  - assert (H : ~ 2 ^ (a - b - 53 + 53) <= X) by (rewrite <- Qle_bool_iff; now rewrite E).
    apply Qnot_le_lt in H. rewrite Q2_add in H. split; [lra|]. rewrite Qmult_comm. exact H.
Qed.

Lemma Qnum_0 x : Qnum x = 0%Z -> x == 0.
Proof. destruct x as [n d]. cbn. intros ->. unfold Qeq. cbn. reflexivity. Qed.
Lemma Qnum_n0 x : Qnum x <> 0%Z -> ~ x == 0.
Proof. destruct x as [n d]. unfold Qeq. cbn. lia. Qed.

(** Relative error of a rounding. *)
Lemma rnd_err x : Qabs (rnd x - x) <= unit_roundoff * Qabs x.
Proof.
  unfold rnd. destruct (Z.eqb_spec (Qnum x) 0) as [H0|H0].
  - apply Qnum_0 in H0. rewrite H0. discriminate.
  - apply Qnum_n0 in H0. pose proof (ulp_exp_spec x H0) as [H1 H2].
    pose proof (Q2_pos (ulp_exp x)) as P. set (E := 2 ^ ulp_exp x) in *.
    pose proof (round_even_err (x / E)) as H. set (r := inject_Z (round_even (x / E))) in *.
    assert (Ex : x == x / E * E) by (field; lra).
    assert (Eq : r * E - x == (r - x / E) * E) by (rewrite Ex at 1; ring).
    rewrite Eq, Qabs_Qmult, (Qabs_pos E) by lra.
    change (2 ^ 52) with 4503599627370496 in H1. 
    set (Z1 := Qabs (r - x / E)) in *. set (X := Qabs x) in *. clearbody Z1 X E.
    assert (Z1 * E <= (1 # 2) * E) by (apply Qmult_le_compat_r; lra). lra.
Qed.

Lemma rnd_nonneg x : 0 <= x -> 0 <= rnd x.
Proof.
  intros H. unfold rnd. destruct (Qnum x =? 0)%Z; [apply Qle_refl|].
  pose proof (Q2_pos (ulp_exp x)) as P. set (E := 2 ^ ulp_exp x) in *.
  apply Qmult_le_0_compat; [|lra]. change 0 with (inject_Z 0). apply inject_le, round_even_nonneg.
  apply Qle_shift_div_l; lra.
Qed.

(** A number that fits in 53 bits is not changed: what Rust calls exact. *)
Definition fits53 (x : Q) : Prop := exists m e, (Z.abs m <= 2 ^ 53)%Z /\ x == inject_Z m * 2 ^ e.

Lemma rnd_exact x : fits53 x -> rnd x == x.
Proof.
  intros (m & e & Hm & Hx). unfold rnd. destruct (Z.eqb_spec (Qnum x) 0) as [H0|H0].
  - apply Qnum_0 in H0. now rewrite H0.
  - apply Qnum_n0 in H0. pose proof (ulp_exp_spec x H0) as [H1 H2]. pose proof (Q2_pos (ulp_exp x)) as P.
    set (u := ulp_exp x) in *.
    assert (Hk : exists k, x == inject_Z k * 2 ^ u).
    { destruct (Z_le_gt_dec u e) as [Hue|Hue].
      - exists (m * 2 ^ (e - u))%Z. rewrite inject_Z_mult, <- Q2_Z by lia. rewrite <- Qmult_assoc, <- Q2_add.
        replace (e - u + u)%Z with e by lia. exact Hx.
      - (* then |m| = 2^53 and u = e + 1 *)
        assert (Hue' : u = (e + 1)%Z /\ Z.abs m = (2 ^ 53)%Z).
        { rewrite Hx in H1. rewrite Qabs_Qmult, (Qabs_pos (2 ^ e)) in H1 by (apply Qlt_le_weak, Q2_pos).
          replace u with ((u - e) + e)%Z in H1 by lia. rewrite Q2_add, Qmult_assoc in H1.
          apply Qmult_le_r in H1; [|apply Q2_pos]. change (Qabs (inject_Z m)) with (inject_Z (Z.abs m)) in H1.
          rewrite !Q2_Z, <- inject_Z_mult, <- Zle_Qle in H1 by lia.
          assert (2 ^ (u - e) = 2 * 2 ^ (u - e - 1))%Z by (rewrite <- Z.pow_succ_r by lia; f_equal; lia).
          assert (0 < 2 ^ (u - e - 1))%Z by (apply Z.pow_pos_nonneg; lia).
          assert (Hs : (2 ^ (u - e - 1) = 1)%Z) by (change (2 ^ 53)%Z with (2 ^ 52 * 2)%Z in Hm; nia).
          assert (u - e - 1 = 0)%Z. { destruct (Z.eq_dec (u - e - 1) 0); [assumption|]. pose proof (Z.pow_gt_1 2 (u - e - 1) ltac:(lia)). lia. }
          split; [lia|]. change (2 ^ 53)%Z with (2 ^ 52 * 2)%Z in *. rewrite H, Hs in H1. lia. }
        destruct Hue' as [Hu Hm2].
        assert (Hev : exists k, m = (2 * k)%Z).
        { change (2 ^ 53)%Z with (2 * 4503599627370496)%Z in Hm2. destruct (Z.abs_spec m) as [[_ Ea]|[_ Ea]]; rewrite Ea in Hm2.
          - eexists; exact Hm2.
          - exists (- 4503599627370496)%Z. lia. }
        destruct Hev as [k ->]. exists k. rewrite Hu, Q2_add, Hx, inject_Z_mult. change (2 ^ 1) with 2. change (inject_Z 2) with 2. ring. }
    destruct Hk as [k Hk].
    rewrite (round_even_int _ k). { symmetry. exact Hk. }
    rewrite Hk. field. lra.
Qed.

Lemma fround_err x : Qabs (inject_Z (fround x) - x) <= 1 # 2.
Proof.
  unfold fround. apply Qabs_Qle_condition. destruct (Qle_bool 0 x).
  - pose proof (floor_bounds (x + (1 # 2))). split; lra.
  - pose proof (floor_bounds (- x + (1 # 2))). rewrite inject_Z_opp. split; lra.
Qed.

Lemma fround_nonneg x : 0 <= x -> (0 <= fround x)%Z.
Proof.
  intros H. unfold fround. apply Qle_bool_iff in H as H'. rewrite H'. change 0%Z with (Qfloor 0).
  apply Qfloor_resp_le. lra.
Qed.
