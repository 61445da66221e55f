(** * Facts about the conversions around the Fourier transforms *)
From Coq Require Import QArith Qpower Qabs Qround Lqa.
From Verif Require Import Base Word WordFacts FloatModel FloatFacts FourierConvSpec FourierConvModel SeededModel.
Open Scope Q_scope.

(** ** Rounding does not depend on the representation of a rational *)
Lemma ulp_exp_unique x e : 2 ^ 52 * 2 ^ e <= Qabs x < 2 ^ 53 * 2 ^ e -> ulp_exp x = e.
Proof.
  intros [H1 H2]. assert (Hx : ~ x == 0).
  { intros E. rewrite E in H1. pose proof (Q2_pos e). change (Qabs 0) with 0 in H1. change (2 ^ 52) with 4503599627370496 in H1. lra. }
  destruct (ulp_exp_spec x Hx) as [H3 H4]. set (u := ulp_exp x) in *.
  assert (A : forall a b, (a < b)%Z -> 2 ^ 53 * 2 ^ a <= 2 ^ 52 * 2 ^ b).
  { intros a b Hab. replace b with ((b - a - 1) + 1 + a)%Z by lia. rewrite !Q2_add. change (2 ^ 1) with 2. change (2 ^ 53) with (2 ^ 52 * 2).
    assert (1 <= 2 ^ (b - a - 1)) by (rewrite Q2_Z by lia; change 1 with (inject_Z 1); apply inject_le; pose proof (pow2_pos (b - a - 1)); lia).
    pose proof (Q2_pos a). change (2 ^ 52) with 4503599627370496. nra. }
  destruct (Z.lt_trichotomy u e) as [H|[H|H]]; [|exact H|].
  - pose proof (A _ _ H). lra.
  - pose proof (A _ _ H). lra.
Qed.
Lemma ulp_exp_compat x y : x == y -> ~ x == 0 -> ulp_exp x = ulp_exp y.
Proof. intros E H. apply ulp_exp_unique. rewrite E. apply ulp_exp_spec. rewrite <- E. exact H. Qed.
Lemma round_even_compat x y : x == y -> round_even x = round_even y.
Proof.
  intros E. unfold round_even. rewrite (Qfloor_comp _ _ E).
  replace (x - inject_Z (Qfloor y) ?= 1 # 2) with (y - inject_Z (Qfloor y) ?= 1 # 2); [reflexivity|].
  apply Qcompare_comp; [rewrite E; reflexivity|reflexivity].
Qed.
Lemma Qnum_eqb_compat x y : x == y -> (Qnum x =? 0)%Z = (Qnum y =? 0)%Z.
Proof.
  intros E. destruct (Z.eqb_spec (Qnum x) 0) as [H|H], (Z.eqb_spec (Qnum y) 0) as [H'|H']; try reflexivity.
  - apply Qnum_0 in H. apply Qnum_n0 in H'. rewrite E in H. contradiction.
  - apply Qnum_0 in H'. apply Qnum_n0 in H. rewrite <- E in H'. contradiction.
Qed.
Lemma rnd_compat x y : x == y -> rnd x = rnd y.
Proof.
  intros E. unfold rnd. rewrite (Qnum_eqb_compat _ _ E). destruct (Z.eqb_spec (Qnum y) 0) as [H|H]; [reflexivity|].
  apply Qnum_n0 in H. assert (Hx : ~ x == 0) by (rewrite E; exact H). rewrite (ulp_exp_compat x y E Hx).
  rewrite (round_even_compat (x / 2 ^ ulp_exp y) (y / 2 ^ ulp_exp y)) by (rewrite E; reflexivity). reflexivity.
Qed.

Lemma abs_inject z : Qabs (inject_Z z) = inject_Z (Z.abs z). Proof. reflexivity. Qed.
Lemma round_even_abs q (n : Z) : Qabs q <= inject_Z n -> (Z.abs (round_even q) <= n)%Z.
Proof.
  intros H. apply Qabs_Qle_condition in H. destruct H as [H1 H2]. unfold round_even. pose proof (floor_bounds q) as [F1 F2].
  assert (A : (- n <= Qfloor q)%Z).
  { rewrite <- inject_Z_opp in H1. replace (- n)%Z with (Qfloor (inject_Z (- n))) by apply Qfloor_Z. apply Qfloor_resp_le, H1. }
  assert (B : (Qfloor q <= n)%Z) by (apply Qfloor_resp_le in H2; rewrite Qfloor_Z in H2; exact H2).
  assert (C : 0 < q - inject_Z (Qfloor q) -> (Qfloor q + 1 <= n)%Z).
  { intros C. destruct (Z.eq_dec (Qfloor q) n) as [E|E]; [|lia]. rewrite E in C. lra. }
  destruct (q - inject_Z (Qfloor q) ?= 1 # 2) eqn:Ec.
  - apply Qeq_alt in Ec. specialize (C ltac:(rewrite Ec; reflexivity)). destruct (Z.even _); lia.
  - lia.
  - apply Qgt_alt in Ec. specialize (C ltac:(lra)). lia.
Qed.
Lemma rnd_fits x : fits53 (rnd x).
Proof.
  unfold rnd. destruct (Z.eqb_spec (Qnum x) 0) as [H|H].
  - exists 0%Z, 0%Z. split; [cbn; lia|reflexivity].
  - apply Qnum_n0 in H. exists (round_even (x / 2 ^ ulp_exp x)), (ulp_exp x). split; [|reflexivity].
    apply round_even_abs. destruct (ulp_exp_spec x H) as [_ H2]. pose proof (Q2_pos (ulp_exp x)) as P.
    unfold Qdiv. rewrite Qabs_Qmult, Qabs_Qinv. rewrite (Qabs_pos (2 ^ ulp_exp x)) by lra.
    apply Qle_shift_div_r; [exact P|]. change (inject_Z (2 ^ 53)) with (2 ^ 53). lra.
Qed.
Lemma fits53_compat x y : x == y -> fits53 x -> fits53 y.
Proof. intros E (m & e & H & Hx). exists m, e. split; [exact H|]. rewrite <- E. exact Hx. Qed.
Lemma fits53_shift x k : fits53 x -> fits53 (x * 2 ^ k).
Proof. intros (m & e & H & Hx). exists m, (e + k)%Z. split; [exact H|]. rewrite Hx, Q2_add. ring. Qed.
Lemma fits53_opp x : fits53 x -> fits53 (- x).
Proof. intros (m & e & H & Hx). exists (- m)%Z, e. split; [lia|]. rewrite Hx, inject_Z_opp. ring. Qed.
Lemma fits53_Z z e : (Z.abs z <= 2 ^ 53)%Z -> fits53 (inject_Z z * 2 ^ e).
Proof. intros H. exists z, e. split; [exact H|reflexivity]. Qed.

(** The difference to a nearest integer is exact. *)
Lemma fract_exact x z : fits53 x -> Qabs (x - inject_Z z) <= 1 # 2 -> fits53 (x - inject_Z z).
Proof.
  intros (m & e & Hm & Hx) Hz. destruct (Z_le_gt_dec 0 e) as [He|He].
  - assert (E : x - inject_Z z == inject_Z (m * 2 ^ e - z)) by (rewrite Hx, Q2_Z by lia; unfold Z.sub; rewrite inject_Z_plus, inject_Z_mult, inject_Z_opp; ring).
    rewrite E, abs_inject in Hz.
    assert (Z.abs (m * 2 ^ e - z) = 0)%Z.
    { change (1 # 2) with (1 # 2) in Hz. unfold Qle in Hz. cbn in Hz. lia. }
    exists 0%Z, 0%Z. split; [cbn; lia|]. rewrite E. replace (m * 2 ^ e - z)%Z with 0%Z by lia. reflexivity.
  - destruct (Z_le_gt_dec (- e - 1) 53) as [Hs|Hs].
    + exists (m - z * 2 ^ (- e))%Z, e.
      assert (E : x - inject_Z z == inject_Z (m - z * 2 ^ (- e)) * 2 ^ e).
      { rewrite Hx. unfold Z.sub. rewrite inject_Z_plus, inject_Z_opp, inject_Z_mult, <- (Q2_Z (- e)) by lia.
        transitivity (inject_Z m * 2 ^ e - inject_Z z * (2 ^ (- e) * 2 ^ e)); [rewrite Q2_opp; ring|ring]. }
      split; [|exact E]. rewrite E in Hz. rewrite Qabs_Qmult, (Qabs_pos (2 ^ e)), abs_inject in Hz by (apply Qlt_le_weak, Q2_pos).
      assert (Hb : inject_Z (Z.abs (m - z * 2 ^ (- e))) <= 2 ^ (- e - 1)).
      { apply (Qmult_le_r _ _ (2 ^ e)); [apply Q2_pos|]. rewrite <- Q2_add. replace (- e - 1 + e)%Z with (-1)%Z by lia. change (2 ^ (-1)) with (1 # 2). exact Hz. }
      rewrite Q2_Z, <- Zle_Qle in Hb by lia. pose proof (Z.pow_le_mono_r 2 (- e - 1) 53 ltac:(lia) Hs). lia.
    + assert (Hsm : Qabs x < 1 # 2).
      { rewrite Hx, Qabs_Qmult, (Qabs_pos (2 ^ e)), abs_inject by (apply Qlt_le_weak, Q2_pos).
        change (1 # 2) with (2 ^ (-1)). replace (-1)%Z with (- e - 1 + e)%Z by lia. rewrite Q2_add. apply Qmult_lt_r; [apply Q2_pos|].
        rewrite Q2_Z by lia. apply inject_lt. pose proof (Z.pow_lt_mono_r 2 53 (- e - 1) ltac:(lia) ltac:(lia) ltac:(lia)). lia. }
      assert (z = 0)%Z.
      { assert (Qabs (inject_Z z) < 1).
        { apply Qabs_Qlt_condition in Hsm. apply Qabs_Qle_condition in Hz. apply Qabs_Qlt_condition. split; lra. }
        rewrite abs_inject in H. change 1 with (inject_Z 1) in H. rewrite <- Zlt_Qlt in H. lia. }
      subst z. exists m, e. split; [exact Hm|]. rewrite Hx. change (inject_Z 0) with 0. ring.
Qed.

(** ** Bytes and words of a lane *)
Open Scope Z_scope.
Lemma bytes_sum x k : forall s, 0 <= x ->
  fold_right Z.add 0 (map (fun i => byte_of x i * 256 ^ Z.of_nat i) (seq s k)) = (x / 256 ^ Z.of_nat s) mod 256 ^ Z.of_nat k * 256 ^ Z.of_nat s.
Proof.
  induction k as [|k IH]; intros s Hx; cbn [seq map fold_right].
  - change (256 ^ Z.of_nat 0) with 1. rewrite Z.mod_1_r. reflexivity.
  - rewrite IH by exact Hx. unfold byte_of.
    assert (P : 0 < 256 ^ Z.of_nat s) by (apply Z.pow_pos_nonneg; lia). assert (Pk : 0 < 256 ^ Z.of_nat k) by (apply Z.pow_pos_nonneg; lia).
    rewrite (Nat2Z.inj_succ s), Z.pow_succ_r by lia. rewrite (Nat2Z.inj_succ k), Z.pow_succ_r by lia.
    rewrite (Z.mul_comm 256 (256 ^ Z.of_nat s)), <- Z.div_div by lia.
    set (y := x / 256 ^ Z.of_nat s). rewrite (Z.rem_mul_r y 256 (256 ^ Z.of_nat k)) by lia. ring.
Qed.
Lemma blendv8_zeros a b : is_word 64 a -> blendv8 a b 0 = a.
Proof.
  intros [H1 H2]. unfold blendv8.
  rewrite (map_ext _ (fun i => byte_of a i * 256 ^ Z.of_nat i)).
  - rewrite bytes_sum by exact H1. change (256 ^ Z.of_nat 0) with 1. rewrite Z.div_1_r, Z.mul_1_r. apply Z.mod_small. change (256 ^ Z.of_nat 8) with (2 ^ 64). lia.
  - intros i. unfold byte_of at 1. rewrite Z.div_0_l by (apply Z.pow_nonzero; lia). reflexivity.
Qed.
Lemma blendv8_ones a b : is_word 64 b -> blendv8 a b (2 ^ 64 - 1) = b.
Proof.
  intros [H1 H2]. unfold blendv8.
  rewrite (map_ext_in _ (fun i => byte_of b i * 256 ^ Z.of_nat i)).
  - rewrite bytes_sum by exact H1. change (256 ^ Z.of_nat 0) with 1. rewrite Z.div_1_r, Z.mul_1_r. apply Z.mod_small. change (256 ^ Z.of_nat 8) with (2 ^ 64). lia.
  - intros i Hi. apply in_seq in Hi. assert (byte_of (2 ^ 64 - 1) i = 255).
    { do 8 (destruct i as [|i]; [reflexivity|]). lia. }
    rewrite H. reflexivity.
Qed.

(** ** Doubles to integers *)
Lemma Qfloor_shift m e : Qfloor (inject_Z m * 2 ^ (e - 1075))%Q = if e <=? 1086 then (m * 2 ^ 11) / 2 ^ (1086 - e) else m * 2 ^ (e - 1075).
Proof.
  destruct (Z.leb_spec e 1086) as [H|H].
  - rewrite Zdiv_Qdiv. apply Qfloor_comp. rewrite inject_Z_mult, <- !Q2_Z by lia.
    pose proof (Q2_pos (1086 - e)) as P.
    assert (E : (2 ^ 11 == 2 ^ (e - 1075) * 2 ^ (1086 - e))%Q) by (rewrite <- Q2_add; replace (e - 1075 + (1086 - e)) with 11 by lia; reflexivity).
    rewrite E. field. intros C. rewrite C in P. apply (Qlt_irrefl 0). exact P.
  - rewrite Q2_Z by lia. rewrite <- inject_Z_mult. apply Qfloor_Z.
Qed.

Lemma f64_decompose bits : is_word 64 bits ->
  bits = (if f64_sign bits then 2 ^ 63 else 0) + f64_exponent bits * 2 ^ 52 + f64_fraction bits /\ 0 <= f64_exponent bits < 2048 /\ 0 <= f64_fraction bits < 2 ^ 52 /\
  srl 63 bits = (if f64_sign bits then 1 else 0).
Proof.
  intros [H1 H2]. unfold f64_sign, f64_exponent, f64_fraction, srl. change (63 <? 64) with true. cbv iota. change (2 ^ 11) with 2048.
  split; [|split; [apply Z.mod_pos_bound; lia|split; [apply Z.mod_pos_bound; lia|]]].
  - change (2 ^ 63) with (2048 * 2 ^ 52). change (2 ^ 64) with (4096 * 2 ^ 52) in H2.
    pose proof (Z.div_mod bits (2 ^ 52) ltac:(lia)) as E. pose proof (Z.mod_pos_bound bits (2 ^ 52) ltac:(lia)) as B.
    set (q := bits / 2 ^ 52) in *. set (r := bits mod 2 ^ 52) in *. clearbody q r. generalize dependent (2 ^ 52). intros P. intros.
    destruct (Z.leb_spec (2048 * P) bits) as [L|L].
    + assert (2048 <= q < 4096) by nia. assert (Eq : q mod 2048 = q - 2048) by (symmetry; apply (Z.mod_unique q 2048 1); lia). rewrite Eq. nia.
    + assert (0 <= q < 2048) by nia. rewrite (Z.mod_small q) by lia. nia.
  - destruct (Z.leb_spec (2 ^ 63) bits) as [L|L].
    + symmetry. apply (Z.div_unique bits (2 ^ 63) 1 (bits - 2 ^ 63)); lia.
    + apply Z.div_small. lia.
Qed.

(** The part common to the 256 and 512-bit versions. *)
Lemma cvtpd_magnitude bits : is_word 64 bits ->
  srl (wsub 64 1086 (Z.land (srl 52 bits) 2047)) (sll 11 (Z.lor (Z.land bits 4503599627370495) 4503599627370496))
  = (if f64_exponent bits <=? 1086 then ((2 ^ 52 + f64_fraction bits) * 2 ^ 11) / 2 ^ (1086 - f64_exponent bits) else 0)
  /\ Z.land (srl 52 bits) 2047 = f64_exponent bits.
Proof.
  intros Hb. destruct (f64_decompose bits Hb) as (_ & He & Hf & _).
  assert (E1 : Z.land (srl 52 bits) 2047 = f64_exponent bits).
  { unfold srl. change (52 <? 64) with true. cbv iota. change 2047 with (Z.ones 11). rewrite Z.land_ones by lia. reflexivity. }
  rewrite E1. split; [|reflexivity].
  assert (E2 : Z.lor (Z.land bits 4503599627370495) 4503599627370496 = 2 ^ 52 + f64_fraction bits).
  { change 4503599627370495 with (Z.ones 52). rewrite Z.land_ones by lia. fold (f64_fraction bits). change 4503599627370496 with (2 ^ 52).
    assert (D : Z.land (f64_fraction bits) (2 ^ 52) = 0).
    { apply Z.bits_inj'. intros n Hn. rewrite Z.land_spec, Z.bits_0. destruct (Z.eqb_spec n 52) as [->|Hn2].
      + replace (Z.testbit (f64_fraction bits) 52) with false; [reflexivity|]. unfold f64_fraction. symmetry. apply Z.mod_pow2_bits_high. lia.
      + rewrite (Z.pow2_bits_eqb 52 n) by lia. destruct (Z.eqb_spec 52 n); [lia|]. apply andb_false_r. }
    rewrite <- Z.lxor_lor by exact D. rewrite <- Z.add_nocarry_lxor by exact D. apply Z.add_comm. }
  rewrite E2. set (f := f64_fraction bits) in *. set (e := f64_exponent bits) in *. clearbody e f.
  unfold sll. change (11 <? 64) with true. cbv iota. change (2 ^ 11) with 2048 in *. rewrite (Z.mod_small ((2 ^ 52 + f) * 2048)) by lia.
  unfold srl, wsub. destruct (Z.leb_spec e 1086) as [L|L].
  - rewrite (Z.mod_small (1086 - e)) by lia. destruct (Z.ltb_spec (1086 - e) 64) as [L2|L2]; [reflexivity|].
    symmetry. apply Z.div_small. pose proof (Z.pow_le_mono_r 2 64 (1086 - e) ltac:(lia) L2). lia.
  - assert (E : (1086 - e) mod 2 ^ 64 = 1086 - e + 2 ^ 64) by (symmetry; apply (Z.mod_unique _ _ (-1)); lia).
    rewrite E. destruct (Z.ltb_spec (1086 - e + 2 ^ 64) 64); [lia|reflexivity].
Qed.

Definition f64_magnitude (bits : Z) : Q :=
  if f64_exponent bits =? 0 then (inject_Z (f64_fraction bits) * 2 ^ (-1074))%Q
  else (inject_Z (2 ^ 52 + f64_fraction bits) * 2 ^ (f64_exponent bits - 1075))%Q.
Lemma magnitude_nonneg bits : is_word 64 bits -> (0 <= f64_magnitude bits)%Q.
Proof.
  intros Hb. destruct (f64_decompose bits Hb) as (_ & He & Hf & _). unfold f64_magnitude.
  destruct (_ =? 0); (apply Qmult_le_0_compat; [change 0%Q with (inject_Z 0); apply inject_le; lia|apply Qlt_le_weak, Q2_pos]).
Qed.
Lemma truncate_sign (s : bool) (m : Q) : (0 <= m)%Q -> truncate (if s then - m else m) = if s then - Qfloor m else Qfloor m.
Proof.
  intros H. unfold truncate. destruct s.
  - destruct (Qle_bool 0 (- m)) eqn:E.
    + apply Qle_bool_iff in E. assert (E0 : (m == 0)%Q) by lra.
      rewrite (Qfloor_comp (- m) (inject_Z 0)) by (rewrite E0; reflexivity). rewrite (Qfloor_comp m (inject_Z 0)) by (rewrite E0; reflexivity). rewrite Qfloor_Z. reflexivity.
    + f_equal. apply Qfloor_comp. ring.
  - apply Qle_bool_iff in H. rewrite H. reflexivity.
Qed.
Lemma truncate_value bits : is_word 64 bits ->
  truncate (f64_value bits) = if f64_sign bits then - Qfloor (f64_magnitude bits) else Qfloor (f64_magnitude bits).
Proof. intros Hb. unfold f64_value. fold (f64_magnitude bits). apply truncate_sign, magnitude_nonneg, Hb. Qed.

Lemma magnitude_floor bits : is_word 64 bits -> (Qabs (f64_value bits) < 2 ^ 64)%Q ->
  f64_exponent bits <= 1086 /\
  Qfloor (f64_magnitude bits) = if f64_exponent bits =? 0 then 0 else ((2 ^ 52 + f64_fraction bits) * 2 ^ 11) / 2 ^ (1086 - f64_exponent bits).
Proof.
  intros Hb Hs. pose proof (magnitude_nonneg bits Hb) as Hn. destruct (f64_decompose bits Hb) as (_ & He & Hf & _).
  assert (Hm : (f64_magnitude bits < 2 ^ 64)%Q).
  { unfold f64_value in Hs. fold (f64_magnitude bits) in Hs. destruct (f64_sign bits); [rewrite Qabs_opp in Hs|]; rewrite Qabs_pos in Hs by exact Hn; exact Hs. }
  unfold f64_magnitude in *. destruct (Z.eqb_spec (f64_exponent bits) 0) as [E|E].
  - split; [lia|]. set (m := (inject_Z (f64_fraction bits) * 2 ^ -1074)%Q) in *.
    assert (Hm1 : (m < 1)%Q).
    { unfold m. change 1%Q with (2 ^ 0)%Q. replace 0 with (1074 + -1074) by reflexivity. rewrite Q2_add. apply Qmult_lt_r; [apply Q2_pos|].
      rewrite Q2_Z by lia. apply inject_lt. pose proof (Z.pow_lt_mono_r 2 52 1074). lia. }
    pose proof (floor_bounds m) as [F1 F2]. assert (A : (inject_Z (Qfloor m) < inject_Z 1)%Q) by (change (inject_Z 1) with 1%Q; lra). rewrite <- Zlt_Qlt in A.
    assert (B : (inject_Z (-1) < inject_Z (Qfloor m))%Q) by (change (inject_Z (-1)) with (-1)%Q; lra). rewrite <- Zlt_Qlt in B. lia.
  - assert (Hle : f64_exponent bits <= 1086).
    { destruct (Z_le_gt_dec (f64_exponent bits) 1086) as [L|L]; [exact L|exfalso].
      apply (Qlt_irrefl (2 ^ 64)). eapply Qle_lt_trans; [|exact Hm]. replace 64 with (52 + 12) at 1 by reflexivity. rewrite Q2_add.
      rewrite (Q2_Z (f64_exponent bits - 1075)), (Q2_Z 52), (Q2_Z 12), <- !inject_Z_mult by lia. apply inject_le.
      pose proof (Z.pow_le_mono_r 2 12 (f64_exponent bits - 1075) ltac:(lia) ltac:(lia)). nia. }
    split; [exact Hle|]. rewrite Qfloor_shift. destruct (Z.leb_spec (f64_exponent bits) 1086); [reflexivity|lia].
Qed.

Lemma magnitude_word bits : is_word 64 bits -> 0 <= f64_exponent bits <= 1086 -> is_word 64 (((2 ^ 52 + f64_fraction bits) * 2 ^ 11) / 2 ^ (1086 - f64_exponent bits)).
Proof.
  intros Hb He. destruct (f64_decompose bits Hb) as (_ & _ & Hf & _). pose proof (pow2_pos (1086 - f64_exponent bits) ltac:(lia)) as P.
  split; [apply Z.div_pos; lia|]. apply Z.div_lt_upper_bound; [exact P|]. change (2 ^ 11) with 2048. nia.
Qed.

Lemma avx2_cvtpd bits : is_word 64 bits -> (Qabs (f64_value bits) < 2 ^ 64)%Q ->
  mm256_cvtpd_epi64_bits bits = truncate (f64_value bits) mod 2 ^ 64.
Proof.
  intros Hb Hs. destruct (magnitude_floor bits Hb Hs) as [Hle Hfl]. rewrite truncate_value, Hfl by exact Hb. destruct (f64_decompose bits Hb) as (_ & He & Hf & Hsg).
  pose proof (magnitude_word bits Hb ltac:(lia)) as Hw.
  unfold mm256_cvtpd_epi64_bits. destruct (cvtpd_magnitude bits Hb) as [E1 E2]. rewrite E1, E2, Hsg.
  destruct (Z.leb_spec (f64_exponent bits) 1086) as [_|]; [|lia].
  set (m := (2 ^ 52 + f64_fraction bits) * 2 ^ 11 / 2 ^ (1086 - f64_exponent bits)) in *. clearbody m.
  unfold cmpeq. destruct (f64_exponent bits =? 0).
  - rewrite blendv8_ones by (unfold is_word; lia). destruct (f64_sign bits); reflexivity.
  - destruct (f64_sign bits).
    + change (wsub 64 0 1) with (2 ^ 64 - 1). rewrite (blendv8_ones m) by (apply wsub_word; lia). rewrite blendv8_zeros by (apply wsub_word; lia). unfold wsub. reflexivity.
    + change (wsub 64 0 0) with 0. rewrite (blendv8_zeros m) by exact Hw. rewrite blendv8_zeros by exact Hw. symmetry. apply Z.mod_small. exact Hw.
Qed.

Lemma avx2_cvtpd_large bits : is_word 64 bits -> 1086 < f64_exponent bits -> mm256_cvtpd_epi64_bits bits = 0.
Proof.
  intros Hb Hl. unfold mm256_cvtpd_epi64_bits. destruct (cvtpd_magnitude bits Hb) as [E1 E2]. rewrite E1, E2. destruct (f64_decompose bits Hb) as (_ & He & Hf & Hsg). rewrite Hsg.
  destruct (Z.leb_spec (f64_exponent bits) 1086) as [|_]; [lia|]. unfold cmpeq. destruct (Z.eqb_spec (f64_exponent bits) 0); [lia|].
  destruct (f64_sign bits); reflexivity.
Qed.

Lemma avx512_cvtpd bits : is_word 64 bits -> (Qabs (f64_value bits) < 2 ^ 64)%Q ->
  mm512_cvtpd_epi64_bits bits = (- truncate (f64_value bits)) mod 2 ^ 64.
Proof.
  intros Hb Hs. destruct (magnitude_floor bits Hb Hs) as [Hle Hfl]. rewrite truncate_value, Hfl by exact Hb. destruct (f64_decompose bits Hb) as (_ & He & Hf & Hsg).
  pose proof (magnitude_word bits Hb ltac:(lia)) as Hw.
  unfold mm512_cvtpd_epi64_bits. destruct (cvtpd_magnitude bits Hb) as [E1 E2]. rewrite E1, E2, Hsg.
  destruct (Z.leb_spec (f64_exponent bits) 1086) as [_|]; [|lia].
  set (m := (2 ^ 52 + f64_fraction bits) * 2 ^ 11 / 2 ^ (1086 - f64_exponent bits)) in *. clearbody m.
  destruct (f64_exponent bits =? 0); destruct (f64_sign bits); cbn [Z.eqb negb]; try reflexivity.
  rewrite Z.opp_involutive. symmetry. apply Z.mod_small. exact Hw.
Qed.

(** ** The bits of a double in the normal range *)
Lemma f64_bits_ok x : fits53 x -> (x == 0 \/ 2 ^ (-1022) <= Qabs x < 2 ^ 1024)%Q -> f64_finite (f64_bits x) /\ (f64_value (f64_bits x) == x)%Q.
Proof.
  intros Hf Hx. unfold f64_bits. destruct (Z.eqb_spec (Qnum x) 0) as [H0|H0].
  { apply Qnum_0 in H0. split; [split; [unfold is_word; lia|reflexivity]|]. rewrite H0. reflexivity. }
  apply Qnum_n0 in H0. destruct Hx as [Hx|Hx]; [contradiction|].
  destruct (ulp_exp_spec x H0) as [U1 U2]. set (e := ulp_exp x) in *. pose proof (Q2_pos e) as P.
  assert (He : -1074 <= e <= 971).
  { split.
    - destruct (Z_le_gt_dec (-1074) e) as [L|L]; [exact L|exfalso]. apply (Qlt_irrefl (Qabs x)). eapply Qlt_le_trans; [exact U2|]. eapply Qle_trans; [|apply Hx].
      replace (-1022) with (53 + e + (-1075 - e)) by lia. rewrite (Q2_add (53 + e)), (Q2_add 53).
      assert ((1 <= 2 ^ (-1075 - e))%Q) by (rewrite Q2_Z by lia; change 1%Q with (inject_Z 1); apply inject_le; pose proof (pow2_pos (-1075 - e) ltac:(lia)); lia).
      assert ((0 <= 2 ^ 53 * 2 ^ e)%Q) by (apply Qmult_le_0_compat; [discriminate|lra]). nra.
    - destruct (Z_le_gt_dec e 971) as [L|L]; [exact L|exfalso]. apply (Qlt_irrefl (Qabs x)). eapply Qlt_le_trans; [apply Hx|]. eapply Qle_trans; [|exact U1].
      rewrite <- Q2_add. rewrite (Q2_Z (52 + e)), (Q2_Z 1024) by lia. apply inject_le. apply Z.pow_le_mono_r; lia. }
  (* |x| = k * 2^e with k an integer *)
  assert (Hk : exists k, (Qabs x == inject_Z k * 2 ^ e)%Q).
  { pose proof (rnd_exact x Hf) as R. unfold rnd in R. destruct (Z.eqb_spec (Qnum x) 0) as [C|_]; [apply Qnum_0 in C; contradiction|]. fold e in R.
    exists (Z.abs (round_even (x / 2 ^ e))). rewrite <- R at 1. rewrite Qabs_Qmult, (Qabs_pos (2 ^ e)) by lra. reflexivity. }
  destruct Hk as [k Hk]. rewrite Hk in U1, U2. apply Qmult_le_r in U1; [|exact P]. apply Qmult_lt_r in U2; [|exact P].
  rewrite Q2_Z, <- Zle_Qle in U1 by lia. rewrite Q2_Z, <- Zlt_Qlt in U2 by lia.
  assert (Ek : Qfloor (Qabs x / 2 ^ e) = k).
  { rewrite <- (Qfloor_Z k). apply Qfloor_comp. rewrite Hk. field. lra. }
  rewrite Ek. set (s := if Qle_bool 0 x then 0 else 2 ^ 63).
  set (bits := s + (e + 1075) * 2 ^ 52 + (k - 2 ^ 52)).
  assert (Hs : s = 0 \/ s = 2 ^ 63) by (unfold s; destruct (Qle_bool 0 x); auto).
  assert (Hw : is_word 64 bits) by (unfold is_word, bits; lia).
  destruct (f64_decompose bits Hw) as (Ed & Hde & Hdf & _).
  assert (F : f64_sign bits = negb (Qle_bool 0 x) /\ f64_exponent bits = e + 1075 /\ f64_fraction bits = k - 2 ^ 52).
  { assert (A1 : f64_fraction bits = k - 2 ^ 52).
    { unfold f64_fraction. symmetry. apply (Z.mod_unique bits (2 ^ 52) (s / 2 ^ 52 + (e + 1075))); [lia|]. unfold bits. destruct Hs as [-> | ->]; [change (0 / 2 ^ 52) with 0|change (2 ^ 63 / 2 ^ 52) with 2048]; lia. }
    assert (A0 : f64_sign bits = negb (Qle_bool 0 x)).
    { unfold f64_sign, bits, s. destruct (Qle_bool 0 x); cbn [negb]; destruct (Z.leb_spec (2 ^ 63) (bits)); unfold bits, s in *; lia. }
    split; [exact A0|]. split; [|exact A1]. rewrite A1, A0 in Ed. unfold bits at 1, s in Ed. destruct (Qle_bool 0 x); cbn [negb] in Ed; lia. }
  destruct F as (F1 & F2 & F3). split; [split; [exact Hw|lia]|].
  unfold f64_value. rewrite F1, F2, F3. destruct (Z.eqb_spec (e + 1075) 0); [lia|].
  replace (2 ^ 52 + (k - 2 ^ 52)) with k by lia. replace (e + 1075 - 1075) with e by lia.
  destruct (Qle_bool 0 x) eqn:Ex; cbn [negb]; rewrite <- Hk.
  - apply Qle_bool_iff in Ex. apply Qabs_pos, Ex.
  - rewrite Qabs_neg; [ring|]. apply Qnot_lt_le. intros C. apply Qlt_le_weak, Qle_bool_iff in C. congruence.
Qed.

(** ** Integers to doubles *)
Lemma blend_hi lane x : blend16 51 lane x 0 = 2 ^ 32 * ((x / 2 ^ 32) mod 2 ^ 32).
Proof.
  unfold blend16. cbn [seq map fold_right]. set (h := if Nat.odd lane then 4%nat else 0%nat).
  assert (T : Z.testbit 51 (Z.of_nat (0 + h)) = true /\ Z.testbit 51 (Z.of_nat (1 + h)) = true /\ Z.testbit 51 (Z.of_nat (2 + h)) = false /\ Z.testbit 51 (Z.of_nat (3 + h)) = false)
    by (unfold h; destruct (Nat.odd lane); repeat split; reflexivity).
  destruct T as (-> & -> & -> & ->). change (16 * Z.of_nat 2) with 32. change (16 * Z.of_nat 3) with (32 + 16). change (16 * Z.of_nat 0) with 0. change (16 * Z.of_nat 1) with 16.
  rewrite !Z.div_0_l by lia. rewrite !Z.mod_0_l by lia. rewrite (Z.pow_add_r 2 32 16), <- Z.div_div by lia.
  set (y := x / 2 ^ 32). change (2 ^ 32) with (2 ^ 16 * 2 ^ 16). rewrite (Z.rem_mul_r y (2 ^ 16) (2 ^ 16)) by lia. ring.
Qed.
Lemma blend_lo lane x b : blend16 136 lane x b = x mod 2 ^ 48 + 2 ^ 48 * ((b / 2 ^ 48) mod 2 ^ 16).
Proof.
  unfold blend16. cbn [seq map fold_right]. set (h := if Nat.odd lane then 4%nat else 0%nat).
  assert (T : Z.testbit 136 (Z.of_nat (0 + h)) = false /\ Z.testbit 136 (Z.of_nat (1 + h)) = false /\ Z.testbit 136 (Z.of_nat (2 + h)) = false /\ Z.testbit 136 (Z.of_nat (3 + h)) = true)
    by (unfold h; destruct (Nat.odd lane); repeat split; reflexivity).
  destruct T as (-> & -> & -> & ->). change (16 * Z.of_nat 2) with (16 + 16). change (16 * Z.of_nat 3) with 48. change (16 * Z.of_nat 0) with 0. change (16 * Z.of_nat 1) with 16.
  change (2 ^ 48) with (2 ^ 16 * (2 ^ 16 * 2 ^ 16)) at 3. rewrite (Z.rem_mul_r x (2 ^ 16) (2 ^ 16 * 2 ^ 16)) by lia.
  rewrite (Z.rem_mul_r (x / 2 ^ 16) (2 ^ 16) (2 ^ 16)) by lia. rewrite (Z.pow_add_r 2 16 16), <- (Z.div_div x (2 ^ 16) (2 ^ 16)) by lia.
  change (2 ^ 0) with 1. rewrite Z.div_1_r. ring.
Qed.

Lemma f64_value_normal e f : 0 < e < 2047 -> 0 <= f < 2 ^ 52 -> f64_value (e * 2 ^ 52 + f) = (inject_Z (2 ^ 52 + f) * 2 ^ (e - 1075))%Q.
Proof.
  intros He Hf. unfold f64_value, f64_sign, f64_exponent, f64_fraction.
  assert (E1 : (e * 2 ^ 52 + f) / 2 ^ 52 = e) by (symmetry; apply (Z.div_unique _ _ e f); lia).
  assert (E2 : (e * 2 ^ 52 + f) mod 2 ^ 52 = f) by (symmetry; apply (Z.mod_unique _ _ e f); lia).
  rewrite E1, E2. rewrite (Z.mod_small e) by lia. destruct (Z.eqb_spec e 0); [lia|]. destruct (Z.leb_spec (2 ^ 63) (e * 2 ^ 52 + f)); [lia|reflexivity].
Qed.

Lemma avx2_cvtepi64 lane x : is_word 64 x -> mm256_cvtepi64_pd lane x = of_int (sgn 64 x).
Proof.
  intros [Hx1 Hx2]. unfold mm256_cvtepi64_pd. rewrite blend_hi, blend_lo.
  change (f64_bits (inject_Z 442721857769029238784)) with (1091 * 2 ^ 52 + 2 ^ 51). change (f64_bits (inject_Z 4503599627370496)) with (1075 * 2 ^ 52).
  change (1075 * 2 ^ 52 / 2 ^ 48) with (1075 * 16). change ((1075 * 16) mod 2 ^ 16) with (1075 * 16).
  set (sh := sgn 32 (x / 2 ^ 32) / 2 ^ 16).
  assert (Hh : 0 <= x / 2 ^ 32 < 2 ^ 32) by (split; [apply Z.div_pos; lia|apply Z.div_lt_upper_bound; lia]).
  assert (Hq : exists h l, x / 2 ^ 32 = 2 ^ 16 * h + l /\ 0 <= l < 2 ^ 16 /\ 0 <= h < 2 ^ 16 /\ x / 2 ^ 48 = h).
  { exists (x / 2 ^ 32 / 2 ^ 16), ((x / 2 ^ 32) mod 2 ^ 16). pose proof (Z.div_mod (x / 2 ^ 32) (2 ^ 16) ltac:(lia)). pose proof (Z.mod_pos_bound (x / 2 ^ 32) (2 ^ 16) ltac:(lia)).
    split; [assumption|]. split; [assumption|]. split; [nia|]. rewrite Z.div_div by lia. reflexivity. }
  destruct Hq as (h & l & Eq & Hl & Hhh & E48).
  assert (Es : sh = (if h <? 2 ^ 15 then h else h - 2 ^ 16) /\ sgn 64 x = sh * 2 ^ 48 + x mod 2 ^ 48).
  { pose proof (Z.div_mod x (2 ^ 48) ltac:(lia)) as Ex. pose proof (Z.mod_pos_bound x (2 ^ 48) ltac:(lia)) as Bx. rewrite E48 in Ex.
    assert (Es : sh = (if h <? 2 ^ 15 then h else h - 2 ^ 16)).
    { unfold sh, sgn. rewrite Eq. destruct (Z.ltb_spec (2 ^ 16 * h + l) (2 ^ (32 - 1))) as [L|L]; change (2 ^ (32 - 1)) with (2 ^ 31) in *; destruct (Z.ltb_spec h (2 ^ 15));
        first [exfalso; lia | symmetry; apply (Z.div_unique _ _ h l); lia | symmetry; apply (Z.div_unique _ _ (h - 2 ^ 16) l); lia]. }
    split; [exact Es|]. rewrite Es. unfold sgn. change (2 ^ (64 - 1)) with (2 ^ 63). set (lo := x mod 2 ^ 48) in *. clearbody lo.
    destruct (Z.ltb_spec h (2 ^ 15)), (Z.ltb_spec x (2 ^ 63)); lia. }
  destruct Es as [Es Ex]. assert (Hsh : - 2 ^ 15 <= sh < 2 ^ 15) by (rewrite Es; destruct (Z.ltb_spec h (2 ^ 15)); lia).
  assert (Ehi : (srai32 16 x / 2 ^ 32) mod 2 ^ 32 = sh mod 2 ^ 32).
  { unfold srai32. fold sh. set (a := (sgn 32 (x mod 2 ^ 32) / 2 ^ 16) mod 2 ^ 32). assert (Ha : 0 <= a < 2 ^ 32) by (apply Z.mod_pos_bound; lia). clearbody a.
    assert (Ed : (a + 2 ^ 32 * (sh mod 2 ^ 32)) / 2 ^ 32 = sh mod 2 ^ 32) by (symmetry; apply (Z.div_unique _ _ (sh mod 2 ^ 32) a); lia).
    rewrite Ed. apply Z.mod_mod. lia. }
  rewrite Ehi. clear Ehi.
  assert (Ew : wadd 64 (2 ^ 32 * (sh mod 2 ^ 32)) (1091 * 2 ^ 52 + 2 ^ 51) = 1091 * 2 ^ 52 + (2 ^ 51 + 2 ^ 32 * sh)).
  { unfold wadd. clear - Hsh. assert (D : exists t, sh mod 2 ^ 32 = sh + 2 ^ 32 * t) by (exists (- (sh / 2 ^ 32)); pose proof (Z.div_mod sh (2 ^ 32) ltac:(lia)); lia).
    destruct D as [t ->]. symmetry. apply (Z.mod_unique _ _ t); lia. }
  rewrite Ew, f64_value_normal by lia.
  pose proof (Z.mod_pos_bound x (2 ^ 48) ltac:(lia)) as Bx. set (lo := x mod 2 ^ 48) in *. clearbody lo.
  replace (lo + 2 ^ 48 * (1075 * 16)) with (1075 * 2 ^ 52 + lo) by lia. rewrite f64_value_normal by lia.
  change (1091 - 1075) with 16. change (1075 - 1075) with 0.
  assert (Ef : (fsub (inject_Z (2 ^ 52 + (2 ^ 51 + 2 ^ 32 * sh)) * 2 ^ 16) (inject_Z 442726361368656609280) == inject_Z ((sh - 16) * 2 ^ 48))%Q).
  { unfold fsub. assert (E : (inject_Z (2 ^ 52 + (2 ^ 51 + 2 ^ 32 * sh)) * 2 ^ 16 - inject_Z 442726361368656609280 == inject_Z (sh - 16) * 2 ^ 48)%Q).
    { rewrite !Q2_Z by lia. rewrite <- !inject_Z_mult. unfold Qminus. rewrite <- inject_Z_opp, <- inject_Z_plus.
      apply inject_Z_injective. clear - sh. clearbody sh. lia. }
    rewrite (rnd_compat _ _ E), rnd_exact by (apply fits53_Z; lia). rewrite Q2_Z by lia. rewrite <- inject_Z_mult. reflexivity. }
  unfold fadd, of_int. apply rnd_compat. rewrite Ef, Ex. change (2 ^ 0)%Q with 1%Q. rewrite Qmult_1_r, <- inject_Z_plus.
  rewrite Z.mul_sub_distr_r. replace (sh * 2 ^ 48 - 16 * 2 ^ 48 + (2 ^ 52 + lo)) with (sh * 2 ^ 48 + lo) by lia. reflexivity.
Qed.

(** ** Loops over blocks *)
Lemma store_at_app {A} (P v R : list A) : store_at (length P) v (P ++ R) = P ++ v ++ skipn (length v) R.
Proof.
  unfold store_at. rewrite firstn_app, Nat.sub_diag, firstn_all. cbn [firstn]. rewrite app_nil_r. f_equal. f_equal.
  rewrite skipn_app, skipn_all2 by lia. cbn [app]. f_equal. lia.
Qed.
Lemma skipn_skipn' {A} (a b : nat) (l : list A) : skipn a (skipn b l) = skipn (b + a) l.
Proof. revert l. induction b as [|b IH]; intros l; [reflexivity|]. destruct l; [rewrite !skipn_nil; reflexivity|]. cbn. apply IH. Qed.
Lemma load_at_length {A} pos len (l : list A) : (pos + len <= length l)%nat -> length (load_at pos len l) = len.
Proof. intros H. unfold load_at. rewrite firstn_length, skipn_length. lia. Qed.
Lemma firstn_load {A} (a b : nat) (l : list A) : firstn (a + b) l = firstn a l ++ load_at a b l.
Proof.
  unfold load_at. revert l. induction a as [|a IH]; intros l; [reflexivity|]. destruct l as [|x l]; [rewrite skipn_nil, !firstn_nil; reflexivity|].
  cbn [Nat.add firstn skipn app]. f_equal. apply IH.
Qed.
Lemma zip4_app {A B C D} (a a' : list A) (b b' : list B) (c c' : list C) (d d' : list D) :
  length a = length b -> length a = length c -> length a = length d -> zip4 (a ++ a') (b ++ b') (c ++ c') (d ++ d') = zip4 a b c d ++ zip4 a' b' c' d'.
Proof.
  revert b c d. induction a as [|x a IH]; intros [|y b] [|z c] [|t d] H1 H2 H3; try discriminate; [reflexivity|].
  cbn [app zip4]. f_equal. apply IH; [injection H1 as H; exact H|injection H2 as H; exact H|injection H3 as H; exact H].
Qed.
Lemma zip4_length {A B C D} (a : list A) (b : list B) (c : list C) (d : list D) :
  length a = length b -> length a = length c -> length a = length d -> length (zip4 a b c d) = length a.
Proof.
  revert b c d. induction a as [|x a IH]; intros [|y b] [|z c] [|t d] H1 H2 H3; try discriminate; [reflexivity|].
  cbn [length zip4]. f_equal. apply IH; [injection H1 as H; exact H|injection H2 as H; exact H|injection H3 as H; exact H].
Qed.
Lemma zip4_nth {A B C D} (a : list A) (b : list B) (c : list C) (d : list D) da db dc dd : forall i,
  length a = length b -> length a = length c -> length a = length d -> (i < length a)%nat ->
  nth_error (zip4 a b c d) i = Some (nth i a da, nth i b db, nth i c dc, nth i d dd).
Proof.
  revert b c d. induction a as [|x a IH]; intros [|y b] [|z c] [|t d] i H1 H2 H3 Hi; try discriminate; [cbn in Hi; lia|].
  destruct i as [|i]; [reflexivity|]. cbn [zip4 nth_error nth]. apply IH; [injection H1 as H; exact H|injection H2 as H; exact H|injection H3 as H; exact H|cbn in Hi; lia].
Qed.
Lemma flat_app a b : flat (a ++ b) = flat a ++ flat b. Proof. apply flat_map_app. Qed.
Lemma flat_length l : length (flat l) = (2 * length l)%nat.
Proof. induction l as [|z l IH]; [reflexivity|]. unfold flat in *. cbn [flat_map]. rewrite app_length, IH. cbn [length]. lia. Qed.
Lemma pair_up_flat l : pair_up (flat l) = l.
Proof. induction l as [|[a b] l IH]; [reflexivity|]. cbn. f_equal. exact IH. Qed.

(** One element of the vector versions of the forward conversion: [c] converts a word. *)
Definition twist_fma (c : Z -> Q) (x : Z * Z * Q * Q) : Q * Q :=
  let '(re, im, w_re, w_im) := x in
  (fmsub (c re) w_re (fmul (c im) w_im), fmadd (c re) w_im (fmul (c im) w_re)).

Lemma fwd_loop_ok lanes block c n out in_re in_im tw : (0 < lanes)%nat -> (n / lanes * lanes <= n)%nat ->
  length out = (2 * n)%nat -> length in_re = n -> length in_im = n -> length (tw_re tw) = n -> length (tw_im tw) = n ->
  (forall i, let a := load_at i lanes in_re in let b := load_at i lanes in_im in
     length a = lanes -> length b = lanes -> forall wr wi, length wr = lanes -> length wi = lanes ->
     length (fst (block a b wr wi)) = lanes /\ fst (block a b wr wi) ++ snd (block a b wr wi) = flat (map (twist_fma c) (zip4 a b wr wi))) ->
  let m := (n / lanes * lanes)%nat in
  fwd_loop lanes block n out in_re in_im tw =
    flat (map (twist_fma c) (zip4 (firstn m in_re) (firstn m in_im) (firstn m (tw_re tw)) (firstn m (tw_im tw)))) ++ skipn (2 * m) out.
Proof.
  intros Hl0 Hq Ho H1 H2 H3 H4 Hb m. unfold fwd_loop, m. clear m. revert Hq. generalize (n / lanes)%nat. induction n0 as [|q IH]; intros Hq; [reflexivity|].
  rewrite seq_S, fold_left_app, IH by lia. cbn [fold_left Nat.add].
  set (P := flat (map (twist_fma c) (zip4 (firstn (q * lanes) in_re) (firstn (q * lanes) in_im) (firstn (q * lanes) (tw_re tw)) (firstn (q * lanes) (tw_im tw))))).
  assert (Lz : length (zip4 (firstn (q * lanes) in_re) (firstn (q * lanes) in_im) (firstn (q * lanes) (tw_re tw)) (firstn (q * lanes) (tw_im tw))) = (q * lanes)%nat).
  { rewrite zip4_length; rewrite !firstn_length; lia. }
  assert (LP : length P = (2 * (q * lanes))%nat) by (unfold P; rewrite flat_length, map_length, Lz; reflexivity).
  assert (La : forall A (l : list A), length l = n -> length (load_at (q * lanes) lanes l) = lanes) by (intros; apply load_at_length; lia).
  destruct (Hb (q * lanes)%nat (La _ _ H1) (La _ _ H2) _ _ (La _ _ H3) (La _ _ H4)) as [L0 E].
  destruct (block _ _ _ _) as [o0 o1]. cbn [fst snd] in L0, E.
  rewrite <- LP, store_at_app. rewrite app_assoc. rewrite <- L0 at 1. rewrite <- app_length, store_at_app.
  assert (L1 : length o1 = lanes).
  { apply (f_equal (@length Q)) in E. rewrite app_length, flat_length, map_length, zip4_length in E; rewrite ?(La _ _ H1), ?(La _ _ H2), ?(La _ _ H3), ?(La _ _ H4) in *; lia. }
  replace (S q * lanes)%nat with (q * lanes + lanes)%nat by lia. rewrite !firstn_load.
  rewrite zip4_app by (rewrite !firstn_length; lia). rewrite map_app, flat_app, <- E. fold P. rewrite <- !app_assoc. do 3 f_equal.
  rewrite !skipn_skipn'. f_equal. lia.
Qed.

Ltac four l := destruct l as [|? [|? [|? [|? [|? ?]]]]]; try discriminate.
Ltac eight l := destruct l as [|? [|? [|? [|? [|? [|? [|? [|? [|? ?]]]]]]]]]; try discriminate.
Lemma fwd_block_256_ok c cvt a b wr wi : length a = 4%nat -> length b = 4%nat -> length wr = 4%nat -> length wi = 4%nat ->
  cvt a = map c a -> cvt b = map c b ->
  length (fst (fwd_block_256 cvt a b wr wi)) = 4%nat /\
  fst (fwd_block_256 cvt a b wr wi) ++ snd (fwd_block_256 cvt a b wr wi) = flat (map (twist_fma c) (zip4 a b wr wi)).
Proof.
  intros Ha Hb H1 H2 E1 E2. unfold fwd_block_256. rewrite E1, E2. four a. four b. four wr. four wi. split; reflexivity.
Qed.
Lemma fwd_block_512_ok c cvt a b wr wi : length a = 8%nat -> length b = 8%nat -> length wr = 8%nat -> length wi = 8%nat ->
  cvt a = map c a -> cvt b = map c b ->
  length (fst (fwd_block_512 cvt a b wr wi)) = 8%nat /\
  fst (fwd_block_512 cvt a b wr wi) ++ snd (fwd_block_512 cvt a b wr wi) = flat (map (twist_fma c) (zip4 a b wr wi)).
Proof.
  intros Ha Hb H1 H2 E1 E2. unfold fwd_block_512. rewrite E1, E2. eight a. eight b. eight wr. eight wi. split; reflexivity.
Qed.

Lemma load_at_Forall {A} (Pr : A -> Prop) pos len l : Forall Pr l -> Forall Pr (load_at pos len l).
Proof.
  intros H. unfold load_at. apply Forall_forall. intros x Hx. rewrite Forall_forall in H. apply H.
  rewrite <- (firstn_skipn pos l). apply in_or_app. right. rewrite <- (firstn_skipn len (skipn pos l)). apply in_or_app. left. exact Hx.
Qed.
Lemma cvt_256_ok a : length a = 4%nat -> Forall (is_word 64) a -> vcvtepi64_pd_256 a = map (fun x => of_int (sgn 64 x)) a.
Proof.
  intros H F. four a. unfold vcvtepi64_pd_256. cbn [seq map2 map]. repeat (inversion F as [|? ? ? F']; subst; clear F; rename F' into F).
  rewrite !avx2_cvtepi64 by assumption. reflexivity.
Qed.
Lemma cvt32_exact x : is_word 32 x -> (of_int (sgn 32 x) == inject_Z (sgn 32 x))%Q.
Proof.
  intros [H1 H2]. unfold of_int. apply rnd_exact. exists (sgn 32 x), 0. split; [|change (2 ^ 0)%Q with 1%Q; ring].
  unfold sgn. change (2 ^ (32 - 1)) with (2 ^ 31). destruct (Z.ltb_spec x (2 ^ 31)); lia.
Qed.

Lemma x86_lengths_ok {A B C D} p lanes n (a : list A) (b : list B) (c : list C) (d : list D) :
  (n mod lanes = 0)%nat -> length a = n -> length b = n -> length c = n -> length d = n -> x86_lengths p lanes n a b c d = Ret tt.
Proof. intros H Ha Hb Hc Hd. unfold x86_lengths. rewrite H, Ha, Hb, Hc, Hd, !Nat.eqb_refl. destruct p; reflexivity. Qed.

Lemma Qabs_scale a b e : (0 <= e)%Q -> (Qabs (a - b) <= e * Qabs b)%Q -> (Qabs a <= (1 + e) * Qabs b)%Q.
Proof.
  intros He H. apply Qle_trans with (Qabs (a - b) + Qabs b)%Q.
  - setoid_replace a with ((a - b) + b)%Q at 1 by ring. apply Qabs_triangle.
  - setoid_replace ((1 + e) * Qabs b)%Q with (e * Qabs b + Qabs b)%Q by ring. apply Qplus_le_compat; [exact H|apply Qle_refl].
Qed.
Definition u53 : Q := 1 # 9007199254740992.
Lemma rnd_err' x : (Qabs (rnd x - x) <= u53 * Qabs x)%Q.
Proof. pose proof (rnd_err x) as H. exact H. Qed.
