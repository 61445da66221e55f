(** * Rounding errors of the conversions around the Fourier transforms *)
From Coq Require Import QArith Qpower Qabs Qround Lqa.
From Verif Require Import Base Word WordFacts FloatModel FloatFacts FourierConvSpec FourierConvModel FourierConvProofs SeededModel.
Open Scope Q_scope.

Lemma u53_pos : 0 <= u53. Proof. discriminate. Qed.
Lemma u53_small : u53 * u53 <= u53 * (1 # 16). Proof. vm_compute. discriminate. Qed.
Lemma approx_factor x X c e : Qabs (x - X) <= e * Qabs X -> Qabs (x * c - X * c) <= e * Qabs (X * c).
Proof.
  intros H. setoid_replace (x * c - X * c) with ((x - X) * c) by ring. rewrite !Qabs_Qmult. pose proof (Qabs_nonneg c). nra.
Qed.
Lemma approx_rnd x X e : 0 <= e -> Qabs (x - X) <= e * Qabs X -> Qabs (rnd x - X) <= (e + u53 + u53 * e) * Qabs X.
Proof.
  intros He H. pose proof (Qabs_scale _ _ _ He H) as H2. pose proof (rnd_err' x) as H3.
  apply Qle_trans with (Qabs (rnd x - x) + Qabs (x - X)).
  - setoid_replace (rnd x - X) with ((rnd x - x) + (x - X)) by ring. apply Qabs_triangle.
  - pose proof u53_pos. nra.
Qed.
Lemma approx_sum p q P R e s : 0 <= e -> Qabs (p - P) <= e * Qabs P -> Qabs (q - R) <= e * Qabs R -> s == p + q ->
  Qabs (rnd s - (P + R)) <= (e + u53 + u53 * e) * (Qabs P + Qabs R).
Proof.
  intros He H1 H2 Es. pose proof (rnd_err' s) as H3.
  assert (Hs : Qabs (s - (P + R)) <= e * (Qabs P + Qabs R)).
  { setoid_replace (s - (P + R)) with ((p - P) + (q - R)) by (rewrite Es; ring). pose proof (Qabs_triangle (p - P) (q - R)). lra. }
  assert (Ht : Qabs s <= (1 + e) * (Qabs P + Qabs R)).
  { setoid_replace s with ((s - (P + R)) + (P + R)) by ring. pose proof (Qabs_triangle (s - (P + R)) (P + R)). pose proof (Qabs_triangle P R). lra. }
  setoid_replace (rnd s - (P + R)) with ((rnd s - s) + (s - (P + R))) by ring.
  pose proof (Qabs_triangle (rnd s - s) (s - (P + R))). pose proof u53_pos. nra.
Qed.

(** Two products of approximations, the first possibly unrounded (fma), with signs *)
Definition signed (b : bool) (x : Q) : Q := if b then - x else x.
Lemma signed_err b x y : Qabs (signed b x - signed b y) == Qabs (x - y).
Proof. destruct b; cbn [signed]; [|reflexivity]. setoid_replace (- x - - y) with (- (x - y)) by ring. apply Qabs_opp. Qed.
Lemma signed_abs b x : Qabs (signed b x) == Qabs x.
Proof. destruct b; cbn [signed]; [apply Qabs_opp|reflexivity]. Qed.
Lemma two_products (fma b1 b2 : bool) x X y Y c d s : Qabs (x - X) <= u53 * Qabs X -> Qabs (y - Y) <= u53 * Qabs Y ->
  s == signed b1 (if fma then x * c else rnd (x * c)) + signed b2 (rnd (y * d)) ->
  approximates (rnd s) (signed b1 (X * c) + signed b2 (Y * d)) (magnitude X c Y d).
Proof.
  intros Hx Hy Es. unfold approximates, magnitude. fold u53.
  pose proof (approx_rnd _ _ _ u53_pos (approx_factor _ _ d _ Hy)) as H2.
  set (e := u53 + u53 + u53 * u53) in *. assert (He : 0 <= e) by (vm_compute; discriminate).
  assert (H1 : Qabs ((if fma then x * c else rnd (x * c)) - X * c) <= e * Qabs (X * c)).
  { destruct fma; [|exact (approx_rnd _ _ _ u53_pos (approx_factor _ _ c _ Hx))].
    pose proof (approx_factor _ _ c _ Hx) as H. pose proof (Qabs_nonneg (X * c)). assert (u53 <= e) by (vm_compute; discriminate). nra. }
  rewrite <- (signed_err b1), <- (signed_abs b1 (X * c)) in H1. rewrite <- (signed_err b2), <- (signed_abs b2 (Y * d)) in H2.
  eapply Qle_trans; [exact (approx_sum _ _ _ _ _ _ He H1 H2 Es)|]. rewrite !signed_abs.
  assert (e + u53 + u53 * e <= 4 * u53) by (vm_compute; discriminate).
  pose proof (Qabs_nonneg (X * c)). pose proof (Qabs_nonneg (Y * d)). nra.
Qed.
Lemma approximates_compat x y y' s s' : y == y' -> s == s' -> approximates x y s -> approximates x y' s'.
Proof. unfold approximates. intros H1 H2 H. rewrite <- H1, <- H2. exact H. Qed.

Lemma zero_err x : Qabs (x - x) <= u53 * Qabs x.
Proof. setoid_replace (x - x) with 0 by ring. change (Qabs 0) with 0. pose proof (Qabs_nonneg x). pose proof u53_pos. nra. Qed.

(** ** The twisted product, in its two forms *)
Definition good_cvt (w : Z) (c : Z -> Q) : Prop := forall x, is_word w x -> Qabs (c x - inject_Z (sgn w x)) <= u53 * Qabs (inject_Z (sgn w x)).
Definition twisted (w : Z) (r : Q * Q) (re im : Z) (w_re w_im : Q) : Prop :=
  let re := inject_Z (sgn w re) in
  let im := inject_Z (sgn w im) in
  approximates (fst r) (product_re re im w_re w_im) (magnitude re w_re im w_im) /\
  approximates (snd r) (product_im re im w_re w_im) (magnitude re w_im im w_re).
Lemma twist_fma_ok w c re im w_re w_im : good_cvt w c -> is_word w re -> is_word w im -> twisted w (twist_fma c (re, im, w_re, w_im)) re im w_re w_im.
Proof.
  intros Hc Hr Hi. specialize (Hc re Hr) as H1. specialize (Hc im Hi) as H2. unfold twisted, twist_fma, fmsub, fmadd, fmul, product_re, product_im. cbn [fst snd]. split.
  - apply (two_products true false true _ _ _ _ w_re w_im _ H1 H2). reflexivity.
  - apply (two_products true false false _ _ _ _ w_im w_re _ H1 H2). reflexivity.
Qed.
Lemma twist_scalar_ok w c re im w_re w_im : good_cvt w c -> is_word w re -> is_word w im -> twisted w (cmul (c re, c im) (w_re, w_im)) re im w_re w_im.
Proof.
  intros Hc Hr Hi. specialize (Hc re Hr) as H1. specialize (Hc im Hi) as H2. unfold twisted, cmul, fsub, fadd, fmul, product_re, product_im. cbn [fst snd]. split.
  - apply (two_products false false true _ _ _ _ w_re w_im _ H1 H2). reflexivity.
  - apply (two_products false false false _ _ _ _ w_im w_re _ H1 H2). reflexivity.
Qed.
Lemma good_of_int w : good_cvt w (fun x => of_int (sgn w x)).
Proof. intros x _. unfold of_int. apply rnd_err'. Qed.
Lemma good_exact w : good_cvt w (fun x => inject_Z (sgn w x)).
Proof. intros x _. apply zero_err. Qed.
Lemma overwrite_all {A} (out new : list A) : length new = length out -> overwrite out new = new.
Proof. intros H. unfold overwrite. rewrite <- H, firstn_all, H, skipn_all. apply app_nil_r. Qed.

(** ** Going back to words *)
Lemma round_even_fits y : fits53 y -> fits53 (inject_Z (round_even y)).
Proof.
  intros (m & e & Hm & Hy). destruct (Z.le_gt_cases 0 e) as [He|He].
  - assert (E : y == inject_Z (m * 2 ^ e)) by (rewrite Hy, Q2_Z, inject_Z_mult by lia; reflexivity).
    rewrite (round_even_int _ _ E). exists m, e. split; [exact Hm|]. rewrite Q2_Z, inject_Z_mult by lia. reflexivity.
  - exists (round_even y), 0%Z. split; [|change (2 ^ 0) with 1; ring].
    apply Z.le_trans with (2 ^ 52)%Z; [|lia]. apply round_even_abs. rewrite Hy, Qabs_Qmult, abs_inject.
    assert (A1 : inject_Z (Z.abs m) <= 2 ^ 53) by (rewrite Q2_Z by lia; apply inject_le; exact Hm).
    assert (A2 : Qabs (2 ^ e) <= 1 # 2).
    { rewrite Qabs_pos by (apply Qlt_le_weak, Q2_pos). pose proof (Q2_opp e) as H1. pose proof (Q2_pos e) as H2.
      assert (2 <= 2 ^ (- e)) by (rewrite Q2_Z by lia; change 2 with (inject_Z (2 ^ 1)); apply inject_le; apply Z.pow_le_mono_r; lia). nra. }
    pose proof (Qabs_nonneg (2 ^ e)). assert (0 <= inject_Z (Z.abs m)) by (change 0 with (inject_Z 0); apply inject_le; lia).
    change (inject_Z (2 ^ 52)) with 4503599627370496. change (2 ^ 53) with 9007199254740992 in A1. nra.
Qed.

Lemma round_even_Z z : round_even (inject_Z z) = z. Proof. apply round_even_int. reflexivity. Qed.
Lemma truncate_Z z : truncate (inject_Z z) = z.
Proof.
  unfold truncate. rewrite <- inject_Z_opp, !Qfloor_Z. destruct (Qle_bool 0 (inject_Z z)); lia.
Qed.
Lemma truncate_compat x y : x == y -> truncate x = truncate y.
Proof.
  intros E. unfold truncate. rewrite (Qfloor_comp _ _ E), (Qfloor_comp (- x) (- y)) by (rewrite E; reflexivity).
  replace (Qle_bool 0 x) with (Qle_bool 0 y); [reflexivity|]. apply eq_iff_eq_true. rewrite !Qle_bool_iff, E. reflexivity.
Qed.
Lemma cvt32_ok t : (Z.abs t <= 2 ^ 31)%Z -> cvtpd_epi32 (inject_Z t) = (t mod 2 ^ 32)%Z.
Proof.
  intros H. unfold cvtpd_epi32. rewrite round_even_Z. destruct (_ && _)%bool eqn:E; [reflexivity|].
  assert (t = 2 ^ 31)%Z by lia. subst t. reflexivity.
Qed.
Lemma int_bits t : (Z.abs t <= 2 ^ 63)%Z -> fits53 (inject_Z t) -> is_word 64 (f64_bits (inject_Z t)) /\ (f64_value (f64_bits (inject_Z t)) == inject_Z t).
Proof.
  intros H F. destruct (f64_bits_ok _ F) as [[H1 H2] H3]; [|split; assumption].
  destruct (Z.eq_dec t 0) as [->|H0]; [left; reflexivity|]. right. rewrite abs_inject. split.
  - apply Qle_trans with (inject_Z 1); [vm_compute; discriminate|apply inject_le; lia].
  - rewrite Q2_Z by lia. rewrite <- Zlt_Qlt. apply Z.le_lt_trans with (2 ^ 63)%Z; [exact H|]. apply Z.pow_lt_mono_r; lia.
Qed.
Lemma int_small t : (Z.abs t <= 2 ^ 63)%Z -> Qabs (inject_Z t) < 2 ^ 64.
Proof. intros H. rewrite abs_inject, Q2_Z by lia. rewrite <- Zlt_Qlt. lia. Qed.
Lemma cvt64_ok t : (Z.abs t <= 2 ^ 63)%Z -> fits53 (inject_Z t) -> mm256_cvtpd_epi64 (inject_Z t) = (t mod 2 ^ 64)%Z.
Proof.
  intros H F. destruct (int_bits t H F) as [H1 H2]. unfold mm256_cvtpd_epi64. rewrite avx2_cvtpd; [|exact H1|rewrite H2; apply int_small, H].
  rewrite (truncate_compat _ _ H2), truncate_Z. reflexivity.
Qed.
Lemma cvt64_512 t : (Z.abs t <= 2 ^ 63)%Z -> fits53 (inject_Z t) -> mm512_cvtpd_epi64 (inject_Z t) = ((- t) mod 2 ^ 64)%Z.
Proof.
  intros H F. destruct (int_bits t H F) as [H1 H2]. unfold mm512_cvtpd_epi64. rewrite avx512_cvtpd; [|exact H1|rewrite H2; apply int_small, H].
  rewrite (truncate_compat _ _ H2), truncate_Z. reflexivity.
Qed.

(** The centred fractional part, scaled: exact up to the last rounding. *)
Lemma centred_exact w m z : fits53 m -> Qabs (m - inject_Z z) <= 1 # 2 -> (0 < w)%Z ->
  fits53 (rnd (m - inject_Z z)) /\ rnd (m - inject_Z z) * 2 ^ w == 2 ^ w * (m - inject_Z z) /\ fits53 (2 ^ w * (m - inject_Z z)) /\
  Qabs (2 ^ w * (m - inject_Z z)) <= inject_Z (2 ^ (w - 1)).
Proof.
  intros F H Hw. pose proof (fract_exact m z F H) as F1. pose proof (rnd_exact _ F1) as E. split; [apply rnd_fits|]. split; [rewrite E; ring|]. split.
  - apply (fits53_compat ((m - inject_Z z) * 2 ^ w)); [ring|]. apply fits53_shift, F1.
  - rewrite Qabs_Qmult, (Qabs_pos (2 ^ w)) by (apply Qlt_le_weak, Q2_pos). rewrite <- Q2_Z by lia. replace w with ((w - 1) + 1)%Z at 1 by lia. rewrite Q2_add.
    change (2 ^ 1) with 2. pose proof (Q2_pos (w - 1)). nra.
Qed.
Lemma scaled_fract_ok w m : fits53 m -> (0 < w)%Z -> exists t z, scaled_fract (2 ^ w) m = inject_Z t /\ (Z.abs t <= 2 ^ (w - 1))%Z /\ fits53 (inject_Z t) /\
  Qabs (inject_Z (t + z * 2 ^ w) - 2 ^ w * m) <= 1 # 2.
Proof.
  intros F Hw. unfold scaled_fract, fround_even, fmul, fsub. set (z := round_even m).
  assert (H : Qabs (m - inject_Z z) <= 1 # 2) by (rewrite Qabs_Qminus; apply round_even_err).
  destruct (centred_exact w m z F H Hw) as (F1 & E & F2 & B).
  set (y := 2 ^ w * (m - inject_Z z)) in *.
  assert (Ey : rnd (2 ^ w * rnd (m - inject_Z z)) == y) by (rewrite (rnd_compat _ y) by (rewrite <- E; ring); apply rnd_exact, F2).
  rewrite (round_even_compat _ _ Ey). exists (round_even y), z. split; [reflexivity|]. split; [apply round_even_abs, B|]. split; [apply round_even_fits, F2|].
  pose proof (round_even_err y) as R. rewrite inject_Z_plus, inject_Z_mult, <- Q2_Z by lia.
  setoid_replace (inject_Z (round_even y) + inject_Z z * 2 ^ w - 2 ^ w * m) with (inject_Z (round_even y) - y) by (unfold y; ring). exact R.
Qed.
Lemma fround_compat x y : x == y -> fround x = fround y.
Proof.
  intros E. unfold fround. rewrite (Qfloor_comp (x + _) (y + (1 # 2))) by (rewrite E; reflexivity).
  rewrite (Qfloor_comp (- x + _) (- y + (1 # 2))) by (rewrite E; reflexivity).
  replace (Qle_bool 0 x) with (Qle_bool 0 y); [reflexivity|]. apply eq_iff_eq_true. rewrite !Qle_bool_iff, E. reflexivity.
Qed.
Lemma fround_abs q (n : Z) : Qabs q <= inject_Z n -> (Z.abs (fround q) <= n)%Z.
Proof.
  intros H. apply Qabs_Qle_condition in H. destruct H as [H1 H2]. assert (0 <= n)%Z by (rewrite Zle_Qle; change (inject_Z 0) with 0; lra). unfold fround. destruct (Qle_bool 0 q) eqn:E.
  - apply Qle_bool_iff in E. assert (0 <= Qfloor (q + (1 # 2)))%Z by (change 0%Z with (Qfloor 0); apply Qfloor_resp_le; lra).
    assert (Qfloor (q + (1 # 2)) <= n)%Z; [|lia]. assert (Hf := floor_bounds (q + (1 # 2))). assert (inject_Z (Qfloor (q + (1 # 2))) < inject_Z (n + 1)) by (rewrite inject_Z_plus; change (inject_Z 1) with 1; lra).
    rewrite <- Zlt_Qlt in H3. lia.
  - assert (q < 0) by (apply Qnot_le_lt; intros A; apply Qle_bool_iff in A; congruence).
    assert (0 <= Qfloor (- q + (1 # 2)))%Z by (change 0%Z with (Qfloor 0); apply Qfloor_resp_le; lra).
    assert (Qfloor (- q + (1 # 2)) <= n)%Z; [|lia]. assert (Hf := floor_bounds (- q + (1 # 2))). assert (inject_Z (Qfloor (- q + (1 # 2))) < inject_Z (n + 1)) by (rewrite inject_Z_plus; change (inject_Z 1) with 1; lra).
    rewrite <- Zlt_Qlt in H4. lia.
Qed.
Lemma from_torus_bound w m : fits53 m -> (0 < w)%Z -> exists t z, from_torus w m = (t mod 2 ^ w)%Z /\
  Qabs (inject_Z (t + z * 2 ^ w) - 2 ^ w * m) <= 3 # 2.
Proof.
  intros F Hw. unfold from_torus, fmul, fsub, fpow2. set (z := fround m).
  assert (H : Qabs (m - inject_Z z) <= 1 # 2) by (rewrite Qabs_Qminus; apply fround_err).
  destruct (centred_exact w m z F H Hw) as (F1 & E & F2 & B).
  set (y := 2 ^ w * (m - inject_Z z)) in *.
  assert (Ey : rnd (rnd (m - inject_Z z) * 2 ^ w) == y) by (rewrite (rnd_compat _ y) by exact E; apply rnd_exact, F2).
  rewrite (fround_compat _ _ Ey). exists (to_signed w (fround y)), z. split; [reflexivity|].
  pose proof (fround_abs _ _ B) as Hb. pose proof (fround_err y) as R.
  assert (T : (Z.abs (to_signed w (fround y) - fround y) <= 1)%Z) by (unfold to_signed; lia).
  rewrite inject_Z_plus, inject_Z_mult, <- Q2_Z by lia.
  setoid_replace (inject_Z (to_signed w (fround y)) + inject_Z z * 2 ^ w - 2 ^ w * m) with ((inject_Z (to_signed w (fround y) - fround y)) + (inject_Z (fround y) - y)) by (unfold y; unfold Z.sub; rewrite inject_Z_plus, inject_Z_opp; ring).
  eapply Qle_trans; [apply Qabs_triangle|]. rewrite abs_inject. apply inject_le in T. change (inject_Z 1) with 1 in T. lra.
Qed.

Lemma adds_intro w old t z m X s r : (0 < w)%Z -> Qabs (inject_Z (t + z * 2 ^ w) - 2 ^ w * m) <= r -> approximates m X s ->
  adds w old ((old + t) mod 2 ^ w) X (r + 2 ^ w * (4 * (1 # 9007199254740992) * s)).
Proof.
  intros Hw H1 H2. pose proof (pow2_pos w) as Hp. split; [apply Z.mod_pos_bound; lia|].
  exists ((old + t) / 2 ^ w + z)%Z.
  replace ((old + t) mod 2 ^ w - old + ((old + t) / 2 ^ w + z) * 2 ^ w)%Z with (t + z * 2 ^ w)%Z by (pose proof (Z.div_mod (old + t) (2 ^ w) ltac:(lia)); lia).
  setoid_replace (inject_Z (t + z * 2 ^ w) - 2 ^ w * X) with ((inject_Z (t + z * 2 ^ w) - 2 ^ w * m) + 2 ^ w * (m - X)) by ring.
  eapply Qle_trans; [apply Qabs_triangle|]. apply Qplus_le_compat; [exact H1|].
  rewrite Qabs_Qmult, (Qabs_pos (2 ^ w)) by (apply Qlt_le_weak, Q2_pos). unfold approximates in H2. pose proof (Q2_pos w). nra.
Qed.

(** ** The product with the conjugate twisting factor, divided by the number of coefficients *)
Definition untwist_fma (norm : Q) (z : Q * Q) (w_re w_im : Q) : Q * Q :=
  (fmadd (fst z) (fmul norm w_re) (fmul (snd z) (fmul norm w_im)), fnmadd (fst z) (fmul norm w_im) (fmul (snd z) (fmul norm w_re))).
Definition untwisted (n : nat) (r z : Q * Q) (w_re w_im : Q) : Prop :=
  let inv := / inject_Z (Z.of_nat n) in
  fits53 (fst r) /\ fits53 (snd r) /\
  approximates (fst r) (inv * product_re (fst z) (snd z) w_re (- w_im)) (inv * magnitude (fst z) w_re (snd z) w_im) /\
  approximates (snd r) (inv * product_im (fst z) (snd z) w_re (- w_im)) (inv * magnitude (fst z) w_im (snd z) w_re).
Lemma inverse_exact k n : n = Nat.pow 2 k -> fdiv 1 (of_int (Z.of_nat n)) == 2 ^ (- Z.of_nat k) /\ / inject_Z (Z.of_nat n) == 2 ^ (- Z.of_nat k).
Proof.
  intros ->. assert (E : inject_Z (Z.of_nat (Nat.pow 2 k)) == 2 ^ Z.of_nat k) by (rewrite Q2_Z by lia; rewrite Nat2Z.inj_pow; reflexivity).
  assert (I : / 2 ^ Z.of_nat k == 2 ^ (- Z.of_nat k)).
  { pose proof (Q2_opp (Z.of_nat k)) as H. pose proof (Q2_pos (Z.of_nat k)). apply (Qmult_inj_r _ _ (2 ^ Z.of_nat k)); [lra|]. rewrite H, Qmult_comm. apply Qmult_inv_r. lra. }
  assert (F : forall j, fits53 (2 ^ j)) by (intros j; exists 1%Z, j; split; [lia|change (inject_Z 1) with 1; ring]).
  split; [|rewrite E; exact I].
  unfold fdiv, of_int. rewrite (rnd_compat _ (2 ^ (- Z.of_nat k))); [apply rnd_exact, F|].
  rewrite (rnd_compat _ _ E), (rnd_exact _ (F _)). unfold Qdiv. rewrite I. ring.
Qed.
Lemma norm_product inv norm x : norm == inv -> fits53 x -> (exists j, inv == 2 ^ j) -> fmul norm x == inv * x.
Proof.
  intros H F [j Hj]. unfold fmul. rewrite (rnd_compat _ (x * 2 ^ j)) by (rewrite H, Hj; ring). rewrite (rnd_exact _ (fits53_shift _ j F)), Hj. ring.
Qed.
Lemma fmul_comm a b : fmul a b = fmul b a. Proof. apply rnd_compat. ring. Qed.
Lemma two_products0 (fma b1 b2 : bool) X Y c d c' d' s inv : 0 < inv -> c' == inv * c -> d' == inv * d ->
  s == signed b1 (if fma then X * c' else rnd (X * c')) + signed b2 (rnd (Y * d')) ->
  approximates (rnd s) (inv * (signed b1 (X * c) + signed b2 (Y * d))) (inv * magnitude X c Y d).
Proof.
  intros Hi Hc Hd Es. eapply approximates_compat; [| |exact (two_products fma b1 b2 X X Y Y c' d' s (zero_err X) (zero_err Y) Es)].
  - destruct b1, b2; cbn [signed]; rewrite Hc, Hd; ring.
  - unfold magnitude. setoid_replace (X * c') with (inv * (X * c)) by (rewrite Hc; ring). setoid_replace (Y * d') with (inv * (Y * d)) by (rewrite Hd; ring).
    rewrite !(Qabs_Qmult inv), (Qabs_pos inv) by lra. ring.
Qed.
Lemma untwist_fma_ok k n z w_re w_im : n = Nat.pow 2 k -> fits53 w_re -> fits53 w_im ->
  untwisted n (untwist_fma (fdiv 1 (of_int (Z.of_nat n))) z w_re w_im) z w_re w_im.
Proof.
  intros Hn F1 F2. destruct (inverse_exact k n Hn) as [E1 E2]. set (norm := fdiv _ _) in *. set (inv := / _) in *.
  assert (Ei : norm == inv) by (rewrite E1, E2; reflexivity). assert (Hi : 0 < inv) by (rewrite E2; apply Q2_pos).
  pose proof (norm_product inv norm w_re Ei F1 (ex_intro (fun j => inv == 2 ^ j) _ E2)) as P1. pose proof (norm_product inv norm w_im Ei F2 (ex_intro (fun j => inv == 2 ^ j) _ E2)) as P2.
  unfold untwisted, untwist_fma. fold inv. cbn [fst snd]. split; [apply rnd_fits|]. split; [apply rnd_fits|]. split.
  - eapply approximates_compat; [| |apply (two_products0 true false false (fst z) (snd z) w_re w_im _ _ _ inv Hi P1 P2); reflexivity]; [|reflexivity].
    unfold product_re. cbn [signed]. ring.
  - eapply approximates_compat; [| |apply (two_products0 true true false (fst z) (snd z) w_im w_re _ _ _ inv Hi P2 P1); reflexivity]; [|reflexivity].
    unfold product_im. cbn [signed]. ring.
Qed.
Lemma untwist_scalar_ok k n z w_re w_im : n = Nat.pow 2 k -> fits53 w_re -> fits53 w_im ->
  untwisted n (untwist (fdiv 1 (of_int (Z.of_nat n))) z w_re w_im) z w_re w_im.
Proof.
  intros Hn F1 F2. destruct (inverse_exact k n Hn) as [E1 E2]. set (norm := fdiv _ _) in *. set (inv := / _) in *.
  assert (Ei : norm == inv) by (rewrite E1, E2; reflexivity). assert (Hi : 0 < inv) by (rewrite E2; apply Q2_pos).
  pose proof (norm_product inv norm w_re Ei F1 (ex_intro (fun j => inv == 2 ^ j) _ E2)) as P1. pose proof (norm_product inv norm (- w_im) Ei (fits53_opp _ F2) (ex_intro (fun j => inv == 2 ^ j) _ E2)) as P2.
  unfold untwisted, untwist, cscale, cmul. fold inv. cbn [fst snd]. rewrite !(fmul_comm _ norm). split; [apply rnd_fits|]. split; [apply rnd_fits|]. split.
  - eapply approximates_compat; [| |apply (two_products0 false false true (fst z) (snd z) w_re (- w_im) _ _ _ inv Hi P1 P2); reflexivity].
    + unfold product_re. cbn [signed]. ring.
    + unfold magnitude. setoid_replace (snd z * - w_im) with (- (snd z * w_im)) by ring. rewrite Qabs_opp. reflexivity.
  - eapply approximates_compat; [| |apply (two_products0 false false false (fst z) (snd z) (- w_im) w_re _ _ _ inv Hi P2 P1); reflexivity].
    + unfold product_im. cbn [signed]. ring.
    + unfold magnitude. setoid_replace (fst z * - w_im) with (- (fst z * w_im)) by ring. rewrite Qabs_opp. reflexivity.
Qed.

(** ** The loops of the backward conversion *)
Definition back_re (w : Z) (cvt : Q -> Z) (norm : Q) (x : (Q * Q) * Q * Q * Z) : Z :=
  let '(z, wr, wi, o) := x in wadd w (cvt (scaled_fract (2 ^ w) (fst (untwist_fma norm z wr wi)))) o.
Definition back_im (w : Z) (cvt : Q -> Z) (norm : Q) (x : (Q * Q) * Q * Q * Z) : Z :=
  let '(z, wr, wi, o) := x in wadd w (cvt (scaled_fract (2 ^ w) (snd (untwist_fma norm z wr wi)))) o.
Definition prologue_ok (lanes : nat) (prologue : list Q -> list Q -> list Q -> list (Q * Q) -> Q -> list Q * list Q) : Prop :=
  forall norm wr wi inp scaling, length wr = lanes -> length wi = lanes -> length inp = lanes ->
  let r := map (fun '(z, a, b, _) => untwist_fma norm z a b) (zip4 inp wr wi inp) in
  prologue (set1 lanes norm) wr wi inp scaling = (map (fun x => scaled_fract scaling (fst x)) r, map (fun x => scaled_fract scaling (snd x)) r).
Ltac four' l := destruct l as [|? [|? [|? [|? [|? ?]]]]]; try discriminate.
Ltac eight' l := destruct l as [|? [|? [|? [|? [|? [|? [|? [|? [|? ?]]]]]]]]]; try discriminate.
Lemma prologue_fma_ok : prologue_ok 4 convert_torus_prologue_fma.
Proof. intros norm wr wi inp sc H1 H2 H3 r. subst r. four' wr. four' wi. four' inp. reflexivity. Qed.
Lemma prologue_512_ok : prologue_ok 8 convert_torus_prologue_avx512f.
Proof. intros norm wr wi inp sc H1 H2 H3 r. subst r. eight' wr. eight' wi. eight' inp. reflexivity. Qed.

Lemma load_app {A} (P l : list A) pos lanes : length P = pos -> load_at pos lanes (P ++ skipn pos l) = load_at pos lanes l.
Proof. intros <-. unfold load_at. rewrite skipn_app, skipn_all, Nat.sub_diag. reflexivity. Qed.
Lemma block_words (g : Q * Q -> Q) w cvt norm wr wi inp o sc : length wr = length inp -> length wi = length inp -> length o = length inp ->
  map2 (wadd w) (map cvt (map (fun x => scaled_fract sc (g x)) (map (fun '(z, a, b, _) => untwist_fma norm z a b) (zip4 inp wr wi inp)))) o =
  map (fun '(z, wr, wi, o) => wadd w (cvt (scaled_fract sc (g (untwist_fma norm z wr wi)))) o) (zip4 inp wr wi o).
Proof.
  revert wr wi o. induction inp as [|z inp IH]; intros [|a wr] [|b wi] [|x o] H1 H2 H3; try discriminate; [reflexivity|].
  cbn [zip4 map map2]. f_equal. apply IH; [injection H1 as H; exact H|injection H2 as H; exact H|injection H3 as H; exact H].
Qed.
Lemma bwd_loop_ok w lanes prologue cvt n out_re out_im inp tw : (0 < lanes)%nat -> prologue_ok lanes prologue -> (n / lanes * lanes <= n)%nat ->
  length out_re = n -> length out_im = n -> length inp = n -> length (tw_re tw) = n -> length (tw_im tw) = n ->
  let norm := fdiv 1 (of_int (Z.of_nat n)) in
  let m := (n / lanes * lanes)%nat in
  bwd_loop w lanes prologue cvt n out_re out_im inp tw =
    (map (back_re w cvt norm) (zip4 (firstn m inp) (firstn m (tw_re tw)) (firstn m (tw_im tw)) (firstn m out_re)) ++ skipn m out_re,
     map (back_im w cvt norm) (zip4 (firstn m inp) (firstn m (tw_re tw)) (firstn m (tw_im tw)) (firstn m out_im)) ++ skipn m out_im).
Proof.
  intros Hl Hp Hq H1 H2 H3 H4 H5 norm m. unfold bwd_loop. fold norm. unfold m. clear m. revert Hq. generalize (n / lanes)%nat. induction n0 as [|q IH]; intros Hq; [reflexivity|].
  rewrite seq_S, fold_left_app, IH by lia. cbn [fold_left Nat.add].
  assert (La : forall A (l : list A), length l = n -> length (load_at (q * lanes) lanes l) = lanes) by (intros; apply load_at_length; lia).
  assert (Lf : forall A (l : list A), length l = n -> length (firstn (q * lanes) l) = (q * lanes)%nat) by (intros; rewrite firstn_length; lia).
  set (P := map (back_re w cvt norm) _). set (R := map (back_im w cvt norm) _).
  assert (LP : length P = (q * lanes)%nat) by (unfold P; rewrite map_length, zip4_length; rewrite !Lf; auto).
  assert (LR : length R = (q * lanes)%nat) by (unfold R; rewrite map_length, zip4_length; rewrite !Lf; auto).
  change (fpow2 w) with (2 ^ w).
  rewrite Hp by (apply La; assumption). rewrite !load_app by assumption.
  rewrite (block_words fst) by (rewrite !La; auto). rewrite (block_words snd) by (rewrite !La; auto).
  assert (SA : forall (X v l : list Z), length X = (q * lanes)%nat -> store_at (q * lanes) v (X ++ l) = X ++ v ++ skipn (length v) l) by (intros X v l <-; apply store_at_app).
  rewrite !SA by assumption.
  rewrite !map_length, !zip4_length by (rewrite !La; auto). rewrite !skipn_skipn', !La by assumption.
  replace (S q * lanes)%nat with (q * lanes + lanes)%nat by lia. rewrite !firstn_load.
  rewrite !zip4_app by (rewrite !Lf; auto). rewrite !map_app. fold P R. rewrite <- !app_assoc. reflexivity.
Qed.
