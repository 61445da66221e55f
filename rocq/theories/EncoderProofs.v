From Coq Require Import QArith Qpower Qabs Qround Lqa.
From Verif Require Import Base Word WordFacts DecompModel DecompProofs FloatModel FloatFacts EncoderModel EncoderSpec.
Open Scope Q_scope.
Local Set Default Proof Using "Type".

(** ** Rounding is monotone with respect to doubles *)
Lemma round_even_ge q K : inject_Z K <= q -> (K <= round_even q)%Z.
Proof.
  intros H. assert (K <= Qfloor q)%Z. { rewrite <- (Qfloor_Z K). apply Qfloor_resp_le. exact H. }
  unfold round_even. destruct (_ ?= _); [destruct Z.even|..]; lia.
Qed.

Lemma rnd_ge z x : fits53 z -> z <= x -> z <= rnd x.
Proof.
  intros (m & e & Hm & Hz) Hx. unfold rnd. destruct (Z.eqb_spec (Qnum x) 0) as [H0|H0].
  - apply Qnum_0 in H0. rewrite <- H0. exact Hx.
  - apply Qnum_n0 in H0. pose proof (ulp_exp_spec x H0) as [H1 H2]. pose proof (Q2_pos (ulp_exp x)) as P.
    set (u := ulp_exp x) in *.
    assert (Dv : x / 2 ^ u * 2 ^ u == x) by (field; lra).
    assert (K : forall k, inject_Z k * 2 ^ u <= x -> inject_Z k * 2 ^ u <= inject_Z (round_even (x / 2 ^ u)) * 2 ^ u).
    { intros k Hk. apply Qmult_le_compat_r; [|lra]. apply inject_le, round_even_ge.
      apply Qle_shift_div_l; assumption. }
    destruct (Z_le_gt_dec u e) as [Hue|Hue].
    + assert (Ez : z == inject_Z (m * 2 ^ (e - u)) * 2 ^ u).
      { rewrite inject_Z_mult, <- Q2_Z by lia. rewrite <- Qmult_assoc, <- Q2_add.
        replace (e - u + u)%Z with e by lia. exact Hz. }
      rewrite Ez. apply K. rewrite <- Ez. exact Hx.
    + assert (Hb : Qabs z <= 2 ^ 52 * 2 ^ u).
      { rewrite Hz, Qabs_Qmult, (Qabs_pos (2 ^ e)) by (apply Qlt_le_weak, Q2_pos).
        apply Qle_trans with (2 ^ 53 * 2 ^ e).
        - apply Qmult_le_compat_r; [|apply Qlt_le_weak, Q2_pos]. change (Qabs (inject_Z m)) with (inject_Z (Z.abs m)).
          rewrite Q2_Z by lia. apply inject_le. exact Hm.
        - change 53%Z with (52 + 1)%Z. rewrite Q2_add, <- Qmult_assoc, <- (Q2_add 1 e).
          apply Qmult_le_l; [reflexivity|]. replace u with ((u - (1 + e)) + (1 + e))%Z by lia. rewrite (Q2_add (u - (1 + e))).
          rewrite <- (Qmult_1_l (2 ^ (1 + e))) at 1. apply Qmult_le_compat_r; [|apply Qlt_le_weak, Q2_pos].
          rewrite Q2_Z by lia. change 1 with (inject_Z 1). apply inject_le. pose proof (Z.pow_pos_nonneg 2 (u - (1 + e))). lia. }
      apply Qabs_Qle_condition in Hb as [Hb1 Hb2].
      destruct (Qlt_le_dec x 0) as [Hn|Hp].
      * rewrite Qabs_neg in H1 by lra.
        assert (Ex : x == inject_Z (- 2 ^ 52) * 2 ^ u).
        { rewrite inject_Z_opp. rewrite <- Q2_Z by lia. lra. }
        apply Qle_trans with (inject_Z (- 2 ^ 52) * 2 ^ u); [rewrite <- Ex; exact Hx|]. apply K. rewrite <- Ex. apply Qle_refl.
      * rewrite Qabs_pos in H1 by lra. apply Qle_trans with (inject_Z (2 ^ 52) * 2 ^ u).
        { rewrite <- Q2_Z by lia. exact Hb2. }
        apply K. rewrite <- Q2_Z by lia. exact H1.
Qed.

(** ** Relative errors *)
Definition near (eps a b : Q) : Prop := b * (1 - eps) <= a <= b * (1 + eps).
Notation ur := unit_roundoff.

Lemma near_rnd x : 0 <= x -> near ur (rnd x) x.
Proof.
  intros H. pose proof (rnd_err x) as E. rewrite (Qabs_pos x H) in E. apply Qabs_Qle_condition in E. unfold near.
  split; lra.
Qed.
Lemma near_nonneg eps a b : 0 <= b -> eps <= 1 -> near eps a b -> 0 <= a.
Proof. intros Hb He [H _]. apply Qle_trans with (b * (1 - eps)); [apply Qmult_le_0_compat; lra|exact H]. Qed.
Lemma near_pos eps a b : 0 < b -> eps < 1 -> near eps a b -> 0 < a.
Proof. intros Hb He [H _]. apply Qlt_le_trans with (b * (1 - eps)); [|exact H]. nra. Qed.
Lemma near_weaken e1 e2 a b : 0 <= b -> e1 <= e2 -> near e1 a b -> near e2 a b.
Proof. unfold near. intros. nra. Qed.
Lemma near_trans e1 e2 e3 a b c : 0 <= c -> 0 <= e1 <= 1 -> 0 <= e2 -> e1 + e2 + e1 * e2 <= e3 ->
  near e1 a b -> near e2 b c -> near e3 a c.
Proof.
  unfold near. intros Hc [H1 H1'] H2 H3 [Ha Hb] [Hc1 Hc2]. split.
  - apply Qle_trans with (c * (1 - e2) * (1 - e1)).
    + assert (0 <= e1 * e2) by (apply Qmult_le_0_compat; lra). setoid_replace (c * (1 - e2) * (1 - e1)) with (c * (1 - e1 - e2 + e1 * e2)) by ring.
      rewrite !(Qmult_comm c). apply Qmult_le_compat_r; lra.
    + apply Qle_trans with (b * (1 - e1)); [|exact Ha]. apply Qmult_le_compat_r; lra.
  - apply Qle_trans with (b * (1 + e1)); [exact Hb|]. apply Qle_trans with (c * (1 + e2) * (1 + e1)).
    + apply Qmult_le_compat_r; lra.
    + setoid_replace (c * (1 + e2) * (1 + e1)) with (c * (1 + (e1 + e2 + e1 * e2))) by ring.
      rewrite !(Qmult_comm c). apply Qmult_le_compat_r; lra.
Qed.
Lemma near_add e a b a' b' : near e a b -> near e a' b' -> near e (a + a') (b + b').
Proof. unfold near. intros [] []. split; lra. Qed.
Lemma near_mul e1 e2 e3 a b a' b' : 0 <= b -> 0 <= b' -> 0 <= e1 <= 1 -> 0 <= e2 <= 1 -> e1 + e2 + e1 * e2 <= e3 ->
  near e1 a b -> near e2 a' b' -> near e3 (a * a') (b * b').
Proof.
  intros Hb Hb' He1 He2 H3 H1 H2. pose proof (near_nonneg _ _ _ Hb (proj2 He1) H1) as Pa.
  apply near_trans with (b := b * a') (e1 := e1) (e2 := e2); try tauto.
  - apply Qmult_le_0_compat; assumption.
  - destruct H1 as [A B]. split.
    + setoid_replace (b * a' * (1 - e1)) with (b * (1 - e1) * a') by ring. apply Qmult_le_compat_r; [exact A|]. eapply near_nonneg; [| |exact H2]; tauto.
    + setoid_replace (b * a' * (1 + e1)) with (b * (1 + e1) * a') by ring. apply Qmult_le_compat_r; [exact B|]. eapply near_nonneg; [| |exact H2]; tauto.
  - destruct H2 as [A B]. split.
    + setoid_replace (b * b' * (1 - e2)) with (b' * (1 - e2) * b) by ring. rewrite (Qmult_comm b a'). apply Qmult_le_compat_r; assumption.
    + setoid_replace (b * b' * (1 + e2)) with (b' * (1 + e2) * b) by ring. rewrite (Qmult_comm b a'). apply Qmult_le_compat_r; assumption.
Qed.
Lemma near_inv e a b : 0 < b -> 0 <= e -> 2 * e <= 1 -> near e a b -> near (2 * e) (/ a) (/ b).
Proof.
  intros Hb He1 He2 [A B]. assert (Pa : 0 < a) by nra. unfold near. split.
  - setoid_replace (/ b * (1 - 2 * e)) with ((1 - 2 * e) / b) by (field; lra).
    apply Qle_shift_div_r; [exact Hb|]. setoid_replace (/ a * b) with (b / a) by (field; lra).
    apply Qle_shift_div_l; [exact Pa|]. apply Qle_trans with ((1 - 2 * e) * (b * (1 + e))).
    + rewrite !(Qmult_comm (1 - 2 * e)). apply Qmult_le_compat_r; lra.
    + assert (0 <= b * (e + 2 * e * e)) by (apply Qmult_le_0_compat; nra). nra.
  - setoid_replace (/ b * (1 + 2 * e)) with ((1 + 2 * e) / b) by (field; lra).
    apply Qle_shift_div_l; [exact Hb|]. setoid_replace (/ a * b) with (b / a) by (field; lra).
    apply Qle_shift_div_r; [exact Pa|]. apply Qle_trans with ((1 + 2 * e) * (b * (1 - e))).
    + assert (0 <= b * (e * (1 - 2 * e))) by (apply Qmult_le_0_compat; [lra|apply Qmult_le_0_compat; lra]). nra.
    + rewrite !(Qmult_comm (1 + 2 * e)). apply Qmult_le_compat_r; lra.
Qed.

(** ** Conversion to the torus *)
Lemma inject_nonneg z : (0 <= z)%Z -> 0 <= inject_Z z.
Proof. intros. change 0 with (inject_Z 0). now apply inject_le. Qed.
Lemma inject_nonneg_inv z : 0 <= inject_Z z -> (0 <= z)%Z.
Proof. intros H. change 0 with (inject_Z 0) in H. rewrite <- Zle_Qle in H. exact H. Qed.

Lemma from_torus_ok w x : (1 < w)%Z -> 0 <= x -> (x - 1) * 2 ^ w + 1 + 2 ^ w * (2 * ur) < 0 ->
  is_word w (from_torus w x) /\ Qabs (inject_Z (from_torus w x) - x * 2 ^ w) <= 1 + 2 ^ w * (2 * ur).
Proof.
  intros Hw Hx Hx1. unfold from_torus, fsub, fmul, fpow2.
  pose proof (Q2_pos w) as PW. set (r := fround x).
  assert (Hr : (r = 0 \/ r = 1)%Z).
  { pose proof (fround_nonneg x Hx) as H0. fold r in H0. pose proof (fround_err x) as H1. fold r in H1.
    apply Qabs_Qle_condition in H1 as [_ H1]. assert (x < 1) by nra.
    assert (H2 : inject_Z r < inject_Z 2) by (change (inject_Z 2) with 2; lra). rewrite <- Zlt_Qlt in H2. lia. }
  set (f := x - inject_Z r). pose proof (fround_err x) as Hf. fold r in Hf.
  assert (Hf' : Qabs f <= 1 # 2). { unfold f. rewrite Qabs_Qminus. exact Hf. }
  pose proof (rnd_err f) as E1. set (f1 := rnd f) in *.
  pose proof (rnd_err (f1 * 2 ^ w)) as E2. set (f2 := rnd (f1 * 2 ^ w)) in *.
  pose proof (fround_err f2) as E3. set (s := fround f2) in *.
  apply Qabs_Qle_condition in Hf', E3.
  assert (E12 : - (2 ^ w * (2 * ur)) <= f2 - f * 2 ^ w <= 2 ^ w * (2 * ur)).
  { rewrite Qabs_Qmult, (Qabs_pos (2 ^ w)) in E2 by lra.
    assert (F : Qabs f <= 1 # 2) by (apply Qabs_Qle_condition; exact Hf').
    assert (B1 : Qabs (f1 - f) <= ur * (1 # 2)) by (eapply Qle_trans; [exact E1|]; rewrite !(Qmult_comm ur); apply Qmult_le_compat_r; [exact F|discriminate]).
    apply Qabs_Qle_condition in B1.
    assert (A1 : Qabs f1 <= 1) by (apply Qabs_Qle_condition; split; lra).
    assert (B2 : Qabs (f2 - f1 * 2 ^ w) <= ur * 2 ^ w).
    { eapply Qle_trans; [exact E2|]. rewrite <- (Qmult_1_l (2 ^ w)) at 2. rewrite !(Qmult_comm ur). apply Qmult_le_compat_r; [|discriminate].
      apply Qmult_le_compat_r; lra. }
    apply Qabs_Qle_condition in B2. set (W := 2 ^ w) in *. clearbody W f2 f1 f.
    assert ((f1 - f) * W <= ur * (1 # 2) * W) by (apply Qmult_le_compat_r; lra).
    assert (- (ur * (1 # 2)) * W <= (f1 - f) * W) by (apply Qmult_le_compat_r; lra). lra. }
  (* the saturating cast *)
  assert (EW : 2 ^ w == inject_Z (2 * 2 ^ (w - 1))). { rewrite Q2_Z by lia. replace (2 ^ w)%Z with (2 * 2 ^ (w - 1))%Z; [reflexivity|]. rewrite <- Z.pow_succ_r by lia. f_equal. lia. }
  rewrite inject_Z_mult in EW. change (inject_Z 2) with 2 in EW.
  assert (EWz : (2 ^ w = 2 * 2 ^ (w - 1))%Z). { rewrite <- Z.pow_succ_r by lia. f_equal. lia. }
  pose proof (Z.pow_pos_nonneg 2 (w - 1) ltac:(lia) ltac:(lia)) as PH.
  set (H := (2 ^ (w - 1))%Z) in *. pose proof (inject_lt _ _ PH) as PHq. change (inject_Z 0) with 0 in PHq.
  assert (Fs : - (inject_Z H) <= f * 2 ^ w <= inject_Z H).
  { rewrite EW. set (h := inject_Z H) in *. clearbody h. split.
    - setoid_replace (- h) with (- (1 # 2) * (2 * h)) by ring. apply Qmult_le_compat_r; lra.
    - setoid_replace h with ((1 # 2) * (2 * h)) at 2 by ring. apply Qmult_le_compat_r; lra. }
  set (S := to_signed w s).
  assert (HS : (- H <= S <= H - 1)%Z) by (unfold S, to_signed; fold H; lia).
  assert (ES : - (1 + 2 ^ w * (2 * ur)) <= inject_Z S - f * 2 ^ w <= 1 + 2 ^ w * (2 * ur)).
  { assert (Hc : S = s \/ (S = - H /\ s < - H)%Z \/ (S = H - 1 /\ H - 1 < s)%Z) by (unfold S, to_signed; fold H; lia).
    destruct Hc as [->|[[-> Hs]|[-> Hs]]]; try (apply inject_lt in Hs).
    - split; lra.
    - rewrite inject_Z_opp in *. split; lra.
    - unfold Zminus in *. rewrite inject_Z_plus, inject_Z_opp in *. change (inject_Z 1) with 1 in *. split; lra. }
  destruct Hr as [Hr|Hr].
  - assert (Ef : f == x). { unfold f. rewrite Hr. change (inject_Z 0) with 0. ring. }
    assert (Ps : (0 <= s)%Z).
    { apply fround_nonneg, rnd_nonneg, Qmult_le_0_compat; [|lra]. apply rnd_nonneg. rewrite Ef. exact Hx. }
    assert (PS : (0 <= S)%Z) by (unfold S, to_signed; fold H; lia).
    rewrite EWz, Z.mod_small by lia. split; [unfold is_word; rewrite EWz; lia|]. apply Qabs_Qle_condition. rewrite <- Ef. exact ES.
  - assert (Ef : f == x - 1). { unfold f. rewrite Hr. reflexivity. }
    rewrite Ef in ES.
    assert (NS : (S < 0)%Z). { rewrite Zlt_Qlt. change (inject_Z 0) with 0. lra. }
    assert (Em : (S mod 2 ^ w = S + 2 * H)%Z).
    { rewrite EWz. symmetry. apply (Zmod_unique _ _ (-1)); lia. }
    rewrite Em. split; [unfold is_word; rewrite EWz; lia|].
    rewrite inject_Z_plus, inject_Z_mult. change (inject_Z 2) with 2. apply Qabs_Qle_condition.
    setoid_replace (inject_Z S + 2 * inject_Z H - x * 2 ^ w) with (inject_Z S - (x - 1) * 2 ^ w) by (rewrite EW; ring). exact ES.
Qed.

(** ** Integer part of the decoding *)
Lemma prec_dec_wf w prec : (0 < prec < w)%Z -> (w < 2 ^ 64)%Z -> dec_wf w (Dec prec 1).
Proof. intros. unfold dec_wf. cbn [base_log level_count]. lia. Qed.

Lemma closest_at w prec k e : (0 < prec < w)%Z -> (w < 2 ^ 64)%Z -> (Z.abs e < 2 ^ (w - prec - 1))%Z ->
  closest_representable w (Dec prec 1) ((k * 2 ^ (w - prec) + e) mod 2 ^ w) = ((k * 2 ^ (w - prec)) mod 2 ^ w)%Z.
Proof.
  intros Hp Hw He. pose proof (prec_dec_wf w prec Hp Hw) as Hd.
  pose proof (Z.pow_pos_nonneg 2 w ltac:(lia) ltac:(lia)) as PW.
  rewrite (closest_div w (Dec prec 1) Hd) by (unfold is_word; apply Z.mod_pos_bound; exact PW).
  cbn [base_log level_count]. replace (w - prec * Z.of_nat 1)%Z with (w - prec)%Z by lia.
  assert (EG : (2 ^ (w - prec) = 2 * 2 ^ (w - prec - 1))%Z) by (rewrite <- Z.pow_succ_r by lia; f_equal; lia).
  assert (EW : (2 ^ w = 2 ^ prec * 2 ^ (w - prec))%Z) by (rewrite <- Z.pow_add_r by lia; f_equal; lia).
  pose proof (Z.pow_pos_nonneg 2 (w - prec - 1) ltac:(lia) ltac:(lia)) as PH.
  pose proof (Z.pow_pos_nonneg 2 prec ltac:(lia) ltac:(lia)) as PP.
  set (G := (2 ^ (w - prec))%Z) in *. set (H := (2 ^ (w - prec - 1))%Z) in *. set (K := (2 ^ prec)%Z) in *.
  set (x := (k * G + e)%Z). pose proof (Z.div_mod x (2 ^ w) ltac:(lia)) as Ex. set (j := (x / 2 ^ w)%Z) in *.
  assert (Ed : (((x mod 2 ^ w) + H) / G = k - j * K)%Z).
  { symmetry. apply Z.div_unique with (r := (e + H)%Z); [left; clear - He EG; lia|].
    clearbody j. set (m := (x mod 2 ^ w)%Z) in *. clearbody m. unfold x in Ex. rewrite EW in Ex. clear - Ex. lia. }
  rewrite Ed. replace (G * (k - j * K))%Z with (k * G + (- j) * (K * G))%Z by ring. rewrite EW. apply Z.mod_add. nia.
Qed.

Lemma start_value w prec : (0 < prec)%Z -> (prec + 1 < w)%Z ->
  shl w (2 ^ (prec + 1) - 1) (w - prec) = (2 ^ w - 2 ^ (w - prec))%Z.
Proof.
  intros Hp Hw. unfold shl.
  assert (E1 : (2 ^ w = 2 ^ prec * 2 ^ (w - prec))%Z) by (rewrite <- Z.pow_add_r by lia; f_equal; lia).
  assert (E2 : (2 ^ (prec + 1) = 2 * 2 ^ prec)%Z) by (rewrite <- Z.pow_succ_r by lia; f_equal; lia).
  pose proof (Z.pow_pos_nonneg 2 (w - prec) ltac:(lia) ltac:(lia)) as PG.
  pose proof (Z.pow_gt_1 2 prec ltac:(lia)) as PP.
  rewrite E2, E1. set (G := (2 ^ (w - prec))%Z) in *. set (K := (2 ^ prec)%Z) in *.
  symmetry. apply (Zmod_unique _ _ 1); [split; nia|ring].
Qed.

(** The value taken after the padding is removed: pushed back in the interval when it is in the last granule. *)
Definition snap (w prec t : Z) : Z :=
  (if t >? 2 ^ w - 2 ^ (w - prec) then closest_representable w (Dec prec 1) t else t)%Z.

Lemma snap_value w prec s : (0 < prec < w)%Z -> (w < 2 ^ 64)%Z ->
  (- 2 ^ (w - prec - 1) < s < 2 ^ w - 2 ^ (w - prec - 1))%Z ->
  snap w prec (s mod 2 ^ w) = Z.max 0 (Z.min s (2 ^ w - 2 ^ (w - prec))).
Proof.
  intros Hp Hw Hs. unfold snap.
  assert (EG : (2 ^ (w - prec) = 2 * 2 ^ (w - prec - 1))%Z) by (rewrite <- Z.pow_succ_r by lia; f_equal; lia).
  assert (EW : (2 ^ w = 2 ^ prec * 2 ^ (w - prec))%Z) by (rewrite <- Z.pow_add_r by lia; f_equal; lia).
  pose proof (Z.pow_pos_nonneg 2 (w - prec - 1) ltac:(lia) ltac:(lia)) as PH.
  pose proof (Z.pow_gt_1 2 prec ltac:(lia)) as PP.
  assert (HG : (0 < 2 ^ w - 2 ^ (w - prec))%Z) by nia.
  destruct (Z_lt_le_dec s 0) as [Hn|Hn].
  - assert (Em : (s mod 2 ^ w = s + 2 ^ w)%Z) by (symmetry; apply (Zmod_unique _ _ (-1)); lia).
    rewrite Z.gtb_ltb. destruct (Z.ltb_spec (2 ^ w - 2 ^ (w - prec)) (s mod 2 ^ w)); [|lia].
    pose proof (closest_at w prec 0 s Hp Hw ltac:(lia)) as Hc. rewrite Z.mul_0_l, Z.add_0_l in Hc. rewrite Hc, Z.mod_0_l by lia. lia.
  - rewrite (Z.mod_small s) by lia. rewrite Z.gtb_ltb. destruct (Z.ltb_spec (2 ^ w - 2 ^ (w - prec)) s); [|lia].
    pose proof (closest_at w prec (2 ^ prec - 1) (s - (2 ^ w - 2 ^ (w - prec))) Hp Hw) as Hc.
    replace ((2 ^ prec - 1) * 2 ^ (w - prec))%Z with (2 ^ w - 2 ^ (w - prec))%Z in Hc by (rewrite EW; ring).
    replace (2 ^ w - 2 ^ (w - prec) + (s - (2 ^ w - 2 ^ (w - prec))))%Z with s in Hc by ring.
    rewrite (Z.mod_small s), (Z.mod_small (2 ^ w - 2 ^ (w - prec))) in Hc by lia. rewrite Hc by lia. lia.
Qed.

Definition out_value (w : Z) (e : float_encoder) (t : Z) : Q := fadd (fmul (into_torus w t) (fe_delta e)) (fe_o e).

Lemma decode_tail p w e t : (0 < fe_prec e)%Z -> (fe_prec e + 1 < w)%Z -> (w < 2 ^ 64)%Z -> is_word w t ->
  (let! b1 := plain p usize_bits (fe_prec e + 1) in
   let! one := shl_ p w 1 b1 in
   let! ones := plain p w (one - 1) in
   let! s := plain p usize_bits (w - fe_prec e) in
   let! start := shl_ p w ones s in
   let! d := dec_new p w (fe_prec e) 1 in
   let! tmp := if (t >? start)%Z then closest_representable_ p w d t else Ret t in
   Ret (fadd (fmul (into_torus w tmp) (fe_delta e)) (fe_o e)))
  = Ret (out_value w e (snap w (fe_prec e) t)).
Proof.
  intros Hp Hpw Hw Ht. set (prec := fe_prec e) in *. unfold usize_bits.
  rewrite plain_ok by lia. cbn [obind]. unfold shl_ at 1. destruct (Z.ltb_spec (prec + 1) w); [|lia]. cbn [obind].
  assert (E1 : shl w 1 (prec + 1) = (2 ^ (prec + 1))%Z).
  { unfold shl. rewrite Z.mul_1_l. apply Z.mod_small. split; [apply Z.pow_nonneg; lia|apply Z.pow_lt_mono_r; lia]. }
  rewrite E1. pose proof (Z.pow_gt_1 2 (prec + 1) ltac:(lia)). pose proof (Z.pow_lt_mono_r 2 (prec + 1) w ltac:(lia) ltac:(lia) ltac:(lia)).
  rewrite plain_ok by lia. cbn [obind]. rewrite plain_ok by lia. cbn [obind].
  unfold shl_. destruct (Z.ltb_spec (w - prec) w); [|lia]. cbn [obind]. rewrite start_value by lia.
  rewrite dec_new_ok by lia. cbn [obind]. unfold snap.
  destruct (t >? 2 ^ w - 2 ^ (w - prec))%Z; [|reflexivity].
  rewrite closest_representable_ok; [reflexivity| |assumption]. apply prec_dec_wf; lia.
Qed.

Lemma decode_plain p w e c : is_valid e = true -> fe_round e = false ->
  (0 < fe_prec e)%Z -> (0 <= fe_pad e < w)%Z -> (fe_prec e + 1 < w)%Z -> (w < 2 ^ 64)%Z -> is_word w c ->
  decode p w e c = Ret (out_value w e (snap w (fe_prec e) ((c * 2 ^ fe_pad e) mod 2 ^ w))).
Proof.
  intros Hv Hr Hp Hpad Hpw Hw Hc. unfold decode. rewrite Hv, Hr. cbn [assert_ obind].
  pose proof (Z.pow_pos_nonneg 2 w ltac:(lia) ltac:(lia)) as PW.
  assert (Et : (if (0 <? fe_pad e)%Z then shl_ p w c (fe_pad e) else Ret c) = Ret ((c * 2 ^ fe_pad e) mod 2 ^ w)%Z).
  { destruct (Z.ltb_spec 0 (fe_pad e)).
    - unfold shl_. destruct (Z.ltb_spec (fe_pad e) w); [reflexivity|lia].
    - replace (fe_pad e) with 0%Z by lia. rewrite Z.pow_0_r, Z.mul_1_r, Z.mod_small by exact Hc. reflexivity. }
  rewrite Et. cbn [obind]. apply decode_tail; try assumption. unfold is_word. apply Z.mod_pos_bound. exact PW.
Qed.

(** ** The arithmetic of doubles around it *)
Definition width (min max : Q) (prec : Z) : Q := max - min + granule min max prec.

Lemma pow_prec prec : (1 <= prec)%Z -> 2 <= 2 ^ prec.
Proof.
  intros H. rewrite Q2_Z by lia. change 2 with (inject_Z 2). apply inject_le.
  change 2%Z with (2 ^ 1)%Z at 1. apply Z.pow_le_mono_r; lia.
Qed.

Lemma width_pos min max prec : (1 <= prec)%Z -> min < max -> max - min < width min max prec.
Proof.
  intros Hp H. unfold width, granule. pose proof (pow_prec prec Hp).
  assert (0 < (max - min) / (2 ^ prec - 1)) by (apply Qlt_shift_div_l; lra). lra.
Qed.

Lemma width_frac min max prec : (1 <= prec)%Z -> width min max prec * (1 - 2 ^ (- prec)) == max - min.
Proof.
  intros Hp. pose proof (pow_prec prec Hp). unfold width, granule.
  assert (E : 2 ^ (- prec) == / 2 ^ prec). { rewrite Qpower_opp. reflexivity. }
  rewrite E. field. lra.
Qed.

Lemma flt_true a b : a < b -> flt a b = true.
Proof. intros H. unfold flt. apply negb_true_iff. destruct (Qle_bool b a) eqn:E; [|reflexivity]. apply Qle_bool_iff in E. lra. Qed.
Lemma flt_false a b : b <= a -> flt a b = false.
Proof. intros H. unfold flt. apply negb_false_iff. apply Qle_bool_iff. exact H. Qed.

Lemma as_i32_small prec : (0 <= prec < 2 ^ 31)%Z -> as_i32 prec = prec.
Proof. intros H. unfold as_i32, sgn. rewrite Z.mod_small by lia. change (32 - 1)%Z with 31%Z. destruct (Z.ltb_spec prec (2 ^ 31)); lia. Qed.

Lemma make_encoder min max prec pad : (1 <= prec <= 46)%Z -> min < max ->
  exists delta, min_max_to_commons min max prec pad = Ret (FE min delta prec pad false) /\
    near (8 * ur) delta (width min max prec).
Proof.
  intros Hp H. unfold min_max_to_commons. rewrite flt_true by exact H. cbn [assert_ obind].
  destruct (Z.eqb_spec prec 0); [lia|]. cbn [negb assert_ obind]. rewrite as_i32_small by lia.
  eexists. split; [reflexivity|]. unfold fadd, fsub, fdiv, fpow2.
  pose proof (pow_prec prec ltac:(lia)) as PP.
  assert (N1 : near ur (rnd (max - min)) (max - min)) by (apply near_rnd; lra).
  assert (N2 : near ur (rnd (2 ^ prec - 1)) (2 ^ prec - 1)) by (apply near_rnd; lra).
  set (r1 := rnd (max - min)) in *. set (k := rnd (2 ^ prec - 1)) in *.
  assert (P1 : 0 <= r1) by (refine (near_nonneg _ _ _ _ _ N1); [lra|discriminate]).
  assert (P2 : 0 < k) by (refine (near_pos _ _ _ _ _ N2); [lra|reflexivity]).
  assert (N3 : near (4 * ur) (r1 / k) ((max - min) / (2 ^ prec - 1))).
  { unfold Qdiv. apply near_mul with (e1 := ur) (e2 := 2 * ur); try (split; discriminate); try discriminate; try lra; try assumption.
    - apply Qlt_le_weak, Qinv_lt_0_compat. lra.
    - apply near_inv; try discriminate; try lra; assumption. }
  assert (P3 : 0 <= r1 / k) by (apply Qle_shift_div_l; lra).
  assert (P4 : 0 <= (max - min) / (2 ^ prec - 1)) by (apply Qle_shift_div_l; lra).
  assert (N4 : near (6 * ur) (rnd (r1 / k)) ((max - min) / (2 ^ prec - 1))).
  { apply near_trans with (b := r1 / k) (e1 := ur) (e2 := 4 * ur); try (split; discriminate); try discriminate; try assumption. apply near_rnd; assumption. }
  assert (N5 : near (6 * ur) (r1 + rnd (r1 / k)) (width min max prec)).
  { unfold width, granule. apply near_add; [|exact N4]. apply near_weaken with ur; [lra|discriminate|exact N1]. }
  pose proof (width_pos min max prec ltac:(lia) H).
  apply near_trans with (b := r1 + rnd (r1 / k)) (e1 := ur) (e2 := 6 * ur); try (split; discriminate); try discriminate; try assumption; [lra|].
  apply near_rnd. refine (near_nonneg _ _ _ _ _ N5); [lra|discriminate].
Qed.

(** The quotient that is encoded. *)
Lemma quotient_near y0 delta d : 0 <= y0 -> 0 < d -> near (8 * ur) delta d ->
  near (20 * ur) (rnd (rnd y0 / delta)) (y0 / d).
Proof.
  intros Hy Hd Nd. assert (Pd : 0 < delta) by (refine (near_pos _ _ _ _ _ Nd); [lra|reflexivity]).
  pose proof (near_rnd y0 Hy) as N1. assert (P1 : 0 <= rnd y0) by (apply rnd_nonneg; exact Hy).
  assert (N2 : near (18 * ur) (rnd y0 / delta) (y0 / d)).
  { unfold Qdiv. apply near_mul with (e1 := ur) (e2 := 2 * (8 * ur)); try (split; discriminate); try discriminate; try assumption.
    - apply Qlt_le_weak, Qinv_lt_0_compat. lra.
    - apply near_inv; try discriminate; assumption. }
  apply near_trans with (b := rnd y0 / delta) (e1 := ur) (e2 := 18 * ur); try (split; discriminate); try discriminate; try assumption.
  - apply Qle_shift_div_l; lra.
  - apply near_rnd. apply Qle_shift_div_l; lra.
Qed.

Lemma into_torus_near w t : (0 <= t)%Z -> near (3 * ur) (into_torus w t) (inject_Z t / 2 ^ w).
Proof.
  intros Ht. unfold into_torus, fmul, of_int, fpow2. pose proof (Q2_pos w). pose proof (Q2_pos (- w)).
  pose proof (inject_nonneg t Ht) as Pt. pose proof (near_rnd _ Pt) as N1.
  assert (E : 2 ^ (- w) == / 2 ^ w) by (rewrite Qpower_opp; reflexivity).
  assert (N2 : near ur (rnd (inject_Z t) * 2 ^ (- w)) (inject_Z t / 2 ^ w)).
  { unfold Qdiv, near. assert (Pi : 0 < / 2 ^ w) by (rewrite <- E; assumption). rewrite E. destruct N1 as [A B]. set (i := / 2 ^ w) in *. split.
    - setoid_replace (inject_Z t * i * (1 - ur)) with (inject_Z t * (1 - ur) * i) by ring. apply Qmult_le_compat_r; lra.
    - setoid_replace (inject_Z t * i * (1 + ur)) with (inject_Z t * (1 + ur) * i) by ring. apply Qmult_le_compat_r; lra. }
  apply near_trans with (b := rnd (inject_Z t) * 2 ^ (- w)) (e1 := ur) (e2 := ur); try (split; discriminate); try discriminate; try assumption.
  - apply Qle_shift_div_l; lra.
  - apply near_rnd. apply Qmult_le_0_compat; [apply rnd_nonneg; exact Pt|lra].
Qed.

Lemma out_near w o delta d t : 0 < d -> near (8 * ur) delta d -> (0 <= t)%Z -> inject_Z t <= 2 ^ w ->
  Qabs (fadd (fmul (into_torus w t) delta) o - (o + inject_Z t / 2 ^ w * d)) <= ur * Qabs o + 16 * ur * d.
Proof.
  intros Hd Nd Ht Ht2. unfold fadd, fmul. pose proof (Q2_pos w) as PW. pose proof (inject_nonneg t Ht) as Pt.
  pose proof (into_torus_near w t Ht) as N1. set (T := inject_Z t / 2 ^ w) in *.
  assert (PT : 0 <= T) by (apply Qle_shift_div_l; lra).
  assert (T1 : T <= 1) by (apply Qle_shift_div_r; lra).
  assert (Pi : 0 <= into_torus w t) by (refine (near_nonneg _ _ _ _ _ N1); [lra|discriminate]).
  assert (Pd : 0 <= delta) by (refine (near_nonneg _ _ _ _ _ Nd); [lra|discriminate]).
  assert (PTd : 0 <= T * d) by (apply Qmult_le_0_compat; lra).
  assert (N2 : near (12 * ur) (into_torus w t * delta) (T * d)).
  { apply near_mul with (e1 := 3 * ur) (e2 := 8 * ur); try (split; discriminate); try discriminate; try assumption; lra. }
  assert (N3 : near (14 * ur) (rnd (into_torus w t * delta)) (T * d)).
  { apply near_trans with (b := into_torus w t * delta) (e1 := ur) (e2 := 12 * ur); try (split; discriminate); try discriminate; try assumption.
    apply near_rnd. apply Qmult_le_0_compat; assumption. }
  set (E := rnd (into_torus w t * delta)) in *. destruct N3 as [A B].
  assert (TD : T * d <= d) by (rewrite <- (Qmult_1_l d) at 2; apply Qmult_le_compat_r; lra).
  pose proof (rnd_err (E + o)) as R.
  assert (AE : Qabs (E + o) <= (14 * ur + 1) * d + Qabs o).
  { eapply Qle_trans; [apply Qabs_triangle|]. rewrite (Qabs_pos E) by lra. lra. }
  set (res := rnd (E + o)) in *. set (a := Qabs o) in *.
  assert (R' : Qabs (res - (E + o)) <= ur * ((14 * ur + 1) * d + a)).
  { eapply Qle_trans; [exact R|]. rewrite !(Qmult_comm ur). apply Qmult_le_compat_r; [exact AE|discriminate]. }
  apply Qabs_Qle_condition in R'. apply Qabs_Qle_condition. clearbody a res E T. lra.
Qed.
