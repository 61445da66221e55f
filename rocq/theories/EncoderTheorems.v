(** * C50: encoding real messages and decoding noisy plaintexts *)
From Coq Require Import QArith Qpower Qabs Qround Lqa.
From Verif Require Import Base Word WordFacts DecompModel DecompProofs FloatModel FloatFacts EncoderModel EncoderSpec EncoderProofs.
Open Scope Q_scope.

Notation ur := unit_roundoff.

Lemma create_ok min max prec pad : (1 <= prec <= 46)%Z -> min < max ->
  exists delta, create_min_max min max prec pad = Ret (EOk (FE min delta prec pad false)) /\
    near (8 * ur) delta (width min max prec).
Proof.
  intros Hp H. destruct (make_encoder min max prec pad Hp H) as (delta & E & N). exists delta. split; [|exact N].
  unfold create_min_max, erefuse. destruct (Qle_bool max min) eqn:Eb; [apply Qle_bool_iff in Eb; lra|].
  destruct (Z.eqb_spec prec 0); [lia|]. unfold erun. rewrite E. reflexivity.
Qed.

Lemma delta_valid min max prec pad rd delta : (1 <= prec)%Z -> min < max -> near (8 * ur) delta (width min max prec) ->
  is_valid (FE min delta prec pad rd) = true.
Proof.
  intros Hp H N. pose proof (width_pos min max prec Hp H). unfold is_valid. cbn [fe_prec fe_delta].
  assert (P : 0 < delta) by (refine (near_pos _ _ _ _ _ N); [lra|reflexivity]).
  destruct (Z.eqb_spec prec 0); [lia|]. cbn [orb]. destruct (Qle_bool delta 0) eqn:E; [apply Qle_bool_iff in E; lra|reflexivity].
Qed.

Lemma prec_small prec : (1 <= prec <= 46)%Z -> (1 # 70368744177664) <= 2 ^ (- prec).
Proof.
  intros H. change (1 # 70368744177664) with (2 ^ (-46)). apply Qle_trans with (2 ^ (-46 + (46 - prec))); [|replace (-46 + (46 - prec))%Z with (- prec)%Z by lia; apply Qle_refl].
  rewrite Q2_add. setoid_replace (2 ^ (-46)) with (2 ^ (-46) * 1) at 1 by ring. apply Qmult_le_l; [reflexivity|].
  rewrite Q2_Z by lia. change 1 with (inject_Z 1). apply inject_le. pose proof (Z.pow_pos_nonneg 2 (46 - prec)). lia.
Qed.

(** delta is larger than the length of the interval, so that [max] itself is accepted. *)
Lemma delta_large min max prec delta : (1 <= prec <= 46)%Z -> min < max -> near (8 * ur) delta (width min max prec) -> max - min <= delta.
Proof.
  intros Hp H [N _]. pose proof (width_frac min max prec ltac:(lia)) as E. pose proof (prec_small prec Hp).
  pose proof (width_pos min max prec ltac:(lia) H). set (W := width min max prec) in *. set (i := 2 ^ (- prec)) in *.
  clearbody W i. assert (W * (1 - i) <= W * (1 - 8 * ur)); [|lra]. rewrite !(Qmult_comm W). apply Qmult_le_compat_r; lra.
Qed.

Lemma in_range min max prec pad rd delta m : (1 <= prec <= 46)%Z -> min < max -> is_double max -> min <= m <= max ->
  near (8 * ur) delta (width min max prec) -> is_message_out_of_range (FE min delta prec pad rd) m = false.
Proof.
  intros Hp H Hd Hm N. unfold is_message_out_of_range. cbn [fe_o fe_delta]. rewrite flt_false by lra. cbn [orb].
  apply flt_false. apply Qle_trans with max; [lra|]. apply rnd_ge; [exact Hd|].
  pose proof (delta_large _ _ _ _ Hp H N). lra.
Qed.

(** The word obtained from a message of the interval. *)
Lemma encoded_word w min max prec pad delta m : usable w prec pad -> min < max -> min <= m <= max ->
  near (8 * ur) delta (width min max prec) ->
  let v := from_torus w (fdiv (fsub m min) delta) in
  let X := (m - min) / width min max prec in
  is_word w v /\ Qabs (inject_Z v - X * 2 ^ w) <= 1 + 2 ^ w * (22 * ur) /\ 0 <= X <= 1 - 2 ^ (- prec) /\ 4 <= 2 ^ w * 2 ^ (- prec).
Proof.
  intros (Hp & Hpad & Hpp & Hp1 & Hw) H Hm N v X.
  pose proof (width_pos min max prec ltac:(lia) H) as HW. pose proof (width_frac min max prec ltac:(lia)) as EW.
  pose proof (prec_small prec Hp) as Hi. pose proof (Q2_pos w) as PW.
  assert (HX : 0 <= X <= 1 - 2 ^ (- prec)).
  { unfold X. split; [apply Qle_shift_div_l; lra|]. apply Qle_shift_div_r; [lra|]. rewrite Qmult_comm, EW. lra. }
  assert (H4 : 4 <= 2 ^ w * 2 ^ (- prec)).
  { rewrite <- Q2_add. rewrite Q2_Z by lia. change 4 with (inject_Z (2 ^ 2)). apply inject_le, Z.pow_le_mono_r; lia. }
  assert (Nx : near (20 * ur) (fdiv (fsub m min) delta) X). { apply quotient_near; [lra|lra|exact N]. }
  set (x := fdiv (fsub m min) delta) in *. destruct Nx as [A B].
  assert (Hx : 0 <= x). { eapply Qle_trans; [|exact A]. apply Qmult_le_0_compat; [tauto|discriminate]. }
  assert (Hxd : - (20 * ur) <= x - X <= 20 * ur).
  { destruct HX as [HX1 HX2]. clearbody X x. set (i := 2 ^ (- prec)) in *. clearbody i. split; lra. }
  destruct (from_torus_ok w x ltac:(lia) Hx) as [V1 V2].
  { clearbody x X. set (i := 2 ^ (- prec)) in *. set (W := 2 ^ w) in *. clearbody i W.
    assert (x - 1 + 22 * ur <= - i + 42 * ur) by lra.
    assert (- i + 42 * ur <= - (i * (1 # 4))) by lra.
    assert ((x - 1 + 22 * ur) * W <= - (i * (1 # 4)) * W) by (apply Qmult_le_compat_r; lra).
    lra. }
  fold v in V1, V2. split; [exact V1|]. split; [|split; assumption].
  apply Qabs_Qle_condition in V2. apply Qabs_Qle_condition. set (W := 2 ^ w) in *. clearbody x X W.
  assert ((x - X) * W <= 20 * ur * W) by (apply Qmult_le_compat_r; lra).
  assert (- (20 * ur) * W <= (x - X) * W) by (apply Qmult_le_compat_r; lra). lra.
Qed.

Lemma pad_shift p w pad v : (0 <= pad < w)%Z -> is_word w v ->
  (if (0 <? pad)%Z then shr_ p w v pad else Ret v) = Ret (v / 2 ^ pad)%Z /\
  (0 <= v / 2 ^ pad < 2 ^ (w - pad))%Z.
Proof.
  intros Hpad [Hv1 Hv2]. split.
  - destruct (Z.ltb_spec 0 pad).
    + unfold shr_. destruct (Z.ltb_spec pad w); [reflexivity|lia].
    + replace pad with 0%Z by lia. rewrite Z.pow_0_r, Z.div_1_r. reflexivity.
  - pose proof (Z.pow_pos_nonneg 2 pad ltac:(lia) ltac:(lia)). split; [apply Z.div_pos; lia|].
    apply Z.div_lt_upper_bound; [lia|]. rewrite <- Z.pow_add_r by lia. replace (pad + (w - pad))%Z with w by lia. exact Hv2.
Qed.

(** The part of the proof that is about integers: what is decoded is close to the exact value. *)
Lemma noisy_word w prec pad e v X : usable w prec pad -> tolerated w prec pad e -> is_word w v ->
  Qabs (inject_Z v - X * 2 ^ w) <= 1 + 2 ^ w * (22 * ur) -> 0 <= X <= 1 - 2 ^ (- prec) ->
  let T := snap w prec ((((v / 2 ^ pad + e) mod 2 ^ w) * 2 ^ pad) mod 2 ^ w) in
  (0 <= T < 2 ^ w)%Z /\ Qabs (inject_Z T - X * 2 ^ w) <= inject_Z (Z.abs e + 1) * 2 ^ pad + 2 ^ w * (22 * ur).
Proof.
  intros (Hp & Hpad & Hpp & Hp1 & Hw) Ht Hv HvX HX T.
  set (s := ((v / 2 ^ pad + e) * 2 ^ pad)%Z).
  assert (ET : T = snap w prec (s mod 2 ^ w)). { unfold T, s. rewrite Zmult_mod_idemp_l. reflexivity. }
  pose proof (Q2_pos w) as PW. pose proof (Q2_pos pad) as PP.
  assert (Epad : 2 ^ pad == inject_Z (2 ^ pad)) by (apply Q2_Z; lia).
  assert (EWz : 2 ^ w == inject_Z (2 ^ w)) by (apply Q2_Z; lia).
  pose proof (Z.pow_pos_nonneg 2 pad ltac:(lia) ltac:(lia)) as Pz.
  (* truncation *)
  assert (Hs : Qabs (inject_Z s - X * 2 ^ w) <= inject_Z (Z.abs e + 1) * 2 ^ pad + 2 ^ w * (22 * ur)).
  { pose proof (Z.div_mod v (2 ^ pad) ltac:(lia)) as Dv. pose proof (Z.mod_pos_bound v (2 ^ pad) Pz) as Mv.
    assert (S1 : (s <= v + Z.abs e * 2 ^ pad)%Z) by (unfold s; clear - Dv Mv Pz; nia).
    assert (S2 : (v - (2 ^ pad - 1) - Z.abs e * 2 ^ pad <= s)%Z) by (unfold s; clear - Dv Mv Pz; nia).
    assert (Pz1 : (1 <= 2 ^ pad)%Z) by lia.
    apply inject_le in S1, S2, Pz1. unfold Zminus in S2. rewrite inject_Z_plus, inject_Z_mult, <- Epad in S1. rewrite !inject_Z_plus, !inject_Z_opp, inject_Z_plus, inject_Z_opp, inject_Z_mult, <- Epad in S2. rewrite <- Epad in Pz1.
    rewrite inject_Z_plus. change (inject_Z 1) with 1 in *. apply Qabs_Qle_condition in HvX. apply Qabs_Qle_condition. 
    set (W := 2 ^ w) in *. set (P := 2 ^ pad) in *. set (ae := inject_Z (Z.abs e)) in *. set (sq := inject_Z s) in *. set (vq := inject_Z v) in *.
    clearbody W P ae sq vq. split; lra. }
  (* range *)
  assert (EH : 2 ^ (w - prec - 1) == inject_Z (2 ^ (w - prec - 1))) by (apply Q2_Z; lia).
  assert (EG : 2 ^ (w - prec) == inject_Z (2 ^ (w - prec))) by (apply Q2_Z; lia).
  assert (EGH : (2 ^ (w - prec) = 2 * 2 ^ (w - prec - 1))%Z) by (rewrite <- Z.pow_succ_r by lia; f_equal; lia).
  assert (EWG : 2 ^ w * 2 ^ (- prec) == 2 ^ (w - prec)) by (rewrite <- Q2_add; reflexivity).
  assert (E47 : 2 ^ (w - 47) == 2 ^ w * (64 * ur)). { assert (E : 2 ^ (- (47)) == 64 * ur) by reflexivity. unfold Zminus. rewrite Q2_add, E. reflexivity. }
  unfold tolerated in Ht. rewrite E47, EH in Ht.
  assert (XW : 0 <= X * 2 ^ w <= inject_Z (2 ^ w - 2 ^ (w - prec))).
  { split; [apply Qmult_le_0_compat; lra|]. unfold Zminus. rewrite inject_Z_plus, inject_Z_opp, <- EWz, <- EG, <- EWG.
    apply Qle_trans with ((1 - 2 ^ (- prec)) * 2 ^ w); [apply Qmult_le_compat_r; lra|]. lra. }
  assert (Hrange : (- 2 ^ (w - prec - 1) < s < 2 ^ w - 2 ^ (w - prec - 1))%Z).
  { apply Qabs_Qle_condition in Hs. unfold Zminus in XW at 1. rewrite inject_Z_plus, inject_Z_opp, EGH, inject_Z_mult in XW. change (inject_Z 2) with 2 in XW.
    split; rewrite Zlt_Qlt; [rewrite inject_Z_opp | unfold Zminus; rewrite inject_Z_plus, inject_Z_opp].
    - set (h := inject_Z (2 ^ (w - prec - 1))) in *. set (W := 2 ^ w) in *. lra.
    - unfold Zminus in *. set (h := inject_Z (2 ^ (w + - prec + - (1)))) in *. set (W := 2 ^ w) in *. lra. }
  assert (Rs : (- 2 ^ (w - prec - 1) < s < 2 ^ w - 2 ^ (w - prec - 1))%Z) by exact Hrange.
  rewrite ET, snap_value; [|clear - Hp Hpp Hp1; lia|clear - Hw; lia|clear - Rs; lia].
  pose proof (Z.pow_pos_nonneg 2 (w - prec - 1) ltac:(clear; lia) ltac:(clear - Hp Hpp Hp1; lia)) as PH.
  assert (PG : (2 ^ (w - prec) <= 2 ^ w)%Z) by (apply Z.pow_le_mono_r; clear - Hp Hpp Hp1; lia).
  clear - PW PP Hs XW Hrange PH PG EWz EG EGH.
  set (Wz := (2 ^ w)%Z) in *. set (Gz := (2 ^ (w - prec))%Z) in *. set (h := (2 ^ (w - prec - 1))%Z) in *. clearbody Wz Gz h s.
  split; [clear - EGH PH PG; lia|].
  (* projection on the interval *)
  apply Qabs_Qle_condition in Hs. apply Qabs_Qle_condition.
  set (B := inject_Z (Z.abs e + 1) * 2 ^ pad + 2 ^ w * (22 * ur)) in *. set (Y := X * 2 ^ w) in *. clearbody B Y.
  destruct (Z_le_gt_dec s 0) as [Hs1|Hs1].
  - replace (Z.max 0 (Z.min s (Wz - Gz)))%Z with 0%Z by (clear - Hs1; lia). change (inject_Z 0) with 0.
    assert (Hs0 : inject_Z s <= inject_Z 0) by (apply inject_le; exact Hs1). change (inject_Z 0) with 0 in Hs0.
    clear - Hs Hs0 XW. split; lra.
  - destruct (Z_le_gt_dec s (Wz - Gz)) as [Hs2|Hs2].
    + replace (Z.max 0 (Z.min s (Wz - Gz)))%Z with s by (clear - Hs1 Hs2; lia). exact Hs.
    + replace (Z.max 0 (Z.min s (Wz - Gz)))%Z with (Wz - Gz)%Z by (clear - Hs2 PG; lia).
      assert (Hs0 : inject_Z (Wz - Gz) <= inject_Z s) by (apply inject_le; clear - Hs2; lia). clear - Hs Hs0 XW. split; lra.
Qed.

Lemma final_error w min max prec pad e delta m T : usable w prec pad -> min < max ->
  near (8 * ur) delta (width min max prec) -> (0 <= T < 2 ^ w)%Z ->
  Qabs (inject_Z T - (m - min) / width min max prec * 2 ^ w) <= inject_Z (Z.abs e + 1) * 2 ^ pad + 2 ^ w * (22 * ur) ->
  Qabs (fadd (fmul (into_torus w T) delta) min - m) <= decode_error w prec pad min max e.
Proof.
  intros (Hp & Hpad & Hpp & Hp1 & Hw) H N HT HX. unfold decode_error. fold (width min max prec).
  pose proof (width_pos min max prec ltac:(lia) H) as HW. pose proof (Q2_pos w) as PW. pose proof (Q2_pos (w - pad)) as PWp.
  assert (HTq : inject_Z T <= 2 ^ w) by (rewrite Q2_Z by lia; apply inject_le; lia).
  pose proof (out_near w min delta (width min max prec) T ltac:(lra) N ltac:(lia) HTq) as HO.
  apply Qabs_Qle_condition in HO, HX. apply Qabs_Qle_condition.
  assert (EW : 2 ^ w == 2 ^ pad * 2 ^ (w - pad)). { rewrite <- Q2_add. replace (pad + (w - pad))%Z with w by lia. reflexivity. }
  set (res := fadd (fmul (into_torus w T) delta) min) in *. set (D := width min max prec) in *.
  set (X := (m - min) / D) in *. assert (Em : m == min + X * D) by (unfold X; field; lra).
  set (k := inject_Z (Z.abs e + 1)) in *. set (Tq := inject_Z T) in *.
  assert (Eq1 : k * 2 ^ pad + 2 ^ w * (22 * ur) == (k / 2 ^ (w - pad) + 22 * ur) * 2 ^ w). { rewrite EW. field. lra. }
  rewrite Eq1 in HX.
  assert (HX' : - (k / 2 ^ (w - pad) + 22 * ur) <= Tq / 2 ^ w - X <= k / 2 ^ (w - pad) + 22 * ur).
  { assert (Et : Tq / 2 ^ w - X == (Tq - X * 2 ^ w) / 2 ^ w) by (field; lra). rewrite Et.
    split; [apply Qle_shift_div_l|apply Qle_shift_div_r]; lra. }
  set (t := Tq / 2 ^ w) in *. set (kk := k / 2 ^ (w - pad)) in *. set (a := Qabs min) in *.
  clearbody res D X t kk a. clear - HO HX' HW Em H.
  assert ((t - X) * D <= (kk + 22 * ur) * D) by (apply Qmult_le_compat_r; lra).
  assert (- (kk + 22 * ur) * D <= (t - X) * D) by (apply Qmult_le_compat_r; lra).
  rewrite Em. split; lra.
Qed.

(** Encoding a message of the interval gives a plaintext with clear padding bits; whatever the (tolerated) noise added
    to it, in either direction and wrapping around, decoding gives the message back up to the size of the noise and the
    precision of the encoding. *)
Theorem C50_round_trip p w min max prec pad m e :
  usable w prec pad -> min < max -> is_double max -> min <= m <= max -> tolerated w prec pad e ->
  exists enc v r,
    create_min_max min max prec pad = Ret (EOk enc) /\
    encode_cleartext p w enc m = Ret (EOk v) /\ (0 <= v < 2 ^ (w - pad))%Z /\
    decode_plaintext p w enc ((v + e) mod 2 ^ w) = Ret (EOk r) /\
    Qabs (r - m) <= decode_error w prec pad min max e.
Proof.
  intros Hu H Hd Hm He. destruct Hu as (Hp & Hpad & Hpp & Hp1 & Hw).
  assert (Hu : usable w prec pad) by (unfold usable; tauto).
  destruct (create_ok min max prec pad Hp H) as (delta & Ec & N).
  destruct (encoded_word w min max prec pad delta m Hu H Hm N) as (Hv & HvX & HX & _).
  set (v := from_torus w (fdiv (fsub m min) delta)) in *.
  destruct (pad_shift p w pad v ltac:(lia) Hv) as [Es Hr].
  destruct (noisy_word w prec pad e v _ Hu He Hv HvX HX) as [HT HTX].
  exists (FE min delta prec pad false), (v / 2 ^ pad)%Z. eexists. split; [exact Ec|].
  pose proof (delta_valid min max prec pad false delta ltac:(lia) H N) as Hval.
  split.
  { unfold encode_cleartext, erefuse. rewrite (in_range min max prec pad false delta m Hp H Hd Hm N).
    unfold erun, encode. rewrite (in_range min max prec pad false delta m Hp H Hd Hm N), Hval. cbn [negb assert_ obind fe_round fe_o fe_delta fe_pad].
    fold v. rewrite Es. reflexivity. }
  split; [exact Hr|]. split.
  { unfold decode_plaintext, erun. rewrite decode_plain; cbn [fe_round fe_prec fe_pad]; try assumption; try lia; [reflexivity|].
    unfold is_word. apply Z.mod_pos_bound. apply Z.pow_pos_nonneg; lia. }
  apply final_error; try assumption.
Qed.
Print Assumptions C50_round_trip.

(** 7/3 in [-10, 10] with 8 bits of precision and one bit of padding, on 32 bits, with noise -12345. *)
Definition sample_encoder : float_encoder :=
  match create_min_max (-10) 10 8 1 with Ret (EOk e) => e | _ => FE 0 0 0 0 false end.
Example C50_case :
  usable 32 8 1 /\ -10 < 10 /\ is_double 10 /\ -10 <= 7 # 3 <= 10 /\ tolerated 32 8 1 (-12345) /\
  create_min_max (-10) 10 8 1 = Ret (EOk sample_encoder) /\
  encode_cleartext Debug 32 sample_encoder (7 # 3) = Ret (EOk 1319108608%Z) /\
  (exists r, decode_plaintext Debug 32 sample_encoder (1319108608 - 12345) = Ret (EOk r) /\
     Qabs (r - (7 # 3)) <= decode_error 32 8 1 (-10) 10 (-12345) /\ decode_error 32 8 1 (-10) 10 (-12345) < granule (-10) 10 8).
Proof.
  unfold usable. split; [lia|]. split; [reflexivity|]. split; [exists 10%Z, 0%Z; split; [lia|reflexivity]|].
  split; [split; discriminate|]. split; [reflexivity|]. split; [reflexivity|]. split; [vm_compute; reflexivity|].
  eexists. split; [vm_compute; reflexivity|]. split; [vm_compute; discriminate|vm_compute; reflexivity].
Qed.

(** ** Decoding stays in the interval *)
Lemma snap_bound w prec t : (0 < prec < w)%Z -> (w < 2 ^ 64)%Z -> is_word w t -> (0 <= snap w prec t <= 2 ^ w - 2 ^ (w - prec))%Z.
Proof.
  intros Hp Hw Ht. pose proof (prec_dec_wf w prec Hp Hw) as Hd. unfold snap.
  destruct (Z.gtb_spec t (2 ^ w - 2 ^ (w - prec))); [|unfold is_word in Ht; lia].
  pose proof (closest_word w (Dec prec 1) Hd t) as Hc. pose proof (closest_multiple w (Dec prec 1) Hd t Ht) as Hm.
  cbn [base_log level_count] in Hm. replace (w - prec * Z.of_nat 1)%Z with (w - prec)%Z in Hm by lia.
  destruct Hm as [k Hk]. unfold is_word in Hc. rewrite Hk in *.
  assert (EW : (2 ^ w = 2 ^ prec * 2 ^ (w - prec))%Z) by (rewrite <- Z.pow_add_r by lia; f_equal; lia).
  pose proof (Z.pow_pos_nonneg 2 (w - prec) ltac:(lia) ltac:(lia)) as PG. rewrite EW in *. set (G := (2 ^ (w - prec))%Z) in *. set (P := (2 ^ prec)%Z) in *. clearbody G P.
  clear - Hc PG. assert (k < P)%Z by nia. assert ((k + 1) * G <= P * G)%Z by nia. lia.
Qed.

(** Any plaintext whatsoever decodes, without a panic, to a value of the interval (up to rounding). *)
Theorem C50_decode_in_interval p w min max prec pad c :
  usable w prec pad -> min < max -> is_word w c ->
  exists enc r, create_min_max min max prec pad = Ret (EOk enc) /\ decode_plaintext p w enc c = Ret (EOk r) /\
    let slack := Qabs min * (1 # 9007199254740992) + (max - min) * (1 # 281474976710656) in
    min - slack <= r <= max + slack.
Proof.
  intros (Hp & Hpad & Hpp & Hp1 & Hw) H Hc. destruct (create_ok min max prec pad Hp H) as (delta & Ec & N).
  pose proof (delta_valid min max prec pad false delta ltac:(lia) H N) as Hval.
  exists (FE min delta prec pad false). eexists. split; [exact Ec|]. split.
  { unfold decode_plaintext, erun. rewrite decode_plain; cbn [fe_round fe_prec fe_pad]; try assumption; try lia. reflexivity. }
  cbv zeta. unfold out_value. cbn [fe_prec fe_pad fe_delta fe_o].
  pose proof (Z.pow_pos_nonneg 2 w ltac:(lia) ltac:(lia)) as PWz.
  set (T := snap w prec ((c * 2 ^ pad) mod 2 ^ w)).
  assert (HT : (0 <= T <= 2 ^ w - 2 ^ (w - prec))%Z) by (apply snap_bound; [lia|lia|unfold is_word; apply Z.mod_pos_bound; exact PWz]).
  pose proof (Q2_pos w) as PW. pose proof (width_pos min max prec ltac:(lia) H) as HW. pose proof (width_frac min max prec ltac:(lia)) as EW.
  assert (HTq : inject_Z T <= 2 ^ w * (1 - 2 ^ (- prec))).
  { destruct HT as [_ HT]. apply inject_le in HT. unfold Zminus in HT. rewrite inject_Z_plus, inject_Z_opp, <- !Q2_Z, Q2_add in HT by lia. lra. }
  assert (Hi : 0 < 2 ^ (- prec)) by apply Q2_pos.
  assert (Hi2 : 2 ^ (- prec) <= 1 # 2).
  { rewrite Qpower_opp. pose proof (pow_prec prec ltac:(lia)). setoid_replace (/ 2 ^ prec) with (1 / 2 ^ prec) by (field; lra). apply Qle_shift_div_r; lra. }
  assert (HTq' : inject_Z T <= 2 ^ w). { eapply Qle_trans; [exact HTq|]. set (W := 2 ^ w) in *. set (i := 2 ^ (- prec)) in *. nra. }
  pose proof (out_near w min delta (width min max prec) T ltac:(lra) N ltac:(lia) HTq') as HO. apply Qabs_Qle_condition in HO.
  assert (Pt : 0 <= inject_Z T) by (apply inject_nonneg; lia).
  assert (Ht : 0 <= inject_Z T / 2 ^ w <= 1 - 2 ^ (- prec)) by (split; [apply Qle_shift_div_l|apply Qle_shift_div_r]; lra).
  set (t := inject_Z T / 2 ^ w) in *. set (D := width min max prec) in *. set (i := 2 ^ (- prec)) in *. set (r := fadd (fmul (into_torus w T) delta) min) in *.
  assert (HtD : 0 <= t * D <= max - min). { split; [apply Qmult_le_0_compat; lra|]. rewrite <- EW, (Qmult_comm D). apply Qmult_le_compat_r; lra. }
  assert (HD : D <= 2 * (max - min)). { clearbody D i. nra. }
  clearbody t D r i. set (a := Qabs min) in *. clearbody a. split; lra.
Qed.
Print Assumptions C50_decode_in_interval.

Example C50_decode_in_interval_case : usable 32 8 1 /\ -10 < 10 /\ is_word 32 4294967295 /\
  exists r, decode_plaintext Debug 32 sample_encoder 4294967295 = Ret (EOk r) /\ r == -10.
Proof.
  split; [unfold usable; lia|]. split; [reflexivity|]. split; [unfold is_word; lia|].
  eexists. split; [vm_compute; reflexivity|reflexivity].
Qed.

(** ** Encoders with rounding
    No engine creates one, but they can be deserialized.  The noise is removed entirely: the decoded value does not
    depend on it. *)
Theorem C50_rounding_encoder p w min max prec pad m :
  usable w prec pad -> min < max -> is_double max -> min <= m <= max ->
  exists enc v r,
    create_min_max min max prec pad = Ret (EOk enc) /\
    encode_cleartext p w (FE (fe_o enc) (fe_delta enc) prec pad true) m = Ret (EOk v) /\ (0 <= v < 2 ^ (w - pad))%Z /\
    Qabs (r - m) <= granule min max prec * (1 # 2) + (max - min) * (1 # 35184372088832) + (max - min) * 4 / 2 ^ w + Qabs min * (1 # 9007199254740992) /\
    (forall e, (Z.abs e < 2 ^ (w - prec - pad - 1))%Z ->
      decode_plaintext p w (FE (fe_o enc) (fe_delta enc) prec pad true) ((v + e) mod 2 ^ w) = Ret (EOk r)).
Proof.
  intros Hu H Hd Hm. destruct Hu as (Hp & Hpad & Hpp & Hp1 & Hw).
  assert (Hu : usable w prec pad) by (unfold usable; tauto).
  destruct (create_ok min max prec pad Hp H) as (delta & Ec & N).
  destruct (encoded_word w min max prec pad delta m Hu H Hm N) as (Hv & HvX & HX & H4).
  set (v := from_torus w (fdiv (fsub m min) delta)) in *.
  pose proof (prec_dec_wf w prec ltac:(lia) Hw) as Hd1.
  pose proof (Z.pow_pos_nonneg 2 w ltac:(lia) ltac:(lia)) as PWz. pose proof (Q2_pos w) as PW.
  assert (EGz : (2 ^ (w - prec) = 2 * 2 ^ (w - prec - 1))%Z) by (rewrite <- Z.pow_succ_r by lia; f_equal; lia).
  assert (EWz : (2 ^ w = 2 ^ prec * 2 ^ (w - prec))%Z) by (rewrite <- Z.pow_add_r by lia; f_equal; lia).
  pose proof (Z.pow_pos_nonneg 2 (w - prec - 1) ltac:(lia) ltac:(lia)) as PH.
  pose proof (Z.pow_gt_1 2 prec ltac:(lia)) as PP.
  (* the rounded value is k granules, and k is less than 2^prec *)
  set (k := ((v + 2 ^ (w - prec - 1)) / 2 ^ (w - prec))%Z).
  pose proof (Z.div_mod (v + 2 ^ (w - prec - 1)) (2 ^ (w - prec)) ltac:(lia)) as Dk. fold k in Dk.
  pose proof (Z.mod_pos_bound (v + 2 ^ (w - prec - 1)) (2 ^ (w - prec)) ltac:(lia)) as Mk.
  set (rm := ((v + 2 ^ (w - prec - 1)) mod 2 ^ (w - prec))%Z) in *.
  assert (EWG : 2 ^ w * 2 ^ (- prec) == inject_Z (2 ^ (w - prec))) by (rewrite <- Q2_Z by lia; rewrite <- Q2_add; reflexivity).
  pose proof (prec_small prec Hp) as Hi.
  assert (Hk1 : (0 <= k)%Z) by (apply Z.div_pos; [unfold is_word in Hv; lia|lia]).
  assert (Hvt : (v < 2 ^ w - 2 ^ (w - prec - 1))%Z).
  { rewrite Zlt_Qlt. unfold Zminus at 1. rewrite inject_Z_plus, inject_Z_opp, <- Q2_Z by lia.
    apply Qabs_Qle_condition in HvX as [_ HvX]. rewrite EGz, inject_Z_mult in EWG. change (inject_Z 2) with 2 in EWG.
    set (h := inject_Z (2 ^ (w - prec - 1))) in *. set (W := 2 ^ w) in *. set (i := 2 ^ (- prec)) in *.
    set (X := (m - min) / width min max prec) in *. set (vq := inject_Z v) in *. clearbody h W i X vq.
    assert (X * W <= (1 - i) * W) by (apply Qmult_le_compat_r; lra).
    assert ((22 * ur) * W <= i * (11 # 64) * W) by (apply Qmult_le_compat_r; lra). lra. }
  assert (Hk2 : (k < 2 ^ prec)%Z).
  { apply Z.div_lt_upper_bound; [lia|]. rewrite Z.mul_comm, <- EWz. clear - Hvt. lia. }
  set (T := (k * 2 ^ (w - prec))%Z).
  assert (HT : (0 <= T <= 2 ^ w - 2 ^ (w - prec))%Z).
  { unfold T. split; [apply Z.mul_nonneg_nonneg; lia|]. rewrite EWz. set (G := (2 ^ (w - prec))%Z) in *. assert ((k + 1) * G <= 2 ^ prec * G)%Z by (apply Z.mul_le_mono_nonneg_r; lia). lia. }
  assert (HTv : (Z.abs (T - v) <= 2 ^ (w - prec - 1))%Z) by (unfold T; clearbody k rm; clear - Dk Mk EGz; set (G := (2 ^ (w - prec))%Z) in *; set (h := (2 ^ (w - prec - 1))%Z) in *; clearbody G h; lia).
  assert (Ecl : closest_representable w (Dec prec 1) v = T).
  { rewrite (closest_div w _ Hd1 v Hv). cbn [base_log level_count]. replace (w - prec * Z.of_nat 1)%Z with (w - prec)%Z by lia.
    fold k. unfold T. rewrite Z.mul_comm. apply Z.mod_small. fold T. lia. }
  assert (HTw : is_word w T) by (unfold is_word; lia).
  destruct (pad_shift p w pad T ltac:(lia) HTw) as [Es Hr].
  assert (ETp : (T / 2 ^ pad = k * 2 ^ (w - (prec + pad)))%Z).
  { unfold T. replace (w - prec)%Z with (w - (prec + pad) + pad)%Z by lia. rewrite Z.pow_add_r by lia. rewrite Z.mul_assoc. apply Z.div_mul. apply Z.pow_nonzero; lia. }
  exists (FE min delta prec pad false), (T / 2 ^ pad)%Z, (out_value w (FE min delta prec pad true) T). cbn [fe_o fe_delta].
  split; [exact Ec|].
  pose proof (delta_valid min max prec pad true delta ltac:(lia) H N) as Hval.
  split.
  { unfold encode_cleartext, erefuse. rewrite (in_range min max prec pad true delta m Hp H Hd Hm N).
    unfold erun, encode. rewrite (in_range min max prec pad true delta m Hp H Hd Hm N), Hval. cbn [negb assert_ obind fe_round fe_o fe_delta fe_pad fe_prec].
    fold v. rewrite dec_new_ok by lia. cbn [obind]. rewrite closest_representable_ok by assumption. cbn [obind]. rewrite Ecl, Es. reflexivity. }
  split; [exact Hr|]. split.
  { (* error *)
    pose proof (width_pos min max prec ltac:(lia) H) as HW. pose proof (width_frac min max prec ltac:(lia)) as EWd.
    assert (HTq : inject_Z T <= 2 ^ w) by (rewrite Q2_Z by lia; apply inject_le; lia).
    pose proof (out_near w min delta (width min max prec) T ltac:(lra) N ltac:(lia) HTq) as HO.
    unfold out_value. cbn [fe_delta fe_o]. apply Qabs_Qle_condition in HO, HvX. apply Qabs_Qle_condition.
    assert (HTv' : - inject_Z (2 ^ (w - prec - 1)) <= inject_Z T - inject_Z v <= inject_Z (2 ^ (w - prec - 1))).
    { assert (A1 : (- 2 ^ (w - prec - 1) <= T - v)%Z) by lia. assert (A2 : (T - v <= 2 ^ (w - prec - 1))%Z) by lia.
      apply inject_le in A1, A2. replace (T - v)%Z with (T + - v)%Z in A1, A2 by lia. rewrite inject_Z_plus, inject_Z_opp in A1, A2. rewrite inject_Z_opp in A1. split; [|exact A2]. exact A1. }
    set (res := fadd (fmul (into_torus w T) delta) min) in *.
    assert (Eg : granule min max prec == width min max prec * 2 ^ (- prec)).
    { unfold width at 1. rewrite Qpower_opp. pose proof (pow_prec prec ltac:(lia)). unfold granule. field. lra. }
    rewrite Eg. set (D := width min max prec) in *.
    set (X := (m - min) / D) in *. assert (Em : m == min + X * D) by (unfold X; field; lra).
    rewrite EGz, inject_Z_mult in EWG. change (inject_Z 2) with 2 in EWG.
    set (h := inject_Z (2 ^ (w - prec - 1))) in *. set (W := 2 ^ w) in *. set (i := 2 ^ (- prec)) in *.
    set (vq := inject_Z v) in *. set (Tq := inject_Z T) in *. set (a := Qabs min) in *.
    assert (Hi2 : i <= 1 # 2).
    { unfold i. rewrite Qpower_opp. pose proof (pow_prec prec ltac:(lia)).
      setoid_replace (/ 2 ^ prec) with (1 / 2 ^ prec) by (field; lra). apply Qle_shift_div_r; lra. }
    assert (Hd0 : - (i * (1 # 2) + 1 / W + 22 * ur) <= Tq / W - X <= i * (1 # 2) + 1 / W + 22 * ur).
    { assert (Et : Tq / W - X == (Tq - X * W) / W) by (field; lra). rewrite Et.
      assert (Er : (i * (1 # 2) + 1 / W + 22 * ur) * W == h + 1 + W * (22 * ur)) by (setoid_replace h with (W * i * (1 # 2)) by (rewrite EWG; ring); field; lra).
      split; [apply Qle_shift_div_l|apply Qle_shift_div_r]; lra. }
    set (t := Tq / W) in *. set (q := 1 / W) in *. assert (Eq4 : (max - min) * 4 / W == (max - min) * 4 * q) by (unfold q; field; lra).
    assert (Pq : 0 <= q) by (unfold q; apply Qle_shift_div_l; lra). rewrite Eq4.
    assert (Pi : 0 < i) by (unfold i; apply Q2_pos).
    assert (HD : D <= 2 * (max - min)) by (clear - EWd Hi2 HW H; clearbody D i; nra).
    clearbody res D X t q a i. clear - HO Hd0 HW Em H HD Pq Hi2 Pi.
    set (b := i * (1 # 2) + q + 22 * ur) in *.
    assert ((t - X) * D <= b * D) by (apply Qmult_le_compat_r; lra).
    assert (- b * D <= (t - X) * D) by (apply Qmult_le_compat_r; lra).
    assert (b * D == i * (1 # 2) * D + q * D + 22 * ur * D) by (unfold b; ring).
    assert (q * D <= q * (2 * (max - min))) by (rewrite !(Qmult_comm q); apply Qmult_le_compat_r; lra).
    assert (q * (2 * (max - min)) == (max - min) * 4 * q * (1 # 2)) by ring.
    assert (0 <= (max - min) * 4 * q) by (apply Qmult_le_0_compat; lra).
    rewrite Em. clearbody b. split; lra. }
  intros e He. unfold decode_plaintext, erun, decode. rewrite Hval. cbn [assert_ obind fe_round fe_prec fe_pad].
  rewrite plain_ok by (unfold usize_bits; lia). cbn [obind]. rewrite dec_new_ok by lia. cbn [obind].
  pose proof (prec_dec_wf w (prec + pad) ltac:(lia) Hw) as Hd2.
  rewrite closest_representable_ok; [|exact Hd2|unfold is_word; apply Z.mod_pos_bound; exact PWz]. cbn [obind].
  rewrite ETp, closest_at by (try lia; replace (w - (prec + pad) - 1)%Z with (w - prec - pad - 1)%Z by lia; exact He).
  rewrite <- ETp. rewrite (Z.mod_small (T / 2 ^ pad)) by (split; [tauto|]; eapply Z.lt_le_trans; [apply Hr|]; apply Z.pow_le_mono_r; lia).
  assert (Et : (if (0 <? pad)%Z then shl_ p w (T / 2 ^ pad) pad else Ret (T / 2 ^ pad)%Z) = Ret T).
  { assert (ETT : (T / 2 ^ pad * 2 ^ pad = T)%Z).
    { rewrite ETp. unfold T. rewrite <- Z.mul_assoc, <- Z.pow_add_r by lia. do 2 f_equal. lia. }
    destruct (Z.ltb_spec 0 pad).
    - unfold shl_, shl. destruct (Z.ltb_spec pad w); [|lia]. rewrite ETT, Z.mod_small by exact HTw. reflexivity.
    - replace pad with 0%Z by lia. rewrite Z.pow_0_r, Z.div_1_r. reflexivity. }
  rewrite Et. cbn [obind].
  pose proof (decode_tail p w (FE min delta prec pad true) T) as Etl. cbn [fe_prec fe_delta fe_o fe_pad fe_round] in Etl |- *.
  rewrite Etl by (try assumption; lia). cbn [obind].
  unfold snap. destruct (Z.gtb_spec T (2 ^ w - 2 ^ (w - prec))); [lia|]. reflexivity.
Qed.
Print Assumptions C50_rounding_encoder.

Example C50_rounding_encoder_case :
  let enc := FE (fe_o sample_encoder) (fe_delta sample_encoder) 8 1 true in
  encode_cleartext Debug 32 enc (7 # 3) = Ret (EOk 1317011456%Z) /\
  decode_plaintext Debug 32 enc (1317011456 + 4000000) = decode_plaintext Debug 32 enc 1317011456 /\
  decode_plaintext Debug 32 enc (1317011456 - 4000000) = decode_plaintext Debug 32 enc 1317011456.
Proof. vm_compute. repeat split. Qed.

(** ** Creation *)
(** The checks, and what the encoder records. *)
Theorem C50_creation min max prec pad :
  match create_min_max min max prec pad with
  | Ret (EOk enc) => min < max /\ prec <> 0%Z /\ fe_o enc = min /\ fe_prec enc = prec /\ fe_pad enc = pad
  | Ret (EErr FloatEncoderMinMaxOrder) => max <= min
  | Ret (EErr FloatEncoderNullPrecision) => min < max /\ prec = 0%Z
  | _ => False
  end.
Proof.
  unfold create_min_max, erefuse, erun. destruct (Qle_bool max min) eqn:E; [apply Qle_bool_iff; exact E|].
  assert (H : min < max). { apply Qnot_le_lt. rewrite <- Qle_bool_iff, E. discriminate. }
  destruct (Z.eqb_spec prec 0); [split; assumption|].
  unfold min_max_to_commons. rewrite flt_true by exact H. destruct (Z.eqb_spec prec 0); [contradiction|]. cbn. tauto.
Qed.
Print Assumptions C50_creation.

(** From a center and a radius: the encoder of the interval of the rounded bounds, as long as the two differ. *)
Theorem C50_creation_center center radius prec pad : 0 < radius -> prec <> 0%Z -> fsub center radius < fadd center radius ->
  create_center_radius center radius prec pad = create_min_max (fsub center radius) (fadd center radius) prec pad.
Proof.
  intros Hr Hp H. unfold create_center_radius, create_min_max, erefuse, erun, center_radius_to_commons.
  destruct (Qle_bool radius 0) eqn:E1; [apply Qle_bool_iff in E1; lra|].
  destruct (Qle_bool (fadd center radius) (fsub center radius)) eqn:E2; [apply Qle_bool_iff in E2; lra|].
  destruct (Z.eqb_spec prec 0); [contradiction|]. rewrite flt_true by exact Hr. cbn [assert_ obind negb]. reflexivity.
Qed.
Print Assumptions C50_creation_center.
Example C50_creation_case : exists e1 e2, 0 < 10 /\ fsub 0 10 < fadd 0 10 /\
  create_min_max (-10) 10 8 1 = Ret (EOk e1) /\ create_center_radius 0 10 8 1 = Ret (EOk e2) /\
  fe_o e1 == fe_o e2 /\ fe_delta e1 == fe_delta e2 /\ fe_prec e2 = 8%Z /\ fe_pad e2 = 1%Z.
Proof. eexists _, _. split; [reflexivity|]. split; [vm_compute; reflexivity|]. split; [vm_compute; reflexivity|]. split; [vm_compute; reflexivity|].
  vm_compute. repeat split. Qed.

(** A radius too small for the center panics in the safe method: the two bounds round to the same double. *)
Theorem C50_small_radius_refuted : exists center radius prec pad, 0 < radius /\ prec <> 0%Z /\
  create_center_radius center radius prec pad = Panic.
Proof. exists 1, (1 # 1152921504606846976), 8%Z, 1%Z. split; [reflexivity|]. split; [discriminate|]. vm_compute. reflexivity. Qed.
Print Assumptions C50_small_radius_refuted.

(** ** Messages outside the interval *)
(** A message below the interval, or more than a granule above it, is refused. *)
Theorem C50_outside_refused p w min max prec pad m enc :
  (1 <= prec <= 46)%Z -> min < max -> create_min_max min max prec pad = Ret (EOk enc) ->
  m < min \/ max + granule min max prec + (max - min) * (1 # 281474976710656) + Qabs min * (1 # 9007199254740992) < m ->
  encode_cleartext p w enc m = Ret (EErr FloatEncoderMessageOutsideInterval).
Proof.
  intros Hp H Ec Hm. destruct (create_ok min max prec pad Hp H) as (delta & Ec' & N). rewrite Ec' in Ec. injection Ec as <-.
  unfold encode_cleartext, erefuse. replace (is_message_out_of_range _ m) with true; [reflexivity|]. symmetry.
  unfold is_message_out_of_range. cbn [fe_o fe_delta]. destruct Hm as [Hm|Hm]; [rewrite flt_true by exact Hm; reflexivity|].
  apply orb_true_iff. right. apply flt_true. eapply Qle_lt_trans; [|exact Hm]. unfold fadd.
  pose proof (rnd_err (min + delta)) as R. pose proof (width_pos min max prec ltac:(lia) H) as HW. pose proof (width_frac min max prec ltac:(lia)) as EW.
  pose proof (pow_prec prec ltac:(lia)) as PP.
  assert (Hi : 0 < 2 ^ (- prec) <= 1 # 2).
  { split; [apply Q2_pos|]. rewrite Qpower_opp. setoid_replace (/ 2 ^ prec) with (1 / 2 ^ prec) by (field; lra). apply Qle_shift_div_r; lra. }
  assert (Eg : granule min max prec == width min max prec - (max - min)) by (unfold width; ring). rewrite Eg.
  set (D := width min max prec) in *. set (i := 2 ^ (- prec)) in *. destruct N as [N1 N2].
  assert (Ha : Qabs (min + delta) <= Qabs min + delta).
  { eapply Qle_trans; [apply Qabs_triangle|]. rewrite (Qabs_pos delta) by lra. lra. }
  apply Qabs_Qle_condition in R as [_ R].
  assert (ur * Qabs (min + delta) <= ur * (Qabs min + delta)) by (rewrite !(Qmult_comm ur); apply Qmult_le_compat_r; [exact Ha|discriminate]).
  assert (HD : D <= 2 * (max - min)) by (clear - EW Hi HW H; clearbody D i; nra).
  set (r := rnd (min + delta)) in *. set (a := Qabs min) in *. clearbody D i r a. clear - R H0 N2 HD H. lra.
Qed.
Print Assumptions C50_outside_refused.
Example C50_outside_case : encode_cleartext Debug 32 sample_encoder (-11) = Ret (EErr FloatEncoderMessageOutsideInterval) /\
  encode_cleartext Debug 32 sample_encoder (101 # 10) = Ret (EErr FloatEncoderMessageOutsideInterval).
Proof. vm_compute. split; reflexivity. Qed.

(** A message above the interval but less than a granule away is accepted, and decodes to the other end of the interval. *)
Theorem C50_above_max_refuted : exists min max prec pad m enc v r,
  usable 32 prec pad /\ min < max /\ is_double max /\ max < m /\ create_min_max min max prec pad = Ret (EOk enc) /\
  encode_cleartext Debug 32 enc m = Ret (EOk v) /\ decode_plaintext Debug 32 enc v = Ret (EOk r) /\ r == min.
Proof.
  exists (-10), 10, 8%Z, 1%Z, (1007 # 100). eexists _, _, _. split; [unfold usable; lia|]. split; [reflexivity|].
  split; [exists 10%Z, 0%Z; split; [lia|reflexivity]|]. split; [reflexivity|]. split; [vm_compute; reflexivity|].
  split; [vm_compute; reflexivity|]. split; [vm_compute; reflexivity|]. reflexivity.
Qed.
Print Assumptions C50_above_max_refuted.

(** ** Sizes that do not fit *)
(** Creation does not look at the size of the plaintexts: a padding as large as the plaintext makes the safe encoding panic
    in checked builds, a precision of all the bits but one makes the safe decoding panic. *)
Theorem C50_sizes_unchecked_refuted :
  (exists enc, create_min_max 0 1 8 32 = Ret (EOk enc) /\ encode_cleartext Debug 32 enc (1 # 2) = Panic) /\
  (exists enc, create_min_max 0 1 31 0 = Ret (EOk enc) /\ decode_plaintext Debug 32 enc 5 = Panic).
Proof. split; (eexists; split; [vm_compute; reflexivity|]; vm_compute; reflexivity). Qed.
Print Assumptions C50_sizes_unchecked_refuted.

(** ** Vectors *)
(** A vector of encoders is created configuration by configuration, and one bad configuration refuses the whole. *)
Theorem C50_vector_creation cs :
  match create_vector_min_max cs with
  | Ret (EOk es) => length es = length cs /\
      forall i mn mx prec pad e, nth_error cs i = Some (mn, mx, prec, pad) -> nth_error es i = Some e ->
        create_min_max mn mx prec pad = Ret (EOk e)
  | Ret (EErr FloatEncoderMinMaxOrder) => exists mn mx prec pad, In (mn, mx, prec, pad) cs /\ mx <= mn
  | Ret (EErr FloatEncoderNullPrecision) => exists mn mx pad, In (mn, mx, 0%Z, pad) cs
  | _ => False
  end.
Proof.
  unfold create_vector_min_max, erefuse.
  destruct (existsb (fun '(mn, mx, _, _) => Qle_bool mx mn) cs) eqn:E1.
  { apply existsb_exists in E1 as ([[[mn mx] prec] pad] & I & E). exists mn, mx, prec, pad. split; [exact I|]. now apply Qle_bool_iff. }
  destruct (existsb (fun '(_, _, prec, _) => (prec =? 0)%Z) cs) eqn:E2.
  { apply existsb_exists in E2 as ([[[mn mx] prec] pad] & I & E). apply Z.eqb_eq in E. subst prec. now exists mn, mx, pad. }
  induction cs as [|[[[mn mx] prec] pad] cs IH]; [cbn; split; [reflexivity|intros [|i]; discriminate]|].
  cbn [existsb] in E1, E2. apply orb_false_iff in E1 as [A1 E1], E2 as [A2 E2]. specialize (IH E1 E2).
  pose proof (C50_creation mn mx prec pad) as HC. cbn [omap]. unfold create_min_max, erefuse in HC |- *. rewrite A1, A2 in HC.
  unfold erun in IH, HC |- *. destruct (min_max_to_commons mn mx prec pad) as [e|] eqn:Em; cbn [obind] in HC |- *; [|contradiction].
  match goal with |- context [omap ?f cs] => destruct (omap f cs) as [es|] end; cbn [obind] in IH |- *; [|exact IH]. destruct IH as [L IH]. split; [cbn; lia|].
  intros [|i] mn' mx' prec' pad' e' H1 H2; cbn in H1, H2.
  - injection H1 as <- <- <- <-. injection H2 as <-. now rewrite A1, A2, Em.
  - exact (IH i mn' mx' prec' pad' e' H1 H2).
Qed.
Print Assumptions C50_vector_creation.
Theorem C50_vector_creation_center cs :
  match create_vector_center_radius cs with
  | Ret (EOk es) => length es = length cs /\
      forall i c r prec pad e, nth_error cs i = Some (c, r, prec, pad) -> nth_error es i = Some e ->
        create_center_radius c r prec pad = Ret (EOk e)
  | Ret (EErr FloatEncoderNullRadius) => exists c r prec pad, In (c, r, prec, pad) cs /\ r <= 0
  | Ret (EErr FloatEncoderNullPrecision) => exists c r pad, In (c, r, 0%Z, pad) cs
  | Panic => exists c r prec pad, In (c, r, prec, pad) cs /\ create_center_radius c r prec pad = Panic
  | _ => False
  end.
Proof.
  unfold create_vector_center_radius, erefuse.
  destruct (existsb (fun '(_, r, _, _) => Qle_bool r 0) cs) eqn:E1.
  { apply existsb_exists in E1 as ([[[c r] prec] pad] & I & E). exists c, r, prec, pad. split; [exact I|]. now apply Qle_bool_iff. }
  destruct (existsb (fun '(_, _, prec, _) => (prec =? 0)%Z) cs) eqn:E2.
  { apply existsb_exists in E2 as ([[[c r] prec] pad] & I & E). apply Z.eqb_eq in E. subst prec. now exists c, r, pad. }
  induction cs as [|[[[c r] prec] pad] cs IH]; [cbn; split; [reflexivity|intros [|i]; discriminate]|].
  cbn [existsb] in E1, E2. apply orb_false_iff in E1 as [A1 E1], E2 as [A2 E2]. specialize (IH E1 E2).
  cbn [omap]. unfold erun in IH |- *. destruct (center_radius_to_commons c r prec pad) as [e|] eqn:Em; cbn [obind].
  - match goal with |- context [omap ?f cs] => destruct (omap f cs) as [es|] end; cbn [obind] in IH |- *.
    + destruct IH as [L IH]. split; [cbn; lia|]. intros [|i] c' r' prec' pad' e' H1 H2; cbn in H1, H2.
      * injection H1 as <- <- <- <-. injection H2 as <-. unfold create_center_radius, erefuse, erun. now rewrite A1, A2, Em.
      * exact (IH i c' r' prec' pad' e' H1 H2).
    + destruct IH as (c' & r' & prec' & pad' & I & H). exists c', r', prec', pad'. split; [right; exact I|exact H].
  - exists c, r, prec, pad. split; [now left|]. unfold create_center_radius, erefuse, erun. now rewrite A1, A2, Em.
Qed.
Print Assumptions C50_vector_creation_center.
Example C50_vector_creation_case : (exists es, create_vector_min_max [(-10, 10, 8%Z, 1%Z); (0, 1, 4%Z, 2%Z)] = Ret (EOk es) /\ length es = 2%nat) /\
  create_vector_min_max [(-10, 10, 8%Z, 1%Z); (1, 0, 4%Z, 2%Z)] = Ret (EErr FloatEncoderMinMaxOrder) /\
  (exists es, create_vector_center_radius [(0, 10, 8%Z, 1%Z); (5, 1, 4%Z, 2%Z)] = Ret (EOk es) /\ length es = 2%nat).
Proof.
  split; [eexists; split; [vm_compute; reflexivity|reflexivity]|]. split; [vm_compute; reflexivity|].
  eexists; split; [vm_compute; reflexivity|reflexivity].
Qed.

(** A vector is encoded element by element; the lengths must agree, and one message out of range refuses the whole. *)
Theorem C50_vector_encoding p w es ms :
  match encode_cleartext_vector p w es ms with
  | Ret (EOk vs) => length es = length ms /\ length vs = length ms /\
      forall i e m v, nth_error es i = Some e -> nth_error ms i = Some m -> nth_error vs i = Some v -> encode_cleartext p w e m = Ret (EOk v)
  | Ret (EErr EncoderCountMismatch) => length es <> length ms
  | Ret (EErr FloatEncoderMessageOutsideInterval) => length es = length ms /\
      exists i e m, nth_error es i = Some e /\ nth_error ms i = Some m /\ encode_cleartext p w e m = Ret (EErr FloatEncoderMessageOutsideInterval)
  | Ret (EErr _) => False
  | Panic => length es = length ms /\ exists i e m, nth_error es i = Some e /\ nth_error ms i = Some m /\ encode_cleartext p w e m = Panic
  end.
Proof.
  unfold encode_cleartext_vector, erefuse. destruct (Nat.eqb_spec (length es) (length ms)) as [L|L]; cbn [negb]; [|exact L].
  revert ms L. induction es as [|e es IH]; intros [|m ms] L; try discriminate.
  - cbn. repeat split. intros [|i] e m v H; discriminate.
  - cbn [combine existsb omap]. injection L as L. specialize (IH ms L).
    destruct (is_message_out_of_range e m) eqn:Er; cbn [orb].
    + split; [cbn; lia|]. exists 0%nat, e, m. split; [reflexivity|]. split; [reflexivity|]. unfold encode_cleartext, erefuse. now rewrite Er.
    + destruct (existsb _ (combine es ms)) eqn:Ex.
      * split; [cbn; lia|]. destruct IH as [_ (i & e' & m' & H1 & H2 & H3)]. exists (S i), e', m'. auto.
      * unfold erun in *. destruct (encode p w e m) as [v|] eqn:Ee; cbn [obind].
        -- destruct (omap _ (combine es ms)) as [vs|]; cbn [obind] in *.
           ++ destruct IH as (_ & L2 & IH). split; [cbn; lia|]. split; [cbn; lia|].
              intros [|i] e' m' v' H1 H2 H3; cbn in H1, H2, H3.
              ** injection H1 as <-. injection H2 as <-. injection H3 as <-. unfold encode_cleartext, erefuse, erun. now rewrite Er, Ee.
              ** eapply IH; eassumption.
           ++ split; [cbn; lia|]. destruct IH as [_ (i & e' & m' & H1 & H2 & H3)]. exists (S i), e', m'. auto.
        -- split; [cbn; lia|]. exists 0%nat, e, m. split; [reflexivity|]. split; [reflexivity|]. unfold encode_cleartext, erefuse, erun. now rewrite Er, Ee.
Qed.
Print Assumptions C50_vector_encoding.

(** Decoding is element by element as well. *)
Theorem C50_vector_decoding p w es vs rs : length es = length vs -> decode_plaintext_vector p w es vs = Ret (EOk rs) ->
  length rs = length vs /\
  forall i e v r, nth_error es i = Some e -> nth_error vs i = Some v -> nth_error rs i = Some r -> decode_plaintext p w e v = Ret (EOk r).
Proof.
  unfold decode_plaintext_vector, erun. revert vs rs. induction es as [|e es IH]; intros [|v vs] rs L H; try discriminate; cbn [combine omap] in H.
  - injection H as <-. split; [reflexivity|]. intros [|i]; discriminate.
  - injection L as L. destruct (decode p w e v) as [r|] eqn:Ed; cbn [obind] in H; [|discriminate].
    destruct (omap _ _) as [rs'|] eqn:Eo; cbn [obind] in H; [|discriminate]. injection H as <-.
    destruct (IH vs rs' L) as [L2 IH']; [now rewrite Eo|]. split; [cbn; lia|].
    intros [|i] e' v' r' H1 H2 H3; cbn in H1, H2, H3.
    + injection H1 as <-. injection H2 as <-. injection H3 as <-. unfold decode_plaintext, erun. now rewrite Ed.
    + eapply IH'; eassumption.
Qed.
Print Assumptions C50_vector_decoding.
Example C50_vector_case : exists vs rs, encode_cleartext_vector Debug 32 [sample_encoder; sample_encoder] [7 # 3; -10] = Ret (EOk vs) /\
  decode_plaintext_vector Debug 32 [sample_encoder; sample_encoder] vs = Ret (EOk rs) /\ length rs = 2%nat.
Proof. eexists _, _. split; [vm_compute; reflexivity|]. split; [vm_compute; reflexivity|]. reflexivity. Qed.

(** The safe decoding of a vector does not run the check on the number of encoders that its error type documents: with
    fewer encoders than plaintexts the last plaintexts are dropped. *)
Theorem C50_decoding_count_unchecked_refuted : exists es vs rs,
  length es <> length vs /\ decode_plaintext_vector Debug 32 es vs = Ret (EOk rs) /\ (length rs < length vs)%nat.
Proof. exists [sample_encoder], [0%Z; 0%Z]. eexists. split; [discriminate|]. split; [vm_compute; reflexivity|]. cbn. lia. Qed.
Print Assumptions C50_decoding_count_unchecked_refuted.

(** ** The encoder without bounds *)
(** RealEncoder: a message in the part of [offset, offset + delta) that rounding cannot push out of it comes back. *)
Theorem C50_real_round_trip w offset delta m : (1 < w)%Z -> 0 < delta -> offset <= m ->
  (m - offset) * 2 ^ w + delta * (2 + 2 ^ w * (1 # 70368744177664)) <= delta * 2 ^ w ->
  let v := real_encode w offset delta m in
  is_word w v /\ Qabs (real_decode w offset delta v - m) <= delta * (1 / 2 ^ w + (1 # 70368744177664)) + Qabs offset * (1 # 9007199254740992).
Proof.
  intros Hw Hd Hm Hmax v. pose proof (Q2_pos w) as PW.
  assert (N : near (8 * ur) delta delta) by (unfold near; split; lra).
  assert (Nx : near (20 * ur) (fdiv (fsub m offset) delta) ((m - offset) / delta)) by (apply quotient_near; [lra|lra|exact N]).
  set (X := (m - offset) / delta) in *. set (x := fdiv (fsub m offset) delta) in *.
  assert (EX : X * delta == m - offset) by (unfold X; field; lra).
  assert (HX : 0 <= X) by (unfold X; apply Qle_shift_div_l; lra).
  assert (HX2 : X * 2 ^ w + (2 + 2 ^ w * (1 # 70368744177664)) <= 2 ^ w).
  { apply (Qmult_le_l _ _ delta Hd). rewrite <- EX in Hmax. 
    setoid_replace (delta * (X * 2 ^ w + (2 + 2 ^ w * (1 # 70368744177664)))) with (X * delta * 2 ^ w + delta * (2 + 2 ^ w * (1 # 70368744177664))) by ring. exact Hmax. }
  assert (X1 : X <= 1). { set (W := 2 ^ w) in *. clearbody X W. nra. }
  destruct Nx as [A B].
  assert (Hx : 0 <= x) by (eapply Qle_trans; [|exact A]; apply Qmult_le_0_compat; [exact HX|discriminate]).
  assert (Hxd : - (20 * ur) <= x - X <= 20 * ur) by (clearbody x X; split; lra).
  assert (HxW : - (20 * ur) * 2 ^ w <= (x - X) * 2 ^ w <= 20 * ur * 2 ^ w) by (split; apply Qmult_le_compat_r; lra).
  destruct (from_torus_ok w x Hw Hx) as [V1 V2].
  { set (W := 2 ^ w) in *. clearbody x X W. lra. }
  change (from_torus w x) with v in V1, V2. split; [exact V1|].
  assert (HTq : inject_Z v <= 2 ^ w) by (rewrite Q2_Z by lia; apply inject_le; unfold is_word in V1; lia).
  pose proof (out_near w offset delta delta v Hd N ltac:(unfold is_word in V1; lia) HTq) as HO.
  unfold real_decode. apply Qabs_Qle_condition in HO, V2. apply Qabs_Qle_condition.
  assert (Em : m == offset + X * delta) by (rewrite EX; ring).
  set (res := fadd (fmul (into_torus w v) delta) offset) in *.
  assert (Hd0 : - (1 / 2 ^ w + 22 * ur) <= inject_Z v / 2 ^ w - X <= 1 / 2 ^ w + 22 * ur).
  { assert (Et : inject_Z v / 2 ^ w - X == (inject_Z v - X * 2 ^ w) / 2 ^ w) by (field; lra). rewrite Et.
    assert (Er : (1 / 2 ^ w + 22 * ur) * 2 ^ w == 1 + 2 ^ w * (22 * ur)) by (field; lra).
    split; [apply Qle_shift_div_l|apply Qle_shift_div_r]; lra. }
  set (t := inject_Z v / 2 ^ w) in *. set (q := 1 / 2 ^ w) in *. set (a := Qabs offset) in *.
  clearbody res X t q a. clear - HO Hd0 Em Hd.
  assert ((t - X) * delta <= (q + 22 * ur) * delta) by (apply Qmult_le_compat_r; lra).
  assert (- (q + 22 * ur) * delta <= (t - X) * delta) by (apply Qmult_le_compat_r; lra).
  rewrite Em. split; lra.
Qed.
Print Assumptions C50_real_round_trip.
Example C50_real_case : real_encode 32 3 8 (17 # 2) = 2952790016%Z /\ real_decode 32 3 8 2952790016 == 17 # 2.
Proof. vm_compute. split; reflexivity. Qed.
