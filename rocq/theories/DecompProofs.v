(** * Proofs about the signed decomposition. *)
From Verif Require Import Base Word WordFacts DecompModel.

(** The parameters for which the decomposition is defined (decomposer.rs:40-43), for a machine
    with 64-bit usize. *)
Definition dec_wf (w : Z) (d : decomposer) : Prop :=
  0 < base_log d /\ (0 < level_count d)%nat /\ base_log d * Z.of_nat (level_count d) < w /\ w < 2 ^ 64.

Lemma dec_new_ok p w b l : 0 < b -> b * Z.of_nat l < w -> w < 2 ^ 64 -> dec_new p w b l = Ret (Dec b l).
Proof.
  intros Hb Hl Hw. unfold dec_new, usize_bits. rewrite plain_ok by nia. cbn [obind].
  destruct p; [|reflexivity]. destruct (Z.gtb_spec w (b * Z.of_nat l)); [reflexivity|lia].
Qed.

Section S.
Context (p : profile) (w : Z) (d : decomposer).
Hypothesis Hd : dec_wf w d.

Local Notation b := (base_log d).
Local Notation l := (level_count d).
Local Notation nr := (w - base_log d * Z.of_nat (level_count d)).

Lemma nr_pos : 0 < nr < w.
Proof. destruct Hd as (H1 & H2 & H3 & H4). nia. Qed.

Lemma closest_div x : is_word w x ->
  closest_representable w d x = (2 ^ nr * ((x + 2 ^ (nr - 1)) / 2 ^ nr)) mod 2 ^ w.
Proof.
  intros Hx. pose proof nr_pos as Hn. unfold closest_representable, shl.
  rewrite land_pow2_shr by lia. f_equal.
  set (m := nr) in *. rewrite Z.mul_comm. f_equal.
  assert (E : 2 ^ m = 2 * 2 ^ (m - 1)) by (rewrite (pow2_split m 1) by lia; reflexivity).
  unfold shr. rewrite E. set (h := 2 ^ (m - 1)) in *.
  assert (Hh : 0 < h) by (apply pow2_pos; lia). clearbody h. clear E.
  rewrite (Z.mul_comm 2 h), <- !Z.div_div by lia.
  replace (x + h) with (x + 1 * h) by lia. rewrite Z.div_add by lia.
  generalize (x / h). intros y. lia.
Qed.

Lemma closest_word x : is_word w (closest_representable w d x).
Proof. pose proof nr_pos. apply shl_word. lia. Qed.

Lemma closest_sum_bound x : is_word w x ->
  0 <= shr x nr /\ shr x nr + shr (Z.land x (2 ^ (nr - 1))) (nr - 1) <= 2 ^ (b * Z.of_nat l).
Proof.
  intros [H1 H2]. pose proof nr_pos as Hn. rewrite land_pow2_shr by lia. unfold shr.
  assert (E : 2 ^ w = 2 ^ (b * Z.of_nat l) * 2 ^ nr).
  { rewrite <- Z.pow_add_r by (destruct Hd; nia). f_equal. lia. }
  pose proof (pow2_pos nr ltac:(lia)).
  assert (0 <= x / 2 ^ nr < 2 ^ (b * Z.of_nat l)).
  { split; [apply Z.div_pos; lia|]. apply Z.div_lt_upper_bound; [lia|]. rewrite Z.mul_comm, <- E. lia. }
  pose proof (Z.mod_pos_bound (x / 2 ^ (nr - 1)) 2). lia.
Qed.

Lemma closest_representable_ok x : is_word w x ->
  closest_representable_ p w d x = Ret (closest_representable w d x).
Proof.
  intros Hx. pose proof nr_pos as Hn. destruct Hd as (H1 & H2 & H3 & H4).
  unfold closest_representable_, closest_representable, usize_bits.
  rewrite plain_ok by nia. cbn [obind]. rewrite (Z.mul_comm (Z.of_nat l)).
  rewrite plain_ok by lia. cbn [obind]. rewrite plain_ok by lia. cbn [obind].
  rewrite shl_ok by lia. cbn [obind]. rewrite !shr_ok by lia. cbn [obind].
  assert (E : shl w 1 (nr - 1) = 2 ^ (nr - 1)).
  { unfold shl. rewrite Z.mul_1_l. apply Z.mod_small. split; [apply Z.lt_le_incl, pow2_pos; lia|].
    apply Z.pow_lt_mono_r; lia. }
  rewrite E.
  pose proof (closest_sum_bound x Hx) as [Hb1 Hb2].
  rewrite plain_ok.
  - cbn [obind]. rewrite shl_ok by lia. reflexivity.
  - split.
    + rewrite land_pow2_shr by lia. pose proof (Z.mod_pos_bound (x / 2 ^ (nr - 1)) 2). lia.
    + eapply Z.le_lt_trans; [exact Hb2|]. apply Z.pow_lt_mono_r; lia.
Qed.

(** The rounding error, with ties rounded up. *)
Lemma closest_error x : is_word w x ->
  exists e, eqm (2 ^ w) (closest_representable w d x) (x + e) /\
            - 2 ^ (nr - 1) < e <= 2 ^ (nr - 1).
Proof.
  intros Hx. rewrite closest_div by assumption. pose proof nr_pos as Hn.
  assert (E : 2 ^ nr = 2 * 2 ^ (nr - 1)) by (rewrite (pow2_split nr 1) by lia; reflexivity).
  exists (2 ^ nr * ((x + 2 ^ (nr - 1)) / 2 ^ nr) - x). split.
  - rewrite eqm_mod. apply eqm_eq. lia.
  - pose proof (pow2_pos (nr - 1) ltac:(lia)) as Hh.
    rewrite E. set (h := 2 ^ (nr - 1)) in *. clearbody h.
    pose proof (Z.div_mod (x + h) (2 * h) ltac:(lia)).
    pose proof (Z.mod_pos_bound (x + h) (2 * h) ltac:(lia)). lia.
Qed.

Lemma closest_multiple x : is_word w x -> (2 ^ nr | closest_representable w d x).
Proof.
  intros Hx. rewrite closest_div by assumption. pose proof nr_pos as Hn.
  assert (E : 2 ^ w = 2 ^ nr * 2 ^ (b * Z.of_nat l)).
  { rewrite <- Z.pow_add_r by (destruct Hd; nia). f_equal. lia. }
  rewrite E. rewrite Z.mul_mod_distr_l.
  - eexists. apply Z.mul_comm.
  - apply Z.pow_nonzero; destruct Hd; nia.
  - apply Z.pow_nonzero; lia.
Qed.

Lemma closest_fixpoint x : is_word w x -> (2 ^ nr | x) -> closest_representable w d x = x.
Proof.
  intros Hx [k ->]. rewrite closest_div by assumption. pose proof nr_pos as Hn.
  pose proof (pow2_pos (nr - 1) ltac:(lia)) as Hh.
  assert (E : 2 ^ nr = 2 * 2 ^ (nr - 1)) by (rewrite (pow2_split nr 1) by lia; reflexivity).
  rewrite (Z.add_comm (k * _)), Z.div_add by lia.
  rewrite Z.div_small by lia. rewrite Z.add_0_l, Z.mul_comm. apply Z.mod_small. exact Hx.
Qed.

(** The state the iterator starts from. *)
Lemma start_state x : is_word w x ->
  let s := shr (closest_representable w d x) nr in
  closest_representable w d x = s * 2 ^ nr /\ 0 <= s <= 2 ^ (b * Z.of_nat l).
Proof.
  intros Hx s. pose proof nr_pos as Hn.
  destruct (closest_multiple x Hx) as [k Hk].
  pose proof (closest_word x) as [Hw1 Hw2].
  pose proof (pow2_pos nr ltac:(lia)).
  assert (s = k) as ->.
  { unfold s, shr. rewrite Hk. apply Z.div_mul. lia. }
  split; [assumption|].
  assert (E : 2 ^ w = 2 ^ (b * Z.of_nat l) * 2 ^ nr).
  { rewrite <- Z.pow_add_r by (destruct Hd; nia). f_equal. lia. }
  rewrite Hk in *. rewrite E in Hw2. nia.
Qed.
End S.

(** ** One level *)
Lemma carry_spec w b res st : 0 < b < w -> 0 <= res < 2 ^ b -> 0 <= st ->
  shr (Z.land (Z.lor (wsub w res 1) st) res) (b - 1)
  = if res <? 2 ^ (b - 1) then 0
    else if res =? 2 ^ (b - 1) then (st / 2 ^ (b - 1)) mod 2 else 1.
Proof.
  intros Hb Hres Hst. unfold shr. rewrite <- Z.shiftr_div_pow2 by lia.
  rewrite Z.shiftr_land, Z.shiftr_lor.
  rewrite !Z.shiftr_div_pow2 by lia.
  assert (E : 2 ^ b = 2 * 2 ^ (b - 1)) by (rewrite (pow2_split b 1) by lia; reflexivity).
  assert (Ew : 2 ^ b < 2 ^ w) by (apply Z.pow_lt_mono_r; lia).
  pose proof (pow2_pos (b - 1) ltac:(lia)) as Hh.
  set (h := 2 ^ (b - 1)) in *.
  destruct (Z.ltb_spec res h).
  - rewrite (Z.div_small res h) by lia. apply Z.land_0_r.
  - assert (res / h = 1) as ->.
    { symmetry. apply Z.div_unique with (r := res - h); lia. }
    unfold wsub. rewrite (Z.mod_small (res - 1)) by lia.
    change 1 with (Z.ones 1) at 2. rewrite Z.land_ones by lia. change (2 ^ 1) with 2.
    destruct (Z.eqb_spec res h).
    + rewrite (Z.div_small (res - 1)) by lia. rewrite Z.lor_0_l. reflexivity.
    + assert ((res - 1) / h = 1) as ->.
      { symmetry. apply Z.div_unique with (r := res - 1 - h); lia. }
      rewrite Zmod_odd. rewrite <- Z.bit0_odd, Z.lor_spec. reflexivity.
Qed.

Lemma one_level w b state : 0 < b < w -> 0 <= state ->
  exists D st', decompose_one_level w b state = (D mod 2 ^ w, st') /\
    state = D + 2 ^ b * st' /\ - 2 ^ (b - 1) <= D <= 2 ^ (b - 1) /\ 0 <= st' /\
    (forall k, 0 <= k -> state <= 2 ^ b * 2 ^ k -> st' <= 2 ^ k).
Proof.
  intros Hb Hst. unfold decompose_one_level.
  rewrite land_mask by lia. set (res := state mod 2 ^ b).
  pose proof (pow2_pos b ltac:(lia)) as HB.
  pose proof (Z.mod_pos_bound state (2 ^ b) HB) as Hres. fold res in Hres.
  assert (Hs : 0 <= shr state b) by (unfold shr; apply Z.div_pos; lia).
  rewrite carry_spec by assumption.
  set (c := if _ <? _ then _ else _).
  assert (E : 2 ^ b = 2 * 2 ^ (b - 1)) by (rewrite (pow2_split b 1) by lia; reflexivity).
  pose proof (pow2_pos (b - 1) ltac:(lia)) as Hh.
  assert (Hc : 0 <= c <= 1 /\ (res < 2 ^ (b - 1) -> c = 0) /\ (2 ^ (b - 1) < res -> c = 1)).
  { unfold c. destruct (Z.ltb_spec res (2 ^ (b - 1))); [lia|].
    destruct (Z.eqb_spec res (2 ^ (b - 1))); [|lia].
    pose proof (Z.mod_pos_bound (shr state b / 2 ^ (b - 1)) 2). lia. }
  clearbody c.
  assert (Ediv : state = 2 ^ b * shr state b + res) by (apply Z.div_mod; lia).
  exists (res - c * 2 ^ b), (shr state b + c). split; [|split; [|split; [|split]]].
  - f_equal. unfold wsub. apply eqm_sub; [reflexivity|]. apply shl_eqm.
  - rewrite Ediv at 1. ring.
  - destruct Hc as (Hc1 & Hc2 & Hc3).
    destruct (Z.lt_trichotomy res (2 ^ (b - 1))) as [?|[?|?]].
    + rewrite Hc2 by assumption. lia.
    + assert (c = 0 \/ c = 1) as [-> | ->]; lia.
    + rewrite Hc3 by assumption. lia.
  - lia.
  - intros k Hk Hle. pose proof (pow2_pos k Hk) as HK.
    set (B := 2 ^ b) in *. set (K := 2 ^ k) in *. set (s := shr state b) in *. clearbody B K s res.
    assert (s < K \/ (s = K /\ res = 0)) as [?|[-> ->]] by nia; [lia|].
    destruct Hc as (_ & Hc2 & _). rewrite Hc2 by lia. lia.
Qed.

(** The checked operator sequence computes it, whenever nothing overflows. *)
Lemma one_level_ok p w b state : 0 < b < w -> w < 2 ^ 64 -> 0 <= state < 2 ^ w ->
  decompose_one_level_ p w b state (2 ^ b - 1) = Ret (decompose_one_level w b state).
Proof.
  intros Hb Hw Hst. unfold decompose_one_level_, decompose_one_level, usize_bits.
  rewrite shr_ok by lia. cbn [obind]. rewrite plain_ok by lia. cbn [obind].
  rewrite shr_ok by lia. cbn [obind].
  rewrite plain_ok; cbn [obind].
  - rewrite shl_ok by lia. reflexivity.
  - rewrite land_mask by lia.
    pose proof (Z.mod_pos_bound state (2 ^ b) ltac:(apply pow2_pos; lia)) as Hres.
    assert (Hs : 0 <= shr state b) by (apply Z.div_pos; [lia|apply pow2_pos; lia]).
    assert (Hs2 : shr state b < 2 ^ (w - b)).
    { unfold shr. apply Z.div_lt_upper_bound; [apply pow2_pos; lia|].
      rewrite <- pow2_split by lia. lia. }
    rewrite carry_spec by assumption.
    assert (2 ^ (w - b) < 2 ^ w) by (apply Z.pow_lt_mono_r; lia).
    match goal with |- context [if ?c then _ else _] => set (cc := if c then _ else _) end.
    assert (0 <= cc <= 1).
    { unfold cc. destruct (_ <? _); [lia|]. destruct (_ =? _); [|lia].
      pose proof (Z.mod_pos_bound (shr state b / 2 ^ (b - 1)) 2). lia. }
    lia.
Qed.

(** ** All levels *)

(** Value of a digit list whose head has level [length ds]. *)
Fixpoint levels_sum (w b : Z) (ds : list Z) : Z :=
  match ds with
  | [] => 0
  | d :: ds' => d * 2 ^ (w - b * Z.of_nat (length ds)) + levels_sum w b ds'
  end.

Lemma digits_length w b k st : length (digits w b k st) = k.
Proof.
  revert st. induction k as [|k IH]; intros st; [reflexivity|].
  cbn [digits]. destruct (decompose_one_level w b st). cbn [length]. rewrite IH. reflexivity.
Qed.

Lemma digits_spec w b k st : 0 < b -> b * Z.of_nat k < w ->
  0 <= st <= 2 ^ (b * Z.of_nat k) ->
  exists Ds, digits w b k st = map (fun D => D mod 2 ^ w) Ds /\ length Ds = k /\
    Forall (fun D => - 2 ^ (b - 1) <= D <= 2 ^ (b - 1)) Ds /\
    eqm (2 ^ w) (levels_sum w b Ds) (st * 2 ^ (w - b * Z.of_nat k)).
Proof.
  revert st. induction k as [|k IH]; intros st Hb Hk Hst.
  - exists []. cbn [digits map length levels_sum]. split; [reflexivity|]. split; [reflexivity|]. split; [constructor|].
    change (Z.of_nat 0) with 0. rewrite Z.mul_0_r, Z.sub_0_r. symmetry. rewrite Z.mul_comm. apply eqm_multiple.
  - cbn [digits].
    destruct (one_level w b st) as (D & st' & -> & E & HD & Hst' & Hle); [nia|lia|].
    specialize (Hle (b * Z.of_nat k) ltac:(nia)).
    rewrite <- Z.pow_add_r in Hle by nia.
    replace (b + b * Z.of_nat k) with (b * Z.of_nat (S k)) in Hle by lia.
    destruct (IH st') as (Ds & -> & Hl & HF & Hs); [assumption|lia|lia|].
    exists (D :: Ds). cbn [map length levels_sum]. split; [reflexivity|]. split; [lia|]. split; [constructor; assumption|].
    rewrite Hl, Hs, E. apply eqm_eq.
    replace (w - b * Z.of_nat k) with (b + (w - b * Z.of_nat (S k))) by lia.
    rewrite Z.pow_add_r by lia. ring.
Qed.

(** The signed value of a digit word is the digit. *)
Lemma sgn_digit w D b : 0 < b < w -> - 2 ^ (b - 1) <= D <= 2 ^ (b - 1) -> sgn w (D mod 2 ^ w) = D.
Proof.
  intros Hb HD. apply sgn_unique.
  - lia.
  - apply Z.mod_pos_bound, pow2_pos. lia.
  - symmetry. apply eqm_mod.
  - assert (2 ^ (b - 1) < 2 ^ (w - 1)) by (apply Z.pow_lt_mono_r; lia). lia.
Qed.

Lemma decomp_spec w d x : dec_wf w d -> is_word w x ->
  exists Ds, decomp w d x = map (fun D => D mod 2 ^ w) Ds /\ length Ds = level_count d /\
    Forall (fun D => - 2 ^ (base_log d - 1) <= D <= 2 ^ (base_log d - 1)) Ds /\
    eqm (2 ^ w) (levels_sum w (base_log d) Ds) (closest_representable w d x).
Proof.
  intros Hd Hx. unfold decomp.
  destruct (start_state w d Hd x Hx) as [E Hs].
  destruct Hd as (H1 & H2 & H3 & H4).
  destruct (digits_spec w (base_log d) (level_count d) _ H1 H3 Hs) as (Ds & ED & Hl & HF & HS).
  exists Ds. rewrite <- E in HS. auto.
Qed.

(** ** The iterator yields the digits *)
Definition iter_inv (w : Z) (d : decomposer) (it : sdi) : Prop :=
  it_base_log it = base_log d /\ it_mask it = 2 ^ base_log d - 1 /\
  (it_current_level it <= level_count d)%nat /\
  0 <= it_state it <= 2 ^ (base_log d * Z.of_nat (it_current_level it)).

Lemma state_word w d it : dec_wf w d -> iter_inv w d it -> 0 <= it_state it < 2 ^ w.
Proof.
  intros (H1 & H2 & H3 & H4) (_ & _ & Hl & Hs). split; [lia|].
  eapply Z.le_lt_trans; [apply Hs|]. apply Z.pow_lt_mono_r; nia.
Qed.

Lemma mask_ok p w b : 0 < b < w -> (let! m := shl_ p w 1 b in plain p w (m - 1)) = Ret (2 ^ b - 1).
Proof.
  intros Hb. rewrite shl_ok by lia. cbn [obind]. unfold shl. rewrite Z.mul_1_l.
  pose proof (pow2_pos b ltac:(lia)).
  assert (2 ^ b < 2 ^ w) by (apply Z.pow_lt_mono_r; lia).
  rewrite Z.mod_small by lia. apply plain_ok. lia.
Qed.

Lemma decompose_ok p w d x : dec_wf w d -> is_word w x ->
  exists it, decompose_ p w d x = Ret it /\ iter_inv w d it /\ it_fresh it = true /\
    it_current_level it = level_count d /\
    it_state it = shr (closest_representable w d x) (w - base_log d * Z.of_nat (level_count d)).
Proof.
  intros Hd Hx. pose proof (start_state w d Hd x Hx) as [_ Hs]. pose proof Hd as (H1 & H2 & H3 & H4).
  unfold decompose_. rewrite closest_representable_ok by assumption. cbn [obind].
  unfold sdi_new, usize_bits. rewrite plain_ok by nia. cbn [obind]. rewrite plain_ok by nia. cbn [obind].
  rewrite shr_ok by nia. cbn [obind].
  pose proof (mask_ok p w (base_log d) ltac:(nia)) as Hm.
  destruct (shl_ p w 1 (base_log d)) as [m|]; cbn [obind] in *; [|discriminate].
  rewrite Hm. cbn [obind]. eexists. split; [reflexivity|]. unfold iter_inv. cbn. auto.
Qed.

Lemma sdi_next_some p w d it l : dec_wf w d -> iter_inv w d it -> it_current_level it = S l ->
  exists D st' it', decompose_one_level w (base_log d) (it_state it) = (D, st') /\
    sdi_next p w it = Ret (Some (Term (S l) (base_log d) D), it') /\
    iter_inv w d it' /\ it_current_level it' = l /\ it_state it' = st' /\ it_fresh it' = false.
Proof.
  intros Hd Hi El. pose proof (state_word w d it Hd Hi) as Hst. pose proof Hd as (H1 & H2 & H3 & H4).
  destruct Hi as (E1 & E2 & Hl & Hs). rewrite El in *.
  unfold sdi_next. rewrite El, E1, E2. rewrite one_level_ok by nia.
  destruct (one_level w (base_log d) (it_state it)) as (D & st' & E & _ & _ & H0 & Hle); [nia|lia|].
  rewrite E. cbn [obind]. eexists _, _, _. split; [reflexivity|].
  rewrite Nat.add_1_r. split; [reflexivity|]. unfold iter_inv. cbn. repeat split; auto; try lia.
  apply Hle; [nia|]. rewrite <- Z.pow_add_r by nia.
  replace (base_log d + base_log d * Z.of_nat l) with (base_log d * Z.of_nat (S l)) by lia. lia.
Qed.

Lemma sdi_next_none p w it : it_current_level it = O ->
  exists it', sdi_next p w it = Ret (None, it') /\ it_current_level it' = O /\ it_fresh it' = false.
Proof. intros E. unfold sdi_next. rewrite E. eexists. cbn. auto. Qed.

Lemma sdi_take_none p w k : forall it, it_current_level it = O ->
  exists it', sdi_take p w k it = Ret (repeat None k, it').
Proof.
  induction k as [|k IH]; intros it E; [eexists; reflexivity|].
  destruct (sdi_next_none p w it E) as (it1 & E1 & E2 & _).
  destruct (IH it1 E2) as (it2 & E3). eexists. cbn [sdi_take repeat]. rewrite E1. cbn [obind]. rewrite E3. reflexivity.
Qed.

(** Terms for levels k, k-1, ..., 1 with the given values. *)
Fixpoint terms_of (b : Z) (ds : list Z) : list term :=
  match ds with [] => [] | x :: ds' => Term (length ds) b x :: terms_of b ds' end.

Lemma sdi_take_spec p w d k : dec_wf w d -> forall l it, iter_inv w d it -> it_current_level it = l ->
  exists it', sdi_take p w (l + k) it
    = Ret (map Some (terms_of (base_log d) (digits w (base_log d) l (it_state it))) ++ repeat None k, it').
Proof.
  intros Hd. induction l as [|l IH]; intros it Hi El.
  - cbn. apply sdi_take_none; assumption.
  - destruct (sdi_next_some p w d it l Hd Hi El) as (D & st' & it' & E & En & Hi' & El' & Es' & _).
    destruct (IH it' Hi' El') as (it2 & E2). exists it2.
    cbn [sdi_take Nat.add]. rewrite En. cbn [obind]. rewrite E2. cbn [obind digits].
    rewrite E, Es'. cbn [terms_of map app length]. rewrite digits_length. reflexivity.
Qed.

Lemma summand_ok p w d l D : dec_wf w d -> (0 < l <= level_count d)%nat ->
  summand p w (Term l (base_log d) D) = Ret (shl w D (w - base_log d * Z.of_nat l)).
Proof.
  intros (H1 & H2 & H3 & H4) Hl. unfold summand, usize_bits. cbn [t_base_log t_level t_value].
  rewrite plain_ok by nia. cbn [obind]. rewrite plain_ok by nia. cbn [obind]. apply shl_ok. nia.
Qed.

Lemma recompose_fold_spec p w d : dec_wf w d -> forall l it acc, is_word w acc ->
  iter_inv w d it -> it_current_level it = l ->
  exists v, recompose_fold p w (S l) acc it = Ret v /\ is_word w v /\
    eqm (2 ^ w) v (acc + levels_sum w (base_log d) (digits w (base_log d) l (it_state it))).
Proof.
  intros Hd. assert (Hw : 0 <= w) by (destruct Hd as (? & ? & ? & ?); nia).
  induction l as [|l IH]; intros it acc Ha Hi El; cbn [recompose_fold].
  - destruct (sdi_next_none p w it El) as (it' & -> & _). exists acc. cbn [obind digits levels_sum].
    rewrite Z.add_0_r. split; [reflexivity|]. split; [assumption|reflexivity].
  - destruct (sdi_next_some p w d it l Hd Hi El) as (D & st' & it' & E & En & Hi' & El' & Es' & _).
    rewrite En. cbn [obind]. rewrite summand_ok with (d := d).
    2: assumption. 2: { destruct Hi as (_ & _ & Hl & _). rewrite El in Hl. lia. }
    cbn [obind].
    destruct (IH it' (wadd w acc (shl w D (w - base_log d * Z.of_nat (S l))))) as (v & Ev & Hv & Hs).
    + apply wadd_word. assumption.
    + assumption.
    + assumption.
    + exists v. split; [exact Ev|]. split; [assumption|].
      cbn [digits]. rewrite E. cbn [levels_sum length]. rewrite digits_length.
      rewrite Hs, Es', wadd_eqm, shl_eqm. apply eqm_eq. ring.
Qed.

Lemma levels_sum_mod w b Ds : eqm (2 ^ w) (levels_sum w b (map (fun D => D mod 2 ^ w) Ds)) (levels_sum w b Ds).
Proof.
  induction Ds as [|D Ds IH]; [reflexivity|]. cbn [map levels_sum length].
  rewrite map_length, IH, eqm_mod. reflexivity.
Qed.

Lemma recompose_decompose p w d x : dec_wf w d -> is_word w x ->
  exists it, decompose_ p w d x = Ret it /\ recompose p w it = Ret (Some (closest_representable w d x)).
Proof.
  intros Hd Hx. destruct (decompose_ok p w d x Hd Hx) as (it & E & Hi & Hf & Hl & Hs).
  exists it. split; [assumption|]. unfold recompose. rewrite Hf, Hl.
  assert (Hw : 0 <= w) by (destruct Hd as (? & ? & ? & ?); nia).
  destruct (recompose_fold_spec p w d Hd (level_count d) it 0) as (v & -> & Hv & Ev); auto.
  { split; [lia|apply pow2_pos; assumption]. }
  cbn [obind]. do 2 f_equal. apply (eqm_small (2 ^ w)); [assumption|apply closest_word; assumption|].
  rewrite Ev, Hs, Z.add_0_l.
  destruct (decomp_spec w d x Hd Hx) as (Ds & ED & _ & _ & HS).
  unfold decomp in ED. rewrite ED, levels_sum_mod. assumption.
Qed.

(** ** Tensors *)
Definition tinv (w : Z) (d : decomposer) (it : tsdi) : Prop :=
  ti_base_log it = base_log d /\ ti_mask it = 2 ^ base_log d - 1 /\
  (ti_current_level it <= level_count d)%nat /\
  Forall (fun s => 0 <= s <= 2 ^ (base_log d * Z.of_nat (ti_current_level it))) (ti_states it).

Lemma decompose_tensor_ok p w d xs : dec_wf w d -> Forall (is_word w) xs ->
  exists it, decompose_tensor_ p w d xs = Ret it /\ tinv w d it /\ ti_fresh it = true /\
    ti_current_level it = level_count d /\
    ti_states it = map (fun x => shr (closest_representable w d x) (w - base_log d * Z.of_nat (level_count d))) xs.
Proof.
  intros Hd Hx. rewrite Forall_forall in Hx. pose proof Hd as (H1 & H2 & H3 & H4).
  unfold decompose_tensor_.
  rewrite (omap_ok _ (closest_representable w d)) by (intros; apply closest_representable_ok; auto).
  cbn [obind].
  pose proof (mask_ok p w (base_log d) ltac:(nia)) as Hm.
  destruct (shl_ p w 1 (base_log d)) as [m|]; cbn [obind] in *; [|discriminate].
  rewrite Hm. cbn [obind].
  rewrite (omap_ok _ (fun x => shr x (w - base_log d * Z.of_nat (level_count d)))).
  - cbn [obind]. eexists. split; [reflexivity|]. rewrite map_map. unfold tinv. cbn [ti_base_log ti_mask ti_current_level ti_states ti_fresh].
    repeat split; auto. apply Forall_forall. intros s Hs. rewrite in_map_iff in Hs.
    destruct Hs as (x & <- & Hin). apply start_state; auto.
  - intros x Hin. unfold usize_bits. rewrite plain_ok by nia. cbn [obind]. rewrite plain_ok by nia. cbn [obind].
    apply shr_ok. nia.
Qed.

Lemma tsdi_next_ok p w d it l : dec_wf w d -> tinv w d it -> ti_current_level it = S l ->
  exists it', tsdi_next p w it =
      Ret (Some (TermT (S l) (base_log d) (map (fun s => fst (decompose_one_level w (base_log d) s)) (ti_states it))), it') /\
    tinv w d it' /\ ti_current_level it' = l /\ ti_fresh it' = false /\
    ti_states it' = map (fun s => snd (decompose_one_level w (base_log d) s)) (ti_states it).
Proof.
  intros Hd Hi El. pose proof Hd as (H1 & H2 & H3 & H4). destruct Hi as (E1 & E2 & Hl & Hs).
  rewrite El in *. rewrite Forall_forall in Hs.
  unfold tsdi_next. rewrite El, E1, E2.
  rewrite (omap_ok _ (decompose_one_level w (base_log d))).
  - cbn [obind]. rewrite !map_map, Nat.add_1_r. eexists. split; [reflexivity|]. unfold tinv. cbn [ti_base_log ti_mask ti_current_level ti_states ti_fresh].
    repeat split; auto; try lia. apply Forall_forall. intros s Hin. rewrite in_map_iff in Hin.
    destruct Hin as (s0 & <- & Hin). specialize (Hs _ Hin).
    destruct (one_level w (base_log d) s0) as (D & st' & E & _ & _ & H0 & Hle); [nia|lia|].
    rewrite E. cbn [snd]. split; [assumption|]. apply Hle; [nia|]. rewrite <- Z.pow_add_r by nia.
    replace (base_log d + base_log d * Z.of_nat l) with (base_log d * Z.of_nat (S l)) by lia. lia.
  - intros s Hin. specialize (Hs _ Hin). apply one_level_ok; [nia|lia|]. split; [lia|].
    eapply Z.le_lt_trans; [apply Hs|]. apply Z.pow_lt_mono_r; nia.
Qed.

Lemma update_summand_ok p w d l vs out : dec_wf w d -> (0 < l <= level_count d)%nat ->
  length out = length vs ->
  update_summand p w (TermT l (base_log d) vs) out
  = Ret (map2 (fun o v => wadd w o (shl w v (w - base_log d * Z.of_nat l))) out vs).
Proof.
  intros (H1 & H2 & H3 & H4) Hl Hlen. unfold update_summand. cbn [tt_values tt_level tt_base_log].
  rewrite ck_dim_eq_ok by assumption. cbn [obind].
  rewrite (ozip_update_ok _ (fun o v => wadd w o (shl w v (w - base_log d * Z.of_nat l)))).
  - rewrite zip_update_map2 by assumption. reflexivity.
  - intros o v _ _. unfold usize_bits. rewrite plain_ok by nia. cbn [obind]. rewrite plain_ok by nia. cbn [obind].
    rewrite shl_ok by nia. reflexivity.
Qed.

Lemma map2_eq_pointwise {A B C D} (f : A -> B -> C) (g : A -> D -> C) l m n :
  length m = length n ->
  (forall i a b d, nth_error l i = Some a -> nth_error m i = Some b -> nth_error n i = Some d -> f a b = g a d) ->
  map2 f l m = map2 g l n.
Proof.
  revert m n. induction l as [|a l IH]; intros [|b m] [|d n] Hl H; try discriminate; try reflexivity.
  cbn. f_equal.
  - apply (H 0%nat); reflexivity.
  - apply IH; [cbn in Hl; lia|]. intros i. apply (H (S i)).
Qed.

Lemma map2_map2_l {A B C D} (f : C -> D -> A) (g : A -> B -> C) l m n :
  map2 f (map2 g l m) n = map2 (fun x '(b, dd) => f (g x b) dd) l (combine m n).
Proof. revert m n. induction l as [|a l IH]; intros [|b m] [|dd n]; cbn; try reflexivity. rewrite IH. reflexivity. Qed.

Lemma rtl_S p w k it out : recompose_tensor_loop p w (S k) it out =
  (let! (t, it) := tsdi_next p w it in
   match t with
   | None => Ret out
   | Some t => let! output := update_summand p w t out in recompose_tensor_loop p w k it output
   end).
Proof. reflexivity. Qed.

Lemma recompose_tensor_spec p w d : dec_wf w d -> forall l it out, Forall (is_word w) out ->
  tinv w d it -> ti_current_level it = l -> length out = length (ti_states it) ->
  recompose_tensor_loop p w (S l) it out
  = Ret (map2 (fun o s => (o + levels_sum w (base_log d) (digits w (base_log d) l s)) mod 2 ^ w) out (ti_states it)).
Proof.
  intros Hd. assert (Hw : 0 <= w) by (destruct Hd as (? & ? & ? & ?); nia).
  induction l as [|l IH]; intros it out Ho Hi El Hlen; rewrite rtl_S.
  - unfold tsdi_next. rewrite El. cbn [obind digits levels_sum]. f_equal.
    clear - Ho Hlen. revert Hlen. generalize (ti_states it). induction out as [|o out IH]; intros [|s ss] Hl; try discriminate; [reflexivity|].
    inversion Ho; subst. cbn. f_equal; [|apply IH; [assumption|cbn in Hl; lia]].
    rewrite Z.add_0_r, Z.mod_small by assumption. reflexivity.
  - destruct (tsdi_next_ok p w d it l Hd Hi El) as (it' & -> & Hi' & El' & _ & Es').
    cbn [obind]. rewrite update_summand_ok.
    2: assumption. 2: { destruct Hi as (_ & _ & Hl & _). rewrite El in Hl. lia. }
    2: rewrite map_length; assumption.
    cbn [obind]. rewrite IH.
    + f_equal. rewrite Es'. rewrite map2_map_r, map2_map_r.
      rewrite map2_map2_l. apply map2_eq_pointwise.
      { rewrite combine_length. lia. }
      intros i o [s1 s2] s Ho' Hc Hs'.
      assert (s1 = s /\ s2 = s) as [-> ->].
      { clear - Hc Hs'. revert i Hc Hs'. generalize (ti_states it). induction l as [|x l IH]; intros [|i]; cbn; try discriminate.
        - intros H1 H2. split; congruence.
        - intros H1 H2. eapply IH; eassumption. }
      cbn [digits]. destruct (decompose_one_level w (base_log d) s) as [D st'] eqn:E. cbn [fst snd levels_sum length].
      rewrite digits_length.
      change (eqm (2 ^ w) (wadd w o (shl w D (w - base_log d * Z.of_nat (S l))) + levels_sum w (base_log d) (digits w (base_log d) l st'))
              (o + (D * 2 ^ (w - base_log d * Z.of_nat (S l)) + levels_sum w (base_log d) (digits w (base_log d) l st')))).
      rewrite wadd_eqm, shl_eqm. apply eqm_eq. ring.
    + apply Forall_forall. intros z Hz. apply In_nth_error in Hz. destruct Hz as [i Hz].
      rewrite nth_error_map2 in Hz.
      destruct (nth_error out i) as [?|]; [|discriminate]. destruct (nth_error (map _ _) i) as [?|]; [|discriminate]. injection Hz as <-. apply wadd_word. assumption.
    + assumption.
    + assumption.
    + rewrite map2_length, Es', !map_length. lia.
Qed.

Lemma fill_tensor_with_recompose_ok p w d xs out : dec_wf w d -> Forall (is_word w) xs ->
  Forall (is_word w) out -> length out = length xs ->
  exists it, decompose_tensor_ p w d xs = Ret it /\
    fill_tensor_with_recompose p w it out
    = Ret (Some (map2 (fun o x => wadd w o (closest_representable w d x)) out xs)).
Proof.
  intros Hd Hx Ho Hlen. destruct (decompose_tensor_ok p w d xs Hd Hx) as (it & E & Hi & Hf & Hl & Hs).
  exists it. split; [assumption|]. unfold fill_tensor_with_recompose. rewrite Hf, Hl.
  rewrite recompose_tensor_spec with (d := d); auto.
  - cbn [obind]. do 2 f_equal. rewrite Hs. rewrite map2_map_r. apply map2_eq_pointwise; [reflexivity|].
    intros i o x x' Ho' Hx1 Hx2. assert (x' = x) as -> by congruence.
    rewrite Forall_forall in Hx. apply nth_error_In in Hx1. specialize (Hx _ Hx1).
    destruct (decomp_spec w d x Hd Hx) as (Ds & ED & _ & _ & HS).
    unfold decomp in ED. rewrite ED.
    change (eqm (2 ^ w) (o + levels_sum w (base_log d) (map (fun D => D mod 2 ^ w) Ds)) (o + closest_representable w d x)).
    rewrite levels_sum_mod, HS. reflexivity.
  - rewrite Hs, map_length. assumption.
Qed.
