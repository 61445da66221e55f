(** * Properties C28 and C29: modulus switch, blind rotation, bootstrap. *)
From Verif Require Import Base Word WordFacts DecompModel DecompProofs NegaRing PolySpec PolyModel PolyProofs RingSum
  LweSpec LweProofs LweTheorems GlweSpec GlweModel GlweProofs GlweTheorems GgswSpec GgswModel GgswTheorems ExtProdModel ExtProdSpec ExtProdProofs ExtProdTheorems
  RandomModel CsprngFamily NoiseBounds BootstrapSpec BootstrapModel.

Lemma Forall2_nth_error_intro {A B} (P : A -> B -> Prop) : forall l m, length l = length m ->
  (forall t a b, nth_error l t = Some a -> nth_error m t = Some b -> P a b) -> Forall2 P l m.
Proof.
  induction l as [|a l IH]; intros [|b m] Hl H; try discriminate; constructor.
  - apply (H O); reflexivity.
  - apply IH; [cbn in Hl; lia|]. intros t x y Hx Hy. apply (H (S t)); assumption.
Qed.

(** ** C28 *)
Lemma round_div_spec a b : 0 < b -> 2 * (round_div a b * b - a) <= b /\ 2 * (a - round_div a b * b) < b.
Proof.
  intros Hb. unfold round_div. pose proof (Z.div_mod (2 * a + b) (2 * b)) as H. pose proof (Z.mod_pos_bound (2 * a + b) (2 * b)).
  set (k := (2 * a + b) / (2 * b)) in *. nia.
Qed.
Lemma round_div_unique a b k : 0 < b -> 2 * (k * b - a) <= b -> 2 * (a - k * b) < b -> k = round_div a b.
Proof. intros Hb H1 H2. destruct (round_div_spec a b Hb). nia. Qed.

Lemma switched_range w N L x : 0 <= w -> 0 <= L -> 0 < N -> (2 ^ L | 2 * N) -> 0 <= x < 2 ^ w -> 0 <= switched w N L x <= 2 * N.
Proof.
  intros Hw HL HN [c Hc] Hx. unfold switched. pose proof (pow2_pos w Hw). pose proof (pow2_pos L HL).
  set (W := 2 ^ w) in *. set (P := 2 ^ L) in *. clearbody W P.
  destruct (round_div_spec (x * (2 * N)) (P * W)) as [H1 H2]; [nia|]. set (k := round_div _ _) in *. clearbody k. rewrite Hc in *. split.
  - enough (0 <= k) by nia. destruct (Z_lt_le_dec k 0); [|assumption]. exfalso.
    assert (0 <= x * (c * P)) by nia. nia.
  - enough (k <= c) by nia. destruct (Z_lt_le_dec c k); [|assumption]. exfalso.
    assert (2 * (k * (P * W) - x * (c * P)) <= P * W) by assumption.
    assert (x * (c * P) < W * (c * P)) by nia. assert ((c + 1) * (P * W) <= k * (P * W)) by nia. nia.
Qed.

Theorem C28_modulus_switch : forall p w a x offset L, 0 <= a -> a + 2 <= w -> 0 < w - a - 2 + L < w -> 0 <= L -> w < 2 ^ 64 ->
  0 <= offset < w -> is_word w x ->
  pbs_modulus_switch p w x (2 ^ a) offset L = Ret (switched w (2 ^ a) L ((x * 2 ^ offset) mod 2 ^ w)).
Proof.
  intros p w a x offset L Ha Haw Hs HL Hw Ho Hx. unfold pbs_modulus_switch, poly_size_log2, usize_bits.
  rewrite Z.log2_up_pow2 by assumption.
  unfold shl_ at 1. destruct (Z.ltb_spec offset w); [|lia]. cbn [obind].
  rewrite plain_ok by lia. cbn [obind]. rewrite plain_ok by lia. cbn [obind]. rewrite plain_ok by lia. cbn [obind].
  unfold shr_ at 1. destruct (Z.ltb_spec (w - a - 2 + L) w); [|lia]. cbn [obind].
  unfold shl, shr.
  set (x' := (x * 2 ^ offset) mod 2 ^ w).
  assert (Hx' : 0 <= x' < 2 ^ w) by (apply Z.mod_pos_bound; apply pow2_pos; lia). clearbody x'.
  set (s := w - a - 2 + L) in *. assert (Es : 2 ^ L * 2 ^ w = 2 ^ s * (2 * (2 * 2 ^ a))).
  { replace (2 * (2 * 2 ^ a)) with (2 ^ (a + 2)) by (rewrite Z.pow_add_r by lia; lia).
    rewrite <- !Z.pow_add_r by lia. f_equal. unfold s. lia. }
  set (y := x' / 2 ^ s).
  assert (Hy : 0 <= y /\ 2 * y < 2 ^ w).
  { unfold y. split; [apply Z.div_pos; [lia|apply pow2_pos; lia]|].
    assert (2 * 1 <= 2 ^ s) by (replace 2 with (2 ^ 1) at 1 by reflexivity; rewrite Z.mul_1_r; apply Z.pow_le_mono_r; lia).
    pose proof (Z.mul_div_le x' (2 ^ s)). nia. }
  replace (Z.land y 1) with (y mod 2) by (change 1 with (Z.ones 1); rewrite Z.land_ones by lia; reflexivity).
  assert (Hw2 : 2 <= 2 ^ w) by (replace 2 with (2 ^ 1) at 1 by reflexivity; apply Z.pow_le_mono_r; lia).
  rewrite plain_ok by lia. cbn [obind]. unfold shr_. destruct (Z.ltb_spec 1 w); [|lia]. cbn [obind].
  unfold shl_. destruct (Z.ltb_spec L w); [|lia]. unfold shr, shl. change (2 ^ 1) with 2.
  assert (Er : (y + y mod 2) / 2 = round_div (x' * (2 * 2 ^ a)) (2 ^ L * 2 ^ w)).
  { pose proof (pow2_pos s ltac:(lia)). pose proof (pow2_pos a ltac:(lia)).
    apply round_div_unique; [rewrite Es; nia| |]; rewrite Es;
    assert (Hk : 2 ^ s * y <= x' < 2 ^ s * y + 2 ^ s) by (unfold y; pose proof (Z.mod_pos_bound x' (2 ^ s)); pose proof (Z.div_mod x' (2 ^ s)); lia);
    set (k := (y + y mod 2) / 2); assert (Hk2 : y <= 2 * k <= y + 1) by lia; clearbody k y;
    set (P := 2 ^ s) in *; set (A := 2 ^ a) in *; clearbody P A.
    - assert (k * (2 * P) - x' <= P) by nia. nia.
    - assert (x' - k * (2 * P) < P) by nia. nia. }
  f_equal. rewrite Er. unfold switched. rewrite Z.mul_comm. apply Z.mod_small.
  fold (switched w (2 ^ a) L x').
  pose proof (switched_range w (2 ^ a) L x' ltac:(lia) HL (pow2_pos a Ha)) as Hr.
  assert (Hd : (2 ^ L | 2 * 2 ^ a)).
  { exists (2 ^ (a + 1 - L)). rewrite <- Z.pow_add_r by lia. replace (a + 1 - L + L) with (Z.succ a) by lia. rewrite Z.pow_succ_r; lia. }
  specialize (Hr Hd Hx'). assert (2 * 2 ^ a < 2 ^ w); [|lia].
  replace (2 * 2 ^ a) with (2 ^ (a + 1)) by (rewrite Z.pow_add_r by lia; lia). apply Z.pow_lt_mono_r; lia.
Qed.
Print Assumptions C28_modulus_switch.

(** What [switched] is: in [0, 2N], a multiple of 2^L, at distance at most 2^L/2 of x*2N/2^w (ties up). *)
Theorem C28_rounding : forall w N L x, 0 <= w -> 0 <= L -> 0 < N -> (2 ^ L | 2 * N) -> is_word w x ->
  let y := switched w N L x in
  0 <= y <= 2 * N /\ (2 ^ L | y) /\ - 2 ^ L * 2 ^ w < 2 * (y * 2 ^ w - x * (2 * N)) <= 2 ^ L * 2 ^ w.
Proof.
  intros w N L x Hw HL HN Hd Hx. cbv zeta. split; [apply switched_range; assumption|]. split; [apply Z.divide_factor_l|].
  unfold switched. destruct (round_div_spec (x * (2 * N)) (2 ^ L * 2 ^ w)) as [H1 H2]; [pose proof (pow2_pos w Hw); pose proof (pow2_pos L HL); nia|].
  lia.
Qed.
Print Assumptions C28_rounding.

(** More LUTs than 2N slots: the shift is out of range (checked builds panic). *)
Theorem C28_too_many_luts : forall w a x L, 0 <= a -> a + 2 <= w -> a + 2 <= L -> w - a - 2 + L < 2 ^ 64 -> 0 < w -> is_word w x ->
  pbs_modulus_switch Debug w x (2 ^ a) 0 L = Panic.
Proof.
  intros w a x L Ha Haw HL Hw Hw0 Hx. unfold pbs_modulus_switch, poly_size_log2, usize_bits.
  rewrite Z.log2_up_pow2 by assumption.
  unfold shl_ at 1. destruct (Z.ltb_spec 0 w); [|lia]. cbn [obind].
  rewrite plain_ok by lia. cbn [obind]. rewrite plain_ok by lia. cbn [obind]. rewrite plain_ok by lia. cbn [obind].
  unfold shr_ at 1. destruct (Z.ltb_spec (w - a - 2 + L) w); [lia|]. reflexivity.
Qed.
Print Assumptions C28_too_many_luts.

(** The composed exponent: with binary key bits, decrypting the switched ciphertext gives the phase times
    2N/2^w, up to one half unit for the body and for every mask element, modulo 2N. *)
Lemma dot_switched_bound w N a s : 0 <= w -> Forall (fun x => x = 0 \/ x = 1) s ->
  2 * Z.abs (2 ^ w * dot (map (switched w N 0) a) s - 2 * N * dot a s) <= 2 ^ w * Z.of_nat (length s).
Proof.
  intros Hw. pose proof (pow2_pos w Hw) as HW. revert s. induction a as [|x a IH]; intros [|y s] Hs; cbn [map dot length]; try lia.
  pose proof (Forall_inv Hs) as Hy. apply Forall_inv_tail in Hs. specialize (IH s Hs).
  assert (Hx : 2 * Z.abs (2 ^ w * switched w N 0 x - 2 * N * x) <= 2 ^ w).
  { unfold switched. change (2 ^ 0) with 1. rewrite !Z.mul_1_l. destruct (round_div_spec (x * (2 * N)) (2 ^ w) HW). lia. }
  rewrite Nat2Z.inj_succ.
  set (D1 := dot (map _ a) s) in *. set (D2 := dot a s) in *. set (S1 := switched w N 0 x) in *. set (W := 2 ^ w) in *. clearbody D1 D2 S1 W.
  destruct Hy as [-> | ->]; [rewrite !Z.mul_0_r, !Z.add_0_l; lia|]. rewrite !Z.mul_1_r. lia.
Qed.

Theorem C28_exponent : forall w N s lwe, 0 <= w -> lwe_wf w (length s) lwe -> Forall (fun x => x = 0 \/ x = 1) s ->
  exists t, 2 * Z.abs (2 ^ w * (rot_exponent w N s lwe + 2 * Z.of_nat N * t) - 2 * Z.of_nat N * phase w s lwe)
            <= 2 ^ w * (Z.of_nat (length s) + 1).
Proof.
  intros w N s lwe Hw [Hl Hwd] Hs. pose proof (pow2_pos w Hw) as HW.
  unfold rot_exponent, phase. set (b := last lwe 0). set (a := removelast lwe).
  exists (- ((b - dot a s) / 2 ^ w)).
  pose proof (dot_switched_bound w (Z.of_nat N) a s Hw Hs) as Hd.
  assert (Hx : 2 * Z.abs (2 ^ w * switched w (Z.of_nat N) 0 b - 2 * Z.of_nat N * b) <= 2 ^ w).
  { unfold switched. change (2 ^ 0) with 1. rewrite !Z.mul_1_l. destruct (round_div_spec (b * (2 * Z.of_nat N)) (2 ^ w) HW). lia. }
  rewrite (Z.mod_eq (b - dot a s)) by lia. set (Q := (b - dot a s) / 2 ^ w). clearbody Q.
  set (D1 := dot (map _ a) s) in *. set (D2 := dot a s) in *. set (S1 := switched w (Z.of_nat N) 0 b) in *. set (W := 2 ^ w) in *. clearbody D1 D2 S1 W.
  replace (W * (S1 - D1 + 2 * Z.of_nat N * - Q) - 2 * Z.of_nat N * (b - D2 - W * Q)) with ((W * S1 - 2 * Z.of_nat N * b) - (W * D1 - 2 * Z.of_nat N * D2)) by ring.
  lia.
Qed.
Print Assumptions C28_exponent.

(** ** C29 *)
Lemma rsum_shift N q n d (f : nat -> rp N) : req q (rsum n (fun i => rshift d (f i))) (rshift d (rsum n f)).
Proof.
  induction n as [|n IH]; cbn [rsum]; [intros x; reflexivity|]. rewrite IH, rshift_radd. reflexivity.
Qed.

Lemma gphase_shift N q k key c c' d : length key = k -> length c = S k -> length c' = S k ->
  (forall u, (u <= k)%nat -> req q (R N (nth u c' [])) (rshift d (R N (nth u c [])))) ->
  req q (gphase N key c') (rshift d (gphase N key c)).
Proof.
  intros Hk Hc Hc' H. rewrite (gphase_rsum N q k key c'), (H k (le_n k)) by assumption.
  assert (E : req q (rshift d (gphase N key c))
     (rshift d (rsub (R N (nth k c [])) (rsum k (fun u => rmul (R N (nth u c [])) (R N (nth u key []))))))).
  { intros x. apply (gphase_rsum N q k key c Hk Hc). }
  rewrite E, rshift_rsub, <- rsum_shift.
  rewrite (rsum_ext q k (fun u => rmul (R N (nth u c' [])) (R N (nth u key [])))
             (fun u => rshift d (rmul (R N (nth u c [])) (R N (nth u key []))))); [reflexivity|].
  intros u Hu. rewrite (H u) by lia. apply rshift_rmul_l.
Qed.

Lemma list_rotation_ok w N k c (f : list Z -> list Z) d : glwe_wf w k N c ->
  (forall a, poly_wf w N a -> poly_wf w N (f a) /\ req (2 ^ w) (R N (f a)) (rshift d (R N a))) ->
  glwe_wf w k N (map f c) /\ forall u, (u <= k)%nat -> req (2 ^ w) (R N (nth u (map f c) [])) (rshift d (R N (nth u c []))).
Proof.
  intros [Hl Hw] Hf. split.
  - split; [rewrite map_length; assumption|]. apply Forall_forall. intros x Hx. apply in_map_iff in Hx. destruct Hx as (a & <- & Ha).
    rewrite Forall_forall in Hw. apply Hf. apply Hw. assumption.
  - intros u Hu. rewrite (nth_indep _ [] (f [])) by (rewrite map_length; lia). rewrite map_nth.
    apply Hf. rewrite Forall_forall in Hw. apply Hw. apply nth_In. lia.
Qed.

(** What the loop needs from the cmux of the backend. *)
Definition cmux_selects {K} (w : Z) (N : nat) (key : list (list Z)) (bound : Z)
    (cm : list (list Z) -> list (list Z) -> K -> outcome (list (list Z) * list (list Z))) (G : K) (bit : Z) : Prop :=
  (bit = 0 \/ bit = 1) /\
  forall ct0 ct1, glwe_wf w (length key) N ct0 -> glwe_wf w (length key) N ct1 ->
    exists out diff, cm ct0 ct1 G = Ret (out, diff) /\ glwe_wf w (length key) N out /\
      rbound (2 ^ w) bound (rsub (gphase N key out) (gphase N key (if bit =? 1 then ct1 else ct0))).

Section Rotation.
Context {K : Type} (p : profile) (w a : Z) (N := Z.to_nat (2 ^ a)) (key : list (list Z)) (bound : Z).
Context (cm : list (list Z) -> list (list Z) -> K -> outcome (list (list Z) * list (list Z))).
Hypothesis (Ha : 0 <= a) (Haw : a + 2 < w) (Hw64 : w < 2 ^ 64).
Notation k := (length key).

Let HNa : Z.of_nat N = 2 ^ a.
Proof. unfold N. rewrite Z2Nat.id; [reflexivity|]. pose proof (pow2_pos a Ha). lia. Qed.
Let HN : (0 < N)%nat.
Proof. pose proof (pow2_pos a Ha). lia. Qed.

Lemma switch_ok x : is_word w x -> pbs_modulus_switch p w x (Z.of_nat N) 0 0 = Ret (switched w (Z.of_nat N) 0 x) /\
  0 <= switched w (Z.of_nat N) 0 x.
Proof.
  intros Hx. rewrite HNa. rewrite C28_modulus_switch by (try assumption; lia). change (2 ^ 0) with 1. rewrite Z.mul_1_r.
  rewrite Z.mod_small by exact Hx. split; [reflexivity|].
  pose proof (pow2_pos a Ha). apply (switched_range w (2 ^ a) 0 x); [lia|lia|lia|apply Z.divide_1_l|exact Hx].
Qed.

Lemma rotate_loop_ok mask : forall bsk s lut0 e n0 ct0, Forall (is_word w) mask -> length mask = length s ->
  Forall2 (cmux_selects w N key bound cm) bsk s -> glwe_wf w k N ct0 -> 0 <= n0 ->
  rbound (2 ^ w) (n0 * bound) (rsub (gphase N key ct0) (rshift e lut0)) ->
  exists ct, rotate_loop p w cm N (combine mask bsk) ct0 = Ret ct /\ glwe_wf w k N ct /\
    rbound (2 ^ w) ((n0 + Z.of_nat (nonzeros mask)) * bound)
      (rsub (gphase N key ct) (rshift (e + dot (map (switched w (Z.of_nat N) 0) mask) s) lut0)).
Proof.
  induction mask as [|x mask IH]; intros bsk s lut0 e n0 ct0 Hm Hlen Hb Hc Hn0 Hinv.
  - destruct s; [|discriminate]. inversion Hb. exists ct0. split; [reflexivity|]. split; [exact Hc|].
    cbn [nonzeros filter length map dot]. rewrite !Z.add_0_r. exact Hinv.
  - destruct s as [|si s]; [discriminate|]. destruct bsk as [|G bsk]; [inversion Hb|].
    assert (HG : cmux_selects w N key bound cm G si /\ Forall2 (cmux_selects w N key bound cm) bsk s) by (inversion Hb; split; assumption).
    clear Hb. destruct HG as [[Hsi HG] Hb]. pose proof (Forall_inv Hm) as Hx. apply Forall_inv_tail in Hm. injection Hlen as Hlen.
    cbn [combine rotate_loop]. unfold nonzeros. cbn [filter]. destruct (Z.eqb_spec x 0) as [->|Hx0]; cbn [negb].
    + destruct (IH bsk s lut0 e n0 ct0 Hm Hlen Hb Hc Hn0 Hinv) as (ct & E & W & Hbd). exists ct. split; [exact E|]. split; [exact W|].
      cbn [map dot]. replace (switched w (Z.of_nat N) 0 0) with 0; [rewrite Z.mul_0_l, Z.add_0_l; exact Hbd|].
      unfold switched, round_div. change (2 ^ 0) with 1. rewrite Z.mul_0_l, !Z.mul_1_l, Z.mul_0_r, Z.add_0_l. symmetry. apply Z.div_small. pose proof (pow2_pos w). lia.
    + destruct (switch_ok x Hx) as [-> Hs0]. cbn [obind]. set (d := switched w (Z.of_nat N) 0 x) in *.
      destruct (list_rotation_ok w N k ct0 (fun poly => monic_monomial_mul w poly (Z.to_nat d)) d Hc) as [W1 H1].
      { intros q Hq. destruct (monic_monomial_mul_ok w ltac:(lia) N q (Z.to_nat d) HN Hq) as [A B].
        rewrite Z2Nat.id in B by assumption. split; assumption. }
      fold (list_monic_monomial_mul w ct0 (Z.to_nat d)) in W1, H1.
      destruct (HG ct0 _ Hc W1) as (out & diff & -> & Wo & Hbd). cbn [obind].
      pose proof (gphase_shift N (2 ^ w) k key ct0 _ d eq_refl (proj1 Hc) (proj1 W1) H1) as Hph.
      destruct (IH bsk s lut0 (e + d * si) (n0 + 1) out Hm Hlen Hb Wo ltac:(lia)) as (ct & E & W & Hfin).
      { rewrite Z.mul_add_distr_r, Z.mul_1_l. destruct Hsi as [-> | ->].
        - rewrite Z.mul_0_r, Z.add_0_r. cbn [Z.eqb] in Hbd. eapply rbound_req; [|apply rbound_add; [exact Hinv|exact Hbd]].
          intros y. apply eqm_eq. cbn. ring.
        - rewrite Z.mul_1_r. cbn [Z.eqb] in Hbd. change (1 =? 1) with true in Hbd. cbv iota in Hbd.
          eapply rbound_req; [|apply rbound_add; [apply (rbound_shift (2 ^ w) _ d); exact Hinv|exact Hbd]].
          rewrite Hph, rshift_rsub, rshift_add, (Z.add_comm d e). intros y. apply eqm_eq. cbn. ring. }
      exists ct. split; [exact E|]. split; [exact W|]. cbn [map dot length]. fold d. rewrite Z.add_assoc.
      replace (n0 + Z.of_nat (S (length (filter (fun a0 => negb (a0 =? 0)) mask)))) with (n0 + 1 + Z.of_nat (nonzeros mask)) by (unfold nonzeros; lia).
      exact Hfin.
Qed.

Lemma blind_rotate_ok bsk s lut lwe : lwe_wf w (length s) lwe -> Forall2 (cmux_selects w N key bound cm) bsk s ->
  glwe_wf w k N lut ->
  exists ct, blind_rotate p w cm N bsk lut lwe = Ret ct /\ glwe_wf w k N ct /\
    rbound (2 ^ w) (Z.of_nat (nonzeros (removelast lwe)) * bound)
      (rsub (gphase N key ct) (rshift (- rot_exponent w N s lwe) (gphase N key lut))).
Proof.
  intros [Hl Hwd] Hb Hlut. unfold blind_rotate. destruct (snoc_dec lwe _ Hl) as (m & b & -> & Hm).
  apply Forall_app in Hwd. destruct Hwd as [Hmw Hbw]. apply Forall_inv in Hbw.
  unfold rot_exponent. rewrite removelast_last, last_last.
  destruct (m ++ [b]) eqn:El; [destruct m; discriminate|]. clear El.
  destruct (switch_ok b Hbw) as [-> Hs0]. cbn [obind]. set (d := switched w (Z.of_nat N) 0 b) in *.
  destruct (list_rotation_ok w N k lut (fun poly => unit_monomial_div w poly (Z.to_nat d)) (- d) Hlut) as [W1 H1].
  { intros q Hq. destruct (unit_monomial_div_ok w ltac:(lia) N q (Z.to_nat d) HN Hq) as [A B].
    rewrite Z2Nat.id in B by assumption. split; assumption. }
  fold (list_monic_monomial_div w lut (Z.to_nat d)) in W1, H1.
  pose proof (gphase_shift N (2 ^ w) k key lut _ (- d) eq_refl (proj1 Hlut) (proj1 W1) H1) as Hph.
  destruct (rotate_loop_ok m bsk s (gphase N key lut) (- d) 0 _ Hmw Hm Hb W1 ltac:(lia)) as (ct & E & W & Hbd).
  { rewrite Z.mul_0_l. eapply rbound_req; [|apply rbound_zero]. rewrite Hph. intros y. apply eqm_eq. cbn. ring. }
  exists ct. split; [exact E|]. split; [exact W|]. rewrite Z.add_0_l in Hbd.
  replace (- (d - dot (map (switched w (Z.of_nat N) 0) m) s)) with (- d + dot (map (switched w (Z.of_nat N) 0) m) s) by lia. exact Hbd.
Qed.

Lemma bootstrap_ok bsk s lut lwe out : lwe_wf w (length s) lwe -> Forall2 (cmux_selects w N key bound cm) bsk s ->
  glwe_wf w k N lut -> Forall (fun s => length s = N) key -> length out = S (k * N) ->
  exists l e, bootstrap p w cm N bsk out lwe lut = Ret l /\ lwe_wf w (k * N) l /\
    Z.abs e <= Z.of_nat (nonzeros (removelast lwe)) * bound /\
    phase w (glwe_key_into_lwe_key key) l = (rcoef (gphase N key lut) (rot_exponent w N s lwe) + e) mod 2 ^ w.
Proof.
  intros Hl Hb Hlut Hk Ho. destruct (blind_rotate_ok bsk s lut lwe Hl Hb Hlut) as (ct & E & W & Hbd).
  unfold bootstrap. rewrite E. cbn [obind].
  destruct (C24_extraction_phase w N key ct out 0) as (l & El & Wl & Hp); try assumption; [lia|].
  destruct (Hbd 0) as (e & He & Hab); [lia|]. exists l, e. split; [exact El|]. split; [exact Wl|]. split; [exact Hab|].
  rewrite Hp. cbn [rcoef rsub rshift proj1_sig] in He. change (Z.of_nat 0) with 0.
  change (eqm (2 ^ w) (rcoef (gphase N key ct) 0) (rcoef (gphase N key lut) (rot_exponent w N s lwe) + e)).
  rewrite <- He. apply eqm_eq. replace (0 - - rot_exponent w N s lwe) with (rot_exponent w N s lwe) by lia. unfold rcoef. lia.
Qed.
End Rotation.

Lemma ep_error_mono w b k N l m beta E : m = 0 \/ m = 1 -> ep_error w b k N l m beta E <= ep_error w b k N l 1 beta E.
Proof.
  intros Hm. unfold ep_error.
  assert (0 <= (1 + Z.of_nat k * Z.of_nat N) * 2 ^ (w - b * Z.of_nat l - 1)).
  { apply Z.mul_nonneg_nonneg; [lia|apply Z.pow_nonneg; lia]. }
  destruct Hm as [-> | ->]; lia.
Qed.

Lemma gphase_trivial N key v q : req q (gphase N key (repeat (repeat 0 N) (length key) ++ [v])) (R N v).
Proof.
  rewrite gphase_snoc. rewrite (rdot_rsum q (length key)) by (try reflexivity; apply repeat_length).
  rewrite (rsum_ext q (length key) _ (fun _ => rzero N)); [rewrite rsum_zero; intros x; apply eqm_eq; cbn; ring|].
  intros i Hi. rewrite (nth_indep _ [] (repeat 0 N)) by (rewrite repeat_length; assumption). rewrite nth_repeat. rewrite R_zero. intros x. apply eqm_eq. cbn. apply sumz_zero. intros. ring.
Qed.

Lemma lut_at_ext N v j : (0 < N)%nat -> ext N v j = lut_at N v j.
Proof. intros HN. unfold ext, lut_at. destruct N as [|n] eqn:EN; [lia|]. reflexivity. Qed.

Lemma lut_at_period N v j t : (0 < N)%nat -> lut_at N v (j + 2 * Z.of_nat N * t) = lut_at N v j.
Proof.
  intros HN. rewrite <- !lut_at_ext by assumption. replace (j + 2 * Z.of_nat N * t) with (j + 2 * t * Z.of_nat N) by ring.
  change (rcoef (R N v) (j + 2 * t * Z.of_nat N) = rcoef (R N v) j).
  rewrite rcoef_periods, Z.even_mul. reflexivity.
Qed.

Section Fft.
Context (p : profile) (w a : Z) (N := Z.to_nat (2 ^ a)) (B : backend) (d : decomposer) (key : list (list Z)) (beta : Z) (T : nat) (E : Z).
Hypothesis (Hd : dec_wf w d) (Ha : 0 <= a) (Haw : a + 2 < w) (Hkey : binary_key N key) (Hbeta : 0 <= beta)
  (HB : backend_ok w N (base_log d) T E B) (HE : 0 <= E) (HT : (level_count d * S (length key) <= T)%nat).
Notation k := (length key).
Notation bound := (ep_error w (base_log d) k N (level_count d) 1 beta E).

Lemma bsk_selects bsk s : Forall (fun x => x = 0 \/ x = 1) s -> bsk_encrypts w (base_log d) N (level_count d) key beta bsk s ->
  Forall2 (cmux_selects w N key bound (cmux p w B N (base_log d))) (bsk_forward_fourier B bsk) s.
Proof.
  intros Hs Hb. unfold bsk_forward_fourier.
  assert (HN : (0 < N)%nat) by (pose proof (pow2_pos a Ha); unfold N; lia).
  induction Hb as [|G si bsk s (HG & noise & Henc & Hn) Hb IH]; [constructor|].
  pose proof (Forall_inv Hs) as Hsi. apply Forall_inv_tail in Hs. cbn [map]. constructor; [|apply IH; assumption].
  split; [exact Hsi|]. intros ct0 ct1 H0 H1.
  destruct (C27_cmux p w B N k d key (si =? 1) noise beta T E ct0 ct1 G) as (out & diff & E1 & W1 & W2 & Hbd); try assumption; try reflexivity.
  - destruct Hsi as [-> | ->]; exact Henc.
  - exists out, diff. split; [exact E1|]. split; [exact W1|]. eapply rbound_le; [|exact Hbd]. apply ep_error_mono. destruct Hsi as [-> | ->]; auto.
Qed.

Theorem C29_blind_rotation : forall bsk s lut lwe, Forall (fun x => x = 0 \/ x = 1) s ->
  bsk_encrypts w (base_log d) N (level_count d) key beta bsk s -> lwe_wf w (length s) lwe -> glwe_wf w k N lut ->
  exists ct, fft_blind_rotate p w B N (base_log d) (bsk_forward_fourier B bsk) lut lwe = Ret ct /\ glwe_wf w k N ct /\
    rbound (2 ^ w) (Z.of_nat (nonzeros (removelast lwe)) * bound)
      (rsub (gphase N key ct) (rmul (rmono N (- rot_exponent w N s lwe)) (gphase N key lut))).
Proof.
  intros bsk s lut lwe Hs Hb Hl Hlut.
  destruct (blind_rotate_ok p w a key bound (cmux p w B N (base_log d)) Ha Haw ltac:(apply Hd)
     _ s lut lwe Hl (bsk_selects bsk s Hs Hb) Hlut) as (ct & E1 & W & Hbd).
  exists ct. split; [exact E1|]. split; [exact W|]. eapply rbound_req; [|exact Hbd]. rewrite rmono_mul. reflexivity.
Qed.

Theorem C29_bootstrap : forall bsk s lut lwe out, Forall (fun x => x = 0 \/ x = 1) s ->
  bsk_encrypts w (base_log d) N (level_count d) key beta bsk s -> lwe_wf w (length s) lwe -> glwe_wf w k N lut ->
  length out = S (k * N) ->
  exists l e, fft_bootstrap p w B N (base_log d) (bsk_forward_fourier B bsk) out lwe lut = Ret l /\ lwe_wf w (k * N) l /\
    Z.abs e <= Z.of_nat (nonzeros (removelast lwe)) * bound /\
    phase w (glwe_key_into_lwe_key key) l =
      (rcoef (rmul (rmono N (- rot_exponent w N s lwe)) (gphase N key lut)) 0 + e) mod 2 ^ w.
Proof.
  intros bsk s lut lwe out Hs Hb Hl Hlut Ho.
  destruct (bootstrap_ok p w a key bound (cmux p w B N (base_log d)) Ha Haw ltac:(apply Hd)
     _ s lut lwe out Hl (bsk_selects bsk s Hs Hb) Hlut) as (l & e & E1 & W & He & Hp); [|exact Ho|].
  - eapply Forall_impl; [|exact Hkey]. intros x Hx. apply Hx.
  - exists l, e. split; [exact E1|]. split; [exact W|]. split; [exact He|]. rewrite Hp.
    change (eqm (2 ^ w) (rcoef (gphase N key lut) (rot_exponent w N s lwe) + e)
              (rcoef (rmul (rmono N (- rot_exponent w N s lwe)) (gphase N key lut)) 0 + e)).
    rewrite (rmono_mul (2 ^ w) (- rot_exponent w N s lwe) (gphase N key lut) 0).
    cbn [rcoef rshift proj1_sig]. apply eqm_eq. f_equal. unfold rcoef. f_equal. lia.
Qed.

(** The LUT is a plaintext polynomial [v] in a trivial ciphertext: the output decrypts to the entry at the
    rotation exponent, and so to [val] as soon as all the entries at distance at most (n+1)/2 of the decryption of the
    input, scaled to [0, 2N), are [val]. *)
Theorem C29_lookup : forall bsk s v lwe out, Forall (fun x => x = 0 \/ x = 1) s ->
  bsk_encrypts w (base_log d) N (level_count d) key beta bsk s -> lwe_wf w (length s) lwe -> poly_wf w N v ->
  length out = S (k * N) ->
  exists l e, fft_bootstrap p w B N (base_log d) (bsk_forward_fourier B bsk) out lwe (repeat (repeat 0 N) k ++ [v]) = Ret l /\
    lwe_wf w (k * N) l /\ Z.abs e <= Z.of_nat (nonzeros (removelast lwe)) * bound /\
    phase w (glwe_key_into_lwe_key key) l = (lut_at N v (rot_exponent w N s lwe) + e) mod 2 ^ w /\
    (forall val, (forall j, 2 * Z.abs (2 ^ w * j - 2 * Z.of_nat N * phase w s lwe) <= 2 ^ w * (Z.of_nat (length s) + 1) -> lut_at N v j = val) ->
       phase w (glwe_key_into_lwe_key key) l = (val + e) mod 2 ^ w).
Proof.
  intros bsk s v lwe out Hs Hb Hl Hv Ho.
  assert (HN : (0 < N)%nat) by (pose proof (pow2_pos a Ha); unfold N; lia).
  assert (Hlut : glwe_wf w k N (repeat (repeat 0 N) k ++ [v])).
  { apply glwe_wf_snoc. split; [apply repeat_length|]. split; [|exact Hv]. apply Forall_forall. intros x Hx. apply repeat_spec in Hx. subst x.
    apply zero_poly_wf. lia. }
  destruct (bootstrap_ok p w a key bound (cmux p w B N (base_log d)) Ha Haw ltac:(apply Hd)
     _ s _ lwe out Hl (bsk_selects bsk s Hs Hb) Hlut) as (l & e & E1 & W & He & Hp); [|exact Ho|].
  { eapply Forall_impl; [|exact Hkey]. intros x Hx. apply Hx. }
  assert (Hp' : phase w (glwe_key_into_lwe_key key) l = (lut_at N v (rot_exponent w N s lwe) + e) mod 2 ^ w).
  { rewrite Hp, <- lut_at_ext by exact HN. change (eqm (2 ^ w) (rcoef (gphase N key (repeat (repeat 0 N) k ++ [v])) (rot_exponent w N s lwe) + e)
      (rcoef (R N v) (rot_exponent w N s lwe) + e)).
    rewrite (gphase_trivial N key v (2 ^ w) (rot_exponent w N s lwe)). reflexivity. }
  exists l, e. split; [exact E1|]. split; [exact W|]. split; [exact He|]. split; [exact Hp'|].
  intros val Hval. rewrite Hp'. destruct (C28_exponent w N s lwe) as (t & Ht); [lia|exact Hl|exact Hs|].
  rewrite <- (lut_at_period N v _ t HN), (Hval _ Ht). reflexivity.
Qed.
End Fft.
Print Assumptions C29_blind_rotation.
Print Assumptions C29_bootstrap.
Print Assumptions C29_lookup.

(** The bootstrap keys made by key generation meet the hypothesis of the theorems above, with the bound of the sampler. *)
Theorem C29_generated_key : forall p w gauss N key b l output s g bsk g' beta,
  let k := length key in let n := length s in
  0 < w -> w mod 8 = 0 -> w < 2 ^ 64 -> (0 < N)%nat -> (0 < k)%nat -> (0 < l)%nat -> (0 < n)%nat ->
  gauss_ok w gauss -> gauss_small w beta gauss -> egen_ok g -> gkey_ok p N key ->
  0 < b -> b * Z.of_nat l <= w -> length output = n -> Forall (ggsw_wf w k N l) output ->
  Z.of_nat n * (Z.of_nat l * ((Z.of_nat k + 1) * (Z.of_nat k * (Z.of_nat N * (w / 8))))) < 2 ^ 64 ->
  Z.of_nat n * (Z.of_nat l * ((Z.of_nat k + 1) * (Z.of_nat N * 256))) < 2 ^ 64 ->
  fill_with_new_bootstrap_key p w gauss key N l b output s g = Ret (bsk, g') ->
  bsk_encrypts w b N l key beta bsk s.
Proof.
  intros p w gauss N key b l output s g bsk g' beta k n Hw Hm8 Hw64 HN Hk0 Hl0 Hn0 Hga Hsm Hg Hk Hb Hbl Ln Hout S1 S2 E.
  apply C25_bootstrap_key in E; try assumption. destruct E as [Lb H].
  apply Forall2_nth_error_intro; [exact Lb|]. intros t G si HG Hs. destruct (H t G si HG Hs) as (noise & W & Henc & Hn).
  split; [exact W|]. exists noise. split; [exact Henc|]. intros j i Hj Hi. destruct (Hn (S j) i) as (ng & En); [lia|exact Hi|].
  apply (gaussian_tensor_small w beta gauss Hsm) in En. destruct En. apply small_rbound; [lia|assumption|assumption].
Qed.
Print Assumptions C29_generated_key.

(** A concrete bootstrap with the exact backend: w = 32, N = 4, k = 1, base 2^6, three levels, LWE key (1, 0, 1).
    The input decrypts to 0x30000010, that is position 1.5 out of 8 with noise. *)
Definition demo_bsk : list (list (list (list (list Z)))) :=
  match fill_with_new_bootstrap_key Debug 32 demo_gauss_word [[1; 0; 1; 1]] 4 3 6 (repeat (ggsw_allocate 4 2 3) 3) [1; 0; 1]
          (EG (BG (fun i => (7 * i + 3) mod 256) 0 10000) (BG (fun i => (i * i + i / 512 + 1) mod 256) 0 100000)) with
  | Ret (b, _) => b | Panic => [] end.
Definition demo_lwe : list Z := [0x12345678; 0; 0x70000000; (0x12345678 + 0x70000000 + 0x30000010) mod 2 ^ 32].
Definition demo_lut : list Z := [2 ^ 28; 2 * 2 ^ 28; 3 * 2 ^ 28; 4 * 2 ^ 28].

Lemma demo_lwe_wf : lwe_wf 32 3 demo_lwe.
Proof. split; [reflexivity|]. unfold demo_lwe, is_word. repeat (apply Forall_cons; [lia|]). apply Forall_nil. Qed.
Example C28_case : pbs_modulus_switch Debug 32 0x30000010 4 0 0 = Ret 2 /\ pbs_modulus_switch Debug 32 0xffffffff 4 0 0 = Ret 8 /\
  pbs_modulus_switch Debug 64 (2 ^ 63 + 2 ^ 55) 256 0 1 = Ret 258 /\ pbs_modulus_switch Debug 32 0xc1000000 256 1 0 = Ret 260 /\
  lwe_wf 32 3 demo_lwe /\ phase 32 [1; 0; 1] demo_lwe = 0x30000010 /\ rot_exponent 32 4 [1; 0; 1] demo_lwe = 1.
Proof.
  split; [vm_compute; reflexivity|]. split; [vm_compute; reflexivity|]. split; [vm_compute; reflexivity|].
  split; [vm_compute; reflexivity|]. split; [exact demo_lwe_wf|]. split; vm_compute; reflexivity.
Qed.

Lemma demo_gauss_word_small w : 9 <= w -> gauss_small w 255 demo_gauss_word.
Proof.
  intros Hw l a b. unfold demo_gauss_word. destruct (demo_gauss l) as [[x y]|]; [|discriminate]. intros H. injection H as <- <-.
  pose proof (Z.pow_le_mono_r 2 8 (w - 1) ltac:(lia) ltac:(lia)). change (2 ^ 8) with 256 in *.
  pose proof (Z.mod_pos_bound x 256 ltac:(lia)). pose proof (Z.mod_pos_bound y 256 ltac:(lia)).
  set (u := x mod 256) in *. set (v := y mod 256) in *. clearbody u v. unfold sgn.
  destruct (Z.ltb_spec u (2 ^ (w - 1))); [|lia]. destruct (Z.ltb_spec v (2 ^ (w - 1))); lia.
Qed.

Example C29_case :
  let key := [[1; 0; 1; 1]] in let B := exact_backend 32 in
  dec_wf 32 (Dec 6 3) /\ binary_key (Z.to_nat (2 ^ 2)) key /\ backend_ok 32 4 6 6 0 B /\
  bsk_encrypts 32 6 4 3 key 255 demo_bsk [1; 0; 1] /\ lwe_wf 32 3 demo_lwe /\ poly_wf 32 4 demo_lut /\
  match fft_bootstrap Debug 32 B 4 6 (bsk_forward_fourier B demo_bsk) (repeat 0 5) demo_lwe [repeat 0 4; demo_lut] with
  | Ret l => phase 32 (glwe_key_into_lwe_key key) l = lut_at 4 demo_lut 1 - 3446
  | Panic => False
  end.
Proof.
  cbv zeta. split; [unfold dec_wf; cbn [base_log level_count]; lia|].
  split; [apply Forall_cons; [split; [reflexivity|repeat (apply Forall_cons; [lia|]); apply Forall_nil]|apply Forall_nil]|].
  split; [apply C26_exact_backend_ok; lia|].
  split.
  { unfold demo_bsk. set (g := EG _ _).
    destruct (fill_with_new_bootstrap_key Debug 32 demo_gauss_word [[1; 0; 1; 1]] 4 3 6 (repeat (ggsw_allocate 4 2 3) 3) [1; 0; 1] g) as [[b g']|] eqn:E.
    - eapply (C29_generated_key Debug 32 demo_gauss_word 4 [[1; 0; 1; 1]] 6 3 (repeat (ggsw_allocate 4 2 3) 3) [1; 0; 1] g b g');
        try reflexivity; try (cbn; lia); try exact E.
      + apply demo_gauss_word_ok; lia.
      + apply demo_gauss_word_small; lia.
      + intros q. cbn. lia.
      + split; [repeat constructor|]. right. repeat (constructor; [bin|]). constructor.
      + apply Forall_forall. intros x Hx. apply repeat_spec in Hx. subst x. apply ggsw_zero_wf. lia.
    - exfalso. clear - E. apply (f_equal (fun o => match o with Ret _ => true | Panic => false end)) in E. vm_compute in E. discriminate. }
  split; [exact demo_lwe_wf|]. split; [split; [reflexivity|]; unfold demo_lut, is_word; repeat (apply Forall_cons; [lia|]); apply Forall_nil|].
  vm_compute. reflexivity.
Qed.
