(** * Property C57: circuits of table lookups evaluated on encrypted wires *)
From Verif Require Import Base Word WordFacts DecompModel DecompProofs NegaRing PolySpec PolyModel PolyProofs RingSum RandomModel CsprngFamily NoiseBounds
  LweSpec LweModel LweProofs LweTheorems LweVectorTheorems GlweSpec GlweModel GlweProofs GlweTheorems GgswSpec GgswModel GgswTheorems
  KeyswitchSpec KeyswitchModel KeyswitchProofs KeyswitchTheorems ExtProdModel ExtProdSpec ExtProdProofs ExtProdTheorems BootstrapSpec BootstrapModel BootstrapTheorems
  WopBitsTheorems NttSpec NttModel NttProofs NttTheorems NttExtProdProofs NttExtProdTheorems CircuitSpec CircuitModel.

(** ** The table in the accumulator *)
Lemma lookup_period t table x c : 0 <= t -> lookup t table (x + c * 2 ^ (t + 1)) = lookup t table x.
Proof. intros Ht. unfold lookup. rewrite Z_mod_plus_full. reflexivity. Qed.
Lemma lookup_half t table x : 0 <= t -> lookup t table (x + 2 ^ t) = - lookup t table x.
Proof.
  intros Ht. unfold lookup. rewrite Z.pow_add_r by lia. change (2 ^ 1) with 2. pose proof (pow2_pos t Ht) as P. set (P2 := 2 ^ t) in *. clearbody P2.
  pose proof (Z.mod_pos_bound x (P2 * 2) ltac:(lia)) as B. pose proof (Z.div_mod x (P2 * 2) ltac:(lia)) as D. set (y := x mod (P2 * 2)) in *. set (c := x / (P2 * 2)) in *.
  destruct (Z.ltb_spec y P2).
  - replace ((x + P2) mod (P2 * 2)) with (y + P2) by (apply (Z.mod_unique_pos _ _ c); lia). destruct (Z.ltb_spec (y + P2) P2); [lia|]. f_equal. f_equal. lia.
  - replace ((x + P2) mod (P2 * 2)) with (y - P2) by (apply (Z.mod_unique_pos _ _ (c + 1)); lia). destruct (Z.ltb_spec (y - P2) P2); [|lia]. rewrite Z.opp_involutive. reflexivity.
Qed.
Lemma lookup_turns t table x c : 0 <= t -> lookup t table (x + c * 2 ^ t) = if Z.even c then lookup t table x else - lookup t table x.
Proof.
  intros Ht. destruct (Z.even c) eqn:Ec.
  - apply Z.even_spec in Ec. destruct Ec as [e ->]. replace (x + 2 * e * 2 ^ t) with (x + e * 2 ^ (t + 1)) by (rewrite Z.pow_add_r by lia; change (2 ^ 1) with 2; ring). apply lookup_period, Ht.
  - assert (Ho : Z.odd c = true) by (rewrite <- Z.negb_even, Ec; reflexivity). apply Z.odd_spec in Ho. destruct Ho as [e ->].
    replace (x + (2 * e + 1) * 2 ^ t) with ((x + 2 ^ t) + e * 2 ^ (t + 1)) by (rewrite Z.pow_add_r by lia; change (2 ^ 1) with 2; ring). rewrite lookup_period, lookup_half by exact Ht. reflexivity.
Qed.
Lemma encode_eqm w t x : eqm (2 ^ w) (encode w t x) (2 ^ (w - 1 - t) * x).
Proof. unfold encode. apply eqm_mod. Qed.
Lemma accumulator_length w N t table : length (accumulator w N t table) = N.
Proof. unfold accumulator. rewrite map_length, seq_length. reflexivity. Qed.
Lemma accumulator_wf w N t table : 0 <= w -> poly_wf w N (accumulator w N t table).
Proof.
  intros Hw. split; [apply accumulator_length|]. apply Forall_forall. intros x Hx. unfold accumulator in Hx. apply in_map_iff in Hx. destruct Hx as (i & <- & _). unfold encode. apply Z.mod_pos_bound, pow2_pos, Hw.
Qed.
(** Reading the accumulator less than half a box away from the position of [x] gives the entry of [x]. *)
Lemma accumulator_read w N t h table x d : 0 <= w -> 0 <= t -> 0 < h -> Z.of_nat N = 2 ^ t * (2 * h) -> - h <= d < h ->
  eqm (2 ^ w) (lut_at N (accumulator w N t table) (x * (2 * h) + d)) (2 ^ (w - 1 - t) * lookup t table x).
Proof.
  intros Hw Ht Hh HN Hd. pose proof (pow2_pos t Ht) as P. set (j := x * (2 * h) + d). set (NZ := Z.of_nat N) in *.
  assert (Hbox : NZ / 2 ^ t = 2 * h) by (rewrite HN, Z.mul_comm; apply Z.div_mul; lia). assert (PN : 0 < NZ) by nia.
  pose proof (Z.mod_pos_bound j NZ PN) as B. pose proof (Z.div_mod j NZ ltac:(lia)) as D. set (q := j / NZ) in *. set (r := j mod NZ) in *.
  assert (C : coef (accumulator w N t table) r = encode w t (lookup t table ((r + h) / (2 * h)))).
  { unfold coef, accumulator. cbv zeta. fold NZ. rewrite Hbox. replace (2 * h / 2) with h by (rewrite Z.mul_comm, Z.div_mul; lia).
    set (f := fun i => encode w t (lookup t table ((Z.of_nat i + h) / (2 * h)))). rewrite (nth_indep _ 0 (f O)) by (rewrite map_length, seq_length; lia).
    rewrite (map_nth f), seq_nth by lia. unfold f. cbn [Nat.add]. rewrite Z2Nat.id by lia. reflexivity. }
  assert (X : x = (r + h) / (2 * h) + q * 2 ^ t).
  { rewrite <- Z.div_add by lia. replace (r + h + q * 2 ^ t * (2 * h)) with (j + h) by (rewrite D, HN; ring). unfold j. apply (Z.div_unique_pos _ _ _ (d + h)); lia. }
  unfold lut_at. fold NZ q r. rewrite C. rewrite X at 1. rewrite lookup_turns by exact Ht. destruct (Z.even q); [apply encode_eqm|].
  rewrite encode_eqm. apply eqm_eq. ring.
Qed.

(** ** Encrypted wires *)
(** The ciphertext [c] decrypts to the message [x], in the top bits, with an error of at most [eps]. *)
Definition carries (w t : Z) (key : list Z) (eps : Z) (c : list Z) (x : Z) : Prop :=
  lwe_wf w (length key) c /\ exists e, Z.abs e <= eps /\ eqm (2 ^ w) (phase w key c) (2 ^ (w - 1 - t) * x + e).

Lemma norm_nonneg ws : 0 <= norm ws. Proof. induction ws; cbn [norm]; lia. Qed.
Lemma wsum_carries w t key eps : 0 <= w -> 0 <= eps -> forall ws cs xs, Forall2 (carries w t key eps) cs xs -> length ws = length cs ->
  exists e, Z.abs e <= norm ws * eps /\ eqm (2 ^ w) (wsum (map (fun x => x mod 2 ^ w) ws) (map (phase w key) cs)) (2 ^ (w - 1 - t) * wsum ws xs + e).
Proof.
  intros Hw He. induction ws as [|a ws IH]; intros cs xs H L; destruct H as [|c x cs xs (_ & e1 & B1 & E1) H]; try discriminate.
  - exists 0. split; [cbn; lia|]. cbn. apply eqm_eq. ring.
  - destruct (IH cs xs H ltac:(cbn in L; lia)) as (e2 & B2 & E2). exists (a * e1 + e2). split.
    + cbn [norm]. eapply Z.le_trans; [apply Z.abs_triangle|]. rewrite Z.abs_mul. pose proof (Z.mul_le_mono_nonneg_l _ _ (Z.abs a) ltac:(lia) B1). lia.
    + cbn [wsum map]. rewrite E2, E1. rewrite (eqm_mod (2 ^ w) a). apply eqm_eq. ring.
Qed.

(** A trivial encryption, as a value *)
Lemma trivial_value p k m : glwe_new_trivial_encryption p (S k) m = Ret (repeat (repeat 0 (length m)) k ++ [m]).
Proof.
  unfold glwe_new_trivial_encryption, glwe_fill_with_trivial_encryption, glwe_allocate.
  replace (repeat (repeat 0 (length m)) (S k)) with (repeat (repeat 0 (length m)) k ++ [repeat 0 (length m)]) by (rewrite <- repeat_cons; reflexivity).
  rewrite glwe_split_snoc. cbn [obind]. rewrite ck_dim_eq_ok by (rewrite repeat_length; reflexivity). cbn [obind].
  rewrite zip_overwrite by (rewrite repeat_length; reflexivity). f_equal. f_equal. induction k as [|k IH]; [reflexivity|]. cbn [repeat map]. rewrite IH.
  f_equal. clear. induction (length m) as [|N IH]; [reflexivity|]. cbn [repeat map]. rewrite IH. reflexivity.
Qed.

Lemma Forall2_len {A B} (P : A -> B -> Prop) l m : Forall2 P l m -> length l = length m.
Proof. intros H. induction H; cbn [length]; congruence. Qed.

(** ** One gate, any number of gates *)
Section Evaluation.
Context (p : profile) (w t : Z) (n k N : nat) (kb : Z) (kl : nat) (ksk : list (list (list Z))) {St : Type} (boot : St -> list Z -> list (list Z) -> outcome (list Z * St)).
Context (big s : list Z) (noise : nat -> nat -> Z) (beta eps W h : Z) (Inv : St -> Prop).
Notation kse := (Z.of_nat (length big) * 2 ^ (w - kb * Z.of_nat kl - 1) + Z.of_nat (length big) * Z.of_nat kl * 2 ^ (kb - 1) * beta).
Hypothesis (Hw : 0 <= w) (Ht : 0 <= t) (Htw : t + 1 < w) (Hh : 0 < h) (HN : Z.of_nat N = 2 ^ t * (2 * h)) (Hbig : length big = (k * N)%nat) (Hn : length s = n)
  (Hbin : Forall (fun x => x = 0 \/ x = 1) s) (Hbb : binary big) (Hd : dec_wf w (Dec kb kl)) (Hksk : ksk_encrypts w kb kl s big noise ksk)
  (Hnoise : forall i j, (i < length big)%nat -> (j < kl)%nat -> Z.abs (noise i j) <= beta) (Heps : 0 <= eps) (HW : 0 <= W).
Hypothesis (Hbudget : 2 ^ w * (Z.of_nat n + 1) + 4 * Z.of_nat N * (W * eps + kse) < 2 ^ w * (2 * h)).
Hypothesis (Hboot : forall st c v, Inv st -> lwe_wf w n c -> poly_wf w N v ->
  exists lo st' e, boot st c (repeat (repeat 0 N) k ++ [v]) = Ret (lo, st') /\ Inv st' /\ lwe_wf w (k * N) lo /\ Z.abs e <= eps /\
    phase w big lo = (lut_at N v (rot_exponent w N s c) + e) mod 2 ^ w).

Lemma get_wires wires values : Forall2 (carries w t big eps) wires values -> forall is, Forall (fun i => (i < length values)%nat) is ->
  exists cs, omap (wire wires) is = Ret cs /\ Forall2 (carries w t big eps) cs (map (fun i => nth i values 0) is).
Proof.
  intros H is. induction is as [|i is IH]; intros F; [exists []; split; [reflexivity|constructor]|].
  destruct (IH (Forall_inv_tail F)) as (cs & E & C). pose proof (Forall_inv F) as Hi. cbv beta in Hi. cbn [omap map]. unfold wire at 1.
  pose proof (Forall2_len _ _ _ H) as L. destruct (nth_error wires i) as [c|] eqn:Ec; [|apply nth_error_None in Ec; lia]. cbn [obind]. rewrite E. cbn [obind].
  exists (c :: cs). split; [reflexivity|]. constructor; [|exact C].
  clear - H Ec Hi. revert i Ec Hi. induction H as [|c0 x0 wires values H0 H IH]; intros [|i] Ec Hi; try discriminate; cbn in *; [injection Ec as <-; exact H0|apply IH; [exact Ec|lia]].
Qed.

Lemma gate_ok wires values st g : Forall2 (carries w t big eps) wires values -> Inv st ->
  Forall (fun i => (i < length values)%nat) (g_inputs g) -> length (g_weights g) = length (g_inputs g) -> norm (g_weights g) <= W ->
  exists c st', run_gate p w t n k N kb kl ksk boot wires st g = Ret (c, st') /\ Inv st' /\ carries w t big eps c (gate_value t values g).
Proof.
  intros HF HI Hin Hlen Hnorm. unfold run_gate. destruct (get_wires wires values HF _ Hin) as (cs & E1 & HC). rewrite E1. cbn [obind].
  assert (Lcs : length (g_weights g) = length cs) by (pose proof (Forall2_len _ _ _ HC) as L; rewrite map_length in L; congruence).
  assert (Fcs : Forall (fun c => length c = S (k * N)) cs) by (clear - HC Hbig; rewrite <- Hbig; induction HC as [|c x cs xs H _ IH]; constructor; [apply H|exact IH]).
  destruct (C19_affine p w (k * N) big cs (map (fun x => x mod 2 ^ w) (g_weights g)) (encode w t (g_bias g)) Hw Fcs) as (c1 & E2 & W1 & P1). rewrite E2. cbn [obind].
  destruct (wsum_carries w t big eps Hw Heps (g_weights g) cs _ HC Lcs) as (e1 & B1 & X1).
  rewrite <- Hbig in W1. destruct (C30_error_bound p w kb kl s big noise beta ksk (repeat 0 (S n)) c1 Hd Hksk Hbb Hnoise W1) as (c2 & E3 & W2 & D2); [rewrite repeat_length; congruence|].
  rewrite Hn in E3, W2. rewrite E3. cbn [obind]. rewrite trivial_value, accumulator_length. cbn [obind].
  destruct (torus_dist_witness w _ _ _ Hw D2) as (e2 & B2 & X2).
  destruct (Hboot st c2 (accumulator w N t (g_table g)) HI W2 (accumulator_wf w N t _ Hw)) as (c3 & st' & e3 & E4 & HI' & W3 & B3 & P3).
  exists c3, st'. split; [exact E4|]. split; [exact HI'|]. rewrite <- Hbig in W3. split; [exact W3|]. exists e3. split; [exact B3|]. rewrite P3, eqm_mod.
  set (X := wsum (g_weights g) (map (fun i => nth i values 0) (g_inputs g)) + g_bias g).
  assert (X3 : eqm (2 ^ w) (phase w s c2) (2 ^ (w - 1 - t) * X + (e1 + e2))) by (rewrite X2, P1, eqm_mod, X1, encode_eqm; apply eqm_eq; unfold X; ring).
  assert (W2' : lwe_wf w (length s) c2) by (rewrite Hn; exact W2). destruct (C28_exponent w N s c2 Hw W2' Hbin) as (c & HT).
  assert (E : exists j, Z.abs j < h /\ exists m, rot_exponent w N s c2 = X * (2 * h) + j + 2 * Z.of_nat N * m).
  { apply eqm_divide in X3. destruct X3 as [m X3]. assert (X4 : phase w s c2 = 2 ^ (w - 1 - t) * X + (e1 + e2) + 2 ^ w * m) by (clear - X3; lia). rewrite Hn in HT. rewrite X4 in HT. clear X3 X4. set (r := rot_exponent w N s c2) in *.
    exists (r + 2 * Z.of_nat N * (c - m) - X * (2 * h)). split; [|exists (m - c); ring].
    assert (B12 : Z.abs (e1 + e2) <= W * eps + kse) by (eapply Z.le_trans; [apply Z.abs_triangle|]; pose proof (Z.mul_le_mono_nonneg_r _ _ eps Heps Hnorm); lia).
    assert (Q : 2 * Z.of_nat N * 2 ^ (w - 1 - t) = 2 ^ w * (2 * h)).
    { rewrite HN. replace w with ((w - 1 - t) + (t + 1)) at 2 by lia. rewrite Z.pow_add_r, (Z.pow_add_r 2 t 1) by lia. change (2 ^ 1) with 2. ring. }
    pose proof (pow2_pos w Hw) as PW. set (PW2 := 2 ^ w) in *. set (D := 2 ^ (w - 1 - t)) in *. set (K := kse) in *. set (NZ := Z.of_nat N) in *.
    assert (HT' : 2 * Z.abs (PW2 * (r + 2 * NZ * (c - m) - X * (2 * h)) - 2 * NZ * (e1 + e2)) <= PW2 * (Z.of_nat n + 1)).
    { replace (PW2 * (r + 2 * NZ * (c - m) - X * (2 * h)) - 2 * NZ * (e1 + e2)) with (PW2 * (r + 2 * NZ * c) - 2 * NZ * (D * X + (e1 + e2) + PW2 * m)); [exact HT|]. 
      transitivity (PW2 * (r + 2 * NZ * (c - m)) - (2 * NZ * D) * X - 2 * NZ * (e1 + e2)); [ring|]. rewrite Q. ring. }
    set (y := r + 2 * NZ * (c - m) - X * (2 * h)) in *. assert (NZ0 : 0 <= NZ) by (unfold NZ; lia). clearbody PW2 D K NZ y.
    assert (A : PW2 * Z.abs y <= Z.abs (PW2 * y - 2 * NZ * (e1 + e2)) + 2 * NZ * Z.abs (e1 + e2)).
    { replace (PW2 * Z.abs y) with (Z.abs (PW2 * y)) by (rewrite Z.abs_mul, (Z.abs_eq PW2) by lia; reflexivity). replace (2 * NZ * Z.abs (e1 + e2)) with (Z.abs (2 * NZ * (e1 + e2))) by (rewrite Z.abs_mul, (Z.abs_eq (2 * NZ)) by lia; reflexivity).
      replace (PW2 * y) with ((PW2 * y - 2 * NZ * (e1 + e2)) + 2 * NZ * (e1 + e2)) at 1 by ring. apply Z.abs_triangle. }
    pose proof (Z.mul_le_mono_nonneg_l _ _ (4 * NZ) ltac:(lia) B12) as M. apply (Z.mul_lt_mono_pos_l PW2); [exact PW|]. clear - A M HT' Hbudget. lia. }
  destruct E as (j & Hj & m & Er). assert (HN0 : (0 < N)%nat) by (pose proof (pow2_pos t Ht) as P; clear - HN Hh P; nia). assert (Hj' : - h <= j < h) by (clear - Hj; lia).
  rewrite Er, (lut_at_period N _ _ m HN0), (accumulator_read w N t h (g_table g) X j Hw Ht Hh HN Hj'). unfold gate_value. fold X.
  set (L := lookup t (g_table g) X). assert (M : L = 2 ^ (t + 1) * (L / 2 ^ (t + 1)) + L mod 2 ^ (t + 1)) by (apply Z.div_mod; pose proof (pow2_pos (t + 1) ltac:(lia)); lia).
  rewrite M at 1. apply (eqm_k _ _ _ (L / 2 ^ (t + 1))). replace w with ((w - 1 - t) + (t + 1)) at 3 by lia. rewrite (Z.pow_add_r 2 (w - 1 - t)) by lia. ring.
Qed.

Lemma circuit_ok circuit : forall wires values st, Forall2 (carries w t big eps) wires values -> Inv st -> circuit_wf W (length values) circuit ->
  exists wires' st', run_circuit p w t n k N kb kl ksk boot circuit wires st = Ret (wires', st') /\ Inv st' /\
    Forall2 (carries w t big eps) wires' (clear_run t circuit values).
Proof.
  induction circuit as [|g rest IH]; intros wires values st HF HI HC; [exists wires, st; repeat split; assumption|].
  cbn [circuit_wf] in HC. destruct HC as (H1 & H2 & H3 & H4). destruct (gate_ok wires values st g HF HI H1 H2 H3) as (c & st1 & E & HI1 & Hc).
  cbn [run_circuit clear_run]. rewrite E. cbn [obind]. apply IH; [apply Forall2_app; [exact HF|constructor; [exact Hc|constructor]]|exact HI1|].
  rewrite app_length. cbn [length]. rewrite Nat.add_1_r. exact H4.
Qed.
End Evaluation.

(** ** Encryption of the inputs, decryption of the wires *)
Lemma phases_of_list p w key cs xs : 0 <= w -> safe_key p key -> Forall (lwe_wf w (length key)) cs -> decrypt_lwe_list p w key cs = Ret xs -> xs = map (phase w key) cs.
Proof. intros Hw Hk Hc E. rewrite (decrypt_list_phases p w key Hw Hk cs Hc) in E. congruence. Qed.
Lemma generated_length (one : bgen -> outcome (Z * bgen)) n g l g' : generate_tensor one n g = Ret (l, g') -> length l = n.
Proof.
  revert g l g'. induction n as [|n IH]; intros g l g' E; cbn [generate_tensor] in E; [injection E as <- <-; reflexivity|].
  destruct (one g) as [[x g1]|]; [|discriminate]. cbn [obind] in E. destruct (generate_tensor one n g1) as [[l1 g2]|] eqn:E1; [|discriminate]. cbn [obind] in E. injection E as <- <-. cbn [length]. f_equal. eapply IH, E1.
Qed.
Lemma inputs_carry p w t gauss key beta messages g cs g' : 0 < w -> w mod 8 = 0 -> safe_key p key -> egen_ok g -> gauss_small w beta gauss ->
  encrypt_inputs p w t gauss key messages g = Ret (cs, g') -> Forall2 (carries w t key beta) cs messages.
Proof.
  intros Hw H8 Hk Hg Hs E. unfold encrypt_inputs in E.
  assert (L1 : length (repeat (repeat 0 (S (length key))) (length messages)) = length (map (encode w t) messages)) by (rewrite repeat_length, map_length; reflexivity).
  assert (L2 : Forall (fun o => length o = S (length key)) (repeat (repeat 0 (S (length key))) (length messages))) by (apply Forall_forall; intros x Hx; apply repeat_spec in Hx; subst x; apply repeat_length).
  destruct (C21_vector_encryption p w gauss key _ _ g cs g' Hw H8 Hk Hg L1 L2 E) as (es & G & _ & _ & F & D).
  pose proof (generate_gaussian_small w beta gauss Hs _ _ _ _ G) as B. apply phases_of_list in D; [|lia|exact Hk|exact F].
  assert (L : length es = length messages) by (rewrite (generated_length _ _ _ _ _ G), map_length; reflexivity).
  clear E G L1 L2. revert cs es F D B L. induction messages as [|m ms IH]; intros cs es F D B L.
  - destruct cs; [constructor|]. destruct es; discriminate.
  - destruct es as [|e es]; [discriminate|]. destruct cs as [|c cs]; [discriminate|]. cbn [map map2] in D. injection D as D1 D2. constructor.
    + split; [exact (Forall_inv F)|]. exists (sgn w e). split; [exact (Forall_inv B)|]. rewrite <- D1, eqm_mod, encode_eqm. apply eqm_add; [reflexivity|apply eqm_sgn; lia].
    + apply (IH cs es (Forall_inv_tail F)); [exact D2|exact (Forall_inv_tail B)|cbn in L; lia].
Qed.
Lemma clear_run_range t circuit : 0 <= t -> forall values, Forall (fun x => 0 <= x < 2 ^ (t + 1)) values -> Forall (fun x => 0 <= x < 2 ^ (t + 1)) (clear_run t circuit values).
Proof.
  intros Ht. induction circuit as [|g rest IH]; intros values H; [exact H|]. cbn [clear_run]. apply IH, Forall_app. split; [exact H|]. constructor; [|constructor].
  unfold gate_value. apply Z.mod_pos_bound, pow2_pos. lia.
Qed.
Lemma wires_decoded p w t key eps wires values : 0 <= t -> t + 1 < w -> safe_key p key -> eps < 2 ^ (w - t - 2) -> Forall (fun x => 0 <= x < 2 ^ (t + 1)) values ->
  Forall2 (carries w t key eps) wires values -> decrypt_wires p w t key wires = Ret values.
Proof.
  intros Ht Htw Hk He HR H. unfold decrypt_wires. rewrite (decrypt_list_phases p w key ltac:(lia) Hk).
  - cbn [obind]. f_equal. induction H as [|c x wires values (W & e & B & E) H IH]; [reflexivity|]. cbn [map]. rewrite (IH (Forall_inv_tail HR)). f_equal.
    pose proof (Forall_inv HR) as Hx. cbv beta in Hx. pose proof (C18_decoding w (t + 1) x e ltac:(lia) Hx) as D. replace (w - (t + 1) - 1) with (w - t - 2) in D by lia. replace (w - (t + 1)) with (w - 1 - t) in D by lia.
    assert (Be : - 2 ^ (w - t - 2) <= e < 2 ^ (w - t - 2)) by (clear - B He; lia). specialize (D Be).
    unfold decode. rewrite <- D. f_equal. f_equal. f_equal. replace (phase w key c) with (phase w key c mod 2 ^ w) by (unfold phase; apply Zmod_mod). unfold eqm in E. rewrite E. f_equal. ring.
  - clear - H. induction H as [|c x wires values (W & _) H IH]; constructor; assumption.
Qed.

Lemma filter_le {A} (f : A -> bool) l : (length (filter f l) <= length l)%nat.
Proof. induction l as [|x l IH]; [apply le_n|]. cbn [filter length]. destruct (f x); cbn [length]; lia. Qed.

(** ** C57 *)
Section Keys.
(** Parameters: build profile, word size, message bits, dimension of the small key, dimension and size (2^a) of the GLWE key,
    decompositions of the bootstrap and of the keyswitch *)
Context (p : profile) (w t : Z) (n k : nat) (a : Z) (N := Z.to_nat (2 ^ a)) (bb : Z) (bl : nat) (kb : Z) (kl : nat).
(** Noise samplers for the small and for the large key, with bounds *)
Context (gauss_lwe gauss_glwe : list Z -> option (Z * Z)) (beta_lwe beta_glwe : Z).
Hypothesis (Ha : 0 <= a) (Haw : a + 2 < w) (Hw8 : w mod 8 = 0) (Hn : (0 < n)%nat) (Hk : (0 < k)%nat) (Ht : 0 <= t < a)
  (Hbd : dec_wf w (Dec bb bl)) (Hkd : dec_wf w (Dec kb kl)) (Hls : gauss_small w beta_lwe gauss_lwe)
  (Hgo : gauss_ok w gauss_glwe) (Hgs : gauss_small w beta_glwe gauss_glwe) (Hbeta : 0 <= beta_glwe)
  (Hbytes1 : Z.of_nat n * (Z.of_nat bl * ((Z.of_nat k + 1) * (Z.of_nat k * (Z.of_nat N * (w / 8))))) < 2 ^ 64)
  (Hbytes2 : Z.of_nat n * (Z.of_nat bl * ((Z.of_nat k + 1) * (Z.of_nat N * 256))) < 2 ^ 64).
(** Key generation: the states of the generators are those of any engines. *)
Context (gs1 gs1' gs2 gs2' : bgen) (g1 g1' g2 g2' g3 g3' : egen) (s : list Z) (glwe : list (list Z)) (bsk : list (list (list (list (list Z))))) (ksk : list (list (list Z))).
Notation big := (glwe_key_into_lwe_key glwe).
Hypothesis (Hg1 : egen_ok g1) (Hg2 : egen_ok g2) (Hg3 : egen_ok g3).
Hypothesis (Es : generate_new_lwe_secret_key n gs1 = Ret (s, gs1')) (Eg : generate_new_glwe_secret_key k N gs2 = Ret (glwe, gs2'))
  (Eb : fill_with_new_bootstrap_key p w gauss_glwe glwe N bl bb (repeat (ggsw_allocate N (S k) bl) n) s g1 = Ret (bsk, g1'))
  (Ek : generate_new_lwe_keyswitch_key p w gauss_lwe kb kl big s g2 = Ret (ksk, g2')).
(** The messages are encrypted under the large key. *)
Context (messages : list Z) (inputs : list (list Z)).
Hypothesis (Hm : Forall (fun x => 0 <= x < 2 ^ (t + 1)) messages) (Ei : encrypt_inputs p w t gauss_glwe big messages g3 = Ret (inputs, g3')).
(** The noise fits: [eps] bounds the error of the inputs and of a bootstrap with backend error [E]; the weights of a gate multiply it
    by at most [W], the keyswitch adds its error, and the modulus switch n + 1 half units of the 2N positions of the table. *)
Context (E eps W : Z).
Notation ks_error := (Z.of_nat (k * N) * 2 ^ (w - kb * Z.of_nat kl - 1) + Z.of_nat (k * N) * Z.of_nat kl * 2 ^ (kb - 1) * beta_lwe).
Hypothesis (HE : 0 <= E) (He1 : beta_glwe <= eps) (He2 : Z.of_nat n * ep_error w bb k N bl 1 beta_glwe E <= eps) (HW : 1 <= W)
  (Hbudget : 2 ^ w * (Z.of_nat n + 1) + 4 * Z.of_nat N * (W * eps + ks_error) < 2 ^ w * (Z.of_nat N / 2 ^ t)).
Context (circuit : list gate).
Hypothesis (Hc : circuit_wf W (length messages) circuit).

Local Lemma sizes : Z.of_nat N = 2 ^ t * (2 * 2 ^ (a - t - 1)) /\ Z.of_nat N / 2 ^ t = 2 * 2 ^ (a - t - 1) /\ (0 < N)%nat.
Proof.
  clear - Ha Ht. pose proof (pow2_pos a Ha). assert (Q : Z.of_nat N = 2 ^ t * (2 * 2 ^ (a - t - 1))).
  { unfold N. rewrite Z2Nat.id by lia. replace a with (t + (1 + (a - t - 1))) at 1 by lia. rewrite !Z.pow_add_r by lia. reflexivity. }
  split; [exact Q|]. split; [rewrite Q, Z.mul_comm; apply Z.div_mul; pose proof (pow2_pos t ltac:(lia)); lia|]. unfold N. lia.
Qed.
Local Lemma keys_ok : length s = n /\ Forall (fun x => x = 0 \/ x = 1) s /\ length glwe = k /\ binary_key N glwe /\ length big = (k * N)%nat /\ binary big /\
  bsk_encrypts w bb N bl glwe beta_glwe bsk s /\
  exists noise, ksk_encrypts w kb kl s big noise ksk /\ forall i j, (i < length big)%nat -> (j < kl)%nat -> Z.abs (noise i j) <= beta_lwe.
Proof.
  destruct sizes as (_ & _ & HN). destruct (C18_generated_keys_are_safe Debug n gs1 s gs1' Es) as [[C|Bs] Ls]; [discriminate|].
  destruct (C23_generated_keys_are_safe Debug k N gs2 glwe gs2' HN Eg) as ([G1 G2] & Lg & Bg). destruct (C23_generated_keys_are_safe p k N gs2 glwe gs2' HN Eg) as (Gp & _ & _).
  destruct G2 as [C|G2]; [discriminate|]. assert (Lb : length big = (k * N)%nat).
  { rewrite <- Lg. clear - G1. unfold glwe_key_into_lwe_key. induction G1 as [|x l H _ IH]; [reflexivity|]. cbn [concat length]. rewrite app_length, H, IH. lia. }
  assert (Hw0 : 0 < w) by lia. pose proof Hbd as (B1 & B2 & B3 & B4). cbn [base_log level_count] in *.
  split; [exact Ls|]. split; [exact Bs|]. split; [exact Lg|]. split; [apply Forall_forall; intros x Hx; rewrite Forall_forall in G1, G2; split; [apply G1, Hx|apply G2, Hx]|].
  split; [exact Lb|]. split; [exact Bg|]. split.
  - apply (C29_generated_key p w gauss_glwe N glwe bb bl (repeat (ggsw_allocate N (S k) bl) n) s g1 bsk g1' beta_glwe); rewrite ?Lg, ?Ls; try assumption; try lia.
    + apply repeat_length.
    + apply Forall_forall. intros x Hx. apply repeat_spec in Hx. subst x. apply ggsw_zero_wf. lia.
  - destruct (C30_generated_key p w gauss_lwe kb kl big s g2 ksk g2' Hkd Hw8 (or_intror Bs) Hg2 Ek) as (es & En & Hl & He).
    exists (fun i j => sgn w (nth (i * kl + j) es 0)). split; [revert He; apply ksk_encrypts_ext; intros i j Hi Hj; apply eqm_sgn; lia|].
    intros i j Hi Hj. pose proof (generate_gaussian_small w beta_lwe gauss_lwe Hls _ _ _ _ En) as Hsm. rewrite Forall_forall in Hsm. apply Hsm. apply nth_In. nia.
Qed.
Local Lemma eps_ok : 0 <= eps /\ eps < 2 ^ (w - t - 2).
Proof.
  destruct sizes as (S1 & S2 & HN). destruct keys_ok as (_ & _ & _ & _ & Lb & _ & _ & noise & _ & Hnoise). split; [lia|].
  assert (E0 : 0 <= ks_error).
  { pose proof Hkd as (B1 & B2 & B3 & B4). cbn [base_log level_count] in *. pose proof (pow2_pos (w - kb * Z.of_nat kl - 1)) as P1. pose proof (pow2_pos (kb - 1) ltac:(lia)) as P2.
    assert (0 <= beta_lwe) by (assert (0 <= Z.abs (noise 0%nat 0%nat) <= beta_lwe) by (split; [lia|apply Hnoise; [rewrite Lb; nia|lia]]); lia).
    apply Z.add_nonneg_nonneg; [apply Z.mul_nonneg_nonneg; [lia|]; apply Z.pow_nonneg; lia|]. repeat apply Z.mul_nonneg_nonneg; lia. }
  rewrite S2 in Hbudget. rewrite S1 in Hbudget. set (h := 2 ^ (a - t - 1)) in *. assert (Hh : 0 < h) by (apply pow2_pos; lia).
  assert (Q : 2 ^ w = 2 ^ (w - t - 2) * (4 * 2 ^ t)) by (replace w with ((w - t - 2) + (2 + t)) at 1 by lia; rewrite Z.pow_add_r, (Z.pow_add_r 2 2) by lia; reflexivity).
  pose proof (pow2_pos (w - t - 2) ltac:(lia)) as P3. pose proof (pow2_pos t ltac:(lia)) as P4. set (D := 2 ^ (w - t - 2)) in *. set (T2 := 2 ^ t) in *. set (K := ks_error) in *.
  assert (0 <= eps) by lia. assert (eps <= W * eps) by nia. rewrite Q in Hbudget.
  assert (L : 4 * (T2 * (2 * h)) * eps < D * (4 * T2) * (2 * h)).
  { eapply Z.le_lt_trans; [|exact Hbudget]. assert (A1 : 0 <= D * (4 * T2) * (Z.of_nat n + 1)) by (repeat apply Z.mul_nonneg_nonneg; lia).
    assert (A2 : 4 * (T2 * (2 * h)) * eps <= 4 * (T2 * (2 * h)) * (W * eps + K)) by (apply Z.mul_le_mono_nonneg_l; [repeat apply Z.mul_nonneg_nonneg; lia|lia]). lia. }
  apply (Z.mul_lt_mono_pos_l (4 * (T2 * (2 * h)))); [repeat apply Z.mul_pos_pos; lia|]. eapply Z.lt_le_trans; [exact L|]. apply Z.eq_le_incl. ring.
Qed.
Local Lemma run_ok {St} (boot : St -> list Z -> list (list Z) -> outcome (list Z * St)) (Inv : St -> Prop) st :
  Inv st -> (forall st c v, Inv st -> lwe_wf w n c -> poly_wf w N v ->
    exists lo st' e, boot st c (repeat (repeat 0 N) k ++ [v]) = Ret (lo, st') /\ Inv st' /\ lwe_wf w (k * N) lo /\ Z.abs e <= eps /\
      phase w big lo = (lut_at N v (rot_exponent w N s c) + e) mod 2 ^ w) ->
  exists wires st', run_circuit p w t n k N kb kl ksk boot circuit inputs st = Ret (wires, st') /\ Inv st' /\
    decrypt_wires p w t big wires = Ret (clear_run t circuit messages).
Proof.
  intros HI HB. destruct sizes as (S1 & S2 & HN). destruct keys_ok as (Ls & Bs & Lg & Bg & Lb & Bb & _ & noise & Hks & Hnoise). destruct eps_ok as [He0 He3].
  pose proof (inputs_carry p w t gauss_glwe big beta_glwe messages g3 inputs g3' ltac:(lia) Hw8 (or_intror Bb) Hg3 Hgs Ei) as HF.
  assert (HF' : Forall2 (carries w t big eps) inputs messages).
  { clear - HF He1. induction HF as [|c x cs xs (H & e & B & X) HF IH]; constructor; [|exact IH]. split; [exact H|]. exists e. split; [lia|exact X]. }
  assert (Hh : 0 < 2 ^ (a - t - 1)) by (apply pow2_pos; lia). assert (Hw0 : 0 <= w) by lia. assert (Ht0 : 0 <= t) by lia. assert (Htw : t + 1 < w) by lia.
  assert (Hbud : 2 ^ w * (Z.of_nat n + 1) + 4 * Z.of_nat N * (W * eps + (Z.of_nat (length big) * 2 ^ (w - kb * Z.of_nat kl - 1) + Z.of_nat (length big) * Z.of_nat kl * 2 ^ (kb - 1) * beta_lwe)) < 2 ^ w * (2 * 2 ^ (a - t - 1))) by (rewrite Lb, <- S2; exact Hbudget).
  destruct (circuit_ok p w t n k N kb kl ksk boot big s noise beta_lwe eps W (2 ^ (a - t - 1)) Inv Hw0 Ht0 Htw Hh S1 Lb Ls Bs Bb Hkd Hks Hnoise He0 Hbud HB circuit inputs messages st HF' HI Hc) as (wires & st' & R & HI' & HC).
  exists wires, st'. split; [exact R|]. split; [exact HI'|]. exact (wires_decoded p w t big eps wires _ Ht0 Htw (or_intror Bb) He3 (clear_run_range t circuit Ht0 messages Hm) HC).
Qed.

Local Lemma noises c : length s = n -> lwe_wf w (length s) c -> Z.of_nat (nonzeros (removelast c)) * ep_error w bb k N bl 1 beta_glwe E <= Z.of_nat n * ep_error w bb k N bl 1 beta_glwe E.
Proof.
  intros Ls Hl. apply Z.mul_le_mono_nonneg_r.
  - unfold ep_error. pose proof Hbd as (B1 & B2 & B3 & B4). cbn [base_log level_count] in *. pose proof (pow2_pos (bb - 1) ltac:(lia)).
    repeat (apply Z.add_nonneg_nonneg || apply Z.mul_nonneg_nonneg || apply Z.pow_nonneg); lia.
  - destruct Hl as [Ll _]. apply inj_le. unfold nonzeros. eapply Nat.le_trans; [apply filter_le|]. destruct c as [|x c] using rev_ind; [cbn; lia|]. rewrite removelast_last. rewrite app_length in Ll. cbn [length] in Ll. clear - Ll Ls. lia.
Qed.

(** With any backend whose sums of products have an error of at most [E] (exact for E = 0; [C55_backend] for the FFT): the circuit
    runs without a panic and every wire decrypts to its value in the clear. *)
Theorem C57_circuit (B : backend) (T : nat) : backend_ok w N bb T E B -> (bl * S k <= T)%nat ->
  exists wires, run_circuit p w t n k N kb kl ksk (boot_fft p w B k N bb (bsk_forward_fourier B bsk)) circuit inputs tt = Ret (wires, tt) /\
    decrypt_wires p w t big wires = Ret (clear_run t circuit messages).
Proof.
  intros HB HT. destruct keys_ok as (Ls & Bs & Lg & Bg & Lb & Bb & Hbsk & _).
  destruct (run_ok (boot_fft p w B k N bb (bsk_forward_fourier B bsk)) (fun _ => True) tt I) as (wires & [] & R & _ & D); [|exists wires; split; assumption].
  intros [] c v _ Hl Hv. rewrite <- Ls in Hl.
  destruct (C29_lookup p w a B (Dec bb bl) glwe beta_glwe T E Hbd Ha Haw Bg Hbeta HB HE ltac:(rewrite Lg; exact HT) bsk s v c (repeat 0 (S (k * N))) Bs Hbsk Hl Hv) as (lo & e & R & Wl & Be & P & _).
  { rewrite repeat_length, Lg. reflexivity. }
  rewrite Lg in *. exists lo, tt, e. unfold boot_fft. cbn [base_log] in R. fold N in R. rewrite R. cbn [obind]. split; [reflexivity|]. split; [exact I|]. split; [exact Wl|]. split; [|exact P].
  eapply Z.le_trans; [exact Be|]. eapply Z.le_trans; [|exact He2]. apply noises; assumption.
Qed.

(** With the NTT backend, modulo [q] *)
Theorem C57_ntt_circuit (q : Z) (L : nat) (psi : Z) outs nt st : a = Z.of_nat L -> E = ntt_error w q N bb (bl * S k) ->
  1 < q < 2 ^ w -> size_ok p L -> digits_fit w q bb ->
  ntt_bsk_shape L (Dec bb bl) glwe n outs -> transform_for q L psi nt -> glwe_wf w k N (fst st) -> bufs_for q L psi k (snd st) ->
  exists FB nt' wires st', bsk_forward_ntt p (2 * w) q w nt outs bsk = Ret (FB, nt') /\
    run_circuit p w t n k N kb kl ksk (boot_ntt p w q k N bb FB) circuit inputs st = Ret (wires, st') /\
    decrypt_wires p w t big wires = Ret (clear_run t circuit messages).
Proof.
  intros Ea EE Hq Hsz Hfit Hsh Htr Hlut Hbufs. destruct keys_ok as (Ls & Bs & Lg & Bg & Lb & Bb & Hbsk & _).
  assert (EN : N = (2 ^ L)%nat) by (unfold N; rewrite Ea; change 2 with (Z.of_nat 2) at 1; rewrite <- Nat2Z.inj_pow, Nat2Z.id; reflexivity).
  rewrite <- Ls in Hsh. pose proof Bg as Bg'. rewrite EN in Bg'. pose proof Hbsk as Hbsk'. rewrite EN in Hbsk'.
  destruct (C29_ntt_lookup p w q L psi (Dec bb bl) glwe beta_glwe Hq Hsz Hbd Hfit Bg' Hbeta) with (bsk := bsk) (s := s) (outs := outs) (nt := nt) as (FB & nt' & R & Htr' & K); try assumption; [lia|].
  exists FB, nt'. assert (K2 : exists wires st', run_circuit p w t n k N kb kl ksk (boot_ntt p w q k N bb FB) circuit inputs st = Ret (wires, st') /\ (glwe_wf w k N (fst st') /\ bufs_for q L psi k (snd st')) /\ decrypt_wires p w t big wires = Ret (clear_run t circuit messages)).
  { apply run_ok; [split; assumption|]. intros [lut bufs] c v [Hl1 Hl2] Hl Hv. rewrite <- Ls in Hl. cbn [fst snd] in *. rewrite EN in Hv.
    destruct (K v c Hl Hv) as (lo & e & Wl & Be & P & _ & F). rewrite Lg in *. rewrite <- EN in *.
    destruct (F (repeat 0 (S (k * N))) lut bufs (repeat_length _ _) Hl1 Hl2) as (lut' & bufs' & R' & Hl1' & Hl2').
    exists lo, (lut', bufs'), e. unfold boot_ntt. cbn [fst snd]. cbn [base_log level_count] in *. rewrite R'. cbn [obind]. split; [reflexivity|]. split; [split; assumption|]. split; [exact Wl|]. split; [|exact P].
    eapply Z.le_trans; [exact Be|]. rewrite <- EE. eapply Z.le_trans; [|exact He2]. apply noises; assumption. }
  destruct K2 as (wires & st' & R1 & _ & R2). exists wires, st'. repeat split; assumption.
Qed.
End Keys.
Print Assumptions C57_circuit.
Print Assumptions C57_ntt_circuit.

(** ** Cases *)
(** Generators, keys, and the messages 1, 0, 1 and 1 encrypted; messages modulo 8 and tables of four entries. *)
Definition demo_bits (i : Z) : Z := (3 * i + i / 7 + 1) mod 256.
Definition demo_small : list Z := match generate_new_lwe_secret_key 2 (BG demo_bits 0 100) with Ret (s, _) => s | Panic => [] end.
Definition demo_glwe : list (list Z) := match generate_new_glwe_secret_key 1 16 (BG demo_bits 50 200) with Ret (s, _) => s | Panic => [] end.
Definition demo_egen57 (m : Z) : egen := EG (BG (fun i => (7 * i + i / 13 + m) mod 256) 0 100000) (BG (fun i => (11 * i + i / 16) mod 256) 0 1000000).
Definition demo_bsk57 := match fill_with_new_bootstrap_key Debug 32 demo_gauss_word demo_glwe 16 3 6 (repeat (ggsw_allocate 16 2 3) 2) demo_small (demo_egen57 1) with Ret (b, _) => b | Panic => [] end.
Definition demo_ksk57 := match generate_new_lwe_keyswitch_key Debug 32 demo_gauss_word 5 3 (glwe_key_into_lwe_key demo_glwe) demo_small (demo_egen57 2) with Ret (b, _) => b | Panic => [] end.
Definition demo_inputs57 := match encrypt_inputs Debug 32 2 demo_gauss_word (glwe_key_into_lwe_key demo_glwe) [1; 0; 1; 1] (demo_egen57 3) with Ret (b, _) => b | Panic => [] end.
(** A two-bit adder: sum and carry of wires 0 and 2; then of wires 1, 3 and the carry *)
Definition demo_circuit : list gate :=
  [Gate [0; 2]%nat [1; 1] 0 [0; 1; 0; 1]; Gate [0; 2]%nat [1; 1] 0 [0; 0; 1; 1]; Gate [1; 3; 5]%nat [1; 1; 1] 0 [0; 1; 0; 1]; Gate [1; 3; 5]%nat [1; 1; 1] 0 [0; 0; 1; 1]].
Lemma not_panic {A} (o : outcome A) : match o with Ret _ => true | Panic => false end = true -> exists x, o = Ret x.
Proof. destruct o as [x|]; [intros _; exists x; reflexivity|discriminate]. Qed.
Lemma demo_egen57_ok m : egen_ok (demo_egen57 m).
Proof. intros q. cbn. apply Z.mod_pos_bound. lia. Qed.
Example C57_case : exists wires,
  run_circuit Debug 32 2 2 1 16 5 3 demo_ksk57 (boot_fft Debug 32 (exact_backend 32) 1 16 6 (bsk_forward_fourier (exact_backend 32) demo_bsk57)) demo_circuit demo_inputs57 tt = Ret (wires, tt) /\
  decrypt_wires Debug 32 2 (glwe_key_into_lwe_key demo_glwe) wires = Ret [1; 0; 1; 1; 0; 1; 0; 1].
Proof.
  change [1; 0; 1; 1; 0; 1; 0; 1] with (clear_run 2 demo_circuit [1; 0; 1; 1]).
  destruct (not_panic (generate_new_lwe_secret_key 2 (BG demo_bits 0 100))) as [[s gs1'] Es]; [vm_compute; reflexivity|].
  destruct (not_panic (generate_new_glwe_secret_key 1 16 (BG demo_bits 50 200))) as [[z gs2'] Eg]; [vm_compute; reflexivity|].
  destruct (not_panic (fill_with_new_bootstrap_key Debug 32 demo_gauss_word demo_glwe 16 3 6 (repeat (ggsw_allocate 16 2 3) 2) demo_small (demo_egen57 1))) as [[bk g1'] Eb]; [vm_compute; reflexivity|].
  destruct (not_panic (generate_new_lwe_keyswitch_key Debug 32 demo_gauss_word 5 3 (glwe_key_into_lwe_key demo_glwe) demo_small (demo_egen57 2))) as [[kk g2'] Ek]; [vm_compute; reflexivity|].
  destruct (not_panic (encrypt_inputs Debug 32 2 demo_gauss_word (glwe_key_into_lwe_key demo_glwe) [1; 0; 1; 1] (demo_egen57 3))) as [[ii g3'] Ei]; [vm_compute; reflexivity|].
  assert (S1 : demo_small = s) by (unfold demo_small; rewrite Es; reflexivity). assert (S2 : demo_glwe = z) by (unfold demo_glwe; rewrite Eg; reflexivity).
  assert (S3 : demo_bsk57 = bk) by (unfold demo_bsk57; rewrite Eb; reflexivity). assert (S4 : demo_ksk57 = kk) by (unfold demo_ksk57; rewrite Ek; reflexivity).
  assert (S5 : demo_inputs57 = ii) by (unfold demo_inputs57; rewrite Ei; reflexivity). rewrite S1, S2 in Eb, Ek. rewrite S2 in Ei. rewrite S2, S3, S4, S5. clear S1 S2 S3 S4 S5.
  change 16%nat with (Z.to_nat (2 ^ 4)) in *.
  eapply (C57_circuit Debug 32 2 2 1 4 6 3 5 3 demo_gauss_word demo_gauss_word 255 255) with (E := 0) (eps := 2000000) (W := 3) (T := 6%nat);
    [lia|lia|reflexivity|lia|lia|lia|unfold dec_wf; cbn [base_log level_count]; lia|unfold dec_wf; cbn [base_log level_count]; lia
    |apply demo_gauss_word_small; lia|apply demo_gauss_word_ok; lia|apply demo_gauss_word_small; lia|lia|vm_compute; reflexivity|vm_compute; reflexivity
    |apply (demo_egen57_ok 1)|apply (demo_egen57_ok 2)|apply (demo_egen57_ok 3)|exact Es|exact Eg|exact Eb|exact Ek|repeat (apply Forall_cons; [lia|]); apply Forall_nil|exact Ei|lia|lia|vm_compute; discriminate|lia|vm_compute; reflexivity| | |lia].
  - cbn [demo_circuit circuit_wf g_inputs g_weights norm length]. repeat split; try (repeat (apply Forall_cons; [lia|]); apply Forall_nil); lia.
  - apply C26_exact_backend_ok; lia.
Qed.
(** The noise budget holds for parameters of the size used in practice: 64-bit words, dimensions 1024 and 4096 (k = 1), one bit of message
    plus padding, bootstrap base 2^8 with 4 levels, keyswitch base 2^3 with 6 levels, noise of 2^14 and 2^34, weights of norm 4 and a
    backend error of 2^34. *)
Example C57_realistic_budget : let E := 2 ^ 34 in let eps := 1024 * ep_error 64 8 1 4096 4 1 (2 ^ 14) E in
  2 ^ 14 <= eps /\ 2 ^ 64 * (Z.of_nat 1024 + 1) + 4 * Z.of_nat 4096 * (4 * eps + (Z.of_nat 4096 * 2 ^ (64 - 3 * 6 - 1) + Z.of_nat 4096 * 6 * 2 ^ (3 - 1) * 2 ^ 34))
    < 2 ^ 64 * (Z.of_nat 4096 / 2 ^ 1).
Proof. split; [vm_compute; discriminate|vm_compute; reflexivity]. Qed.
