(** * The digits of a uniform word
    How the rounding error and the signed digits of the decomposition are distributed. *)
From Verif Require Import Base Word WordFacts DecompModel DecompProofs ExtProdProofs NoiseSpec NoiseFacts.
From Coq Require Import Reals Lra Lia.

(** ** Sums over the integers 0 .. M-1 *)
Definition wsum (M : Z) (F : Z -> R) : R := rsum (map Z.of_nat (seq 0 (Z.to_nat M))) F.
Section Wsum.
Local Open Scope R_scope.
Lemma wsum_ext M F G : (forall i, (0 <= i < M)%Z -> F i = G i) -> wsum M F = wsum M G.
Proof.
  intros H. apply rsum_ext. intros a Ha. apply in_map_iff in Ha. destruct Ha as (i & <- & Hi). apply in_seq in Hi. apply H. lia.
Qed.
Lemma wsum_le M F G : (forall i, (0 <= i < M)%Z -> F i <= G i) -> wsum M F <= wsum M G.
Proof.
  intros H. apply rsum_le. intros a Ha. apply in_map_iff in Ha. destruct Ha as (i & <- & Hi). apply in_seq in Hi. apply H. lia.
Qed.
Lemma wsum_add M F G : wsum M (fun i => F i + G i) = wsum M F + wsum M G.
Proof. apply rsum_add. Qed.
Lemma wsum_scal M c F : wsum M (fun i => c * F i) = c * wsum M F.
Proof. apply rsum_scal. Qed.
Lemma wsum_const M c : (0 <= M)%Z -> wsum M (fun _ => c) = IZR M * c.
Proof.
  intros HM. unfold wsum. rewrite rsum_const, map_length, seq_length, INR_IZR_INZ, Z2Nat.id by assumption. reflexivity.
Qed.
Lemma wsum_0 F : wsum 0 F = 0.
Proof. reflexivity. Qed.
Lemma wsum_succ M F : (0 <= M)%Z -> wsum (M + 1) F = wsum M F + F M.
Proof.
  intros HM. unfold wsum. replace (Z.to_nat (M + 1)) with (S (Z.to_nat M)) by lia. rewrite seq_S, map_app, rsum_app. cbn [map rsum Nat.add].
  rewrite Z2Nat.id by assumption. ring.
Qed.
Lemma wsum_split a b F : (0 <= a)%Z -> (0 <= b)%Z -> wsum (a + b) F = wsum a F + wsum b (fun i => F (a + i)%Z).
Proof.
  intros Ha Hb. revert b Hb. apply natlike_ind; [rewrite Z.add_0_r, wsum_0; ring|]. intros b Hb IH.
  unfold Z.succ. rewrite Z.add_assoc, !wsum_succ, IH by lia. ring.
Qed.
Lemma wsum_mul K D F : (0 <= K)%Z -> (0 <= D)%Z -> wsum (K * D) F = wsum K (fun s => wsum D (fun r => F (D * s + r)%Z)).
Proof.
  intros HK HD. revert K HK. apply natlike_ind; [reflexivity|]. intros K HK IH. unfold Z.succ. rewrite wsum_succ by assumption.
  replace ((K + 1) * D)%Z with (K * D + D)%Z by ring. rewrite wsum_split by nia. rewrite IH. f_equal. apply wsum_ext. intros i _. f_equal. ring.
Qed.
Lemma wsum_swap K D F : wsum K (fun s => wsum D (fun r => F s r)) = wsum D (fun r => wsum K (fun s => F s r)).
Proof. apply rsum_swap. Qed.
Lemma wsum_shift M h F : (0 < M)%Z -> (0 <= h <= M)%Z -> wsum M (fun x => F ((x + h) mod M)%Z) = wsum M F.
Proof.
  intros HM Hh. assert (E1 : forall G, wsum M G = wsum (h + (M - h)) G) by (intros; f_equal; lia).
  assert (E2 : forall G, wsum M G = wsum ((M - h) + h) G) by (intros; f_equal; lia).
  rewrite (E2 (fun x => F ((x + h) mod M)%Z)), (E1 F), !wsum_split by lia. rewrite Rplus_comm. f_equal.
  - apply wsum_ext. intros i Hi. f_equal. replace (M - h + i + h)%Z with (i + 1 * M)%Z by ring. rewrite Z_mod_plus_full. apply Z.mod_small. lia.
  - apply wsum_ext. intros i Hi. f_equal. rewrite Z.mod_small by lia. lia.
Qed.
Lemma mean_words w F : (0 <= w)%Z -> mean (words w) F = wsum (2 ^ w) F / IZR (2 ^ w).
Proof.
  intros Hw. unfold mean, wsum, words. rewrite map_length, seq_length, INR_IZR_INZ, Z2Nat.id; [reflexivity|]. apply Z.pow_nonneg. lia.
Qed.
Lemma wsum_id M : (0 <= M)%Z -> wsum M IZR = IZR M * (IZR M - 1) / 2.
Proof. revert M. apply natlike_ind; [rewrite wsum_0; field|]. intros M HM IH. unfold Z.succ. rewrite wsum_succ, IH, plus_IZR by assumption. field. Qed.
Lemma wsum_sq M : (0 <= M)%Z -> wsum M (fun i => IZR i ^ 2) = (IZR M - 1) * IZR M * (2 * IZR M - 1) / 6.
Proof. revert M. apply natlike_ind; [rewrite wsum_0; field|]. intros M HM IH. unfold Z.succ. rewrite wsum_succ, IH, plus_IZR by assumption. field. Qed.
(** the sum of (i - h)^j *)
Lemma wsum_centred h : (0 <= h)%Z -> wsum (2 * h) (fun i => IZR (i - h)) = - IZR h /\
  wsum (2 * h) (fun i => IZR (i - h) ^ 2) = 2 * IZR h * (4 * IZR h ^ 2 + 2) / 12.
Proof.
  intros Hh. split.
  - rewrite (wsum_ext _ _ (fun i => IZR i + - IZR h)) by (intros; rewrite minus_IZR; ring). rewrite wsum_add, wsum_id, wsum_const, mult_IZR by lia. field.
  - rewrite (wsum_ext _ _ (fun i => IZR i ^ 2 + (-2 * IZR h * IZR i + IZR h ^ 2))) by (intros; rewrite minus_IZR; ring).
    rewrite !wsum_add, wsum_sq, wsum_scal, wsum_id, wsum_const, mult_IZR by lia. field.
Qed.
End Wsum.

(** ** One level of the decomposition *)
Section Digits.
Context (w b : Z) (Hb : 0 < b < w).
Local Notation B := (2 ^ b).
Local Notation h := (2 ^ (b - 1)).
Lemma base_half : B = 2 * h /\ 0 < h.
Proof. split; [rewrite (pow2_split b 1) by lia; reflexivity|apply pow2_pos; lia]. Qed.
Definition nst (st : Z) : Z := snd (decompose_one_level w b st).
Lemma nst_spec st : 0 <= st ->
  nst st = st / B + (if st mod B <? h then 0 else if st mod B =? h then (st / B / h) mod 2 else 1).
Proof.
  intros Hst. unfold nst, decompose_one_level. cbn [snd]. rewrite land_mask by lia.
  assert (Hs : 0 <= shr st b) by (unfold shr; apply Z.div_pos; [lia|apply pow2_pos; lia]).
  rewrite carry_spec by (try assumption; apply Z.mod_pos_bound, pow2_pos; lia). reflexivity.
Qed.
(** The square of the digit *)
Definition msq (r : Z) : Z := Z.min r (B - r) * Z.min r (B - r).
Lemma digit_sq st : 0 <= st -> sgn w (fst (decompose_one_level w b st)) * sgn w (fst (decompose_one_level w b st)) = msq (st mod B).
Proof.
  intros Hst. destruct (one_level w b st Hb Hst) as (D & st' & -> & E & HD & _). cbn [fst]. rewrite (sgn_digit w D b Hb HD).
  destruct base_half as [EB Hh]. pose proof (Z.div_mod st B ltac:(lia)) as E2. pose proof (Z.mod_pos_bound st B ltac:(lia)) as Hr.
  set (r := st mod B) in *. set (q := st / B) in *. clearbody r q. unfold msq.
  assert (E3 : D - r = B * (q - st')) by (clear - E E2; lia). set (t := q - st') in *. clearbody t. clear E E2 Hst st' q.
  rewrite EB in *. set (g := 2 ^ (b - 1)) in *. clearbody g. clear Hb EB.
  assert (t = 0 \/ t = -1) as [-> | ->] by nia.
  - replace D with r by lia. rewrite Z.min_l by lia. reflexivity.
  - replace D with (r - 2 * g) by lia. rewrite Z.min_r by lia. ring.
Qed.
Definition states (j : nat) (s : Z) : Z := Nat.iter j nst s.
Lemma nst_nonneg st : 0 <= st -> 0 <= nst st.
Proof.
  intros Hst. unfold nst. destruct (one_level w b st Hb Hst) as (D & st' & -> & _ & _ & H & _). exact H.
Qed.
Lemma states_nonneg j s : 0 <= s -> 0 <= states j s.
Proof. intros Hs. induction j as [|j IH]; [exact Hs|]. apply nst_nonneg. exact IH. Qed.
Lemma nth_digits k : forall t st, (t < k)%nat -> nth t (digits w b k st) 0 = fst (decompose_one_level w b (states t st)).
Proof.
  induction k as [|k IH]; intros t st Ht; [lia|]. cbn [digits]. destruct (decompose_one_level w b st) as [D st'] eqn:E. destruct t as [|t].
  - cbn [nth]. unfold states. cbn [Nat.iter nat_rect]. rewrite E. reflexivity.
  - cbn [nth]. rewrite IH by lia. do 2 f_equal. unfold states. symmetry. replace st' with (nst st) by (unfold nst; rewrite E; reflexivity).
    clear. induction t as [|t IH]; [reflexivity|].
    change (nst (Nat.iter (S t) nst st) = nst (Nat.iter t nst (nst st))). f_equal. exact IH.
Qed.

(** The state after j levels is the higher part of the start state, plus a carry which depends on the higher part in one way only. *)
Definition carried (j : nat) (lo : Z) (c : Z -> Z) : Prop := forall v, 0 <= v -> states j (lo + B ^ Z.of_nat j * v) = v + c v.
Lemma div_mod_low v u : 0 <= u < B -> (B * v + u) / B = v /\ (B * v + u) mod B = u.
Proof.
  intros Hu. split; symmetry; [apply Z.div_unique with (r := u)|apply Z.mod_unique with (q := v)]; lia.
Qed.
Lemma nst_low u : 0 <= u <= B ->
  (forall v, 0 <= v -> nst (B * v + u) = v + 0) \/ (forall v, 0 <= v -> nst (B * v + u) = v + 1) \/ (forall v, 0 <= v -> nst (B * v + u) = v + (v / h) mod 2).
Proof.
  intros Hu. destruct base_half as [EB Hh]. destruct (Z.eq_dec u B) as [->|Hn].
  - right. left. intros v Hv. replace (B * v + B) with (B * (v + 1) + 0) by ring. rewrite nst_spec by nia.
    destruct (div_mod_low (v + 1) 0 ltac:(lia)) as [-> ->]. destruct (Z.ltb_spec 0 h); lia.
  - assert (Hs : forall v, 0 <= v -> nst (B * v + u) = v + (if u <? h then 0 else if u =? h then (v / h) mod 2 else 1)).
    { intros v Hv. rewrite nst_spec by nia. destruct (div_mod_low v u ltac:(lia)) as [-> ->]. reflexivity. }
    destruct (u <? h); [left; exact Hs|]. destruct (u =? h); [right; right; exact Hs|right; left; exact Hs].
Qed.
Lemma carries j : forall lo, 0 <= lo < B ^ Z.of_nat j ->
  carried j lo (fun _ => 0) \/ carried j lo (fun _ => 1) \/ carried j lo (fun v => (v / h) mod 2).
Proof.
  destruct base_half as [EB Hh]. induction j as [|j IH]; intros lo Hlo.
  - left. intros v Hv. change (Z.of_nat 0) with 0 in *. rewrite Z.pow_0_r in *. unfold states. cbn [Nat.iter nat_rect]. lia.
  - assert (HP : 0 < B ^ Z.of_nat j) by (apply Z.pow_pos_nonneg; lia).
    assert (EP : B ^ Z.of_nat (S j) = B * B ^ Z.of_nat j) by (rewrite Nat2Z.inj_succ, Z.pow_succ_r by lia; reflexivity).
    pose proof (Z.div_mod lo (B ^ Z.of_nat j) ltac:(lia)) as Edm. pose proof (Z.mod_pos_bound lo (B ^ Z.of_nat j) HP) as Hm.
    set (P := B ^ Z.of_nat j) in *. set (u := lo / P) in *. set (lo' := lo mod P) in *.
    assert (Hu : 0 <= u < B). { split; [apply Z.div_pos; lia|]. apply Z.div_lt_upper_bound; [lia|]. rewrite EP in Hlo. lia. }
    assert (Hst : forall c, carried j lo' c -> forall v, 0 <= v -> states (S j) (lo + B ^ Z.of_nat (S j) * v) = nst (B * v + u + c (B * v + u))).
    { intros c Hc v Hv. unfold states. cbn [Nat.iter nat_rect]. fold (Nat.iter j nst (lo + B ^ Z.of_nat (S j) * v)). fold (states j (lo + B ^ Z.of_nat (S j) * v)).
      f_equal. rewrite <- (Hc (B * v + u)) by nia. f_equal. rewrite EP. fold P. rewrite Edm at 1. ring. }
    assert (K : forall u', 0 <= u' <= B -> (forall v, 0 <= v -> states (S j) (lo + B ^ Z.of_nat (S j) * v) = nst (B * v + u')) ->
        carried (S j) lo (fun _ => 0) \/ carried (S j) lo (fun _ => 1) \/ carried (S j) lo (fun v => (v / h) mod 2)).
    { intros u' Hu' H. destruct (nst_low u' Hu') as [H1|[H1|H1]]; [left|right; left|right; right]; intros v Hv; rewrite H, H1 by assumption; reflexivity. }
    destruct (IH lo' Hm) as [Hc|[Hc|Hc]].
    + apply (K u); [lia|]. intros v Hv. rewrite (Hst _ Hc v Hv). f_equal. lia.
    + apply (K (u + 1)); [lia|]. intros v Hv. rewrite (Hst _ Hc v Hv). f_equal. lia.
    + assert (Ec : forall v, ((B * v + u) / h) mod 2 = u / h).
      { intros v. rewrite EB. replace (2 * h * v + u) with (u + (2 * v) * h) by ring. rewrite Z.div_add by lia.
        rewrite (Z.mul_comm 2 v), Z_mod_plus_full. apply Z.mod_small. split; [apply Z.div_pos; lia|]. apply Z.div_lt_upper_bound; lia. }
      apply (K (u + u / h)).
      * assert (0 <= u / h < 2) by (split; [apply Z.div_pos; lia|apply Z.div_lt_upper_bound; lia]). lia.
      * intros v Hv. rewrite (Hst _ Hc v Hv), Ec. f_equal. lia.
Qed.

Local Open Scope R_scope.
Local Notation S2 := (wsum B (fun r => IZR (msq r))).
Lemma sum_msq : S2 = IZR B * (IZR B ^ 2 + 2) / 12.
Proof.
  destruct base_half as [EB Hh]. unfold msq. rewrite EB. replace (2 * h)%Z with (h + h)%Z at 1 by ring. rewrite wsum_split by lia.
  rewrite (wsum_ext h _ (fun r => IZR r ^ 2)) by (intros i Hi; rewrite Z.min_l, mult_IZR by lia; ring).
  rewrite (wsum_ext h (fun i => IZR (Z.min (h + i) (2 * h - (h + i)) * Z.min (h + i) (2 * h - (h + i)))) (fun i => IZR h ^ 2 + (-2 * IZR h * IZR i + IZR i ^ 2))).
  2:{ intros i Hi. rewrite Z.min_r by lia. rewrite mult_IZR. replace (2 * h - (h + i))%Z with (h - i)%Z by ring. rewrite minus_IZR. ring. }
  rewrite !wsum_add, wsum_scal, wsum_sq, wsum_id, wsum_const, !mult_IZR by lia. field.
Qed.
Lemma sum_carried c : c = (fun _ => 0%Z) \/ c = (fun _ => 1%Z) \/ c = (fun v => (v / h) mod 2)%Z ->
  S2 - IZR h ^ 2 <= wsum B (fun u => IZR (msq ((u + c u) mod B))) <= S2.
Proof.
  destruct base_half as [EB Hh]. intros Hc. pose proof (pow2_ge_0 (IZR h)) as Hsq.
  assert (K0 : wsum B (fun u => IZR (msq ((u + 0) mod B))) = S2) by (rewrite (wsum_shift B 0 (fun r => IZR (msq r))) by lia; reflexivity).
  assert (K1 : wsum B (fun u => IZR (msq ((u + 1) mod B))) = S2) by (rewrite (wsum_shift B 1 (fun r => IZR (msq r))) by lia; reflexivity).
  destruct Hc as [->|[->| ->]]; [rewrite K0; lra|rewrite K1; lra|].
  assert (E : wsum B (fun u => IZR (msq ((u + (u / h) mod 2) mod B))) = S2 - IZR h ^ 2); [|rewrite E; lra].
  assert (E2 : forall G, wsum B G = wsum (h + h) G) by (intros; f_equal; lia).
  rewrite <- K1, (E2 (fun u => IZR (msq ((u + (u / h) mod 2) mod B)))), (E2 (fun u => IZR (msq ((u + 1) mod B)))), !wsum_split by lia.
  assert (F1 : wsum h (fun u => IZR (msq ((u + (u / h) mod 2) mod B))) = wsum h (fun u => IZR (msq u))).
  { apply wsum_ext. intros i Hi. rewrite (Z.div_small i h) by lia. rewrite Z.mod_0_l, Z.add_0_r by lia. rewrite Z.mod_small by lia. reflexivity. }
  assert (F2 : wsum h (fun i => IZR (msq ((h + i + (h + i) / h mod 2) mod B))) = wsum h (fun i => IZR (msq ((h + i + 1) mod B)))).
  { apply wsum_ext. intros i Hi. replace ((h + i) / h)%Z with 1%Z; [reflexivity|]. apply Z.div_unique with (r := i); lia. }
  assert (F3 : wsum h (fun u => IZR (msq ((u + 1) mod B))) = wsum h (fun u => IZR (msq u)) + IZR h ^ 2).
  { rewrite (wsum_ext h _ (fun u => IZR (msq (1 + u)))) by (intros i Hi; rewrite Z.mod_small by lia; rewrite Z.add_comm; reflexivity).
    assert (G : wsum (1 + h) (fun u => IZR (msq u)) = wsum 1 (fun u => IZR (msq u)) + wsum h (fun u => IZR (msq (1 + u)))) by (apply wsum_split; lia).
    rewrite (Z.add_comm 1 h), wsum_succ in G by lia. assert (G1 : wsum 1 (fun u => IZR (msq u)) = 0) .
    { unfold wsum. change (seq 0 (Z.to_nat 1)) with [0%nat]. cbn [map rsum]. change (Z.of_nat 0) with 0%Z. unfold msq. rewrite Z.min_l by lia. change (0 * 0)%Z with 0%Z. ring. }
    rewrite G1 in G. replace (IZR (msq h)) with (IZR h ^ 2) in G by (unfold msq; rewrite EB, Z.min_l, mult_IZR by lia; ring). lra. }
  rewrite F1, F2, F3. ring.
Qed.
(** The digits of level number j, over all the start states *)
Lemma sum_digits j l : (j < l)%nat ->
  let T := wsum (B ^ Z.of_nat l) (fun s => IZR (msq (states j s mod B))) in
  IZR (B ^ Z.of_nat l) * ((IZR B ^ 2 + 2) / 12 - IZR B / 4) <= T <= IZR (B ^ Z.of_nat l) * ((IZR B ^ 2 + 2) / 12) /\
  (j = 0%nat -> T = IZR (B ^ Z.of_nat l) * ((IZR B ^ 2 + 2) / 12)).
Proof.
  intros Hj T. destruct base_half as [EB Hh]. set (k := (l - j - 1)%nat).
  assert (El : (B ^ Z.of_nat l = (B ^ Z.of_nat k * B) * B ^ Z.of_nat j)%Z).
  { replace (Z.of_nat l) with (Z.of_nat k + 1 + Z.of_nat j)%Z by lia. rewrite !Z.pow_add_r, Z.pow_1_r by lia. reflexivity. }
  assert (Hk : (0 < B ^ Z.of_nat k)%Z) by (apply Z.pow_pos_nonneg; lia). assert (HJ : (0 < B ^ Z.of_nat j)%Z) by (apply Z.pow_pos_nonneg; lia).
  set (PK := (B ^ Z.of_nat k)%Z) in *. set (PJ := (B ^ Z.of_nat j)%Z) in *.
  assert (ET : T = wsum PJ (fun lo => wsum PK (fun v1 => wsum B (fun u => IZR (msq (states j (lo + PJ * (B * v1 + u)) mod B)))))).
  { unfold T. rewrite El, wsum_mul by nia. rewrite wsum_swap. apply wsum_ext. intros lo Hlo. rewrite wsum_mul by lia.
    apply wsum_ext. intros v1 _. apply wsum_ext. intros u _. do 4 f_equal. ring. }
  assert (Hin : forall lo c v1, (0 <= v1)%Z -> carried j lo c -> c = (fun _ => 0%Z) \/ c = (fun _ => 1%Z) \/ c = (fun v => (v / h) mod 2)%Z ->
     wsum B (fun u => IZR (msq (states j (lo + PJ * (B * v1 + u)) mod B))) = wsum B (fun u => IZR (msq ((u + c u) mod B)))).
  { intros lo c v1 Hv1 Hc Hcc. apply wsum_ext. intros u Hu. do 2 f_equal. unfold PJ. rewrite Hc by nia.
    replace (B * v1 + u + c (B * v1 + u))%Z with (u + c (B * v1 + u) + v1 * B)%Z by ring. rewrite Z_mod_plus_full. do 2 f_equal.
    destruct Hcc as [->|[->| ->]]; [reflexivity|reflexivity|]. rewrite EB. replace (2 * h * v1 + u)%Z with (u + (2 * v1) * h)%Z by ring.
    rewrite Z.div_add by lia. rewrite (Z.mul_comm 2 v1), Z_mod_plus_full. reflexivity. }
  assert (HL : IZR (B ^ Z.of_nat l) = IZR PJ * (IZR PK * IZR B)) by (rewrite El, !mult_IZR; ring).
  assert (HBr : IZR B = 2 * IZR h) by (rewrite EB, mult_IZR; reflexivity).
  assert (HS : S2 = IZR B * ((IZR B ^ 2 + 2) / 12)) by (rewrite sum_msq; field).
  assert (HS4 : S2 - IZR h ^ 2 = IZR B * ((IZR B ^ 2 + 2) / 12 - IZR B / 4)) by (rewrite HS, HBr; field).
  split.
  - rewrite ET, HL, !Rmult_assoc, <- HS, <- HS4. rewrite <- !(wsum_const PK), <- !(wsum_const PJ) by lia. split.
    + apply wsum_le. intros lo Hlo. apply wsum_le. intros v1 Hv1. destruct (carries j lo Hlo) as [Hc|[Hc|Hc]];
        rewrite (Hin _ _ v1 ltac:(lia) Hc) by auto; apply sum_carried; auto.
    + apply wsum_le. intros lo Hlo. apply wsum_le. intros v1 Hv1. destruct (carries j lo Hlo) as [Hc|[Hc|Hc]];
        rewrite (Hin _ _ v1 ltac:(lia) Hc) by auto; apply sum_carried; auto.
  - intros Hj0. rewrite ET, HL, !Rmult_assoc, <- HS. rewrite <- !(wsum_const PK), <- !(wsum_const PJ) by lia.
    apply wsum_ext. intros lo Hlo. apply wsum_ext. intros v1 Hv1. assert (Hc : carried j lo (fun _ => 0%Z)).
    { intros v Hv. subst j. unfold PJ in Hlo. change (Z.of_nat 0) with 0%Z in *. rewrite Z.pow_0_r in *. unfold states. cbn [Nat.iter nat_rect]. lia. }
    rewrite (Hin _ _ v1 ltac:(lia) Hc) by auto. rewrite (wsum_shift B 0 (fun r => IZR (msq r))) by lia. reflexivity.
Qed.
End Digits.
