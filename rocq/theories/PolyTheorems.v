(** * C15 - C17: polynomial arithmetic *)
From Verif Require Import Base Word WordFacts NegaRing PolySpec PolyModel PolyProofs KaratsubaProofs.

(** ** C15: every multiplication entry point computes the product modulo X^N + 1 and 2^w.
    [PolySpec.nega_coef N a b k] is the coefficient of the specification:
    sum of a_i b_j over i + j = k minus the sum over i + j = k + N. *)
Theorem C15_wrapping_mul : forall p w N self a b, 0 <= w -> (0 < N)%nat ->
  length a = N -> length b = N -> length self = N ->
  exists out, fill_with_wrapping_mul_ p w self a b = Ret out /\ length out = N /\
    forall k, 0 <= k < Z.of_nat N -> zc out k = nega_coef N a b k mod 2 ^ w.
Proof.
  intros p w N self a b Hw HN Ha Hb Hs. exists (nega w a b). split; [|split].
  - apply fill_with_wrapping_mul_ok; congruence.
  - unfold nega. rewrite map_length, zseq_len. assumption.
  - intros k Hk. unfold nega. rewrite Ha. apply (zc_map_zseq (fun k => nega_coef N a b k mod 2 ^ w)). assumption.
Qed.
Print Assumptions C15_wrapping_mul.

(** The product of two coefficients is a plain [*] in the accumulating products: in checked builds
    they need a second operand (the key) small enough for no product to overflow, e.g. binary. *)
Theorem C15_add_mul : forall p w N self a b, 0 <= w -> (0 < N)%nat ->
  length a = N -> length b = N -> length self = N -> Forall (is_word w) self ->
  p = Release \/ no_overflow w a b ->
  exists out, update_with_wrapping_add_mul_ p w self a b = Ret out /\ length out = N /\
    forall k, 0 <= k < Z.of_nat N -> zc out k = (zc self k + nega_coef N a b k) mod 2 ^ w.
Proof.
  intros p w N self a b Hw HN Ha Hb Hs Hself Hp. eexists. split; [|split].
  - apply add_mul_ok; congruence || assumption.
  - rewrite map_length, zseq_len. assumption.
  - intros k Hk. rewrite Ha. apply (zc_map_zseq (fun k => (zc self k + nega_coef N a b k) mod 2 ^ w)). assumption.
Qed.
Print Assumptions C15_add_mul.

Theorem C15_sub_mul : forall p w N self a b, 0 <= w -> (0 < N)%nat ->
  length a = N -> length b = N -> length self = N -> Forall (is_word w) self ->
  p = Release \/ no_overflow w a b ->
  exists out, update_with_wrapping_sub_mul_ p w self a b = Ret out /\ length out = N /\
    forall k, 0 <= k < Z.of_nat N -> zc out k = (zc self k - nega_coef N a b k) mod 2 ^ w.
Proof.
  intros p w N self a b Hw HN Ha Hb Hs Hself Hp. eexists. split; [|split].
  - apply sub_mul_ok; congruence || assumption.
  - rewrite map_length, zseq_len. assumption.
  - intros k Hk. rewrite Ha. apply (zc_map_zseq (fun k => (zc self k - nega_coef N a b k) mod 2 ^ w)). assumption.
Qed.
Print Assumptions C15_sub_mul.

(** A binary second operand never overflows. *)
Theorem C15_binary_no_overflow : forall w a b, Forall (is_word w) a ->
  Forall (fun x => x = 0 \/ x = 1) b -> no_overflow w a b.
Proof.
  intros w a b Ha Hb x y Hx Hy. rewrite Forall_forall in Ha, Hb.
  destruct (Ha x Hx). destruct (Hb y Hy) as [-> | ->]; lia.
Qed.
Print Assumptions C15_binary_no_overflow.

(** Without that, a checked build panics on a perfectly valid (for instance ternary) key. *)
Theorem C15_checked_ternary_refuted : exists self a b,
  length self = 2%nat /\ length a = 2%nat /\ length b = 2%nat /\
  Forall (is_word 32) self /\ Forall (is_word 32) a /\ Forall (fun x => x = 0 \/ x = 1 \/ x = 2 ^ 32 - 1) b /\
  update_with_wrapping_add_mul_ Debug 32 self a b = Panic.
Proof.
  exists [0; 0], [5; 7], [2 ^ 32 - 1; 1]. repeat (split; [reflexivity|]).
  split; [repeat constructor; lia|]. split; [repeat constructor; lia|]. split; [|vm_compute; reflexivity].
  constructor; [right; right; reflexivity|]. constructor; [right; left; reflexivity|constructor].
Qed.
Print Assumptions C15_checked_ternary_refuted.

(** Multisums: coefficient by coefficient, the sum over the zipped polynomials. *)
Definition sum_nega (N : nat) (cs bs : list (list Z)) (k : Z) : Z :=
  fold_right Z.add 0 (map2 (fun c b => nega_coef N c b k) cs bs).

Lemma rdot_coef N cs bs k : Forall (fun c => length c = N) cs -> Forall (fun b => length b = N) bs ->
  0 <= k < Z.of_nat N -> rcoef (rdot N cs bs) k = sum_nega N cs bs k.
Proof.
  intros Hc Hb Hk. revert bs Hb. induction Hc as [|c cs Hc1 Hc IH]; intros [|b bs] Hb; try reflexivity.
  inversion_clear Hb. unfold sum_nega in *. cbn [map2 fold_right rdot].
  change (rcoef (rmul (R N c) (R N b)) k + rcoef (rdot N cs bs) k = nega_coef N c b k + fold_right Z.add 0 (map2 (fun c b => nega_coef N c b k) cs bs)).
  rewrite IH, rmul_coef by assumption. reflexivity.
Qed.

Theorem C15_add_multisum : forall p w N self cs bs, 0 <= w -> (0 < N)%nat ->
  Forall (fun c => length c = N) cs -> Forall (fun b => length b = N) bs ->
  length self = N -> Forall (is_word w) self ->
  p = Release \/ Forall (fun c => Forall (no_overflow w c) bs) cs ->
  exists out, update_with_wrapping_add_multisum_ p w self cs bs = Ret out /\ length out = N /\
    forall k, 0 <= k < Z.of_nat N -> zc out k = (zc self k + sum_nega N cs bs k) mod 2 ^ w.
Proof.
  intros p w N self cs bs Hw HN Hc Hb Hs Hself Hp.
  destruct (add_multisum_spec w Hw p N self cs bs HN Hc Hb (conj Hs Hself) Hp) as (out & E & [Hl Hwd] & Hr).
  exists out. split; [assumption|]. split; [assumption|]. intros k Hk.
  rewrite <- (Z.mod_small (zc out k) (2 ^ w)) by (apply (zc_word w); [assumption|lia]).
  specialize (Hr k). rewrite rcoef_R, <- zc_coef in Hr by lia.
  etransitivity; [exact Hr|].
  change (rcoef (radd (R N self) (rdot N cs bs)) k) with (rcoef (R N self) k + rcoef (rdot N cs bs) k).
  rewrite rdot_coef, rcoef_R, <- zc_coef by (assumption || lia). reflexivity.
Qed.
Print Assumptions C15_add_multisum.

Theorem C15_sub_multisum : forall p w N self cs bs, 0 <= w -> (0 < N)%nat ->
  Forall (fun c => length c = N) cs -> Forall (fun b => length b = N) bs ->
  length self = N -> Forall (is_word w) self ->
  p = Release \/ Forall (fun c => Forall (no_overflow w c) bs) cs ->
  exists out, update_with_wrapping_sub_multisum_ p w self cs bs = Ret out /\ length out = N /\
    forall k, 0 <= k < Z.of_nat N -> zc out k = (zc self k - sum_nega N cs bs k) mod 2 ^ w.
Proof.
  intros p w N self cs bs Hw HN Hc Hb Hs Hself Hp.
  destruct (sub_multisum_spec w Hw p N self cs bs HN Hc Hb (conj Hs Hself) Hp) as (out & E & [Hl Hwd] & Hr).
  exists out. split; [assumption|]. split; [assumption|]. intros k Hk.
  rewrite <- (Z.mod_small (zc out k) (2 ^ w)) by (apply (zc_word w); [assumption|lia]).
  specialize (Hr k). rewrite rcoef_R, <- zc_coef in Hr by lia.
  etransitivity; [exact Hr|].
  change (rcoef (rsub (R N self) (rdot N cs bs)) k) with (rcoef (R N self) k - rcoef (rdot N cs bs) k).
  rewrite rdot_coef, rcoef_R, <- zc_coef by (assumption || lia). reflexivity.
Qed.
Print Assumptions C15_sub_multisum.

(** The specified product is the multiplication of the quotient ring: [NegaRing.rp N] is the ring
    of sequences with f(k+N) = -f(k), whose laws are proved in NegaRing.rp_ring_theory. *)
Theorem C15_product_in_quotient_ring : forall w N self a b p, 0 <= w -> (0 < N)%nat ->
  length a = N -> length b = N -> length self = N ->
  exists out, fill_with_wrapping_mul_ p w self a b = Ret out /\
    req (2 ^ w) (R N out) (rmul (R N a) (R N b)).
Proof.
  intros w N self a b p Hw HN Ha Hb Hs. exists (nega w a b). split.
  - apply fill_with_wrapping_mul_ok; congruence.
  - apply R_nega; assumption.
Qed.
Print Assumptions C15_product_in_quotient_ring.

Example C15_case :
  fill_with_wrapping_mul_ Debug 8 [9; 9; 9] [1; 2; 3] [200; 7; 250] = Ret [191; 169; 96]
  /\ update_with_wrapping_add_mul_ Debug 8 [1; 1; 1] [10; 20; 30] [1; 0; 1] = Ret [247; 247; 41]
  /\ update_with_wrapping_sub_multisum_ Debug 8 [0; 0] [[1; 2]; [3; 4]] [[1; 1]; [0; 1]] = Ret [5; 250].
Proof. vm_compute. repeat split. Qed.

(** ** C16: Karatsuba *)
Theorem C16_karatsuba_is_schoolbook : forall p w m fuel self1 self2 a b, 0 <= w -> (m <= fuel)%nat ->
  length a = (64 * 2 ^ m)%nat -> length b = length a -> length self1 = length a -> length self2 = length a ->
  fill_with_karatsuba_mul_ p w fuel self1 a b = fill_with_wrapping_mul_ p w self2 a b /\
  fill_with_wrapping_mul_ p w self2 a b <> Panic.
Proof.
  intros p w m fuel self1 self2 a b Hw Hm Ha Hb H1 H2.
  assert (Hpos : (1 <= 2 ^ m)%nat) by (clear; induction m; cbn; lia).
  rewrite (karatsuba_ok p w Hw m), fill_with_wrapping_mul_ok by (auto; lia). split; [reflexivity|discriminate].
Qed.
Print Assumptions C16_karatsuba_is_schoolbook.

(** Powers of two below 64: the recursion reaches size 0 without ever meeting its base case; no
    recursion budget is enough, i.e. the call overflows the stack. *)
Theorem C16_small_sizes_refuted : forall p w fuel self a b,
  (length a < 64)%nat -> is_pow2 (length a) = true -> length b = length a -> length self = length a ->
  fill_with_karatsuba_mul_ p w fuel self a b = Panic.
Proof.
  intros p w fuel self a b Ha Hpow Hb Hs. unfold fill_with_karatsuba_mul_.
  rewrite !ck_dim_eq_ok by congruence. cbn [obind].
  assert (Ea : match p with Debug => assert_ (is_pow2 (length a)) | Release => Ret tt end = Ret tt)
    by (destruct p; [rewrite Hpow|]; reflexivity).
  rewrite Ea. cbn [obind].
  pose proof (Nat.div_lt_upper_bound (length self) 2 32 ltac:(lia) ltac:(lia)) as Hd2.
  destruct (get_sub a 0 _) as [l0|] eqn:E; [|reflexivity].
  assert (Ll0 : (length l0 < 32)%nat).
  { unfold get_sub in E. destruct (_ && _)%bool; [|discriminate]. injection E as <-. rewrite firstn_length. unfold Nat.div in Hd2. lia. }
  clear E. cbn [obind]. destruct (get_sub b 0 _) as [q0|]; [|reflexivity]. cbn [obind].
  rewrite karatsuba_diverges; [reflexivity|assumption|]. rewrite repeat_length. lia.
Qed.
Print Assumptions C16_small_sizes_refuted.

Example C16_case :
  exists a b, length a = (64 * 2 ^ 1)%nat /\ length b = length a /\
    fill_with_karatsuba_mul_ Debug 32 1 a a b = Ret (nega 32 a b) /\ nth 5 (nega 32 a b) 0 = 4294715974.
Proof.
  exists (map (fun k => (k * k + 3) mod 97) (zseq 0 128)), (map (fun k => (k * 7 + 1) mod 89) (zseq 0 128)).
  split; [reflexivity|]. split; [reflexivity|]. split; vm_compute; reflexivity.
Qed.

(** ** C17: monomials *)

(** Coefficients of X^d * a: coefficient k is a_(k-d), with a sign for each passage of X^N = -1. *)
Definition shifted (N : nat) (a : list Z) (d k : Z) : Z :=
  let j := k - d in
  if Z.even (j / Z.of_nat N) then zc a (j mod Z.of_nat N) else - zc a (j mod Z.of_nat N).

Lemma shift_coef N a d k : (0 < N)%nat -> rcoef (rshift d (R N a)) k = shifted N a d k.
Proof.
  intros HN. unfold shifted. change (ext N a (k - d) = if Z.even ((k - d) / Z.of_nat N) then zc a ((k - d) mod Z.of_nat N) else - zc a ((k - d) mod Z.of_nat N)).
  unfold ext. destruct N as [|N]; [lia|]. rewrite zc_coef; [reflexivity|].
  apply Z.mod_pos_bound. lia.
Qed.

Lemma poly_eq_shift w N a d out : 0 <= w -> (0 < N)%nat -> poly_wf w N out ->
  req (2 ^ w) (R N out) (rshift d (R N a)) ->
  forall k, 0 <= k < Z.of_nat N -> zc out k = shifted N a d k mod 2 ^ w.
Proof.
  intros Hw HN [Hl Hwd] H k Hk. specialize (H k). rewrite rcoef_R, <- zc_coef, shift_coef in H by (assumption || lia).
  rewrite <- (Z.mod_small (zc out k) (2 ^ w)) by (apply (zc_word w); [assumption|lia]). exact H.
Qed.

Theorem C17_monomial_mul : forall w N a d, 0 <= w -> (0 < N)%nat -> length a = N -> Forall (is_word w) a ->
  length (monic_monomial_mul w a d) = N /\ Forall (is_word w) (monic_monomial_mul w a d) /\
  (forall k, 0 <= k < Z.of_nat N -> zc (monic_monomial_mul w a d) k = shifted N a (Z.of_nat d) k mod 2 ^ w) /\
  req (2 ^ w) (R N (monic_monomial_mul w a d)) (rmul (rmono N (Z.of_nat d)) (R N a)).
Proof.
  intros w N a d Hw HN Ha Hwd.
  destruct (monic_monomial_mul_ok w Hw N a d HN (conj Ha Hwd)) as [Hwf Hr].
  split; [apply Hwf|]. split; [apply Hwf|]. split.
  - apply poly_eq_shift; assumption.
  - rewrite rmono_mul. assumption.
Qed.
Print Assumptions C17_monomial_mul.

Theorem C17_monomial_div : forall w N a d, 0 <= w -> (0 < N)%nat -> length a = N -> Forall (is_word w) a ->
  length (unit_monomial_div w a d) = N /\ Forall (is_word w) (unit_monomial_div w a d) /\
  (forall k, 0 <= k < Z.of_nat N -> zc (unit_monomial_div w a d) k = shifted N a (- Z.of_nat d) k mod 2 ^ w) /\
  req (2 ^ w) (rmul (rmono N (Z.of_nat d)) (R N (unit_monomial_div w a d))) (R N a).
Proof.
  intros w N a d Hw HN Ha Hwd.
  destruct (unit_monomial_div_ok w Hw N a d HN (conj Ha Hwd)) as [Hwf Hr].
  split; [apply Hwf|]. split; [apply Hwf|]. split.
  - apply poly_eq_shift; assumption.
  - rewrite rmono_mul, Hr, rshift_add. replace (Z.of_nat d + - Z.of_nat d) with 0 by lia. apply rshift_0.
Qed.
Print Assumptions C17_monomial_div.

Theorem C17_inverse : forall w N a d, 0 <= w -> (0 < N)%nat -> length a = N -> Forall (is_word w) a ->
  unit_monomial_div w (monic_monomial_mul w a d) d = a /\ monic_monomial_mul w (unit_monomial_div w a d) d = a.
Proof.
  intros w N a d Hw HN Ha Hwd.
  destruct (monic_monomial_mul_ok w Hw N a d HN (conj Ha Hwd)) as [Hwf Hr].
  destruct (unit_monomial_div_ok w Hw N a d HN (conj Ha Hwd)) as [Hwf2 Hr2].
  destruct (unit_monomial_div_ok w Hw N _ d HN Hwf) as [Hwf3 Hr3].
  destruct (monic_monomial_mul_ok w Hw N _ d HN Hwf2) as [Hwf4 Hr4].
  split.
  - apply (R_inj N w); [apply Hwf3|assumption|apply Hwf3|assumption|].
    rewrite Hr3, Hr, rshift_add. replace (- Z.of_nat d + Z.of_nat d) with 0 by lia. apply rshift_0.
  - apply (R_inj N w); [apply Hwf4|assumption|apply Hwf4|assumption|].
    rewrite Hr4, Hr2, rshift_add. replace (Z.of_nat d + - Z.of_nat d) with 0 by lia. apply rshift_0.
Qed.
Print Assumptions C17_inverse.

Theorem C17_full_turns : forall w N a, 0 <= w -> (0 < N)%nat -> length a = N -> Forall (is_word w) a ->
  monic_monomial_mul w a (2 * N) = a /\ unit_monomial_div w a (2 * N) = a /\
  monic_monomial_mul w a N = map (wneg w) a /\
  forall d e, monic_monomial_mul w (monic_monomial_mul w a d) e = monic_monomial_mul w a (d + e).
Proof.
  intros w N a Hw HN Ha Hwd.
  assert (Hpos : 0 < 2 ^ w) by (apply pow2_pos; assumption).
  split; [|split; [|split]].
  - destruct (monic_monomial_mul_ok w Hw N a (2 * N) HN (conj Ha Hwd)) as [Hwf Hr].
    apply (R_inj N w); [apply Hwf|assumption|apply Hwf|assumption|]. rewrite Hr.
    replace (Z.of_nat (2 * N)) with (0 + 2 * Z.of_nat N * 1) by lia. rewrite rshift_periods. apply rshift_0.
  - destruct (unit_monomial_div_ok w Hw N a (2 * N) HN (conj Ha Hwd)) as [Hwf Hr].
    apply (R_inj N w); [apply Hwf|assumption|apply Hwf|assumption|]. rewrite Hr.
    replace (- Z.of_nat (2 * N)) with (0 + 2 * Z.of_nat N * (-1)) by lia. rewrite rshift_periods. apply rshift_0.
  - destruct (monic_monomial_mul_ok w Hw N a N HN (conj Ha Hwd)) as [Hwf Hr].
    apply (R_inj N w); [apply Hwf|rewrite map_length; assumption|apply Hwf|apply map_wneg_words; assumption|].
    rewrite Hr, rshift_N. symmetry. apply R_opp; [apply wneg_0; assumption|intros; apply wneg_eqm].
  - intros d e. destruct (monic_monomial_mul_ok w Hw N a d HN (conj Ha Hwd)) as [Hwf Hr].
    destruct (monic_monomial_mul_ok w Hw N _ e HN Hwf) as [Hwf2 Hr2].
    destruct (monic_monomial_mul_ok w Hw N a (d + e) HN (conj Ha Hwd)) as [Hwf3 Hr3].
    apply (R_inj N w); [apply Hwf2|apply Hwf3|apply Hwf2|apply Hwf3|].
    rewrite Hr2, Hr3, Hr, rshift_add. replace (Z.of_nat e + Z.of_nat d) with (Z.of_nat (d + e)) by lia. reflexivity.
Qed.
Print Assumptions C17_full_turns.

(** Every coefficient of the result is a coefficient of the input or its negation, each input index
    being used once: index k comes from (k - d) mod N. *)
Theorem C17_signed_permutation : forall w N a d k, 0 <= w -> (0 < N)%nat -> length a = N -> Forall (is_word w) a ->
  0 <= k < Z.of_nat N ->
  let x := zc a ((k - Z.of_nat d) mod Z.of_nat N) in
  zc (monic_monomial_mul w a d) k = x \/ zc (monic_monomial_mul w a d) k = wneg w x.
Proof.
  intros w N a d k Hw HN Ha Hwd Hk. cbv zeta.
  destruct (C17_monomial_mul w N a d Hw HN Ha Hwd) as (_ & _ & H & _). rewrite H by assumption. unfold shifted.
  destruct (Z.even _); [left|right; reflexivity].
  apply Z.mod_small. apply (zc_word w); [assumption|]. pose proof (Z.mod_pos_bound (k - Z.of_nat d) (Z.of_nat N)). lia.
Qed.
Print Assumptions C17_signed_permutation.

Example C17_case :
  monic_monomial_mul 8 [1; 2; 3; 4] 5 = [4; 255; 254; 253] /\ unit_monomial_div 8 [1; 2; 3; 4] 5 = [254; 253; 252; 1]
  /\ monic_monomial_mul 8 [1; 2; 3; 4] 8 = [1; 2; 3; 4].
Proof. vm_compute. repeat split. Qed.
