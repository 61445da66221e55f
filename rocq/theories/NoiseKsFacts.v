(** * The noise of a keyswitch, as a random variable *)
From Verif Require Import Base Word WordFacts DecompModel DecompProofs ExtProdProofs RingSum KeyswitchSpec KeyswitchProofs NoiseSpec NoiseFacts NoiseDigitFacts NoiseModel NoiseKeyFacts.
From Coq Require Import Reals Lra Lia.

Section Column.
Context (w b : Z) (l : nat).
Local Notation d := (Dec b l).
Context (Hd : dec_wf w d).
Local Notation nr := (w - b * Z.of_nat l).
Local Notation Delta := (2 ^ nr).
Local Notation half := (2 ^ (nr - 1)).
Local Notation B := (2 ^ b).
Lemma ks_params : 0 < b < w /\ (0 < l)%nat /\ 0 < nr < w /\ Delta = 2 * half /\ 0 < half /\ 2 ^ w = B ^ Z.of_nat l * Delta /\ 0 < B ^ Z.of_nat l.
Proof.
  pose proof (nr_pos w d Hd) as Hn. destruct Hd as (H1 & H2 & H3 & H4). cbn [base_log level_count] in *.
  assert (HB : B ^ Z.of_nat l = 2 ^ (b * Z.of_nat l)) by (rewrite Z.pow_mul_r by lia; reflexivity).
  assert (E1 : Delta = 2 * half) by (rewrite (pow2_split nr 1) by lia; reflexivity).
  assert (E2 : 0 < half) by (apply pow2_pos; lia).
  assert (E3 : 2 ^ w = B ^ Z.of_nat l * Delta) by (rewrite HB, <- Z.pow_add_r by nia; f_equal; lia).
  assert (E4 : 0 < B ^ Z.of_nat l) by (rewrite HB; apply pow2_pos; nia).
  repeat (split; [first [assumption|nia]|]); assumption.
Qed.
(** A word, moved by half a rounding step *)
Definition moved (x : Z) : Z := (x + half) mod 2 ^ w.
(** What the rounding takes away *)
Definition lost (x : Z) : Z := moved x mod Delta - half.
Lemma closest_moved x : is_word w x -> closest_representable w d x = Delta * (moved x / Delta).
Proof.
  intros Hx. rewrite (closest_div w d Hd x Hx). cbn [base_log level_count]. destruct ks_params as (Hb & Hl & Hn & EH & Hh & Ew & HP).
  unfold moved. rewrite Ew. set (P := B ^ Z.of_nat l) in *. rewrite (Z.mul_comm P Delta). rewrite Z.mul_mod_distr_l by lia. f_equal.
  set (y := x + half). rewrite Z.rem_mul_r by lia. rewrite (Z.mul_comm Delta), Z.div_add by lia. rewrite (Z.div_small (y mod Delta)) by (apply Z.mod_pos_bound; lia). reflexivity.
Qed.
Lemma lost_spec x : is_word w x -> eqm (2 ^ w) (x - closest_representable w d x) (lost x).
Proof.
  intros Hx. rewrite closest_moved by assumption. unfold lost. destruct ks_params as (Hb & Hl & Hn & EH & Hh & Ew & HP).
  pose proof (Z.div_mod (moved x) Delta ltac:(lia)) as E.
  replace (moved x mod Delta) with (moved x - Delta * (moved x / Delta)) by lia. assert (Em : eqm (2 ^ w) (moved x) (x + half)) by apply eqm_mod.
  rewrite Em at 2. apply eqm_eq. ring.
Qed.
Lemma sdigit_moved x t : is_word w x -> (t < l)%nat -> sdigit w d t x * sdigit w d t x = msq b (states w b t (moved x / Delta) mod B).
Proof.
  intros Hx Ht. destruct ks_params as (Hb & Hl & Hn & EH & Hh & Ew & HP). unfold sdigit, xdigit, decomp. cbn [base_log level_count].
  rewrite (closest_moved x Hx). unfold shr. rewrite (Z.mul_comm Delta), Z.div_mul by lia. rewrite nth_digits by assumption.
  apply digit_sq; [assumption|]. apply states_nonneg; [assumption|]. apply Z.div_pos; [|lia]. apply Z.mod_pos_bound, pow2_pos. lia.
Qed.

Local Open Scope R_scope.
Lemma mean_moved G : mean (words w) (fun x => G (moved x / Delta)%Z (moved x mod Delta)%Z) =
  wsum (B ^ Z.of_nat l) (fun s => wsum Delta (fun r => G s r)) / IZR (2 ^ w).
Proof.
  destruct ks_params as (Hb & Hl & Hn & EH & Hh & Ew & HP). rewrite mean_words by lia. f_equal. unfold moved.
  assert (Hhw : (half <= 2 ^ w)%Z) by (apply Z.pow_le_mono_r; lia).
  rewrite (wsum_shift (2 ^ w) half (fun y => G (y / Delta)%Z (y mod Delta)%Z)) by lia. rewrite Ew, wsum_mul by lia.
  apply wsum_ext. intros s Hs. apply wsum_ext. intros r Hr. f_equal.
  - rewrite Z.mul_comm, Z.add_comm, Z.div_add, Z.div_small by lia. lia.
  - rewrite Z.mul_comm, Z.add_comm, Z_mod_plus_full, Z.mod_small by lia. reflexivity.
Qed.
Lemma IZR_pow_nz : IZR (2 ^ w) <> 0 /\ IZR (2 ^ w) = IZR (B ^ Z.of_nat l) * IZR Delta /\ 0 < IZR (B ^ Z.of_nat l) /\ 0 < IZR Delta.
Proof.
  destruct ks_params as (Hb & Hl & Hn & EH & Hh & Ew & HP). split; [|split; [rewrite <- mult_IZR; f_equal; exact Ew|split; apply IZR_lt; lia]].
  apply IZR_neq. pose proof (pow2_pos w ltac:(lia)). lia.
Qed.
Lemma lost_mean : mean (words w) (fun x => IZR (lost x)) = - (1 / 2) /\ mean (words w) (fun x => IZR (lost x) ^ 2) = (IZR Delta ^ 2 + 2) / 12.
Proof.
  destruct ks_params as (Hb & Hl & Hn & EH & Hh & Ew & HP). destruct IZR_pow_nz as (Hz & Hm & H1 & H2). destruct (wsum_centred half ltac:(lia)) as [C1 C2].
  rewrite <- EH in C1, C2. assert (HDr : IZR Delta = 2 * IZR half) by (rewrite EH, mult_IZR; reflexivity).
  unfold lost. split.
  - rewrite (mean_moved (fun _ r => IZR (r - half))). rewrite wsum_const, C1, Hm by lia. rewrite HDr in *. field. lra.
  - rewrite (mean_moved (fun _ r => IZR (r - half) ^ 2)). rewrite wsum_const, C2, Hm by lia. rewrite HDr in *. field. lra.
Qed.
Lemma digit_mean t : (t < l)%nat ->
  let T := mean (words w) (fun x => IZR (sdigit w d t x) ^ 2) in
  (IZR B ^ 2 + 2) / 12 - IZR B / 4 <= T <= (IZR B ^ 2 + 2) / 12 /\ (t = 0%nat -> T = (IZR B ^ 2 + 2) / 12).
Proof.
  intros Ht T. destruct ks_params as (Hb & Hl & Hn & EH & Hh & Ew & HP). destruct IZR_pow_nz as (Hz & Hm & H1 & H2).
  assert (ET : T = wsum (B ^ Z.of_nat l) (fun s => IZR (msq b (states w b t s mod B))) / IZR (B ^ Z.of_nat l)).
  { unfold T. rewrite (mean_ext _ _ (fun x => IZR (msq b (states w b t (moved x / Delta) mod B)))).
    - rewrite (mean_moved (fun s _ => IZR (msq b (states w b t s mod B)))). rewrite (wsum_ext (B ^ Z.of_nat l) _ (fun s => IZR Delta * IZR (msq b (states w b t s mod B)))).
      + rewrite wsum_scal, Hm. field. lra.
      + intros s _. apply wsum_const. lia.
    - intros x Hx. assert (Hxw : is_word w x).
      { unfold words in Hx. apply in_map_iff in Hx. destruct Hx as (i & <- & Hi). apply in_seq in Hi. split; lia. }
      rewrite <- (sdigit_moved x t Hxw Ht), mult_IZR. ring. }
  destruct (sum_digits w b Hb t l Ht) as [[S1 S2] S3]. rewrite ET. split.
  - match goal with |- context [?W / IZR (B ^ Z.of_nat l)] => assert (EW : W / IZR (B ^ Z.of_nat l) * IZR (B ^ Z.of_nat l) = W) by (field; lra) end.
    split; apply Rmult_le_reg_r with (IZR (B ^ Z.of_nat l)); try assumption; rewrite EW; lra.
  - intros E. rewrite (S3 E). field. lra.
Qed.

(** One mask element a, the key coefficient s it meets, and the noises of the rows of the keyswitching key for s *)
Notation column := (Z * (Z * list Z))%type.
Definition columns (Dk Ds : list Z) : list column := list_prod (words w) (list_prod Dk (samples l Ds)).
(** The key encrypts [r] times the coefficients of the secret key. *)
Definition column_noise (r : Z) (c : column) : Z :=
  (r * (lost (fst c) * fst (snd c)) - zsum l (fun j => sdigit w d (l - 1 - j) (fst c) * nth j (snd (snd c)) 0))%Z.
Lemma IZR_zsum n f : IZR (zsum n f) = nsum n (fun i => IZR (f i)).
Proof. induction n as [|n IH]; [reflexivity|]. rewrite nsum_S, <- IH. rewrite zsum_S, plus_IZR. reflexivity. Qed.
Lemma words_nil : words w <> [].
Proof.
  destruct ks_params as (Hb & _). unfold words. pose proof (pow2_pos w ltac:(lia)). destruct (Z.to_nat (2 ^ w)) eqn:E; [lia|discriminate].
Qed.
Lemma column_stats r Dk Ds : Dk <> [] -> Ds <> [] -> zmean Ds = 0 ->
  mean (columns Dk Ds) (fun c => IZR (column_noise r c)) = - (IZR r / 2) * zmean Dk /\
  variance (columns Dk Ds) (fun c => IZR (column_noise r c)) =
    IZR r ^ 2 * ((IZR Delta ^ 2 + 2) / 12 * moment 2 Dk - (1 / 2 * zmean Dk) ^ 2) + zvariance Ds * nsum l (fun j => mean (words w) (fun x => IZR (sdigit w d (l - 1 - j) x) ^ 2)).
Proof.
  intros HDk HDs H0. destruct lost_mean as [L1 L2]. assert (Hm1 : moment 1 Ds = 0) by (rewrite moment_1; exact H0).
  set (dig := fun j a => IZR (sdigit w d (l - 1 - j) a)).
  assert (Lc : forall a, mean (samples l Ds) (fun E => nsum l (fun j => dig j a * coord E j)) = 0 /\
     mean (samples l Ds) (fun E => nsum l (fun j => dig j a * coord E j) ^ 2) = zvariance Ds * nsum l (fun j => dig j a ^ 2)).
  { intros a. destruct (linear_combination Ds HDs l l (fun j => dig j a) (fun j => j) ltac:(auto) ltac:(auto)) as [E V]. rewrite Hm1, Rmult_0_l in E.
    split; [exact E|]. rewrite variance_moments in V by (apply samples_nil; assumption). rewrite E in V. rewrite zvariance_moments by assumption.
    rewrite <- (moment_1 Ds), <- V. ring. }
  assert (EN : forall a s E, IZR (column_noise r (a, (s, E))) = IZR r * (IZR (lost a) * IZR s) + -1 * nsum l (fun j => dig j a * coord E j)).
  { intros a s E. unfold column_noise. cbn [fst snd]. rewrite minus_IZR, !mult_IZR, IZR_zsum. unfold Rminus. f_equal.
    rewrite (nsum_ext l _ (fun j => dig j a * coord E j)); [ring|]. intros j Hj. rewrite mult_IZR. reflexivity. }
  assert (In1 : forall a, mean (list_prod Dk (samples l Ds)) (fun o => IZR (column_noise r (a, o))) = IZR r * zmean Dk * IZR (lost a)).
  { intros a. rewrite (mean_ext _ _ (fun o => IZR r * (IZR (lost a) * IZR (fst o)) + -1 * nsum l (fun j => dig j a * coord (snd o) j))) by (intros [s E] _; apply EN).
    rewrite (mean_indep_add Dk (samples l Ds) (fun s => IZR r * (IZR (lost a) * IZR s)) (fun E => -1 * nsum l (fun j => dig j a * coord E j)) HDk (samples_nil _ _ HDs)).
    rewrite !mean_scal. rewrite (proj1 (Lc a)). unfold zmean. ring. }
  assert (In2 : forall a, mean (list_prod Dk (samples l Ds)) (fun o => IZR (column_noise r (a, o)) ^ 2) = IZR r ^ 2 * moment 2 Dk * IZR (lost a) ^ 2 + zvariance Ds * nsum l (fun j => dig j a ^ 2)).
  { intros a. rewrite (mean_ext _ _ (fun o => (IZR r ^ 2 * (IZR (lost a) ^ 2 * IZR (fst o) ^ 2) + nsum l (fun j => dig j a * coord (snd o) j) ^ 2) +
        -2 * IZR r * IZR (lost a) * (IZR (fst o) * nsum l (fun j => dig j a * coord (snd o) j)))) by (intros [s E] _; rewrite EN; cbn [fst snd]; ring).
    rewrite mean_add, mean_scal.
    rewrite (mean_indep_add Dk (samples l Ds) (fun s => IZR r ^ 2 * (IZR (lost a) ^ 2 * IZR s ^ 2)) (fun E => nsum l (fun j => dig j a * coord E j) ^ 2) HDk (samples_nil _ _ HDs)).
    rewrite (mean_indep Dk (samples l Ds) IZR (fun E => nsum l (fun j => dig j a * coord E j))). rewrite (proj1 (Lc a)), (proj2 (Lc a)), !mean_scal. unfold moment. ring. }
  assert (EM : mean (columns Dk Ds) (fun c => IZR (column_noise r c)) = - (IZR r / 2) * zmean Dk).
  { unfold columns. rewrite mean_prod. rewrite (mean_ext _ _ (fun a => IZR r * zmean Dk * IZR (lost a))) by (intros a _; apply In1). rewrite mean_scal, L1. field. }
  split; [exact EM|]. rewrite variance_moments by (apply list_prod_nil; [apply words_nil|apply list_prod_nil; [assumption|apply samples_nil; assumption]]).
  rewrite EM. unfold columns. rewrite mean_prod. rewrite (mean_ext _ _ (fun a => IZR r ^ 2 * moment 2 Dk * IZR (lost a) ^ 2 + zvariance Ds * nsum l (fun j => dig j a ^ 2))) by (intros a _; apply In2).
  rewrite mean_add, !mean_scal, L2. unfold nsum at 1. rewrite mean_sum. fold (nsum l (fun j => mean (words w) (fun a => dig j a ^ 2))). unfold dig. field.
Qed.

(** The noise e of the input and n columns *)
Definition ks_noise (r : Z) (o : Z * list column) : Z := (r * fst o + fold_right (fun c z => column_noise r c + z) 0 (snd o))%Z.
Lemma ks_noise_IZR r e cs : IZR (ks_noise r (e, cs)) = IZR r * IZR e + rsum cs (fun c => IZR (column_noise r c)).
Proof.
  unfold ks_noise. cbn [fst snd]. rewrite plus_IZR, mult_IZR. f_equal. induction cs as [|c cs IH]; [reflexivity|]. cbn [fold_right rsum]. rewrite plus_IZR, IH. reflexivity.
Qed.
Lemma columns_nil Dk Ds : Dk <> [] -> Ds <> [] -> columns Dk Ds <> [].
Proof. intros. apply list_prod_nil; [apply words_nil|apply list_prod_nil; [assumption|apply samples_nil; assumption]]. Qed.
Lemma ks_noise_stats r n De Dk Ds : De <> [] -> Dk <> [] -> Ds <> [] -> zmean Ds = 0 ->
  let space := list_prod De (samples n (columns Dk Ds)) in
  mean space (fun o => IZR (ks_noise r o)) = IZR r * (zmean De - INR n / 2 * zmean Dk) /\
  variance space (fun o => IZR (ks_noise r o)) = IZR r ^ 2 * zvariance De + INR n * variance (columns Dk Ds) (fun c => IZR (column_noise r c)).
Proof.
  intros HDe HDk HDs H0 space. pose proof (columns_nil Dk Ds HDk HDs) as Hc. pose proof (samples_nil n _ Hc) as Hs.
  assert (E : forall o, In o space -> IZR (ks_noise r o) = IZR r * IZR (fst o) + rsum (snd o) (fun c => IZR (column_noise r c))) by (intros [e cs] _; apply ks_noise_IZR).
  rewrite (mean_ext _ _ _ E), (variance_ext _ _ _ E). destruct (samples_sum n (columns Dk Ds) (fun c => IZR (column_noise r c)) Hc) as [M V].
  unfold space. rewrite (mean_indep_add De _ (fun e => IZR r * IZR e) (fun cs => rsum cs (fun c => IZR (column_noise r c))) HDe Hs). rewrite (variance_indep De _ (fun e => IZR r * IZR e) (fun cs => rsum cs (fun c => IZR (column_noise r c))) HDe Hs).
  rewrite M, V, (proj1 (column_stats r Dk Ds HDk HDs H0)), mean_scal, variance_scal. unfold zvariance. split; [unfold zmean; field|reflexivity].
Qed.
End Column.
