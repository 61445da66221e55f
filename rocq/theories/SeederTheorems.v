(** * C46: seeders and the creation of the default engines *)
From Verif Require Import Base Word WordFacts RandomModel RandomProofs SeederModel.

Definition byte (b : Z) : Prop := 0 <= b < 256.

(** ** The UNIX seeder *)
Lemma lxor_word w a b : 0 <= w -> is_word w a -> is_word w b -> is_word w (Z.lxor a b).
Proof.
  unfold is_word. intros Hw Ha Hb.
  assert (Z.lxor a b = Z.lxor a b mod 2 ^ w) as ->; [|apply Z.mod_pos_bound; apply Z.pow_pos_nonneg; lia].
  apply Z.bits_inj'. intros n Hn. rewrite Z.testbit_mod_pow2 by lia. destruct (Z.ltb_spec n w); cbn [andb]; [reflexivity|].
  rewrite Z.lxor_spec. rewrite <- (Z.mod_small a (2 ^ w)), <- (Z.mod_small b (2 ^ w)) by lia. rewrite !Z.testbit_mod_pow2 by lia.
  destruct (Z.ltb_spec n w); [lia|]. reflexivity.
Qed.
Lemma lxor_cancel a b : Z.lxor a (Z.lxor a b) = b.
Proof. rewrite <- Z.lxor_assoc, Z.lxor_nilpotent, Z.lxor_0_l. reflexivity. Qed.
Lemma lxor_inj a x y : Z.lxor a x = Z.lxor a y -> x = y.
Proof. intros H. rewrite <- (lxor_cancel a x), <- (lxor_cancel a y), H. reflexivity. Qed.

Theorem C46_unix_formula : forall answers s seeds s', is_word 128 (us_counter s) ->
  unix_seeds s answers = Ret (seeds, s') ->
  length seeds = length answers /\
  forall i x, nth_error seeds i = Some x -> exists buf, nth_error answers i = Some (Some buf) /\
    x = Z.lxor (Z.lxor (us_secret s) ((us_counter s + Z.of_nat i) mod 2 ^ 128)) (le_value buf).
Proof.
  induction answers as [|[buf|] answers IH]; intros s seeds s' Hc E; cbn [unix_seeds] in E.
  - injection E as <- <-. split; [reflexivity|]. intros [|i] x H; discriminate.
  - unfold unix_seed, dev_random in E. cbn [obind] in E.
    destruct (unix_seeds (UnixSeeder (wadd 128 (us_counter s) 1) (us_secret s)) answers) as [[xs s1]|] eqn:E1; [|discriminate].
    cbn [obind] in E. injection E as <- <-.
    destruct (IH (UnixSeeder (wadd 128 (us_counter s) 1) (us_secret s)) _ _ ltac:(apply Z.mod_pos_bound; reflexivity) E1) as [L H]. cbn [us_counter us_secret] in H. split; [cbn [length]; lia|].
    intros [|i] x Hx; cbn [nth_error] in *.
    + injection Hx as <-. exists buf. split; [reflexivity|]. rewrite Z.add_0_r, Z.mod_small by exact Hc. reflexivity.
    + destruct (H i x Hx) as (b & Hb & ->). exists b. split; [exact Hb|]. f_equal. f_equal. unfold wadd.
      rewrite Zplus_mod_idemp_l. f_equal. lia.
  - discriminate.
Qed.
Print Assumptions C46_unix_formula.

(** Two calls that get the same answer from the device, less than 2^128 calls apart, return different seeds. *)
Theorem C46_unix_distinct : forall s answers seeds s' i j x y, is_word 128 (us_counter s) ->
  unix_seeds s answers = Ret (seeds, s') -> (i < j)%nat -> Z.of_nat j - Z.of_nat i < 2 ^ 128 ->
  nth_error answers i = nth_error answers j -> nth_error seeds i = Some x -> nth_error seeds j = Some y -> x <> y.
Proof.
  intros s answers seeds s' i j x y Hc E Hij Hd Ha Hx Hy Exy. destruct (C46_unix_formula _ _ _ _ Hc E) as [_ H].
  destruct (H i x Hx) as (b & Hb & Ex). destruct (H j y Hy) as (b' & Hb' & Ey).
  rewrite Ha, Hb' in Hb. injection Hb as ->. rewrite Ex, Ey in Exy.
  rewrite !(Z.lxor_comm _ (le_value b)) in Exy. apply lxor_inj, lxor_inj in Exy.
  clear - Exy Hij Hd Hc. revert Hd Exy. generalize (us_counter s). intros c. generalize (2 ^ 128) as q. intros q Hd Exy.
  assert (Hq : 0 < q) by (clear - Hij Hd; lia). apply (f_equal (fun z => z mod q)) in Exy.
  assert (D : (q | (c + Z.of_nat j) - (c + Z.of_nat i))).
  { apply Z.mod_divide; [clear - Hq; lia|]. rewrite Zminus_mod. rewrite !Zmod_mod in Exy. rewrite <- Exy, Z.sub_diag. apply Z.mod_0_l. clear - Hq; lia. }
  destruct D as [k Dk]. replace (c + Z.of_nat j - (c + Z.of_nat i)) with (Z.of_nat j - Z.of_nat i) in Dk by (clear; lia).
  assert (0 < Z.of_nat j - Z.of_nat i) by (clear - Hij; lia). clear - H Dk Hd Hq. rewrite Dk in H, Hd. assert (1 <= k) by nia. assert (1 * q <= k * q) by (apply Z.mul_le_mono_nonneg_r; lia). lia.
Qed.
Print Assumptions C46_unix_distinct.

(** No randomness of the device is lost: for every state of the seeder and every 128-bit seed there is exactly one answer of the
    device that leads to it.  The same holds of the secret given by the user. *)
Theorem C46_unix_device_bijective : forall s x, is_word 128 (us_counter s) -> is_word 128 (us_secret s) -> is_word 128 x ->
  exists dev, is_word 128 dev /\ forall buf, Forall byte buf -> length buf = 16%nat ->
    ((exists s', unix_seed s (Some buf) = Ret (x, s')) <-> le_value buf = dev).
Proof.
  intros s x Hc Hs Hx. exists (Z.lxor (Z.lxor (us_secret s) (us_counter s)) x).
  split; [apply lxor_word; [lia| |exact Hx]; apply lxor_word; [lia|assumption..]|]. intros buf Hb L. unfold unix_seed, dev_random. cbn [obind]. split.
  - intros [s' E]. injection E as E _. rewrite <- E, lxor_cancel. reflexivity.
  - intros ->. rewrite lxor_cancel. eexists. reflexivity.
Qed.
Print Assumptions C46_unix_device_bijective.
Theorem C46_unix_secret_bijective : forall counter buf x, is_word 128 counter -> Forall byte buf -> length buf = 16%nat -> is_word 128 x ->
  exists! secret, is_word 128 secret /\ exists s', unix_seed (UnixSeeder counter secret) (Some buf) = Ret (x, s').
Proof.
  intros counter buf x Hc Hb L Hx. unfold unix_seed, dev_random. cbn [obind us_secret us_counter].
  assert (Hv : is_word 128 (le_value buf)) by (pose proof (le_value_range buf Hb) as R; rewrite L in R; exact R).
  exists (Z.lxor counter (Z.lxor (le_value buf) x)). split; [split|].
  - apply lxor_word; [lia|exact Hc|]. apply lxor_word; [lia|assumption..].
  - eexists. f_equal. f_equal. rewrite (Z.lxor_comm (Z.lxor counter _) counter), lxor_cancel, (Z.lxor_comm (Z.lxor _ x)), lxor_cancel. reflexivity.
  - intros secret [_ [s' E]]. injection E as E _. rewrite <- E. rewrite (Z.lxor_comm _ (le_value buf)), lxor_cancel, (Z.lxor_comm secret), lxor_cancel. reflexivity.
Qed.
Print Assumptions C46_unix_secret_bijective.
(** Every seed is a 128-bit word, and a call is refused only when the device cannot be read. *)
Theorem C46_unix_total : forall s buf, is_word 128 (us_counter s) -> is_word 128 (us_secret s) -> Forall byte buf -> length buf = 16%nat ->
  exists x s', unix_seed s (Some buf) = Ret (x, s') /\ is_word 128 x /\ is_word 128 (us_counter s') /\ us_secret s' = us_secret s.
Proof.
  intros s buf Hc Hs Hb L. unfold unix_seed, dev_random. cbn [obind]. do 2 eexists. split; [reflexivity|].
  pose proof (le_value_range buf Hb) as R; rewrite L in R.
  split; [apply lxor_word; [lia| |exact R]; apply lxor_word; [lia|assumption..]|]. split; [|reflexivity]. apply Z.mod_pos_bound. lia.
Qed.
Print Assumptions C46_unix_total.

Example C46_unix_case :
  unix_seeds (unix_new 5 (2 ^ 128 - 1)) [Some (repeat 255 16); Some (repeat 255 16); Some (1 :: repeat 0 15)] = Ret ([5; 2 ^ 128 - 6; 5], UnixSeeder 2 5) /\
  is_word 128 (us_counter (unix_new 5 (2 ^ 128 - 1))) /\ is_word 128 (us_secret (unix_new 5 (2 ^ 128 - 1))) /\ Forall byte (repeat 255 16).
Proof.
  split; [vm_compute; reflexivity|]. split; [split; vm_compute; [discriminate|reflexivity]|]. split; [split; vm_compute; [discriminate|reflexivity]|].
  apply Forall_forall. intros b Hb. apply repeat_spec in Hb. subst b. unfold byte. lia.
Qed.

(** ** The rdseed seeder: the first two successful draws, and nothing else, make the seed *)
Definition successes (results : list (bool * Z)) : list Z := map snd (filter fst results).
Theorem C46_rdseed : forall results,
  match successes results with
  | r1 :: r2 :: rest => exists later, rdseed_random_m128 results = Some (r1 + 2 ^ 64 * r2, later) /\ successes later = rest
  | _ => rdseed_random_m128 results = None
  end.
Proof.
  assert (H : forall results, match successes results with
    | r :: rest => exists later, rdseed_until results = Some (r, later) /\ successes later = rest
    | [] => rdseed_until results = None end).
  { unfold successes. induction results as [|[[|] v] results IH]; cbn; [reflexivity| |exact IH]. exists results. split; reflexivity. }
  intros results. unfold rdseed_random_m128. pose proof (H results) as H1. destruct (successes results) as [|r1 rest].
  - rewrite H1. reflexivity.
  - destruct H1 as (later & -> & El). pose proof (H later) as H2. rewrite El in H2. destruct rest as [|r2 rest].
    + rewrite H2. reflexivity.
    + destruct H2 as (later' & -> & El'). exists later'. split; [reflexivity|exact El'].
Qed.
Print Assumptions C46_rdseed.
Theorem C46_rdseed_injective : forall r1 r2 r1' r2', is_word 64 r1 -> is_word 64 r2 -> is_word 64 r1' -> is_word 64 r2' ->
  is_word 128 (r1 + 2 ^ 64 * r2) /\ (r1 + 2 ^ 64 * r2 = r1' + 2 ^ 64 * r2' -> r1 = r1' /\ r2 = r2').
Proof. unfold is_word. intros. split; lia. Qed.
Print Assumptions C46_rdseed_injective.
Example C46_rdseed_case : rdseed_random_m128 [(false, 9); (true, 3); (false, 7); (true, 2); (true, 8)] = Some (3 + 2 ^ 64 * 2, [(true, 8)]).
Proof. reflexivity. Qed.

(** ** The deterministic seeder: the seeds are consecutive pieces of 16 bytes of the keystream *)
Theorem C46_deterministic_seeder : forall n g, bg_pos g + 16 * Z.of_nat n <= bg_end g ->
  exists seeds, deterministic_seeds n g = Ret (seeds, bg_advance g (16 * Z.of_nat n)) /\ length seeds = n /\
  forall i, (i < n)%nat -> nth_error seeds i = Some (le_value (map (bg_table g) (zseq (bg_pos g + 16 * Z.of_nat i) 16))).
Proof.
  induction n as [|n IH]; intros g H.
  - exists []. cbn [deterministic_seeds]. rewrite bg_advance_0. split; [reflexivity|]. split; [reflexivity|]. intros i Hi. lia.
  - cbn [deterministic_seeds]. unfold deterministic_seed. rewrite uniform_one_ok by (change (128 / 8) with 16; lia). cbn [obind].
    change (128 / 8) with 16. destruct (IH (bg_advance g 16)) as (seeds & E & L & Hs); [cbn [bg_advance bg_pos bg_end]; lia|].
    rewrite E. cbn [obind]. rewrite bg_advance_advance. replace (16 + 16 * Z.of_nat n) with (16 * Z.of_nat (S n)) by lia. eexists. split; [reflexivity|]. split; [cbn [length]; lia|].
    intros [|i] Hi; cbn [nth_error].
    + rewrite Z.add_0_r. reflexivity.
    + rewrite Hs by lia. cbn [bg_advance bg_pos bg_table]. do 4 f_equal. lia.
Qed.
Print Assumptions C46_deterministic_seeder.

(** ** Creation of the engines: the secret, mask and noise generators get the first three pieces, and the seeder that the engine keeps
    for compression seeds continues after them *)
Theorem C46_engine_creation : forall rng seed, bg_pos (rng seed) + 48 <= bg_end (rng seed) ->
  let piece i := le_value (map (bg_table (rng seed)) (zseq (bg_pos (rng seed) + 16 * i) 16)) in
  default_engine_new rng seed = Ret (Engine (rng (piece 0)) (EG (rng (piece 1)) (rng (piece 2))) (bg_advance (rng seed) 48)).
Proof.
  intros rng seed H piece. unfold default_engine_new, deterministic_seeder_new, deterministic_seed.
  do 3 (rewrite uniform_one_ok by (unfold bg_advance; cbn [bg_pos bg_end]; change (128 / 8) with 16; lia); cbn [obind]; change (128 / 8) with 16;
    rewrite ?bg_advance_advance).
  unfold piece. cbn [bg_advance bg_pos bg_table]. unfold table_word. change (Z.to_nat (128 / 8)) with 16%nat. rewrite Z.add_0_r. reflexivity.
Qed.
Print Assumptions C46_engine_creation.
Theorem C46_parallel_engine_creation : forall rng seed, bg_pos (rng seed) + 32 <= bg_end (rng seed) ->
  let piece i := le_value (map (bg_table (rng seed)) (zseq (bg_pos (rng seed) + 16 * i) 16)) in
  default_parallel_engine_new rng seed = Ret (EG (rng (piece 0)) (rng (piece 1)), bg_advance (rng seed) 32).
Proof.
  intros rng seed H piece. unfold default_parallel_engine_new, deterministic_seeder_new, deterministic_seed.
  do 2 (rewrite uniform_one_ok by (unfold bg_advance; cbn [bg_pos bg_end]; change (128 / 8) with 16; lia); cbn [obind]; change (128 / 8) with 16;
    rewrite ?bg_advance_advance).
  unfold piece. cbn [bg_advance bg_pos bg_table]. unfold table_word. change (Z.to_nat (128 / 8)) with 16%nat. rewrite Z.add_0_r. reflexivity.
Qed.
Print Assumptions C46_parallel_engine_creation.
(** A sequential and a parallel engine made from the same seed share a seed: the secret generator of the first starts on the stream of the
    masks of the second, whose mask bytes are public.  The user must not make two engines from one seed. *)
Theorem C46_same_seed_engines_refuted : forall rng seed, bg_pos (rng seed) + 48 <= bg_end (rng seed) ->
  exists e pe s, default_engine_new rng seed = Ret e /\ default_parallel_engine_new rng seed = Ret (pe, s) /\
    en_secret e = eg_mask pe.
Proof.
  intros rng seed H. do 3 eexists. split; [apply C46_engine_creation; exact H|]. split; [apply C46_parallel_engine_creation; lia|]. reflexivity.
Qed.
Print Assumptions C46_same_seed_engines_refuted.
Example C46_engine_case :
  let rng seed := BG (fun i => (seed + i) mod 256) 1 (2 ^ 132) in
  bg_pos (rng 7) + 48 <= bg_end (rng 7) /\
  match default_engine_new rng 7 with
  | Ret e => (bg_pos (en_seeder e), bg_table (en_secret e) 0, bg_table (eg_mask (en_encryption e)) 0, bg_table (eg_noise (en_encryption e)) 0) | Panic => (0, 0, 0, 0) end
  = (49, 8, 24, 40).
Proof. split; [vm_compute; discriminate|vm_compute; reflexivity]. Qed.
