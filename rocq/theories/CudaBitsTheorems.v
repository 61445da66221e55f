(** * C69: the bit extraction of the CUDA backend *)
From Coq Require Import Reals Lra Permutation.
From Verif Require Import Base Word WordFacts DecompModel DecompProofs NegaRing RingSum PolySpec LweSpec LweModel LweProofs LweTheorems GlweSpec GlweModel GgswSpec ExtProdModel ExtProdSpec ExtProdTheorems
  BootstrapSpec BootstrapModel BootstrapTheorems KeyswitchSpec KeyswitchModel KeyswitchTheorems WopModel WopSpec WopBitsProofs WopBitsTheorems
  CudaBlockModel CudaBlockProofs CudaFftModel CudaFftSpec CudaFftAlgebra CudaFftProofs CudaFftFacts CudaFftTheorems CudaFftRealTheorems
  CudaPbsModel CudaPbsSpec CudaPbsLink CudaPbsTheorems CudaPbsRealModel CudaPbsReal CudaPbsRealBackend CudaPbsRealTheorems CudaGridModel CudaLowLatModel CudaLowLatTheorems CudaLowLatRealTheorems
  CudaSpec CudaKsModel CudaKsTheorems CudaGatesModel CudaGatesTheorems CudaBitsModel CudaBitsProofs.
From Verif Require CudaModel CudaFacts CudaTheorems.
Local Open Scope Z_scope.
Notation phase := LweSpec.phase.


(** ** What the small kernels write *)
Lemma kernel_map {A} sched (f : nat -> A -> outcome A) (g : nat -> A -> A) cells (buf res : list A) : any_order sched -> NoDup cells ->
  (forall c old, In c cells -> f c old = Ret (g c old)) -> (forall c, In c cells <-> (c < length buf)%nat) -> length res = length buf ->
  (forall c old, nth_error buf c = Some old -> nth_error res c = Some (g c old)) -> cell_kernel sched f cells buf = Ret res.
Proof.
  intros Hs Hnd Hf Hc Lr Hg. destruct (cell_kernel_ok sched f g cells buf Hs Hnd Hf ltac:(intros c X; apply Hc, X)) as (out & E & L & H1 & _). rewrite E. f_equal.
  apply CudaFacts.nth_error_ext. intros c. destruct (nth_error buf c) as [old|] eqn:Eo.
  - rewrite (Hg c old Eo). apply H1; [apply Hc, nth_error_Some; congruence|exact Eo].
  - apply nth_error_None in Eo. rewrite !(proj2 (nth_error_None _ _)) by lia. reflexivity.
Qed.
Lemma nth_error_combine {A B} : forall (l : list A) (m : list B) c a b, nth_error (combine l m) c = Some (a, b) -> nth_error l c = Some a /\ nth_error m c = Some b.
Proof. induction l as [|x l IH]; intros [|y m] [|c] a b E; try discriminate; cbn in *; [injection E as <- <-; auto|]. apply IH, E. Qed.
Lemma map_fst_combine {A B} : forall (l : list A) (m : list B), length l = length m -> map fst (combine l m) = l.
Proof. induction l as [|x l IH]; intros [|y m] L; try discriminate; [reflexivity|]. cbn. f_equal. apply IH. cbn in L. lia. Qed.
Lemma map_snd_combine {A B} : forall (l : list A) (m : list B), length l = length m -> map snd (combine l m) = m.
Proof. induction l as [|x l IH]; intros [|y m] L; try discriminate; [reflexivity|]. cbn. f_equal. apply IH. cbn in L. lia. Qed.
Lemma combine_nth_error {A B} : forall (l : list A) (m : list B) c a b, nth_error l c = Some a -> nth_error m c = Some b -> nth_error (combine l m) c = Some (a, b).
Proof. induction l as [|x l IH]; intros [|y m] [|c] a b E1 E2; try discriminate; cbn in *; [injection E1 as <-; injection E2 as <-; auto|]. apply IH; assumption. Qed.

Section Kernels.
Context (w : Z) (x : bits_hardware) (H T opt k : nat).
Hypothesis (HT : (0 < T)%nat) (HH : (opt * T = H)%nat) (Hk : (0 < k)%nat).
Hypothesis (Hfirst : any_order (x_first x)) (Horder : forall bit j, any_order (x_order x bit j)).
Notation N := (2 * H)%nat.

Lemma copy_and_shift_ok dst src value : length dst = S (k * N) -> length src = S (k * N) -> copy_and_shift_lwe w x H T opt k dst src value = Ret (map (fun v => wmul w v value) src).
Proof.
  intros Ld Ls. apply (kernel_map _ _ (fun c _ => wmul w (nth c src 0) value)); [exact Hfirst|apply shift_cells_nodup; assumption| | | |].
  - intros c old Hc. apply (shift_cells_in H T opt k HT HH Hk) in Hc. rewrite (CudaFacts.get_some _ _ (nth c src 0)) by (apply nth_error_nth'; lia). reflexivity.
  - intros c. rewrite (shift_cells_in H T opt k HT HH Hk), Ld. lia.
  - rewrite map_length. lia.
  - intros c old Ho. assert (c < length src)%nat by (rewrite Ls, <- Ld; apply nth_error_Some; congruence). rewrite nth_error_map, (nth_error_nth' src 0) by lia. reflexivity.
Qed.
Lemma copy_small_ok bit a old rest src size lwe_id : length a = (lwe_id * size)%nat -> length old = size -> length src = size ->
  copy_small_lwe x bit (a ++ old ++ rest) src size lwe_id = Ret (a ++ src ++ rest).
Proof.
  intros La Lo Ls. unfold copy_small_lwe. rewrite <- La, skipn_app, skipn_all, Nat.sub_diag, firstn_app, Nat.sub_diag, firstn_all. cbn [skipn firstn app]. rewrite app_nil_r.
  destruct (cell_kernel_ok (x_order x bit 0) (fun c _ => CudaModel.get src c) (fun c _ => nth c src 0) (small_cells size) (old ++ rest)) as (out & E & L & H1 & H2).
  - apply Horder.
  - apply (small_cells_nodup H T opt k); assumption.
  - intros c o Hc. apply (small_cells_in H T opt k HT HH Hk) in Hc. apply CudaFacts.get_some, nth_error_nth'. lia.
  - intros c Hc. apply (small_cells_in H T opt k HT HH Hk) in Hc. rewrite app_length. lia.
  - rewrite E. cbn [obind]. do 2 f_equal. apply CudaFacts.nth_error_ext. intros c. destruct (Nat.ltb_spec c size) as [Hc|Hc].
    + rewrite (nth_error_app1 src) by lia. rewrite (nth_error_nth' src 0) by lia. apply (H1 c (nth c old 0)); [apply (small_cells_in H T opt k HT HH Hk); exact Hc|]. rewrite nth_error_app1 by lia. apply nth_error_nth'. lia.
    + rewrite H2 by (rewrite (small_cells_in H T opt k HT HH Hk); lia). rewrite !nth_error_app2 by lia. f_equal. lia.
Qed.
Lemma gpu_add_to_body_ok lwe n value : length lwe = S n -> gpu_add_to_body w lwe n value = add_to_body w lwe value.
Proof.
  intros L. destruct (snoc_dec lwe n L) as (m & b & -> & Lm). unfold gpu_add_to_body, add_to_body, cell_kernel. cbn [length run_cells]. rewrite (CudaFacts.get_some [n] 0 n) by reflexivity. cbn [obind].
  assert (En : nth_error (m ++ [b]) n = Some b) by (rewrite nth_error_app2, Lm, Nat.sub_diag by lia; reflexivity). rewrite (CudaFacts.get_some _ _ b) by exact En. cbn [obind].
  rewrite split_last_snoc. cbn [obind]. unfold set_cell. rewrite app_length, Lm. cbn [length]. replace (n <? n + 1)%nat with true by (symmetry; apply Nat.ltb_lt; lia). cbn [obind].
  rewrite firstn_snoc by exact Lm. rewrite skipn_all2 by (rewrite app_length; cbn [length]; lia). reflexivity.
Qed.
Lemma fill_lut_ok bit zeros old value : length zeros = (k * N)%nat -> length old = N -> fill_lut_body_for_current_bit x H T opt k bit (zeros ++ old) value = Ret (zeros ++ repeat value N).
Proof.
  intros Lz Lo. unfold fill_lut_body_for_current_bit.
  destruct (cell_kernel_ok (x_order x bit 1) (fun _ _ => Ret value) (fun _ _ => value) (flat_map (fun t => map (fun c => k * N + c)%nat (strided T (2 * opt) t)) (seq 0 T)) (zeros ++ old)) as (out & E & L & H1 & H2).
  - apply Horder.
  - apply (body_cells_nodup H T opt k); assumption.
  - reflexivity.
  - intros c Hc. apply (body_cells_in H T opt k HT HH Hk) in Hc. rewrite app_length. lia.
  - rewrite E. f_equal. apply CudaFacts.nth_error_ext. intros c. destruct (Nat.ltb_spec c (k * N)) as [Hc|Hc].
    + rewrite H2 by (rewrite (body_cells_in H T opt k HT HH Hk); lia). rewrite !nth_error_app1 by lia. reflexivity.
    + destruct (Nat.ltb_spec c (k * N + N)) as [Hc2|Hc2].
      * rewrite (H1 c (nth (c - k * N) old 0)); [|apply (body_cells_in H T opt k HT HH Hk); lia|rewrite nth_error_app2, Lz by lia; apply nth_error_nth'; lia].
        rewrite nth_error_app2, Lz by lia. symmetry. apply nth_error_repeat. lia.
      * rewrite !(proj2 (nth_error_None _ _)); [reflexivity|rewrite app_length, repeat_length; lia|rewrite L, app_length; lia].
Qed.
Lemma add_sub_and_mul_ok bit shifted state pbs pbs' add mul : length shifted = S (k * N) -> length state = S (k * N) -> length pbs = S (k * N) -> add_to_body w pbs add = Ret pbs' ->
  add_sub_and_mul_lwe w x H T opt k bit shifted state pbs add mul = Ret (map (fun v => wmul w v mul) (map2 (wsub w) state pbs'), map2 (wsub w) state pbs').
Proof.
  intros L1 L2 L3 E. destruct (snoc_dec pbs _ L3) as (m & b & -> & Lm). unfold add_to_body in E. rewrite split_last_snoc in E. cbn [obind] in E. injection E as <-.
  set (res := map2 (wsub w) state (m ++ [wadd w b add])). assert (Lr : length res = S (k * N)) by (unfold res; rewrite CudaTheorems.map2_len by (rewrite app_length; cbn [length]; lia); exact L2).
  unfold add_sub_and_mul_lwe. rewrite (kernel_map _ _ (fun c old => let st := wsub w (snd old) (if Nat.eqb c (k * N) then wadd w (nth c (m ++ [b]) 0) add else nth c (m ++ [b]) 0) in (wmul w st mul, st))
    _ _ (combine (map (fun v => wmul w v mul) res) res)).
  - cbn [obind]. rewrite map_fst_combine, map_snd_combine by (rewrite map_length; reflexivity). reflexivity.
  - apply Horder.
  - apply sub_cells_nodup; assumption.
  - intros c old Hc. apply (sub_cells_in H T opt k HT HH Hk) in Hc. rewrite (CudaFacts.get_some _ _ (nth c (m ++ [b]) 0)) by (apply nth_error_nth'; lia). reflexivity.
  - intros c. rewrite (sub_cells_in H T opt k HT HH Hk), combine_length. lia.
  - rewrite !combine_length, map_length. lia.
  - intros c [sh st] Ho. apply nth_error_combine in Ho. destruct Ho as [Ho1 Ho2]. cbn [snd]. cbv zeta.
    assert (Hc : (c < S (k * N))%nat) by (rewrite <- L2; apply nth_error_Some; congruence).
    assert (Er : nth_error res c = Some (wsub w st (if Nat.eqb c (k * N) then wadd w (nth c (m ++ [b]) 0) add else nth c (m ++ [b]) 0))).
    { unfold res. rewrite CudaTheorems.map2_nth, Ho2. destruct (Nat.eqb_spec c (k * N)) as [->|Hn].
      - rewrite nth_error_app2, Lm, Nat.sub_diag by lia. cbn [nth_error]. rewrite app_nth2, Lm, Nat.sub_diag by lia. reflexivity.
      - rewrite nth_error_app1 by lia. rewrite (nth_error_nth' m 0) by lia. rewrite app_nth1 by lia. reflexivity. }
    apply combine_nth_error; [|exact Er]. rewrite nth_error_map, Er. reflexivity.
Qed.
End Kernels.

(** ** The words of the ciphertext as doubles *)
(** What the conversion of a word to a double can lose (C61_ciphertext_rounding) *)
Definition rounding (w : Z) : Z := if w =? 64 then 1024 else 0.
Lemma as_double_close w v : w = 32 \/ w = 64 -> is_word w v -> exists e, Z.abs e <= rounding w /\ eqm (2 ^ w) (as_double w v) (v + e).
Proof.
  intros [-> | ->] Hv.
  - exists 0. split; [discriminate|]. rewrite (proj1 C61_ciphertext_rounding v Hv). apply eqm_eq. ring.
  - destruct (proj2 C61_ciphertext_rounding v Hv) as (e & He & E). exists e. split; [exact He|]. rewrite E. apply eqm_mod.
Qed.
Lemma rounded_dot w : w = 32 \/ w = 64 -> forall s m, Forall (fun x => x = 0 \/ x = 1) s -> Forall (is_word w) m ->
  exists e, Z.abs e <= Z.of_nat (length s) * rounding w /\ eqm (2 ^ w) (dot (map (as_double w) m) s) (dot m s + e).
Proof.
  intros Hw s. assert (Hr : 0 <= rounding w) by (destruct Hw as [-> | ->]; discriminate). induction s as [|y s IH]; intros m Hs Hm.
  - exists 0. split; [cbn; lia|]. destruct m; apply eqm_eq; reflexivity.
  - destruct m as [|v m]; [exists 0; split; [rewrite Z.abs_0; apply Z.mul_nonneg_nonneg; [lia|exact Hr]|apply eqm_eq; reflexivity]|].
    apply Forall_cons_iff in Hs. destruct Hs as [Hy Hs]. apply Forall_cons_iff in Hm. destruct Hm as [Hv Hm].
    destruct (IH m Hs Hm) as (e & He & E). destruct (as_double_close w v Hw Hv) as (e1 & He1 & E1). exists (e1 * y + e). split.
    + cbn [length]. rewrite Nat2Z.inj_succ. set (r := rounding w) in *. set (q := Z.of_nat (length s) * r) in *. replace (Z.succ (Z.of_nat (length s)) * r) with (r + q) by (unfold q; ring).
      clearbody q r. destruct Hy as [-> | ->]; lia.
    + cbn [map dot]. rewrite E, E1. apply eqm_eq. ring.
Qed.
Lemma rounded_phase w s c : w = 32 \/ w = 64 -> Forall (fun x => x = 0 \/ x = 1) s -> lwe_wf w (length s) c ->
  exists e, Z.abs e <= (Z.of_nat (length s) + 1) * rounding w /\ eqm (2 ^ w) (phase w s (map (as_double w) c)) (phase w s c + e).
Proof.
  intros Hw Hs [L F]. destruct (snoc_dec c _ L) as (m & b & -> & Lm). apply Forall_app in F. destruct F as [Fm Fb]. apply Forall_inv in Fb.
  destruct (rounded_dot w Hw s m Hs Fm) as (e & He & E). destruct (as_double_close w b Hw Fb) as (e1 & He1 & E1). exists (e1 - e). split.
  - rewrite Z.mul_add_distr_r, Z.mul_1_l. lia.
  - rewrite !phase_eqm, map_app. cbn [map]. rewrite !raw_snoc, E, E1. apply eqm_eq. ring.
Qed.
Lemma concat_zeros N : forall k, concat (repeat (repeat 0 N) k) = repeat 0 (k * N).
Proof. induction k as [|k IH]; [reflexivity|]. cbn [repeat concat]. rewrite IH, <- repeat_app. reflexivity. Qed.
Lemma concat_const N k v : concat (const_accumulator N (S k) v) = repeat 0 (k * N) ++ repeat v N.
Proof. unfold const_accumulator. replace (S k - 1)%nat with k by lia. rewrite concat_app, concat_zeros. cbn [concat]. rewrite app_nil_r. reflexivity. Qed.
Lemma constant_in_memory H k v m : test_vector_at H 0 (repeat (repeat 0 (2 * H)) k ++ [repeat v (2 * H)]) (copied_words LUT (repeat 0 (k * (2 * H)) ++ repeat v (2 * H)) m).
Proof.
  intros z i Hz Hi. unfold copied_words. rewrite Nat.eqb_refl. cbn [andb]. set (N := (2 * H)%nat) in *. rewrite app_length, repeat_length in Hz. cbn [length] in Hz.
  rewrite app_length, !repeat_length. assert (B : (0 + z * N + i < k * N + N)%nat) by nia. destruct (Nat.ltb_spec (0 + z * N + i) (k * N + N)) as [_|]; [|lia]. f_equal.
  destruct (Nat.ltb_spec z k) as [Hlt|Hge].
  - rewrite app_nth1 by (rewrite repeat_length; nia). rewrite nth_repeat. rewrite app_nth1 by (rewrite repeat_length; exact Hlt).
    rewrite (nth_indep _ [] (repeat 0 N)) by (rewrite repeat_length; exact Hlt). rewrite nth_repeat. symmetry. apply nth_repeat.
  - assert (z = k) by lia. subst z. rewrite !app_nth2 by (rewrite repeat_length; lia). rewrite !repeat_length, Nat.sub_diag. cbn [nth]. f_equal. lia.
Qed.

(** ** The extraction *)
Section Extract.
Context (w : Z) (ok : addr -> bool) (size : nat -> nat) (H T opt : nat) (s : list Z) (key : list (list Z)).
Context (pbs_b beta : Z) (bsk : list (list (list (list (list Z))))).
Context (ks_b : Z) (ks_l : nat) (gamma : Z) (noise : nat -> nat -> Z) (ksk : list (list (list Z))) (max_shared M : Z).
Notation n := (length s).
Notation k := (length key).
Notation N := (2 * H)%nat.
Notation big := (glwe_key_into_lwe_key key).
(** The bootstrap key, for the key [s] of the output under the GLWE key, with one level, and the memory of the kernels *)
Hypothesis (Hw : w = 32 \/ w = 64) (Hshape : shape H T opt) (Hvars : has_variables ok) (Hmem : has_memory ok size).
Hypothesis (Hb31 : pbs_b <= 31) (Hd : dec_wf w (Dec pbs_b 1)) (HN4 : 4 * Z.of_nat N < 2 ^ 32).
Hypothesis (Hidx : 2 * Z.of_nat n * (Z.of_nat k + 1) * (Z.of_nat k + 1) * Z.of_nat H < 2 ^ 32).
Hypothesis (Hbeta : 0 <= beta) (Hkey : binary_key N key) (Hk0 : (0 < k)%nat) (Hs : Forall (fun x => x = 0 \/ x = 1) s) (Hbsk : bsk_encrypts w pbs_b N 1 key beta bsk s).
Hypothesis (Hsize : enough_for_blocks H k n [0%nat] size).
(** The keyswitch key, from the key of the input to [s] *)
Hypothesis (Hdk : dec_wf w (Dec ks_b ks_l)) (Hksk : ksk_encrypts w ks_b ks_l s big noise ksk).
Hypothesis (Hgamma : forall i j, (i < k * N)%nat -> (j < ks_l)%nat -> Z.abs (noise i j) <= gamma).
Hypothesis (Hksmall : Z.of_nat (k * N) * Z.of_nat ks_l * (Z.of_nat n + 1) < 2 ^ 31) (Hshared : w / 8 * (Z.of_nat n + 1) <= max_shared).
(** [M]: what the switch of modulus and the conversion of the words to doubles need around 0 and half the torus *)
Hypothesis (HM : 2 ^ w * (Z.of_nat n + 1) <= 4 * Z.of_nat N * (M - (Z.of_nat n + 1) * rounding w)).

(** Any order of the threads, any content of the shared memory, and the bootstrap key in memory *)
Definition bits_hardware_ok (x : bits_hardware) : Prop :=
  any_order (x_first x) /\ (forall bit j, any_order (x_order x bit j)) /\
  (forall bit, key_at w 0%R 1%R Rplus Rmult Ropp H k 1 (key_to_double w) exact_twiddle bsk (x_memory x bit)) /\
  (forall bit i, length (x_shared x bit i) = S n).
Definition bootstrap_noise : Z := Z.of_nat n * ep_error w pbs_b k N 1 1 beta (gpu_error w N pbs_b (S k)).
Definition bit_noise (delta e0 : Z) (i : Z) : Z := extract_error w delta e0 bootstrap_noise (keyswitch_error w ks_b (k * N) ks_l gamma) i.
Definition extract (x : bits_hardware) (delta : Z) (count : nat) (out lwe : list Z) : outcome (list Z) :=
  host_extract_bits w x H T opt k ok pbs_b 1 max_shared ks_b ks_l (concat (concat ksk)) (k * N) n count delta out lwe.

Lemma w32 : 32 <= w.
Proof. destruct Hw as [-> | ->]; lia. Qed.
Lemma H1 : (1 <= H)%nat.
Proof. destruct Hshape as (_ & _ & _ & n0 & _ & ->). pose proof (Nat.pow_nonzero 2 n0). lia. Qed.
Lemma Lbig : length big = (k * N)%nat.
Proof. apply length_big. eapply Forall_impl; [|exact Hkey]. intros a Ha. apply Ha. Qed.
Lemma kN0 : (0 < k * N)%nat.
Proof. pose proof H1. nia. Qed.

Lemma gpu_sign_bootstraps x bit : bits_hardware_ok x ->
  sign_bootstraps w N (S k) s big M bootstrap_noise (fun _ lwe acc => pbs_of_bit w x H opt k ok pbs_b 1 n bit lwe (concat acc)).
Proof.
  intros (_ & _ & Hmk & _) out lwe v Lo Wl Hv. rewrite concat_const, Lbig. pose proof H1 as HH. pose proof w32 as W32.
  destruct (C62_lookup w ok size H T opt Hw Hshape Hvars Hmem pbs_b key beta bsk s [repeat v N] [lwe] [0%nat] (x_pbs x bit) (x_private x bit)
    (copied_words LUT (repeat 0 (k * N) ++ repeat v N) (x_memory x bit))) as (m' & El & Hz); try assumption; try reflexivity.
  - constructor; [exact Wl|constructor].
  - constructor; [|constructor]. split; [apply repeat_length|]. apply Forall_forall. intros y Hy. apply repeat_spec in Hy. subst y. exact Hv.
  - cbn. lia.
  - cbn [length]. intros z Hzz. assert (z = 0%nat) by lia. subst z. cbn [nth]. apply constant_in_memory.
  - exact (Hmk bit).
  - destruct (Hz 0%nat ltac:(cbn; lia)) as (r & e & Hr & Wr & He & Hval). cbn [nth] in *. exists r, e.
    split; [|split; [exact Wr|]; split].
    + unfold pbs_of_bit. rewrite El. cbn [obind]. f_equal. destruct Wr as [Lr _]. apply (nth_ext _ _ 0 0); [rewrite map_length, seq_length; lia|]. rewrite map_length, seq_length. intros j Hj.
      rewrite nth_seq_map by exact Hj. rewrite <- (Nat.add_0_l j), Hr by lia. reflexivity.
    + unfold bootstrap_noise. eapply Z.le_trans; [exact He|]. apply Z.mul_le_mono_nonneg_r.
      * unfold ep_error, gpu_error. destruct Hd as (D1 & D2 & D3 & D4). cbn [base_log level_count] in *.
        assert (0 <= 2 ^ (pbs_b - 1)) by (apply Z.pow_nonneg; lia). assert (0 <= 2 ^ (w - pbs_b * Z.of_nat 1 - 1)) by (apply Z.pow_nonneg; lia).
        destruct (w =? 32); repeat (apply Z.add_nonneg_nonneg || apply Z.mul_nonneg_nonneg || lia).
      * pose proof (nonzeros_le (removelast (map (as_double w) lwe))) as L. assert (length (removelast (map (as_double w) lwe)) = n); [|lia].
        destruct Wl as [Lw _]. destruct (snoc_dec lwe n Lw) as (m & y & -> & Lm). rewrite map_app. cbn [map]. rewrite removelast_last, map_length. exact Lm.
    + destruct (rounded_phase w s lwe Hw Hs Wl) as (er & Her & Hph). set (rd := map (as_double w) lwe) in *.
      pose proof (phase_word w s rd ltac:(lia)) as Pr. set (pr := phase w s rd) in *. set (ph := phase w s lwe) in *. clearbody pr ph. set (D := (Z.of_nat n + 1) * rounding w) in *.
      pose proof (pow2_pos w ltac:(lia)) as Hp. pose proof (half_double w ltac:(lia)) as Hh.
      assert (HD : 0 <= M - D).
      { clear - HM Hp HH. assert (0 <= 2 ^ w * (Z.of_nat n + 1)) by (apply Z.mul_nonneg_nonneg; lia). destruct (Z.le_gt_cases 0 (M - D)) as [X|X]; [exact X|]. assert (4 * Z.of_nat N * (M - D) < 0) by (apply Z.mul_pos_neg; lia). lia. }
      assert (Ex : D <= M -> M <= ph < 2 ^ w - M -> pr = ph + er).
      { intros _ X. unfold eqm in Hph. rewrite (Z.mod_small pr) in Hph by exact Pr. rewrite Z.mod_small in Hph by (clear - X Her HD; lia). exact Hph. }
      split; intros X.
      * assert (E : pr = ph + er) by (apply Ex; clear - X HD Hh Hp; lia). rewrite (Hval v); [apply eqm_mod|]. intros j Hj. apply (WopBitsTheorems.lut_const N v j ltac:(lia)).
        assert (Y : M - D <= pr < 2 ^ (w - 1) - (M - D)) by (clear - E Her X; lia). clear - Hj Y HM Hp Hh HH. set (G := M - D) in *. clearbody G. nia.
      * assert (E : pr = ph + er) by (apply Ex; clear - X HD Hh Hp; lia). rewrite (Hval (- v)); [apply eqm_mod|]. intros j Hj. apply (WopBitsTheorems.lut_const N v j ltac:(lia)).
        assert (Y : 2 ^ (w - 1) + (M - D) <= pr < 2 ^ w - (M - D)) by (clear - E Her X; lia). clear - Hj Y HM Hp Hh HH. set (G := M - D) in *. clearbody G. nia.
Qed.

(** The keyswitch of bit number [bit] *)
Definition switch (x : bits_hardware) (bit : nat) (after before : list Z) : outcome (list Z) :=
  host_keyswitch w max_shared (x_keyswitch x bit) (x_shared x bit) after before (concat (concat ksk)) (k * N) n ks_b ks_l 1.
Lemma switch_ok x bit after before : bits_hardware_ok x -> length after = S n -> lwe_wf w (k * N) before ->
  exists good r, keyswitch_ciphertext Release w ks_b ks_l n ksk (repeat 0 (S n)) before = Ret good /\ switch x bit after before = Ret r /\ length r = S n /\
    same_but_body w n (last before 0) good r /\ ((n mod 128 = 0)%nat -> r = good) /\
    ((n mod 128 <> 0)%nat -> x_keyswitch x bit 0%nat = [] -> nth n r 0 = (nth n good 0 - last before 0) mod 2 ^ w).
Proof.
  intros (_ & _ & _ & Hsh) La Wb. pose proof kN0 as K0. pose proof Lbig as LB.
  assert (Kl : length ksk = (k * N)%nat) by (destruct Hksk as [Hl _]; congruence).
  assert (Kw : Forall (fun block => length block = ks_l /\ Forall (lwe_wf w n) block) ksk).
  { destruct Hksk as [_ Hr]. apply Forall_forall. intros block Hin. destruct (In_nth_error _ _ Hin) as (i & Hi). destruct (Hr i block Hi) as [Hl Hrow]. split; [exact Hl|].
    apply Forall_forall. intros row Hrw. destruct (In_nth_error _ _ Hrw) as (j & Hj). apply (Hrow j row Hj). }
  destruct (block_run_ok Release w ks_b ks_l (k * N) n ksk Hdk Kl Kw Hksmall K0 before (x_shared x bit 0%nat) (repeat 0 (S n)) (x_keyswitch x bit 0%nat) Wb (Hsh bit 0%nat) (repeat_length _ _))
    as (good & r & E1 & E2 & E3 & E4 & E5).
  exists good, r. split; [exact E1|]. split.
  - unfold switch, host_keyswitch. destruct Wb as [Lb0 _]. rewrite Lb0, La, !Nat.mul_1_l, !Nat.leb_refl. cbn [andb assert_].
    replace (Z.of_nat (S n)) with (Z.of_nat n + 1) by lia. change (1 <=? Z.of_nat 1) with true. change (Z.of_nat 1 <? 2 ^ 31) with true.
    destruct (Z.leb_spec (w / 8 * (Z.of_nat n + 1)) max_shared); [|lia]. cbn [andb assert_ obind seq omap]. change (0 * S (k * N))%nat with 0%nat. change (skipn 0 before) with before.
    rewrite firstn_all2 by lia. rewrite E2. cbn [obind concat]. rewrite app_nil_r. rewrite skipn_all2 by lia. rewrite app_nil_r. reflexivity.
  - split; [apply E3|]. split; [exact E3|]. split; [exact E4|exact E5].
Qed.
Lemma gpu_keyswitches x bit : bits_hardware_ok x -> (n mod 128 = 0)%nat -> keyswitches w big s (keyswitch_error w ks_b (k * N) ks_l gamma) (switch x bit).
Proof.
  intros Hx H128 after before La Wb. rewrite Lbig in Wb. destruct (switch_ok x bit after before Hx La Wb) as (good & r & E1 & E2 & _ & _ & E4 & _). specialize (E4 H128). subst r.
  pose proof (lwe_keyswitches Release w ks_b ks_l big s noise gamma ksk Hdk Hksk (binary_big N key Hkey) ltac:(rewrite Lbig; exact Hgamma)) as K. rewrite Lbig in K.
  destruct (K (repeat 0 (S n)) before (repeat_length _ _) ltac:(rewrite Lbig; exact Wb)) as (o & e & Eo & Wo & He & Hp). assert (o = good) by congruence. subst o. exists good, e. auto.
Qed.

Lemma one_shl_ok v : 0 <= v < 64 -> one_shl w (CudaModel.u32 v) = Ret (2 ^ v mod 2 ^ w).
Proof. intros Hv. unfold CudaModel.u32. rewrite Z.mod_small by lia. unfold one_shl. destruct (Z.ltb_spec v 64); [reflexivity|lia]. Qed.
Definition shift_by (sh : Z) (c : list Z) : list Z := map (fun v => wmul w v (2 ^ sh mod 2 ^ w)) c.
Lemma shift_by_wf sh c d : lwe_wf w d c -> lwe_wf w d (shift_by sh c).
Proof. intros [L F]. split; [unfold shift_by; rewrite map_length; exact L|]. apply Forall_map, Forall_forall. intros v _. apply wmul_word. pose proof w32. lia. Qed.

(** When the dimension of the output is not a multiple of 128, there are schedules for which a ciphertext that is just an encoding of the bit 1, with no
    mask and no noise, is extracted as the bit 0 (C59_block_any_dimension_refuted). *)
Theorem C69_any_dimension_refuted : forall x delta out, bits_hardware_ok x -> (n mod 128 <> 0)%nat -> 0 <= delta < w -> length out = S n ->
  let x0 := BitsHardware (x_first x) (x_order x) (fun _ _ => []) (x_shared x) (x_pbs x) (x_private x) (x_memory x) in
  let lwe := repeat 0 (k * N) ++ [2 ^ delta] in
  bits_hardware_ok x0 /\ lwe_wf w (k * N) lwe /\ phase w big lwe = 1 * 2 ^ delta /\
  exists r e, extract x0 delta 1 out lwe = Ret r /\ Z.abs e <= keyswitch_error w ks_b (k * N) ks_l gamma /\ phase w s r = (0 * 2 ^ (w - 1) + e) mod 2 ^ w.
Proof.
  intros x delta out Hx H128 Hdl Lo x0 lwe. assert (Hx0 : bits_hardware_ok x0) by exact Hx. pose proof Hx0 as (Hfirst & Horder & _). pose proof w32 as W32. assert (W64 : w <= 64) by (destruct Hw as [-> | ->]; lia).
  assert (HT : (0 < T)%nat) by apply Hshape. assert (HTo : (opt * T = H)%nat) by apply Hshape.
  assert (P2 : 0 < 2 ^ delta < 2 ^ w) by (split; [apply pow2_pos; lia|apply Z.pow_lt_mono_r; lia]).
  assert (Ll : length lwe = S (k * N)) by (unfold lwe; rewrite app_length, repeat_length; cbn [length]; lia).
  assert (Wl : lwe_wf w (k * N) lwe).
  { split; [exact Ll|]. apply Forall_app. split; [apply Forall_forall; intros z Hz; apply repeat_spec in Hz; subst z; split; [discriminate|lia]|constructor; [split; lia|constructor]]. }
  assert (Dz : forall l q, dot (repeat 0 q) l = 0) by (clear; induction l as [|y l IH]; intros [|q]; try reflexivity; cbn [repeat dot]; rewrite IH; reflexivity).
  split; [exact Hx0|]. split; [exact Wl|].
  split; [unfold LweSpec.phase, lwe; rewrite last_last, removelast_last, Dz, Z.sub_0_r, Z.mul_1_l; apply Z.mod_small; lia|].
  unfold extract, host_extract_bits. rewrite one_shl_ok by lia. cbn [obind]. rewrite Ll. replace (k * N + 1)%nat with (S (k * N)) by lia.
  rewrite Nat.leb_refl. cbn [assert_ obind]. rewrite firstn_all2 by lia.
  rewrite (copy_and_shift_ok w x0 H T opt k HT HTo Hk0 Hfirst Horder) by (exact Ll || apply repeat_length). cbn [obind bits_loop].
  change (map (fun v => wmul w v (2 ^ (w - delta - 1) mod 2 ^ w)) lwe) with (shift_by (w - delta - 1) lwe). set (sh := w - delta - 1).
  assert (Wsh : lwe_wf w (k * N) (shift_by sh lwe)) by (apply shift_by_wf, Wl).
  assert (Eb : eqm (2 ^ w) (last (shift_by sh lwe) 0) (2 ^ (w - 1)) /\ eqm (2 ^ w) (phase w big (shift_by sh lwe)) (2 ^ (w - 1))).
  { assert (E1 : eqm (2 ^ w) (last (shift_by sh lwe) 0) (2 ^ (w - 1))).
    { unfold shift_by, lwe. rewrite map_app. cbn [map]. rewrite last_last, wmul_eqm, eqm_mod, <- Z.pow_add_r by (unfold sh; lia). apply eqm_eq. f_equal. unfold sh. lia. }
    split; [exact E1|]. rewrite phase_eqm. revert E1. unfold shift_by, lwe. rewrite map_app. cbn [map]. rewrite last_last, raw_snoc. intros E1.
    assert (Ez : map (fun v => wmul w v (2 ^ sh mod 2 ^ w)) (repeat 0 (k * N)) = repeat 0 (k * N)) by (generalize (k * N)%nat as q; induction q as [|q IH]; [reflexivity|]; cbn [repeat map]; rewrite IH; reflexivity).
    rewrite Ez, Dz, Z.sub_0_r. exact E1. }
  destruct Eb as [Eb Ep].
  destruct (switch_ok x0 0 (repeat 0 (n + 1)) (shift_by sh lwe) Hx0 ltac:(rewrite repeat_length; lia) Wsh) as (good & r & E1 & E2 & Lr & (Lg & _ & Fm & _) & _ & E5). specialize (E5 H128 eq_refl).
  unfold switch in E2. rewrite E2. cbn [obind]. replace (n + 1)%nat with (S n) by lia. change (1 - 0 - 1)%nat with 0%nat.
  pose proof (copy_small_ok w x0 H T opt k HT HTo Hk0 Horder 0 [] out [] r (S n) 0 eq_refl Lo Lr) as Ec. cbn [app] in Ec. rewrite !app_nil_r in Ec. rewrite Ec. cbn [obind].
  change (Nat.eqb 0 (1 - 1)) with true. cbv iota.
  pose proof (lwe_keyswitches Release w ks_b ks_l big s noise gamma ksk Hdk Hksk (binary_big N key Hkey) ltac:(rewrite Lbig; exact Hgamma)) as K. rewrite Lbig in K.
  destruct (K (repeat 0 (S n)) (shift_by sh lwe) (repeat_length _ _) ltac:(rewrite Lbig; exact Wsh)) as (o & e & Eo & Wo & He & Hp). assert (o = good) by congruence. subst o.
  exists r, e. split; [reflexivity|]. split; [exact He|].
  destruct (snoc_dec good n Lg) as (mg & bg & -> & Lm). destruct (snoc_dec r n Lr) as (m' & b' & -> & Lm'). rewrite !firstn_snoc in Fm by assumption. subst m'.
  assert (Nl : forall (y : Z), nth n (mg ++ [y]) 0 = y) by (intros y; rewrite app_nth2, Lm, Nat.sub_diag by lia; reflexivity). rewrite !Nl in E5. apply phase_eq. rewrite raw_snoc, E5.
  rewrite phase_eqm, raw_snoc, Ep in Hp. rewrite eqm_mod. replace (bg - last (shift_by sh lwe) 0 - dot mg s) with ((bg - dot mg s) - last (shift_by sh lwe) 0) by ring.
  rewrite Hp, Eb. apply eqm_eq. ring.
Qed.
(** With a scaling of 1 and at least two bits, the shift by delta_log - 1 is undefined, for every input and every schedule. *)
Theorem C69_delta_zero_refuted : forall x count out lwe, bits_hardware_ok x -> (1 < count)%nat -> length out = (count * S n)%nat -> lwe_wf w (k * N) lwe ->
  extract x 0 count out lwe = Panic.
Proof.
  intros x count out lwe Hx Hc Lo Wl. pose proof Hx as (Hfirst & Horder & _). pose proof w32 as W32. assert (W64 : w <= 64) by (destruct Hw as [-> | ->]; lia).
  assert (HT : (0 < T)%nat) by apply Hshape. assert (HTo : (opt * T = H)%nat) by apply Hshape. pose proof Wl as [Ll _].
  unfold extract, host_extract_bits. rewrite one_shl_ok by lia. cbn [obind]. rewrite Ll. replace (k * N + 1)%nat with (S (k * N)) by lia.
  rewrite Nat.leb_refl. cbn [assert_ obind]. rewrite firstn_all2 by lia.
  rewrite (copy_and_shift_ok w x H T opt k HT HTo Hk0 Hfirst Horder) by (exact Ll || apply repeat_length). cbn [obind].
  change (map (fun v => wmul w v (2 ^ (w - 0 - 1) mod 2 ^ w)) lwe) with (shift_by (w - 0 - 1) lwe). set (sh := w - 0 - 1).
  destruct count as [|c]; [lia|]. cbn [bits_loop].
  destruct (switch_ok x 0 (repeat 0 (n + 1)) (shift_by sh lwe) Hx ltac:(rewrite repeat_length; lia) (shift_by_wf _ _ _ Wl)) as (good & r & _ & E2 & Lr & _).
  unfold switch in E2. rewrite E2. cbn [obind]. replace (n + 1)%nat with (S n) by lia.
  pose proof (copy_small_ok w x H T opt k HT HTo Hk0 Horder 0 (firstn (c * S n) out) (skipn (c * S n) out) [] r (S n) c) as Ec. rewrite !app_nil_r, firstn_skipn in Ec.
  replace (S c - 0 - 1)%nat with c by lia. rewrite Ec; [|rewrite firstn_length; nia|rewrite skipn_length; nia|exact Lr]. cbn [obind].
  destruct (Nat.eqb_spec 0 (S c - 1)) as [X|_]; [lia|]. unfold one_shl at 1. destruct (Z.ltb_spec (w - 2) 64) as [_|]; [|lia]. cbn [obind].
  rewrite (gpu_add_to_body_ok w x H T opt k HT HTo Hk0 Horder) by exact Lr. destruct (snoc_dec r n Lr) as (mr & br & -> & _). unfold add_to_body. rewrite split_last_snoc. cbn [obind].
  reflexivity.
Qed.

Context (delta m e0 : Z) (count : nat).
Notation Eks := (keyswitch_error w ks_b (k * N) ks_l gamma).
Notation Ebs := bootstrap_noise.
Hypothesis (Hcount : (0 < count)%nat) (Hd0 : 0 <= delta) (Hdelta : (1 < count)%nat -> 0 < delta) (Hdc : delta + Z.of_nat count <= w).
Hypothesis (Hmargin : forall i, 0 <= i < Z.of_nat count - 1 -> bit_noise delta e0 i + M < 2 ^ (w - 2)).

Lemma M0 : 0 <= M.
Proof.
  pose proof w32. pose proof H1. pose proof (pow2_pos w ltac:(lia)) as Hp. set (D := (Z.of_nat n + 1) * rounding w) in *. assert (HD0 : 0 <= D) by (apply Z.mul_nonneg_nonneg; [lia|destruct Hw as [-> | ->]; discriminate]).
  assert (0 <= 2 ^ w * (Z.of_nat n + 1)) by (apply Z.mul_nonneg_nonneg; lia). destruct (Z.le_gt_cases 0 (M - D)) as [X|X]; [lia|]. assert (4 * Z.of_nat N * (M - D) < 0) by (apply Z.mul_pos_neg; lia). lia.
Qed.

(** [lia] without the hypotheses about phases and noises *)
Local Ltac ix := repeat match goal with
  | H : context [Z.abs _] |- _ => clear H
  | H : context [eqm _ _ _] |- _ => clear H
  end; lia.

(** The bits [i], [i + 1], ...: they are written from the last of the ciphertexts [low] to the first. *)
Lemma bits_loop_ok x : bits_hardware_ok x -> (n mod 128 = 0)%nat -> forall todo i low rest state kb lut_body err,
  (i + todo = count)%nat -> length low = todo -> Forall (fun o => length o = S n) low -> lwe_wf w (k * N) state -> length kb = S n -> length lut_body = N ->
  eqm (2 ^ w) (phase w big state) (m / 2 ^ Z.of_nat i * 2 ^ (delta + Z.of_nat i) + err) -> Z.abs err <= e0 + Z.of_nat i * Ebs ->
  exists res, bits_loop w x H T opt k ok pbs_b 1 max_shared ks_b ks_l (concat (concat ksk)) (k * N) n count delta todo i (concat low ++ rest) state
      (shift_by (w - delta - Z.of_nat i - 1) state) kb (repeat 0 (k * N) ++ lut_body) = Ret (concat (rev res) ++ rest) /\ length res = todo /\
    forall t o, nth_error res t = Some o -> lwe_wf w n o /\
      exists e, Z.abs e <= bit_noise delta e0 (Z.of_nat i + Z.of_nat t) /\
        eqm (2 ^ w) (phase w s o) (m / 2 ^ (Z.of_nat i + Z.of_nat t) mod 2 * 2 ^ (w - 1) + e).
Proof.
  intros Hx H128. pose proof Hx as (Hfirst & Horder & _). pose proof w32 as W32. assert (W64 : w <= 64) by (destruct Hw as [-> | ->]; lia).
  assert (HT : (0 < T)%nat) by apply Hshape.
  assert (HTo : (opt * T = H)%nat) by apply Hshape.
  induction todo as [|todo IH]; intros i low rest state kb lut_body err Hit Ll Fl Wst Lkb Llut Hph Herr.
  { exists []. destruct low; [|discriminate]. split; [reflexivity|]. split; [reflexivity|]. intros t o Ht. destruct t; discriminate. }
  cbn [bits_loop]. set (sh := w - delta - Z.of_nat i - 1). assert (Hsh : 0 <= sh < w) by (subst sh; ix).
  assert (Wsh : lwe_wf w (k * N) (shift_by sh state)) by (apply shift_by_wf, Wst).
  assert (Hps : eqm (2 ^ w) (phase w big (shift_by sh state)) (m / 2 ^ Z.of_nat i * 2 ^ (w - 1) + err * 2 ^ sh)).
  { rewrite phase_eqm. unfold shift_by. rewrite (raw_map (2 ^ w) _ (2 ^ sh) (k * N)); [|intros v; rewrite wmul_eqm, eqm_mod; apply eqm_eq; ring|apply Wst].
    rewrite <- (phase_eqm w big state), Hph. apply eqm_eq. rewrite Z.mul_add_distr_l.
    replace (2 ^ (w - 1)) with (2 ^ sh * 2 ^ (delta + Z.of_nat i)) by (rewrite <- Z.pow_add_r by (subst sh; ix); f_equal; subst sh; clear; lia). ring. }
  destruct (gpu_keyswitches x i Hx H128 kb (shift_by sh state) Lkb ltac:(rewrite Lbig; exact Wsh)) as (kb' & e1 & Ek & Wkb & He1 & Hpk). unfold switch in Ek. rewrite Ek. cbn [obind].
  destruct (snoc_dec low _ Ll) as (low' & o1 & -> & Ll'). apply Forall_app in Fl. destruct Fl as [Fl' Fo]. apply Forall_inv in Fo.
  rewrite concat_app, <- app_assoc. cbn [concat]. rewrite app_nil_r. replace (n + 1)%nat with (S n) by lia.
  rewrite (copy_small_ok w x H T opt k HT HTo Hk0 Horder i (concat low') o1 rest kb' (S n) (count - i - 1)); [|rewrite (CudaFacts.concat_len (S n)) by exact Fl'; f_equal; ix|exact Fo|apply Wkb].
  cbn [obind].
  assert (Hshe : Z.abs (err * 2 ^ sh) <= (e0 + Z.of_nat i * Ebs) * 2 ^ sh).
  { rewrite Z.abs_mul, (Z.abs_eq (2 ^ sh)) by (apply Z.pow_nonneg; clear; lia). apply Z.mul_le_mono_nonneg_r; [apply Z.pow_nonneg; clear; lia|exact Herr]. }
  assert (Hk1 : eqm (2 ^ w) (phase w s kb') (m / 2 ^ Z.of_nat i * 2 ^ (w - 1) + (err * 2 ^ sh + e1))).
  { rewrite Hpk, Hps. apply eqm_eq. ring. }
  assert (Hr : Z.abs (err * 2 ^ sh + e1) <= bit_noise delta e0 (Z.of_nat i)).
  { unfold bit_noise, extract_error. fold sh. clear - He1 Hshe. set (A := err * 2 ^ sh) in *. set (C := (e0 + Z.of_nat i * Ebs) * 2 ^ sh) in *. clearbody A C. lia. }
  assert (Hbit : eqm (2 ^ w) (phase w s kb') (m / 2 ^ Z.of_nat i mod 2 * 2 ^ (w - 1) + (err * 2 ^ sh + e1))).
  { rewrite Hk1. rewrite (Z.div_mod (m / 2 ^ Z.of_nat i) 2) at 1 by (clear; lia). rewrite (half_double w) by ix.
    unfold eqm. rewrite <- (Z.mod_add (m / 2 ^ Z.of_nat i mod 2 * 2 ^ (w - 1) + (err * 2 ^ sh + e1)) (m / 2 ^ Z.of_nat i / 2)) by (pose proof (pow2_pos (w - 1) ltac:(ix)) as HH; clear - HH; lia).
    f_equal. ring. }
  destruct (Nat.eqb_spec i (count - 1)) as [Hlast|Hlast].
  - exists [kb']. assert (todo = 0%nat) by ix. subst todo. destruct low'; [|discriminate]. cbn [concat app rev]. rewrite app_nil_r. split; [reflexivity|]. split; [reflexivity|].
    intros t o Ht. destruct t as [|t]; [|destruct t; discriminate]. cbn in Ht. injection Ht as <-. split; [exact Wkb|].
    exists (err * 2 ^ sh + e1). change (Z.of_nat 0) with 0. rewrite Z.add_0_r. split; [exact Hr|exact Hbit].
  - unfold one_shl at 1. destruct (Z.ltb_spec (w - 2) 64) as [_|]; [|ix]. cbn [obind]. rewrite (gpu_add_to_body_ok w x H T opt k HT HTo Hk0 Horder) by apply Wkb.
    destruct (add_to_body_ok w s kb' n (2 ^ (w - 2) mod 2 ^ w) ltac:(ix) Wkb) as (kb2 & -> & Wkb2 & Hk2). cbn [obind].
    rewrite one_shl_ok by ix. cbn [obind]. set (alpha := 2 ^ (delta - 1 + Z.of_nat i) mod 2 ^ w).
    assert (Halpha : eqm (2 ^ w) alpha (2 ^ (delta - 1 + Z.of_nat i))) by apply eqm_mod. clearbody alpha.
    rewrite (fill_lut_ok x H T opt k HT HTo Hk0 Horder i _ lut_body) by (exact Llut || apply repeat_length). cbn [obind].
    destruct (sign_of_bit w N (S k) s big M Ebs _ kb2 (repeat 0 (S (k * N))) (wneg w alpha) (m / 2 ^ Z.of_nat i) (err * 2 ^ sh + e1)
       (bit_noise delta e0 (Z.of_nat i)) ltac:(ix) (gpu_sign_bootstraps x i Hx)) as (pb2 & e2 & E2 & Wpb2 & He2 & Hp2); try assumption.
    { apply M0. }
    { rewrite Lbig. apply repeat_length. }
    { apply wneg_word. ix. }
    { rewrite Hk2, Hk1, eqm_mod. apply eqm_eq. ring. }
    { apply Hmargin. ix. }
    cbn beta in E2. rewrite concat_const in E2. rewrite E2. cbn [obind]. rewrite Lbig in Wpb2.
    rewrite one_shl_ok by ix. cbn [obind].
    destruct (add_to_body_ok w big pb2 (k * N) alpha ltac:(ix) Wpb2) as (pb3 & E3 & Wpb3 & Hp3).
    rewrite (add_sub_and_mul_ok w x H T opt k HT HTo Hk0 Horder i (shift_by sh state) state pb2 pb3 alpha _ (proj1 Wsh) (proj1 Wst) (proj1 Wpb2) E3). cbn [obind].
    change (map (fun v => wmul w v (2 ^ (w - delta - Z.of_nat i - 2) mod 2 ^ w)) (map2 (wsub w) state pb3)) with (shift_by (w - delta - Z.of_nat i - 2) (map2 (wsub w) state pb3)).
    replace (w - delta - Z.of_nat i - 2) with (w - delta - Z.of_nat (S i) - 1) by (clear; lia).
    destruct Wst as [Ls Fs]. destruct Wpb3 as [Lp Fp].
    destruct (IH (S i) low' (kb' ++ rest) (map2 (wsub w) state pb3) kb2 (repeat (wneg w alpha) N) (err - e2)) as (res & E4 & L4 & H4).
    + ix.
    + exact Ll'.
    + exact Fl'.
    + apply wf_map2; [intros; apply wsub_word; ix|assumption..].
    + apply Wkb2.
    + apply repeat_length.
    + rewrite (phase_sub w (k * N) big state pb3) by assumption. unfold eqm. rewrite Z.mod_mod by (pose proof (pow2_pos w ltac:(ix)) as HH; clear - HH; lia).
      fold (eqm (2 ^ w) (phase w big state - phase w big pb3) (m / 2 ^ Z.of_nat (S i) * 2 ^ (delta + Z.of_nat (S i)) + (err - e2))).
      rewrite Hph, Hp3, Hp2, wneg_eqm, Halpha. replace (Z.of_nat (S i)) with (Z.of_nat i + 1) by (clear; lia). set (zi := Z.of_nat i) in *.
      assert (Dp : 0 <= delta - 1 + zi) by (subst zi; ix). assert (Zi : 0 <= zi) by (subst zi; clear; lia).
      assert (D1 : m / 2 ^ (zi + 1) = m / 2 ^ zi / 2) by (rewrite Z.pow_add_r by (clear - Zi; lia); rewrite <- Z.div_div by first [clear; lia|apply Z.pow_nonzero; clear - Zi; lia|apply pow2_pos; clear - Zi; lia]; reflexivity).
      assert (D2 : 2 ^ (delta + (zi + 1)) = 4 * 2 ^ (delta - 1 + zi)) by (replace (delta + (zi + 1)) with (2 + (delta - 1 + zi)) by (clear; lia); rewrite Z.pow_add_r by (clear - Dp; lia); reflexivity).
      assert (D3 : 2 ^ (delta + zi) = 2 * 2 ^ (delta - 1 + zi)) by (rewrite (half_double (delta + zi)) by (clear - Dp; lia); do 2 f_equal; clear; lia).
      rewrite D1, D2, D3. set (u := 2 ^ (delta - 1 + zi)). set (v := m / 2 ^ zi).
      apply eqm_eq. rewrite (Z.div_mod v 2) at 1 by (clear; lia). ring.
    + clear - Herr He2. replace (Z.of_nat (S i)) with (Z.of_nat i + 1) by lia. lia.
    + rewrite E4. exists (kb' :: res). cbn [rev]. rewrite concat_app. cbn [concat]. rewrite app_nil_r, <- app_assoc. split; [reflexivity|]. split; [cbn; congruence|].
      intros t o Ht. destruct t as [|t].
      * cbn in Ht. injection Ht as <-. split; [exact Wkb|]. exists (err * 2 ^ sh + e1). change (Z.of_nat 0) with 0. rewrite Z.add_0_r. split; [exact Hr|exact Hbit].
      * cbn in Ht. destruct (H4 t o Ht) as (Wo & e & He & Ho). split; [exact Wo|]. exists e.
        replace (Z.of_nat i + Z.of_nat (S t)) with (Z.of_nat (S i) + Z.of_nat t) by (clear; lia). split; assumption.
Qed.

(** [m] is any integer encrypted with scaling 2^delta and noise at most [e0].  Whatever the order of the threads, the schedules of the blocks, the
    shared memory and the memory left by other launches, the [count] ciphertexts written, under [s], encrypt the bits count - 1, ..., 0 of [m], each at
    the top of the word. *)
Theorem C69_extract_bits : forall x outs lwe err, bits_hardware_ok x -> (n mod 128 = 0)%nat ->
  length outs = count -> Forall (fun o => length o = S n) outs -> lwe_wf w (k * N) lwe -> phase w big lwe = (m * 2 ^ delta + err) mod 2 ^ w -> Z.abs err <= e0 ->
  exists bits, extract x delta count (concat outs) lwe = Ret (concat bits) /\ length bits = count /\
    forall t o, nth_error bits t = Some o -> let i := Z.of_nat count - 1 - Z.of_nat t in
      lwe_wf w n o /\ exists e, Z.abs e <= bit_noise delta e0 i /\ phase w s o = (Z.b2z (Z.testbit m i) * 2 ^ (w - 1) + e) mod 2 ^ w.
Proof.
  intros x outs lwe err Hx H128 Lo Fo Wl Hph Herr. pose proof Hx as (Hfirst & Horder & _). pose proof w32 as W32. assert (W64 : w <= 64) by (destruct Hw as [-> | ->]; lia).
  assert (HT : (0 < T)%nat) by apply Hshape. assert (HTo : (opt * T = H)%nat) by apply Hshape.
  unfold extract, host_extract_bits. rewrite one_shl_ok by lia. cbn [obind]. pose proof Wl as [Ll _]. rewrite Ll. replace (k * N + 1)%nat with (S (k * N)) by lia.
  rewrite Nat.leb_refl. cbn [assert_ obind]. rewrite firstn_all2 by lia.
  rewrite (copy_and_shift_ok w x H T opt k HT HTo Hk0 Hfirst Horder) by (exact Ll || apply repeat_length). cbn [obind].
  replace (repeat 0 ((k + 1) * N)) with (repeat 0 (k * N) ++ repeat 0 N) by (rewrite <- repeat_app; f_equal; lia).
  change (map (fun v => wmul w v (2 ^ (w - delta - 1) mod 2 ^ w)) lwe) with (shift_by (w - delta - 1) lwe).
  destruct (bits_loop_ok x Hx H128 count 0 outs [] lwe (repeat 0 (n + 1)) (repeat 0 N) err) as (res & E & L & X); [lia|exact Lo|exact Fo|exact Wl| | | | |].
  - rewrite repeat_length. lia.
  - apply repeat_length.
  - rewrite Hph, eqm_mod. apply eqm_eq. change (Z.of_nat 0) with 0. rewrite Z.pow_0_r, Z.div_1_r, Z.add_0_r. reflexivity.
  - change (Z.of_nat 0) with 0. lia.
  - exists (rev res). change (Z.of_nat 0) with 0 in *. rewrite Z.sub_0_r in E. rewrite !app_nil_r in E. split; [exact E|]. split; [rewrite rev_length; exact L|].
    intros t o Ht. set (i := Z.of_nat count - 1 - Z.of_nat t). assert (Ht' : (t < length (rev res))%nat) by (apply nth_error_Some; congruence). rewrite rev_length in Ht'.
    rewrite (nth_error_nth' _ []) in Ht by (rewrite rev_length; exact Ht'). rewrite rev_nth in Ht by exact Ht'.
    assert (Ho : nth_error res (length res - S t) = Some o) by (rewrite (nth_error_nth' _ []) by lia; exact Ht). destruct (X _ o Ho) as (Wo & e & He & Hp).
    rewrite Z.add_0_l in He, Hp. assert (Ei : Z.of_nat (length res - S t) = i) by (unfold i; clear - L Ht'; lia). assert (Hi0 : 0 <= i) by (rewrite <- Ei; clear; lia).
    clearbody i. rewrite Ei in He, Hp. split; [exact Wo|]. exists e. split; [exact He|].
    rewrite (phase_of_eqm w s o _ ltac:(lia) Hp). rewrite Z.testbit_spec' by exact Hi0. reflexivity.
Qed.
(** Bit [i] decrypts from the ciphertext number count - 1 - i, when its noise is below a quarter of the torus. *)
Theorem C69_decrypts : forall x outs lwe err, bits_hardware_ok x -> (n mod 128 = 0)%nat ->
  length outs = count -> Forall (fun o => length o = S n) outs -> lwe_wf w (k * N) lwe -> phase w big lwe = (m * 2 ^ delta + err) mod 2 ^ w -> Z.abs err <= e0 ->
  exists bits, extract x delta count (concat outs) lwe = Ret (concat bits) /\ length bits = count /\
    forall i, 0 <= i < Z.of_nat count -> bit_noise delta e0 i < 2 ^ (w - 2) ->
      let c := nth (count - 1 - Z.to_nat i) bits [] in (2 ^ (w - 2) <=? phase w s c) && (phase w s c <? 3 * 2 ^ (w - 2)) = Z.testbit m i.
Proof.
  intros x outs lwe err Hx H128 Lo Fo Wl Hph Herr. destruct (C69_extract_bits x outs lwe err Hx H128 Lo Fo Wl Hph Herr) as (bits & E & L & X). exists bits. split; [exact E|]. split; [exact L|].
  intros i Hi Hn c. pose proof w32 as W32. pose proof (half_double w ltac:(lia)) as D1. pose proof (quarter_double w ltac:(lia)) as D2. pose proof (pow2_pos (w - 2) ltac:(lia)) as Hq.
  destruct (X (count - 1 - Z.to_nat i)%nat c) as (_ & e & He & Hp); [apply nth_error_nth'; lia|].
  assert (Ei : Z.of_nat count - 1 - Z.of_nat (count - 1 - Z.to_nat i) = i) by (clear - Hi; lia). rewrite Ei in He, Hp. rewrite Hp. clear - He Hn D1 D2 Hq. set (q := 2 ^ (w - 2)) in *. rewrite D2 in *. rewrite D1. clearbody q.
  destruct (Z.testbit m i); cbn [Z.b2z].
  - rewrite Z.mod_small by lia. destruct (Z.leb_spec q (1 * (2 * q) + e)); [|lia]. destruct (Z.ltb_spec (1 * (2 * q) + e) (3 * q)); [reflexivity|lia].
  - destruct (Z.le_gt_cases 0 e) as [Y|Y].
    + rewrite Z.mod_small by lia. destruct (Z.leb_spec q (0 * (2 * q) + e)); [lia|reflexivity].
    + rewrite <- (Z_mod_plus_full _ 1), Z.mod_small by lia. destruct (Z.ltb_spec (0 * (2 * q) + e + 1 * (2 * (2 * q))) (3 * q)); [lia|]. apply andb_false_r.
Qed.
End Extract.
Print Assumptions C69_any_dimension_refuted.
Print Assumptions C69_delta_zero_refuted.
Print Assumptions C69_extract_bits.
Print Assumptions C69_decrypts.

(** A case: words of 64 bits, polynomials of 256 coefficients, 128 bits of key, two bits of message *)
Definition ex_s : list Z := repeat 1 128.
Definition ex_key : list (list Z) := [[1; 0; 1; 1] ++ repeat 0 252].
Definition ex_const (v : Z) : list Z := v :: repeat 0 255.
Definition ex_ggsw : list (list (list (list Z))) := [[[ex_const (2 ^ 44); repeat 0 256]; [repeat 0 256; ex_const (2 ^ 44)]]].
Definition ex_bsk : list (list (list (list (list Z)))) := repeat ex_ggsw 128.
Definition ex_row (v : Z) : list Z := repeat 0 128 ++ [v].
Definition ex_block (x : Z) : list (list Z) := [ex_row (x * 2 ^ 44); ex_row (x * 2 ^ 24)].
Definition ex_ksk : list (list (list Z)) := map ex_block (glwe_key_into_lwe_key ex_key).
Definition ex_size (_ : nat) : nat := Z.to_nat 70000.
Definition ex_memory : mem addr (val Rdefinitions.R) := layout 64 0%R 1%R Rplus Rmult Ropp 128 1 1 0 (key_to_double 64) exact_twiddle ex_bsk [].
Definition ex_hardware : bits_hardware :=
  BitsHardware (fun t => rev (seq 0 t)) (fun _ _ t => seq 0 t) (fun _ _ => [3; 1; 2]%nat) (fun _ _ => repeat 7 129) (fun _ => [(1, 2)]%nat) (fun _ _ => ex_memory) (fun _ => ex_memory).
Definition ex_lwe : list Z := repeat (2 ^ 61) 256 ++ [7 * 2 ^ 61 + 5].
Definition ex_M : Z := 2 ^ 54 * 129 + 129 * 1024.

Lemma zeros_words q : Forall (is_word 64) (repeat 0 q).
Proof. apply Forall_forall. intros z Hz. apply repeat_spec in Hz. subst z. split; [discriminate|reflexivity]. Qed.
Lemma ex_binary : binary_key 256 ex_key.
Proof. constructor; [split; [reflexivity|]|constructor]. apply Forall_app. split; [repeat (constructor; [lia|]); constructor|]. apply Forall_forall. intros z Hz. apply repeat_spec in Hz. lia. Qed.
Lemma ex_ggsw_ok : ggsw_wf 64 1 256 1 ex_ggsw /\ exists noise, ggsw_encrypts 64 20 256 ex_key 1 noise ex_ggsw /\
  forall j i, (j < 1)%nat -> (i <= 1)%nat -> rbound (2 ^ 64) 0 (R 256 (noise (S j) i)).
Proof.
  assert (Wz : poly_wf 64 256 (repeat 0 256)) by (split; [reflexivity|apply zeros_words]).
  assert (Wc : poly_wf 64 256 (ex_const (2 ^ 44))) by (split; [reflexivity|constructor; [split; [discriminate|reflexivity]|apply zeros_words]]).
  split. { split; [reflexivity|]. constructor; [|constructor]. split; [reflexivity|]. constructor; [split; [reflexivity|constructor; [exact Wc|constructor; [exact Wz|constructor]]]|].
    constructor; [split; [reflexivity|constructor; [exact Wz|constructor; [exact Wc|constructor]]]|constructor]. }
  exists (fun _ _ => repeat 0 256). split.
  - assert (Ec : req (2 ^ 64) (R 256 (ex_const (2 ^ 44))) (rconst 256 (2 ^ 44))) by (apply (PackingTheorems.R_first 256 (2 ^ 64) (2 ^ 44)); lia).
    intros j lev i row Hj Hi. destruct j as [|[|j]]; [|discriminate..]. injection Hj as <-. rewrite (R_zero 256 (2 ^ 64) 256).
    destruct i as [|[|[|i]]]; [| |discriminate..]; injection Hi as <-; unfold ggsw_row_value, ex_key; cbn [nth_error]; set (s0 := [1; 0; 1; 1] ++ repeat 0 252); change (2 ^ (64 - 20 * Z.of_nat 1)) with (2 ^ 44); unfold gphase; cbn [last removelast rdot].
    + rewrite Ec, rmul_const, (R_zero 256 (2 ^ 64) 256). generalize (R 256 s0). intros X y. apply eqm_eq. change (0 - (2 ^ 44 * rcoef X y + 0) = - (1 * 2 ^ 44) * rcoef X y + 0). ring.
    + pose proof (gphase_trivial 256 [s0] (ex_const (2 ^ 44)) (2 ^ 64)) as G. unfold gphase in G. cbn [length repeat app last removelast rdot] in G.
      transitivity (R 256 (ex_const (2 ^ 44))); [exact G|]. rewrite Ec, Z.mul_1_l. generalize (rconst 256 (2 ^ 44)). intros X y. apply eqm_eq. change (rcoef X y = rcoef X y + 0). ring.
  - intros j i _ _. eapply rbound_req; [symmetry; apply R_zero|apply rbound_zero].
Qed.
Lemma Forall2_repeat {A B} (P : A -> B -> Prop) a b q : P a b -> Forall2 P (repeat a q) (repeat b q).
Proof. intros X. induction q as [|q IH]; [constructor|]. cbn [repeat]. constructor; assumption. Qed.
Lemma ex_bsk_ok : bsk_encrypts 64 20 256 1 ex_key 0 ex_bsk ex_s.
Proof. apply Forall2_repeat. exact ex_ggsw_ok. Qed.
Lemma ex_ksk_ok : ksk_encrypts 64 20 2 ex_s (glwe_key_into_lwe_key ex_key) (fun _ _ => 0) ex_ksk.
Proof.
  pose proof (binary_big 256 ex_key ex_binary) as Hb. set (l := glwe_key_into_lwe_key ex_key) in *. change ex_ksk with (map ex_block l). clearbody l.
  split; [rewrite map_length; reflexivity|]. intros i block Hi. rewrite nth_error_map in Hi. destruct (nth_error l i) as [v|] eqn:Ev; [|discriminate]. injection Hi as <-.
  assert (Hv : v = 0 \/ v = 1) by (unfold binary in Hb; rewrite Forall_forall in Hb; apply Hb, (nth_error_In _ i), Ev). rewrite (nth_error_nth _ _ 0 Ev).
  assert (Hrow : forall y, is_word 64 y -> lwe_wf 64 (length ex_s) (ex_row y) /\ phase 64 ex_s (ex_row y) = (y + 0) mod 2 ^ 64).
  { intros y Hy. split; [split; [reflexivity|apply Forall_app; split; [apply zeros_words|constructor; [exact Hy|constructor]]]|].
    unfold LweSpec.phase, ex_row. rewrite last_last, removelast_last. replace (dot (repeat 0 128) ex_s) with 0 by (vm_compute; reflexivity). rewrite Z.sub_0_r, Z.add_0_r. reflexivity. }
  split; [reflexivity|]. intros j row Hj.
  destruct j as [|[|j]]; [| |destruct j; discriminate]; injection Hj as <-; apply Hrow; destruct Hv as [-> | ->]; split; vm_compute; (reflexivity || discriminate).
Qed.
Lemma ex_hardware_ok : bits_hardware_ok 64 128 ex_s ex_key ex_bsk ex_hardware.
Proof.
  split; [intros t; apply Permutation_sym, Permutation_rev|]. split; [intros b j t; apply Permutation_refl|]. split; [|intros b i; reflexivity].
  intros bit. exact (proj2 (layout_ok 64 0%R 1%R Rplus Rmult Ropp 128 1 1 0 (key_to_double 64) exact_twiddle ex_bsk [])).
Qed.
Lemma ex_noise i : 0 <= i < 2 -> bit_noise 64 128 ex_s ex_key 20 0 20 2 0 62 1000 i < 2 ^ 62.
Proof. intros Hi. assert (C : i = 0 \/ i = 1) by lia. destruct C as [-> | ->]; vm_compute; reflexivity. Qed.
Example C69_case : bits_hardware_ok 64 128 ex_s ex_key ex_bsk ex_hardware /\ phase 64 (glwe_key_into_lwe_key ex_key) ex_lwe = (2 * 2 ^ 62 + 5) mod 2 ^ 64 /\
  exists bits, extract 64 (fun _ => true) 128 64 2 ex_s ex_key 20 20 2 ex_ksk 1032 ex_hardware 62 2 (concat (repeat (repeat 0 129) 2)) ex_lwe = Ret (concat bits) /\ length bits = 2%nat /\
    forall i, 0 <= i < 2 -> let c := nth (1 - Z.to_nat i) bits [] in (2 ^ 62 <=? phase 64 ex_s c) && (phase 64 ex_s c <? 3 * 2 ^ 62) = Z.testbit 2 i.
Proof.
  assert (Hph : phase 64 (glwe_key_into_lwe_key ex_key) ex_lwe = (2 * 2 ^ 62 + 5) mod 2 ^ 64) by (vm_compute; reflexivity).
  split; [exact ex_hardware_ok|]. split; [exact Hph|].
  destruct (C69_decrypts 64 (fun _ => true) ex_size 128 64 2 ex_s ex_key 20 0 ex_bsk 20 2 0 (fun _ _ => 0) ex_ksk 1032 ex_M) with (delta := 62) (m := 2) (e0 := 1000) (count := 2%nat) (x := ex_hardware) (outs := repeat (repeat 0 129) 2) (lwe := ex_lwe) (err := 5)
    as (bits & E & L & X).
  - right. reflexivity.
  - split; [lia|]. split; [reflexivity|]. split; [reflexivity|]. exists 7%nat. split; [lia|reflexivity].
  - intros t r. reflexivity.
  - intros b i _. split; [reflexivity|]. intros. reflexivity.
  - lia.
  - unfold dec_wf. cbn [base_log level_count]. lia.
  - lia.
  - vm_compute. reflexivity.
  - lia.
  - exact ex_binary.
  - cbn. lia.
  - apply Forall_forall. intros z Hz. apply repeat_spec in Hz. right. exact Hz.
  - exact ex_bsk_ok.
  - change (length ex_key) with 1%nat. change (length ex_s) with 128%nat. unfold enough_for_blocks, ex_size. cbn [length]. repeat (split; [lia|]). split; [|lia].
    intros z Hz. assert (z = 0%nat) by lia. subst z. cbn [nth]. lia.
  - unfold dec_wf. cbn [base_log level_count]. lia.
  - exact ex_ksk_ok.
  - intros i j _ _. lia.
  - vm_compute. reflexivity.
  - vm_compute. discriminate.
  - vm_compute. discriminate.
  - lia.
  - lia.
  - lia.
  - lia.
  - intros i Hi. assert (i = 0) by lia. subst i. vm_compute. reflexivity.
  - exact ex_hardware_ok.
  - vm_compute. reflexivity.
  - reflexivity.
  - repeat (constructor; [reflexivity|]). constructor.
  - split; [vm_compute; reflexivity|]. apply Forall_app. split; [apply Forall_forall; intros z Hz; apply repeat_spec in Hz; subst z; split; [discriminate|reflexivity]|constructor; [split; [discriminate|reflexivity]|constructor]].
  - exact Hph.
  - lia.
  - exists bits. split; [exact E|]. split; [exact L|]. intros i Hi. exact (X i Hi (ex_noise i Hi)).
Qed.
